(** * AstTables: enums and name tables of src/ast.rs, transcribed by tools/gen_ast.py. *)

From Verif Require Import Str.

(** src/ast.rs:638-671  [enum Register] *)
Inductive reg :=
| Zero
| At
| V0
| V1
| A0
| A1
| A2
| A3
| T0
| T1
| T2
| T3
| T4
| T5
| T6
| T7
| S0
| S1
| S2
| S3
| S4
| S5
| S6
| S7
| T8
| T9
| K0
| K1
| Gp
| Sp
| Fp
| Ra.

(** Every value, in declaration order. *)
Definition all_reg : list reg :=
  [Zero; At; V0; V1; A0; A1; A2; A3; T0; T1; T2; T3; T4; T5; T6; T7; S0; S1; S2; S3; S4; S5; S6; S7; T8; T9; K0; K1; Gp; Sp; Fp; Ra].

(** src/ast.rs:638-671  strum [Display] text *)
Definition reg_name (o : reg) : str :=
  match o with
  | Zero => #"zero"
  | At => #"at"
  | V0 => #"v0"
  | V1 => #"v1"
  | A0 => #"a0"
  | A1 => #"a1"
  | A2 => #"a2"
  | A3 => #"a3"
  | T0 => #"t0"
  | T1 => #"t1"
  | T2 => #"t2"
  | T3 => #"t3"
  | T4 => #"t4"
  | T5 => #"t5"
  | T6 => #"t6"
  | T7 => #"t7"
  | S0 => #"s0"
  | S1 => #"s1"
  | S2 => #"s2"
  | S3 => #"s3"
  | S4 => #"s4"
  | S5 => #"s5"
  | S6 => #"s6"
  | S7 => #"s7"
  | T8 => #"t8"
  | T9 => #"t9"
  | K0 => #"k0"
  | K1 => #"k1"
  | Gp => #"gp"
  | Sp => #"sp"
  | Fp => #"fp"
  | Ra => #"ra"
  end.

(** src/ast.rs:638-671,678-680  the discriminant ([as u32]) *)
Definition reg_num (r : reg) : Z :=
  match r with
  | Zero => 0
  | At => 1
  | V0 => 2
  | V1 => 3
  | A0 => 4
  | A1 => 5
  | A2 => 6
  | A3 => 7
  | T0 => 8
  | T1 => 9
  | T2 => 10
  | T3 => 11
  | T4 => 12
  | T5 => 13
  | T6 => 14
  | T7 => 15
  | S0 => 16
  | S1 => 17
  | S2 => 18
  | S3 => 19
  | S4 => 20
  | S5 => 21
  | S6 => 22
  | S7 => 23
  | T8 => 24
  | T9 => 25
  | K0 => 26
  | K1 => 27
  | Gp => 28
  | Sp => 29
  | Fp => 30
  | Ra => 31
  end.

(** src/ast.rs:683-723  [TryFrom<u32> for Register]; the error carries the decimal text *)
Definition reg_try_from (n : Z) : outcome str reg :=
  match n with
  | 0 => Ok Zero
  | 1 => Ok At
  | 2 => Ok V0
  | 3 => Ok V1
  | 4 => Ok A0
  | 5 => Ok A1
  | 6 => Ok A2
  | 7 => Ok A3
  | 8 => Ok T0
  | 9 => Ok T1
  | 10 => Ok T2
  | 11 => Ok T3
  | 12 => Ok T4
  | 13 => Ok T5
  | 14 => Ok T6
  | 15 => Ok T7
  | 16 => Ok S0
  | 17 => Ok S1
  | 18 => Ok S2
  | 19 => Ok S3
  | 20 => Ok S4
  | 21 => Ok S5
  | 22 => Ok S6
  | 23 => Ok S7
  | 24 => Ok T8
  | 25 => Ok T9
  | 26 => Ok K0
  | 27 => Ok K1
  | 28 => Ok Gp
  | 29 => Ok Sp
  | 30 => Ok Fp
  | 31 => Ok Ra
  | e => Err (dec e)
  end.

(** src/ast.rs:725-777  the string arms of [FromStr for Register] *)
Definition reg_table : list (str * reg) :=
  [(#"zero", Zero);
   (#"r0", Zero);
   (#"at", At);
   (#"v0", V0);
   (#"v1", V1);
   (#"a0", A0);
   (#"a1", A1);
   (#"a2", A2);
   (#"a3", A3);
   (#"t0", T0);
   (#"t1", T1);
   (#"t2", T2);
   (#"t3", T3);
   (#"t4", T4);
   (#"t5", T5);
   (#"t6", T6);
   (#"t7", T7);
   (#"s0", S0);
   (#"s1", S1);
   (#"s2", S2);
   (#"s3", S3);
   (#"s4", S4);
   (#"s5", S5);
   (#"s6", S6);
   (#"s7", S7);
   (#"t8", T8);
   (#"t9", T9);
   (#"k0", K0);
   (#"k1", K1);
   (#"gp", Gp);
   (#"sp", Sp);
   (#"fp", Fp);
   (#"ra", Ra)].

(** src/ast.rs:793-826  [enum FloatRegister] *)
Inductive freg :=
| Fv0
| Fv0f
| Fv1
| Fv1f
| Ft0
| Ft0f
| Ft1
| Ft1f
| Ft2
| Ft2f
| Ft3
| Ft3f
| Fa0
| Fa0f
| Fa1
| Fa1f
| Ft4
| Ft4f
| Ft5
| Ft5f
| Fs0
| Fs0f
| Fs1
| Fs1f
| Fs2
| Fs2f
| Fs3
| Fs3f
| Fs4
| Fs4f
| Fs5
| Fs5f.

(** Every value, in declaration order. *)
Definition all_freg : list freg :=
  [Fv0; Fv0f; Fv1; Fv1f; Ft0; Ft0f; Ft1; Ft1f; Ft2; Ft2f; Ft3; Ft3f; Fa0; Fa0f; Fa1; Fa1f; Ft4; Ft4f; Ft5; Ft5f; Fs0; Fs0f; Fs1; Fs1f; Fs2; Fs2f; Fs3; Fs3f; Fs4; Fs4f; Fs5; Fs5f].

(** src/ast.rs:793-826  strum [Display] text *)
Definition freg_name (o : freg) : str :=
  match o with
  | Fv0 => #"fv0"
  | Fv0f => #"fv0f"
  | Fv1 => #"fv1"
  | Fv1f => #"fv1f"
  | Ft0 => #"ft0"
  | Ft0f => #"ft0f"
  | Ft1 => #"ft1"
  | Ft1f => #"ft1f"
  | Ft2 => #"ft2"
  | Ft2f => #"ft2f"
  | Ft3 => #"ft3"
  | Ft3f => #"ft3f"
  | Fa0 => #"fa0"
  | Fa0f => #"fa0f"
  | Fa1 => #"fa1"
  | Fa1f => #"fa1f"
  | Ft4 => #"ft4"
  | Ft4f => #"ft4f"
  | Ft5 => #"ft5"
  | Ft5f => #"ft5f"
  | Fs0 => #"fs0"
  | Fs0f => #"fs0f"
  | Fs1 => #"fs1"
  | Fs1f => #"fs1f"
  | Fs2 => #"fs2"
  | Fs2f => #"fs2f"
  | Fs3 => #"fs3"
  | Fs3f => #"fs3f"
  | Fs4 => #"fs4"
  | Fs4f => #"fs4f"
  | Fs5 => #"fs5"
  | Fs5f => #"fs5f"
  end.

(** src/ast.rs:793-826  the discriminant ([as u32]) *)
Definition freg_num (r : freg) : Z :=
  match r with
  | Fv0 => 0
  | Fv0f => 1
  | Fv1 => 2
  | Fv1f => 3
  | Ft0 => 4
  | Ft0f => 5
  | Ft1 => 6
  | Ft1f => 7
  | Ft2 => 8
  | Ft2f => 9
  | Ft3 => 10
  | Ft3f => 11
  | Fa0 => 12
  | Fa0f => 13
  | Fa1 => 14
  | Fa1f => 15
  | Ft4 => 16
  | Ft4f => 17
  | Ft5 => 18
  | Ft5f => 19
  | Fs0 => 20
  | Fs0f => 21
  | Fs1 => 22
  | Fs1f => 23
  | Fs2 => 24
  | Fs2f => 25
  | Fs3 => 26
  | Fs3f => 27
  | Fs4 => 28
  | Fs4f => 29
  | Fs5 => 30
  | Fs5f => 31
  end.

(** src/ast.rs:828-868  [TryFrom<u32> for FloatRegister]; the error carries the decimal text *)
Definition freg_try_from (n : Z) : outcome str freg :=
  match n with
  | 0 => Ok Fv0
  | 1 => Ok Fv0f
  | 2 => Ok Fv1
  | 3 => Ok Fv1f
  | 4 => Ok Ft0
  | 5 => Ok Ft0f
  | 6 => Ok Ft1
  | 7 => Ok Ft1f
  | 8 => Ok Ft2
  | 9 => Ok Ft2f
  | 10 => Ok Ft3
  | 11 => Ok Ft3f
  | 12 => Ok Fa0
  | 13 => Ok Fa0f
  | 14 => Ok Fa1
  | 15 => Ok Fa1f
  | 16 => Ok Ft4
  | 17 => Ok Ft4f
  | 18 => Ok Ft5
  | 19 => Ok Ft5f
  | 20 => Ok Fs0
  | 21 => Ok Fs0f
  | 22 => Ok Fs1
  | 23 => Ok Fs1f
  | 24 => Ok Fs2
  | 25 => Ok Fs2f
  | 26 => Ok Fs3
  | 27 => Ok Fs3f
  | 28 => Ok Fs4
  | 29 => Ok Fs4f
  | 30 => Ok Fs5
  | 31 => Ok Fs5f
  | e => Err (dec e)
  end.

(** src/ast.rs:870-921  the string arms of [FromStr for FloatRegister] *)
Definition freg_table : list (str * freg) :=
  [(#"f0", Fv0);
   (#"fv0", Fv0);
   (#"f1", Fv0f);
   (#"fv0f", Fv0f);
   (#"f2", Fv1);
   (#"fv1", Fv1);
   (#"f3", Fv1f);
   (#"fv1f", Fv1f);
   (#"f4", Ft0);
   (#"ft0", Ft0);
   (#"f5", Ft0f);
   (#"ft0f", Ft0f);
   (#"f6", Ft1);
   (#"ft1", Ft1);
   (#"f7", Ft1f);
   (#"ft1f", Ft1f);
   (#"f8", Ft2);
   (#"ft2", Ft2);
   (#"f9", Ft2f);
   (#"ft2f", Ft2f);
   (#"f10", Ft3);
   (#"ft3", Ft3);
   (#"f11", Ft3f);
   (#"ft3f", Ft3f);
   (#"f12", Fa0);
   (#"fa0", Fa0);
   (#"f13", Fa0f);
   (#"fa0f", Fa0f);
   (#"f14", Fa1);
   (#"fa1", Fa1);
   (#"f15", Fa1f);
   (#"fa1f", Fa1f);
   (#"f16", Ft4);
   (#"ft4", Ft4);
   (#"f17", Ft4f);
   (#"ft4f", Ft4f);
   (#"f18", Ft5);
   (#"ft5", Ft5);
   (#"f19", Ft5f);
   (#"ft5f", Ft5f);
   (#"f20", Fs0);
   (#"fs0", Fs0);
   (#"f21", Fs0f);
   (#"fs0f", Fs0f);
   (#"f22", Fs1);
   (#"fs1", Fs1);
   (#"f23", Fs1f);
   (#"fs1f", Fs1f);
   (#"f24", Fs2);
   (#"fs2", Fs2);
   (#"f25", Fs2f);
   (#"fs2f", Fs2f);
   (#"f26", Fs3);
   (#"fs3", Fs3);
   (#"f27", Fs3f);
   (#"fs3f", Fs3f);
   (#"f28", Fs4);
   (#"fs4", Fs4);
   (#"f29", Fs4f);
   (#"fs4f", Fs4f);
   (#"f30", Fs5);
   (#"fs5", Fs5);
   (#"f31", Fs5f);
   (#"fs5f", Fs5f)].

(** src/ast.rs:931-957  [enum Cop0Register] *)
Inductive c0reg :=
| C0_Index
| C0_Random
| C0_EntryLo0
| C0_EntryLo1
| C0_Context
| C0_PageMask
| C0_Wired
| C0_BadVAddr
| C0_Count
| C0_EntryHi
| C0_Compare
| C0_Status
| C0_Cause
| C0_Epc
| C0_PrId
| C0_Config
| C0_LLAddr
| C0_WatchLo
| C0_WatchHi
| C0_XContext
| C0_ParityError
| C0_CacheError
| C0_TagLo
| C0_TagHi
| C0_ErrorEPC.

(** Every value, in declaration order. *)
Definition all_c0reg : list c0reg :=
  [C0_Index; C0_Random; C0_EntryLo0; C0_EntryLo1; C0_Context; C0_PageMask; C0_Wired; C0_BadVAddr; C0_Count; C0_EntryHi; C0_Compare; C0_Status; C0_Cause; C0_Epc; C0_PrId; C0_Config; C0_LLAddr; C0_WatchLo; C0_WatchHi; C0_XContext; C0_ParityError; C0_CacheError; C0_TagLo; C0_TagHi; C0_ErrorEPC].

(** src/ast.rs:931-957  strum [Display] text (PascalCase as rendered by heck: LLAddr prints LlAddr, ErrorEPC prints ErrorEpc) *)
Definition c0reg_name (o : c0reg) : str :=
  match o with
  | C0_Index => #"Index"
  | C0_Random => #"Random"
  | C0_EntryLo0 => #"EntryLo0"
  | C0_EntryLo1 => #"EntryLo1"
  | C0_Context => #"Context"
  | C0_PageMask => #"PageMask"
  | C0_Wired => #"Wired"
  | C0_BadVAddr => #"BadVAddr"
  | C0_Count => #"Count"
  | C0_EntryHi => #"EntryHi"
  | C0_Compare => #"Compare"
  | C0_Status => #"Status"
  | C0_Cause => #"Cause"
  | C0_Epc => #"Epc"
  | C0_PrId => #"PrId"
  | C0_Config => #"Config"
  | C0_LLAddr => #"LlAddr"
  | C0_WatchLo => #"WatchLo"
  | C0_WatchHi => #"WatchHi"
  | C0_XContext => #"XContext"
  | C0_ParityError => #"ParityError"
  | C0_CacheError => #"CacheError"
  | C0_TagLo => #"TagLo"
  | C0_TagHi => #"TagHi"
  | C0_ErrorEPC => #"ErrorEpc"
  end.

(** src/ast.rs:931-957  the discriminant ([as u32]) *)
Definition c0reg_num (r : c0reg) : Z :=
  match r with
  | C0_Index => 0
  | C0_Random => 1
  | C0_EntryLo0 => 2
  | C0_EntryLo1 => 3
  | C0_Context => 4
  | C0_PageMask => 5
  | C0_Wired => 6
  | C0_BadVAddr => 8
  | C0_Count => 9
  | C0_EntryHi => 10
  | C0_Compare => 11
  | C0_Status => 12
  | C0_Cause => 13
  | C0_Epc => 14
  | C0_PrId => 15
  | C0_Config => 16
  | C0_LLAddr => 17
  | C0_WatchLo => 18
  | C0_WatchHi => 19
  | C0_XContext => 20
  | C0_ParityError => 26
  | C0_CacheError => 27
  | C0_TagLo => 28
  | C0_TagHi => 29
  | C0_ErrorEPC => 30
  end.

(** src/ast.rs:959-992  [TryFrom<u32> for Cop0Register]; the error carries the decimal text *)
Definition c0reg_try_from (n : Z) : outcome str c0reg :=
  match n with
  | 0 => Ok C0_Index
  | 1 => Ok C0_Random
  | 2 => Ok C0_EntryLo0
  | 3 => Ok C0_EntryLo1
  | 4 => Ok C0_Context
  | 5 => Ok C0_PageMask
  | 6 => Ok C0_Wired
  | 8 => Ok C0_BadVAddr
  | 9 => Ok C0_Count
  | 10 => Ok C0_EntryHi
  | 11 => Ok C0_Compare
  | 12 => Ok C0_Status
  | 13 => Ok C0_Cause
  | 14 => Ok C0_Epc
  | 15 => Ok C0_PrId
  | 16 => Ok C0_Config
  | 17 => Ok C0_LLAddr
  | 18 => Ok C0_WatchLo
  | 19 => Ok C0_WatchHi
  | 20 => Ok C0_XContext
  | 26 => Ok C0_ParityError
  | 27 => Ok C0_CacheError
  | 28 => Ok C0_TagLo
  | 29 => Ok C0_TagHi
  | 30 => Ok C0_ErrorEPC
  | e => Err (dec e)
  end.

(** src/ast.rs:994-1037  the string arms of [FromStr for Cop0Register] *)
Definition c0reg_table : list (str * c0reg) :=
  [(#"index", C0_Index);
   (#"random", C0_Random);
   (#"entrylo0", C0_EntryLo0);
   (#"entrylo1", C0_EntryLo1);
   (#"context", C0_Context);
   (#"pagemask", C0_PageMask);
   (#"wired", C0_Wired);
   (#"badvaddr", C0_BadVAddr);
   (#"count", C0_Count);
   (#"entryhi", C0_EntryHi);
   (#"compare", C0_Compare);
   (#"status", C0_Status);
   (#"cause", C0_Cause);
   (#"epc", C0_Epc);
   (#"prid", C0_PrId);
   (#"config", C0_Config);
   (#"lladdr", C0_LLAddr);
   (#"watchlo", C0_WatchLo);
   (#"watchhi", C0_WatchHi);
   (#"xcontext", C0_XContext);
   (#"parityerror", C0_ParityError);
   (#"cacheerror", C0_CacheError);
   (#"taglo", C0_TagLo);
   (#"taghi", C0_TagHi);
   (#"errorepc", C0_ErrorEPC)].

(** src/ast.rs:1050-1150  [enum ITypeOp] *)
Inductive iop :=
| I_Addi
| I_Addiu
| I_Andi
| I_Bc0f
| I_Bc0fl
| I_Bc0t
| I_Bc0tl
| I_Bc1f
| I_Bc1fl
| I_Bc1t
| I_Bc1tl
| I_Beq
| I_Beql
| I_Bgez
| I_Bgezal
| I_Bgezall
| I_Bgezl
| I_Bgtz
| I_Bgtzl
| I_Blez
| I_Blezl
| I_Bltz
| I_Bltzal
| I_Bltzall
| I_Bltzl
| I_Bne
| I_Bnel
| I_Cache
| I_Daddi
| I_Daddiu
| I_Lb
| I_Lbu
| I_Ld
| I_Ldc1
| I_Ldl
| I_Ldr
| I_Lh
| I_Lhu
| I_Ll
| I_Lld
| I_Lui
| I_Lw
| I_Lwc1
| I_Lwl
| I_Lwr
| I_Lwu
| I_Ori
| I_Sb
| I_Sc
| I_Scd
| I_Sd
| I_Sdc1
| I_Sdl
| I_Sdr
| I_Sh
| I_Slti
| I_Sltiu
| I_Sw
| I_Swc1
| I_Swl
| I_Swr
| I_Teqi
| I_Tgei
| I_Tgeiu
| I_Tlti
| I_Tltiu
| I_Tnei
| I_Xori
| I_B
| I_Bal
| I_Beqz
| I_Bnez
| I_Beqzl
| I_Bnezl
| I_Bge
| I_Bgt
| I_Ble
| I_Blt
| I_Bgeu
| I_Bgtu
| I_Bleu
| I_Bltu
| I_Bgel
| I_Bgtl
| I_Blel
| I_Bltl
| I_Bgeul
| I_Bgtul
| I_Bleul
| I_Bltul
| I_Dli
| I_Dsubi
| I_Dsubiu
| I_Lli
| I_Li
| I_Liu
| I_Subi
| I_Subiu.

(** Every value, in declaration order. *)
Definition all_iop : list iop :=
  [I_Addi; I_Addiu; I_Andi; I_Bc0f; I_Bc0fl; I_Bc0t; I_Bc0tl; I_Bc1f; I_Bc1fl; I_Bc1t; I_Bc1tl; I_Beq; I_Beql; I_Bgez; I_Bgezal; I_Bgezall; I_Bgezl; I_Bgtz; I_Bgtzl; I_Blez; I_Blezl; I_Bltz; I_Bltzal; I_Bltzall; I_Bltzl; I_Bne; I_Bnel; I_Cache; I_Daddi; I_Daddiu; I_Lb; I_Lbu; I_Ld; I_Ldc1; I_Ldl; I_Ldr; I_Lh; I_Lhu; I_Ll; I_Lld; I_Lui; I_Lw; I_Lwc1; I_Lwl; I_Lwr; I_Lwu; I_Ori; I_Sb; I_Sc; I_Scd; I_Sd; I_Sdc1; I_Sdl; I_Sdr; I_Sh; I_Slti; I_Sltiu; I_Sw; I_Swc1; I_Swl; I_Swr; I_Teqi; I_Tgei; I_Tgeiu; I_Tlti; I_Tltiu; I_Tnei; I_Xori; I_B; I_Bal; I_Beqz; I_Bnez; I_Beqzl; I_Bnezl; I_Bge; I_Bgt; I_Ble; I_Blt; I_Bgeu; I_Bgtu; I_Bleu; I_Bltu; I_Bgel; I_Bgtl; I_Blel; I_Bltl; I_Bgeul; I_Bgtul; I_Bleul; I_Bltul; I_Dli; I_Dsubi; I_Dsubiu; I_Lli; I_Li; I_Liu; I_Subi; I_Subiu].

(** src/ast.rs:1050-1150  strum [Display] text *)
Definition iop_name (o : iop) : str :=
  match o with
  | I_Addi => #"addi"
  | I_Addiu => #"addiu"
  | I_Andi => #"andi"
  | I_Bc0f => #"bc0f"
  | I_Bc0fl => #"bc0fl"
  | I_Bc0t => #"bc0t"
  | I_Bc0tl => #"bc0tl"
  | I_Bc1f => #"bc1f"
  | I_Bc1fl => #"bc1fl"
  | I_Bc1t => #"bc1t"
  | I_Bc1tl => #"bc1tl"
  | I_Beq => #"beq"
  | I_Beql => #"beql"
  | I_Bgez => #"bgez"
  | I_Bgezal => #"bgezal"
  | I_Bgezall => #"bgezall"
  | I_Bgezl => #"bgezl"
  | I_Bgtz => #"bgtz"
  | I_Bgtzl => #"bgtzl"
  | I_Blez => #"blez"
  | I_Blezl => #"blezl"
  | I_Bltz => #"bltz"
  | I_Bltzal => #"bltzal"
  | I_Bltzall => #"bltzall"
  | I_Bltzl => #"bltzl"
  | I_Bne => #"bne"
  | I_Bnel => #"bnel"
  | I_Cache => #"cache"
  | I_Daddi => #"daddi"
  | I_Daddiu => #"daddiu"
  | I_Lb => #"lb"
  | I_Lbu => #"lbu"
  | I_Ld => #"ld"
  | I_Ldc1 => #"ldc1"
  | I_Ldl => #"ldl"
  | I_Ldr => #"ldr"
  | I_Lh => #"lh"
  | I_Lhu => #"lhu"
  | I_Ll => #"ll"
  | I_Lld => #"lld"
  | I_Lui => #"lui"
  | I_Lw => #"lw"
  | I_Lwc1 => #"lwc1"
  | I_Lwl => #"lwl"
  | I_Lwr => #"lwr"
  | I_Lwu => #"lwu"
  | I_Ori => #"ori"
  | I_Sb => #"sb"
  | I_Sc => #"sc"
  | I_Scd => #"scd"
  | I_Sd => #"sd"
  | I_Sdc1 => #"sdc1"
  | I_Sdl => #"sdl"
  | I_Sdr => #"sdr"
  | I_Sh => #"sh"
  | I_Slti => #"slti"
  | I_Sltiu => #"sltiu"
  | I_Sw => #"sw"
  | I_Swc1 => #"swc1"
  | I_Swl => #"swl"
  | I_Swr => #"swr"
  | I_Teqi => #"teqi"
  | I_Tgei => #"tgei"
  | I_Tgeiu => #"tgeiu"
  | I_Tlti => #"tlti"
  | I_Tltiu => #"tltiu"
  | I_Tnei => #"tnei"
  | I_Xori => #"xori"
  | I_B => #"b"
  | I_Bal => #"bal"
  | I_Beqz => #"beqz"
  | I_Bnez => #"bnez"
  | I_Beqzl => #"beqzl"
  | I_Bnezl => #"bnezl"
  | I_Bge => #"bge"
  | I_Bgt => #"bgt"
  | I_Ble => #"ble"
  | I_Blt => #"blt"
  | I_Bgeu => #"bgeu"
  | I_Bgtu => #"bgtu"
  | I_Bleu => #"bleu"
  | I_Bltu => #"bltu"
  | I_Bgel => #"bgel"
  | I_Bgtl => #"bgtl"
  | I_Blel => #"blel"
  | I_Bltl => #"bltl"
  | I_Bgeul => #"bgeul"
  | I_Bgtul => #"bgtul"
  | I_Bleul => #"bleul"
  | I_Bltul => #"bltul"
  | I_Dli => #"dli"
  | I_Dsubi => #"dsubi"
  | I_Dsubiu => #"dsubiu"
  | I_Lli => #"lli"
  | I_Li => #"li"
  | I_Liu => #"liu"
  | I_Subi => #"subi"
  | I_Subiu => #"subiu"
  end.

(** src/ast.rs:1155-1158  [enum JTypeOp] *)
Inductive jop :=
| J_J
| J_Jal.

(** Every value, in declaration order. *)
Definition all_jop : list jop :=
  [J_J; J_Jal].

(** src/ast.rs:1155-1158  strum [Display] text *)
Definition jop_name (o : jop) : str :=
  match o with
  | J_J => #"j"
  | J_Jal => #"jal"
  end.

(** src/ast.rs:1163-1355  [enum RTypeOp] *)
Inductive rop :=
| R_AbsS
| R_AbsD
| R_Add
| R_Addu
| R_AddS
| R_AddD
| R_And
| R_Break
| R_Cs
| R_Cd
| R_CeilLS
| R_CeilLD
| R_CeilWS
| R_CeilWD
| R_Cfc0
| R_Cfc1
| R_Ctc0
| R_Ctc1
| R_CvtDS
| R_CvtDW
| R_CvtDL
| R_CvtLS
| R_CvtLD
| R_CvtSD
| R_CvtSW
| R_CvtSL
| R_CvtWS
| R_CvtWD
| R_Dadd
| R_Daddu
| R_Ddiv
| R_Ddivu
| R_Div
| R_Divu
| R_DivS
| R_DivD
| R_Dmfc0
| R_Dmfc1
| R_Dmtc0
| R_Dmtc1
| R_Dmult
| R_Dmultu
| R_Dsll
| R_Dsll32
| R_Dsllv
| R_Dsra
| R_Dsra32
| R_Dsrav
| R_Dsrl
| R_Dsrl32
| R_Dsrlv
| R_Dsub
| R_Dsubu
| R_Eret
| R_FloorLS
| R_FloorLD
| R_FloorWS
| R_FloorWD
| R_Jalr
| R_Jr
| R_Mfc0
| R_Mfc1
| R_Mfhi
| R_Mflo
| R_MovS
| R_MovD
| R_Mtc0
| R_Mtc1
| R_Mthi
| R_Mtlo
| R_MulS
| R_MulD
| R_Mult
| R_Multu
| R_NegS
| R_NegD
| R_Nor
| R_Or
| R_RoundLS
| R_RoundLD
| R_RoundWS
| R_RoundWD
| R_Sll
| R_Sllv
| R_Slt
| R_Sltu
| R_SqrtS
| R_SqrtD
| R_Sra
| R_Srav
| R_Srl
| R_Srlv
| R_Sub
| R_Subu
| R_SubS
| R_SubD
| R_Sync
| R_Syscall
| R_Teq
| R_Tge
| R_Tgeu
| R_Tlbp
| R_Tlbr
| R_Tlbwi
| R_Tlbwr
| R_Tlt
| R_Tltu
| R_Tne
| R_TruncLS
| R_TruncLD
| R_TruncWS
| R_TruncWD
| R_Xor
| R_Abs
| R_Clear
| R_Dabs
| R_Dmove
| R_Dmul
| R_Dmulu
| R_Dmulo
| R_Dmulou
| R_Dneg
| R_Dnegu
| R_Drem
| R_Dremu
| R_Drol
| R_Dror
| R_Move
| R_Mul
| R_Mulu
| R_Mulo
| R_Mulou
| R_Neg
| R_Negu
| R_Nop
| R_Not
| R_Rem
| R_Remu
| R_Seq
| R_Sge
| R_Sgeu
| R_Sgt
| R_Sgtu
| R_Sle
| R_Sleu
| R_Sne.

(** Every value, in declaration order. *)
Definition all_rop : list rop :=
  [R_AbsS; R_AbsD; R_Add; R_Addu; R_AddS; R_AddD; R_And; R_Break; R_Cs; R_Cd; R_CeilLS; R_CeilLD; R_CeilWS; R_CeilWD; R_Cfc0; R_Cfc1; R_Ctc0; R_Ctc1; R_CvtDS; R_CvtDW; R_CvtDL; R_CvtLS; R_CvtLD; R_CvtSD; R_CvtSW; R_CvtSL; R_CvtWS; R_CvtWD; R_Dadd; R_Daddu; R_Ddiv; R_Ddivu; R_Div; R_Divu; R_DivS; R_DivD; R_Dmfc0; R_Dmfc1; R_Dmtc0; R_Dmtc1; R_Dmult; R_Dmultu; R_Dsll; R_Dsll32; R_Dsllv; R_Dsra; R_Dsra32; R_Dsrav; R_Dsrl; R_Dsrl32; R_Dsrlv; R_Dsub; R_Dsubu; R_Eret; R_FloorLS; R_FloorLD; R_FloorWS; R_FloorWD; R_Jalr; R_Jr; R_Mfc0; R_Mfc1; R_Mfhi; R_Mflo; R_MovS; R_MovD; R_Mtc0; R_Mtc1; R_Mthi; R_Mtlo; R_MulS; R_MulD; R_Mult; R_Multu; R_NegS; R_NegD; R_Nor; R_Or; R_RoundLS; R_RoundLD; R_RoundWS; R_RoundWD; R_Sll; R_Sllv; R_Slt; R_Sltu; R_SqrtS; R_SqrtD; R_Sra; R_Srav; R_Srl; R_Srlv; R_Sub; R_Subu; R_SubS; R_SubD; R_Sync; R_Syscall; R_Teq; R_Tge; R_Tgeu; R_Tlbp; R_Tlbr; R_Tlbwi; R_Tlbwr; R_Tlt; R_Tltu; R_Tne; R_TruncLS; R_TruncLD; R_TruncWS; R_TruncWD; R_Xor; R_Abs; R_Clear; R_Dabs; R_Dmove; R_Dmul; R_Dmulu; R_Dmulo; R_Dmulou; R_Dneg; R_Dnegu; R_Drem; R_Dremu; R_Drol; R_Dror; R_Move; R_Mul; R_Mulu; R_Mulo; R_Mulou; R_Neg; R_Negu; R_Nop; R_Not; R_Rem; R_Remu; R_Seq; R_Sge; R_Sgeu; R_Sgt; R_Sgtu; R_Sle; R_Sleu; R_Sne].

(** src/ast.rs:1163-1355  strum [Display] text *)
Definition rop_name (o : rop) : str :=
  match o with
  | R_AbsS => #"abs.s"
  | R_AbsD => #"abs.d"
  | R_Add => #"add"
  | R_Addu => #"addu"
  | R_AddS => #"add.s"
  | R_AddD => #"add.d"
  | R_And => #"and"
  | R_Break => #"break"
  | R_Cs => #"c.s"
  | R_Cd => #"c.d"
  | R_CeilLS => #"ceil.l.s"
  | R_CeilLD => #"ceil.l.d"
  | R_CeilWS => #"ceil.w.s"
  | R_CeilWD => #"ceil.w.d"
  | R_Cfc0 => #"cfc0"
  | R_Cfc1 => #"cfc1"
  | R_Ctc0 => #"ctc0"
  | R_Ctc1 => #"ctc1"
  | R_CvtDS => #"cvt.d.s"
  | R_CvtDW => #"cvt.d.w"
  | R_CvtDL => #"cvt.d.l"
  | R_CvtLS => #"cvt.l.s"
  | R_CvtLD => #"cvt.l.d"
  | R_CvtSD => #"cvt.s.d"
  | R_CvtSW => #"cvt.s.w"
  | R_CvtSL => #"cvt.s.l"
  | R_CvtWS => #"cvt.w.s"
  | R_CvtWD => #"cvt.w.d"
  | R_Dadd => #"dadd"
  | R_Daddu => #"daddu"
  | R_Ddiv => #"ddiv"
  | R_Ddivu => #"ddivu"
  | R_Div => #"div"
  | R_Divu => #"divu"
  | R_DivS => #"div.s"
  | R_DivD => #"div.d"
  | R_Dmfc0 => #"dmfc0"
  | R_Dmfc1 => #"dmfc1"
  | R_Dmtc0 => #"dmtc0"
  | R_Dmtc1 => #"dmtc1"
  | R_Dmult => #"dmult"
  | R_Dmultu => #"dmultu"
  | R_Dsll => #"dsll"
  | R_Dsll32 => #"dsll32"
  | R_Dsllv => #"dsllv"
  | R_Dsra => #"dsra"
  | R_Dsra32 => #"dsra32"
  | R_Dsrav => #"dsrav"
  | R_Dsrl => #"dsrl"
  | R_Dsrl32 => #"dsrl32"
  | R_Dsrlv => #"dsrlv"
  | R_Dsub => #"dsub"
  | R_Dsubu => #"dsubu"
  | R_Eret => #"eret"
  | R_FloorLS => #"floor.l.s"
  | R_FloorLD => #"floor.l.d"
  | R_FloorWS => #"floor.w.s"
  | R_FloorWD => #"floor.w.d"
  | R_Jalr => #"jalr"
  | R_Jr => #"jr"
  | R_Mfc0 => #"mfc0"
  | R_Mfc1 => #"mfc1"
  | R_Mfhi => #"mfhi"
  | R_Mflo => #"mflo"
  | R_MovS => #"mov.s"
  | R_MovD => #"mov.d"
  | R_Mtc0 => #"mtc0"
  | R_Mtc1 => #"mtc1"
  | R_Mthi => #"mthi"
  | R_Mtlo => #"mtlo"
  | R_MulS => #"mul.s"
  | R_MulD => #"mul.d"
  | R_Mult => #"mult"
  | R_Multu => #"multu"
  | R_NegS => #"neg.s"
  | R_NegD => #"neg.d"
  | R_Nor => #"nor"
  | R_Or => #"or"
  | R_RoundLS => #"round.l.s"
  | R_RoundLD => #"round.l.d"
  | R_RoundWS => #"round.w.s"
  | R_RoundWD => #"round.w.d"
  | R_Sll => #"sll"
  | R_Sllv => #"sllv"
  | R_Slt => #"slt"
  | R_Sltu => #"sltu"
  | R_SqrtS => #"sqrt.s"
  | R_SqrtD => #"sqrt.d"
  | R_Sra => #"sra"
  | R_Srav => #"srav"
  | R_Srl => #"srl"
  | R_Srlv => #"srlv"
  | R_Sub => #"sub"
  | R_Subu => #"subu"
  | R_SubS => #"sub.s"
  | R_SubD => #"sub.d"
  | R_Sync => #"sync"
  | R_Syscall => #"syscall"
  | R_Teq => #"teq"
  | R_Tge => #"tge"
  | R_Tgeu => #"tgeu"
  | R_Tlbp => #"tlbp"
  | R_Tlbr => #"tlbr"
  | R_Tlbwi => #"tlbwi"
  | R_Tlbwr => #"tlbwr"
  | R_Tlt => #"tlt"
  | R_Tltu => #"tltu"
  | R_Tne => #"tne"
  | R_TruncLS => #"trunc.l.s"
  | R_TruncLD => #"trunc.l.d"
  | R_TruncWS => #"trunc.w.s"
  | R_TruncWD => #"trunc.w.d"
  | R_Xor => #"xor"
  | R_Abs => #"abs"
  | R_Clear => #"clear"
  | R_Dabs => #"dabs"
  | R_Dmove => #"dmove"
  | R_Dmul => #"dmul"
  | R_Dmulu => #"dmulu"
  | R_Dmulo => #"dmulo"
  | R_Dmulou => #"dmulou"
  | R_Dneg => #"dneg"
  | R_Dnegu => #"dnegu"
  | R_Drem => #"drem"
  | R_Dremu => #"dremu"
  | R_Drol => #"drol"
  | R_Dror => #"dror"
  | R_Move => #"move"
  | R_Mul => #"mul"
  | R_Mulu => #"mulu"
  | R_Mulo => #"mulo"
  | R_Mulou => #"mulou"
  | R_Neg => #"neg"
  | R_Negu => #"negu"
  | R_Nop => #"nop"
  | R_Not => #"not"
  | R_Rem => #"rem"
  | R_Remu => #"remu"
  | R_Seq => #"seq"
  | R_Sge => #"sge"
  | R_Sgeu => #"sgeu"
  | R_Sgt => #"sgt"
  | R_Sgtu => #"sgtu"
  | R_Sle => #"sle"
  | R_Sleu => #"sleu"
  | R_Sne => #"sne"
  end.

(** src/ast.rs:1360-1377  [enum FloatCond] *)
Inductive fcond :=
| FC_F
| FC_Un
| FC_Eq
| FC_Ueq
| FC_Olt
| FC_Ult
| FC_Ole
| FC_Ule
| FC_Sf
| FC_Ngle
| FC_Seq
| FC_Ngl
| FC_Lt
| FC_Nge
| FC_Le
| FC_Ngt.

(** Every value, in declaration order. *)
Definition all_fcond : list fcond :=
  [FC_F; FC_Un; FC_Eq; FC_Ueq; FC_Olt; FC_Ult; FC_Ole; FC_Ule; FC_Sf; FC_Ngle; FC_Seq; FC_Ngl; FC_Lt; FC_Nge; FC_Le; FC_Ngt].

(** src/ast.rs:1360-1377  strum [Display] text *)
Definition fcond_name (o : fcond) : str :=
  match o with
  | FC_F => #"f"
  | FC_Un => #"un"
  | FC_Eq => #"eq"
  | FC_Ueq => #"ueq"
  | FC_Olt => #"olt"
  | FC_Ult => #"ult"
  | FC_Ole => #"ole"
  | FC_Ule => #"ule"
  | FC_Sf => #"sf"
  | FC_Ngle => #"ngle"
  | FC_Seq => #"seq"
  | FC_Ngl => #"ngl"
  | FC_Lt => #"lt"
  | FC_Nge => #"nge"
  | FC_Le => #"le"
  | FC_Ngt => #"ngt"
  end.

(** src/ast.rs:1379-1403  [TryFrom<u32> for FloatCond]; the error carries the decimal text *)
Definition fcond_try_from (n : Z) : outcome str fcond :=
  match n with
  | 0 => Ok FC_F
  | 1 => Ok FC_Un
  | 2 => Ok FC_Eq
  | 3 => Ok FC_Ueq
  | 4 => Ok FC_Olt
  | 5 => Ok FC_Ult
  | 6 => Ok FC_Ole
  | 7 => Ok FC_Ule
  | 8 => Ok FC_Sf
  | 9 => Ok FC_Ngle
  | 10 => Ok FC_Seq
  | 11 => Ok FC_Ngl
  | 12 => Ok FC_Lt
  | 13 => Ok FC_Nge
  | 14 => Ok FC_Le
  | 15 => Ok FC_Ngt
  | e => Err (dec e)
  end.
