(** * SpecIsa: the MIPS III / R4300i instruction set as the manual gives it.

    This file is a specification.  It is written from the architecture manual, uses nothing
    of the model of the code (only the text primitives of [Str]), and is what the property
    theorems compare the code with.

    An instruction format is a mnemonic, the fixed fields of the word and the operands in
    the order in which assembly text writes them. *)

From Verif Require Import Str.

(** ** Words and fields *)

(** The [width]-bit field of [w] whose least significant bit is bit [pos]. *)
Definition field (w pos width : Z) : Z := (w / 2 ^ pos) mod 2 ^ width.

(** A 32-bit word. *)
Definition is_word (w : Z) : Prop := 0 <= w < 2 ^ 32.

(** Two's complement reading of a 16-bit field. *)
Definition signed16 (v : Z) : Z := if v <? 32768 then v else v - 65536.

(** ** Operands *)

Inductive okind :=
| Gpr (pos : Z)     (** general register, 5 bits at [pos] *)
| Fpr (pos : Z)     (** floating-point register, 5 bits at [pos] *)
| Cop0 (pos : Z)    (** coprocessor 0 register, 5 bits at [pos] *)
| Uimm              (** unsigned 16-bit immediate *)
| Simm              (** signed 16-bit immediate *)
| Shamt             (** 5-bit shift amount at bit 6 *)
| Code20            (** 20-bit code at bit 6 *)
| CacheOp           (** 5-bit cache operation at bit 16 *)
| Mem               (** [offset(base)]: signed 16-bit offset, base register at bit 21 *)
| Target26          (** jump target: a byte address, stored as a 26-bit word address *)
| Branch16.         (** branch: signed 16-bit word offset relative to the delay slot *)

Inductive operand :=
| OReg (n : Z)
| OInt (v : Z)
| OMem (off base : Z).

(** The operand values that the format can represent.  A jump target is determined up to
    the top four address bits, which come from the address of the delay slot. *)
Definition fits (k : okind) (o : operand) : Prop :=
  match k, o with
  | Gpr _, OReg n | Fpr _, OReg n | Cop0 _, OReg n => 0 <= n < 32
  | Uimm, OInt v => 0 <= v < 65536
  | Simm, OInt v => -32768 <= v < 32768
  | Shamt, OInt v => 0 <= v < 32
  | Code20, OInt v => 0 <= v < 1048576
  | CacheOp, OInt v => 0 <= v < 32
  | Mem, OMem off b => -32768 <= off < 32768 /\ 0 <= b < 32
  | Target26, OInt a => 0 <= a < 2 ^ 32 /\ a mod 4 = 0
  | Branch16, OInt d => -32768 <= d < 32768
  | _, _ => False
  end.

(** The bits an operand contributes to the word. *)
Definition place (k : okind) (o : operand) : Z :=
  match k, o with
  | Gpr p, OReg n | Fpr p, OReg n | Cop0 p, OReg n => n * 2 ^ p
  | Uimm, OInt v => v
  | Simm, OInt v => v mod 65536
  | Shamt, OInt v => v * 64
  | Code20, OInt v => v * 64
  | CacheOp, OInt v => v * 65536
  | Mem, OMem off b => b * 2 ^ 21 + off mod 65536
  | Target26, OInt a => (a / 4) mod 2 ^ 26
  | Branch16, OInt d => d mod 65536
  | _, _ => 0
  end.

(** Reading an operand back out of a word at address [pc] (only its segment matters). *)
Definition extract (pc w : Z) (k : okind) : operand :=
  match k with
  | Gpr p | Fpr p | Cop0 p => OReg (field w p 5)
  | Uimm => OInt (field w 0 16)
  | Simm => OInt (signed16 (field w 0 16))
  | Shamt => OInt (field w 6 5)
  | Code20 => OInt (field w 6 20)
  | CacheOp => OInt (field w 16 5)
  | Mem => OMem (signed16 (field w 0 16)) (field w 21 5)
  | Target26 => OInt (pc / 2 ^ 28 * 2 ^ 28 + field w 0 26 * 4)
  | Branch16 => OInt (signed16 (field w 0 16))
  end.

(** ** Formats *)

Record format := mk_format {
  f_name : str;                       (** mnemonic *)
  f_key : list (Z * Z * Z);           (** fixed fields: position, width, value *)
  f_ops : list okind                  (** operands, in source order *)
}.

(** The word of a format with given operands: fixed fields plus operand fields. *)
Definition sumZ (l : list Z) : Z := fold_right Z.add 0 l.
Definition key_word (key : list (Z * Z * Z)) : Z :=
  sumZ (map (fun k => match k with (p, _, v) => v * 2 ^ p end) key).
Definition ops_word (ks : list okind) (os : list operand) : Z :=
  sumZ (map (fun ko => place (fst ko) (snd ko)) (combine ks os)).
Definition word (f : format) (os : list operand) : Z := key_word (f_key f) + ops_word (f_ops f) os.

(** Does the word carry the fixed fields of the format? *)
Definition selects (w : Z) (f : format) : bool :=
  forallb (fun k => match k with (p, n, v) => field w p n =? v end) (f_key f).

(** ** The tables of the manual *)

Definition op6 (v : Z) : Z * Z * Z := (26, 6, v).
Definition rs5 (v : Z) : Z * Z * Z := (21, 5, v).
Definition rt5 (v : Z) : Z * Z * Z := (16, 5, v).
Definition rd5 (v : Z) : Z * Z * Z := (11, 5, v).
Definition funct6 (v : Z) : Z * Z * Z := (0, 6, v).
Definition co1 : Z * Z * Z := (25, 1, 1).

Definition Rs := Gpr 21.
Definition Rt := Gpr 16.
Definition Rd := Gpr 11.
Definition Fs := Fpr 11.
Definition Ft := Fpr 16.
Definition Fd := Fpr 6.

Definition special (f : Z) (name : string) (ops : list okind) : format :=
  mk_format (lit name) [op6 0; funct6 f] ops.
Definition regimm (t : Z) (name : string) (ops : list okind) : format :=
  mk_format (lit name) [op6 1; rt5 t] ops.
Definition normal (o : Z) (name : string) (ops : list okind) : format :=
  mk_format (lit name) [op6 o] ops.
Definition tlb (f : Z) (name : string) : format :=
  mk_format (lit name) [op6 16; co1; funct6 f] [].
Definition cop (z r : Z) (name : string) (ops : list okind) : format :=
  mk_format (lit name) [op6 (16 + z); rs5 r] ops.
Definition bcop (z t : Z) (name : string) : format :=
  mk_format (lit name) [op6 (16 + z); rs5 8; rt5 t] [Branch16].
Definition float (fmt f : Z) (name : string) (ops : list okind) : format :=
  mk_format (lit name) [op6 17; rs5 fmt; funct6 f] ops.

Definition special_table : list format :=
  [ special 0 "sll" [Rd; Rt; Shamt]; special 2 "srl" [Rd; Rt; Shamt];
    special 3 "sra" [Rd; Rt; Shamt];
    special 4 "sllv" [Rd; Rt; Rs]; special 6 "srlv" [Rd; Rt; Rs]; special 7 "srav" [Rd; Rt; Rs];
    special 8 "jr" [Rs];
    (* the link register defaults to $ra *)
    mk_format (lit "jalr") [op6 0; funct6 9; rd5 31] [Rs];
    special 9 "jalr" [Rd; Rs];
    (* the code defaults to 0 *)
    mk_format (lit "syscall") [op6 0; funct6 12; (6, 20, 0)] [];
    special 12 "syscall" [Code20];
    mk_format (lit "break") [op6 0; funct6 13; (6, 20, 0)] [];
    special 13 "break" [Code20];
    special 15 "sync" [];
    special 16 "mfhi" [Rd]; special 17 "mthi" [Rs]; special 18 "mflo" [Rd]; special 19 "mtlo" [Rs];
    special 20 "dsllv" [Rd; Rt; Rs]; special 22 "dsrlv" [Rd; Rt; Rs];
    special 23 "dsrav" [Rd; Rt; Rs];
    special 24 "mult" [Rs; Rt]; special 25 "multu" [Rs; Rt];
    special 26 "div" [Rs; Rt]; special 27 "divu" [Rs; Rt];
    special 28 "dmult" [Rs; Rt]; special 29 "dmultu" [Rs; Rt];
    special 30 "ddiv" [Rs; Rt]; special 31 "ddivu" [Rs; Rt];
    special 32 "add" [Rd; Rs; Rt]; special 33 "addu" [Rd; Rs; Rt];
    special 34 "sub" [Rd; Rs; Rt]; special 35 "subu" [Rd; Rs; Rt];
    special 36 "and" [Rd; Rs; Rt]; special 37 "or" [Rd; Rs; Rt];
    special 38 "xor" [Rd; Rs; Rt]; special 39 "nor" [Rd; Rs; Rt];
    special 42 "slt" [Rd; Rs; Rt]; special 43 "sltu" [Rd; Rs; Rt];
    special 44 "dadd" [Rd; Rs; Rt]; special 45 "daddu" [Rd; Rs; Rt];
    special 46 "dsub" [Rd; Rs; Rt]; special 47 "dsubu" [Rd; Rs; Rt];
    special 48 "tge" [Rs; Rt]; special 49 "tgeu" [Rs; Rt];
    special 50 "tlt" [Rs; Rt]; special 51 "tltu" [Rs; Rt];
    special 52 "teq" [Rs; Rt]; special 54 "tne" [Rs; Rt];
    special 56 "dsll" [Rd; Rt; Shamt]; special 58 "dsrl" [Rd; Rt; Shamt];
    special 59 "dsra" [Rd; Rt; Shamt];
    special 60 "dsll32" [Rd; Rt; Shamt]; special 62 "dsrl32" [Rd; Rt; Shamt];
    special 63 "dsra32" [Rd; Rt; Shamt] ].

Definition regimm_table : list format :=
  [ regimm 0 "bltz" [Rs; Branch16]; regimm 1 "bgez" [Rs; Branch16];
    regimm 2 "bltzl" [Rs; Branch16]; regimm 3 "bgezl" [Rs; Branch16];
    regimm 8 "tgei" [Rs; Simm]; regimm 9 "tgeiu" [Rs; Simm];
    regimm 10 "tlti" [Rs; Simm]; regimm 11 "tltiu" [Rs; Simm];
    regimm 12 "teqi" [Rs; Simm]; regimm 14 "tnei" [Rs; Simm];
    regimm 16 "bltzal" [Rs; Branch16]; regimm 17 "bgezal" [Rs; Branch16];
    regimm 18 "bltzall" [Rs; Branch16]; regimm 19 "bgezall" [Rs; Branch16] ].

Definition opcode_table : list format :=
  [ normal 2 "j" [Target26]; normal 3 "jal" [Target26];
    normal 4 "beq" [Rs; Rt; Branch16]; normal 5 "bne" [Rs; Rt; Branch16];
    normal 6 "blez" [Rs; Branch16]; normal 7 "bgtz" [Rs; Branch16];
    normal 8 "addi" [Rt; Rs; Simm]; normal 9 "addiu" [Rt; Rs; Simm];
    normal 10 "slti" [Rt; Rs; Simm]; normal 11 "sltiu" [Rt; Rs; Simm];
    normal 12 "andi" [Rt; Rs; Uimm]; normal 13 "ori" [Rt; Rs; Uimm];
    normal 14 "xori" [Rt; Rs; Uimm]; normal 15 "lui" [Rt; Uimm];
    normal 20 "beql" [Rs; Rt; Branch16]; normal 21 "bnel" [Rs; Rt; Branch16];
    normal 22 "blezl" [Rs; Branch16]; normal 23 "bgtzl" [Rs; Branch16];
    normal 24 "daddi" [Rt; Rs; Simm]; normal 25 "daddiu" [Rt; Rs; Simm];
    normal 26 "ldl" [Rt; Mem]; normal 27 "ldr" [Rt; Mem];
    normal 32 "lb" [Rt; Mem]; normal 33 "lh" [Rt; Mem]; normal 34 "lwl" [Rt; Mem];
    normal 35 "lw" [Rt; Mem]; normal 36 "lbu" [Rt; Mem]; normal 37 "lhu" [Rt; Mem];
    normal 38 "lwr" [Rt; Mem]; normal 39 "lwu" [Rt; Mem];
    normal 40 "sb" [Rt; Mem]; normal 41 "sh" [Rt; Mem]; normal 42 "swl" [Rt; Mem];
    normal 43 "sw" [Rt; Mem]; normal 44 "sdl" [Rt; Mem]; normal 45 "sdr" [Rt; Mem];
    normal 46 "swr" [Rt; Mem]; normal 47 "cache" [CacheOp; Mem];
    normal 48 "ll" [Rt; Mem]; normal 49 "lwc1" [Ft; Mem];
    normal 52 "lld" [Rt; Mem]; normal 53 "ldc1" [Ft; Mem]; normal 55 "ld" [Rt; Mem];
    normal 56 "sc" [Rt; Mem]; normal 57 "swc1" [Ft; Mem];
    normal 60 "scd" [Rt; Mem]; normal 61 "sdc1" [Ft; Mem]; normal 63 "sd" [Rt; Mem] ].

Definition cop0_table : list format :=
  [ cop 0 0 "mfc0" [Rt; Cop0 11]; cop 0 1 "dmfc0" [Rt; Cop0 11]; cop 0 2 "cfc0" [Rt; Cop0 11];
    cop 0 4 "mtc0" [Rt; Cop0 11]; cop 0 5 "dmtc0" [Rt; Cop0 11]; cop 0 6 "ctc0" [Rt; Cop0 11];
    bcop 0 0 "bc0f"; bcop 0 1 "bc0t"; bcop 0 2 "bc0fl"; bcop 0 3 "bc0tl";
    tlb 1 "tlbr"; tlb 2 "tlbwi"; tlb 6 "tlbwr"; tlb 8 "tlbp"; tlb 24 "eret" ].

Definition cop1_table : list format :=
  [ cop 1 0 "mfc1" [Rt; Fs]; cop 1 1 "dmfc1" [Rt; Fs]; cop 1 2 "cfc1" [Rt; Fs];
    cop 1 4 "mtc1" [Rt; Fs]; cop 1 5 "dmtc1" [Rt; Fs]; cop 1 6 "ctc1" [Rt; Fs];
    bcop 1 0 "bc1f"; bcop 1 1 "bc1t"; bcop 1 2 "bc1fl"; bcop 1 3 "bc1tl" ].

(** Formats S (16) and D (17): arithmetic, conversions to integer. *)
Definition fpu_table (fmt : Z) (x : string) : list format :=
  let n s := (s ++ "." ++ x)%string in
  [ float fmt 0 (n "add"%string) [Fd; Fs; Ft]; float fmt 1 (n "sub"%string) [Fd; Fs; Ft];
    float fmt 2 (n "mul"%string) [Fd; Fs; Ft]; float fmt 3 (n "div"%string) [Fd; Fs; Ft];
    float fmt 4 (n "sqrt"%string) [Fd; Fs]; float fmt 5 (n "abs"%string) [Fd; Fs];
    float fmt 6 (n "mov"%string) [Fd; Fs]; float fmt 7 (n "neg"%string) [Fd; Fs];
    float fmt 8 (n "round.l"%string) [Fd; Fs]; float fmt 9 (n "trunc.l"%string) [Fd; Fs];
    float fmt 10 (n "ceil.l"%string) [Fd; Fs]; float fmt 11 (n "floor.l"%string) [Fd; Fs];
    float fmt 12 (n "round.w"%string) [Fd; Fs]; float fmt 13 (n "trunc.w"%string) [Fd; Fs];
    float fmt 14 (n "ceil.w"%string) [Fd; Fs]; float fmt 15 (n "floor.w"%string) [Fd; Fs];
    float fmt 36 (n "cvt.w"%string) [Fd; Fs]; float fmt 37 (n "cvt.l"%string) [Fd; Fs] ].

Definition conditions : list (Z * string) :=
  [ (0, "f"); (1, "un"); (2, "eq"); (3, "ueq"); (4, "olt"); (5, "ult"); (6, "ole"); (7, "ule");
    (8, "sf"); (9, "ngle"); (10, "seq"); (11, "ngl"); (12, "lt"); (13, "nge"); (14, "le");
    (15, "ngt") ]%string.

Definition compare_table (fmt : Z) (x : string) : list format :=
  map (fun c => float fmt (48 + fst c) ("c." ++ snd c ++ "." ++ x)%string [Fs; Ft]) conditions.

Definition convert_table : list format :=
  [ float 16 33 "cvt.d.s" [Fd; Fs]; float 17 32 "cvt.s.d" [Fd; Fs];
    float 20 32 "cvt.s.w" [Fd; Fs]; float 20 33 "cvt.d.w" [Fd; Fs];
    float 21 32 "cvt.s.l" [Fd; Fs]; float 21 33 "cvt.d.l" [Fd; Fs] ].

(** Every instruction of the processor.  Where two formats select the same word (the short
    forms of jalr, break and syscall) the first one is the conventional reading. *)
Definition isa : list format :=
  special_table ++ regimm_table ++ opcode_table ++ cop0_table ++ cop1_table
  ++ fpu_table 16 "s" ++ fpu_table 17 "d" ++ compare_table 16 "s" ++ compare_table 17 "d"
  ++ convert_table.

(** One-word idioms: other names of particular instructions. *)
Definition idioms : list format :=
  [ mk_format #"nop" [op6 0] [];                                        (* sll $0, $0, 0 *)
    mk_format #"move" [op6 0; funct6 33] [Rd; Rt];                      (* addu rd, $0, rs *)
    mk_format #"dmove" [op6 0; funct6 45] [Rd; Rs];                     (* daddu rd, rs, $0 *)
    mk_format #"clear" [op6 0; funct6 33] [Rd];                         (* addu rd, $0, $0 *)
    mk_format #"neg" [op6 0; funct6 34] [Rd; Rt];                       (* sub rd, $0, rs *)
    mk_format #"negu" [op6 0; funct6 35] [Rd; Rt];                      (* subu rd, $0, rs *)
    mk_format #"dneg" [op6 0; funct6 46] [Rd; Rt];
    mk_format #"dnegu" [op6 0; funct6 47] [Rd; Rt];
    mk_format #"not" [op6 0; funct6 39] [Rd; Rs];                       (* nor rd, rs, $0 *)
    mk_format #"sgt" [op6 0; funct6 42] [Rd; Rt; Rs];                   (* slt rd, rt, rs *)
    mk_format #"sgtu" [op6 0; funct6 43] [Rd; Rt; Rs];
    mk_format #"lli" [op6 13] [Rt; Uimm];                               (* ori rt, $0, imm *)
    mk_format #"b" [op6 4] [Branch16];                                  (* beq $0, $0, offset *)
    mk_format #"bal" [op6 1; rt5 17] [Branch16];                        (* bgezal $0, offset *)
    mk_format #"beqz" [op6 4] [Rs; Branch16]; mk_format #"bnez" [op6 5] [Rs; Branch16];
    mk_format #"beqzl" [op6 20] [Rs; Branch16]; mk_format #"bnezl" [op6 21] [Rs; Branch16] ].

(** ** Register names (o32 convention) *)

Definition gpr_names : list str :=
  [ #"zero"; #"at"; #"v0"; #"v1"; #"a0"; #"a1"; #"a2"; #"a3";
    #"t0"; #"t1"; #"t2"; #"t3"; #"t4"; #"t5"; #"t6"; #"t7";
    #"s0"; #"s1"; #"s2"; #"s3"; #"s4"; #"s5"; #"s6"; #"s7";
    #"t8"; #"t9"; #"k0"; #"k1"; #"gp"; #"sp"; #"fp"; #"ra" ].

Definition fpr_names : list str :=
  [ #"fv0"; #"fv0f"; #"fv1"; #"fv1f"; #"ft0"; #"ft0f"; #"ft1"; #"ft1f";
    #"ft2"; #"ft2f"; #"ft3"; #"ft3f"; #"fa0"; #"fa0f"; #"fa1"; #"fa1f";
    #"ft4"; #"ft4f"; #"ft5"; #"ft5f"; #"fs0"; #"fs0f"; #"fs1"; #"fs1f";
    #"fs2"; #"fs2f"; #"fs3"; #"fs3f"; #"fs4"; #"fs4f"; #"fs5"; #"fs5f" ].

(** Coprocessor 0 registers; 7, 21-25 and 31 are reserved and have no name. *)
Definition cop0_names : list (Z * str) :=
  [ (0, #"Index"); (1, #"Random"); (2, #"EntryLo0"); (3, #"EntryLo1"); (4, #"Context");
    (5, #"PageMask"); (6, #"Wired"); (8, #"BadVAddr"); (9, #"Count"); (10, #"EntryHi");
    (11, #"Compare"); (12, #"Status"); (13, #"Cause"); (14, #"Epc"); (15, #"PrId");
    (16, #"Config"); (17, #"LlAddr"); (18, #"WatchLo"); (19, #"WatchHi"); (20, #"XContext");
    (26, #"ParityError"); (27, #"CacheError"); (28, #"TagLo"); (29, #"TagHi");
    (30, #"ErrorEpc") ].

Fixpoint num_assoc (n : Z) (l : list (Z * str)) : option str :=
  match l with
  | [] => None
  | (k, v) :: r => if n =? k then Some v else num_assoc n r
  end.

Definition nth_name (l : list str) (n : Z) : str := nth (Z.to_nat n) l [].

(** ** Canonical text *)

(** A signed number in hexadecimal. *)
Definition signed_text (v : Z) : str :=
  if v <? 0 then #"-0x" ++ hex (- v) else #"0x" ++ hex v.

(** [None]: no text (a coprocessor 0 register without a name). *)
Definition operand_text (k : okind) (o : operand) : option str :=
  match k, o with
  | Gpr _, OReg n => Some (#"$" ++ nth_name gpr_names n)
  | Fpr _, OReg n => Some (#"$" ++ nth_name fpr_names n)
  | Cop0 _, OReg n => num_assoc n cop0_names
  | Uimm, OInt v | Shamt, OInt v | Code20, OInt v | CacheOp, OInt v => Some (#"0x" ++ hex v)
  | Simm, OInt v | Branch16, OInt v => Some (signed_text v)
  | Mem, OMem off b => Some (signed_text off ++ #"(" ++ #"$" ++ nth_name gpr_names b ++ #")")
  | Target26, OInt a => Some (#"0x" ++ hexU a)
  | _, _ => None
  end.

Fixpoint operands_text (ks : list okind) (os : list operand) : option (list str) :=
  match ks, os with
  | [], [] => Some []
  | k :: ks', o :: os' =>
      match operand_text k o, operands_text ks' os' with
      | Some t, Some r => Some (t :: r)
      | _, _ => None
      end
  | _, _ => None
  end.

(** [mnemonic op1, op2, ...] *)
Definition text (f : format) (os : list operand) : option str :=
  match operands_text (f_ops f) os with
  | Some [] => Some (f_name f)
  | Some ts => Some (f_name f ++ #" " ++ join #", " ts)
  | None => None
  end.

(** The reading of a word at address [pc]: the first format of the table it carries. *)
Definition read_word (w : Z) : option format := find (selects w) isa.
Definition read_text (pc w : Z) : option str :=
  match read_word w with
  | Some f => text f (map (extract pc w) (f_ops f))
  | None => Some (#".word 0x" ++ zero_pad 8 (hex w))
  end.

(** Does the format have a signed 16-bit operand? *)
Definition signed_operand (k : okind) : bool :=
  match k with Simm | Mem | Branch16 => true | _ => false end.
Definition has_signed (f : format) : bool := existsb signed_operand (f_ops f).

(** ** Special words *)

(** A coprocessor 0 word that is no instruction (CO bit clear, no move or branch), whose low
    bits look like a TLB operation. *)
Definition reserved_tlb (w : Z) : Prop :=
  read_word w = None /\ field w 26 6 = 16 /\ field w 25 1 = 0 /\ In (field w 0 6) [1; 2; 6; 8; 24].

(** An instruction with a signed 16-bit operand whose value is the largest, 0x7fff. *)
Definition largest_immediate (w : Z) : Prop :=
  exists f, read_word w = Some f /\ has_signed f = true /\ field w 0 16 = 32767.

(** Is the word exactly what its reading encodes to (unused fields zero)? *)
Definition canonical (pc w : Z) : Prop :=
  forall f, read_word w = Some f -> w = word f (map (extract pc w) (f_ops f)).
