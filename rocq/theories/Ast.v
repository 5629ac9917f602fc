(** * Ast: src/ast.rs without the [Display] implementation. *)

From Verif Require Export Str Regex AstTables.

(** src/ast.rs:18-22  [enum Target] *)
Inductive target :=
| TLabel (name : str)
| TAddress (addr : Z).

(** src/ast.rs:25-32  [Target::as_u32] *)
Definition target_as_u32 {E} (t : target) : outcome E Z :=
  match t with
  | TLabel _ => Panic "Cannot convert label to u32"
  | TAddress a => Ok a
  end.

(** src/ast.rs:34-36  [Target::is_label] *)
Definition target_is_label (t : target) : bool :=
  match t with TLabel _ => true | _ => false end.

(** src/ast.rs:39-46  [enum Immediate] *)
Inductive immediate :=
| Short (i : Z)      (** u16 *)
| Int (i : Z)        (** u32 *)
| Long (i : Z)       (** u64 *)
| LocalLabel (l : str)
| Label (l : str).

(** src/ast.rs:49-56  [Immediate::as_u32] ([Long] is truncated by [as u32]) *)
Definition imm_as_u32 {E} (i : immediate) : outcome E Z :=
  match i with
  | Short v => Ok v
  | Int v => Ok v
  | Long v => Ok (wrap 32 v)
  | LocalLabel _ | Label _ => Panic "Cannot convert label to u32"
  end.

(** src/ast.rs:58-65  [Immediate::as_u64] *)
Definition imm_as_u64 {E} (i : immediate) : outcome E Z :=
  match i with
  | Short v | Int v | Long v => Ok v
  | LocalLabel _ | Label _ => Panic "Cannot convert label to u64"
  end.

(** src/ast.rs:67-69  [Immediate::is_label] *)
Definition imm_is_label (i : immediate) : bool :=
  match i with LocalLabel _ | Label _ => true | _ => false end.

(** src/ast.rs:71-99  [Immediate::new::<T>]: the constructor is chosen by the width of
    [T]; a non-negative value is kept, a negative one becomes its two's complement.
    Widths other than 16, 32, 64 (never instantiated) panic. *)
Definition imm_new {E} (t : ity) (v : Z) : outcome E immediate :=
  if it_bits t =? 16 then Ok (Short (wrap 16 v))
  else if it_bits t =? 32 then Ok (Int (wrap 32 v))
  else if it_bits t =? 64 then Ok (Long (wrap 64 v))
  else Panic "Invalid integer size".

(** src/ast.rs:119-142  [enum Instruction] *)
Inductive inst :=
| IImm (op : iop) (rs rt : reg) (imm : immediate) (bytes : list Z)
| IJump (op : jop) (tgt : target) (bytes : list Z)
| IReg (op : rop) (rs rt rd : reg) (sa : Z) (bytes : list Z)
| IBytes (word : Z).

(** src/ast.rs:151-186  [Instruction::has_delay_slot] *)
Definition has_delay_slot (i : inst) : bool :=
  match i with
  | IJump _ _ _ => true
  | IImm op _ _ _ _ =>
      match op with
      | I_Beqz | I_Bgtz | I_Bgtzl | I_Blez | I_Blezl | I_Bnez
      | I_Beq | I_Beql | I_Bne | I_Bnel
      | I_Bgez | I_Bgezal | I_Bgezall | I_Bgezl
      | I_Bltz | I_Bltzal | I_Bltzall | I_Bltzl
      | I_Bc0f | I_Bc1f | I_Bc0fl | I_Bc1fl
      | I_Bc0t | I_Bc1t | I_Bc0tl | I_Bc1tl => true
      | _ => false
      end
  | IReg op _ _ _ _ _ => match op with R_Jr | R_Jalr => true | _ => false end
  | IBytes _ => false
  end.

(** src/ast.rs:188-195  [Instruction::push_bytes] *)
Definition push_bytes {E} (i : inst) (b : list Z) : outcome E inst :=
  match i with
  | IImm op rs rt imm bytes => Ok (IImm op rs rt imm (bytes ++ b))
  | IJump op t bytes => Ok (IJump op t (bytes ++ b))
  | IReg op rs rt rd sa bytes => Ok (IReg op rs rt rd sa (bytes ++ b))
  | IBytes _ => Panic "push_bytes on Bytes"
  end.

(** src/ast.rs:197-204  [Instruction::get_bytes] *)
Definition inst_bytes (i : inst) : list Z :=
  match i with
  | IImm _ _ _ _ b => b
  | IJump _ _ b => b
  | IReg _ _ _ _ _ b => b
  | IBytes w => [w]
  end.

(** src/ast.rs:206-238  [Instruction::is_branch] *)
Definition is_branch (i : inst) : bool :=
  match i with
  | IImm op _ _ _ _ =>
      match op with
      | I_Bltz | I_Bgez | I_Bltzl | I_Bgezl | I_Bltzal | I_Bgezal | I_Bltzall | I_Bgezall
      | I_Bal | I_Bc0f | I_Bc0t | I_Bc0fl | I_Bc0tl | I_Bc1f | I_Bc1t | I_Bc1fl | I_Bc1tl
      | I_Beq | I_Bne | I_Beql | I_Bnel | I_Blez | I_Blezl | I_Bgtz | I_Bgtzl => true
      | _ => false
      end
  | _ => false
  end.

(** src/ast.rs:240-245  [Instruction::is_unconditional_jump] *)
Definition is_unconditional_jump (i : inst) : bool :=
  match i with
  | IJump J_J _ _ => true
  | IReg R_Jr _ _ _ _ _ => true
  | _ => false
  end.

(** src/ast.rs:254-259  [Instruction::get_jump_target] *)
Definition get_jump_target {E} (i : inst) : outcome E (option Z) :=
  match i with
  | IJump _ t _ => do! a <- target_as_u32 t; Ok (Some a)
  | _ => Ok None
  end.

(** src/ast.rs:674-676  [Register::null] *)
Definition reg_null : reg := Zero.

(** Association lookup (used for the string tables). *)
Fixpoint assoc {V} (k : str) (l : list (str * V)) : option V :=
  match l with
  | [] => None
  | (k', v) :: r => if str_eqb k k' then Some v else assoc k r
  end.

(** src/ast.rs:725-777  [FromStr for Register] *)
Definition reg_from_str (s : str) : outcome str reg :=
  let r := drop_while (cls "$") (trim s) in
  match re_find REG_RE r with
  | Some _ =>
      match parse_int u32 10 (drop_while (cls "r") r) with
      | Some n => reg_try_from n
      | None => Panic "register number"
      end
  | None =>
      match parse_int u32 10 r with
      | Some n => reg_try_from n
      | None =>
          match assoc (to_lower r) reg_table with
          | Some x => Ok x
          | None => Err s
          end
      end
  end.

(** src/ast.rs:870-921  [FromStr for FloatRegister] *)
Definition freg_from_str (s : str) : outcome str freg :=
  let r := drop_while (cls "$") (trim s) in
  match parse_int u32 10 r with
  | Some n => freg_try_from n
  | None =>
      match assoc (to_lower r) freg_table with
      | Some x => Ok x
      | None =>
          match parse_int u32 16 r with
          | Some n => freg_try_from n
          | None => Err (to_lower r)
          end
      end
  end.

(** src/ast.rs:994-1037  [FromStr for Cop0Register] *)
Definition c0reg_from_str (s : str) : outcome str c0reg :=
  let r := drop_while (cls "$") (trim s) in
  match parse_int u32 10 r with
  | Some n => c0reg_try_from n
  | None =>
      match parse_int u32 16 r with
      | Some n => c0reg_try_from n
      | None =>
          match assoc (to_lower r) c0reg_table with
          | Some x => Ok x
          | None => Err (to_lower r)
          end
      end
  end.

(** src/ast.rs:779-789  [From<FloatRegister> for Register], [From<Cop0Register> for
    Register]: both [unwrap] a [try_from] that succeeds for every value (lemmas
    [freg_to_reg_total], [c0reg_to_reg_total]); the default is never used. *)
Definition reg_of_num (n : Z) : reg :=
  match reg_try_from n with Ok r => r | _ => Zero end.
Definition freg_to_reg (f : freg) : reg := reg_of_num (freg_num f).
Definition c0reg_to_reg (c : c0reg) : reg := reg_of_num (c0reg_num c).

(** src/ast.rs:923-927  [From<Register> for FloatRegister] *)
Definition reg_to_freg (r : reg) : freg :=
  match freg_try_from (reg_num r) with Ok f => f | _ => Fv0 end.

(** src/ast.rs:1039-1045  [TryFrom<Register> for Cop0Register] *)
Definition reg_to_c0reg (r : reg) : outcome str c0reg := c0reg_try_from (reg_num r).

Lemma freg_to_reg_total f : reg_try_from (freg_num f) = Ok (freg_to_reg f).
Proof. destruct f; reflexivity. Qed.
Lemma c0reg_to_reg_total c : reg_try_from (c0reg_num c) = Ok (c0reg_to_reg c).
Proof. destruct c; reflexivity. Qed.
Lemma reg_to_freg_total r : freg_try_from (reg_num r) = Ok (reg_to_freg r).
Proof. destruct r; reflexivity. Qed.

(** src/ast.rs:1047-1048, 1152-1153, 1160-1161  strum [EnumString] with
    [ascii_case_insensitive]: the variant whose name equals the text up to ASCII case. *)
Definition iop_from_str (s : str) : option iop :=
  find (fun o => eq_ignore_case s (iop_name o)) all_iop.
Definition jop_from_str (s : str) : option jop :=
  find (fun o => eq_ignore_case s (jop_name o)) all_jop.
Definition rop_from_str (s : str) : option rop :=
  find (fun o => eq_ignore_case s (rop_name o)) all_rop.
