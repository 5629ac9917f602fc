(** * Error: src/error.rs. *)

From Verif Require Import Str.

(** src/error.rs:153-163  [struct Line] *)
Record line := mk_line { l_num : nat; l_content : str }.

(** src/error.rs:165-170  [enum ParserWarning] *)
Inductive pwarning :=
| WDelaySlot (ln delay_slot_inst : line)
| WUnalignedBranch (ln : line) (offset : str)
| WUnalignedJump (ln : line) (tgt : str).

(** src/error.rs:269-322  [enum ParserError] *)
Inductive perror :=
| EMultipleLabelDefinition (ln : line) (label : str) (first : line)
| EInvalidLabel (ln : line) (label : str)
| EInvalidInstruction (ln : line)
| EInvalidOperandCount (ln : line) (expected found : nat) (ops : str)
| EInvalidOpcode (ln : line) (opcode : str)
| EInvalidRegister (ln : line) (register : str)
| EInvalidTargetAddress (ln : line) (address : str)
| EInvalidImmediate (ln : line) (imm : str)
| EInvalidFloatCond (ln : line) (cond : str)
| EBranchOutOfBounds (ln : line) (branch : str) (bounds : Z * Z)
| ELocalLabelOutOfScope (ln : line) (label : str)
| EUndefinedLabel (ln : line) (label : str).

(** The ANSI escapes [\x1b[94m], [\x1b[91m], [\x1b[0m]. *)
Definition esc : ascii := "027"%char.
Definition blue : str := esc :: #"[94m".
Definition red : str := esc :: #"[91m".
Definition off : str := esc :: #"[0m".
Definition LF : str := [nl].
Definition tick : str := #"`".

(** [to_string()] of a [usize] (line and operand numbers). *)
Definition decn (n : nat) : str := dec (Z.of_nat n).

(** src/error.rs:543-585  [fmt_line]: panics when the underlined text does not occur. *)
Definition fmt_line (num : nat) (content : str) (margin : nat) (err_underline : bool)
    (msg : str) (first_space : bool) (underline : str) : outcome perror str :=
  match find_sub underline content with
  | None => Panic "fmt_line: underline not found"
  | Some start =>
      let gutter := blue ++ repeat " "%char margin ++ #" |" in
      let len := List.length underline in
      Ok ((if first_space then gutter ++ off ++ LF else [])
          ++ blue ++ pad_left margin (decn num) ++ #" |" ++ off ++ #" " ++ content ++ LF
          ++ (if err_underline
              then gutter ++ #" " ++ repeat " "%char start ++ repeat "-"%char len ++ #" " ++ msg
                   ++ off ++ LF
              else gutter ++ #" " ++ repeat " "%char start ++ red ++ repeat "^"%char len ++ #" "
                   ++ msg ++ off ++ LF)
          ++ gutter ++ off)
  end.

(** [writeln!(f, header); writeln!(f, "{}", body)] *)
Definition header_body (header : str) (body : outcome perror str) : outcome perror str :=
  do! b <- body; Ok (header ++ LF ++ b ++ LF).

Definition err_header (s : str) : str := red ++ #"error" ++ off ++ #": " ++ s.

Definition margin_of (n : nat) : nat := List.length (decn n).

(** src/error.rs:324-541  [Display for ParserError] *)
Definition show_error (e : perror) : outcome perror str :=
  match e with
  (* 327-361 *)
  | EMultipleLabelDefinition (mk_line num content) label (mk_line first_num first_content) =>
      let margin := Nat.max (margin_of num) (margin_of first_num) in
      do! a <- fmt_line first_num first_content margin true #"first defined here" true label;
      do! b <- fmt_line num content margin false #"redefined here" false label;
      Ok (err_header (#"label `" ++ label ++ #"` defined multiple times") ++ LF
          ++ a ++ LF ++ blue ++ #"..." ++ off ++ LF ++ b ++ LF)
  (* 362-377 *)
  | EInvalidLabel (mk_line num content) label =>
      header_body (err_header (#"label `" ++ label ++ #"` must start with a letter"))
        (fmt_line num content (margin_of num) false #"defined here" true label)
  (* 378-392 *)
  | EInvalidInstruction (mk_line num content) =>
      header_body (err_header (#"invalid instruction `" ++ trim content ++ tick))
        (fmt_line num content (margin_of num) false [] true (trim content))
  (* 393-418 *)
  | EInvalidOperandCount (mk_line num content) expected found ops =>
      header_body (err_header (#"invalid number of operands `" ++ content ++ tick))
        (fmt_line num content (margin_of num) false
           (#"expected " ++ decn expected ++ #" operands, found " ++ decn found) true ops)
  (* 419-430 *)
  | EInvalidOpcode (mk_line num content) opcode =>
      header_body (err_header (#"invalid opcode `" ++ opcode ++ tick))
        (fmt_line num content (margin_of num) false [] true opcode)
  (* 431-442 *)
  | EInvalidRegister (mk_line num content) register =>
      header_body (err_header (#"invalid register `" ++ register ++ tick))
        (fmt_line num content (margin_of num) false [] true register)
  (* 443-458 *)
  | EInvalidTargetAddress (mk_line num content) address =>
      header_body (err_header (#"invalid target address `" ++ address ++ tick))
        (fmt_line num content (margin_of num) false [] true address)
  (* 459-470 *)
  | EInvalidImmediate (mk_line num content) imm =>
      header_body (err_header (#"invalid immediate `" ++ imm ++ tick))
        (fmt_line num content (margin_of num) false [] true imm)
  (* 471-486 *)
  | EInvalidFloatCond (mk_line num content) cond =>
      header_body (err_header (#"invalid float compare condition `" ++ cond ++ tick))
        (fmt_line num content (margin_of num) false [] true cond)
  (* 487-510 *)
  | EBranchOutOfBounds (mk_line num content) branch (lo, hi) =>
      header_body (err_header (#"branch `" ++ branch ++ #"` out of bounds"))
        (fmt_line num content (margin_of num) false
           (#"should be between 0x" ++ zero_pad 8 (hex lo) ++ #" and 0x" ++ zero_pad 8 (hex hi))
           true branch)
  (* 511-526 *)
  | ELocalLabelOutOfScope (mk_line num content) label =>
      header_body (err_header (#"local label `" ++ label ++ #"` used outside of its scope"))
        (fmt_line num content (margin_of num) false [] true label)
  (* 527-538 *)
  | EUndefinedLabel (mk_line num content) label =>
      header_body (err_header (#"label `" ++ label ++ #"` is not defined"))
        (fmt_line num content (margin_of num) false #"used here" true label)
  end.

(** src/error.rs:172-267  [Display for ParserWarning] *)
Definition show_warning (w : pwarning) : outcome perror str :=
  match w with
  (* 175-216 *)
  | WDelaySlot (mk_line num content) (mk_line delay_num delay_content) =>
      let margin := margin_of num in
      do! a <- fmt_line delay_num delay_content margin false
                 #"this instruction cannot be in a delay slot" true (trim delay_content);
      do! b <- fmt_line num content margin true
                 #"delay slot occurs after this instruction" false (trim content);
      Ok (#"warning: instruction `" ++ trim delay_content ++ #"` cannot be in a delay slot" ++ LF
          ++ a ++ LF ++ blue ++ #"..." ++ off ++ LF ++ b ++ LF)
  (* 217-240 *)
  | WUnalignedBranch (mk_line num content) offset =>
      header_body (#"warning: branch offset `" ++ offset
                   ++ #"` is not aligned to a 4-byte boundary")
        (fmt_line num content (margin_of num) true #"offset is not divisible by 4" false offset)
  (* 241-264 *)
  | WUnalignedJump (mk_line num content) tgt =>
      header_body (#"warning: jump target `" ++ tgt
                   ++ #"` is not aligned to a 4-byte boundary")
        (fmt_line num content (margin_of num) true #"target is not divisible by 4" false tgt)
  end.
