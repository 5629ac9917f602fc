(** * Display: [Display] and [Debug] of [Instruction] (src/ast.rs:100-117, 262-634). *)

From Verif Require Import Ast.

(** src/ast.rs:100-117  [{:#x}] of [Signed(imm)]: a minus sign unless [val < i16::MAX],
    the prefix [0x], then the magnitude. *)
Definition signed_hex (v : Z) : str :=
  let abs_val := if v =? 32767 then 32767 else Z.abs (sext 16 v) in
  (if v <? 32767 then [] else #"-") ++ #"0x" ++ hex abs_val.

(** [{:#x}] of an unsigned number. *)
Definition hex0x (v : Z) : str := #"0x" ++ hex v.

(** [{:11}] *)
Definition op11 (s : str) : str := pad_right 11 s.

(** A register operand: a dollar sign and the name. *)
Definition dreg (r : reg) : str := #"$" ++ reg_name r.
Definition dfreg (r : reg) : str := #"$" ++ freg_name (reg_to_freg r).

Definition sep : str := #", ".

(** src/ast.rs:265-355  [Immediate] with a [Short] immediate *)
Definition show_imm_short (op : iop) (rs rt : reg) (imm : Z) : outcome str str :=
  let o := op11 (iop_name op) in
  match op with
  (* 272-296 *)
  | I_Lb | I_Lbu | I_Ld | I_Ldl | I_Ldr | I_Lh | I_Lhu | I_Ll | I_Lld | I_Lw | I_Lwl
  | I_Lwr | I_Lwu | I_Sb | I_Sc | I_Scd | I_Sd | I_Sdl | I_Sdr | I_Sh | I_Sw | I_Swl
  | I_Swr => Ok (o ++ dreg rt ++ sep ++ signed_hex imm ++ #"(" ++ dreg rs ++ #")")
  (* 297-306 *)
  | I_Cache => Ok (o ++ hex0x (reg_num rt) ++ sep ++ signed_hex imm ++ #"(" ++ dreg rs ++ #")")
  (* 307-309 *)
  | I_Addi | I_Addiu | I_Daddi | I_Daddiu | I_Slti | I_Sltiu =>
      Ok (o ++ dreg rt ++ sep ++ dreg rs ++ sep ++ signed_hex imm)
  (* 310 *)
  | I_Andi | I_Ori | I_Xori => Ok (o ++ dreg rt ++ sep ++ dreg rs ++ sep ++ hex0x imm)
  (* 311 *)
  | I_Lui => Ok (o ++ dreg rt ++ sep ++ hex0x imm)
  (* 312-314 *)
  | I_Beqz | I_Bgtz | I_Bgtzl | I_Blez | I_Blezl | I_Bnez =>
      Ok (o ++ dreg rs ++ sep ++ signed_hex imm)
  (* 315-317 *)
  | I_Beq | I_Beql | I_Bne | I_Bnel =>
      Ok (o ++ dreg rs ++ sep ++ dreg rt ++ sep ++ signed_hex imm)
  (* 318-333 *)
  | I_Bgez | I_Bgezal | I_Bgezall | I_Bgezl | I_Bltz | I_Bltzal | I_Bltzall | I_Bltzl
  | I_Teqi | I_Tgei | I_Tgeiu | I_Tlti | I_Tltiu | I_Tnei =>
      Ok (o ++ dreg rs ++ sep ++ signed_hex imm)
  (* 334-343 *)
  | I_Bc0f | I_Bc1f | I_Bc0fl | I_Bc1fl | I_Bc0t | I_Bc1t | I_Bc0tl | I_Bc1tl =>
      Ok (o ++ signed_hex imm)
  (* 344-353 *)
  | I_Ldc1 | I_Lwc1 | I_Sdc1 | I_Swc1 =>
      Ok (o ++ dfreg rt ++ sep ++ signed_hex imm ++ #"(" ++ dreg rs ++ #")")
  (* 354 *)
  | _ => Panic "Unhandled immediate instruction"
  end.

(** src/ast.rs:356-403  [Immediate] with a label *)
Definition show_imm_label (op : iop) (rs rt : reg) (l : str) : outcome str str :=
  let o := op11 (iop_name op) in
  match op with
  | I_Beqz | I_Bgtz | I_Bgtzl | I_Blez | I_Blezl | I_Bnez => Ok (o ++ dreg rs ++ sep ++ l)
  | I_Beq | I_Beql | I_Bne | I_Bnel => Ok (o ++ dreg rs ++ sep ++ dreg rt ++ sep ++ l)
  | I_Bgez | I_Bgezal | I_Bgezall | I_Bgezl | I_Bltz | I_Bltzal | I_Bltzall | I_Bltzl
  | I_Teqi | I_Tgei | I_Tgeiu | I_Tlti | I_Tltiu | I_Tnei => Ok (o ++ dreg rs ++ sep ++ l)
  | I_Bc0f | I_Bc1f | I_Bc0fl | I_Bc1fl | I_Bc0t | I_Bc1t | I_Bc0tl | I_Bc1tl => Ok (o ++ l)
  | _ => Panic "Unhandled immediate instruction"
  end.

(** [op.to_string().replace('_', ".")] (src/ast.rs:516 and others) *)
Definition dot_name (op : rop) : str :=
  map (fun c => if Ascii.eqb c "_" then "."%char else c) (rop_name op).

(** src/ast.rs:584-621  [C.cond.fmt]: a tab and four blanks, or four blanks for [ngle] *)
Definition show_fcond (fmt : str) (rs rt : reg) (sa : Z) : outcome str str :=
  match fcond_try_from sa with
  | Ok c =>
      Ok (#"c." ++ fcond_name c ++ #"." ++ fmt
          ++ (if sa =? 9 then [] else ["009"%char]) ++ #"    "
          ++ dfreg rs ++ sep ++ dfreg rt)
  | _ => Panic "FloatCond::try_from"
  end.

(** src/ast.rs:418-623  [Register] *)
Definition show_reg (op : rop) (rs rt rd : reg) (sa : Z) (bytes : list Z) : outcome str str :=
  let o := op11 (rop_name op) in
  match op with
  (* 426 *)
  | R_Sync => Ok (rop_name op)
  (* 427-442 *)
  | R_Add | R_Addu | R_And | R_Dadd | R_Daddu | R_Dsub | R_Dsubu | R_Nor | R_Or | R_Slt
  | R_Sltu | R_Sub | R_Subu | R_Xor =>
      Ok (o ++ dreg rd ++ sep ++ dreg rs ++ sep ++ dreg rt)
  (* 443-453 *)
  | R_Dsll | R_Dsll32 | R_Dsra | R_Dsra32 | R_Dsrl | R_Dsrl32 | R_Sll | R_Sra | R_Srl =>
      Ok (o ++ dreg rd ++ sep ++ dreg rt ++ sep ++ hex0x sa)
  (* 454-456 *)
  | R_Dsllv | R_Dsrav | R_Dsrlv | R_Sllv | R_Srav | R_Srlv =>
      Ok (o ++ dreg rd ++ sep ++ dreg rt ++ sep ++ dreg rs)
  (* 457-463 *)
  | R_Break | R_Syscall => if sa =? 0 then Ok (rop_name op) else Ok (o ++ hex0x sa)
  (* 464-479 *)
  | R_Ddiv | R_Ddivu | R_Div | R_Divu | R_Dmult | R_Dmultu | R_Mult | R_Multu | R_Teq
  | R_Tge | R_Tgeu | R_Tlt | R_Tltu | R_Tne =>
      Ok (o ++ dreg rs ++ sep ++ dreg rt)
  (* 480-486 *)
  | R_Jalr => match rd with
              | Ra => Ok (o ++ dreg rs)
              | _ => Ok (o ++ dreg rd ++ sep ++ dreg rs)
              end
  (* 487-489 *)
  | R_Jr | R_Mthi | R_Mtlo => Ok (o ++ dreg rs)
  (* 490-492 *)
  | R_Mfhi | R_Mflo => Ok (o ++ dreg rd)
  (* 493-508 *)
  | R_Cfc0 | R_Ctc0 | R_Dmfc0 | R_Dmtc0 | R_Mfc0 | R_Mtc0 =>
      match reg_to_c0reg rd with
      | Ok c => Ok (o ++ dreg rt ++ sep ++ c0reg_name c)
      | _ =>
          match bytes with
          | b :: _ =>
              Ok (op11 #".word" ++ #"0x" ++ zero_pad 8 (hex b) ++ #" " ++ pad_left 10 #"#" ++ #" "
                  ++ o ++ dreg rt ++ sep ++ #"0x" ++ zero_pad 2 (hex (reg_num rd)))
          | [] => Panic "bytes.first()"
          end
      end
  (* 509-511 *)
  | R_Cfc1 | R_Ctc1 | R_Dmfc1 | R_Dmtc1 | R_Mfc1 | R_Mtc1 =>
      Ok (o ++ dreg rt ++ sep ++ dfreg rd)
  (* 512-514 *)
  | R_Eret | R_Tlbp | R_Tlbr | R_Tlbwi | R_Tlbwr => Ok (rop_name op)
  (* 515-524 *)
  | R_AddS | R_AddD | R_SubS | R_SubD | R_MulS | R_MulD | R_DivS | R_DivD =>
      Ok (op11 (dot_name op) ++ dfreg rd ++ sep ++ dfreg rs ++ sep ++ dfreg rt)
  (* 525-552 *)
  | R_AbsS | R_AbsD | R_CvtDS | R_CvtDW | R_CvtDL | R_CvtLS | R_CvtLD | R_CvtSD | R_CvtSW
  | R_CvtSL | R_CvtWD | R_CvtWS | R_MovS | R_MovD | R_NegS | R_NegD | R_SqrtS | R_SqrtD =>
      Ok (op11 (dot_name op) ++ dfreg rd ++ sep ++ dfreg rs)
  (* 553-561 *)
  | R_CeilLS | R_CeilLD | R_CeilWS | R_CeilWD =>
      Ok (dot_name op ++ #"    " ++ dfreg rd ++ sep ++ dfreg rs)
  (* 562-583 *)
  | R_FloorLS | R_FloorLD | R_FloorWS | R_FloorWD | R_RoundLS | R_RoundLD | R_RoundWS
  | R_RoundWD | R_TruncLS | R_TruncLD | R_TruncWS | R_TruncWD =>
      Ok (dot_name op ++ #"   " ++ dfreg rd ++ sep ++ dfreg rs)
  (* 584-602 *)
  | R_Cs => show_fcond #"s" rs rt sa
  (* 603-621 *)
  | R_Cd => show_fcond #"d" rs rt sa
  (* 622 *)
  | _ => Panic "not implemented"
  end.

(** src/ast.rs:262-628  [Display for Instruction] ([to_string()]) *)
Definition show_inst (i : inst) : outcome str str :=
  match i with
  | IImm op rs rt (Short imm) _ => show_imm_short op rs rt imm
  | IImm op rs rt (Label l) _ => show_imm_label op rs rt l
  | IImm op rs rt (LocalLabel l) _ => show_imm_label op rs rt l
  (* 404-410 *)
  | IJump op (TAddress t) _ => Ok (op11 (jop_name op) ++ #"0x" ++ hexU t)
  (* 411-417 *)
  | IJump op (TLabel l) _ => Ok (op11 (jop_name op) ++ l)
  | IReg op rs rt rd sa bytes => show_reg op rs rt rd sa bytes
  (* 624 *)
  | IBytes w => Ok (op11 #".word" ++ #"0x" ++ zero_pad 8 (hex w))
  (* 625 *)
  | IImm _ _ _ (Int _) _ | IImm _ _ _ (Long _) _ => Panic "Invalid instruction"
  end.

(** src/ast.rs:630-634  [Debug for Instruction] *)
Definition debug_inst (i : inst) : outcome str str :=
  do! s <- show_inst i; Ok (replace_all SPACE_RE #" " s).
