(** * Disassembler: src/disassembler.rs, match arms transcribed by tools/gen_dis.py. *)

From Verif Require Import Ast.

(** src/disassembler.rs:3-41  the [inst!] macro.  [Register::try_from(x).unwrap()] is
    [reg_of_num x]: every argument is a 5-bit field or a constant, for which [try_from]
    succeeds (lemma [reg_try_from_field] below). *)
Definition mk_imm (op : iop) (rs rt imm word : Z) : inst :=
  IImm op (reg_of_num rs) (reg_of_num rt) (Short (wrap 16 imm)) [word].
Definition mk_jump (op : jop) (target word : Z) : inst :=
  IJump op (TAddress target) [word].
Definition mk_reg (op : rop) (rs rt rd sa word : Z) : inst :=
  IReg op (reg_of_num rs) (reg_of_num rt) (reg_of_num rd) sa [word].

(** src/disassembler.rs:58-270  the match on the fields *)
Definition disasm_fields (op rs rt rd sa code funct imm target w : Z) : inst :=
  match op with
  | 0 => match funct with (* 60 *)
    | 0 => mk_reg R_Sll 0 rt rd sa w (* 61 *)
    | 2 => mk_reg R_Srl 0 rt rd sa w (* 62 *)
    | 3 => mk_reg R_Sra 0 rt rd sa w (* 63 *)
    | 4 => mk_reg R_Sllv rs rt rd 0 w (* 64 *)
    | 6 => mk_reg R_Srlv rs rt rd 0 w (* 65 *)
    | 7 => mk_reg R_Srav rs rt rd 0 w (* 66 *)
    | 8 => mk_reg R_Jr rs 0 0 0 w (* 67 *)
    | 9 => mk_reg R_Jalr rs 0 rd 0 w (* 68 *)
    | 12 => mk_reg R_Syscall 0 0 0 code w (* 69 *)
    | 13 => mk_reg R_Break 0 0 0 code w (* 70 *)
    | 15 => mk_reg R_Sync 0 0 0 code w (* 71 *)
    | 16 => mk_reg R_Mfhi 0 0 rd 0 w (* 72 *)
    | 17 => mk_reg R_Mthi rs 0 0 0 w (* 73 *)
    | 18 => mk_reg R_Mflo 0 0 rd 0 w (* 74 *)
    | 19 => mk_reg R_Mtlo rs 0 0 0 w (* 75 *)
    | 20 => mk_reg R_Dsllv rs rt rd 0 w (* 76 *)
    | 22 => mk_reg R_Dsrlv rs rt rd 0 w (* 77 *)
    | 23 => mk_reg R_Dsrav rs rt rd 0 w (* 78 *)
    | 24 => mk_reg R_Mult rs rt 0 0 w (* 79 *)
    | 25 => mk_reg R_Multu rs rt 0 0 w (* 80 *)
    | 26 => mk_reg R_Div rs rt 0 0 w (* 81 *)
    | 27 => mk_reg R_Divu rs rt 0 0 w (* 82 *)
    | 28 => mk_reg R_Dmult rs rt 0 0 w (* 83 *)
    | 29 => mk_reg R_Dmultu rs rt 0 0 w (* 84 *)
    | 30 => mk_reg R_Ddiv rs rt 0 0 w (* 85 *)
    | 31 => mk_reg R_Ddivu rs rt 0 0 w (* 86 *)
    | 32 => mk_reg R_Add rs rt rd 0 w (* 87 *)
    | 33 => mk_reg R_Addu rs rt rd 0 w (* 88 *)
    | 34 => mk_reg R_Sub rs rt rd 0 w (* 89 *)
    | 35 => mk_reg R_Subu rs rt rd 0 w (* 90 *)
    | 36 => mk_reg R_And rs rt rd 0 w (* 91 *)
    | 37 => mk_reg R_Or rs rt rd 0 w (* 92 *)
    | 38 => mk_reg R_Xor rs rt rd 0 w (* 93 *)
    | 39 => mk_reg R_Nor rs rt rd 0 w (* 94 *)
    | 42 => mk_reg R_Slt rs rt rd 0 w (* 95 *)
    | 43 => mk_reg R_Sltu rs rt rd 0 w (* 96 *)
    | 44 => mk_reg R_Dadd rs rt rd 0 w (* 97 *)
    | 45 => mk_reg R_Daddu rs rt rd 0 w (* 98 *)
    | 46 => mk_reg R_Dsub rs rt rd 0 w (* 99 *)
    | 47 => mk_reg R_Dsubu rs rt rd 0 w (* 100 *)
    | 48 => mk_reg R_Tge rs rt 0 0 w (* 101 *)
    | 49 => mk_reg R_Tgeu rs rt 0 0 w (* 102 *)
    | 50 => mk_reg R_Tlt rs rt 0 0 w (* 103 *)
    | 51 => mk_reg R_Tltu rs rt 0 0 w (* 104 *)
    | 52 => mk_reg R_Teq rs rt 0 0 w (* 105 *)
    | 54 => mk_reg R_Tne rs rt 0 0 w (* 106 *)
    | 56 => mk_reg R_Dsll 0 rt rd sa w (* 107 *)
    | 58 => mk_reg R_Dsrl 0 rt rd sa w (* 108 *)
    | 59 => mk_reg R_Dsra 0 rt rd sa w (* 109 *)
    | 60 => mk_reg R_Dsll32 0 rt rd sa w (* 110 *)
    | 62 => mk_reg R_Dsrl32 0 rt rd sa w (* 111 *)
    | 63 => mk_reg R_Dsra32 0 rt rd sa w (* 112 *)
    | _ => IBytes w (* 113 *)
    end
  | 1 => match rt with (* 115 *)
    | 0 => mk_imm I_Bltz rs 0 imm w (* 116 *)
    | 1 => mk_imm I_Bgez rs 0 imm w (* 117 *)
    | 2 => mk_imm I_Bltzl rs 0 imm w (* 118 *)
    | 3 => mk_imm I_Bgezl rs 0 imm w (* 119 *)
    | 8 => mk_imm I_Tgei rs 0 imm w (* 120 *)
    | 9 => mk_imm I_Tgeiu rs 0 imm w (* 121 *)
    | 10 => mk_imm I_Tlti rs 0 imm w (* 122 *)
    | 11 => mk_imm I_Tltiu rs 0 imm w (* 123 *)
    | 12 => mk_imm I_Teqi rs 0 imm w (* 124 *)
    | 14 => mk_imm I_Tnei rs 0 imm w (* 125 *)
    | 16 => mk_imm I_Bltzal rs 0 imm w (* 126 *)
    | 17 => mk_imm I_Bgezal rs 0 imm w (* 127 *)
    | 18 => mk_imm I_Bltzall rs 0 imm w (* 128 *)
    | 19 => mk_imm I_Bgezall rs 0 imm w (* 129 *)
    | _ => IBytes w (* 130 *)
    end
  | 2 => mk_jump J_J target w (* 132 *)
  | 3 => mk_jump J_Jal target w (* 133 *)
  | 4 => mk_imm I_Beq rs rt imm w (* 134 *)
  | 5 => mk_imm I_Bne rs rt imm w (* 135 *)
  | 6 => mk_imm I_Blez rs rt imm w (* 136 *)
  | 7 => mk_imm I_Bgtz rs rt imm w (* 137 *)
  | 8 => mk_imm I_Addi rs rt imm w (* 138 *)
  | 9 => mk_imm I_Addiu rs rt imm w (* 139 *)
  | 10 => mk_imm I_Slti rs rt imm w (* 140 *)
  | 11 => mk_imm I_Sltiu rs rt imm w (* 141 *)
  | 12 => mk_imm I_Andi rs rt imm w (* 142 *)
  | 13 => mk_imm I_Ori rs rt imm w (* 143 *)
  | 14 => mk_imm I_Xori rs rt imm w (* 144 *)
  | 15 => mk_imm I_Lui rs rt imm w (* 145 *)
  | 16 => match rs, rt with (* 146 *)
    | 0, _ => mk_reg R_Mfc0 0 rt rd 0 w (* 147 *)
    | 1, _ => mk_reg R_Dmfc0 0 rt rd 0 w (* 148 *)
    | 2, _ => mk_reg R_Cfc0 0 rt rd 0 w (* 149 *)
    | 4, _ => mk_reg R_Mtc0 0 rt rd 0 w (* 150 *)
    | 5, _ => mk_reg R_Dmtc0 0 rt rd 0 w (* 151 *)
    | 6, _ => mk_reg R_Ctc0 0 rt rd 0 w (* 152 *)
    | 8, 0 => mk_imm I_Bc0f 0 0 imm w (* 153 *)
    | 8, 1 => mk_imm I_Bc0t 0 0 imm w (* 154 *)
    | 8, 2 => mk_imm I_Bc0fl 0 0 imm w (* 155 *)
    | 8, 3 => mk_imm I_Bc0tl 0 0 imm w (* 156 *)
    | _, _ => match funct with (* 157 *)
      | 1 => mk_reg R_Tlbr 0 0 0 0 w (* 158 *)
      | 2 => mk_reg R_Tlbwi 0 0 0 0 w (* 159 *)
      | 6 => mk_reg R_Tlbwr 0 0 0 0 w (* 160 *)
      | 8 => mk_reg R_Tlbp 0 0 0 0 w (* 161 *)
      | 24 => mk_reg R_Eret 0 0 0 0 w (* 162 *)
      | _ => IBytes w (* 163 *)
      end
    end
  | 17 => match rs, rt with (* 166 *)
    | 0, _ => mk_reg R_Mfc1 0 rt rd 0 w (* 167 *)
    | 1, _ => mk_reg R_Dmfc1 0 rt rd 0 w (* 168 *)
    | 2, _ => mk_reg R_Cfc1 0 rt rd 0 w (* 169 *)
    | 4, _ => mk_reg R_Mtc1 0 rt rd 0 w (* 170 *)
    | 5, _ => mk_reg R_Dmtc1 0 rt rd 0 w (* 171 *)
    | 6, _ => mk_reg R_Ctc1 0 rt rd 0 w (* 172 *)
    | 8, 0 => mk_imm I_Bc1f 0 0 imm w (* 173 *)
    | 8, 1 => mk_imm I_Bc1t 0 0 imm w (* 174 *)
    | 8, 2 => mk_imm I_Bc1fl 0 0 imm w (* 175 *)
    | 8, 3 => mk_imm I_Bc1tl 0 0 imm w (* 176 *)
    | 16, _ => match funct with (* 177 *)
      | 0 => mk_reg R_AddS rd rt sa 0 w (* 178 *)
      | 1 => mk_reg R_SubS rd rt sa 0 w (* 179 *)
      | 2 => mk_reg R_MulS rd rt sa 0 w (* 180 *)
      | 3 => mk_reg R_DivS rd rt sa 0 w (* 181 *)
      | 4 => mk_reg R_SqrtS rd 0 sa 0 w (* 182 *)
      | 5 => mk_reg R_AbsS rd 0 sa 0 w (* 183 *)
      | 6 => mk_reg R_MovS rd 0 sa 0 w (* 184 *)
      | 7 => mk_reg R_NegS rd 0 sa 0 w (* 185 *)
      | 8 => mk_reg R_RoundLS rd 0 sa 0 w (* 186 *)
      | 9 => mk_reg R_TruncLS rd 0 sa 0 w (* 187 *)
      | 10 => mk_reg R_CeilLS rd 0 sa 0 w (* 188 *)
      | 11 => mk_reg R_FloorLS rd 0 sa 0 w (* 189 *)
      | 12 => mk_reg R_RoundWS rd 0 sa 0 w (* 190 *)
      | 13 => mk_reg R_TruncWS rd 0 sa 0 w (* 191 *)
      | 14 => mk_reg R_CeilWS rd 0 sa 0 w (* 192 *)
      | 15 => mk_reg R_FloorWS rd 0 sa 0 w (* 193 *)
      | 33 => mk_reg R_CvtDS rd 0 sa 0 w (* 194 *)
      | 36 => mk_reg R_CvtWS rd 0 sa 0 w (* 195 *)
      | 37 => mk_reg R_CvtLS rd 0 sa 0 w (* 196 *)
      | 48 | 49 | 50 | 51 | 52 | 53 | 54 | 55 | 56 | 57 | 58 | 59 | 60 | 61 | 62 | 63 => mk_reg R_Cs rd rt 0 (Z.land funct 15) w (* 197 *)
      | _ => IBytes w (* 198 *)
      end
    | 17, _ => match funct with (* 200 *)
      | 0 => mk_reg R_AddD rd rt sa 0 w (* 201 *)
      | 1 => mk_reg R_SubD rd rt sa 0 w (* 202 *)
      | 2 => mk_reg R_MulD rd rt sa 0 w (* 203 *)
      | 3 => mk_reg R_DivD rd rt sa 0 w (* 204 *)
      | 4 => mk_reg R_SqrtD rd 0 sa 0 w (* 205 *)
      | 5 => mk_reg R_AbsD rd 0 sa 0 w (* 206 *)
      | 6 => mk_reg R_MovD rd 0 sa 0 w (* 207 *)
      | 7 => mk_reg R_NegD rd 0 sa 0 w (* 208 *)
      | 8 => mk_reg R_RoundLD rd 0 sa 0 w (* 209 *)
      | 9 => mk_reg R_TruncLD rd 0 sa 0 w (* 210 *)
      | 10 => mk_reg R_CeilLD rd 0 sa 0 w (* 211 *)
      | 11 => mk_reg R_FloorLD rd 0 sa 0 w (* 212 *)
      | 12 => mk_reg R_RoundWD rd 0 sa 0 w (* 213 *)
      | 13 => mk_reg R_TruncWD rd 0 sa 0 w (* 214 *)
      | 14 => mk_reg R_CeilWD rd 0 sa 0 w (* 215 *)
      | 15 => mk_reg R_FloorWD rd 0 sa 0 w (* 216 *)
      | 32 => mk_reg R_CvtSD rd 0 sa 0 w (* 217 *)
      | 36 => mk_reg R_CvtWD rd 0 sa 0 w (* 218 *)
      | 37 => mk_reg R_CvtLD rd 0 sa 0 w (* 219 *)
      | 48 | 49 | 50 | 51 | 52 | 53 | 54 | 55 | 56 | 57 | 58 | 59 | 60 | 61 | 62 | 63 => mk_reg R_Cd rd rt 0 (Z.land funct 15) w (* 220 *)
      | _ => IBytes w (* 221 *)
      end
    | 20, _ => match funct with (* 223 *)
      | 32 => mk_reg R_CvtSW rd 0 sa 0 w (* 224 *)
      | 33 => mk_reg R_CvtDW rd 0 sa 0 w (* 225 *)
      | _ => IBytes w (* 226 *)
      end
    | 21, _ => match funct with (* 228 *)
      | 32 => mk_reg R_CvtSL rd 0 sa 0 w (* 229 *)
      | 33 => mk_reg R_CvtDL rd 0 sa 0 w (* 230 *)
      | _ => IBytes w (* 231 *)
      end
    | _, _ => IBytes w (* 233 *)
    end
  | 20 => mk_imm I_Beql rs rt imm w (* 235 *)
  | 21 => mk_imm I_Bnel rs rt imm w (* 236 *)
  | 22 => mk_imm I_Blezl rs rt imm w (* 237 *)
  | 23 => mk_imm I_Bgtzl rs rt imm w (* 238 *)
  | 24 => mk_imm I_Daddi rs rt imm w (* 239 *)
  | 25 => mk_imm I_Daddiu rs rt imm w (* 240 *)
  | 26 => mk_imm I_Ldl rs rt imm w (* 241 *)
  | 27 => mk_imm I_Ldr rs rt imm w (* 242 *)
  | 32 => mk_imm I_Lb rs rt imm w (* 243 *)
  | 33 => mk_imm I_Lh rs rt imm w (* 244 *)
  | 34 => mk_imm I_Lwl rs rt imm w (* 245 *)
  | 35 => mk_imm I_Lw rs rt imm w (* 246 *)
  | 36 => mk_imm I_Lbu rs rt imm w (* 247 *)
  | 37 => mk_imm I_Lhu rs rt imm w (* 248 *)
  | 38 => mk_imm I_Lwr rs rt imm w (* 249 *)
  | 39 => mk_imm I_Lwu rs rt imm w (* 250 *)
  | 40 => mk_imm I_Sb rs rt imm w (* 251 *)
  | 41 => mk_imm I_Sh rs rt imm w (* 252 *)
  | 42 => mk_imm I_Swl rs rt imm w (* 253 *)
  | 43 => mk_imm I_Sw rs rt imm w (* 254 *)
  | 44 => mk_imm I_Sdl rs rt imm w (* 255 *)
  | 45 => mk_imm I_Sdr rs rt imm w (* 256 *)
  | 46 => mk_imm I_Swr rs rt imm w (* 257 *)
  | 47 => mk_imm I_Cache rs rt imm w (* 258 *)
  | 48 => mk_imm I_Ll rs rt imm w (* 259 *)
  | 49 => mk_imm I_Lwc1 rs rt imm w (* 260 *)
  | 52 => mk_imm I_Lld rs rt imm w (* 261 *)
  | 53 => mk_imm I_Ldc1 rs rt imm w (* 262 *)
  | 55 => mk_imm I_Ld rs rt imm w (* 263 *)
  | 56 => mk_imm I_Sc rs rt imm w (* 264 *)
  | 57 => mk_imm I_Swc1 rs rt imm w (* 265 *)
  | 60 => mk_imm I_Scd rs rt imm w (* 266 *)
  | 61 => mk_imm I_Sdc1 rs rt imm w (* 267 *)
  | 63 => mk_imm I_Sd rs rt imm w (* 268 *)
  | _ => IBytes w (* 269 *)
  end.

(** src/disassembler.rs:47-270  one iteration of the loop: the fields, then the match *)
Definition disasm_word (base_addr w : Z) : inst :=
  disasm_fields
    (shr w 26)
    (Z.land (shr w 21) 31)
    (Z.land (shr w 16) 31)
    (Z.land (shr w 11) 31)
    (Z.land (shr w 6) 31)
    (Z.land (shr w 6) 1048575)
    (Z.land w 63)
    (Z.land w 65535)
    (Z.lor (shl (Z.land w 67108863) 2) (Z.land base_addr 4026531840))
    w.

(** src/disassembler.rs:43-275  [disassemble] *)
Definition disassemble_insts (words : list Z) (base_addr : Z) : list inst :=
  map (disasm_word base_addr) words.

Lemma reg_try_from_field (k w : Z) :
  reg_try_from (Z.land (shr w k) 31) = Ok (reg_of_num (Z.land (shr w k) 31)).
Proof.
  assert (H : Z.land (shr w k) 31 = (shr w k) mod 32).
  { change 31 with (Z.ones 5). rewrite Z.land_ones by discriminate. reflexivity. }
  rewrite H. assert (B := Z.mod_pos_bound (shr w k) 32 eq_refl).
  generalize dependent (shr w k mod 32); intros x _ B.
  assert (In x (map Z.of_nat (seq 0 32))) as I.
  { apply in_map_iff. exists (Z.to_nat x). rewrite in_seq. split; [apply Z2Nat.id; tauto|].
    split; [apply Nat.le_0_l|]. change (0 + 32)%nat with (Z.to_nat 32).
    apply Z2Nat.inj_lt; tauto || discriminate. }
  revert x I B. change (forall x, In x (map Z.of_nat (seq 0 32)) -> 0 <= x < 32 ->
    reg_try_from x = Ok (reg_of_num x)).
  intros x I _. cbn in I. repeat (destruct I as [<-|I]; [reflexivity|]). destruct I.
Qed.
