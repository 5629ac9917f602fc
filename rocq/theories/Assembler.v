(** * Assembler: src/assembler.rs, match arms transcribed by tools/gen_asm.py.

    [shl]/[shr]/[Z.lor]/[Z.land] are the [u32] operators; [reg_num r] is [r.as_num()];
    [v] is [imm.as_u32()] (or [as_u64()] for dli), [v1] is [imm.as_u32() - 1], which
    underflows when the offset is 0 (panic with overflow checks, wrap without). *)

From Verif Require Import Ast.

(** The value of [-(imm.as_u32() as i32) as u32] (src/assembler.rs:197-198). *)
Definition neg_i32 {E} (oc : bool) (v : Z) : outcome E Z :=
  let s := sext 32 v in
  if (s =? - 2 ^ 31) && oc then Panic "attempt to negate with overflow" else Ok (wrap 32 (- s)).

(** src/assembler.rs:132-157  [I::Li] *)
Definition enc_li (rt : reg) (v : Z) : list Z :=
  if Z.land v 65535 =? v then [Z.lor (Z.lor (shl 13 26) (shl (reg_num rt) 16)) v]
  else if Z.land v 65535 =? 0 then [Z.lor (Z.lor (shl 15 26) (shl (reg_num rt) 16)) (shr v 16)]
  else if Z.land v 4294934528 =? 4294934528 then
    [Z.lor (Z.lor (shl 15 26) (shl (reg_num rt) 16)) (shr v 16);
     Z.lor (Z.lor (Z.lor (shl 9 26) (shl (reg_num rt) 21)) (shl (reg_num rt) 16)) (Z.land v 65535)]
  else
    [Z.lor (Z.lor (shl 15 26) (shl (reg_num rt) 16)) (shr v 16);
     Z.lor (Z.lor (Z.lor (shl 13 26) (shl (reg_num rt) 21)) (shl (reg_num rt) 16)) (Z.land v 65535)].

(** src/assembler.rs:158-176  [I::Liu] *)
Definition enc_liu (rt : reg) (v : Z) : list Z :=
  if Z.land v 65535 =? v then [Z.lor (Z.lor (shl 13 26) (shl (reg_num rt) 16)) v]
  else if Z.land v 65535 =? 0 then [Z.lor (Z.lor (shl 15 26) (shl (reg_num rt) 16)) (shr v 16)]
  else
    [Z.lor (Z.lor (shl 15 26) (shl (reg_num rt) 16)) (shr v 16);
     Z.lor (Z.lor (Z.lor (shl 13 26) (shl (reg_num rt) 21)) (shl (reg_num rt) 16)) (Z.land v 65535)].

(** src/assembler.rs:12-210  immediate instructions: the words appended to the instruction *)
Definition enc_i {E} (oc : bool) (op : iop) (rs rt : reg) (imm : immediate) : outcome E (list Z) :=
  match op with
  (* 13 *)
  | I_Addi => do! v <- imm_as_u32 imm;
      Ok [Z.lor (Z.lor (Z.lor (shl 8 26) (shl (reg_num rs) 21)) (shl (reg_num rt) 16)) v]
  (* 14 *)
  | I_Addiu => do! v <- imm_as_u32 imm;
      Ok [Z.lor (Z.lor (Z.lor (shl 9 26) (shl (reg_num rs) 21)) (shl (reg_num rt) 16)) v]
  (* 15 *)
  | I_Andi => do! v <- imm_as_u32 imm;
      Ok [Z.lor (Z.lor (Z.lor (shl 12 26) (shl (reg_num rs) 21)) (shl (reg_num rt) 16)) v]
  (* 16 *)
  | I_B => do! v <- imm_as_u32 imm;
      Ok [Z.lor (shl 4 26) v]
  (* 17 *)
  | I_Bal => do! v <- imm_as_u32 imm;
      Ok [Z.lor (Z.lor (shl 1 26) (shl 17 16)) v]
  (* 18 *)
  | I_Bc0f => do! v <- imm_as_u32 imm;
      Ok [Z.lor (Z.lor (shl 16 26) (shl 8 21)) v]
  (* 19 *)
  | I_Bc0fl => do! v <- imm_as_u32 imm;
      Ok [Z.lor (Z.lor (Z.lor (shl 16 26) (shl 8 21)) (shl 2 16)) v]
  (* 20 *)
  | I_Bc0t => do! v <- imm_as_u32 imm;
      Ok [Z.lor (Z.lor (Z.lor (shl 16 26) (shl 8 21)) (shl 1 16)) v]
  (* 21 *)
  | I_Bc0tl => do! v <- imm_as_u32 imm;
      Ok [Z.lor (Z.lor (Z.lor (shl 16 26) (shl 8 21)) (shl 3 16)) v]
  (* 22 *)
  | I_Bc1f => do! v <- imm_as_u32 imm;
      Ok [Z.lor (Z.lor (shl 17 26) (shl 8 21)) v]
  (* 23 *)
  | I_Bc1fl => do! v <- imm_as_u32 imm;
      Ok [Z.lor (Z.lor (Z.lor (shl 17 26) (shl 8 21)) (shl 2 16)) v]
  (* 24 *)
  | I_Bc1t => do! v <- imm_as_u32 imm;
      Ok [Z.lor (Z.lor (Z.lor (shl 17 26) (shl 8 21)) (shl 1 16)) v]
  (* 25 *)
  | I_Bc1tl => do! v <- imm_as_u32 imm;
      Ok [Z.lor (Z.lor (Z.lor (shl 17 26) (shl 8 21)) (shl 3 16)) v]
  (* 26 *)
  | I_Beq => do! v <- imm_as_u32 imm;
      Ok [Z.lor (Z.lor (Z.lor (shl 4 26) (shl (reg_num rs) 21)) (shl (reg_num rt) 16)) v]
  (* 27 *)
  | I_Beql => do! v <- imm_as_u32 imm;
      Ok [Z.lor (Z.lor (Z.lor (shl 20 26) (shl (reg_num rs) 21)) (shl (reg_num rt) 16)) v]
  (* 28 *)
  | I_Beqz => do! v <- imm_as_u32 imm;
      Ok [Z.lor (Z.lor (shl 4 26) (shl (reg_num rs) 21)) v]
  (* 29 *)
  | I_Beqzl => do! v <- imm_as_u32 imm;
      Ok [Z.lor (Z.lor (shl 20 26) (shl (reg_num rs) 21)) v]
  (* 30-33 *)
  | I_Bge => do! v <- imm_as_u32 imm; do! v1 <- ck32 oc (v - 1);
      Ok [Z.lor (Z.lor (Z.lor (shl (reg_num rs) 21) (shl (reg_num rt) 16)) (shl 1 11)) 42;
       Z.lor (Z.lor (shl 4 26) (shl 1 21)) v1]
  (* 34-37 *)
  | I_Bgel => do! v <- imm_as_u32 imm; do! v1 <- ck32 oc (v - 1);
      Ok [Z.lor (Z.lor (Z.lor (shl (reg_num rs) 21) (shl (reg_num rt) 16)) (shl 1 11)) 42;
       Z.lor (Z.lor (shl 20 26) (shl 1 21)) v1]
  (* 38-41 *)
  | I_Bgeu => do! v <- imm_as_u32 imm; do! v1 <- ck32 oc (v - 1);
      Ok [Z.lor (Z.lor (Z.lor (shl (reg_num rs) 21) (shl (reg_num rt) 16)) (shl 1 11)) 43;
       Z.lor (Z.lor (shl 4 26) (shl 1 21)) v1]
  (* 42-45 *)
  | I_Bgeul => do! v <- imm_as_u32 imm; do! v1 <- ck32 oc (v - 1);
      Ok [Z.lor (Z.lor (Z.lor (shl (reg_num rs) 21) (shl (reg_num rt) 16)) (shl 1 11)) 43;
       Z.lor (Z.lor (shl 20 26) (shl 1 21)) v1]
  (* 46 *)
  | I_Bgez => do! v <- imm_as_u32 imm;
      Ok [Z.lor (Z.lor (Z.lor (shl 1 26) (shl (reg_num rs) 21)) (shl 1 16)) v]
  (* 47 *)
  | I_Bgezal => do! v <- imm_as_u32 imm;
      Ok [Z.lor (Z.lor (Z.lor (shl 1 26) (shl (reg_num rs) 21)) (shl 17 16)) v]
  (* 48 *)
  | I_Bgezall => do! v <- imm_as_u32 imm;
      Ok [Z.lor (Z.lor (Z.lor (shl 1 26) (shl (reg_num rs) 21)) (shl 19 16)) v]
  (* 49 *)
  | I_Bgezl => do! v <- imm_as_u32 imm;
      Ok [Z.lor (Z.lor (Z.lor (shl 1 26) (shl (reg_num rs) 21)) (shl 3 16)) v]
  (* 50-53 *)
  | I_Bgt => do! v <- imm_as_u32 imm; do! v1 <- ck32 oc (v - 1);
      Ok [Z.lor (Z.lor (Z.lor (shl (reg_num rt) 21) (shl (reg_num rs) 16)) (shl 1 11)) 42;
       Z.lor (Z.lor (shl 5 26) (shl 1 21)) v1]
  (* 54-57 *)
  | I_Bgtl => do! v <- imm_as_u32 imm; do! v1 <- ck32 oc (v - 1);
      Ok [Z.lor (Z.lor (Z.lor (shl (reg_num rt) 21) (shl (reg_num rs) 16)) (shl 1 11)) 42;
       Z.lor (Z.lor (shl 21 26) (shl 1 21)) v1]
  (* 58-61 *)
  | I_Bgtu => do! v <- imm_as_u32 imm; do! v1 <- ck32 oc (v - 1);
      Ok [Z.lor (Z.lor (Z.lor (shl (reg_num rt) 21) (shl (reg_num rs) 16)) (shl 1 11)) 43;
       Z.lor (Z.lor (shl 5 26) (shl 1 21)) v1]
  (* 62-65 *)
  | I_Bgtul => do! v <- imm_as_u32 imm; do! v1 <- ck32 oc (v - 1);
      Ok [Z.lor (Z.lor (Z.lor (shl (reg_num rt) 21) (shl (reg_num rs) 16)) (shl 1 11)) 43;
       Z.lor (Z.lor (shl 21 26) (shl 1 21)) v1]
  (* 66 *)
  | I_Bgtz => do! v <- imm_as_u32 imm;
      Ok [Z.lor (Z.lor (shl 7 26) (shl (reg_num rs) 21)) v]
  (* 67 *)
  | I_Bgtzl => do! v <- imm_as_u32 imm;
      Ok [Z.lor (Z.lor (shl 23 26) (shl (reg_num rs) 21)) v]
  (* 68-71 *)
  | I_Ble => do! v <- imm_as_u32 imm; do! v1 <- ck32 oc (v - 1);
      Ok [Z.lor (Z.lor (Z.lor (shl (reg_num rt) 21) (shl (reg_num rs) 16)) (shl 1 11)) 42;
       Z.lor (Z.lor (shl 4 26) (shl 1 21)) v1]
  (* 72-75 *)
  | I_Blel => do! v <- imm_as_u32 imm; do! v1 <- ck32 oc (v - 1);
      Ok [Z.lor (Z.lor (Z.lor (shl (reg_num rt) 21) (shl (reg_num rs) 16)) (shl 1 11)) 42;
       Z.lor (Z.lor (shl 20 26) (shl 1 21)) v1]
  (* 76-79 *)
  | I_Bleu => do! v <- imm_as_u32 imm; do! v1 <- ck32 oc (v - 1);
      Ok [Z.lor (Z.lor (Z.lor (shl (reg_num rt) 21) (shl (reg_num rs) 16)) (shl 1 11)) 43;
       Z.lor (Z.lor (shl 4 26) (shl 1 21)) v1]
  (* 80-83 *)
  | I_Bleul => do! v <- imm_as_u32 imm; do! v1 <- ck32 oc (v - 1);
      Ok [Z.lor (Z.lor (Z.lor (shl (reg_num rt) 21) (shl (reg_num rs) 16)) (shl 1 11)) 43;
       Z.lor (Z.lor (shl 20 26) (shl 1 21)) v1]
  (* 84 *)
  | I_Blez => do! v <- imm_as_u32 imm;
      Ok [Z.lor (Z.lor (shl 6 26) (shl (reg_num rs) 21)) v]
  (* 85 *)
  | I_Blezl => do! v <- imm_as_u32 imm;
      Ok [Z.lor (Z.lor (shl 22 26) (shl (reg_num rs) 21)) v]
  (* 86-89 *)
  | I_Blt => do! v <- imm_as_u32 imm; do! v1 <- ck32 oc (v - 1);
      Ok [Z.lor (Z.lor (Z.lor (shl (reg_num rs) 21) (shl (reg_num rt) 16)) (shl 1 11)) 42;
       Z.lor (Z.lor (shl 5 26) (shl 1 21)) v1]
  (* 90-93 *)
  | I_Bltl => do! v <- imm_as_u32 imm; do! v1 <- ck32 oc (v - 1);
      Ok [Z.lor (Z.lor (Z.lor (shl (reg_num rs) 21) (shl (reg_num rt) 16)) (shl 1 11)) 42;
       Z.lor (Z.lor (shl 21 26) (shl 1 21)) v1]
  (* 94-97 *)
  | I_Bltu => do! v <- imm_as_u32 imm; do! v1 <- ck32 oc (v - 1);
      Ok [Z.lor (Z.lor (Z.lor (shl (reg_num rs) 21) (shl (reg_num rt) 16)) (shl 1 11)) 43;
       Z.lor (Z.lor (shl 5 26) (shl 1 21)) v1]
  (* 98-101 *)
  | I_Bltul => do! v <- imm_as_u32 imm; do! v1 <- ck32 oc (v - 1);
      Ok [Z.lor (Z.lor (Z.lor (shl (reg_num rs) 21) (shl (reg_num rt) 16)) (shl 1 11)) 43;
       Z.lor (Z.lor (shl 21 26) (shl 1 21)) v1]
  (* 102 *)
  | I_Bltz => do! v <- imm_as_u32 imm;
      Ok [Z.lor (Z.lor (shl 1 26) (shl (reg_num rs) 21)) v]
  (* 103 *)
  | I_Bltzal => do! v <- imm_as_u32 imm;
      Ok [Z.lor (Z.lor (Z.lor (shl 1 26) (shl (reg_num rs) 21)) (shl 16 16)) v]
  (* 104 *)
  | I_Bltzall => do! v <- imm_as_u32 imm;
      Ok [Z.lor (Z.lor (Z.lor (shl 1 26) (shl (reg_num rs) 21)) (shl 18 16)) v]
  (* 105 *)
  | I_Bltzl => do! v <- imm_as_u32 imm;
      Ok [Z.lor (Z.lor (Z.lor (shl 1 26) (shl (reg_num rs) 21)) (shl 2 16)) v]
  (* 106 *)
  | I_Bne => do! v <- imm_as_u32 imm;
      Ok [Z.lor (Z.lor (Z.lor (shl 5 26) (shl (reg_num rs) 21)) (shl (reg_num rt) 16)) v]
  (* 107 *)
  | I_Bnel => do! v <- imm_as_u32 imm;
      Ok [Z.lor (Z.lor (Z.lor (shl 21 26) (shl (reg_num rs) 21)) (shl (reg_num rt) 16)) v]
  (* 108 *)
  | I_Bnez => do! v <- imm_as_u32 imm;
      Ok [Z.lor (Z.lor (shl 5 26) (shl (reg_num rs) 21)) v]
  (* 109 *)
  | I_Bnezl => do! v <- imm_as_u32 imm;
      Ok [Z.lor (Z.lor (shl 21 26) (shl (reg_num rs) 21)) v]
  (* 110 *)
  | I_Cache => do! v <- imm_as_u32 imm;
      Ok [Z.lor (Z.lor (Z.lor (shl 47 26) (shl (reg_num rs) 21)) (shl (reg_num rt) 16)) v]
  (* 111 *)
  | I_Daddi => do! v <- imm_as_u32 imm;
      Ok [Z.lor (Z.lor (Z.lor (shl 24 26) (shl (reg_num rs) 21)) (shl (reg_num rt) 16)) v]
  (* 112 *)
  | I_Daddiu => do! v <- imm_as_u32 imm;
      Ok [Z.lor (Z.lor (Z.lor (shl 25 26) (shl (reg_num rs) 21)) (shl (reg_num rt) 16)) v]
  (* 113-121 *)
  | I_Dli => do! v <- imm_as_u64 imm;
      Ok [Z.lor (Z.lor (shl 15 26) (shl (reg_num rt) 16)) (wrap 32 (shr v 48));
       Z.lor (Z.lor (Z.lor (shl 13 26) (shl (reg_num rt) 21)) (shl (reg_num rt) 16)) (wrap 32 (Z.land (shr v 32) 65535));
       Z.lor (Z.lor (Z.lor (shl (reg_num rt) 16) (shl (reg_num rt) 11)) (shl 16 6)) 56;
       Z.lor (Z.lor (Z.lor (shl 13 26) (shl (reg_num rt) 21)) (shl (reg_num rt) 16)) (wrap 32 (Z.land (shr v 16) 65535));
       Z.lor (Z.lor (Z.lor (shl (reg_num rt) 16) (shl (reg_num rt) 11)) (shl 16 6)) 56;
       Z.lor (Z.lor (Z.lor (shl 13 26) (shl (reg_num rt) 21)) (shl (reg_num rt) 16)) (wrap 32 (Z.land v 65535))]
  (* 122 *)
  | I_Dsubi => do! v <- imm_as_u32 imm;
      Ok [Z.lor (Z.lor (Z.lor (shl 24 26) (shl (reg_num rs) 21)) (shl (reg_num rt) 16)) (Z.land (wrap 32 (- v)) 65535)]
  (* 123 *)
  | I_Dsubiu => do! v <- imm_as_u32 imm;
      Ok [Z.lor (Z.lor (Z.lor (shl 25 26) (shl (reg_num rs) 21)) (shl (reg_num rt) 16)) (Z.land (wrap 32 (- v)) 65535)]
  (* 124 *)
  | I_Lb => do! v <- imm_as_u32 imm;
      Ok [Z.lor (Z.lor (Z.lor (shl 32 26) (shl (reg_num rs) 21)) (shl (reg_num rt) 16)) v]
  (* 125 *)
  | I_Lbu => do! v <- imm_as_u32 imm;
      Ok [Z.lor (Z.lor (Z.lor (shl 36 26) (shl (reg_num rs) 21)) (shl (reg_num rt) 16)) v]
  (* 126 *)
  | I_Ld => do! v <- imm_as_u32 imm;
      Ok [Z.lor (Z.lor (Z.lor (shl 55 26) (shl (reg_num rs) 21)) (shl (reg_num rt) 16)) v]
  (* 127 *)
  | I_Ldc1 => do! v <- imm_as_u32 imm;
      Ok [Z.lor (Z.lor (Z.lor (shl 53 26) (shl (reg_num rs) 21)) (shl (reg_num rt) 16)) v]
  (* 128 *)
  | I_Ldl => do! v <- imm_as_u32 imm;
      Ok [Z.lor (Z.lor (Z.lor (shl 26 26) (shl (reg_num rs) 21)) (shl (reg_num rt) 16)) v]
  (* 129 *)
  | I_Ldr => do! v <- imm_as_u32 imm;
      Ok [Z.lor (Z.lor (Z.lor (shl 27 26) (shl (reg_num rs) 21)) (shl (reg_num rt) 16)) v]
  (* 130 *)
  | I_Lh => do! v <- imm_as_u32 imm;
      Ok [Z.lor (Z.lor (Z.lor (shl 33 26) (shl (reg_num rs) 21)) (shl (reg_num rt) 16)) v]
  (* 131 *)
  | I_Lhu => do! v <- imm_as_u32 imm;
      Ok [Z.lor (Z.lor (Z.lor (shl 37 26) (shl (reg_num rs) 21)) (shl (reg_num rt) 16)) v]
  (* 132-157 *)
  | I_Li => do! v <- imm_as_u32 imm; Ok (enc_li rt v)
  (* 158-176 *)
  | I_Liu => do! v <- imm_as_u32 imm; Ok (enc_liu rt v)
  (* 177 *)
  | I_Ll => do! v <- imm_as_u32 imm;
      Ok [Z.lor (Z.lor (Z.lor (shl 48 26) (shl (reg_num rs) 21)) (shl (reg_num rt) 16)) v]
  (* 178 *)
  | I_Lld => do! v <- imm_as_u32 imm;
      Ok [Z.lor (Z.lor (Z.lor (shl 52 26) (shl (reg_num rs) 21)) (shl (reg_num rt) 16)) v]
  (* 179 *)
  | I_Lli => do! v <- imm_as_u32 imm;
      Ok [Z.lor (Z.lor (shl 13 26) (shl (reg_num rt) 16)) v]
  (* 180 *)
  | I_Lui => do! v <- imm_as_u32 imm;
      Ok [Z.lor (Z.lor (shl 15 26) (shl (reg_num rt) 16)) v]
  (* 181 *)
  | I_Lw => do! v <- imm_as_u32 imm;
      Ok [Z.lor (Z.lor (Z.lor (shl 35 26) (shl (reg_num rs) 21)) (shl (reg_num rt) 16)) v]
  (* 182 *)
  | I_Lwc1 => do! v <- imm_as_u32 imm;
      Ok [Z.lor (Z.lor (Z.lor (shl 49 26) (shl (reg_num rs) 21)) (shl (reg_num rt) 16)) v]
  (* 183 *)
  | I_Lwl => do! v <- imm_as_u32 imm;
      Ok [Z.lor (Z.lor (Z.lor (shl 34 26) (shl (reg_num rs) 21)) (shl (reg_num rt) 16)) v]
  (* 184 *)
  | I_Lwr => do! v <- imm_as_u32 imm;
      Ok [Z.lor (Z.lor (Z.lor (shl 38 26) (shl (reg_num rs) 21)) (shl (reg_num rt) 16)) v]
  (* 185 *)
  | I_Lwu => do! v <- imm_as_u32 imm;
      Ok [Z.lor (Z.lor (Z.lor (shl 39 26) (shl (reg_num rs) 21)) (shl (reg_num rt) 16)) v]
  (* 186 *)
  | I_Ori => do! v <- imm_as_u32 imm;
      Ok [Z.lor (Z.lor (Z.lor (shl 13 26) (shl (reg_num rs) 21)) (shl (reg_num rt) 16)) v]
  (* 187 *)
  | I_Sb => do! v <- imm_as_u32 imm;
      Ok [Z.lor (Z.lor (Z.lor (shl 40 26) (shl (reg_num rs) 21)) (shl (reg_num rt) 16)) v]
  (* 188 *)
  | I_Sc => do! v <- imm_as_u32 imm;
      Ok [Z.lor (Z.lor (Z.lor (shl 56 26) (shl (reg_num rs) 21)) (shl (reg_num rt) 16)) v]
  (* 189 *)
  | I_Scd => do! v <- imm_as_u32 imm;
      Ok [Z.lor (Z.lor (Z.lor (shl 60 26) (shl (reg_num rs) 21)) (shl (reg_num rt) 16)) v]
  (* 190 *)
  | I_Sd => do! v <- imm_as_u32 imm;
      Ok [Z.lor (Z.lor (Z.lor (shl 63 26) (shl (reg_num rs) 21)) (shl (reg_num rt) 16)) v]
  (* 191 *)
  | I_Sdc1 => do! v <- imm_as_u32 imm;
      Ok [Z.lor (Z.lor (Z.lor (shl 61 26) (shl (reg_num rs) 21)) (shl (reg_num rt) 16)) v]
  (* 192 *)
  | I_Sdl => do! v <- imm_as_u32 imm;
      Ok [Z.lor (Z.lor (Z.lor (shl 44 26) (shl (reg_num rs) 21)) (shl (reg_num rt) 16)) v]
  (* 193 *)
  | I_Sdr => do! v <- imm_as_u32 imm;
      Ok [Z.lor (Z.lor (Z.lor (shl 45 26) (shl (reg_num rs) 21)) (shl (reg_num rt) 16)) v]
  (* 194 *)
  | I_Sh => do! v <- imm_as_u32 imm;
      Ok [Z.lor (Z.lor (Z.lor (shl 41 26) (shl (reg_num rs) 21)) (shl (reg_num rt) 16)) v]
  (* 195 *)
  | I_Slti => do! v <- imm_as_u32 imm;
      Ok [Z.lor (Z.lor (Z.lor (shl 10 26) (shl (reg_num rs) 21)) (shl (reg_num rt) 16)) v]
  (* 196 *)
  | I_Sltiu => do! v <- imm_as_u32 imm;
      Ok [Z.lor (Z.lor (Z.lor (shl 11 26) (shl (reg_num rs) 21)) (shl (reg_num rt) 16)) v]
  (* 197 *)
  | I_Subi => do! v <- imm_as_u32 imm; do! n <- neg_i32 oc v;
      Ok [Z.lor (Z.lor (Z.lor (shl 8 26) (shl (reg_num rs) 21)) (shl (reg_num rt) 16)) (Z.land n 65535)]
  (* 198 *)
  | I_Subiu => do! v <- imm_as_u32 imm; do! n <- neg_i32 oc v;
      Ok [Z.lor (Z.lor (Z.lor (shl 9 26) (shl (reg_num rs) 21)) (shl (reg_num rt) 16)) (Z.land n 65535)]
  (* 199 *)
  | I_Sw => do! v <- imm_as_u32 imm;
      Ok [Z.lor (Z.lor (Z.lor (shl 43 26) (shl (reg_num rs) 21)) (shl (reg_num rt) 16)) v]
  (* 200 *)
  | I_Swc1 => do! v <- imm_as_u32 imm;
      Ok [Z.lor (Z.lor (Z.lor (shl 57 26) (shl (reg_num rs) 21)) (shl (reg_num rt) 16)) v]
  (* 201 *)
  | I_Swl => do! v <- imm_as_u32 imm;
      Ok [Z.lor (Z.lor (Z.lor (shl 42 26) (shl (reg_num rs) 21)) (shl (reg_num rt) 16)) v]
  (* 202 *)
  | I_Swr => do! v <- imm_as_u32 imm;
      Ok [Z.lor (Z.lor (Z.lor (shl 46 26) (shl (reg_num rs) 21)) (shl (reg_num rt) 16)) v]
  (* 203 *)
  | I_Teqi => do! v <- imm_as_u32 imm;
      Ok [Z.lor (Z.lor (Z.lor (shl 1 26) (shl (reg_num rs) 21)) (shl 12 16)) v]
  (* 204 *)
  | I_Tgei => do! v <- imm_as_u32 imm;
      Ok [Z.lor (Z.lor (Z.lor (shl 1 26) (shl (reg_num rs) 21)) (shl 8 16)) v]
  (* 205 *)
  | I_Tgeiu => do! v <- imm_as_u32 imm;
      Ok [Z.lor (Z.lor (Z.lor (shl 1 26) (shl (reg_num rs) 21)) (shl 9 16)) v]
  (* 206 *)
  | I_Tlti => do! v <- imm_as_u32 imm;
      Ok [Z.lor (Z.lor (Z.lor (shl 1 26) (shl (reg_num rs) 21)) (shl 10 16)) v]
  (* 207 *)
  | I_Tltiu => do! v <- imm_as_u32 imm;
      Ok [Z.lor (Z.lor (Z.lor (shl 1 26) (shl (reg_num rs) 21)) (shl 11 16)) v]
  (* 208 *)
  | I_Tnei => do! v <- imm_as_u32 imm;
      Ok [Z.lor (Z.lor (Z.lor (shl 1 26) (shl (reg_num rs) 21)) (shl 14 16)) v]
  (* 209 *)
  | I_Xori => do! v <- imm_as_u32 imm;
      Ok [Z.lor (Z.lor (Z.lor (shl 14 26) (shl (reg_num rs) 21)) (shl (reg_num rt) 16)) v]
  end.

(** src/assembler.rs:211-214  jumps *)
Definition enc_j {E} (op : jop) (tgt : target) : outcome E (list Z) :=
  match op with
  (* 212 *)
  | J_J => do! t <- target_as_u32 tgt; Ok [Z.lor (shl 2 26) (shr (Z.land t 67108863) 2)]
  (* 213 *)
  | J_Jal => do! t <- target_as_u32 tgt; Ok [Z.lor (shl 3 26) (shr (Z.land t 67108863) 2)]
  end.

(** src/assembler.rs:215-498  register instructions *)
Definition enc_r (op : rop) (rs rt rd : reg) (sa : Z) : list Z :=
  match op with
  (* 216-220 *)
  | R_Abs => [Z.lor (Z.lor (Z.lor (shl (reg_num rs) 16) (shl 1 11)) (shl 31 6)) 3;
       Z.lor (Z.lor (Z.lor (shl (reg_num rs) 21) (shl 1 16)) (shl (reg_num rd) 11)) 38;
       Z.lor (Z.lor (Z.lor (shl (reg_num rd) 21) (shl 1 16)) (shl (reg_num rd) 11)) 35]
  (* 221 *)
  | R_AbsS => [Z.lor (Z.lor (Z.lor (Z.lor (shl 17 26) (shl 16 21)) (shl (reg_num rs) 11)) (shl (reg_num rd) 6)) 5]
  (* 222 *)
  | R_AbsD => [Z.lor (Z.lor (Z.lor (Z.lor (shl 17 26) (shl 17 21)) (shl (reg_num rs) 11)) (shl (reg_num rd) 6)) 5]
  (* 223 *)
  | R_Add => [Z.lor (Z.lor (Z.lor (shl (reg_num rs) 21) (shl (reg_num rt) 16)) (shl (reg_num rd) 11)) 32]
  (* 224 *)
  | R_Addu => [Z.lor (Z.lor (Z.lor (shl (reg_num rs) 21) (shl (reg_num rt) 16)) (shl (reg_num rd) 11)) 33]
  (* 225 *)
  | R_AddS => [Z.lor (Z.lor (Z.lor (Z.lor (shl 17 26) (shl 16 21)) (shl (reg_num rt) 16)) (shl (reg_num rs) 11)) (shl (reg_num rd) 6)]
  (* 226 *)
  | R_AddD => [Z.lor (Z.lor (Z.lor (Z.lor (shl 17 26) (shl 17 21)) (shl (reg_num rt) 16)) (shl (reg_num rs) 11)) (shl (reg_num rd) 6)]
  (* 227 *)
  | R_And => [Z.lor (Z.lor (Z.lor (shl (reg_num rs) 21) (shl (reg_num rt) 16)) (shl (reg_num rd) 11)) 36]
  (* 228 *)
  | R_Break => [Z.lor (shl sa 6) 13]
  (* 229 *)
  | R_Clear => [Z.lor (shl (reg_num rd) 11) 33]
  (* 230 *)
  | R_Cs => [Z.lor (Z.lor (Z.lor (Z.lor (Z.lor (shl 17 26) (shl 16 21)) (shl (reg_num rt) 16)) (shl (reg_num rs) 11)) (shl 3 4)) sa]
  (* 231 *)
  | R_Cd => [Z.lor (Z.lor (Z.lor (Z.lor (Z.lor (shl 17 26) (shl 17 21)) (shl (reg_num rt) 16)) (shl (reg_num rs) 11)) (shl 3 4)) sa]
  (* 232 *)
  | R_CeilLS => [Z.lor (Z.lor (Z.lor (Z.lor (shl 17 26) (shl 16 21)) (shl (reg_num rs) 11)) (shl (reg_num rd) 6)) 10]
  (* 233 *)
  | R_CeilLD => [Z.lor (Z.lor (Z.lor (Z.lor (shl 17 26) (shl 17 21)) (shl (reg_num rs) 11)) (shl (reg_num rd) 6)) 10]
  (* 234 *)
  | R_CeilWS => [Z.lor (Z.lor (Z.lor (Z.lor (shl 17 26) (shl 16 21)) (shl (reg_num rs) 11)) (shl (reg_num rd) 6)) 14]
  (* 235 *)
  | R_CeilWD => [Z.lor (Z.lor (Z.lor (Z.lor (shl 17 26) (shl 17 21)) (shl (reg_num rs) 11)) (shl (reg_num rd) 6)) 14]
  (* 236 *)
  | R_Cfc0 => [Z.lor (Z.lor (Z.lor (shl 16 26) (shl 2 21)) (shl (reg_num rt) 16)) (shl (reg_num rd) 11)]
  (* 237 *)
  | R_Cfc1 => [Z.lor (Z.lor (Z.lor (shl 17 26) (shl 2 21)) (shl (reg_num rt) 16)) (shl (reg_num rd) 11)]
  (* 238 *)
  | R_Ctc0 => [Z.lor (Z.lor (Z.lor (shl 16 26) (shl 6 21)) (shl (reg_num rt) 16)) (shl (reg_num rd) 11)]
  (* 239 *)
  | R_Ctc1 => [Z.lor (Z.lor (Z.lor (shl 17 26) (shl 6 21)) (shl (reg_num rt) 16)) (shl (reg_num rd) 11)]
  (* 240 *)
  | R_CvtDS => [Z.lor (Z.lor (Z.lor (Z.lor (shl 17 26) (shl 16 21)) (shl (reg_num rs) 11)) (shl (reg_num rd) 6)) 33]
  (* 241 *)
  | R_CvtDW => [Z.lor (Z.lor (Z.lor (Z.lor (shl 17 26) (shl 20 21)) (shl (reg_num rs) 11)) (shl (reg_num rd) 6)) 33]
  (* 242 *)
  | R_CvtDL => [Z.lor (Z.lor (Z.lor (Z.lor (shl 17 26) (shl 21 21)) (shl (reg_num rs) 11)) (shl (reg_num rd) 6)) 33]
  (* 243 *)
  | R_CvtLS => [Z.lor (Z.lor (Z.lor (Z.lor (shl 17 26) (shl 16 21)) (shl (reg_num rs) 11)) (shl (reg_num rd) 6)) 37]
  (* 244 *)
  | R_CvtLD => [Z.lor (Z.lor (Z.lor (Z.lor (shl 17 26) (shl 17 21)) (shl (reg_num rs) 11)) (shl (reg_num rd) 6)) 37]
  (* 245 *)
  | R_CvtSD => [Z.lor (Z.lor (Z.lor (Z.lor (shl 17 26) (shl 17 21)) (shl (reg_num rs) 11)) (shl (reg_num rd) 6)) 32]
  (* 246 *)
  | R_CvtSW => [Z.lor (Z.lor (Z.lor (Z.lor (shl 17 26) (shl 20 21)) (shl (reg_num rs) 11)) (shl (reg_num rd) 6)) 32]
  (* 247 *)
  | R_CvtSL => [Z.lor (Z.lor (Z.lor (Z.lor (shl 17 26) (shl 21 21)) (shl (reg_num rs) 11)) (shl (reg_num rd) 6)) 32]
  (* 248 *)
  | R_CvtWS => [Z.lor (Z.lor (Z.lor (Z.lor (shl 17 26) (shl 16 21)) (shl (reg_num rs) 11)) (shl (reg_num rd) 6)) 36]
  (* 249 *)
  | R_CvtWD => [Z.lor (Z.lor (Z.lor (Z.lor (shl 17 26) (shl 17 21)) (shl (reg_num rs) 11)) (shl (reg_num rd) 6)) 36]
  (* 250-254 *)
  | R_Dabs => [Z.lor (Z.lor (Z.lor (shl (reg_num rs) 16) (shl 1 11)) (shl 31 6)) 59;
       Z.lor (Z.lor (Z.lor (shl (reg_num rs) 21) (shl 1 16)) (shl (reg_num rd) 11)) 38;
       Z.lor (Z.lor (Z.lor (shl (reg_num rd) 21) (shl 1 16)) (shl (reg_num rd) 11)) 46]
  (* 255 *)
  | R_Dadd => [Z.lor (Z.lor (Z.lor (shl (reg_num rs) 21) (shl (reg_num rt) 16)) (shl (reg_num rd) 11)) 44]
  (* 256 *)
  | R_Daddu => [Z.lor (Z.lor (Z.lor (shl (reg_num rs) 21) (shl (reg_num rt) 16)) (shl (reg_num rd) 11)) 45]
  (* 257-271 *)
  | R_Ddiv => if reg_num rt =? 0 then [Z.lor (Z.lor (shl (reg_num rd) 21) (shl (reg_num rs) 16)) 30]
      else [Z.lor (Z.lor (shl (reg_num rt) 21) (shl 7 6)) 52;
       Z.lor (Z.lor (shl (reg_num rs) 21) (shl (reg_num rt) 16)) 30;
       Z.lor (Z.lor (shl 25 26) (shl 1 16)) 65535;
       Z.lor (Z.lor (Z.lor (shl 5 26) (shl (reg_num rt) 21)) (shl 1 16)) 4;
       Z.lor (Z.lor (shl 25 26) (shl 1 16)) 1;
       Z.lor (Z.lor (Z.lor (shl 1 16) (shl 1 11)) (shl 31 6)) 60;
       Z.lor (Z.lor (Z.lor (shl (reg_num rs) 21) (shl 1 16)) (shl 6 6)) 52;
       Z.lor (shl (reg_num rd) 11) 18]
  (* 272-280 *)
  | R_Ddivu => if reg_num rt =? 0 then [Z.lor (Z.lor (shl (reg_num rd) 21) (shl (reg_num rs) 16)) 31]
      else [Z.lor (Z.lor (shl (reg_num rt) 21) (shl 7 6)) 52;
       Z.lor (Z.lor (shl (reg_num rs) 21) (shl (reg_num rt) 16)) 31;
       Z.lor (shl (reg_num rd) 11) 18]
  (* 281-292 *)
  | R_Div => if reg_num rt =? 0 then [Z.lor (Z.lor (shl (reg_num rd) 21) (shl (reg_num rs) 16)) 26]
      else [Z.lor (Z.lor (shl (reg_num rt) 21) (shl 7 6)) 52;
       Z.lor (Z.lor (shl (reg_num rs) 21) (shl (reg_num rt) 16)) 26;
       Z.lor (Z.lor (shl 15 26) (shl 1 16)) 65535;
       Z.lor (Z.lor (Z.lor (shl 13 26) (shl 1 21)) (shl 1 16)) 65535;
       Z.lor (Z.lor (Z.lor (shl 5 26) (shl (reg_num rt) 21)) (shl 1 16)) 3;
       Z.lor (Z.lor (shl 15 26) (shl 1 16)) 32768;
       Z.lor (Z.lor (Z.lor (shl (reg_num rs) 21) (shl 1 16)) (shl 6 6)) 52;
       Z.lor (shl (reg_num rd) 11) 18]
  (* 293-299 *)
  | R_Divu => if reg_num rt =? 0 then [Z.lor (Z.lor (shl (reg_num rd) 21) (shl (reg_num rs) 16)) 27]
      else [Z.lor (Z.lor (shl (reg_num rt) 21) (shl 7 6)) 52;
       Z.lor (Z.lor (shl (reg_num rs) 21) (shl (reg_num rt) 16)) 27;
       Z.lor (shl (reg_num rd) 11) 18]
  (* 300 *)
  | R_DivS => [Z.lor (Z.lor (Z.lor (Z.lor (Z.lor (shl 17 26) (shl 16 21)) (shl (reg_num rt) 16)) (shl (reg_num rs) 11)) (shl (reg_num rd) 6)) 3]
  (* 301 *)
  | R_DivD => [Z.lor (Z.lor (Z.lor (Z.lor (Z.lor (shl 17 26) (shl 17 21)) (shl (reg_num rt) 16)) (shl (reg_num rs) 11)) (shl (reg_num rd) 6)) 3]
  (* 302 *)
  | R_Dmfc0 => [Z.lor (Z.lor (Z.lor (shl 16 26) (shl 1 21)) (shl (reg_num rt) 16)) (shl (reg_num rd) 11)]
  (* 303 *)
  | R_Dmfc1 => [Z.lor (Z.lor (Z.lor (shl 17 26) (shl 1 21)) (shl (reg_num rt) 16)) (shl (reg_num rd) 11)]
  (* 304 *)
  | R_Dmove => [Z.lor (Z.lor (shl (reg_num rs) 21) (shl (reg_num rd) 11)) 45]
  (* 305 *)
  | R_Dmtc0 => [Z.lor (Z.lor (Z.lor (shl 16 26) (shl 5 21)) (shl (reg_num rt) 16)) (shl (reg_num rd) 11)]
  (* 306 *)
  | R_Dmtc1 => [Z.lor (Z.lor (Z.lor (shl 17 26) (shl 5 21)) (shl (reg_num rt) 16)) (shl (reg_num rd) 11)]
  (* 307-310 *)
  | R_Dmul => [Z.lor (Z.lor (shl (reg_num rs) 21) (shl (reg_num rt) 16)) 28;
       Z.lor (shl (reg_num rd) 11) 18]
  (* 311-318 *)
  | R_Dmulo => [Z.lor (Z.lor (shl (reg_num rs) 21) (shl (reg_num rt) 16)) 28;
       Z.lor (shl (reg_num rd) 11) 18;
       Z.lor (Z.lor (Z.lor (shl (reg_num rd) 16) (shl (reg_num rd) 11)) (shl 31 6)) 63;
       Z.lor (shl 1 11) 16;
       Z.lor (Z.lor (Z.lor (shl (reg_num rd) 21) (shl 1 16)) (shl 6 6)) 54;
       Z.lor (shl (reg_num rd) 11) 18]
  (* 319-324 *)
  | R_Dmulou => [Z.lor (Z.lor (shl (reg_num rs) 21) (shl (reg_num rt) 16)) 29;
       Z.lor (shl 1 11) 16;
       Z.lor (shl (reg_num rd) 11) 18;
       Z.lor (Z.lor (shl 1 21) (shl 6 6)) 54]
  (* 325 *)
  | R_Dmult => [Z.lor (Z.lor (shl (reg_num rs) 21) (shl (reg_num rt) 16)) 28]
  (* 326-329 *)
  | R_Dmulu => [Z.lor (Z.lor (shl (reg_num rs) 21) (shl (reg_num rt) 16)) 29;
       Z.lor (shl (reg_num rd) 11) 18]
  (* 330 *)
  | R_Dmultu => [Z.lor (Z.lor (shl (reg_num rs) 21) (shl (reg_num rt) 16)) 29]
  (* 331 *)
  | R_Dneg => [Z.lor (Z.lor (shl (reg_num rs) 16) (shl (reg_num rd) 11)) 46]
  (* 332 *)
  | R_Dnegu => [Z.lor (Z.lor (shl (reg_num rs) 16) (shl (reg_num rd) 11)) 47]
  (* 333-342 *)
  | R_Drem => [Z.lor (Z.lor (shl (reg_num rt) 21) (shl 7 6)) 52;
       Z.lor (Z.lor (shl (reg_num rs) 21) (shl (reg_num rt) 16)) 30;
       Z.lor (Z.lor (shl 25 26) (shl 1 16)) 65535;
       Z.lor (Z.lor (Z.lor (shl 5 26) (shl (reg_num rt) 21)) (shl 1 16)) 4;
       Z.lor (Z.lor (shl 25 26) (shl 1 16)) 1;
       Z.lor (Z.lor (Z.lor (shl 1 16) (shl 1 11)) (shl 31 6)) 60;
       Z.lor (Z.lor (Z.lor (shl (reg_num rs) 21) (shl 1 16)) (shl 6 6)) 52;
       Z.lor (shl (reg_num rd) 11) 16]
  (* 343-347 *)
  | R_Dremu => [Z.lor (Z.lor (shl (reg_num rt) 21) (shl 7 6)) 52;
       Z.lor (Z.lor (shl (reg_num rs) 21) (shl (reg_num rt) 16)) 31;
       Z.lor (shl (reg_num rd) 11) 16]
  (* 348-353 *)
  | R_Drol => [Z.lor (Z.lor (shl (reg_num rt) 16) (shl 1 11)) 47;
       Z.lor (Z.lor (Z.lor (shl 1 21) (shl (reg_num rs) 16)) (shl 1 11)) 22;
       Z.lor (Z.lor (Z.lor (shl (reg_num rt) 21) (shl (reg_num rs) 16)) (shl (reg_num rd) 11)) 20;
       Z.lor (Z.lor (Z.lor (shl (reg_num rd) 21) (shl 1 16)) (shl (reg_num rd) 11)) 37]
  (* 354-359 *)
  | R_Dror => [Z.lor (Z.lor (shl (reg_num rt) 16) (shl 1 11)) 47;
       Z.lor (Z.lor (Z.lor (shl 1 21) (shl (reg_num rs) 16)) (shl 1 11)) 20;
       Z.lor (Z.lor (Z.lor (shl (reg_num rt) 21) (shl (reg_num rs) 16)) (shl (reg_num rd) 11)) 22;
       Z.lor (Z.lor (Z.lor (shl (reg_num rd) 21) (shl 1 16)) (shl (reg_num rd) 11)) 37]
  (* 360 *)
  | R_Dsll => [Z.lor (Z.lor (Z.lor (shl (reg_num rt) 16) (shl (reg_num rd) 11)) (shl sa 6)) 56]
  (* 361 *)
  | R_Dsll32 => [Z.lor (Z.lor (Z.lor (shl (reg_num rt) 16) (shl (reg_num rd) 11)) (shl sa 6)) 60]
  (* 362 *)
  | R_Dsllv => [Z.lor (Z.lor (Z.lor (shl (reg_num rs) 21) (shl (reg_num rt) 16)) (shl (reg_num rd) 11)) 20]
  (* 363 *)
  | R_Dsra => [Z.lor (Z.lor (Z.lor (shl (reg_num rt) 16) (shl (reg_num rd) 11)) (shl sa 6)) 59]
  (* 364 *)
  | R_Dsra32 => [Z.lor (Z.lor (Z.lor (shl (reg_num rt) 16) (shl (reg_num rd) 11)) (shl sa 6)) 63]
  (* 365 *)
  | R_Dsrav => [Z.lor (Z.lor (Z.lor (shl (reg_num rs) 21) (shl (reg_num rt) 16)) (shl (reg_num rd) 11)) 23]
  (* 366 *)
  | R_Dsrl => [Z.lor (Z.lor (Z.lor (shl (reg_num rt) 16) (shl (reg_num rd) 11)) (shl sa 6)) 58]
  (* 367 *)
  | R_Dsrl32 => [Z.lor (Z.lor (Z.lor (shl (reg_num rt) 16) (shl (reg_num rd) 11)) (shl sa 6)) 62]
  (* 368 *)
  | R_Dsrlv => [Z.lor (Z.lor (Z.lor (shl (reg_num rs) 21) (shl (reg_num rt) 16)) (shl (reg_num rd) 11)) 22]
  (* 369 *)
  | R_Dsub => [Z.lor (Z.lor (Z.lor (shl (reg_num rs) 21) (shl (reg_num rt) 16)) (shl (reg_num rd) 11)) 46]
  (* 370 *)
  | R_Dsubu => [Z.lor (Z.lor (Z.lor (shl (reg_num rs) 21) (shl (reg_num rt) 16)) (shl (reg_num rd) 11)) 47]
  (* 371 *)
  | R_Eret => [Z.lor (Z.lor (shl 16 26) (shl 1 25)) 24]
  (* 372 *)
  | R_FloorLS => [Z.lor (Z.lor (Z.lor (Z.lor (shl 17 26) (shl 16 21)) (shl (reg_num rs) 11)) (shl (reg_num rd) 6)) 11]
  (* 373 *)
  | R_FloorLD => [Z.lor (Z.lor (Z.lor (Z.lor (shl 17 26) (shl 17 21)) (shl (reg_num rs) 11)) (shl (reg_num rd) 6)) 11]
  (* 374 *)
  | R_FloorWS => [Z.lor (Z.lor (Z.lor (Z.lor (shl 17 26) (shl 16 21)) (shl (reg_num rs) 11)) (shl (reg_num rd) 6)) 15]
  (* 375 *)
  | R_FloorWD => [Z.lor (Z.lor (Z.lor (Z.lor (shl 17 26) (shl 17 21)) (shl (reg_num rs) 11)) (shl (reg_num rd) 6)) 15]
  (* 376 *)
  | R_Jalr => [Z.lor (Z.lor (shl (reg_num rs) 21) (shl (reg_num rd) 11)) 9]
  (* 377 *)
  | R_Jr => [Z.lor (shl (reg_num rs) 21) 8]
  (* 378 *)
  | R_Mfc0 => [Z.lor (Z.lor (shl 16 26) (shl (reg_num rt) 16)) (shl (reg_num rd) 11)]
  (* 379 *)
  | R_Mfc1 => [Z.lor (Z.lor (shl 17 26) (shl (reg_num rt) 16)) (shl (reg_num rd) 11)]
  (* 380 *)
  | R_Mfhi => [Z.lor (shl (reg_num rd) 11) 16]
  (* 381 *)
  | R_Mflo => [Z.lor (shl (reg_num rd) 11) 18]
  (* 382 *)
  | R_Move => [Z.lor (Z.lor (shl (reg_num rs) 16) (shl (reg_num rd) 11)) 33]
  (* 383 *)
  | R_MovS => [Z.lor (Z.lor (Z.lor (Z.lor (shl 17 26) (shl 16 21)) (shl (reg_num rs) 11)) (shl (reg_num rd) 6)) 6]
  (* 384 *)
  | R_MovD => [Z.lor (Z.lor (Z.lor (Z.lor (shl 17 26) (shl 17 21)) (shl (reg_num rs) 11)) (shl (reg_num rd) 6)) 6]
  (* 385 *)
  | R_Mtc0 => [Z.lor (Z.lor (Z.lor (shl 16 26) (shl 4 21)) (shl (reg_num rt) 16)) (shl (reg_num rd) 11)]
  (* 386 *)
  | R_Mtc1 => [Z.lor (Z.lor (Z.lor (shl 17 26) (shl 4 21)) (shl (reg_num rt) 16)) (shl (reg_num rd) 11)]
  (* 387 *)
  | R_Mthi => [Z.lor (shl (reg_num rs) 21) 17]
  (* 388 *)
  | R_Mtlo => [Z.lor (shl (reg_num rs) 21) 19]
  (* 389-392 *)
  | R_Mul => [Z.lor (Z.lor (shl (reg_num rs) 21) (shl (reg_num rt) 16)) 24;
       Z.lor (shl (reg_num rd) 11) 18]
  (* 393-396 *)
  | R_Mulu => [Z.lor (Z.lor (shl (reg_num rs) 21) (shl (reg_num rt) 16)) 25;
       Z.lor (shl (reg_num rd) 11) 18]
  (* 397 *)
  | R_MulS => [Z.lor (Z.lor (Z.lor (Z.lor (Z.lor (shl 17 26) (shl 16 21)) (shl (reg_num rt) 16)) (shl (reg_num rs) 11)) (shl (reg_num rd) 6)) 2]
  (* 398 *)
  | R_MulD => [Z.lor (Z.lor (Z.lor (Z.lor (Z.lor (shl 17 26) (shl 17 21)) (shl (reg_num rt) 16)) (shl (reg_num rs) 11)) (shl (reg_num rd) 6)) 2]
  (* 399-406 *)
  | R_Mulo => [Z.lor (Z.lor (shl (reg_num rs) 21) (shl (reg_num rt) 16)) 24;
       Z.lor (shl (reg_num rd) 11) 18;
       Z.lor (Z.lor (Z.lor (shl (reg_num rd) 16) (shl (reg_num rd) 11)) (shl 31 6)) 3;
       Z.lor (shl 1 11) 16;
       Z.lor (Z.lor (Z.lor (shl (reg_num rd) 21) (shl 1 16)) (shl 6 6)) 54;
       Z.lor (shl (reg_num rd) 11) 18]
  (* 407-412 *)
  | R_Mulou => [Z.lor (Z.lor (shl (reg_num rs) 21) (shl (reg_num rt) 16)) 25;
       Z.lor (shl 1 11) 16;
       Z.lor (shl (reg_num rd) 11) 18;
       Z.lor (Z.lor (shl 1 21) (shl 6 6)) 54]
  (* 413 *)
  | R_Mult => [Z.lor (Z.lor (shl (reg_num rs) 21) (shl (reg_num rt) 16)) 24]
  (* 414 *)
  | R_Multu => [Z.lor (Z.lor (shl (reg_num rs) 21) (shl (reg_num rt) 16)) 25]
  (* 415 *)
  | R_Neg => [Z.lor (Z.lor (shl (reg_num rs) 16) (shl (reg_num rd) 11)) 34]
  (* 416 *)
  | R_Negu => [Z.lor (Z.lor (shl (reg_num rs) 16) (shl (reg_num rd) 11)) 35]
  (* 417 *)
  | R_NegS => [Z.lor (Z.lor (Z.lor (Z.lor (shl 17 26) (shl 16 21)) (shl (reg_num rs) 11)) (shl (reg_num rd) 6)) 7]
  (* 418 *)
  | R_NegD => [Z.lor (Z.lor (Z.lor (Z.lor (shl 17 26) (shl 17 21)) (shl (reg_num rs) 11)) (shl (reg_num rd) 6)) 7]
  (* 419 *)
  | R_Nop => [0]
  (* 420 *)
  | R_Nor => [Z.lor (Z.lor (Z.lor (shl (reg_num rs) 21) (shl (reg_num rt) 16)) (shl (reg_num rd) 11)) 39]
  (* 421 *)
  | R_Not => [Z.lor (Z.lor (shl (reg_num rs) 21) (shl (reg_num rd) 11)) 39]
  (* 422 *)
  | R_Or => [Z.lor (Z.lor (Z.lor (shl (reg_num rs) 21) (shl (reg_num rt) 16)) (shl (reg_num rd) 11)) 37]
  (* 423-432 *)
  | R_Rem => [Z.lor (Z.lor (shl (reg_num rt) 21) (shl 7 6)) 52;
       Z.lor (Z.lor (shl (reg_num rs) 21) (shl (reg_num rt) 16)) 26;
       Z.lor (Z.lor (shl 15 26) (shl 1 16)) 65535;
       Z.lor (Z.lor (Z.lor (shl 13 26) (shl 1 21)) (shl 1 16)) 65535;
       Z.lor (Z.lor (Z.lor (shl 5 26) (shl (reg_num rt) 21)) (shl 1 16)) 3;
       Z.lor (Z.lor (shl 15 26) (shl 1 16)) 32768;
       Z.lor (Z.lor (Z.lor (shl (reg_num rs) 21) (shl 1 16)) (shl 6 6)) 52;
       Z.lor (shl (reg_num rd) 11) 16]
  (* 433-437 *)
  | R_Remu => [Z.lor (Z.lor (shl (reg_num rt) 21) (shl 7 6)) 52;
       Z.lor (Z.lor (shl (reg_num rs) 21) (shl (reg_num rt) 16)) 27;
       Z.lor (shl (reg_num rd) 11) 16]
  (* 438 *)
  | R_RoundLS => [Z.lor (Z.lor (Z.lor (Z.lor (shl 17 26) (shl 16 21)) (shl (reg_num rs) 11)) (shl (reg_num rd) 6)) 8]
  (* 439 *)
  | R_RoundLD => [Z.lor (Z.lor (Z.lor (Z.lor (shl 17 26) (shl 17 21)) (shl (reg_num rs) 11)) (shl (reg_num rd) 6)) 8]
  (* 440 *)
  | R_RoundWS => [Z.lor (Z.lor (Z.lor (Z.lor (shl 17 26) (shl 16 21)) (shl (reg_num rs) 11)) (shl (reg_num rd) 6)) 12]
  (* 441 *)
  | R_RoundWD => [Z.lor (Z.lor (Z.lor (Z.lor (shl 17 26) (shl 17 21)) (shl (reg_num rs) 11)) (shl (reg_num rd) 6)) 12]
  (* 442-445 *)
  | R_Seq => [Z.lor (Z.lor (Z.lor (shl (reg_num rs) 21) (shl (reg_num rt) 16)) (shl (reg_num rd) 11)) 38;
       Z.lor (Z.lor (Z.lor (shl 11 26) (shl (reg_num rd) 21)) (shl (reg_num rd) 16)) 1]
  (* 446-449 *)
  | R_Sge => [Z.lor (Z.lor (Z.lor (shl (reg_num rs) 21) (shl (reg_num rt) 16)) (shl (reg_num rd) 11)) 42;
       Z.lor (Z.lor (Z.lor (shl 14 26) (shl (reg_num rd) 21)) (shl (reg_num rd) 16)) 1]
  (* 450-453 *)
  | R_Sgeu => [Z.lor (Z.lor (Z.lor (shl (reg_num rs) 21) (shl (reg_num rt) 16)) (shl (reg_num rd) 11)) 43;
       Z.lor (Z.lor (Z.lor (shl 14 26) (shl (reg_num rd) 21)) (shl (reg_num rd) 16)) 1]
  (* 454 *)
  | R_Sgt => [Z.lor (Z.lor (Z.lor (shl (reg_num rt) 21) (shl (reg_num rs) 16)) (shl (reg_num rd) 11)) 42]
  (* 455 *)
  | R_Sgtu => [Z.lor (Z.lor (Z.lor (shl (reg_num rt) 21) (shl (reg_num rs) 16)) (shl (reg_num rd) 11)) 43]
  (* 456-459 *)
  | R_Sle => [Z.lor (Z.lor (Z.lor (shl (reg_num rt) 21) (shl (reg_num rs) 16)) (shl (reg_num rd) 11)) 42;
       Z.lor (Z.lor (Z.lor (shl 14 26) (shl (reg_num rd) 21)) (shl (reg_num rd) 16)) 1]
  (* 460-463 *)
  | R_Sleu => [Z.lor (Z.lor (Z.lor (shl (reg_num rt) 21) (shl (reg_num rs) 16)) (shl (reg_num rd) 11)) 43;
       Z.lor (Z.lor (Z.lor (shl 14 26) (shl (reg_num rd) 21)) (shl (reg_num rd) 16)) 1]
  (* 464 *)
  | R_Sll => [Z.lor (Z.lor (shl (reg_num rt) 16) (shl (reg_num rd) 11)) (shl sa 6)]
  (* 465 *)
  | R_Sllv => [Z.lor (Z.lor (Z.lor (shl (reg_num rs) 21) (shl (reg_num rt) 16)) (shl (reg_num rd) 11)) 4]
  (* 466 *)
  | R_Slt => [Z.lor (Z.lor (Z.lor (shl (reg_num rs) 21) (shl (reg_num rt) 16)) (shl (reg_num rd) 11)) 42]
  (* 467 *)
  | R_Sltu => [Z.lor (Z.lor (Z.lor (shl (reg_num rs) 21) (shl (reg_num rt) 16)) (shl (reg_num rd) 11)) 43]
  (* 468-471 *)
  | R_Sne => [Z.lor (Z.lor (Z.lor (shl (reg_num rs) 21) (shl (reg_num rt) 16)) (shl (reg_num rd) 11)) 38;
       Z.lor (Z.lor (shl (reg_num rd) 16) (shl (reg_num rd) 11)) 43]
  (* 472 *)
  | R_SqrtS => [Z.lor (Z.lor (Z.lor (Z.lor (shl 17 26) (shl 16 21)) (shl (reg_num rs) 11)) (shl (reg_num rd) 6)) 4]
  (* 473 *)
  | R_SqrtD => [Z.lor (Z.lor (Z.lor (Z.lor (shl 17 26) (shl 17 21)) (shl (reg_num rs) 11)) (shl (reg_num rd) 6)) 4]
  (* 474 *)
  | R_Sra => [Z.lor (Z.lor (Z.lor (shl (reg_num rt) 16) (shl (reg_num rd) 11)) (shl sa 6)) 3]
  (* 475 *)
  | R_Srav => [Z.lor (Z.lor (Z.lor (shl (reg_num rs) 21) (shl (reg_num rt) 16)) (shl (reg_num rd) 11)) 7]
  (* 476 *)
  | R_Srl => [Z.lor (Z.lor (Z.lor (shl (reg_num rt) 16) (shl (reg_num rd) 11)) (shl sa 6)) 2]
  (* 477 *)
  | R_Srlv => [Z.lor (Z.lor (Z.lor (shl (reg_num rs) 21) (shl (reg_num rt) 16)) (shl (reg_num rd) 11)) 6]
  (* 478 *)
  | R_Sub => [Z.lor (Z.lor (Z.lor (shl (reg_num rs) 21) (shl (reg_num rt) 16)) (shl (reg_num rd) 11)) 34]
  (* 479 *)
  | R_Subu => [Z.lor (Z.lor (Z.lor (shl (reg_num rs) 21) (shl (reg_num rt) 16)) (shl (reg_num rd) 11)) 35]
  (* 480 *)
  | R_SubS => [Z.lor (Z.lor (Z.lor (Z.lor (Z.lor (shl 17 26) (shl 16 21)) (shl (reg_num rt) 16)) (shl (reg_num rs) 11)) (shl (reg_num rd) 6)) 1]
  (* 481 *)
  | R_SubD => [Z.lor (Z.lor (Z.lor (Z.lor (Z.lor (shl 17 26) (shl 17 21)) (shl (reg_num rt) 16)) (shl (reg_num rs) 11)) (shl (reg_num rd) 6)) 1]
  (* 482 *)
  | R_Sync => [15]
  (* 483 *)
  | R_Syscall => [Z.lor (shl sa 6) 12]
  (* 484 *)
  | R_Teq => [Z.lor (Z.lor (shl (reg_num rs) 21) (shl (reg_num rt) 16)) 52]
  (* 485 *)
  | R_Tge => [Z.lor (Z.lor (shl (reg_num rs) 21) (shl (reg_num rt) 16)) 48]
  (* 486 *)
  | R_Tgeu => [Z.lor (Z.lor (shl (reg_num rs) 21) (shl (reg_num rt) 16)) 49]
  (* 487 *)
  | R_Tlbp => [Z.lor (Z.lor (shl 16 26) (shl 1 25)) 8]
  (* 488 *)
  | R_Tlbr => [Z.lor (Z.lor (shl 16 26) (shl 1 25)) 1]
  (* 489 *)
  | R_Tlbwi => [Z.lor (Z.lor (shl 16 26) (shl 1 25)) 2]
  (* 490 *)
  | R_Tlbwr => [Z.lor (Z.lor (shl 16 26) (shl 1 25)) 6]
  (* 491 *)
  | R_Tlt => [Z.lor (Z.lor (shl (reg_num rs) 21) (shl (reg_num rt) 16)) 50]
  (* 492 *)
  | R_Tltu => [Z.lor (Z.lor (shl (reg_num rs) 21) (shl (reg_num rt) 16)) 51]
  (* 493 *)
  | R_Tne => [Z.lor (Z.lor (shl (reg_num rs) 21) (shl (reg_num rt) 16)) 54]
  (* 494 *)
  | R_TruncLS => [Z.lor (Z.lor (Z.lor (Z.lor (shl 17 26) (shl 16 21)) (shl (reg_num rs) 11)) (shl (reg_num rd) 6)) 9]
  (* 495 *)
  | R_TruncLD => [Z.lor (Z.lor (Z.lor (Z.lor (shl 17 26) (shl 17 21)) (shl (reg_num rs) 11)) (shl (reg_num rd) 6)) 9]
  (* 496 *)
  | R_TruncWS => [Z.lor (Z.lor (Z.lor (Z.lor (shl 17 26) (shl 16 21)) (shl (reg_num rs) 11)) (shl (reg_num rd) 6)) 13]
  (* 497 *)
  | R_TruncWD => [Z.lor (Z.lor (Z.lor (Z.lor (shl 17 26) (shl 17 21)) (shl (reg_num rs) 11)) (shl (reg_num rd) 6)) 13]
  (* 498 *)
  | R_Xor => [Z.lor (Z.lor (Z.lor (shl (reg_num rs) 21) (shl (reg_num rt) 16)) (shl (reg_num rd) 11)) 38]
  end.

(** src/assembler.rs:9-503  loop body: the words for one instruction, then [push_bytes]
    twice (the pushed prefix, then the last word), i.e. one append; [Bytes] panics. *)
Definition assemble_inst {E} (oc : bool) (i : inst) : outcome E inst :=
  match i with
  | IImm op rs rt imm _ => do! ws <- enc_i oc op rs rt imm; push_bytes i ws
  | IJump op t _ => do! ws <- enc_j op t; push_bytes i ws
  | IReg op rs rt rd sa _ => push_bytes i (enc_r op rs rt rd sa)
  | IBytes w => push_bytes i [w]
  end.

(** src/assembler.rs:8-505  [assemble] *)
Fixpoint assemble_insts {E} (oc : bool) (l : list inst) : outcome E (list inst) :=
  match l with
  | [] => Ok []
  | i :: r => do! i' <- assemble_inst oc i; do! r' <- assemble_insts oc r; Ok (i' :: r')
  end.
