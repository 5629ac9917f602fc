(** * SpecMachine: executing MIPS III integer instructions (specification only).

    The architecture as the VR4300 manual describes it: 32 general registers of 64 bits, of
    which register 0 reads as 0, the multiply/divide registers hi and lo, 32-bit operations
    that use the low words of their operands and sign-extend their result, branches with a
    delay slot, and branches "likely" that skip the delay slot when they are not taken.
    Registers hold unsigned 64-bit values.  Nothing of the model is used. *)

From Verif Require Import Str SpecIsa.

(** ** Values *)

Definition signed64 (v : Z) : Z := if v <? 2 ^ 63 then v else v - 2 ^ 64.
Definition low64 (v : Z) : Z := v mod 2 ^ 64.
(** The low word, unsigned and signed, and sign-extended to 64 bits. *)
Definition low32 (v : Z) : Z := v mod 2 ^ 32.
Definition signed32 (v : Z) : Z := if low32 v <? 2 ^ 31 then low32 v else low32 v - 2 ^ 32.
Definition word32 (v : Z) : Z := low64 (signed32 v).
(** A register that holds a (sign-extended) word. *)
Definition word_value (v : Z) : Prop := v = word32 v.

(** ** States *)

Record state := mk_state { regs : Z -> Z; hi : Z; lo : Z }.
Definition value (st : state) (r : Z) : Z := if r =? 0 then 0 else regs st r.
Definition write (st : state) (r v : Z) : state := mk_state (fun x => if x =? r then v else regs st x) (hi st) (lo st).
Definition write_hilo (st : state) (h l : Z) : state := mk_state (regs st) h l.
Definition well (st : state) : Prop :=
  (forall r, 0 <= value st r < 2 ^ 64) /\ 0 <= hi st < 2 ^ 64 /\ 0 <= lo st < 2 ^ 64.

(** ** One instruction *)

Inductive exception := Overflow | TrapCode (code : Z).
Inductive effect :=
| Next (st : state)                                 (* go on *)
| Branch (taken likely : bool) (offset : Z)         (* offset in words from the delay slot *)
| Raise (x : exception)
| Undefined.

Section Machine.
(** The values division by zero leaves in hi and lo are not defined: [odd] is arbitrary. *)
Variable odd : Z -> Z.

Definition checked (bits : Z) (v : Z) (k : effect) : effect :=
  if (- 2 ^ (bits - 1) <=? v) && (v <? 2 ^ (bits - 1)) then k else Raise Overflow.
Definition trap_if (c : bool) (code : Z) (st : state) : effect := if c then Raise (TrapCode code) else Next st.
Definition bit (b : bool) : Z := if b then 1 else 0.

Definition exec_special (rs rt rd sa funct : Z) (code : Z) (st : state) : effect :=
  let a := value st rs in
  let b := value st rt in
  let put v := Next (write st rd v) in
  let put2 h l := Next (write_hilo st h l) in
  match funct with
  | 0 => put (word32 (b * 2 ^ sa))                      (* sll *)
  | 2 => put (word32 (low32 b / 2 ^ sa))                  (* srl *)
  | 3 => put (word32 (signed32 b / 2 ^ sa))                  (* sra *)
  | 4 => put (word32 (b * 2 ^ (a mod 32)))              (* sllv *)
  | 6 => put (word32 (low32 b / 2 ^ (a mod 32)))          (* srlv *)
  | 7 => put (word32 (signed32 b / 2 ^ (a mod 32)))          (* srav *)
  | 16 => put (hi st)                                   (* mfhi *)
  | 17 => put2 a (lo st)                                (* mthi *)
  | 18 => put (lo st)                                   (* mflo *)
  | 19 => put2 (hi st) a                                (* mtlo *)
  | 20 => put (low64 (b * 2 ^ (a mod 64)))                (* dsllv *)
  | 22 => put (b / 2 ^ (a mod 64))                      (* dsrlv *)
  | 23 => put (low64 (signed64 b / 2 ^ (a mod 64)))            (* dsrav *)
  | 24 => let p := signed32 a * signed32 b in put2 (word32 (p / 2 ^ 32)) (word32 p)      (* mult *)
  | 25 => let p := low32 a * low32 b in put2 (word32 (p / 2 ^ 32)) (word32 p)      (* multu *)
  | 26 => if signed32 b =? 0 then put2 (odd 0) (odd 1)                              (* div *)
          else put2 (word32 (Z.rem (signed32 a) (signed32 b))) (word32 (Z.quot (signed32 a) (signed32 b)))
  | 27 => if low32 b =? 0 then put2 (odd 0) (odd 1)                              (* divu *)
          else put2 (word32 (low32 a mod low32 b)) (word32 (low32 a / low32 b))
  | 28 => let p := signed64 a * signed64 b in put2 (low64 (p / 2 ^ 64)) (low64 p)            (* dmult *)
  | 29 => let p := a * b in put2 (low64 (p / 2 ^ 64)) (low64 p)                    (* dmultu *)
  | 30 => if b =? 0 then put2 (odd 0) (odd 1)                                  (* ddiv *)
          else put2 (low64 (Z.rem (signed64 a) (signed64 b))) (low64 (Z.quot (signed64 a) (signed64 b)))
  | 31 => if b =? 0 then put2 (odd 0) (odd 1) else put2 (a mod b) (a / b)      (* ddivu *)
  | 32 => checked 32 (signed32 a + signed32 b) (put (word32 (a + b)))   (* add *)
  | 33 => put (word32 (a + b))                                (* addu *)
  | 34 => checked 32 (signed32 a - signed32 b) (put (word32 (a - b)))   (* sub *)
  | 35 => put (word32 (a - b))                                (* subu *)
  | 36 => put (Z.land a b)                                    (* and *)
  | 37 => put (Z.lor a b)                                     (* or *)
  | 38 => put (Z.lxor a b)                                    (* xor *)
  | 39 => put (low64 (Z.lnot (Z.lor a b)))                      (* nor *)
  | 42 => put (bit (signed64 a <? signed64 b))                          (* slt *)
  | 43 => put (bit (a <? b))                                  (* sltu *)
  | 44 => checked 64 (signed64 a + signed64 b) (put (low64 (a + b)))      (* dadd *)
  | 45 => put (low64 (a + b))                                   (* daddu *)
  | 46 => checked 64 (signed64 a - signed64 b) (put (low64 (a - b)))      (* dsub *)
  | 47 => put (low64 (a - b))                                   (* dsubu *)
  | 48 => trap_if (signed64 b <=? signed64 a) code st                   (* tge *)
  | 49 => trap_if (b <=? a) code st                           (* tgeu *)
  | 50 => trap_if (signed64 a <? signed64 b) code st                    (* tlt *)
  | 51 => trap_if (a <? b) code st                            (* tltu *)
  | 52 => trap_if (a =? b) code st                            (* teq *)
  | 54 => trap_if (negb (a =? b)) code st                     (* tne *)
  | 56 => put (low64 (b * 2 ^ sa))                              (* dsll *)
  | 58 => put (b / 2 ^ sa)                                    (* dsrl *)
  | 59 => put (low64 (signed64 b / 2 ^ sa))                          (* dsra *)
  | 60 => put (low64 (b * 2 ^ (sa + 32)))                       (* dsll32 *)
  | 62 => put (b / 2 ^ (sa + 32))                             (* dsrl32 *)
  | 63 => put (low64 (signed64 b / 2 ^ (sa + 32)))                   (* dsra32 *)
  | _ => Undefined
  end.

Definition exec_normal (op rs rt imm : Z) (st : state) : effect :=
  let a := value st rs in
  let b := value st rt in
  let i := signed16 imm in
  let put v := Next (write st rt v) in
  match op with
  | 4 => Branch (a =? b) false i                              (* beq *)
  | 5 => Branch (negb (a =? b)) false i                       (* bne *)
  | 20 => Branch (a =? b) true i                              (* beql *)
  | 21 => Branch (negb (a =? b)) true i                       (* bnel *)
  | 6 => Branch (signed64 a <=? 0) false i                    (* blez *)
  | 7 => Branch (0 <? signed64 a) false i                     (* bgtz *)
  | 22 => Branch (signed64 a <=? 0) true i                    (* blezl *)
  | 23 => Branch (0 <? signed64 a) true i                     (* bgtzl *)
  | 1 => match rt with                                        (* regimm: selected by rt *)
         | 0 => Branch (signed64 a <? 0) false i              (* bltz *)
         | 1 => Branch (0 <=? signed64 a) false i             (* bgez *)
         | 2 => Branch (signed64 a <? 0) true i               (* bltzl *)
         | 3 => Branch (0 <=? signed64 a) true i              (* bgezl *)
         | 8 => trap_if (i <=? signed64 a) 0 st               (* tgei *)
         | 9 => trap_if (low64 i <=? a) 0 st                  (* tgeiu *)
         | 10 => trap_if (signed64 a <? i) 0 st               (* tlti *)
         | 11 => trap_if (a <? low64 i) 0 st                  (* tltiu *)
         | 12 => trap_if (a =? low64 i) 0 st                  (* teqi *)
         | 14 => trap_if (negb (a =? low64 i)) 0 st           (* tnei *)
         | _ => Undefined
         end
  | 8 => checked 32 (signed32 a + i) (put (word32 (a + i)))        (* addi *)
  | 9 => put (word32 (a + i))                                 (* addiu *)
  | 10 => put (bit (signed64 a <? i))                              (* slti *)
  | 11 => put (bit (a <? low64 i))                              (* sltiu *)
  | 12 => put (Z.land a imm)                                  (* andi *)
  | 13 => put (Z.lor a imm)                                   (* ori *)
  | 14 => put (Z.lxor a imm)                                  (* xori *)
  | 15 => put (word32 (imm * 2 ^ 16))                         (* lui *)
  | 24 => checked 64 (signed64 a + i) (put (low64 (a + i)))          (* daddi *)
  | 25 => put (low64 (a + i))                                   (* daddiu *)
  | _ => Undefined
  end.

Definition exec (w : Z) (st : state) : effect :=
  if field w 26 6 =? 0
  then exec_special (field w 21 5) (field w 16 5) (field w 11 5) (field w 6 5) (field w 0 6) (field w 6 10) st
  else exec_normal (field w 26 6) (field w 21 5) (field w 16 5) (field w 0 16) st.

(** ** Programs *)

(** [At pc npc st]: the instruction at [pc] is next and the one at [npc] follows it
    (addresses are word indices into the code). *)
Inductive status := At (pc npc : Z) (st : state) | Raised (x : exception) (st : state) | Lost.

Definition cycle (code : list Z) (c : status) : status :=
  match c with
  | At pc npc st =>
      if pc <? 0 then Lost else
      match nth_error code (Z.to_nat pc) with
      | None => Lost
      | Some w =>
          match exec w st with
          | Next st' => At npc (npc + 1) st'
          | Branch true _ off => At npc (pc + 1 + off) st
          | Branch false false _ => At npc (npc + 1) st
          | Branch false true _ => At (npc + 1) (npc + 2) st
          | Raise x => Raised x st
          | Undefined => Lost
          end
      end
  | _ => c
  end.
Fixpoint cycles (n : nat) (code : list Z) (c : status) : status :=
  match n with O => c | S n => cycles n code (cycle code c) end.

(** Executed from the first word, the code [ws] reaches its end with state [st'], or raises
    an exception. *)
Definition finishes (ws : list Z) (st st' : state) : Prop :=
  exists n, cycles n ws (At 0 1 st) = At (Z.of_nat (List.length ws)) (Z.of_nat (List.length ws) + 1) st'.
Definition raises (ws : list Z) (st : state) (x : exception) : Prop :=
  exists n st', cycles n ws (At 0 1 st) = Raised x st'.
End Machine.

(** [st'] has the value [v] in register [r], and every other register, except those in
    [scratch], is as in [st]. *)
Definition result (scratch : list Z) (st : state) (r v : Z) (st' : state) : Prop :=
  (r <> 0 -> value st' r = v) /\ forall x, x <> r -> ~ In x scratch -> value st' x = value st x.
Definition same_hilo (st st' : state) : Prop := hi st' = hi st /\ lo st' = lo st.

Definition at_reg : Z := 1.
