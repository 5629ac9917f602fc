(** * SpecRun: what straight-line source programs compute (C71, C72; specification only).

    The meaning of a line is given by its mnemonic and its operands as written, without
    instruction words.  Nothing of the model is used. *)

From Verif Require Import Str SpecIsa SpecText SpecProgram SpecMachine SpecPseudo.

(** How a line or a program ends: it goes on in a state, an exception stops it, or nothing is
    said about it (a 32-bit division of a register that does not hold a word, and the like). *)
Inductive ending := Goes (st : state) | Stops (x : exception) | Unspecified.
Definition meaning := state -> ending -> Prop.

(** ** Instructions of the processor *)

(** The effect of an instruction with given operands; [None]: there is no such operand list. *)
Definition action := list operand -> state -> option ending.

(** The exact result [v] has to be a number of [bits] bits. *)
Definition unless_overflow (bits v : Z) (st : state) (r : Z) : ending :=
  if (- 2 ^ (bits - 1) <=? v) && (v <? 2 ^ (bits - 1)) then Goes (write st r (low64 v)) else Stops Overflow.

(** [op rd, rs, rt] *)
Definition of_two (f : Z -> Z -> Z) : action := fun os st =>
  match os with [OReg d; OReg s; OReg t] => Some (Goes (write st d (f (value st s) (value st t)))) | _ => None end.
Definition of_two_checked (bits : Z) (f : Z -> Z -> Z) : action := fun os st =>
  match os with [OReg d; OReg s; OReg t] => Some (unless_overflow bits (f (value st s) (value st t)) st d) | _ => None end.
(** [op rd, rt, sa] and [op rt, rs, immediate] *)
Definition of_number (f : Z -> Z -> Z) : action := fun os st =>
  match os with [OReg d; OReg s; OInt n] => Some (Goes (write st d (f (value st s) n))) | _ => None end.
Definition of_number_checked (bits : Z) (f : Z -> Z) : action := fun os st =>
  match os with [OReg d; OReg s; OInt n] => Some (unless_overflow bits (f (value st s) + n) st d) | _ => None end.
(** [op rs, rt]: hi and lo *)
Definition of_pair (f : Z -> Z -> Z * Z) : action := fun os st =>
  match os with [OReg s; OReg t] => Some (Goes (write_hilo st (fst (f (value st s) (value st t))) (snd (f (value st s) (value st t))))) | _ => None end.
(** [op rs, rt]: trap when the relation holds *)
Definition traps_when (f : Z -> Z -> bool) : action := fun os st =>
  match os with [OReg s; OReg t] => Some (if f (value st s) (value st t) then Stops (TrapCode 0) else Goes st) | _ => None end.
(** [op rs, immediate] *)
Definition traps_when_number (f : Z -> Z -> bool) : action := fun os st =>
  match os with [OReg s; OInt n] => Some (if f (value st s) n then Stops (TrapCode 0) else Goes st) | _ => None end.

Section Run.
(** What a division by zero leaves in hi and lo. *)
Variable odd : Z -> Z.
Definition divided (zero : bool) (r : Z * Z) : Z * Z := if zero then (odd 0, odd 1) else r.

Definition computing : list (str * action) :=
  [ (* sums, differences and logic *)
    (#"addu", of_two (fun a b => word32 (a + b))); (#"subu", of_two (fun a b => word32 (a - b)));
    (#"daddu", of_two (fun a b => low64 (a + b))); (#"dsubu", of_two (fun a b => low64 (a - b)));
    (#"add", of_two_checked 32 (fun a b => signed32 a + signed32 b)); (#"sub", of_two_checked 32 (fun a b => signed32 a - signed32 b));
    (#"dadd", of_two_checked 64 (fun a b => signed64 a + signed64 b)); (#"dsub", of_two_checked 64 (fun a b => signed64 a - signed64 b));
    (#"and", of_two Z.land); (#"or", of_two Z.lor); (#"xor", of_two Z.lxor); (#"nor", of_two (fun a b => 2 ^ 64 - 1 - Z.lor a b));
    (#"slt", of_two (fun a b => bit (signed64 a <? signed64 b))); (#"sltu", of_two (fun a b => bit (a <? b)));
    (* the same with an immediate *)
    (#"addiu", of_number (fun a n => word32 (a + n))); (#"daddiu", of_number (fun a n => low64 (a + n)));
    (#"addi", of_number_checked 32 signed32); (#"daddi", of_number_checked 64 signed64);
    (#"slti", of_number (fun a n => bit (signed64 a <? n))); (#"sltiu", of_number (fun a n => bit (a <? low64 n)));
    (#"andi", of_number Z.land); (#"ori", of_number Z.lor); (#"xori", of_number Z.lxor);
    (#"lui", fun os st => match os with [OReg d; OInt n] => Some (Goes (write st d (word32 (n * 2 ^ 16)))) | _ => None end);
    (* shifts by a number: [op rd, rt, sa] *)
    (#"sll", of_number (fun a n => word32 (a * 2 ^ n))); (#"srl", of_number (fun a n => word32 (low32 a / 2 ^ n)));
    (#"sra", of_number (fun a n => word32 (signed32 a / 2 ^ n)));
    (#"dsll", of_number (fun a n => low64 (a * 2 ^ n))); (#"dsrl", of_number (fun a n => a / 2 ^ n));
    (#"dsra", of_number (fun a n => low64 (signed64 a / 2 ^ n)));
    (#"dsll32", of_number (fun a n => low64 (a * 2 ^ (n + 32)))); (#"dsrl32", of_number (fun a n => a / 2 ^ (n + 32)));
    (#"dsra32", of_number (fun a n => low64 (signed64 a / 2 ^ (n + 32))));
    (* shifts by a register: [op rd, rt, rs] *)
    (#"sllv", of_two (fun a b => word32 (a * 2 ^ (b mod 32)))); (#"srlv", of_two (fun a b => word32 (low32 a / 2 ^ (b mod 32))));
    (#"srav", of_two (fun a b => word32 (signed32 a / 2 ^ (b mod 32))));
    (#"dsllv", of_two (fun a b => low64 (a * 2 ^ (b mod 64)))); (#"dsrlv", of_two (fun a b => a / 2 ^ (b mod 64)));
    (#"dsrav", of_two (fun a b => low64 (signed64 a / 2 ^ (b mod 64))));
    (* multiplication and division *)
    (#"mult", of_pair (fun a b => let p := signed32 a * signed32 b in (word32 (p / 2 ^ 32), word32 p)));
    (#"multu", of_pair (fun a b => let p := low32 a * low32 b in (word32 (p / 2 ^ 32), word32 p)));
    (#"dmult", of_pair (fun a b => let p := signed64 a * signed64 b in (low64 (p / 2 ^ 64), low64 p)));
    (#"dmultu", of_pair (fun a b => let p := a * b in (low64 (p / 2 ^ 64), low64 p)));
    (#"div", of_pair (fun a b => divided (low32 b =? 0) (word32 (Z.rem (signed32 a) (signed32 b)), word32 (Z.quot (signed32 a) (signed32 b)))));
    (#"divu", of_pair (fun a b => divided (low32 b =? 0) (word32 (low32 a mod low32 b), word32 (low32 a / low32 b))));
    (#"ddiv", of_pair (fun a b => divided (b =? 0) (low64 (Z.rem (signed64 a) (signed64 b)), low64 (Z.quot (signed64 a) (signed64 b)))));
    (#"ddivu", of_pair (fun a b => divided (b =? 0) (a mod b, a / b)));
    (#"mfhi", fun os st => match os with [OReg d] => Some (Goes (write st d (hi st))) | _ => None end);
    (#"mflo", fun os st => match os with [OReg d] => Some (Goes (write st d (lo st))) | _ => None end);
    (#"mthi", fun os st => match os with [OReg s] => Some (Goes (write_hilo st (value st s) (lo st))) | _ => None end);
    (#"mtlo", fun os st => match os with [OReg s] => Some (Goes (write_hilo st (hi st) (value st s))) | _ => None end);
    (* traps *)
    (#"tge", traps_when (fun a b => signed64 a >=? signed64 b)); (#"tgeu", traps_when (fun a b => a >=? b));
    (#"tlt", traps_when (fun a b => signed64 a <? signed64 b)); (#"tltu", traps_when (fun a b => a <? b));
    (#"teq", traps_when Z.eqb); (#"tne", traps_when (fun a b => negb (a =? b)));
    (#"tgei", traps_when_number (fun a n => signed64 a >=? n)); (#"tgeiu", traps_when_number (fun a n => a >=? low64 n));
    (#"tlti", traps_when_number (fun a n => signed64 a <? n)); (#"tltiu", traps_when_number (fun a n => a <? low64 n));
    (#"teqi", traps_when_number (fun a n => a =? low64 n)); (#"tnei", traps_when_number (fun a n => negb (a =? low64 n))) ].

(** ** Lines *)

(** Register [rd] gets [f st] and the others, except [scratch], keep their values; hi and lo
    are kept or not. *)
Definition sets (scratch : list Z) (rd : Z) (f : state -> Z) : meaning := fun st e =>
  exists st', e = Goes st' /\ result scratch st rd (f st) st' /\ same_hilo st st'.
Definition sets_hilo (scratch : list Z) (rd : Z) (f : state -> Z) : meaning := fun st e =>
  exists st', e = Goes st' /\ result scratch st rd (f st) st'.
Definition stops (x : exception) : meaning := fun _ e => e = Stops x.
Definition if_then_else (c : state -> bool) (A B : meaning) : meaning := fun st e => if c st then A st e else B st e.
Definition provided (c : state -> bool) (A : meaning) : meaning := fun st e => if c st then A st e else e = Unspecified.
Definition holds_word (v : Z) : bool := v =? word32 v.

(** [op rt, rs, n] subtracts n. *)
Definition differences : list (str * (Z -> Z -> state -> Z -> ending)) :=
  [ (#"subi", fun a n => unless_overflow 32 (signed32 a - n)); (#"dsubi", fun a n => unless_overflow 64 (signed64 a - n));
    (#"subiu", fun a n st d => Goes (write st d (word32 (a - n)))); (#"dsubiu", fun a n st d => Goes (write st d (low64 (a - n)))) ].

(** A line with an instruction that computes, and its meaning. *)
Inductive computing_line : str -> meaning -> Prop :=
| s_native f act os l : In f (isa ++ idioms) -> In (f_name f, act) computing -> native_line f os l -> Forall2 notation_fits (f_ops f) os ->
    case_condition f os l -> computing_line l (fun st e => act os st = Some e)
| s_nop l : instruction_line #"nop" [] l -> computing_line l (sets [] 0 (fun _ => 0))   (* nothing changes *)
| s_comparison name f td ts tt d s t l : In (name, f) comparisons -> gpr_text td d -> gpr_text ts s -> gpr_text tt t ->
    instruction_line name [td; ts; tt] l -> computing_line l (sets [] d (fun st => bit (f (value st s) (value st t))))
| s_unary name f td ts d s l : In (name, f) unary -> gpr_text td d -> gpr_text ts s -> instruction_line name [td; ts] l ->
    computing_line l (sets [] d (fun st => f (value st s)))
| s_clear td d l : gpr_text td d -> instruction_line #"clear" [td] l -> computing_line l (sets [] d (fun _ => 0))
| s_negation name f ov td ts d s l : In (name, f, ov) negations -> gpr_text td d -> gpr_text ts s -> instruction_line name [td; ts] l ->
    computing_line l (if_then_else (fun st => ov (value st s)) (stops Overflow) (sets [] d (fun st => f (value st s))))
| s_move td ts d s l : gpr_text td d -> gpr_text ts s -> instruction_line #"move" [td; ts] l ->
    computing_line l (provided (fun st => holds_word (value st s)) (sets [] d (fun st => value st s)))
| s_abs td ts d s l : gpr_text td d -> gpr_text ts s -> d <> at_reg -> s <> at_reg -> instruction_line #"abs" [td; ts] l ->
    computing_line l (sets [at_reg] d (fun st => word32 (Z.abs (signed32 (value st s)))))
| s_dabs td ts d s l : gpr_text td d -> gpr_text ts s -> d <> at_reg -> s <> at_reg -> instruction_line #"dabs" [td; ts] l ->
    computing_line l (provided (fun st => (- 2 ^ 31 <=? signed64 (value st s)) && (signed64 (value st s) <? 2 ^ 31))
                          (sets [at_reg] d (fun st => low64 (Z.abs (signed64 (value st s))))))
| s_li td tc d c l : gpr_text td d -> numeral tc c -> c < 0xFFFF8000 -> instruction_line #"li" [td; tc] l -> computing_line l (sets [] d (fun _ => word32 c))
| s_liu td tc d c l : gpr_text td d -> numeral tc c -> c < 2 ^ 32 -> instruction_line #"liu" [td; tc] l -> computing_line l (sets [] d (fun _ => word32 c))
| s_lli td tc d c l : gpr_text td d -> numeral tc c -> c < 2 ^ 16 -> instruction_line #"lli" [td; tc] l -> computing_line l (sets [] d (fun _ => c))
| s_dli td tc d c l : gpr_text td d -> signed_numeral tc c -> - 2 ^ 63 <= c < 2 ^ 63 -> instruction_line #"dli" [td; tc] l ->
    computing_line l (sets [] d (fun _ => low64 c))
| s_product name f td ts tt d s t l : In (name, f) products -> gpr_text td d -> gpr_text ts s -> gpr_text tt t ->
    instruction_line name [td; ts; tt] l -> computing_line l (sets_hilo [] d (fun st => f (value st s) (value st t)))
| s_checked_product name f lo hi keep td ts tt d s t l : In (name, f, (lo, hi), keep) checked_products ->
    gpr_text td d -> gpr_text ts s -> gpr_text tt t -> d <> 0 -> d <> at_reg -> instruction_line name [td; ts; tt] l ->
    computing_line l (if_then_else (fun st => (lo <=? f (value st s) (value st t)) && (f (value st s) (value st t) <? hi))
                              (sets_hilo [at_reg] d (fun st => keep (f (value st s) (value st t)))) (stops (TrapCode 6)))
| s_division name word f td ts tt d s t l : In (name, word, f) unsigned_divisions -> gpr_text td d -> gpr_text ts s -> gpr_text tt t -> t <> 0 ->
    instruction_line name [td; ts; tt] l ->
    computing_line l (provided (fun st => negb word || holds_word (value st t))
      (if_then_else (fun st => value st t =? 0) (stops (TrapCode 7)) (sets_hilo [] d (fun st => f (value st s) (value st t)))))
| s_rotation name f td ts tt d s t l : In (name, f) rotations -> gpr_text td d -> gpr_text ts s -> gpr_text tt t ->
    d <> at_reg -> s <> at_reg -> t <> at_reg -> instruction_line name [td; ts; tt] l ->
    computing_line l (sets [at_reg] d (fun st => f (value st s) (value st t mod 64)))
| s_subtraction name f td ts tn d s n l : In (name, f) differences -> gpr_text td d -> gpr_text ts s -> signed_numeral tn n -> -32767 <= n < 32768 ->
    instruction_line name [td; ts; tn] l -> computing_line l (fun st e => e = f (value st s) n st d).

(** ** Programs *)

(** The lines of a program without branches: nothing, a label, or a statement. *)
Inductive straight_lines : list str -> list meaning -> Prop :=
| sl_end : straight_lines [] []
| sl_nothing l ls ms : blank_line l -> straight_lines ls ms -> straight_lines (l :: ls) ms
| sl_names n l ls ms : identifier n -> label_line n l -> straight_lines ls ms -> straight_lines (l :: ls) ms
| sl_does l M ls ms : computing_line l M -> straight_lines ls ms -> straight_lines (l :: ls) (M :: ms).

(** One statement after the other. *)
Fixpoint in_turn (ms : list meaning) (st : state) (e : ending) : Prop :=
  match ms with
  | [] => e = Goes st
  | M :: ms => exists e1, M st e1 /\ match e1 with Goes st1 => in_turn ms st1 e | _ => e = e1 end
  end.

(** How the words [ws] end on the machine. *)
Definition ends_with_run (ws : list Z) (st : state) (e : ending) : Prop :=
  match e with Goes st' => finishes odd ws st st' | Stops x => raises odd ws st x | Unspecified => True end.
End Run.
