(** * PanicProofs: harmless lines do not panic (proofs only). *)

From Coq Require Import Lia Permutation.
From Verif Require Import Lib SpecIsa StrLemmas NumLemmas DecodeProofs TextProofs OperandProofs NativeProofs LineProofs ScanProofs ProgProofs BranchProofs LabelProofs CongProofs ErrorProofs
  RefProofs HalfProofs QuietProofs WarnProofs ImmLines SpecErrors SpecText SpecProgram SpecLabels SpecImm.
From Verif Require Import SpecPanic.

(** ** Results that are not panics *)

Definition fine {E A} (Q : A -> Prop) (o : outcome E A) : Prop := match o with Ok a => Q a | Err _ => True | Panic _ => False end.
Definition calm {A} (Q : A -> Prop) (m : M A) : Prop := fine Q (snd m).
Definition any {A} (a : A) : Prop := True.
Lemma fine_bind {E A B} P Q (o : outcome E A) (f : A -> outcome E B) : fine P o -> (forall a, P a -> fine Q (f a)) -> fine Q (obind o f).
Proof. destruct o; cbn; auto. Qed.
Lemma calm_bind {A B} P Q (m : M A) (f : A -> M B) : calm P m -> (forall a, P a -> calm Q (f a)) -> calm Q (mbind m f).
Proof. unfold calm. destruct m as [w [a|p|p]]; cbn [snd mbind fine]; auto; try tauto. intros H K. specialize (K a H). destruct (f a). exact K. Qed.
Lemma calm_lift {A} Q (o : outcome perror A) : fine Q o -> calm Q (lift o).
Proof. exact (fun H => H). Qed.
Lemma fine_weaken {E A} (P Q : A -> Prop) (o : outcome E A) : (forall a, P a -> Q a) -> fine P o -> fine Q o.
Proof. destruct o; cbn; auto. Qed.

(** ** The tables *)

Definition same_shape (a b : list slot) : bool := if list_eq_dec (fun x y : slot => ltac:(decide equality) : {x = y} + {x <> y}) a b then true else false.
Definition shaped (n : str) (ks : list slot) : bool := existsb (fun x => str_eqb n (fst x) && same_shape ks (snd x)) shapes.
Lemma shaped_in n ks : shaped n ks = true -> In (n, ks) shapes.
Proof.
  unfold shaped. intros H. apply existsb_exists in H as ([n' k'] & I & E). apply andb_true_iff in E as [E1 E2]. apply str_eqb_spec in E1. cbn in E1, E2. subst.
  unfold same_shape in E2. destruct (list_eq_dec _ ks k') as [->|]; [exact I|discriminate].
Qed.
Definition slots_of (n : str) (g : group) : list (list slot) :=
  match g with
  | GMem => [[if str_eqb n #"cache" then CacheNo else TheReg; Memory]]
  | GImm3 | GBranch2 => [[AReg; AReg; Number]]
  | GImm2 | GTrapImm | GBranch1 | GDli => [[AReg; Number]]
  | GJump => [[Goal]]
  | GPlain | GTlb => []
  | GReg3 | GShiftV => [[AReg; AReg; AReg]]
  | GShift => [[AReg; AReg; Amount]]
  | GCode => [[Constant]]
  | GReg2 | GMove => [[AReg; AReg]]
  | GJalr => [[AReg]; [AReg; AReg]]
  | GB | GBc => [[Number]]
  | GLi => [[AReg; Constant]]
  | GDiv => [[AReg; AReg]; [AReg; AReg; AReg]]
  | GRs | GRd => [[AReg]]
  | GCop0 | GCop1 => [[AReg; Other]]
  | GFMem => [[Other; Memory]]
  | GWord => []
  end.
Inductive optype := TI | TJ | TR | TN.
Definition type_of (g : group) : optype :=
  match g with
  | GMem | GImm3 | GImm2 | GTrapImm | GBranch1 | GBranch2 | GB | GLi | GDli | GBc | GFMem => TI
  | GJump => TJ
  | GWord => TN
  | _ => TR
  end.
Definition op_known (n : str) (g : group) : bool :=
  match type_of g with
  | TI => match iop_from_str n with Some _ => true | None => false end
  | TJ => match jop_from_str n with Some _ => true | None => false end
  | TR => match rop_from_str n with Some _ => true | None => false end
  | TN => true
  end.
Definition row_ok (x : str * group) : bool :=
  op_known (fst x) (snd x) && forallb (shaped (fst x)) (slots_of (fst x) (snd x))
  && (match snd x with GWord => str_eqb (fst x) #".word" | _ => mem_str (fst x) (map fst shapes) end).
Lemma rows_ok : forallb row_ok group_table = true. Proof. vm_compute. reflexivity. Qed.
Lemma row n g : classify n = Some g -> row_ok (n, g) = true.
Proof. intros H. apply assoc_in in H. exact (proj1 (forallb_forall _ _) rows_ok _ H). Qed.
Lemma shapes_known : forallb (fun x => match classify (fst x) with Some _ => true | None => false end) shapes = true. Proof. vm_compute. reflexivity. Qed.
Lemma unclassified n : classify n = None -> ~ In n (map fst shapes).
Proof. intros H I. apply in_map_iff in I as (x & <- & I). apply (proj1 (forallb_forall _ _) shapes_known) in I. rewrite H in I. discriminate. Qed.

Definition is_cmp (p : iop) : bool := mem_str (to_lower (iop_name p)) compares.
Definition is_sub (p : iop) : bool := match p with I_Subi | I_Subiu => true | _ => false end.
Lemma iop_name_is op p : iop_of op = Ok p -> to_lower op = to_lower (iop_name p).
Proof.
  unfold iop_of, unwrap, iop_from_str. destruct (find _ all_iop) as [q|] eqn:F; [|discriminate]. intros H. injection H as ->.
  apply find_some in F as [_ F]. unfold eq_ignore_case in F. now apply str_eqb_spec in F.
Qed.
Lemma same_lower op : same_letters (to_lower op) op.
Proof. unfold same_letters, to_lower. rewrite map_map. apply map_ext. intros c. destruct c as [[] [] [] [] [] [] [] []]; reflexivity. Qed.

(** ** Operands *)

Lemma no_rdigit t : (forall a c b, t = a ++ #"r" ++ [c] ++ b -> is_digit c = false) -> r_digit t = false.
Proof.
  induction t as [|c t IH]; intros H; [reflexivity|]. cbn [r_digit]. apply orb_false_iff. split.
  - destruct (Ascii.eqb_spec c "r") as [->|]; [|reflexivity]. cbn [andb]. destruct t as [|d t]; [reflexivity|]. exact (H [] d t eq_refl).
  - apply IH. intros a d b ->. exact (H (c :: a) d b eq_refl).
Qed.
Lemma r_digit_drop p t : r_digit t = false -> r_digit (drop_while p t) = false.
Proof.
  induction t as [|c t IH]; intros H; [reflexivity|]. cbn [drop_while]. destruct (p c); [|exact H]. apply IH. cbn [r_digit] in H.
  now apply orb_false_iff in H.
Qed.
Lemma padded_of_trim x : padded (trim x) x.
Proof. destruct (trim_decomp x) as (a & b & E & A & B). exists a, b. auto. Qed.
Lemma try_fine n : fine any (reg_try_from n) /\ fine any (freg_try_from n) /\ fine any (c0reg_try_from n).
Proof.
  repeat split; match goal with |- fine _ ?x => destruct x as [|?|p] eqn:E end; try exact Logic.I; exfalso; revert E; apply (try_quiet n p).
Qed.
Lemma remove_open_in s : ~ In "("%char (remove_all #"(" s).
Proof.
  unfold remove_all. induction s as [|d s IH]; [exact (fun H => H)|]. cbn [remove_go].
  assert (Q : starts_with #"(" (d :: s) = Ascii.eqb "(" d) by (destruct d as [[] [] [] [] [] [] [] []], s; reflexivity). rewrite Q.
  destruct (Ascii.eqb_spec "(" d) as [E|E]; [exact IH|]. intros [H|H]; [congruence|now apply IH].
Qed.
Definition short_imm (i : immediate) : Prop := match i with Short v => 0 <= v < 65536 | Label _ | LocalLabel _ => True | _ => False end.
Definition number_imm (i : immediate) : Prop := imm_is_label i = false.
Definition sized (ty : ity) (i : immediate) : Prop := it_bits ty = 16 -> short_imm i.
Definition usual (ty : ity) : Prop := it_bits ty = 16 \/ it_bits ty = 32 \/ it_bits ty = 64.
Lemma new_fine {E} ty v : usual ty -> fine (fun i => sized ty i /\ number_imm i) (imm_new (E:=E) ty v).
Proof.
  unfold imm_new, usual, sized. intros [-> | [-> | ->]]; cbn; (split; [|reflexivity]); try discriminate. intros _. unfold wrap. change (2 ^ 16) with 65536. apply Z.mod_pos_bound. lia.
Qed.

Section Operands.
Variable e : env.
Variable s : pstate.
Variable raw : str.
Variable labels : list str.
Hypothesis Rd : ready e s raw.
Hypothesis Known : forall n, assoc n (p_labels s) <> None -> In n labels /\ good_label n.

Lemma fail_fine {A} Q k : fine (A:=A) Q (fail_at e (p_line s) k).
Proof. unfold fail_at. rewrite (got_line e s raw Rd). exact Logic.I. Qed.
Lemma bad_calm {A} Q arg n k : calm (A:=A) Q (bad_count e s arg n k).
Proof. apply calm_lift, fail_fine. Qed.
Lemma areg_calm x : harmless (e_syms e) labels AReg (trim x) -> calm any (areg e s x).
Proof.
  intros H. apply calm_lift. unfold arg_reg. enough (F : fine any (reg_from_str x)).
  { destruct (reg_from_str x); [exact Logic.I|apply fail_fine|exact F]. }
  unfold reg_from_str. destruct H as [H|(d & ds & n & D & T & Ds & N)].
  - rewrite (r_digit_find _ (r_digit_drop _ _ (no_rdigit _ H))). destruct (parse_int _ _ _); [apply try_fine|]. destruct (assoc _ _); exact Logic.I.
  - destruct (digits_spec 10 ds n ltac:(lia) Ds) as (V & Ne & A & P). rewrite T.
    assert (E : drop_while (cls "$") (d ++ #"r" ++ ds) = #"r" ++ ds) by (destruct D as [-> | ->]; reflexivity). rewrite E.
    assert (E2 : drop_while (cls "r") (#"r" ++ ds) = ds).
    { change (drop_while (cls "r") (#"r" ++ ds)) with (drop_while (cls "r") ds). destruct ds as [|c ds]; [congruence|]. cbn [drop_while]. unfold cls.
      destruct (Ascii.eqb_spec c "r") as [->|]; [|reflexivity]. exfalso. specialize (A "r"%char (or_introl eq_refl)). cbn in A. intuition discriminate. }
    rewrite E2, (parse_int_digits u32 10 ds n A Ne V). unfold in_range. change (it_min u32) with 0. change (it_max u32) with 4294967295.
    replace ((0 <=? n) && (n <=? 4294967295))%bool with true by lia. destruct (re_find _ _); [apply try_fine|]. 
    destruct (parse_int _ _ _); [apply try_fine|]. destruct (assoc _ _); exact Logic.I.
Qed.
Lemma afreg_calm x : calm any (afreg e s x).
Proof.
  apply calm_lift. unfold arg_freg. enough (F : fine any (freg_from_str x)) by (destruct (freg_from_str x); [exact Logic.I|apply fail_fine|exact F]).
  unfold freg_from_str. destruct (parse_int _ 10 _); [apply try_fine|]. destruct (assoc _ _); [exact Logic.I|]. destruct (parse_int _ _ _); [apply try_fine|exact Logic.I].
Qed.
Lemma ac0reg_calm x : calm any (lift (arg_c0reg e s x)).
Proof.
  apply calm_lift. unfold arg_c0reg. enough (F : fine any (c0reg_from_str x)) by (destruct (c0reg_from_str x); [exact Logic.I|apply fail_fine|exact F]).
  unfold c0reg_from_str. destruct (parse_int _ 10 _); [apply try_fine|]. destruct (parse_int _ _ _); [apply try_fine|]. destruct (assoc _ _); exact Logic.I.
Qed.
Lemma thereg_calm x : harmless (e_syms e) labels TheReg (trim x) -> calm any (lift (arg_reg_unwrap x)).
Proof. intros [n G]. apply calm_lift. rewrite (unwrap_ok x (trim x) n (padded_of_trim x) G). exact Logic.I. Qed.
Lemma plain_fine ty x : usual ty -> ~ In "("%char (trim x) ->
  fine (fun i => sized ty i /\ (~ In (trim x) labels -> is_local (trim x) = false -> number_imm i)) (parse_immediate e s ty x).
Proof.
  intros U N. unfold parse_immediate. cbv zeta. destruct (starts_with #"@@" (trim x)) eqn:At.
  - split; [intros _; exact Logic.I|]. intros _ L. unfold is_local in L. rewrite At in L. discriminate L.
  - destruct (assoc (trim x) (p_labels s)) eqn:As.
    + split; [intros _; exact Logic.I|]. intros L _. exfalso. apply L. apply (Known (trim x)). rewrite As. discriminate.
    + rewrite no_open_imm by exact N. destruct (contains _ _); destruct (parse_int _ _ _); try apply fail_fine;
      (eapply fine_weaken; [|apply (new_fine ty _ U)]); intros i [A B]; auto.
Qed.
Lemma half_fine ty x : usual ty -> address_half (e_syms e) (trim x) -> fine (sized ty) (parse_immediate e s ty x).
Proof.
  intros U (y & a & Py & Na & W & T).
  destruct (assoc (trim x) (p_labels s)) eqn:As.
  { unfold parse_immediate. cbv zeta. assert (At : starts_with #"@@" (trim x) = false) by (destruct T as [-> | [-> _]]; reflexivity).
    rewrite At, As. intros _. exact Logic.I. }
  assert (P := padded_of_trim x). destruct T as [T|[T Lt]].
  - change (#"%lo(" ++ y ++ #")") with (lo_text y) in T. rewrite T in P, As. rewrite (parse_lo e s ty x y a P Py Na W As). cbn. intros _. apply Z.mod_pos_bound. lia.
  - change (#"%hi(" ++ y ++ #")") with (hi_text y) in T. rewrite T in P, As. rewrite (parse_hi e s ty x y a P Py Na W As).
    destruct (hi_value (e_oc e) a) as [v|] eqn:Hv; [intros _; now apply (hi_range _ _ _ W Hv)|]. exfalso.
    unfold hi_value in Hv. assert (H := Z.mod_pos_bound a 65536 ltac:(lia)). assert (D := Z.div_mod a 65536 ltac:(lia)). destruct W as [W0 W1].
    assert (Q : a + (if a mod 65536 <? 32768 then 0 else 65536) < 2 ^ 32).
    { destruct (Z.ltb_spec (a mod 65536) 32768); [lia|]. assert (a / 65536 <= 65534); [|lia]. assert (a / 65536 < 65536) by (apply Z.div_lt_upper_bound; lia).
      destruct (Z.eq_dec (a / 65536) 65535); lia. }
    apply Z.ltb_lt in Q. cbv zeta in Hv. rewrite Q in Hv. discriminate.
Qed.
Lemma aimm_calm ty x : usual ty -> harmless (e_syms e) labels Number (trim x) -> calm (sized ty) (aimm e s ty x).
Proof.
  intros U [H|H]; apply calm_lift; [|now apply half_fine]. eapply fine_weaken; [|apply (plain_fine ty x U H)]. now intros i [A _].
Qed.
Lemma constant_calm ty x : usual ty -> harmless (e_syms e) labels Constant (trim x) -> calm number_imm (aimm e s ty x).
Proof. intros U (H & L & Lo). apply calm_lift. eapply fine_weaken; [|apply (plain_fine ty x U H)]. intros i [_ B]. auto. Qed.
Lemma as_u32_calm i : number_imm i -> calm any (lift (imm_as_u32 i)).
Proof. destruct i; try discriminate; intros; exact Logic.I. Qed.
Lemma as_u64_calm i : number_imm i -> calm any (lift (imm_as_u64 i)).
Proof. destruct i; try discriminate; intros; exact Logic.I. Qed.
Lemma amount_calm x : harmless (e_syms e) labels Amount (trim x) -> calm any (lift (parse_sa (trim x))).
Proof.
  intros (v & N & L). apply calm_lift. assert (P : 0 <= v) by (destruct (numeral_shape _ _ N) as (r & ds & _ & _ & P); lia).
  rewrite (parse_sa_number x (trim x) v); [exact Logic.I|apply padded_of_trim|exact N|lia].
Qed.
Lemma goal_calm x : x <> [] -> calm any (lift (parse_target e s x)).
Proof.
  intros N. apply calm_lift. unfold parse_target. destruct (find _ _) as [[a n]|]; [exact Logic.I|]. destruct (starts_with _ _).
  - cbv zeta. destruct (parse_int _ _ _); [exact Logic.I|apply fail_fine].
  - destruct x; [congruence|]. destruct (parse_int u32 10 [a]); [|exact Logic.I]. destruct (parse_int _ _ _); [exact Logic.I|apply fail_fine].
Qed.
Lemma delay_calm : calm any (check_delay e s).
Proof. unfold calm. rewrite (check_delay_ok e s raw Rd). exact Logic.I. Qed.
Lemma branch_calm i o : part o raw -> calm any (check_branch e s i o).
Proof.
  intros P. unfold check_branch. destruct (imm_is_label i) eqn:L; [exact Logic.I|]. apply (calm_bind any); [now apply as_u32_calm|]. intros v _.
  destruct (negb _); [|exact Logic.I]. rewrite (got_line e s raw Rd). cbn [obind]. destruct (show_branch (mk_line (p_line s) raw) o P) as [t T].
  rewrite (warn_ok _ _ T). exact Logic.I.
Qed.
Lemma jump_calm t o : part o raw -> calm any (check_jump e s t o).
Proof.
  intros P. unfold check_jump. destruct t as [l|a]; [exact Logic.I|]. cbn [target_is_label target_as_u32]. apply (calm_bind any); [exact Logic.I|]. intros v _.
  destruct (negb _); [|exact Logic.I]. rewrite (got_line e s raw Rd). cbn [obind]. destruct (show_jump (mk_line (p_line s) raw) o P) as [x T].
  rewrite (warn_ok _ _ T). exact Logic.I.
Qed.
Lemma cache_calm x : harmless (e_syms e) labels CacheNo (trim x) -> calm any (dm! i <- aimm e s u16 x; dm! v <- lift (imm_as_u32 i);
                   lift (match reg_try_from v with Ok r => Ok r | _ => Panic "Register::try_from" end)).
Proof.
  intros (v & N & L). assert (P : 0 <= v) by (destruct (numeral_shape _ _ N) as (r & ds & _ & _ & P); lia).
  assert (As : assoc (trim x) (p_labels s) = None).
  { destruct (assoc (trim x) (p_labels s)) eqn:E; [|reflexivity]. exfalso. destruct (Known (trim x)) as [_ G]; [congruence|].
    destruct (numeral_head _ _ N) as (c & r & H & D). rewrite H in G. cbn [good_label] in G. congruence. }
  unfold aimm. rewrite (parse_immediate_unsigned e s u16 x (trim x) v (padded_of_trim x) N As) by (change (it_min u16) with 0; change (it_max u16) with 65535; lia).
  unfold imm_new. change (it_bits u16 =? 16) with true. cbn iota. rewrite mbind_ok. cbn [imm_as_u32]. rewrite mbind_ok. apply calm_lift.
  unfold wrap. rewrite Z.mod_small by lia. destruct (enum5_ex v ltac:(lia)) as (k & K & ->).
  do 32 (destruct k as [|k]; [exact Logic.I|]). lia.
Qed.
Lemma offset_split o : ~ In "("%char o \/ low_half (e_syms e) o -> plain_offset o \/ lo_offset o.
Proof. intros [H|(x & a & P & _ & _ & E)]; [left; exact H|right; exists x; auto]. Qed.
Lemma base_calm x : no_nl x -> harmless (e_syms e) labels Memory (trim x) ->
  exists bt r, base_text x = Ok bt /\ reg_from_str bt = Ok r.
Proof.
  intros N (o & b & B & H). destruct (based_base o b (trim x) x B (padded_of_trim x) N (offset_split o H)) as (bt & E & R). eauto.
Qed.
Lemma blank_trim w o w' : blank w -> blank w' -> trim (w ++ o ++ w') = trim o.
Proof.
  intros A B. destruct (trim_decomp o) as (a & b & E & A' & B'). rewrite E at 1. rewrite <- !app_assoc. rewrite (app_assoc w a).
  rewrite trim_around; [reflexivity| | |apply trim_is_tight|apply trim_is_tight]; rewrite forallb_app; apply andb_true_iff; auto.
Qed.
Lemma trim_no_open o : ~ In "("%char o -> ~ In "("%char (trim o).
Proof. intros N I. apply N. destruct (trim_decomp o) as (a & b & E & _). rewrite E. apply in_or_app. right. apply in_or_app. now left. Qed.
Lemma offset_calm x : no_nl x -> harmless (e_syms e) labels Memory (trim x) ->
  match re_find_str OFFSET_RE x with Some o => calm (sized i16) (aimm e s i16 (firstn (List.length o - 1) o)) | None => True end.
Proof.
  intros N (o & b & B & H). destruct (based_offset o b (trim x) x B (padded_of_trim x) N) as (wa & wb & A & A' & E). rewrite E.
  destruct (wa ++ o ++ wb) as [|c y] eqn:Y; [exact Logic.I|]. rewrite <- Y, firstn_last. apply aimm_calm; [now left|].
  rewrite (blank_trim wa o wb A A'). destruct H as [H|(z & a & P & Na & W & ->)]; [left; now apply trim_no_open|].
  right. exists z, a. split; [exact P|]. split; [exact Na|]. split; [exact W|]. left.
  destruct (half_operand #"%lo(" z (or_intror (or_introl eq_refl)) P) as (_ & _ & T1 & T2). now apply StrLemmas.trim_tight.
Qed.
Lemma zero_calm : calm (sized i16) (aimm e s i16 #"0").
Proof. apply aimm_calm; [now left|]. left. intros I. cbn in I. intuition discriminate. Qed.
Lemma float_offset_calm x : calm (sized i16) (aimm e s i16 (match re_find_str OFFSET_RE x with Some o => remove_all #"(" o | None => #"0" end)).
Proof.
  destruct (re_find_str OFFSET_RE x); [|apply zero_calm]. apply aimm_calm; [now left|]. left. apply trim_no_open, remove_open_in.
Qed.
End Operands.

(** ** Instructions *)

Definition safe_inst (oc : bool) (i : inst) : Prop :=
  match i with
  | IImm p _ _ im _ => (oc = true -> is_cmp p = false) /\ (is_sub p = true -> short_imm im)
  | IBytes _ => False
  | _ => True
  end.
Lemma float_known : forallb (fun n => match rop_from_str n with Some _ => true | None => false end) float_names = true. Proof. vm_compute. reflexivity. Qed.
Section Ops.
Variable e : env.
Variable s : pstate.
Variable raw : str.
Variable labels : list str.
Hypothesis Rd : ready e s raw.
Hypothesis Known : forall n, assoc n (p_labels s) <> None -> In n labels /\ good_label n.
Variables op arg : str.
Variable args : list str.
Hypothesis Hargs : Forall (fun x => part x raw /\ no_nl x) args.
Let m := to_lower op.
Hypothesis Ws : forall c, In c m -> is_ws c = false.
Hypothesis Nw : m <> #".word".
Hypothesis Cmp : e_oc e = true -> ~ In m compares.
Hypothesis Slots : forall ks, In (m, ks) shapes -> List.length ks = List.length (map trim args) -> Forall2 (harmless (e_syms e) labels) ks (map trim args).
Hypothesis Unknown : ~ In m (map fst shapes) ->
  (2 <= List.length m)%nat
  /\ (forall stem a b, m = stem ++ [a; b] -> In stem float_stems -> In m float_names)
  /\ (forall r a b, m = #"c." ++ r ++ [a; b] -> b = "s"%char \/ b = "d"%char).

Lemma trim_m : trim m = m.
Proof. apply trim_no_ws. apply chars_no_ws. exact Ws. Qed.
Lemma iop_calm g : classify m = Some g -> type_of g = TI -> calm (fun p => iop_of op = Ok p) (lift (iop_of op)).
Proof.
  intros C T. apply row in C. unfold row_ok, op_known in C. cbn [fst snd] in C. rewrite T in C. apply calm_lift.
  assert (E : iop_of op = iop_of m) by (apply iop_of_letters; symmetry; apply same_lower). unfold iop_of in E at 2.
  destruct (iop_from_str m); [|discriminate]. rewrite E. reflexivity.
Qed.
Lemma jop_calm g : classify m = Some g -> type_of g = TJ -> calm any (lift (jop_of op)).
Proof.
  intros C T. apply row in C. unfold row_ok, op_known in C. cbn [fst snd] in C. rewrite T in C. apply calm_lift.
  assert (E : jop_of op = jop_of m) by (apply jop_of_letters; symmetry; apply same_lower). unfold jop_of in E at 2.
  destruct (jop_from_str m); [|discriminate]. rewrite E. exact Logic.I.
Qed.
Lemma rop_calm g : classify m = Some g -> type_of g = TR -> calm any (lift (rop_of op)).
Proof.
  intros C T. apply row in C. unfold row_ok, op_known in C. cbn [fst snd] in C. rewrite T in C. apply calm_lift.
  assert (E : rop_of op = rop_of m) by (apply rop_of_letters; symmetry; apply same_lower). unfold rop_of in E at 2.
  destruct (rop_from_str m); [|discriminate]. rewrite E. exact Logic.I.
Qed.
Lemma op_not_cmp p : iop_of op = Ok p -> e_oc e = true -> is_cmp p = false.
Proof.
  intros H O. unfold is_cmp. destruct (mem_str _ _) eqn:X; [|reflexivity]. exfalso. apply (Cmp O). unfold m. rewrite (iop_name_is _ _ H). now apply mem_str_in.
Qed.
Lemma op_not_sub p g : iop_of op = Ok p -> classify m = Some g -> g <> GImm3 -> is_sub p = false.
Proof.
  intros H C N. apply iop_name_is in H. fold m in H. rewrite H in C. destruct p; try reflexivity; vm_compute in C; congruence.
Qed.
Lemma slots g ks : classify m = Some g -> In ks (slots_of m g) -> List.length ks = List.length args -> Forall2 (harmless (e_syms e) labels) ks (map trim args).
Proof.
  intros C I L. apply Slots; [|now rewrite map_length]. apply row in C. unfold row_ok in C. cbn [fst snd] in C. apply andb_true_iff in C as [C _]. apply andb_true_iff in C as [_ C].
  apply shaped_in. exact (proj1 (forallb_forall _ _) C ks I).
Qed.

Ltac done_reg := exact Logic.I.
Ltac done_imm C := split; [intros ?; eapply op_not_cmp; eassumption|intros ?; first
  [match goal with H : sized _ ?i |- short_imm ?i => apply H; reflexivity end
  |exfalso; match goal with H : iop_of op = Ok ?p, X : is_sub ?p = true |- _ => rewrite (op_not_sub p _ H C ltac:(discriminate)) in X; discriminate X end]].
Ltac step C := lazymatch goal with
  | |- calm _ (bad_count _ _ _ _ _) => apply (bad_calm e s raw Rd)
  | |- calm _ (lift (Ok (IReg _ _ _ _ _ _))) => done_reg
  | |- calm _ (lift (Ok (IJump _ _ _))) => done_reg
  | |- calm _ (lift (Ok (IImm _ _ _ _ _))) => done_imm C
  | |- calm _ (mbind (areg _ _ _) _) => apply (calm_bind any); [apply (areg_calm e s raw labels Rd); assumption|intros ? _]
  | |- calm _ (mbind (afreg _ _ _) _) => apply (calm_bind any); [apply (afreg_calm e s raw Rd)|intros ? _]
  | |- calm _ (mbind (lift (arg_c0reg _ _ _)) _) => apply (calm_bind any); [apply (ac0reg_calm e s raw Rd)|intros ? _]
  | |- calm _ (mbind (lift (iop_of _)) _) => apply (calm_bind (fun p => iop_of op = Ok p)); [apply (iop_calm _ C eq_refl)|intros ? ?]
  | |- calm _ (mbind (lift (rop_of _)) _) => apply (calm_bind any); [apply (rop_calm _ C eq_refl)|intros ? _]
  | |- calm _ (mbind (lift (jop_of _)) _) => apply (calm_bind any); [apply (jop_calm _ C eq_refl)|intros ? _]
  | |- calm _ (mbind (check_delay _ _) _) => apply (calm_bind any); [apply (delay_calm e s raw Rd)|intros ? _]
  | |- calm _ (mbind (check_branch _ _ _ _) _) => apply (calm_bind any); [apply (branch_calm e s raw Rd); assumption|intros ? _]
  | |- calm _ (mbind (aimm _ _ ?ty _) _) => apply (calm_bind (sized ty)); [apply (aimm_calm e s raw labels Rd Known); [unfold usual; cbn; tauto|assumption]|intros ? ?]
  | |- calm _ (mbind (lift (parse_sa _)) _) => apply (calm_bind any); [apply (amount_calm e labels); assumption|intros ? _]
  end.
Ltac split_args := repeat match goal with H : Forall _ (_ :: _) |- _ =>
    let H1 := fresh "Pt" in let H2 := fresh "Os" in assert (H1 := Forall_inv H); assert (H2 := Forall_inv_tail H); clear H; destruct H1 as [H1 ?] end.
Ltac split_slots H := repeat lazymatch type of H with
  | Forall2 _ (_ :: _) _ => let a := fresh "Sl" in let b := fresh "Sr" in inversion H as [|? ? ? ? a b]; subst; clear H; rename b into H
  | _ => clear H
  end.
Ltac use_slots SL C ks := let H := fresh "Sx" in
  assert (H := SL _ ks eq_refl ltac:(cbn; tauto) eq_refl); cbn [map] in H; split_slots H.
Ltac cases := destruct args as [|x1 [|x2 [|x3 [|x4 xr]]]]; try (apply (bad_calm e s raw Rd)); split_args.
Lemma op_calm : calm (safe_inst (e_oc e)) (parse_op e s op arg args).
Proof.
  assert (SL := slots). unfold parse_op. change (to_lower op) with m. rewrite trim_m. destruct (classify m) as [g|] eqn:C; [destruct g|].
  - unfold parse_mem. cases. change (to_lower op) with m. rewrite trim_m.
    assert (Q : harmless (e_syms e) labels (if str_eqb m #"cache" then CacheNo else TheReg) (trim x1) /\ harmless (e_syms e) labels Memory (trim x2)).
    { assert (X := SL _ [if str_eqb m #"cache" then CacheNo else TheReg; Memory] eq_refl ltac:(left; reflexivity) eq_refl). cbn [map] in X.
      inversion X as [|? ? ? ? Q1 Q2]; subst. inversion Q2 as [|? ? ? ? Q3 _]; subst. auto. }
    destruct Q as [Q1 Q2]. apply (calm_bind any).
    { destruct (str_eqb m #"cache"); [now apply (cache_calm e s labels Known)|now apply (thereg_calm e labels)]. }
    intros rt _. destruct (base_calm e labels x2) as (bt & r & B & R); [assumption|assumption|]. rewrite B, mbind_ok. unfold arg_reg_unwrap at 1. rewrite R, mbind_ok.
    assert (O := offset_calm e s raw labels Rd Known x2 ltac:(assumption) Q2).
    destruct (re_find_str OFFSET_RE x2); step C; (apply (calm_bind (sized i16)); [first [exact O|apply (zero_calm e s raw labels Rd Known)]|intros i Hi]); repeat step C.
  - unfold parse_imm3. cases. use_slots SL C [AReg; AReg; Number]. do 3 step C. destruct (_ || _)%bool; repeat step C.
  - unfold parse_imm2. cases. use_slots SL C [AReg; Number]. repeat step C.
  - unfold parse_trap_imm. cases. use_slots SL C [AReg; Number]. repeat step C.
  - unfold parse_branch1. cases. use_slots SL C [AReg; Number]. repeat step C.
  - unfold parse_branch2. cases. use_slots SL C [AReg; AReg; Number]. repeat step C.
  - unfold parse_jump. cases. use_slots SL C [Goal]. step C. cbv zeta. apply (calm_bind any); [now apply (goal_calm e s raw Rd)|intros t _].
    apply (calm_bind any); [apply (jump_calm e s raw Rd); apply (part_trans _ x1); [apply trim_part|assumption]|intros ? _]. repeat step C.
  - unfold parse_plain. repeat step C.
  - unfold parse_reg3. cases. use_slots SL C [AReg; AReg; AReg]. repeat step C.
  - unfold parse_shift. cases. use_slots SL C [AReg; AReg; Amount]. repeat step C.
  - unfold parse_shiftv. cases. use_slots SL C [AReg; AReg; AReg]. repeat step C.
  - unfold parse_code. cases. use_slots SL C [Constant]. apply (calm_bind number_imm).
    + destruct x1 as [|c x]; [reflexivity|]. apply (constant_calm e s raw labels Rd Known); [now left|]. rewrite trim_idem. assumption.
    + intros i Hi. step C. apply (calm_bind any); [now apply as_u32_calm|intros ? _]. repeat step C.
  - unfold parse_reg2. cases. use_slots SL C [AReg; AReg]. repeat step C.
  - unfold parse_jalr. cases; [use_slots SL C [AReg]|use_slots SL C [AReg; AReg]]; repeat step C.
  - unfold parse_move. cases. use_slots SL C [AReg; AReg]. repeat step C.
  - unfold parse_b. cases. use_slots SL C [Number]. repeat step C.
  - unfold parse_li. cases. use_slots SL C [AReg; Constant]. step C. apply (calm_bind number_imm); [apply (constant_calm e s raw labels Rd Known); [unfold usual; cbn; tauto|assumption]|].
    intros i Hi. apply (calm_bind any); [now apply as_u64_calm|intros v _]. destruct (_ >? _); [apply calm_lift, (fail_fine e s raw Rd)|]. repeat step C.
  - unfold parse_div. cases; [use_slots SL C [AReg; AReg]|use_slots SL C [AReg; AReg; AReg]]; repeat step C.
  - unfold parse_rs. cases. use_slots SL C [AReg]. apply (calm_bind any); [destruct (str_eqb _ _); [apply (delay_calm e s raw Rd)|exact Logic.I]|intros ? _]. repeat step C.
  - unfold parse_rd. cases. use_slots SL C [AReg]. repeat step C.
  - unfold parse_dli. cases. use_slots SL C [AReg; Number]. repeat step C.
  - unfold parse_b. cases. use_slots SL C [Number]. repeat step C.
  - unfold parse_cop0. cases. use_slots SL C [AReg; Other]. repeat step C.
  - unfold parse_cop1. cases. use_slots SL C [AReg; Other]. repeat step C.
  - unfold parse_plain. repeat step C.
  - unfold parse_fmem. cases. use_slots SL C [Other; Memory]. step C. destruct (base_calm e labels x2) as (bt & r & B & R); [assumption|assumption|]. rewrite B, mbind_ok.
    unfold areg, arg_reg. rewrite R, mbind_ok. step C. apply (calm_bind (sized i16)); [apply (float_offset_calm e s raw labels Rd Known)|intros i Hi]. repeat step C.
  - exfalso. apply Nw. assert (X := row _ _ C). unfold row_ok in X. cbn [fst snd] in X. apply andb_true_iff in X as [_ X]. now apply str_eqb_spec in X.
  - assert (U := Unknown (unclassified m C)). clear SL Slots. destruct U as (Ln & Fl & Cd).
    assert (Le : List.length op = List.length m) by (unfold m, to_lower; now rewrite map_length). unfold parse_float. rewrite Le.
    replace (Nat.ltb (List.length m) 2) with false by (symmetry; apply Nat.ltb_ge; exact Ln). cbv zeta. change (to_lower op) with m.
    set (stem := firstn (List.length m - 2) m).
    assert (Es : exists a b, m = stem ++ [a; b]).
    { assert (X := firstn_skipn (List.length m - 2) m). fold stem in X. assert (Y : List.length (skipn (List.length m - 2) m) = 2%nat) by (rewrite skipn_length; lia).
      destruct (skipn (List.length m - 2) m) as [|a [|b [|? ?]]]; try discriminate Y. exists a, b. now symmetry. }
    destruct Es as (a & b & Es).
    assert (Rop : mem_str stem float_stems = true -> calm any (lift (rop_of op))).
    { intros X. apply mem_str_in in X. specialize (Fl stem a b Es X). apply calm_lift. rewrite (rop_of_letters op m) by (symmetry; apply same_lower).
      apply (proj1 (forallb_forall _ _) float_known) in Fl. unfold rop_of. destruct (rop_from_str m); [exact Logic.I|discriminate]. }
    assert (Fs : forall x, mem_str x float_stems = mem_str x float3_names || mem_str x float2_names).
    { intros x. unfold mem_str. rewrite <- existsb_app. reflexivity. }
    rewrite Fs in Rop. destruct (mem_str stem float3_names).
    { cases. repeat first [step C|apply (calm_bind any); [now apply Rop|intros ? _]]. }
    destruct (mem_str stem float2_names).
    { cases. repeat first [step C|apply (calm_bind any); [now apply Rop|intros ? _]]. }
    destruct (starts_with #"c." stem) eqn:St; [|apply calm_lift, (fail_fine e s raw Rd)].
    apply starts_with_spec in St as [r Sr]. rewrite Sr, <- app_assoc in Es. assert (Lb := Cd r a b Es).
    cases. step C. step C. apply (calm_bind any).
    { assert (L : exists o', op = o' ++ [last op a] /\ lower_char (last op a) = b).
      { assert (Ne : op <> []) by (intros ->; discriminate Es). exists (removelast op). split; [now apply app_removelast_last|].
        assert (X := app_removelast_last a Ne). assert (Y : m = to_lower (removelast op) ++ [lower_char (last op a)]) by (unfold m; rewrite X at 1; unfold to_lower; apply map_app).
        rewrite Es in Y. replace (#"c." ++ r ++ [a; b]) with ((#"c." ++ r ++ [a]) ++ [b]) in Y by (rewrite <- !app_assoc; reflexivity).
        apply app_inj_tail in Y as [_ Y]. now symmetry. }
      destruct L as (o' & Lo & Lc). rewrite Lo, rev_app_distr. cbn [rev app]. apply calm_lift. generalize dependent (last op a). intros c _ Lc.
      rewrite (rop_of_letters (#"C." ++ [c]) (#"C." ++ [b])).
      - destruct Lb as [-> | ->]; vm_compute; exact Logic.I.
      - unfold same_letters. rewrite <- Lc. clear. destruct c as [[] [] [] [] [] [] [] []]; reflexivity. }
    intros ? _. apply (calm_bind any); [|intros ? _; done_reg].
    assert (D : exists c, nth_error (split_char "." op) 1 = Some c).
    { assert (Hd : exists r', op = r') by eauto. destruct op as [|c1 [|c2 o]]; try discriminate Es. assert (X : lower_char c2 = "."%char) by (unfold m in Es; cbn in Es; congruence).
      assert (X1 : lower_char c1 = "c"%char) by (unfold m in Es; cbn in Es; congruence).
      assert (c2 = "."%char) as -> by (clear -X; destruct c2 as [[] [] [] [] [] [] [] []]; try discriminate X; reflexivity).
      assert (Nc : Ascii.eqb c1 "." = false) by (destruct (Ascii.eqb_spec c1 ".") as [->|]; [discriminate X1|reflexivity]).
      cbn [split_char]. rewrite Nc. rewrite Ascii.eqb_refl. cbn. destruct (split_char "." o) as [|y ys] eqn:Z; [|eauto].
      exfalso. clear -Z. destruct o as [|z o]; [discriminate|]. cbn in Z. destruct (Ascii.eqb z "."); [discriminate|]. destruct (split_char "." o); discriminate. }
    destruct D as [cond ->]. apply calm_lift. unfold parse_float_cond. destruct (assoc _ _); [exact Logic.I|apply (fail_fine e s raw Rd)].
Qed.
End Ops.
