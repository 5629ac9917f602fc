(** * RefProofs: references in programs that may have errors (proofs only). *)

From Coq Require Import Lia Permutation.
From Verif Require Import Lib SpecIsa StrLemmas NumLemmas TextProofs OperandProofs NativeProofs LineProofs ScanProofs ProgProofs PseudoProofs BranchProofs LabelProofs CongProofs ErrorProofs SpecErrors SpecText SpecProgram SpecLabels.

(** One line of a program that does not panic. *)
Lemma reference_at rt m input l1 raw l2 : lines input = l1 ++ raw :: l2 -> (forall p, assemble rt m input <> Panic p) ->
  let e := mk_parser rt m input in
  exists s1 f1 x f2 s, sound e s1 l1 f1 /\ fated e s1 raw x /\ scan_lines e init_state l1 = Ok s1
    /\ scan_lines e init_state (lines input) = Ok s /\ sound e s (lines input) (f1 ++ x :: f2)
    /\ ready e (bump s1) raw
    /\ forall i, x = Made i -> exists i1 e2, adjust_one e (final e s) (made_count f1) (S (List.length l1)) i = Ok (i1, e2)
         /\ forall p, In p e2 -> exists es, assemble rt m input = Err es /\ In p es.
Proof.
  intros Ei Np e. destruct (read_to_end rt m input Np) as (s & is1 & errs & Sc & Ad & Er). fold e in Sc, Ad.
  destruct (sound_at e s l1 raw l2 (proj2 (Forall_forall _ _) (lines_no_nl input)) Ei Sc) as (s1 & f1 & x & f2 & Sc1 & So1 & Fx & So).
  exists s1, f1, x, f2, s. repeat (split; [assumption|]). split; [exact (sound_ready _ _ _ _ _ _ So1 Ei)|]. intros i ->.
  rewrite (so_insts _ _ _ _ So), mades_app in Ad. cbn [mades] in Ad. apply adjust_at in Ad as (a1 & x1 & a2 & e1 & e2 & e3 & A & _ & E & _).
  rewrite mades_count in A. cbn in A. rewrite (so_fates _ _ _ _ So1) in A. exists x1, e2. split; [exact A|].
  intros p I. apply Er. apply in_or_app. right. rewrite E. apply in_or_app. right. apply in_or_app. now left.
Qed.

(** A line that is read as an instruction becomes that instruction. *)
Lemma fated_made e s raw x w i : clean raw <> [] -> ends_with #":" (clean raw) = false -> parse_inst e (bump s) (clean raw) = (w, Ok i) -> fated e s raw x -> x = Made i.
Proof.
  intros Ne Ec P F. assert (R := role_native raw Ne Ec). destruct F as [R'|k R' O|k c r R' Ek D|k j fl R' G As Nj|w' i' R' Pi|w' p R' Pi El Ek]; rewrite R in R'; try discriminate.
  - rewrite P in Pi. apply pair_equal_spec in Pi as [_ Pi]. now injection Pi as <-.
  - rewrite P in Pi. apply pair_equal_spec in Pi as [_ Pi]. discriminate.
Qed.

(** Reading a branch to a number. *)
Lemma number_branch_parse e s f os t a raw : In f (isa ++ idioms) -> branch_line f os t raw -> numeral t a -> a < 2 ^ 32 -> no_nl raw -> ready e s raw ->
  (forall n k, In (n, k) (p_labels s) -> good_label n) ->
  clean raw <> [] /\ ends_with #":" (clean raw) = false
  /\ exists w p rs rt, parse_inst e s (clean raw) = (w, Ok (IImm p rs rt (Int a) [])) /\ is_b_op p = true.
Proof.
  intros If B Nu Ra N Rd Gd. assert (Ra0 : 0 <= a) by (now apply (numeral_nonneg t)).
  assert (Ot : operand_ok t) by (apply numeral_shape in Nu as (radix & ds & S & _); now apply (number_operand_ok _ _ _ _ S)).
  assert (As : assoc t (p_labels s) = None).
  { destruct (assoc t (p_labels s)) as [k|] eqn:E; [|reflexivity]. apply assoc_in in E. apply Gd in E.
    destruct (numeral_head t a Nu) as (c & r & -> & D). cbn in E. congruence. }
  destruct (branch_line_parse e s f os t raw (Int a)
              (fun x => if negb (a mod 4 =? 0) then [WUnalignedBranch (mk_line (p_line s) raw) x] else []) If B Ot N Rd) as (Ne & Ec & p & rs & r2 & x & P & Bo & _).
  { intros x Px Pr. split.
    - unfold aimm. rewrite (parse_immediate_unsigned e s u32 x t a Px Nu As); [|change (it_min u32) with 0; change (it_max u32) with (2 ^ 32 - 1); lia].
      unfold imm_new. change (it_bits u32 =? 16) with false. change (it_bits u32 =? 32) with true. cbn iota. unfold wrap. rewrite Z.mod_small by lia. reflexivity.
    - unfold check_branch. cbn [imm_is_label imm_as_u32]. rewrite mbind_ok. destruct (negb (a mod 4 =? 0)); [|reflexivity].
      rewrite (get_line_ready e _ raw Rd). cbn [obind warn show_warning].
      destruct (fmt_line_ok (p_line s) raw (margin_of (p_line s)) true #"offset is not divisible by 4" false x (part_find x raw Pr)) as [tx Ex].
      rewrite Ex. reflexivity. }
  split; [exact Ne|]. split; [exact Ec|]. exists (delay_warning e s raw ++ (if negb (a mod 4 =? 0) then [WUnalignedBranch (mk_line (p_line s) raw) x] else [])), p, rs, r2. auto.
Qed.

(** Reading a branch to a local label. *)
Lemma local_branch_parse e s f os n raw : In f (isa ++ idioms) -> branch_line f os n raw -> identifier n -> is_local n = true -> no_nl raw -> ready e s raw ->
  clean raw <> [] /\ ends_with #":" (clean raw) = false
  /\ exists w p rs rt, parse_inst e s (clean raw) = (w, Ok (IImm p rs rt (LocalLabel n) []))
     /\ forall d, encodes (IImm p rs rt (Short (d mod 65536)) []) [word f (os ++ [OInt d])].
Proof.
  intros If B Id Lc N Rd.
  destruct (branch_line_parse e s f os n raw (LocalLabel n) (fun _ => []) If B (identifier_operand n Id) N Rd) as (Ne & Ec & p & rs & r2 & x & P & _ & _ & _ & En).
  { intros x Px _. split; [|reflexivity]. unfold aimm, parse_immediate. rewrite (identifier_trim n x Id Px). fold (is_local n). now rewrite Lc. }
  split; [exact Ne|]. split; [exact Ec|]. exists (delay_warning e s raw ++ []), p, rs, r2. auto.
Qed.
Lemma get_line_nth e k c : nth_error (e_input e) k = Some c -> get_line e (S k) = Ok (mk_line (S k) c).
Proof. intros H. unfold get_line. rewrite Nat.sub_succ, Nat.sub_0_r, H. reflexivity. Qed.

(** ** Local labels *)

Lemma map_insert_in {V} k (v : V) m k' v' : In (k', v') (map_insert k v m) -> (k' = k /\ v' = v) \/ In (k', v') m.
Proof.
  induction m as [|[a b] m IH]; cbn [map_insert].
  - intros [H|[]]. injection H as <- <-. now left.
  - destruct (str_eqb k a) eqn:E.
    + apply str_eqb_spec in E. subst a. intros [H|H]; [injection H as <- <-; now left|right; now right].
    + intros [H|H]; [right; now left|]. destruct (IH H); [now left|right; now right].
Qed.
Lemma assoc_insert {V} k (v : V) m n : assoc n (map_insert k v m) = if str_eqb n k then Some v else assoc n m.
Proof.
  induction m as [|[a b] m IH]; cbn [map_insert assoc]; [reflexivity|].
  destruct (str_eqb k a) eqn:E; cbn [assoc].
  - apply str_eqb_spec in E. subst a. destruct (str_eqb n k); reflexivity.
  - rewrite IH. destruct (str_eqb n a) eqn:Ea; [|reflexivity]. apply str_eqb_spec in Ea. subst a. destruct (str_eqb n k) eqn:En; [|reflexivity].
    apply str_eqb_spec in En. subst k. now rewrite str_eqb_refl in E.
Qed.
Lemma insert_nodup {V} k (v : V) m : NoDup (map fst m) -> NoDup (map fst (map_insert k v m)).
Proof.
  intros H. induction m as [|[a b] m IH]; cbn [map_insert].
  - constructor; [intros []|constructor].
  - inversion H as [|? ? Hn Hd]; subst. destruct (str_eqb k a) eqn:E; [exact H|]. cbn [map fst]. constructor; [|now apply IH].
    intros I. apply in_map_iff in I as ((k', v') & <- & I). apply map_insert_in in I as [[-> _]|I]; [cbn in E; now rewrite str_eqb_refl in E|]. apply Hn. now apply (in_map fst) in I.
Qed.
Definition listed {A} (o : option (list A)) : list A := match o with Some l => l | None => [] end.
Lemma assoc_push d k v n : assoc n (dropped_push d (k, v)) = if str_eqb n k then Some (listed (assoc n d) ++ [v]) else assoc n d.
Proof.
  unfold dropped_push. cbn [fst snd]. destruct (assoc k d) as [l|] eqn:E; rewrite assoc_insert; destruct (str_eqb n k) eqn:En; try reflexivity;
    apply str_eqb_spec in En; subst k; now rewrite E.
Qed.
(** What a flush does to one name. *)
Lemma assoc_flush n l : NoDup (map fst l) -> forall d,
  assoc n (fold_left dropped_push l d) = match assoc n l with Some v => Some (listed (assoc n d) ++ [v]) | None => assoc n d end.
Proof.
  induction l as [|[k v] l IH]; intros Nd d; [reflexivity|]. cbn [fold_left assoc]. inversion Nd as [|? ? Hn Hd]; subst. rewrite (IH Hd), assoc_push.
  destruct (str_eqb n k) eqn:E; [|reflexivity]. apply str_eqb_spec in E. subst k. rewrite (proj2 (assoc_names n l) Hn). reflexivity.
Qed.
Lemma assoc_perm {V} n (l l' : list (str * V)) : NoDup (map fst l) -> Permutation l l' -> assoc n l = assoc n l'.
Proof.
  intros Nd P. assert (Nd' : NoDup (map fst l')) by (apply (Permutation_NoDup (Permutation_map fst P) Nd)).
  destruct (assoc n l) as [v|] eqn:E.
  - symmetry. apply assoc_nodup; [exact Nd'|]. apply (Permutation_in _ P). now apply assoc_in.
  - symmetry. apply assoc_names. intros I. apply assoc_names in E. apply E. apply in_map_iff in I as ((k, v) & <- & I). apply (in_map fst). now apply (Permutation_in _ (Permutation_sym P)).
Qed.

(** An order of iteration: a permutation. *)
Definition orders (rt : runtime) : Prop := forall l, Permutation (rt_order rt l) l.

Section Tidy.
Variable e : env.
Hypothesis Ord : forall l, Permutation (e_order e l) l.

Record tidy (s : pstate) (done : list str) : Prop := mk_tidy {
  td_local : forall k a sc, In (k, (a, sc)) (p_local s) -> (exists l, In l done /\ role_of l = Defines k) /\ (sc = [] \/ In sc (map fst (p_labels s)));
  td_nodup : NoDup (map fst (p_local s));
  td_dropped : forall k defs, assoc k (p_dropped s) = Some defs -> (exists l, In l done /\ role_of l = Defines k)
     /\ forall a sc, In (a, sc) defs -> sc = [] \/ In sc (map fst (p_labels s))
}.
Lemma flush_assoc s n : NoDup (map fst (p_local s)) ->
  assoc n (p_dropped (flush_locals e s)) = match assoc n (p_local s) with Some v => Some (listed (assoc n (p_dropped s)) ++ [v]) | None => assoc n (p_dropped s) end.
Proof.
  intros Nd. unfold flush_locals. cbn [p_dropped]. assert (Nd' : NoDup (map fst (e_order e (p_local s)))).
  { apply (Permutation_NoDup (Permutation_map fst (Permutation_sym (Ord (p_local s)))) Nd). }
  rewrite (assoc_flush n _ Nd'). now rewrite (assoc_perm n _ _ Nd (Permutation_sym (Ord (p_local s)))).
Qed.
Lemma tidy_flush s done : tidy s done -> tidy (flush_locals e s) done.
Proof.
  intros [A B C]. constructor; [intros k a sc []|constructor|]. intros k defs H. rewrite (flush_assoc s k B) in H. change (p_labels (flush_locals e s)) with (p_labels s).
  destruct (assoc k (p_local s)) as [[a sc]|] eqn:E; [|now apply C]. injection H as <-. apply assoc_in, A in E as [Hl Hs]. split; [exact Hl|].
  intros b sb I. apply in_app_or in I as [I|[I|[]]]; [|injection I as <- <-; exact Hs].
  destruct (assoc k (p_dropped s)) as [defs|] eqn:Ed; [|destruct I]. now apply (C k defs Ed) in I.
Qed.
Lemma tidy_more s done raw : tidy s done -> tidy s (done ++ [raw]).
Proof.
  intros [A B C]. constructor; auto.
  - intros k a sc I. destruct (A k a sc I) as [(l & L & R) X]. split; [|exact X]. exists l. split; [apply in_or_app; now left|exact R].
  - intros k d I. destruct (C k d I) as [(l & L & R) X]. split; [|exact X]. exists l. split; [apply in_or_app; now left|exact R].
Qed.
Lemma tidy_step s done raw s' : stepped e s raw s' -> tidy s done -> tidy s' (done ++ [raw]).
Proof.
  intros St T. apply (tidy_more s done raw) in T. destruct St as [R|k R Lc P|k R Lc P|k p R P|w i R P|w p R P]; try (destruct T; constructor; assumption).
  - apply tidy_flush. destruct T as [A B C]. constructor; cbn [add_label bump p_local p_labels p_dropped]; auto.
    + intros n a sc I. destruct (A n a sc I) as [X Y]. split; [exact X|]. rewrite map_app, in_app_iff. tauto.
    + intros n d I. destruct (C n d I) as [X Y]. split; [exact X|]. intros a sc J. rewrite map_app, in_app_iff. destruct (Y a sc J); tauto.
  - destruct T as [A B C]. constructor; cbn [add_local bump p_local p_labels p_dropped]; auto.
    + intros n a sc I. apply map_insert_in in I as [[-> I]|I]; [|now apply (A n a sc)]. injection I as -> ->. split.
      * exists raw. split; [apply in_or_app; right; now left|exact R].
      * unfold scope_of. cbn [bump p_labels]. destruct (rev (p_labels s)) as [|[l j] r] eqn:Er; [now left|right]. apply (in_map fst _ (l, j)). apply in_rev. rewrite Er. now left.
    + now apply insert_nodup.
Qed.
Lemma tidy_scan ls : Forall no_nl ls -> forall s done s', tidy s done -> scan_lines e s ls = Ok s' -> tidy s' (done ++ ls).
Proof.
  induction 1 as [|l ls N _ IH]; intros s done s' T H; cbn [scan_lines] in H; [injection H as <-; now rewrite app_nil_r|].
  apply obind_ok in H as (s1 & H1 & H2). apply step_view in H1; [|exact N]. rewrite <- (app_nil_l (l :: ls)). cbn [app]. 
  replace (done ++ l :: ls) with ((done ++ [l]) ++ ls) by (rewrite <- app_assoc; reflexivity). apply (IH s1 _ s' (tidy_step _ _ _ _ H1 T) H2).
Qed.
Lemma tidy_init : tidy init_state [].
Proof. constructor; [intros k a sc []|constructor|discriminate]. Qed.
Lemma tidy_final s done : tidy s done -> tidy (final e s) done.
Proof. intros T. unfold final. destruct (p_dropped s) eqn:E; [exact T|now apply tidy_flush]. Qed.
End Tidy.

(** ** Labels in instructions are known labels *)

Section Known.
Variables (e : env) (s : pstate).
Definition yields {A} (P : A -> Prop) (x : M A) : Prop := match snd x with Ok a => P a | _ => True end.
Lemma yields_bind {A B} (Q : A -> Prop) (P : B -> Prop) (x : M A) (g : A -> M B) : yields Q x -> (forall a, Q a -> yields P (g a)) -> yields P (mbind x g).
Proof.
  intros H K. destruct x as [w [a|p|p]]; cbn in *; try exact I. specialize (K a H). destruct (g a). exact K.
Qed.
Lemma yields_any {A} (x : M A) : yields (fun _ => True) x.
Proof. unfold yields. now destruct (snd x). Qed.
Definition known_imm (i : immediate) : Prop := match i with Label n => assoc n (p_labels s) <> None | LocalLabel n => is_local n = true | _ => True end.
Definition known_inst (i : inst) : Prop := match i with IImm _ _ _ im _ => known_imm im | _ => True end.
Lemma imm_new_known t v : match @imm_new perror t v with Ok i => known_imm i | _ => True end.
Proof. unfold imm_new. destruct (it_bits t =? 16); [exact I|]. destruct (it_bits t =? 32); [exact I|]. destruct (it_bits t =? 64); exact I. Qed.
Lemma yields_aimm t x : yields known_imm (aimm e s t x).
Proof.
  unfold yields, aimm, lift, parse_immediate, fail_at. cbn [snd]. destruct (starts_with #"@@" (trim x)) eqn:Ea; [exact Ea|].
  destruct (assoc (trim x) (p_labels s)) eqn:E; [cbn; congruence|].
  destruct (re_find_str IMM_RE (trim x)) as [y|].
  - destruct (parse_target e s (strip_parens y)) as [a|p|p]; cbn [obind]; try exact I. destruct (Nat.ltb _ _); [exact I|].
    destruct (str_eqb _ _).
    + destruct a; cbn [target_as_u32 obind]; try exact I. destruct (ck32 _ _); cbn [obind]; try exact I; apply imm_new_known.
    + destruct (str_eqb _ _); [|exact I]. destruct a; cbn [target_as_u32 obind]; try exact I; apply imm_new_known.
  - destruct (contains _ _).
    + destruct (parse_int t 16 _); [apply imm_new_known|]. unfold get_line. destruct (nth_error _ _); exact I.
    + destruct (parse_int t 10 _); [apply imm_new_known|]. unfold get_line. destruct (nth_error _ _); exact I.
Qed.
Lemma yields_count {A} (P : A -> Prop) arg a b : yields P (bad_count e s arg a b).
Proof. unfold yields, bad_count, lift, fail_at, get_line. cbn. destruct (nth_error _ _); exact I. Qed.

Ltac step := lazymatch goal with
  | |- yields _ (mbind (aimm _ _ _ _) _) => apply (yields_bind known_imm); [apply yields_aimm|intros ? ?]
  | |- yields _ (mbind _ _) => apply (yields_bind (fun _ => True)); [apply yields_any|intros ? ?]
  | |- yields _ (lift (Ok _)) => cbn; solve [exact I | assumption]
  | |- yields _ (bad_count _ _ _ _ _) => apply yields_count
  | |- yields _ (match ?a with _ => _ end) => destruct a
  end.

Lemma known_op op arg args : yields known_inst (parse_op e s op arg args).
Proof.
  unfold parse_op. destruct (classify (trim (to_lower op))) as [g|]; [destruct g|].
  all: unfold parse_mem, parse_imm2, parse_trap_imm, parse_branch1, parse_branch2, parse_jump, parse_plain, parse_reg3, parse_shift, parse_shiftv, parse_code,
    parse_reg2, parse_jalr, parse_move, parse_b, parse_div, parse_rs, parse_rd, parse_dli, parse_cop0, parse_cop1, parse_fmem, parse_word; try (repeat step; fail).
  - unfold parse_imm3. destruct args as [|a [|b [|c [|]]]]; try apply yields_count. step. step. step.
    apply (yields_bind known_imm); [destruct (_ || _)%bool; apply yields_aimm|]. intros i Hi. exact Hi.
  - unfold parse_li. destruct args as [|a [|b [|]]]; try apply yields_count. step. step. step. destruct (_ >? _); [|step; step].
    unfold yields, lift, fail_at, get_line. cbn. destruct (nth_error _ _); exact I.
  - unfold parse_float. destruct (Nat.ltb _ _); [exact I|]. cbv zeta. destruct (mem_str _ float3_names); [repeat step|]. destruct (mem_str _ float2_names); [repeat step|].
    destruct (starts_with _ _); [repeat step|]. unfold yields, lift, fail_at, get_line. cbn. destruct (nth_error _ _); exact I.
Qed.
Lemma known_line ln w i : parse_inst e s ln = (w, Ok i) -> known_inst i.
Proof.
  intros H. assert (Y : yields known_inst (parse_inst e s ln)).
  { unfold parse_inst. destruct (match split_once " " ln with Some oa => oa | None => (ln, []) end) as [op arg]. destruct ln; [|apply known_op].
    unfold yields, lift, fail_at, get_line. cbn. destruct (nth_error _ _); exact I. }
  rewrite H in Y. exact Y.
Qed.
End Known.

(** All instructions read so far refer to known labels. *)
Definition all_known (s : pstate) : Prop := forall n i, In (n, i) (p_insts s) -> known_inst s i.
Lemma known_grows s s' i : (forall n, assoc n (p_labels s) <> None -> assoc n (p_labels s') <> None) -> known_inst s i -> known_inst s' i.
Proof. intros H. destruct i as [op rs rt im b| | |]; cbn; auto. destruct im; cbn; auto. Qed.
Lemma assoc_app_some {V} n (a b : list (str * V)) : assoc n a <> None -> assoc n (a ++ b) <> None.
Proof. induction a as [|[k v] a IH]; cbn; [congruence|]. destruct (str_eqb n k); [congruence|auto]. Qed.
Lemma all_known_step e s raw s' : stepped e s raw s' -> all_known s -> all_known s'.
Proof.
  intros St H. destruct (step_grows _ _ _ _ St) as [(_ & [x El] & _) _].
  assert (G : forall n, assoc n (p_labels s) <> None -> assoc n (p_labels s') <> None) by (intros n; rewrite El; apply assoc_app_some).
  assert (K : forall n i, In (n, i) (p_insts s) -> known_inst s' i) by (intros n i I; apply (known_grows s); [exact G|eauto]).
  destruct St as [R|k R Lc P|k R Lc P|k p R P|w i R P|w p R P]; try exact K.
  intros n j I. cbn [add_inst p_insts add_warnings bump] in I. apply in_app_or in I as [I|[I|[]]]; [eauto|]. injection I as _ <-.
  apply known_line in P. destruct i as [op rs rt im b| | |]; try exact Logic.I. exact P.
Qed.
Lemma all_known_scan e ls : Forall no_nl ls -> forall s s', all_known s -> scan_lines e s ls = Ok s' -> all_known s'.
Proof.
  induction 1 as [|l ls N _ IH]; intros s s' K H; cbn [scan_lines] in H; [now injection H as <-|].
  apply obind_ok in H as (s1 & H1 & H2). apply step_view in H1; [|exact N]. apply (IH s1 s'); [eapply all_known_step; eauto|exact H2].
Qed.

Lemma locals_scan e ls : Forall no_nl ls -> forall s s',
  (forall k i, In (k, i) (p_insts s) -> match i with IImm _ _ _ (LocalLabel l) _ => is_local l = true | _ => True end) -> scan_lines e s ls = Ok s' ->
  forall k i, In (k, i) (p_insts s') -> match i with IImm _ _ _ (LocalLabel l) _ => is_local l = true | _ => True end.
Proof.
  induction 1 as [|l ls N _ IH]; intros s s' K H; cbn [scan_lines] in H; [now injection H as <-|].
  apply obind_ok in H as (s1 & H1 & H2). apply step_view in H1; [|exact N]. apply (IH s1 s'); [|exact H2]. clear -H1 K.
  destruct H1 as [R|k R Lc P|k R Lc P|k p R P|w i R P|w p R P]; try exact K.
  intros n j I. cbn [add_inst p_insts add_warnings bump] in I. apply in_app_or in I as [I|[I|[]]]; [exact (K n j I)|]. injection I as _ <-.
  apply known_line in P. destruct i as [op rs rt im b| | |]; try exact Logic.I. destruct im; try exact Logic.I. exact P.
Qed.

(** Resolution finds its way. *)
Lemma index_of_assoc k l : assoc k l <> None -> index_of k l <> None.
Proof. induction l as [|[k' v] l IH]; cbn; [congruence|]. destruct (str_eqb k k'); [congruence|]. intros H. destruct (index_of k l); [congruence|]. now apply IH. Qed.
Lemma scope_found s lbl : lbl = [] \/ In lbl (map fst (p_labels s)) -> exists lu, get_label_scope s lbl = Ok lu.
Proof.
  intros H. unfold get_label_scope. destruct lbl as [|c lbl]; [eauto|]. destruct H as [H|H]; [discriminate|].
  assert (A : assoc (c :: lbl) (p_labels s) <> None) by (intros A; now apply assoc_names in A).
  assert (B := index_of_assoc _ _ A). destruct (assoc (c :: lbl) (p_labels s)); [|congruence]. destruct (index_of (c :: lbl) (p_labels s)) as [i|]; [|congruence].
  destruct (nth_error (p_labels s) (S i)) as [[? ?]|]; eauto.
Qed.
Lemma pick_found s i defs : (forall a sc, In (a, sc) defs -> sc = [] \/ In sc (map fst (p_labels s))) -> exists r, pick_local s i defs = Ok r.
Proof.
  induction defs as [|[a sc] defs IH]; intros H; [cbn; eauto|]. cbn [pick_local]. destruct (scope_found s sc) as [lu ->]; [apply (H a sc); now left|]. cbn [obind].
  destruct (_ || _)%bool; [|eauto]. apply IH. intros b sb I. apply (H b sb). now right.
Qed.

Theorem resolution_never_panics rt m input s : let e := mk_parser rt m input in orders rt ->
  0 <= m_base m -> m_base m + 4 * Z.of_nat (List.length (lines input)) < 2 ^ 32 ->
  scan_lines e init_state (lines input) = Ok s -> exists r, adjust_from e (final e s) 0 (p_insts s) = Ok r.
Proof.
  intros e Or B0 Bd Sc. assert (N := proj2 (Forall_forall _ _) (lines_no_nl input)).
  destruct (sound_scan e (lines input) N init_state [] [] s (sound_init e) eq_refl Sc) as [fs So]. cbn [app] in So.
  assert (Td : tidy (final e s) (lines input)) by (apply tidy_final; [exact Or|]; apply (tidy_scan e Or (lines input) N init_state [] s tidy_init Sc)).
  assert (K : all_known s) by (apply (all_known_scan e _ N init_state s); [intros n i []|exact Sc]).
  destruct (final_same e s) as (F1 & F2 & F3 & F4 & F5).
  assert (Ln : (List.length (p_insts s) <= List.length (lines input))%nat).
  { rewrite (so_insts _ _ _ _ So), mades_count. assert (X := made_count_le fs). rewrite (so_fates _ _ _ _ So) in X. lia. }
  assert (Li : forall n i, In (n, i) (p_insts s) -> exists c, get_line e n = Ok (mk_line n c)).
  { intros n i I. rewrite (so_insts _ _ _ _ So) in I. apply mades_in in I as (k & Nk & ->). cbn.
    assert (X : (k < List.length fs)%nat) by (apply nth_error_Some; congruence). rewrite (so_fates _ _ _ _ So) in X.
    destruct (nth_error (lines input) k) as [c|] eqn:Ec; [|apply nth_error_None in Ec; lia]. exists c. apply get_line_nth. exact Ec. }
  assert (Ll : p_insts s <> [] -> exists c, get_line e (p_line (final e s)) = Ok (mk_line (p_line (final e s)) c)).
  { intros Ne. rewrite F4, (so_line _ _ _ _ So). destruct (List.length (lines input)) as [|k] eqn:El.
    - destruct (p_insts s); [congruence|cbn in Ln; lia].
    - destruct (nth_error (lines input) k) as [c|] eqn:Ec; [|apply nth_error_None in Ec; lia]. exists c. apply get_line_nth. exact Ec. }
  assert (Lb : forall n a, assoc n (p_labels (final e s)) = Some a -> (a <= List.length (lines input))%nat).
  { intros n a As. rewrite F2 in As. apply assoc_in in As. apply (so_labels _ _ _ _ So) in As as [As _]. rewrite <- (mades_count 0), <- (so_insts _ _ _ _ So) in As. lia. }
  assert (C4 : forall k, (k <= List.length (lines input))%nat -> @ck32 perror (e_oc e) (wrap 32 (Z.of_nat k) * 4) = Ok (Z.of_nat k * 4)
              /\ @ck32 perror (e_oc e) (e_base e + Z.of_nat k * 4) = Ok (m_base m + Z.of_nat k * 4)).
  { intros k Hk. unfold wrap. rewrite Z.mod_small by lia. change (e_base e) with (m_base m). unfold ck32.
    replace ((0 <=? Z.of_nat k * 4) && (Z.of_nat k * 4 <? 2 ^ 32))%bool with true by lia.
    replace ((0 <=? m_base m + Z.of_nat k * 4) && (m_base m + Z.of_nat k * 4 <? 2 ^ 32))%bool with true by lia. auto. }
  assert (One : forall i n ins, In (n, ins) (p_insts s) -> exists r, adjust_one e (final e s) i n ins = Ok r).
  { intros i n ins I. destruct (Li n ins I) as [c Gc]. assert (Kn := K n ins I). unfold adjust_one.
    destruct ins as [op rs rt0 imm b|op t b|op rs rt0 rd sa b|w]; try (eexists; reflexivity).
    - destruct imm as [v|v|v|loc|lbl]; try (eexists; reflexivity).
      + destruct (negb (is_b_op op)); [eexists; reflexivity|]. rewrite F1. destruct (C4 _ Ln) as [-> C5]. cbn [obind]. rewrite C5.
        destruct (Ll ltac:(intros E; rewrite E in I; destruct I)) as [cl ->]. rewrite Gc. cbn [obind].
        destruct (_ <? _); cbn [obind]; [eexists; reflexivity|]. destruct (_ >? _); cbn [obind]; eexists; reflexivity.
      + rewrite Gc. destruct (assoc loc (p_dropped (final e s))) as [defs|] eqn:Ed; [|eexists; reflexivity].
        destruct (pick_found (final e s) i defs) as [[a|] ->]; [apply (td_dropped _ _ Td loc defs Ed)| |]; cbn [obind]; eexists; reflexivity.
      + cbn in Kn. rewrite F2. destruct (assoc lbl (p_labels s)); [|congruence]. eexists; reflexivity.
    - destruct t as [lbl|a]; [|eexists; reflexivity]. rewrite Gc. destruct (assoc lbl (p_labels (final e s))) as [a|] eqn:As; [|eexists; reflexivity].
      destruct (C4 a (Lb _ _ As)) as [-> C5]. cbn [obind]. rewrite C5. eexists; reflexivity. }
  clear -One. revert One. generalize (p_insts s) as l. generalize 0%nat as i.
  intros i l. revert i. induction l as [|[n x] l IH]; intros i One; [eexists; reflexivity|]. cbn [adjust_from].
  destruct (One i n x (or_introl eq_refl)) as [r ->]. cbn [obind]. destruct (IH (S i)) as [q ->]; [intros j k y I; apply One; now right|]. eexists; reflexivity.
Qed.
