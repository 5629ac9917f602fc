(** * AppendProofs: lines added at the end (proofs only). *)

From Coq Require Import Lia Permutation.
From Verif Require Import Lib SpecIsa StrLemmas NumLemmas DecodeProofs TextProofs OperandProofs NativeProofs LineProofs ScanProofs ProgProofs BranchProofs DisplayProofs ErrorProofs RefProofs ScopeProofs EnvProofs
  SpecText SpecProgram SpecScopes SpecExtend.

Definition begins {A} (a b : list A) : Prop := exists r, b = a ++ r.
Lemma begins_refl {A} (a : list A) : begins a a. Proof. exists []. now rewrite app_nil_r. Qed.
Lemma begins_app {A} (a b c : list A) : begins a b -> begins a (b ++ c).
Proof. intros [r ->]. exists (r ++ c). now rewrite app_assoc. Qed.

(** The definitions of a name that are recorded, and those that will be. *)
Definition current (s : pstate) (n : str) : list (nat * str) := match assoc n (p_local s) with Some v => [v] | None => [] end.
Definition will (s : pstate) (n : str) : list (nat * str) := listed (assoc n (p_dropped s)) ++ current s n.

Section Will.
Variable e : env.
Hypothesis Ord : forall l, Permutation (e_order e l) l.
Lemma flush_listed s n : NoDup (map fst (p_local s)) -> listed (assoc n (p_dropped (flush_locals e s))) = will s n.
Proof. intros Nd. rewrite (flush_assoc e Ord) by exact Nd. unfold will, current. destruct (assoc n (p_local s)); cbn [listed]; [reflexivity|now rewrite app_nil_r]. Qed.

(** The local labels at hand are those of the last scope. *)
Record fresh (s : pstate) (done : list str) : Prop := mk_fresh {
  fr_nodup : NoDup (map fst (p_local s));
  fr_scope : forall n v, assoc n (p_local s) = Some v -> exists p1 d p2, done = p1 ++ d :: p2 /\ role_of d = Defines n /\ is_local n = true /\ no_global p2
}.
Lemma fresh_init : fresh init_state [].
Proof. constructor; [constructor|discriminate]. Qed.
Lemma fresh_step s done raw s' : stepped e s raw s' -> p_errors s' = [] -> fresh s done -> fresh s' (done ++ [raw]).
Proof.
  intros St Er [Nd Sc]. assert (Keep : global_label raw = false -> forall n v, assoc n (p_local s) = Some v -> exists p1 d p2, done ++ [raw] = p1 ++ d :: p2 /\ role_of d = Defines n /\ is_local n = true /\ no_global p2).
  { intros G n v A. destruct (Sc n v A) as (p1 & d & p2 & -> & R & L & N). exists p1, d, (p2 ++ [raw]). split; [now rewrite <- app_assoc|]. split; [exact R|]. split; [exact L|].
    apply no_global_app. split; [exact N|]. intros l [<-|[]]. exact G. }
  destruct St as [R|k R Lc P|k R Lc P|k p R P|w i R P|w p R P]; try (exfalso; cbn in Er; destruct (p_errors s); discriminate).
  - constructor; [exact Nd|]. apply Keep. unfold global_label. now rewrite R.
  - constructor; [constructor|discriminate].
  - constructor; [cbn [add_local bump p_local]; now apply insert_nodup|]. intros n v. cbn [add_local bump p_local]. rewrite assoc_insert. destruct (str_eqb n k) eqn:E.
    + intros _. apply str_eqb_spec in E. subst k. exists done, raw, []. split; [reflexivity|]. split; [exact R|]. split; [exact Lc|]. intros l [].
    + apply Keep. unfold global_label. now rewrite R, Lc.
  - constructor; [exact Nd|]. apply Keep. unfold global_label. now rewrite R.
Qed.
Lemma fresh_scan ls : Forall no_nl ls -> forall s done s', fresh s done -> scan_lines e s ls = Ok s' -> p_errors s' = [] -> fresh s' (done ++ ls).
Proof.
  induction 1 as [|l ls N Nl IH]; intros s done s' F H Er; cbn [scan_lines] in H; [injection H as <-; now rewrite app_nil_r|].
  apply obind_ok in H as (s1 & H1 & H2). apply step_view in H1; [|exact N].
  replace (done ++ l :: ls) with ((done ++ [l]) ++ ls) by (rewrite <- app_assoc; reflexivity). apply (IH s1 _ s'); auto.
  apply (fresh_step s done l s1); auto. apply (no_errors_before s1 s'); [apply (scan_grows e ls Nl _ _ H2)|exact Er].
Qed.

(** Reading on from [s0]. *)
Variables (s0 : pstate).
Definition clear_of (more : list str) : Prop := forall n v p d q, assoc n (p_local s0) = Some v -> more = p ++ d :: q -> no_global p -> role_of d <> Defines n.
Inductive kept (s : pstate) (done : list str) : Prop :=
| kp_same : no_global done -> p_dropped s = p_dropped s0 -> (forall n v, assoc n (p_local s0) = Some v -> assoc n (p_local s) = Some v) -> kept s done
| kp_flushed : ~ no_global done -> (forall n, begins (will s0 n) (listed (assoc n (p_dropped s)))) -> kept s done.
Lemma kept_step s done raw rest s' : stepped e s raw s' -> p_errors s' = [] -> NoDup (map fst (p_local s)) -> clear_of (done ++ raw :: rest) -> kept s done -> kept s' (done ++ [raw]).
Proof.
  intros St Er Nd Cl Kp.
  assert (Plain : (forall k, role_of raw <> Defines k) -> p_local s' = p_local s -> p_dropped s' = p_dropped s -> kept s' (done ++ [raw])).
  { intros R El Ed. assert (G : global_label raw = false) by (unfold global_label; destruct (role_of raw); auto; exfalso; eapply R; reflexivity). destruct Kp as [Ng D L|Ng B].
    - apply kp_same; [apply no_global_app; split; [exact Ng|]; intros l [<-|[]]; exact G|congruence|]. intros n v A. rewrite El. auto.
    - apply kp_flushed; [intros X; apply Ng; now apply no_global_app in X|]. intros n. rewrite Ed. apply B. }
  destruct St as [R|k R Lc P|k R Lc P|k p R P|w i R P|w p R P]; try (exfalso; cbn in Er; destruct (p_errors s); discriminate).
  - apply Plain; [rewrite R; discriminate|reflexivity|reflexivity].
  - assert (G : global_label raw = true) by (unfold global_label; now rewrite R, Lc). apply kp_flushed.
    { intros X. apply no_global_app in X as [_ X]. specialize (X raw (or_introl eq_refl)). congruence. }
    intros n. rewrite flush_listed by exact Nd. unfold will at 2. change (p_dropped (add_label (bump s) k)) with (p_dropped s). change (current (add_label (bump s) k) n) with (current s n).
    destruct Kp as [Ng D L|Ng B]; [|apply begins_app, B]. rewrite D. unfold will, current. destruct (assoc n (p_local s0)) as [v|] eqn:A; [rewrite (L n v A); apply begins_refl|].
    rewrite app_nil_r. apply begins_app, begins_refl.
  - assert (G : global_label raw = false) by (unfold global_label; now rewrite R, Lc). destruct Kp as [Ng D L|Ng B].
    + apply kp_same; [apply no_global_app; split; [exact Ng|]; intros l [<-|[]]; exact G|exact D|]. intros n v A. cbn [add_local bump p_local]. rewrite assoc_insert.
      destruct (str_eqb n k) eqn:E; [|now apply L]. apply str_eqb_spec in E. subst k. exfalso. exact (Cl n v done raw rest A eq_refl Ng R).
    + apply kp_flushed; [intros X; apply Ng; now apply no_global_app in X|]. exact B.
  - apply Plain; [rewrite R; discriminate|reflexivity|reflexivity].
Qed.
Lemma kept_scan ls : Forall no_nl ls -> forall s done s' pre, fresh s pre -> clear_of (done ++ ls) -> kept s done -> scan_lines e s ls = Ok s' -> p_errors s' = [] -> kept s' (done ++ ls) /\ NoDup (map fst (p_local s')).
Proof.
  induction 1 as [|l ls N Nl IH]; intros s done s' pre F C K H Er; cbn [scan_lines] in H; [injection H as <-; rewrite app_nil_r; split; [exact K|apply F]|].
  apply obind_ok in H as (s1 & H1 & H2). apply step_view in H1; [|exact N].
  assert (E1 : p_errors s1 = []) by (apply (no_errors_before s1 s'); [apply (scan_grows e ls Nl _ _ H2)|exact Er]).
  replace (done ++ l :: ls) with ((done ++ [l]) ++ ls) in * by (rewrite <- app_assoc; reflexivity).
  apply (IH s1 (done ++ [l]) s' (pre ++ [l])); auto; [now apply (fresh_step s)|]. apply (kept_step s done l ls s1); auto; [apply F|]. rewrite <- app_assoc in C. exact C.
Qed.
Lemma kept_final s done n : p_dropped s0 <> [] -> NoDup (map fst (p_local s0)) -> NoDup (map fst (p_local s)) -> kept s done ->
  begins (listed (assoc n (p_dropped (final e s0)))) (listed (assoc n (p_dropped (final e s)))).
Proof.
  intros Ne Nd0 Nd K. unfold final at 1. destruct (p_dropped s0) as [|x r] eqn:D0; [congruence|]. rewrite flush_listed by exact Nd0.
  unfold final. destruct K as [Ng D L|Ng B].
  - rewrite D, D0. rewrite flush_listed by exact Nd. unfold will. rewrite D, D0. unfold current. destruct (assoc n (p_local s0)) as [v|] eqn:A; [rewrite (L n v A); apply begins_refl|].
    rewrite app_nil_r. apply begins_app, begins_refl.
  - destruct (p_dropped s) eqn:Ds; [first [apply B | rewrite Ds; apply B | rewrite <- Ds; apply B]|]. rewrite flush_listed by exact Nd. unfold will at 2. apply begins_app. rewrite Ds. apply B.
Qed.
End Will.

(** ** Resolution *)

Lemma label_ge k ls n j : In (n, j) (label_table k ls) -> (k <= j)%nat.
Proof.
  revert k. induction ls as [|l ls IH]; intros k I; cbn [label_table] in I; [destruct I|]. destruct (role_of l) as [|x|].
  - auto.
  - destruct (is_local x); [auto|]. destruct I as [I|I]; [injection I as _ <-; apply le_n|auto].
  - apply IH in I. lia.
Qed.
Lemma assoc_app_some {V} n (a b : list (str * V)) v : assoc n a = Some v -> assoc n (a ++ b) = Some v.
Proof. induction a as [|[k w] a IH]; [discriminate|]. cbn [assoc app]. destruct (str_eqb n k); auto. Qed.
Lemma index_app_some n a b i : index_of n a = Some i -> index_of n (a ++ b) = Some i.
Proof.
  revert i. induction a as [|[k w] a IH]; intros i; [discriminate|]. cbn [index_of app]. destruct (str_eqb n k); [auto|]. destruct (index_of n a) as [j|]; [|discriminate].
  rewrite (IH j eq_refl). auto.
Qed.
Section Resolve.
Variables (s1 s2 : pstate) (xl : list (str * nat)) (xi : list (nat * inst)).
Hypothesis Li : p_insts s2 = p_insts s1 ++ xi.
Hypothesis Ll : p_labels s2 = p_labels s1 ++ xl.
Hypothesis Ge : forall n k, In (n, k) xl -> (List.length (p_insts s1) <= k)%nat.
Lemma scope_more sc lu i : (i < List.length (p_insts s1))%nat -> get_label_scope s1 sc = Ok lu -> exists lu', get_label_scope s2 sc = Ok lu' /\ fst lu' = fst lu /\ Nat.ltb (snd lu') i = Nat.ltb (snd lu) i.
Proof.
  intros Lt. unfold get_label_scope. rewrite Li, app_length. destruct sc as [|c sc].
  - intros H. injection H as <-. eexists. split; [reflexivity|]. split; [reflexivity|]. cbn [snd]. transitivity false; [|symmetry]; apply Nat.ltb_ge; lia.
  - rewrite Ll. destruct (assoc (c :: sc) (p_labels s1)) as [a|] eqn:A; [|discriminate]. destruct (index_of (c :: sc) (p_labels s1)) as [j|] eqn:J; [|discriminate].
    rewrite (assoc_app_some _ _ _ _ A), (index_app_some _ _ _ _ J). destruct (nth_error (p_labels s1) (S j)) as [[l nx]|] eqn:Nx.
    + intros H. injection H as <-. rewrite nth_error_app1 by (apply nth_error_Some; congruence). rewrite Nx. eexists. split; [reflexivity|]. split; reflexivity.
    + intros H. injection H as <-. apply nth_error_None in Nx. rewrite nth_error_app2 by exact Nx. destruct (nth_error xl _) as [[l nx]|] eqn:Ny.
      * apply nth_error_In, Ge in Ny. eexists. split; [reflexivity|]. split; [reflexivity|]. cbn [snd]. transitivity false; [|symmetry]; apply Nat.ltb_ge; lia.
      * eexists. split; [reflexivity|]. split; [reflexivity|]. cbn [snd]. transitivity false; [|symmetry]; apply Nat.ltb_ge; lia.
Qed.
Lemma pick_more i defs r a : (i < List.length (p_insts s1))%nat -> pick_local s1 i defs = Ok (Some a) -> pick_local s2 i (defs ++ r) = Ok (Some a).
Proof.
  intros Lt. induction defs as [|[b sc] defs IH]; [discriminate|]. cbn [pick_local app]. destruct (get_label_scope s1 sc) as [lu|p|p] eqn:G; cbn [obind]; try discriminate.
  destruct (scope_more sc lu i Lt G) as (lu' & -> & F & S). cbn [obind]. rewrite F, S. destruct (_ || _)%bool; [exact IH|auto].
Qed.
Hypothesis Dr : p_dropped s1 <> [] -> forall n, begins (listed (assoc n (p_dropped s1))) (listed (assoc n (p_dropped s2))).
Lemma adjust_more e1 e2 i n x y y' es : e_base e1 = e_base e2 -> (i < List.length (p_insts s1))%nat -> adjust_one e1 s1 i n x = Ok (y, []) -> adjust_one e2 s2 i n x = Ok (y', es) -> y = y'.
Proof.
  intros Eb Lt H1 H2. unfold adjust_one in H1, H2.
  assert (X : forall (a c : inst * list perror), @Ok perror _ a = Ok c -> a = c) by (intros a c E; congruence).
  assert (Same : forall a es1 es2, @Ok perror (inst * list perror) (a, es1) = Ok (y, []) -> @Ok perror (inst * list perror) (a, es2) = Ok (y', es) -> y = y').
  { intros a es1 es2 A B. apply X in A. apply X in B. apply pair_equal_spec in A as [<- _]. apply pair_equal_spec in B as [<- _]. reflexivity. }
  destruct x as [op rs rt im b|op t b|op rs rt rd sa b|w]; [| |eapply Same; eassumption|eapply Same; eassumption].
  - destruct im as [v|v|v|l|l]; [eapply Same; eassumption| |eapply Same; eassumption| |].
    + destruct (negb (is_b_op op)); [eapply Same; eassumption|]. cbv zeta in H1, H2.
      apply obind_ok in H1 as (d1 & _ & H1). apply obind_ok in H2 as (d2 & _ & H2). apply obind_ok in H1 as (er & _ & H1). apply obind_ok in H2 as (er' & _ & H2). eapply Same; eassumption.
    + destruct (assoc l (p_dropped s1)) as [defs|] eqn:D; [|apply obind_ok in H1 as (? & _ & H1); discriminate].
      apply obind_ok in H1 as (p & P & H1). destruct p as [a|]; [|apply obind_ok in H1 as (? & _ & H1); discriminate].
      destruct (Dr ltac:(intros E; rewrite E in D; discriminate) l) as [r R]. rewrite D in R. cbn [listed] in R. apply (pick_more i defs r a Lt) in P.
      destruct (assoc l (p_dropped s2)) as [defs2|]; cbn [listed] in R; [subst defs2|rewrite <- R in P; discriminate P].
      rewrite P in H2. cbn [obind] in H2. eapply Same; eassumption.
    + destruct (assoc l (p_labels s1)) as [k|] eqn:A; [|discriminate]. rewrite Ll, (assoc_app_some _ _ _ _ A) in H2. eapply Same; eassumption.
  - destruct t as [l|a]; [|eapply Same; eassumption]. destruct (assoc l (p_labels s1)) as [k|] eqn:A; [|apply obind_ok in H1 as (? & _ & H1); discriminate].
    rewrite Ll, (assoc_app_some _ _ _ _ A) in H2. apply obind_ok in H1 as (m1 & M1 & H1). apply obind_ok in H1 as (a1 & A1 & H1).
    apply obind_ok in H2 as (m2 & M2 & H2). apply obind_ok in H2 as (a2 & A2 & H2). rewrite <- Eb in A2.
    assert (Ck : forall o v w w', @ck32 perror o v = Ok w -> forall o', @ck32 perror o' v = Ok w' -> w = w').
    { intros o v w w' A0 o' B0. unfold ck32 in A0, B0. destruct (_ && _)%bool; [congruence|]. destruct o, o'; congruence. }
    assert (m1 = m2) by (eapply Ck; eassumption). subst m2. assert (a1 = a2) by (eapply Ck; eassumption). subst a2. eapply Same; eassumption.
Qed.
Lemma adjusts_more e1 e2 : e_base e1 = e_base e2 -> forall l r i q q', (i + List.length l <= List.length (p_insts s1))%nat -> adjust_from e1 s1 i l = Ok q -> snd q = [] -> adjust_from e2 s2 i (l ++ r) = Ok q' ->
  exists z, fst q' = fst q ++ z.
Proof.
  intros Eb. induction l as [|[n x] l IH]; intros r i q q' Lt H1 E H2; cbn [adjust_from app List.length] in *.
  - injection H1 as <-. exists (fst q'). reflexivity.
  - apply obind_ok in H1 as ([y es] & A1 & H1). apply obind_ok in H1 as (q1 & R1 & H1). apply obind_ok in H2 as ([y' es'] & A2 & H2). apply obind_ok in H2 as (q2 & R2 & H2).
    injection H1 as <-. injection H2 as <-. cbn [fst snd] in *. apply app_eq_nil in E as [-> E]. destruct (IH r (S i) q1 q2 ltac:(lia) R1 E R2) as [z ->].
    exists z. cbn [app]. f_equal. symmetry. eapply adjust_more; [exact Eb| |exact A1|exact A2]. lia.
Qed.
End Resolve.

Lemma assemble_more oc : forall l r out out', assemble_insts (E:=perror) oc l = Ok out -> assemble_insts (E:=perror) oc (l ++ r) = Ok out' -> exists z, out' = out ++ z.
Proof.
  induction l as [|x l IH]; intros r out out' H H'; cbn [assemble_insts app] in *; [injection H as <-; now exists out'|].
  apply obind_ok in H as (y & Hy & H). apply obind_ok in H as (ys & Hys & H). apply obind_ok in H' as (y' & Hy' & H'). apply obind_ok in H' as (ys' & Hys' & H').
  injection H as <-. injection H' as <-. rewrite Hy in Hy'. injection Hy' as <-. destruct (IH _ _ _ Hys Hys') as [z ->]. now exists z.
Qed.

(** ** Programs *)

Theorem appended rt m input input' more out out' : orders rt -> lines input' = lines input ++ more -> no_redefinition (lines input) more ->
  assemble rt m input = Ok out -> assemble rt m input' = Ok out' -> exists z, out' = out ++ z.
Proof.
  intros Or El Nr A A'. set (e1 := mk_parser rt m input). set (e2 := mk_parser rt m input').
  assert (N' := proj2 (Forall_forall _ _) (lines_no_nl input')). rewrite El in N'. apply Forall_app in N' as [N Nm].
  apply assemble_ok in A as (s & is1 & [Sc Er Ad Co]). apply assemble_ok in A' as (s' & is2 & [Sc' Er' Ad' Co']). fold e1 in Sc, Ad, Co. fold e2 in Sc', Ad', Co'.
  rewrite El, scan_app in Sc'. apply obind_ok in Sc' as (s1 & Sc1 & Sc2).
  assert (E : scan_lines e1 init_state (lines input) = scan_lines e2 init_state (lines input)).
  { apply (lines_ext e1 e2 _ N init_state 0 within_init); [|reflexivity|reflexivity|].
    - intros k L. cbn [Nat.add] in L. change (e_input e1) with (lines input). change (e_input e2) with (lines input'). rewrite El. symmetry. now apply nth_error_app1.
    - intros l _ t _. reflexivity. }
  rewrite <- E, Sc in Sc1. injection Sc1 as <-. assert (Sce := Sc). rewrite E in Sce.
  destruct (scan_ok e2 more Nm _ _ Sc2 Er') as (xi & Ii & _ & Lb).
  assert (F := fresh_scan e2 (lines input) N init_state [] s fresh_init Sce Er). cbn [app] in F.
  assert (C : clear_of s ([] ++ more)). { intros n v p d q As Em Ng. destruct (fr_scope _ _ F n v As) as (a & c & b & Ed & R & L & Nb). eapply Nr; eauto. }
  assert (K0 : kept s s []) by (apply kp_same; [intros l []|reflexivity|auto]).
  destruct (kept_scan e2 Or s more Nm s [] s' (lines input) F C K0 Sc2 Er') as [K Nd']. cbn [app] in K.
  destruct (final_same e1 s) as (F1 & F2 & _). destruct (final_same e2 s') as (G1 & G2 & _).
  assert (X : exists z, is2 = is1 ++ z).
  { rewrite Ii in Ad'. apply (adjusts_more (final e1 s) (final e2 s') (label_table (List.length (p_insts s)) more) xi) with (e1 := e1) (e2 := e2) (l := p_insts s) (r := xi) (i := 0%nat) (q := (is1, [])) (q' := (is2, []));
      [now rewrite F1, G1|now rewrite F2, G2| | |reflexivity|rewrite F1; apply le_n|exact Ad|reflexivity|exact Ad'].
    - intros n k I. rewrite F1. now apply label_ge in I.
    - intros Ne n. change (final e1 s) with (final e2 s). apply (kept_final e2 Or s s' more n); auto; [|apply F].
      intros D. apply Ne. unfold final. rewrite D. exact D. }
  destruct X as [z ->]. change (e_oc e2) with (e_oc e1) in Co'. eapply assemble_more; eauto.
Qed.

Theorem appended_warnings rt m input input' more ws ws' : lines input' = lines input ++ more ->
  assemble_warnings rt m input = Some ws -> assemble_warnings rt m input' = Some ws' -> exists z, ws' = ws ++ z.
Proof.
  intros El. set (e1 := mk_parser rt m input). set (e2 := mk_parser rt m input').
  assert (N' := proj2 (Forall_forall _ _) (lines_no_nl input')). rewrite El in N'. apply Forall_app in N' as [N Nm].
  assert (E : scan_lines e1 init_state (lines input) = scan_lines e2 init_state (lines input)).
  { apply (lines_ext e1 e2 _ N init_state 0 within_init); [|reflexivity|reflexivity|].
    - intros k L. cbn [Nat.add] in L. change (e_input e1) with (lines input). change (e_input e2) with (lines input'). rewrite El. symmetry. now apply nth_error_app1.
    - intros l _ t _. reflexivity. }
  unfold assemble_warnings, parse. fold e1 e2. change (e_input e1) with (lines input). change (e_input e2) with (lines input'). rewrite El, scan_app, E.
  destruct (scan_lines e2 init_state (lines input)) as [s|p|p]; cbn [obind]; try discriminate. fold (final e1 s).
  destruct (adjust_from e1 _ _ _); cbn [obind]; try discriminate. intros H. injection H as <-.
  destruct (scan_lines e2 s more) as [s'|p|p] eqn:Sm; cbn [obind]; try discriminate. fold (final e2 s'). destruct (adjust_from e2 _ _ _); cbn [obind]; try discriminate. intros H. injection H as <-.
  destruct (final_same e1 s) as (_ & _ & _ & _ & ->). destruct (final_same e2 s') as (_ & _ & _ & _ & ->). apply (scan_grows e2 more Nm) in Sm as [(_ & _ & _ & W) _]. exact W.
Qed.
