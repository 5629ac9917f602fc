(** * ScopeProofs: how local labels are found (proofs only). *)

From Coq Require Import Lia Permutation.
From Verif Require Import Lib SpecIsa StrLemmas TextProofs ScanProofs ProgProofs BranchProofs LabelProofs ErrorProofs RefProofs SpecText SpecProgram SpecLabels SpecScopes.

(** ** Lists of lines *)

Lemma cut {A} (a b c d : list A) x y : a ++ x :: b = c ++ y :: d ->
  (a = c /\ x = y /\ b = d) \/ (exists m, a = c ++ y :: m /\ d = m ++ x :: b) \/ (exists m, c = a ++ x :: m /\ b = m ++ y :: d).
Proof.
  revert c. induction a as [|z a IH]; intros [|t c] E.
  - left. injection E as -> ->. auto.
  - right. right. injection E as -> ->. exists c. auto.
  - right. left. injection E as -> <-. exists a. auto.
  - injection E as -> E. destruct (IH c E) as [(-> & -> & ->)|[(m & -> & ->)|(m & -> & ->)]]; [left; auto|right; left; exists m; auto|right; right; exists m; auto].
Qed.
Lemma no_global_app a b : no_global (a ++ b) <-> no_global a /\ no_global b.
Proof.
  unfold no_global. split.
  - intros H. split; intros l I; apply H; apply in_or_app; auto.
  - intros [H K] l I. apply in_app_or in I as [I|I]; auto.
Qed.
Lemma no_global_cons l a : no_global (l :: a) <-> global_label l = false /\ no_global a.
Proof. unfold no_global. split; [intros H; split; [apply H; now left|intros x I; apply H; now right]|]. intros [H K] x [<-|I]; auto. Qed.
Lemma first_global ls : no_global ls \/ exists a g b, ls = a ++ g :: b /\ global_label g = true /\ no_global a.
Proof.
  induction ls as [|l ls [IH|(a & g & b & -> & G & N)]]; [left; intros x []| |]; destruct (global_label l) eqn:E.
  - right. exists [], l, ls. repeat split; auto. intros x [].
  - left. apply no_global_cons. auto.
  - right. exists [], l, (a ++ g :: b). repeat split; auto. intros x [].
  - right. exists (l :: a), g, b. repeat split; auto. apply no_global_cons. auto.
Qed.
Lemma last_global ls : no_global ls \/ exists a g b, ls = a ++ g :: b /\ global_label g = true /\ no_global b.
Proof.
  induction ls as [|l ls [IH|(a & g & b & -> & G & N)]]; [left; intros x []| |].
  - destruct (global_label l) eqn:E; [right; exists [], l, ls; auto|left; apply no_global_cons; auto].
  - right. exists (l :: a), g, b. auto.
Qed.

Definition name_of (l : str) : str := match role_of l with Defines n => n | _ => [] end.
Lemma global_name g : global_label g = true -> role_of g = Defines (name_of g) /\ is_local (name_of g) = false.
Proof. unfold global_label, name_of. destruct (role_of g); try discriminate. intros H. split; [reflexivity|]. now apply negb_true_iff. Qed.
Lemma not_global_table k ls : no_global ls -> label_table k ls = [].
Proof.
  revert k. induction ls as [|l ls IH]; intros k N; [reflexivity|]. apply no_global_cons in N as [G N]. cbn [label_table]. unfold global_label in G.
  destruct (role_of l); [now apply IH| |now apply IH]. apply negb_false_iff in G. rewrite G. now apply IH.
Qed.
Lemma global_table k g : global_label g = true -> label_table k [g] = [(name_of g, k)].
Proof. intros G. apply global_name in G as [R L]. cbn [label_table]. now rewrite R, L. Qed.
Lemma not_instruction l n : role_of l = Defines n -> is_instruction l = false.
Proof. intros R. unfold is_instruction. now rewrite R. Qed.
Lemma count_cons l ls : instruction_count (l :: ls) = ((if is_instruction l then 1 else 0) + instruction_count ls)%nat.
Proof. unfold instruction_count. cbn [filter]. destruct (is_instruction l); reflexivity. Qed.

(** The name of the scope after some lines. *)
Definition scope_name (ls : list str) : str := fold_left (fun sc l => if global_label l then name_of l else sc) ls [].
Lemma scope_name_none ls : no_global ls -> scope_name ls = [].
Proof.
  unfold scope_name. generalize ([] : str) as sc. induction ls as [|l ls IH]; intros sc N; [reflexivity|]. apply no_global_cons in N as [G N]. cbn [fold_left]. rewrite G. now apply IH.
Qed.
Lemma scope_name_last a g b : global_label g = true -> no_global b -> scope_name (a ++ g :: b) = name_of g.
Proof.
  intros G N. unfold scope_name. rewrite fold_left_app. cbn [fold_left]. rewrite G. clear G a. revert N. generalize (name_of g) as sc.
  induction b as [|l b IH]; intros sc N; [reflexivity|]. apply no_global_cons in N as [G N]. cbn [fold_left]. rewrite G. now apply IH.
Qed.
Lemma scope_name_snoc ls l : scope_name (ls ++ [l]) = if global_label l then name_of l else scope_name ls.
Proof. unfold scope_name. rewrite fold_left_app. reflexivity. Qed.

(** ** One local name along the way *)

Section Held.
Variable e : env.
Hypothesis Ord : forall l, Permutation (e_order e l) l.
Variable n : str.
Hypothesis Ln : is_local n = true.

(** An entry: the place and the scope name of a definition of [n]. *)
Definition entry (ls : list str) (x : nat * str) : Prop :=
  exists p1 d p2, ls = p1 ++ d :: p2 /\ role_of d = Defines n /\ fst x = instruction_count p1 /\ snd x = scope_name p1.

Record held (s : pstate) (done : list str) : Prop := mk_held {
  hd_nodup : NoDup (map fst (p_local s));
  hd_scope : scope_of s = scope_name done;
  hd_count : List.length (p_insts s) = instruction_count done;
  hd_local : forall x, assoc n (p_local s) = Some x -> entry done x;
  hd_past : forall x, In x (listed (assoc n (p_dropped s))) -> entry done x;
  hd_now : forall p1 d p2, done = p1 ++ d :: p2 -> role_of d = Defines n -> no_global p2 -> exists a, assoc n (p_local s) = Some (a, scope_name p1);
  hd_old : forall p1 d p2, done = p1 ++ d :: p2 -> role_of d = Defines n -> ~ no_global p2 -> exists a, In (a, scope_name p1) (listed (assoc n (p_dropped s)))
}.
Lemma held_init : held init_state [].
Proof.
  constructor.
  - constructor.
  - reflexivity.
  - reflexivity.
  - cbn. intros x E. discriminate E.
  - cbn. intros x [].
  - intros [|? ?] d p2 E; discriminate E.
  - intros [|? ?] d p2 E; discriminate E.
Qed.
Lemma entry_more done raw x : entry done x -> entry (done ++ [raw]) x.
Proof. intros (p1 & d & p2 & -> & R & A & B). exists p1, d, (p2 ++ [raw]). rewrite <- app_assoc. auto. Qed.
Lemma snoc_cut (done : list str) raw p1 d p2 : done ++ [raw] = p1 ++ d :: p2 -> (p1 = done /\ d = raw /\ p2 = []) \/ exists q, p2 = q ++ [raw] /\ done = p1 ++ d :: q.
Proof.
  intros E. apply cut in E as [(-> & -> & <-)|[(m & -> & E)|(m & _ & E)]]; [now left| |destruct m; discriminate]. right. exists m. auto.
Qed.
Lemma not_snoc q raw : global_label raw = false -> ~ no_global (q ++ [raw]) -> ~ no_global q.
Proof. intros G H N. apply H. apply no_global_app. split; [exact N|]. intros l [<-|[]]. exact G. Qed.

Lemma held_plain s s' done raw : held s done -> (forall k, role_of raw <> Defines k) -> p_labels s' = p_labels s -> p_local s' = p_local s -> p_dropped s' = p_dropped s ->
  List.length (p_insts s') = instruction_count (done ++ [raw]) -> held s' (done ++ [raw]).
Proof.
  intros [Nd Sc Ct Lo Pa No Ol] R El Eo Ed Ei. assert (G : global_label raw = false) by (unfold global_label; destruct (role_of raw); auto; exfalso; eapply R; reflexivity).
  constructor; rewrite ?Eo, ?Ed; auto.
  - unfold scope_of. rewrite El, scope_name_snoc, G. exact Sc.
  - intros x H. apply entry_more. auto.
  - intros x H. apply entry_more. auto.
  - intros p1 d p2 E Rd N. apply snoc_cut in E as [(-> & -> & _)|(q & -> & E)]; [exfalso; eapply R; eauto|]. apply (No p1 d q E Rd). apply no_global_app in N. apply N.
  - intros p1 d p2 E Rd N. apply snoc_cut in E as [(-> & -> & _)|(q & -> & E)]; [exfalso; eapply R; eauto|]. apply (Ol p1 d q E Rd). now apply (not_snoc q raw).
Qed.

Lemma held_step s done raw s' : stepped e s raw s' -> p_errors s' = [] -> held s done -> held s' (done ++ [raw]).
Proof.
  intros St Er Hd. assert (Ct := hd_count _ _ Hd).
  destruct St as [R|k R Lc P|k R Lc P|k p R P|w i R P|w p R P]; try (exfalso; cbn in Er; destruct (p_errors s); discriminate).
  - apply (held_plain s); auto; [rewrite R; discriminate|]. cbn [bump p_insts]. rewrite instruction_count_app, count_cons. unfold is_instruction. rewrite R. cbn. lia.
  - destruct Hd as [Nd Sc _ Lo Pa No Ol]. assert (G : global_label raw = true) by (unfold global_label; now rewrite R, Lc).
    assert (Rn : role_of raw <> Defines n) by (rewrite R; intros E; injection E as ->; congruence).
    assert (Fl : listed (assoc n (p_dropped (flush_locals e (add_label (bump s) k)))) = listed (assoc n (p_dropped s)) ++ match assoc n (p_local s) with Some v => [v] | None => [] end).
    { rewrite flush_assoc by assumption. cbn [add_label bump p_local p_dropped]. destruct (assoc n (p_local s)); [reflexivity|now rewrite app_nil_r]. }
    constructor.
    + constructor.
    + unfold scope_of. cbn [flush_locals add_label bump p_labels]. rewrite rev_app_distr. cbn [rev app]. rewrite scope_name_snoc, G. unfold name_of. now rewrite R.
    + cbn [flush_locals add_label bump p_insts]. rewrite instruction_count_app, count_cons, (not_instruction _ _ R). cbn. lia.
    + discriminate.
    + intros x I. rewrite Fl in I. apply entry_more. apply in_app_or in I as [I|I]; [auto|]. destruct (assoc n (p_local s)); [|destruct I]. destruct I as [<-|[]]. auto.
    + intros p1 d p2 E Rd N. exfalso. apply snoc_cut in E as [(-> & -> & _)|(q & -> & E)]; [congruence|]. apply no_global_app in N as [_ N]. assert (X := N raw (or_introl eq_refl)). congruence.
    + intros p1 d p2 E Rd N. rewrite Fl. apply snoc_cut in E as [(-> & -> & _)|(q & -> & E)]; [congruence|].
      destruct (first_global q) as [Nq|(u & g & v & -> & Gg & _)].
      * destruct (No p1 d q E Rd Nq) as [a Ha]. exists a. rewrite Ha. apply in_or_app. right. now left.
      * destruct (Ol p1 d _ E Rd) as [a Ha]; [intros X; apply no_global_app in X as [_ X]; assert (Y := X g (or_introl eq_refl)); congruence|]. exists a. apply in_or_app. now left.
  - destruct Hd as [Nd Sc _ Lo Pa No Ol]. assert (G : global_label raw = false) by (unfold global_label; now rewrite R, Lc).
    assert (As : assoc n (p_local (add_local (bump s) k)) = if str_eqb n k then Some (instruction_count done, scope_name done) else assoc n (p_local s)).
    { cbn [add_local bump p_local]. rewrite assoc_insert. cbn [bump p_insts p_local]. rewrite Ct. unfold scope_of in *. cbn [bump p_labels]. now rewrite Sc. }
    constructor.
    + cbn [add_local bump p_local]. now apply insert_nodup.
    + unfold scope_of in *. cbn [add_local bump p_labels]. now rewrite scope_name_snoc, G.
    + cbn [add_local bump p_insts]. rewrite instruction_count_app, count_cons, (not_instruction _ _ R). cbn. lia.
    + intros x. rewrite As. destruct (str_eqb n k) eqn:E.
      * intros H. injection H as <-. apply str_eqb_spec in E. subst k. exists done, raw, []. auto.
      * intros H. apply entry_more. auto.
    + intros x I. apply entry_more. apply Pa. exact I.
    + intros p1 d p2 E Rd N. rewrite As. apply snoc_cut in E as [(-> & -> & _)|(q & -> & E)].
      * rewrite R in Rd. injection Rd as ->. rewrite str_eqb_refl. eauto.
      * apply no_global_app in N as [N _]. destruct (No p1 d q E Rd N) as [a Ha]. destruct (str_eqb n k); [|eauto]. exists (instruction_count done).
        f_equal. f_equal. rewrite E. clear -N Rd Ln. unfold scope_name. rewrite fold_left_app. cbn [fold_left].
        assert (Gd : global_label d = false) by (unfold global_label; now rewrite Rd, Ln). rewrite Gd.
        generalize (fold_left (fun sc l => if global_label l then name_of l else sc) p1 []) as z. induction q as [|l q IH]; intros z; [reflexivity|]. apply no_global_cons in N as [X N]. cbn [fold_left]. rewrite X. now apply IH.
    + intros p1 d p2 E Rd N. apply snoc_cut in E as [(-> & -> & ->)|(q & -> & E)]; [exfalso; apply N; intros x []|].
      apply (Ol p1 d q E Rd). now apply (not_snoc q raw).
  - apply (held_plain s); auto; [rewrite R; discriminate|]. cbn [add_inst add_warnings bump p_insts]. rewrite app_length, instruction_count_app, count_cons. unfold is_instruction. rewrite R. cbn. lia.
Qed.
Lemma held_scan ls : Forall no_nl ls -> forall s done s', held s done -> scan_lines e s ls = Ok s' -> p_errors s' = [] -> held s' (done ++ ls).
Proof.
  induction 1 as [|l ls N Nl IH]; intros s done s' Hd H Er; cbn [scan_lines] in H; [injection H as <-; now rewrite app_nil_r|].
  apply obind_ok in H as (s1 & H1 & H2). apply step_view in H1; [|exact N].
  replace (done ++ l :: ls) with ((done ++ [l]) ++ ls) by (rewrite <- app_assoc; reflexivity). apply (IH s1 _ s'); auto.
  apply (held_step s done l s1); auto. apply (no_errors_before s1 s'); [apply (scan_grows e ls Nl _ _ H2)|exact Er].
Qed.

(** The definitions that are looked through in the end. *)
Lemma held_final s done x : held s done -> In x (listed (assoc n (p_dropped (final e s)))) -> entry done x.
Proof.
  intros Hd I. unfold final in I. destruct (p_dropped s) eqn:E; [apply (hd_past _ _ Hd); exact I|].
  rewrite (flush_assoc e Ord) in I by apply Hd. destruct (assoc n (p_local s)) as [v|] eqn:Al; [|now apply (hd_past _ _ Hd)].
  cbn [listed] in I. apply in_app_or in I as [I|[<-|[]]]; [now apply (hd_past _ _ Hd)|now apply (hd_local _ _ Hd)].
Qed.
Lemma held_found s done p1 d p2 : held s done -> p_dropped s <> [] -> done = p1 ++ d :: p2 -> role_of d = Defines n ->
  exists a, In (a, scope_name p1) (listed (assoc n (p_dropped (final e s)))).
Proof.
  intros Hd Ne E R. unfold final. destruct (p_dropped s) eqn:Ed; [congruence|]. rewrite (flush_assoc e Ord) by apply Hd.
  destruct (first_global p2) as [N|(u & g & v & -> & Gg & _)].
  - destruct (hd_now _ _ Hd p1 d p2 E R N) as [a ->]. exists a. cbn [listed]. apply in_or_app. right. now left.
  - destruct (hd_old _ _ Hd p1 d _ E R) as [a Ha]; [intros X; apply no_global_app in X as [_ X]; assert (Y := X g (or_introl eq_refl)); congruence|].
    exists a. destruct (assoc n (p_local s)); [cbn [listed]; apply in_or_app; now left|exact Ha].
Qed.
End Held.

(** ** The range of a scope *)

Lemma index_middle a k v b : NoDup (map fst (a ++ (k, v) :: b)) -> assoc k (a ++ (k, v) :: b) = Some v /\ index_of k (a ++ (k, v) :: b) = Some (List.length a).
Proof.
  induction a as [|[k' v'] a IH]; intros Nd; cbn [app assoc index_of List.length]; [rewrite str_eqb_refl; auto|].
  cbn in Nd. inversion Nd as [|? ? Hn Hd]; subst. destruct (str_eqb k k') eqn:E.
  - apply str_eqb_spec in E. subst k'. exfalso. apply Hn. rewrite map_app. apply in_or_app. right. now left.
  - destruct (IH Hd) as [-> ->]. auto.
Qed.
(** The scope after the lines [p1]. *)
Lemma scope_range sf p1 r : p_labels sf = label_table 0 (p1 ++ r) -> NoDup (map fst (label_table 0 (p1 ++ r))) ->
  (forall k v, In (k, v) (label_table 0 (p1 ++ r)) -> good_label k) -> List.length (p_insts sf) = instruction_count (p1 ++ r) ->
  exists lo hi, get_label_scope sf (scope_name p1) = Ok (lo, hi)
    /\ ((no_global p1 /\ lo = O /\ hi = instruction_count (p1 ++ r)) \/
        (exists q1 g q2, p1 = q1 ++ g :: q2 /\ global_label g = true /\ no_global q2 /\ lo = instruction_count q1
          /\ ((no_global r /\ hi = instruction_count (p1 ++ r)) \/ exists u g' v, r = u ++ g' :: v /\ global_label g' = true /\ no_global u /\ hi = instruction_count (p1 ++ u)))).
Proof.
  intros Lb Nd Gd Ct. destruct (last_global p1) as [N|(q1 & g & q2 & E & G & N)].
  - exists O, (List.length (p_insts sf)). rewrite (scope_name_none p1 N). split; [reflexivity|]. left. auto.
  - rewrite E, (scope_name_last q1 g q2 G N). destruct (global_name g G) as [Rg Lg].
    assert (T : label_table 0 (p1 ++ r) = label_table 0 q1 ++ (name_of g, instruction_count q1) :: label_table (instruction_count p1) r).
    { rewrite label_table_app. cbn [Nat.add]. rewrite E at 1. rewrite label_table_app. cbn [Nat.add]. replace (g :: q2) with ([g] ++ q2) by reflexivity.
      rewrite label_table_app, (global_table _ g G), (not_global_table _ q2 N). cbn [app]. rewrite <- app_assoc. reflexivity. }
    rewrite T in Nd, Gd, Lb. destruct (index_middle _ _ _ _ Nd) as [A I].
    assert (Gg : good_label (name_of g)) by (apply (Gd _ (instruction_count q1)); apply in_or_app; right; now left).
    unfold get_label_scope. rewrite Lb, A, I. destruct (name_of g) as [|c cs] eqn:En; [destruct Gg|]. clear A I.
    match goal with |- context[nth_error ?l ?k] => replace (nth_error l k) with (nth_error (label_table (instruction_count p1) r) 0)
      by (rewrite nth_error_app2 by lia; replace (S (List.length (label_table 0 q1)) - List.length (label_table 0 q1))%nat with 1%nat by lia; reflexivity) end.
    destruct (first_global r) as [Nr|(u & g' & v & Er & Gg' & Nu)].
    + rewrite (not_global_table _ r Nr). cbn [nth_error]. exists (instruction_count q1), (List.length (p_insts sf)). split; [reflexivity|]. right.
      exists q1, g, q2. rewrite <- E. repeat split; auto.
    + assert (T' : label_table (instruction_count p1) r = (name_of g', instruction_count (p1 ++ u)) :: label_table (instruction_count (p1 ++ u)) v).
      { rewrite Er, label_table_app, (not_global_table _ u Nu). cbn [app]. replace (g' :: v) with ([g'] ++ v) by reflexivity. rewrite label_table_app, (global_table _ g' Gg').
        rewrite <- instruction_count_app. cbn [app]. f_equal. f_equal. rewrite count_cons. destruct (global_name g' Gg') as [Rg' _]. rewrite (not_instruction _ _ Rg'). cbn. lia. }
      rewrite T'. cbn [nth_error]. exists (instruction_count q1), (instruction_count (p1 ++ u)). split; [reflexivity|]. right.
      exists q1, g, q2. rewrite <- E. repeat split; auto. right. exists u, g', v. auto.
Qed.

Lemma pick_in s i defs a : pick_local s i defs = Ok (Some a) -> exists sc lu, In (a, sc) defs /\ get_label_scope s sc = Ok lu /\ (fst lu <= i <= snd lu)%nat.
Proof.
  induction defs as [|[b sc] defs IH]; cbn [pick_local]; [discriminate|]. intros H. apply obind_ok in H as (lu & G & H).
  destruct (Nat.ltb i (fst lu) || Nat.ltb (snd lu) i)%bool eqn:E.
  - destruct (IH H) as (sc' & lu' & I & X). exists sc', lu'. split; [now right|exact X].
  - injection H as <-. exists sc, lu. split; [now left|]. split; [exact G|]. apply orb_false_iff in E as [E1 E2]. apply Nat.ltb_ge in E1, E2. lia.
Qed.
Lemma pick_some s i defs b sc lu : In (b, sc) defs -> get_label_scope s sc = Ok lu -> (fst lu <= i <= snd lu)%nat -> pick_local s i defs <> Ok None.
Proof.
  intros I G R. induction defs as [|[b' sc'] defs IH]; [destruct I|]. cbn [pick_local]. destruct (get_label_scope s sc') as [lu'| |] eqn:G'; cbn [obind]; try discriminate.
  destruct (Nat.ltb i (fst lu') || Nat.ltb (snd lu') i)%bool eqn:E; [|discriminate]. apply IH. destruct I as [I|I]; [|exact I].
  injection I as -> ->. rewrite G in G'. injection G' as <-. apply orb_true_iff in E as [E|E]; apply Nat.ltb_lt in E; lia.
Qed.

(** ** Where a definition can be seen from *)

Lemma seen_from (ls l1 : list str) raw l2 p1 d p2 n sf lo hi : ls = l1 ++ raw :: l2 -> role_of raw = Instruction -> ls = p1 ++ d :: p2 -> role_of d = Defines n -> is_local n = true ->
  p_labels sf = label_table 0 ls -> NoDup (map fst (label_table 0 ls)) -> (forall k v, In (k, v) (label_table 0 ls) -> good_label k) -> List.length (p_insts sf) = instruction_count ls ->
  get_label_scope sf (scope_name p1) = Ok (lo, hi) -> (lo <= instruction_count l1 <= hi)%nat ->
  (no_global l1 \/ exists a b, l1 = a ++ b /\ no_global b /\ (0 < instruction_count b)%nat) -> (no_global p1 -> no_global l1) ->
  same_scope l1 raw l2 p1 d p2.
Proof.
  intros E Rr E' Rd Ln Lb Nd Gd Ct G R Fst Gu. rewrite E' in Lb, Nd, Gd, Ct.
  destruct (scope_range sf p1 (d :: p2) Lb Nd Gd Ct) as (lo' & hi' & G' & C). rewrite G in G'. injection G' as <- <-.
  assert (Gr : global_label raw = false) by (unfold global_label; now rewrite Rr). assert (Gdl : global_label d = false) by (unfold global_label; now rewrite Rd, Ln).
  assert (Ir : is_instruction raw = true) by (unfold is_instruction; now rewrite Rr).
  assert (X := E). rewrite E' in X. apply cut in X as [(_ & -> & _)|[(m & -> & ->)|(m & -> & ->)]]; [congruence| |].
  - (* the definition comes after the line *)
    destruct (first_global m) as [Nm|(u & g & v & -> & Gg & _)]; [now apply (ss_after _ _ _ _ _ _ m)|exfalso].
    destruct C as [(N & _)|(q1 & g0 & q2 & Eq & Gg0 & Nq & -> & _)].
    + apply no_global_app in N as [_ N]. apply no_global_cons in N as [_ N]. apply no_global_app in N as [_ N]. apply no_global_cons in N as [N _]. congruence.
    + assert (I1 : (instruction_count (l1 ++ [raw]) <= instruction_count q1)%nat).
      { change (l1 ++ raw :: u ++ g :: v) with (l1 ++ raw :: (u ++ g :: v)) in Eq. apply cut in Eq as [(_ & -> & _)|[(w & E1 & E2)|(w & -> & _)]]; [congruence| |].
        - exfalso. subst q2. apply no_global_app in Nq as [_ Nq]. apply no_global_cons in Nq as [_ Nq]. apply no_global_app in Nq as [_ Nq]. apply no_global_cons in Nq as [Nq _]. congruence.
        - rewrite !instruction_count_app, !count_cons. cbn. lia. }
      rewrite instruction_count_app, count_cons, Ir in I1. cbn in I1. lia.
  - (* before *)
    destruct (first_global m) as [Nm|(u & g & v & -> & Gg & Nu)]; [now apply (ss_before _ _ _ _ _ _ m)|exfalso].
    destruct C as [(N & _)|(q1 & g0 & q2 & Eq & Gg0 & Nq & _ & C)].
    + specialize (Gu N). apply no_global_app in Gu as [_ Gu]. apply no_global_cons in Gu as [_ Gu]. apply no_global_app in Gu as [_ Gu]. apply no_global_cons in Gu as [Gu _]. congruence.
    + assert (Hi : hi = instruction_count (p1 ++ d :: u)).
      { destruct C as [(N & _)|(u' & g' & v' & Er & Gg' & Nu' & ->)].
        - exfalso. apply no_global_cons in N as [_ N]. apply no_global_app in N as [N _]. apply no_global_app in N as [_ N]. apply no_global_cons in N as [N _]. congruence.
        - f_equal. f_equal. rewrite <- app_assoc in Er. cbn [app] in Er. destruct u' as [|d' u']; [injection Er as <- _; congruence|]. cbn in Er. injection Er as <- Er. f_equal.
          apply no_global_cons in Nu' as [_ Nu']. apply cut in Er as [(-> & _)|[(w & -> & _)|(w & -> & _)]]; [reflexivity| |]; exfalso.
          + apply no_global_app in Nu as [_ Nu]. apply no_global_cons in Nu as [Nu _]. congruence.
          + apply no_global_app in Nu' as [_ Nu']. apply no_global_cons in Nu' as [Nu' _]. congruence. }
      destruct Fst as [N|(a & b & Ea & Nb & Pb)].
      * apply no_global_app in N as [_ N]. apply no_global_cons in N as [_ N]. apply no_global_app in N as [_ N]. apply no_global_cons in N as [N _]. congruence.
      * assert (I1 : (instruction_count b <= instruction_count v)%nat).
        { destruct b as [|y b]; [cbn in *; lia|]. replace (p1 ++ d :: u ++ g :: v) with ((p1 ++ d :: u) ++ g :: v) in Ea by (rewrite <- app_assoc; reflexivity).
          apply cut in Ea as [(_ & -> & _)|[(w & _ & Ew)|(w & _ & ->)]].
          - apply no_global_cons in Nb as [Nb _]. congruence.
          - exfalso. subst b. apply no_global_cons in Nb as [_ Nb]. apply no_global_app in Nb as [_ Nb]. apply no_global_cons in Nb as [Nb _]. congruence.
          - rewrite instruction_count_app. lia. }
        destruct (global_name g Gg) as [Rg _]. subst hi. rewrite !instruction_count_app, !count_cons, !instruction_count_app, !count_cons, (not_instruction _ _ Rd), (not_instruction _ _ Rg) in R. cbn in R. lia.
Qed.
(** From the same scope, a definition is always in range. *)
Lemma seen_in_scope (ls l1 : list str) raw l2 p1 d p2 n sf lo hi : ls = l1 ++ raw :: l2 -> role_of raw = Instruction -> ls = p1 ++ d :: p2 -> role_of d = Defines n -> is_local n = true ->
  p_labels sf = label_table 0 ls -> NoDup (map fst (label_table 0 ls)) -> (forall k v, In (k, v) (label_table 0 ls) -> good_label k) -> List.length (p_insts sf) = instruction_count ls ->
  same_scope l1 raw l2 p1 d p2 -> get_label_scope sf (scope_name p1) = Ok (lo, hi) -> (lo <= instruction_count l1 <= hi)%nat.
Proof.
  intros E Rr E' Rd Ln Lb Nd Gd Ct Ss G. rewrite E' in Lb, Nd, Gd, Ct.
  destruct (scope_range sf p1 (d :: p2) Lb Nd Gd Ct) as (lo' & hi' & G' & C). rewrite G in G'. injection G' as <- <-.
  assert (Gr : global_label raw = false) by (unfold global_label; now rewrite Rr). assert (Gdl : global_label d = false) by (unfold global_label; now rewrite Rd, Ln).
  assert (Ir : is_instruction raw = true) by (unfold is_instruction; now rewrite Rr).
  assert (Tot : (instruction_count l1 <= instruction_count (p1 ++ d :: p2))%nat) by (rewrite <- E', E, instruction_count_app; lia).
  destruct C as [(_ & -> & ->)|(q1 & g & q2 & Eq & Gg & Nq & -> & C)]; [lia|].
  destruct Ss as [mid E1 E2 Nm|mid E1 E2 Nm].
  - split; [rewrite E1, Eq, !instruction_count_app; lia|]. destruct C as [(_ & ->)|(u & g' & v & Er & Gg' & Nu & ->)]; [exact Tot|].
    destruct u as [|d' u]; [injection Er as <- _; congruence|]. cbn in Er. injection Er as <- Er. rewrite E2 in Er. apply no_global_cons in Nu as [_ Nu].
    apply cut in Er as [(_ & -> & _)|[(w & -> & _)|(w & -> & _)]]; [congruence| |].
    + apply no_global_app in Nm as [_ Nm]. apply no_global_cons in Nm as [Nm _]. congruence.
    + rewrite E1, !instruction_count_app, !count_cons, !instruction_count_app. lia.
  - split.
    + rewrite E2 in Eq. apply cut in Eq as [(_ & -> & _)|[(w & -> & _)|(w & -> & ->)]]; [congruence| |].
      * rewrite instruction_count_app. lia.
      * exfalso. apply no_global_app in Nm as [_ Nm]. apply no_global_cons in Nm as [Nm _]. congruence.
    + destruct C as [(_ & ->)|(u & g' & v & Er & Gg' & Nu & ->)]; [exact Tot|]. rewrite E2, !instruction_count_app. lia.
Qed.
