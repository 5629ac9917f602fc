(** * ScanProofs: how a whole program is read (proofs only). *)

From Coq Require Import Lia.
From Verif Require Import Lib SpecIsa StrLemmas TextProofs SpecText.

(** ** Lines *)

Lemma split_char_not_in c s p : In p (split_char c s) -> ~ In c p.
Proof.
  revert p. induction s as [|y s IH]; intros p H; cbn [split_char] in H.
  - destruct H as [<-|[]]. intros [].
  - destruct (Ascii.eqb_spec y c) as [->|N].
    + destruct H as [<-|H]; [intros []|auto].
    + destruct (split_char c s) as [|q qs].
      * destruct H as [<-|[]]. intros [E|[]]. congruence.
      * destruct H as [<-|H].
        -- intros [E|I]; [congruence|]. apply (IH q); [now left|exact I].
        -- apply IH. now right.
Qed.
Lemma strip_cr_in s c : In c (strip_cr s) -> In c s.
Proof.
  unfold strip_cr. destruct (rev s) as [|d r] eqn:E; [auto|]. destruct (Ascii.eqb d cr); [|auto].
  intros I. apply in_rev. rewrite E. right. now apply in_rev.
Qed.
Lemma lines_no_nl input l : In l (lines input) -> no_nl l.
Proof.
  unfold lines. assert (K : forall p, In p (split_char nl input) -> ~ In nl p) by (intros p; apply split_char_not_in).
  revert K. generalize (split_char nl input) as ps. induction ps as [|p ps IH]; intros K I; [destruct I|].
  cbn [lines_of_pieces] in I. destruct ps as [|q ps].
  - destruct p; [destruct I|]. destruct I as [<-|[]]. apply K. now left.
  - destruct I as [<-|I].
    + intros J. apply strip_cr_in in J. apply (K p); [now left|exact J].
    + apply IH; [|exact I]. intros p' I'. apply K. now right.
Qed.

(** ** One line *)

Definition bump (s : pstate) : pstate :=
  mk_pstate (p_insts s) (p_labels s) (p_local s) (p_dropped s) (S (p_line s)) (p_errors s) (p_warnings s).
Definition add_error (s : pstate) (p : perror) : pstate :=
  mk_pstate (p_insts s) (p_labels s) (p_local s) (p_dropped s) (p_line s) (p_errors s ++ [p]) (p_warnings s).
Definition add_warnings (s : pstate) (w : list pwarning) : pstate :=
  mk_pstate (p_insts s) (p_labels s) (p_local s) (p_dropped s) (p_line s) (p_errors s) (p_warnings s ++ w).
Definition add_inst (s : pstate) (i : inst) : pstate :=
  mk_pstate (p_insts s ++ [(p_line s, i)]) (p_labels s) (p_local s) (p_dropped s) (p_line s) (p_errors s) (p_warnings s).
Definition add_label (s : pstate) (k : str) : pstate :=
  mk_pstate (p_insts s) (p_labels s ++ [(k, List.length (p_insts s))]) (p_local s) (p_dropped s) (p_line s) (p_errors s) (p_warnings s).
Definition scope_of (s : pstate) : str := match rev (p_labels s) with (l, _) :: _ => l | [] => [] end.
Definition add_local (s : pstate) (k : str) : pstate :=
  mk_pstate (p_insts s) (p_labels s) (map_insert k (List.length (p_insts s), scope_of s) (p_local s)) (p_dropped s)
            (p_line s) (p_errors s) (p_warnings s).

(** A label that [parse_label] accepts. *)
Definition label_ok (s : pstate) (k : str) : Prop :=
  match k with c :: _ => is_digit c = false | [] => False end /\ assoc k (p_labels s) = None.

Lemma parse_label_ok e s k k' : parse_label e s k = Ok k' <-> k' = k /\ label_ok s k.
Proof.
  unfold parse_label, label_ok, fail_at. destruct k as [|c k]; [split; [discriminate|intros (_ & [] & _)]|].
  destruct (is_digit c).
  - unfold get_line. split; [destruct (nth_error (e_input e) (p_line s - 1)); discriminate|intros (_ & D & _); discriminate].
  - destruct (assoc (c :: k) (p_labels s)).
    + unfold get_line. split; [|intros (_ & _ & D); discriminate].
      destruct (nth_error (e_input e) (p_line s - 1)); [|discriminate]. cbn [obind].
      destruct (nth_error (e_input e) n); discriminate.
    + split; [intros H; injection H as <-; auto|intros (-> & _); reflexivity].
Qed.

Lemma map_insert_new {V} k (v : V) m : assoc k m = None -> map_insert k v m = m ++ [(k, v)].
Proof.
  induction m as [|[k' v'] m IH]; cbn [assoc map_insert app]; intros H; [reflexivity|].
  destruct (str_eqb k k'); [discriminate|]. now rewrite IH.
Qed.

(** What one line does. *)
Inductive stepped (e : env) (s : pstate) (raw : str) : pstate -> Prop :=
| st_empty : role_of raw = Empty -> stepped e s raw (bump s)
| st_global k : role_of raw = Defines k -> is_local k = false -> label_ok s k ->
    stepped e s raw (flush_locals e (add_label (bump s) k))
| st_local k : role_of raw = Defines k -> is_local k = true -> label_ok s k ->
    stepped e s raw (add_local (bump s) k)
| st_label_error k p : role_of raw = Defines k -> parse_label e (bump s) k = Err p ->
    stepped e s raw (add_error (bump s) p)
| st_inst w i : role_of raw = Instruction -> parse_inst e (bump s) (clean raw) = (w, Ok i) ->
    stepped e s raw (add_inst (add_warnings (bump s) w) i)
| st_inst_error w p : role_of raw = Instruction -> parse_inst e (bump s) (clean raw) = (w, Err p) ->
    stepped e s raw (add_error (add_warnings (bump s) w) p).

Lemma ends_with_decomp c s : ends_with [c] s = true -> exists p, s = p ++ [c].
Proof.
  unfold ends_with. cbn [rev app]. intros H. destruct (rev s) as [|d r] eqn:E; [discriminate|].
  cbn [starts_with] in H. apply andb_true_iff in H as [H _]. apply Ascii.eqb_eq in H. subst d.
  exists (rev r). rewrite <- (rev_involutive s), E. reflexivity.
Qed.
Lemma drop_last_snoc p c : drop_last (p ++ [c]) = p.
Proof.
  unfold drop_last. rewrite app_length. cbn [List.length]. rewrite Nat.add_sub, firstn_app, firstn_all, Nat.sub_diag.
  cbn [firstn]. apply app_nil_r.
Qed.
Lemma role_label raw : ends_with #":" (clean raw) = true -> role_of raw = Defines (drop_last (clean raw)).
Proof.
  intros H. unfold role_of. destruct (clean raw) as [|c r]; [discriminate|]. rewrite H. reflexivity.
Qed.
Lemma local_prefix l : ends_with #":" l = true -> starts_with #"@@" l = is_local (drop_last l).
Proof.
  intros H. apply (ends_with_decomp ":") in H as [p ->]. rewrite drop_last_snoc. unfold is_local.
  destruct p as [|c [|d p]]; cbn [app lit starts_with]; rewrite ?andb_true_r, ?andb_false_r; reflexivity || idtac.
Qed.

Lemma step_view e s raw s' : no_nl raw -> step_line e s raw = Ok s' -> stepped e s raw s'.
Proof.
  intros N H. unfold step_line in H. rewrite clean_spec in H by exact N. cbv zeta in H. change (mk_pstate _ _ _ _ (S (p_line s)) _ _) with (bump s) in H at 1.
  unfold scan_line in H. destruct (ends_with #":" (clean raw)) eqn:Ec.
  - assert (R := role_label raw Ec). rewrite (local_prefix _ Ec) in H.
    destruct (is_local (drop_last (clean raw))) eqn:Lc.
    + destruct (parse_label e (bump s) (drop_last (clean raw))) as [k|p|p] eqn:P; cbn [obind] in H; [| |discriminate].
      * injection H as <-. apply parse_label_ok in P as [-> P]. exact (st_local e s raw _ R Lc P).
      * injection H as <-. exact (st_label_error e s raw _ p R P).
    + destruct (parse_label e (bump s) (drop_last (clean raw))) as [k|p|p] eqn:P; cbn [obind] in H; [| |discriminate].
      * injection H as <-. apply parse_label_ok in P as [-> P]. rewrite map_insert_new by apply P.
        exact (st_global e s raw _ R Lc P).
      * injection H as <-. exact (st_label_error e s raw _ p R P).
  - destruct (clean raw) as [|c r] eqn:C.
    + injection H as <-. apply st_empty. unfold role_of. now rewrite C.
    + rewrite <- C in H. assert (R : role_of raw = Instruction) by (unfold role_of; now rewrite C, Ec).
      destruct (parse_inst e (bump s) (clean raw)) as [w [i|p|p]] eqn:P; [| |discriminate].
      * injection H as <-. exact (st_inst e s raw w i R P).
      * injection H as <-. exact (st_inst_error e s raw w p R P).
Qed.

Lemma step_of_view e s raw s' : no_nl raw -> stepped e s raw s' -> step_line e s raw = Ok s'.
Proof.
  intros N H. unfold step_line. rewrite clean_spec by exact N. cbv zeta. change (mk_pstate _ _ _ _ (S (p_line s)) _ _) with (bump s) at 1.
  unfold scan_line.
  assert (Lb : forall k, role_of raw = Defines k -> ends_with #":" (clean raw) = true /\ drop_last (clean raw) = k).
  { intros k R. unfold role_of in R. destruct (clean raw) as [|c r] eqn:C; [discriminate|].
    destruct (ends_with #":" (c :: r)); [|discriminate]. injection R as <-. auto. }
  assert (In0 : role_of raw = Instruction -> ends_with #":" (clean raw) = false /\ clean raw <> []).
  { intros R. unfold role_of in R. destruct (clean raw) as [|c r] eqn:C; [discriminate|].
    destruct (ends_with #":" (c :: r)); [discriminate|]. split; [reflexivity|discriminate]. }
  destruct H as [R|k R Lc P|k R Lc P|k p R P|w i R P|w p R P].
  - unfold role_of in R. destruct (clean raw) as [|c r] eqn:C; [reflexivity|]. destruct (ends_with #":" (c :: r)); discriminate.
  - destruct (Lb k R) as [E D]. rewrite E, (local_prefix _ E), D, Lc. rewrite (proj2 (parse_label_ok e (bump s) k k)) by auto.
    cbn [obind]. rewrite map_insert_new by apply P. reflexivity.
  - destruct (Lb k R) as [E D]. rewrite E, (local_prefix _ E), D, Lc. rewrite (proj2 (parse_label_ok e (bump s) k k)) by auto.
    cbn [obind]. reflexivity.
  - destruct (Lb k R) as [E D]. rewrite E, D, P. cbn [obind]. destruct (starts_with #"@@" (clean raw)); reflexivity.
  - destruct (In0 R) as [E D]. rewrite E. destruct (clean raw) as [|c r]; [congruence|]. rewrite P. reflexivity.
  - destruct (In0 R) as [E D]. rewrite E. destruct (clean raw) as [|c r]; [congruence|]. rewrite P. reflexivity.
Qed.

(** ** Many lines *)

Lemma scan_app e s a b : scan_lines e s (a ++ b) = do! s1 <- scan_lines e s a; scan_lines e s1 b.
Proof.
  revert s. induction a as [|l a IH]; intros s; [reflexivity|]. cbn [app scan_lines].
  destruct (step_line e s l) as [s1|p|p]; cbn [obind]; [apply IH|reflexivity|reflexivity].
Qed.

Lemma obind_ok {E A B} (o : outcome E A) (f : A -> outcome E B) b : obind o f = Ok b -> exists a, o = Ok a /\ f a = Ok b.
Proof. destruct o as [a|x|p]; cbn; intros H; try discriminate. eauto. Qed.

(** What grows along the way. *)
Definition grows (s s' : pstate) : Prop :=
  (exists x, p_insts s' = p_insts s ++ x) /\ (exists x, p_labels s' = p_labels s ++ x)
  /\ (exists x, p_errors s' = p_errors s ++ x) /\ (exists x, p_warnings s' = p_warnings s ++ x).
Lemma grows_refl s : grows s s.
Proof. repeat split; exists []; now rewrite app_nil_r. Qed.
Lemma grows_trans a b c : grows a b -> grows b c -> grows a c.
Proof.
  intros ([x1 H1] & [x2 H2] & [x3 H3] & [x4 H4]) ([y1 G1] & [y2 G2] & [y3 G3] & [y4 G4]).

  repeat split; [exists (x1 ++ y1); rewrite G1, H1|exists (x2 ++ y2); rewrite G2, H2|exists (x3 ++ y3); rewrite G3, H3|exists (x4 ++ y4); rewrite G4, H4];
    now rewrite app_assoc.
Qed.
Lemma step_grows e s raw s' : stepped e s raw s' -> grows s s' /\ p_line s' = S (p_line s).
Proof.
  intros []; (split; [|reflexivity]); repeat split; cbn;
    first [exists []; rewrite app_nil_r; reflexivity | eexists; reflexivity].
Qed.
Lemma scan_grows e ls : Forall no_nl ls -> forall s s', scan_lines e s ls = Ok s' ->
  grows s s' /\ p_line s' = (p_line s + List.length ls)%nat.
Proof.
  induction 1 as [|l ls N _ IH]; intros s s' H; cbn [scan_lines] in H.
  - injection H as <-. split; [apply grows_refl|cbn; lia].
  - apply obind_ok in H as (s1 & H1 & H2). apply step_view in H1; [|exact N]. apply step_grows in H1 as [G1 L1].
    apply IH in H2 as [G2 L2]. split; [eapply grows_trans; eauto|]. cbn [List.length]. lia.
Qed.

Lemma no_errors_before s s' : grows s s' -> p_errors s' = [] -> p_errors s = [].
Proof. intros (_ & _ & [x E] & _) H. rewrite H in E. destruct (p_errors s); [reflexivity|discriminate]. Qed.

(** Reading without errors. *)
Lemma scan_ok e ls : Forall no_nl ls -> forall s s', scan_lines e s ls = Ok s' -> p_errors s' = [] ->
  exists new, p_insts s' = p_insts s ++ new /\ map fst new = instruction_lines (p_line s) ls
  /\ p_labels s' = p_labels s ++ label_table (List.length (p_insts s)) ls.
Proof.
  induction 1 as [|l ls N Nl IH]; intros s s' H E; cbn [scan_lines] in H.
  - injection H as <-. exists []. cbn. now rewrite !app_nil_r.
  - apply obind_ok in H as (s1 & H1 & H2). apply step_view in H1; [|exact N].
    assert (E1 : p_errors s1 = []) by (apply (no_errors_before s1 s'); [apply (scan_grows e ls Nl _ _ H2)|exact E]).
    destruct (IH s1 s' H2 E) as (new & I & L & T). rewrite I, T. clear I T IH H2 E.
    cbn [instruction_lines label_table]. unfold is_instruction.
    destruct H1 as [R|k R Lc P|k R Lc P|k p R P|w i R P|w p R P]; rewrite R; try rewrite Lc; cbn in *.
    + exists new. auto.
    + exists new. now rewrite <- app_assoc.
    + exists new. auto.
    + exfalso. destruct (p_errors s); discriminate.
    + exists ((S (p_line s), i) :: new). rewrite <- !app_assoc, app_length. cbn. rewrite Nat.add_1_r, L. auto.
    + exfalso. destruct (p_errors s); discriminate.
Qed.
Lemma instruction_lines_length n ls : List.length (instruction_lines n ls) = instruction_count ls.
Proof.
  unfold instruction_count. revert n. induction ls as [|l ls IH]; intros n; [reflexivity|]. cbn [instruction_lines filter].
  destruct (is_instruction l); cbn [List.length]; now rewrite IH.
Qed.
Lemma instruction_count_app a b : instruction_count (a ++ b) = (instruction_count a + instruction_count b)%nat.
Proof. unfold instruction_count. rewrite filter_app, app_length. reflexivity. Qed.
Lemma label_table_app k a b : label_table k (a ++ b) = label_table k a ++ label_table (k + instruction_count a) b.
Proof.
  revert k. induction a as [|l a IH]; intros k; cbn [app label_table].
  - now rewrite Nat.add_0_r.
  - unfold instruction_count. cbn [filter]. unfold is_instruction at 1. destruct (role_of l) as [|n|] eqn:R.
    + apply IH.
    + destruct (is_local n); [apply IH|]. cbn. f_equal. apply IH.
    + rewrite IH. cbn [List.length]. unfold instruction_count. f_equal. f_equal. lia.
Qed.

(** The names in the table. *)
Definition good_label (n : str) : Prop := match n with c :: _ => is_digit c = false | [] => False end.
Lemma scan_labels e ls : Forall no_nl ls -> forall s s', scan_lines e s ls = Ok s' ->
  (forall n k, In (n, k) (p_labels s) -> good_label n) -> NoDup (map fst (p_labels s)) ->
  (forall n k, In (n, k) (p_labels s') -> good_label n) /\ NoDup (map fst (p_labels s')).
Proof.
  induction 1 as [|l ls N Nl IH]; intros s s' H G D; cbn [scan_lines] in H.
  - injection H as <-. auto.
  - apply obind_ok in H as (s1 & H1 & H2). apply step_view in H1; [|exact N].
    apply (IH s1 s' H2); destruct H1 as [R|k R Lc P|k R Lc P|k p R P|w i R P|w p R P]; cbn; auto.
    + intros n j I. apply in_app_or in I as [I|[I|[]]]; [eauto|]. injection I as <- <-. apply P.
    + rewrite map_app. cbn [map fst]. 
      destruct P as [_ P]. clear -D P. revert D P. generalize (p_labels s) as m. induction m as [|[k' v'] m IHm]; cbn; intros D P.
      * constructor; [easy|constructor].
      * destruct (str_eqb k k') eqn:Ek; [discriminate|]. inversion D as [|? ? Hn Hd]; subst. constructor; [|auto].
        intros I. apply in_app_or in I as [I|[I|[]]]; [auto|]. subst k'. now rewrite str_eqb_refl in Ek.
Qed.

Lemma assoc_in {V} k (m : list (str * V)) v : assoc k m = Some v -> In (k, v) m.
Proof.
  induction m as [|[k' v'] m IH]; cbn; [discriminate|]. destruct (str_eqb k k') eqn:E.
  - intros H. injection H as <-. apply str_eqb_spec in E. subst. now left.
  - auto.
Qed.
Lemma assoc_nodup {V} k (m : list (str * V)) v : NoDup (map fst m) -> In (k, v) m -> assoc k m = Some v.
Proof.
  induction m as [|[k' v'] m IH]; cbn; intros D I; [destruct I|]. inversion D as [|? ? Hn Hd]; subst.
  destruct (str_eqb k k') eqn:E.
  - apply str_eqb_spec in E. subst k'. destruct I as [I|I]; [now injection I as ->|]. exfalso. apply Hn. now apply (in_map fst) in I.
  - destruct I as [I|I]; [injection I as -> ->; now rewrite str_eqb_refl in E|auto].
Qed.
Lemma assoc_app {V} k (a b : list (str * V)) : assoc k (a ++ b) = match assoc k a with Some v => Some v | None => assoc k b end.
Proof. induction a as [|[k' v'] a IH]; cbn; [reflexivity|]. destruct (str_eqb k k'); auto. Qed.

(** ** Label resolution and encoding *)

Lemma adjust_app e s i a b : adjust_from e s i (a ++ b) =
  do! p <- adjust_from e s i a; do! q <- adjust_from e s (i + List.length a) b; Ok (fst p ++ fst q, snd p ++ snd q).
Proof.
  revert i. induction a as [|[n x] a IH]; intros i; cbn [app adjust_from List.length obind].
  - rewrite Nat.add_0_r. destruct (adjust_from e s i b) as [[? ?]|?|?]; reflexivity.
  - destruct (adjust_one e s i n x) as [[x' ex]|?|?]; cbn [obind fst snd]; [|reflexivity|reflexivity].
    rewrite IH, Nat.add_succ_r, Nat.add_succ_l. destruct (adjust_from e s (S i) a) as [[? ?]|?|?]; cbn [obind fst snd]; [|reflexivity|reflexivity].
    destruct (adjust_from e s (S (i + List.length a)) b) as [[? ?]|?|?]; cbn [obind fst snd]; [|reflexivity|reflexivity].
    cbn. now rewrite app_assoc.
Qed.
Lemma adjust_length e s i l q : adjust_from e s i l = Ok q -> List.length (fst q) = List.length l.
Proof.
  revert i q. induction l as [|[n x] l IH]; intros i q H; cbn [adjust_from] in H; [injection H as <-; reflexivity|].
  apply obind_ok in H as ([x' ex] & H1 & H). apply obind_ok in H as (r & H2 & H). injection H as <-. cbn. f_equal. eauto.
Qed.
Lemma assemble_app {E} oc a b : @assemble_insts E oc (a ++ b) =
  do! x <- assemble_insts oc a; do! y <- assemble_insts oc b; Ok (x ++ y).
Proof.
  induction a as [|i a IH]; cbn [app assemble_insts obind].
  - destruct (assemble_insts oc b); reflexivity.
  - destruct (assemble_inst oc i); cbn [obind]; [|reflexivity|reflexivity]. rewrite IH.
    destruct (assemble_insts oc a); cbn [obind]; [|reflexivity|reflexivity]. destruct (assemble_insts oc b); reflexivity.
Qed.
Lemma assemble_length {E} oc l l' : @assemble_insts E oc l = Ok l' -> List.length l' = List.length l.
Proof.
  revert l'. induction l as [|i l IH]; intros l' H; cbn [assemble_insts] in H; [injection H as <-; reflexivity|].
  apply obind_ok in H as (x & H1 & H). apply obind_ok in H as (r & H2 & H). injection H as <-. cbn. f_equal. eauto.
Qed.

(** ** Successful assemblies *)

Definition final (e : env) (s : pstate) : pstate := match p_dropped s with [] => s | _ => flush_locals e s end.
Lemma final_same e s : p_insts (final e s) = p_insts s /\ p_labels (final e s) = p_labels s
  /\ p_errors (final e s) = p_errors s /\ p_line (final e s) = p_line s /\ p_warnings (final e s) = p_warnings s.
Proof. unfold final. destruct (p_dropped s); repeat split; reflexivity. Qed.

Record assembled (e : env) (input : list str) (s : pstate) (is1 out : list inst) : Prop := mk_assembled {
  as_scan : scan_lines e init_state input = Ok s;
  as_errors : p_errors s = [];
  as_adjust : adjust_from e (final e s) 0 (p_insts s) = Ok (is1, []);
  as_code : @assemble_insts perror (e_oc e) is1 = Ok out
}.
Lemma assemble_ok rt m input out : assemble rt m input = Ok out <->
  exists s is1, assembled (mk_parser rt m input) (lines input) s is1 out.
Proof.
  unfold assemble, parse. set (e := mk_parser rt m input). change (e_input e) with (lines input). split.
  - destruct (scan_lines e init_state (lines input)) as [s|p|p] eqn:S; cbn [obind]; try discriminate.
    fold (final e s). destruct (final_same e s) as (F1 & F2 & F3 & F4 & F5). rewrite F1, F3.
    destruct (adjust_from e (final e s) 0 (p_insts s)) as [[is1 errs]|p|p] eqn:A; cbn [obind fst snd]; try discriminate.
    destruct (p_errors s ++ errs) eqn:E; cbn; try discriminate. apply app_eq_nil in E as [E ->].
    destruct (assemble_insts (rt_oc rt) is1) as [l|p|p] eqn:B; try discriminate. intros H. injection H as ->.
    exists s, is1. now constructor.
  - intros (s & is1 & [S E A B]). rewrite S. cbn [obind]. fold (final e s).
    destruct (final_same e s) as (F1 & F2 & F3 & F4 & F5). rewrite F1, F3, E, A. cbn [obind fst snd app].
    change (e_oc e) with (rt_oc rt) in B. now rewrite B.
Qed.

Lemma init_good : forall n k, In (n, k) (p_labels init_state) -> good_label n.
Proof. intros n k []. Qed.

Lemma assembled_labels e input s is1 out : Forall no_nl input -> assembled e input s is1 out ->
  p_labels (final e s) = label_table 0 input /\ NoDup (map fst (label_table 0 input))
  /\ (forall n k, In (n, k) (label_table 0 input) -> good_label n)
  /\ List.length (p_insts s) = instruction_count input /\ map fst (p_insts s) = instruction_lines 0 input
  /\ List.length out = instruction_count input.
Proof.
  intros N [S E A B]. destruct (scan_ok e input N _ _ S E) as (new & I & L & T). cbn in I, T, L.
  destruct (scan_labels e input N _ _ S init_good (NoDup_nil _)) as [G D]. rewrite T in G, D.
  destruct (final_same e s) as (F1 & F2 & F3 & F4 & F5). rewrite F2, T.
  assert (Ln : List.length new = instruction_count input) by (rewrite <- (map_length fst new), L; apply instruction_lines_length).
  repeat split; auto.
  - rewrite I. exact Ln.
  - rewrite I. exact L.
  - apply assemble_length in B. apply adjust_length in A. cbn in A. rewrite B, A, I. exact Ln.
Qed.

Lemma instruction_lines_app n a b : instruction_lines n (a ++ b) = instruction_lines n a ++ instruction_lines (n + List.length a) b.
Proof.
  revert n. induction a as [|l a IH]; intros n; cbn [app instruction_lines List.length].
  - now rewrite Nat.add_0_r.
  - rewrite IH, Nat.add_succ_r, Nat.add_succ_l. destruct (is_instruction l); reflexivity.
Qed.

(** The fate of one line of a successful assembly. *)
Theorem assembled_at e input s is1 out l1 raw l2 : Forall no_nl input -> assembled e input s is1 out -> input = l1 ++ raw :: l2 ->
  exists s1, scan_lines e init_state l1 = Ok s1 /\ p_errors s1 = []
  /\ List.length (p_insts s1) = instruction_count l1 /\ p_line s1 = List.length l1 /\ p_labels s1 = label_table 0 l1
  /\ match role_of raw with
     | Empty => True
     | Defines k => label_ok s1 k
     | Instruction => exists w i i1 i' o1 o2,
         parse_inst e (bump s1) (clean raw) = (w, Ok i)
         /\ nth_error (p_insts s) (instruction_count l1) = Some (S (List.length l1), i)
         /\ adjust_one e (final e s) (instruction_count l1) (S (List.length l1)) i = Ok (i1, [])
         /\ @assemble_inst perror (e_oc e) i1 = Ok i'
         /\ out = o1 ++ i' :: o2 /\ List.length o1 = instruction_count l1 /\ List.length o2 = instruction_count l2
     end.
Proof.
  intros N As Ei. assert (As' := As). destruct As' as [S E A B]. rewrite Ei in S. rewrite scan_app in S.
  apply obind_ok in S as (s1 & S1 & S). cbn [scan_lines] in S. apply obind_ok in S as (s2 & St & S2).
  assert (N' := N). rewrite Ei in N'. apply Forall_app in N' as [N1 N']. inversion N' as [|? ? Nr N2]; subst x l.
  apply step_view in St; [|exact Nr].
  destruct (scan_grows e l2 N2 _ _ S2) as [G2 P2]. assert (E2 := no_errors_before _ _ G2 E).
  destruct (step_grows _ _ _ _ St) as [G1 P1]. assert (E1 := no_errors_before _ _ G1 E2).
  destruct (scan_grows e l1 N1 _ _ S1) as [_ P0]. cbn in P0.
  destruct (scan_ok e l1 N1 _ _ S1 E1) as (new & I & L & T). cbn in I, L, T.
  assert (Ln : List.length (p_insts s1) = instruction_count l1).
  { rewrite I, <- (map_length fst new), L. apply instruction_lines_length. }
  exists s1. repeat (split; [assumption|]).
  destruct St as [R|k R Lc P|k R Lc P|k p R P|w i R P|w p R P]; rewrite R; auto.
  - cbn in E2. destruct (p_errors s1); discriminate.
  - destruct (scan_ok e l2 N2 _ _ S2 E) as (new2 & I2 & L2 & T2). cbn in I2. rewrite <- app_assoc in I2. cbn [app] in I2.
    rewrite P0 in I2. rewrite I2 in A. rewrite adjust_app in A. apply obind_ok in A as ([a1 x1] & A1 & A).
    apply obind_ok in A as ([a2 x2] & A2 & A). cbn [fst snd] in A. injection A as Ea Ex. apply app_eq_nil in Ex as [-> ->].
    cbn [adjust_from] in A2. apply obind_ok in A2 as ([i1 xi] & Ai & A2). apply obind_ok in A2 as ([a3 x3] & A3 & A2).
    cbn [fst snd] in A2. injection A2 as <- Ex. apply app_eq_nil in Ex as [-> ->]. rewrite <- Ea in B. rewrite assemble_app in B.
    apply obind_ok in B as (o1 & B1 & B). apply obind_ok in B as (o2 & B2 & B). injection B as <-.
    cbn [assemble_insts] in B2. apply obind_ok in B2 as (i' & Bi & B2). apply obind_ok in B2 as (o3 & B3 & B2). injection B2 as <-.
    rewrite Ln in Ai. exists w, i, i1, i', o1, o3. repeat split; auto.
    + rewrite I2. rewrite nth_error_app2 by lia. rewrite Ln, Nat.sub_diag. reflexivity.
    + apply assemble_length in B1. apply adjust_length in A1. cbn in A1. lia.
    + apply assemble_length in B3. apply adjust_length in A3. cbn in A3. rewrite B3, A3, <- (map_length fst new2), L2.
      apply instruction_lines_length.
  - cbn in E2. destruct (p_errors s1); discriminate.
Qed.

(** The lines of a text made of lines. *)
Lemma lines_app_nl l r : no_nl l -> lines (l ++ nl :: r) = strip_cr l :: lines r.
Proof.
  intros N. unfold lines.
  assert (K : split_char nl (l ++ nl :: r) = l :: split_char nl r).
  { induction l as [|c l IH]; [reflexivity|]. cbn [app split_char].
    destruct (Ascii.eqb_spec c nl) as [->|_]; [exfalso; apply N; now left|].
    rewrite IH; [reflexivity|]. intros I. apply N. now right. }
  rewrite K. cbn [lines_of_pieces].
  assert (split_char nl r <> []) by (destruct r as [|c r']; cbn [split_char]; [discriminate|destruct (Ascii.eqb c nl); [discriminate|destruct (split_char nl r'); discriminate]]).
  destruct (split_char nl r); [congruence|reflexivity].
Qed.
Lemma lines_single l : no_nl l -> l <> [] -> lines l = [l].
Proof.
  intros N H. unfold lines.
  assert (K : split_char nl l = [l]).
  { clear H. induction l as [|c l IH]; [reflexivity|]. cbn [split_char].
    destruct (Ascii.eqb_spec c nl) as [->|_]; [exfalso; apply N; now left|].
    rewrite IH; [reflexivity|]. intros I. apply N. now right. }
  rewrite K. destruct l; [congruence|reflexivity].
Qed.
(** A list of proper lines joined with line feeds. *)
Definition proper_line (l : str) : Prop := no_nl l /\ (forall p, l <> p ++ [cr]).
Lemma strip_cr_proper l : proper_line l -> strip_cr l = l.
Proof.
  intros [_ H]. unfold strip_cr. destruct (rev l) as [|c r] eqn:E; [reflexivity|]. destruct (Ascii.eqb_spec c cr) as [->|_]; [|reflexivity].
  exfalso. apply (H (rev r)). rewrite <- (rev_involutive l), E. reflexivity.
Qed.
Lemma lines_concat ls : Forall proper_line ls -> lines (flat_map (fun l => l ++ [nl]) ls) = ls.
Proof.
  induction 1 as [|l ls H _ IH]; [reflexivity|]. cbn [flat_map]. rewrite <- app_assoc. cbn [app].
  rewrite lines_app_nl by apply H. rewrite IH, strip_cr_proper by exact H. reflexivity.
Qed.
Lemma lines_join ls l : Forall proper_line ls -> no_nl l -> l <> [] -> lines (join [nl] (ls ++ [l])) = ls ++ [l].
Proof.
  intros F N H. induction F as [|x ls X _ IH]; [cbn; now apply lines_single|].
  cbn [app]. assert (E : ls ++ [l] <> []) by (destruct ls; discriminate).
  assert (J : join [nl] (x :: ls ++ [l]) = x ++ nl :: join [nl] (ls ++ [l])).
  { destruct (ls ++ [l]); [congruence|reflexivity]. }
  rewrite J, lines_app_nl by apply X. now rewrite IH, strip_cr_proper.
Qed.
