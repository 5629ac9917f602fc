(** * StrLemmas: facts about the text primitives (proofs only). *)

From Coq Require Import Lia.
From Verif Require Import Str Regex.

(** ** Equality *)

Lemma str_eqb_spec a b : str_eqb a b = true <-> a = b.
Proof.
  revert b; induction a as [|x a IH]; destruct b as [|y b]; simpl; try easy.
  rewrite andb_true_iff, Ascii.eqb_eq, IH. split; [intros [-> ->]; easy | now inversion 1].
Qed.
Lemma str_eqb_refl a : str_eqb a a = true.
Proof. now apply str_eqb_spec. Qed.
Lemma str_eqb_neq a b : str_eqb a b = false <-> a <> b.
Proof. rewrite <- str_eqb_spec. now destruct (str_eqb a b). Qed.
Lemma str_eqb_sym a b : str_eqb a b = str_eqb b a.
Proof.
  destruct (str_eqb b a) eqn:E; [apply str_eqb_spec in E; subst; apply str_eqb_refl|].
  apply str_eqb_neq in E. apply str_eqb_neq. congruence.
Qed.
Lemma str_dec (a b : str) : {a = b} + {a <> b}.
Proof. destruct (str_eqb a b) eqn:E; [left; now apply str_eqb_spec | right; now apply str_eqb_neq]. Qed.

(** ** White space *)

Definition no_ws (s : str) : Prop := forallb (fun c => negb (is_ws c)) s = true.

Lemma no_ws_app a b : no_ws (a ++ b) <-> no_ws a /\ no_ws b.
Proof. unfold no_ws. rewrite forallb_app, andb_true_iff. easy. Qed.
Lemma no_ws_cons c s : no_ws (c :: s) <-> is_ws c = false /\ no_ws s.
Proof. unfold no_ws; simpl. now rewrite andb_true_iff, negb_true_iff. Qed.
Lemma no_ws_nil : no_ws [].
Proof. reflexivity. Qed.

(** First and last character are not white space. *)
Definition tight_start (s : str) : Prop := match s with [] => True | c :: _ => is_ws c = false end.
Definition tight_end (s : str) : Prop := tight_start (rev s).

Lemma drop_while_tight s : tight_start s -> drop_while is_ws s = s.
Proof. destruct s as [|c s]; simpl; [easy|]. now intros ->. Qed.
Lemma drop_while_ws_app w s : forallb is_ws w = true -> drop_while is_ws (w ++ s) = drop_while is_ws s.
Proof.
  induction w as [|c w IH]; simpl; [easy|]. rewrite andb_true_iff. intros [-> H]. auto.
Qed.
Lemma forallb_rev {A} (p : A -> bool) l : forallb p (rev l) = forallb p l.
Proof.
  destruct (forallb p l) eqn:E.
  - rewrite forallb_forall in *. intros x H. apply E. now apply in_rev.
  - apply not_true_iff_false. rewrite forallb_forall. intros H.
    apply not_true_iff_false in E. apply E. rewrite forallb_forall. intros x Hx. apply H.
    now apply in_rev in Hx.
Qed.

Lemma drop_while_all p s : forallb p s = true -> drop_while p s = [].
Proof. induction s as [|c s IH]; simpl; [easy|]. rewrite andb_true_iff. intros [-> H]; auto. Qed.

Lemma trim_ws_around a s b :
  forallb is_ws a = true -> forallb is_ws b = true -> trim (a ++ s ++ b) = trim s.
Proof.
  intros Ha Hb. unfold trim, drop_while_end. rewrite drop_while_ws_app by easy.
  assert (G : forall s, rev (drop_while is_ws (rev (drop_while is_ws (s ++ b))))
                 = rev (drop_while is_ws (rev (drop_while is_ws s)))).
  { clear - Hb. intros s. induction s as [|c s IH]; simpl.
    - rewrite (drop_while_all _ b) by easy. reflexivity.
    - destruct (is_ws c) eqn:E; [exact IH|]. change (c :: s ++ b) with ((c :: s) ++ b).
      rewrite rev_app_distr, drop_while_ws_app; [reflexivity|]. rewrite forallb_rev. exact Hb. }
  apply G.
Qed.

Lemma trim_tight s : tight_start s -> tight_end s -> trim s = s.
Proof.
  intros H1 H2. unfold trim, drop_while_end. rewrite (drop_while_tight s) by easy.
  rewrite (drop_while_tight (rev s)) by easy. apply rev_involutive.
Qed.
Lemma trim_around a s b :
  forallb is_ws a = true -> forallb is_ws b = true -> tight_start s -> tight_end s ->
  trim (a ++ s ++ b) = s.
Proof. intros. rewrite trim_ws_around by easy. now apply trim_tight. Qed.
Lemma trim_no_ws s : no_ws s -> trim s = s.
Proof.
  intros H. apply trim_tight.
  - destruct s; simpl; [easy|]. now apply no_ws_cons in H.
  - unfold tight_end. unfold no_ws in H. rewrite <- forallb_rev in H.
    destruct (rev s); simpl in *; [easy|]. apply andb_true_iff in H. now apply negb_true_iff.
Qed.
Lemma trim_nil : trim [] = [].
Proof. reflexivity. Qed.

Lemma drop_while_decomp p s : exists a, s = a ++ drop_while p s /\ forallb p a = true.
Proof.
  induction s as [|c s (a & Ha & Hp)]; simpl; [now exists []|].
  destruct (p c) eqn:E; [exists (c :: a); simpl; rewrite E; split; [now f_equal|easy] | now exists []].
Qed.
Lemma drop_while_head p s : match drop_while p s with [] => True | c :: _ => p c = false end.
Proof. induction s as [|c s IH]; simpl; [easy|]. destruct (p c) eqn:E; [easy|]. exact E. Qed.

(** Every text is its trimmed form between white space. *)
Lemma trim_decomp s : exists a b, s = a ++ trim s ++ b /\ forallb is_ws a = true /\ forallb is_ws b = true.
Proof.
  destruct (drop_while_decomp is_ws s) as (a & Ha & Hp).
  destruct (drop_while_decomp is_ws (rev (drop_while is_ws s))) as (b & Hb & Hq).
  exists a, (rev b). unfold trim, drop_while_end. split; [|split; [easy|now rewrite forallb_rev]].
  apply (f_equal (@rev ascii)) in Hb. rewrite rev_involutive, rev_app_distr in Hb.
  now rewrite <- Hb, <- Ha.
Qed.
Lemma tight_start_prefix a b : tight_start (a ++ b) -> tight_start a.
Proof. now destruct a. Qed.
Lemma trim_is_tight s : tight_start (trim s) /\ tight_end (trim s).
Proof.
  unfold trim, drop_while_end, tight_end. rewrite rev_involutive. split.
  - assert (H := drop_while_head is_ws s). set (d := drop_while is_ws s) in *.
    destruct (drop_while_decomp is_ws (rev d)) as (b & Hb & _).
    apply (f_equal (@rev ascii)) in Hb. rewrite rev_involutive, rev_app_distr in Hb.
    assert (T : tight_start d) by (destruct d; easy).
    rewrite Hb in T. now apply tight_start_prefix in T.
  - assert (H := drop_while_head is_ws (rev (drop_while is_ws s))).
    now destruct (drop_while is_ws (rev (drop_while is_ws s))).
Qed.
Lemma trim_idem s : trim (trim s) = trim s.
Proof. destruct (trim_is_tight s). now apply trim_tight. Qed.

(** ** [Debug] for instructions: collapsing white space *)

Fixpoint squeeze_go (prev_ws : bool) (s : str) : str :=
  match s with
  | [] => []
  | c :: r =>
      if is_ws c then (if prev_ws then squeeze_go true r else " "%char :: squeeze_go true r)
      else c :: squeeze_go false r
  end.
Definition squeeze := squeeze_go false.

Lemma SPACE_RE_prefix s :
  hd_error (prefix_matches SPACE_RE s) = match s with
                                       | c :: r => if is_ws c then Some (S (run_len is_ws r)) else None
                                       | [] => None
                                       end.
Proof.
  unfold SPACE_RE. destruct s as [|c r]; [reflexivity|].
  cbn [prefix_matches]. destruct (is_ws c); [|reflexivity].
  cbn [flat_map skipn]. rewrite app_nil_r.
  assert (L : forall n, hd_error (rev (seq 0 (S n))) = Some n).
  { intros n. rewrite seq_S, rev_app_distr. reflexivity. }
  specialize (L (run_len is_ws r)).
  destruct (rev (seq 0 (S (run_len is_ws r)))); simpl in *; congruence.
Qed.

Lemma SPACE_RE_find s :
  re_find SPACE_RE s =
  match s with
  | [] => None
  | c :: r => if is_ws c then Some (O, S (run_len is_ws r))
              else match re_find SPACE_RE r with Some (i, n) => Some (S i, n) | None => None end
  end.
Proof.
  assert (H := SPACE_RE_prefix s). destruct s as [|c r]; [reflexivity|].
  cbn [re_find]. destruct (prefix_matches SPACE_RE (c :: r)) as [|n l]; simpl in H.
  - destruct (is_ws c); [discriminate|reflexivity].
  - destruct (is_ws c); [now inversion H|discriminate].
Qed.

Lemma squeeze_go_true s : squeeze_go true s = squeeze (skipn (run_len is_ws s) s).
Proof.
  unfold squeeze. induction s as [|c s IH]; [reflexivity|]. cbn [squeeze_go run_len].
  destruct (is_ws c) eqn:E; [cbn [skipn]; exact IH|]. cbn [skipn squeeze_go]. now rewrite E.
Qed.

Lemma re_replace_space f s : (List.length s < f)%nat -> re_replace f SPACE_RE #" " s = squeeze s.
Proof.
  assert (G : forall f s p, (List.length s < f)%nat ->
     (match re_find SPACE_RE s with
      | None => p ++ s
      | Some (i, n) => p ++ firstn i s ++ #" " ++ re_replace (pred f) SPACE_RE #" " (skipn (i + Nat.max n 1) s)
      end) = p ++ squeeze s).
  { clear. induction f as [|f IHf]; [intros; lia|]. induction s as [|c s IHs]; intros p Hl.
    - reflexivity.
    - rewrite SPACE_RE_find. cbn [List.length] in Hl. unfold squeeze; cbn [squeeze_go].
      destruct (is_ws c) eqn:E.
      + cbn [firstn app pred]. f_equal. rewrite squeeze_go_true.
        assert (Hm : (0 + Nat.max (S (run_len is_ws s)) 1 = S (run_len is_ws s))%nat) by lia.
        rewrite Hm. cbn [skipn].
        set (t := skipn (run_len is_ws s) s).
        assert (Ht : (List.length t < f)%nat).
        { unfold t. rewrite skipn_length. lia. }
        destruct f as [|f']; [lia|]. specialize (IHf t [] Ht). cbn [pred] in IHf.
        change (#" ") with [" "%char]. cbn [app]. f_equal. cbn [re_replace].
        destruct (re_find SPACE_RE t) as [[i n]|]; exact IHf.
      + assert (Hl' : (List.length s < S f)%nat) by lia. specialize (IHs (p ++ [c]) Hl').
        destruct (re_find SPACE_RE s) as [[i n]|].
        * cbn [firstn]. rewrite <- app_assoc in IHs. cbn [app] in *.
          cbn [skipn plus]. rewrite <- app_assoc in IHs. exact IHs.
        * rewrite <- !app_assoc in IHs. exact IHs. }
  intros Hl. specialize (G f s [] Hl). destruct f as [|f']; [lia|]. cbn [re_replace pred] in *.
  destruct (re_find SPACE_RE s) as [[i n]|]; exact G.
Qed.

Lemma replace_all_space s : replace_all SPACE_RE #" " s = squeeze s.
Proof. apply re_replace_space. lia. Qed.

Lemma squeeze_no_ws_app a s : no_ws a -> squeeze (a ++ s) = a ++ squeeze s.
Proof.
  unfold squeeze. induction a as [|c a IH]; intros H; [reflexivity|].
  apply no_ws_cons in H as [Hc Ha]. cbn [app squeeze_go]. rewrite Hc. f_equal. auto.
Qed.
Lemma squeeze_no_ws a : no_ws a -> squeeze a = a.
Proof. intros H. rewrite <- (app_nil_r a) at 1. rewrite squeeze_no_ws_app by easy. apply app_nil_r. Qed.
Lemma squeeze_ws_app w s :
  w <> [] -> forallb is_ws w = true -> tight_start s -> squeeze (w ++ s) = #" " ++ squeeze s.
Proof.
  destruct w as [|c w]; [easy|]. cbn [forallb]. rewrite andb_true_iff. intros _ [Hc Hw] Hs.
  unfold squeeze. cbn [app squeeze_go]. rewrite Hc. change (#" " ++ ?x) with (" "%char :: x).
  cbn [lit list_ascii_of_string app]. f_equal. clear Hc.
  induction w as [|d w IH]; cbn [app].
  - destruct s as [|x s]; [reflexivity|]. cbn [squeeze_go]. simpl in Hs. now rewrite Hs.
  - cbn [forallb] in Hw. apply andb_true_iff in Hw as [Hd Hw]. cbn [squeeze_go]. rewrite Hd. auto.
Qed.
