(** * TextProofs: comments, lines, statements (proofs only). *)

From Coq Require Import Lia.
From Verif Require Import Str Regex SpecIsa SpecText StrLemmas Parser.

(** ** Characters *)

Definition no_nl (s : str) : Prop := ~ In nl s.

(** Characters with a meaning in a line. *)
Definition special_char (c : ascii) : bool :=
  match c with ";" | "/" | ":" => true | _ => false end%char.
Definition plain (s : str) : Prop := forallb (fun c => negb (special_char c)) s = true.

Lemma plain_app a b : plain (a ++ b) <-> plain a /\ plain b.
Proof. unfold plain. now rewrite forallb_app, andb_true_iff. Qed.
Lemma plain_cons c s : plain (c :: s) <-> special_char c = false /\ plain s.
Proof. unfold plain. cbn [forallb]. rewrite andb_true_iff, negb_true_iff. tauto. Qed.
Lemma plain_in s : plain s <-> forall c, In c s -> special_char c = false.
Proof.
  unfold plain. rewrite forallb_forall. split; intros H c I; specialize (H c I); now destruct (special_char c).
Qed.
Lemma blank_plain s : blank s -> plain s.
Proof.
  intros H. apply plain_in. intros c I. unfold blank in H. rewrite forallb_forall in H. specialize (H c I).
  destruct c as [[] [] [] [] [] [] [] []]; try reflexivity; discriminate.
Qed.
Lemma blank_app a b : blank (a ++ b) <-> blank a /\ blank b.
Proof. unfold blank. now rewrite forallb_app, andb_true_iff. Qed.
Lemma blank_nil : blank []. Proof. reflexivity. Qed.

Lemma padded_plain t x : padded t x -> plain t -> plain x.
Proof. intros (a & b & A & B & ->) P. rewrite !plain_app. auto using blank_plain. Qed.
Lemma padded_trim t x : padded t x -> tight_start t -> tight_end t -> trim x = t.
Proof.
  intros (a & b & A & B & ->) S E. now apply trim_around.
Qed.
Lemma padded_refl t : padded t t.
Proof. exists [], []. rewrite app_nil_r. auto using blank_nil. Qed.
Lemma padded_right t x w : padded t x -> blank w -> padded t (x ++ w).
Proof.
  intros (a & b & A & B & ->) W. exists a, (b ++ w). rewrite blank_app. repeat split; auto.
  now rewrite <- !app_assoc.
Qed.

(** ** Comments *)

Lemma run_len_any s : no_nl s -> run_len any_char s = List.length s.
Proof.
  induction s as [|c s IH]; intros H; [reflexivity|]. cbn [run_len]. unfold any_char at 1.
  destruct (Ascii.eqb_spec c nl) as [->|_]; cbn [negb].
  - exfalso. apply H. now left.
  - cbn [List.length]. f_equal. apply IH. intros I. apply H. now right.
Qed.

Lemma seq_rev_head n : exists l, rev (seq 0 (S n)) = n :: l.
Proof. rewrite seq_S, rev_app_distr. cbn. eauto. Qed.

Lemma comment_prefix s : no_nl s -> starts_comment s = true ->
  exists tl, prefix_matches COMMENT_RE s = List.length s :: tl.
Proof.
  intros N H. unfold COMMENT_RE. cbn [prefix_matches].
  destruct s as [|c s]; [discriminate|].
  destruct (Ascii.eqb_spec c ";"%char) as [->|N1].
  - cbn [skipn].
    change (cls "/" ";"%char) with false. change (cls ";" ";"%char) with true. cbn [flat_map app map skipn].
    rewrite run_len_any by (intros I; apply N; now right). cbn [Nat.add].
    destruct (seq_rev_head (List.length s)) as [l ->]. cbn [map app List.length]. eauto.
  - assert (exists r, c = "/"%char /\ s = "/"%char :: r) as (r & -> & ->).
    { destruct c as [[] [] [] [] [] [] [] []]; try discriminate H; try (now contradiction N1).
      destruct s as [|d r]; [discriminate|]. exists r. split; [reflexivity|].
      destruct d as [[] [] [] [] [] [] [] []]; try discriminate H. reflexivity. }
    cbn [skipn]. change (cls "/" "/"%char) with true. change (cls ";" "/"%char) with false.
    cbn [flat_map app map skipn]. change (cls "/" "/"%char) with true. cbn [flat_map app map skipn Nat.add].
    rewrite run_len_any by (intros I; apply N; right; now right).
    destruct (seq_rev_head (List.length r)) as [l ->]. cbn [map app List.length Nat.add]. eauto.
Qed.

Lemma no_comment_prefix s : starts_comment s = false -> prefix_matches COMMENT_RE s = [].
Proof.
  intros H. unfold COMMENT_RE. cbn [prefix_matches].
  destruct s as [|c s]; [reflexivity|].
  destruct (Ascii.eqb_spec c ";"%char) as [->|N1]; [discriminate|].
  assert (A : cls ";" c = false) by (unfold cls; now destruct (Ascii.eqb_spec c ";"%char)).
  rewrite A, app_nil_r.
  destruct (Ascii.eqb_spec c "/"%char) as [->|N2].
  - change (cls "/" "/"%char) with true. cbn [flat_map map skipn app].
    destruct s as [|d s]; [reflexivity|].
    destruct (Ascii.eqb_spec d "/"%char) as [->|N3]; [discriminate|].
    assert (B : cls "/" d = false) by (unfold cls; now destruct (Ascii.eqb_spec d "/"%char)).
    now rewrite B.
  - assert (B : cls "/" c = false) by (unfold cls; now destruct (Ascii.eqb_spec c "/"%char)).
    now rewrite B.
Qed.

Lemma re_replace_comment f s : no_nl s -> (List.length s < f)%nat ->
  re_replace f COMMENT_RE [] s = before_comment s.
Proof.
  intros N L.
  assert (K : forall t, no_nl t -> before_comment t =
     match re_find COMMENT_RE t with None => t | Some (i, _) => firstn i t end
     /\ match re_find COMMENT_RE t with None => True | Some (i, n) => (i + n)%nat = List.length t /\ (1 <= n)%nat end).
  { induction t as [|c t IH]; intros Nt; [cbn; auto|].
    assert (Nt' : no_nl t) by (intros I; apply Nt; now right).
    destruct (starts_comment (c :: t)) eqn:S.
    - destruct (comment_prefix _ Nt S) as [tl P]. cbn [re_find before_comment]. rewrite S, P. cbn; split; [auto|lia].
    - cbn [before_comment re_find]. rewrite S, (no_comment_prefix _ S).
      destruct (IH Nt') as [E1 E2].
      destruct (re_find COMMENT_RE t) as [[i n]|]; cbn [firstn List.length]; [|split; [now rewrite E1|auto]].
      split; [now rewrite E1|lia]. }
  destruct f as [|f]; [lia|]. cbn [re_replace]. destruct (K s N) as [-> K2].
  destruct (re_find COMMENT_RE s) as [[i n]|]; [|reflexivity].
  destruct K2 as [K2 K3]. replace (i + Nat.max n 1)%nat with (List.length s) by lia.
  rewrite skipn_all. destruct f; cbn [re_replace app]; [now rewrite app_nil_r|]. cbn [re_find].
  replace (prefix_matches COMMENT_RE []) with (@nil nat) by reflexivity. now rewrite app_nil_r.
Qed.
Lemma replace_comment s : no_nl s -> replace_all COMMENT_RE [] s = before_comment s.
Proof. intros N. apply re_replace_comment; [exact N|lia]. Qed.

Lemma before_comment_prefix s : exists r, s = before_comment s ++ r.
Proof.
  induction s as [|c s [r IH]]; [now exists []|]. cbn [before_comment].
  destruct (starts_comment (c :: s)); [eexists; reflexivity|]. exists r. cbn. now rewrite <- IH.
Qed.

Lemma before_comment_plain s t : plain s -> starts_comment t = true \/ t = [] -> before_comment (s ++ t) = s.
Proof.
  intros P T. induction s as [|c s IH].
  - cbn [app]. destruct T as [T| ->]; [|reflexivity]. destruct t; [discriminate|]. cbn [before_comment]. now rewrite T.
  - apply plain_cons in P as [C P]. cbn [app before_comment].
    assert (starts_comment (c :: s ++ t) = false) as ->.
    { destruct c as [[] [] [] [] [] [] [] []]; try reflexivity; discriminate C. }
    f_equal. auto.
Qed.


Lemma infix_no_nl a s b : no_nl (a ++ s ++ b) -> no_nl s.
Proof. intros N I. apply N. apply in_or_app. right. apply in_or_app. now left. Qed.
Lemma trim_no_nl s : no_nl s -> no_nl (trim s).
Proof. intros N. destruct (trim_decomp s) as (a & b & E & _). rewrite E in N. now apply infix_no_nl in N. Qed.

Lemma clean_spec raw : no_nl raw -> replace_all COMMENT_RE [] (trim raw) = clean raw.
Proof. intros N. apply replace_comment. now apply trim_no_nl. Qed.

Lemma clean_infix raw : exists a b, raw = a ++ clean raw ++ b.
Proof.
  destruct (trim_decomp raw) as (a & b & E & _). destruct (before_comment_prefix (trim raw)) as [r R].
  exists a, (r ++ b). unfold clean. rewrite E at 1. rewrite R at 1. now rewrite <- app_assoc.
Qed.

(** ** Case *)

Lemma all_ascii (P : ascii -> Prop) : (forall b0 b1 b2 b3 b4 b5 b6 b7, P (Ascii b0 b1 b2 b3 b4 b5 b6 b7)) -> forall c, P c.
Proof. intros H [b0 b1 b2 b3 b4 b5 b6 b7]. apply H. Qed.
Lemma lower_ws c : is_ws (lower_char c) = is_ws c.
Proof. destruct c as [[] [] [] [] [] [] [] []]; reflexivity. Qed.
Lemma lower_special c : special_char (lower_char c) = special_char c.
Proof. destruct c as [[] [] [] [] [] [] [] []]; reflexivity. Qed.
Lemma lower_idem c : lower_char (lower_char c) = lower_char c.
Proof. destruct c as [[] [] [] [] [] [] [] []]; reflexivity. Qed.
Lemma to_lower_idem s : to_lower (to_lower s) = to_lower s.
Proof. unfold to_lower. rewrite map_map. apply map_ext. apply lower_idem. Qed.
Lemma to_lower_app a b : to_lower (a ++ b) = to_lower a ++ to_lower b.
Proof. apply map_app. Qed.
Lemma to_lower_length s : List.length (to_lower s) = List.length s.
Proof. apply map_length. Qed.
Lemma forallb_lower (p : ascii -> bool) s : (forall c, p (lower_char c) = p c) ->
  forallb p (to_lower s) = forallb p s.
Proof. intros H. unfold to_lower. induction s as [|c s IH]; [reflexivity|]. cbn. now rewrite H, IH. Qed.
Lemma same_letters_forallb p a b : (forall c, p (lower_char c) = p c) -> same_letters a b ->
  forallb p a = forallb p b.
Proof. intros H E. rewrite <- (forallb_lower p a H), <- (forallb_lower p b H). now rewrite E. Qed.
Lemma same_letters_no_ws a b : same_letters a b -> no_ws b -> no_ws a.
Proof.
  intros E H. unfold no_ws in *. rewrite (same_letters_forallb _ a b); auto. intros c. now rewrite lower_ws.
Qed.
Lemma same_letters_plain a b : same_letters a b -> plain b -> plain a.
Proof.
  intros E H. unfold plain in *. rewrite (same_letters_forallb _ a b); auto. intros c. now rewrite lower_special.
Qed.
Lemma same_letters_length a b : same_letters a b -> List.length a = List.length b.
Proof. intros E. rewrite <- (to_lower_length a), <- (to_lower_length b). now rewrite E. Qed.
Lemma same_letters_nil a b : same_letters a b -> b <> [] -> a <> [].
Proof. intros E N ->. apply same_letters_length in E. destruct b; [congruence|discriminate]. Qed.

(** ** Splitting *)

Lemma split_once_app c a b : ~ In c a -> split_once c (a ++ c :: b) = Some (a, b).
Proof.
  induction a as [|x a IH]; intros N; cbn [app split_once].
  - now rewrite Ascii.eqb_refl.
  - destruct (Ascii.eqb_spec x c) as [->|_]; [exfalso; apply N; now left|].
    rewrite IH; [reflexivity|]. intros I. apply N. now right.
Qed.
Lemma split_once_none c a : ~ In c a -> split_once c a = None.
Proof.
  induction a as [|x a IH]; intros N; cbn [split_once]; [reflexivity|].
  destruct (Ascii.eqb_spec x c) as [->|_]; [exfalso; apply N; now left|].
  rewrite IH; [reflexivity|]. intros I. apply N. now right.
Qed.
Lemma split_char_none c a : ~ In c a -> split_char c a = [a].
Proof.
  induction a as [|x a IH]; intros N; cbn [split_char]; [reflexivity|].
  destruct (Ascii.eqb_spec x c) as [->|_]; [exfalso; apply N; now left|].
  rewrite IH; [reflexivity|]. intros I. apply N. now right.
Qed.
Lemma split_char_app c a b : ~ In c a -> split_char c (a ++ c :: b) = a :: split_char c b.
Proof.
  induction a as [|x a IH]; intros N; cbn [app split_char].
  - now rewrite Ascii.eqb_refl.
  - destruct (Ascii.eqb_spec x c) as [->|_]; [exfalso; apply N; now left|].
    rewrite IH; [reflexivity|]. intros I. apply N. now right.
Qed.
Lemma split_join c x xs : Forall (fun t => ~ In c t) (x :: xs) -> split_char c (join [c] (x :: xs)) = x :: xs.
Proof.
  revert x. induction xs as [|y ys IH]; intros x F; apply Forall_cons_iff in F as [X F].
  - cbn [join]. now apply split_char_none.
  - change (join [c] (x :: y :: ys)) with (x ++ c :: join [c] (y :: ys)).
    rewrite split_char_app by exact X. now rewrite IH.
Qed.
Definition no_comma (s : str) : Prop := ~ In ","%char s.
Lemma no_comma_app a b : no_comma (a ++ b) <-> no_comma a /\ no_comma b.
Proof. unfold no_comma. rewrite in_app_iff. tauto. Qed.
Lemma blank_no_comma s : blank s -> no_comma s.
Proof. intros B I. unfold blank in B. rewrite forallb_forall in B. specialize (B _ I). discriminate. Qed.
Lemma padded_no_comma t x : padded t x -> no_comma t -> no_comma x.
Proof. intros (a & b & A & B & ->) P. rewrite !no_comma_app. auto using blank_no_comma. Qed.
Lemma no_ws_no_space s : no_ws s -> ~ In " "%char s.
Proof. intros P I. unfold no_ws in P. rewrite forallb_forall in P. specialize (P _ I). discriminate. Qed.

(** ** Statements *)

(** An operand text that white space can surround. *)
Definition operand_ok (t : str) : Prop := t <> [] /\ (plain t /\ no_comma t) /\ tight_start t /\ tight_end t.

Lemma forall2_padded_plain ts xs : Forall operand_ok ts -> Forall2 padded ts xs ->
  Forall plain xs /\ Forall no_comma xs.
Proof.
  intros F H. induction H as [|t x ts xs P H IH]; [split; constructor|].
  apply Forall_cons_iff in F as [(_ & [O1 O2] & _) F]. destruct (IH F).
  split; constructor; auto; [eapply padded_plain; eauto|eapply padded_no_comma; eauto].
Qed.
Lemma join_plain xs : Forall plain xs -> plain (join #"," xs).
Proof.
  induction xs as [|x [|y ys] IH]; intros F; [reflexivity|now apply Forall_cons_iff in F|].
  apply Forall_cons_iff in F as [X F].
  change (join #"," (x :: y :: ys)) with (x ++ #"," ++ join #"," (y :: ys)). rewrite !plain_app.
  split; [exact X|]. split; [reflexivity|]. now apply IH.
Qed.
Lemma tight_end_app a b : b <> [] -> tight_end b -> tight_end (a ++ b).
Proof.
  unfold tight_end. rewrite rev_app_distr. intros N T. destruct (rev b) eqn:E; [|exact T].
  apply (f_equal (@rev ascii)) in E. rewrite rev_involutive in E. cbn in E. congruence.
Qed.

(** The operands of a statement, with the white space at the very end split off. *)
Lemma join_core t ts x xs : Forall operand_ok (t :: ts) -> Forall2 padded (t :: ts) (x :: xs) ->
  exists y ys w, blank w /\ join #"," (x :: xs) = join #"," (y :: ys) ++ w
    /\ tight_end (join #"," (y :: ys)) /\ join #"," (y :: ys) <> []
    /\ forall w', blank w' -> exists z zs, join #"," (y :: ys) ++ w' = join #"," (z :: zs)
                               /\ Forall2 padded (t :: ts) (z :: zs).
Proof.
  revert t x xs. induction ts as [|t2 ts IH]; intros t x xs O H.
  - inversion H as [|? ? ? ? P H']; subst. inversion H'; subst. destruct P as (a & b & A & B & ->).
    apply Forall_cons_iff in O as [(N & P & S & E) _].
    exists (a ++ t), [], b. cbn [join]. repeat split.
    + exact B.
    + now rewrite <- app_assoc.
    + now apply tight_end_app.
    + destruct a; [exact N|discriminate].
    + intros w' W. exists ((a ++ t) ++ w'), []. split; [reflexivity|]. constructor; [|constructor].
      exists a, w'. rewrite <- app_assoc. auto.
  - inversion H as [|? ? ? ? P H']; subst. destruct xs as [|x2 xs]; [inversion H'|].
    apply Forall_cons_iff in O as [O1 O]. destruct (IH t2 x2 xs O H') as (y & ys & w & W & E & T & N & K).
    exists x, (y :: ys), w.
    change (join #"," (x :: x2 :: xs)) with (x ++ #"," ++ join #"," (x2 :: xs)).
    change (join #"," (x :: y :: ys)) with (x ++ #"," ++ join #"," (y :: ys)).
    repeat split.
    + exact W.
    + rewrite E. now rewrite <- !app_assoc.
    + apply tight_end_app; [discriminate|]. now apply tight_end_app.
    + destruct x; discriminate.
    + intros w' W'. destruct (K w' W') as (z & zs & E2 & F). exists x, (z :: zs).
      change (join #"," (x :: z :: zs)) with (x ++ #"," ++ join #"," (z :: zs)).
      split; [|now constructor]. rewrite <- E2. now rewrite <- !app_assoc.
Qed.

(** A mnemonic. *)
Definition name_ok (n : str) : Prop := n <> [] /\ plain n /\ no_ws n.

Lemma no_ws_tight_end s : no_ws s -> tight_end s.
Proof.
  intros H. unfold tight_end. unfold no_ws in H. rewrite <- forallb_rev in H.
  destruct (rev s); simpl in *; [easy|]. apply andb_true_iff in H. now apply negb_true_iff.
Qed.
Lemma no_ws_tight_start s : no_ws s -> tight_start s.
Proof. destruct s; simpl; [easy|]. intros H. now apply no_ws_cons in H. Qed.

Lemma tight_start_app a b : a <> [] -> tight_start a -> tight_start (a ++ b).
Proof. destruct a; [congruence|]. intros _ H. exact H. Qed.

Lemma blank_tight s : blank s -> tight_start s -> s = [].
Proof. destruct s as [|c s]; [reflexivity|]. cbn. unfold blank. cbn. intros A B. rewrite B in A. discriminate. Qed.

(** Removing the end of a line. *)
Lemma clean_core a core w e : blank a -> blank w -> line_end e -> core <> [] -> plain core ->
  tight_start core -> tight_end core ->
  clean (a ++ core ++ w ++ e) = core /\ blank e \/ clean (a ++ core ++ w ++ e) = core ++ w.
Proof.
  intros A W E N P S T. unfold clean. destruct E as [e B|e|e].
  - left. split; [|exact B]. rewrite trim_around; auto; [|now apply blank_app].
    rewrite <- (app_nil_r core) at 1. apply before_comment_plain; auto.
  - right. assert (X : exists e', trim (a ++ core ++ w ++ #";" ++ e) = (core ++ w) ++ #";" ++ e').
    { destruct (trim_decomp (#";" ++ e)) as (b1 & b2 & D & B1 & B2).
      assert (b1 = []) as ->.
      { destruct b1 as [|c b1]; [reflexivity|]. apply (f_equal (@hd ascii " "%char)) in D. cbn in D. subst c. discriminate B1. }
      cbn [app] in D. destruct (trim (#";" ++ e)) as [|c e'] eqn:Te.
      - exfalso. destruct b2 as [|c b2]; [discriminate|]. apply (f_equal (@hd ascii " "%char)) in D. cbn in D. subst c. discriminate B2.
      - assert (c = ";"%char) by (apply (f_equal (@hd ascii " "%char)) in D; cbn in D; congruence). subst c.
        exists e'. assert (D' : #";" ++ e = #";" ++ e' ++ b2) by exact D. rewrite D'.
        replace (a ++ core ++ w ++ #";" ++ e' ++ b2) with (a ++ ((core ++ w) ++ #";" ++ e') ++ b2)
          by (now rewrite <- !app_assoc).
        apply trim_around; auto.
        + rewrite <- app_assoc. now apply tight_start_app.
        + apply tight_end_app; [discriminate|]. change (#";" ++ e') with (";"%char :: e'). rewrite <- Te.
          apply trim_is_tight. }
    destruct X as [e' ->]. apply before_comment_plain; [|now left]. apply plain_app. auto using blank_plain.
  - right. assert (X : exists e', trim (a ++ core ++ w ++ #"//" ++ e) = (core ++ w) ++ #"//" ++ e').
    { destruct (trim_decomp e) as (b1 & b2 & D & B1 & B2). 
      destruct (trim_is_tight e) as [T1 T2].
      destruct (trim e) as [|c e'] eqn:Te.
      - exists []. rewrite D. cbn [app].
        replace (a ++ core ++ w ++ #"//" ++ b1 ++ b2) with (a ++ ((core ++ w) ++ #"//" ++ []) ++ (b1 ++ b2))
          by (rewrite app_nil_r; now rewrite <- !app_assoc).
        apply trim_around; auto.
        + now apply blank_app.
        + rewrite <- app_assoc. now apply tight_start_app.
        + apply tight_end_app; [discriminate|reflexivity].
      - exists (b1 ++ c :: e'). rewrite D at 1.
        replace (a ++ core ++ w ++ #"//" ++ b1 ++ (c :: e') ++ b2)
          with (a ++ ((core ++ w) ++ #"//" ++ b1 ++ c :: e') ++ b2) by (now rewrite <- !app_assoc).
        apply trim_around; auto.
        + rewrite <- app_assoc. now apply tight_start_app.
        + apply tight_end_app; [discriminate|]. apply tight_end_app; [destruct b1; discriminate|].
          apply tight_end_app; [discriminate|exact T2]. }
    destruct X as [e' ->]. apply before_comment_plain; [|now left]. apply plain_app. auto using blank_plain.
Qed.

Lemma ends_with_colon s : plain s -> ends_with #":" s = false.
Proof.
  unfold plain. intros H. rewrite <- forallb_rev in H. unfold ends_with. change (rev #":") with [":"%char].
  destruct (rev s) as [|c r]; [reflexivity|]. cbn [forallb] in H. apply andb_true_iff in H as [H _].
  cbn [starts_with]. destruct (Ascii.eqb_spec ":" c) as [<-|_]; [discriminate|reflexivity].
Qed.

(** The parser's view of an instruction line. *)
Lemma line_view name ts raw : name_ok name -> Forall operand_ok ts -> instruction_line name ts raw ->
  exists op xs arg, same_letters op name
    /\ (ts = [] /\ xs = [[]] /\ arg = [] \/ ts <> [] /\ Forall2 padded ts xs)
    /\ split_char "," arg = xs
    /\ clean raw <> [] /\ ends_with #":" (clean raw) = false
    /\ (split_once " " (clean raw) = Some (op, arg) \/ split_once " " (clean raw) = None /\ clean raw = op /\ arg = []).
Proof.
  intros (Nn & Np & Nw) F (a & st & gap & e & A & S & G & E & Z & ->).
  inversion S as [m L|m t ts' x xs L H]; subst.
  - assert (Lp := same_letters_plain _ _ L Np). assert (Lw := same_letters_no_ws _ _ L Nw).
    assert (Ln := same_letters_nil _ _ L Nn).
    exists st, [[]], []. split; [exact L|]. split; [left; auto|]. split; [reflexivity|].
    assert (C : clean (a ++ st ++ gap ++ e) = st \/ clean (a ++ st ++ gap ++ e) = st ++ #" ").
    { destruct (clean_core a st gap e) as [[C _]|C]; auto using no_ws_tight_start, no_ws_tight_end.
      destruct Z as [Z|[Z|Z]]; [reflexivity| | |].
      - left. unfold clean. rewrite trim_around; auto using no_ws_tight_start, no_ws_tight_end.
        + rewrite <- (app_nil_r st) at 1. apply before_comment_plain; auto.
        + now apply blank_app.
      - left. rewrite C, Z. apply app_nil_r.
      - right. now rewrite C, Z. }
    destruct C as [C|C]; rewrite C.
    + repeat split; auto; [now apply ends_with_colon|]. right. split; [|auto].
      apply split_once_none. now apply no_ws_no_space.
    + repeat split; auto; [destruct st; discriminate| |].
      * apply ends_with_colon. apply plain_app. split; [exact Lp|reflexivity].
      * left. apply (split_once_app " " st []). now apply no_ws_no_space.
  - assert (Lp := same_letters_plain _ _ L Np). assert (Lw := same_letters_no_ws _ _ L Nw).
    assert (Ln := same_letters_nil _ _ L Nn).
    destruct (join_core t ts' x xs F H) as (y & ys & w & W & J & T & N & K).
    assert (Py : plain (join #"," (y :: ys))).
    { destruct (K [] blank_nil) as (z & zs & Ez & Fz). rewrite app_nil_r in Ez. rewrite Ez.
      apply join_plain. now apply (forall2_padded_plain _ _ F Fz). }
    assert (Q : exists w', blank w' /\ clean (a ++ (m ++ #" " ++ join #"," (x :: xs)) ++ gap ++ e)
                          = (m ++ #" " ++ join #"," (y :: ys)) ++ w').
    { rewrite J.
      replace (a ++ (m ++ #" " ++ join #"," (y :: ys) ++ w) ++ gap ++ e)
        with (a ++ (m ++ #" " ++ join #"," (y :: ys)) ++ (w ++ gap) ++ e)
        by (now rewrite <- !app_assoc).
      destruct (clean_core a (m ++ #" " ++ join #"," (y :: ys)) (w ++ gap) e) as [[C _]|C]; auto.
      - now apply blank_app.
      - destruct m; [congruence|discriminate].
      - rewrite !plain_app. split; [exact Lp|split; [reflexivity|exact Py]].
      - apply tight_start_app; [exact Ln|now apply no_ws_tight_start].
      - apply tight_end_app; [discriminate|]. apply tight_end_app; [exact N|exact T].
      - exists []. split; [reflexivity|]. now rewrite C, app_nil_r.
      - exists (w ++ gap). split; [now apply blank_app|exact C]. }
    destruct Q as (w' & W' & Q). destruct (K w' W') as (z & zs & Ez & Fz).
    assert (Q2 : clean (a ++ (m ++ #" " ++ join #"," (x :: xs)) ++ gap ++ e) = m ++ #" " ++ join #"," (z :: zs)).
    { rewrite Q. rewrite <- Ez. now rewrite <- !app_assoc. }
    clear Q. exists m, (z :: zs), (join #"," (z :: zs)). split; [exact L|].
    destruct (forall2_padded_plain _ _ F Fz) as [Pz Cz].
    split; [right; split; [discriminate|exact Fz]|].
    split; [now apply (split_join "," z zs)|]. rewrite Q2. split; [destruct m; discriminate|]. split.
    + apply ends_with_colon. rewrite !plain_app. split; [exact Lp|]. split; [reflexivity|now apply join_plain].
    + left. apply (split_once_app " " m (join #"," (z :: zs))). now apply no_ws_no_space.
Qed.

Lemma view_parse e s op xs arg raw : clean raw <> [] -> split_char "," arg = xs ->
  (split_once " " (clean raw) = Some (op, arg) \/ split_once " " (clean raw) = None /\ clean raw = op /\ arg = []) ->
  parse_inst e s (clean raw) = parse_op e s op arg xs.
Proof.
  intros N <- H. unfold parse_inst. destruct H as [H | (H & E & A)]; rewrite H; subst; destruct (clean raw); congruence.
Qed.

(** Blank lines. *)
Lemma clean_blank raw : blank_line raw -> clean raw = [].
Proof.
  intros (a & e & A & E & ->). unfold clean.
  assert (T : trim (a ++ e) = trim e) by (rewrite <- (app_nil_r e) at 1; now apply trim_ws_around).
  rewrite T. destruct E as [e B|e|e].
  - assert (X : trim ([] ++ [] ++ e) = trim []) by now apply trim_ws_around. cbn [app] in X. now rewrite X.
  - destruct (trim_decomp (#";" ++ e)) as (b1 & b2 & D & B1 & B2).
    destruct b1 as [|c b1]; [|apply (f_equal (@hd ascii " "%char)) in D; cbn in D; subst c; discriminate B1].
    cbn [app] in D. destruct (trim (#";" ++ e)) as [|c r]; [reflexivity|].
    apply (f_equal (@hd ascii " "%char)) in D. cbn in D. subst c. reflexivity.
  - destruct (trim_decomp e) as (b1 & b2 & D & B1 & B2). destruct (trim_is_tight e) as [T1 T2].
    destruct (trim e) as [|c r] eqn:Te.
    + assert (B : blank e) by (rewrite D; cbn [app]; now apply blank_app).
      change (#"//" ++ e) with ([] ++ #"//" ++ e). rewrite trim_around; auto; reflexivity.
    + assert (X : trim (#"//" ++ e) = #"//" ++ b1 ++ c :: r).
      { rewrite D at 1. replace (#"//" ++ b1 ++ (c :: r) ++ b2) with ([] ++ (#"//" ++ b1 ++ c :: r) ++ b2)
          by (cbn [app]; now rewrite <- !app_assoc).
        apply trim_around; auto; [reflexivity|]. apply tight_end_app; [destruct b1; discriminate|].
        apply tight_end_app; [discriminate|exact T2]. }
      rewrite X. reflexivity.
Qed.
