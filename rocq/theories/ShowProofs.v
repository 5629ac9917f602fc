(** * ShowProofs: the rows of a displayed diagnostic. *)

From Coq Require Import Lia.
From Verif Require Import Str StrLemmas Error NativeProofs LineProofs.
From Verif Require Import SpecShow.

Lemma colored_same s : colored s s.
Proof. induction s; constructor; assumption. Qed.
Lemma colored_app r s r' s' : colored r s -> colored r' s' -> colored (r ++ r') (s ++ s').
Proof.
  intros C D. induction C; [exact D|cbn [app]; constructor; exact IHC|].
  rewrite <- app_assoc. now apply colored_seq.
Qed.
Lemma colored_blue r s : colored r s -> colored (blue ++ r) s.
Proof. intros. apply colored_seq; [left; reflexivity|assumption]. Qed.
Lemma colored_red r s : colored r s -> colored (red ++ r) s.
Proof. intros. apply colored_seq; [right; left; reflexivity|assumption]. Qed.
Lemma colored_off r s : colored r s -> colored (off ++ r) s.
Proof. intros. apply colored_seq; [right; right; left; reflexivity|assumption]. Qed.

(** ** [find_sub] *)
Lemma starts_with_self u b : starts_with u (u ++ b) = true.
Proof. induction u as [|c u IH]; [reflexivity|]. cbn. now rewrite Ascii.eqb_refl, IH. Qed.

Lemma find_sub_first u s n : find_sub u s = Some n -> first_at u s n.
Proof.
  revert n. induction s as [|c s IH]; intros n; cbn [find_sub].
  - destruct (starts_with u []) eqn:E; [|discriminate]. injection 1 as <-.
    apply starts_with_spec in E. destruct E as [b E]. split.
    + exists [], b. auto.
    + intros. lia.
  - destruct (starts_with u (c :: s)) eqn:E.
    + injection 1 as <-. apply starts_with_spec in E. destruct E as [b E]. split.
      * exists [], b. auto.
      * intros. lia.
    + destruct (find_sub u s) as [m|]; [|discriminate]. injection 1 as <-.
      destruct (IH m eq_refl) as ((a & b & Ea & La) & M). split.
      * exists (c :: a), b. cbn. rewrite Ea, La. auto.
      * intros a' b' H. destruct a' as [|d a'].
        -- exfalso. cbn in H. rewrite H in E. now rewrite starts_with_self in E.
        -- injection H as -> H. specialize (M a' b' H). cbn. lia.
Qed.

Lemma find_sub_occurs u s : find_sub u s <> None <-> occurs u s.
Proof.
  split.
  - destruct (find_sub u s) as [n|] eqn:E; [|congruence]. intros _.
    apply find_sub_first in E. destruct E as ((a & b & H & _) & _). now exists a, b.
  - intros (a & b & ->). apply find_sub_infix.
Qed.

(** ** [fmt_line] *)
Lemma pad_left_split m s : exists p, pad_left m s = repeat " "%char p ++ s
  /\ (List.length s <= m -> p + List.length s = m)%nat.
Proof.
  unfold pad_left. eexists. split; [reflexivity|]. lia.
Qed.

Definition mark_of (eu : bool) : ascii := if eu then "-"%char else "^"%char.

Lemma fmt_line_iff num content margin eu msg fs u :
  (exists t, fmt_line num content margin eu msg fs u = Ok t) <-> occurs u content.
Proof.
  rewrite <- find_sub_occurs. unfold fmt_line. destruct (find_sub u content); split; try congruence.
  - eauto.
  - intros [t H]. discriminate.
Qed.

Definition after_nl (b : str) : Prop := b = [] \/ exists c, b = c ++ [nl].

Lemma after_nl_app a b : after_nl b -> after_nl (a ++ [nl] ++ b).
Proof.
  intros [->|[c ->]]; right; [now exists a|]. exists (a ++ [nl] ++ c). now rewrite <- !app_assoc.
Qed.

Lemma fmt_line_rows num content margin eu msg fs u t pre post :
  (margin_of num <= margin)%nat -> after_nl pre ->
  fmt_line num content margin eu msg fs u = Ok t ->
  underlined (pre ++ t ++ post) (mk_line num content) u (mark_of eu).
Proof.
  intros W P. unfold fmt_line. destruct (find_sub u content) as [n|] eqn:F; [|discriminate].
  cbv zeta. intros H.
  apply (f_equal (fun o => match o with Ok x => x | _ => [] end)) in H. cbv beta iota in H. subst t.
  apply find_sub_first in F.
  destruct (pad_left_split margin (decn num)) as (p & Ep & Lp). specialize (Lp W).
  unfold underlined. cbn [l_num l_content].
  exists (pre ++ (if fs then blue ++ repeat " "%char margin ++ #" |" ++ off ++ LF else [])).
  exists ((blue ++ repeat " "%char margin ++ #" |" ++ off) ++ post).
  exists (blue ++ pad_left margin (decn num) ++ #" |" ++ off ++ #" " ++ content).
  exists (if eu
     then blue ++ repeat " "%char margin ++ #" |" ++ #" " ++ repeat " "%char n
          ++ repeat "-"%char (List.length u) ++ #" " ++ msg ++ off
     else blue ++ repeat " "%char margin ++ #" |" ++ #" " ++ repeat " "%char n ++ red
          ++ repeat "^"%char (List.length u) ++ #" " ++ msg ++ off).
  exists p, (repeat " "%char margin), n, msg. repeat split.
  - unfold LF. generalize blue as B, off as O, red as R, [nl] as N, (#" |") as G, (#" ") as V.
    intros. destruct fs, eu; rewrite <- ?app_assoc; cbn [app]; rewrite <- ?app_assoc; reflexivity.
  - destruct fs; [|now rewrite app_nil_r].
    right. exists (pre ++ blue ++ repeat " "%char margin ++ #" |" ++ off).
    unfold LF. rewrite <- !app_assoc. reflexivity.
  - apply colored_blue. rewrite Ep. rewrite <- !app_assoc.
    apply colored_app; [apply colored_same|]. apply colored_app; [apply colored_same|].
    change (#" | " ++ content) with (#" |" ++ #" " ++ content).
    apply colored_app; [apply colored_same|]. apply colored_off, colored_same.
  - destruct eu; apply colored_blue; unfold mark_of.
    + apply colored_app; [apply colored_same|].
      change (#" | " ++ ?x) with (#" |" ++ #" " ++ x).
      do 5 (apply colored_app; [apply colored_same|]).
      rewrite <- (app_nil_r msg) at 2. apply colored_app; [apply colored_same|].
      rewrite <- (app_nil_r off). apply colored_off. constructor.
    + apply colored_app; [apply colored_same|].
      change (#" | " ++ ?x) with (#" |" ++ #" " ++ x).
      do 3 (apply colored_app; [apply colored_same|]). apply colored_red.
      do 2 (apply colored_app; [apply colored_same|]).
      rewrite <- (app_nil_r msg) at 2. apply colored_app; [apply colored_same|].
      rewrite <- (app_nil_r off). apply colored_off. constructor.
  - unfold decn in Lp. now rewrite Lp.
  - apply F.
  - apply F.
Qed.

Lemma after_line a : after_nl (a ++ LF).
Proof. right. now exists a. Qed.

Lemma header_rows h num content eu msg fs u t :
  header_body h (fmt_line num content (margin_of num) eu msg fs u) = Ok t ->
  underlined t (mk_line num content) u (mark_of eu).
Proof.
  unfold header_body. destruct (fmt_line _ _ _ _ _ _ _) as [b| |] eqn:F; cbn [obind]; try discriminate.
  intros H. apply (f_equal (fun o => match o with Ok x => x | _ => [] end)) in H. cbv beta iota in H. subst t.
  assert (E : h ++ LF ++ b ++ LF = (h ++ LF) ++ b ++ LF) by now rewrite <- !app_assoc.
  rewrite E. eapply fmt_line_rows; [reflexivity|apply after_line|exact F].
Qed.

Lemma header_iff h num content m eu msg fs u :
  (exists t, header_body h (fmt_line num content m eu msg fs u) = Ok t) <-> occurs u content.
Proof.
  rewrite <- (fmt_line_iff num content m eu msg fs u). unfold header_body.
  destruct (fmt_line _ _ _ _ _ _ _); cbn [obind]; split; intros [t H]; try discriminate; eauto.
Qed.

Lemma single_iff (ln : line) (u : str) (k : ascii) :
  occurs u (l_content ln)
  <-> (forall l v m, In (l, v, m) [(ln, u, k)] -> occurs v (l_content l)).
Proof.
  split.
  - intros H l v m [Q|[]]. inversion Q; subst. exact H.
  - intros H. exact (H _ _ _ (or_introl eq_refl)).
Qed.

Theorem show_error_rows p t : show_error p = Ok t ->
  forall ln u m, In (ln, u, m) (quotes p) -> underlined t ln u m.
Proof.
  intros H ln u m Q. destruct p; cbn [show_error quotes] in H, Q;
    repeat match goal with l : line |- _ => destruct l end;
    try match goal with b : (Z * Z)%type |- _ => destruct b end;
    try (destruct Q as [Q|[]]; inversion Q; subst; clear Q; apply header_rows in H; exact H).
  destruct (fmt_line _ _ _ true _ _ _) as [a| |] eqn:A; cbn [obind] in H; try discriminate.
  destruct (fmt_line _ _ _ false _ _ _) as [b| |] eqn:B; cbn [obind] in H; try discriminate.
  apply (f_equal (fun o => match o with Ok x => x | _ => [] end)) in H. cbv beta iota in H. subst t.
  match goal with |- underlined (?h ++ _) _ _ _ => set (hd := h) end.
  destruct Q as [Q|[Q|[]]]; inversion Q; subst; clear Q.
  - match goal with |- underlined ?g _ _ _ =>
      replace g with ((hd ++ LF) ++ a ++ LF ++ blue ++ #"..." ++ off ++ LF ++ b ++ LF)
        by (rewrite <- !app_assoc; reflexivity) end.
    eapply (fmt_line_rows _ _ _ true); [apply Nat.le_max_r|apply after_line|exact A].
  - match goal with |- underlined ?g _ _ _ =>
      replace g with ((hd ++ LF ++ a ++ LF ++ blue ++ #"..." ++ off ++ LF) ++ b ++ LF)
        by (rewrite <- !app_assoc; reflexivity) end.
    eapply (fmt_line_rows _ _ _ false); [apply Nat.le_max_l| |exact B].
    right. eexists. unfold LF. rewrite !app_assoc. reflexivity.
Qed.

Theorem show_error_iff p :
  (exists t, show_error p = Ok t) <-> (forall ln u m, In (ln, u, m) (quotes p) -> occurs u (l_content ln)).
Proof.
  destruct p; cbn [show_error quotes];
    repeat match goal with l : line |- _ => destruct l end;
    try match goal with b : (Z * Z)%type |- _ => destruct b end;
    try (rewrite header_iff; exact (single_iff (mk_line _ _) _ _)).
  split.
  - intros [t H].
    destruct (fmt_line _ _ _ true _ _ _) as [a| |] eqn:A; cbn [obind] in H; try discriminate.
    destruct (fmt_line _ _ _ false _ _ _) as [b| |] eqn:B; cbn [obind] in H; try discriminate.
    intros ln u m [Q|[Q|[]]]; inversion Q; subst; clear Q; cbn [Error.l_content];
      [exact (proj1 (fmt_line_iff _ _ _ _ _ _ _) (ex_intro _ _ A))
      |exact (proj1 (fmt_line_iff _ _ _ _ _ _ _) (ex_intro _ _ B))].
  - intros H.
    pose proof (H _ _ _ (or_introl eq_refl)) as H1.
    pose proof (H _ _ _ (or_intror (or_introl eq_refl))) as H2. cbn [Error.l_content] in H1, H2.
    match goal with |- exists t, obind ?x (fun a => obind ?y _) = _ =>
      assert (G1 : exists t, x = Ok t) by (apply fmt_line_iff; exact H1);
      assert (G2 : exists t, y = Ok t) by (apply fmt_line_iff; exact H2) end.
    destruct G1 as [a ->], G2 as [b ->]. cbn [obind]. eauto.
Qed.

Theorem show_warning_rows w t : show_warning w = Ok t ->
  (forall ln slot, w = WDelaySlot ln slot ->
     List.length (dec (Z.of_nat (l_num slot))) <= List.length (dec (Z.of_nat (l_num ln))))%nat ->
  forall ln u m, In (ln, u, m) (warning_quotes w) -> underlined t ln u m.
Proof.
  intros H L ln u m Q. destruct w; cbn [show_warning warning_quotes] in H, Q.
  - specialize (L _ _ eq_refl). repeat match goal with l : line |- _ => destruct l end.
    cbn [Error.l_num Error.l_content] in *.
    destruct (fmt_line _ _ _ false _ _ _) as [a| |] eqn:A; cbn [obind] in H; try discriminate.
    destruct (fmt_line _ _ _ true _ _ _) as [b| |] eqn:B; cbn [obind] in H; try discriminate.
    apply (f_equal (fun o => match o with Ok x => x | _ => [] end)) in H. cbv beta iota in H. subst t.
    destruct Q as [Q|[Q|[]]]; inversion Q; subst; clear Q.
    + match goal with |- underlined (_ ++ ?c ++ ?g') _ _ _ => let g := constr:(#"warning: instruction `" ++ c ++ g') in
        replace g with ((#"warning: instruction `" ++ c ++ #"` cannot be in a delay slot" ++ LF)
          ++ a ++ LF ++ blue ++ #"..." ++ off ++ LF ++ b ++ LF)
          by (rewrite <- !app_assoc; reflexivity) end.
      eapply (fmt_line_rows _ _ _ false); [exact L| |exact A].
      right. eexists. unfold LF. rewrite !app_assoc. reflexivity.
    + match goal with |- underlined (_ ++ ?c ++ ?g') _ _ _ => let g := constr:(#"warning: instruction `" ++ c ++ g') in
        replace g with ((#"warning: instruction `" ++ c ++ #"` cannot be in a delay slot" ++ LF
          ++ a ++ LF ++ blue ++ #"..." ++ off ++ LF) ++ b ++ LF)
          by (rewrite <- !app_assoc; reflexivity) end.
      eapply (fmt_line_rows _ _ _ true); [reflexivity| |exact B].
      right. eexists. unfold LF. rewrite !app_assoc. reflexivity.
  - destruct ln0. destruct Q as [Q|[]]; inversion Q; subst; clear Q. apply header_rows in H. exact H.
  - destruct ln0. destruct Q as [Q|[]]; inversion Q; subst; clear Q. apply header_rows in H. exact H.
Qed.

Theorem show_warning_iff w :
  (exists t, show_warning w = Ok t)
  <-> (forall ln u m, In (ln, u, m) (warning_quotes w) -> occurs u (l_content ln)).
Proof.
  destruct w; cbn [show_warning warning_quotes];
    repeat match goal with l : line |- _ => destruct l end;
    try (rewrite header_iff; exact (single_iff (mk_line _ _) _ _)).
  split.
  - intros [t H].
    destruct (fmt_line _ _ _ false _ _ _) as [a| |] eqn:A; cbn [obind] in H; try discriminate.
    destruct (fmt_line _ _ _ true _ _ _) as [b| |] eqn:B; cbn [obind] in H; try discriminate.
    intros ln u m [Q|[Q|[]]]; inversion Q; subst; clear Q; cbn [Error.l_content];
      [exact (proj1 (fmt_line_iff _ _ _ _ _ _ _) (ex_intro _ _ A))
      |exact (proj1 (fmt_line_iff _ _ _ _ _ _ _) (ex_intro _ _ B))].
  - intros H.
    pose proof (H _ _ _ (or_introl eq_refl)) as H1.
    pose proof (H _ _ _ (or_intror (or_introl eq_refl))) as H2. cbn [Error.l_content] in H1, H2.
    match goal with |- exists t, obind ?x (fun a => obind ?y _) = _ =>
      assert (G1 : exists t, x = Ok t) by (apply fmt_line_iff; exact H1);
      assert (G2 : exists t, y = Ok t) by (apply fmt_line_iff; exact H2) end.
    destruct G1 as [a ->], G2 as [b ->]. cbn [obind]. eauto.
Qed.
