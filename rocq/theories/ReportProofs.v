(** * ReportProofs: the text of diagnostics (C83; proofs only). *)

From Coq Require Import Lia.
From Verif Require Import Str StrLemmas Error ShowProofs SpecShow SpecReport.

Lemma pad_number m n : pad_left m (decn n) = blanks (m - List.length (number n)) ++ number n.
Proof. reflexivity. Qed.
Ltac paint := repeat first [
  match goal with |- colored (esc :: _) _ => first [apply colored_blue | apply colored_red | apply colored_off] end
| match goal with |- colored (?c :: _) (?c :: _) => apply colored_char end
| match goal with |- colored (?x ++ _) (?x ++ _) => apply colored_app; [apply colored_same|] end
| apply colored_same ].
Lemma open_s (c : ascii) (s : string) (x : str) : list_ascii_of_string (String c s) ++ x = c :: (list_ascii_of_string s ++ x).
Proof. reflexivity. Qed.
Lemma open_e (x : str) : list_ascii_of_string EmptyString ++ x = x.
Proof. reflexivity. Qed.
Ltac flat := repeat first [progress cbn [app] | rewrite <- app_assoc | rewrite open_s | rewrite open_e].

Lemma line_picture num content margin eu msg lead u t : fmt_line num content margin eu msg lead u = Ok t ->
  exists p, picture margin lead (mk_line num content) u (if eu then "-" else "^")%char msg p /\ colored (t ++ [nl]) (rows p).
Proof.
  unfold fmt_line. destruct (find_sub u content) as [start|] eqn:F; [|discriminate]. intros E. injection E as <-.
  eexists. split; [exists start; split; [exact (find_sub_first u content start F)|reflexivity]|].
  rewrite pad_number. cbn [l_num l_content]. fold (blanks margin) (blanks start). unfold rows, blue, red, off, LF.
  destruct lead, eu; cbn [app map List.concat]; flat; paint.
Qed.

Lemma ok_same {E A} (x y : A) : @Ok E A x = Ok y -> x = y.
Proof. congruence. Qed.
Lemma rows_app a b : rows (a ++ b) = rows a ++ rows b.
Proof. unfold rows. now rewrite map_app, concat_app. Qed.
Lemma rows_cons a b : rows (a :: b) = a ++ nl :: rows b.
Proof. unfold rows. cbn [map List.concat]. now rewrite <- app_assoc. Qed.
Lemma under h h' b p : colored h h' -> colored (b ++ [nl]) (rows p) -> colored (h ++ LF ++ b ++ LF) (rows (h' :: p)).
Proof.
  intros C D. rewrite rows_cons. apply colored_app; [exact C|]. apply colored_char. exact D.
Qed.
Lemma red_head s : colored (err_header s) (#"error: " ++ s).
Proof. unfold err_header, red, off. flat. paint. Qed.
Lemma dotted h h' a b p q : colored h h' -> colored (a ++ [nl]) (rows p) -> colored (b ++ [nl]) (rows q) ->
  colored (h ++ LF ++ a ++ LF ++ blue ++ #"..." ++ off ++ LF ++ b ++ LF) (rows (h' :: p ++ #"..." :: q)).
Proof.
  intros C D E. rewrite rows_cons, rows_app, rows_cons. apply colored_app; [exact C|]. apply colored_char.
  unfold LF. change ([nl] ++ b ++ [nl]) with (nl :: b ++ [nl]). rewrite app_assoc. apply colored_app; [exact D|].
  apply colored_blue. apply colored_app; [apply colored_same|]. apply colored_off. apply colored_char. exact E.
Qed.
Lemma bodied h h' f t : header_body h f = Ok t -> colored h h' ->
  exists b, f = Ok b /\ t = h ++ LF ++ b ++ LF.
Proof. unfold header_body, obind. destruct f as [b| |]; try discriminate. intros E C. injection E as <-. now exists b. Qed.
Lemma one_picture h h' num content msg u eu lead t :
  header_body h (fmt_line num content (margin_of num) eu msg lead u) = Ok t -> colored h h' ->
  exists s, colored t s /\ exists a, picture (width (mk_line num content)) lead (mk_line num content) u (if eu then "-" else "^")%char msg a /\ s = rows (h' :: a).
Proof.
  intros E C. destruct (bodied h h' _ t E C) as (b & F & ->).
  destruct (line_picture num content (margin_of num) eu msg lead u b F) as (p & P & D).
  exists (rows (h' :: p)). split; [now apply under|]. exists p. split; [exact P|reflexivity].
Qed.

Theorem error_report p t : show_error p = Ok t -> exists s, colored t s /\ report p s.
Proof.
  destruct p as [[n c] x [fn fc]|[n c] x|[n c]|[n c] e f x|[n c] x|[n c] x|[n c] x|[n c] x|[n c] x|[n c] x [lo hi]|[n c] x|[n c] x];
    unfold show_error; intros E; unfold report, about, headline, note; cbn [l_num l_content].
  - cbv zeta in E. unfold obind in E.
    destruct (fmt_line fn fc _ true _ true x) as [a| |] eqn:A; try discriminate.
    destruct (fmt_line n c _ false _ false x) as [b| |] eqn:B; try discriminate. apply ok_same in E; subst t.
    destruct (line_picture _ _ _ _ _ _ _ _ A) as (pa & PA & CA). destruct (line_picture _ _ _ _ _ _ _ _ B) as (pb & PB & CB).
    eexists. split; [|cbv zeta; exists pa, pb; split; [exact PA|split; [exact PB|reflexivity]]].
    apply dotted; [|exact CA|exact CB]. unfold in_ticks. rewrite <- !app_assoc. apply red_head.
  - refine (one_picture _ _ n c _ _ _ _ t E _). unfold in_ticks. rewrite <- ?app_assoc. apply red_head.
  - refine (one_picture _ _ n c _ _ _ _ t E _). unfold in_ticks. rewrite <- ?app_assoc. apply red_head.
  - refine (one_picture _ _ n c _ _ _ _ t E _). unfold in_ticks. rewrite <- ?app_assoc. apply red_head.
  - refine (one_picture _ _ n c _ _ _ _ t E _). unfold in_ticks. rewrite <- ?app_assoc. apply red_head.
  - refine (one_picture _ _ n c _ _ _ _ t E _). unfold in_ticks. rewrite <- ?app_assoc. apply red_head.
  - refine (one_picture _ _ n c _ _ _ _ t E _). unfold in_ticks. rewrite <- ?app_assoc. apply red_head.
  - refine (one_picture _ _ n c _ _ _ _ t E _). unfold in_ticks. rewrite <- ?app_assoc. apply red_head.
  - refine (one_picture _ _ n c _ _ _ _ t E _). unfold in_ticks. rewrite <- ?app_assoc. apply red_head.
  - refine (one_picture _ _ n c _ _ _ _ t E _). unfold in_ticks. rewrite <- ?app_assoc. apply red_head.
  - refine (one_picture _ _ n c _ _ _ _ t E _). unfold in_ticks. rewrite <- ?app_assoc. apply red_head.
  - refine (one_picture _ _ n c _ _ _ _ t E _). unfold in_ticks. rewrite <- ?app_assoc. apply red_head.
Qed.

Theorem warning_shown w t : show_warning w = Ok t -> exists s, colored t s /\ warning_report w s.
Proof.
  destruct w as [[n c] [sn sc]|[n c] x|[n c] x]; unfold show_warning; intros E; unfold warning_report; cbn [l_num l_content].
  - cbv zeta in E. unfold obind in E.
    destruct (fmt_line sn sc _ false _ true (trim sc)) as [a| |] eqn:A; try discriminate.
    destruct (fmt_line n c _ true _ false (trim c)) as [b| |] eqn:B; try discriminate. apply ok_same in E; subst t.
    destruct (line_picture _ _ _ _ _ _ _ _ A) as (pa & PA & CA). destruct (line_picture _ _ _ _ _ _ _ _ B) as (pb & PB & CB).
    eexists. split; [|exists pa, pb; split; [exact PA|split; [exact PB|reflexivity]]].
    match goal with |- colored (?p ++ ?q ++ ?r ++ ?z) _ => replace (p ++ q ++ r ++ z) with ((p ++ q ++ r) ++ z) by now rewrite <- !app_assoc end.
    apply dotted; [|exact CA|exact CB]. unfold in_ticks. rewrite <- ?app_assoc. apply colored_same.
  - refine (one_picture _ _ n c _ _ _ _ t E _). unfold in_ticks. rewrite <- ?app_assoc. apply colored_same.
  - refine (one_picture _ _ n c _ _ _ _ t E _). unfold in_ticks. rewrite <- ?app_assoc. apply colored_same.
Qed.
