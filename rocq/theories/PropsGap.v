(** * PropsGap: where a comment after white space is not possible (C30). *)

From Coq Require Import Lia.
From Verif Require Import PropsAsm Lib SpecIsa StrLemmas NumLemmas TextProofs ScanProofs LabelProofs LineProofs ProgProofs AsmProofs ErrorProofs ImmLines CauseProofs FatalProofs LayoutProofs SpacingProofs PropsCause PropsFatal SpecErrors SpecText SpecPanic SpecCause SpecFatal SpecSource.

(** The text of a line: no comment sign, no line end, and no white space at its ends. *)
Definition line_text (t : str) : Prop := t <> [] /\ trim t = t /\ forallb (fun c => negb (existsb (Ascii.eqb c) (#";/" ++ [nl]))) t = true.
(** A line with the text [t], white space and then a comment. *)
Definition gap_line (t w l : str) : Prop := exists a c, blank a /\ blank w /\ starts_comment c = true /\ l = a ++ t ++ w ++ c.
Lemma before_id s c : (forall x, In x s -> comment_char x = false) -> starts_comment c = true -> before_comment (s ++ c) = s.
Proof.
  intros H S. induction s as [|x s IH]; [destruct c as [|y c]; [discriminate S|]; cbn [app before_comment]; now rewrite S|]. cbn [app before_comment].
  assert (starts_comment (x :: s ++ c) = false) as ->.
  { assert (C := H x (or_introl eq_refl)). destruct x as [[] [] [] [] [] [] [] []]; try reflexivity; discriminate C. }
  rewrite IH; [reflexivity|]. intros d I. apply H. now right.
Qed.
(** The white space stays, as a part of the code of the line. *)
Lemma gap_clean t w l : line_text t -> gap_line t w l -> clean l = t ++ w.
Proof.
  intros (N & T & P) (a & c & Ba & Bw & Sc & ->). destruct (dwe_comment c Sc) as [Sc' Dw].
  assert (Ti : tight_start t) by (rewrite <- T; apply trim_is_tight).
  assert (Tr : trim (a ++ t ++ w ++ c) = (t ++ w) ++ drop_while_end is_ws c).
  { rewrite trim_blank_head by exact Ba. rewrite app_assoc. unfold trim. rewrite (drop_while_tight ((t ++ w) ++ c)) by (destruct t as [|x t]; [congruence|exact Ti]). apply Dw. }
  unfold clean. rewrite Tr. apply before_id; [|exact Sc']. intros x I. apply in_app_or in I as [I|I].
  - rewrite forallb_forall in P. specialize (P x I). destruct x as [[] [] [] [] [] [] [] []]; try reflexivity; discriminate P.
  - unfold blank in Bw. rewrite forallb_forall in Bw. specialize (Bw x I). destruct x as [[] [] [] [] [] [] [] []]; try reflexivity; discriminate Bw.
Qed.
Lemma gap_role t w l : line_text t -> w <> [] -> gap_line t w l -> role_of l = Instruction.
Proof.
  intros Lt Nw G. assert (C := gap_clean t w l Lt G). destruct G as (a & c & _ & Bw & _). unfold role_of. rewrite C.
  destruct Lt as (N & _). destruct (t ++ w) as [|x r] eqn:E; [destruct t; [congruence|discriminate E]|]. rewrite <- E.
  assert (ends_with #":" (t ++ w) = false) as ->; [|reflexivity]. unfold ends_with. rewrite rev_app_distr. change (rev #":") with #":".
  assert (Br : forallb is_ws (rev w) = true) by (apply forallb_forall; intros y I; apply in_rev in I; unfold blank in Bw; rewrite forallb_forall in Bw; auto).
  destruct (rev w) as [|y q] eqn:R; [exfalso; apply Nw; rewrite <- (rev_involutive w), R; reflexivity|]. cbn [forallb] in Br. apply andb_true_iff in Br as [By _].
  clear - By. destruct y as [[] [] [] [] [] [] [] []]; try discriminate By; reflexivity.
Qed.

(** A label: with a space and more white space before the comment, the line is read as an instruction with
    an unknown mnemonic, and is an error in every program. (Names that continue the stem of a
    floating-point operation, like [addi], are said to have the wrong number of operands instead.) *)
Definition plain_name (n : str) : Prop := mnemonic n /\ forall stem x, to_lower n = stem ++ [x] -> ~ In stem float_stems /\ forall r, stem <> #"c." ++ r.
Theorem C30_label_gap rt m n w l : plain_name n -> gap_line (n ++ #":") (" "%char :: w) l -> causes rt m l (fun ln => EInvalidOpcode ln (n ++ #":")).
Proof.
  intros [[N M] F] G.
  assert (Wn : forall x, In x n -> is_ws x = false /\ existsb (Ascii.eqb x) #";/:" = false) by (intros x I; rewrite forallb_forall in M; specialize (M x I); apply andb_true_iff in M as [M1 M2]; split; now apply negb_true_iff).
  assert (Lt : line_text (n ++ #":")).
  { split; [intros X; apply app_eq_nil in X as [_ X]; discriminate X|]. split; [apply trim_no_ws; unfold no_ws; rewrite forallb_app; apply andb_true_iff; split; [|reflexivity]; apply forallb_forall; intros x I; now rewrite (proj1 (Wn x I))|].
    rewrite forallb_app. apply andb_true_iff. split; [|reflexivity]. apply forallb_forall. intros x I. destruct (Wn x I) as [A B]. destruct x as [[] [] [] [] [] [] [] []]; try reflexivity; (discriminate A || discriminate B). }
  assert (C := gap_clean _ _ _ Lt G). assert (R := gap_role (n ++ #":") (" "%char :: w) l Lt ltac:(discriminate) G).
  assert (O : operation l = n ++ #":").
  { unfold operation. rewrite C. rewrite split_once_app; [reflexivity|]. intros I. apply in_app_or in I as [I|[I|[]]]; [|discriminate I]. destruct (Wn _ I) as [X _]. discriminate X. }
  assert (Lo : lower_operation l = to_lower n ++ #":") by (unfold lower_operation; rewrite O; unfold to_lower; now rewrite map_app).
  rewrite <- O. apply C70_unknown; [exact R| |].
  - intros x I. rewrite Lo in I. apply in_app_or in I as [I|[<-|[]]]; [|reflexivity]. unfold to_lower in I. apply in_map_iff in I as (y & <- & I). destruct (Wn y I) as [X _]. destruct y as [[] [] [] [] [] [] [] []]; try reflexivity; discriminate X.
  - rewrite Lo. split; [destruct n; [congruence|]; cbn; rewrite app_length, map_length; cbn; lia|]. split; [|split].
    + intros I. assert (K : forallb (fun n => negb (existsb (Ascii.eqb ":") n)) (map fst shapes) = true) by (vm_compute; reflexivity).
      apply (proj1 (forallb_forall _ _) K) in I. rewrite existsb_app in I. apply negb_true_iff, orb_false_iff in I as [_ I]. discriminate I.
    + intros X. apply (f_equal (fun s => rev s)) in X. rewrite rev_app_distr in X. discriminate X.
    + intros stem a b E. apply (F stem a). change [a; b] with ([a] ++ [b]) in E. rewrite app_assoc in E. now apply app_inj_tail in E as [E _].
Qed.

(** An operation without operands: after white space that does not begin with a space, the comment makes
    every program panic. *)
Theorem C30_tab_gap rt m input op x w l : In (to_lower op) bare_names -> x <> " "%char -> gap_line op (x :: w) l -> In l (lines input) ->
  exists q, assemble rt m input = Panic q.
Proof.
  intros I Nx G Il.
  assert (K : forallb (fun n => forallb (fun c => (97 <=? Z.of_nat (nat_of_ascii c)) && (Z.of_nat (nat_of_ascii c) <=? 122)) n && match n with [] => false | _ => true end) bare_names = true) by (vm_compute; reflexivity).
  assert (K' := proj1 (forallb_forall _ _) K _ I). cbv beta in K'. apply andb_true_iff in K' as [K1 K2].
  assert (Wn : forall y, In y op -> is_ws y = false /\ negb (existsb (Ascii.eqb y) (#";/" ++ [nl])) = true).
  { intros y J. rewrite forallb_forall in K1. specialize (K1 (lower_char y)). unfold to_lower in K1. specialize (K1 (in_map lower_char _ _ J)). destruct y as [[] [] [] [] [] [] [] []]; (discriminate K1 || (split; reflexivity)). }
  assert (Lt : line_text op).
  { split; [intros ->; discriminate K2|]. split; [apply trim_no_ws; unfold no_ws; apply forallb_forall; intros y J; now rewrite (proj1 (Wn y J))|]. apply forallb_forall. intros y J. apply Wn, J. }
  assert (C := gap_clean _ _ _ Lt G). assert (R := gap_role op (x :: w) l Lt ltac:(discriminate) G). destruct G as (a & c & _ & Bw & _).
  apply (C29_fatal rt m input l Il). unfold fatal_line. rewrite R.
  assert (O : exists w1, blank (x :: w1) /\ operation l = op ++ x :: w1).
  { unfold operation. rewrite C. rewrite split_once_prefix by (intros J; destruct (Wn _ J) as [X _]; discriminate X).
    destruct (split_once " " (x :: w)) as [[p q]|] eqn:S; [|exists w; auto]. apply split_once_decomp in S as S'. destruct p as [|y p]; [exfalso; apply Nx; cbn [app] in S'; congruence|]. cbn [app] in S'.
    assert (y = x) by congruence. subst y. exists p. split; [|reflexivity]. rewrite S' in Bw. change (blank ((x :: p) ++ " "%char :: q)) in Bw. unfold blank in *. rewrite forallb_app in Bw. now apply andb_true_iff in Bw as [Bw _]. }
  destruct O as (w1 & Bw1 & ->). assert (to_lower (op ++ x :: w1) = to_lower op ++ to_lower (x :: w1)) as -> by (unfold to_lower; apply map_app).
  apply fi_gap; [exact I| |discriminate]. unfold blank, to_lower in *. apply forallb_forall. intros y J. apply in_map_iff in J as (z & <- & J). rewrite forallb_forall in Bw1. specialize (Bw1 z J). destruct z as [[] [] [] [] [] [] [] []]; try discriminate Bw1; reflexivity.
Qed.

(** [break] and [syscall] without a code: after a space and more white space, the missing code is an error. *)
Theorem C30_code_gap rt m op x w l : In (to_lower op) [ #"break"; #"syscall" ] -> gap_line op (" "%char :: x :: w) l ->
  causes rt m l (fun ln => EInvalidImmediate ln []).
Proof.
  intros I G.
  assert (Wn : forall y, In y op -> is_ws y = false /\ negb (existsb (Ascii.eqb y) (#";/" ++ [nl])) = true).
  { intros y J. assert (K : forallb (fun c => (97 <=? Z.of_nat (nat_of_ascii c)) && (Z.of_nat (nat_of_ascii c) <=? 122)) (to_lower op) = true) by (destruct I as [<-|[<-|[]]]; vm_compute; reflexivity).
    rewrite forallb_forall in K. specialize (K (lower_char y)). unfold to_lower in K. specialize (K (in_map lower_char _ _ J)). destruct y as [[] [] [] [] [] [] [] []]; (discriminate K || (split; reflexivity)). }
  assert (Lt : line_text op).
  { split; [intros ->; destruct I as [I|[I|[]]]; discriminate I|]. split; [apply trim_no_ws; unfold no_ws; apply forallb_forall; intros y J; now rewrite (proj1 (Wn y J))|]. apply forallb_forall. intros y J. apply Wn, J. }
  assert (C := gap_clean _ _ _ Lt G). assert (R := gap_role op (" "%char :: x :: w) l Lt ltac:(discriminate) G). destruct G as (a & c & _ & Bw & _).
  assert (Sp : split_once " " (clean l) = Some (op, x :: w)) by (rewrite C; apply split_once_app; intros J; destruct (Wn _ J) as [X _]; discriminate X).
  assert (Bx : blank (x :: w)) by (unfold blank in *; cbn [forallb] in *; now apply andb_true_iff in Bw as [_ Bw]).
  intros input l1 l2 E. assert (Ne : clean l <> []) by (unfold role_of in R; destruct (clean l); discriminate).
  assert (Ec : ends_with #":" (clean l) = false) by (unfold role_of in R; destruct (clean l); [discriminate|]; destruct (ends_with #":" (a0 :: s)); [discriminate|reflexivity]).
  assert (X := wrong_line rt m input l1 l l2 (fun q => q = EInvalidImmediate (mk_line (S (List.length l1)) l) []) E Ne Ec).
  assert (Y : forall s, at_place (mk_parser rt m input) l1 l s -> exists w q, parse_inst (mk_parser rt m input) s (clean l) = (w, Err q) /\ q = EInvalidImmediate (mk_line (S (List.length l1)) l) []).
  { intros s (Rd & Pl & Lb). rewrite (parse_is _ _ l R). unfold operation, operand_text_of. rewrite Sp. rewrite (split_char_none "," (x :: w)) by now apply blank_not.
    assert (Cl : classify (trim (to_lower op)) = Some GCode) by (destruct I as [<-|[<-|[]]]; vm_compute; reflexivity).
    unfold parse_op. rewrite Cl. unfold parse_code.
    assert (T : trim (trim (x :: w)) = []) by (rewrite trim_idem; exact (trim_blank_tail [] (x :: w) Bx)).
    assert (P : parse_immediate (mk_parser rt m input) s u16 (trim (x :: w)) = Err (EInvalidImmediate (mk_line (p_line s) l) [])).
    { unfold parse_immediate. rewrite T. change (starts_with #"@@" []) with false. cbv iota.
      assert (An : assoc [] (p_labels s) = None).
      { destruct (assoc [] (p_labels s)) as [k|] eqn:As; [exfalso|reflexivity]. apply ScanProofs.assoc_in in As. destruct (Lb _ _ As) as (G & _). destruct G. }
      rewrite An. change (re_find_str IMM_RE []) with (@None str). change (contains #"0x" []) with false. change (parse_int u16 10 []) with (@None Z). cbv iota.
      unfold fail_at. now rewrite (get_line_ready _ s l Rd). }
    unfold aimm. rewrite P. eexists _, _. split; [reflexivity|]. now rewrite Pl. }
  specialize (X Y). destruct (assemble rt m input) as [out|es|q]; [exact X| |exact Logic.I]. destruct X as (q & J & ->). exact J.
Qed.

(** ** Cases *)

Example C30_label_gap_case rt m : causes rt m #"loop:  // again" (fun ln => EInvalidOpcode ln #"loop:").
Proof.
  change #"loop:" with (#"loop" ++ #":"). apply (C30_label_gap rt m #"loop" #" ").
  - split; [split; [discriminate|reflexivity]|]. intros stem x E. change (to_lower #"loop") with (#"loo" ++ #"p") in E. apply app_inj_tail in E as [<- _]. split; [|discriminate].
    intros I. repeat (destruct I as [I|I]; [discriminate I|]). exact I.
  - exists [], #"// again". repeat split; reflexivity.
Qed.
(** Without the space it is a label, and the program with it assembles. *)
Example C30_label_no_gap : assemble (mk_runtime true (fun l => l)) m_new #"loop:// again" = Ok []. Proof. vm_compute. reflexivity. Qed.
Example C30_tab_gap_case rt m l1 l2 input : lines input = l1 ++ (#"Sync" ++ ascii_of_nat 9 :: #" ; wait") :: l2 -> exists q, assemble rt m input = Panic q.
Proof.
  intros E. apply (C30_tab_gap rt m input #"Sync" (ascii_of_nat 9) #" " (#"Sync" ++ ascii_of_nat 9 :: #" ; wait")); [vm_compute; tauto|discriminate| |rewrite E; apply in_or_app; right; now left].
  exists [], #"; wait". repeat split; reflexivity.
Qed.
Example C30_code_gap_case rt m : causes rt m #"break  ; stop" (fun ln => EInvalidImmediate ln []).
Proof. apply (C30_code_gap rt m #"break" " " []); [vm_compute; tauto|]. exists [], #"; stop". repeat split; reflexivity. Qed.
(** With one space, or none, there is no error. *)
Example C30_code_no_gap : exists a b, assemble (mk_runtime true (fun l => l)) m_new (join [nl] [ #"break ; stop"; #"break; stop" ]) = Ok [a; b]. Proof. eexists _, _. vm_compute. reflexivity. Qed.
Print Assumptions C30_label_gap.
Print Assumptions C30_tab_gap.
Print Assumptions C30_code_gap.
