(** * PropsEnds: the kind of line ends does not matter (C69). *)

From Verif Require Import Str Lib PropsErrors SpecErrors SpecEnds.

(** ** C69  Line ends do not matter *)

Lemma split_at_nl l s : ~ In nl l -> split_char nl (l ++ nl :: s) = l :: split_char nl s.
Proof.
  induction l as [|c l IH]; intros N; cbn [app split_char].
  - rewrite Ascii.eqb_refl. reflexivity.
  - destruct (Ascii.eqb_spec c nl) as [->|_]; [exfalso; apply N; now left|]. rewrite IH; [reflexivity|]. intros I. apply N. now right.
Qed.
Lemma split_no_nl l : ~ In nl l -> split_char nl l = [l].
Proof.
  induction l as [|c l IH]; intros N; cbn [split_char]; [reflexivity|].
  destruct (Ascii.eqb_spec c nl) as [->|_]; [exfalso; apply N; now left|]. rewrite IH; [reflexivity|]. intros I. apply N. now right.
Qed.
Lemma strip_bare l : ~ In cr l -> strip_cr l = l.
Proof.
  intros N. unfold strip_cr. destruct (rev l) as [|c r] eqn:E; [reflexivity|]. destruct (Ascii.eqb_spec c cr) as [->|_]; [|reflexivity].
  exfalso. apply N. apply in_rev. rewrite E. now left.
Qed.
Lemma strip_cr_last l : strip_cr (l ++ [cr]) = l.
Proof. unfold strip_cr. rewrite rev_app_distr. cbn [rev app]. rewrite Ascii.eqb_refl. apply rev_involutive. Qed.
Lemma pieces_cons p q : q <> [] -> lines_of_pieces (p :: q) = strip_cr p :: lines_of_pieces q.
Proof. destruct q; [congruence|reflexivity]. Qed.
Lemma split_nonempty s : split_char nl s <> [].
Proof. destruct s as [|c s]; [discriminate|]. cbn [split_char]. destruct (Ascii.eqb c nl); [discriminate|]. destruct (split_char nl s); discriminate. Qed.
(** The lines of the text are what [str::lines] gives. *)
Lemma text_lines ls s : text_of ls s -> lines s = ls.
Proof.
  unfold lines. induction 1 as [|l [B _] N|l t ls s [B C] [->| ->] T IH]; [reflexivity| | |].
  - rewrite split_no_nl by exact B. cbn [lines_of_pieces]. destruct l; [congruence|reflexivity].
  - cbn [app]. rewrite split_at_nl, pieces_cons, strip_bare, IH by (assumption || apply split_nonempty). reflexivity.
  - change (l ++ [cr; nl] ++ s) with (l ++ [cr] ++ nl :: s). rewrite app_assoc. rewrite split_at_nl, pieces_cons, strip_cr_last, IH; [reflexivity|apply split_nonempty|].
    intros I. apply in_app_or in I as [I|[I|[]]]; [exact (B I)|discriminate I].
Qed.

(** Two texts with the same lines, however the lines end, are assembled alike: the same
    instructions or errors (with the same lines), the same warnings, the same panics. *)
Theorem C69_line_ends rt m ls s s' : text_of ls s -> text_of ls s' ->
  assemble rt m s = assemble rt m s' /\ assemble_warnings rt m s = assemble_warnings rt m s'.
Proof.
  intros T T'. assert (E : mk_parser rt m s = mk_parser rt m s') by (unfold mk_parser; now rewrite (text_lines _ _ T), (text_lines _ _ T')).
  unfold assemble, assemble_warnings. now rewrite E.
Qed.
(** An error names a line of the text by its number, counted from 1, and quotes it without its
    line end. *)
Theorem C69_numbers rt m ls s es : text_of ls s -> assemble rt m s = Err es -> Forall (well_placed ls) es.
Proof. intros T A. rewrite <- (text_lines _ _ T). destruct (C33_errors_partial rt m s es A) as (_ & W & _). exact W. Qed.

(** A program in the three styles. *)
Definition some_lines : list str := [ #"start:"; []; #"addiu $a0, $a1, 4"; #"j start" ].
Definition unix_text : str := #"start:" ++ [nl] ++ [nl] ++ #"addiu $a0, $a1, 4" ++ [nl] ++ #"j start" ++ [nl].
Definition dos_text : str := #"start:" ++ [cr; nl] ++ [cr; nl] ++ #"addiu $a0, $a1, 4" ++ [cr; nl] ++ #"j start" ++ [cr; nl].
Definition open_text : str := #"start:" ++ [nl] ++ [cr; nl] ++ #"addiu $a0, $a1, 4" ++ [nl] ++ #"j start".
Lemma bare_by l : existsb (fun c => (Ascii.eqb c nl || Ascii.eqb c cr)%bool) l = false -> bare_line l.
Proof.
  intros H. split; intros I; assert (X : existsb (fun c => (Ascii.eqb c nl || Ascii.eqb c cr)%bool) l = true) by (apply existsb_exists; eexists; split; [exact I|reflexivity]); congruence.
Qed.
Example line_ends_case : text_of some_lines unix_text /\ text_of some_lines dos_text /\ text_of some_lines open_text
  /\ exists out, assemble (mk_runtime true (fun l => l)) (mk_mipsasm 0x80000000 [] false) dos_text = Ok out /\ get_bytes out = [0x24a40004; 0x08000000].
Proof.
  assert (B : forall l, In l some_lines -> bare_line l) by (intros l I; repeat (destruct I as [<-|I]; [apply bare_by; reflexivity|]); destruct I).
  assert (N1 : text_of [ #"j start" ] #"j start") by (apply text_last; [apply B; right; right; right; now left|discriminate]).
  assert (N2 : text_of [ #"j start" ] (#"j start" ++ [nl])) by (apply (text_line #"j start" [nl] [] []); [apply B; right; right; right; now left|now left|constructor]).
  assert (N3 : text_of [ #"j start" ] (#"j start" ++ [cr; nl])) by (apply (text_line #"j start" [cr; nl] [] []); [apply B; right; right; right; now left|now right|constructor]).
  split; [|split; [|split]].
  - apply (text_line #"start:" [nl]); [apply B; now left|now left|]. apply (text_line [] [nl]); [apply B; right; now left|now left|]. apply (text_line _ [nl]); [apply B; right; right; now left|now left|exact N2].
  - apply (text_line #"start:" [cr; nl]); [apply B; now left|now right|]. apply (text_line [] [cr; nl]); [apply B; right; now left|now right|]. apply (text_line _ [cr; nl]); [apply B; right; right; now left|now right|exact N3].
  - apply (text_line #"start:" [nl]); [apply B; now left|now left|]. apply (text_line [] [cr; nl]); [apply B; right; now left|now right|]. apply (text_line _ [nl]); [apply B; right; right; now left|now left|exact N1].
  - eexists. split; [vm_compute; reflexivity|vm_compute; reflexivity].
Qed.

Example numbers_case : exists s es, text_of [ #"nop"; #"foo" ] s /\ assemble (mk_runtime true (fun l => l)) (mk_mipsasm 0 [] false) s = Err es /\ map error_line es = [mk_line 2 #"foo"].
Proof.
  exists (#"nop" ++ [cr; nl] ++ #"foo" ++ [cr; nl] ++ []). eexists. split; [|split; [vm_compute; reflexivity|reflexivity]].
  apply text_line; [apply bare_by; reflexivity|now right|]. apply text_line; [apply bare_by; reflexivity|now right|constructor].
Qed.

Print Assumptions C69_line_ends.
Print Assumptions C69_numbers.
