(** * PropsReport: what the reports say, word for word (C83). *)

From Verif Require Import Lib ShowProofs SpecShow SpecReport ReportProofs.

(** The text an error is displayed as, once its colour sequences are taken out, is exactly the report of
    the specification: the headline, and the line (two lines for a label defined twice) with its number, the
    offending text underlined and the note. *)
Definition C83_full : Prop :=
  (forall p t, show_error p = Ok t -> exists s, colored t s /\ report p s)
  /\ (forall w t, show_warning w = Ok t -> exists s, colored t s /\ warning_report w s).

Theorem C83_errors p t : show_error p = Ok t -> exists s, colored t s /\ report p s.
Proof. exact (error_report p t). Qed.
Theorem C83_warnings w t : show_warning w = Ok t -> exists s, colored t s /\ warning_report w s.
Proof. exact (warning_shown w t). Qed.
Theorem C83_reports : C83_full.
Proof. exact (conj error_report warning_shown). Qed.

(** Nothing else fits: there is one report of an error, and one of a warning. *)
Lemma first_unique u s i j : first_at u s i -> first_at u s j -> i = j.
Proof.
  intros ((a & b & E & L) & M) ((c & d & F & K) & N).
  pose proof (M c d F) as P. pose proof (N a b E) as Q. rewrite <- L, <- K in *. apply PeanoNat.Nat.le_antisymm; assumption.
Qed.
Lemma picture_unique w lead ln u mark msg p q : picture w lead ln u mark msg p -> picture w lead ln u mark msg q -> p = q.
Proof. intros (i & F & ->) (j & G & ->). now rewrite (first_unique u _ i j F G). Qed.
Theorem C83_unique p s s' : report p s -> report p s' -> s = s'.
Proof.
  unfold report. destruct (about p) as [l u]. destruct p; cbv zeta;
    try (intros (a & A & ->) (b & B & ->); now rewrite (picture_unique _ _ _ _ _ _ _ _ A B)).
  intros (a & b & A & B & ->) (c & d & C & D & ->).
  now rewrite (picture_unique _ _ _ _ _ _ _ _ A C), (picture_unique _ _ _ _ _ _ _ _ B D).
Qed.
Theorem C83_unique_warning w s s' : warning_report w s -> warning_report w s' -> s = s'.
Proof.
  destruct w; unfold warning_report;
    try (intros (a & A & ->) (b & B & ->); now rewrite (picture_unique _ _ _ _ _ _ _ _ A B)).
  intros (a & b & A & B & ->) (c & d & C & D & ->).
  now rewrite (picture_unique _ _ _ _ _ _ _ _ A C), (picture_unique _ _ _ _ _ _ _ _ B D).
Qed.

(** And whenever there is a report, it is displayed. *)
Lemma picture_occurs w lead ln u mark msg p : picture w lead ln u mark msg p -> occurs u (l_content ln).
Proof. intros (n & ((a & b & E & _) & _) & _). now exists a, b. Qed.
Theorem C83_displayed p s : report p s -> exists t, show_error p = Ok t /\ colored t s.
Proof.
  intros R. assert (exists t, show_error p = Ok t) as (t & E).
  { apply show_error_iff. intros ln u mark I. revert R. unfold report. destruct p as [l x f|l x|l|l e k x|l x|l x|l x|l x|l x|l x [lo hi]|l x|l x]; cbn [about quotes In] in *; cbv zeta.
    1: intros (a & b & A & B & _).
    2-12: intros (a & A & _).
    all: repeat match type of I with _ \/ _ => destruct I as [I|I] end; try contradiction I; injection I as <- <- <-;
      first [exact (picture_occurs _ _ _ _ _ _ _ A)|exact (picture_occurs _ _ _ _ _ _ _ B)]. }
  exists t. split; [exact E|]. destruct (C83_errors p t E) as (s' & C & R'). now rewrite (C83_unique p s s' R R').
Qed.

(** A branch that is too far, on line 12. *)
Definition too_far : perror := EBranchOutOfBounds (mk_line 12 #"  b 0x90000000") #"0x90000000" (2147352580, 2147614720).
Example C83_case : exists t, show_error too_far = Ok t /\ colored t (join [nl]
    [#"error: branch `0x90000000` out of bounds";
     #"   |";
     #"12 |   b 0x90000000";
     #"   |     ^^^^^^^^^^ should be between 0x7ffe0004 and 0x80020000";
     #"   |"; []]).
Proof.
  destruct (show_error too_far) as [t| |] eqn:E; [|vm_compute in E; discriminate E|vm_compute in E; discriminate E].
  exists t. split; [reflexivity|]. destruct (C83_errors too_far t E) as (s & C & R).
  assert (s = join [nl] [#"error: branch `0x90000000` out of bounds";
     #"   |";
     #"12 |   b 0x90000000";
     #"   |     ^^^^^^^^^^ should be between 0x7ffe0004 and 0x80020000";
     #"   |"; []]) as <-; [|exact C].
  destruct R as (a & (n & F & ->) & ->). assert (n = 4%nat) as ->.
  { refine (first_unique _ _ n 4 F _). apply ShowProofs.find_sub_first. vm_compute. reflexivity. }
  vm_compute. reflexivity.
Qed.
Definition slot_warning : pwarning := WDelaySlot (mk_line 9 #" b lbl") (mk_line 11 #" j 0x80000000").
Example C83_case_warning : exists t, show_warning slot_warning = Ok t /\ colored t (join [nl]
    [#"warning: instruction `j 0x80000000` cannot be in a delay slot";
     #"  |";
     #"11 |  j 0x80000000";
     #"  |  ^^^^^^^^^^^^ this instruction cannot be in a delay slot";
     #"  |";
     #"...";
     #"9 |  b lbl";
     #"  |  ----- delay slot occurs after this instruction";
     #"  |"; []]).
Proof.
  destruct (show_warning slot_warning) as [t| |] eqn:E; [|vm_compute in E; discriminate E|vm_compute in E; discriminate E].
  exists t. split; [reflexivity|]. destruct (C83_warnings slot_warning t E) as (s & C & R).
  assert (R' := R). destruct R as (a & b & (n & F & ->) & (k & G & ->) & ->).
  assert (n = 1%nat) as ->.
  { refine (first_unique _ _ n 1 F _). apply ShowProofs.find_sub_first. vm_compute. reflexivity. }
  assert (k = 1%nat) as ->.
  { refine (first_unique _ _ k 1 G _). apply ShowProofs.find_sub_first. vm_compute. reflexivity. }
  exact C.
Qed.

Print Assumptions C83_reports.
Print Assumptions C83_unique.
Print Assumptions C83_displayed.
Print Assumptions C83_unique_warning.
