(** * PropsLoss: exactly which words share a line (C09), and what a listing keeps of its words. *)

From Coq Require Import Lia.
From Verif Require Import PropsDisasm PropsAsm Lib SpecIsa ExactProofs LossProofs PropsExact SpecProgram SpecExact.

(** C09, for all words: two words have the same line exactly if they stand for the same word, which is
    [shown_as]: the word with its unused fields cleared and 0x7fff taken as 0x8001. *)
Theorem C09_same_word base w1 w2 : is_word base -> is_word w1 -> is_word w2 ->
  (shown_text base w1 = shown_text base w2 <-> shown_as base w1 = shown_as base w2).
Proof. intros B. now apply same_line_iff. Qed.

(** And the word a line stands for has that line itself: nothing more is lost by replacing the word. *)
Theorem C09_same_line base w : is_word base -> is_word w -> shown_text base (shown_as base w) = shown_text base w.
Proof. intros B. now apply same_line. Qed.

(** So two lists of words disassemble to the same listing exactly if they agree word for word up to that. *)
Theorem C09_exact oc base ws1 ws2 : is_word base -> Forall is_word ws1 -> Forall is_word ws2 ->
  ((exists ls, disassemble oc (debug_at base) ws1 = Ok ls /\ disassemble oc (debug_at base) ws2 = Ok ls)
   <-> map (shown_as base) ws1 = map (shown_as base) ws2).
Proof.
  intros B W1 W2.
  assert (E1 := C02_every_word oc base (debug_at base) ws1 B W1 eq_refl).
  assert (E2 := C02_every_word oc base (debug_at base) ws2 B W2 eq_refl).
  rewrite E1, E2. transitivity (map (shown_text base) ws1 = map (shown_text base) ws2).
  { split; [intros (ls & X & Y)|intros X; exists (map (shown_text base) ws1); rewrite X; auto]. congruence. }
  clear E1 E2. revert ws2 W2. induction W1 as [|w1 ws1 Hw1 W1 IH]; intros [|w2 ws2] W2; cbn [map]; try (split; intros X; discriminate X || reflexivity).
  inversion W2 as [|? ? Hw2 W2']; subst. specialize (IH ws2 W2'). assert (X := C09_same_word base w1 w2 B Hw1 Hw2).
  split; intros E; apply (f_equal (fun l => (hd_error l, tl l))) in E; cbn [hd_error tl] in E;
    apply pair_equal_spec in E as [E1 E2]; [apply (f_equal (fun o => match o with Some x => x | None => [] end)) in E1|apply (f_equal (fun o => match o with Some x => x | None => 0 end)) in E1];
    f_equal; tauto.
Qed.

(** Cases: the two readings of -0x7fff, two shift-by-zero words with junk in an unused field, and a reserved word of coprocessor 0. *)
Example C09_largest : shown_text 0 0x20007fff = shown_text 0 0x20008001 /\ shown_as 0 0x20007fff = 0x20008001.
Proof. split; vm_compute; reflexivity. Qed.
Example C09_unused : shown_text 0 0x0000004f = shown_text 0 0x0000000f /\ shown_as 0 0x0000004f = 0x0000000f.
Proof. split; vm_compute; reflexivity. Qed.
Example C09_reserved : shown_text 0 0x40600001 = #"tlbr" /\ shown_as 0 0x40600001 = 0x42000001.
Proof. split; vm_compute; reflexivity. Qed.
Example C09_kept : shown_as 0 0x27bdffe0 = 0x27bdffe0 /\ shown_as 0 0x8fbf0014 = 0x8fbf0014.
Proof. split; vm_compute; reflexivity. Qed.
Example C09_apart oc : ~ exists ls, disassemble oc (debug_at 0) [0x20007fff] = Ok ls /\ disassemble oc (debug_at 0) [0x20007ffe] = Ok ls.
Proof. rewrite (C09_exact oc 0 [0x20007fff] [0x20007ffe]); [vm_compute; discriminate|unfold is_word; lia|repeat constructor; unfold is_word; lia..]. Qed.
Print Assumptions C09_same_word.
Print Assumptions C09_same_line.
Print Assumptions C09_exact.
