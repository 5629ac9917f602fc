(** * PropsTotal: exactly which default-mode disassemblies panic (C06). *)

From Coq Require Import Lia.
From Verif Require Import Lib SpecIsa SpecListing DisasmProofs DisasmMore TotalProofs.

(** The listing panics exactly if some word is a [j] to the address of a symbol, and is not the delay slot
    of a word that leaves its function. [c] marks those delay slots, as in C07. *)
Theorem C06_exact oc m ws c : m_debug m = false -> is_word (m_base m) -> Forall is_word ws -> m_base m + 4 * Z.of_nat (List.length ws) <= 2 ^ 32 ->
  good_cuts (m_base m) ws c ->
  ((exists p, disassemble oc m ws = Panic p)
   <-> exists i w name, nth_error ws i = Some w /\ c i = false /\ field w 26 6 = 2 /\ In (jump_address (m_base m) w, name) (m_syms m)).
Proof.
  intros D B W L C. assert (X := listing_exact oc m ws c D B W L C). destruct (disassemble_fine oc m ws B W) as [[ls E]|[p E]]; rewrite E in *.
  - split; [intros [p P]; discriminate P|]. intros (i & w & n & N & Ci & J & S). exfalso. apply (proj1 X (ex_intro _ ls eq_refl) i w N Ci). split; [exact J|]. now exists n.
  - split; [intros _|intros _; eauto].
    destruct (existsb (fun i => negb (c i) && match nth_error ws i with Some w => (field w 26 6 =? 2) && match sym_get (jump_address (m_base m) w) (m_syms m) with Some _ => true | None => false end | None => false end) (seq 0 (List.length ws))) eqn:Ex.
    + apply existsb_exists in Ex as (i & _ & H). apply andb_true_iff in H as [Ci H]. apply negb_true_iff in Ci. destruct (nth_error ws i) as [w|] eqn:N; [|discriminate H].
      apply andb_true_iff in H as [J H]. apply Z.eqb_eq in J. destruct (sym_get (jump_address (m_base m) w) (m_syms m)) as [n|] eqn:S; [|discriminate H].
      exists i, w, n. split; [exact N|]. split; [exact Ci|]. split; [exact J|]. now apply ListingProofs.sym_get_some.
    + exfalso. assert (Y : exists ls, Panic (E := str) (A := list str) p = Ok ls); [|destruct Y as [ls Y]; discriminate Y]. apply X. intros i w N Ci [J [n S]].
      assert (Z : existsb (fun i => negb (c i) && match nth_error ws i with Some w => (field w 26 6 =? 2) && match sym_get (jump_address (m_base m) w) (m_syms m) with Some _ => true | None => false end | None => false end) (seq 0 (List.length ws)) = true); [|congruence].
      apply existsb_exists. exists i. split; [apply in_seq; assert (i < List.length ws)%nat by (apply nth_error_Some; congruence); lia|]. rewrite Ci, N. cbn [negb andb].
      apply Z.eqb_eq in J. rewrite J. cbn [andb]. destruct (sym_get (jump_address (m_base m) w) (m_syms m)) eqn:G; [reflexivity|]. rewrite ListingProofs.sym_get_none in G. destruct (G n S).
Qed.

(** There are always such marks, and only one choice of them: the exception of the delay slots is decided by the words. *)
Theorem C06_marks base ws : exists c, good_cuts base ws c /\ forall d, good_cuts base ws d -> forall i, (i < List.length ws)%nat -> d i = c i.
Proof.
  exists (ListingProofs.cuts (set_base base m_new) ws). assert (X := ListingProofs.cuts_good (set_base base m_new) ws). split; [exact X|].
  intros d D i L. exact (good_cuts_unique base ws d _ D X i L).
Qed.

(** Panic and success are the only outcomes. *)
Theorem C06_outcomes oc m ws : is_word (m_base m) -> Forall is_word ws -> (exists ls, disassemble oc m ws = Ok ls) \/ (exists p, disassemble oc m ws = Panic p).
Proof. apply disassemble_fine. Qed.

(** Cases: the same [j] to a symbol, as an ordinary instruction and in the delay slot of a [jr]. *)
Example C06_exact_panics oc : exists p, disassemble oc (set_symbols [(16, #"f")] m_new) [0x08000004] = Panic p.
Proof. eexists. destruct oc; vm_compute; reflexivity. Qed.
Example C06_exact_slot oc : disassemble oc (set_symbols [(16, #"f")] m_new) [0x03e00008; 0x08000004] = Ok [ #"func_00000000:"; #"jr         $ra"; #"j          f"].
Proof. destruct oc; vm_compute; reflexivity. Qed.
Print Assumptions C06_exact.
Print Assumptions C06_marks.
Print Assumptions C06_outcomes.
