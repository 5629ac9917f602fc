(** * PropsReassemble: which listings assemble, and what they then assemble to (C82). *)

From Coq Require Import Lia Permutation.
From Verif Require Import PropsDisasm PropsAsm RefProofs RoundProofs Lib SpecIsa SpecListing StrLemmas NumLemmas DecodeProofs InjProofs TextProofs CodingProofs ExactProofs RoundExact LossProofs PropsLoss PropsExact Reassemble
  SpecProgram SpecExact SpecReassemble.

(** The listing of the words [ws] from [base], assembled again. *)
Definition assembles_to (oc : bool) (rt : runtime) (base : Z) (ws ws' : list Z) : Prop :=
  exists ls out, disassemble oc (debug_at base) ws = Ok ls /\ assemble rt (set_base base m_new) (join [nl] ls) = Ok out /\ get_bytes out = ws'.

(** C82: exactly which listings assemble, and to exactly which words. *)
Theorem C82_exact oc rt base ws ws' : orders rt -> is_word base -> Forall is_word ws -> base + 4 * Z.of_nat (List.length ws) < 2 ^ 32 ->
  (assembles_to oc rt base ws ws' <-> Forall (acceptable base (List.length ws)) ws /\ ws' = reassembled_from base 0 ws).
Proof.
  intros Or B W L. assert (D := shown_listing oc base _ ws B W eq_refl).
  assert (If : Forall (acceptable base (List.length ws)) ws -> exists out, assemble rt (set_base base m_new) (join [nl] (map (shown_text base) ws)) = Ok out /\ get_bytes out = reassembled_from base 0 ws)
    by (intros Acc; now apply listing_accepted).
  split.
  - intros (ls & out & D' & A & G). unfold debug_at in D'. rewrite D in D'. injection D' as <-.
    assert (El : lines (join [nl] (map (shown_text base) ws)) = map (shown_text base) ws).
    { apply lines_join_proper; apply Forall_forall; intros l I; apply in_map_iff in I as (w & <- & I); rewrite Forall_forall in W;
      destruct (shown_line base w (W w I) B) as (_ & Cl & Ne); [now apply clear_proper|exact Ne]. }
    assert (Acc := listing_acceptable rt base ws _ out B W El A). split; [exact Acc|]. destruct (If Acc) as (out' & A' & G').
    rewrite A in A'. injection A' as <-. congruence.
  - intros [Acc ->]. destruct (If Acc) as (out & A & G). exists (map (shown_text base) ws), out. auto.
Qed.

(** The words of a listing that assembles are as many as those it was made from. *)
Lemma reassembled_length base : forall ws i, List.length (reassembled_from base i ws) = List.length ws.
Proof. induction ws as [|w ws IH]; intros i; [reflexivity|]. cbn [reassembled_from List.length]. now rewrite IH. Qed.
Corollary C82_length oc rt base ws ws' : orders rt -> is_word base -> Forall is_word ws -> base + 4 * Z.of_nat (List.length ws) < 2 ^ 32 ->
  assembles_to oc rt base ws ws' -> List.length ws' = List.length ws.
Proof. intros Or B W L A. apply (C82_exact oc rt base ws ws' Or B W L) in A as [_ ->]. apply reassembled_length. Qed.

(** One word whose line is data, a branch elsewhere or too large a code: the whole listing is refused. *)
Corollary C82_one_bad_word oc rt base ws1 w ws2 ws' : orders rt -> is_word base -> Forall is_word (ws1 ++ w :: ws2) -> base + 4 * Z.of_nat (List.length (ws1 ++ w :: ws2)) < 2 ^ 32 ->
  ~ acceptable base (List.length (ws1 ++ w :: ws2)) w -> ~ assembles_to oc rt base (ws1 ++ w :: ws2) ws'.
Proof. intros Or B W L N A. apply (C82_exact oc rt base _ ws' Or B W L) in A as [A _]. apply Forall_app in A as [_ A]. inversion A. contradiction. Qed.

(** A word that is neither a branch nor a jump becomes the one its line stands for, wherever it is. *)
Definition plain_word (w : Z) : Prop := ~ branch_word w /\ ~ jump_word_26 w.
Lemma no_branch_kind w : ~ branch_word w -> has_kind is_branch16 w = false.
Proof. intros N. apply Bool.not_true_iff_false. intros X. apply has_kind_in in X as (f & o & R & I & K). apply N. exists f. destruct o; try discriminate K. auto. Qed.
Lemma no_jump_kind w : ~ jump_word_26 w -> has_kind is_target26 w = false.
Proof. intros N. apply Bool.not_true_iff_false. intros X. apply has_kind_in in X as (f & o & R & I & K). apply N. exists f. destruct o; try discriminate K. auto. Qed.
Corollary C82_plain base i w : plain_word w -> reassembled base i w = shown_as base w.
Proof. intros [N M]. unfold reassembled. now rewrite no_branch_kind, no_jump_kind. Qed.
Lemma plain_words base ws i : Forall plain_word ws -> reassembled_from base i ws = map (shown_as base) ws.
Proof. intros P. revert i. induction P as [|w ws Pw P IH]; intros i; [reflexivity|]. cbn [reassembled_from map]. now rewrite C82_plain, IH. Qed.

Lemma shown_as_word base w : is_word base -> is_word w -> is_word (shown_as base w).
Proof.
  intros B W. destruct (read_word w) as [f|] eqn:R.
  - destruct (text f (shown_operands base w (f_ops f))) as [t|] eqn:T; [exact (proj1 (shown_as_reads base B w f t W R T))|unfold shown_as; now rewrite R, T].
  - unfold shown_as. rewrite R. destruct (num_assoc (field w 0 6) tlb_names); [|exact W]. destruct ((field w 26 6 =? 16) && (field w 25 1 =? 0))%bool; [|exact W].
    assert (F := field_bound w 0 6 ltac:(lia)). unfold is_word. lia.
Qed.
(** So without branches and jumps a second listing is the first one: disassembling what the listing
    assembles to shows the same lines, and assembles to the same words again. *)
Theorem C82_stable oc rt base ws ws' : orders rt -> is_word base -> Forall is_word ws -> base + 4 * Z.of_nat (List.length ws) < 2 ^ 32 -> Forall plain_word ws ->
  assembles_to oc rt base ws ws' -> disassemble oc (debug_at base) ws' = disassemble oc (debug_at base) ws.
Proof.
  intros Or B W L P A. apply (C82_exact oc rt base ws ws' Or B W L) in A as [_ ->]. rewrite plain_words by exact P.
  assert (W' : Forall is_word (map (shown_as base) ws)) by (apply Forall_map; rewrite Forall_forall in *; intros w I; apply shown_as_word; auto).
  rewrite (C02_every_word oc base (debug_at base) ws B W eq_refl), (C02_every_word oc base (debug_at base) _ B W' eq_refl). f_equal. rewrite map_map.
  apply map_ext_in. intros w I. rewrite Forall_forall in W. apply C09_same_line; auto.
Qed.

(** In general it is not: a jump beyond the first 64 MiB of its segment, and a branch, change. *)
Definition C82_stable_full : Prop := forall oc rt base ws ws', orders rt -> is_word base -> Forall is_word ws -> base + 4 * Z.of_nat (List.length ws) < 2 ^ 32 ->
  assembles_to oc rt base ws ws' -> disassemble oc (debug_at base) ws' = disassemble oc (debug_at base) ws.
Lemma far_jump : Forall (acceptable 0 1) [0x09000000] /\ reassembled_from 0 0 [0x09000000] = [0x08000000].
Proof.
  split; [constructor; [|constructor]|vm_compute; reflexivity]. split; [vm_compute; discriminate|]. split; intros (f & R & I); exfalso; vm_compute in R; injection R as <-; destruct I as [X|[]]; discriminate X.
Qed.
Theorem C82_stable_refuted : ~ C82_stable_full.
Proof.
  intros H. set (rt := mk_runtime true (fun l => l)). assert (Or : orders rt) by (intros l; apply Permutation_refl).
  assert (W : Forall is_word [0x09000000]) by (constructor; [unfold is_word; lia|constructor]).
  assert (A : assembles_to true rt 0 [0x09000000] [0x08000000]).
  { apply C82_exact; auto; [unfold is_word; lia|cbn; lia|]. destruct far_jump as [X Y]. split; [exact X|now symmetry]. }
  assert (X := H true rt 0 _ _ Or ltac:(unfold is_word; lia) W ltac:(cbn; lia) A). vm_compute in X. discriminate X.
Qed.

(** Cases. A function of a few plain words; a jump and a branch that change; a branch that is refused;
    a code over 16 bits; an unassigned word. *)
Example C82_plain_case oc rt : orders rt -> assembles_to oc rt 0x80000000 [0x27bdffe0; 0x0000004f; 0x24087fff; 0x03e00008] [0x27bdffe0; 0x0000000f; 0x24088001; 0x03e00008].
Proof.
  intros Or. apply C82_exact; auto; [unfold is_word; lia|repeat (constructor; [unfold is_word; lia|]); constructor|cbn; lia|]. split; [|vm_compute; reflexivity].
  repeat (constructor; [split; [vm_compute; discriminate|]; split; intros (f & R & K); exfalso; vm_compute in R; injection R as <-; repeat (destruct K as [K|K]; [discriminate K|]); destruct K|]). constructor.
Qed.
Example C82_branch_case oc rt : orders rt -> assembles_to oc rt 0 [0x11000008; 0x00000000; 0x00000000] [0x11000001; 0x00000000; 0x00000000].
Proof.
  intros Or. apply C82_exact; auto; [unfold is_word; lia|repeat (constructor; [unfold is_word; lia|]); constructor|cbn; lia|]. split; [|vm_compute; reflexivity].
  constructor; [|repeat (constructor; [split; [vm_compute; discriminate|]; split; intros (f & R & K); exfalso; vm_compute in R; injection R as <-; repeat (destruct K as [K|K]; [discriminate K|]); destruct K|]); constructor].
  split; [vm_compute; discriminate|]. split; [intros _; change (field 0x11000008 0 16) with 8; cbn; lia|]. intros (f & R & K). exfalso. vm_compute in R. injection R as <-. repeat (destruct K as [K|K]; [discriminate K|]); destruct K.
Qed.
Example C82_branch_refused oc rt ws' : orders rt -> ~ assembles_to oc rt 0x80000000 [0x11000008; 0x00000000; 0x00000000] ws'.
Proof.
  intros Or. apply (C82_one_bad_word oc rt _ [] _ [_; _]); auto; [unfold is_word; lia|cbn [app]; repeat (constructor; [unfold is_word; lia|]); constructor|cbn; lia|].
  intros (_ & Br & _). destruct Br as [_ Br]; [|change (field 0x11000008 0 16) with 8 in Br; lia]. destruct (read_word 0x11000008) as [f|] eqn:R; [|vm_compute in R; discriminate R].
  exists f. split; [exact R|]. vm_compute in R. injection R as <-. cbn. tauto.
Qed.
Example C82_code_refused oc rt ws' : orders rt -> ~ assembles_to oc rt 0 [0x0040000d] ws'.
Proof.
  intros Or. apply (C82_one_bad_word oc rt _ [] _ []); auto; [unfold is_word; lia|cbn [app]; repeat (constructor; [unfold is_word; lia|]); constructor|cbn; lia|].
  intros (_ & _ & Cd). assert (X : field 0x0040000d 6 20 < 2 ^ 16); [|vm_compute in X; discriminate X]. apply Cd. destruct (read_word 0x0040000d) as [f|] eqn:R; [|vm_compute in R; discriminate R].
  exists f. split; [exact R|]. vm_compute in R. injection R as <-. cbn. tauto.
Qed.
Example C82_data_refused oc rt ws' : orders rt -> ~ assembles_to oc rt 0 [0x00000000; 0x00000001] ws'.
Proof.
  intros Or. apply (C82_one_bad_word oc rt _ [0] _ []); auto; [unfold is_word; lia|cbn [app]; repeat (constructor; [unfold is_word; lia|]); constructor|cbn; lia|].
  intros (Sh & _). vm_compute in Sh. destruct Sh as (_ & X & _). discriminate X.
Qed.
Print Assumptions C82_exact.
Print Assumptions C82_length.
Print Assumptions C82_one_bad_word.
Print Assumptions C82_stable.
Print Assumptions C82_stable_refuted.
