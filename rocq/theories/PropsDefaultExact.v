(** * PropsDefaultExact: exactly which default-mode listings come back (C04). *)

From Coq Require Import Lia.
From Verif Require Import Lib SpecIsa SpecText SpecProgram SpecListing SpecExact SpecDefault RoundProofs DefaultProofs PropsAsm PropsExact PropsTotal PropsDefault DefaultExact.

(** With any symbol table: the default-mode listing of some words, assembled again by the same machine,
    gives the same words. *)
Definition symbol_listing_comes_back (oc : bool) (rt : runtime) (m : mipsasm) (ws : list Z) : Prop :=
  exists ls out, disassemble oc m ws = Ok ls /\ assemble rt m (join [nl] ls) = Ok out /\ get_bytes out = ws.
(** That is so exactly if each word comes back by itself, none is a float comparison whose text has a
    tab, and no word is a [j] to a symbol except in the delay slot of a word that leaves its function
    ([c] marks those delay slots, as in C07). *)
Theorem C04_symbols_exact oc rt m ws c : m_debug m = false -> readable (m_syms m) -> is_word (m_base m) -> Forall is_word ws ->
  m_base m + 4 * Z.of_nat (List.length ws) <= 2 ^ 32 -> (32768 <= m_base m \/ Forall (fun w => ~ branch_word w) ws) -> good_cuts (m_base m) ws c ->
  (symbol_listing_comes_back oc rt m ws <->
    Forall (returns (m_base m)) ws /\ Forall tab_free ws
    /\ (forall i w n, nth_error ws i = Some w -> field w 26 6 = 2 -> In (jump_address (m_base m) w, n) (m_syms m) -> c i = true)).
Proof.
  intros D Rd B W L Hb C. assert (X := C06_exact oc m ws c D B W L C). split.
  - intros (ls & out & Di & A & G). destruct (default_back oc rt m ws ls out D Rd B W L Hb Di A G) as [R T]. split; [exact R|]. split; [exact T|].
    intros i w n N K I. destruct (c i) eqn:E; [reflexivity|]. exfalso. destruct (proj2 X) as [p P]; [now exists i, w, n|]. rewrite Di in P. discriminate P.
  - intros (R & T & J). destruct (C06_outcomes oc m ws B W) as [[ls Di]|P].
    + destruct (default_returns oc rt m ws ls D B W L R T Rd Di) as (out & A & G). now exists ls, out.
    + exfalso. apply X in P as (i & w & n & N & E & K & I). rewrite (J i w n N K I) in E. discriminate E.
Qed.

(** Without a symbol table: the default-mode listing of some words, assembled again at the same base
    address, gives the same words. *)
Definition listing_comes_back (oc : bool) (rt : runtime) (base : Z) (ws : list Z) : Prop :=
  exists ls out, disassemble oc (set_base base m_new) ws = Ok ls /\ assemble rt (set_base base m_new) (join [nl] ls) = Ok out /\ get_bytes out = ws.

(** That is so exactly if each word comes back by itself and is no float comparison whose text has a
    tab: neither the labels of the listing nor the other words matter. *)
Theorem C04_exact oc rt base ws : is_word base -> Forall is_word ws -> base + 4 * Z.of_nat (List.length ws) <= 2 ^ 32 ->
  (32768 <= base \/ Forall (fun w => ~ branch_word w) ws) ->
  (listing_comes_back oc rt base ws <-> Forall (returns base) ws /\ Forall tab_free ws).
Proof.
  intros B W L Hb. split.
  - intros (ls & out & D & A & G). refine (default_back oc rt (set_base base m_new) ws ls out eq_refl _ B W L Hb D A G). split; [constructor|constructor|intros a n []|intros a n []].
  - intros [R T]. exact (C04_plain_partial oc rt base ws B W L R T).
Qed.
(** So a default-mode listing comes back exactly if the debug-mode one does and has no such comparison. *)
Corollary C04_debug oc rt base ws : is_word base -> Forall is_word ws -> base + 4 * Z.of_nat (List.length ws) <= 2 ^ 32 ->
  (32768 <= base \/ Forall (fun w => ~ branch_word w) ws) ->
  (listing_comes_back oc rt base ws <-> comes_back oc rt base ws /\ Forall tab_free ws).
Proof. intros B W L Hb. rewrite (C04_exact oc rt base ws B W L Hb), (C03_exact oc rt base ws B W Hb). reflexivity. Qed.
(** One word that does not come back is enough. *)
Corollary C04_one_bad_word oc rt base ws1 w ws2 : is_word base -> Forall is_word (ws1 ++ w :: ws2) -> base + 4 * Z.of_nat (List.length (ws1 ++ w :: ws2)) <= 2 ^ 32 -> 32768 <= base ->
  ~ returns base w \/ ~ tab_free w -> ~ listing_comes_back oc rt base (ws1 ++ w :: ws2).
Proof.
  intros B W L Hb N C. apply C04_exact in C as [R T]; auto. apply Forall_app in R as [_ R]. apply Forall_app in T as [_ T]. inversion R; inversion T; subst. tauto.
Qed.

(** Both kinds of words. *)
Definition C04_words : list Z := [0x27bdffe0; 0x0c00a3f4; 0x00000000; 0x03e00008; 0x27bd0020; 0x46062039; 0x3c01ffff].
Example C04_exact_good oc rt : listing_comes_back oc rt 0x80000000 C04_words.
Proof. destruct C04_case as (W & R & T & _). apply C04_exact; [unfold is_word; lia|exact W|unfold C04_words; cbn; lia|left; lia|split; [exact R|exact T]]. Qed.
Example C04_exact_tab : returns 0x80000000 0x46062032 /\ ~ tab_free 0x46062032.
Proof.
  split.
  - eapply returns_by; [vm_compute; reflexivity|vm_compute; discriminate|vm_compute; reflexivity|vm_compute; reflexivity| |vm_compute; discriminate];
      repeat (constructor; [split; [cbn; lia|cbn; try exact I; try lia]|]); constructor.
  - intros T. assert (X := T _ eq_refl). vm_compute in X. discriminate (X eq_refl).
Qed.
(** With symbols: a call of one symbol, and a [j] to another in the delay slot of the [jr]. *)
Definition C04_slot_machine : mipsasm := set_symbols [(0x80028fd0, #"memcpy"); (0x80000014, #"next")] (set_base 0x80000000 m_new).
Definition C04_slot_words : list Z := [0x0c00a3f4; 0x00000000; 0x03e00008; 0x08000005; 0x00000000].
Example C04_symbols_good oc rt : symbol_listing_comes_back oc rt C04_slot_machine C04_slot_words.
Proof.
  destruct (C06_marks 0x80000000 C04_slot_words) as (c & C & _).
  assert (W : Forall is_word C04_slot_words) by (repeat (constructor; [unfold is_word; lia|]); constructor).
  destruct (C04_case) as (_ & _ & _ & Rd & _).
  assert (T : exists ls, disassemble oc C04_slot_machine C04_slot_words = Ok ls) by (eexists; destruct oc; vm_compute; reflexivity).
  apply (C04_symbols_exact oc rt C04_slot_machine C04_slot_words c); [reflexivity|exact Rd|unfold is_word; cbn; lia|exact W|cbn; lia|left; cbn; lia|exact C|].
  split; [|split].
  - unfold C04_slot_words. repeat (constructor; [eapply returns_by; [vm_compute; reflexivity|vm_compute; discriminate|vm_compute; reflexivity|vm_compute; reflexivity| |vm_compute; discriminate];
      repeat (constructor; [split; [cbn; lia|cbn; try exact I; try lia]|]); constructor|]). constructor.
  - unfold C04_slot_words. repeat (constructor; [intros f R; vm_compute in R; injection R as <-; vm_compute; discriminate|]). constructor.
  - intros i w n N K I. destruct (c i) eqn:E; [reflexivity|exfalso].
    destruct (proj2 (C06_exact oc C04_slot_machine C04_slot_words c eq_refl ltac:(unfold is_word; cbn; lia) W ltac:(cbn; lia) C)) as [p P]; [now exists i, w, n|].
    destruct T as [ls T]. rewrite T in P. discriminate P.
Qed.
Print Assumptions C04_symbols_exact.
Print Assumptions C04_exact.
Print Assumptions C04_debug.
Print Assumptions C04_one_bad_word.
