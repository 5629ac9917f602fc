(** * FlowProofs: programs with branches on the machine (proofs for C72). *)

From Coq Require Import Lia.
From Verif Require Import Lib SpecIsa StrLemmas OperandProofs NativeProofs LineProofs TextProofs ScanProofs ProgProofs AsmProofs SpecMachine MachineProofs ExecProofs
  PseudoProofs CodingProofs CauseProofs BranchProofs LabelProofs CompareProofs SpecText SpecProgram SpecLabels SpecPseudo SpecAccept InsProofs AcceptProofs AcceptLines PropsPseudo PropsLabels SpecSize SizeProofs PropsSize
  SpecRun RunProofs RunLines SpecFlow.

Section Blocks.
Variable odd : Z -> Z.
Hypothesis Od : forall z, 0 <= odd z < 2 ^ 64.

Definition no_branching (w : Z) : Prop := forall st, match exec odd w st with Branch _ _ _ => False | _ => True end.

(** The words of item number [i]. *)
Inductive block (i : nat) : SpecFlow.item -> list Z -> Prop :=
| b_does one M ws : ws <> [] -> (one = true -> exists w, ws = [w] /\ no_branching w) ->
    (forall st, well st -> exists e, M st e /\ ends_with_run odd ws st e) -> block i (Does one M) ws
| b_jumps n (likely : bool) scratch (c : state -> bool) k (ws : list Z) : (1 <= n)%nat -> List.length ws = n ->
    (forall pre post st, well st -> let pc := Z.of_nat (List.length pre) in exists st', same_but scratch st st' /\ well st'
       /\ cycles odd n (pre ++ ws ++ post) (At pc (pc + 1) st)
          = if c st then At (pc + Z.of_nat n) (pc + (Z.of_nat k - Z.of_nat i)) st'
            else if likely then At (pc + Z.of_nat n + 1) (pc + Z.of_nat n + 2) st' else At (pc + Z.of_nat n) (pc + Z.of_nat n + 1) st') ->
    block i (Jumps n likely scratch c k) ws.

Inductive blocks (i : nat) : list SpecFlow.item -> list (list Z) -> Prop :=
| bl_end : blocks i [] []
| bl_more (x : SpecFlow.item) (ws : list Z) (p : list SpecFlow.item) (wss : list (list Z)) : block i x ws -> blocks (S i) p wss -> blocks i (x :: p) (ws :: wss).

Lemma blocks_nth i p wss : blocks i p wss -> forall j x, nth_error p j = Some x -> exists ws, nth_error wss j = Some ws /\ block (i + j) x ws.
Proof.
  induction 1 as [i|i x ws p wss B _ IH]; intros [|j] y E; try discriminate E.
  - injection E as <-. exists ws. rewrite Nat.add_0_r. auto.
  - destruct (IH j y E) as (ws' & A & C). exists ws'. rewrite Nat.add_succ_r. auto.
Qed.
Lemma blocks_length i p wss : blocks i p wss -> List.length wss = List.length p.
Proof. induction 1; cbn [List.length]; congruence. Qed.

(** ** Executing the blocks *)

Variables (p : list SpecFlow.item) (wss : list (list Z)).
Hypothesis Bl : blocks 0 p wss.
Hypothesis Wb : well_branched p.
Let code := List.concat wss.
Let pos i := place_of wss i.

Lemma pos_next i ws : nth_error wss i = Some ws -> pos (S i) = pos i + Z.of_nat (List.length ws).
Proof.
  intros N. unfold pos, place_of. assert (E : firstn (S i) wss = firstn i wss ++ [ws]).
  { clear - N. revert i N. induction wss as [|x l IH]; intros [|i] N; try discriminate N; [injection N as <-; reflexivity|]. cbn [nth_error] in N. cbn [firstn app]. f_equal. now apply IH. }
  rewrite E, concat_app, app_length. cbn [List.concat]. rewrite app_nil_r. lia.
Qed.
Lemma pos_end : pos (List.length p) = Z.of_nat (List.length code).
Proof. unfold pos, place_of, code. now rewrite <- (blocks_length _ _ _ Bl), firstn_all. Qed.
Lemma code_at i ws : nth_error wss i = Some ws -> exists post, code = List.concat (firstn i wss) ++ ws ++ post.
Proof. apply concat_at. Qed.

Lemma one_word_length i x ws : block i x ws -> one_word x -> List.length ws = 1%nat.
Proof.
  intros [one M ws' _ H _|n likely sc c k ws' _ L _] O; cbn [one_word] in O; [|congruence]. destruct (H O) as (w & -> & _). reflexivity.
Qed.
(** Over one-word items. *)
Lemma pos_span a b : (a <= b <= List.length p)%nat -> (forall j x, (a <= j < b)%nat -> nth_error p j = Some x -> one_word x) -> pos b = pos a + (Z.of_nat b - Z.of_nat a).
Proof.
  intros [L B] H. remember (b - a)%nat as n eqn:E. revert b B L H E. induction n as [|n IH]; intros b B L H E; [replace b with a by lia; lia|].
  destruct b as [|b]; [lia|]. assert (X : pos b = pos a + (Z.of_nat b - Z.of_nat a)) by (apply IH; [lia|lia| |lia]; intros j x J; apply H; lia).
  destruct (nth_error p b) as [x|] eqn:N; [|apply nth_error_None in N; lia]. destruct (blocks_nth _ _ _ Bl b x N) as (ws & Nw & Bx).
  rewrite (pos_next b ws Nw), X, (one_word_length _ _ _ Bx (H b x ltac:(lia) N)). lia.
Qed.

(** The machine is at the configuration. *)
Definition matches (c : config) (s : status) : Prop :=
  match c with
  | Here i j st => well st /\ (i <= List.length p)%nat /\ exists npc, s = At (pos i) npc st
      /\ ((j = S i /\ npc = pos i + 1) \/ ((j <= List.length p)%nat /\ npc = pos j /\ exists M, nth_error p i = Some (Does true M)))
  | Over (Stops x) => exists st, s = Raised x st
  | Over _ => True
  end.

Lemma lift n ws post pre st s : cycles odd n ws (At 0 1 st) = s -> s <> Lost ->
  cycles odd n (pre ++ ws ++ post) (At (Z.of_nat (List.length pre)) (Z.of_nat (List.length pre) + 1) st) = shifted (Z.of_nat (List.length pre)) s.
Proof.
  intros E N. assert (X := cycles_inside odd pre ws post n (At 0 1 st)). rewrite E in X. cbn [shifted] in X.
  rewrite <- X by exact N. f_equal. f_equal. lia.
Qed.

(** One word that does not branch does the same everywhere. *)
Lemma one_word_anywhere w st e code' pc npc : no_branching w -> ends_with_run odd [w] st e -> 0 <= pc -> nth_error code' (Z.to_nat pc) = Some w ->
  match e with Goes st' => cycle odd code' (At pc npc st) = At npc (npc + 1) st' | Stops x => cycle odd code' (At pc npc st) = Raised x st | Unspecified => True end.
Proof.
  intros Nb E P N. specialize (Nb st).
  assert (C0 : cycle odd [w] (At 0 1 st) = match exec odd w st with Next st' => At 1 2 st' | Raise x => Raised x st | _ => Lost end).
  { rewrite (cycle_at odd [w] 0 1 st w) by (lia || reflexivity). destruct (exec odd w st); try reflexivity. exfalso. exact Nb. }
  destruct e as [st'|x|]; [| |exact Logic.I]; cbn [ends_with_run] in E; rewrite (cycle_at odd code' pc npc st w P N).
  - destruct E as (n & E). destruct n as [|n]; [cbn in E; discriminate E|]. cbn [cycles] in E. rewrite C0 in E.
    destruct (exec odd w st) as [st1|? ? ?|x|]; [|exfalso; exact Nb|rewrite cycles_raised in E; discriminate E|rewrite cycles_lost in E; discriminate E].
    destruct (cycles_end odd n [w] 2 st1 _ E) as [X|X]; [discriminate X|]. subst n. cbn in E. injection E as ->. reflexivity.
  - destruct E as (n & st' & E). destruct n as [|n]; [cbn in E; discriminate E|]. cbn [cycles] in E. rewrite C0 in E.
    destruct (exec odd w st) as [st1|? ? ?|y|]; [|exfalso; exact Nb|rewrite cycles_raised in E; injection E as -> _; reflexivity|rewrite cycles_lost in E; discriminate E].
    destruct (cycles_end odd n [w] 2 st1 _ E) as [X|X]; [discriminate X|]. subst n. cbn in E. discriminate E.
Qed.

Lemma at_code i ws : nth_error wss i = Some ws -> forall w, ws = [w] -> nth_error code (Z.to_nat (pos i)) = Some w.
Proof.
  intros N w ->. destruct (code_at i [w] N) as (post & ->). unfold pos, place_of. rewrite Nat2Z.id, nth_error_app2, Nat.sub_diag by lia. reflexivity.
Qed.
Lemma pos_nonneg i : 0 <= pos i. Proof. unfold pos, place_of. lia. Qed.

Lemma one_step c s : matches c s -> ~ final p c -> exists c' k, step p c c' /\ (1 <= k)%nat /\ matches c' (cycles odd k code s).
Proof.
  intros Ma Fi. destruct c as [i j st|e]; [|exfalso; apply Fi; exact Logic.I]. cbn [matches final] in *. destruct Ma as (W & Li & npc & -> & Ma).
  destruct (nth_error p i) as [x|] eqn:N; [|apply nth_error_None in N; lia]. destruct (blocks_nth _ _ _ Bl i x N) as (ws & Nw & Bx). cbn [Nat.add] in Bx.
  destruct (code_at i ws Nw) as (post & Ec). assert (Pn := pos_next i ws Nw). assert (Li' : (S i <= List.length p)%nat) by (assert (i < List.length p)%nat by (apply nth_error_Some; congruence); lia).
  destruct Bx as [one M ws Ne One Run|n likely sc c k ws Ln Lw Run].
  - destruct (Run st W) as (e & Me & Ee). destruct Ma as [[-> ->]|(Lj & -> & M' & N')].
    + (* in sequence *)
      destruct e as [st'|x|].
      * destruct Ee as (n & Ee). exists (Here (S i) (S (S i)) st'), n. split; [eapply step_does; eauto|]. split.
        { destruct n as [|n]; [|lia]. cbn [cycles] in Ee. injection Ee as E0 _ _. destruct ws; [congruence|cbn [List.length] in E0; lia]. }
        cbn [matches]. split; [eapply finishes_well; [exact Od|exact W|exists n; exact Ee]|]. split; [exact Li'|].
        exists (pos (S i) + 1). split; [|left; auto]. rewrite Ec. unfold pos at 1 2, place_of. rewrite (lift n ws post _ st _ Ee) by discriminate. cbn [shifted].
        fold (place_of wss i). fold (pos i). rewrite Pn. f_equal; lia.
      * destruct Ee as (n & st' & Ee). exists (Over (Stops x)), n. split; [eapply step_stops; eauto; discriminate|]. split; [destruct n; [discriminate Ee|lia]|].
        cbn [matches]. exists st'. rewrite Ec. unfold pos, place_of. rewrite (lift n ws post _ st _ Ee) by discriminate. reflexivity.
      * exists (Over Unspecified), 1%nat. split; [eapply step_stops; eauto; discriminate|]. split; [lia|exact Logic.I].
    + (* after a branch *)
      assert (E0 : Some (Does one M) = Some (Does true M')) by congruence. injection E0 as E1 _. subst one. destruct (One eq_refl) as (w & -> & Nb).
      assert (X := one_word_anywhere w st e code (pos i) (pos j) Nb Ee (pos_nonneg i) (at_code i [w] Nw w eq_refl)).
      destruct e as [st'|x|].
      * exists (Here j (S j) st'), 1%nat. split; [eapply step_does; eauto|]. split; [lia|]. cbn [cycles]. rewrite X. cbn [matches].
        split; [eapply finishes_well; [exact Od|exact W|exact Ee]|]. split; [exact Lj|]. exists (pos j + 1). split; [reflexivity|left; auto].
      * exists (Over (Stops x)), 1%nat. split; [eapply step_stops; eauto; discriminate|]. split; [lia|]. cbn [cycles matches]. exists st. exact X.
      * exists (Over Unspecified), 1%nat. split; [eapply step_stops; eauto; discriminate|]. split; [lia|exact Logic.I].
  - destruct Ma as [[-> ->]|(_ & _ & M' & N')]; [|congruence]. destruct (Wb i n likely sc c k N) as ((M & Nd) & Lk & _ & Sp).
    destruct (Run (List.concat (firstn i wss)) post st W) as (st' & Sa & W' & Cy). cbv zeta in Cy. rewrite <- Ec in Cy.
    change (Z.of_nat (List.length (List.concat (firstn i wss)))) with (pos i) in Cy. rewrite Lw in Pn. rewrite <- Pn in Cy.
    destruct (blocks_nth _ _ _ Bl (S i) _ Nd) as (wd & Nwd & Bd). assert (Ld := one_word_length _ _ _ Bd eq_refl). assert (Pd := pos_next (S i) wd Nwd). rewrite Ld in Pd.
    assert (Ls : (S (S i) <= List.length p)%nat) by (assert (S i < List.length p)%nat by (apply nth_error_Some; congruence); lia).
    destruct (c st) eqn:Ce.
    + exists (Here (S i) k st'), n. split; [eapply step_taken; eauto|]. split; [exact Ln|]. rewrite Cy. cbn [matches]. split; [exact W'|]. split; [lia|].
      eexists. split; [reflexivity|]. right. split; [exact Lk|]. split; [|eauto].
      destruct (Nat.le_ge_cases k i) as [Le|Le].
      * rewrite (pos_span k i); [lia|lia|]. intros q x Q. apply Sp. lia.
      * rewrite (pos_span i k); [lia|lia|]. intros q x Q. apply Sp. lia.
    + destruct likely.
      * exists (Here (S (S i)) (S (S (S i))) st'), n. split; [eapply step_skips; eauto|]. split; [exact Ln|]. rewrite Cy. cbn [matches]. split; [exact W'|]. split; [lia|].
        exists (pos (S (S i)) + 1). split; [rewrite Pd; f_equal; lia|left; auto].
      * exists (Here (S i) (S (S i)) st'), n. split; [eapply step_not_taken; eauto|]. split; [exact Ln|]. rewrite Cy. cbn [matches]. split; [exact W'|]. split; [lia|].
        eexists. split; [reflexivity|left; auto].
Qed.

Lemma many_steps n : forall c s, matches c s -> exists c' k, steps p n c c' /\ matches c' (cycles odd k code s) /\ (final p c' \/ (n <= k)%nat).
Proof.
  induction n as [|n IH]; intros c s Ma; [exists c, O; split; [constructor|split; [exact Ma|right; lia]]|].
  assert (D : final p c \/ ~ final p c) by (destruct c as [i j st|e]; [cbn [final]; lia|left; exact Logic.I]).
  destruct D as [F|F]; [exists c, O; split; [now apply steps_end|split; [exact Ma|now left]]|].
  destruct (one_step c s Ma F) as (c1 & k1 & S1 & K1 & M1). destruct (IH c1 _ M1) as (c2 & k2 & S2 & M2 & E2). exists c2, (k1 + k2)%nat.
  split; [eapply steps_more; eauto|]. rewrite cycles_add. split; [exact M2|]. destruct E2 as [E2|E2]; [now left|right; lia].
Qed.

Theorem blocks_follow n st : well st -> exists c, steps p n (Here 0 1 st) c /\ machine_follows odd p wss st n c.
Proof.
  intros W. destruct (many_steps n (Here 0 1 st) (At 0 1 st)) as (c & k & S & Ma & E).
  - cbn [matches]. split; [exact W|]. split; [lia|]. exists 1. split; [reflexivity|left; auto].
  - exists c. split; [exact S|]. destruct c as [i j st'|[st'|x|]]; cbn [matches machine_follows] in *; try exact Logic.I.
    + destruct Ma as (W' & Li & npc & Cy & Sq). split.
      * intros ->. destruct Sq as [[-> ->]|(_ & _ & M & N)]; [|exfalso; assert (List.length p < List.length p)%nat by (apply nth_error_Some; congruence); lia].
        exists k. fold code. rewrite Cy, pos_end. reflexivity.
      * intros Ne. exists k, npc. split; [destruct E as [E|E]; [exfalso; exact (Ne E)|exact E]|exact Cy].
    + destruct Ma as (st1 & Ma). exists k, st1. exact Ma.
Qed.
End Blocks.
