(** * CallProofs: programs with functions and memory on the machine (proofs for C74). *)

From Coq Require Import Lia.
From Verif Require Import Lib SpecIsa StrLemmas OperandProofs NativeProofs LineProofs TextProofs ScanProofs ProgProofs AsmProofs SpecMachine MachineProofs ExecProofs
  PseudoProofs CodingProofs CauseProofs BranchProofs LabelProofs CompareProofs SpecText SpecProgram SpecLabels SpecPseudo SpecAccept InsProofs AcceptProofs AcceptLines PropsPseudo PropsLabels SpecSize SizeProofs PropsSize
  SpecRun RunProofs RunLines SpecFlow FlowProofs SpecCalls.

(** ** The machine of [SpecMachine] inside the machine with memory *)

Section Lift.
Variables (odd : Z -> Z) (code : list Z) (base : Z).

Definition image (m : Z -> Z) (s : status) : wstatus :=
  match s with At pc npc st => WAt (base + 4 * pc) (base + 4 * npc) (mk_world st m) | Raised x st => WRaised (Exception x) (mk_world st m) | Lost => WLost end.

Lemma fetch_at i : 0 <= i -> fetch code base (base + 4 * i) = nth_error code (Z.to_nat i).
Proof.
  intros P. unfold fetch. replace (base + 4 * i - base) with (i * 4) by lia. rewrite Z_mod_mult, Z_div_mult by lia.
  replace (base <=? base + 4 * i) with true by (symmetry; apply Z.leb_le; lia). reflexivity.
Qed.
Lemma wcycle_image m s : cycle odd code s <> Lost -> wcycle odd code base (image m s) = image m (cycle odd code s).
Proof.
  intros H. destruct s as [pc npc st|x st|]; [|reflexivity|reflexivity]. cbn [image wcycle]. cbn [cycle] in *.
  destruct (pc <? 0) eqn:P; [congruence|]. apply Z.ltb_ge in P. rewrite fetch_at by lia.
  destruct (nth_error code (Z.to_nat pc)) as [i|]; [|congruence]. cbn [cpu]. destruct (exec odd i st) as [st'|[] lk off|x|]; cbn [image]; unfold with_cpu; cbn [mem]; try congruence; try (f_equal; lia).
  destruct lk; cbn [image]; f_equal; lia.
Qed.
Lemma wcycles_image m n : forall s, cycles odd n code s <> Lost -> wcycles odd code base n (image m s) = image m (cycles odd n code s).
Proof.
  induction n as [|n IH]; intros s H; [reflexivity|]. cbn [cycles wcycles] in *. rewrite wcycle_image; [now apply IH|].
  intros E. rewrite E, cycles_lost in H. congruence.
Qed.
Lemma wcycles_add n k s : wcycles odd code base (n + k) s = wcycles odd code base k (wcycles odd code base n s).
Proof. revert s. induction n as [|n IH]; intros s; [reflexivity|]. cbn [wcycles Nat.add]. apply IH. Qed.
End Lift.

Lemma load_range n m : (forall x, 0 <= m x < 256) -> forall a, 0 <= load n m a < 256 ^ Z.of_nat n.
Proof.
  intros H. induction n as [|n IH]; intros a; [cbn; lia|]. cbn [load]. specialize (IH (a + 1)). assert (Ha := H a).
  replace (Z.of_nat (S n)) with (Z.succ (Z.of_nat n)) by lia. rewrite Z.pow_succ_r by lia. nia.
Qed.
Lemma accessed_well k r b off w w' : (bytes_of k <= 8)%nat -> well_world w -> accessed k r b off w = inr w' -> well_world w'.
Proof.
  intros B [W M] E. unfold accessed in E. cbv zeta in E. destruct (negb _); [discriminate E|]. destruct k as [n s|n]; cbn [bytes_of] in B; injection E as <-.
  - split; [|exact M]. cbn [cpu with_cpu]. apply well_write; [exact W|]. destruct s; [unfold low64; apply Z.mod_pos_bound; lia|].
    assert (L := load_range n (mem w) M (low64 (value (cpu w) b + off))). assert (256 ^ Z.of_nat n <= 256 ^ 8) by (apply Z.pow_le_mono_r; lia). change (256 ^ 8) with (2 ^ 64) in *. lia.
  - split; [exact W|]. intros a. cbn [mem]. unfold store. destruct (_ && _); [apply Z.mod_pos_bound; lia|apply M].
Qed.
Lemma linked_well link a w : well_world w -> well_world (linked link a w).
Proof.
  intros [W M]. destruct link as [r|]; [|split; auto]. cbn [linked]. split; [|exact M]. cbn [cpu with_cpu]. apply well_write; [exact W|]. unfold word32, low64. apply Z.mod_pos_bound. lia.
Qed.

(** ** Blocks *)

Section Blocks.
Variable odd : Z -> Z.
Hypothesis Od : forall z, 0 <= odd z < 2 ^ 64.
Variable base : Z.

Definition leaves (i : Z) (f : Z -> Z -> world -> wstatus) : Prop := (forall st, exec odd i st = Undefined) /\ forall pc npc w, 0 <= pc -> beyond i pc npc w = f pc npc w.

Inductive cblock (i : nat) : citem -> list Z -> Prop :=
| cb_flow x ws : block odd i x ws -> cblock i (Flow x) ws
| cb_access k r b off v : (bytes_of k <= 8)%nat ->
    leaves v (fun pc npc w => match accessed k r b off w with inl a => WRaised (AddressError a) w | inr w' => WAt npc (npc + 4) w' end) -> cblock i (Access k r b off) [v]
| cb_jump link k v : leaves v (fun pc npc w => WAt npc ((pc + 4) / 2 ^ 28 * 2 ^ 28 + (base + 4 * Z.of_nat k) mod 2 ^ 26 / 4 * 4) (linked link (pc + 8) w)) -> cblock i (Jump link k) [v]
| cb_jump_to link a v : leaves v (fun pc npc w => WAt npc ((pc + 4) / 2 ^ 28 * 2 ^ 28 + a mod 2 ^ 26 / 4 * 4) (linked link (pc + 8) w)) -> cblock i (JumpTo link a) [v]
| cb_jump_reg link r v : leaves v (fun pc npc w => WAt npc (low32 (value (cpu w) r)) (linked link (pc + 8) w)) -> cblock i (JumpReg link r) [v].

Inductive cblocks (i : nat) : list citem -> list (list Z) -> Prop :=
| cbl_end : cblocks i [] []
| cbl_more x ws p wss : cblock i x ws -> cblocks (S i) p wss -> cblocks i (x :: p) (ws :: wss).

Lemma cblocks_nth i p wss : cblocks i p wss -> forall j x, nth_error p j = Some x -> exists ws, nth_error wss j = Some ws /\ cblock (i + j) x ws.
Proof.
  induction 1 as [i|i x ws p wss B _ IH]; intros [|j] y E; try discriminate E.
  - injection E as <-. exists ws. rewrite Nat.add_0_r. auto.
  - destruct (IH j y E) as (ws' & A & C). exists ws'. rewrite Nat.add_succ_r. auto.
Qed.
Lemma cblocks_length i p wss : cblocks i p wss -> List.length wss = List.length p.
Proof. induction 1; cbn [List.length]; congruence. Qed.

Variables (p : list citem) (wss : list (list Z)).
Hypothesis Bl : cblocks 0 p wss.
Hypothesis Wc : well_called base p.
Let code := List.concat wss.
Hypothesis Sg : in_segment base code.
Let addr i := address base wss i.
Let pos i := place_of wss i.

Lemma addr_pos i : addr i = base + 4 * pos i. Proof. reflexivity. Qed.
Lemma start_image i w : WAt (base + 4 * pos i) (base + 4 * (pos i + 1)) (mk_world (cpu w) (mem w)) = WAt (addr i) (addr i + 4) w.
Proof. rewrite addr_pos. destruct w as [st m]. cbn [cpu mem]. f_equal. lia. Qed.
Lemma cpos_next i ws : nth_error wss i = Some ws -> pos (S i) = pos i + Z.of_nat (List.length ws).
Proof.
  intros N. unfold pos, place_of. assert (E : firstn (S i) wss = firstn i wss ++ [ws]).
  { clear - N. revert i N. induction wss as [|x l IH]; intros [|i] N; try discriminate N; [injection N as <-; reflexivity|]. cbn [nth_error] in N. cbn [firstn app]. f_equal. now apply IH. }
  rewrite E, concat_app, app_length. cbn [List.concat]. rewrite app_nil_r. lia.
Qed.
Lemma cpos_nonneg i : 0 <= pos i. Proof. unfold pos, place_of. lia. Qed.
Lemma cpos_le i : pos i <= Z.of_nat (List.length code).
Proof.
  unfold pos, place_of, code. rewrite <- (firstn_skipn i wss) at 2. rewrite concat_app, app_length. lia.
Qed.
Lemma ccode_at i ws : nth_error wss i = Some ws -> exists post, code = List.concat (firstn i wss) ++ ws ++ post.
Proof. apply concat_at. Qed.
Lemma cone_word_length i x ws : cblock i x ws -> one_word_item x -> List.length ws = 1%nat.
Proof. intros [y ws' B|k r b off v _ _|link k v _|link a v _|link r v _] O; try reflexivity. exact (one_word_length odd i y ws' B O). Qed.
Lemma cpos_span a b : (a <= b <= List.length p)%nat -> (forall j x, (a <= j < b)%nat -> nth_error p j = Some x -> one_word_item x) -> pos b = pos a + (Z.of_nat b - Z.of_nat a).
Proof.
  intros [L B] H. remember (b - a)%nat as n eqn:E. revert b B L H E. induction n as [|n IH]; intros b B L H E; [replace b with a by lia; lia|].
  destruct b as [|b]; [lia|]. assert (X : pos b = pos a + (Z.of_nat b - Z.of_nat a)) by (apply IH; [lia|lia| |lia]; intros j x J; apply H; lia).
  destruct (nth_error p b) as [x|] eqn:N; [|apply nth_error_None in N; lia]. destruct (cblocks_nth _ _ _ Bl b x N) as (ws & Nw & Bx).
  rewrite (cpos_next b ws Nw), X, (cone_word_length _ _ _ Bx (H b x ltac:(lia) N)). lia.
Qed.
Lemma at_word i v : nth_error wss i = Some [v] -> fetch code base (addr i) = Some v.
Proof.
  intros N. destruct (ccode_at i [v] N) as (post & E). rewrite addr_pos, fetch_at by apply cpos_nonneg. rewrite E. unfold pos, place_of. rewrite Nat2Z.id, nth_error_app2, Nat.sub_diag by lia. reflexivity.
Qed.

(** Where a jump in the code goes. *)
Lemma jump_goes i a : base / 2 ^ 28 = a / 2 ^ 28 -> a mod 2 ^ 28 < 2 ^ 26 -> a mod 4 = 0 -> addr i + 4 <= base + 4 * Z.of_nat (List.length code) ->
  (addr i + 4) / 2 ^ 28 * 2 ^ 28 + a mod 2 ^ 26 / 4 * 4 = a.
Proof.
  intros S1 L4 A4 Lt. destruct Sg as (Rb & B4 & Hs). assert (P := cpos_nonneg i). rewrite addr_pos in *.
  assert (E1 : (base + 4 * pos i + 4) / 2 ^ 28 = a / 2 ^ 28).
  { rewrite <- S1. symmetry. apply Z.div_unique with (r := base mod 2 ^ 28 + 4 * pos i + 4); [left; pose proof (Z.mod_pos_bound base (2 ^ 28) ltac:(lia)); lia|]. pose proof (Z.div_mod base (2 ^ 28) ltac:(lia)). lia. }
  rewrite E1. assert (E2 : a mod 2 ^ 26 = a mod 2 ^ 28).
  { replace (a mod 2 ^ 26) with ((a mod 2 ^ 28) mod 2 ^ 26) by (rewrite <- Znumtheory.Zmod_div_mod; [reflexivity|lia|lia|now exists 4]). apply Z.mod_small. pose proof (Z.mod_pos_bound a (2 ^ 28) ltac:(lia)). lia. }
  rewrite E2. assert (E3 : (a mod 2 ^ 28) mod 4 = 0) by (rewrite <- Znumtheory.Zmod_div_mod; [exact A4|lia|lia|now exists (2 ^ 26)]).
  pose proof (Z.div_mod (a mod 2 ^ 28) 4 ltac:(lia)). pose proof (Z.div_mod a (2 ^ 28) ltac:(lia)). lia.
Qed.

(** Programs of one-word instructions. *)
Lemma one_word_addresses i : (forall j x, nth_error p j = Some x -> one_word_item x) -> (i <= List.length p)%nat -> addr i = base + 4 * Z.of_nat i.
Proof. intros H L. assert (P0 : pos 0 = 0) by reflexivity. rewrite addr_pos, (cpos_span 0 i), P0; [lia|split; [lia|exact L]|]. intros j x _. apply H. Qed.

(** ** Steps *)

Definition spot_at (t : spot) : Z := match t with Item k => addr k | Outside a => a end.
Definition inside (t : spot) : Prop := match t with Item k => (k <= List.length p)%nat | Outside _ => True end.
Definition cmatches (c : cconfig) (s : wstatus) : Prop :=
  match c with
  | CHere i t w => well_world w /\ (i <= List.length p)%nat /\ exists npc, s = WAt (addr i) npc w
      /\ ((t = Item (S i) /\ npc = addr i + 4) \/ (inside t /\ npc = spot_at t /\ exists x, nth_error p i = Some x /\ slot x))
  | CAway a w => s = WAt a (a + 4) w
  | COver (Some x) => exists w, s = WRaised x w
  | COver None => True
  end.

(** After an item that can be in a delay slot. *)
Lemma matches_on t w : inside t -> well_world w -> cmatches (goes_on t (after t) w) (WAt (spot_at t) (spot_at t + 4) w).
Proof.
  intros I W. destruct t as [k|a]; cbn [goes_on after spot_at cmatches inside] in *; [|reflexivity]. split; [exact W|]. split; [exact I|]. exists (addr k + 4). split; [reflexivity|left; auto].
Qed.

Lemma plain_exec v st e : no_branching odd v -> ends_with_run odd [v] st e -> match e with Goes st' => exec odd v st = Next st' | Stops x => exec odd v st = Raise x | Unspecified => True end.
Proof.
  intros Nb E. assert (X := one_word_anywhere odd v st e [v] 0 5 Nb E ltac:(lia) eq_refl). specialize (Nb st).
  destruct e as [st'|x|]; [| |exact Logic.I]; rewrite (cycle_at odd [v] 0 5 st v) in X by (lia || reflexivity); destruct (exec odd v st); try (exfalso; exact Nb); try discriminate X; injection X; intros; subst; reflexivity.
Qed.

Lemma leads_some a : exists t, leads p addr a t.
Proof.
  assert (D : forall n, (exists k, (k <= n)%nat /\ a = addr k) \/ forall k, (k <= n)%nat -> addr k <> a).
  { induction n as [|n [(k & L & E)|H]].
    - destruct (Z.eq_dec (addr 0) a) as [E|E]; [left; exists O; auto|right]. intros k L. now replace k with O by lia.
    - left. exists k. split; [lia|exact E].
    - destruct (Z.eq_dec (addr (S n)) a) as [E|E]; [left; exists (S n); auto|right]. intros k L. destruct (Nat.eq_dec k (S n)) as [->|Ne]; [exact E|apply H; lia]. }
  destruct (D (List.length p)) as [(k & L & E)|H]; [exists (Item k); now split|exists (Outside a); now split].
Qed.
Lemma leads_at a t : leads p addr a t -> spot_at t = a /\ inside t.
Proof. destruct t as [k|b]; cbn [leads spot_at inside]; [intros [L E]; auto|intros [E _]; auto]. Qed.

Lemma cone_step c s : cmatches c s -> ~ cfinal p c -> exists c' k, cstep p addr c c' /\ (1 <= k)%nat /\ cmatches c' (wcycles odd code base k s).
Proof.
  intros Ma Fi. destruct c as [i t w|a w|x]; [|exfalso; apply Fi; exact Logic.I|exfalso; apply Fi; exact Logic.I]. cbn [cmatches cfinal] in *. destruct Ma as (W & Li & npc & -> & Ma).
  destruct (nth_error p i) as [x|] eqn:N; [|apply nth_error_None in N; lia]. destruct (cblocks_nth _ _ _ Bl i x N) as (ws & Nw & Bx). cbn [Nat.add] in Bx.
  destruct (ccode_at i ws Nw) as (post & Ec). assert (Pn := cpos_next i ws Nw).
  assert (Li' : (S i <= List.length p)%nat) by (assert (i < List.length p)%nat by (apply nth_error_Some; congruence); lia).
  (* transfers have their delay slot *)
  assert (Tr : transfers x -> t = Item (S i) /\ npc = addr i + 4 /\ exists y, nth_error p (S i) = Some y /\ slot y /\ pos (S (S i)) = pos (S i) + 1 /\ (S (S i) <= List.length p)%nat).
  { intros T. destruct Ma as [[-> ->]|(_ & _ & x' & N' & Sx)].
    - split; [reflexivity|]. split; [reflexivity|]. destruct (proj1 (Wc i x N) T) as (y & Ny & Sy). exists y. split; [exact Ny|]. split; [exact Sy|].
      destruct (cblocks_nth _ _ _ Bl (S i) y Ny) as (wd & Nd & Bd). rewrite (cpos_next (S i) wd Nd), (cone_word_length _ _ _ Bd); [split; [lia|]|destruct y as [[| ]| | | |]; cbn in *; auto; contradiction].
      assert (S i < List.length p)%nat by (apply nth_error_Some; congruence). lia.
    - exfalso. replace x' with x in Sx by congruence. destruct x as [[| ]| | | |]; cbn in T, Sx; contradiction. }
  (* one-word items *)
  assert (Ex : slot x \/ (t = Item (S i) /\ npc = addr i + 4)).
  { destruct Ma as [Ma|(_ & _ & x' & N' & Sx)]; [now right|left]. now replace x with x' by congruence. }
  assert (Nx : spot_at t = npc /\ inside t \/ (t = Item (S i) /\ npc = addr i + 4)).
  { destruct Ma as [Ma|(I & -> & _)]; [now right|left; auto]. }
  assert (Nx1 : List.length ws = 1%nat -> spot_at t = npc /\ inside t).
  { intros L1. destruct Nx as [Nx|[-> ->]]; [exact Nx|]. cbn [spot_at inside]. split; [rewrite !addr_pos, Pn, L1; lia|exact Li']. }
  assert (Jp : forall t' w', transfers x -> List.length ws = 1%nat -> inside t' -> well_world w' -> cmatches (goes_on t t' w') (WAt npc (spot_at t') w')).
  { intros t' w' T L1 I' W'. destruct (Tr T) as (-> & -> & y & Ny & Sy & _). cbn [goes_on cmatches]. split; [exact W'|]. split; [exact Li'|].
    exists (spot_at t'). split; [rewrite !addr_pos, Pn, L1; f_equal; lia|]. right. split; [exact I'|]. split; [reflexivity|eauto]. }
  assert (Ra : transfers x -> List.length ws = 1%nat -> addr i + 8 = return_address addr i /\ addr i + 4 <= base + 4 * Z.of_nat (List.length code)).
  { intros T L1. destruct (Tr T) as (_ & _ & y & _ & _ & P2 & _). unfold return_address. assert (Le := cpos_le (S (S i))). rewrite !addr_pos, P2, Pn, L1 in *. split; lia. }
  assert (Pc : 0 <= addr i) by (rewrite addr_pos; assert (P := cpos_nonneg i); destruct Sg; lia).
  destruct Bx as [x ws Bx|k r b off v Bk [Ux Bv]|link k v [Ux Bv]|link a v [Ux Bv]|link r v [Ux Bv]].
  - destruct Bx as [one M ws Ne One Run|n likely sc c k ws Ln Lw Run].
    + destruct (Run (cpu w) (proj1 W)) as (e & Me & Ee).
      destruct Ex as [Sl|[-> ->]].
      * (* one word *)
        cbn [slot] in Sl. subst one. destruct (One eq_refl) as (v & -> & Nb). assert (X := plain_exec v (cpu w) e Nb Ee). assert (F := at_word i v Nw). destruct (Nx1 eq_refl) as [Sn Si].
        destruct e as [st'|x|].
        -- exists (goes_on t (after t) (with_cpu w st')), 1%nat. split; [eapply cs_does; eauto|]. split; [lia|]. cbn [wcycles wcycle]. rewrite F, X, <- Sn. apply matches_on; [exact Si|].
           split; [|apply W]. cbn [cpu with_cpu]. eapply finishes_well; [exact Od|exact (proj1 W)|exact Ee].
        -- exists (COver (Some (Exception x))), 1%nat. split; [eapply cs_stops; eauto|]. split; [lia|]. cbn [wcycles wcycle cmatches]. rewrite F, X. eauto.
        -- exists (COver None), 1%nat. split; [eapply cs_unspecified; eauto|]. split; [lia|exact Logic.I].
      * (* in sequence *)
        destruct e as [st'|x|].
        -- destruct Ee as (n & Ee). exists (CHere (S i) (Item (S (S i))) (with_cpu w st')), n. split; [exact (cs_does p addr i (Item (S i)) w one M st' N Me)|]. split.
           { destruct n as [|n]; [|lia]. cbn [cycles] in Ee. injection Ee as E0 _ _. destruct ws; [congruence|cbn [List.length] in E0; lia]. }
           cbn [cmatches]. split; [split; [|apply W]; cbn [cpu with_cpu]; eapply finishes_well; [exact Od|exact (proj1 W)|exists n; exact Ee]|]. split; [exact Li'|].
           exists (addr (S i) + 4). split; [|left; auto]. assert (L := lift odd n ws post (List.concat (firstn i wss)) (cpu w) _ Ee ltac:(discriminate)). cbn [shifted] in L.
           change (Z.of_nat (List.length (List.concat (firstn i wss)))) with (pos i) in L. rewrite <- Ec in L.
           assert (X := wcycles_image odd code base (mem w) n (At (pos i) (pos i + 1) (cpu w))). rewrite L in X. specialize (X ltac:(discriminate)). cbn [image] in X.
           replace (WAt (addr i) (addr i + 4) w) with (WAt (base + 4 * pos i) (base + 4 * (pos i + 1)) (mk_world (cpu w) (mem w))) by (exact (start_image i w)).
           rewrite X. rewrite !addr_pos, Pn. unfold with_cpu. f_equal; lia.
        -- destruct Ee as (n & st' & Ee). exists (COver (Some (Exception x))), n. split; [eapply cs_stops; eauto|]. split; [destruct n; [discriminate Ee|lia]|].
           assert (L := lift odd n ws post (List.concat (firstn i wss)) (cpu w) _ Ee ltac:(discriminate)). cbn [shifted] in L.
           change (Z.of_nat (List.length (List.concat (firstn i wss)))) with (pos i) in L. rewrite <- Ec in L.
           assert (X := wcycles_image odd code base (mem w) n (At (pos i) (pos i + 1) (cpu w))). rewrite L in X. specialize (X ltac:(discriminate)). cbn [image] in X.
           replace (WAt (addr i) (addr i + 4) w) with (WAt (base + 4 * pos i) (base + 4 * (pos i + 1)) (mk_world (cpu w) (mem w))) by (exact (start_image i w)).
           cbn [cmatches]. eauto.
        -- exists (COver None), 1%nat. split; [eapply cs_unspecified; eauto|]. split; [lia|exact Logic.I].
    + destruct (Tr Logic.I) as (-> & -> & y & Ny & Sy & P2 & L2). destruct (Wc i _ N) as (_ & Lk & _ & Sp).
      destruct (Run (List.concat (firstn i wss)) post (cpu w) (proj1 W)) as (st' & Sa & W' & Cy). cbv zeta in Cy. rewrite <- Ec in Cy.
      change (Z.of_nat (List.length (List.concat (firstn i wss)))) with (pos i) in Cy. rewrite Lw in Pn. rewrite <- Pn in Cy.
      assert (X := wcycles_image odd code base (mem w) n (At (pos i) (pos i + 1) (cpu w))). rewrite Cy in X.
      assert (Nl : (if c (cpu w) then At (pos (S i)) (pos i + (Z.of_nat k - Z.of_nat i)) st' else if likely then At (pos (S i) + 1) (pos (S i) + 2) st' else At (pos (S i)) (pos (S i) + 1) st') <> Lost) by (destruct (c (cpu w)), likely; discriminate).
      specialize (X Nl). cbn [image] in X.
      replace (WAt (addr i) (addr i + 4) w) with (WAt (base + 4 * pos i) (base + 4 * (pos i + 1)) (mk_world (cpu w) (mem w))) by (exact (start_image i w)).
      assert (Ww : well_world (with_cpu w st')) by (split; [exact W'|apply W]).
      destruct (c (cpu w)) eqn:Ce.
      * exists (CHere (S i) (Item k) (with_cpu w st')), n. split; [exact (cs_taken p addr i (Item (S i)) w n likely sc c k st' N Ce Sa)|]. split; [exact Ln|]. rewrite X. cbn [cmatches image]. split; [exact Ww|]. split; [exact Li'|].
        exists (addr k). split; [|right; split; [exact Lk|split; [reflexivity|eauto]]]. rewrite !addr_pos. unfold with_cpu. f_equal.
        destruct (Nat.le_ge_cases k i) as [Le|Le].
        -- rewrite (cpos_span k i); [lia|lia|]. intros q z Q. apply Sp. lia.
        -- rewrite (cpos_span i k); [lia|lia|]. intros q z Q. apply Sp. lia.
      * destruct likely.
        -- exists (CHere (S (S i)) (Item (S (S (S i)))) (with_cpu w st')), n. split; [exact (cs_skips p addr i (Item (S i)) w n sc c k st' N Ce Sa)|]. split; [exact Ln|]. rewrite X. cbn [cmatches image]. split; [exact Ww|]. split; [exact L2|].
           exists (addr (S (S i)) + 4). split; [|left; auto]. rewrite !addr_pos, P2. unfold with_cpu. f_equal; lia.
        -- exists (CHere (S i) (Item (S (S i))) (with_cpu w st')), n. split; [exact (cs_not_taken p addr i (Item (S i)) w n sc c k st' N Ce Sa)|]. split; [exact Ln|]. rewrite X. cbn [cmatches image]. split; [exact Ww|]. split; [exact Li'|].
           exists (addr (S i) + 4). split; [|left; auto]. rewrite !addr_pos. unfold with_cpu. f_equal; lia.
  - destruct (Nx1 eq_refl) as [Sn Si]. assert (F := at_word i v Nw). destruct (accessed k r b off w) as [a|w'] eqn:Ac.
    + exists (COver (Some (AddressError a))), 1%nat. split; [eapply cs_fault; eauto|]. split; [lia|]. cbn [wcycles wcycle cmatches]. rewrite F, Ux, Bv, Ac by exact Pc. eauto.
    + exists (goes_on t (after t) w'), 1%nat. split; [eapply cs_access; eauto|]. split; [lia|]. cbn [wcycles wcycle]. rewrite F, Ux, Bv, Ac, <- Sn by exact Pc. apply matches_on; [exact Si|]. eapply accessed_well; eauto.
  - assert (F := at_word i v Nw). destruct (Ra Logic.I eq_refl) as [R8 R4]. destruct (Wc i _ N) as (_ & Lk & Sp).
    exists (goes_on t (Item k) (linked link (return_address addr i) w)), 1%nat. split; [now apply cs_jump|]. split; [lia|]. cbn [wcycles wcycle]. rewrite F, Ux, Bv, R8 by exact Pc.
    assert (Ak : addr k = base + 4 * Z.of_nat k). { assert (P0 : pos 0 = 0) by reflexivity. rewrite addr_pos, (cpos_span 0 k); [rewrite P0; lia|split; [lia|exact Lk]|]. intros j z J. apply Sp. lia. }
    assert (Le := cpos_le k). rewrite addr_pos in Ak. assert (Hs := proj2 (proj2 Sg)). assert (B4 := proj1 (proj2 Sg)). assert (Bk : base mod 2 ^ 28 + 4 * Z.of_nat k < 2 ^ 26) by lia.
    assert (Bm := Z.mod_pos_bound base (2 ^ 28) ltac:(lia)). assert (Bd := Z.div_mod base (2 ^ 28) ltac:(lia)).
    rewrite (jump_goes i (base + 4 * Z.of_nat k)); [|apply Z.div_unique with (r := base mod 2 ^ 28 + 4 * Z.of_nat k); [left; lia|lia]| | |exact R4].
    + replace (base + 4 * Z.of_nat k) with (spot_at (Item k)) by exact Ak. apply Jp; auto; [exact Logic.I|now apply linked_well].
    + replace ((base + 4 * Z.of_nat k) mod 2 ^ 28) with (base mod 2 ^ 28 + 4 * Z.of_nat k); [lia|]. apply Z.mod_unique with (q := base / 2 ^ 28); [left; pose proof (Z.mod_pos_bound base (2 ^ 28) ltac:(lia)); lia|pose proof (Z.div_mod base (2 ^ 28) ltac:(lia)); lia].
    + rewrite Z.add_mod, B4, (Z.mul_comm 4), Z_mod_mult by lia. reflexivity.
  - assert (F := at_word i v Nw). destruct (Ra Logic.I eq_refl) as [R8 R4]. destruct (Wc i _ N) as (_ & S1 & S2 & S3). destruct (leads_some a) as (t' & Lt). destruct (leads_at a t' Lt) as [E1 E2].
    exists (goes_on t t' (linked link (return_address addr i) w)), 1%nat. split; [eapply cs_jump_to; eauto|]. split; [lia|]. cbn [wcycles wcycle]. rewrite F, Ux, Bv, R8, jump_goes by (auto; exact Pc).
    rewrite <- E1. apply Jp; auto; [exact Logic.I|now apply linked_well].
  - assert (F := at_word i v Nw). destruct (Ra Logic.I eq_refl) as [R8 R4]. destruct (leads_some (low32 (value (cpu w) r))) as (t' & Lt). destruct (leads_at _ t' Lt) as [E1 E2].
    exists (goes_on t t' (linked link (return_address addr i) w)), 1%nat. split; [eapply cs_jump_reg; eauto|]. split; [lia|]. cbn [wcycles wcycle]. rewrite F, Ux, Bv, R8 by exact Pc.
    rewrite <- E1. apply Jp; auto; [exact Logic.I|now apply linked_well].
Qed.

Lemma cmany_steps n : forall c s, cmatches c s -> exists c' k, csteps p addr n c c' /\ cmatches c' (wcycles odd code base k s) /\ (cfinal p c' \/ (n <= k)%nat).
Proof.
  induction n as [|n IH]; intros c s Ma; [exists c, O; split; [constructor|split; [exact Ma|right; lia]]|].
  assert (D : cfinal p c \/ ~ cfinal p c) by (destruct c as [i t w|a w|x]; [cbn [cfinal]; lia|left; exact Logic.I|left; exact Logic.I]).
  destruct D as [F|F]; [exists c, O; split; [now apply csteps_end|split; [exact Ma|now left]]|].
  destruct (cone_step c s Ma F) as (c1 & k1 & S1 & K1 & M1). destruct (IH c1 _ M1) as (c2 & k2 & S2 & M2 & E2). exists c2, (k1 + k2)%nat.
  split; [eapply csteps_more; eauto|]. rewrite wcycles_add. split; [exact M2|]. destruct E2 as [E2|E2]; [now left|right; lia].
Qed.

Theorem cblocks_follow n w : well_world w -> exists c, csteps p addr n (CHere 0 (Item 1) w) c /\ machine_comes_to odd base wss p w n c.
Proof.
  intros W. assert (A0 : addr 0 = base) by (rewrite addr_pos; unfold pos, place_of; cbn; lia).
  destruct (cmany_steps n (CHere 0 (Item 1) w) (WAt base (base + 4) w)) as (c & k & S & Ma & E).
  - cbn [cmatches]. split; [exact W|]. split; [lia|]. exists (base + 4). rewrite A0. split; [reflexivity|left; auto].
  - exists c. split; [exact S|]. unfold machine_comes_to. cbv zeta. destruct c as [i t w'|a w'|[x|]]; cbn [cmatches] in Ma; [| | |exact Logic.I].
    + destruct Ma as (W' & Li & npc & Cy & Sq). exists k, npc. split; [exact Cy|]. destruct (Nat.eq_dec i (List.length p)) as [->|Ne].
      * left. split; [reflexivity|]. destruct Sq as [[_ ->]|(_ & _ & x & N & _)]; [reflexivity|exfalso; assert (List.length p < List.length p)%nat by (apply nth_error_Some; congruence); lia].
      * right. split; [exact Ne|]. destruct E as [E|E]; [exfalso; exact (Ne E)|exact E].
    + exists k. exact Ma.
    + destruct Ma as (w' & Ma). exists k, w'. exact Ma.
Qed.
End Blocks.
