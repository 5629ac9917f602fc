(** * TotalProofs: exactly which default-mode listings exist (proofs only). *)

From Coq Require Import Lia.
From Verif Require Import Lib SpecIsa SpecListing StrLemmas NumLemmas DecodeProofs DisasmProofs ListingProofs DisasmMore.

(** The marks are determined. *)
Lemma function_start_ext c d i k : (forall j, (j <= i)%nat -> c j = d j) -> function_start c i k -> function_start d i k.
Proof.
  intros E (A & B & C). split; [exact A|]. split.
  - rewrite <- (E k A). exact B.
  - intros j H. rewrite <- E by lia. apply C, H.
Qed.
Lemma good_cuts_unique base ws c d : good_cuts base ws c -> good_cuts base ws d -> forall i, (i < List.length ws)%nat -> c i = d i.
Proof.
  intros C D i. induction i as [i IH] using lt_wf_ind. intros L.
  assert (X : forall a b, good_cuts base ws a -> good_cuts base ws b -> (forall j, (j < i)%nat -> a j = b j) -> a i = true -> b i = true).
  { intros a b Ga Gb E T. apply (Ga i L) in T as (j & k & w & Ei & F & S & W & V). apply (Gb i L). exists j, k, w.
    assert (Ej : forall x, (x <= j)%nat -> a x = b x) by (intros x Hx; apply E; lia).
    split; [exact Ei|]. split; [rewrite <- Ej by lia; exact F|]. split; [now apply (function_start_ext a)|]. now split. }
  assert (Y : forall j, (j < i)%nat -> c j = d j) by (intros j Hj; apply IH; lia).
  destruct (c i) eqn:P, (d i) eqn:Q; try reflexivity.
  - rewrite (X c d C D Y P) in Q. discriminate.
  - rewrite (X d c D C (fun j H => eq_sym (Y j H)) Q) in P. discriminate.
Qed.

Section Loop.
Variable oc : bool.
Variable m : mipsasm.
Notation base := (m_base m).

Lemma listing_exists ws : is_word base -> Forall is_word ws -> base + 4 * Z.of_nat (List.length ws) <= 2 ^ 32 ->
  forall r i, ws = firstn i ws ++ r -> (i <= List.length ws)%nat -> forall k, fst (state_at m ws i) = k ->
  ((exists out, listing oc m (Z.of_nat (List.length ws)) (Z.of_nat i) (4 * Z.of_nat k) (cuts m ws i) (map (match_sym m) (disassemble_insts r base)) = Ok out)
   <-> forall j w, (i <= j)%nat -> nth_error ws j = Some w -> cuts m ws j = false -> ~ jumps_to_symbol m w).
Proof.
  intros Hb Hws Hlen r. induction r as [|w r IH]; intros i Hr Hi k Hk.
  - split; [|intros _; now exists []]. intros _ j v Hj Nj. exfalso. assert (i = List.length ws).
    { destruct (Nat.eq_dec i (List.length ws)) as [|N]; [assumption|exfalso]. rewrite app_nil_r in Hr. apply (f_equal (@List.length Z)) in Hr. rewrite firstn_length_le in Hr by lia. lia. }
    assert (j < List.length ws)%nat by (apply nth_error_Some; congruence). lia.
  - assert (Li : (i < List.length ws)%nat).
    { destruct (Nat.eq_dec i (List.length ws)) as [->|]; [|lia]. rewrite firstn_all in Hr. apply (f_equal (@List.length Z)) in Hr. rewrite app_length in Hr. cbn in Hr. lia. }
    assert (Ni : nth_error ws i = Some w).
    { rewrite Hr, nth_error_app2; rewrite firstn_length_le by lia; [|lia]. now rewrite Nat.sub_diag. }
    assert (Hn : nth i ws 0 = w) by (now apply nth_error_nth).
    assert (Hw : is_word w) by (rewrite Forall_forall in Hws; apply Hws, (nth_error_In _ _ Ni)).
    assert (Hr' : ws = firstn (S i) ws ++ r) by exact (firstn_step ws i w r Li Hr).
    assert (Hki : (k <= i)%nat).
    { subst k. clear. induction i as [|j IHj]; [cbn; lia|]. cbn [state_at]. destruct (state_at m ws j) as [k' []]; cbn [fst] in *; lia. }
    destruct (word_prints base w Hw Hb) as [t0 P]. destruct (match_sym_prints m _ (ex_intro _ t0 P)) as [t Ht]. clear P t0.
    assert (Hb' := Hb). destruct Hb as [Hb0 Hb1]. cbn [disassemble_insts map listing]. rewrite Ht. cbn [obind].
    assert (Step : forall Q : Prop, (forall j v, (S i <= j)%nat -> nth_error ws j = Some v -> cuts m ws j = false -> ~ jumps_to_symbol m v) ->
        (cuts m ws i = false -> ~ jumps_to_symbol m w) -> forall j v, (i <= j)%nat -> nth_error ws j = Some v -> cuts m ws j = false -> ~ jumps_to_symbol m v).
    { intros _ A B j v Hj Nj Cj. destruct (Nat.eq_dec i j) as [<-|]; [|apply (A j); auto; lia]. assert (v = w) by congruence. subst v. now apply B. }
    destruct (cuts m ws i) eqn:Ci.
    + assert (Sk : fst (state_at m ws (S i)) = i).
      { cbn [state_at]. unfold cuts in Ci. destruct (state_at m ws i). cbn in Ci. now subst b. }
      assert (Cs : cuts m ws (S i) = false) by (rewrite cuts_S, Ci; reflexivity).
      specialize (IH (S i) Hr' ltac:(lia) i Sk). rewrite Cs in IH. rewrite Nat2Z.inj_succ in IH. unfold Z.succ in IH.
      replace (4 * Z.of_nat i) with (Z.of_nat i * 4) in IH by lia.
      transitivity (exists out, listing oc m (Z.of_nat (List.length ws)) (Z.of_nat i + 1) (Z.of_nat i * 4) false (map (match_sym m) (disassemble_insts r base)) = Ok out).
      * destruct (Z.of_nat i <? Z.of_nat (List.length ws) - 1) eqn:L.
        -- apply Z.ltb_lt in L. rewrite wrap32_small by lia. rewrite ck32_ok by lia. cbn [obind]. rewrite ck32_ok by lia. cbn [obind].
           destruct (listing oc m _ _ _ false _) as [o| |] eqn:Bo; cbn [obind]; (split; [intros [x X]; try discriminate X; eauto|intros [x X]; try discriminate X; eauto]).
        -- cbn [obind]. destruct (listing oc m _ _ _ false _) as [o| |] eqn:Bo; cbn [obind]; (split; [intros [x X]; try discriminate X; eauto|intros [x X]; try discriminate X; eauto]).
      * rewrite IH. split.
        -- intros A. apply (Step True A). discriminate.
        -- intros A j v Hj. apply A. lia.
    + assert (Sk : fst (state_at m ws (S i)) = k).
      { cbn [state_at]. unfold cuts in Ci. destruct (state_at m ws i). cbn in Ci, Hk. now subst b. }
      specialize (IH (S i) Hr' ltac:(lia) k Sk). destruct (jumps_to_symbol_dec m w) as [J|J].
      { destruct (ends_function_panics oc m (Z.of_nat i) (4 * Z.of_nat k) w Hw Hb' J) as [p E]. rewrite E. cbn [obind]. split.
        - intros [x X]. discriminate X.
        - intros A. destruct (A i w (le_n i) Ni Ci J). }
      rewrite ends_function_spec; [|exact Hw|split; assumption|lia|lia|exact J]. cbn [obind].
      assert (E : leavesb base (base + 4 * Z.of_nat k) (base + 4 * Z.of_nat i) w = cuts m ws (S i)).
      { rewrite cuts_S, Ci, Hk, Hn. reflexivity. }
      rewrite E. rewrite Nat2Z.inj_succ in IH. unfold Z.succ in IH.
      transitivity (exists out, listing oc m (Z.of_nat (List.length ws)) (Z.of_nat i + 1) (4 * Z.of_nat k) (cuts m ws (S i)) (map (match_sym m) (disassemble_insts r base)) = Ok out).
      * destruct (listing oc m _ _ _ (cuts m ws (S i)) _) as [o| |] eqn:Bo; cbn [obind]; (split; [intros [x X]; try discriminate X; eauto|intros [x X]; try discriminate X; eauto]).
      * rewrite IH. split.
        -- intros A. apply (Step True A). intros _. exact J.
        -- intros A j v Hj. apply A. lia.
Qed.

Theorem listing_exact ws c : m_debug m = false -> is_word base -> Forall is_word ws -> base + 4 * Z.of_nat (List.length ws) <= 2 ^ 32 -> good_cuts base ws c ->
  ((exists ls, disassemble oc m ws = Ok ls) <-> forall i w, nth_error ws i = Some w -> c i = false -> ~ jumps_to_symbol m w).
Proof.
  intros D B W L C. unfold disassemble. rewrite D, map_length. unfold disassemble_insts at 1. rewrite map_length. cbv zeta.
  assert (X := listing_exists ws B W L ws 0 eq_refl ltac:(lia) 0%nat eq_refl).
  transitivity (exists out, listing oc m (Z.of_nat (List.length ws)) (Z.of_nat 0) (4 * Z.of_nat 0) (cuts m ws 0) (map (match_sym m) (disassemble_insts ws base)) = Ok out).
  - change (cuts m ws 0) with false. cbn [Z.of_nat Z.mul]. destruct (listing oc m _ 0 0 false _) as [o| |]; cbn [obind]; (split; [intros [x Y]; try discriminate Y; eauto|intros [x Y]; try discriminate Y; eauto]).
  - rewrite X. assert (U := good_cuts_unique base ws c (cuts m ws) C (cuts_good m ws)). split.
    + intros H i w N Ci. apply (H i w); [lia|exact N|]. rewrite <- U; [exact Ci|]. apply nth_error_Some. congruence.
    + intros H i w _ N Ci. apply (H i w N). rewrite U; [exact Ci|]. apply nth_error_Some. congruence.
Qed.
End Loop.

(** The other outcome is a panic: disassembly has no errors. *)
Definition fine {E A} (o : outcome E A) : Prop := match o with Err _ => False | _ => True end.
Lemma fine_bind {E A B} (x : outcome E A) (f : A -> outcome E B) : fine x -> (forall a, fine (f a)) -> fine (obind x f).
Proof. destruct x; cbn; auto. Qed.
Lemma fine_ck {E} oc v : fine (@ck32 E oc v).
Proof. unfold ck32. destruct (_ && _)%bool; [exact Logic.I|]. destruct oc; exact Logic.I. Qed.
Lemma fine_ends oc m i s x : fine (ends_function oc m i s x).
Proof.
  unfold ends_function. destruct (is_unconditional_jump x); [|exact Logic.I]. apply fine_bind; [destruct x as [| ? [] |[]|]; cbn; exact Logic.I|]. intros t.
  repeat first [exact Logic.I | apply fine_bind; [apply fine_ck|intros ?] | match goal with |- fine (if ?b then _ else _) => destruct b end].
Qed.
Lemma listing_fine oc m n l : Forall prints l -> forall i s e, fine (listing oc m n i s e l).
Proof.
  induction 1 as [|x l [t Ht] _ IH]; intros i s e; [exact Logic.I|]. cbn [listing]. rewrite Ht. cbn [obind]. destruct e.
  - apply fine_bind; [|intros lab; apply fine_bind; [apply IH|intros ?; exact Logic.I]]. destruct (i <? n - 1); [|exact Logic.I].
    apply fine_bind; [apply fine_ck|intros ?]. apply fine_bind; [apply fine_ck|intros ?; exact Logic.I].
  - apply fine_bind; [apply fine_ends|intros b]. apply fine_bind; [apply IH|intros ?; exact Logic.I].
Qed.
Theorem disassemble_fine oc m ws : is_word (m_base m) -> Forall is_word ws -> (exists ls, disassemble oc m ws = Ok ls) \/ (exists p, disassemble oc m ws = Panic p).
Proof.
  intros B W. destruct (m_debug m) eqn:D.
  - left. destruct (debug_total oc m ws D B W) as (ls & H & _). eauto.
  - assert (X : fine (disassemble oc m ws)).
    { unfold disassemble. rewrite D. cbv zeta. apply fine_bind; [|intros ?; exact Logic.I]. apply listing_fine. unfold disassemble_insts. rewrite !Forall_map. eapply Forall_impl; [|exact W].
      intros w Hw. apply match_sym_prints. now apply word_prints. }
    destruct (disassemble oc m ws); [eauto|destruct X|eauto].
Qed.
