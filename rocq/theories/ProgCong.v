(** * ProgCong: programs that differ only in layout or in the order of hash maps (proofs only). *)

From Coq Require Import Lia Permutation.
From Verif Require Import Lib SpecIsa StrLemmas TextProofs OperandProofs NativeProofs ScanProofs ProgProofs BranchProofs LabelProofs CongProofs ErrorProofs RefProofs SpecErrors SpecText SpecProgram SpecSource.

Lemma step_eq e s raw : no_nl raw -> step_line e s raw =
  match role_of raw with
  | Empty => Ok (bump s)
  | Defines k => match parse_label e (bump s) k with
                 | Ok _ => Ok (if is_local k then add_local (bump s) k else flush_locals e (add_label (bump s) k))
                 | Err p => Ok (add_error (bump s) p)
                 | Panic p => Panic p
                 end
  | Instruction => match parse_inst e (bump s) (clean raw) with
                   | (w, Ok i) => Ok (add_inst (add_warnings (bump s) w) i)
                   | (w, Err p) => Ok (add_error (add_warnings (bump s) w) p)
                   | (_, Panic p) => Panic p
                   end
  end.
Proof.
  intros N. unfold step_line. rewrite clean_spec by exact N. cbv zeta. change (mk_pstate _ _ _ _ (S (p_line s)) _ _) with (bump s) at 1.
  unfold scan_line. destruct (ends_with #":" (clean raw)) eqn:Ec.
  - rewrite (role_label raw Ec), (local_prefix _ Ec).
    destruct (parse_label e (bump s) (drop_last (clean raw))) as [k|p|p] eqn:P; cbn [obind]; [|destruct (is_local _); reflexivity|destruct (is_local _); reflexivity].
    apply parse_label_ok in P as [-> P]. destruct (is_local _); [reflexivity|]. rewrite map_insert_new by apply P. reflexivity.
  - destruct (clean raw) as [|c r] eqn:C.
    + unfold role_of. rewrite C. reflexivity.
    + assert (R : role_of raw = Instruction) by (unfold role_of; now rewrite C, Ec). rewrite R.
      destruct (parse_inst e (bump s) (c :: r)) as [w [i|p|p]]; reflexivity.
Qed.

Section ProgCong.
Variables (e e' : env) (exact : bool) (f : str -> str).
Hypothesis Hoc : e_oc e = e_oc e'.
Hypothesis Hbase : e_base e = e_base e'.
Hypothesis Hsyms : forall t, option_map fst (find (fun av => str_eqb (snd av) t) (e_syms e)) = option_map fst (find (fun av => str_eqb (snd av) t) (e_syms e')).
Hypothesis Ord : forall l, Permutation (e_order e l) l.
Hypothesis Ord' : forall l, Permutation (e_order e' l) l.
Hypothesis Hex : exact = true -> e_input e = e_input e' /\ forall t, f t = t.

Definition akin (p q : perror) : Prop := if exact then p = q else error_content f p = error_content f q.
Lemma akin_unplaced p q : unplaced f p = unplaced f q -> (exact = true -> error_line p = error_line q) -> akin p q.
Proof.
  unfold akin. destruct exact.
  - intros U L. specialize (L eq_refl). destruct (Hex eq_refl) as [_ Fi]. destruct p, q; cbn in U, L; try discriminate U; subst; rewrite ?Fi in U; congruence.
  - intros U _. destruct p, q; cbn in U |- *; try discriminate U; congruence.
Qed.

(** Lines that are read in the same way. *)
Definition same_lines (l l' : str) : Prop :=
  (exact = true -> l = l') /\
  match role_of l, role_of l' with
  | Empty, Empty => True
  | Defines n, Defines n' => n = n'
  | Instruction, Instruction => forall s s', alike e e' s s' l l' -> same s s' l l' f (parse_inst e s (clean l)) (parse_inst e' s' (clean l'))
  | _, _ => False
  end.
Inductive matched : list str -> list str -> Prop :=
| mt_nil : matched [] []
| mt_left l ls ls' : exact = false -> role_of l = Empty -> matched ls ls' -> matched (l :: ls) ls'
| mt_right l ls ls' : exact = false -> role_of l = Empty -> matched ls ls' -> matched ls (l :: ls')
| mt_pair l l' ls ls' : same_lines l l' -> matched ls ls' -> matched (l :: ls) (l' :: ls').

Record paired (s s' : pstate) (done done' : list str) : Prop := mk_paired {
  pr_sound : exists fs, sound e s done fs;
  pr_sound' : exists fs, sound e' s' done' fs;
  pr_insts : map snd (p_insts s) = map snd (p_insts s');
  pr_labels : p_labels s = p_labels s';
  pr_nodup : NoDup (map fst (p_local s));
  pr_nodup' : NoDup (map fst (p_local s'));
  pr_local : forall n, assoc n (p_local s) = assoc n (p_local s');
  pr_dropped : forall n, assoc n (p_dropped s) = assoc n (p_dropped s');
  pr_errors : Forall2 akin (p_errors s) (p_errors s');
  pr_exact : exact = true -> p_line s = p_line s' /\ p_insts s = p_insts s'
}.
Definition both {A B} (P : A -> A -> Prop) (x y : outcome B A) : Prop :=
  match x, y with Ok a, Ok b => P a b | Panic a, Panic b => a = b | _, _ => False end.

Lemma flush_alike s s' : NoDup (map fst (p_local s)) -> NoDup (map fst (p_local s')) -> (forall n, assoc n (p_local s) = assoc n (p_local s')) ->
  (forall n, assoc n (p_dropped s) = assoc n (p_dropped s')) -> forall n, assoc n (p_dropped (flush_locals e s)) = assoc n (p_dropped (flush_locals e' s')).
Proof. intros N N' L D n. rewrite (flush_assoc e Ord), (flush_assoc e' Ord') by assumption. now rewrite L, D. Qed.

Lemma paired_length s s' done done' : paired s s' done done' -> List.length (p_insts s) = List.length (p_insts s').
Proof. intros P. rewrite <- (map_length snd), <- (map_length snd (p_insts s')). now rewrite (pr_insts _ _ _ _ P). Qed.

Lemma first_line en s done fs k j raw rest : sound en s done fs -> e_input en = done ++ raw :: rest -> assoc k (p_labels s) = Some j -> exists c, nth_error (e_input en) j = Some c.
Proof.
  intros So Ei A. apply assoc_in in A. apply (so_labels _ _ _ _ So) in A as [A _]. assert (X := made_count_le fs). rewrite (so_fates _ _ _ _ So) in X.
  destruct (nth_error (e_input en) j) as [c|] eqn:Nj; [eauto|]. apply nth_error_None in Nj. rewrite Ei, app_length in Nj. cbn in Nj. lia.
Qed.

(** One line. *)
Lemma paired_bump s s' done done' l l' (fs fs' : list fate) : paired s s' done done' -> sound e (bump s) (done ++ [l]) fs -> sound e' (bump s') (done' ++ [l']) fs' ->
  paired (bump s) (bump s') (done ++ [l]) (done' ++ [l']).
Proof.
  intros [_ _ I L N N' Lo D Er Ex] S1 S2. constructor; cbn [bump p_insts p_labels p_local p_dropped p_errors p_line]; eauto.
  intros X. destruct (Ex X) as [-> ->]. auto.
Qed.

Lemma step_both s s' done done' l l' rest rest' : no_nl l -> no_nl l' -> paired s s' done done' -> e_input e = done ++ l :: rest -> e_input e' = done' ++ l' :: rest' ->
  same_lines l l' -> both (fun s s' => paired s s' (done ++ [l]) (done' ++ [l'])) (step_line e s l) (step_line e' s' l').
Proof.
  intros N N' Pr Ei Ei' [Xl Sl]. destruct (pr_sound _ _ _ _ Pr) as [fs So]. destruct (pr_sound' _ _ _ _ Pr) as [fs' So'].
  assert (Rd := sound_ready _ _ _ _ _ _ So Ei). assert (Rd' := sound_ready _ _ _ _ _ _ So' Ei').
  assert (Snd : forall s1, step_line e s l = Ok s1 -> exists g, sound e s1 (done ++ [l]) g) by (intros s1 H; destruct (sound_step _ _ _ _ _ _ _ N So Ei H) as (x & _ & Y); eauto).
  assert (Snd' : forall s1, step_line e' s' l' = Ok s1 -> exists g, sound e' s1 (done' ++ [l']) g) by (intros s1 H; destruct (sound_step _ _ _ _ _ _ _ N' So' Ei' H) as (x & _ & Y); eauto).
  rewrite (step_eq e s l N) in *. rewrite (step_eq e' s' l' N') in *.
  assert (Len := paired_length _ _ _ _ Pr). destruct Pr as [_ _ Pi Pl Pn Pn' Plo Pd Pe Px].
  destruct (role_of l) as [|k|] eqn:R, (role_of l') as [|k'|] eqn:R'; try (now destruct Sl).
  - destruct (Snd _ eq_refl) as [g Sg]. destruct (Snd' _ eq_refl) as [g' Sg']. cbn [both]. constructor; cbn [bump p_insts p_labels p_local p_dropped p_errors p_line]; eauto.
    intros X. destruct (Px X) as [-> ->]. auto.
  - subst k'. assert (Pb : both eq (parse_label e (bump s) k) (parse_label e' (bump s') k) \/ exists p q, parse_label e (bump s) k = Err p /\ parse_label e' (bump s') k = Err q /\ akin p q).
    { unfold parse_label, fail_at. rewrite (get_line_ready e (bump s) l Rd), (get_line_ready e' (bump s') l' Rd'). cbn [obind bump p_labels].
      destruct k as [|c k]; [left; reflexivity|]. destruct (is_digit c).
      - right. eexists _, _. split; [reflexivity|]. split; [reflexivity|]. apply akin_unplaced; [reflexivity|]. intros X. cbn. destruct (Px X) as [-> _]. now rewrite (Xl X).
      - rewrite <- Pl. destruct (assoc (c :: k) (p_labels s)) as [j|] eqn:A; [|left; reflexivity]. right.
        destruct (first_line e s done fs (c :: k) j l rest So Ei A) as [x Nx]. rewrite Pl in A. destruct (first_line e' s' done' fs' (c :: k) j l' rest' So' Ei' A) as [x' Nx']. rewrite Nx, Nx'.
        eexists _, _. split; [reflexivity|]. split; [reflexivity|]. unfold akin. destruct exact eqn:Ee; [|reflexivity].
        destruct (Hex eq_refl) as [Hi _]. destruct (Px eq_refl) as [Hl _]. cbn [p_line bump]. rewrite Hl, (Xl eq_refl). rewrite Hi, Nx' in Nx. injection Nx as ->. reflexivity. }
    destruct Pb as [Pb|(p & q & P & Q & Ak)].
    + destruct (parse_label e (bump s) k) as [k1|p|p], (parse_label e' (bump s') k) as [k2|q|q]; try (now destruct Pb).
      destruct (Snd _ eq_refl) as [g Sg]. destruct (Snd' _ eq_refl) as [g' Sg']. cbn [both]. destruct (is_local k).
      * constructor; cbn [add_local bump p_insts p_labels p_local p_dropped p_errors p_line]; eauto.
        -- now apply insert_nodup.
        -- now apply insert_nodup.
        -- intros n. rewrite !assoc_insert. unfold scope_of. cbn [bump p_labels]. now rewrite Len, Pl, Plo.
        -- intros X. destruct (Px X) as [-> ->]. auto.
      * constructor; eauto.
        -- cbn [flush_locals add_label bump p_labels p_insts]. now rewrite Len, Pl.
        -- constructor.
        -- constructor.
        -- apply flush_alike; assumption.
        -- intros X. cbn [flush_locals add_label bump p_line p_insts]. destruct (Px X) as [-> ->]. auto.
    + rewrite P, Q in *. destruct (Snd _ eq_refl) as [g Sg]. destruct (Snd' _ eq_refl) as [g' Sg']. cbn [both].
      constructor; cbn [add_error bump p_insts p_labels p_local p_dropped p_errors p_line]; eauto.
      * apply Forall2_app; [exact Pe|]. constructor; [exact Ak|constructor].
      * intros X. destruct (Px X) as [-> ->]. auto.
  - assert (Ak : alike e e' (bump s) (bump s') l l').
    { constructor; auto. intros n. cbn [bump p_labels]. now rewrite Pl. }
    specialize (Sl _ _ Ak). unfold same, same_result in Sl.
    destruct (parse_inst e (bump s) (clean l)) as [w [i|p|p]], (parse_inst e' (bump s') (clean l')) as [w' [i'|p'|p']]; cbn [snd] in Sl; try (now destruct Sl).
    + subst i'. destruct (Snd _ eq_refl) as [g Sg]. destruct (Snd' _ eq_refl) as [g' Sg']. cbn [both].
      constructor; cbn [add_inst add_warnings bump p_insts p_labels p_local p_dropped p_errors p_line]; eauto.
      * now rewrite !map_app, Pi.
      * intros X. destruct (Px X) as [-> ->]. auto.
    + destruct Sl as (U & L1 & L2 & _). destruct (Snd _ eq_refl) as [g Sg]. destruct (Snd' _ eq_refl) as [g' Sg']. cbn [both].
      constructor; cbn [add_error add_warnings bump p_insts p_labels p_local p_dropped p_errors p_line]; eauto.
      * apply Forall2_app; [exact Pe|]. constructor; [|constructor]. apply akin_unplaced; [exact U|]. intros X. rewrite L1, L2. cbn [bump p_line]. destruct (Px X) as [-> _]. now rewrite (Xl X).
      * intros X. destruct (Px X) as [-> ->]. auto.
Qed.

Lemma scan_both ls ls' : matched ls ls' -> Forall no_nl ls -> Forall no_nl ls' -> forall s s' done done', paired s s' done done' -> e_input e = done ++ ls -> e_input e' = done' ++ ls' ->
  both (fun s s' => paired s s' (done ++ ls) (done' ++ ls')) (scan_lines e s ls) (scan_lines e' s' ls').
Proof.
  induction 1 as [|l ls ls' Ef R M IH|l ls ls' Ef R M IH|l l' ls ls' Sl M IH]; intros N N' s s' done done' Pr Ei Ei'.
  - cbn [scan_lines both]. now rewrite !app_nil_r.
  - cbn [scan_lines]. assert (Nl := Forall_inv N). destruct (pr_sound _ _ _ _ Pr) as [fs So].
    destruct (step_line e s l) as [s1|p|p] eqn:St; rewrite (step_eq e s l Nl), R in St; try discriminate. injection St as <-.
    assert (St : step_line e s l = Ok (bump s)) by (rewrite (step_eq e s l Nl), R; reflexivity).
    destruct (sound_step _ _ _ _ _ _ _ Nl So Ei St) as (x & _ & So1). cbn [obind].
    replace (done ++ l :: ls) with ((done ++ [l]) ++ ls) by (rewrite <- app_assoc; reflexivity).
    apply IH; [exact (Forall_inv_tail N)|exact N'| |now rewrite <- app_assoc|exact Ei'].
    destruct Pr. constructor; cbn [bump p_insts p_labels p_local p_dropped p_errors p_line]; eauto. intros X. congruence.
  - cbn [scan_lines]. assert (Nl := Forall_inv N'). destruct (pr_sound' _ _ _ _ Pr) as [fs So].
    destruct (step_line e' s' l) as [s1|p|p] eqn:St; rewrite (step_eq e' s' l Nl), R in St; try discriminate. injection St as <-.
    assert (St : step_line e' s' l = Ok (bump s')) by (rewrite (step_eq e' s' l Nl), R; reflexivity).
    destruct (sound_step _ _ _ _ _ _ _ Nl So Ei' St) as (x & _ & So1). cbn [obind].
    replace (done' ++ l :: ls') with ((done' ++ [l]) ++ ls') by (rewrite <- app_assoc; reflexivity).
    apply IH; [exact N|exact (Forall_inv_tail N')| |exact Ei|now rewrite <- app_assoc].
    destruct Pr. constructor; cbn [bump p_insts p_labels p_local p_dropped p_errors p_line]; eauto. intros X. congruence.
  - cbn [scan_lines]. assert (X := step_both s s' done done' l l' ls ls' (Forall_inv N) (Forall_inv N') Pr Ei Ei' Sl).
    destruct (step_line e s l) as [s1|p|p], (step_line e' s' l') as [s1'|p'|p']; try (now destruct X). cbn [both obind] in *.
    replace (done ++ l :: ls) with ((done ++ [l]) ++ ls) by (rewrite <- app_assoc; reflexivity).
    replace (done' ++ l' :: ls') with ((done' ++ [l']) ++ ls') by (rewrite <- app_assoc; reflexivity).
    apply IH; [exact (Forall_inv_tail N)|exact (Forall_inv_tail N')|exact X|now rewrite <- app_assoc|now rewrite <- app_assoc].
Qed.

(** Label resolution. *)
Record settled (s s' : pstate) : Prop := mk_settled {
  sl_labels : p_labels s = p_labels s';
  sl_length : List.length (p_insts s) = List.length (p_insts s');
  sl_dropped : forall n, assoc n (p_dropped s) = assoc n (p_dropped s');
  sl_line : nth_error (e_input e) (p_line s - 1) <> None \/ p_insts s = [];
  sl_line' : nth_error (e_input e') (p_line s' - 1) <> None \/ p_insts s' = [];
  sl_exact : exact = true -> p_line s = p_line s'
}.
Lemma scope_both s s' n : settled s s' -> get_label_scope s n = get_label_scope s' n.
Proof. intros S. unfold get_label_scope. rewrite (sl_labels _ _ S), (sl_length _ _ S). reflexivity. Qed.
Lemma pick_both s s' i defs : settled s s' -> pick_local s i defs = pick_local s' i defs.
Proof. intros S. induction defs as [|[a n] defs IH]; [reflexivity|]. cbn [pick_local]. rewrite (scope_both s s' n S). destruct (get_label_scope s' n); cbn [obind]; try reflexivity. now rewrite IH. Qed.
Lemma get_line_some en n : nth_error (e_input en) (n - 1) <> None -> exists c, get_line en n = Ok (mk_line n c) /\ nth_error (e_input en) (n - 1) = Some c.
Proof. unfold get_line. destruct (nth_error (e_input en) (n - 1)); [eauto|congruence]. Qed.
Lemma pick_no_error s i defs p : pick_local s i defs <> Err p.
Proof.
  induction defs as [|[a n] defs IH]; cbn [pick_local]; [discriminate|].
  assert (G : forall q, get_label_scope s n <> Err q).
  { intros q. unfold get_label_scope. destruct n as [|c n]; [discriminate|]. destruct (assoc (c :: n) (p_labels s)), (index_of (c :: n) (p_labels s)); try discriminate. destruct (nth_error (p_labels s) _) as [[? ?]|]; discriminate. }
  destruct (get_label_scope s n) as [lu|q|q]; cbn [obind]; [|now destruct (G q)|discriminate]. destruct (_ || _)%bool; [exact IH|discriminate].
Qed.

Definition out_pair (x y : inst * list perror) : Prop := fst x = fst y /\ Forall2 akin (snd x) (snd y).
Lemma adjust_both s s' i n n' ins : settled s s' -> p_insts s <> [] -> (exact = true -> n = n') -> nth_error (e_input e) (n - 1) <> None -> nth_error (e_input e') (n' - 1) <> None ->
  both out_pair (adjust_one e s i n ins) (adjust_one e' s' i n' ins).
Proof.
  intros S Ne Xn V V'. assert (Ne' : p_insts s' <> []) by (intros Z; apply Ne; apply length_zero_iff_nil; rewrite (sl_length _ _ S), Z; reflexivity).
  destruct (get_line_some e n V) as (c & Gl & Nc). destruct (get_line_some e' n' V') as (c' & Gl' & Nc').
  assert (Xc : exact = true -> mk_line n c = mk_line n' c').
  { intros X. rewrite (Xn X) in *. destruct (Hex X) as [Hi _]. rewrite Hi, Nc' in Nc. injection Nc as ->. reflexivity. }
  assert (Same : forall x, @both _ perror out_pair (Ok (x, [])) (Ok (x, []))) by (intros x; split; [reflexivity|apply Forall2_nil]).
  destruct ins as [op rs rt imm b|op t b|op rs rt rd sa b|w]; cbn [adjust_one]; try apply Same.
  - destruct imm as [v|v|v|loc|lbl]; try apply Same.
    + destruct (negb (is_b_op op)); [apply Same|]. cbv zeta. rewrite (sl_length _ _ S), Hoc, Hbase.
      set (bound := do! m <- @ck32 perror (e_oc e') (wrap 32 (Z.of_nat (List.length (p_insts s'))) * 4); ck32 (e_oc e') (e_base e' + m)).
      assert (Nb : forall p, bound <> Err p).
      { intros p. unfold bound, ck32. destruct (_ && _)%bool; cbn [obind]; [destruct (_ && _)%bool; [discriminate|destruct (e_oc e'); discriminate]|].
        destruct (e_oc e'); cbn [obind]; [discriminate|]. destruct (_ && _)%bool; discriminate. }
      assert (Bd : exists bad, (if v <? e_base e' then Ok true else do! hi <- bound; Ok (v >? hi)) = Ok bad \/ exists p, bound = Panic p /\ (if v <? e_base e' then Ok true else do! hi <- bound; Ok (v >? hi)) = @Panic perror _ p).
      { destruct (v <? e_base e'); [exists true; now left|]. destruct bound as [hi|p|p]; [exists (v >? hi); now left|now destruct (Nb p)|exists true; right; eauto]. }
      destruct Bd as (bad & [Bd|(p & Bp & Bd)]); rewrite Bd; cbn [obind]; [|reflexivity].
      destruct bad; [|split; [reflexivity|apply Forall2_nil]].
      destruct (sl_line _ _ S) as [Ll|Z]; [|contradiction]. destruct (sl_line' _ _ S) as [Ll'|Z]; [|contradiction].
      destruct (get_line_some e _ Ll) as (d & Gd & Nd). destruct (get_line_some e' _ Ll') as (d' & Gd' & Nd'). rewrite Gl, Gl', Gd, Gd'. cbn [obind].
      destruct bound as [hi|p|p]; [|now destruct (Nb p)|reflexivity]. cbn [obind]. split; [reflexivity|]. apply Forall2_cons; [|apply Forall2_nil]. unfold akin. destruct exact eqn:Ee; [|reflexivity].
      assert (E1 := Xc eq_refl). injection E1 as _ ->. destruct (Hex eq_refl) as [Hi _]. rewrite (sl_exact _ _ S Ee) in *. rewrite Hi, Nd' in Nd. injection Nd as ->. reflexivity.
    + rewrite (sl_dropped _ _ S loc). destruct (assoc loc (p_dropped s')) as [defs|].
      * rewrite (pick_both s s' i defs S). destruct (pick_local s' i defs) as [[a|]|p|p] eqn:Pk; cbn [obind]; [split; [reflexivity|apply Forall2_nil]| |now destruct (pick_no_error s' i defs p)|reflexivity].
        rewrite Gl, Gl'. split; [reflexivity|]. apply Forall2_cons; [|apply Forall2_nil]. apply akin_unplaced; [reflexivity|exact Xc].
      * rewrite Gl, Gl'. split; [reflexivity|]. apply Forall2_cons; [|apply Forall2_nil]. apply akin_unplaced; [reflexivity|exact Xc].
    + rewrite (sl_labels _ _ S). destruct (assoc lbl (p_labels s')); [split; [reflexivity|apply Forall2_nil]|reflexivity].
  - destruct t as [lbl|a]; [|apply Same]. rewrite (sl_labels _ _ S), Hoc, Hbase. destruct (assoc lbl (p_labels s')) as [k|].
    + assert (Ck : forall v q, @ck32 perror (e_oc e') v <> Err q) by (intros v q; unfold ck32; destruct (_ && _)%bool; [discriminate|destruct (e_oc e'); discriminate]).
      destruct (@ck32 perror (e_oc e') (wrap 32 (Z.of_nat k) * 4)) as [m|p|p] eqn:C1; cbn [obind]; [|now destruct (Ck _ _ C1)|reflexivity].
      destruct (@ck32 perror (e_oc e') (e_base e' + m)) as [a|p|p] eqn:C2; cbn [obind]; [split; [reflexivity|apply Forall2_nil]|now destruct (Ck _ _ C2)|reflexivity].
    + rewrite Gl, Gl'. split; [reflexivity|]. apply Forall2_cons; [|apply Forall2_nil]. apply akin_unplaced; [reflexivity|exact Xc].
Qed.
Definition outs_pair (x y : list inst * list perror) : Prop := fst x = fst y /\ Forall2 akin (snd x) (snd y).
Lemma adjusts_both s s' l : settled s s' -> p_insts s <> [] -> forall l' i, map snd l = map snd l' -> (exact = true -> map fst l = map fst l') ->
  (forall k x, In (k, x) l -> nth_error (e_input e) (k - 1) <> None) -> (forall k x, In (k, x) l' -> nth_error (e_input e') (k - 1) <> None) ->
  both outs_pair (adjust_from e s i l) (adjust_from e' s' i l').
Proof.
  intros S Ne. induction l as [|[n ins] l IH]; intros [|[n' ins'] l'] i E X V V'; try discriminate; [split; [reflexivity|apply Forall2_nil]|].
  cbn [map snd] in E. injection E as -> E. cbn [adjust_from].
  assert (H1 := adjust_both s s' i n n' ins' S Ne ltac:(intros Y; specialize (X Y); cbn in X; now injection X) (V _ _ (or_introl eq_refl)) (V' _ _ (or_introl eq_refl))).
  assert (H2 := IH l' (Datatypes.S i) E ltac:(intros Y; specialize (X Y); cbn in X; now injection X) ltac:(intros; eapply V; right; eauto) ltac:(intros; eapply V'; right; eauto)).
  destruct (adjust_one e s i n ins') as [[x1 e1]|p|p], (adjust_one e' s' i n' ins') as [[x2 e2]|q|q]; try (now destruct H1). cbn [obind].
  destruct (adjust_from e s (Datatypes.S i) l) as [[r1 f1]|p|p], (adjust_from e' s' (Datatypes.S i) l') as [[r2 f2]|q|q]; try (now destruct H2).
  destruct H1 as [A1 A2], H2 as [B1 B2]. cbn [fst snd] in *. split; cbn [fst snd]; [congruence|]. now apply Forall2_app.
Qed.
End ProgCong.

Definition same_outcome (exact : bool) (f : str -> str) (x y : outcome (list perror) (list inst)) : Prop :=
  match x, y with
  | Ok a, Ok b => a = b
  | Err es, Err es' => Forall2 (akin exact f) es es'
  | Panic a, Panic b => a = b
  | _, _ => False
  end.
Lemma paired_init e e' exact f : paired e e' exact f init_state init_state [] [].
Proof. constructor; try reflexivity; [exists []; apply sound_init|exists []; apply sound_init|constructor|constructor|constructor|auto]. Qed.
Lemma insts_placed e s ls fs : e_input e = ls -> sound e s ls fs -> forall k x, In (k, x) (p_insts s) -> nth_error (e_input e) (k - 1) <> None.
Proof.
  intros Ei So k x I. rewrite (so_insts _ _ _ _ So) in I. apply mades_in in I as (j & Nj & ->). cbn [Nat.add]. rewrite Nat.sub_succ, Nat.sub_0_r.
  assert (J : (j < List.length fs)%nat) by (apply nth_error_Some; congruence). rewrite (so_fates _ _ _ _ So), <- Ei in J. apply nth_error_Some. exact J.
Qed.
Lemma last_placed e s ls fs : e_input e = ls -> sound e s ls fs -> nth_error (e_input e) (p_line s - 1) <> None \/ p_insts s = [].
Proof.
  intros Ei So. rewrite (so_line _ _ _ _ So), (so_insts _ _ _ _ So), Ei. assert (L := so_fates _ _ _ _ So). destruct fs as [|x fs]; [now right|left].
  cbn in L. apply nth_error_Some. lia.
Qed.
Lemma assoc_empty {V} (m : list (str * V)) : m = [] <-> forall n, assoc n m = None.
Proof. split; [intros ->; reflexivity|]. destruct m as [|[k v] m]; [reflexivity|]. intros H. specialize (H k). cbn in H. rewrite str_eqb_refl in H. discriminate. Qed.

Theorem assemble_both rt rt' m m' input input' exact f : rt_oc rt = rt_oc rt' -> m_base m = m_base m' ->
  (forall t, option_map fst (find (fun av => str_eqb (snd av) t) (m_syms m)) = option_map fst (find (fun av => str_eqb (snd av) t) (m_syms m'))) ->
  orders rt -> orders rt' -> (exact = true -> input = input' /\ forall t, f t = t) ->
  matched (mk_parser rt m input) (mk_parser rt' m' input') exact f (lines input) (lines input') ->
  same_outcome exact f (assemble rt m input) (assemble rt' m' input').
Proof.
  intros Oc Ba Sy Or Or' Ex M. unfold assemble, parse. set (e := mk_parser rt m input) in *. set (e' := mk_parser rt' m' input') in *.
  change (e_input e) with (lines input). change (e_input e') with (lines input').
  assert (Hex : exact = true -> e_input e = e_input e' /\ forall t, f t = t) by (intros X; destruct (Ex X) as [-> F]; split; [reflexivity|exact F]).
  assert (H := scan_both e e' exact f Oc Sy Or Or' Hex (lines input) (lines input') M (nl_of_lines _) (nl_of_lines _) init_state init_state [] [] (paired_init e e' exact f) eq_refl eq_refl).
  destruct (scan_lines e init_state (lines input)) as [s|p|p], (scan_lines e' init_state (lines input')) as [s'|p'|p']; try (now destruct H). cbn [both app obind] in *.
  assert (Len := paired_length _ _ _ _ _ _ _ _ H). destruct H as [[fs So] [fs' So'] Pi Pl Pn Pn' Plo Pd Pe Px].
  fold (final e s) (final e' s'). destruct (final_same e s) as (F1 & F2 & F3 & F4 & F5). destruct (final_same e' s') as (G1 & G2 & G3 & G4 & G5).
  assert (St : settled e e' exact (final e s) (final e' s')).
  { constructor; rewrite ?F1, ?F2, ?F4, ?G1, ?G2, ?G4; auto.
    - intros n. unfold final. assert (Em : p_dropped s = [] <-> p_dropped s' = []).
      { rewrite !assoc_empty. split; intros Z k; [rewrite <- Pd|rewrite Pd]; apply Z. }
      destruct (p_dropped s) as [|x d] eqn:Ed, (p_dropped s') as [|x' d'] eqn:Ed'; [now rewrite Ed, Ed'|destruct Em as [Em _]; discriminate (Em eq_refl)|destruct Em as [_ Em]; discriminate (Em eq_refl)|].
      apply flush_alike; auto. intros k. rewrite Ed, Ed'. apply Pd.
    - apply (last_placed e s (lines input) fs eq_refl So).
    - apply (last_placed e' s' (lines input') fs' eq_refl So').
    - intros X. apply (Px X). }
  assert (A : both (outs_pair exact f) (adjust_from e (final e s) 0 (p_insts s)) (adjust_from e' (final e' s') 0 (p_insts s'))).
  { destruct (p_insts s) as [|x l] eqn:El.
    - destruct (p_insts s'); [|discriminate]. split; [reflexivity|apply Forall2_nil].
    - rewrite <- El in *. apply adjusts_both; auto; [rewrite F1, El; discriminate|intros X; destruct (Px X) as [_ ->]; reflexivity| |].
      + apply (insts_placed e s (lines input) fs eq_refl So).
      + apply (insts_placed e' s' (lines input') fs' eq_refl So'). }
  rewrite F1, G1, F3, G3. destruct (adjust_from e (final e s) 0 (p_insts s)) as [[is1 es]|p|p], (adjust_from e' (final e' s') 0 (p_insts s')) as [[is2 es']|p'|p']; try (now destruct A).
  destruct A as [A1 A2]. cbn [fst snd obind] in *. subst is2. assert (Pes : Forall2 (akin exact f) (p_errors s ++ es) (p_errors s' ++ es')) by (now apply Forall2_app).
  destruct (p_errors s ++ es) as [|q qs], (p_errors s' ++ es') as [|q' qs']; try (now inversion Pes).
  rewrite Oc. destruct (assemble_insts (rt_oc rt') is1); cbn; reflexivity.
Qed.
