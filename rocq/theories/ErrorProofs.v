(** * ErrorProofs: the errors of a program (proofs only). *)

From Coq Require Import Lia Sorted.
From Verif Require Import Lib SpecIsa StrLemmas NumLemmas DecodeProofs TextProofs OperandProofs NativeProofs LineProofs ScanProofs ProgProofs BranchProofs CongProofs SpecErrors SpecText SpecProgram.

(** ** What becomes of each line *)

Inductive fate := Quiet | Wrong (p : perror) | Made (i : inst).
Fixpoint wrongs (fs : list fate) : list perror :=
  match fs with [] => [] | Wrong p :: r => p :: wrongs r | _ :: r => wrongs r end.
Fixpoint mades (n : nat) (fs : list fate) : list (nat * inst) :=
  match fs with [] => [] | Made i :: r => (S n, i) :: mades (S n) r | _ :: r => mades (S n) r end.
Fixpoint made_count (fs : list fate) : nat :=
  match fs with [] => O | Made _ :: r => S (made_count r) | _ :: r => made_count r end.

Lemma wrongs_app a b : wrongs (a ++ b) = wrongs a ++ wrongs b.
Proof. induction a as [|[] a IH]; cbn; congruence. Qed.
Lemma mades_app n a b : mades n (a ++ b) = mades n a ++ mades (n + List.length a) b.
Proof.
  revert n. induction a as [|x a IH]; intros n; [cbn; now rewrite Nat.add_0_r|].
  cbn [app mades List.length]. rewrite IH, Nat.add_succ_r, Nat.add_succ_l. destruct x; reflexivity.
Qed.
Lemma mades_count n fs : List.length (mades n fs) = made_count fs.
Proof. revert n. induction fs as [|[] fs IH]; intros n; cbn; auto. Qed.
Lemma made_count_app a b : made_count (a ++ b) = (made_count a + made_count b)%nat.
Proof. induction a as [|[] a IH]; cbn; auto. Qed.
Lemma made_count_le fs : (made_count fs <= List.length fs)%nat.
Proof. induction fs as [|[] fs IH]; cbn; lia. Qed.

(** The labels that count: those of the lines accepted. *)
Fixpoint fate_table (k : nat) (ls : list str) (fs : list fate) : list (str * nat) :=
  match ls, fs with
  | l :: r, x :: fr =>
      match x with
      | Made _ => fate_table (S k) r fr
      | Wrong _ => fate_table k r fr
      | Quiet => match role_of l with Defines n => if is_local n then fate_table k r fr else (n, k) :: fate_table k r fr | _ => fate_table k r fr end
      end
  | _, _ => []
  end.
Lemma fate_table_app k a fa b fb : List.length fa = List.length a -> fate_table k (a ++ b) (fa ++ fb) = fate_table k a fa ++ fate_table (k + made_count fa) b fb.
Proof.
  revert k fa. induction a as [|l a IH]; intros k [|x fa] L; try discriminate; [cbn; now rewrite Nat.add_0_r|]. cbn in L. injection L as L.
  cbn [app fate_table made_count]. destruct x.
  - destruct (role_of l); [now apply IH| |now apply IH]. destruct (is_local label); cbn; [|f_equal]; now apply IH.
  - now apply IH.
  - rewrite IH by exact L. now rewrite Nat.add_succ_r.
Qed.

(** [fits_line e s raw x]: what line [raw] does in state [s]. *)
Definition new_label (s : pstate) (k : str) : Prop := assoc k (p_labels s) = None.
Inductive fated (e : env) (s : pstate) (raw : str) : fate -> Prop :=
| ft_empty : role_of raw = Empty -> fated e s raw Quiet
| ft_label k : role_of raw = Defines k -> label_ok s k -> fated e s raw Quiet
| ft_digit k c r : role_of raw = Defines k -> k = c :: r -> is_digit c = true ->
    fated e s raw (Wrong (EInvalidLabel (mk_line (S (p_line s)) raw) k))
| ft_twice k j fl : role_of raw = Defines k -> good_label k -> assoc k (p_labels s) = Some j -> nth_error (e_input e) j = Some fl ->
    fated e s raw (Wrong (EMultipleLabelDefinition (mk_line (S (p_line s)) raw) k (mk_line (S j) fl)))
| ft_inst w i : role_of raw = Instruction -> parse_inst e (bump s) (clean raw) = (w, Ok i) -> fated e s raw (Made i)
| ft_wrong w p : role_of raw = Instruction -> parse_inst e (bump s) (clean raw) = (w, Err p) ->
    error_line p = mk_line (S (p_line s)) raw -> line_error p = true -> fated e s raw (Wrong p).

(** The state after [done] lines. *)
Record sound (e : env) (s : pstate) (done : list str) (fs : list fate) : Prop := mk_sound {
  so_line : p_line s = List.length done;
  so_fates : List.length fs = List.length done;
  so_insts : p_insts s = mades 0 fs;
  so_errors : p_errors s = wrongs fs;
  so_table : p_labels s = fate_table 0 done fs;
  so_wrong : forall k p, nth_error fs k = Some (Wrong p) -> reference_error p = false /\ error_number p = S k /\ nth_error done k = Some (l_content (error_line p));
  so_labels : forall n k, In (n, k) (p_labels s) -> (k <= made_count fs)%nat /\ good_label n /\ is_local n = false;
  so_names : forall n, good_label n -> is_local n = false -> (In n (map fst (p_labels s)) <-> In n (map fst (label_table 0 done)))
}.

Lemma wrong_snoc done fs raw x : List.length fs = List.length done ->
  (forall k p, nth_error fs k = Some (Wrong p) -> reference_error p = false /\ error_number p = S k /\ nth_error done k = Some (l_content (error_line p))) ->
  (forall p, x = Wrong p -> reference_error p = false /\ error_number p = S (List.length fs) /\ raw = l_content (error_line p)) ->
  forall k p, nth_error (fs ++ [x]) k = Some (Wrong p) -> reference_error p = false /\ error_number p = S k /\ nth_error (done ++ [raw]) k = Some (l_content (error_line p)).
Proof.
  intros L H X k p N. assert (B : (k < List.length (fs ++ [x]))%nat) by (apply nth_error_Some; congruence). rewrite app_length in B. cbn in B.
  destruct (Nat.eq_dec k (List.length fs)) as [->|Ne].
  - rewrite nth_error_app2, Nat.sub_diag in N by lia. cbn in N. injection N as ->. destruct (X p eq_refl) as (A & C & D). rewrite L, nth_error_app2, Nat.sub_diag by lia.
    cbn. rewrite <- L. repeat split; auto. now rewrite D.
  - rewrite nth_error_app1 in N by lia. rewrite nth_error_app1 by lia. auto.
Qed.

Lemma sound_init e : sound e init_state [] [].
Proof. constructor; try reflexivity. - intros [|k] p; discriminate. - intros n k []. Qed.

Lemma sound_ready e s done fs raw rest : sound e s done fs -> e_input e = done ++ raw :: rest -> ready e (bump s) raw.
Proof.
  intros H Ei. apply (after_ready e done raw rest); [exact Ei|]. split; [apply H|].
  destruct H as [L F I _ _ _ _ _]. rewrite I, mades_count. assert (X := made_count_le fs). lia.
Qed.

Lemma assoc_names {V} n (m : list (str * V)) : assoc n m = None <-> ~ In n (map fst m).
Proof.
  induction m as [|[k v] m IH]; cbn; [tauto|]. destruct (str_eqb n k) eqn:E.
  - apply str_eqb_spec in E. subst k. split; [discriminate|intros H; exfalso; apply H; now left].
  - rewrite IH. split; [|tauto]. intros H [->|I]; [now rewrite str_eqb_refl in E|tauto].
Qed.

Lemma names_snoc done raw : map fst (label_table 0 (done ++ [raw])) =
  map fst (label_table 0 done) ++ match role_of raw with Defines n => if is_local n then [] else [n] | _ => [] end.
Proof.
  rewrite label_table_app, map_app. cbn [label_table]. destruct (role_of raw) as [|n|]; try reflexivity. destruct (is_local n); reflexivity.
Qed.

Ltac plain := constructor; unfold bump, flush_locals, add_label, add_local, add_error, add_warnings, add_inst; cbn [p_line p_insts p_errors p_labels].
Lemma sound_step e s done fs raw rest s' : no_nl raw -> sound e s done fs -> e_input e = done ++ raw :: rest -> step_line e s raw = Ok s' ->
  exists x, fated e s raw x /\ sound e s' (done ++ [raw]) (fs ++ [x]).
Proof.
  intros N So Ei St. assert (Rd := sound_ready _ _ _ _ _ _ So Ei). apply step_view in St; [|exact N].
  assert (Sn : forall x, List.length (fs ++ [x]) = List.length (done ++ [raw])) by (intros x; rewrite !app_length; cbn; now rewrite (so_fates _ _ _ _ So)).
  destruct So as [L F I E T Wr Lb Nm].
  destruct St as [R|k R Lc P|k R Lc P|k p R P|w i R P|w p R P].
  - exists Quiet. split; [now apply ft_empty|]. plain.
    + rewrite app_length, L. cbn. lia.
    + apply Sn.
    + rewrite mades_app, I. cbn. now rewrite app_nil_r.
    + rewrite wrongs_app, E. cbn. now rewrite app_nil_r.
    + rewrite (fate_table_app 0 done fs [raw]) by exact F. cbn [fate_table]. now rewrite R, T, app_nil_r.
    + apply wrong_snoc; auto. intros p D; discriminate D.
    + intros n k J. rewrite made_count_app. cbn [made_count]. rewrite Nat.add_0_r. auto.
    + intros n G Gl. rewrite names_snoc, R, app_nil_r. auto.
  - exists Quiet. split; [eapply ft_label; eauto|]. plain.
    + rewrite app_length, L. cbn. lia.
    + apply Sn.
    + rewrite mades_app, I. cbn. now rewrite app_nil_r.
    + rewrite wrongs_app, E. cbn. now rewrite app_nil_r.
    + rewrite (fate_table_app 0 done fs [raw]) by exact F. cbn [fate_table]. now rewrite R, Lc, T, I, mades_count.
    + apply wrong_snoc; auto. intros p D; discriminate D.
    + intros n j J. rewrite made_count_app. cbn [made_count]. rewrite Nat.add_0_r. apply in_app_or in J as [J|[J|[]]]; [auto|]. injection J as <- <-.
      rewrite I, mades_count. split; [lia|]. split; [apply P|exact Lc].
    + intros n G Gl. rewrite names_snoc, R, Lc, map_app, !in_app_iff, Nm by assumption. reflexivity.
  - exists Quiet. split; [eapply ft_label; eauto|]. plain.
    + rewrite app_length, L. cbn. lia.
    + apply Sn.
    + rewrite mades_app, I. cbn. now rewrite app_nil_r.
    + rewrite wrongs_app, E. cbn. now rewrite app_nil_r.
    + rewrite (fate_table_app 0 done fs [raw]) by exact F. cbn [fate_table]. now rewrite R, Lc, T, app_nil_r.
    + apply wrong_snoc; auto. intros p D; discriminate D.
    + intros n j J. rewrite made_count_app. cbn [made_count]. rewrite Nat.add_0_r. auto.
    + intros n G Gl. rewrite names_snoc, R, Lc, app_nil_r. auto.
  - assert (X : fated e s raw (Wrong p) /\ (good_label k -> is_local k = false -> In k (map fst (label_table 0 done)))).
    { unfold parse_label, fail_at in P. destruct k as [|c r]; [discriminate|].
      assert (G : get_line e (p_line (bump s)) = Ok (mk_line (S (p_line s)) raw)).
      { unfold get_line. destruct Rd as [-> _]. reflexivity. }
      destruct (is_digit c) eqn:D.
      - rewrite G in P. cbn [obind] in P. injection P as <-. split; [eapply ft_digit; eauto|]. intros Gk. cbn in Gk. congruence.
      - change (p_labels (bump s)) with (p_labels s) in P. destruct (assoc (c :: r) (p_labels s)) as [j|] eqn:As; [|discriminate].
        rewrite G in P. cbn [obind] in P. destruct (nth_error (e_input e) j) as [fl|] eqn:Nj; [|discriminate]. injection P as <-.
        split; [eapply ft_twice; eauto; exact D|]. intros Gk Gl. apply Nm; [exact Gk|exact Gl|]. apply assoc_in in As. now apply (in_map fst) in As. }
    destruct X as [X Dup]. exists (Wrong p). split; [exact X|]. plain.
    + rewrite app_length, L. cbn. lia.
    + apply Sn.
    + rewrite mades_app, I. cbn. now rewrite app_nil_r.
    + rewrite wrongs_app, E. reflexivity.
    + rewrite (fate_table_app 0 done fs [raw]) by exact F. cbn [fate_table]. now rewrite T, app_nil_r.
    + apply wrong_snoc; auto. intros q D; injection D as <-. rewrite F, <- L. inversion X; subst; cbn [error_line reference_error]; auto. match goal with H : line_error _ = true |- _ => apply andb_true_iff in H as [H _]; apply negb_true_iff in H; rewrite H end. match goal with H : error_line _ = _ |- _ => unfold error_number; rewrite H end. auto.
    + intros n j J. rewrite made_count_app. cbn [made_count]. rewrite Nat.add_0_r. auto.
    + intros n G Gl. rewrite names_snoc, R. rewrite Nm by assumption. destruct (is_local k) eqn:Lk; [now rewrite app_nil_r|].
      rewrite in_app_iff. split; [tauto|]. intros [J|[<-|[]]]; auto.
  - exists (Made i). split; [eapply ft_inst; eauto|]. plain.
    + rewrite app_length, L. cbn. lia.
    + apply Sn.
    + rewrite mades_app, I. cbn. rewrite L, F. reflexivity.
    + rewrite wrongs_app, E. cbn. now rewrite app_nil_r.
    + rewrite (fate_table_app 0 done fs [raw]) by exact F. cbn [fate_table]. now rewrite T, app_nil_r.
    + apply wrong_snoc; auto. intros q D; discriminate D.
    + intros n j J. rewrite made_count_app. cbn [made_count]. destruct (Lb n j J). split; [lia|auto].
    + intros n G Gl. rewrite names_snoc, R, app_nil_r. auto.
  - destruct (inst_error_line e (bump s) raw (clean raw) w p Rd (clean_part raw) P) as [El Ek].
    exists (Wrong p). split; [eapply ft_wrong; eauto|].
    plain.
    + rewrite app_length, L. cbn. lia.
    + apply Sn.
    + rewrite mades_app, I. cbn. now rewrite app_nil_r.
    + rewrite wrongs_app, E. reflexivity.
    + rewrite (fate_table_app 0 done fs [raw]) by exact F. cbn [fate_table]. now rewrite T, app_nil_r.
    + apply wrong_snoc; auto. intros q D; injection D as <-. rewrite F, <- L. apply andb_true_iff in Ek as [Ek _]. apply negb_true_iff in Ek. unfold error_number. rewrite El. auto.
    + intros n j J. rewrite made_count_app. cbn [made_count]. rewrite Nat.add_0_r. auto.
    + intros n G Gl. rewrite names_snoc, R, app_nil_r. auto.
Qed.

Lemma sound_scan e ls : Forall no_nl ls -> forall s done fs s', sound e s done fs -> e_input e = done ++ ls -> scan_lines e s ls = Ok s' ->
  exists fs', sound e s' (done ++ ls) (fs ++ fs').
Proof.
  induction 1 as [|raw ls N _ IH]; intros s done fs s' So Ei H; cbn [scan_lines] in H.
  - injection H as <-. exists []. now rewrite !app_nil_r.
  - apply obind_ok in H as (s1 & H1 & H2). destruct (sound_step _ _ _ _ _ _ _ N So Ei H1) as (x & _ & So1).
    destruct (IH s1 (done ++ [raw]) (fs ++ [x]) s' So1 ltac:(now rewrite <- app_assoc) H2) as (fs' & So').
    exists (x :: fs'). rewrite <- !app_assoc in So'. exact So'.
Qed.

(** One line of a program that is read to the end. *)
Theorem sound_at e s' l1 raw l2 : Forall no_nl (e_input e) -> e_input e = l1 ++ raw :: l2 -> scan_lines e init_state (e_input e) = Ok s' ->
  exists s1 f1 x f2, scan_lines e init_state l1 = Ok s1 /\ sound e s1 l1 f1 /\ fated e s1 raw x /\ sound e s' (e_input e) (f1 ++ x :: f2).
Proof.
  intros N Ei H. rewrite Ei in N. apply Forall_app in N as [N1 N2]. inversion N2 as [|? ? Nr N3]; subst.
  rewrite Ei, scan_app in H. apply obind_ok in H as (s1 & H1 & H). cbn [scan_lines] in H. apply obind_ok in H as (s2 & St & H2).
  assert (S1 : exists f1, sound e s1 l1 f1).
  { clear -N1 H1 Ei. 
    assert (G : forall ls, Forall no_nl ls -> forall s done fs rest, sound e s done fs -> e_input e = done ++ ls ++ rest -> scan_lines e s ls = Ok s1 -> exists fs', sound e s1 (done ++ ls) fs').
    { induction 1 as [|r ls N _ IH]; intros s done fs rest So E H; cbn [scan_lines] in H.
      - injection H as <-. exists fs. now rewrite app_nil_r.
      - apply obind_ok in H as (s2 & A & B). destruct (sound_step _ _ _ _ _ _ _ N So E A) as (x & _ & So1).
        destruct (IH s2 (done ++ [r]) (fs ++ [x]) rest So1) as (fs' & So'); [rewrite <- app_assoc; exact E|exact B|].
        exists fs'. rewrite <- app_assoc in So'. exact So'. }
    apply (G l1 N1 init_state [] [] (raw :: l2)); [apply sound_init|exact Ei|exact H1]. }
  destruct S1 as [f1 S1]. destruct (sound_step _ _ _ _ _ _ _ Nr S1 Ei St) as (x & Fx & S2).
  destruct (sound_scan e l2 N3 s2 (l1 ++ [raw]) (f1 ++ [x]) s' S2) as (f2 & S3); [rewrite <- app_assoc; exact Ei|exact H2|].
  exists s1, f1, x, f2. rewrite <- !app_assoc in S3. cbn [app] in S3. rewrite <- Ei in S3. auto.
Qed.

(** ** The result *)

Lemma assemble_cases rt m input : let e := mk_parser rt m input in
  (exists p, assemble rt m input = Panic p) \/
  exists s is1 errs, scan_lines e init_state (lines input) = Ok s /\ adjust_from e (final e s) 0 (p_insts s) = Ok (is1, errs)
    /\ ((p_errors s ++ errs <> [] /\ assemble rt m input = Err (p_errors s ++ errs))
        \/ (p_errors s = [] /\ errs = [] /\ exists out, assemble rt m input = Ok out)).
Proof.
  intros e. unfold assemble, parse. fold e. change (e_input e) with (lines input).
  destruct (scan_lines e init_state (lines input)) as [s|p|p] eqn:Sc; cbn [obind]; [|left; eauto|left; eauto].
  fold (final e s). destruct (final_same e s) as (F1 & F2 & F3 & F4 & F5). rewrite F1, F3.
  destruct (adjust_from e (final e s) 0 (p_insts s)) as [[is1 errs]|p|p] eqn:A; cbn [obind fst snd]; [|left; eauto|left; eauto].
  destruct (p_errors s ++ errs) as [|p q] eqn:E.
  - apply app_eq_nil in E as [E1 ->].
    destruct (@assemble_insts perror (rt_oc rt) is1) as [out|p|p] eqn:B; [|left; eauto|left; eauto].
    right. exists s, is1, []. split; [reflexivity|]. split; [exact A|]. right. eauto.
  - right. exists s, is1, errs. split; [reflexivity|]. split; [exact A|]. left. rewrite E. split; [discriminate|reflexivity].
Qed.

(** A program that is read to the end. *)
Lemma read_to_end rt m input : (forall p, assemble rt m input <> Panic p) ->
  exists s is1 errs, scan_lines (mk_parser rt m input) init_state (lines input) = Ok s
    /\ adjust_from (mk_parser rt m input) (final (mk_parser rt m input) s) 0 (p_insts s) = Ok (is1, errs)
    /\ forall p, In p (p_errors s ++ errs) <-> exists es, assemble rt m input = Err es /\ In p es.
Proof.
  intros H. destruct (assemble_cases rt m input) as [[p E]|(s & is1 & errs & A & B & C)]; [now destruct (H p)|].
  exists s, is1, errs. split; [exact A|]. split; [exact B|]. intros p. destruct C as [[Ne E]|(E1 & -> & out & E)].
  - rewrite E. split; [intros I; eauto|]. intros (es & J & I). injection J as <-. exact I.
  - rewrite E1, E. split; [intros []|]. intros (es & J & _). discriminate.
Qed.

(** ** Errors in references *)

Lemma adjust_one_errors e s i n ins i1 es : adjust_one e s i n ins = Ok (i1, es) ->
  es = [] \/ exists p c, es = [p] /\ nth_error (e_input e) (n - 1) = Some c
     /\ ((bounds_error p = false /\ reference_error p = true /\ error_line p = mk_line n c)
         \/ (bounds_error p = true /\ exists cl, nth_error (e_input e) (p_line s - 1) = Some cl /\ error_line p = mk_line (p_line s) cl)).
Proof.
  unfold adjust_one, get_line. destruct ins as [op rs rt imm b|op t b|op rs rt rd sa b|w]; try (intros H; injection H as _ <-; now left).
  - destruct imm as [v|v|v|loc|lbl]; try (intros H; injection H as _ <-; now left).
    + destruct (negb (is_b_op op)); [intros H; injection H as _ <-; now left|]. intros H.
      cbv zeta in H. apply obind_ok in H as (bad & _ & H). apply obind_ok in H as (errs & He & H). injection H as _ <-.
      destruct bad; [|injection He as <-; now left].
      destruct (nth_error (e_input e) (p_line s - 1)) as [cl|] eqn:Nl; [|discriminate]. cbn [obind] in He.
      destruct (nth_error (e_input e) (n - 1)) as [c|] eqn:Nn; [|discriminate]. cbn [obind] in He.
      apply obind_ok in He as (hi & _ & He). injection He as <-. right. do 2 eexists. split; [reflexivity|]. split; [reflexivity|].
      right. split; [reflexivity|]. exists cl. split; reflexivity.
    + destruct (assoc loc (p_dropped s)) as [defs|].
      * intros H. apply obind_ok in H as (pk & _ & H). destruct pk; [injection H as _ <-; now left|].
        destruct (nth_error (e_input e) (n - 1)) as [c|] eqn:Nn; [|discriminate]. cbn [obind] in H. injection H as _ <-.
        right. do 2 eexists. split; [reflexivity|]. split; [reflexivity|]. left. auto.
      * destruct (nth_error (e_input e) (n - 1)) as [c|] eqn:Nn; [|discriminate]. cbn [obind]. intros H. injection H as _ <-.
        right. do 2 eexists. split; [reflexivity|]. split; [reflexivity|]. left. auto.
    + destruct (assoc lbl (p_labels s)); [|discriminate]. intros H. injection H as _ <-. now left.
  - destruct t as [lbl|a]; [|intros H; injection H as _ <-; now left]. destruct (assoc lbl (p_labels s)).
    + intros H. apply obind_ok in H as (? & _ & H). apply obind_ok in H as (? & _ & H). injection H as _ <-. now left.
    + destruct (nth_error (e_input e) (n - 1)) as [c|] eqn:Nn; [|discriminate]. cbn [obind]. intros H. injection H as _ <-.
      right. do 2 eexists. split; [reflexivity|]. split; [reflexivity|]. left. auto.
Qed.

Lemma adjust_at e s i l1 n x l2 is1 es : adjust_from e s i (l1 ++ (n, x) :: l2) = Ok (is1, es) ->
  exists a1 x1 a2 e1 e2 e3, adjust_one e s (i + List.length l1) n x = Ok (x1, e2) /\ is1 = a1 ++ x1 :: a2 /\ es = e1 ++ e2 ++ e3 /\ List.length a1 = List.length l1.
Proof.
  rewrite adjust_app. intros H. apply obind_ok in H as ([a1 e1] & H1 & H). apply obind_ok in H as ([a2 e2] & H2 & H).
  cbn [adjust_from] in H2. apply obind_ok in H2 as ([x1 ex] & H2 & H3). apply obind_ok in H3 as ([a3 e3] & H3 & H4).
  cbn [fst snd] in *. injection H4 as <- <-. injection H as <- <-. exists a1, x1, a3, e1, ex, e3. repeat split; auto.
  apply adjust_length in H1. exact H1.
Qed.

(** ** The order of the errors *)

Lemma wrongs_in fs p : In p (wrongs fs) <-> exists k, nth_error fs k = Some (Wrong p).
Proof.
  induction fs as [|x fs IH].
  - split; [intros []|]. intros [[|k] H]; discriminate.
  - assert (K : (exists k, nth_error (x :: fs) k = Some (Wrong p)) <-> x = Wrong p \/ exists k, nth_error fs k = Some (Wrong p)).
    { split; [intros [[|k] H]|intros [->|[k H]]].
      - cbn in H. injection H as ->. now left.
      - right. now exists k.
      - now exists O.
      - now exists (S k). }
    rewrite K, <- IH. destruct x; cbn; split; try tauto; intros [H|H]; try discriminate; auto.
    + subst. now left.
    + injection H as ->. now left.
Qed.
Lemma wrongs_order fs : forall n, (forall k p, nth_error fs k = Some (Wrong p) -> error_number p = S (n + k)) -> in_order (wrongs fs).
Proof.
  induction fs as [|x fs IH]; intros n H; [exact I|].
  assert (R : in_order (wrongs fs)) by (apply (IH (S n)); intros k p E; rewrite (H (S k) p E); lia).
  destruct x as [|p|i]; [exact R| |exact R]. cbn [wrongs in_order]. split; [|exact R].
  intros q Q. apply wrongs_in in Q as [k Q]. rewrite (H O p eq_refl), (H (S k) q Q). lia.
Qed.
Lemma mades_in fs j i : forall n, In (j, i) (mades n fs) -> exists k, nth_error fs k = Some (Made i) /\ j = S (n + k).
Proof.
  induction fs as [|x fs IH]; intros n H; [destruct H|]. 
  assert (K : In (j, i) (mades (S n) fs) -> exists k, nth_error (x :: fs) k = Some (Made i) /\ j = S (n + k)).
  { intros J. apply IH in J as (k & A & B). exists (S k). split; [exact A|lia]. }
  destruct x as [|p|i']; cbn [mades] in H; auto. destruct H as [H|H]; [|auto]. injection H as <- <-. exists O. split; [reflexivity|lia].
Qed.
Lemma bounds_reference p : bounds_error p = true -> reference_error p = true.
Proof. destruct p; cbn; auto; discriminate. Qed.

Lemma adjust_errors e s fs : forall n i is1 es, adjust_from e s i (mades n fs) = Ok (is1, es) ->
  (forall p, In p es -> reference_error p = true /\
     if bounds_error p then exists c, nth_error (e_input e) (p_line s - 1) = Some c /\ error_line p = mk_line (p_line s) c
     else exists k ins c, nth_error fs k = Some (Made ins) /\ nth_error (e_input e) (n + k) = Some c /\ error_line p = mk_line (S (n + k)) c)
  /\ in_order (filter (fun p => negb (bounds_error p)) es).
Proof.
  induction fs as [|x fs IH]; intros n i is1 es H.
  - injection H as _ <-. split; [intros p []|exact I].
  - assert (K : forall i is1 es, adjust_from e s i (mades (S n) fs) = Ok (is1, es) ->
      (forall p, In p es -> reference_error p = true /\
       if bounds_error p then exists c, nth_error (e_input e) (p_line s - 1) = Some c /\ error_line p = mk_line (p_line s) c
       else exists k ins c, nth_error (x :: fs) (S k) = Some (Made ins) /\ nth_error (e_input e) (S n + k) = Some c /\ error_line p = mk_line (S (S n + k)) c)
      /\ in_order (filter (fun p => negb (bounds_error p)) es)).
    { intros j js qs J. apply (IH (S n) j js qs J). }
    assert (W : forall i is1 es, adjust_from e s i (mades (S n) fs) = Ok (is1, es) ->
      (forall p, In p es -> reference_error p = true /\
       if bounds_error p then exists c, nth_error (e_input e) (p_line s - 1) = Some c /\ error_line p = mk_line (p_line s) c
       else exists k ins c, nth_error (x :: fs) k = Some (Made ins) /\ nth_error (e_input e) (n + k) = Some c /\ error_line p = mk_line (S (n + k)) c)
      /\ in_order (filter (fun p => negb (bounds_error p)) es)).
    { intros j js qs J. destruct (K j js qs J) as [A B]. split; [|exact B]. intros p P. destruct (A p P) as [Rp Q]. split; [exact Rp|].
      destruct (bounds_error p); [exact Q|]. destruct Q as (k & ins & c & Q1 & Q2 & Q3). exists (S k), ins, c.
      replace (n + S k)%nat with (S n + k)%nat by lia. auto. }
    destruct x as [|p|ins]; cbn [mades] in H; try (now apply (W _ _ _ H)).
    cbn [adjust_from] in H. apply obind_ok in H as ([x1 e1] & H1 & H). apply obind_ok in H as ([r er] & H2 & H). cbn [fst snd] in H. injection H as _ <-.
    destruct (W _ _ _ H2) as [A B]. destruct (K _ _ _ H2) as [A' _].
    apply adjust_one_errors in H1 as [->|(p & c & -> & Nc & C)]; [now split|]. rewrite Nat.sub_succ, Nat.sub_0_r in Nc.
    split.
    + intros q [<-|Q]; [|now apply A]. destruct C as [(Bp & Rp & Lp)|(Bp & cl & Nl & Lp)].
      * rewrite Bp. split; [exact Rp|]. exists O, ins, c. rewrite Nat.add_0_r. auto.
      * rewrite Bp. split; [now apply bounds_reference|]. eauto.
    + cbn [app filter]. destruct C as [(Bp & Rp & Lp)|(Bp & _)]; rewrite Bp; cbn [negb]; [|exact B].
      cbn [in_order]. split; [|exact B]. intros q Q. apply filter_In in Q as [Q1 Q2]. apply negb_true_iff in Q2.
      destruct (A' q Q1) as [_ Q3]. rewrite Q2 in Q3. destruct Q3 as (k & ins' & c' & _ & _ & Q3). unfold error_number. rewrite Lp, Q3. cbn. lia.
Qed.

Lemma insts_bound e ls : Forall no_nl ls -> forall s s', scan_lines e s ls = Ok s' -> (List.length (p_insts s') <= List.length (p_insts s) + instruction_count ls)%nat.
Proof.
  induction 1 as [|l ls N _ IH]; intros s s' H; cbn [scan_lines] in H; [injection H as <-; cbn; lia|].
  apply obind_ok in H as (s1 & H1 & H2). apply step_view in H1; [|exact N]. apply IH in H2. unfold instruction_count in *. cbn [filter]. unfold is_instruction at 1.
  destruct H1 as [R|k R Lc P|k R Lc P|k p R P|w i R P|w p R P]; rewrite R; cbn in *; rewrite ?app_length in *; cbn in *; lia.
Qed.


(** An error of a line comes from the instruction of that line. *)
Lemma error_from e s f1 ins f2 is1 es p : adjust_from e s 0 (mades 0 (f1 ++ Made ins :: f2)) = Ok (is1, es) -> In p es -> bounds_error p = false ->
  error_number p = S (List.length f1) -> exists x1 e2, adjust_one e s (made_count f1) (S (List.length f1)) ins = Ok (x1, e2) /\ In p e2.
Proof.
  rewrite mades_app. cbn [mades Nat.add]. rewrite adjust_app. intros H Ip Bp Np. apply obind_ok in H as ([a1 e1] & H1 & H). apply obind_ok in H as ([a2 e2] & H2 & H).
  cbn [adjust_from] in H2. apply obind_ok in H2 as ([x1 ex] & H2 & H3). apply obind_ok in H3 as ([a3 e3] & H3 & H4).
  cbn [fst snd] in *. injection H4 as <- <-. injection H as <- <-. rewrite mades_count in H2. cbn [Nat.add] in H2. exists x1, ex. split; [exact H2|].
  apply in_app_or in Ip as [Ip|Ip]; [exfalso|apply in_app_or in Ip as [Ip|Ip]; [exact Ip|exfalso]].
  - destruct (adjust_errors e s f1 0 0 _ _ H1) as [X _]. destruct (X p Ip) as [_ Y]. rewrite Bp in Y. destruct Y as (k & i & c & Nk & _ & El).
    assert (Lk : (k < List.length f1)%nat) by (apply nth_error_Some; congruence). unfold error_number in Np. rewrite El in Np. cbn [l_num Nat.add] in Np. lia.
  - destruct (adjust_errors e s f2 _ _ _ _ H3) as [X _]. destruct (X p Ip) as [_ Y]. rewrite Bp in Y. destruct Y as (k & i & c & Nk & _ & El).
    unfold error_number in Np. rewrite El in Np. cbn [l_num Nat.add] in Np. lia.
Qed.
