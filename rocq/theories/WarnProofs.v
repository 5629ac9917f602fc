(** * WarnProofs: which warnings a line gives (proofs only). *)

From Coq Require Import Lia.
From Verif Require Import Lib SpecIsa StrLemmas NumLemmas DecodeProofs TextProofs OperandProofs NativeProofs LineProofs ScanProofs ProgProofs BranchProofs LabelProofs CongProofs ErrorProofs HalfProofs QuietProofs SpecErrors SpecText SpecProgram SpecLabels.
From Verif Require Import SpecWarn.

(** ** Tables *)
Definition seen : list str := filter (fun n => negb (mem_str n overlooked)) transfers.
Definition arm_branch (g : group) : bool := match g with GBranch1 | GBranch2 | GB | GBc => true | _ => false end.
Definition arm_jump (g : group) : bool := match g with GJump => true | _ => false end.

Lemma group_branch n g : classify n = Some g -> mem_str n branches = arm_branch g /\ mem_str n jumps = arm_jump g
  /\ mem_str n transfers = (arm_branch g || arm_jump g || match g with GJalr => true | GRs => str_eqb n #"jr" | _ => false end).
Proof.
  intros C. apply assoc_in in C.
  assert (F : forallb (fun ng => Bool.eqb (mem_str (fst ng) branches) (arm_branch (snd ng)) && Bool.eqb (mem_str (fst ng) jumps) (arm_jump (snd ng))
    && Bool.eqb (mem_str (fst ng) transfers) (arm_branch (snd ng) || arm_jump (snd ng) || match snd ng with GJalr => true | GRs => str_eqb (fst ng) #"jr" | _ => false end)) group_table = true) by (vm_compute; reflexivity).
  rewrite forallb_forall in F. specialize (F (n, g) C). cbn [fst snd] in F. apply andb_prop in F as [F F3]. apply andb_prop in F as [F1 F2].
  apply Bool.eqb_prop in F1, F2, F3. auto.
Qed.
Lemma mem_str_in x l : mem_str x l = true <-> In x l.
Proof.
  unfold mem_str. rewrite existsb_exists. split.
  - intros (y & I & E). apply str_eqb_spec in E. now subst y.
  - intros I. exists x. split; [exact I|apply str_eqb_refl].
Qed.
Lemma none_known n : classify n = None -> mem_str n branches = false /\ mem_str n jumps = false /\ mem_str n transfers = false.
Proof.
  intros C.
  assert (F : forallb (fun x => match classify x with Some _ => true | None => false end) transfers = true) by (vm_compute; reflexivity).
  rewrite forallb_forall in F.
  assert (T : mem_str n transfers = false).
  { destruct (mem_str n transfers) eqn:E; [|reflexivity]. apply mem_str_in in E. specialize (F n E). now rewrite C in F. }
  assert (G : forall l, incl l transfers -> mem_str n l = false).
  { intros l I. destruct (mem_str n l) eqn:E; [|reflexivity]. apply mem_str_in in E. apply I in E. apply mem_str_in in E. congruence. }
  split; [apply G; unfold transfers; intros x; rewrite !in_app_iff; tauto|]. split; [|exact T].
  apply G. unfold transfers; intros x; rewrite !in_app_iff; tauto.
Qed.

Lemma filter_less n f l : mem_str n l = false -> mem_str n (filter f l) = false.
Proof.
  unfold mem_str. induction l as [|x l IH]; [reflexivity|]. cbn [existsb filter]. intros H. apply orb_false_iff in H as [H1 H2].
  destruct (f x); cbn [existsb]; [rewrite H1|]; auto.
Qed.
Lemma seen_less n : mem_str n transfers = false -> mem_str n seen = false.
Proof. exact (filter_less n _ transfers). Qed.
Lemma filter_mem (n : str) l : forall f, In n (filter f l) <-> In n l /\ f n = true.
Proof. intros f. apply filter_In. Qed.
Lemma overlooked_not n : negb (mem_str n overlooked) = true <-> ~ In n overlooked.
Proof.
  rewrite negb_true_iff. split.
  - intros H I. assert (T : mem_str n overlooked = true) by (unfold mem_str; rewrite existsb_exists; exists n; split; [exact I|apply str_eqb_refl]). congruence.
  - intros H. destruct (mem_str n overlooked) eqn:E; [|reflexivity]. exfalso. apply H. now apply mem_str_in in E.
Qed.
Lemma seen_iff n : In n seen <-> In n transfers /\ ~ In n overlooked.
Proof. unfold seen. rewrite filter_mem, overlooked_not. reflexivity. Qed.
Opaque seen.

Lemma iop_name_of op p : iop_of op = Ok p -> to_lower op = to_lower (iop_name p).
Proof.
  unfold iop_of, iop_from_str, unwrap. destruct (find _ _) as [q|] eqn:F; [|discriminate]. intros E. injection E as <-.
  apply find_some in F as [_ F]. now apply str_eqb_spec in F.
Qed.
Lemma jop_name_of op p : jop_of op = Ok p -> to_lower op = to_lower (jop_name p).
Proof.
  unfold jop_of, jop_from_str, unwrap. destruct (find _ _) as [q|] eqn:F; [|discriminate]. intros E. injection E as <-.
  apply find_some in F as [_ F]. now apply str_eqb_spec in F.
Qed.
Lemma rop_name_of op p : rop_of op = Ok p -> to_lower op = to_lower (rop_name p).
Proof.
  unfold rop_of, rop_from_str, unwrap. destruct (find _ _) as [q|] eqn:F; [|discriminate]. intros E. injection E as <-.
  apply find_some in F as [_ F]. now apply str_eqb_spec in F.
Qed.
(** The names of operations hold no white space. *)
Definition tight (op : str) : bool := forallb (fun c => negb (is_ws c)) op.
Lemma lower_not_ws c : is_ws (lower_char c) = is_ws c.
Proof. destruct c as [[] [] [] [] [] [] [] []]; reflexivity. Qed.
Lemma tight_lower op : tight (to_lower op) = tight op.
Proof. unfold tight, to_lower. induction op as [|c op IH]; [reflexivity|]. cbn. now rewrite lower_not_ws, IH. Qed.
Lemma iop_tight op p : iop_of op = Ok p -> tight op = true.
Proof. intros H. apply iop_name_of in H. rewrite <- tight_lower, H. destruct p; vm_compute; reflexivity. Qed.
Lemma jop_tight op p : jop_of op = Ok p -> tight op = true.
Proof. intros H. apply jop_name_of in H. rewrite <- tight_lower, H. destruct p; vm_compute; reflexivity. Qed.
Lemma rop_tight op p : rop_of op = Ok p -> tight op = true.
Proof. intros H. apply rop_name_of in H. rewrite <- tight_lower, H. destruct p; vm_compute; reflexivity. Qed.

Definition named (op : str) (i : inst) : Prop :=
  has_delay_slot i = mem_str (trim (to_lower op)) seen /\ (tight op = true \/ starts_with #"c." (to_lower op) = true).
Lemma iop_slot op p rs rt im b : iop_of op = Ok p -> named op (IImm p rs rt im b).
Proof. intros H. split; [|left; now apply iop_tight in H]. apply iop_name_of in H. rewrite H. destruct p; vm_compute; reflexivity. Qed.
Lemma rop_slot op p rs rt rd sa b : rop_of op = Ok p -> named op (IReg p rs rt rd sa b).
Proof. intros H. split; [|left; now apply rop_tight in H]. apply rop_name_of in H. rewrite H. destruct p; vm_compute; reflexivity. Qed.
Lemma jop_slot op p t b : jop_of op = Ok p -> named op (IJump p t b).
Proof. intros H. split; [|left; now apply jop_tight in H]. apply jop_name_of in H. rewrite H. destruct p; vm_compute; reflexivity. Qed.
Lemma starts_c_slot t p rs rt rd sa b : rop_of (#"C." ++ t) = Ok p -> has_delay_slot (IReg p rs rt rd sa b) = false.
Proof.
  intros H. apply rop_name_of in H. assert (F : starts_with #"c." (to_lower (rop_name p)) = true) by (rewrite <- H; reflexivity).
  clear H. revert F. destruct p; first [reflexivity|intros F; vm_compute in F; discriminate F].
Qed.

(** ** Inversion *)
Lemma mbind_inv {A B} (m : M A) (f : A -> M B) w b : mbind m f = (w, Ok b) ->
  exists w1 a w2, m = (w1, Ok a) /\ f a = (w2, Ok b) /\ w = w1 ++ w2.
Proof.
  destruct m as [w1 [a|p|p]]; cbn [mbind]; try discriminate. destruct (f a) as [w2 r] eqn:F. intros E.
  apply pair_equal_spec in E as [<- ->]. eauto 6.
Qed.
Lemma lift_inv {A} (o : outcome perror A) w a : lift o = (w, Ok a) -> w = [] /\ o = Ok a.
Proof. unfold lift. intros E. apply pair_equal_spec in E as [<- ->]. auto. Qed.
Lemma bad_inv {A} e s arg n k w (a : A) : bad_count e s arg n k <> (w, Ok a).
Proof. unfold bad_count, fail_at, lift. destruct (get_line _ _); cbn; discriminate. Qed.
Lemma fst_of {A B} (p : A * B) a b : p = (a, b) -> fst p = a.
Proof. now intros ->. Qed.

Lemma word_only n : classify n = Some GWord -> n = #".word".
Proof.
  intros C. apply assoc_in in C.
  assert (F : forallb (fun ng => match snd ng with GWord => str_eqb (fst ng) #".word" | _ => true end) group_table = true) by (vm_compute; reflexivity).
  rewrite forallb_forall in F. specialize (F (n, GWord) C). cbn [fst snd] in F. now apply str_eqb_spec in F.
Qed.
Section Arms.
Variable e : env.
Variable s : pstate.

Definition alignment (low : str) (args : list str) (A : list pwarning) : Prop :=
  if mem_str low branches then exists pre o im, args = pre ++ [o] /\ parse_immediate e s u32 o = Ok im /\ A = fst (check_branch e s im o)
  else if mem_str low jumps then exists a t, args = [a] /\ parse_target e s (trim a) = Ok t /\ A = fst (check_jump e s t (trim a))
  else A = [].
Definition emits (op : str) (args : list str) (w : list pwarning) (i : inst) : Prop :=
  named op i
  /\ exists A, w = (if mem_str (trim (to_lower op)) transfers then fst (check_delay e s) else []) ++ A
     /\ alignment (trim (to_lower op)) args A.

Ltac inv := repeat match goal with
  | H : mbind _ _ = (_, Ok _) |- _ => apply mbind_inv in H as (? & ? & ? & ? & ? & ?)
  | H : lift (Ok _) = (_, Ok _) |- _ => apply lift_inv in H as [? H]; injection H as <-
  | H : lift _ = (_, Ok _) |- _ => apply lift_inv in H as [? H]
  | H : aimm _ _ _ _ = (_, Ok _) |- _ => unfold aimm in H
  | H : areg _ _ _ = (_, Ok _) |- _ => unfold areg in H
  | H : afreg _ _ _ = (_, Ok _) |- _ => unfold afreg in H
  | H : bad_count _ _ _ _ _ = (_, Ok _) |- _ => now apply bad_inv in H
  end; subst.
Ltac plain_arm C := split; [first [eapply iop_slot; eassumption | eapply rop_slot; eassumption | eapply jop_slot; eassumption]|];
  apply group_branch in C as (C1 & C2 & C3); exists []; unfold alignment; rewrite C1, C2, C3; cbn; auto.

Lemma emits_GMem op arg args w i : classify (trim (to_lower op)) = Some GMem -> parse_mem e s op arg args = (w, Ok i) -> emits op args w i.
Proof.
  intros C H. unfold parse_mem in H. do 3 (destruct args as [|? args]; try (exfalso; now apply bad_inv in H)).
      apply mbind_inv in H as (w1 & rt & w2 & H1 & H & ->).
      assert (w1 = []) as ->. { destruct (str_eqb (trim (to_lower op)) #"cache"); inv; reflexivity. } clear H1.
      apply mbind_inv in H as (w1 & ? & w3 & H1 & H & ->). apply lift_inv in H1 as [-> _].
      apply mbind_inv in H as (w1 & ? & w4 & H1 & H & ->). apply lift_inv in H1 as [-> _].
      destruct (re_find_str OFFSET_RE s1); inv; plain_arm C.
Qed.
Lemma emits_GImm3 op arg args w i : classify (trim (to_lower op)) = Some GImm3 -> parse_imm3 e s op arg args = (w, Ok i) -> emits op args w i.
Proof.
  intros C H. unfold parse_imm3 in H. do 4 (destruct args as [|? args]; try (exfalso; now apply bad_inv in H)).
      destruct (str_eqb op #"andi" || str_eqb op #"ori" || str_eqb op #"xori"); inv; plain_arm C.
Qed.
Lemma emits_GImm2 op arg args w i : classify (trim (to_lower op)) = Some GImm2 -> parse_imm2 e s op arg args = (w, Ok i) -> emits op args w i.
Proof.
  intros C H. unfold parse_imm2 in H. do 3 (destruct args as [|? args]; try (exfalso; now apply bad_inv in H)). inv; plain_arm C.
Qed.
Lemma emits_GTrapImm op arg args w i : classify (trim (to_lower op)) = Some GTrapImm -> parse_trap_imm e s op arg args = (w, Ok i) -> emits op args w i.
Proof.
  intros C H. unfold parse_trap_imm in H. do 3 (destruct args as [|? args]; try (exfalso; now apply bad_inv in H)). inv; plain_arm C.
Qed.
Lemma emits_GBranch1 op arg args w i : classify (trim (to_lower op)) = Some GBranch1 -> parse_branch1 e s op arg args = (w, Ok i) -> emits op args w i.
Proof.
  intros C H. unfold parse_branch1 in H. do 3 (destruct args as [|? args]; try (exfalso; now apply bad_inv in H)). inv.
      split; [eapply iop_slot; eassumption|]. apply group_branch in C as (C1 & C2 & C3). unfold alignment; rewrite C1, C3. cbn [arm_branch orb].
      match goal with H : check_delay e s = _ |- _ => rewrite H end. match goal with H : check_branch e s ?im ?o = _ |- _ => exists (fst (check_branch e s im o)); split; [rewrite H; cbn; now rewrite !app_nil_r|exists [s0], o, im; auto] end.
Qed.
Lemma emits_GBranch2 op arg args w i : classify (trim (to_lower op)) = Some GBranch2 -> parse_branch2 e s op arg args = (w, Ok i) -> emits op args w i.
Proof.
  intros C H. unfold parse_branch2 in H. do 4 (destruct args as [|? args]; try (exfalso; now apply bad_inv in H)). inv.
      split; [eapply iop_slot; eassumption|]. apply group_branch in C as (C1 & C2 & C3). unfold alignment; rewrite C1, C3. cbn [arm_branch orb].
      match goal with H : check_delay e s = _ |- _ => rewrite H end. match goal with H : check_branch e s ?im ?o = _ |- _ => exists (fst (check_branch e s im o)); split; [rewrite H; cbn; now rewrite !app_nil_r|exists [s0; s1], o, im; auto] end.
Qed.
Lemma emits_GJump op arg args w i : classify (trim (to_lower op)) = Some GJump -> parse_jump e s op arg args = (w, Ok i) -> emits op args w i.
Proof.
  intros C H. unfold parse_jump in H. do 2 (destruct args as [|? args]; try (exfalso; now apply bad_inv in H)). cbv zeta in H. inv.
      split; [eapply jop_slot; eassumption|]. apply group_branch in C as (C1 & C2 & C3). unfold alignment; rewrite C1, C2, C3. cbn [arm_branch arm_jump orb].
      match goal with H : check_delay e s = _ |- _ => rewrite H end. match goal with H : check_jump e s ?t ?o = _ |- _ => exists (fst (check_jump e s t o)); split; [rewrite H; cbn; now rewrite !app_nil_r|exists s0, t; auto] end.
Qed.
Lemma emits_GPlain op (arg : str) args w i : classify (trim (to_lower op)) = Some GPlain -> parse_plain op = (w, Ok i) -> emits op args w i.
Proof.
  intros C H. unfold parse_plain in H. inv; plain_arm C.
Qed.
Lemma emits_GReg3 op arg args w i : classify (trim (to_lower op)) = Some GReg3 -> parse_reg3 e s op arg args = (w, Ok i) -> emits op args w i.
Proof.
  intros C H. unfold parse_reg3 in H. do 4 (destruct args as [|? args]; try (exfalso; now apply bad_inv in H)). inv; plain_arm C.
Qed.
Lemma emits_GShift op arg args w i : classify (trim (to_lower op)) = Some GShift -> parse_shift e s op arg args = (w, Ok i) -> emits op args w i.
Proof.
  intros C H. unfold parse_shift in H. do 4 (destruct args as [|? args]; try (exfalso; now apply bad_inv in H)). inv; plain_arm C.
Qed.
Lemma emits_GShiftV op arg args w i : classify (trim (to_lower op)) = Some GShiftV -> parse_shiftv e s op arg args = (w, Ok i) -> emits op args w i.
Proof.
  intros C H. unfold parse_shiftv in H. do 4 (destruct args as [|? args]; try (exfalso; now apply bad_inv in H)). inv; plain_arm C.
Qed.
Lemma emits_GCode op arg args w i : classify (trim (to_lower op)) = Some GCode -> parse_code e s op arg args = (w, Ok i) -> emits op args w i.
Proof.
  intros C H. unfold parse_code in H. do 2 (destruct args as [|? args]; try (exfalso; now apply bad_inv in H)).
      apply mbind_inv in H as (w1 & ? & w2 & H1 & H & ->).
      assert (w1 = []) as ->. { destruct s0; inv; reflexivity. } inv; plain_arm C.
Qed.
Lemma emits_GReg2 op arg args w i : classify (trim (to_lower op)) = Some GReg2 -> parse_reg2 e s op arg args = (w, Ok i) -> emits op args w i.
Proof.
  intros C H. unfold parse_reg2 in H. do 3 (destruct args as [|? args]; try (exfalso; now apply bad_inv in H)). inv; plain_arm C.
Qed.
Lemma emits_GJalr op arg args w i : classify (trim (to_lower op)) = Some GJalr -> parse_jalr e s op arg args = (w, Ok i) -> emits op args w i.
Proof.
  intros C H. unfold parse_jalr in H. destruct args as [|a1 [|a2 [|a3 args]]]; try (exfalso; now apply bad_inv in H); inv;
      (split; [eapply rop_slot; eassumption|]; apply group_branch in C as (C1 & C2 & C3); unfold alignment; rewrite C1, C2, C3; cbn [arm_branch arm_jump orb];
       match goal with H : check_delay e s = _ |- _ => rewrite H end; exists []; cbn; auto).
Qed.
Lemma emits_GMove op arg args w i : classify (trim (to_lower op)) = Some GMove -> parse_move e s op arg args = (w, Ok i) -> emits op args w i.
Proof.
  intros C H. unfold parse_move in H. do 3 (destruct args as [|? args]; try (exfalso; now apply bad_inv in H)). inv; plain_arm C.
Qed.
Lemma emits_GB op arg args w i : classify (trim (to_lower op)) = Some GB -> parse_b e s op arg args = (w, Ok i) -> emits op args w i.
Proof.
  intros C H. unfold parse_b in H. do 2 (destruct args as [|? args]; try (exfalso; now apply bad_inv in H)). inv.
      split; [eapply iop_slot; eassumption|]. apply group_branch in C as (C1 & C2 & C3). unfold alignment; rewrite C1, C3. cbn [arm_branch orb].
      match goal with H : check_delay e s = _ |- _ => rewrite H end. match goal with H : check_branch e s ?im ?o = _ |- _ => exists (fst (check_branch e s im o)); split; [rewrite H; cbn; now rewrite !app_nil_r|exists [], o, im; auto] end.
Qed.
Lemma emits_GLi op arg args w i : classify (trim (to_lower op)) = Some GLi -> parse_li e s op arg args = (w, Ok i) -> emits op args w i.
Proof.
  intros C H. unfold parse_li in H. do 3 (destruct args as [|? args]; try (exfalso; now apply bad_inv in H)).
      apply mbind_inv in H as (w1 & rt & w2 & H1 & H & ->). apply lift_inv in H1 as [-> _].
      apply mbind_inv in H as (w1 & im & w3 & H1 & H & ->). apply lift_inv in H1 as [-> _].
      apply mbind_inv in H as (w1 & v & w4 & H1 & H & ->). apply lift_inv in H1 as [-> _].
      destruct (v >? 4294967295); [exfalso; apply lift_inv in H as [_ H]; unfold fail_at in H; destruct (get_line _ _); discriminate|]. inv; plain_arm C.
Qed.
Lemma emits_GDiv op arg args w i : classify (trim (to_lower op)) = Some GDiv -> parse_div e s op arg args = (w, Ok i) -> emits op args w i.
Proof.
  intros C H. unfold parse_div in H. destruct args as [|a1 [|a2 [|a3 [|a4 args]]]]; try (exfalso; now apply bad_inv in H); inv; plain_arm C.
Qed.
Lemma emits_GRs op arg args w i : classify (trim (to_lower op)) = Some GRs -> parse_rs e s op arg args = (w, Ok i) -> emits op args w i.
Proof.
  intros C H. unfold parse_rs in H. do 2 (destruct args as [|? args]; try (exfalso; now apply bad_inv in H)).
      apply mbind_inv in H as (w1 & ? & w2 & H1 & H & ->). inv.
      split; [eapply rop_slot; eassumption|]; apply group_branch in C as (C1 & C2 & C3). exists []. unfold alignment; rewrite C1, C2, C3; cbn [arm_branch arm_jump orb].
      destruct (str_eqb (trim (to_lower op)) #"jr"); inv; [rewrite H1; cbn; auto|cbn; auto].
Qed.
Lemma emits_GRd op arg args w i : classify (trim (to_lower op)) = Some GRd -> parse_rd e s op arg args = (w, Ok i) -> emits op args w i.
Proof.
  intros C H. unfold parse_rd in H. do 2 (destruct args as [|? args]; try (exfalso; now apply bad_inv in H)). inv; plain_arm C.
Qed.
Lemma emits_GDli op arg args w i : classify (trim (to_lower op)) = Some GDli -> parse_dli e s op arg args = (w, Ok i) -> emits op args w i.
Proof.
  intros C H. unfold parse_dli in H. do 3 (destruct args as [|? args]; try (exfalso; now apply bad_inv in H)). inv; plain_arm C.
Qed.
Lemma emits_GBc op arg args w i : classify (trim (to_lower op)) = Some GBc -> parse_b e s op arg args = (w, Ok i) -> emits op args w i.
Proof.
  intros C H. unfold parse_b in H. do 2 (destruct args as [|? args]; try (exfalso; now apply bad_inv in H)). inv.
      split; [eapply iop_slot; eassumption|]. apply group_branch in C as (C1 & C2 & C3). unfold alignment; rewrite C1, C3. cbn [arm_branch orb].
      match goal with H : check_delay e s = _ |- _ => rewrite H end. match goal with H : check_branch e s ?im ?o = _ |- _ => exists (fst (check_branch e s im o)); split; [rewrite H; cbn; now rewrite !app_nil_r|exists [], o, im; auto] end.
Qed.
Lemma emits_GCop0 op arg args w i : classify (trim (to_lower op)) = Some GCop0 -> parse_cop0 e s op arg args = (w, Ok i) -> emits op args w i.
Proof.
  intros C H. unfold parse_cop0 in H. do 3 (destruct args as [|? args]; try (exfalso; now apply bad_inv in H)). inv; plain_arm C.
Qed.
Lemma emits_GCop1 op arg args w i : classify (trim (to_lower op)) = Some GCop1 -> parse_cop1 e s op arg args = (w, Ok i) -> emits op args w i.
Proof.
  intros C H. unfold parse_cop1 in H. do 3 (destruct args as [|? args]; try (exfalso; now apply bad_inv in H)). inv; plain_arm C.
Qed.
Lemma emits_GTlb op (arg : str) args w i : classify (trim (to_lower op)) = Some GTlb -> parse_plain op = (w, Ok i) -> emits op args w i.
Proof.
  intros C H. unfold parse_plain in H. inv; plain_arm C.
Qed.
Lemma emits_GFMem op arg args w i : classify (trim (to_lower op)) = Some GFMem -> parse_fmem e s op arg args = (w, Ok i) -> emits op args w i.
Proof.
  intros C H. unfold parse_fmem in H. do 3 (destruct args as [|? args]; try (exfalso; now apply bad_inv in H)). inv; plain_arm C.
Qed.
Lemma emits_float op arg args w i : classify (trim (to_lower op)) = None -> parse_float e s op arg args = (w, Ok i) -> emits op args w i.
Proof.
  intros C H. unfold parse_float in H. destruct (Nat.ltb (List.length op) 2); [discriminate|]. cbv zeta in H.
    apply none_known in C as (C1 & C2 & C3).
    assert (K : forall A, A = [] -> exists A0, A = (if mem_str (trim (to_lower op)) transfers then fst (check_delay e s) else []) ++ A0 /\ alignment (trim (to_lower op)) args A0).
    { intros A ->. exists []. unfold alignment. rewrite C1, C2, C3. auto. }
    unfold emits.
    destruct (mem_str (firstn (List.length op - 2) (to_lower op)) float3_names).
    { do 4 (destruct args as [|? args]; try (exfalso; now apply bad_inv in H)). inv. split; [eapply rop_slot; eassumption|now apply K]. }
    destruct (mem_str (firstn (List.length op - 2) (to_lower op)) float2_names).
    { do 3 (destruct args as [|? args]; try (exfalso; now apply bad_inv in H)). inv. split; [eapply rop_slot; eassumption|now apply K]. }
    destruct (starts_with #"c." (firstn (List.length op - 2) (to_lower op))) eqn:Hc.
    { do 3 (destruct args as [|? args]; try (exfalso; now apply bad_inv in H)). inv. split; [|now apply K].
      split; [rewrite (seen_less _ C3); eapply starts_c_slot; eassumption|]. right. clear -Hc.
      apply starts_with_spec in Hc as [r Er]. rewrite <- (firstn_skipn (List.length op - 2) (to_lower op)), Er, <- app_assoc. reflexivity. }
    exfalso. apply lift_inv in H as [_ H]. unfold fail_at in H. destruct (get_line _ _); discriminate.
Qed.
Lemma op_emits op arg args w i : parse_op e s op arg args = (w, Ok i) -> ((exists v, i = IBytes v) /\ w = [] /\ trim (to_lower op) = #".word") \/ emits op args w i.
Proof.
  intros H. unfold parse_op in H. destruct (classify (trim (to_lower op))) as [g|] eqn:C.
  - destruct g; cbn iota beta in H; [right..|left].
    + now apply (emits_GMem op arg).
    + now apply (emits_GImm3 op arg).
    + now apply (emits_GImm2 op arg).
    + now apply (emits_GTrapImm op arg).
    + now apply (emits_GBranch1 op arg).
    + now apply (emits_GBranch2 op arg).
    + now apply (emits_GJump op arg).
    + now apply (emits_GPlain op arg).
    + now apply (emits_GReg3 op arg).
    + now apply (emits_GShift op arg).
    + now apply (emits_GShiftV op arg).
    + now apply (emits_GCode op arg).
    + now apply (emits_GReg2 op arg).
    + now apply (emits_GJalr op arg).
    + now apply (emits_GMove op arg).
    + now apply (emits_GB op arg).
    + now apply (emits_GLi op arg).
    + now apply (emits_GDiv op arg).
    + now apply (emits_GRs op arg).
    + now apply (emits_GRd op arg).
    + now apply (emits_GDli op arg).
    + now apply (emits_GBc op arg).
    + now apply (emits_GCop0 op arg).
    + now apply (emits_GCop1 op arg).
    + now apply (emits_GTlb op arg).
    + now apply (emits_GFMem op arg).
    + unfold parse_word in H. inv. split; [eauto|]. split; [reflexivity|]. now apply word_only in C.
  - right. now apply (emits_float op arg).
Qed.
End Arms.

(** ** A line *)
Lemma first_word_tight a b : tight a = true -> (match b with [] => True | c :: _ => is_ws c = true end) -> first_word (a ++ b) = a.
Proof.
  intros T B. induction a as [|c a IH]; cbn [app].
  - destruct b as [|c b]; [reflexivity|]. cbn. now rewrite B.
  - unfold tight in T. cbn [forallb] in T. apply andb_prop in T as [Tc T]. apply negb_true_iff in Tc. cbn [first_word]. rewrite Tc. f_equal. now apply IH.
Qed.
Lemma trim_tight a : tight a = true -> trim a = a.
Proof.
  intros T. unfold trim, drop_while_end. unfold tight in T. assert (D : forall x, forallb (fun c => negb (is_ws c)) x = true -> drop_while is_ws x = x).
  { intros [|c x] H; [reflexivity|]. cbn in H. apply andb_prop in H as [H _]. apply negb_true_iff in H. cbn. now rewrite H. }
  rewrite (D a T), D, rev_involutive; [reflexivity|]. rewrite forallb_forall in *. intros c I. apply T. now apply in_rev.
Qed.

(** names of transfers start with b or j *)
Definition bj (n : str) : bool := match n with c :: _ => Ascii.eqb c "b" || Ascii.eqb c "j" | [] => false end.
Lemma transfer_bj n : mem_str n transfers = true -> bj n = true.
Proof.
  intros H. apply mem_str_in in H. assert (F : forallb bj transfers = true) by (vm_compute; reflexivity).
  rewrite forallb_forall in F. now apply F.
Qed.
Lemma not_bj n : bj n = false -> mem_str n transfers = false /\ mem_str n seen = false.
Proof.
  intros B. assert (T : mem_str n transfers = false) by (destruct (mem_str n transfers) eqn:E; [apply transfer_bj in E; congruence|reflexivity]).
  split; [exact T|now apply seen_less].
Qed.
Lemma in_list_mem n l : mem_str n l = false -> ~ In n l.
Proof. intros H I. apply mem_str_in in I. congruence. Qed.
Lemma mem_sub n l : incl l transfers -> mem_str n transfers = false -> mem_str n l = false.
Proof.
  intros I T. destruct (mem_str n l) eqn:E; [|reflexivity]. apply mem_str_in in E. apply I in E. apply mem_str_in in E. congruence.
Qed.

Lemma lower_word s : to_lower (first_word s) = first_word (to_lower s).
Proof. induction s as [|c s IH]; [reflexivity|]. change (to_lower (c :: s)) with (lower_char c :: to_lower s). cbn [first_word]. rewrite lower_not_ws. destruct (is_ws c); [reflexivity|].
  change (to_lower (c :: first_word s)) with (lower_char c :: to_lower (first_word s)). now rewrite IH. Qed.
Lemma c_word s : starts_with #"c." s = true -> bj (first_word s) = false.
Proof. intros H. apply starts_with_spec in H as [r ->]. reflexivity. Qed.
Lemma dot_word s r : trim s = #".word" -> bj (first_word (s ++ r)) = false.
Proof.
  intros H. destruct (trim_decomp s) as (a & b & E & A & _). rewrite H in E. rewrite E, <- !app_assoc.
  destruct a as [|c a]; [reflexivity|]. cbn in A. apply andb_prop in A as [A _]. cbn. now rewrite A.
Qed.

(** What the mnemonic of a line tells. *)
Definition speaks (e : env) (s : pstate) (raw : str) (w : list pwarning) (i : inst) : Prop :=
  has_delay_slot i = mem_str (mnemonic raw) seen
  /\ exists A args, w = (if mem_str (mnemonic raw) transfers then fst (check_delay e s) else []) ++ A
     /\ alignment e s (mnemonic raw) args A.
Lemma silent e s n args : mem_str n transfers = false -> alignment e s n args [].
Proof.
  intros T. unfold alignment. rewrite !mem_sub; [reflexivity| |exact T| |exact T]; unfold transfers; intros x; rewrite !in_app_iff; tauto.
Qed.
Lemma line_speaks e s raw w i : parse_inst e s (clean raw) = (w, Ok i) -> speaks e s raw w i.
Proof.
  unfold parse_inst, speaks. intros H.
  assert (D : exists op arg r, match split_once " " (clean raw) with Some oa => oa | None => (clean raw, []) end = (op, arg) /\ clean raw = op ++ r
     /\ (r = #" " ++ arg \/ r = [] /\ arg = [])).
  { destruct (split_once " " (clean raw)) as [[op arg]|] eqn:Sp.
    - apply split_once_decomp in Sp. exists op, arg, (#" " ++ arg). auto.
    - exists (clean raw), [], []. rewrite app_nil_r. auto. }
  destruct D as (op & arg & r & E & Ec & Er). rewrite E in H.
  assert (H' : parse_op e s op arg (split_char "," arg) = (w, Ok i)).
  { destruct (clean raw); [|exact H]. exfalso. apply lift_inv in H as [_ H]. unfold fail_at in H. destruct (get_line _ _); discriminate. }
  clear H E. apply op_emits in H' as [((v & ->) & -> & Tr)|[[Sl Nm] (A & -> & Al)]].
  - assert (B : bj (mnemonic raw) = false) by (unfold mnemonic; rewrite lower_word, Ec; unfold to_lower; rewrite map_app; now apply dot_word).
    destruct (not_bj _ B) as [B1 B2]. rewrite B1, B2. split; [reflexivity|]. exists [], []. split; [reflexivity|]. now apply silent.
  - destruct Nm as [Ti|Cd].
    + assert (M : mnemonic raw = trim (to_lower op)).
      { unfold mnemonic. rewrite Ec, first_word_tight; [|exact Ti|destruct Er as [->|[-> _]]; cbn; auto]. symmetry. apply trim_tight. now rewrite tight_lower. }
      rewrite M. split; [exact Sl|]. exists A, (split_char "," arg). auto.
    + assert (B : bj (mnemonic raw) = false).
      { unfold mnemonic. rewrite lower_word, Ec. unfold to_lower. rewrite map_app. apply c_word. apply starts_with_spec in Cd as [q Q].
        fold (to_lower op). rewrite Q. reflexivity. }
      destruct (not_bj _ B) as [B1 B2].
      assert (B' : bj (trim (to_lower op)) = false).
      { apply starts_with_spec in Cd as [q Q]. rewrite Q. destruct (trim_decomp (#"c." ++ q)) as (a & b & E & Aw & _).
        destruct a as [|c a].
        - destruct (trim (#"c." ++ q)) as [|c t]; [reflexivity|]. cbn [app] in E. injection E as <- _. reflexivity.
        - cbn [app] in E. injection E as <- _. discriminate Aw. }
      destruct (not_bj _ B') as [B3 B4]. rewrite B3. rewrite B4 in Sl. rewrite B1, B2. split; [exact Sl|]. exists A, []. split; [reflexivity|].
      unfold alignment in Al. rewrite !mem_sub in Al; [subst A; now apply silent| |exact B3| |exact B3]; unfold transfers; intros x; rewrite !in_app_iff; tauto.
Qed.

(** ** Delay-slot warnings of a program *)
(** The delay-slot warnings of the lines [ls], whose branches and jumps are recognised by [S1] (the instruction before)
    and [S2] (the instruction warned about). *)
Definition warned_in (S1 S2 : list str) (ls : list str) (x : pwarning) : Prop :=
  exists l1 above raw l2 prev, ls = l1 ++ above :: raw :: l2 /\ is_instruction raw = true /\ In (mnemonic raw) S2
    /\ last_instruction (l1 ++ [above]) = Some prev /\ In (mnemonic prev) S1
    /\ x = WDelaySlot (mk_line (S (List.length l1)) above) (mk_line (S (S (List.length l1))) raw).

Lemma warned_snoc S1 S2 ls raw x : warned_in S1 S2 (ls ++ [raw]) x <-> warned_in S1 S2 ls x \/
  (exists l1 above prev, ls = l1 ++ [above] /\ is_instruction raw = true /\ In (mnemonic raw) S2
    /\ last_instruction ls = Some prev /\ In (mnemonic prev) S1
    /\ x = WDelaySlot (mk_line (List.length ls) above) (mk_line (S (List.length ls)) raw)).
Proof.
  split.
  - intros (l1 & above & r & l2 & prev & E & I & M & La & P & ->).
    destruct l2 as [|y l2] using rev_ind.
    + right. assert (E' : ls ++ [raw] = (l1 ++ [above]) ++ [r]) by (rewrite E, <- app_assoc; reflexivity). apply app_inj_tail in E' as [-> ->].
      exists l1, above, prev. rewrite app_length. cbn [List.length]. rewrite Nat.add_1_r. auto 8.
    + left. assert (E' : ls ++ [raw] = (l1 ++ above :: r :: l2) ++ [y]) by (rewrite E, <- app_assoc; reflexivity).
      apply app_inj_tail in E' as [-> ->]. exists l1, above, r, l2, prev. auto 8.
  - intros [(l1 & above & r & l2 & prev & -> & I & M & La & P & ->)|(l1 & above & prev & -> & I & M & La & P & ->)].
    + exists l1, above, r, (l2 ++ [raw]), prev. rewrite <- app_assoc. cbn. auto 8.
    + exists l1, above, raw, [], prev. rewrite app_length, <- app_assoc. cbn [List.length app]. rewrite Nat.add_1_r. auto 8.
Qed.

Lemma warn_in o x : In x (fst (warn o)) -> o = Ok x.
Proof.
  unfold warn. destruct o as [v|p|p]; [|intros []|intros []]. destruct (show_warning v); cbn [fst]; intros []; [now subst|contradiction].
Qed.
Lemma alignment_not_delay e s n args A x : alignment e s n args A -> In x A -> is_delay x = false.
Proof.
  unfold alignment. destruct (mem_str n branches); [|destruct (mem_str n jumps)].
  - intros (pre & o & im & _ & _ & ->). unfold check_branch. destruct (imm_is_label im); [intros []|].
    unfold lift. destruct (imm_as_u32 im) as [v|p|p]; cbn [mbind]; try (intros []). destruct (negb (v mod 4 =? 0)); [|intros []].
    set (o1 := do! l <- get_line e (p_line s); _). intros H. assert (K : In x (fst (warn o1))) by (destruct (warn o1); exact H).
    apply warn_in in K. unfold o1 in K. apply obind_ok in K as (l & _ & K). injection K as <-. reflexivity.
  - intros (a & t & _ & _ & ->). unfold check_jump. destruct (target_is_label t); [intros []|].
    unfold lift. destruct (target_as_u32 t) as [v|p|p]; cbn [mbind]; try (intros []). destruct (negb (v mod 4 =? 0)); [|intros []].
    set (o1 := do! l <- get_line e (p_line s); _). intros H. assert (K : In x (fst (warn o1))) by (destruct (warn o1); exact H).
    apply warn_in in K. unfold o1 in K. apply obind_ok in K as (l & _ & K). injection K as <-. reflexivity.
  - intros ->. intros [].
Qed.

Lemma last_instruction_snoc ls l : last_instruction (ls ++ [l]) = if is_instruction l then Some l else last_instruction ls.
Proof. unfold last_instruction. rewrite filter_app. cbn [filter]. destruct (is_instruction l); [now rewrite rev_app_distr|now rewrite app_nil_r]. Qed.

Record delays (e : env) (ls : list str) (s : pstate) : Prop := mk_delays {
  dl_line : p_line s = List.length ls;
  dl_some : p_insts s <> [] -> ls <> [];
  dl_last : match rev (p_insts s) with
            | [] => last_instruction ls = None
            | (_, i) :: _ => exists prev, last_instruction ls = Some prev /\ has_delay_slot i = mem_str (mnemonic prev) seen
            end;
  dl_warn : forall x, is_delay x = true -> (In x (p_warnings s) <-> warned_in seen transfers ls x) }.

Lemma delays_step e ls raw rest s s' : e_input e = ls ++ raw :: rest -> no_nl raw -> delays e ls s -> step_line e s raw = Ok s' -> p_errors s' = [] ->
  delays e (ls ++ [raw]) s'.
Proof.
  intros In0 N [L So La W] H E. apply step_view in H; [|exact N].
  assert (Q : forall t, is_instruction raw = false -> p_insts t = p_insts s -> p_warnings t = p_warnings s -> p_line t = S (p_line s) -> delays e (ls ++ [raw]) t).
  { intros t I T1 T2 T3. split.
    - rewrite T3, L, app_length. cbn. lia.
    - destruct ls; discriminate.
    - rewrite T1, last_instruction_snoc, I. exact La.
    - intros x D. rewrite T2, warned_snoc, (W x D). split; [now left|]. intros [?|(l1 & ab & pv & _ & I2 & _)]; [assumption|congruence]. }
  assert (Sn : p_errors s = []).
  { clear -H E. destruct H; cbn in E; try (destruct (p_errors s); [reflexivity|discriminate]); auto. }
  inversion H as [R Es|k R Lo Ok0 Es|k R Lo Ok0 Es|k p R P Es|w i R P Es|w p R P Es]; subst s'.
  - apply Q; try reflexivity. unfold is_instruction. now rewrite R.
  - apply Q; try reflexivity. unfold is_instruction. now rewrite R.
  - apply Q; try reflexivity. unfold is_instruction. now rewrite R.
  - cbn in E. destruct (p_errors s); discriminate.
  - assert (I : is_instruction raw = true) by (unfold is_instruction; now rewrite R).
    apply line_speaks in P as (Hs & A & args & Ew & Al). split; cbn [p_line p_insts p_warnings add_inst add_warnings bump].
    + rewrite L, app_length. cbn. lia.
    + destruct ls; discriminate.
    + rewrite rev_app_distr. cbn [rev app]. exists raw. rewrite last_instruction_snoc, I. auto.
    + intros x D. rewrite warned_snoc, in_app_iff, (W x D).
      assert (Rd : ready e (bump s) raw).
      { split; cbn [p_line p_insts bump].
        - rewrite In0, L. cbn [Nat.sub]. rewrite Nat.sub_0_r, nth_error_app2, Nat.sub_diag by lia. reflexivity.
        - intros Ne. specialize (So Ne). destruct ls; [congruence|]. cbn in L. lia. }
      assert (Cd := check_delay_ok e (bump s) raw Rd).
      assert (K : In x w <-> exists l1 above prev, ls = l1 ++ [above] /\ is_instruction raw = true /\ In (mnemonic raw) transfers
        /\ last_instruction ls = Some prev /\ In (mnemonic prev) seen /\ x = WDelaySlot (mk_line (List.length ls) above) (mk_line (S (List.length ls)) raw)).
      { rewrite Ew, in_app_iff. split.
        - intros [F|F]; [|apply (alignment_not_delay _ _ _ _ _ _ Al) in F; congruence].
          destruct (mem_str (mnemonic raw) transfers) eqn:Tr; [|destruct F]. rewrite Cd in F. cbn [fst] in F. unfold delay_warning in F.
          cbn [bump p_insts p_line] in F. destruct (rev (p_insts s)) as [|[k last] r] eqn:Rv; [destruct F|].
          destruct (has_delay_slot last) eqn:Hd; [|destruct F]. destruct La as (prev & La & Ls).
          destruct ls as [|above l1 _] using rev_ind; [discriminate La|].
          rewrite app_length in L. cbn [List.length] in L.
          assert (Nth : nth_error (e_input e) (S (p_line s) - 2) = Some above).
          { rewrite In0, L, <- app_assoc. cbn [app]. replace (S (List.length l1 + 1) - 2)%nat with (List.length l1) by lia.
            rewrite nth_error_app2, Nat.sub_diag by lia. reflexivity. }
          rewrite Nth in F. destruct F as [<-|[]]. exists l1, above, prev. apply mem_str_in in Tr. symmetry in Ls. apply mem_str_in in Ls.
          rewrite app_length. cbn [List.length]. repeat split; auto. f_equal; f_equal; lia.
        - intros (l1 & above & prev & Ela & _ & Tr & La' & P & ->). left. apply mem_str_in in Tr. rewrite Tr, Cd. cbn [fst]. unfold delay_warning.
          cbn [bump p_insts p_line]. destruct (rev (p_insts s)) as [|[k last] r] eqn:Rv; [congruence|]. destruct La as (prev' & La & Ls).
          assert (prev' = prev) as -> by congruence. apply mem_str_in in P. rewrite Ls, P.
          assert (Nth : nth_error (e_input e) (S (p_line s) - 2) = Some above).
          { rewrite In0, L, Ela, app_length, <- app_assoc. cbn [app List.length]. replace (S (List.length l1 + 1) - 2)%nat with (List.length l1) by lia.
            rewrite nth_error_app2, Nat.sub_diag by lia. reflexivity. }
          rewrite Nth, L. left. f_equal. f_equal. lia. }
      rewrite K. reflexivity.
  - cbn in E. destruct (p_errors s); discriminate.
Qed.
Lemma delays_scan e ls : forall done s s', e_input e = done ++ ls -> Forall no_nl ls -> delays e done s -> scan_lines e s ls = Ok s' -> p_errors s' = [] ->
  delays e (done ++ ls) s'.
Proof.
  induction ls as [|raw ls IH]; intros done s s' In0 N D H E; cbn [scan_lines] in H.
  - injection H as <-. now rewrite app_nil_r.
  - inversion N as [|? ? N1 N2]; subst. apply obind_ok in H as (s1 & H1 & H2).
    replace (done ++ raw :: ls) with ((done ++ [raw]) ++ ls) by (rewrite <- app_assoc; reflexivity).
    apply (IH _ s1); auto.
    + rewrite <- app_assoc. exact In0.
    + apply (delays_step e done raw ls s); auto. eapply no_errors_before; [|exact E]. now apply (scan_grows e ls N2).
Qed.

(** ** The warnings of one line *)
Lemma get_line_num e n l : get_line e n = Ok l -> l_num l = n.
Proof. unfold get_line. destruct (nth_error _ _); [|discriminate]. intros H. injection H as <-. reflexivity. Qed.
Lemma check_delay_line e s x : In x (fst (check_delay e s)) -> warned_line x = p_line s.
Proof.
  unfold check_delay. destruct (rev (p_insts s)) as [|[k i] r]; [intros []|]. destruct (has_delay_slot i); [|intros []].
  intros H. apply warn_in in H. apply obind_ok in H as (d & G & H). destruct (p_line s - 1)%nat; [discriminate|].
  apply obind_ok in H as (l & _ & H). injection H as <-. cbn. now apply get_line_num in G.
Qed.
Lemma check_branch_line e s im o x : In x (fst (check_branch e s im o)) -> x = WUnalignedBranch (mk_line (p_line s) (nth (p_line s - 1) (e_input e) [])) o.
Proof.
  unfold check_branch. destruct (imm_is_label im); [intros []|].
  unfold lift. destruct (imm_as_u32 im) as [v|p|p]; cbn [mbind]; try (intros []). destruct (negb (v mod 4 =? 0)); [|intros []].
  set (o1 := do! l <- get_line e (p_line s); _). intros H. assert (K : In x (fst (warn o1))) by (destruct (warn o1); exact H).
  apply warn_in in K. unfold o1 in K. apply obind_ok in K as (l & G & K). injection K as <-. unfold get_line in G.
  destruct (nth_error (e_input e) (p_line s - 1)) eqn:Q; [|discriminate]. injection G as <-. now rewrite (nth_error_nth _ _ _ Q).
Qed.
Lemma check_jump_line e s t o x : In x (fst (check_jump e s t o)) -> x = WUnalignedJump (mk_line (p_line s) (nth (p_line s - 1) (e_input e) [])) o.
Proof.
  unfold check_jump. destruct (target_is_label t); [intros []|].
  unfold lift. destruct (target_as_u32 t) as [v|p|p]; cbn [mbind]; try (intros []). destruct (negb (v mod 4 =? 0)); [|intros []].
  set (o1 := do! l <- get_line e (p_line s); _). intros H. assert (K : In x (fst (warn o1))) by (destruct (warn o1); exact H).
  apply warn_in in K. unfold o1 in K. apply obind_ok in K as (l & G & K). injection K as <-. unfold get_line in G.
  destruct (nth_error (e_input e) (p_line s - 1)) eqn:Q; [|discriminate]. injection G as <-. now rewrite (nth_error_nth _ _ _ Q).
Qed.
Lemma speaks_line e s raw w i x : speaks e s raw w i -> In x w -> warned_line x = p_line s.
Proof.
  intros (_ & A & args & -> & Al) H. apply in_app_or in H as [H|H].
  - destruct (mem_str _ _); [|destruct H]. now apply check_delay_line in H.
  - unfold alignment in Al. destruct (mem_str _ branches); [|destruct (mem_str _ jumps)].
    + destruct Al as (pre & o & im & _ & _ & ->). apply check_branch_line in H as ->. reflexivity.
    + destruct Al as (a & t & _ & _ & ->). apply check_jump_line in H as ->. reflexivity.
    + subst A. destruct H.
Qed.
Definition lined {A} (n : nat) (m : M A) : Prop := forall x, In x (fst m) -> warned_line x = n.
Lemma lined_lift {A} n (o : outcome perror A) : lined n (lift o).
Proof. intros x []. Qed.
Lemma lined_bind {A B} n (m : M A) (f : A -> M B) : lined n m -> (forall a, lined n (f a)) -> lined n (mbind m f).
Proof.
  unfold lined. destruct m as [w [a|p|p]]; cbn [mbind fst]; auto. intros H K x. specialize (K a x). destruct (f a) as [w' r]. cbn [fst] in *.
  intros I. apply in_app_or in I as [I|I]; auto.
Qed.
Section Lined.
Variable e : env.
Variable s : pstate.
Lemma branch_lined im o : lined (p_line s) (check_branch e s im o).
Proof. intros x I. apply check_branch_line in I as ->. reflexivity. Qed.
Lemma jump_lined t o : lined (p_line s) (check_jump e s t o).
Proof. intros x I. apply check_jump_line in I as ->. reflexivity. Qed.
Lemma delay_lined : lined (p_line s) (check_delay e s).
Proof. intros x I. now apply check_delay_line in I. Qed.
Ltac prim := first [apply lined_lift|apply branch_lined|apply jump_lined|apply delay_lined].
Ltac arm := repeat first [prim|apply lined_bind; [prim|intros ?]].
Ltac cases := match goal with args : list str |- _ => destruct args as [|x1 [|x2 [|x3 [|x4 xr]]]] end; try apply lined_lift.
Lemma op_lined op arg args : lined (p_line s) (parse_op e s op arg args).
Proof.
  unfold parse_op. destruct (classify _) as [[]|].
  - unfold parse_mem. cases. apply lined_bind.
    + destruct (str_eqb _ _); arm.
    + intros rt. arm. destruct (re_find_str _ _); arm.
  - unfold parse_imm3. cases. arm. destruct (_ || _); arm.
  - unfold parse_imm2. cases. arm.
  - unfold parse_trap_imm. cases. arm.
  - unfold parse_branch1. cases. arm.
  - unfold parse_branch2. cases. arm.
  - unfold parse_jump. cases. cbv zeta. arm.
  - unfold parse_plain. arm.
  - unfold parse_reg3. cases. arm.
  - unfold parse_shift. cases. arm.
  - unfold parse_shiftv. cases. arm.
  - unfold parse_code. cases. apply lined_bind; [|intros; arm]. destruct x1; arm.
  - unfold parse_reg2. cases. arm.
  - unfold parse_jalr. cases; arm.
  - unfold parse_move. cases; arm.
  - unfold parse_b. cases; arm.
  - unfold parse_li. cases. arm. destruct (_ >? _); arm.
  - unfold parse_div. cases; arm.
  - unfold parse_rs. cases. apply lined_bind; [|intros; arm]. destruct (str_eqb _ _); arm.
  - unfold parse_rd. cases; arm.
  - unfold parse_dli. cases; arm.
  - unfold parse_b. cases; arm.
  - unfold parse_cop0. cases; arm.
  - unfold parse_cop1. cases; arm.
  - unfold parse_plain. arm.
  - unfold parse_fmem. cases. arm.
  - unfold parse_word. arm.
  - unfold parse_float. destruct (Nat.ltb _ 2); [apply lined_lift|]. cbv zeta.
    destruct (mem_str _ _); [cases; arm|]. destruct (mem_str _ _); [cases; arm|]. destruct (starts_with _ _); [cases; arm|arm].
Qed.
Lemma inst_lined ln : lined (p_line s) (parse_inst e s ln).
Proof. unfold parse_inst. destruct (match split_once " " ln with Some oa => oa | None => _ end) as [op arg]. destruct ln; [apply lined_lift|apply op_lined]. Qed.
End Lined.
Lemma scan_warnings e ls : Forall no_nl ls -> forall s s', scan_lines e s ls = Ok s' ->
  exists W, p_warnings s' = p_warnings s ++ W /\ forall x, In x W -> (p_line s < warned_line x <= p_line s + List.length ls)%nat.
Proof.
  induction 1 as [|l ls N Nl IH]; intros s s' H; cbn [scan_lines] in H.
  - injection H as <-. exists []. rewrite app_nil_r. split; [reflexivity|intros x []].
  - apply obind_ok in H as (s1 & H1 & H2).
    destruct (IH s1 s' H2) as (W & EW & B). clear IH H2.
    apply step_view in H1; [|exact N]. cbn [List.length].
    assert (K : p_line s1 = S (p_line s) /\ exists V, p_warnings s1 = p_warnings s ++ V /\ forall x, In x V -> warned_line x = S (p_line s)).
    { destruct H1 as [R|k R Lc P|k R Lc P|k p R P|w i R P|w p R P];
      (split; [reflexivity|]);
      try (exists []; rewrite app_nil_r; split; [reflexivity|intros x []]);
      (exists w; split; [reflexivity|]; intros x I; apply (inst_lined e (bump s) (clean l)); rewrite P; exact I). }
    destruct K as (L1 & V & EV & BV). exists (V ++ W). rewrite EW, EV, app_assoc. split; [reflexivity|].
    intros x I. apply in_app_or in I as [I|I]; [rewrite (BV x I); lia|]. specialize (B x I). lia.
Qed.

(** The warnings of a program about one of its instructions. *)
Lemma line_warnings rt m input ws l1 raw l2 : assemble_warnings rt m input = Some ws -> faultless rt m input (S (List.length l1)) ->
  lines input = l1 ++ raw :: l2 -> is_instruction raw = true ->
  exists s w i, ready (mk_parser rt m input) (bump s) raw /\ p_line (bump s) = S (List.length l1)
    /\ (forall n k, assoc n (p_labels s) = Some k -> good_label n)
    /\ parse_inst (mk_parser rt m input) (bump s) (clean raw) = (w, Ok i)
    /\ (forall x, warned_line x = S (List.length l1) -> (In x ws <-> In x w)).
Proof.
  intros A Fl Ei I. assert (N := nl_of_lines input). unfold assemble_warnings in A. unfold faultless, assemble in Fl.
  destruct (parse (mk_parser rt m input)) as [[ws' r]|p|p] eqn:Pa; try discriminate. injection A as ->.
  unfold parse in Pa. set (e := mk_parser rt m input) in *. apply obind_ok in Pa as (s' & Sc & Pa). change (e_input e) with (lines input) in Sc.
  fold (final e s') in Pa. destruct (final_same e s') as (_ & _ & F3 & _ & F5). rewrite F3, F5 in Pa. apply obind_ok in Pa as (q & _ & Pa).
  injection Pa as Ew Er. symmetry in Ew. subst ws.
  assert (Ne : forall p, In p (p_errors s') -> error_number p <> S (List.length l1)).
  { intros p Ip. destruct (p_errors s' ++ snd q) as [|p0 es] eqn:Ee; [destruct (p_errors s'); [destruct Ip|discriminate]|]. subst r.
    apply (Fl _ p eq_refl). rewrite <- Ee. apply in_or_app. now left. }
  clear Fl Er.
  rewrite Ei, scan_app in Sc. apply obind_ok in Sc as (s1 & S1 & Sc). cbn [obind scan_lines] in Sc. apply obind_ok in Sc as (s2 & H1 & H2).
  rewrite Ei in N. apply Forall_app in N as [N1 N]. inversion N as [|? ? Nr N2]; subst.
  assert (Af : after e l1 s1).
  { assert (G : forall ls done s t, Forall no_nl ls -> after e done s -> scan_lines e s ls = Ok t -> after e (done ++ ls) t).
    { clear. induction ls as [|l ls IH]; intros done s t N A H; cbn [scan_lines] in H.
      - injection H as <-. now rewrite app_nil_r.
      - inversion N as [|? ? Na Nb]; subst. apply obind_ok in H as (u & H1 & H2). replace (done ++ l :: ls) with ((done ++ [l]) ++ ls) by (rewrite <- app_assoc; reflexivity).
        apply (IH _ u); auto. now apply (step_after e done l s). }
    apply (G l1 [] init_state s1 N1); [split; cbn; lia|exact S1]. }
  assert (Rd : ready e (bump s1) raw) by (apply (after_ready e l1 raw l2); [exact Ei|exact Af]).
  assert (Gl : forall n k, assoc n (p_labels s1) = Some k -> good_label n).
  { intros n k As. apply assoc_in in As.
    destruct (scan_labels e l1 N1 init_state s1 S1) as [G _]; [intros ? ? []|constructor|]. eauto. }
  assert (R : role_of raw = Instruction) by (unfold is_instruction in I; destruct (role_of raw); [discriminate|discriminate|reflexivity]).
  destruct (scan_grows e l2 N2 s2 s' H2) as [G L]. 
  apply step_view in H1; [|exact Nr].
  destruct (scan_warnings e l1 N1 init_state s1 S1) as (W1 & EW1 & B1).
  destruct (scan_warnings e l2 N2 s2 s' H2) as (W2 & EW2 & B2).
  destruct Af as [P1 _].
  inversion H1 as [R' Es|k R' Lc P Es|k R' Lc P Es|k p R' P Es|w i R' P Es|w p R' P Es]; subst s2; try congruence.
  - exists s1, w, i. split; [exact Rd|]. split; [cbn; now rewrite P1|]. split; [exact Gl|]. split; [exact P|].
    intros x Ex. rewrite EW2. cbn [p_warnings add_inst add_warnings bump] in *. rewrite EW1. cbn [init_state p_warnings app].
    rewrite !in_app_iff. split; [|auto]. intros [[F|F]|F]; [|exact F|].
    + apply B1 in F. cbn in F. lia.
    + apply B2 in F. cbn in F. rewrite P1 in F. lia.
  - exfalso. destruct (inst_error_line e (bump s1) raw (clean raw) w p Rd (clean_part raw) P) as [El _].
    apply (Ne p).
    + destruct G as (_ & _ & [x Ex] & _). rewrite Ex. cbn [p_errors add_error]. apply in_or_app. left. apply in_or_app. right. now left.
    + unfold error_number. rewrite El. cbn. now rewrite P1.
Qed.

(** ** Numeric targets *)
Lemma transfer_name n : In n transfers -> name_ok n /\ to_lower n = n.
Proof.
  intros I. assert (F : forallb (fun n => name_okb n && str_eqb (to_lower n) n) transfers = true) by (vm_compute; reflexivity).
  rewrite forallb_forall in F. apply F in I. apply andb_prop in I as [A B]. split; [now apply name_okb_ok|now apply str_eqb_spec in B].
Qed.
Lemma numeral_unlabelled e t v : numeral t v -> (forall n k, assoc n (p_labels e) = Some k -> good_label n) -> assoc t (p_labels e) = None.
Proof.
  intros N G. destruct (assoc t (p_labels e)) as [k|] eqn:E; [|reflexivity]. exfalso. apply G in E.
  destruct (numeral_head t v N) as (c & r & -> & D). cbn [good_label] in E. congruence.
Qed.
Lemma plain_operand_ok t : plain_name t -> operand_ok t.
Proof.
  intros P. apply operand_in; [exact (proj1 P)|]. apply forallb_forall. intros c I. destruct (plain_name_in t c P I) as [A B]. rewrite A. cbn [negb andb].
  destruct c as [[] [] [] [] [] [] [] []]; try reflexivity; discriminate B.
Qed.
Lemma forall2_last {A B} (R : A -> B -> Prop) l x l' y : Forall2 R (l ++ [x]) (l' ++ [y]) -> R x y.
Proof.
  revert l'. induction l as [|a l IH]; intros l' H.
  - inversion H as [|? ? ? ? P H1]; subst. inversion H1; subst. destruct l' as [|z l']; [cbn in *; congruence|]. destruct l'; discriminate.
  - destruct l' as [|z l']; cbn [app] in H; inversion H; subst; eauto.
    match goal with H : Forall2 R (_ ++ _) [] |- _ => inversion H as [E|]; destruct l; discriminate end.
Qed.

(** Everything known about the line of a branch or jump in an assembled program. *)
Lemma transfer_line rt m input ws l1 raw l2 name ts t :
  assemble_warnings rt m input = Some ws -> faultless rt m input (S (List.length l1)) -> lines input = l1 ++ raw :: l2 -> In name transfers -> Forall operand_ok (ts ++ [t]) -> instruction_line name (ts ++ [t]) raw ->
  let e := mk_parser rt m input in
  exists s xs A, ready e s raw /\ p_line s = S (List.length l1)
    /\ (forall n k, assoc n (p_labels s) = Some k -> good_label n)
    /\ Forall2 (fun t x => padded t x /\ part x raw) (ts ++ [t]) xs
    /\ alignment e s name xs A
    /\ (forall x, warned_line x = S (List.length l1) -> is_delay x = false -> (In x ws <-> In x A)).
Proof.
  intros As Fl Ei It Fo Il e. destruct (transfer_name name It) as [Nm Lw].
  assert (Nl : no_nl raw) by (apply (lines_no_nl input); rewrite Ei; apply in_or_app; right; now left).
  destruct (line_parse_parts e (bump init_state) name (ts ++ [t]) raw Nm Fo Nl Il) as (_ & _ & _ & _ & _ & Ne & Ec & _).
  assert (In0 : is_instruction raw = true) by (unfold is_instruction; now rewrite (role_native raw Ne Ec)).
  destruct (line_warnings rt m input ws l1 raw l2 As Fl Ei In0) as (s & w & i & Rd & L & G & P & Wi). fold e in Rd, P.
  destruct (line_parse_parts e (bump s) name (ts ++ [t]) raw Nm Fo Nl Il) as (op & arg & xs & SL & Ar & _ & _ & Eq).
  rewrite P in Eq. symmetry in Eq. assert (Tr : trim (to_lower op) = name).
  { unfold same_letters in SL. rewrite SL, Lw. destruct Nm as (_ & _ & Nw). now apply trim_tight. }
  destruct Ar as [[E _]|[_ Ar]]; [destruct ts; discriminate|].
  apply op_emits in Eq as [(_ & _ & E)|[_ (A & Ewa & Al)]].
  - rewrite Tr in E. subst name. exfalso. revert It. apply in_list_mem. vm_compute. reflexivity.
  - rewrite Tr in *. exists (bump s), xs, A. repeat (split; [assumption|]). intros x Lx Dx. rewrite (Wi x Lx), Ewa, in_app_iff.
    split; [|now right]. intros [H|H]; [|exact H]. exfalso. destruct (mem_str name transfers); [|destruct H].
    rewrite (check_delay_ok e (bump s) raw Rd) in H. cbn [fst] in H. unfold delay_warning in H. destruct (rev (p_insts (bump s))) as [|[? last] ?]; [destruct H|].
    destruct (has_delay_slot last); [|destruct H]. destruct (nth_error _ _); [|destruct H]. destruct H as [<-|[]]. discriminate Dx.
Qed.

Lemma numeral_operand t v : numeral t v -> operand_ok t.
Proof. intros Nu. apply numeral_shape in Nu as (radix & ds & S & _). now apply (number_operand_ok _ _ _ _ S). Qed.
Lemma operands_ok ts t : Forall plain_name ts -> operand_ok t -> Forall operand_ok (ts ++ [t]).
Proof.
  intros F O. apply Forall_app. split; [|now constructor]. eapply Forall_impl; [|exact F]. intros ? ?. now apply plain_operand_ok.
Qed.
Theorem branch_alignment rt m input ws l1 raw l2 name ts t a :
  assemble_warnings rt m input = Some ws -> faultless rt m input (S (List.length l1)) -> lines input = l1 ++ raw :: l2 -> In name branches -> Forall plain_name ts -> numeral t a -> 0 <= a < 2 ^ 32 ->
  instruction_line name (ts ++ [t]) raw ->
  exists x, padded t x /\ forall w, warned_line w = S (List.length l1) -> is_delay w = false ->
         (In w ws <-> a mod 4 <> 0 /\ w = WUnalignedBranch (mk_line (S (List.length l1)) raw) x).
Proof.
  intros As Fl Ei Ib Pl Nu R Il.
  assert (It : In name transfers) by (unfold transfers; apply in_or_app; now left).
  assert (Pl' := operands_ok ts t Pl (numeral_operand t a Nu)).
  destruct (transfer_line rt m input ws l1 raw l2 name ts t As Fl Ei It Pl' Il) as (s & xs & A & Rd & L & G & F2 & Al & Wi).
  set (e := mk_parser rt m input) in *. unfold alignment in Al. apply mem_str_in in Ib. rewrite Ib in Al. destruct Al as (pre & o & im & -> & Pi & ->).
  apply forall2_last in F2 as [Pd Pt]. exists o. split; [exact Pd|]. intros w Lw Dw. rewrite (Wi w Lw Dw).
  rewrite (parse_immediate_unsigned e s u32 o t a Pd Nu (numeral_unlabelled s t a Nu G)) in Pi
    by (change (it_min u32) with 0; change (it_max u32) with (2 ^ 32 - 1); lia).
  assert (im = Int a) as ->. { unfold imm_new in Pi. change (it_bits u32) with 32 in Pi. cbn in Pi. injection Pi as <-. f_equal. unfold wrap. now rewrite Z.mod_small. }
  unfold check_branch. cbn [imm_is_label imm_as_u32 lift mbind]. destruct (Z.eqb_spec (a mod 4) 0) as [Ea|Na]; cbn [negb].
  - cbn. split; [intros []|intros [? _]; congruence].
  - unfold get_line. destruct Rd as [Nt _]. rewrite Nt. cbn [obind]. 
    destruct (show_branch (mk_line (p_line s) raw) o Pt) as [tx Sh]. rewrite (warn_ok _ _ Sh). cbn [fst app]. rewrite L. split.
    + intros [<-|[]]. auto.
    + intros [_ ->]. now left.
Qed.

Lemma jump_names_operand syms t a : names_address syms t a -> plain_name t \/ numeral t a -> operand_ok t.
Proof. intros _ [H|H]; [now apply plain_operand_ok|now apply (numeral_operand t a)]. Qed.
Theorem jump_alignment rt m input ws l1 raw l2 name t a :
  assemble_warnings rt m input = Some ws -> faultless rt m input (S (List.length l1)) -> lines input = l1 ++ raw :: l2 -> In name jumps -> names_address (m_syms m) t a -> plain_name t \/ numeral t a -> 0 <= a < 2 ^ 32 ->
  instruction_line name [t] raw ->
  forall w, warned_line w = S (List.length l1) -> is_delay w = false ->
         (In w ws <-> a mod 4 <> 0 /\ w = WUnalignedJump (mk_line (S (List.length l1)) raw) t).
Proof.
  intros As Fl Ei Ib Na Pn R Il.
  assert (It : In name transfers) by (unfold transfers; apply in_or_app; right; apply in_or_app; now left).
  assert (Ot := jump_names_operand _ t a Na Pn).
  assert (Nb : mem_str name branches = false) by (destruct Ib as [<-|[<-|[]]]; vm_compute; reflexivity).
  destruct (transfer_line rt m input ws l1 raw l2 name [] t As Fl Ei It (operands_ok [] t (Forall_nil _) Ot) Il) as (s & xs & A & Rd & L & G & F2 & Al & Wi).
  set (e := mk_parser rt m input) in *. unfold alignment in Al. apply mem_str_in in Ib. rewrite Nb, Ib in Al. destruct Al as (o & tg & -> & Pi & ->).
  apply (forall2_last _ [] t [] o) in F2 as [Pd Pt]. intros w Lw Dw. rewrite (Wi w Lw Dw).
  assert (To : trim o = t) by (apply (padded_trim _ _ Pd); apply Ot). rewrite To in *.
  rewrite (target_names e s t a Na R) in Pi. injection Pi as <-.
  assert (Pt' : part t raw) by (apply (part_trans t o raw); [|exact Pt]; rewrite <- To; apply trim_part).
  unfold check_jump. cbn [target_is_label target_as_u32 lift mbind]. destruct (Z.eqb_spec (a mod 4) 0) as [Ea|Ne]; cbn [negb].
  - cbn. split; [intros []|intros [? _]; congruence].
  - unfold get_line. destruct Rd as [Nt _]. rewrite Nt. cbn [obind]. 
    destruct (show_jump (mk_line (p_line s) raw) t Pt') as [tx Sh]. rewrite (warn_ok _ _ Sh). cbn [fst app]. rewrite L. split.
    + intros [<-|[]]. auto.
    + intros [_ ->]. now left.
Qed.

(** ** Every alignment warning is about a branch or jump *)
Definition about (ls : list str) (x : pwarning) : Prop :=
  exists l1 raw l2, ls = l1 ++ raw :: l2 /\ is_instruction raw = true
    /\ match x with
       | WDelaySlot _ _ => True
       | WUnalignedBranch ln _ => ln = mk_line (S (List.length l1)) raw /\ In (mnemonic raw) branches
       | WUnalignedJump ln _ => ln = mk_line (S (List.length l1)) raw /\ In (mnemonic raw) jumps
       end.
Lemma speaks_about e s raw w i x : ready e s raw -> speaks e s raw w i -> In x w ->
  match x with
  | WDelaySlot _ _ => True
  | WUnalignedBranch ln _ => ln = mk_line (p_line s) raw /\ In (mnemonic raw) branches
  | WUnalignedJump ln _ => ln = mk_line (p_line s) raw /\ In (mnemonic raw) jumps
  end.
Proof.
  intros [Nt Rd] (_ & A & args & -> & Al) H. apply in_app_or in H as [H|H].
  - destruct (mem_str _ _); [|destruct H]. rewrite (check_delay_ok e s raw (conj Nt Rd)) in H. cbn [fst] in H. unfold delay_warning in H.
    destruct (rev (p_insts s)) as [|[? last] ?]; [destruct H|].
    destruct (has_delay_slot last); [|destruct H]. destruct (nth_error _ (p_line s - 2)); [|destruct H]. destruct H as [<-|[]]. exact Logic.I.
  - unfold alignment in Al. destruct (mem_str _ branches) eqn:Eb; [|destruct (mem_str _ jumps) eqn:Ej].
    + destruct Al as (pre & o & im & _ & _ & ->). apply check_branch_line in H as ->. rewrite (nth_error_nth _ _ _ Nt). apply mem_str_in in Eb. auto.
    + destruct Al as (a & t & _ & _ & ->). apply check_jump_line in H as ->. rewrite (nth_error_nth _ _ _ Nt). apply mem_str_in in Ej. auto.
    + subst A. destruct H.
Qed.
Lemma scan_about e ls : forall done s s', e_input e = done ++ ls -> Forall no_nl ls -> after e done s -> scan_lines e s ls = Ok s' -> p_errors s' = [] ->
  (forall x, In x (p_warnings s) -> about (e_input e) x) -> forall x, In x (p_warnings s') -> about (e_input e) x.
Proof.
  induction ls as [|raw ls IH]; intros done s s' In0 N A H E B; cbn [scan_lines] in H.
  - injection H as <-. exact B.
  - inversion N as [|? ? N1 N2]; subst. apply obind_ok in H as (s1 & H1 & H2). assert (A1 := step_after e done raw s s1 A N1 H1).
    destruct (scan_grows e ls N2 s1 s' H2) as [G _]. assert (E1 := no_errors_before _ _ G E).
    apply (IH (done ++ [raw]) s1 s'); auto; [now rewrite <- app_assoc|].
    assert (Rd := after_ready e done raw ls s In0 A). apply step_view in H1; [|exact N1].
    destruct H1 as [R|k R Lc P|k R Lc P|k p R P|w i R P|w p R P]; cbn in E1; try (destruct (p_errors s); discriminate E1); try exact B.
    cbn [p_warnings add_inst add_warnings bump]. intros x I. apply in_app_or in I as [I|I]; [auto|]. apply line_speaks in P.
    assert (X := speaks_about e (bump s) raw w i x Rd P I). exists done, raw, ls. split; [exact In0|].
    split; [unfold is_instruction; now rewrite R|]. cbn [p_line bump] in X. destruct A as [L _]. rewrite L in X. exact X.
Qed.
