(** * ImmProofs: the instructions with immediates and memory operands, for any text of the
    last operand (proofs only). *)

From Coq Require Import Lia.
From Verif Require Import Lib SpecIsa StrLemmas NumLemmas DecodeProofs TextProofs OperandProofs NativeProofs LineProofs ScanProofs ProgProofs AsmProofs MachineProofs
  PseudoProofs BranchProofs LabelProofs HalfProofs SpacingProofs SpecText SpecProgram SpecLabels SpecImm.

(** The type an immediate is read as. *)
Definition logical (op : str) : bool := str_eqb op #"andi" || str_eqb op #"ori" || str_eqb op #"xori".
Definition read_as (f : format) (op : str) : ity :=
  match last_kind f with
  | Some Uimm => if existsb (str_eqb (f_name f)) [ #"andi"; #"ori"; #"xori" ] then (if logical op then u16 else i16) else u16
  | _ => i16
  end.

(** What the parser makes of the operand. *)
Definition becomes (x : M inst) (r : outcome perror immediate) (dom : Z -> Prop) (ws : Z -> list Z) : Prop :=
  match r with
  | Ok im => exists p rs rt, x = ([], Ok (IImm p rs rt im [])) /\ forall v, dom v -> encodes (IImm p rs rt (Short (v mod 65536)) []) (ws v)
  | Err er => x = ([], Err er)
  | Panic q => x = ([], Panic q)
  end.

Definition imm_ok (f : format) : Prop := exists ks k, f_ops f = ks ++ [k]
  /\ forall e s op arg os xs x, same_letters op (f_name f) -> args_rel ks os xs ->
     becomes (parse_op e s op arg (xs ++ [x])) (parse_immediate e s (read_as f op) x) (fun v => k = Uimm -> 0 <= v < 65536) (fun v => [word f (os ++ [OInt v])]).

(** The texts of the offset. *)
Definition offset_part (float : bool) (x : str) : str :=
  match re_find_str OFFSET_RE x with
  | Some o => if float then remove_all #"(" o else firstn (List.length o - 1) o
  | None => #"0"
  end.
Definition mem_ok (f : format) : Prop := exists k float, f_ops f = [k; Mem] /\ (float = true <-> float_memory f)
  /\ forall e s op arg o x1 x bt b, labels_ok s -> same_letters op (f_name f) -> arg_rel k o x1 ->
     base_text x = Ok bt -> reg_from_str bt = Ok (reg_of_num b) -> 0 <= b < 32 ->
     becomes (parse_op e s op arg [x1; x]) (parse_immediate e s i16 (offset_part float x)) (fun _ => True) (fun v => [word f [o; OMem v b]]).

Section Formats.
Variable f : format.
Local Notation name := (f_name f).
Ltac prep SL C P := rewrite <- SL in C; rewrite <- (iop_of_letters _ _ SL) in P.
Ltac go := unfold parse_op; match goal with H : classify _ = _ |- _ => rewrite H; clear H end.
Ltac step := repeat (match goal with E : ?x = lift (Ok _) |- context [?x] => rewrite E end || rewrite mbind_ok).
Ltac fin En := unfold becomes, aimm; match goal with |- match ?r with _ => _ end => destruct r as [im|er|q] end; [|reflexivity|reflexivity];
  eexists _, _, _; split; [reflexivity|]; intros v Dv; try specialize (Dv eq_refl); apply encodes_i; intros oc; apply En; auto.

Lemma imm_3s p : f_ops f = [Rt; Rs; Simm] -> classify (trim (to_lower name)) = Some GImm3 ->
  forallb (fun n => negb (str_eqb (to_lower n) (to_lower name))) [#"andi"; #"ori"; #"xori"] = true -> iop_of name = Ok p ->
  (forall a b v, 0 <= a < 32 -> 0 <= b < 32 -> forall oc, @enc_i perror oc p (reg_of_num b) (reg_of_num a) (Short (v mod 65536)) = Ok [word f [OReg a; OReg b; OInt v]]) -> imm_ok f.
Proof.
  intros FO C Nn P En. exists [Rt; Rs], Simm. split; [exact FO|]. intros e s op arg os xs x SL A.
  assert (Rd : read_as f op = i16) by (unfold read_as, last_kind; now rewrite FO). rewrite Rd.
  assert (Q : logical op = false).
  { rewrite forallb_forall in Nn. unfold logical.
    repeat (apply orb_false_iff; split); apply str_eqb_neq; intros ->;
    match type of SL with same_letters ?n _ => assert (X := Nn n ltac:(cbn; tauto)); apply negb_true_iff, str_eqb_neq in X; apply X; exact SL end. }
  apply args2 in A as (o & o' & x1 & x2 & -> & -> & A & A').
  apply arg_gpr in A as (a & t & -> & Pa & G & R). apply arg_gpr in A' as (b & t' & -> & Pb & G' & R'). prep SL C P.
  go. cbn [app]. unfold parse_imm3. fold (logical op). rewrite Q, P, (areg_ok e s x1 t a Pa G), (areg_ok e s x2 t' b Pb G'). step. fin En.
Qed.
Lemma imm_3u p : f_ops f = [Rt; Rs; Uimm] -> classify (trim (to_lower name)) = Some GImm3 ->
  existsb (str_eqb name) [#"andi"; #"ori"; #"xori"] = true -> iop_of name = Ok p ->
  (forall a b v, 0 <= a < 32 -> 0 <= b < 32 -> 0 <= v < 65536 -> forall oc, @enc_i perror oc p (reg_of_num b) (reg_of_num a) (Short (v mod 65536)) = Ok [word f [OReg a; OReg b; OInt v]]) -> imm_ok f.
Proof.
  intros FO C Nn P En. exists [Rt; Rs], Uimm. split; [exact FO|]. intros e s op arg os xs x SL A.
  assert (Rd : read_as f op = if logical op then u16 else i16) by (unfold read_as, last_kind; now rewrite FO, Nn). rewrite Rd.
  apply args2 in A as (o & o' & x1 & x2 & -> & -> & A & A').
  apply arg_gpr in A as (a & t & -> & Pa & G & R). apply arg_gpr in A' as (b & t' & -> & Pb & G' & R'). prep SL C P.
  go. cbn [app]. unfold parse_imm3. fold (logical op). rewrite P, (areg_ok e s x1 t a Pa G), (areg_ok e s x2 t' b Pb G'). step.
  destruct (logical op); fin En.
Qed.
Lemma imm_2 p : f_ops f = [Rt; Uimm] -> classify (trim (to_lower name)) = Some GImm2 ->
  existsb (str_eqb name) [#"andi"; #"ori"; #"xori"] = false -> iop_of name = Ok p ->
  (forall a v, 0 <= a < 32 -> 0 <= v < 65536 -> forall oc, @enc_i perror oc p reg_null (reg_of_num a) (Short (v mod 65536)) = Ok [word f [OReg a; OInt v]]) -> imm_ok f.
Proof.
  intros FO C Nn P En. exists [Rt], Uimm. split; [exact FO|]. intros e s op arg os xs x SL A.
  assert (Rd : read_as f op = u16) by (unfold read_as, last_kind; now rewrite FO, Nn). rewrite Rd.
  apply args1 in A as (o & x1 & -> & -> & A).
  apply arg_gpr in A as (a & t & -> & Pa & G & R). prep SL C P.
  go. cbn [app]. unfold parse_imm2. rewrite P, (areg_ok e s x1 t a Pa G). step. fin En.
Qed.
Lemma imm_trap p : f_ops f = [Rs; Simm] -> classify (trim (to_lower name)) = Some GTrapImm -> iop_of name = Ok p ->
  (forall a v, 0 <= a < 32 -> forall oc, @enc_i perror oc p (reg_of_num a) reg_null (Short (v mod 65536)) = Ok [word f [OReg a; OInt v]]) -> imm_ok f.
Proof.
  intros FO C P En. exists [Rs], Simm. split; [exact FO|]. intros e s op arg os xs x SL A.
  assert (Rd : read_as f op = i16) by (unfold read_as, last_kind; now rewrite FO). rewrite Rd.
  apply args1 in A as (o & x1 & -> & -> & A).
  apply arg_gpr in A as (a & t & -> & Pa & G & R). prep SL C P.
  go. cbn [app]. unfold parse_trap_imm. rewrite P, (areg_ok e s x1 t a Pa G). step. fin En.
Qed.

Ltac finm En := unfold becomes, aimm, offset_part; destruct (re_find_str OFFSET_RE _); step;
  (match goal with |- match ?r with _ => _ end => destruct r as [im|er|q] end; [|reflexivity|reflexivity]);
  (eexists _, _, _; split; [reflexivity|]; intros v Dv; try specialize (Dv eq_refl); apply encodes_i; intros oc; apply En; auto using freg_of_num_num).

Lemma mem_int p : f_ops f = [Rt; Mem] -> classify (trim (to_lower name)) = Some GMem -> str_eqb (trim (to_lower name)) #"cache" = false -> iop_of name = Ok p ->
  (forall a b v, 0 <= a < 32 -> 0 <= b < 32 -> forall oc, @enc_i perror oc p (reg_of_num b) (reg_of_num a) (Short (v mod 65536)) = Ok [word f [OReg a; OMem v b]]) -> mem_ok f.
Proof.
  intros FO C Nn P En. exists Rt, false. split; [exact FO|]. split; [split; [discriminate|intros [q E]; rewrite FO in E; discriminate]|].
  intros e s op arg o x1 x bt b Lb SL A B Rb Hb. apply arg_gpr in A as (a & t & -> & Pa & G & R). prep SL C P. rewrite <- SL in Nn.
  assert (Ra : arg_reg_unwrap x1 = Ok (reg_of_num a)) by (unfold arg_reg_unwrap; now rewrite (reg_parse x1 t a Pa G)).
  assert (Rb' : arg_reg_unwrap bt = Ok (reg_of_num b)) by (unfold arg_reg_unwrap; now rewrite Rb).
  go. unfold parse_mem. rewrite Nn, Ra, B, mbind_ok, mbind_ok, Rb', mbind_ok, P. finm En.
Qed.
Lemma mem_cache p : f_ops f = [CacheOp; Mem] -> classify (trim (to_lower name)) = Some GMem -> str_eqb (trim (to_lower name)) #"cache" = true -> iop_of name = Ok p ->
  (forall a b v, 0 <= a < 32 -> 0 <= b < 32 -> forall oc, @enc_i perror oc p (reg_of_num b) (reg_of_num a) (Short (v mod 65536)) = Ok [word f [OInt a; OMem v b]]) -> mem_ok f.
Proof.
  intros FO C Nn P En. exists CacheOp, false. split; [exact FO|]. split; [split; [discriminate|intros [q E]; rewrite FO in E; discriminate]|].
  intros e s op arg o x1 x bt b Lb SL A B Rb Hb. apply arg_cacheop in A as (a & t & -> & Pa & G & R). prep SL C P. rewrite <- SL in Nn.
  assert (Rb' : arg_reg_unwrap bt = Ok (reg_of_num b)) by (unfold arg_reg_unwrap; now rewrite Rb).
  go. unfold parse_mem. rewrite Nn. rewrite (aimm_u16 e s x1 t a) by (auto; lia). rewrite mbind_ok. cbn [imm_as_u32]. rewrite mbind_ok.
  assert (T : reg_try_from a = Ok (reg_of_num a)) by (enum5 R; reflexivity). rewrite T, mbind_ok.
  rewrite B, mbind_ok, Rb', mbind_ok, P. finm En.
Qed.
Lemma mem_float p : f_ops f = [Ft; Mem] -> classify (trim (to_lower name)) = Some GFMem -> iop_of name = Ok p ->
  (forall a b v rt, 0 <= a < 32 -> 0 <= b < 32 -> reg_num rt = a -> forall oc, @enc_i perror oc p (reg_of_num b) rt (Short (v mod 65536)) = Ok [word f [OReg a; OMem v b]]) -> mem_ok f.
Proof.
  intros FO C P En. exists Ft, true. split; [exact FO|]. split; [split; [intros _; eexists; exact FO|reflexivity]|].
  intros e s op arg o x1 x bt b Lb SL A B Rb Hb. apply arg_fpr in A as (a & t & -> & Pa & G & R). prep SL C P.
  assert (Rb' : areg e s bt = lift (Ok (reg_of_num b))) by (unfold areg, arg_reg; now rewrite Rb).
  go. unfold parse_fmem. rewrite (afreg_ok e s x1 t a Pa G), mbind_ok, B, mbind_ok, Rb', mbind_ok, P. finm En.
Qed.
End Formats.

Definition last_is (k : okind -> bool) (f : format) : bool := match last_kind f with Some q => k q | None => false end.
Definition imm_kind (k : okind) : bool := match k with Simm | Uimm => true | _ => false end.
Definition mem_kind (k : okind) : bool := match k with Mem => true | _ => false end.

Ltac rows := repeat (apply Forall_cons; [intros NB;
    match goal with
    | |- imm_ok ?f =>
      let b := eval vm_compute in (last_is imm_kind f) in
      lazymatch b with
      | false => exfalso; vm_compute in NB; discriminate NB
      | true => clear NB;
         let g := eval vm_compute in (classify (trim (to_lower (f_name f)))) in
         let u := eval vm_compute in (last_is (fun k => match k with Uimm => true | _ => false end) f) in
         let use4 L := (eapply L; [reflexivity|vm_compute; reflexivity|vm_compute; reflexivity|vm_compute; reflexivity|enc]) in
         let use4u L := (eapply L; [reflexivity|vm_compute; reflexivity|vm_compute; reflexivity|vm_compute; reflexivity|intros; rewrite Z.mod_small by assumption; enc]) in
         lazymatch g with
         | Some GImm3 => lazymatch u with true => use4u imm_3u | false => use4 imm_3s end
         | Some GImm2 => use4u imm_2
         | Some GTrapImm => eapply imm_trap; [reflexivity|vm_compute; reflexivity|vm_compute; reflexivity|enc]
         end
      end
    | |- mem_ok ?f =>
      let b := eval vm_compute in (last_is mem_kind f) in
      lazymatch b with
      | false => exfalso; vm_compute in NB; discriminate NB
      | true => clear NB;
         let g := eval vm_compute in (classify (trim (to_lower (f_name f)))) in
         let c := eval vm_compute in (str_eqb (trim (to_lower (f_name f))) #"cache") in
         let use4 L := (eapply L; [reflexivity|vm_compute; reflexivity|vm_compute; reflexivity|vm_compute; reflexivity|enc]) in
         lazymatch g with
         | Some GMem => lazymatch c with true => use4 mem_cache | false => use4 mem_int end
         | Some GFMem => eapply mem_float; [reflexivity|vm_compute; reflexivity|vm_compute; reflexivity|enc]
         end
      end
    end|]); apply Forall_nil.
Local Notation covered l := (Forall (fun f => last_is imm_kind f = true -> imm_ok f) l).
Local Notation mcovered l := (Forall (fun f => last_is mem_kind f = true -> mem_ok f) l).
Lemma regimm_imms : covered regimm_table.
Proof. unfold regimm_table. rows. Qed.
Lemma opcode_imms : covered opcode_table.
Proof. unfold opcode_table. rows. Qed.
Lemma idiom_imms : covered idioms.
Proof. unfold idioms. rows. Qed.
Lemma no_imms l : forallb (fun f => negb (last_is imm_kind f)) l = true -> covered l.
Proof.
  intros H. apply Forall_forall. intros f I B. rewrite forallb_forall in H. apply H in I. now rewrite B in I.
Qed.
Lemma isa_imms : covered (isa ++ idioms).
Proof.
  unfold isa. repeat apply forall_app2;
  first [exact regimm_imms|exact opcode_imms|exact idiom_imms|apply no_imms; vm_compute; reflexivity].
Qed.
Lemma opcode_mems : mcovered opcode_table.
Proof. unfold opcode_table. rows. Qed.
Lemma no_mems l : forallb (fun f => negb (last_is mem_kind f)) l = true -> mcovered l.
Proof.
  intros H. apply Forall_forall. intros f I B. rewrite forallb_forall in H. apply H in I. now rewrite B in I.
Qed.
Lemma isa_mems : mcovered (isa ++ idioms).
Proof.
  unfold isa. repeat apply forall_app2;
  first [exact opcode_mems|apply no_mems; vm_compute; reflexivity].
Qed.
