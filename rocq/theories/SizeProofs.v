(** * SizeProofs: how many words an instruction takes (proofs only). *)

From Coq Require Import Lia.
From Verif Require Import Lib Display SpecIsa StrLemmas TextProofs ScanProofs ProgProofs ErrorProofs RefProofs WarnProofs PanicProofs AsmProofs ShownProofs SpecText SpecProgram.
From Verif Require Import SpecDisplay SpecSize.

Definition sized (m : str) (ws : list Z) : bool := existsb (Nat.eqb (List.length ws)) (sizes m).
Lemma sized_in m ws : sized m ws = true -> In (List.length ws) (sizes m).
Proof. intros H. apply existsb_exists in H as (n & I & E). apply Nat.eqb_eq in E. now rewrite E. Qed.
Lemma enc_r_sized p rs rt rd sa : In (List.length (enc_r p rs rt rd sa)) (sizes (trim (to_lower (rop_name p)))).
Proof.
  destruct p; match goal with |- In _ ?s => let v := eval vm_compute in s in replace s with v by (vm_compute; reflexivity) end; cbn [enc_r]; try destruct (reg_num rt =? 0); cbn [List.length In]; tauto.
Qed.
Lemma enc_i_sized E oc p rs rt im : ok_all (fun ws => In (List.length ws) (sizes (trim (to_lower (iop_name p))))) (@enc_i E oc p rs rt im).
Proof.
  destruct p; match goal with |- context[sizes ?s] => let v := eval vm_compute in (sizes s) in replace (sizes s) with v by (vm_compute; reflexivity) end; cbn [enc_i];
  repeat lazymatch goal with
  | |- ok_all _ (obind _ _) => apply ok_all_bind; intros ?
  | |- ok_all _ (if ?b then _ else _) => destruct b
  end; unfold ok_all, enc_li, enc_liu;
  repeat lazymatch goal with |- context[if ?b then _ else _] => destruct b end; cbn [List.length In]; tauto.
Qed.
Lemma enc_j_sized E p t : ok_all (fun ws => In (List.length ws) (sizes (trim (to_lower (jop_name p))))) (@enc_j E p t).
Proof.
  destruct p; match goal with |- context[sizes ?s] => let v := eval vm_compute in (sizes s) in replace (sizes s) with v by (vm_compute; reflexivity) end; cbn [enc_j];
  apply ok_all_bind; intros ?; cbn [ok_all List.length In]; tauto.
Qed.
Lemma unclassified m : classify m = None -> sizes m = [1%nat].
Proof.
  intros H. unfold sizes. destruct (find _ _) as [[n ns]|] eqn:A; [|reflexivity]. apply find_some in A as [A B]. cbn [fst] in B. apply str_eqb_spec in B. subst n.
  assert (T : forallb (fun x => match classify (fst x) with Some _ => true | None => false end) long_instructions = true) by (vm_compute; reflexivity).
  apply (proj1 (forallb_forall _ _) T) in A. cbn [fst] in A. rewrite H in A. discriminate A.
Qed.

(** What [adjust_one] keeps. *)
Definition same_op (x y : inst) : Prop :=
  match x, y with
  | IImm p rs rt _ _, IImm p' rs' rt' _ _ => p = p' /\ rs = rs' /\ rt = rt'
  | IJump p _ _, IJump p' _ _ => p = p'
  | IReg p rs rt rd sa _, IReg p' rs' rt' rd' sa' _ => p = p' /\ rs = rs' /\ rt = rt' /\ rd = rd' /\ sa = sa'
  | IBytes w, IBytes w' => w = w'
  | _, _ => False
  end.
Lemma adjust_same e s i n x y er : adjust_one e s i n x = Ok (y, er) -> same_op x y.
Proof.
  intros H. assert (K : forall (a b : inst * list perror), @Ok perror _ a = Ok b -> fst a = fst b) by (intros a b E; now injection E as ->).
  destruct x as [p rs rt im b|p t b|p rs rt rd sa b|w]; cbn [adjust_one] in H.
  - assert (Sh : forall v k, same_op (IImm p rs rt im b) (IImm p rs rt v k)) by (intros; cbn; auto).
    destruct im as [v|v|v|l|l].
    + apply K in H. cbn [fst] in H. rewrite <- H. apply Sh.
    + destruct (negb (is_b_op p)); [apply K in H; cbn [fst] in H; rewrite <- H; apply Sh|].
      cbv zeta in H. apply obind_ok in H as (bad & _ & H). apply obind_ok in H as (er' & _ & H). apply K in H. cbn [fst] in H. rewrite <- H. apply Sh.
    + apply K in H. cbn [fst] in H. rewrite <- H. apply Sh.
    + destruct (assoc l (p_dropped s)).
      * apply obind_ok in H as (q & _ & H). destruct q as [a|]; [|apply obind_ok in H as (? & _ & H)]; apply K in H; cbn [fst] in H; rewrite <- H; apply Sh.
      * apply obind_ok in H as (q & _ & H). apply K in H. cbn [fst] in H. rewrite <- H. apply Sh.
    + destruct (assoc l (p_labels s)); [|discriminate]. apply K in H. cbn [fst] in H. rewrite <- H. apply Sh.
  - destruct t as [l|a]; [|apply K in H; cbn [fst] in H; now rewrite <- H]. destruct (assoc l (p_labels s)).
    + apply obind_ok in H as (a1 & _ & H). apply obind_ok in H as (a2 & _ & H). apply K in H. cbn [fst] in H. now rewrite <- H.
    + apply obind_ok in H as (? & _ & H). apply K in H. cbn [fst] in H. now rewrite <- H.
  - apply K in H. cbn [fst] in H. rewrite <- H. cbn. auto.
  - apply K in H. cbn [fst] in H. now rewrite <- H.
Qed.

Lemma division_group op : In (trim (to_lower op)) divisions -> classify (trim (to_lower op)) = Some GDiv.
Proof. intros [H|[H|[H|[H|[]]]]]; rewrite <- H; vm_compute; reflexivity. Qed.
Definition null_divisor (i : inst) : Prop := exists p rs rd sa b, i = IReg p rs reg_null rd sa b.
Lemma two_operands e s op arg a b : In (trim (to_lower op)) divisions -> yields null_divisor (parse_op e s op arg [a; b]).
Proof.
  intros D. unfold parse_op. rewrite (division_group op D). unfold parse_div.
  do 3 (apply (yields_bind (fun _ => True)); [apply yields_any|intros ? ?]). cbn [yields lift snd]. unfold null_divisor. repeat eexists.
Qed.
Lemma inst_two e s l w i a b : parse_inst e s (clean l) = (w, Ok i) -> operands l = [a; b] -> In (mnemonic l) divisions -> null_divisor i.
Proof.
  unfold parse_inst, mnemonic, operands. intros H O D. destruct (split_once " " (clean l)) as [[op arg]|] eqn:Sp; [|discriminate].
  destruct (clean l); [discriminate Sp|]. rewrite O in H. assert (Y := two_operands e s op arg a b D). rewrite H in Y. exact Y.
Qed.

Lemma inst_sized oc op i i' : from op i -> fresh i -> @assemble_inst perror oc i = Ok i' -> In (List.length (inst_bytes i')) (sizes (trim (to_lower op))).
Proof.
  intros F Fr H. destruct i as [p rs rt im b|p t b|p rs rt rd sa b|w]; cbn [assemble_inst] in H; cbn [fresh inst_bytes] in Fr; subst; try discriminate.
  - apply obind_ok in H as (ws & E & H). injection H as <-. cbn [inst_bytes app]. destruct F as [F _]. rewrite F. assert (K := enc_i_sized perror oc p rs rt im). rewrite E in K. exact K.
  - apply obind_ok in H as (ws & E & H). injection H as <-. cbn [inst_bytes app]. cbn [from] in F. rewrite F. assert (K := enc_j_sized perror p t). rewrite E in K. exact K.
  - assert (H' := f_equal (fun o => match o with Ok p => p | _ => IBytes 0 end) H). cbv beta iota in H'. rewrite <- H'. cbn [push_bytes inst_bytes app].
    destruct F as [[F _]|(C & P & _)]; [rewrite F; apply enc_r_sized|]. rewrite (unclassified _ C). destruct P as [-> | ->]; left; reflexivity.
Qed.
Lemma division_one oc i i' p rs rd sa b : i = IReg p rs reg_null rd sa b -> fresh i -> In (trim (to_lower (rop_name p))) divisions ->
  @assemble_inst perror oc i = Ok i' -> List.length (inst_bytes i') = 1%nat.
Proof.
  intros -> Fr D H. cbn [fresh inst_bytes] in Fr. subst b. cbn [assemble_inst] in H.
  assert (H' := f_equal (fun o => match o with Ok p => p | _ => IBytes 0 end) H). cbv beta iota in H'. rewrite <- H'. cbn [push_bytes inst_bytes app].
  apply mem_str_in in D. clear -D. destruct p; vm_compute in D; try discriminate D; reflexivity.
Qed.

Theorem sizes_proof rt m input out l1 raw l2 : assemble rt m input = Ok out -> lines input = l1 ++ raw :: l2 -> is_instruction raw = true ->
  exists i, nth_error out (instruction_count l1) = Some i /\ In (List.length (inst_bytes i)) (sizes (mnemonic raw))
    /\ (In (mnemonic raw) divisions -> List.length (operands raw) = 2%nat -> List.length (inst_bytes i) = 1%nat).
Proof.
  intros A E R. apply assemble_ok in A as (s & is1 & As). set (e := mk_parser rt m input) in *.
  assert (N := nl_of_lines input). assert (R' : role_of raw = Instruction) by (unfold is_instruction in R; destruct (role_of raw); try discriminate; reflexivity).
  destruct (assembled_at e _ s is1 out l1 raw l2 N As E) as (s1 & S1 & E1 & L1 & P1 & T1 & X).
  rewrite R' in X. destruct X as (w & i0 & i1 & i' & o1 & o2 & P' & _ & Ad & Ai & -> & Lo & _).
  exists i'. rewrite nth_error_app2 by lia. rewrite Lo, Nat.sub_diag. split; [reflexivity|].
  assert (Fr : fresh i1) by (eapply adjust_fresh; [|exact Ad]; eapply parse_inst_fresh; exact P').
  assert (P0 := P'). apply inst_from in P' as (op & F & M). assert (Sm := adjust_same _ _ _ _ _ _ _ Ad). rewrite M.
  assert (F1 : exists op1, from op1 i1 /\ trim (to_lower op1) = trim (to_lower op)).
  { exists op. split; [|reflexivity]. exact (proj1 (adjust_one_from _ _ _ _ _ _ _ F Ad)). }
  destruct F1 as (op1 & F1 & M1). split; [rewrite <- M1; exact (inst_sized _ _ _ _ F1 Fr Ai)|].
  intros D L. destruct (operands raw) as [|a [|b [|]]] eqn:O; try discriminate L. rewrite <- M in D.
  destruct (inst_two _ _ _ _ _ _ _ P0 O D) as (p & rs & rd & sa & b' & ->).
  destruct i1 as [| |p1 rs1 rt1 rd1 sa1 b1|]; try contradiction. destruct Sm as (-> & -> & <- & -> & ->).
  eapply division_one; [reflexivity|exact Fr| |exact Ai]. destruct F as [[F _]|(C & _)].
  - rewrite <- F, <- M. exact D.
  - rewrite M in D. rewrite (division_group op D) in C. discriminate C.
Qed.
