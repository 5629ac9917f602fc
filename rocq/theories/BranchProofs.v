(** * BranchProofs: lines with branches and jumps (proofs only). *)

From Coq Require Import Lia.
From Verif Require Import Lib SpecIsa StrLemmas NumLemmas DecodeProofs TextProofs OperandProofs NativeProofs LineProofs ScanProofs ProgProofs SpecText SpecProgram SpecLabels.

(** ** Each group *)

Section Groups.
Variables (e : env) (s : pstate) (op arg : str).
Ltac go := unfold parse_op; match goal with H : classify _ = _ |- _ => rewrite H; clear H end.
Ltac step := repeat (match goal with E : ?x = lift (Ok _) |- context [?x] => rewrite E end || rewrite mbind_ok).

Lemma g_b w w2 p x im : classify (trim (to_lower op)) = Some GB \/ classify (trim (to_lower op)) = Some GBc -> iop_of op = Ok p ->
  check_delay e s = (w, Ok tt) -> aimm e s u32 x = lift (Ok im) -> check_branch e s im x = (w2, Ok tt) ->
  parse_op e s op arg [x] = (w ++ w2, Ok (IImm p reg_null reg_null im [])).
Proof.
  intros C P D A B. destruct C as [C|C]; go; unfold parse_b; rewrite D; apply mbind_w; rewrite A, mbind_ok, B, P;
    rewrite <- (app_nil_r w2) at 2; apply mbind_w; now step.
Qed.
Lemma g_branch1 w w2 p x1 x a im : classify (trim (to_lower op)) = Some GBranch1 -> iop_of op = Ok p ->
  check_delay e s = (w, Ok tt) -> areg e s x1 = lift (Ok a) -> aimm e s u32 x = lift (Ok im) -> check_branch e s im x = (w2, Ok tt) ->
  parse_op e s op arg [x1; x] = (w ++ w2, Ok (IImm p a reg_null im [])).
Proof.
  intros C P D R A B. go; unfold parse_branch1; rewrite D; apply mbind_w; rewrite R, mbind_ok, A, mbind_ok, B, P;
    rewrite <- (app_nil_r w2) at 2; apply mbind_w; now step.
Qed.
Lemma g_branch2 w w2 p x1 x2 x a b im : classify (trim (to_lower op)) = Some GBranch2 -> iop_of op = Ok p ->
  check_delay e s = (w, Ok tt) -> areg e s x1 = lift (Ok a) -> areg e s x2 = lift (Ok b) ->
  aimm e s u32 x = lift (Ok im) -> check_branch e s im x = (w2, Ok tt) ->
  parse_op e s op arg [x1; x2; x] = (w ++ w2, Ok (IImm p a b im [])).
Proof.
  intros C P D R R2 A B. go; unfold parse_branch2; rewrite D; apply mbind_w; rewrite R, mbind_ok, R2, mbind_ok, A, mbind_ok, B, P;
    rewrite <- (app_nil_r w2) at 2; apply mbind_w; now step.
Qed.
End Groups.

(** ** Each branch *)

(** What the parser makes of the branch [f] with register operands [os] and an operand that
    reads as [im]. *)
Definition branch_ok (f : format) : Prop := exists ks p, f_ops f = ks ++ [Branch16] /\ is_b_op p = true
  /\ (forall k, In k ks -> k = Rs \/ k = Rt)
  /\ forall e s raw op arg os xs x im w2, ready e s raw -> same_letters op (f_name f) -> args_rel ks os xs ->
     aimm e s u32 x = lift (Ok im) -> check_branch e s im x = (w2, Ok tt) ->
     exists rs rt, parse_op e s op arg (xs ++ [x]) = (delay_warning e s raw ++ w2, Ok (IImm p rs rt im []))
       /\ forall d, encodes (IImm p rs rt (Short (d mod 65536)) []) [word f (os ++ [OInt d])].

Section Formats.
Variable f : format.
Local Notation name := (f_name f).
Ltac prep SL C P := rewrite <- SL in C; rewrite <- (iop_of_letters _ _ SL) in P.

Lemma branch_b p : f_ops f = [Branch16] -> classify (trim (to_lower name)) = Some GB \/ classify (trim (to_lower name)) = Some GBc ->
  iop_of name = Ok p -> is_b_op p = true ->
  (forall d oc, @enc_i perror oc p reg_null reg_null (Short (d mod 65536)) = Ok [word f [OInt d]]) -> branch_ok f.
Proof.
  intros FO C P B En. exists [], p. split; [exact FO|]. split; [exact B|]. split; [intros k []|].
  intros e s raw op arg os xs x im w2 Rd SL A Ai Cb. destruct os, xs; try (now destruct A). clear A. prep SL C P. exists reg_null, reg_null. split.
  - cbn [app]. apply g_b; auto. now apply check_delay_ok.
  - intros d. apply encodes_i. intros oc. now apply En.
Qed.
Lemma branch_1 p : f_ops f = [Rs; Branch16] -> classify (trim (to_lower name)) = Some GBranch1 ->
  iop_of name = Ok p -> is_b_op p = true ->
  (forall a d, 0 <= a < 32 -> forall oc, @enc_i perror oc p (reg_of_num a) reg_null (Short (d mod 65536)) = Ok [word f [OReg a; OInt d]]) -> branch_ok f.
Proof.
  intros FO C P B En. exists [Rs], p. split; [exact FO|]. split; [exact B|]. split; [intros k [<-|[]]; auto|].
  intros e s raw op arg os xs x im w2 Rd SL A Ai Cb. apply args1 in A as (o & x1 & -> & -> & A).
  apply arg_gpr in A as (a & t & -> & Pa & G & R). prep SL C P. exists (reg_of_num a), reg_null. split.
  - cbn [app]. apply g_branch1; auto; [now apply check_delay_ok|eapply areg_ok; eauto].
  - intros d. apply encodes_i. intros oc. now apply En.
Qed.
Lemma branch_2 p : f_ops f = [Rs; Rt; Branch16] -> classify (trim (to_lower name)) = Some GBranch2 ->
  iop_of name = Ok p -> is_b_op p = true ->
  (forall a b d, 0 <= a < 32 -> 0 <= b < 32 -> forall oc, @enc_i perror oc p (reg_of_num a) (reg_of_num b) (Short (d mod 65536)) = Ok [word f [OReg a; OReg b; OInt d]]) -> branch_ok f.
Proof.
  intros FO C P B En. exists [Rs; Rt], p. split; [exact FO|]. split; [exact B|]. split; [intros k [<-|[<-|[]]]; auto|].
  intros e s raw op arg os xs x im w2 Rd SL A Ai Cb. apply args2 in A as (o & o' & x1 & x2 & -> & -> & A & A').
  apply arg_gpr in A as (a & t & -> & Pa & G & R). apply arg_gpr in A' as (b & t' & -> & Pb & G' & R'). prep SL C P.
  exists (reg_of_num a), (reg_of_num b). split.
  - cbn [app]. apply g_branch2; auto; [now apply check_delay_ok|eapply areg_ok; eauto|eapply areg_ok; eauto].
  - intros d. apply encodes_i. intros oc. now apply En.
Qed.
End Formats.

Definition is_branch (f : format) : bool := negb (no_branch f).
Ltac rows := repeat (apply Forall_cons; [intros NB;
    match goal with |- branch_ok ?f =>
      let b := eval vm_compute in (is_branch f) in
      lazymatch b with
      | false => exfalso; vm_compute in NB; discriminate NB
      | true => clear NB;
         let g := eval vm_compute in (classify (trim (to_lower (f_name f)))) in
         let use L := (eapply L; [reflexivity|vm_compute; reflexivity|vm_compute; reflexivity|vm_compute; reflexivity|enc]) in
         lazymatch g with
         | Some GB => eapply branch_b; [reflexivity|left; vm_compute; reflexivity|vm_compute; reflexivity|vm_compute; reflexivity|enc]
         | Some GBc => eapply branch_b; [reflexivity|right; vm_compute; reflexivity|vm_compute; reflexivity|vm_compute; reflexivity|enc]
         | Some GBranch1 => use branch_1
         | Some GBranch2 => use branch_2
         end
      end
    end|]); apply Forall_nil.
Local Notation covered l := (Forall (fun f => is_branch f = true -> branch_ok f) l).
Lemma regimm_branches : covered regimm_table.
Proof. unfold regimm_table. rows. Qed.
Lemma opcode_branches : covered opcode_table.
Proof. unfold opcode_table. rows. Qed.
Lemma cop0_branches : covered cop0_table.
Proof. unfold cop0_table. rows. Qed.
Lemma cop1_branches : covered cop1_table.
Proof. unfold cop1_table. rows. Qed.
Lemma idiom_branches : covered idioms.
Proof. unfold idioms. rows. Qed.
Lemma no_branches l : forallb no_branch l = true -> covered l.
Proof.
  intros H. apply Forall_forall. intros f I B. rewrite forallb_forall in H. unfold is_branch in B. now rewrite (H f I) in B.
Qed.
Lemma isa_branches : covered (isa ++ idioms).
Proof.
  unfold isa. repeat apply forall_app2;
  first [exact regimm_branches|exact opcode_branches|exact cop0_branches|exact cop1_branches|exact idiom_branches|apply no_branches; vm_compute; reflexivity].
Qed.

(** ** A line with a branch *)

Lemma gpr_kind_fits ks os ts : (forall k, In k ks -> k = Rs \/ k = Rt) -> List.length os = List.length ks ->
  Forall2 (fun ko t => operand_spelling (fst ko) (snd ko) t) (combine ks os) ts -> Forall2 notation_fits ks os.
Proof.
  revert os ts. induction ks as [|k ks IH]; intros os ts K L S; destruct os as [|o os]; try discriminate; constructor.
  - cbn [combine] in S. inversion S as [|? t ? ts' Hs S']; subst. cbn [fst snd] in Hs.
    destruct (K k (or_introl eq_refl)) as [-> | ->]; unfold Rs, Rt in Hs; inversion Hs as [p n s0 G| | | | | | | | |]; subst; split; auto;
      destruct G as [G|(? & _ & G)]; cbn; inversion G; lia.
  - cbn [combine] in S. inversion S; subst. eapply IH; eauto. intros k' I. apply K. now right.
Qed.

Definition part (x raw : str) : Prop := exists a b, raw = a ++ x ++ b.
Lemma part_refl x : part x x.
Proof. exists [], []. now rewrite app_nil_r. Qed.
Lemma part_trans x y z : part x y -> part y z -> part x z.
Proof. intros (a & b & ->) (c & d & ->). exists (c ++ a), (b ++ d). now rewrite <- !app_assoc. Qed.
Lemma part_find x raw : part x raw -> find_sub x raw <> None.
Proof. intros (a & b & ->). apply find_sub_infix. Qed.
Lemma part_in x raw c : part x raw -> In c x -> In c raw.
Proof. intros (a & b & ->) I. apply in_or_app. right. apply in_or_app. now left. Qed.
Lemma clean_part raw : part (clean raw) raw.
Proof. exact (clean_infix raw). Qed.
Lemma trim_part s : part (trim s) s.
Proof. destruct (trim_decomp s) as (a & b & E & _). exists a, b. exact E. Qed.
Lemma split_char_part c s p : In p (split_char c s) -> part p s.
Proof.
  assert (G : match split_char c s with
              | [] => True
              | q :: qs => (exists b, s = q ++ b) /\ forall p, In p qs -> part p s
              end).
  { induction s as [|x s IH]; cbn [split_char].
    - split; [exists []; reflexivity|intros q []].
    - destruct (Ascii.eqb x c).
      + split; [eexists; reflexivity|]. intros q I. destruct (split_char c s) as [|q0 qs]; [destruct I|]. destruct IH as [(b & Eb) IH].
        destruct I as [<-|I]; [exists [x], b; cbn; now f_equal|]. destruct (IH q I) as (u & v & Ev). exists (x :: u), v. cbn. now f_equal.
      + destruct (split_char c s) as [|q0 qs].
        * split; [exists s; reflexivity|intros q []].
        * destruct IH as [(b & Eb) IH]. split; [exists b; cbn; now f_equal|]. intros q I.
          destruct (IH q I) as (u & v & Ev). exists (x :: u), v. cbn. now f_equal. }
  destruct (split_char c s) as [|q qs]; [intros []|]. destruct G as [(b & Eb) G]. intros [<-|I]; [exists [], b; exact Eb|auto].
Qed.

(** The operands as the parser sees them are parts of the line. *)
Lemma line_parse_parts e s name ts raw : name_ok name -> Forall operand_ok ts -> no_nl raw -> instruction_line name ts raw ->
  exists op arg xs, same_letters op name
    /\ (ts = [] /\ xs = [[]] \/ ts <> [] /\ Forall2 (fun t x => padded t x /\ part x raw) ts xs)
    /\ clean raw <> [] /\ ends_with #":" (clean raw) = false
    /\ parse_inst e s (clean raw) = parse_op e s op arg xs.
Proof.
  intros Nm F Nl L. destruct (line_view name ts raw Nm F L) as (op & xs & arg & SL & Ar & Sp & Ne & Ec & V).
  exists op, arg, xs. split; [exact SL|].
  split; [|split; [exact Ne|split; [exact Ec|now apply view_parse]]].
  destruct Ar as [(E & Ex & _)|[E P]]; [left; auto|right; split; [exact E|]]. apply forall2_with; [exact P|]. intros x I. subst xs.
  apply split_char_part in I. apply (part_trans x arg raw I). apply (part_trans arg (clean raw) raw); [|apply clean_part].
  destruct V as [V|(_ & _ & ->)]; [|exists [], (clean raw); reflexivity]. apply split_once_decomp in V. rewrite V. exists (op ++ #" "), [].
  rewrite app_nil_r, <- app_assoc. reflexivity.
Qed.
Lemma spellings_ok l ts : Forall2 (fun ko t => operand_spelling (fst ko) (snd ko) t) l ts -> Forall operand_ok ts.
Proof. induction 1; constructor; auto. eapply spelling_ok; eauto. Qed.

Theorem branch_line_parse e s f os t raw im W : In f (isa ++ idioms) -> branch_line f os t raw -> operand_ok t -> no_nl raw -> ready e s raw ->
  (forall x, padded t x -> part x raw -> aimm e s u32 x = lift (Ok im) /\ check_branch e s im x = (W x, Ok tt)) ->
  clean raw <> [] /\ ends_with #":" (clean raw) = false
  /\ exists p rs rt x, parse_inst e s (clean raw) = (delay_warning e s raw ++ W x, Ok (IImm p rs rt im [])) /\ is_b_op p = true
     /\ padded t x /\ part x raw
     /\ forall d, encodes (IImm p rs rt (Short (d mod 65536)) []) [word f (os ++ [OInt d])].
Proof.
  intros If (ks & ts & FO & Len & Sp & L) Ot N Rd H.
  assert (B : is_branch f = true).
  { unfold is_branch, no_branch. rewrite FO, forallb_app. cbn. now rewrite andb_false_r. }
  destruct (proj1 (Forall_forall _ _) isa_branches f If B) as (ks' & p & FO' & Bo & K & Op).
  rewrite FO in FO'. apply app_inj_tail in FO' as [-> _].
  assert (F : Forall operand_ok (ts ++ [t])).
  { apply Forall_app. split; [now apply spellings_ok in Sp|]. constructor; [exact Ot|constructor]. }
  destruct (line_parse_parts e s (f_name f) (ts ++ [t]) raw (table_name f If) F N L) as (op & arg & xs & SL & Ar & Ne & Ec & P).
  split; [exact Ne|]. split; [exact Ec|].
  destruct Ar as [[E _]|[_ Ar]]; [destruct ts; discriminate|]. apply Forall2_app_inv_l in Ar as (xs1 & xs2 & A1 & A2 & ->).
  inversion A2 as [|? x ? l2 [Hp Hn] A3]; subst. inversion A3; subst. destruct (H x Hp Hn) as (Ai & Cb).
  assert (A1' : Forall2 (fun t x => padded t x /\ no_nl x) ts xs1).
  { clear -A1 N. induction A1 as [|? ? ? ? [Hp Hx] _ IH]; constructor; auto. split; [exact Hp|]. intros I. apply N. eapply part_in; eauto. }
  assert (A : args_rel ks' os xs1) by (eapply args_of; eauto; eapply gpr_kind_fits; eauto).
  destruct (Op e s raw op arg os xs1 x im (W x) Rd SL A Ai Cb) as (rs & rt & Po & En).
  exists p, rs, rt, x. rewrite P. auto.
Qed.

(** ** A line with a jump *)

Theorem jump_line_parse e s name t raw tgt w2 : jump_line name t raw -> operand_ok t -> no_nl raw -> ready e s raw ->
  parse_target e s t = Ok tgt -> check_jump e s tgt t = (w2, Ok tt) ->
  clean raw <> [] /\ ends_with #":" (clean raw) = false
  /\ exists p, parse_inst e s (clean raw) = (delay_warning e s raw ++ w2, Ok (IJump p tgt []))
     /\ forall a, 0 <= a < 2 ^ 32 -> encodes (IJump p (TAddress a) []) [(if str_eqb name #"j" then 2 else 3) * 2 ^ 26 + a mod 2 ^ 26 / 4].
Proof.
  intros [Nm L] Ot N Rd Pt Cj.
  assert (Nk : name_ok name) by (destruct Nm as [<-|[<-|[]]]; apply name_okb_ok; reflexivity).
  destruct (line_parse_parts e s name [t] raw Nk ltac:(constructor; [exact Ot|constructor]) N L) as (op & arg & xs & SL & Ar & Ne & Ec & P).
  split; [exact Ne|]. split; [exact Ec|].
  destruct Ar as [[E _]|[_ Ar]]; [discriminate|]. inversion Ar as [|? x ? l2 [Hp Hn] A3]; subst. inversion A3; subst.
  assert (T : trim x = t) by (apply (padded_trim _ _ Hp); apply Ot).
  assert (C : classify (trim (to_lower op)) = Some GJump) by (rewrite SL; destruct Nm as [<-|[<-|[]]]; reflexivity).
  assert (J : exists p, jop_of op = Ok p /\ p = if str_eqb name #"j" then J_J else J_Jal).
  { eexists. split; [|reflexivity]. rewrite (jop_of_letters _ _ SL). destruct Nm as [<-|[<-|[]]]; reflexivity. }
  destruct J as (p & J & Ep). exists p. rewrite P. split; [apply (g_jump e s op arg (delay_warning e s raw) w2 p x t tgt); auto; now apply check_delay_ok|].
  intros a Ra. apply encodes_j. rewrite Ep.
  assert (Q : 0 <= a mod 2 ^ 26 / 4 < 2 ^ 24).
  { assert (X := Z.mod_pos_bound a (2 ^ 26) ltac:(lia)). split; [apply Z.div_pos; lia|apply Z.div_lt_upper_bound; lia]. }
  assert (S : shr (Z.land a 67108863) 2 = a mod 2 ^ 26 / 4).
  { unfold shr. rewrite Z.shiftr_div_pow2 by lia. change 67108863 with (Z.ones 26). rewrite Z.land_ones by lia. reflexivity. }
  destruct (str_eqb name #"j"); cbn [enc_j target_as_u32 obind]; rewrite S; revert Q; generalize (a mod 2 ^ 26 / 4); intros q Q;
    apply (f_equal (fun z => Ok [z])); lor_sum; lia.
Qed.

(** ** Identifiers as operands *)

Lemma identifier_operand n : identifier n -> operand_ok n.
Proof.
  intros I. destruct (identifier_facts n I) as (G & P & W & _). apply operand_ok_no_ws; [destruct n; [destruct G|discriminate]|exact W|].
  destruct I as [_ F]. rewrite forallb_forall in F |- *. intros c J. specialize (F c J).
  destruct c as [[] [] [] [] [] [] [] []]; try reflexivity; discriminate F.
Qed.
Lemma identifier_trim n x : identifier n -> padded n x -> trim x = n.
Proof. intros I P. destruct (identifier_operand n I) as (_ & _ & A & B). now apply padded_trim. Qed.
