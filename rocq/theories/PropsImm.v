(** * PropsImm: immediates (C27), symbols (C41) and memory operands (C52). *)

From Coq Require Import Lia.
From Verif Require Import Lib SpecIsa StrLemmas NumLemmas DecodeProofs TextProofs OperandProofs NativeProofs LineProofs ScanProofs ProgProofs AsmProofs MachineProofs
  PseudoProofs BranchProofs LabelProofs HalfProofs SpacingProofs CongProofs ErrorProofs ImmProofs ImmLines PropsLabels SpecErrors SpecText SpecProgram SpecLabels SpecLines SpecImm.

(** ** C27  Immediates *)

(** The line [l] has the instruction [f] with an immediate (or an offset) [v], of the kind
    [k], in decimal or hex; [os] are all its operands. *)
Inductive immediate_line (f : format) : okind -> Z -> list operand -> str -> Prop :=
| il_imm k os t v l : last_kind f = Some k -> k = Simm \/ k = Uimm -> operand_line f os t l -> signed_numeral t v -> immediate_line f k v (os ++ [OInt v]) l
| il_mem os b o t v l : last_kind f = Some Mem -> operand_line f os t l -> based o b t -> signed_numeral o v -> immediate_line f Mem v (os ++ [OMem v b]) l.

Definition C27_full : Prop := forall rt m f k v os l, In f (isa ++ idioms) -> immediate_line f k v os l -> ~ In nl l ->
  (in_field k v -> writes rt m l [word f os]) /\ (~ in_field k v -> rejects rt m l).

Lemma accepted_i16 v : accepted i16 v = true <-> in_field Simm v.
Proof. unfold accepted, in_field. rewrite andb_true_iff, !Z.leb_le. change (it_min i16) with (-32768). change (it_max i16) with 32767. lia. Qed.
Lemma accepted_u16 v : accepted u16 v = true <-> in_field Uimm v.
Proof. unfold accepted, in_field. rewrite andb_true_iff, !Z.leb_le. change (it_min u16) with 0. change (it_max u16) with 65535. lia. Qed.
Lemma signed_zero t v : signed_numeral t v -> ~ In "-"%char t -> numeral t v.
Proof. intros [s u H|s u H] N; [exact H|]. exfalso. apply N. now left. Qed.
Lemma padded_part t x : padded t x -> part t x.
Proof. intros (a & b & _ & _ & ->). exists a, b. reflexivity. Qed.

(** A line whose last operand is a number, read as the type [ty]. *)
Lemma imm_number rt m f os t v l ty : In f (isa ++ idioms) -> takes_immediate f -> operand_line f os t l -> signed_numeral t v -> no_nl l ->
  ty = i16 \/ ty = u16 -> (ty = u16 -> v = 0 -> ~ In "-"%char l) ->
  (forall op, (starts_with (f_name f) (trim l) = true <-> op = f_name f) -> same_letters op (f_name f) -> read_as f op = ty) ->
  (accepted ty v = true -> forall u, u mod 65536 = v mod 65536 -> (last_kind f = Some Uimm -> 0 <= u < 65536) -> writes rt m l [word f (os ++ [OInt u])])
  /\ (accepted ty v = false -> rejects rt m l).
Proof.
  intros If Ti L Sn N Ty Mi Ra. destruct (signed_ok t v Sn) as (Ot & _ & _).
  assert (K : forall e s, ready e s l -> named_labels s -> exists x, becomes (parse_inst e s (clean l)) (parse_immediate e s ty x) (fun v => last_kind f = Some Uimm -> 0 <= v < 65536) (fun v => [word f (os ++ [OInt v])])
    /\ if accepted ty v then parse_immediate e s ty x = Ok (Short (v mod 65536)) else exists d, parse_immediate e s ty x = Err (EInvalidImmediate (mk_line (p_line s) l) d)).
  { intros e s Rd Nl. destruct (imm_line_parse e s f os t l If Ti L Ot N) as (Ne & Ec & op & x & SL & Pd & Nx & Px & Lw & B). rewrite (Ra op Lw SL) in B. exists x. split; [exact B|].
    apply (number_immediate e s ty x t v l Rd (named_labels_ok s Nl) Ty Pd Sn). intros E V0. apply (signed_zero t v Sn). intros I. apply (Mi E V0).
    apply (part_in x l _ Px), (part_in t x _ (padded_part t x Pd)), I. }
  destruct (imm_line_parse (mk_parser rt m l) init_state f os t l If Ti L Ot N) as (Ne & Ec & _). split.
  - intros Ac u Eu Du. apply writes_of; auto. intros e s _ _ Rd Nl. destruct (K e s Rd Nl) as (x & B & P). rewrite Ac in P. rewrite P in B.
    destruct B as (p & rs & rt0 & B1 & B2). specialize (B2 u Du). rewrite Eu in B2. eexists _, _. split; [exact B1|]. split; [exact Logic.I|exact B2].
  - intros Ac. apply rejects_of; auto. intros e s _ _ Rd Nl. destruct (K e s Rd Nl) as (x & B & P). rewrite Ac in P. destruct P as (d & P). rewrite P in B.
    cbn [becomes] in B. eexists _, _. split; [exact B|reflexivity].
Qed.
Lemma mem_number rt m f os o b t v l : In f (isa ++ idioms) -> takes_memory f -> operand_line f os t l -> based o b t -> signed_numeral o v -> no_nl l ->
  (in_field Mem v -> writes rt m l [word f (os ++ [OMem v b])]) /\ (~ in_field Mem v -> rejects rt m l).
Proof.
  intros If Ti L Bd Sn N. destruct (signed_ok o v Sn) as (Oo & Oo2 & Oo3). assert (Ot := operand_ok_based o b t Bd Oo).
  assert (Rb : 0 <= b < 32) by (destruct Bd as (w & r & r' & _ & G & _); now apply gpr_range in G).
  assert (K : forall e s, ready e s l -> named_labels s -> exists x float, becomes (parse_inst e s (clean l)) (parse_immediate e s i16 (offset_part float x)) (fun _ => True) (fun v => [word f (os ++ [OMem v b])])
    /\ if accepted i16 v then parse_immediate e s i16 (offset_part float x) = Ok (Short (v mod 65536)) else exists d, parse_immediate e s i16 (offset_part float x) = Err (EInvalidImmediate (mk_line (p_line s) l) d)).
  { intros e s Rd Nl. assert (Lb := named_labels_ok s Nl). destruct (mem_line_parse e s f os t l If Ti L Ot N Lb) as (Ne & Ec & x & float & Pd & Nx & _ & _ & B).
    destruct (based_base o b t x Bd Pd Nx (or_introl Oo2)) as (bt & B1 & B2). exists x, float. split; [exact (B bt b B1 B2 Rb)|].
    apply (number_immediate e s i16 _ o v l Rd Lb (or_introl eq_refl)); auto; [|discriminate]. now apply (based_part float o b t x). }
  destruct (mem_line_parse (mk_parser rt m l) init_state f os t l If Ti L Ot N) as (Ne & Ec & _); [intros n k0 A; discriminate A|].
  assert (Ac : accepted i16 v = true <-> in_field Mem v) by apply accepted_i16. split.
  - intros Fi. apply Ac in Fi. apply writes_of; auto. intros e s _ _ Rd Nl. destruct (K e s Rd Nl) as (x & fl & B & P). rewrite Fi in P. rewrite P in B.
    destruct B as (p & rs & rt0 & B1 & B2). eexists _, _. split; [exact B1|]. split; [exact Logic.I|exact (B2 v Logic.I)].
  - intros Fi. assert (Fi' : accepted i16 v = false) by (destruct (accepted i16 v); [exfalso; apply Fi; now apply Ac|reflexivity]).
    apply rejects_of; auto. intros e s _ _ Rd Nl. destruct (K e s Rd Nl) as (x & fl & B & P). rewrite Fi' in P. destruct P as (d & P). rewrite P in B.
    cbn [becomes] in B. eexists _, _. split; [exact B|reflexivity].
Qed.

(** With andi, ori and xori in lower case, and without "-0" as an unsigned immediate. *)
Theorem C27_immediates_partial : forall rt m f k v os l, In f (isa ++ idioms) -> immediate_line f k v os l -> ~ In nl l ->
  lower_logical f l -> (k = Uimm -> v = 0 -> ~ In "-"%char l) ->
  (in_field k v -> writes rt m l [word f os]) /\ (~ in_field k v -> rejects rt m l).
Proof.
  intros rt m f k v os l If H N Lo Mi. destruct H as [k os t v l K Ks L Sn|os b o t v l K L Bd Sn]; [|now apply (mem_number rt m f os o b t v l)].
  assert (Ti : takes_immediate f) by (unfold takes_immediate; destruct Ks; subst k; auto). set (ty := match k with Uimm => u16 | _ => i16 end).
  assert (Ac : accepted ty v = true <-> in_field k v) by (destruct Ks; subst k; [apply accepted_i16|apply accepted_u16]).
  destruct (imm_number rt m f os t v l ty If Ti L Sn N) as [W R].
  - destruct Ks; subst k; cbn; auto.
  - destruct Ks; subst k; cbn; [discriminate|auto].
  - intros op Lw SL. destruct Ks; subst k; [unfold read_as; now rewrite K|]. apply (read_as_lower f op l K Lo). apply Lw.
  - split.
    + intros Fi. apply W; [now apply Ac|reflexivity|]. intros E. rewrite K in E. injection E as ->. exact Fi.
    + intros Fi. apply R. destruct (accepted ty v); [exfalso; apply Fi; now apply Ac|reflexivity].
Qed.
(** With a capital letter in it, the mnemonic of andi, ori or xori takes signed immediates:
    the negative ones are accepted and written as their low 16 bits, and those from 0x8000
    are errors. *)
Theorem C27_capitals : forall rt m f v os t l, In f (isa ++ idioms) -> In (f_name f) [ #"andi"; #"ori"; #"xori" ] -> last_kind f = Some Uimm ->
  operand_line f os t l -> signed_numeral t v -> ~ In nl l -> starts_with (f_name f) (trim l) = false ->
  (-32768 <= v < 32768 -> writes rt m l [word f (os ++ [OInt (v mod 65536)])]) /\ (~ -32768 <= v < 32768 -> rejects rt m l).
Proof.
  intros rt m f v os t l If In3 K L Sn N Up. assert (Ti : takes_immediate f) by (right; exact K).
  destruct (imm_number rt m f os t v l i16 If Ti L Sn N) as [W R]; [auto|discriminate| |].
  - intros op Lw SL. unfold read_as. rewrite K. destruct (existsb (str_eqb (f_name f)) [ #"andi"; #"ori"; #"xori" ]) eqn:E.
    + assert (Lg : logical op = false); [|now rewrite Lg]. unfold logical. rewrite Up in Lw. destruct Lw as [_ Lw].
      assert (X : forall n, In n [ #"andi"; #"ori"; #"xori" ] -> op <> n).
      { intros n I ->. apply diff_false_true, Lw. unfold same_letters in SL. destruct In3 as [In3|[In3|[In3|[]]]]; rewrite <- In3 in *; destruct I as [<-|[<-|[<-|[]]]]; (reflexivity || discriminate SL). }
      repeat (apply orb_false_iff; split); apply str_eqb_neq; apply X; cbn; tauto.
    + exfalso. assert (Y : existsb (str_eqb (f_name f)) [ #"andi"; #"ori"; #"xori" ] = true); [|congruence]. apply existsb_exists. exists (f_name f). split; [exact In3|apply str_eqb_refl].
  - split.
    + intros Fi. apply W; [now apply accepted_i16|apply Z.mod_mod; lia|]. intros _. apply Z.mod_pos_bound. lia.
    + intros Fi. apply R. destruct (accepted i16 v) eqn:E; [exfalso; apply Fi; now apply accepted_i16|reflexivity].
Qed.

(** *** Cases *)

Lemma plain_operand f os ks k ts t : f_ops f = ks ++ [k] -> List.length os = List.length ks ->
  Forall2 (fun ko t => operand_spelling (fst ko) (snd ko) t /\ notation_fits (fst ko) (snd ko)) (combine ks os) ts ->
  forall x, instruction_line (f_name f) (ts ++ [t]) x -> operand_line f os t x.
Proof. intros A B C x D. exists ks, k, ts. auto. Qed.
Lemma word_statement m name t ts : same_letters m name -> instruction_line name (t :: ts) (m ++ #" " ++ join #"," (t :: ts)).
Proof.
  intros Sl. exists [], (m ++ #" " ++ join #"," (t :: ts)), [], []. repeat split; auto; try (now constructor).
  - constructor; [exact Sl|]. clear. generalize (t :: ts). intros l. induction l; constructor; auto.
    exists [], []. repeat split. now rewrite app_nil_r.
  - now rewrite !app_nil_r.
Qed.
Lemma gpr_a0 : gpr_text #"$a0" 4. Proof. right. exists #"a0". split; [reflexivity|]. apply gpr_named; [lia|reflexivity]. Qed.
Lemma gpr_a1 : gpr_text #"$a1" 5. Proof. right. exists #"a1". split; [reflexivity|]. apply gpr_named; [lia|reflexivity]. Qed.
Lemma two_gprs p q : Forall2 (fun ko t => operand_spelling (fst ko) (snd ko) t /\ notation_fits (fst ko) (snd ko)) (combine [Gpr p; Gpr q] [OReg 4; OReg 5]) [ #"$a0"; #"$a1" ].
Proof. constructor; [split; [apply sp_gpr, gpr_a0|split; [cbn; lia|exact Logic.I]]|]. constructor; [split; [apply sp_gpr, gpr_a1|split; [cbn; lia|exact Logic.I]]|constructor]. Qed.
Lemma one_gpr p : Forall2 (fun ko t => operand_spelling (fst ko) (snd ko) t /\ notation_fits (fst ko) (snd ko)) (combine [Gpr p] [OReg 4]) [ #"$a0" ].
Proof. constructor; [split; [apply sp_gpr, gpr_a0|split; [cbn; lia|exact Logic.I]]|constructor]. Qed.

Definition andi_format : format := format_named #"andi".
Lemma andi_in : In andi_format (isa ++ idioms). Proof. apply format_named_in. vm_compute. reflexivity. Qed.
Lemma andi_line m t : same_letters m #"andi" -> operand_line andi_format [OReg 4; OReg 5] t (m ++ #" " ++ join #"," [ #"$a0"; #"$a1"; t ]).
Proof.
  intros Sl. apply (plain_operand andi_format [OReg 4; OReg 5] [Rt; Rs] Uimm [ #"$a0"; #"$a1" ] t); [vm_compute; reflexivity|reflexivity|apply two_gprs|].
  apply (word_statement m #"andi" #"$a0" [ #"$a1"; t ] Sl).
Qed.
Example C27_case : exists v os l, immediate_line andi_format Uimm v os l /\ ~ In nl l /\ lower_logical andi_format l /\ (v = 0 -> ~ In "-"%char l) /\ in_field Uimm v.
Proof.
  eexists 0xffff, _, _. split; [eapply il_imm; [vm_compute; reflexivity|now right|apply (andi_line #"andi" #"0xffff"); reflexivity|apply num_pos, hex_text; [vm_compute; reflexivity|lia]]|].
  split; [intros I; vm_compute in I; intuition discriminate|]. split; [intros _; vm_compute; reflexivity|]. split; [lia|cbn; lia].
Qed.
Example C27_case_wrong : exists v os l, immediate_line andi_format Uimm v os l /\ ~ In nl l /\ lower_logical andi_format l /\ (v = 0 -> ~ In "-"%char l) /\ ~ in_field Uimm v.
Proof.
  eexists 0x10000, _, _. split; [eapply il_imm; [vm_compute; reflexivity|now right|apply (andi_line #"andi" #"0x10000"); reflexivity|apply num_pos, hex_text; [vm_compute; reflexivity|lia]]|].
  split; [intros I; vm_compute in I; intuition discriminate|]. split; [intros _; vm_compute; reflexivity|]. split; [lia|cbn; lia].
Qed.
(** A negative immediate of ANDI in capitals is accepted. *)
Theorem C27_refuted : ~ C27_full.
Proof.
  intros H. set (rt := mk_runtime true (fun l => l)).
  destruct (H rt m_new andi_format Uimm (-1) ([OReg 4; OReg 5] ++ [OInt (-1)]) (#"ANDI" ++ #" " ++ join #"," [ #"$a0"; #"$a1"; #"-0x1" ]) andi_in) as [_ [(p & A) _]].
  - eapply il_imm; [vm_compute; reflexivity|now right|apply andi_line; reflexivity|]. apply (num_neg #"0x1" 1). apply hex_text; [vm_compute; reflexivity|lia].
  - intros I; vm_compute in I; intuition discriminate.
  - cbn. lia.
  - vm_compute in A. discriminate A.
Qed.
(** "-0" is not accepted by andi. *)
Theorem C27_refuted_minus_zero : ~ C27_full.
Proof.
  intros H. set (rt := mk_runtime true (fun l => l)).
  destruct (H rt m_new andi_format Uimm (- 0) ([OReg 4; OReg 5] ++ [OInt (- 0)]) (#"andi" ++ #" " ++ join #"," [ #"$a0"; #"$a1"; #"-0x0" ]) andi_in) as [W _].
  - eapply il_imm; [vm_compute; reflexivity|now right|apply andi_line; reflexivity|]. apply (num_neg #"0x0" 0). apply hex_text; [vm_compute; reflexivity|lia].
  - intros I; vm_compute in I; intuition discriminate.
  - destruct W as [(out & A & _) _]; [cbn; lia|]. vm_compute in A. discriminate A.
Qed.

(** ** C52  Memory operands *)

(** [(base)] alone. *)
Definition bare (b : Z) (t : str) : Prop := exists r r', gpr_text r b /\ padded r r' /\ t = #"(" ++ r' ++ #")".

Definition C52_full : Prop := forall rt m f os b t l, In f (isa ++ idioms) -> takes_memory f -> operand_line f os t l -> ~ In nl l ->
  (forall o v, based o b t -> signed_numeral o v -> -32768 <= v < 32768 -> writes rt m l [word f (os ++ [OMem v b])])
  /\ (bare b t -> writes rt m l [word f (os ++ [OMem 0 b])])
  /\ (forall n a, based (#"%lo(" ++ n ++ #")") b t -> plain_name n -> names_address (m_syms m) n a -> 0 <= a < 2 ^ 32 ->
        writes rt m l [word f (os ++ [OMem (signed16 (a mod 65536)) b])]).

(** Offsets in decimal or hex. *)
Theorem C52_offset : forall rt m f os b t l o v, In f (isa ++ idioms) -> takes_memory f -> operand_line f os t l -> ~ In nl l ->
  based o b t -> signed_numeral o v -> -32768 <= v < 32768 -> writes rt m l [word f (os ++ [OMem v b])].
Proof. intros rt m f os b t l o v If Ti L N Bd Sn R. now apply (mem_number rt m f os o b t v l). Qed.

Lemma blank_immediate e s ty x raw : ready e s raw -> named_labels s -> blank x -> exists d, parse_immediate e s ty x = Err (EInvalidImmediate (mk_line (p_line s) raw) d).
Proof.
  intros Rd Nl Bx. unfold parse_immediate. assert (T : trim x = []).
  { change x with ([] ++ x). now rewrite trim_blank_tail. }
  rewrite T. change (starts_with #"@@" []) with false. cbn iota.
  destruct (assoc [] (p_labels s)) as [k|] eqn:A; [apply assoc_in, Nl in A as [[] _]|].
  change (re_find_str IMM_RE []) with (@None str). change (contains #"0x" []) with false. cbn iota.
  change (parse_int ty 10 []) with (@None Z). unfold fail_at. rewrite (get_line_ready e s raw Rd). cbn. eauto.
Qed.
(** The first parenthesis of the line follows a comma. *)
Definition open_after_comma (l : str) : Prop := exists p q, l = p ++ #",(" ++ q /\ ~ In "("%char p.
Lemma first_open p q p' q' : no_open p -> no_open p' -> p ++ "("%char :: q = p' ++ "("%char :: q' -> p = p'.
Proof.
  revert p'. induction p as [|c p IH]; intros [|c' p'] A B E; cbn in E; try reflexivity.
  - injection E as <- _. exfalso. apply B. now left.
  - injection E as -> _. exfalso. apply A. now left.
  - injection E as -> E. f_equal. apply IH; auto; intros I; [apply A|apply B]; now right.
Qed.
Lemma open_after p pa y : no_open p -> blank pa -> open_after_comma (p ++ #"," ++ (pa ++ #"(" ++ y)) <-> pa = [].
Proof.
  intros O B. split.
  - intros (p' & q' & E & O'). destruct pa as [|c pa]; [reflexivity|exfalso].
    assert (E' : (p ++ #"," ++ c :: pa) ++ "("%char :: y = (p' ++ #",") ++ "("%char :: q').
    { transitivity (p' ++ #",(" ++ q'); [rewrite <- E|]; rewrite <- !app_assoc; reflexivity. }
    clear E. rename E' into E.
    apply first_open in E.
    + destruct (exists_last (l := c :: pa) ltac:(discriminate)) as (w & d & Ew). rewrite Ew in E, B. change #"," with [","%char] in E. rewrite !app_assoc in E.
      apply app_inj_tail in E as [_ E]. subst d. unfold blank in B. rewrite forallb_app in B. apply andb_true_iff in B as [_ B]. discriminate B.
    + rewrite !no_open_app. split; [exact O|]. split; [intros [X|[]]; discriminate X|]. now apply (blank_no_open (c :: pa)).
    + rewrite no_open_app. split; [exact O'|]. intros [X|[]]; discriminate X.
  - intros ->. exists p, y. split; [reflexivity|exact O].
Qed.
(** [(base)] is accepted just when no white space separates it from the comma. *)
Theorem C52_bare_iff : forall rt m f os b t l, In f (isa ++ idioms) -> takes_memory f -> operand_line f os t l -> ~ In nl l -> bare b t ->
  (open_after_comma l -> writes rt m l [word f (os ++ [OMem 0 b])]) /\ (~ open_after_comma l -> rejects rt m l).
Proof.
  intros rt m f os b t l If Ti L N (r & r' & G & Pr & E). assert (Ot : operand_ok t) by (rewrite E; now apply (operand_ok_bare r r' b)).
  assert (Bd : based [] b t) by (exists [], r, r'; repeat split; auto). assert (Rb := gpr_range _ _ G).
  assert (K : forall e s, ready e s l -> named_labels s -> exists y, becomes (parse_inst e s (clean l)) (parse_immediate e s i16 y) (fun _ => True) (fun v => [word f (os ++ [OMem v b])])
    /\ ((open_after_comma l /\ y = #"0") \/ (~ open_after_comma l /\ blank y))).
  { intros e s Rd Nl. assert (Lb := named_labels_ok s Nl). destruct (mem_line_parse e s f os t l If Ti L Ot N Lb) as (Ne & Ec & x & float & Pd & Nx & _ & (p & q & El & Op) & B).
    destruct (based_base [] b t x Bd Pd Nx) as (bt & B1 & B2); [left; intros []|]. exists (offset_part float x). split; [exact (B bt b B1 B2 Rb)|].
    destruct Pd as (pa & pb & Pa & Pb & Ex).
    assert (Oa : open_after_comma l <-> pa = []).
    { rewrite <- (open_after p pa (r' ++ #")" ++ pb ++ q) Op Pa). rewrite El, Ex, E. rewrite <- !app_assoc. reflexivity. }
    assert (Or : no_open (r' ++ #")" ++ pb)).
    { destruct (dollar_ok _ _ _ gpr_token_ok G) as (t' & _ & _ & Rn & Rw & _ & Ro & Rc & _). destruct Pr as (a & c & A & C & ->). rewrite !no_open_app. repeat split; auto using blank_no_open. intros [X|[]]; discriminate X. }
    assert (Ex' : x = pa ++ "("%char :: (r' ++ #")" ++ pb)) by (rewrite Ex, E, <- !app_assoc; reflexivity).
    destruct pa as [|c pa].
    - left. split; [now apply Oa|]. unfold offset_part. rewrite Ex'. cbn [app]. now rewrite offset_none.
    - right. split; [intros X; apply Oa in X; discriminate X|]. unfold offset_part. rewrite Ex' in *. rewrite offset_find by (discriminate || assumption).
      destruct float; [rewrite remove_open by (now apply blank_no_open); exact Pa|]. rewrite firstn_last. exact Pa. }
  destruct (mem_line_parse (mk_parser rt m l) init_state f os t l If Ti L Ot N) as (Ne & Ec & _); [intros n k0 A; discriminate A|]. split.
  - intros Oa. apply writes_of; auto. intros e s _ _ Rd Nl. destruct (K e s Rd Nl) as (y & B & [(_ & ->)|[Na _]]); [|contradiction].
    assert (P : parse_immediate e s i16 #"0" = Ok (Short (0 mod 65536))).
    { pose proof (number_immediate e s i16 #"0" #"0" 0 l Rd (named_labels_ok s Nl) (or_introl eq_refl)) as X. change (accepted i16 0) with true in X. cbn iota in X.
      apply X; [apply padded_refl|apply num_pos, num_dec|discriminate]. apply digits_one. split; [lia|now left]. }
    rewrite P in B. destruct B as (p & rs & rt0 & B1 & B2). eexists _, _. split; [exact B1|]. split; [exact Logic.I|exact (B2 0 Logic.I)].
  - intros Na. apply rejects_of; auto. intros e s _ _ Rd Nl. destruct (K e s Rd Nl) as (y & B & [(Oa & _)|[_ By]]); [contradiction|].
    destruct (blank_immediate e s i16 y l Rd Nl By) as (d & P). rewrite P in B. cbn [becomes] in B. eexists _, _. split; [exact B|reflexivity].
Qed.

Lemma remove_paren s : remove_all #"(" s = filter (fun c => negb (Ascii.eqb "(" c)) s.
Proof.
  unfold remove_all. induction s as [|c s IH]; [reflexivity|]. cbn [remove_go filter].
  change (starts_with #"(" (c :: s)) with (Ascii.eqb "(" c && true)%bool. rewrite andb_true_r. change (List.length #"(" - 1)%nat with 0%nat.
  destruct (Ascii.eqb "(" c); cbn [negb]; [exact IH|]. now rewrite IH.
Qed.
Lemma filter_no_open s : no_open s -> filter (fun c => negb (Ascii.eqb "(" c)) s = s.
Proof.
  induction s as [|c s IH]; intros H; [reflexivity|]. cbn [filter]. destruct (Ascii.eqb_spec "(" c) as [<-|]; [exfalso; apply H; now left|].
  cbn [negb]. f_equal. apply IH. intros I. apply H. now right.
Qed.
Lemma percent_immediate e s ty x n raw : ready e s raw -> named_labels s -> plain_name n -> padded (#"%lo" ++ n ++ #")") x ->
  exists d, parse_immediate e s ty x = Err (EInvalidImmediate (mk_line (p_line s) raw) d).
Proof.
  intros Rd Nl Pn Pd. assert (Ok0 : operand_ok (#"%lo" ++ n ++ #")")).
  { apply operand_in; [discriminate|]. rewrite !forallb_app. apply andb_true_iff. split; [reflexivity|].
    apply andb_true_iff. split; [|reflexivity]. apply forallb_forall. intros c I. destruct (plain_name_in n c Pn I) as [A B]. rewrite A. cbn [negb andb].
    destruct c as [[] [] [] [] [] [] [] []]; try reflexivity; discriminate B. }
  destruct Ok0 as (_ & _ & T1 & T2). unfold parse_immediate. rewrite (padded_trim _ _ Pd T1 T2). change (starts_with #"@@" (#"%lo" ++ n ++ #")")) with false. cbn iota.
  destruct (assoc (#"%lo" ++ n ++ #")") (p_labels s)) as [k|] eqn:A; [apply assoc_in, Nl in A as [_ F]; discriminate F|].
  assert (No : no_open (#"%lo" ++ n ++ #")")).
  { rewrite !no_open_app. split; [intros I; cbn in I; intuition discriminate|]. split; [now apply plain_name_open|intros [X|[]]; discriminate X]. }
  rewrite no_open_imm by exact No.
  assert (Pi : forall radix y, radix = 10 \/ radix = 16 -> parse_int ty radix ("%"%char :: y) = None).
  { intros radix y [-> | ->]; vm_compute; reflexivity. }
  assert (R0 : exists y, remove_all #"0x" (#"%lo" ++ n ++ #")") = "%"%char :: y).
  { unfold remove_all. eexists. cbn [app remove_go]. reflexivity. }
  destruct R0 as [y R0]. unfold fail_at. rewrite (get_line_ready e s raw Rd), R0, Pi by auto. change (#"%lo" ++ n ++ #")") with ("%"%char :: #"lo" ++ n ++ #")") at 2. rewrite Pi by auto.
  cbn. destruct (contains _ _); eauto.
Qed.
(** %lo(sym)(base), in the loads and stores of general registers. *)
Theorem C52_lo : forall rt m f os b t l n a, In f (isa ++ idioms) -> takes_memory f -> ~ float_memory f -> operand_line f os t l -> ~ In nl l ->
  based (#"%lo(" ++ n ++ #")") b t -> plain_name n -> names_address (m_syms m) n a -> 0 <= a < 2 ^ 32 ->
  writes rt m l [word f (os ++ [OMem (signed16 (a mod 65536)) b])].
Proof.
  intros rt m f os b t l n a If Ti Nf L N Bd Pn Na R. assert (Oo := half_operand #"%lo(" n (or_intror (or_introl eq_refl)) Pn). assert (Ot := operand_ok_based _ b t Bd Oo).
  assert (Rb : 0 <= b < 32) by (destruct Bd as (w & r & r' & _ & G & _); now apply gpr_range in G).
  destruct (mem_line_parse (mk_parser rt m l) init_state f os t l If Ti L Ot N) as (Ne & Ec & _); [intros n0 k0 A; discriminate A|].
  apply writes_of; auto. intros e s Es _ Rd Nl. assert (Lb := named_labels_ok s Nl).
  destruct (mem_line_parse e s f os t l If Ti L Ot N Lb) as (_ & _ & x & float & Pd & Nx & Fl & _ & B).
  assert (float = false) as -> by (destruct float; [exfalso; now apply Nf, Fl|reflexivity]).
  destruct (based_base _ b t x Bd Pd Nx) as (bt & B1 & B2); [right; exists n; auto|]. specialize (B bt b B1 B2 Rb).
  rewrite (parse_lo e s i16 _ n a) in B; [|apply (based_part false _ b t x Bd Pd Nx); [discriminate|discriminate]|exact Pn|now rewrite Es|exact R|apply (half_no_label #"%lo("); [right; now left|exact Nl]].
  destruct B as (p & rs & rt0 & B3 & B4). specialize (B4 (signed16 (a mod 65536)) Logic.I).
  assert (Es16 : signed16 (a mod 65536) mod 65536 = a mod 65536).
  { unfold signed16. destruct (a mod 65536 <? 32768); [apply Z.mod_mod; lia|]. replace (a mod 65536 - 65536) with (a mod 65536 + (-1) * 65536) by lia. rewrite Z.mod_add by lia. apply Z.mod_mod. lia. }
  rewrite Es16 in B4. eexists _, _. split; [exact B3|]. split; [exact Logic.I|exact B4].
Qed.
(** In those of floating-point registers it is an error. *)
Theorem C52_lo_float : forall rt m f os b t l n, In f (isa ++ idioms) -> float_memory f -> operand_line f os t l -> ~ In nl l ->
  based (#"%lo(" ++ n ++ #")") b t -> plain_name n -> rejects rt m l.
Proof.
  intros rt m f os b t l n If Fm L N Bd Pn. assert (Oo := half_operand #"%lo(" n (or_intror (or_introl eq_refl)) Pn). assert (Ot := operand_ok_based _ b t Bd Oo).
  assert (Ti : takes_memory f) by (destruct Fm as (p & Fm); unfold takes_memory, last_kind; now rewrite Fm).
  assert (Rb : 0 <= b < 32) by (destruct Bd as (w & r & r' & _ & G & _); now apply gpr_range in G).
  destruct (mem_line_parse (mk_parser rt m l) init_state f os t l If Ti L Ot N) as (Ne & Ec & _); [intros n0 k0 A; discriminate A|].
  apply rejects_of; auto. intros e s Es _ Rd Nl. assert (Lb := named_labels_ok s Nl).
  destruct (mem_line_parse e s f os t l If Ti L Ot N Lb) as (_ & _ & x & float & Pd & Nx & Fl & _ & B).
  assert (float = true) as -> by (now apply Fl).
  destruct (based_base _ b t x Bd Pd Nx) as (bt & B1 & B2); [right; exists n; auto|]. specialize (B bt b B1 B2 Rb).
  destruct (based_offset _ b t x Bd Pd Nx) as (wa & wb & A & B0 & E).
  assert (Po : padded (#"%lo" ++ n ++ #")") (offset_part true x)).
  { unfold offset_part. rewrite E. destruct (wa ++ (#"%lo(" ++ n ++ #")") ++ wb) as [|c y] eqn:Ey; [destruct wa; discriminate Ey|]. rewrite <- Ey.
    exists wa, wb. split; [exact A|]. split; [exact B0|]. rewrite remove_open_app, remove_paren, !filter_app, (filter_no_open wa), (filter_no_open wb), (filter_no_open n) by (auto using blank_no_open, plain_name_open). reflexivity. }
  destruct (percent_immediate e s i16 _ n l Rd Nl Pn Po) as (d & P). rewrite P in B. cbn [becomes] in B. eexists _, _. split; [exact B|reflexivity].
Qed.
Theorem C52_memory_partial : forall rt m f os b t l, In f (isa ++ idioms) -> takes_memory f -> operand_line f os t l -> ~ In nl l ->
  (forall o v, based o b t -> signed_numeral o v -> -32768 <= v < 32768 -> writes rt m l [word f (os ++ [OMem v b])])
  /\ (bare b t -> open_after_comma l -> writes rt m l [word f (os ++ [OMem 0 b])])
  /\ (forall n a, ~ float_memory f -> based (#"%lo(" ++ n ++ #")") b t -> plain_name n -> names_address (m_syms m) n a -> 0 <= a < 2 ^ 32 ->
        writes rt m l [word f (os ++ [OMem (signed16 (a mod 65536)) b])]).
Proof.
  intros rt m f os b t l If Ti L N. split; [intros; eapply C52_offset; eauto|]. split; [|intros; eapply C52_lo; eauto].
  intros Ba Oa. now apply (C52_bare_iff rt m f os b t l).
Qed.
Definition lw_format : format := format_named #"lw".
Definition lwc1_format : format := format_named #"lwc1".
Lemma lw_in : In lw_format (isa ++ idioms). Proof. apply format_named_in. vm_compute. reflexivity. Qed.
Lemma lwc1_in : In lwc1_format (isa ++ idioms). Proof. apply format_named_in. vm_compute. reflexivity. Qed.
Lemma lw_line t : operand_line lw_format [OReg 4] t (#"lw" ++ #" " ++ join #"," [ #"$a0"; t ]).
Proof.
  apply (plain_operand lw_format [OReg 4] [Rt] Mem [ #"$a0" ] t); [vm_compute; reflexivity|reflexivity|apply one_gpr|].
  apply (word_statement #"lw" #"lw" #"$a0" [t]). reflexivity.
Qed.
Lemma fpr_f4 : fpr_text #"$f4" 4. Proof. right. exists #"f4". split; [reflexivity|]. apply fpr_f; [lia|reflexivity]. Qed.
Lemma lwc1_line t : operand_line lwc1_format [OReg 4] t (#"lwc1" ++ #" " ++ join #"," [ #"$f4"; t ]).
Proof.
  apply (plain_operand lwc1_format [OReg 4] [Ft] Mem [ #"$f4" ] t); [vm_compute; reflexivity|reflexivity| |].
  - constructor; [split; [apply sp_fpr, fpr_f4|split; [cbn; lia|exact Logic.I]]|constructor].
  - apply (word_statement #"lwc1" #"lwc1" #"$f4" [t]). reflexivity.
Qed.
Lemma based_a1 o : based o 5 (o ++ #"($a1)").
Proof. exists [], #"$a1", #"$a1". split; [reflexivity|]. split; [exact gpr_a1|]. split; [apply padded_refl|reflexivity]. Qed.
Lemma bare_a1 : bare 5 #"($a1)".
Proof. exists #"$a1", #"$a1". split; [exact gpr_a1|]. split; [apply padded_refl|reflexivity]. Qed.

Example C52_case_bare : exists l, In lw_format (isa ++ idioms) /\ takes_memory lw_format /\ operand_line lw_format [OReg 4] #"($a1)" l /\ ~ In nl l /\ bare 5 #"($a1)" /\ open_after_comma l.
Proof.
  eexists. split; [exact lw_in|]. split; [vm_compute; reflexivity|]. split; [apply lw_line|]. split; [intros I; vm_compute in I; intuition discriminate|]. split; [exact bare_a1|].
  exists #"lw $a0", #"$a1)". split; [reflexivity|intros I; vm_compute in I; intuition discriminate].
Qed.
Example C52_case_lo : exists m t l, operand_line lw_format [OReg 4] t l /\ ~ In nl l /\ ~ float_memory lw_format
  /\ based (#"%lo(" ++ #"buf" ++ #")") 5 t /\ plain_name #"buf" /\ names_address (m_syms m) #"buf" 0x80012340.
Proof.
  exists (mk_mipsasm 0x80000000 [(0x80012340, #"buf")] false). eexists _, _. split; [apply lw_line|]. split; [|split; [|split; [apply based_a1|split; [split; reflexivity || discriminate|]]]].
  - intros I; vm_compute in I; intuition discriminate.
  - intros (p & F). vm_compute in F. discriminate F.
  - apply na_symbol; [now left|]. intros b [E|[]]. now injection E.
Qed.

(** "lw $a0, ($a1)" with a space is an error. *)
Theorem C52_refuted : ~ C52_full.
Proof.
  intros H. set (rt := mk_runtime true (fun l => l)). set (l := #"lw" ++ #" " ++ join #"," [ #"$a0"; #" ($a1)" ]).
  assert (L : operand_line lw_format [OReg 4] #"($a1)" l).
  { apply (plain_operand lw_format [OReg 4] [Rt] Mem [ #"$a0" ] #"($a1)"); [vm_compute; reflexivity|reflexivity|apply one_gpr|].
    exists [], l, [], []. repeat split; auto; try (now constructor). unfold l. change (f_name lw_format) with #"lw". cbn [app]. apply (st_ops #"lw" #"lw" #"$a0" [ #"($a1)" ] #"$a0" [ #" ($a1)" ]); [reflexivity|].
    constructor; [apply padded_refl|]. constructor; [|constructor]. exists #" ", []. repeat split. }
  destruct (H rt m_new lw_format [OReg 4] 5 #"($a1)" l lw_in) as (_ & W & _); [vm_compute; reflexivity|exact L|intros I; vm_compute in I; intuition discriminate|].
  destruct (W bare_a1) as [(out & A & _) _]. vm_compute in A. discriminate A.
Qed.
(** %lo in a load of a floating-point register is an error. *)
Theorem C52_refuted_float : ~ C52_full.
Proof.
  intros H. set (rt := mk_runtime true (fun l => l)). set (m := mk_mipsasm 0x80000000 [(0x80012340, #"buf")] false).
  destruct (H rt m lwc1_format [OReg 4] 5 ((#"%lo(" ++ #"buf" ++ #")") ++ #"($a1)") (#"lwc1" ++ #" " ++ join #"," [ #"$f4"; (#"%lo(" ++ #"buf" ++ #")") ++ #"($a1)" ]) lwc1_in) as (_ & _ & W); [vm_compute; reflexivity|apply lwc1_line|intros I; vm_compute in I; intuition discriminate|].
  destruct (W #"buf" 0x80012340) as [(out & A & _) _]; [apply based_a1|split; reflexivity || discriminate| |lia|].
  - apply na_symbol; [now left|]. intros b [E|[]]. now injection E.
  - vm_compute in A. discriminate A.
Qed.

(** ** C41  Symbols *)

(** The symbol [t] of the table, where every name stands once, is the address [a]. *)
Definition symbol (m : mipsasm) (t : str) (a : Z) : Prop :=
  In (a, t) (m_syms m) /\ NoDup (map snd (m_syms m)) /\ plain_name t /\ 0 <= a < 2 ^ 32.
Lemma nodup_snd (l : list (Z * str)) a b t : NoDup (map snd l) -> In (a, t) l -> In (b, t) l -> a = b.
Proof.
  induction l as [|[c u] l IH]; intros N A B; [destruct A|]. cbn in *. destruct A as [E|A], B as [F|B].
  - congruence.
  - injection E as -> ->. inversion N; subst. exfalso. apply (in_map snd) in B. contradiction.
  - injection F as -> ->. inversion N; subst. exfalso. apply (in_map snd) in A. contradiction.
  - apply IH; auto. now inversion N.
Qed.
Lemma symbol_names m t a : symbol m t a -> names_address (m_syms m) t a /\ plain_name t /\ 0 <= a < 2 ^ 32.
Proof. intros (I & N & P & R). split; [|auto]. apply na_symbol; [exact I|]. intros b J. now apply (nodup_snd (m_syms m) b a t). Qed.

Record symbol_jump (rt : runtime) (m : mipsasm) (input : str) (out : list inst) (l1 : list str) (raw : str) (l2 : list str) (name : str) (a : Z) : Prop := mk_symbol_jump {
  sj_assembles : assemble rt m input = Ok out;
  sj_line : lines input = l1 ++ raw :: l2;
  sj_jump : exists t, jump_line name t raw /\ symbol m t a
}.

Definition C41_full : Prop :=
  (forall rt m input out l1 raw l2 name a, symbol_jump rt m input out l1 raw l2 name a ->
     let pc := address (m_base m) (words_of out) (instruction_count l1) in (pc + 4) / 2 ^ 28 = a / 2 ^ 28 -> a mod 4 = 0 ->
     exists w, nth_error (words_of out) (instruction_count l1) = Some [w] /\ field w 26 6 = jump_code name /\ jump_target pc w = a)
  /\ (forall rt m f os t l a, In f (isa ++ idioms) -> takes_immediate f -> ~ In nl l -> symbol m t a ->
        (operand_line f os (#"%hi(" ++ t ++ #")") l -> writes rt m l [word f (os ++ [OInt ((a + 0x8000) / 0x10000 mod 65536)])])
        /\ (operand_line f os (#"%lo(" ++ t ++ #")") l -> writes rt m l [word f (os ++ [OInt (a mod 65536)])])).

(** The jump holds the address, whatever labels there are, and even when the name is also a
    label or a number. *)
Lemma plain_operand_ok t : plain_name t -> operand_ok t.
Proof.
  intros P. apply operand_in; [exact (proj1 P)|]. apply forallb_forall. intros c I. destruct (plain_name_in t c P I) as [A B]. rewrite A. cbn [negb andb].
  destruct c as [[] [] [] [] [] [] [] []]; try reflexivity; discriminate B.
Qed.
Lemma jump_part name t raw : jump_line name t raw -> part t raw.
Proof.
  intros [_ (a & st & gap & e & _ & St & _ & _ & _ & ->)]. inversion St as [|m0 t0 ts x xs Sl F]; subst.
  inversion F as [|? ? ? ? (u & v & _ & _ & E) F']; subst. inversion F'; subst. cbn [join].
  exists (a ++ m0 ++ #" " ++ u), (v ++ gap ++ e). rewrite <- !app_assoc. reflexivity.
Qed.
Lemma jump_checked e s raw t a : ready e s raw -> part t raw -> exists w, check_jump e s (TAddress a) t = (w, Ok tt).
Proof.
  intros Rd P. unfold check_jump. cbn [target_is_label target_as_u32]. unfold lift at 1. cbn [mbind]. destruct (negb (a mod 4 =? 0)); [|eexists; reflexivity].
  rewrite (get_line_ready e s raw Rd). cbn [obind]. destruct (show_jump (mk_line (p_line s) raw) t P) as [x X]. rewrite (warn_ok _ _ X). eexists. reflexivity.
Qed.
Theorem C41_jump_word : forall rt m input out l1 raw l2 name a, symbol_jump rt m input out l1 raw l2 name a ->
  nth_error (words_of out) (instruction_count l1) = Some [jump_code name * 2 ^ 26 + a mod 2 ^ 26 / 4].
Proof.
  intros rt m input out l1 raw l2 name a [A Ei (t & J & Sy)]. apply symbol_names in Sy as (Na & Pn & R).
  destruct (jump_in_program rt m input out l1 raw l2 name t (TAddress a) A Ei J (plain_operand_ok t Pn)) as (v & x & <- & Nx & Bx).
  - intros s Lb Rd. split; [now apply target_names|]. apply (jump_checked _ s raw t a Rd). now apply (jump_part name).
  - intros v E. now injection E as <-.
  - eapply words_nth; eauto.
Qed.
(** The line alone assembles, too. *)
Theorem C41_jump_alone : forall rt m name t l a, jump_line name t l -> ~ In nl l -> symbol m t a ->
  writes rt m l [jump_code name * 2 ^ 26 + a mod 2 ^ 26 / 4].
Proof.
  intros rt m name t l a J N Sy. apply symbol_names in Sy as (Na & Pn & R). assert (Ot := plain_operand_ok t Pn).
  assert (K : forall e s, e_syms e = m_syms m -> ready e s l -> exists w2, parse_target e s t = Ok (TAddress a) /\ check_jump e s (TAddress a) t = (w2, Ok tt)).
  { intros e s Es Rd. destruct (jump_checked e s l t a Rd (jump_part name t l J)) as [w W]. exists w. split; [|exact W]. apply target_names; [now rewrite Es|exact R]. }
  assert (V : clean l <> [] /\ ends_with #":" (clean l) = false).
  { destruct J as [Nm L]. assert (Nk : name_ok name) by (destruct Nm as [<-|[<-|[]]]; apply name_okb_ok; reflexivity).
    destruct (line_parse_parts (mk_parser rt m l) init_state name [t] l Nk ltac:(constructor; [exact Ot|constructor]) N L) as (op & arg & xs & SL & Ar & Ne & Ec & P). auto. }
  destruct V as [Ne Ec]. apply writes_of; auto. intros e s Es _ Rd _. destruct (K e s Es Rd) as (w2 & Pt & Cj).
  destruct (jump_line_parse e s name t l (TAddress a) w2 J Ot N Rd Pt Cj) as (_ & _ & p & P & En).
  eexists _, _. split; [exact P|]. split; [exact Logic.I|]. exact (En a R).
Qed.
Theorem C41_jump_partial : forall rt m input out l1 raw l2 name a, symbol_jump rt m input out l1 raw l2 name a ->
  let pc := address (m_base m) (words_of out) (instruction_count l1) in (pc + 4) / 2 ^ 28 = a / 2 ^ 28 -> a mod 4 = 0 -> a mod 2 ^ 28 < 2 ^ 26 ->
  exists w, nth_error (words_of out) (instruction_count l1) = Some [w] /\ field w 26 6 = jump_code name /\ jump_target pc w = a.
Proof.
  intros rt m input out l1 raw l2 name a H pc Sg A4 Lo. assert (W := C41_jump_word _ _ _ _ _ _ _ _ _ H).
  eexists. split; [exact W|]. split; [apply jump_opcode, jump_range|]. now apply jump_lands.
Qed.

Lemma hi_small oc a : 0 <= a < 0xFFFF8000 -> hi_value oc a = Some ((a + 0x8000) / 0x10000).
Proof.
  intros R. unfold hi_value. assert (D := Z.div_mod a 65536 ltac:(lia)). assert (B := Z.mod_pos_bound a 65536 ltac:(lia)).
  destruct (Z.ltb_spec (a mod 65536) 32768) as [Lt|Ge].
  - rewrite Z.add_0_r. assert (Q : a <? 2 ^ 32 = true) by (apply Z.ltb_lt; lia). rewrite Q. f_equal. apply Z.div_unique with (r := a mod 65536 + 32768); lia.
  - assert (Q : a + 65536 <? 2 ^ 32 = true) by (apply Z.ltb_lt; lia). rewrite Q. f_equal.
    rewrite <- (Z.div_unique (a + 32768) 65536 (a / 65536 + 1) (a mod 65536 - 32768)) by lia.
    symmetry. apply Z.div_unique with (r := a mod 65536); lia.
Qed.
Lemma half_line rt m f os p t l v : In f (isa ++ idioms) -> takes_immediate f -> ~ In nl l -> In p [ #"%hi("; #"%lo(" ] -> plain_name t ->
  operand_line f os (p ++ t ++ #")") l -> 0 <= v < 65536 ->
  (forall e s ty x, e_syms e = m_syms m -> e_oc e = rt_oc rt -> named_labels s -> padded (p ++ t ++ #")") x -> parse_immediate e s ty x = Ok (Short v)) ->
  writes rt m l [word f (os ++ [OInt v])].
Proof.
  intros If Ti N Ip Pn L Rv H. assert (Ot := half_operand p t Ip Pn).
  destruct (imm_line_parse (mk_parser rt m l) init_state f os _ l If Ti L Ot N) as (Ne & Ec & _).
  apply writes_of; auto. intros e s Es Eo Rd Nl. destruct (imm_line_parse e s f os _ l If Ti L Ot N) as (_ & _ & op & x & _ & Pd & _ & _ & _ & B).
  rewrite (H e s (read_as f op) x Es Eo Nl Pd) in B. destruct B as (q & rs & rt0 & B1 & B2). specialize (B2 v ltac:(intros _; exact Rv)). rewrite Z.mod_small in B2 by exact Rv.
  eexists _, _. split; [exact B1|]. split; [exact Logic.I|exact B2].
Qed.
Theorem C41_lo : forall rt m f os t l a, In f (isa ++ idioms) -> takes_immediate f -> ~ In nl l -> symbol m t a ->
  operand_line f os (#"%lo(" ++ t ++ #")") l -> writes rt m l [word f (os ++ [OInt (a mod 65536)])].
Proof.
  intros rt m f os t l a If Ti N Sy L. apply symbol_names in Sy as (Na & Pn & R).
  apply (half_line rt m f os #"%lo(" t l (a mod 65536) If Ti N ltac:(right; now left) Pn L); [apply Z.mod_pos_bound; lia|].
  intros e s ty x Es Eo Nl Pd. apply (parse_lo e s ty x t a Pd Pn); [now rewrite Es|exact R|]. apply (half_no_label #"%lo("); [right; now left|exact Nl].
Qed.
Theorem C41_hi_partial : forall rt m f os t l a, In f (isa ++ idioms) -> takes_immediate f -> ~ In nl l -> symbol m t a -> a < 0xFFFF8000 ->
  operand_line f os (#"%hi(" ++ t ++ #")") l -> writes rt m l [word f (os ++ [OInt ((a + 0x8000) / 0x10000 mod 65536)])].
Proof.
  intros rt m f os t l a If Ti N Sy Lt L. apply symbol_names in Sy as (Na & Pn & R).
  assert (Rv : 0 <= (a + 0x8000) / 0x10000 < 65536) by (split; [apply Z.div_pos; lia|apply Z.div_lt_upper_bound; lia]). rewrite Z.mod_small by exact Rv.
  apply (half_line rt m f os #"%hi(" t l _ If Ti N ltac:(now left) Pn L Rv).
  intros e s ty x Es Eo Nl Pd. rewrite (parse_hi e s ty x t a Pd Pn); [|now rewrite Es|exact R|apply (half_no_label #"%hi("); [now left|exact Nl]].
  now rewrite hi_small by lia.
Qed.

(** A symbol whose name is also a label and a number. *)
Definition symbol_program : str := join [nl] [ #"f0:"; #"jal f0"; #"nop"; #"jal 100"; #"nop" ].
Definition symbol_m : mipsasm := mk_mipsasm 0x80000000 [(0x80012340, #"f0"); (0x80000080, #"100")] false.
Lemma no_dup2 (a b : str) : a <> b -> NoDup [a; b].
Proof. intros N. constructor; [intros [E|[]]; congruence|]. constructor; [intros []|constructor]. Qed.
Example C41_case_label : exists out, symbol_jump (mk_runtime true (fun l => l)) symbol_m symbol_program out [ #"f0:" ] #"jal f0" [ #"nop"; #"jal 100"; #"nop" ] #"jal" 0x80012340.
Proof.
  destruct (assemble (mk_runtime true (fun l => l)) symbol_m symbol_program) as [out| |] eqn:A; [|vm_compute in A; discriminate A|vm_compute in A; discriminate A].
  exists out. constructor; [exact A|reflexivity|]. exists #"f0". split; [split; [right; now left|apply (plain_statement #"jal" #"f0" [])]|].
  split; [now left|]. split; [apply no_dup2; discriminate|]. split; [split; reflexivity || discriminate|lia].
Qed.
Example C41_case_number : exists out, symbol_jump (mk_runtime true (fun l => l)) symbol_m symbol_program out [ #"f0:"; #"jal f0"; #"nop" ] #"jal 100" [ #"nop" ] #"jal" 0x80000080.
Proof.
  destruct (assemble (mk_runtime true (fun l => l)) symbol_m symbol_program) as [out| |] eqn:A; [|vm_compute in A; discriminate A|vm_compute in A; discriminate A].
  exists out. constructor; [exact A|reflexivity|]. exists #"100". split; [split; [right; now left|apply (plain_statement #"jal" #"100" [])]|].
  split; [right; now left|]. split; [apply no_dup2; discriminate|]. split; [split; reflexivity || discriminate|lia].
Qed.
Definition far_m : mipsasm := mk_mipsasm 0x80000000 [(0x84000000, #"far")] false.
(** Bits 26 and 27 of the address are lost. *)
Theorem C41_refuted : ~ C41_full.
Proof.
  intros [H _]. set (rt := mk_runtime true (fun l => l)).
  destruct (assemble rt far_m #"j far") as [out| |] eqn:A; [|vm_compute in A; discriminate A|vm_compute in A; discriminate A].
  assert (J : symbol_jump rt far_m #"j far" out [] #"j far" [] #"j" 0x84000000).
  { constructor; [exact A|reflexivity|]. exists #"far". split; [split; [now left|apply (plain_statement #"j" #"far" [])]|].
    split; [now left|]. split; [constructor; [intros []|constructor]|]. split; [split; reflexivity || discriminate|lia]. }
  specialize (H _ _ _ _ _ _ _ _ _ J). cbv zeta in H. vm_compute in A. injection A as <-. destruct H as (w & W & _ & T); [vm_compute; reflexivity|vm_compute; reflexivity|].
  vm_compute in W. injection W as <-. vm_compute in T. discriminate T.
Qed.
(** %hi of an address at the top overflows in a debug build. *)
Theorem C41_refuted_hi : ~ C41_full.
Proof.
  intros [_ H]. set (rt := mk_runtime true (fun l => l)). set (m := mk_mipsasm 0x80000000 [(0xffff8000, #"top")] false).
  assert (Sy : symbol m #"top" 0xffff8000).
  { split; [now left|]. split; [constructor; [intros []|constructor]|]. split; [split; reflexivity || discriminate|lia]. }
  destruct (H rt m andi_format [OReg 4; OReg 5] #"top" (#"andi" ++ #" " ++ join #"," [ #"$a0"; #"$a1"; #"%hi(top)" ]) 0xffff8000 andi_in) as [W _];
    [right; vm_compute; reflexivity|intros I; vm_compute in I; intuition discriminate|exact Sy|].
  destruct W as [(out & A & _) _]; [apply andi_line; reflexivity|]. vm_compute in A. discriminate A.
Qed.

Print Assumptions C27_immediates_partial.
Print Assumptions C27_capitals.
Print Assumptions C27_refuted.
Print Assumptions C52_memory_partial.
Print Assumptions C52_bare_iff.
Print Assumptions C52_lo_float.
Print Assumptions C52_refuted.
Print Assumptions C41_jump_word.
Print Assumptions C41_jump_alone.
Print Assumptions C41_jump_partial.
Print Assumptions C41_lo.
Print Assumptions C41_hi_partial.
Print Assumptions C41_refuted.
