(** * ImmLines: lines with immediates and memory operands, in any program (proofs only). *)

From Coq Require Import Lia.
From Verif Require Import Lib SpecIsa StrLemmas NumLemmas DecodeProofs TextProofs OperandProofs NativeProofs LineProofs ScanProofs ProgProofs AsmProofs MachineProofs
  PseudoProofs BranchProofs LabelProofs HalfProofs SpacingProofs CongProofs ErrorProofs ImmProofs SpecErrors SpecText SpecProgram SpecLabels SpecLines SpecImm.

(** ** A line that is wrong *)

(** Where a program reads the line after [l1]. *)
Definition at_place (e : env) (l1 : list str) (raw : str) (s : pstate) : Prop :=
  ready e s raw /\ p_line s = S (List.length l1)
  /\ forall n k, In (n, k) (p_labels s) -> good_label n /\ is_local n = false /\ In n (map fst (label_table 0 l1)).

Lemma wrong_line rt m input l1 raw l2 (Q : perror -> Prop) : lines input = l1 ++ raw :: l2 -> clean raw <> [] -> ends_with #":" (clean raw) = false ->
  (forall s, at_place (mk_parser rt m input) l1 raw s -> exists w p, parse_inst (mk_parser rt m input) s (clean raw) = (w, Err p) /\ Q p) ->
  match assemble rt m input with Ok _ => False | Err es => exists p, In p es /\ Q p | Panic _ => True end.
Proof.
  intros Ei Ne Ec H. destruct (assemble rt m input) as [out|es|q] eqn:A; [| |exact Logic.I];
  (destruct (read_to_end rt m input ltac:(intros q; rewrite A; discriminate)) as (s & is1 & errs & Sc & _ & Er);
   assert (N := nl_of_lines input); set (e := mk_parser rt m input) in *;
   destruct (sound_at e s l1 raw l2 N Ei Sc) as (s1 & f1 & x & f2 & _ & So1 & Fx & So);
   assert (Pl : at_place e l1 raw (bump s1)) by (split; [exact (sound_ready e s1 l1 f1 raw l2 So1 Ei)|]; split; [cbn; f_equal; apply So1|];
     intros n k I; destruct (so_labels _ _ _ _ So1 n k I) as (_ & G & Lc); split; [exact G|]; split; [exact Lc|];
     apply (so_names _ _ _ _ So1 n G Lc); now apply (in_map fst) in I);
   destruct (H _ Pl) as (w & p & P & Qp); assert (R := role_native raw Ne Ec);
   assert (Xp : x = Wrong p) by (destruct Fx as [R'|k R' O|k c r R' Ek D|k j fl R' G As Nj|w' i' R' Pi|w' p' R' Pi El Ek]; rewrite R in R'; try discriminate;
     rewrite P in Pi; apply pair_equal_spec in Pi as [_ Pi]; [discriminate|now injection Pi as <-]);
   assert (Ip : In p (p_errors s ++ errs)) by (apply in_or_app; left; rewrite (so_errors _ _ _ _ So); apply wrongs_in; exists (List.length f1);
     rewrite nth_error_app2, Nat.sub_diag by lia; now rewrite Xp);
   apply Er in Ip as (es' & E' & I')).
  - rewrite A in E'. discriminate.
  - rewrite A in E'. injection E' as <-. eauto.
Qed.
Lemma wrong_alone rt m l : no_nl l -> clean l <> [] -> ends_with #":" (clean l) = false ->
  (forall s, ready (mk_parser rt m l) s l -> p_line s = 1%nat -> p_labels s = [] -> exists w p, parse_inst (mk_parser rt m l) s (clean l) = (w, Err p)) ->
  exists p, assemble rt m l = Err [p].
Proof.
  intros N Ne Ec H. assert (E : lines l = [l]) by (apply lines_single; [exact N|]; intros ->; now apply Ne).
  assert (R := role_native l Ne Ec). set (e := mk_parser rt m l) in *.
  destruct (H (bump init_state)) as (w & p & P); [apply (after_ready e [] l []); [exact E|split; cbn; lia]|reflexivity|reflexivity|].
  exists p. assert (St := step_of_view e init_state l _ N (st_inst_error e init_state l w p R P)).
  unfold assemble, parse. fold e. change (e_input e) with (lines l). rewrite E. cbn [scan_lines]. rewrite St. cbn [obind].
  destruct (final_same e (add_error (add_warnings (bump init_state) w) p)) as (F1 & F2 & F3 & F4 & F5). fold (final e (add_error (add_warnings (bump init_state) w) p)).
  rewrite F1, F3. reflexivity.
Qed.

(** ** Reading a number *)

(** The values of a type, and the texts it can be written with. *)
Definition accepted (ty : ity) (v : Z) : bool := (it_min ty <=? v) && (v <=? it_max ty).
Lemma number_immediate e s ty x t v raw : ready e s raw -> labels_ok s -> ty = i16 \/ ty = u16 -> padded t x -> signed_numeral t v ->
  (ty = u16 -> v = 0 -> numeral t v) ->
  if accepted ty v then parse_immediate e s ty x = Ok (Short (v mod 65536))
  else exists d, parse_immediate e s ty x = Err (EInvalidImmediate (mk_line (p_line s) raw) d).
Proof.
  intros Rd Lb Ty Pd Sn Z0. assert (As := labels_numeral s t v Lb Sn).
  destruct (signed_numeral_shape _ _ Sn) as (neg & radix & ds & Sh & u & V & U & Ev).
  assert (Base : forall r, parse_int ty radix ((if neg then #"-" else []) ++ ds) = r ->
    match r with Some w => parse_immediate e s ty x = imm_new ty w | None => exists d, parse_immediate e s ty x = Err (EInvalidImmediate (mk_line (p_line s) raw) d) end).
  { intros r Er. destruct (number_operand_ok _ _ _ _ Sh) as (_ & _ & T1 & T2).
    unfold parse_immediate. rewrite (padded_trim _ _ Pd T1 T2), (number_no_at _ _ _ _ Sh), As.
    assert (NO : no_open t).
    { intros I. destruct (number_char_facts _ (number_chars _ _ _ _ _ Sh I)) as (_ & _ & N & _). now apply N. }
    rewrite no_open_imm by exact NO. rewrite (number_contains _ _ _ _ Sh).
    assert (Q : radix = 10 \/ radix = 16) by (now inversion Sh). unfold fail_at. rewrite (get_line_ready e s raw Rd). destruct Q as [-> | ->].
    - change (10 =? 16) with false. cbn iota. assert (E : t = (if neg then #"-" else []) ++ ds) by (inversion Sh; reflexivity).
      rewrite E, Er. destruct r; [reflexivity|]. eexists. reflexivity.
    - change (16 =? 16) with true. cbn iota. rewrite (number_remove _ _ _ _ Sh), Er. destruct r; [reflexivity|]. eexists. reflexivity. }
  assert (Q : all_hex ds /\ ds <> []) by (now inversion Sh). destruct Q as (Ah & Ne).
  specialize (Base _ eq_refl). destruct Ty as [-> | ->].
  - rewrite (parse_int_signed i16 radix ds u neg) in Base by auto. rewrite <- Ev in Base. unfold in_range in Base. fold (accepted i16 v) in Base.
    destruct (accepted i16 v); [rewrite Base; reflexivity|exact Base].
  - destruct neg.
    + assert (Pi : parse_int u16 radix (#"-" ++ ds) = None).
      { change (#"-" ++ ds) with ("-"%char :: ds). unfold parse_int. cbn [Ascii.eqb orb]. destruct ds; [reflexivity|]. reflexivity. }
      rewrite Pi in Base. assert (A0 : accepted u16 v = false); [|now rewrite A0].
      unfold accepted. apply andb_false_iff. left. apply Z.leb_gt. change (it_min u16) with 0.
      destruct (Z.eq_dec v 0) as [->|]; [|lia]. exfalso. assert (Nm := Z0 eq_refl eq_refl). apply numeral_head in Nm as (c & r & -> & D).
      assert (X : forall y ng rx dd, number_shape y ng rx dd -> ng = true -> hd_error y = Some "-"%char) by (intros y ng rx dd [] ->; reflexivity).
      specialize (X _ _ _ _ Sh eq_refl). injection X as ->. discriminate D.
    + rewrite (parse_int_signed u16 radix ds u false) in Base by (auto; discriminate). rewrite <- Ev in Base. unfold in_range in Base. fold (accepted u16 v) in Base.
      destruct (accepted u16 v) eqn:Ac; [|exact Base]. rewrite Base. reflexivity.
Qed.

(** ** Lines *)

Lemma spelled_args ks os ts xs :
  Forall2 (fun ko t => operand_spelling (fst ko) (snd ko) t /\ notation_fits (fst ko) (snd ko)) (combine ks os) ts ->
  List.length os = List.length ks -> Forall2 (fun t x => padded t x /\ no_nl x) ts xs -> args_rel ks os xs.
Proof.
  revert os ts xs. induction ks as [|k ks IH]; intros os ts xs S L P; destruct os as [|o os]; try discriminate.
  - inversion S; subst. inversion P. exact I.
  - cbn [combine] in S. inversion S as [|? t ? ts' [Hs Hf] S']; subst. inversion P as [|? x ? xs' [Hp Hn] P']; subst.
    split; [exists t; auto|]. apply (IH os ts' xs'); auto.
Qed.
Lemma operand_line_parse e s f os t l : name_ok (f_name f) -> operand_line f os t l -> operand_ok t -> no_nl l ->
  exists ks k op arg xs x, f_ops f = ks ++ [k] /\ List.length os = List.length ks /\ same_letters op (f_name f) /\ args_rel ks os xs /\ padded t x /\ no_nl x
    /\ clean l <> [] /\ ends_with #":" (clean l) = false /\ parse_inst e s (clean l) = parse_op e s op arg (xs ++ [x])
    /\ (starts_with (f_name f) (trim l) = true -> op = f_name f) /\ clean l = op ++ #" " ++ join #"," (xs ++ [x]).
Proof.
  intros Nm (ks & k & ts & FO & Len & Sp & L) Ot N.
  assert (F : Forall operand_ok (ts ++ [t])).
  { apply Forall_app. split; [|constructor; [exact Ot|constructor]]. clear -Sp. induction Sp as [|? ? ? ? [H _] _ IH]; constructor; auto. eapply spelling_ok; eauto. }
  destruct (line_view (f_name f) (ts ++ [t]) l Nm F L) as (op & xs & arg & SL & Ar & Sc & Ne & Ec & V).
  assert (Ts : ts ++ [t] <> []) by (destruct ts; discriminate).
  destruct Ar as [(E & _)|[_ P0]]; [congruence|].
  assert (Ec' : clean l = op ++ #" " ++ join #"," xs).
  { destruct V as [V|(_ & _ & Ea)].
    - apply split_once_decomp in V. rewrite V, <- Sc. change #"," with [","%char]. now rewrite join_split.
    - exfalso. subst arg. rewrite <- Sc in P0. cbn [split_char] in P0. inversion P0 as [|a0 b0 c0 d0 (u & v & _ & _ & E0) P1 E1 E2]. subst. inversion P1; subst.
      rewrite <- E1 in F. apply Forall_inv in F. destruct F as [F _]. apply F. destruct u; [|discriminate E0]. destruct a0; [reflexivity|discriminate E0]. }
  assert (P : Forall2 (fun t x => padded t x /\ no_nl x) (ts ++ [t]) xs).
  { apply forall2_with; [exact P0|]. intros x Ix J. rewrite <- Sc in Ix. apply (split_char_in _ _ _ _ Ix) in J. apply N.
    apply (part_in (clean l) l _ (clean_part l)). rewrite Ec'. apply in_or_app. right. apply in_or_app. right. rewrite <- Sc. change #"," with [","%char]. now rewrite join_split. }
  assert (Vp := view_parse e s op xs arg l Ne Sc V).
  assert (Lw : starts_with (f_name f) (trim l) = true -> op = f_name f).
  { intros SW. apply starts_with_spec in SW as [r SW].
    destruct (before_comment_prefix (trim l)) as [r2 Tr]. fold (clean l) in Tr. rewrite Ec', SW in Tr.
    assert (Ln := same_letters_length _ _ SL). rewrite <- app_assoc in Tr.
    assert (E : firstn (List.length op) (f_name f ++ r) = firstn (List.length op) (op ++ (#" " ++ join #"," xs) ++ r2)) by (now rewrite Tr).
    rewrite Ln in E at 1. rewrite !firstn_app, !Nat.sub_diag, !firstn_all in E. cbn [firstn] in E. rewrite !app_nil_r in E. congruence. }
  apply Forall2_app_inv_l in P as (xs1 & xs2 & A1 & A2 & ->). inversion A2 as [|? x ? l2 [Hp Hn] A3]; subst. inversion A3; subst.
  exists ks, k, op, arg, xs1, x. repeat split; auto. eapply spelled_args; eauto.
Qed.

Lemma last_kind_app f ks k : f_ops f = ks ++ [k] -> last_kind f = Some k.
Proof. intros E. unfold last_kind. rewrite E, rev_app_distr. reflexivity. Qed.
Lemma takes_imm_is f : takes_immediate f -> last_is imm_kind f = true.
Proof. unfold takes_immediate, last_is. intros [-> | ->]; reflexivity. Qed.
Lemma takes_mem_is f : takes_memory f -> last_is mem_kind f = true.
Proof. unfold takes_memory, last_is. intros ->. reflexivity. Qed.
Lemma read_as_cases f op : read_as f op = i16 \/ read_as f op = u16.
Proof. unfold read_as. destruct (last_kind f) as [[]|]; auto. destruct (existsb _ _); auto. destruct (logical op); auto. Qed.
(** With the mnemonic in lower case. *)
Lemma read_as_lower f op l : last_kind f = Some Uimm -> lower_logical f l -> (starts_with (f_name f) (trim l) = true -> op = f_name f) -> read_as f op = u16.
Proof.
  intros K Lo S. unfold lower_logical in Lo. unfold read_as. rewrite K. destruct (existsb (str_eqb (f_name f)) [ #"andi"; #"ori"; #"xori" ]) eqn:E; [|reflexivity].
  apply existsb_exists in E as (n & I & E). apply str_eqb_spec in E. rewrite E in *.
  assert (op = n) as -> by (apply S, Lo; exact I).
  assert (Lg : logical n = true) by (destruct I as [<-|[<-|[<-|[]]]]; reflexivity). now rewrite Lg.
Qed.

Lemma starts_with_app p r : starts_with p (p ++ r) = true.
Proof. induction p as [|c p IH]; [reflexivity|]. cbn [starts_with app]. now rewrite Ascii.eqb_refl, IH. Qed.
Theorem imm_line_parse e s f os t l : In f (isa ++ idioms) -> takes_immediate f -> operand_line f os t l -> operand_ok t -> no_nl l ->
  clean l <> [] /\ ends_with #":" (clean l) = false
  /\ exists op x, same_letters op (f_name f) /\ padded t x /\ no_nl x /\ part x l /\ (starts_with (f_name f) (trim l) = true <-> op = f_name f)
     /\ becomes (parse_inst e s (clean l)) (parse_immediate e s (read_as f op) x) (fun v => last_kind f = Some Uimm -> 0 <= v < 65536) (fun v => [word f (os ++ [OInt v])]).
Proof.
  intros If Ti L Ot N. assert (Im := isa_imms). rewrite Forall_forall in Im. destruct (Im f If (takes_imm_is f Ti)) as (ks & k & FO & H).
  destruct (operand_line_parse e s f os t l (table_name f If) L Ot N) as (ks' & k' & op & arg & xs & x & FO' & _ & SL & A & Pd & Nx & Ne & Ec & P & Lw & Cl).
  rewrite FO in FO'. apply app_inj_tail in FO' as [<- <-]. split; [exact Ne|]. split; [exact Ec|]. exists op, x. split; [exact SL|]. split; [exact Pd|]. split; [exact Nx|]. split.
  { apply (part_trans x (clean l) l); [|apply clean_part]. rewrite Cl. exists (op ++ #" " ++ match xs with [] => [] | _ => join #"," xs ++ #"," end), [].
    rewrite app_nil_r, <- !app_assoc. f_equal. f_equal. clear. induction xs as [|y xs IH]; [reflexivity|]. destruct xs as [|z xs]; [cbn [join app]; now rewrite <- app_assoc|].
    change (join #"," ((y :: z :: xs) ++ [x])) with (y ++ #"," ++ join #"," ((z :: xs) ++ [x])). rewrite IH. change (join #"," (y :: z :: xs)) with (y ++ #"," ++ join #"," (z :: xs)). now rewrite <- !app_assoc. }
  split.
  { split; [exact Lw|]. intros ->. destruct (before_comment_prefix (trim l)) as [r2 Tr]. fold (clean l) in Tr. rewrite Tr, Cl, <- app_assoc. apply starts_with_app. }
  rewrite P. rewrite (last_kind_app f ks k FO).
  assert (B := H e s op arg os xs x SL A). unfold becomes in *. destruct (parse_immediate e s (read_as f op) x); try exact B.
  destruct B as (p & rs & rt & B1 & B2). exists p, rs, rt. split; [exact B1|]. intros v Dv. apply B2. intros ->. now apply Dv.
Qed.
Lemma names_no_open : Forall (fun f => ~ In "("%char (to_lower (f_name f))) (isa ++ idioms).
Proof.
  assert (B : forallb (fun f => negb (existsb (Ascii.eqb "(") (to_lower (f_name f)))) (isa ++ idioms) = true) by (vm_compute; reflexivity).
  revert B. generalize (isa ++ idioms) as l. intros l B. apply Forall_forall. intros f If I. rewrite forallb_forall in B. apply B in If. apply negb_true_iff in If.
  enough (existsb (Ascii.eqb "(") (to_lower (f_name f)) = true) by congruence. apply existsb_exists. exists "("%char. split; [exact I|reflexivity].
Qed.
Definition first_plain (f : format) : bool := match f_ops f with [k; Mem] => match k with Gpr _ | Fpr _ | CacheOp => true | _ => false end | _ => true end.
Lemma first_plain_all : forallb first_plain (isa ++ idioms) = true. Proof. vm_compute. reflexivity. Qed.
Lemma kind_no_open f k o t : In f (isa ++ idioms) -> f_ops f = [k; Mem] -> operand_spelling k o t -> no_open t.
Proof.
  intros If FO Sp. assert (B := first_plain_all). revert B If. generalize (isa ++ idioms) as l. intros l B If. rewrite forallb_forall in B. apply B in If. unfold first_plain in If. rewrite FO in If.
  destruct k; try discriminate; inversion Sp as [p n s G|p n s G|p n s G|v s Nu|v s Nu|v s Nu|v s Nu|v s Nu|v s Nu|off b o' r r' s So Gr Pr Hw]; subst.
  - destruct (dollar_ok _ _ _ gpr_token_ok G) as (t' & _ & _ & _ & _ & _ & Ro & _). exact Ro.
  - destruct (dollar_ok _ _ _ fpr_token_ok G) as (t' & _ & _ & _ & _ & _ & Ro & _). exact Ro.
  - apply numeral_shape in Nu as (radix & ds & Sh & _). intros I. destruct (number_char_facts _ (number_chars _ _ _ _ _ Sh I)) as (_ & _ & N & _). now apply N.
Qed.
Theorem mem_line_parse e s f os t l : In f (isa ++ idioms) -> takes_memory f -> operand_line f os t l -> operand_ok t -> no_nl l -> labels_ok s ->
  clean l <> [] /\ ends_with #":" (clean l) = false
  /\ exists x float, padded t x /\ no_nl x /\ (float = true <-> float_memory f) /\ (exists p q, l = p ++ #"," ++ x ++ q /\ no_open p)
     /\ forall bt b, base_text x = Ok bt -> reg_from_str bt = Ok (reg_of_num b) -> 0 <= b < 32 ->
        becomes (parse_inst e s (clean l)) (parse_immediate e s i16 (offset_part float x)) (fun _ => True) (fun v => [word f (os ++ [OMem v b])]).
Proof.
  intros If Ti L Ot N Lb. assert (Im := isa_mems). rewrite Forall_forall in Im. destruct (Im f If (takes_mem_is f Ti)) as (k & float & FO & Fl & H).
  destruct (operand_line_parse e s f os t l (table_name f If) L Ot N) as (ks' & k' & op & arg & xs & x & FO' & _ & SL & A & Pd & Nx & Ne & Ec & P & Lw & Cl).
  rewrite FO in FO'. change [k; Mem] with ([k] ++ [Mem]) in FO'. apply app_inj_tail in FO' as [<- <-]. split; [exact Ne|]. split; [exact Ec|].
  apply args1 in A as (o & x1 & -> & -> & A). exists x, float. split; [exact Pd|]. split; [exact Nx|]. split; [exact Fl|]. split.
  { destruct (trim_decomp l) as (wa & wb & El & Wa & _). destruct (before_comment_prefix (trim l)) as [r2 Tr]. fold (clean l) in Tr.
    rewrite El, Tr, Cl. exists (wa ++ op ++ #" " ++ x1), (r2 ++ wb). split; [cbn [app join]; now rewrite <- !app_assoc|].
    rewrite !no_open_app. split; [now apply blank_no_open|]. split; [|split; [intros [E|[]]; discriminate E|]].
    - intros I. assert (In "("%char (to_lower op)) by (change "("%char with (lower_char "("); unfold to_lower; now apply in_map).
      unfold same_letters in SL. rewrite SL in H0. revert H0. assert (Nn := names_no_open). rewrite Forall_forall in Nn. exact (Nn f If).
    - destruct A as (t1 & (u & v & U & V & ->) & Sp & _). rewrite !no_open_app. split; [now apply blank_no_open|]. split; [|now apply blank_no_open].
      now apply (kind_no_open f k o t1 If FO Sp). }
  intros bt b B R Hb. rewrite P. exact (H e s op arg o x1 x bt b Lb SL A B R Hb).
Qed.

(** ** Memory operands *)

Lemma blank_no_nl_open w : blank w -> no_open w.
Proof. apply blank_no_open. Qed.
Lemma base_after p t y r : no_open p -> no_close t -> no_nl t -> base_text y = Ok r -> base_text (p ++ #"(" ++ t ++ #")" ++ y) = Ok r.
Proof.
  intros O C N B. unfold base_text, find_iter in *. set (x := p ++ #"(" ++ t ++ #")" ++ y).
  assert (Lx : List.length x = (List.length p + (2 + List.length t) + List.length y)%nat).
  { unfold x. rewrite !app_length. change (List.length #"(") with 1%nat. change (List.length #")") with 1%nat. lia. }
  assert (F : re_find BASE_RE x = Some (List.length p, S (S (List.length t)))).
  { unfold x. change (#"(" ++ t ++ #")" ++ y) with ("("%char :: t ++ ")"%char :: y). now apply base_find. }
  cbn [re_find_iter]. rewrite F.
  assert (Sk : skipn (List.length p + Nat.max (S (S (List.length t))) 1) x = y).
  { unfold x. replace (p ++ #"(" ++ t ++ #")" ++ y) with ((p ++ #"(" ++ t ++ #")") ++ y) by (now rewrite <- !app_assoc).
    replace (List.length p + Nat.max (S (S (List.length t))) 1)%nat with (List.length (p ++ #"(" ++ t ++ #")")) by (rewrite !app_length; cbn; lia).
    now rewrite skipn_app, skipn_all, Nat.sub_diag. }
  rewrite Sk. assert (It : re_find_iter (List.length x) BASE_RE y = re_find_iter (S (List.length y)) BASE_RE y).
  { pose proof (iter_lead [] eq_refl y (List.length x) (S (List.length y)) ltac:(lia) ltac:(lia)) as E. exact E. }
  rewrite It. cbn [rev]. destruct (rev (re_find_iter (S (List.length y)) BASE_RE y)) as [|q qs]; [discriminate B|]. exact B.
Qed.

(** The texts that can stand before the base. *)
Definition plain_offset (o : str) : Prop := no_open o.
Definition lo_offset (o : str) : Prop := exists t, o = lo_text t /\ plain_name t.

Lemma based_base o b t x : based o b t -> padded t x -> no_nl x -> plain_offset o \/ lo_offset o ->
  exists bt, base_text x = Ok bt /\ reg_from_str bt = Ok (reg_of_num b).
Proof.
  intros (w & r & r' & W & G & Pr & ->) (pa & pb & Pa & Pb & ->) N Ho.
  destruct (dollar_ok _ _ _ gpr_token_ok G) as (t' & _ & _ & Rn & Rw & _ & Ro & Rc & _).
  assert (Tr : trim r' = r) by (apply (padded_trim r r' Pr); auto using no_ws_tight_start, no_ws_tight_end).
  assert (Or : no_open r' /\ no_close r').
  { destruct Pr as (a & c & A & C & ->). split; intros I; apply in_app_or in I as [I|I]; try (apply in_app_or in I as [I|I]); auto.
    all: try (now apply (blank_no_open a A)); try (now apply (blank_no_open c C)).
    - unfold blank in A. rewrite forallb_forall in A. apply A in I. discriminate.
    - unfold blank in C. rewrite forallb_forall in C. apply C in I. discriminate. }
  destruct Or as [Or Cr]. exists (trim r'). split; [|rewrite Tr; apply (reg_parse r r b); [apply padded_refl|exact G]].
  assert (Nr : no_nl r').
  { intros I. apply N. apply in_or_app. right. apply in_or_app. left. apply in_or_app. right. apply in_or_app. right. apply in_or_app. right. apply in_or_app. now left. }
  assert (Core : forall y, no_open y -> base_text (y ++ "("%char :: r' ++ ")"%char :: pb) = Ok (trim r')).
  { intros y Oy. apply base_text_ok; auto using blank_no_open. }
  destruct Ho as [Ho|(t & -> & Pt)].
  - replace (pa ++ (o ++ w ++ #"(" ++ r' ++ #")") ++ pb) with ((pa ++ o ++ w) ++ "("%char :: r' ++ ")"%char :: pb).
    + apply Core. rewrite !no_open_app. split; [now apply blank_no_open|]. split; [exact Ho|now apply blank_no_open].
    + rewrite <- !app_assoc. reflexivity.
  - assert (B := Core w (blank_no_open w W)).
    assert (Op : no_open (pa ++ #"%lo")) by (rewrite no_open_app; split; [now apply blank_no_open|intros I; cbn in I; intuition discriminate]).
    rewrite <- (base_after (pa ++ #"%lo") t _ _ Op (plain_name_close t Pt) (plain_name_nl t Pt) B).
    f_equal. unfold lo_text. change #"%lo(" with (#"%lo" ++ #"("). rewrite <- !app_assoc. reflexivity.
Qed.
Lemma based_offset o b t x : based o b t -> padded t x -> no_nl x ->
  exists wa wb, blank wa /\ blank wb /\ re_find_str OFFSET_RE x = match wa ++ o ++ wb with [] => None | y => Some (y ++ #"(") end.
Proof.
  intros (w & r & r' & W & G & Pr & ->) (pa & pb & Pa & Pb & ->) N.
  destruct (dollar_ok _ _ _ gpr_token_ok G) as (t' & _ & _ & Rn & Rw & _ & Ro & Rc & _).
  assert (Or : no_open r').
  { destruct Pr as (a & c & A & C & ->). rewrite !no_open_app. auto using blank_no_open. }
  exists pa, w. split; [exact Pa|]. split; [exact W|].
  assert (E : pa ++ (o ++ w ++ #"(" ++ r' ++ #")") ++ pb = (pa ++ o ++ w) ++ "("%char :: (r' ++ #")" ++ pb)).
  { rewrite <- !app_assoc. reflexivity. }
  rewrite E in *. assert (On : no_open (r' ++ #")" ++ pb)).
  { rewrite !no_open_app. split; [exact Or|]. split; [intros I; cbn in I; intuition discriminate|now apply blank_no_open]. }
  destruct (pa ++ o ++ w) as [|c y] eqn:Ey.
  - cbn [app]. now apply offset_none.
  - apply offset_find; [discriminate|exact N|exact On].
Qed.
Lemma firstn_last y : firstn (List.length (y ++ #"(") - 1) (y ++ #"(") = y.
Proof. rewrite app_length. change (List.length #"(") with 1%nat. rewrite Nat.add_sub, firstn_app, Nat.sub_diag, firstn_all. apply app_nil_r. Qed.
(** The offset as the parser sees it. *)
Lemma based_part float o b t x : based o b t -> padded t x -> no_nl x -> o <> [] -> (float = true -> no_open o) ->
  padded o (offset_part float x).
Proof.
  intros Bd Pd N Ne Fo. destruct (based_offset o b t x Bd Pd N) as (wa & wb & A & B & E). unfold offset_part. rewrite E.
  destruct (wa ++ o ++ wb) as [|c y] eqn:Ey; [destruct wa; [destruct o; [congruence|]|]; discriminate|]. rewrite <- Ey. destruct float.
  - exists wa, wb. split; [exact A|]. split; [exact B|].
    assert (Na : no_open (wa ++ o ++ wb)) by (rewrite !no_open_app; auto using blank_no_open).
    now apply remove_open.
  - rewrite firstn_last. exists wa, wb. auto.
Qed.

(** ** Lines that are accepted, and lines that are not *)

Lemma identifier_start n : identifier n -> match n with c :: _ => is_digit c = false /\ c <> "-"%char | [] => False end.
Proof. intros [H F]. destruct n as [|c n]; [exact H|]. split; [exact H|]. intros ->. discriminate F. Qed.
Lemma named_labels_ok s : named_labels s -> labels_ok s.
Proof. intros H n k A. apply assoc_in, H in A. exact (identifier_start n A). Qed.

Lemma writes_of rt m l ws : no_nl l -> clean l <> [] -> ends_with #":" (clean l) = false ->
  (forall e s, e_syms e = m_syms m -> e_oc e = rt_oc rt -> ready e s l -> named_labels s ->
     exists w i, parse_inst e s (clean l) = (w, Ok i) /\ calm i /\ encodes i ws) -> writes rt m l ws.
Proof.
  intros N Ne Ec H. split.
  - apply alone; auto. intros s Ls Rd. apply H; auto. intros n k I. rewrite Ls in I. destruct I.
  - intros input out l1 l2 A E Il. apply (placed rt m input out l1 l l2 ws A E Ne Ec). intros s Ls Rd.
    apply H; auto. intros n k I. rewrite Ls in I. apply (Il n k). rewrite E, label_table_app. apply in_or_app. now left.
Qed.
Lemma rejects_of rt m l : no_nl l -> clean l <> [] -> ends_with #":" (clean l) = false ->
  (forall e s, e_syms e = m_syms m -> e_oc e = rt_oc rt -> ready e s l -> named_labels s ->
     exists w p, parse_inst e s (clean l) = (w, Err p) /\ error_line p = mk_line (p_line s) l) -> rejects rt m l.
Proof.
  intros N Ne Ec H. split.
  - apply wrong_alone; auto. intros s Rd Pl Ls. destruct (H (mk_parser rt m l) s eq_refl eq_refl Rd) as (w & p & P & _); [|eauto].
    intros n k I. rewrite Ls in I. destruct I.
  - intros input l1 l2 E Il. apply (wrong_line rt m input l1 l l2 (fun p => error_line p = mk_line (S (List.length l1)) l) E Ne Ec).
    intros s (Rd & Pl & Lb). rewrite <- Pl. apply H; auto. intros n k I. destruct (Lb n k I) as (_ & _ & I').
    apply in_map_iff in I' as ([n' k'] & E' & I'). cbn in E'. subst n'. apply (Il n k'). rewrite E, label_table_app. apply in_or_app. now left.
Qed.
(** In particular, no program with the line assembles. *)
Lemma rejects_never rt m l input out l1 l2 : rejects rt m l -> lines input = l1 ++ l :: l2 -> identifier_labels (lines input) -> assemble rt m input <> Ok out.
Proof. intros [_ H] E Il A. specialize (H input l1 l2 E Il). now rewrite A in H. Qed.

(** ** Numbers *)

Lemma signed_ok o v : signed_numeral o v -> operand_ok o /\ no_open o /\ o <> [].
Proof.
  intros H. destruct (signed_numeral_shape _ _ H) as (neg & radix & ds & Sh & _). split; [now apply (number_operand_ok _ _ _ _ Sh)|].
  split; [|now apply number_nonempty in Sh]. intros I. destruct (number_char_facts _ (number_chars _ _ _ _ _ Sh I)) as (_ & _ & N & _). now apply N.
Qed.
Lemma operand_ok_based o b t : based o b t -> operand_ok o -> operand_ok t.
Proof.
  intros (w & r & r' & W & Gr & Pr & ->) (On & (Op & Oc) & Os & Oe).
  destruct (dollar_ok _ _ _ gpr_token_ok Gr) as (t' & _ & _ & Rn & Rw & Rk & _).
  apply char_ok_spec in Rk as [Rp Rc].
  split; [destruct o; [congruence|discriminate]|]. split; [split|split].
  + rewrite !plain_app. repeat split; auto using blank_plain. eapply padded_plain; eauto.
  + rewrite !no_comma_app. repeat split; auto using blank_no_comma.
    * intros [I|[]]; discriminate.
    * eapply padded_no_comma; eauto.
    * intros [I|[]]; discriminate.
  + now apply tight_start_app.
  + apply tight_end_app; [destruct w; discriminate|]. apply tight_end_app; [discriminate|].
    apply tight_end_app; [destruct r'; discriminate|]. apply tight_end_app; [discriminate|reflexivity].
Qed.
Lemma operand_ok_bare r r' b : gpr_text r b -> padded r r' -> operand_ok (#"(" ++ r' ++ #")").
Proof.
  intros Gr Pr. destruct (dollar_ok _ _ _ gpr_token_ok Gr) as (t' & _ & _ & Rn & Rw & Rk & _).
  apply char_ok_spec in Rk as [Rp Rc]. split; [discriminate|]. split; [split|split].
  + rewrite !plain_app. repeat split. eapply padded_plain; eauto.
  + rewrite !no_comma_app. repeat split; [intros [I|[]]; discriminate|eapply padded_no_comma; eauto|intros [I|[]]; discriminate].
  + reflexivity.
  + apply tight_end_app; [destruct r'; discriminate|]. apply tight_end_app; [discriminate|reflexivity].
Qed.
