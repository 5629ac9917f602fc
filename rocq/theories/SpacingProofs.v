(** * SpacingProofs: white space around operands (proofs only). *)

From Coq Require Import Lia.
From Verif Require Import Lib SpecIsa StrLemmas TextProofs OperandProofs NativeProofs LineProofs ScanProofs ProgProofs BranchProofs LabelProofs CongProofs ErrorProofs RefProofs ProgCong LayoutProofs SpecErrors SpecText SpecProgram SpecSource.

(** ** The parts of a memory operand *)

Lemma flat_map_shift {B} (g : nat -> list B) k : flat_map g (seq 1 k) = flat_map (fun n => g (S n)) (seq 0 k).
Proof. rewrite <- seq_shift, !flat_map_concat_map, map_map. reflexivity. Qed.
Lemma flat_map_map {A B C} (h : B -> C) (g : A -> list B) l : flat_map (fun x => map h (g x)) l = map h (flat_map g l).
Proof. induction l as [|x l IH]; [reflexivity|]. cbn. now rewrite map_app, IH. Qed.
Lemma lazy_close_nil : prefix_matches lazy_close [] = [].
Proof. reflexivity. Qed.
Lemma lazy_close_cons c s : prefix_matches lazy_close (c :: s) = (if cls ")" c then [1%nat] else []) ++ (if any_char c then map S (prefix_matches lazy_close s) else []).
Proof.
  assert (E : forall x, prefix_matches lazy_close x = flat_map (fun n => map (Nat.add n) (prefix_matches (RClass (cls ")")) (skipn n x))) (seq 0 (S (run_len any_char x)))) by reflexivity.
  rewrite !E. cbn [run_len]. destruct (any_char c).
  - change (seq 0 (S (S (run_len any_char s)))) with (0%nat :: seq 1 (S (run_len any_char s))). cbn [flat_map]. f_equal; [cbn; destruct (cls ")" c); reflexivity|].
    rewrite flat_map_shift, <- flat_map_map. apply flat_map_ext. intros n. rewrite map_map. reflexivity.
  - cbn. destruct (cls ")" c); reflexivity.
Qed.
Lemma lazy_close_none b : ~ In ")"%char b -> prefix_matches lazy_close b = [].
Proof.
  induction b as [|c b IH]; intros N; [reflexivity|]. rewrite lazy_close_cons. unfold cls. destruct (Ascii.eqb_spec c ")") as [->|_]; [exfalso; apply N; now left|].
  rewrite IH by (intros I; apply N; now right). destruct (any_char c); reflexivity.
Qed.
Lemma blank_not c b : is_ws c = false -> blank b -> ~ In c b.
Proof. intros W B I. unfold blank in B. rewrite forallb_forall in B. rewrite (B c I) in W. discriminate. Qed.
Lemma lazy_close_app s b : blank b -> prefix_matches lazy_close (s ++ b) = prefix_matches lazy_close s.
Proof.
  intros B. induction s as [|c s IH]; [apply lazy_close_none; now apply blank_not|]. cbn [app]. now rewrite !lazy_close_cons, IH.
Qed.
Lemma base_prefix c s : prefix_matches BASE_RE (c :: s) = if cls "(" c then map S (prefix_matches lazy_close s) else [].
Proof. unfold BASE_RE. fold lazy_close. cbn [prefix_matches]. destruct (cls "(" c); [|reflexivity]. cbn [flat_map skipn]. now rewrite app_nil_r. Qed.
Lemma base_find_app s b : blank b -> re_find BASE_RE (s ++ b) = re_find BASE_RE s.
Proof.
  intros B. induction s as [|c s IH].
  - cbn [app]. unfold BASE_RE. now rewrite (open_find_none _ b) by now apply blank_not.
  - cbn [app re_find]. rewrite !base_prefix, (lazy_close_app s b B), IH. reflexivity.
Qed.
Lemma lazy_bound s n : In n (prefix_matches lazy_close s) -> (n <= List.length s)%nat.
Proof.
  revert n. induction s as [|c s IH]; intros n I; [destruct I|]. rewrite lazy_close_cons in I. cbn [List.length]. apply in_app_or in I as [I|I].
  - destruct (cls ")" c); [|destruct I]. destruct I as [<-|[]]. lia.
  - destruct (any_char c); [|destruct I]. apply in_map_iff in I as (k & <- & I). specialize (IH k I). lia.
Qed.
Lemma base_bound s i n : re_find BASE_RE s = Some (i, n) -> (1 <= n /\ i + n <= List.length s)%nat.
Proof.
  revert i. induction s as [|c s IH]; intros i; [discriminate|]. cbn [re_find List.length]. rewrite base_prefix. destruct (cls "(" c).
  - destruct (prefix_matches lazy_close s) as [|k l] eqn:E; cbn [map].
    + destruct (re_find BASE_RE s) as [[j m]|]; [|discriminate]. intros H. injection H as <- <-. specialize (IH j eq_refl). lia.
    + intros H. injection H as <- <-. assert (B := lazy_bound s k). rewrite E in B. specialize (B (or_introl eq_refl)). lia.
  - destruct (re_find BASE_RE s) as [[j m]|]; [|discriminate]. intros H. injection H as <- <-. specialize (IH j eq_refl). lia.
Qed.
Lemma iter_app b : blank b -> forall f s f', (List.length s < f)%nat -> (List.length s < f')%nat -> re_find_iter f' BASE_RE (s ++ b) = re_find_iter f BASE_RE s.
Proof.
  intros B. induction f as [|f IH]; intros s f' L L'; [lia|]. destruct f' as [|f']; [lia|]. cbn [re_find_iter]. rewrite (base_find_app s b B).
  destruct (re_find BASE_RE s) as [[i n]|] eqn:E; [|reflexivity]. apply base_bound in E as [E1 E2].
  assert (Sk : forall k, (k <= List.length s)%nat -> skipn k (s ++ b) = skipn k s ++ b) by (intros k K; rewrite skipn_app; replace (k - List.length s)%nat with 0%nat by lia; reflexivity).
  rewrite !Sk by lia. f_equal.
  - rewrite firstn_app. rewrite skipn_length. replace (n - (List.length s - i))%nat with 0%nat by lia. cbn. apply app_nil_r.
  - apply IH; rewrite skipn_length; lia.
Qed.
Lemma base_find_lead w s : blank w -> re_find BASE_RE (w ++ s) = match re_find BASE_RE s with Some (i, n) => Some ((List.length w + i)%nat, n) | None => None end.
Proof.
  induction w as [|c w IH]; intros B; [cbn; destruct (re_find BASE_RE s) as [[? ?]|]; reflexivity|]. unfold blank in B. cbn [forallb] in B. apply andb_true_iff in B as [Bc B].
  cbn [app re_find]. rewrite base_prefix. assert (cls "(" c = false) as -> by (unfold cls; destruct (Ascii.eqb_spec c "(") as [->|]; [discriminate|reflexivity]).
  rewrite (IH B). destruct (re_find BASE_RE s) as [[? ?]|]; reflexivity.
Qed.
Lemma iter_lead w : blank w -> forall s f f', (List.length s < f)%nat -> (List.length s < f')%nat -> re_find_iter f BASE_RE (w ++ s) = re_find_iter f' BASE_RE s.
Proof.
  intros B s f f' L L'. destruct f as [|f]; [lia|]. destruct f' as [|f']; [lia|]. cbn [re_find_iter]. rewrite (base_find_lead w s B).
  destruct (re_find BASE_RE s) as [[i n]|] eqn:E; [|reflexivity]. apply base_bound in E as [E1 E2].
  assert (Sk : forall k, skipn (List.length w + k) (w ++ s) = skipn k s).
  { intros k. rewrite skipn_app. rewrite skipn_all2 by lia. cbn [app]. f_equal. lia. }
  rewrite <- Nat.add_assoc, !Sk. f_equal. rewrite <- (app_nil_r (skipn (i + Nat.max n 1) s)) at 1. apply iter_app; [reflexivity| |]; rewrite skipn_length; lia.
Qed.
Lemma base_pad w y b : blank w -> blank b -> base_text (w ++ y ++ b) = base_text y.
Proof.
  intros W B. unfold base_text, find_iter. rewrite (iter_lead w W (y ++ b) _ (S (List.length (y ++ b)))) by (rewrite ?app_length; lia).
  rewrite (iter_app b B (S (List.length y)) y) by (rewrite ?app_length; lia). reflexivity.
Qed.
Lemma last_open s : no_open s \/ exists o rest, s = o ++ "("%char :: rest /\ no_open rest.
Proof.
  induction s as [|c s [N|(o & rest & -> & N)]]; [left; intros []| |right; exists (c :: o), rest; now split].
  destruct (Ascii.eqb_spec c "(") as [->|Nc]; [right; exists [], s; now split|left]. intros [->|I]; [now apply Nc|now apply N].
Qed.
Lemma offset_none c s : no_open s -> re_find_str OFFSET_RE (c :: s) = None.
Proof. intros N. unfold re_find_str. now rewrite offset_find_none. Qed.
Lemma remove_open_app o : remove_all #"(" (o ++ #"(") = remove_all #"(" o.
Proof.
  unfold remove_all. induction o as [|c o IH]; [reflexivity|]. cbn [app remove_go]. 
  change (starts_with #"(" (c :: o ++ #"(")) with (Ascii.eqb "(" c && true)%bool. change (starts_with #"(" (c :: o)) with (Ascii.eqb "(" c && true)%bool.
  change (List.length #"(" - 1)%nat with 0%nat. rewrite IH. reflexivity.
Qed.
Lemma remove_open_blank w t : blank w -> remove_all #"(" (w ++ t) = w ++ remove_all #"(" t.
Proof.
  unfold remove_all. induction w as [|c w IH]; intros B; [reflexivity|]. assert (Nc : c <> "("%char) by (intros ->; discriminate B). unfold blank in B. cbn [forallb] in B. apply andb_true_iff in B as [_ B]. cbn [app remove_go].
  change (starts_with #"(" (c :: w ++ t)) with (Ascii.eqb "(" c && true)%bool. destruct (Ascii.eqb_spec "(" c) as [<-|_]; [congruence|]. cbn [andb]. f_equal. exact (IH B).
Qed.
Lemma no_open_app a b : no_open (a ++ b) <-> no_open a /\ no_open b.
Proof. unfold no_open. rewrite in_app_iff. tauto. Qed.
Lemma offset_no_open s : no_open s -> re_find_str OFFSET_RE s = None.
Proof. destruct s as [|c s]; intros N; [reflexivity|]. apply offset_none. intros I. apply N. now right. Qed.
Lemma mem_like_pad w y b w' b' : blank w -> blank b -> blank w' -> blank b' -> no_nl (w ++ y ++ b) -> no_nl (w' ++ y ++ b') ->
  (starts_with #"(" y = true -> w = [] <-> w' = []) -> mem_like (w ++ y ++ b) (w' ++ y ++ b').
Proof.
  intros W B W' B' N N' St. split; [now rewrite !base_pad|].
  assert (Ow := blank_not "(" w eq_refl W : no_open w). assert (Ob := blank_not "(" b eq_refl B : no_open b). assert (Ow' := blank_not "(" w' eq_refl W' : no_open w'). assert (Ob' := blank_not "(" b' eq_refl B' : no_open b').
  destruct y as [|c s].
  { cbn [app]. rewrite !offset_no_open by (apply no_open_app; auto). exact Logic.I. }
  destruct (last_open s) as [Os|(o & rest & -> & Or)].
  - destruct (Ascii.eqb_spec c "(") as [->|Nc].
    + destruct (St eq_refl) as [S1 S2]. destruct w as [|x w], w' as [|x' w']; [| discriminate (S1 eq_refl)|discriminate (S2 eq_refl)|].
      * cbn [app]. rewrite !offset_none by (apply no_open_app; auto). exact Logic.I.
      * cbn [app] in N, N' |- *. change (x :: w ++ "("%char :: s ++ b) with ((x :: w) ++ "("%char :: (s ++ b)). change (x' :: w' ++ "("%char :: s ++ b') with ((x' :: w') ++ "("%char :: (s ++ b')).
        rewrite !offset_find by (discriminate || assumption || (apply no_open_app; auto)). rewrite !firstn_open, !remove_open by assumption. rewrite <- (app_nil_r (x :: w)), <- (app_nil_r (x' :: w')), !trim_blank_head by assumption. split; reflexivity.
    + assert (Oc : no_open (c :: s)) by (intros [->|I]; [now apply Nc|now apply Os]). rewrite !offset_no_open by (rewrite !no_open_app; auto). exact Logic.I.
  - replace (w ++ (c :: o ++ "("%char :: rest) ++ b) with ((w ++ c :: o) ++ "("%char :: (rest ++ b)) in * by (rewrite <- !app_assoc; cbn; rewrite <- app_assoc; reflexivity).
    replace (w' ++ (c :: o ++ "("%char :: rest) ++ b') with ((w' ++ c :: o) ++ "("%char :: (rest ++ b')) in * by (rewrite <- !app_assoc; cbn; rewrite <- app_assoc; reflexivity).
    rewrite !offset_find; [|destruct w'; discriminate|assumption|apply no_open_app; auto|destruct w; discriminate|assumption|apply no_open_app; auto].
    rewrite !firstn_open, !remove_open_app, !remove_open_blank, !trim_blank_head by assumption. split; reflexivity.
Qed.

(** ** The same instruction, written differently *)

Lemma mnemonic_ok n : mnemonic n -> name_ok n.
Proof.
  intros [N M]. split; [exact N|]. rewrite forallb_forall in M. split.
  - apply plain_in. intros c I. specialize (M c I). destruct c as [[] [] [] [] [] [] [] []]; try reflexivity; discriminate M.
  - apply forallb_forall. intros c I. specialize (M c I). now apply andb_true_iff in M as [M _].
Qed.
Lemma operand_text_ok t : operand_text t -> operand_ok t.
Proof.
  intros (N & T & M). destruct (trim_is_tight t) as [T1 T2]. rewrite T in T1, T2. rewrite forallb_forall in M. split; [exact N|]. split; [split|split; assumption].
  - apply plain_in. intros c I. specialize (M c I). destruct c as [[] [] [] [] [] [] [] []]; try reflexivity; discriminate M.
  - intros I. specialize (M _ I). discriminate M.
Qed.
Lemma squeezed_app a b : squeezed (a ++ b) = squeezed a ++ squeezed b.
Proof. unfold squeezed, to_lower. now rewrite map_app, filter_app. Qed.
Lemma squeezed_blank w : blank w -> squeezed w = [].
Proof.
  unfold squeezed, blank. induction w as [|c w IH]; [reflexivity|]. cbn [forallb to_lower map filter]. intros B. apply andb_true_iff in B as [Bc B].
  rewrite ws_lower, Bc. cbn [negb]. exact (IH B).
Qed.
Lemma squeezed_padded t x : padded t x -> squeezed x = squeezed t.
Proof. intros (a & b & A & B & ->). rewrite !squeezed_app, (squeezed_blank a A), (squeezed_blank b B). cbn. apply app_nil_r. Qed.
Lemma join_split c s : join [c] (split_char c s) = s.
Proof.
  induction s as [|x s IH]; [reflexivity|]. cbn [split_char]. destruct (Ascii.eqb_spec x c) as [->|_].
  - destruct (split_char c s) as [|k r] eqn:E; [destruct s as [|y s]; [discriminate|]; cbn [split_char] in E; destruct (Ascii.eqb y c); [discriminate|]; destruct (split_char c s); discriminate|].
    change (join [c] ([] :: k :: r)) with ([] ++ [c] ++ join [c] (k :: r)). now rewrite IH.
  - destruct (split_char c s) as [|k r] eqn:E; [destruct s as [|y s]; [discriminate|]; cbn [split_char] in E; destruct (Ascii.eqb y c); [discriminate|]; destruct (split_char c s); discriminate|].
    destruct r as [|k2 r]; cbn [join] in *; rewrite <- IH; reflexivity.
Qed.
Lemma squeezed_join xs : squeezed (join #"," xs) = join #"," (map squeezed xs).
Proof.
  induction xs as [|x [|y xs] IH]; [reflexivity|reflexivity|].
  change (join #"," (x :: y :: xs)) with (x ++ #"," ++ join #"," (y :: xs)). rewrite !squeezed_app, IH. reflexivity.
Qed.
Lemma pads_squeezed ts xs : Forall2 (fun t x => padded t x) ts xs -> map squeezed xs = map squeezed ts.
Proof. induction 1 as [|t x ts xs P _ IH]; [reflexivity|]. cbn [map]. now rewrite IH, (squeezed_padded t x P). Qed.
Definition is_word_group (g : group) : bool := match g with GWord => true | _ => false end.
Lemma word_name t : classify t = Some GWord -> t = #".word".
Proof.
  assert (H : forallb (fun ng => (negb (is_word_group (snd ng)) || str_eqb (fst ng) #".word")%bool) group_table = true) by (vm_compute; reflexivity).
  unfold classify. induction group_table as [|[n g] r IH]; [discriminate|]. cbn [forallb fst snd] in H. apply andb_true_iff in H as [H1 H]. cbn [assoc].
  destruct (str_eqb t n) eqn:E; [|exact (IH H)]. intros Q. injection Q as ->. cbn [is_word_group negb orb] in H1. apply str_eqb_spec in H1. apply str_eqb_spec in E. congruence.
Qed.
Lemma trim_no_ws s : no_ws s -> trim s = s.
Proof. intros H. apply trim_tight; [now apply no_ws_tight_start|now apply no_ws_tight_end]. Qed.
Lemma lower_no_ws s : name_ok s -> no_ws (to_lower s).
Proof.
  intros (_ & _ & H). unfold no_ws in *. rewrite forallb_forall in *. intros c I. unfold to_lower in I. apply in_map_iff in I as (x & <- & I). specialize (H x I). now rewrite ws_lower.
Qed.
Lemma pads_like ts l l' : Forall operand_ok ts -> forall xs xs', Forall2 padded ts xs -> Forall2 padded ts xs' ->
  (forall x, In x xs -> part x l) -> (forall x, In x xs' -> part x l') -> Forall2 (operand_like l l' squeezed) xs xs'.
Proof.
  induction ts as [|t ts IH]; intros F xs xs' P P' Q Q'; inversion P as [|? x ? ys P1 P2]; inversion P' as [|? x' ? ys' P1' P2']; subst; [apply Forall2_nil|].
  apply Forall2_cons; [|apply (IH (Forall_inv_tail F)); auto; intros y I; [apply Q|apply Q']; now right].
  destruct (Forall_inv F) as (_ & _ & T1 & T2). split; [|split; [|split]].
  - now rewrite (padded_trim t x P1 T1 T2), (padded_trim t x' P1' T1 T2).
  - now rewrite (squeezed_padded t x P1), (squeezed_padded t x' P1').
  - apply Q; now left.
  - apply Q'; now left.
Qed.
Lemma padded_nth ts : forall xs k t, Forall2 padded ts xs -> nth_error ts k = Some t -> exists x, nth_error xs k = Some x /\ padded t x.
Proof.
  induction ts as [|u ts IH]; intros xs k t F N; [destruct k; discriminate N|]. inversion F as [|? x ? xs' P F']; subst. destruct k as [|k]; cbn [nth_error] in *; [|now apply IH].
  injection N as <-. eauto.
Qed.
Lemma padded_length ts xs : Forall2 padded ts xs -> List.length ts = List.length xs.
Proof. induction 1; cbn; congruence. Qed.
Lemma zero_dec m : zero_extends m \/ ~ zero_extends m.
Proof. unfold zero_extends. destruct (in_dec (list_eq_dec ascii_dec) (to_lower m) [ #"andi"; #"ori"; #"xori" ]); [now left|now right]. Qed.
(** The type of an immediate does not matter for these texts. *)
Lemma imm_either e s x : trim x = [] \/ unambiguous (trim x) -> parse_immediate e s u16 x = parse_immediate e s i16 x.
Proof.
  intros H. unfold parse_immediate. destruct (starts_with #"@@" (trim x)); [reflexivity|]. destruct (assoc (trim x) (p_labels s)); [reflexivity|].
  destruct (re_find_str IMM_RE (trim x)); [reflexivity|].
  destruct H as [H|[(v & Nu & Lt)|[r H]]].
  - rewrite H. reflexivity.
  - apply numeral_shape in Nu as (radix & ds & Sh & V & P). rewrite (number_contains _ _ _ _ Sh). assert (Q : radix = 10 \/ radix = 16) by (now inversion Sh).
    assert (Rg : in_range u16 v = Some v /\ in_range i16 v = Some v).
    { unfold in_range. change (it_min u16) with 0. change (it_max u16) with 65535. change (it_min i16) with (-32768). change (it_max i16) with 32767.
      split; [destruct (Z.leb_spec 0 v); [|lia]; destruct (Z.leb_spec v 65535); [reflexivity|lia]|destruct (Z.leb_spec (-32768) v); [|lia]; destruct (Z.leb_spec v 32767); [reflexivity|lia]]. }
    assert (Ah : all_hex ds /\ ds <> []) by (now inversion Sh). destruct Ah as [Ah Ne].
    assert (Pu := parse_int_signed u16 radix ds v false Ah Ne V). assert (Pi := parse_int_signed i16 radix ds v false Ah Ne V). cbn [app] in Pu, Pi.
    destruct Rg as [R1 R2]. destruct Q as [-> | ->].
    + change (10 =? 16) with false. cbv iota. assert (E : trim x = [] ++ ds) by (inversion Sh; reflexivity). rewrite E. cbn [app].
      rewrite (Pu ltac:(discriminate)), (Pi ltac:(discriminate)), R1, R2. reflexivity.
    + change (16 =? 16) with true. cbv iota. rewrite (number_remove _ _ _ _ Sh). cbn [app]. rewrite (Pu ltac:(discriminate)), (Pi ltac:(discriminate)), R1, R2. reflexivity.
  - assert (N : forall ty q, parse_int ty 16 ("%"%char :: q) = None /\ parse_int ty 10 ("%"%char :: q) = None) by (intros ty q; split; reflexivity).
    rewrite H. change (remove_all #"0x" ("%"%char :: r)) with ("%"%char :: remove_all #"0x" r). rewrite !(proj1 (N _ _)), !(proj2 (N _ _)). reflexivity.
Qed.
Lemma rewritten_lines e e' l l' : no_nl l -> no_nl l' -> same_instruction l l' -> same_lines e e' false squeezed l l'.
Proof.
  intros Nl Nl' (name & ops & Mn & Ops & L & L' & Nz & Nw & Np). split; [discriminate|].
  assert (Nm := mnemonic_ok name Mn). assert (F : Forall operand_ok ops) by (eapply Forall_impl; [|exact Ops]; apply operand_text_ok).
  destruct (line_view name ops l Nm F L) as (op & xs & arg & SL & Ar & Sp & Ne & Ec & V). destruct (line_view name ops l' Nm F L') as (op' & xs' & arg' & SL' & Ar' & Sp' & Ne' & Ec' & V').
  assert (R : role_of l = Instruction) by (unfold role_of; destruct (clean l); [congruence|]; now rewrite Ec).
  assert (R' : role_of l' = Instruction) by (unfold role_of; destruct (clean l'); [congruence|]; now rewrite Ec').
  rewrite R, R'. intros s s' Ak. rewrite (view_parse e s op xs arg l Ne Sp V), (view_parse e' s' op' xs' arg' l' Ne' Sp' V').
  assert (Pa : forall (q : str) oq aq, split_once " " (clean q) = Some (oq, aq) \/ split_once " " (clean q) = None /\ clean q = oq /\ aq = [] -> part aq q).
  { intros q oq aq H. apply (part_trans aq (clean q) q); [|apply clean_part]. destruct H as [H|(_ & _ & ->)]; [|exists [], (clean q); reflexivity]. apply split_once_decomp in H. rewrite H. exists (oq ++ #" "), []. rewrite app_nil_r, <- app_assoc. reflexivity. }
  assert (Px : forall x, In x xs -> part x l) by (intros x I; subst xs; apply split_char_part in I; apply (part_trans x arg l I); eapply Pa; exact V).
  assert (Px' : forall x, In x xs' -> part x l') by (intros x I; subst xs'; apply split_char_part in I; apply (part_trans x arg' l' I); eapply Pa; exact V').
  assert (Sl : same_letters op op') by (unfold same_letters in *; congruence).
  assert (Ze : forall o, same_letters o name -> ~ zero_extends name -> ~ zero_extends o) by (intros o H; unfold zero_extends; now rewrite H).
  assert (Wd : classify (trim (to_lower op)) <> Some GWord).
  { intros C. apply word_name in C. apply Nw. rewrite <- SL, <- C. symmetry. apply trim_no_ws. rewrite SL. now apply lower_no_ws, mnemonic_ok. }
  assert (Lk : Forall2 (operand_like l l' squeezed) xs xs').
  { destruct Ar as [(E & E1 & _)|[E P]], Ar' as [(E' & E1' & _)|[E' P']]; try congruence.
    - rewrite E1, E1' in *. apply args_alike. intros x I. split; [apply Px|apply Px']; exact I.
    - now apply (pads_like ops). }
  apply same_op; auto.
  - unfold squeezed. now rewrite Sl.
  - assert (G : forall q : option str, option_map squeezed q = option_map (filter (fun c => negb (is_ws c))) (option_map to_lower q)) by (intros [q|]; reflexivity).
    rewrite !G, <- !nth_error_map. now rewrite (split_char_letters "." op op' lower_dot Sl).
  - rewrite <- !nth_error_map. now rewrite (split_char_letters "." op op' lower_dot Sl).
  - now apply last_letters.
  - assert (Lo : forall q oq aq yq, same_letters oq name -> starts_with (to_lower name) (trim q) = true -> zero_extends name -> yq = [] \/ (exists z, yq = " "%char :: z) -> clean q = oq ++ yq ->
        (str_eqb oq #"andi" || str_eqb oq #"ori" || str_eqb oq #"xori")%bool = true /\ aq = aq :> str).
    { intros q oq aq yq Sq Sw Z _ C. split; [|reflexivity]. assert (oq = to_lower name) as ->; [|destruct Z as [<-|[<-|[<-|[]]]]; reflexivity].
      apply starts_with_spec in Sw as [r Sw]. destruct (before_comment_prefix (trim q)) as [r2 Tr]. fold (clean q) in Tr. rewrite C, Sw, <- app_assoc in Tr.
      assert (Ln : List.length oq = List.length (to_lower name)) by (unfold to_lower; rewrite map_length; exact (same_letters_length _ _ Sq)).
      assert (E : firstn (List.length oq) (to_lower name ++ r) = firstn (List.length oq) (oq ++ yq ++ r2)) by (now rewrite Tr).
      rewrite Ln in E at 1. rewrite !firstn_app, !Nat.sub_diag, !firstn_all in E. cbn [firstn] in E. rewrite !app_nil_r in E. congruence. }
    assert (Cv : forall q oq aq, split_once " " (clean q) = Some (oq, aq) \/ split_once " " (clean q) = None /\ clean q = oq /\ aq = [] -> exists yq, (yq = [] \/ exists z, yq = " "%char :: z) /\ clean q = oq ++ yq).
    { intros q oq aq [H|(_ & H & _)]; [|exists []; split; [now left|now rewrite app_nil_r]]. apply split_once_decomp in H. exists (" "%char :: aq). split; [right; eauto|exact H]. }
    destruct (zero_dec name) as [Z|Z]; [|left; rewrite (not_unsigned op (Ze op SL Z)); symmetry; exact (not_unsigned op' (Ze op' SL' Z))].
    destruct (Nz Z) as [Un|[Lw Lw']].
    + right. apply imm_either. destruct Ar as [(E & E1 & _)|[E P]]; [rewrite E1; now left|].
      destruct (nth_error ops 2) as [t|] eqn:N2.
      * destruct (padded_nth ops xs 2 t P N2) as (x & Nx & Px2). right. refine (eq_ind x (fun z => unambiguous (trim z)) _ _ (eq_sym (nth_error_nth xs 2 [] Nx))).
        assert (Ot : operand_ok t) by (rewrite Forall_forall in F; apply F, (nth_error_In _ _ N2)). destruct Ot as (_ & _ & T1 & T2). rewrite (padded_trim t x Px2 T1 T2). now apply Un.
      * left. apply nth_error_None in N2. rewrite nth_overflow; [reflexivity|]. rewrite <- (padded_length _ _ P). exact N2.
    + left. destruct (Cv l op arg V) as (yq & Hy & C). destruct (Cv l' op' arg' V') as (yq' & Hy' & C').
      rewrite (proj1 (Lo l op arg yq SL Lw Z Hy C)). symmetry. exact (proj1 (Lo l' op' arg' yq' SL' Lw' Z Hy' C')).
  - assert (E : map squeezed xs = map squeezed xs').
    { clear - Lk. induction Lk as [|x y xs ys (_ & H & _) _ IH]; [reflexivity|]. cbn. congruence. }
    rewrite <- (join_split "," arg), <- (join_split "," arg'), Sp, Sp'. change [","%char] with #",". now rewrite !squeezed_join, E.
  - intros C. contradiction.
  - destruct Ar as [(E & E1 & _)|[E P]], Ar' as [(E' & E1' & _)|[E' P']]; try congruence; [rewrite E1, E1'; apply mem_like_refl|].
    clear V V' Sp Sp' Lk. destruct P as [|t x ts xs P1 P]; [congruence|]. inversion P' as [|? x' ? ys P1' P2']; subst. destruct P as [|t2 x2 ts xs P2 P]; inversion P2' as [|? x2' ? ys' P3' P4']; subst; [apply mem_like_refl|].
    cbn [nth]. destruct P2 as (a & b & Ba & Bb & ->), P3' as (a' & b' & Ba' & Bb' & ->). apply mem_like_pad; auto.
    + intros I. apply Nl. eapply part_in; [apply Px|exact I]. right; now left.
    + intros I. apply Nl'. eapply part_in; [apply Px'|exact I]. right; now left.
    + intros Q. rewrite (Np t2) in Q by (right; now left). discriminate.
  - intros _ Le. destruct Ar as [(E & E1 & _)|[E P]], Ar' as [(E' & E1' & _)|[E' P']]; try congruence; [rewrite E1, E1'; reflexivity|].
    clear V V' Sp Sp' Lk. destruct P as [|t x ts xs P1 P]; [congruence|]. inversion P' as [|? x' ? ys P1' P2']; subst. cbn [hd].
    assert (T : t <> []) by (apply Forall_inv in Ops; apply Ops). destruct P1 as (a & b & _ & _ & ->), P1' as (a' & b' & _ & _ & ->).
    split; intros Q; apply app_eq_nil in Q as [_ Q]; apply app_eq_nil in Q as [Q _]; contradiction.
Qed.
Lemma rewritten_matched e e' ls ls' : Forall no_nl ls -> Forall no_nl ls' -> Forall2 (fun l l' => l = l' \/ same_instruction l l') ls ls' -> matched e e' false squeezed ls ls'.
Proof.
  intros N N' H. induction H as [|l l' ls ls' [->|H] _ IH]; [constructor| |]; (apply mt_pair; [|apply IH; eapply Forall_inv_tail; eassumption]).
  - apply clean_refl_case.
  - apply rewritten_lines; [exact (Forall_inv N)|exact (Forall_inv N')|exact H].
Qed.

(** ** Comments *)

Definition is_code_group (g : group) : bool := match g with GCode => true | _ => false end.
Lemma code_name t : classify t = Some GCode -> In t [ #"break"; #"syscall" ].
Proof.
  assert (H : forallb (fun ng => (negb (is_code_group (snd ng)) || existsb (str_eqb (fst ng)) [ #"break"; #"syscall" ])%bool) group_table = true) by (vm_compute; reflexivity).
  unfold classify. induction group_table as [|[n g] r IH]; [discriminate|]. cbn [forallb fst snd] in H. apply andb_true_iff in H as [H1 H]. cbn [assoc].
  destruct (str_eqb t n) eqn:E; [|exact (IH H)]. intros Q. injection Q as ->. cbn [is_code_group negb orb] in H1. apply existsb_exists in H1 as (x & I & H1). apply str_eqb_spec in H1. apply str_eqb_spec in E. now subst.
Qed.
Lemma trim_blank_tail x w : blank w -> trim (x ++ w) = trim x.
Proof. intros B. exact (trim_ws_around [] x w eq_refl B). Qed.
Lemma before_comment_gap d b c : blank b -> b <> [] -> starts_comment c = true -> exists w, blank w /\ before_comment (d ++ b ++ c) = before_comment d ++ w /\ (w = [] \/ before_comment d = d /\ w = b).
Proof.
  intros B Nb Sc. induction d as [|x d (w & Bw & E & H)].
  - exists b. split; [exact B|]. split; [|right; split; reflexivity]. cbn [app before_comment]. rewrite (before_blank b c B). destruct c as [|y c]; [discriminate|]. cbn [before_comment]. rewrite Sc. apply app_nil_r.
  - cbn [app before_comment]. assert (St : starts_comment (x :: d ++ b ++ c) = starts_comment (x :: d)).
    { destruct d as [|y d]; [|cbn [app]; destruct x as [[] [] [] [] [] [] [] []]; try reflexivity; destruct y as [[] [] [] [] [] [] [] []]; reflexivity].
      destruct b as [|y b]; [congruence|]. unfold blank in B. cbn [forallb] in B. apply andb_true_iff in B as [By _]. cbn [app]. destruct x as [[] [] [] [] [] [] [] []]; try reflexivity.
      destruct y as [[] [] [] [] [] [] [] []]; try reflexivity; discriminate By. }
    rewrite St. destruct (starts_comment (x :: d)).
    + exists []. split; [reflexivity|]. split; [reflexivity|now left].
    + exists w. split; [exact Bw|]. cbn [app]. split; [now rewrite E|]. destruct H as [H|[H1 H2]]; [now left|right; split; [now rewrite H1|exact H2]].
Qed.
Lemma dwe_comment c : starts_comment c = true -> starts_comment (drop_while_end is_ws c) = true /\ forall x, drop_while_end is_ws (x ++ c) = x ++ drop_while_end is_ws c.
Proof.
  intros Sc. destruct (starts_comment_head c Sc) as (y & r & -> & W). split.
  - assert (E := dwe_app [] y r W). cbn [app] in E. rewrite E. destruct y as [[] [] [] [] [] [] [] []]; try discriminate Sc; try reflexivity.
    destruct r as [|z r]; [discriminate Sc|]. destruct z as [[] [] [] [] [] [] [] []]; try discriminate Sc.
    assert (E2 := dwe_app [] "/"%char r eq_refl). cbn [app] in E2. rewrite E2. reflexivity.
  - intros x. assert (E := dwe_app [] y r W). cbn [app] in E. rewrite E. now apply dwe_app.
Qed.
Lemma split_trail z w : blank w -> exists i k, split_char "," z = i ++ [k] /\ split_char "," (z ++ w) = i ++ [k ++ w].
Proof.
  intros B. assert (S1 : forall w, blank w -> split_char "," w = [w]).
  { intros v Bv. apply split_char_none. now apply blank_not. }
  induction z as [|c z (i & k & E1 & E2)].
  - exists [], []. cbn [app]. split; [reflexivity|now apply S1].
  - cbn [app split_char]. rewrite E1, E2. destruct (Ascii.eqb c ","); [exists ([] :: i), k; split; reflexivity|].
    destruct i as [|h i]; [exists [], (c :: k)|exists ((c :: h) :: i), k]; split; reflexivity.
Qed.
Lemma same_trail e e' s s' raw raw' op z w : alike e e' s s' raw raw' -> blank w -> no_nl raw -> no_nl raw' -> part z raw -> part (z ++ w) raw' ->
  (classify (trim (to_lower op)) = Some GCode -> z = [] -> w = []) ->
  same s s' raw raw' trim (parse_op e s op z (split_char "," z)) (parse_op e' s' op (z ++ w) (split_char "," (z ++ w))).
Proof.
  intros Ak B N N' P P' Cd. destruct (split_trail z w B) as (i & k & E1 & E2).
  assert (Q1 : forall x, In x (split_char "," z) -> part x raw) by (intros x I; eapply part_trans; [eapply split_char_part; exact I|exact P]).
  assert (Q2 : forall x, In x (split_char "," (z ++ w)) -> part x raw') by (intros x I; eapply part_trans; [eapply split_char_part; exact I|exact P']).
  rewrite E1, E2 in *. apply same_op; try reflexivity; try (left; reflexivity); [exact Ak| | | | |].
  - now rewrite trim_blank_tail.
  - intros _. now rewrite trim_blank_tail.
  - apply Forall2_app.
    + apply args_alike. intros x I. split; [apply Q1|apply Q2]; apply in_or_app; now left.
    + apply Forall2_cons; [|apply Forall2_nil]. split; [|split; [|split]]; [now rewrite trim_blank_tail|now rewrite trim_blank_tail|apply Q1|apply Q2]; apply in_or_app; right; now left.
  - destruct i as [|h1 [|h2 i]]; [apply mem_like_refl| |apply mem_like_refl]. cbn [app nth].
    assert (M := mem_like_pad [] k [] [] w eq_refl eq_refl eq_refl B). cbn [app] in M. rewrite app_nil_r in M. apply M; [| |tauto].
    + intros J. apply N. eapply part_in; [apply Q1|exact J]. right; now left.
    + intros J. apply N'. eapply part_in; [apply Q2|exact J]. right; now left.
  - intros G L. destruct i as [|h i]; [|rewrite app_length in L; cbn in L; lia]. cbn [app hd] in *. split; intros H.
    + subst k. cbn. apply (Cd G). destruct z as [|c z]; [reflexivity|]. cbn [split_char] in E1. destruct (Ascii.eqb c ","); [|destruct (split_char "," z); discriminate].
      exfalso. injection E1 as E1. assert (X := join_split "," z). rewrite E1 in X. cbn in X. subst z. discriminate.
    + now apply app_eq_nil in H as [H _].
Qed.
Lemma comment_lines e e' l w c : no_nl l -> no_nl (l ++ w ++ c) -> blank w -> takes_comment (l ++ w) -> starts_comment c = true -> same_lines e e' false trim l (l ++ w ++ c).
Proof.
  intros N N' Bw Tk Sc. assert (Cl : clean (l ++ w) = clean l) by (unfold clean; now rewrite trim_blank_tail).
  assert (Code : clean l = clean (l ++ w ++ c) -> same_lines e e' false trim l (l ++ w ++ c)).
  { intros E. split; [discriminate|]. assert (H := clean_refl_case e e' trim l). destruct H as [_ H]. unfold role_of in *. rewrite <- E. destruct (clean l) as [|x r] eqn:Q; [exact I|].
    destruct (ends_with #":" (x :: r)); [reflexivity|]. intros s s' Ak. assert (X := same_inst e e' s s' l (l ++ w ++ c) (x :: r) Ak).
    assert (P1 : part (x :: r) l) by (rewrite <- Q; apply clean_part). assert (P2 : part (x :: r) (l ++ w ++ c)) by (rewrite E; apply clean_part). specialize (X P1 P2).
    unfold same, same_result in *. destruct (snd (parse_inst e s (x :: r))) as [i|p|p], (snd (parse_inst e' s' (x :: r))) as [i'|q|q]; auto. destruct X as (U & L1 & L2 & Le). split; [|auto].
    clear - U. destruct p, q; cbn in *; try discriminate U; congruence. }
  destruct Tk as [Tk|(a & m & v & t' & x & Et & Wx & Ba & M & Ev & Ro & Cd)].
  - apply Code. rewrite app_assoc, clean_comment; auto.
  - assert (R : exists b0 b, blank (b0 :: b) /\ " "%char :: v = drop_while_end is_ws (" "%char :: v) ++ b0 :: b).
    { destruct (drop_while_decomp is_ws (rev (" "%char :: v))) as (b & E & Bb). assert (Ne : b <> []).
      { intros ->. cbn [app] in E. assert (H := drop_while_head is_ws (rev (" "%char :: v))). rewrite <- E in H. rewrite Ev in Et.
        apply (f_equal (@rev ascii)) in Et. rewrite !rev_app_distr in Et. destruct (rev (" "%char :: v)) as [|y q] eqn:Q; [apply (f_equal (@rev ascii)) in Q; rewrite rev_involutive in Q; discriminate|]. cbn in Et. injection Et as -> _. congruence. }
      assert (E2 : " "%char :: v = drop_while_end is_ws (" "%char :: v) ++ rev b) by (unfold drop_while_end; rewrite <- rev_app_distr, <- E; now rewrite rev_involutive).
      destruct (rev b) as [|b0 b1] eqn:Rb; [apply (f_equal (@rev ascii)) in Rb; rewrite rev_involutive in Rb; contradiction|]. exists b0, b1. split; [|exact E2]. unfold blank. rewrite <- Rb, forallb_rev. exact Bb. }
    destruct R as (b0 & b & Bb & Ed). set (d := drop_while_end is_ws (" "%char :: v)) in *.
    destruct (dwe_comment c Sc) as [Sc' Dc]. set (c' := drop_while_end is_ws c) in *.
    assert (C1 : clean l = m ++ before_comment d).
    { rewrite <- Cl, Ev. unfold clean. rewrite (trim_mnemonic a m _ Ba M). fold d. apply before_mnemonic; [exact M|]. destruct d as [|y d0]; [now left|right; right]. cbn in Ed. injection Ed as <- _. eexists _, _. split; reflexivity. }
    assert (C2 : clean (l ++ w ++ c) = m ++ before_comment (d ++ (b0 :: b) ++ c')).
    { rewrite app_assoc, Ev. replace ((a ++ m ++ " "%char :: v) ++ c) with (a ++ m ++ ((" "%char :: v) ++ c)) by (rewrite <- !app_assoc; reflexivity).
      unfold clean. rewrite (trim_mnemonic a m _ Ba M), Dc. rewrite Ed at 1. rewrite <- app_assoc. apply before_mnemonic; [exact M|]. right; right. exists " "%char, (v ++ c'). split; [|reflexivity]. rewrite app_assoc, <- Ed. reflexivity. }
    destruct (before_comment_gap d (b0 :: b) c' Bb ltac:(discriminate) Sc') as (u & Bu & Eu & Hu).
    destruct Hu as [->|[Hd ->]]; [apply Code; rewrite C1, C2, Eu; now rewrite app_nil_r|]. rewrite Eu, Hd in C2. rewrite Hd in C1. clear Eu Hd.
    split; [discriminate|].
    assert (Rl : role_of l = Instruction) by (unfold role_of in *; now rewrite <- Cl).
    assert (Nm : ~ In " "%char m) by (intros J; destruct M as [_ M]; rewrite forallb_forall in M; specialize (M _ J); discriminate).
    assert (Hm : forall q, exists y t, m ++ q = y :: t) by (intros q; destruct m as [|y t]; [now destruct M|]; eexists _, _; reflexivity).
    assert (Rl' : role_of (l ++ w ++ c) = Instruction).
    { unfold role_of. rewrite C2. assert (E2 := ends_tail (m ++ d) b0 b). rewrite <- app_assoc in E2. destruct (Hm (d ++ b0 :: b)) as (y & q & Q). rewrite Q in *. rewrite E2.
      destruct (ends_with #":" (b0 :: b)) eqn:X; [|reflexivity]. exfalso. unfold ends_with in X. change (rev #":") with #":" in X. unfold blank in Bb. rewrite <- forallb_rev in Bb. destruct (rev (b0 :: b)) as [|z r]; [discriminate|]. cbn in X, Bb.
      apply andb_true_iff in Bb as [Bb _]. destruct z as [[] [] [] [] [] [] [] []]; try discriminate X; discriminate Bb. }
    rewrite Rl, Rl'. intros s s' Ak. assert (P1 := clean_part l). assert (P2 := clean_part (l ++ w ++ c)). rewrite C1 in *. rewrite C2 in *. clear Code.
    destruct (Hm d) as (y1 & t1 & H1). destruct (Hm (d ++ b0 :: b)) as (y2 & t2 & H2).
    unfold parse_inst. rewrite !(split_once_prefix m _ Nm).
    destruct d as [|d0 d1] eqn:Dd.
    + cbn [app] in Ed, H2, P2 |- *. injection Ed as <- <-. cbn [split_once]. change (Ascii.eqb " " " ") with true. cbv iota. rewrite H2. rewrite app_nil_r in H1, P1. rewrite !app_nil_r. rewrite H1. rewrite <- H1.
      assert (X := same_trail e e' s s' l (l ++ w ++ c) m [] v Ak Bb N N'). cbn [app] in X. change (split_char "," []) with ([[]] : list str) in X |- *. apply X.
      * exists [], l. reflexivity.
      * eapply part_trans; [|exact P2]. exists (m ++ #" "), []. rewrite app_nil_r, <- app_assoc. reflexivity.
      * intros G _. apply code_name in G. rewrite trim_no_ws in G by now apply lower_no_ws, mnemonic_ok. destruct (Cd G) as [V|V]; [exact V|]. exfalso. apply V. exact Bb.
    + cbn [app] in Ed. injection Ed as <- Ed. cbn [app split_once]. change (Ascii.eqb " " " ") with true. cbv iota. cbn [app] in H2. rewrite H1, H2, app_nil_r.
      apply (same_trail e e' s s' l (l ++ w ++ c) m d1 (b0 :: b) Ak Bb N N').
      * eapply part_trans; [|exact P1]. exists (m ++ #" "), []. rewrite app_nil_r, <- app_assoc. reflexivity.
      * eapply part_trans; [|exact P2]. exists (m ++ #" "), []. rewrite app_nil_r, <- app_assoc. reflexivity.
      * intros _ ->. exfalso. assert (T : tight_start (rev (drop_while_end is_ws (" "%char :: v)))) by (unfold drop_while_end; rewrite rev_involutive; apply drop_while_head).
        fold d in T. rewrite Dd in T. discriminate T.
Qed.
Lemma decorated_matched e e' ls ls' : decorated takes_comment ls ls' -> Forall no_nl ls -> Forall no_nl ls' -> matched e e' false trim ls ls'.
Proof.
  induction 1 as [|l ls ls' B _ IH|l ls ls' _ IH|l w c ls ls' Bw P Sc _ IH]; intros N N'; [constructor| | |].
  - apply mt_right; [reflexivity| |apply IH; [exact N|exact (Forall_inv_tail N')]]. unfold role_of. now rewrite (clean_blank l B).
  - apply mt_pair; [apply clean_refl_case|]. apply IH; eapply Forall_inv_tail; eassumption.
  - apply mt_pair; [|apply IH; eapply Forall_inv_tail; eassumption]. apply comment_lines; auto; eapply Forall_inv; eassumption.
Qed.
