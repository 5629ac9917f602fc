(** * DisplayProofs: which errors can be displayed (proofs only). *)

From Coq Require Import Lia.
From Verif Require Import Lib SpecIsa StrLemmas NumLemmas DecodeProofs TextProofs OperandProofs NativeProofs LineProofs ScanProofs ProgProofs BranchProofs LabelProofs CongProofs ErrorProofs ShowProofs AsmProofs SpecErrors SpecText SpecProgram.
From Verif Require Import SpecShow.

Lemma part_occurs x s : part x s <-> occurs x s.
Proof. reflexivity. Qed.

(** ** Regular expressions *)
Lemma re_find_match r s i n : re_find r s = Some (i, n) -> In n (prefix_matches r (skipn i s)).
Proof.
  revert i. induction s as [|c s IH]; intros i; cbn [re_find].
  - destruct (prefix_matches r []) as [|m l] eqn:P; [discriminate|]. intros E. injection E as <- <-. cbn [skipn]. rewrite P. now left.
  - destruct (prefix_matches r (c :: s)) as [|m l] eqn:P.
    + destruct (re_find r s) as [[j k]|]; [|discriminate]. intros E. injection E as <- <-. cbn [skipn]. now apply IH.
    + intros E. injection E as <- <-. cbn [skipn]. rewrite P. now left.
Qed.
Lemma firstn_part n s : part (firstn n s) s.
Proof. exists [], (skipn n s). cbn. now rewrite firstn_skipn. Qed.
Lemma skipn_part n s : part (skipn n s) s.
Proof. exists (firstn n s), []. now rewrite app_nil_r, firstn_skipn. Qed.
Lemma re_find_str_part r s x : re_find_str r s = Some x -> part x s.
Proof.
  unfold re_find_str. destruct (re_find r s) as [[i n]|]; [|discriminate]. intros E. injection E as <-.
  eapply part_trans; [apply firstn_part|apply skipn_part].
Qed.
Lemma class_at p n s : In n (prefix_matches (RClass p) s) -> n = 1%nat /\ exists c r, s = c :: r /\ p c = true.
Proof.
  cbn. destruct s as [|c r]; [intros []|]. destruct (p c) eqn:P; [|intros []]. intros [<-|[]]. eauto.
Qed.
Lemma seq_at a b n s : In n (prefix_matches (RSeq a b) s) ->
  exists i j, n = (i + j)%nat /\ In i (prefix_matches a s) /\ In j (prefix_matches b (skipn i s)).
Proof.
  cbn [prefix_matches]. intros H. apply in_flat_map in H as (i & I & J). apply in_map_iff in J as (j & <- & J). eauto.
Qed.
Lemma skipn_skipn {A} i j (s : list A) : skipn i (skipn j s) = skipn (j + i) s.
Proof. revert j. induction s; intros [|j]; cbn; auto; now destruct i. Qed.
Lemma firstn_snoc {A} n (s : list A) c r : skipn n s = c :: r -> firstn (S n) s = firstn n s ++ [c].
Proof. revert s. induction n; intros [|x s] H; cbn in *; try discriminate; [congruence|]. f_equal. now apply IHn. Qed.
Lemma seq_last a b p s n : In n (prefix_matches (RSeq a (RSeq b (RClass p))) s) ->
  exists m c, n = S m /\ p c = true /\ firstn n s = firstn m s ++ [c].
Proof.
  intros H. apply seq_at in H as (i & k & -> & _ & H). apply seq_at in H as (j & l & -> & _ & H).
  apply class_at in H as (-> & c & r & E & P). rewrite skipn_skipn in E.
  exists (i + j)%nat, c. split; [lia|]. split; [exact P|]. replace (i + (j + 1))%nat with (S (i + j)) by lia. eapply firstn_snoc; eauto.
Qed.
Lemma offset_shape x o : re_find_str OFFSET_RE x = Some o -> part o x /\ exists u, o = u ++ #"(".
Proof.
  intros H. split; [now apply re_find_str_part in H|]. unfold re_find_str in H. destruct (re_find OFFSET_RE x) as [[i n]|] eqn:F; [|discriminate].
  injection H as <-. apply re_find_match in F. apply seq_last in F as (m & c & _ & P & E). apply Ascii.eqb_eq in P. subst c. eauto.
Qed.
Lemma around_at mid q s n : In n (prefix_matches (RSeq (RClass (cls "(")) (RSeq (RStar mid q) (RClass (cls ")")))) s) ->
  exists t, firstn n s = #"(" ++ t ++ #")".
Proof.
  intros H. assert (L := H). apply seq_last in L as (m & c & -> & P & E). apply Ascii.eqb_eq in P. subst c.
  apply seq_at in H as (i & k & E1 & H1 & H). apply class_at in H1 as (-> & c & r & -> & P). apply Ascii.eqb_eq in P. subst c.
  apply seq_at in H as (j & l & -> & _ & H). apply class_at in H as (-> & _). rewrite E.
  destruct m as [|m]; [lia|]. cbn [firstn]. exists (firstn m r). reflexivity.
Qed.
Lemma imm_shape x m : re_find_str IMM_RE x = Some m -> part m x /\ exists t, m = #"(" ++ t ++ #")".
Proof.
  intros H. split; [now apply re_find_str_part in H|]. unfold re_find_str in H. destruct (re_find IMM_RE x) as [[i n]|] eqn:F; [|discriminate].
  injection H as <-. apply re_find_match in F. now apply around_at in F.
Qed.
Lemma base_iter_shape fuel x : forall b, In b (re_find_iter fuel BASE_RE x) -> part b x /\ exists t, b = #"(" ++ t ++ #")".
Proof.
  revert x. induction fuel as [|f IH]; intros x b; cbn [re_find_iter]; [intros []|].
  destruct (re_find BASE_RE x) as [[i n]|] eqn:F; [|intros []]. intros [<-|H].
  - split; [eapply part_trans; [apply firstn_part|apply skipn_part]|]. apply re_find_match in F. now apply around_at in F.
  - apply IH in H as [P E]. split; [|exact E]. eapply part_trans; [exact P|apply skipn_part].
Qed.

(** ** Parentheses *)
Definition few (x : str) : Prop := (count_occ ascii_dec x "("%char <= 1)%nat /\ (count_occ ascii_dec x ")"%char <= 1)%nat.
Lemma few_part x y : part x y -> few y -> few x.
Proof. intros (a & b & ->) [A B]. rewrite !count_occ_app in A, B. split; lia. Qed.
Lemma strip_none t : ~ In "("%char t -> ~ In ")"%char t -> strip_parens t = t.
Proof.
  unfold strip_parens. induction t as [|c t IH]; intros A B; [reflexivity|]. cbn [filter].
  destruct (Ascii.eqb_spec c "(") as [->|_]; [exfalso; apply A; now left|].
  destruct (Ascii.eqb_spec c ")") as [->|_]; [exfalso; apply B; now left|]. cbn [orb negb]. f_equal. apply IH; intros I; [apply A|apply B]; now right.
Qed.
Lemma few_around t : few (#"(" ++ t ++ #")") -> strip_parens (#"(" ++ t ++ #")") = t /\ part t (#"(" ++ t ++ #")").
Proof.
  intros [A B]. rewrite !count_occ_app in A, B.
  change (count_occ ascii_dec #"(" "("%char) with 1%nat in A. change (count_occ ascii_dec #")" ")"%char) with 1%nat in B.
  assert (O : ~ In "("%char t) by (intros I; apply (count_occ_In ascii_dec) in I; lia).
  assert (C : ~ In ")"%char t) by (intros I; apply (count_occ_In ascii_dec) in I; lia).
  split; [|now exists #"(", #")"]. unfold strip_parens. rewrite !filter_app. fold (strip_parens t). rewrite (strip_none t O C). cbn. apply app_nil_r.
Qed.
Lemma few_open u : few (u ++ #"(") -> remove_all #"(" (u ++ #"(") = u.
Proof.
  intros [A _]. rewrite count_occ_app in A. change (count_occ ascii_dec #"(" "("%char) with 1%nat in A. apply remove_open. intros I. apply (count_occ_In ascii_dec) in I. lia.
Qed.

(** ** Hexadecimal operands *)
Definition hexy (x : str) : Prop := forall u v, x = u ++ #"0x" ++ v -> blank u.
Lemma hexy_prefix x a y b : hexy x -> x = a ++ y ++ b -> hexy y.
Proof.
  intros H -> u v ->. specialize (H (a ++ u) (v ++ b)). rewrite <- !app_assoc in H. specialize (H eq_refl).
  unfold blank in *. rewrite forallb_app in H. now apply andb_prop in H.
Qed.
Lemma hexy_part x y : part y x -> hexy x -> hexy y.
Proof. intros (a & b & E) H. eapply hexy_prefix; eauto. Qed.
Lemma contains_part p s : contains p s = true -> exists u v, s = u ++ p ++ v.
Proof.
  unfold contains. destruct (find_sub p s) as [n|] eqn:F; [|discriminate]. intros _. apply find_sub_first in F. destruct F as ((a & b & E & _) & _). eauto.
Qed.
Lemma contains_cons p c s : p <> [] -> contains p (c :: s) = false -> starts_with p (c :: s) = false /\ contains p s = false.
Proof.
  intros N. unfold contains. cbn [find_sub]. destruct (starts_with p (c :: s)); [discriminate|]. destruct (find_sub p s); [discriminate|auto].
Qed.
Lemma remove_none p s : p <> [] -> contains p s = false -> remove_all p s = s.
Proof.
  intros N. unfold remove_all. induction s as [|c s IH]; intros H; [reflexivity|]. apply contains_cons in H as [A B]; [|exact N].
  cbn [remove_go]. rewrite A. f_equal. now apply IH.
Qed.
Lemma hexy_remove x : hexy x -> trim x = x -> contains #"0x" x = true -> part (remove_all #"0x" x) x.
Proof.
  intros H T C. apply contains_part in C as (u & v & E). assert (B := H u v E).
  assert (U : u = []).
  { destruct u as [|c u]; [reflexivity|]. exfalso. unfold blank in B. cbn in B. apply andb_prop in B as [B _].
    assert (D : drop_while is_ws x = x).
    { destruct (trim_decomp x) as (a & b & Ex & _). rewrite T in Ex. assert (L := f_equal (@List.length ascii) Ex). rewrite !app_length in L.
      unfold trim in T. clear -T. 
      assert (K : (List.length (drop_while_end is_ws (drop_while is_ws x)) <= List.length (drop_while is_ws x))%nat).
      { unfold drop_while_end. rewrite rev_length. transitivity (List.length (rev (drop_while is_ws x))); [|now rewrite rev_length].
        generalize (rev (drop_while is_ws x)) as l. induction l as [|d l IH]; cbn; [lia|]. destruct (is_ws d); cbn; lia. }
      rewrite T in K. destruct x as [|d x]; [reflexivity|]. cbn in *. destruct (is_ws d); [|reflexivity]. exfalso.
      assert (K2 : (List.length (drop_while is_ws x) <= List.length x)%nat) by (clear; induction x as [|d x IH]; cbn; [lia|]; destruct (is_ws d); cbn; lia). lia. }
    rewrite E in D. cbn [app drop_while] in D. rewrite B in D.
    assert (K2 : (List.length (drop_while is_ws (u ++ #"0x" ++ v)) <= List.length (u ++ #"0x" ++ v))%nat) by (generalize (u ++ #"0x" ++ v) as l; induction l as [|d l IH]; cbn; [lia|]; destruct (is_ws d); cbn; lia).
    rewrite D in K2. cbn [List.length] in K2. lia. }
  subst u. cbn [app] in E. 
  assert (V : contains #"0x" v = false).
  { destruct (contains #"0x" v) eqn:C; [|reflexivity]. exfalso. apply contains_part in C as (u & w & ->).
    specialize (H (#"0x" ++ u) w). rewrite <- app_assoc in H. specialize (H E). discriminate H. }
  assert (R : remove_all #"0x" x = v).
  { rewrite E. transitivity (remove_all #"0x" v); [reflexivity|]. apply remove_none; [discriminate|exact V]. }
  rewrite R. exists #"0x", []. now rewrite app_nil_r.
Qed.

(** ** Register numbers *)
Lemma digit_char_back c d : to_digit 10 c = Some d -> 0 <= d < 10 /\ digit_char false d = c.
Proof.
  intros H. assert (K : (match to_digit 10 c with Some d => (0 <=? d) && (d <? 10) && Ascii.eqb (digit_char false d) c | None => true end) = true).
  { clear H. destruct c as [[] [] [] [] [] [] [] []]; vm_compute; reflexivity. }
  rewrite H in K. apply andb_prop in K as [K E]. apply andb_prop in K as [A B]. apply Ascii.eqb_eq in E. split; [lia|exact E].
Qed.
Lemma digits_nonneg s : forall a v, 0 <= a -> digits_val 10 a s = Some v -> 0 <= v.
Proof.
  induction s as [|c s IH]; intros a v A H; cbn [digits_val] in H; [injection H as <-; exact A|].
  destruct (to_digit 10 c) as [d|] eqn:T; [|discriminate]. apply digit_char_back in T as [T _]. apply (IH (a * 10 + d) v); [lia|exact H].
Qed.
Lemma digits_zero s : digits_val 10 0 s = Some 0 -> s = repeat "0"%char (List.length s).
Proof.
  induction s as [|c s IH]; [reflexivity|]. cbn [digits_val repeat List.length]. destruct (to_digit 10 c) as [d|] eqn:T; [|discriminate].
  intros H. apply digit_char_back in T as [R T]. change (0 * 10 + d) with d in H.
  assert (D : d = 0).
  { clear -R H. assert (G : forall s a v, 0 <= a -> digits_val 10 a s = Some v -> a <= v).
    { induction s0 as [|c s0 IH]; intros a v A E; cbn [digits_val] in E; [injection E as <-; lia|].
      destruct (to_digit 10 c) as [q|] eqn:T; [|discriminate]. apply digit_char_back in T as [T _]. specialize (IH (a * 10 + q) v ltac:(lia) E). lia. }
    specialize (G s d 0 ltac:(lia) H). lia. }
  subst d. rewrite <- T. change (digit_char false 0) with "0"%char. f_equal. auto.
Qed.
Lemma digits_suffix f : forall s n acc, (List.length s <= List.length s)%nat -> digits_val 10 0 s = Some n -> 0 < n < 10 ^ Z.of_nat f ->
  exists k, s ++ acc = repeat "0"%char k ++ digits_go f false 10 n acc.
Proof.
  induction f as [|f IH]; intros s n acc _ H R; [cbn in R; lia|].
  destruct s as [|c0 s0] using rev_ind; [injection H as <-; lia|]. clear IHs0.
  rewrite digits_val_app in H. destruct (digits_val 10 0 s0) as [v|] eqn:V; [|discriminate].
  cbn [digits_val] in H. destruct (to_digit 10 c0) as [d|] eqn:T; [|discriminate]. injection H as <-.
  apply digit_char_back in T as [Rd T]. assert (V0 := digits_nonneg _ _ _ (Z.le_refl 0) V).
  assert (Q : (v * 10 + d) / 10 = v) by (rewrite Z.div_add_l by lia; rewrite Z.div_small by lia; lia).
  assert (M : (v * 10 + d) mod 10 = d) by (rewrite Z.add_comm, Z.mod_add by lia; now apply Z.mod_small).
  cbn [digits_go]. rewrite Q, M, T. destruct (v =? 0) eqn:Z0.
  - apply Z.eqb_eq in Z0. subst v. apply digits_zero in V. exists (List.length s0). rewrite <- V, <- app_assoc. reflexivity.
  - apply Z.eqb_neq in Z0. destruct (IH s0 v (c0 :: acc) (Nat.le_refl _) V) as [k E].
    + rewrite Nat2Z.inj_succ, Z.pow_succ_r in R by lia. lia.
    + exists k. rewrite <- E, <- app_assoc. reflexivity.
Qed.
Lemma dec_part s n : digits_val 10 0 s = Some n -> 0 < n < 2 ^ 32 -> part (dec n) s.
Proof.
  intros H R. destruct (digits_suffix 20 s n [] (Nat.le_refl _) H) as [k E].
  { split; [lia|]. apply (Z.lt_trans _ (2 ^ 32)); [lia|reflexivity]. }
  rewrite app_nil_r in E. exists (repeat "0"%char k), []. now rewrite app_nil_r.
Qed.
Lemma parse_dec_part s n : parse_int u32 10 s = Some n -> 0 <= n < 2 ^ 32 /\ (n <> 0 -> part (dec n) s).
Proof.
  unfold parse_int. destruct s as [|c r]; [discriminate|].
  assert (G : forall t, match digits_val 10 0 t with Some v => in_range u32 v | None => None end = Some n ->
     0 <= n < 2 ^ 32 /\ (n <> 0 -> part (dec n) t)).
  { intros t H. destruct (digits_val 10 0 t) as [v|] eqn:V; [|discriminate]. assert (v = n).
    { unfold in_range in H. destruct (_ && _); [congruence|discriminate]. }
    subst v. assert (R : 0 <= n < 2 ^ 32).
    { unfold in_range in H. destruct ((it_min u32 <=? n) && (n <=? it_max u32)) eqn:B; [|discriminate].
      apply andb_prop in B as [A B]. apply Z.leb_le in A, B. change (it_min u32) with 0 in A. change (it_max u32) with (2 ^ 32 - 1) in B. lia. }
    split; [exact R|]. intros N. apply dec_part; [exact V|lia]. }
  destruct (Ascii.eqb c "+") eqn:P; cbn [orb].
  - destruct r as [|d r]; [discriminate|]. intros H. apply G in H as [A B]. split; [exact A|]. intros N. specialize (B N).
    apply (part_trans _ _ _ B). exists [c], []. now rewrite app_nil_r.
  - destruct (Ascii.eqb c "-"); [destruct r; discriminate|]. apply G.
Qed.
Lemma drop_part p s : part (drop_while p s) s.
Proof.
  induction s as [|c s IH]; [apply part_refl|]. cbn [drop_while]. destruct (p c); [|apply part_refl].
  apply (part_trans _ _ _ IH). exists [c], []. now rewrite app_nil_r.
Qed.
Lemma reg_try_err n t : reg_try_from n = Err t -> n <> 0 /\ t = dec n.
Proof.
  unfold reg_try_from. destruct n as [|q|q]; [discriminate| |intros H; split; [discriminate|congruence]].
  repeat (destruct q as [q|q|]; try discriminate; try (intros H; split; [discriminate|congruence])).
Qed.
Lemma reg_err_part x t : reg_from_str x = Err t -> part t x.
Proof.
  unfold reg_from_str. cbv zeta. set (r := drop_while (cls "$") (trim x)).
  assert (R : part r x) by (apply (part_trans _ (trim x)); [apply drop_part|apply trim_part]).
  assert (G : forall y n, part y r -> parse_int u32 10 y = Some n -> reg_try_from n = Err t -> part t x).
  { intros y n Py P E. apply reg_try_err in E as [N ->]. apply parse_dec_part in P as [_ P].
    apply (part_trans _ y); [now apply P|]. now apply (part_trans _ r). }
  destruct (re_find REG_RE r).
  - destruct (parse_int u32 10 (drop_while (cls "r") r)) as [n|] eqn:P; [|discriminate]. apply (G _ n (drop_part _ _) P).
  - destruct (parse_int u32 10 r) as [n|] eqn:P; [apply (G _ n (part_refl _) P)|].
    destruct (assoc (to_lower r) reg_table); [discriminate|]. intros E. injection E as <-. apply part_refl.
Qed.

Lemma dec_digits n : Forall (fun c => is_digit c = true) (dec n).
Proof.
  unfold dec. assert (G : forall f m acc, Forall (fun c => is_digit c = true) acc -> Forall (fun c => is_digit c = true) (digits_go f false 10 m acc)).
  { induction f as [|f IH]; intros m acc H; cbn [digits_go]; [exact H|].
    assert (D : is_digit (digit_char false (m mod 10)) = true).
    { assert (R : 0 <= m mod 10 < 10) by (apply Z.mod_pos_bound; lia). generalize dependent (m mod 10). intros d R.
      assert (K : In d [0;1;2;3;4;5;6;7;8;9]) by (cbn [In]; lia). cbn [In] in K. 
      repeat (destruct K as [<-|K]; [vm_compute; reflexivity|]). destruct K. }
    destruct (m / 10 =? 0); [now constructor|]. apply IH. now constructor. }
  apply G. constructor.
Qed.
Lemma dec_numeral n : ~ not_numeral (dec n).
Proof. intros (c & I & D). assert (G := dec_digits n). rewrite Forall_forall in G. rewrite (G c I) in D. discriminate. Qed.
Lemma freg_try_err n t : freg_try_from n = Err t -> t = dec n.
Proof.
  unfold freg_try_from. destruct n as [|q|q]; [discriminate| |congruence].
  repeat (destruct q as [q|q|]; try discriminate; try congruence).
Qed.
Lemma c0reg_try_err n t : c0reg_try_from n = Err t -> t = dec n.
Proof.
  unfold c0reg_try_from. destruct n as [|q|q]; [discriminate| |congruence].
  repeat (destruct q as [q|q|]; try discriminate; try congruence).
Qed.
Lemma app_inj (a b c d : str) : List.length a = List.length c -> a ++ b = c ++ d -> a = c /\ b = d.
Proof.
  revert c. induction a as [|x a IH]; intros [|y c] L H; try discriminate; [auto|]. cbn in *. injection L as L. injection H as -> H.
  destruct (IH c L H) as [-> ->]. auto.
Qed.
Lemma lower_part x y : part x y -> to_lower y = y -> to_lower x = x.
Proof.
  intros (a & b & ->). unfold to_lower. rewrite !map_app. intros H.
  apply app_inj in H as [_ H]; [|now rewrite map_length]. apply app_inj in H as [H _]; [exact H|now rewrite map_length].
Qed.
Lemma freg_err_part x t : freg_from_str x = Err t -> to_lower x = x -> not_numeral t -> part t x.
Proof.
  unfold freg_from_str. cbv zeta. set (r := drop_while (cls "$") (trim x)).
  assert (R : part r x) by (apply (part_trans _ (trim x)); [apply drop_part|apply trim_part]). intros H L N.
  destruct (parse_int u32 10 r) as [n|]; [apply freg_try_err in H; subst t; now apply dec_numeral in N|].
  destruct (assoc (to_lower r) freg_table); [discriminate|].
  destruct (parse_int u32 16 r) as [n|]; [apply freg_try_err in H; subst t; now apply dec_numeral in N|].
  injection H as <-. now rewrite (lower_part r x R L).
Qed.
Lemma c0reg_err_part x t : c0reg_from_str x = Err t -> to_lower x = x -> not_numeral t -> part t x.
Proof.
  unfold c0reg_from_str. cbv zeta. set (r := drop_while (cls "$") (trim x)).
  assert (R : part r x) by (apply (part_trans _ (trim x)); [apply drop_part|apply trim_part]). intros H L N.
  destruct (parse_int u32 10 r) as [n|]; [apply c0reg_try_err in H; subst t; now apply dec_numeral in N|].
  destruct (parse_int u32 16 r) as [n|]; [apply c0reg_try_err in H; subst t; now apply dec_numeral in N|].
  destruct (assoc (to_lower r) c0reg_table); [discriminate|].
  injection H as <-. now rewrite (lower_part r x R L).
Qed.

(** ** Every arm of the parser *)
Definition shown (p : perror) : Prop := forall ln u m, In (ln, u, m) (quotes p) -> occurs u (l_content ln).
Definition fine (p : perror) : Prop := quoted_as_written p -> shown p.
Definition good {A} (Q : A -> Prop) (m : M A) : Prop :=
  match snd m with Ok a => Q a | Err p => fine p | Panic _ => True end.
Lemma good_bind {A B} (P : A -> Prop) (Q : B -> Prop) m f : good P m -> (forall a, P a -> good Q (f a)) -> good Q (mbind m f).
Proof.
  unfold good. destruct m as [w [a|p|p]]; cbn [snd mbind]; auto. intros Pa H. specialize (H a Pa). destruct (f a) as [w' r]. exact H.
Qed.
Lemma good_ok {A} (Q : A -> Prop) a : Q a -> good Q (lift (Ok a)).
Proof. exact (fun H => H). Qed.
Lemma shown_one p ln u m : quotes p = [(ln, u, m)] -> occurs u (l_content ln) -> shown p.
Proof. intros E O l v k. rewrite E. intros [I|[]]. now inversion I; subst. Qed.
Lemma warn_good w : (forall p, w <> Err p) -> good (fun _ : unit => True) (warn w).
Proof.
  intros H. unfold warn. destruct w as [v|p|p]; [|now destruct (H p)|exact Logic.I].
  destruct (show_warning v) as [t|p|p] eqn:S; [exact Logic.I| |exact Logic.I]. exfalso.
  clear -S. unfold show_warning, header_body, fmt_line in S.
  destruct v; repeat match goal with l : line |- _ => destruct l end;
    repeat (match type of S with context [find_sub ?a ?b] => destruct (find_sub a b) end; cbn [obind] in S); discriminate.
Qed.

Section Good.
Variable e : env.
Variable s : pstate.
Variable raw : str.
Hypothesis Gl : get_line e (p_line s) = Ok (mk_line (p_line s) raw).
Hypothesis Nl : no_nl raw.

Lemma line_never n p : get_line e n <> Err p.
Proof. unfold get_line. destruct (nth_error _ _); discriminate. Qed.
Lemma delay_good : good (fun _ => True) (check_delay e s).
Proof.
  unfold check_delay. destruct (rev (p_insts s)) as [|[n i] r]; [exact Logic.I|]. destruct (has_delay_slot i); [|exact Logic.I].
  apply warn_good. intros p. rewrite Gl; cbn [obind].
  destruct (p_line s - 1)%nat; [discriminate|]. destruct (get_line e (S n0)) as [d'|q|q] eqn:G'; cbn [obind]; [discriminate|now apply line_never in G'|discriminate].
Qed.
Lemma as_u32_good im : good (fun _ => True) (lift (imm_as_u32 (E:=perror) im)).
Proof. destruct im; exact Logic.I. Qed.
Lemma branch_good im o : good (fun _ => True) (check_branch e s im o).
Proof.
  unfold check_branch. destruct (imm_is_label im); [exact Logic.I|]. eapply good_bind; [apply as_u32_good|]. intros v _.
  destruct (negb (v mod 4 =? 0)); [|exact Logic.I]. apply warn_good. intros p. rewrite Gl. discriminate.
Qed.
Lemma jump_good t o : good (fun _ => True) (check_jump e s t o).
Proof.
  unfold check_jump. destruct (target_is_label t); [exact Logic.I|]. eapply good_bind with (P := fun _ => True).
  - destruct t; exact Logic.I.
  - intros v _.
    destruct (negb (v mod 4 =? 0)); [|exact Logic.I]. apply warn_good. intros p. rewrite Gl. discriminate.
Qed.
Lemma fail_good {A} (Q : A -> Prop) (k : line -> perror) : fine (k (mk_line (p_line s) raw)) -> good Q (lift (fail_at e (p_line s) k)).
Proof. intros H. unfold fail_at. rewrite Gl. exact H. Qed.
Lemma unwrap_good {A} (o : option A) t : good (fun _ => True) (lift (unwrap (E:=perror) t o)).
Proof. destruct o; exact Logic.I. Qed.

(** operands *)
Definition operand (x : str) : Prop := part x (clean raw) /\ (tidy_hex raw -> hexy x).
Lemma operand_part x y : part x y -> operand y -> operand x.
Proof. intros P [A B]. split; [now apply (part_trans _ y)|]. intros T. apply (hexy_part y); auto. Qed.
Lemma operand_raw x : operand x -> part x raw.
Proof. intros [A _]. apply (part_trans _ (clean raw)); [exact A|apply clean_part]. Qed.
Lemma operand_few x : operand x -> tidy_parens raw -> few x.
Proof. intros [A _] T. now apply (few_part x (clean raw)). Qed.

Lemma register_good {A} (Q : A -> Prop) x t : operand x -> (quoted_as_written (EInvalidRegister (mk_line (p_line s) raw) t) -> part t x) ->
  good Q (lift (fail_at e (p_line s) (fun l => EInvalidRegister l t))).
Proof.
  intros O H. apply fail_good. intros F. eapply shown_one; [reflexivity|]. cbn [l_content]. apply (part_trans _ x); [now apply H|now apply operand_raw].
Qed.
Lemma areg_good x : operand x -> good (fun _ => True) (areg e s x).
Proof.
  intros O. unfold areg, arg_reg. destruct (reg_from_str x) as [r|t|p] eqn:E; [exact Logic.I| |exact Logic.I].
  apply (register_good _ x); [exact O|]. intros _. now apply reg_err_part.
Qed.
Lemma operand_lower x : operand x -> no_capitals raw -> to_lower x = x.
Proof. intros O L. apply (lower_part x raw); [now apply operand_raw|exact L]. Qed.
Lemma afreg_good x : operand x -> ~ general_line raw -> good (fun _ => True) (afreg e s x).
Proof.
  intros O G. unfold afreg, arg_freg. destruct (freg_from_str x) as [r|t|p] eqn:E; [exact Logic.I| |exact Logic.I].
  apply (register_good _ x); [exact O|]. intros [F|(L & N & _)]; [now destruct (G F)|]. apply freg_err_part; auto using operand_lower.
Qed.
Lemma ac0reg_good x : operand x -> ~ general_line raw -> good (fun _ => True) (lift (arg_c0reg e s x)).
Proof.
  intros O G. unfold arg_c0reg. destruct (c0reg_from_str x) as [r|t|p] eqn:E; [exact Logic.I| |exact Logic.I].
  apply (register_good _ x); [exact O|]. intros [F|(L & N & _)]; [now destruct (G F)|]. apply c0reg_err_part; auto using operand_lower.
Qed.

(** targets and immediates *)
Definition target_fine (t : target) : Prop := match t with TLabel l => tidy_parens raw -> part l raw | TAddress _ => True end.
Definition imm_fine (i : immediate) : Prop := match i with LocalLabel l => tidy_parens raw -> part l raw | _ => True end.
Lemma target_good t : (tidy_parens raw -> operand t) ->
  (tidy_parens raw -> tidy_hex raw -> forall r, t = #"0x" ++ r -> part (remove_all #"0x" t) t) ->
  good target_fine (lift (parse_target e s t)).
Proof.
  intros O X. unfold parse_target. destruct (find _ _) as [[a n]|]; [exact Logic.I|].
  destruct (starts_with #"0x" t) eqn:S0.
  - cbv zeta. destruct (parse_int u32 16 _); [exact Logic.I|]. apply fail_good. intros [T Th]. specialize (O T).
    eapply shown_one; [reflexivity|]. cbn [l_content]. apply (part_trans _ t); [|now apply operand_raw].
    apply starts_with_spec in S0 as [r E]. now apply (X T Th r).
  - destruct t as [|c r] eqn:Et; [exact Logic.I|]. rewrite <- Et in *. destruct (parse_int u32 10 [c]).
    + destruct (parse_int u32 10 t); [exact Logic.I|]. apply fail_good. intros [T Th]. eapply shown_one; [reflexivity|].
      cbn [l_content]. apply operand_raw. now apply O.
    + intros T. apply operand_raw. now apply O.
Qed.
Lemma starts_contains p r : contains p (p ++ r) = true.
Proof. unfold contains. destruct (find_sub p (p ++ r)) eqn:F; [reflexivity|]. exfalso. now apply (find_sub_infix [] p r). Qed.
Lemma plain_target_good t : operand t -> trim t = t -> good target_fine (lift (parse_target e s t)).
Proof.
  intros O T. apply target_good; [auto|]. intros _ Th r E. apply hexy_remove; [now apply O|exact T|]. rewrite E. apply starts_contains.
Qed.
Lemma new_good t v : good imm_fine (lift (imm_new (E:=perror) t v)).
Proof. unfold imm_new. destruct (_ =? _); [exact Logic.I|]. destruct (_ =? _); [exact Logic.I|]. destruct (_ =? _); exact Logic.I. Qed.
Lemma good_do {A B} (P : A -> Prop) (Q : B -> Prop) (m : outcome perror A) f :
  good P (lift m) -> (forall a, P a -> good Q (lift (f a))) -> good Q (lift (obind m f)).
Proof. unfold good, lift. destruct m; cbn; auto. intros H K. exact (K a H). Qed.

Lemma part_drop_end_ws x : part (drop_while_end is_ws x) x.
Proof.
  unfold drop_while_end. destruct (drop_part is_ws (rev x)) as (a & b & E). exists (rev b), (rev a).
  rewrite <- !rev_app_distr, <- app_assoc, <- E. symmetry. apply rev_involutive.
Qed.

(** [x] is the operand read, unless it is a parenthesis short. *)
Lemma imm_good ty x : (tidy_parens raw -> operand x) -> good imm_fine (aimm e s ty x).
Proof.
  intros O. unfold aimm, parse_immediate. cbv zeta.
  assert (Tt : trim (trim x) = trim x) by apply trim_idem.
  assert (Ot : tidy_parens raw -> operand (trim x)) by (intros T; apply (operand_part _ x); [apply trim_part|auto]).
  set (y := trim x) in *. clearbody y.
  destruct (starts_with #"@@" y); [intros T; apply operand_raw; auto|]. destruct (assoc y (p_labels s)); [exact Logic.I|].
  destruct (re_find_str IMM_RE y) as [m|] eqn:F.
  - apply imm_shape in F as [Pm [t ->]].
    assert (St : tidy_parens raw -> strip_parens (#"(" ++ t ++ #")") = t /\ part t y).
    { intros T. destruct (few_around t) as [A B]; [apply (few_part _ y Pm); apply operand_few; auto|]. split; [exact A|]. now apply (part_trans _ _ _ B). }
    eapply good_do.
    + apply target_good.
      * intros T. destruct (St T) as [-> P]. apply (operand_part _ y); auto.
      * intros T Th r. destruct (St T) as [-> P]. intros ->. exfalso. destruct Pm as (a & b & E).
        destruct (Ot T) as [_ Hx]. specialize (Hx Th (a ++ #"(") (r ++ #")" ++ b)).
        assert (E2 : y = (a ++ #"(") ++ #"0x" ++ r ++ #")" ++ b) by (rewrite E, <- !app_assoc; reflexivity).
        specialize (Hx E2). unfold blank in Hx. rewrite forallb_app in Hx. apply andb_prop in Hx as [_ Hx]. discriminate Hx.
    + intros tg _. destruct (Nat.ltb _ 3); [exact Logic.I|]. destruct (str_eqb _ #"%hi").
      * apply good_do with (P := fun _ => True); [destruct tg; exact Logic.I|]. intros a _.
        apply good_do with (P := fun _ => True); [unfold ck32; destruct (_ && _); [exact Logic.I|]; destruct (e_oc e); exact Logic.I|].
        intros v _. apply new_good.
      * destruct (str_eqb _ #"%lo"); [|exact Logic.I].
        apply good_do with (P := fun _ => True); [destruct tg; exact Logic.I|]. intros a _. apply new_good.
  - destruct (contains #"0x" y) eqn:C.
    + destruct (parse_int ty 16 _); [apply new_good|]. apply fail_good. intros [T Th]. eapply shown_one; [reflexivity|]. cbn [l_content].
      apply (part_trans _ y); [|apply operand_raw; auto]. apply hexy_remove; auto. now apply Ot.
    + destruct (parse_int ty 10 _); [apply new_good|]. apply fail_good. intros [T Th]. eapply shown_one; [reflexivity|]. cbn [l_content].
      apply operand_raw; auto.
Qed.

(** the arms *)
Definition inst_fine (i : inst) : Prop :=
  match i with
  | IImm _ _ _ im _ => imm_fine im
  | IJump _ t _ => target_fine t
  | _ => True
  end.
Variables op arg : str.
Hypothesis Hop : part op (clean raw).
Hypothesis Harg : part arg (clean raw).
Variable args : list str.
Hypothesis Hargs : Forall operand args.
Lemma bad_good {A} (Q : A -> Prop) n k : good Q (bad_count e s arg n k).
Proof.
  apply fail_good. intros _. eapply shown_one; [reflexivity|]. cbn [l_content]. apply (part_trans _ (clean raw)); [exact Harg|apply clean_part].
Qed.
Lemma cut_operand x o : operand x -> part o x -> operand (firstn (List.length o - 1) o).
Proof. intros O P. apply (operand_part _ x); [|exact O]. apply (part_trans _ o); [apply firstn_part|exact P]. Qed.
Lemma zero_good ty : ty = i16 -> good imm_fine (aimm e s ty #"0").
Proof.
  intros ->. unfold aimm, parse_immediate. cbv zeta. change (trim #"0") with #"0". change (starts_with #"@@" #"0") with false. cbv iota.
  destruct (assoc #"0" (p_labels s)); [exact Logic.I|]. change (re_find_str IMM_RE #"0") with (@None str). change (contains #"0x" #"0") with false. cbv iota.
  change (parse_int i16 10 #"0") with (Some 0). exact Logic.I.
Qed.
Lemma base_good x : operand x -> good (fun b => tidy_parens raw -> operand b) (lift (base_text x)).
Proof.
  intros O. unfold base_text. destruct (rev (find_iter BASE_RE x)) as [|b l] eqn:R; [exact Logic.I|].
  assert (Ib : In b (find_iter BASE_RE x)) by (apply in_rev; rewrite R; now left).
  apply base_iter_shape in Ib as [P [t ->]]. intros T.
  destruct (few_around t) as [A B]; [apply (few_part _ x P); now apply operand_few|]. rewrite A.
  apply (operand_part _ x); [|exact O]. apply (part_trans _ t); [apply trim_part|]. now apply (part_trans _ _ _ B).
Qed.
Lemma unwrap_reg_good x : good (fun _ => True) (lift (arg_reg_unwrap x)).
Proof. unfold arg_reg_unwrap. destruct (reg_from_str x); exact Logic.I. Qed.

Ltac triv := apply good_bind with (P := fun _ => True); [first [exact Logic.I|apply unwrap_good|apply as_u32_good|apply unwrap_reg_good]|intros ? _].
Ltac operand1 := assumption || (intros _; assumption).
Ltac arm := repeat lazymatch goal with
  | |- good _ (bad_count _ _ _ _ _) => apply bad_good
  | |- good _ (mbind (areg _ _ _) _) => apply good_bind with (P := fun _ => True); [apply areg_good; assumption|intros ? _]
  | |- good _ (mbind (aimm _ _ _ _) _) => apply good_bind with (P := imm_fine); [apply imm_good; intros _; assumption|intros ? ?]
  | |- good _ (mbind (check_delay _ _) _) => apply good_bind with (P := fun _ => True); [apply delay_good|intros ? _]
  | |- good _ (mbind (check_branch _ _ _ _) _) => apply good_bind with (P := fun _ => True); [apply branch_good|intros ? _]
  | |- good _ (mbind (check_jump _ _ _ _) _) => apply good_bind with (P := fun _ => True); [apply jump_good|intros ? _]
  | |- good _ (mbind (lift (iop_of _)) _) => apply good_bind with (P := fun _ => True); [apply unwrap_good|intros ? _]
  | |- good _ (mbind (lift (rop_of _)) _) => apply good_bind with (P := fun _ => True); [apply unwrap_good|intros ? _]
  | |- good _ (mbind (lift (jop_of _)) _) => apply good_bind with (P := fun _ => True); [apply unwrap_good|intros ? _]
  | |- good _ (mbind (lift (imm_as_u32 _)) _) => apply good_bind with (P := fun _ => True); [apply as_u32_good|intros ? _]
  | |- good _ (lift (Ok _)) => apply good_ok; first [exact Logic.I|assumption]
  end.
Ltac cases := destruct args as [|x1 [|x2 [|x3 [|x4 xr]]]]; try apply bad_good;
  repeat match goal with H : Forall operand (_ :: _) |- _ =>
    let H1 := fresh "O" in let H2 := fresh "Os" in assert (H1 := Forall_inv H); assert (H2 := Forall_inv_tail H); clear H end.

Lemma imm3_good : good inst_fine (parse_imm3 e s op arg args).
Proof.
  unfold parse_imm3. cases. arm. apply good_bind with (P := imm_fine); [|intros; arm].
  destruct (_ || _); apply imm_good; intros _; assumption.
Qed.
Lemma imm2_good : good inst_fine (parse_imm2 e s op arg args).
Proof. unfold parse_imm2. cases. arm. Qed.
Lemma trap_good : good inst_fine (parse_trap_imm e s op arg args).
Proof. unfold parse_trap_imm. cases. arm. Qed.
Lemma branch1_good : good inst_fine (parse_branch1 e s op arg args).
Proof. unfold parse_branch1. cases. arm. Qed.
Lemma branch2_good : good inst_fine (parse_branch2 e s op arg args).
Proof. unfold parse_branch2. cases. arm. Qed.
Lemma pjump_good : good inst_fine (parse_jump e s op arg args).
Proof.
  unfold parse_jump. cases. arm. cbv zeta. apply good_bind with (P := target_fine).
  - apply plain_target_good; [|apply trim_idem]. apply (operand_part _ x1); [apply trim_part|assumption].
  - intros t Ht. arm.
Qed.
Lemma plain_good : good inst_fine (parse_plain op).
Proof. unfold parse_plain. arm. Qed.
Lemma reg3_good : good inst_fine (parse_reg3 e s op arg args).
Proof. unfold parse_reg3. cases. arm. Qed.
Lemma sa_good x : good (fun _ => True) (lift (parse_sa x)).
Proof. unfold parse_sa. destruct (_ || _); destruct (parse_int _ _ _); exact Logic.I. Qed.
Lemma shift_good : good inst_fine (parse_shift e s op arg args).
Proof. unfold parse_shift. cases. arm. apply good_bind with (P := fun _ => True); [apply sa_good|intros ? _; arm]. Qed.
Lemma shiftv_good : good inst_fine (parse_shiftv e s op arg args).
Proof. unfold parse_shiftv. cases. arm. Qed.
Lemma code_good : good inst_fine (parse_code e s op arg args).
Proof.
  unfold parse_code. cases. apply good_bind with (P := fun _ => True); [|intros ? _; arm].
  destruct x1 as [|c x1]; [exact Logic.I|]. assert (G : good imm_fine (aimm e s u16 (trim (c :: x1)))).
  { apply imm_good. intros _. apply (operand_part _ (c :: x1)); [apply trim_part|assumption]. }
  unfold good in *. destruct (aimm e s u16 (trim (c :: x1))) as [w [i|q|q]]; cbn [snd] in *; auto.
Qed.
Lemma reg2_good : good inst_fine (parse_reg2 e s op arg args).
Proof. unfold parse_reg2. cases. arm. Qed.
Lemma jalr_good : good inst_fine (parse_jalr e s op arg args).
Proof. unfold parse_jalr. cases; arm. Qed.
Lemma move_good : good inst_fine (parse_move e s op arg args).
Proof. unfold parse_move. cases. arm. Qed.
Lemma b_good : good inst_fine (parse_b e s op arg args).
Proof. unfold parse_b. cases. arm. Qed.
Lemma li_good : good inst_fine (parse_li e s op arg args).
Proof.
  unfold parse_li. cases. arm. apply good_bind with (P := fun _ => True); [match goal with |- good _ (lift (imm_as_u64 ?i)) => destruct i; exact Logic.I end|].
  intros v _. destruct (v >? 4294967295); [|arm]. apply fail_good. intros _. eapply shown_one; [reflexivity|]. cbn [l_content]. now apply operand_raw.
Qed.
Lemma div_good : good inst_fine (parse_div e s op arg args).
Proof. unfold parse_div. cases; arm. Qed.
Lemma rs_good : good inst_fine (parse_rs e s op arg args).
Proof.
  unfold parse_rs. cases. apply good_bind with (P := fun _ => True); [|intros ? _; arm].
  destruct (str_eqb _ _); [apply delay_good|exact Logic.I].
Qed.
Lemma rd_good : good inst_fine (parse_rd e s op arg args).
Proof. unfold parse_rd. cases. arm. Qed.
Lemma dli_good : good inst_fine (parse_dli e s op arg args).
Proof. unfold parse_dli. cases. arm. Qed.
Lemma mem_good : good inst_fine (parse_mem e s op arg args).
Proof.
  unfold parse_mem. cases. apply good_bind with (P := fun _ => True).
  - destruct (str_eqb _ _).
    + arm. match goal with |- good _ (lift (match reg_try_from ?v with _ => _ end)) => destruct (reg_try_from v); exact Logic.I end.
    + apply unwrap_reg_good.
  - intros rt _. eapply good_bind; [now apply base_good|]. intros bt Hb. apply good_bind with (P := fun _ => True); [apply unwrap_reg_good|]. intros base _.
    destruct (re_find_str OFFSET_RE x2) as [o|] eqn:F.
    + arm. apply offset_shape in F as [Po _]. apply good_bind with (P := imm_fine); [|intros; arm].
      apply imm_good. intros _. now apply (cut_operand x2).
    + arm. apply good_bind with (P := imm_fine); [now apply zero_good|intros; arm].
Qed.
Lemma cop0_good : ~ general_line raw -> good inst_fine (parse_cop0 e s op arg args).
Proof. intros G. unfold parse_cop0. cases. arm. apply good_bind with (P := fun _ => True); [now apply ac0reg_good|intros; arm]. Qed.
Lemma cop1_good : ~ general_line raw -> good inst_fine (parse_cop1 e s op arg args).
Proof. intros G. unfold parse_cop1. cases. arm. apply good_bind with (P := fun _ => True); [now apply afreg_good|intros; arm]. Qed.
Lemma fmem_good : ~ general_line raw -> good inst_fine (parse_fmem e s op arg args).
Proof.
  intros G. unfold parse_fmem. cases. apply good_bind with (P := fun _ => True); [now apply afreg_good|]. intros ft _.
  eapply good_bind; [now apply base_good|]. intros bt Hb. cbv beta in Hb. apply good_bind with (P := fun _ => True).
  - unfold areg, arg_reg. destruct (reg_from_str bt) as [r|t|p] eqn:E; [exact Logic.I| |exact Logic.I].
    apply fail_good. intros [F|(_ & _ & T)]; [now destruct (G F)|]. eapply shown_one; [reflexivity|]. cbn [l_content].
    apply (part_trans _ bt); [now apply reg_err_part|]. apply operand_raw. auto.
  - intros base _. arm. apply good_bind with (P := imm_fine); [|intros; arm].
    destruct (re_find_str OFFSET_RE x2) as [o|] eqn:F; [|now apply zero_good]. apply offset_shape in F as [Po [u ->]].
    apply imm_good. intros T. rewrite few_open by (apply (few_part _ x2 Po); now apply operand_few).
    apply (operand_part _ x2); [|assumption]. apply (part_trans _ (u ++ #"(")); [now exists [], #"("|exact Po].
Qed.
Lemma word_good : operand arg -> good inst_fine (parse_word e s arg).
Proof. intros O. unfold parse_word. arm. Qed.
Lemma nth_part c x k y : nth_error (split_char c x) k = Some y -> part y x.
Proof. intros H. apply nth_error_In in H. now apply split_char_part in H. Qed.
Lemma float_good : ~ general_line raw -> good inst_fine (parse_float e s op arg args).
Proof.
  intros G. unfold parse_float. destruct (Nat.ltb _ 2); [exact Logic.I|]. cbv zeta.
  assert (Fr : forall x (B : Type) (Q : B -> Prop) f, operand x -> (forall r, good Q (f r)) -> good Q (mbind (afreg e s x) f)).
  { intros x B Q f O H. apply good_bind with (P := fun _ => True); [now apply afreg_good|auto]. }
  destruct (mem_str _ float3_names).
  { cases. do 3 (apply Fr; [assumption|intros]). arm. }
  destruct (mem_str _ float2_names).
  { cases. do 2 (apply Fr; [assumption|intros]). arm. }
  destruct (starts_with #"c." _).
  { cases. do 2 (apply Fr; [assumption|intros]). arm. apply good_bind with (P := fun _ => True); [|intros; arm].
    destruct (nth_error (split_char "." op) 1) as [cond|] eqn:N; [|exact Logic.I]. unfold parse_float_cond.
    destruct (assoc _ _); [exact Logic.I|]. apply fail_good. intros _. eapply shown_one; [reflexivity|]. cbn [l_content].
    apply (part_trans _ op); [now apply nth_part in N|]. apply (part_trans _ (clean raw)); [exact Hop|apply clean_part]. }
  apply fail_good. intros _. eapply shown_one; [reflexivity|]. cbn [l_content]. apply (part_trans _ (clean raw)); [exact Hop|apply clean_part].
Qed.
End Good.

(** ** A whole line *)
Lemma split_char_place c s : forall x, In x (split_char c s) -> exists A B, s = A ++ x ++ B /\ ~ In c x.
Proof.
  induction s as [|d s IH]; intros x; cbn [split_char].
  - intros [<-|[]]. now exists [], [].
  - destruct (Ascii.eqb_spec d c) as [->|N].
    + intros [<-|H]; [now exists [], (c :: s)|]. apply IH in H as (A & B & E & Nx). exists (c :: A), B. now rewrite E.
    + destruct (split_char c s) as [|p ps] eqn:S0; [intros [<-|[]]; exists [], s; split; [reflexivity|intros [->|[]]; congruence]|].
      intros [<-|H].
      * assert (G : forall s, match split_char c s with [] => True | q :: _ => exists B, s = q ++ B end).
        { clear. induction s as [|d s IH]; cbn [split_char]; [now exists []|]. destruct (Ascii.eqb d c); [now exists (d :: s)|].
          destruct (split_char c s); [now exists s|]. destruct IH as [B ->]. now exists B. }
        specialize (G s). rewrite S0 in G. destruct G as [B ->]. exists [], B. split; [reflexivity|].
        destruct (IH p (or_introl eq_refl)) as (_ & _ & _ & Np). intros [->|J]; [congruence|auto].
      * apply (IH x (or_intror H)) in H || (destruct (IH x (or_intror H)) as (A & B & E & Nx); exists (d :: A), B; now rewrite E).
Qed.
Lemma suffix_after (c : ascii) (P u Q w : str) : P ++ u = Q ++ c :: w -> ~ In c u -> exists k, w = k ++ u.
Proof.
  intros H N. apply app_eq_app in H as (l & [[E1 E2]|[E1 E2]]).
  - destruct l as [|d l]; [cbn in E2; exfalso; apply N; rewrite <- E2; now left|]. cbn in E2. injection E2 as _ ->. eauto.
  - exfalso. apply N. rewrite E2. apply in_or_app. right. now left.
Qed.
Lemma blank_suffix k u : blank (k ++ u) -> blank u.
Proof. unfold blank. rewrite forallb_app. intros H. now apply andb_prop in H. Qed.
Lemma operands_of raw op arg : clean raw = op ++ #" " ++ arg -> Forall (operand raw) (split_char "," arg).
Proof.
  intros E. apply Forall_forall. intros x Ix. apply split_char_place in Ix as (A & B & Ea & Nx).
  assert (P : part x (clean raw)). { exists (op ++ #" " ++ A), B. rewrite E, Ea, <- !app_assoc. reflexivity. }
  split; [exact P|]. intros [Th _] u v Ex.
  assert (Nu : ~ In ","%char u) by (intros I; apply Nx; rewrite Ex; apply in_or_app; now left).
  destruct (Th ((op ++ #" " ++ A) ++ u) (v ++ B)) as (b & w & Bw & [H|(H & _ & _ & Nb)]).
  - rewrite E, Ea, Ex, <- !app_assoc. reflexivity.
  - apply (suffix_after ","%char) in H as [k ->]; [|exact Nu]. now apply blank_suffix in Bw.
  - rewrite <- !app_assoc in H. apply app_eq_app in H as (l & [[E1 E2]|[E1 E2]]).
    + rewrite E2 in Bw. apply blank_suffix in Bw. apply (blank_suffix #" ") in Bw. now apply blank_suffix in Bw.
    + destruct l as [|d l].
      * cbn [app] in E2. rewrite <- E2 in Bw. apply (blank_suffix #" ") in Bw. now apply blank_suffix in Bw.
      * exfalso. cbn in E2. injection E2 as <- _. rewrite E1, forallb_app in Nb. apply andb_prop in Nb as [_ Nb]. discriminate Nb.
Qed.

Lemma general_no_space n : In n general_mnemonics -> ~ In " "%char n.
Proof.
  intros H I. assert (G : forallb (fun n => negb (existsb (Ascii.eqb " ") n)) general_mnemonics = true) by (vm_compute; reflexivity).
  rewrite forallb_forall in G. apply G in H. apply negb_true_iff in H. assert (K : existsb (Ascii.eqb " ") n = true) by (apply existsb_exists; exists " "%char; auto). congruence.
Qed.
Definition general_group (g : option group) : bool :=
  match g with Some GCop0 | Some GCop1 | Some GFMem | None => false | _ => true end.
Lemma general_classify n : In n general_mnemonics -> general_group (classify (trim n)) = true.
Proof.
  intros H. assert (G : forallb (fun n => general_group (classify (trim n))) general_mnemonics = true) by (vm_compute; reflexivity).
  rewrite forallb_forall in G. now apply G.
Qed.
Lemma lower_space c : Ascii.eqb (lower_char c) " " = Ascii.eqb c " ".
Proof. destruct c as [[] [] [] [] [] [] [] []]; reflexivity. Qed.
Lemma general_op raw op arg : general_line raw -> (clean raw = op ++ #" " ++ arg \/ clean raw = op /\ split_once " " (clean raw) = None) -> ~ In " "%char op ->
  general_group (classify (trim (to_lower op))) = true.
Proof.
  intros (o & r & Io & E & R) C N.
  assert (No : ~ In " "%char o).
  { intros I. apply (general_no_space _ Io). unfold to_lower. apply in_map_iff. exists " "%char. auto. }
  enough (op = o) by (subst; now apply general_classify).
  destruct C as [C|[C _]]; rewrite C in E; clear C.
  - destruct R as [->|[r' ->]].
    + exfalso. apply No. rewrite app_nil_r in E. rewrite <- E. apply in_or_app. right. now left.
    + clear -E N No. revert o E No. induction op as [|c op IH]; intros [|d o] E No; [reflexivity| | |].
      * exfalso. apply No. left. cbn in E. congruence.
      * exfalso. apply N. left. cbn in E. congruence.
      * cbn in E. injection E as -> E. f_equal. apply IH; [intros I; apply N; now right|exact E|intros I; apply No; now right].
  - destruct R as [->|[r' ->]]; [now rewrite app_nil_r in E|]. exfalso. apply N. rewrite E. apply in_or_app. right. now left.
Qed.

Lemma classify_word n : classify n = Some GWord -> n = #".word".
Proof.
  unfold classify. intros H. assert (G : forallb (fun kg => match snd kg with GWord => str_eqb (fst kg) #".word" | _ => true end) group_table = true) by (vm_compute; reflexivity).
  rewrite forallb_forall in G. assert (K : exists k, In (k, GWord) group_table /\ n = k).
  { clear G. revert H. generalize group_table as l. induction l as [|[k g] l IH]; cbn [assoc]; [discriminate|].
    destruct (str_eqb n k) eqn:E; [intros H; injection H as ->; apply str_eqb_spec in E; exists k; split; [now left|exact E]|].
    intros H. destruct (IH H) as (k' & I & E'). exists k'. split; [now right|exact E']. }
  destruct K as (k & I & ->). apply G in I. cbn in I. now apply str_eqb_spec in I.
Qed.
Lemma lower_ws c : is_ws (lower_char c) = is_ws c.
Proof. destruct c as [[] [] [] [] [] [] [] []]; reflexivity. Qed.
Lemma lower_dot c : lower_char c = "."%char -> c = "."%char.
Proof. intros H. assert (G : (if Ascii.eqb (lower_char c) "." then Ascii.eqb c "." else true) = true) by (clear; destruct c as [[] [] [] [] [] [] [] []]; reflexivity).
  rewrite H in G. now apply Ascii.eqb_eq in G. Qed.
Lemma clean_tight raw c r : clean raw = c :: r -> is_ws c = false.
Proof.
  intros E. destruct (before_comment_prefix (trim raw)) as [r2 Tr]. fold (clean raw) in Tr. rewrite E in Tr.
  destruct (trim_is_tight raw) as [T _]. rewrite Tr in T. exact T.
Qed.
Lemma dot_word raw op r : clean raw = op ++ r -> trim (to_lower op) = #".word" -> exists q, op = #"." ++ q.
Proof.
  intros E T. destruct (trim_decomp (to_lower op)) as (a & b & D & Ba & _). rewrite T in D. destruct op as [|c op].
  - exfalso. cbn in D. destruct a; discriminate D.
  - apply clean_tight in E. exists op. destruct a as [|d a].
    + cbn in D. injection D as D _. apply lower_dot in D. now subst c.
    + exfalso. cbn in D, Ba. injection D as D _. subst d. rewrite lower_ws, E in Ba. discriminate Ba.
Qed.

Theorem inst_good e s raw : clean raw <> [] -> get_line e (p_line s) = Ok (mk_line (p_line s) raw) -> good (inst_fine raw) (parse_inst e s (clean raw)).
Proof.
  intros Ne Gl. unfold parse_inst.
  assert (G : forall op arg, part op (clean raw) -> part arg (clean raw) -> Forall (operand raw) (split_char "," arg) ->
    (general_line raw -> general_group (classify (trim (to_lower op))) = true) ->
    (classify (trim (to_lower op)) = Some GWord -> operand raw arg) ->
    good (inst_fine raw) (parse_op e s op arg (split_char "," arg))).
  { intros op arg Po Pa Fo Hg Hw. unfold parse_op. generalize dependent (split_char "," arg). intros args Fo.
    destruct (classify (trim (to_lower op))) as [[]|];
      try (assert (NG : ~ general_line raw) by (intros X; specialize (Hg X); discriminate Hg)).
    - now apply mem_good.
    - now apply imm3_good.
    - now apply imm2_good.
    - now apply trap_good.
    - now apply branch1_good.
    - now apply branch2_good.
    - now apply pjump_good.
    - now apply plain_good.
    - now apply reg3_good.
    - now apply shift_good.
    - now apply shiftv_good.
    - now apply code_good.
    - now apply reg2_good.
    - now apply jalr_good.
    - now apply move_good.
    - now apply b_good.
    - now apply li_good.
    - now apply div_good.
    - now apply rs_good.
    - now apply rd_good.
    - now apply dli_good.
    - now apply b_good.
    - now apply cop0_good.
    - now apply cop1_good.
    - now apply plain_good.
    - now apply fmem_good.
    - apply word_good; auto.
    - now apply float_good. }
  destruct (split_once " " (clean raw)) as [[op arg]|] eqn:S0.
  - destruct (clean raw) as [|c r] eqn:Ec; [congruence|]. rewrite <- Ec in *. assert (E := split_once_decomp _ _ _ _ S0).
    assert (E' : clean raw = op ++ #" " ++ arg) by exact E.
    assert (Fo := operands_of raw op arg E'). apply G; [now exists [], (#" " ++ arg)|exists (op ++ #" "), []; rewrite app_nil_r, <- app_assoc; exact E'|exact Fo| |].
    + intros X. apply (general_op raw op arg X); [now left|]. clear -S0. revert op arg S0. generalize (clean raw) as l. induction l as [|d l IH]; intros op arg; cbn [split_once]; [discriminate|].
      destruct (Ascii.eqb_spec d " ") as [->|N]; [intros H; injection H as <- <-; intros []|].
      destruct (split_once " " l) as [[a b]|]; [|discriminate]. intros H. injection H as <- <-. intros [->|I]; [congruence|]. now apply (IH a b eq_refl).
    + intros W. apply classify_word in W. destruct (dot_word raw op (#" " ++ arg) E' W) as [q ->].
      split; [exists ((#"." ++ q) ++ #" "), []; rewrite app_nil_r, <- app_assoc; exact E'|]. intros Th.
      assert (N : ~ In ","%char arg). { intros I. destruct Th as [_ T2]. apply (T2 (q ++ #" " ++ arg)); [rewrite E'; reflexivity|]. apply in_or_app. right. right. exact I. }
      rewrite split_char_none in Fo by exact N. apply Forall_inv in Fo. now apply Fo.
  - destruct (clean raw) as [|c r] eqn:Ec; [congruence|]. rewrite <- Ec in *.
    assert (Oe : operand raw []). { split; [now exists [], (clean raw)|]. intros _ [|? ?] v H; discriminate H. }
    apply G; [apply part_refl|apply Oe|apply Forall_cons; [exact Oe|apply Forall_nil]| |auto].
    intros X. apply (general_op raw (clean raw) [] X); [now right|]. clear -S0. revert S0. generalize (clean raw) as l. induction l as [|d l IH]; cbn [split_once]; [intros _ []|].
    destruct (Ascii.eqb_spec d " ") as [->|N]; [discriminate|]. destruct (split_once " " l) as [[a b]|]; [discriminate|]. intros _ [->|I]; [congruence|]. now apply IH.
Qed.

(** ** A whole program *)
Lemma role_inst raw : role_of raw = Instruction -> clean raw <> [].
Proof. unfold role_of. destruct (clean raw); [|discriminate]. cbn. discriminate. Qed.
Lemma role_def raw k : role_of raw = Defines k -> part k raw.
Proof.
  unfold role_of. destruct (clean raw) as [|c r] eqn:E; [discriminate|]. destruct (ends_with #":" (c :: r)); [|discriminate].
  intros H. injection H as <-. apply (part_trans _ (clean raw)); [|apply clean_part]. rewrite E. apply firstn_part.
Qed.

Lemma adjust_one_shown e s i n ins x es p raw : adjust_one e s i n ins = Ok (x, es) -> In p es -> get_line e n = Ok (mk_line n raw) -> inst_fine raw ins -> fine p.
Proof.
  intros A Ip G F. unfold adjust_one in A. rewrite G in A. destruct ins as [o rs rt im b|o t b|o rs rt rd sa b|w]; try (injection A as _ <-; now destruct Ip).
  - destruct im as [v|v|v|loc|lbl]; try (injection A as _ <-; now destruct Ip).
    + destruct (negb (is_b_op o)); [injection A as _ <-; now destruct Ip|]. cbv zeta in A.
      apply obind_ok in A as (bad & _ & A). apply obind_ok in A as (errs & He & A). injection A as _ <-.
      destruct bad; [|injection He as <-; now destruct Ip].
      destruct (get_line e (p_line s)) as [cl| |]; [|discriminate|discriminate]. cbn [obind] in He.
      apply obind_ok in He as (hi & _ & He). injection He as <-. destruct Ip as [<-|[]].
      intros Q. eapply shown_one; [reflexivity|exact Q].
    + destruct (assoc loc (p_dropped s)) as [defs|].
      * apply obind_ok in A as (pk & _ & A). destruct pk; [injection A as _ <-; now destruct Ip|]. cbn [obind] in A. injection A as _ <-.
        destruct Ip as [<-|[]]. intros Q. eapply shown_one; [reflexivity|]. exact (F Q).
      * cbn [obind] in A. injection A as _ <-. destruct Ip as [<-|[]]. intros Q. eapply shown_one; [reflexivity|]. exact (F Q).
    + destruct (assoc lbl (p_labels s)); [|discriminate]. injection A as _ <-. now destruct Ip.
  - destruct t as [lbl|a]; [|injection A as _ <-; now destruct Ip]. destruct (assoc lbl (p_labels s)).
    + apply obind_ok in A as (? & _ & A). apply obind_ok in A as (? & _ & A). injection A as _ <-. now destruct Ip.
    + cbn [obind] in A. injection A as _ <-. destruct Ip as [<-|[]]. intros Q. eapply shown_one; [reflexivity|]. exact (F Q).
Qed.

Lemma fated_fine e s raw x : get_line e (p_line (bump s)) = Ok (mk_line (p_line (bump s)) raw) -> fated e s raw x ->
  match x with Quiet => True | Wrong p => fine p | Made i => inst_fine raw i end.
Proof.
  intros G F. destruct F as [R|k R O|k c r R E D|k j fl R Gd A N|w i R P|w p R P El Le].
  - exact Logic.I.
  - exact Logic.I.
  - intros _. eapply shown_one; [reflexivity|]. now apply role_def in R.
  - intros Q ln u m [I|[I|[]]]; inversion I; subst; [exact Q|]. cbn [l_content]. now apply role_def in R.
  - assert (X := inst_good e (bump s) raw (role_inst raw R) G). unfold good in X. now rewrite P in X.
  - assert (X := inst_good e (bump s) raw (role_inst raw R) G). unfold good in X. now rewrite P in X.
Qed.

Theorem errors_shown rt m input es p : assemble rt m input = Err es -> In p es -> quoted_as_written p -> shown p.
Proof.
  intros E Ip. change (fine p). assert (Np : forall q, assemble rt m input <> Panic q) by (intros q; congruence).
  destruct (read_to_end rt m input Np) as (s & is1 & errs & Sc & Ad & Er). set (e := mk_parser rt m input) in *.
  assert (I0 : In p (p_errors s ++ errs)) by (apply Er; eauto).
  assert (Nl := nl_of_lines input).
  destruct (sound_scan e (lines input) Nl init_state [] [] s (sound_init e) eq_refl Sc) as [fs So]. cbn [app] in So.
  assert (At : forall k raw, nth_error (lines input) k = Some raw -> exists f1 x f2, List.length f1 = k /\ sound e s (lines input) (f1 ++ x :: f2)
     /\ match x with Quiet => True | Wrong p => fine p | Made i => inst_fine raw i end).
  { intros k raw Nk. apply nth_error_split in Nk as (l1 & l2 & Ei & Lk).
    destruct (sound_at e s l1 raw l2 Nl Ei Sc) as (s1 & f1 & x & f2 & Sc1 & So1 & Fx & So2). exists f1, x, f2.
    split; [rewrite (so_fates _ _ _ _ So1); exact Lk|]. split; [exact So2|]. apply (fated_fine e s1); [|exact Fx].
    apply get_line_ready. exact (sound_ready _ _ _ _ _ _ So1 Ei). }
  apply in_app_or in I0 as [I0|I0].
  - rewrite (so_errors _ _ _ _ So) in I0. apply wrongs_in in I0 as [k Nk]. destruct (so_wrong _ _ _ _ So k p Nk) as (_ & En & Nr).
    destruct (At k _ Nr) as (f1 & x & f2 & Lf & So2 & X).
    assert (J : In p (wrongs (f1 ++ x :: f2))) by (rewrite <- (so_errors _ _ _ _ So2), (so_errors _ _ _ _ So); apply wrongs_in; eauto).
    apply wrongs_in in J as [k' Nk']. destruct (so_wrong _ _ _ _ So2 k' p Nk') as (_ & En' & _). assert (k' = k) by congruence. subst k'.
    rewrite nth_error_app2, Lf, Nat.sub_diag in Nk' by lia. cbn in Nk'. injection Nk' as ->. exact X.
  - rewrite (so_insts _ _ _ _ So) in Ad. destruct (adjust_errors e (final e s) fs 0 0 is1 errs Ad) as [Q _]. destruct (Q p I0) as [Rp Y].
    destruct (bounds_error p) eqn:Bp.
    + intros W. destruct p; try discriminate Bp. eapply shown_one; [reflexivity|exact W].
    + destruct Y as (k & ins & c & Nk & Nc & El). cbn [Nat.add] in Nc, El. destruct (At k c Nc) as (f1 & x & f2 & Lf & So2 & X).
      rewrite <- (so_insts _ _ _ _ So), (so_insts _ _ _ _ So2) in Ad.
      destruct x as [|q|i].
      * exfalso. destruct (adjust_errors e (final e s) _ 0 0 is1 errs Ad) as [Q' _]. destruct (Q' p I0) as [_ Y']. rewrite Bp in Y'.
        destruct Y' as (k' & ins' & c' & Nk' & _ & El'). rewrite El in El'. cbn [Nat.add] in El'. injection El' as Ek _. subst k'.
        rewrite nth_error_app2, Lf, Nat.sub_diag in Nk' by lia. discriminate Nk'.
      * exfalso. destruct (adjust_errors e (final e s) _ 0 0 is1 errs Ad) as [Q' _]. destruct (Q' p I0) as [_ Y']. rewrite Bp in Y'.
        destruct Y' as (k' & ins' & c' & Nk' & _ & El'). rewrite El in El'. cbn [Nat.add] in El'. injection El' as Ek _. subst k'.
        rewrite nth_error_app2, Lf, Nat.sub_diag in Nk' by lia. discriminate Nk'.
      * destruct (error_from e (final e s) f1 i f2 is1 errs p Ad I0 Bp) as (x1 & e2 & A & J); [unfold error_number; rewrite El, Lf; reflexivity|].
        apply (adjust_one_shown _ _ _ _ _ _ _ p c A J); [|exact X]. unfold get_line. rewrite Lf, Nat.sub_succ, Nat.sub_0_r.
        change (e_input e) with (lines input) in *. now rewrite Nc.
Qed.
