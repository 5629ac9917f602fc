(** * RegProofs: exactly the texts that are read as registers (C43). *)

From Coq Require Import Lia.
From Verif Require Import PanicProofs QuietProofs Lib SpecIsa StrLemmas NumLemmas DecodeProofs TextProofs OperandProofs NativeProofs LineProofs ScanProofs ProgProofs AsmProofs
  LabelProofs ErrorProofs ImmProofs ImmLines SpecText SpecProgram SpecRegs.

Lemma digit_back16 c d : to_digit 16 c = Some d -> digit 16 c d.
Proof.
  destruct c as [[] [] [] [] [] [] [] []]; intros H; vm_compute in H; try discriminate H; injection H as <-;
    (split; [lia|first [left; reflexivity|right; reflexivity]]).
Qed.
Section Radix.
Variable r : Z.
Hypothesis Hr : r = 10 \/ r = 16.
Lemma radix_digit c d : to_digit r c = Some d -> digit r c d.
Proof. destruct Hr as [-> | ->]; [apply digit_back|apply digit_back16]. Qed.
Lemma radix_back s : forall pre v0 v, digits r pre v0 -> digits_val r v0 s = Some v -> digits r (pre ++ s) v.
Proof.
  induction s as [|c s IH]; intros pre v0 v D H; cbn [digits_val] in H; [injection H as <-; now rewrite app_nil_r|].
  destruct (to_digit r c) as [d|] eqn:T; [|discriminate]. apply radix_digit in T.
  change (pre ++ c :: s) with (pre ++ [c] ++ s). rewrite app_assoc. apply (IH _ (v0 * r + d)); [now constructor|exact H].
Qed.
Lemma radix_val_back s v : s <> [] -> digits_val r 0 s = Some v -> digits r s v.
Proof.
  intros N H. destruct s as [|c s]; [congruence|]. cbn [digits_val] in H. destruct (to_digit r c) as [d|] eqn:T; [|discriminate].
  apply radix_digit in T. change (c :: s) with ([c] ++ s). replace (0 * r + d) with d in H by lia. apply (radix_back s [c] d); [now constructor|exact H].
Qed.
Lemma in_range_u32 v v' : in_range u32 v = Some v' -> v' = v /\ 0 <= v < 2 ^ 32.
Proof.
  unfold in_range. change (it_min u32) with 0. change (it_max u32) with (2 ^ 32 - 1). destruct (Z.leb_spec 0 v); [|discriminate].
  destruct (Z.leb_spec v (2 ^ 32 - 1)); [|discriminate]. cbn [andb]. intros E. injection E as <-. lia.
Qed.
Lemma u32_in_range v : 0 <= v < 2 ^ 32 -> in_range u32 v = Some v.
Proof.
  intros H. unfold in_range. change (it_min u32) with 0. change (it_max u32) with (2 ^ 32 - 1). destruct (Z.leb_spec 0 v); [|lia].
  destruct (Z.leb_spec v (2 ^ 32 - 1)); [reflexivity|lia].
Qed.
Lemma parse_unsigned s v : parse_int u32 r s = Some v <-> unsigned r s v /\ v < 2 ^ 32.
Proof.
  split.
  - unfold parse_int. destruct s as [|c t]; [discriminate|]. destruct (Ascii.eqb_spec c "+") as [->|N]; cbn [orb].
    + destruct t as [|d t]; [discriminate|]. destruct (digits_val r 0 (d :: t)) as [u|] eqn:D; [|discriminate].
      intros H. apply in_range_u32 in H as [-> H]. split; [|lia]. exists #"+", (d :: t). split; [reflexivity|]. split; [now right|]. apply radix_val_back; [discriminate|exact D].
    + destruct (Ascii.eqb c "-"); [destruct t; discriminate|]. destruct (digits_val r 0 (c :: t)) as [u|] eqn:D; [|discriminate].
      intros H. apply in_range_u32 in H as [-> H]. split; [|lia]. exists [], (c :: t). split; [reflexivity|]. split; [now left|]. apply radix_val_back; [discriminate|exact D].
  - intros [(plus & ds & -> & P & D) L]. assert (R : 2 <= r <= 16) by lia. destruct (digits_spec r ds v R D) as (V & N & A & Z).
    assert (I := u32_in_range v (conj Z L)). destruct P as [-> | ->].
    + cbn [app]. rewrite (parse_int_digits u32 r ds v A N V). exact I.
    + change (#"+" ++ ds) with ("+"%char :: ds). unfold parse_int. cbn [Ascii.eqb orb]. change (Ascii.eqb "+" "+") with true. cbn [orb]. destruct ds as [|c ds]; [congruence|]. rewrite V. exact I.
Qed.
Lemma unsigned_fun s v w : unsigned r s v -> unsigned r s w -> v = w.
Proof.
  intros (p & ds & -> & P & D) (q & es & E & Q & D'). assert (R : 2 <= r <= 16) by lia.
  destruct (digits_spec r ds v R D) as (V & N & A & _). destruct (digits_spec r es w R D') as (V' & N' & A' & _).
  assert (H : forall l, all_hex l -> forall t, l <> #"+" ++ t) by (intros l Hl t ->; specialize (Hl "+"%char (or_introl eq_refl)); cbn in Hl; repeat (destruct Hl as [Hl|Hl]; [discriminate Hl|]); exact Hl).
  assert (ds = es) as <-; [|congruence]. destruct P as [-> | ->], Q as [-> | ->]; cbn [app] in E.
  - exact E.
  - exfalso. exact (H ds A es E).
  - exfalso. exact (H es A' ds (eq_sym E)).
  - now injection E.
Qed.
End Radix.

(** ** Dollar signs *)

Lemma cls_all c d : forallb (cls c) d = forallb (Ascii.eqb c) d.
Proof. induction d as [|x d IH]; [reflexivity|]. cbn [forallb]. now rewrite IH, Ascii.eqb_sym. Qed.
Lemma drop_all (p : ascii -> bool) d s : forallb p d = true -> (forall c, hd_error s = Some c -> p c = false) -> drop_while p (d ++ s) = s.
Proof.
  induction d as [|c d IH]; intros F H.
  - cbn [app]. destruct s as [|c s]; [reflexivity|]. cbn [drop_while]. now rewrite (H c eq_refl).
  - cbn [forallb] in F. apply andb_true_iff in F as [F1 F2]. cbn [app drop_while]. rewrite F1. auto.
Qed.

Definition starts_bare (s : str) : Prop := forall c, hd_error s = Some c -> cls "$" c = false.
Lemma unsigned_chars r s v : r = 10 \/ r = 16 -> unsigned r s v -> starts_bare s.
Proof.
  intros Hr (p & ds & -> & P & D) c H. assert (R : 2 <= r <= 16) by lia. destruct (digits_spec r ds v R D) as (_ & N & A & _).
  destruct P as [-> | ->]; [|injection H as <-; reflexivity]. destruct ds as [|d ds]; [congruence|]. injection H as <-.
  specialize (A d (or_introl eq_refl)). cbn in A. repeat (destruct A as [<-|A]; [reflexivity|]). destruct A.
Qed.
Lemma token_bare t : token_ok t -> starts_bare t.
Proof. intros T c H. exact (token_hd t c T H). Qed.
Lemma gpr_bare s n : gpr_reading s n -> starts_bare s.
Proof.
  intros [n' s' R E| |s' n' R U|rs ds n' R F D].
  - apply token_bare. apply (gpr_token_ok _ n'). now apply gpr_named.
  - intros c H. injection H as <-. reflexivity.
  - eapply unsigned_chars; [left; reflexivity|exact U].
  - destruct rs as [|c rs].
    + apply (unsigned_chars 10 ds n'); [now left|]. exists [], ds. auto.
    + cbn [forallb] in F. apply andb_true_iff in F as [F _]. apply Ascii.eqb_eq in F. subst c. intros c H. injection H as <-. reflexivity.
Qed.
Lemma fpr_bare s n : fpr_reading s n -> starts_bare s.
Proof.
  intros [n' s' R E|n' s' R E|s' n' R U|s' n' R [U _]].
  - apply token_bare. apply (fpr_token_ok _ n'). now apply fpr_named.
  - apply token_bare. apply (fpr_token_ok _ n'). now apply fpr_f.
  - eapply unsigned_chars; [left; reflexivity|exact U].
  - eapply unsigned_chars; [right; reflexivity|exact U].
Qed.
Lemma cop0_bare s n : cop0_reading s n -> starts_bare s.
Proof.
  intros [n' s' t R E|s' n' t R U|s' n' t R [U _]].
  - apply token_bare. apply (cop0_token_ok _ n'). now apply (cop0_named _ _ t).
  - eapply unsigned_chars; [left; reflexivity|exact U].
  - eapply unsigned_chars; [right; reflexivity|exact U].
Qed.
(** What is left of a text without its [$]s. *)
Lemma after_dollars (reading : str -> Z -> Prop) x n : (forall s k, reading s k -> starts_bare s) ->
  (dollars reading x n <-> reading (drop_while (cls "$") x) n).
Proof.
  intros B. split.
  - intros (d & s & -> & F & R). rewrite <- cls_all in F. now rewrite (drop_all _ d s F (B s n R)).
  - intros R. destruct (drop_while_decomp (cls "$") x) as (d & E & F). exists d, (drop_while (cls "$") x). rewrite cls_all in F. auto.
Qed.

(** ** Numbers in two radices *)

Lemma dec_hex ds v : digits 10 ds v -> exists w, digits 16 ds w /\ v <= w /\ 0 <= v.
Proof.
  assert (W : forall c d, digit 10 c d -> digit 16 c d) by (intros c d [[? ?] Hd]; split; [lia|exact Hd]).
  induction 1 as [c d D|s v c d D (w & D' & L & P) Dc].
  - exists d. split; [apply digits_one; auto|]. destruct D. lia.
  - exists (w * 16 + d). split; [apply digits_snoc; auto|]. destruct Dc. lia.
Qed.
Lemma hex_not_dec s v : parse_int u32 16 s = Some v -> parse_int u32 10 s = None -> hexadecimal s v /\ v < 2 ^ 32.
Proof.
  intros H D. apply parse_unsigned in H as [H L]; [|now right]. split; [|exact L]. split; [exact H|]. intros w U.
  destruct (Z.lt_ge_cases w (2 ^ 32)) as [X|X].
  - assert (Y : parse_int u32 10 s = Some w) by (apply parse_unsigned; auto). congruence.
  - destruct U as (p & ds & E & P & U). destruct (dec_hex ds w U) as (w' & U' & Lw & _).
    assert (v = w') by (apply (unsigned_fun 16 (or_intror eq_refl) s); [exact H|]; exists p, ds; auto). lia.
Qed.
Lemma hex_parses s v : hexadecimal s v -> v < 2 ^ 32 -> parse_int u32 16 s = Some v /\ parse_int u32 10 s = None.
Proof.
  intros [U N] L. split; [apply parse_unsigned; auto|]. destruct (parse_int u32 10 s) as [w|] eqn:E; [|reflexivity].
  apply parse_unsigned in E as [E _]; [|now left]. exfalso. exact (N w E).
Qed.

(** ** Floating-point registers *)

Lemma freg_try_range n r : freg_try_from n = Ok r -> 0 <= n < 32 /\ freg_num r = n.
Proof.
  intros H. assert (K : 0 <= n < 32).
  { unfold freg_try_from in H. destruct n as [|q|q]; try discriminate; [lia|].
    repeat (let q' := fresh "q" in destruct q as [q'|q'|]; [rename q' into q|rename q' into q|]; try discriminate; try lia). }
  split; [exact K|]. enum5 K; vm_compute in H; injection H as <-; reflexivity.
Qed.
Lemma freg_try_num n : 0 <= n < 32 -> freg_try_from n = Ok (freg_of_num n).
Proof. intros R. enum5 R; reflexivity. Qed.
Lemma freg_num_range f : 0 <= freg_num f < 32.
Proof. destruct f; cbn; lia. Qed.
Lemma assoc_freg_back r x : assoc (to_lower r) freg_table = Some x -> same_letters r (nth_name fpr_names (freg_num x)) \/ same_letters r (#"f" ++ dec (freg_num x)).
Proof.
  intros H. apply assoc_in in H.
  assert (T : forallb (fun kv => str_eqb (fst kv) (to_lower (nth_name fpr_names (freg_num (snd kv)))) || str_eqb (fst kv) (to_lower (#"f" ++ dec (freg_num (snd kv))))) freg_table = true) by (vm_compute; reflexivity).
  rewrite forallb_forall in T. specialize (T _ H). cbn [fst snd] in T. apply orb_true_iff in T as [T|T]; apply str_eqb_spec in T; [left|right]; exact T.
Qed.
Lemma freg_no_hex s v : parse_int u32 16 s = Some v -> 0 <= v < 32 -> assoc (to_lower s) freg_table = None.
Proof.
  intros P R. destruct (assoc (to_lower s) freg_table) as [x|] eqn:A; [|reflexivity]. exfalso. apply assoc_in in A.
  assert (T : forallb (fun kv : str * freg => match parse_int u32 16 (fst kv) with Some v => 32 <=? v | None => true end) freg_table = true) by (vm_compute; reflexivity).
  rewrite forallb_forall in T. specialize (T _ A). cbn [fst] in T. rewrite parse_int_lower, P in T. apply Z.leb_le in T. lia.
Qed.
Lemma freg_core_back s f : freg_core s = Ok f -> fpr_reading s (freg_num f).
Proof.
  unfold freg_core. intros H. destruct (parse_int u32 10 s) as [n|] eqn:P.
  - apply freg_try_range in H as [R <-]. apply parse_unsigned in P as [P _]; [|now left]. now apply fr_number.
  - destruct (assoc (to_lower s) freg_table) as [y|] eqn:A.
    + injection H as <-. destruct (assoc_freg_back s y A) as [B|B]; [apply fr_named|apply fr_f]; auto; apply freg_num_range.
    + destruct (parse_int u32 16 s) as [n|] eqn:Q; [|discriminate]. apply freg_try_range in H as [R <-]. apply fr_hex; [exact R|]. now apply hex_not_dec.
Qed.
Lemma freg_core_reads s n : fpr_reading s n -> freg_core s = Ok (freg_of_num n).
Proof.
  intros [n' s' R E|n' s' R E|s' n' R U|s' n' R U].
  - apply fpr_token_core. now apply fpr_named.
  - apply fpr_token_core. now apply fpr_f.
  - unfold freg_core. assert (P : parse_int u32 10 s' = Some n') by (apply parse_unsigned; [now left|]; split; [exact U|lia]). rewrite P. now apply freg_try_num.
  - unfold freg_core. destruct (hex_parses s' n' U) as [P Q]; [lia|]. rewrite Q, (freg_no_hex _ _ P R), P. now apply freg_try_num.
Qed.

(** ** Coprocessor 0 registers *)

Lemma c0reg_try_range n r : c0reg_try_from n = Ok r -> c0reg_num r = n /\ exists t, num_assoc n cop0_names = Some t.
Proof.
  intros H. assert (K : 0 <= n < 32).
  { unfold c0reg_try_from in H. destruct n as [|q|q]; try discriminate; [lia|].
    repeat (let q' := fresh "q" in destruct q as [q'|q'|]; [rename q' into q|rename q' into q|]; try discriminate; try lia). }
  enum5 K; vm_compute in H; try discriminate; injection H as <-; (split; [reflexivity|eexists; vm_compute; reflexivity]).
Qed.
Lemma c0reg_try_num n t : num_assoc n cop0_names = Some t -> c0reg_try_from n = Ok (c0reg_of_num n).
Proof. intros A. assert (R := cop0_range _ _ A). enum5 R; vm_compute in A; try discriminate; reflexivity. Qed.
Lemma c0reg_named f : exists t, num_assoc (c0reg_num f) cop0_names = Some t.
Proof. destruct f; eexists; vm_compute; reflexivity. Qed.
Lemma assoc_c0reg_back r x : assoc (to_lower r) c0reg_table = Some x -> exists t, num_assoc (c0reg_num x) cop0_names = Some t /\ same_letters r t.
Proof.
  intros H. apply assoc_in in H.
  assert (T : forallb (fun kv => match num_assoc (c0reg_num (snd kv)) cop0_names with Some t => str_eqb (fst kv) (to_lower t) | None => false end) c0reg_table = true) by (vm_compute; reflexivity).
  rewrite forallb_forall in T. specialize (T _ H). cbn [fst snd] in T. destruct (num_assoc _ _) as [t|]; [|discriminate]. apply str_eqb_spec in T. exists t. auto.
Qed.
Lemma c0reg_core_back s f : c0reg_core s = Ok f -> cop0_reading s (c0reg_num f).
Proof.
  unfold c0reg_core. intros H. destruct (parse_int u32 10 s) as [n|] eqn:P.
  - apply c0reg_try_range in H as [<- [t R]]. apply parse_unsigned in P as [P _]; [|now left]. now apply (cr_number _ _ t).
  - destruct (parse_int u32 16 s) as [n|] eqn:Q.
    + apply c0reg_try_range in H as [<- [t R]]. apply (cr_hex _ _ t); [exact R|]. now apply hex_not_dec.
    + destruct (assoc (to_lower s) c0reg_table) as [y|] eqn:A; [|discriminate]. injection H as <-.
      destruct (assoc_c0reg_back s y A) as (t & R & B). now apply (cr_named _ _ t).
Qed.
Lemma c0reg_core_reads s n : cop0_reading s n -> c0reg_core s = Ok (c0reg_of_num n).
Proof.
  intros [n' s' t R E|s' n' t R U|s' n' t R U]; assert (K := cop0_range _ _ R).
  - apply cop0_token_core. now apply (cop0_named _ _ t).
  - unfold c0reg_core. assert (P : parse_int u32 10 s' = Some n') by (apply parse_unsigned; [now left|]; split; [exact U|lia]). rewrite P. now apply (c0reg_try_num _ t).
  - unfold c0reg_core. destruct (hex_parses s' n' U) as [P Q]; [lia|]. rewrite Q, P. now apply (c0reg_try_num _ t).
Qed.

(** ** General registers *)

Lemma rs_digits_find rs ds v : forallb (cls "r") rs = true -> rs <> [] -> digits 10 ds v -> re_find REG_RE (rs ++ ds) <> None /\ drop_while (cls "r") (rs ++ ds) = ds.
Proof.
  intros F N D. destruct (digits_spec 10 ds v ltac:(lia) D) as (V & Nd & A & _).
  destruct ds as [|c ds]; [congruence|]. cbn [digits_val] in V. destruct (to_digit 10 c) as [d|] eqn:T; [|discriminate].
  assert (Dc : is_digit c = true /\ cls "r" c = false).
  { clear - T. destruct c as [[] [] [] [] [] [] [] []]; vm_compute in T; try discriminate T; split; reflexivity. }
  destruct Dc as [Dc Rc]. split.
  - induction rs as [|x rs IH]; [congruence|]. cbn [forallb] in F. apply andb_true_iff in F as [F1 F2].
    cbn [app re_find]. destruct rs as [|y rs].
    + assert (E : prefix_matches REG_RE (x :: c :: ds) <> []).
      { unfold REG_RE. cbn [prefix_matches]. rewrite F1. cbn [flat_map skipn app]. rewrite Dc. cbn [flat_map skipn app]. destruct ds as [|z ds]; [discriminate|]. cbn [is_digit]. destruct (is_digit z); discriminate. }
      cbn [app]. destruct (prefix_matches REG_RE (x :: c :: ds)); [congruence|discriminate].
    + destruct (prefix_matches REG_RE _); [|discriminate]. specialize (IH F2 ltac:(discriminate)). destruct (re_find REG_RE ((y :: rs) ++ c :: ds)) as [[]|]; [discriminate|congruence].
  - apply drop_all; [exact F|]. intros z H. injection H as <-. exact Rc.
Qed.

Lemma reg_try_num n : 0 <= n < 32 -> reg_try_from n = Ok (reg_of_num n).
Proof. intros R. enum5 R; reflexivity. Qed.
Lemma r_digit_spec s : r_digit s = true <-> has_r_digit s.
Proof.
  split.
  - induction s as [|c s IH]; [discriminate|]. cbn [r_digit]. intros H. apply orb_true_iff in H as [H|H].
    + apply andb_true_iff in H as [E D]. apply Ascii.eqb_eq in E. subst c. destruct s as [|d s]; [discriminate|]. exists [], d, s. auto.
    + destruct (IH H) as (a & d & b & -> & D). exists (c :: a), d, b. auto.
  - intros (a & c & b & -> & D). induction a as [|x a IH].
    + cbn [app]. change (#"r" ++ c :: b) with ("r"%char :: c :: b). cbn [r_digit]. change (Ascii.eqb "r" "r") with true. rewrite D. reflexivity.
    + cbn [app r_digit]. cbn [app] in IH. rewrite IH. apply orb_true_r.
Qed.
Lemma r_digit_found s : r_digit s = true -> re_find REG_RE s <> None.
Proof.
  induction s as [|c s IH]; [discriminate|]. cbn [r_digit re_find]. intros H. destruct (prefix_matches REG_RE (c :: s)) as [|n l] eqn:E; [|discriminate].
  apply orb_true_iff in H as [H|H].
  - exfalso. apply andb_true_iff in H as [H D]. destruct s as [|d s]; [discriminate|]. revert E. unfold REG_RE. cbn [prefix_matches]. unfold cls. rewrite H.
    cbn [flat_map skipn app]. rewrite D. cbn [flat_map skipn app]. destruct s as [|z s]; [discriminate|]. destruct (is_digit z); discriminate.
  - specialize (IH H). destruct (re_find REG_RE s); [destruct p; discriminate|congruence].
Qed.
Lemma r_digit_iff s : (re_find REG_RE s = None) <-> r_digit s = false.
Proof.
  split; [|apply r_digit_find]. intros H. destruct (r_digit s) eqn:E; [|reflexivity]. exfalso. now apply (r_digit_found s E).
Qed.
Lemma digits_no_r r ds v : r = 10 \/ r = 16 -> digits r ds v -> r_digit ds = false.
Proof.
  intros Hr D. destruct (digits_spec r ds v ltac:(lia) D) as (_ & _ & A & _). apply no_rdigit. intros a c b ->.
  exfalso. specialize (A "r"%char). assert (I : In "r"%char (a ++ #"r" ++ [c] ++ b)) by (apply in_or_app; right; now left). specialize (A I).
  cbn in A. repeat (destruct A as [A|A]; [discriminate A|]). exact A.
Qed.
Lemma reg_core_reading x s r : reg_core x s = Ok r -> gpr_reading s (reg_num r).
Proof.
  unfold reg_core. intros H. destruct (re_find REG_RE s) as [p|] eqn:E.
  - destruct (parse_int u32 10 (drop_while (cls "r") s)) as [n|] eqn:P; [|discriminate].
    apply reg_try_range in H as [R <-]. apply parse_unsigned in P as [(plus & ds & P & Pl & D) _]; [|now left].
    destruct (drop_while_decomp (cls "r") s) as (rs & Es & F). rewrite P in Es. destruct Pl as [-> | ->].
    + rewrite Es. cbn [app]. rewrite cls_all in F. now apply gr_r.
    + exfalso. assert (Nr : r_digit s = false).
      { rewrite Es. clear Es E P. induction rs as [|c rs IH].
        - cbn [app]. change (#"+" ++ ds) with ("+"%char :: ds). cbn [r_digit]. change (Ascii.eqb "+" "r") with false. cbn [andb orb]. now apply (digits_no_r 10 ds (reg_num r)); [left|].
        - cbn [forallb] in F. apply andb_true_iff in F as [_ F]. cbn [app r_digit]. rewrite (IH F), orb_false_r. destruct rs as [|d rs].
          + cbn [app]. change (#"+" ++ ds) with ("+"%char :: ds). cbv iota. change (is_digit "+") with false. apply andb_false_r.
          + cbn [forallb] in F. apply andb_true_iff in F as [F _]. unfold cls in F. apply Ascii.eqb_eq in F. subst d. cbn [app]. change (is_digit "r") with false. apply andb_false_r. }
      apply r_digit_iff in Nr. congruence.
  - destruct (parse_int u32 10 s) as [n|] eqn:P.
    + apply reg_try_range in H as [R <-]. apply parse_unsigned in P as [P _]; [|now left]. now apply gr_number.
    + destruct (assoc (to_lower s) reg_table) as [y|] eqn:A; [|discriminate]. injection H as <-.
      apply assoc_reg_back in A as [A|[[A A0]|A]].
      * subst s. discriminate E.
      * subst s. rewrite A0. apply gr_upper.
      * apply gr_named; [apply reg_num_range|exact A].
Qed.
Lemma reg_core_reads x s n : gpr_reading s n -> reg_core x s = Ok (reg_of_num n).
Proof.
  intros [n' s' R E| |s' n' R U|rs ds n' R F D].
  - apply gpr_token_core. now apply gpr_named.
  - reflexivity.
  - unfold reg_core. assert (P : parse_int u32 10 s' = Some n') by (apply parse_unsigned; [now left|]; split; [exact U|lia]).
    assert (N : re_find REG_RE s' = None).
    { apply r_digit_find. destruct U as (p & ds & -> & Pl & D). assert (Nr := digits_no_r 10 ds n' (or_introl eq_refl) D). destruct Pl as [-> | ->]; [exact Nr|]. change (#"+" ++ ds) with ("+"%char :: ds). cbn [r_digit]. exact Nr. }
    rewrite N, P. now apply reg_try_num.
  - rewrite <- cls_all in F. destruct rs as [|c rs].
    + unfold reg_core. cbn [app]. rewrite (r_digit_find ds (digits_no_r 10 ds n' (or_introl eq_refl) D)).
      assert (P : parse_int u32 10 ds = Some n') by (apply parse_unsigned; [now left|]; split; [exists [], ds; auto|lia]). rewrite P. now apply reg_try_num.
    + destruct (rs_digits_find (c :: rs) ds n' F ltac:(discriminate) D) as [Fd Dr]. unfold reg_core. destruct (re_find REG_RE ((c :: rs) ++ ds)); [|congruence]. rewrite Dr.
      assert (P : parse_int u32 10 ds = Some n') by (apply parse_unsigned; [now left|]; split; [exists [], ds; auto|lia]). rewrite P. now apply reg_try_num.
Qed.

(** ** Operands *)

Lemma gpr_operand x : no_ws x -> (forall n, dollars gpr_reading x n -> reg_from_str x = Ok (reg_of_num n))
  /\ (forall r, reg_from_str x = Ok r -> dollars gpr_reading x (reg_num r)).
Proof.
  intros W. rewrite reg_from_core. unfold after_dollar. rewrite (trim_no_ws x W). split; [intros n H|intros r H]; apply (after_dollars gpr_reading x _ gpr_bare) in H || apply (after_dollars gpr_reading x _ gpr_bare).
  - now apply reg_core_reads.
  - now apply reg_core_reading in H.
Qed.
Lemma fpr_operand x : no_ws x -> (forall n, dollars fpr_reading x n -> freg_from_str x = Ok (freg_of_num n))
  /\ (forall r, freg_from_str x = Ok r -> dollars fpr_reading x (freg_num r)).
Proof.
  intros W. change (freg_from_str x) with (freg_core (after_dollar x)). unfold after_dollar. rewrite (trim_no_ws x W). split; [intros n H|intros r H]; apply (after_dollars fpr_reading x _ fpr_bare) in H || apply (after_dollars fpr_reading x _ fpr_bare).
  - now apply freg_core_reads.
  - now apply freg_core_back in H.
Qed.
Lemma cop0_operand x : no_ws x -> (forall n, dollars cop0_reading x n -> c0reg_from_str x = Ok (c0reg_of_num n))
  /\ (forall r, c0reg_from_str x = Ok r -> dollars cop0_reading x (c0reg_num r)).
Proof.
  intros W. change (c0reg_from_str x) with (c0reg_core (after_dollar x)). unfold after_dollar. rewrite (trim_no_ws x W). split; [intros n H|intros r H]; apply (after_dollars cop0_reading x _ cop0_bare) in H || apply (after_dollars cop0_reading x _ cop0_bare).
  - now apply c0reg_core_reads.
  - now apply c0reg_core_back in H.
Qed.

(** ** Lines *)

Lemma panic_alone rt m l q : no_nl l -> clean l <> [] -> ends_with #":" (clean l) = false ->
  (forall s, ready (mk_parser rt m l) s l -> exists w, parse_inst (mk_parser rt m l) s (clean l) = (w, Panic q)) ->
  assemble rt m l = Panic q.
Proof.
  intros N Ne Ec H. assert (E : lines l = [l]) by (apply lines_single; [exact N|]; intros ->; now apply Ne).
  set (e := mk_parser rt m l) in *.
  destruct (H (bump init_state)) as (w & P); [apply (after_ready e [] l []); [exact E|split; cbn; lia]|].
  unfold assemble, parse. fold e. change (e_input e) with (lines l). rewrite E. cbn [scan_lines].
  assert (St : step_line e init_state l = Panic q).
  { unfold step_line. rewrite clean_spec by exact N. cbv zeta. change (mk_pstate _ _ _ _ (S (p_line init_state)) _ _) with (bump init_state) at 1.
    unfold scan_line. rewrite Ec. destruct (clean l) as [|c r]; [congruence|]. rewrite P. reflexivity. }
  rewrite St. reflexivity.
Qed.

(** What parsing a line gives, given what its register operand is read as. *)
Definition parses {R} (l : str) (o : outcome str R) (f : R -> inst) : Prop :=
  clean l <> [] /\ ends_with #":" (clean l) = false
  /\ forall e s, ready e s l -> exists w, match o with
     | Ok r => parse_inst e s (clean l) = (w, Ok (f r))
     | Err _ => exists p, parse_inst e s (clean l) = (w, Err p)
     | Panic q => parse_inst e s (clean l) = (w, Panic q)
     end.
Lemma same_after x y : trim y = x -> no_ws x -> after_dollar y = after_dollar x.
Proof. intros E W. unfold after_dollar. now rewrite E, (trim_no_ws x W). Qed.
Lemma token_line name xs x : Forall operand_ok xs -> operand_ok x -> name_ok name -> no_nl (name ++ #" " ++ join #"," (xs ++ [x])) -> 
  let l := name ++ #" " ++ join #"," (xs ++ [x]) in
  clean l <> [] /\ ends_with #":" (clean l) = false /\
  forall e s, exists op arg ys, to_lower op = to_lower name /\ parse_inst e s (clean l) = parse_op e s op arg ys /\ Forall2 (fun t y => padded t y /\ no_nl y) (xs ++ [x]) ys.
Proof.
  intros Fx O Nm Nl l. assert (F : Forall operand_ok (xs ++ [x])) by (apply Forall_app; auto).
  assert (L : instruction_line name (xs ++ [x]) l).
  { unfold l. destruct (xs ++ [x]) as [|t ts] eqn:E; [destruct xs; discriminate|]. apply plain_statement. }
  destruct (line_parse (mk_env [] 0 [] false (fun x => x)) init_state name (xs ++ [x]) l Nm F Nl L) as (_ & _ & _ & _ & _ & Ne & Ec & _).
  split; [exact Ne|]. split; [exact Ec|]. intros e s.
  destruct (line_parse e s name (xs ++ [x]) l Nm F Nl L) as (op & arg & ys & SL & V & _ & _ & P & _).
  exists op, arg, ys. split; [exact SL|]. split; [exact P|]. destruct V as [[V _]|[_ V]]; [destruct xs; discriminate|exact V].
Qed.
Lemma jr_parses x : token x -> parses (#"jr " ++ x) (reg_from_str x) (fun r => IReg R_Jr r reg_null reg_null 0 []).
Proof.
  intros T. destruct (token_operand x T) as [O W]. assert (Nl : no_nl (#"jr " ++ x)) by exact (plain_no_nl #"jr" x eq_refl W).
  assert (Nm : name_ok #"jr") by (apply name_okb_ok; reflexivity).
  destruct (token_line #"jr" [] x (Forall_nil _) O Nm Nl) as (Ne & Ec & H). split; [exact Ne|]. split; [exact Ec|]. intros e s Rd.
  destruct (H e s) as (op & arg & ys & SL & P & V). change (#"jr " ++ x) with (#"jr" ++ #" " ++ join #"," ([] ++ [x])). rewrite P. clear P H.
  inversion V as [|? y ? ? [Py _] V']; subst. inversion V'; subst. unfold parse_op. rewrite SL.
  change (classify (trim (to_lower #"jr"))) with (Some GRs). cbv iota. unfold parse_rs. rewrite SL.
  change (str_eqb (trim (to_lower #"jr")) #"jr") with true. cbv iota. rewrite (check_delay_ok e s _ Rd).
  unfold areg, arg_reg. rewrite !reg_from_core, (same_after x y (padded_trim_token _ _ Py W) W).
  assert (Rj : rop_of op = Ok R_Jr) by (rewrite (rop_of_letters _ #"jr" SL); reflexivity).
  eexists. unfold reg_core. destruct (re_find REG_RE (after_dollar x)).
  - destruct (parse_int _ _ _) as [n|]; [|reflexivity]. destruct (reg_try_from n) as [r|t|q].
    + cbn [lift mbind]. rewrite Rj. reflexivity.
    + unfold fail_at. rewrite (get_line_ready e s _ Rd). eexists. reflexivity.
    + reflexivity.
  - destruct (parse_int _ _ _) as [n|]; [destruct (reg_try_from n) as [r|t|q]|destruct (assoc _ _)].
    + cbn [lift mbind]. rewrite Rj. reflexivity.
    + unfold fail_at. rewrite (get_line_ready e s _ Rd). eexists. reflexivity.
    + reflexivity.
    + cbn [lift mbind]. rewrite Rj. reflexivity.
    + unfold fail_at. rewrite (get_line_ready e s _ Rd). eexists. reflexivity.
Qed.
Lemma zero_reads y : padded #"$zero" y -> reg_from_str y = Ok Zero.
Proof. intros P. rewrite (reg_parse y #"$zero" 0 P zero_text). reflexivity. Qed.
Lemma pair_no_nl name x : no_ws name -> no_ws x -> no_nl (name ++ #" " ++ join #"," ([#"$zero"] ++ [x])).
Proof. intros A B. apply plain_no_nl; [exact A|]. cbn [app join]. apply no_ws_app. split; [reflexivity|]. apply no_ws_app. split; [reflexivity|exact B]. Qed.
Lemma mfc1_parses x : token x -> parses (#"mfc1 $zero," ++ x) (freg_from_str x) (fun r => IReg R_Mfc1 reg_null Zero (freg_to_reg r) 0 []).
Proof.
  intros T. destruct (token_operand x T) as [O W]. assert (Nl := pair_no_nl #"mfc1" x eq_refl W).
  assert (Nm : name_ok #"mfc1") by (apply name_okb_ok; reflexivity).
  destruct (token_operand #"$zero" ltac:(split; [discriminate|reflexivity])) as [Oz _].
  destruct (token_line #"mfc1" [#"$zero"] x (Forall_cons _ Oz (Forall_nil _)) O Nm Nl) as (Ne & Ec & H). split; [exact Ne|]. split; [exact Ec|]. intros e s Rd.
  destruct (H e s) as (op & arg & ys & SL & P & V). change (#"mfc1 $zero," ++ x) with (#"mfc1" ++ #" " ++ join #"," ([#"$zero"] ++ [x])). rewrite P. clear P H.
  inversion V as [|? z ? ? [Pz _] V1]; subst. inversion V1 as [|? y ? ? [Py _] V']; subst. inversion V'; subst. unfold parse_op. rewrite SL.
  change (classify (trim (to_lower #"mfc1"))) with (Some GCop1). cbv iota. unfold parse_cop1.
  unfold areg, arg_reg. rewrite (zero_reads z Pz). unfold afreg, arg_freg. cbn [lift mbind].
  change (freg_from_str y) with (freg_core (after_dollar y)). change (freg_from_str x) with (freg_core (after_dollar x)). rewrite (same_after x y (padded_trim_token _ _ Py W) W).
  assert (Rj : rop_of op = Ok R_Mfc1) by (rewrite (rop_of_letters _ #"mfc1" SL); reflexivity).
  eexists. destruct (freg_core (after_dollar x)) as [r|t|q].
  - cbn [lift mbind]. rewrite Rj. reflexivity.
  - unfold fail_at. rewrite (get_line_ready e s _ Rd). eexists. reflexivity.
  - reflexivity.
Qed.
Lemma mfc0_parses x : token x -> parses (#"mfc0 $zero," ++ x) (c0reg_from_str x) (fun r => IReg R_Mfc0 reg_null Zero (c0reg_to_reg r) 0 []).
Proof.
  intros T. destruct (token_operand x T) as [O W]. assert (Nl := pair_no_nl #"mfc0" x eq_refl W).
  assert (Nm : name_ok #"mfc0") by (apply name_okb_ok; reflexivity).
  destruct (token_operand #"$zero" ltac:(split; [discriminate|reflexivity])) as [Oz _].
  destruct (token_line #"mfc0" [#"$zero"] x (Forall_cons _ Oz (Forall_nil _)) O Nm Nl) as (Ne & Ec & H). split; [exact Ne|]. split; [exact Ec|]. intros e s Rd.
  destruct (H e s) as (op & arg & ys & SL & P & V). change (#"mfc0 $zero," ++ x) with (#"mfc0" ++ #" " ++ join #"," ([#"$zero"] ++ [x])). rewrite P. clear P H.
  inversion V as [|? z ? ? [Pz _] V1]; subst. inversion V1 as [|? y ? ? [Py _] V']; subst. inversion V'; subst. unfold parse_op. rewrite SL.
  change (classify (trim (to_lower #"mfc0"))) with (Some GCop0). cbv iota. unfold parse_cop0.
  unfold areg, arg_reg. rewrite (zero_reads z Pz). unfold arg_c0reg. cbn [lift mbind].
  change (c0reg_from_str y) with (c0reg_core (after_dollar y)). change (c0reg_from_str x) with (c0reg_core (after_dollar x)). rewrite (same_after x y (padded_trim_token _ _ Py W) W).
  assert (Rj : rop_of op = Ok R_Mfc0) by (rewrite (rop_of_letters _ #"mfc0" SL); reflexivity).
  eexists. destruct (c0reg_core (after_dollar x)) as [r|t|q].
  - cbn [lift mbind]. rewrite Rj. reflexivity.
  - unfold fail_at. rewrite (get_line_ready e s _ Rd). eexists. reflexivity.
  - reflexivity.
Qed.

(** ** The outcome of a program of one such line *)

Lemma parses_ok {R} rt m l (o : outcome str R) f r ws : named_symbols (m_syms m) -> no_nl l -> parses l o f -> o = Ok r -> calm (f r) -> encodes (f r) ws ->
  exists out, assemble rt m l = Ok out /\ get_bytes out = ws.
Proof.
  intros Sy N (Ne & Ec & P) -> C En. apply one_line; auto. split; [exact Ne|]. split; [exact Ec|]. intros e s (Rd & _). destruct (P e s Rd) as [w Pw]. exists w, (f r). auto.
Qed.
Lemma parses_err {R} rt m l (o : outcome str R) f t : no_nl l -> parses l o f -> o = Err t -> exists p, assemble rt m l = Err [p].
Proof.
  intros N (Ne & Ec & P) ->. apply wrong_alone; [exact N|exact Ne|exact Ec|]. intros s Rd _ _. exact (P _ s Rd).
Qed.
Lemma parses_panic {R} rt m l (o : outcome str R) f q : no_nl l -> parses l o f -> o = Panic q -> assemble rt m l = Panic q.
Proof.
  intros N (Ne & Ec & P) ->. apply panic_alone; [exact N|exact Ne|exact Ec|]. intros s Rd. exact (P _ s Rd).
Qed.
Lemma jr_nl x : token x -> no_nl (#"jr " ++ x).
Proof. intros T. exact (plain_no_nl #"jr" x eq_refl (proj2 (token_operand x T))). Qed.
Lemma mfc1_nl x : token x -> no_nl (#"mfc1 $zero," ++ x).
Proof. intros T. exact (pair_no_nl #"mfc1" x eq_refl (proj2 (token_operand x T))). Qed.
Lemma mfc0_nl x : token x -> no_nl (#"mfc0 $zero," ++ x).
Proof. intros T. exact (pair_no_nl #"mfc0" x eq_refl (proj2 (token_operand x T))). Qed.
Lemma gpr_reading_range x n : dollars gpr_reading x n -> 0 <= n < 32.
Proof. intros (d & s & _ & _ & R). destruct R; auto; lia. Qed.
Lemma fpr_reading_range x n : dollars fpr_reading x n -> 0 <= n < 32.
Proof. intros (d & s & _ & _ & R). destruct R; auto. Qed.
Lemma cop0_reading_name x n : dollars cop0_reading x n -> exists t, num_assoc n cop0_names = Some t.
Proof. intros (d & s & _ & _ & R). destruct R; eauto. Qed.

(** No text panics as a coprocessor register; as a general one, those with an [r] and a digit do
    unless a number is all there is after [r]s. *)
Lemma try_calm n q : reg_try_from n <> Panic q.
Proof. apply try_quiet. Qed.
Lemma gpr_panics x q : no_ws x -> reg_from_str x = Panic q -> has_r_digit x /\ ~ r_number x.
Proof.
  intros W. rewrite reg_from_core. unfold after_dollar. rewrite (trim_no_ws x W). destruct (drop_while_decomp (cls "$") x) as (d & E & F).
  set (r := drop_while (cls "$") x) in *. unfold reg_core. destruct (re_find REG_RE r) as [p|] eqn:Fd.
  - destruct (parse_int u32 10 (drop_while (cls "r") r)) as [n|] eqn:P; [intros H; exfalso; exact (try_calm n q H)|]. intros _. split.
    + apply r_digit_spec. destruct (r_digit x) eqn:Rx; [reflexivity|]. assert (Nr := r_digit_drop (cls "$") x Rx). fold r in Nr. apply r_digit_iff in Nr. congruence.
    + intros (d' & rs & ds & v & E' & F' & Fr & D & L). destruct (digits_spec 10 ds v ltac:(lia) D) as (V & Nd & A & Pv).
      assert (Hd : forall c, hd_error ds = Some c -> cls "$" c = false /\ cls "r" c = false).
      { intros c H. destruct ds as [|c' ds]; [congruence|]. injection H as ->. specialize (A c (or_introl eq_refl)). cbn in A. repeat (destruct A as [<-|A]; [split; reflexivity|]). destruct A. }
      assert (Er : r = rs ++ ds).
      { unfold r. rewrite E'. rewrite <- cls_all in F'. apply drop_all; [exact F'|]. intros c H. destruct rs as [|c' rs]; [now apply Hd|]. injection H as <-.
        cbn [forallb] in Fr. apply andb_true_iff in Fr as [Fr _]. apply Ascii.eqb_eq in Fr. subst c'. reflexivity. }
      rewrite Er in P. rewrite <- cls_all in Fr. rewrite (drop_all (cls "r") rs ds Fr) in P by (intros c H; now apply Hd).
      assert (Q : parse_int u32 10 ds = Some v) by (apply parse_unsigned; [now left|]; split; [exists [], ds; auto|exact L]). congruence.
  - destruct (parse_int u32 10 r) as [n|]; [intros H; exfalso; exact (try_calm n q H)|]. destruct (assoc _ _); discriminate.
Qed.
Lemma gpr_not_panic x : no_ws x -> has_r_digit x -> ~ r_number x -> exists q, reg_from_str x = Panic q.
Proof.
  intros W Rx N. rewrite reg_from_core. unfold after_dollar. rewrite (trim_no_ws x W). destruct (drop_while_decomp (cls "$") x) as (d & E & F).
  set (r := drop_while (cls "$") x) in *. unfold reg_core.
  assert (Rr : r_digit r = true).
  { apply r_digit_spec in Rx. rewrite E in Rx. clear - Rx F. induction d as [|c d IH]; [exact Rx|]. cbn [forallb] in F. apply andb_true_iff in F as [F1 F2].
    unfold cls in F1. apply Ascii.eqb_eq in F1. subst c. cbn [app r_digit] in Rx. change (Ascii.eqb "$" "r") with false in Rx. cbn [andb orb] in Rx. auto. }
  assert (Fd := r_digit_found r Rr). destruct (re_find REG_RE r); [|congruence].
  destruct (parse_int u32 10 (drop_while (cls "r") r)) as [n|] eqn:P; [|eauto]. exfalso. apply N.
  apply parse_unsigned in P as [(plus & ds & P & Pl & D) L]; [|now left]. destruct (drop_while_decomp (cls "r") r) as (rs & Er & Fr). rewrite P in Er.
  destruct Pl as [-> | ->].
  - exists d, rs, ds, n. rewrite cls_all in F, Fr. cbn [app] in Er. rewrite <- Er. auto.
  - exfalso. clear - Rr Er D Fr. rewrite Er in Rr. clear Er. assert (Nd := digits_no_r 10 ds n (or_introl eq_refl) D). induction rs as [|c rs IH].
    + cbn [app] in Rr. change (#"+" ++ ds) with ("+"%char :: ds) in Rr. cbn [r_digit] in Rr. change (Ascii.eqb "+" "r") with false in Rr. cbn [andb orb] in Rr. congruence.
    + cbn [forallb] in Fr. apply andb_true_iff in Fr as [_ Fr]. cbn [app r_digit] in Rr. apply orb_true_iff in Rr as [Rr|Rr]; [|auto]. apply andb_true_iff in Rr as [_ Rr].
      destruct rs as [|c' rs]; [discriminate Rr|]. cbn [forallb] in Fr. apply andb_true_iff in Fr as [Fr _]. unfold cls in Fr. apply Ascii.eqb_eq in Fr. subst c'. discriminate Rr.
Qed.
Lemma fpr_calm x q : freg_from_str x <> Panic q.
Proof.
  unfold freg_from_str. destruct (parse_int _ 10 _) as [z|]; [now apply try_quiet|]. destruct (assoc _ _); [discriminate|].
  destruct (parse_int _ _ _) as [z|]; [now apply try_quiet|discriminate].
Qed.
Lemma cop0_calm x q : c0reg_from_str x <> Panic q.
Proof.
  unfold c0reg_from_str. destruct (parse_int _ 10 _) as [z|]; [now apply try_quiet|]. destruct (parse_int _ _ _) as [z|]; [now apply try_quiet|].
  destruct (assoc _ _); discriminate.
Qed.
