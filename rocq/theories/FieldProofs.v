(** * FieldProofs: the fields of an assembled word do not overlap (proofs only). *)

From Coq Require Import Lia.
From Verif Require Import Str SpecIsa.

(** ** Sums of disjoint fields *)

Definition piece : Type := (Z * Z * Z)%type.   (* position, width, value *)
Definition p_ok (x : piece) : Prop := match x with (p, n, v) => 0 <= p /\ 0 <= n /\ 0 <= v < 2 ^ n end.
Definition p_val (x : piece) : Z := match x with (p, _, v) => v * 2 ^ p end.
Definition p_span (x : piece) : Z * Z := match x with (p, n, _) => (p, n) end.
Definition p_bit (x : piece) (i : Z) : bool := match x with (p, n, v) => (p <=? i) && (i <? p + n) && Z.testbit v (i - p) end.
Definition apart (a b : Z * Z) : bool := (fst a + snd a <=? fst b) || (fst b + snd b <=? fst a).
Fixpoint all_apart (l : list (Z * Z)) : bool :=
  match l with [] => true | a :: r => forallb (apart a) r && all_apart r end.

Lemma testbit_high v n i : 0 <= v < 2 ^ n -> n <= i -> 0 <= n -> Z.testbit v i = false.
Proof.
  intros V N P. destruct (Z.eq_dec v 0) as [->|Nz]; [apply Z.bits_0|].
  apply Z.bits_above_log2; [lia|]. apply Z.log2_lt_pow2; [lia|]. apply Z.lt_le_trans with (2 ^ n); [lia|]. apply Z.pow_le_mono_r; lia.
Qed.
Lemma p_bit_val x i : p_ok x -> 0 <= i -> Z.testbit (p_val x) i = p_bit x i.
Proof.
  destruct x as [[p n] v]. cbn. intros (P & N & V) I. rewrite <- Z.shiftl_mul_pow2 by lia. rewrite Z.shiftl_spec by lia.
  destruct (Z.leb_spec p i); cbn [andb].
  - destruct (Z.ltb_spec i (p + n)); cbn [andb]; [reflexivity|]. apply testbit_high with n; lia.
  - apply Z.testbit_neg_r. lia.
Qed.
Lemma p_val_pos x : p_ok x -> 0 <= p_val x.
Proof. destruct x as [[p n] v]. cbn. intros (P & N & V). apply Z.mul_nonneg_nonneg; [lia|]. apply Z.pow_nonneg. lia. Qed.
Definition p_sum (l : list piece) : Z := sumZ (map p_val l).
Lemma apart_bits a b i : apart (p_span a) (p_span b) = true -> p_bit a i && p_bit b i = false.
Proof.
  destruct a as [[p n] v], b as [[q m] u]. unfold apart, p_span, p_bit. cbn [fst snd]. intros H.
  destruct (Z.leb_spec p i), (Z.ltb_spec i (p + n)), (Z.leb_spec q i), (Z.ltb_spec i (q + m)); cbn [andb]; rewrite ?andb_false_r; try reflexivity.
  exfalso. apply orb_true_iff in H as [H|H]; apply Z.leb_le in H; lia.
Qed.
Lemma sum_bits l : Forall p_ok l -> all_apart (map p_span l) = true ->
  0 <= p_sum l /\ forall i, 0 <= i -> Z.testbit (p_sum l) i = existsb (fun x => p_bit x i) l.
Proof.
  induction 1 as [|x l X _ IH]; intros A; [split; [cbn; lia|intros i _; apply Z.bits_0]|].
  cbn [map all_apart] in A. apply andb_true_iff in A as [A1 A2]. destruct (IH A2) as [P B]. clear IH A2.
  change (p_sum (x :: l)) with (p_val x + p_sum l). unfold p_sum in *.
  assert (L : Z.land (p_val x) (sumZ (map p_val l)) = 0).
  { apply Z.bits_inj'. intros i I. rewrite Z.land_spec, Z.bits_0, p_bit_val, B by auto.
    clear -A1. induction l as [|y l IH]; [apply andb_false_r|]. cbn [map forallb] in A1. apply andb_true_iff in A1 as [A1 A2].
    cbn [existsb]. rewrite andb_orb_distrib_r, (apart_bits x y i A1), IH by exact A2. reflexivity. }
  split; [pose proof (p_val_pos x X); lia|].
  intros i I. rewrite Z.add_nocarry_lxor by exact L. rewrite Z.lxor_spec. cbn [existsb]. rewrite <- B by exact I.
  rewrite <- p_bit_val by auto.
  assert (Lb : Z.testbit (p_val x) i && Z.testbit (sumZ (map p_val l)) i = false) by (rewrite <- Z.land_spec, L; apply Z.bits_0).
  destruct (Z.testbit (p_val x) i), (Z.testbit (sumZ (map p_val l)) i); try reflexivity; discriminate.
Qed.
Lemma existsb_app' {A} (p : A -> bool) a b : existsb p (a ++ b) = existsb p a || existsb p b.
Proof. induction a as [|x a IH]; cbn; [reflexivity|]. now rewrite IH, orb_assoc. Qed.
Lemma field_bits w p n i : 0 <= p -> 0 <= n -> 0 <= i -> Z.testbit (field w p n) i = (i <? n) && Z.testbit w (i + p).
Proof.
  intros P N I. unfold field. rewrite <- Z.shiftr_div_pow2, <- Z.land_ones by lia. rewrite Z.land_spec, Z.shiftr_spec by lia.
  rewrite andb_comm. f_equal. rewrite Z.testbit_ones by lia. destruct (Z.leb_spec 0 i); [reflexivity|lia].
Qed.
Lemma sum_field a p n v b : Forall p_ok (a ++ (p, n, v) :: b) -> all_apart (map p_span (a ++ (p, n, v) :: b)) = true ->
  field (p_sum (a ++ (p, n, v) :: b)) p n = v.
Proof.
  intros F A. assert (Ok := F). apply Forall_app in Ok as [Oa Ok]. inversion Ok as [|? ? O Ob]; subst. cbn in O. destruct O as (P & N & V).
  destruct (sum_bits _ F A) as [S B].
  apply Z.bits_inj'. intros i I. rewrite field_bits, B by lia. destruct (Z.ltb_spec i n) as [L|L].
  - rewrite existsb_app'. cbn [existsb andb].
    assert (Y : p_bit (p, n, v) (i + p) = Z.testbit v i).
    { unfold p_bit. replace (i + p - p) with i by lia. destruct (Z.leb_spec p (i + p)), (Z.ltb_spec (i + p) (p + n)); try lia. reflexivity. }
    rewrite Y.
    assert (Out : forall y, In y (a ++ b) -> p_bit y (i + p) = false).
    { intros y Iy. assert (Ap : apart (p_span (p, n, v)) (p_span y) = true).
      { clear -A Iy. induction a as [|z a IH]; cbn [app map all_apart] in *; apply andb_true_iff in A as [A1 A2].
        - rewrite forallb_forall in A1. apply A1. now apply in_map.
        - destruct Iy as [->|Iy]; [|now apply IH].
          rewrite forallb_forall in A1. assert (X := A1 (p_span (p, n, v))).
          unfold apart in *. rewrite orb_comm. apply X. apply in_map. apply in_or_app. right. now left. }
      apply apart_bits with (i := i + p) in Ap. rename Ap into Bt.
      destruct (p_bit y (i + p)) eqn:E; [exfalso|reflexivity].
      destruct y as [[q m] u]. assert (D := A). 
      (* the position is inside the span, so the bit of [y] is outside its own *)
      clear Bt. revert E. unfold p_bit.
      assert (Ap : apart (p, n) (q, m) = true).
      { clear -A Iy. induction a as [|z a IH]; cbn [app map all_apart] in *; apply andb_true_iff in A as [A1 A2].
        - rewrite forallb_forall in A1. apply (A1 (q, m)). now apply (in_map p_span b (q, m, u)).
        - destruct Iy as [->|Iy]; [|now apply IH].
          rewrite forallb_forall in A1. assert (X := A1 (p, n)).
          unfold apart in *. rewrite orb_comm. apply X. apply (in_map p_span _ (p, n, v)). apply in_or_app. right. now left. }
      unfold apart in Ap. cbn [fst snd] in Ap. destruct (Z.leb_spec q (i + p)), (Z.ltb_spec (i + p) (q + m)); cbn [andb]; try discriminate.
      intros _. apply orb_true_iff in Ap as [Ap|Ap]; apply Z.leb_le in Ap; lia. }
    assert (Ea : existsb (fun x => p_bit x (i + p)) a = false).
    { apply not_true_is_false. intros X. apply existsb_exists in X as (y & Iy & Hy). rewrite Out in Hy; [discriminate|]. apply in_or_app. now left. }
    assert (Eb : existsb (fun x => p_bit x (i + p)) b = false).
    { apply not_true_is_false. intros X. apply existsb_exists in X as (y & Iy & Hy). rewrite Out in Hy; [discriminate|]. apply in_or_app. now right. }
    rewrite Ea, Eb. cbn [orb]. apply orb_false_r.
  - cbn [andb]. symmetry. apply testbit_high with n; lia.
Qed.
Lemma sum_other a p n v v' b i : Forall p_ok (a ++ (p, n, v) :: b) -> Forall p_ok (a ++ (p, n, v') :: b) ->
  all_apart (map p_span (a ++ (p, n, v) :: b)) = true -> 0 <= i -> ~ (p <= i < p + n) ->
  Z.testbit (p_sum (a ++ (p, n, v) :: b)) i = Z.testbit (p_sum (a ++ (p, n, v') :: b)) i.
Proof.
  intros F F' A I O. assert (A' : all_apart (map p_span (a ++ (p, n, v') :: b)) = true) by (rewrite map_app in *; exact A).
  rewrite (proj2 (sum_bits _ F A)), (proj2 (sum_bits _ F' A')) by exact I. rewrite !existsb_app'. cbn [existsb].
  assert (Z0 : forall u, p_bit (p, n, u) i = false).
  { intros u. unfold p_bit. destruct (Z.leb_spec p i), (Z.ltb_spec i (p + n)); try reflexivity. lia. }
  now rewrite !Z0.
Qed.

(** ** The fields of a format *)

Definition spans (k : okind) : list (Z * Z) :=
  match k with
  | Gpr p | Fpr p | Cop0 p => [(p, 5)]
  | Uimm | Simm | Branch16 => [(0, 16)]
  | Shamt => [(6, 5)]
  | Code20 => [(6, 20)]
  | CacheOp => [(16, 5)]
  | Mem => [(21, 5); (0, 16)]
  | Target26 => [(0, 26)]
  end.
Definition pieces (k : okind) (o : operand) : list piece :=
  match k, o with
  | Gpr p, OReg n | Fpr p, OReg n | Cop0 p, OReg n => [(p, 5, n)]
  | Uimm, OInt v => [(0, 16, v)]
  | Simm, OInt v | Branch16, OInt v => [(0, 16, v mod 65536)]
  | Shamt, OInt v => [(6, 5, v)]
  | Code20, OInt v => [(6, 20, v)]
  | CacheOp, OInt v => [(16, 5, v)]
  | Mem, OMem off b => [(21, 5, b); (0, 16, off mod 65536)]
  | Target26, OInt a => [(0, 26, (a / 4) mod 2 ^ 26)]
  | _, _ => []
  end.
Definition pos_ok (k : okind) : bool := match k with Gpr p | Fpr p | Cop0 p => 0 <=? p | _ => true end.
Lemma pieces_ok k o : pos_ok k = true -> fits k o -> Forall p_ok (pieces k o) /\ map p_span (pieces k o) = spans k /\ p_sum (pieces k o) = place k o.
Proof.
  intros Po F. assert (M := Z.mod_pos_bound). assert (T16 : 2 ^ 16 = 65536) by reflexivity. assert (T5 : 2 ^ 5 = 32) by reflexivity.
  assert (T20 : 2 ^ 20 = 1048576) by reflexivity.
  destruct k, o; cbn [fits] in F; try (now destruct F); cbn [pos_ok] in Po; try apply Z.leb_le in Po;
    unfold pieces, spans, place, p_sum; cbn [map p_val p_span sumZ fold_right]; rewrite ?Z.add_0_r, ?Z.mul_1_r;
    (split; [repeat constructor; cbn [p_ok]; rewrite ?T16, ?T5, ?T20; try lia; try (apply M; lia)|split; [reflexivity|]]);
    try (change (2 ^ 6) with 64; lia); try (change (2 ^ 16) with 65536; lia); try (change (2 ^ 0) with 1; lia); try lia.
Qed.

Definition key_pieces_ok (x : piece) : bool := match x with (p, n, v) => (0 <=? p) && (0 <=? n) && (0 <=? v) && (v <? 2 ^ n) end.
Lemma key_piece_ok x : key_pieces_ok x = true -> p_ok x.
Proof.
  destruct x as [[p n] v]. cbn. intros H. apply andb_true_iff in H as [H D]. apply andb_true_iff in H as [H C].
  apply andb_true_iff in H as [A B]. apply Z.leb_le in A, B, C. apply Z.ltb_lt in D. lia.
Qed.
Definition format_ok (f : format) : bool :=
  forallb key_pieces_ok (f_key f) && forallb pos_ok (f_ops f)
  && all_apart (map p_span (f_key f) ++ flat_map spans (f_ops f)).
Lemma formats_ok : forallb format_ok (isa ++ idioms) = true.
Proof. vm_compute. reflexivity. Qed.
Lemma format_is_ok f : In f (isa ++ idioms) -> format_ok f = true.
Proof. intros I. exact (proj1 (forallb_forall _ _) formats_ok f I). Qed.

Definition word_pieces (f : format) (os : list operand) : list piece :=
  f_key f ++ flat_map (fun ko => pieces (fst ko) (snd ko)) (combine (f_ops f) os).
Lemma p_sum_app a b : p_sum (a ++ b) = p_sum a + p_sum b.
Proof. unfold p_sum. rewrite map_app. induction (map p_val a) as [|x l IH]; cbn; [reflexivity|]. unfold sumZ in *. lia. Qed.
Lemma ops_pieces ks os : forallb pos_ok ks = true -> Forall2 fits ks os ->
  let ps := flat_map (fun ko => pieces (fst ko) (snd ko)) (combine ks os) in
  Forall p_ok ps /\ map p_span ps = flat_map spans ks /\ p_sum ps = ops_word ks os.
Proof.
  intros P F. revert P. induction F as [|k o ks os H _ IH]; intros P; [cbn; repeat split; constructor|].
  cbn [forallb] in P. apply andb_true_iff in P as [P1 P2]. destruct (IH P2) as (I1 & I2 & I3).
  destruct (pieces_ok k o P1 H) as (J1 & J2 & J3). cbn [combine flat_map fst snd]. cbv zeta.
  split; [now apply Forall_app|]. rewrite map_app, p_sum_app, J2, J3. cbv zeta in I2, I3. rewrite I2, I3.
  split; reflexivity.
Qed.
Lemma word_is_pieces f os : format_ok f = true -> Forall2 fits (f_ops f) os ->
  Forall p_ok (word_pieces f os) /\ all_apart (map p_span (word_pieces f os)) = true /\ p_sum (word_pieces f os) = word f os.
Proof.
  unfold format_ok, word_pieces. intros H F. apply andb_true_iff in H as [H A]. apply andb_true_iff in H as [K P].
  destruct (ops_pieces _ _ P F) as (I1 & I2 & I3). cbv zeta in *.
  split; [apply Forall_app; split; [|exact I1]; rewrite forallb_forall in K; apply Forall_forall; intros x Ix; now apply key_piece_ok, K|].
  unfold piece in *. rewrite map_app, I2. split; [exact A|]. pose proof (p_sum_app (f_key f) (flat_map (fun ko => pieces (fst ko) (snd ko)) (combine (f_ops f) os))) as Q. unfold piece in *. rewrite Q, I3. reflexivity.
Qed.

Lemma flat_combine_app ks1 k ks2 os1 o os2 : List.length ks1 = List.length os1 ->
  flat_map (fun ko => pieces (fst ko) (snd ko)) (combine (ks1 ++ k :: ks2) (os1 ++ o :: os2)) =
  flat_map (fun ko => pieces (fst ko) (snd ko)) (combine ks1 os1) ++ pieces k o
  ++ flat_map (fun ko => pieces (fst ko) (snd ko)) (combine ks2 os2).
Proof.
  revert os1. induction ks1 as [|k1 ks1 IH]; intros [|o1 os1] L; try discriminate; [reflexivity|].
  injection L as L. cbn [app combine flat_map fst snd]. rewrite IH by exact L. now rewrite app_assoc.
Qed.
