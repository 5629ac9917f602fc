(** * CodingProofs: the fields of an encoded instruction (proofs only). *)

From Coq Require Import Lia.
From Verif Require Import Lib SpecIsa StrLemmas DecodeProofs SpecReading.

(** ** Sums of disjoint fields *)

Notation comp := (Z * Z * Z)%type (only parsing).
Definition cval (c : comp) : Z := match c with (p, _, v) => v * 2 ^ p end.
Definition covers (c : comp) (i : Z) : bool := match c with (p, n, _) => (p <=? i) && (i <? p + n) end.
Definition cbit (c : comp) (i : Z) : bool := covers c i && match c with (p, _, v) => Z.testbit v (i - p) end.
Definition cok (c : comp) : Prop := match c with (p, n, v) => 0 <= p /\ 0 <= n /\ 0 <= v < 2 ^ n end.
Definition apart (a b : comp) : bool := match a, b with (p, n, _), (q, m, _) => (p + n <=? q) || (q + m <=? p) end.
Fixpoint all_apart (l : list comp) : bool := match l with [] => true | a :: r => forallb (apart a) r && all_apart r end.

Lemma high_bit v n i : 0 <= v < 2 ^ n -> n <= i -> Z.testbit v i = false.
Proof.
  intros V L. destruct (Z.ltb_spec n 0); [rewrite Z.pow_neg_r in V by lia; lia|].
  rewrite <- (Z.mod_small v (2 ^ n)) by lia. apply Z.mod_pow2_bits_high. lia.
Qed.
Lemma cval_bit c i : cok c -> 0 <= i -> Z.testbit (cval c) i = cbit c i.
Proof.
  destruct c as [[p n] v]. intros (P & N & V) I. unfold cval, cbit, covers.
  destruct (Z.leb_spec p i); cbn [andb].
  - rewrite Z.mul_pow2_bits by lia. destruct (Z.ltb_spec i (p + n)); [reflexivity|]. apply (high_bit v n); lia.
  - apply Z.mul_pow2_bits_low. lia.
Qed.
Lemma apart_covers a b i : apart a b = true -> covers a i = true -> covers b i = false.
Proof.
  destruct a as [[p n] v], b as [[q m] u]. unfold apart, covers. intros A C.
  apply andb_true_iff in C. destruct C as [C1 C2]. apply Z.leb_le in C1. apply Z.ltb_lt in C2.
  apply orb_true_iff in A. destruct A as [A|A]; apply Z.leb_le in A.
  - replace (q <=? i) with false; [reflexivity|]. symmetry. apply Z.leb_gt. lia.
  - replace (i <? q + m) with false; [apply andb_false_r|]. symmetry. apply Z.ltb_ge. lia.
Qed.
Lemma sum_bit l i : Forall cok l -> all_apart l = true -> 0 <= i -> Z.testbit (sumZ (map cval l)) i = existsb (fun c => cbit c i) l.
Proof.
  intros F A I. revert i I. induction F as [|c l C F IH]; intros i I; [apply Z.bits_0|].
  cbn [all_apart] in A. apply andb_true_iff in A. destruct A as [A1 A2]. specialize (IH A2).
  assert (E : forall j, 0 <= j -> cbit c j && existsb (fun c => cbit c j) l = false).
  { intros j J. destruct (cbit c j) eqn:B; [|reflexivity]. cbn [andb]. unfold cbit in B. apply andb_true_iff in B. destruct B as [B _].
    destruct (existsb _ l) eqn:X; [|reflexivity]. apply existsb_exists in X. destruct X as (d & D & Xd).
    rewrite forallb_forall in A1. specialize (A1 d D). assert (Y := apart_covers c d j A1 B). unfold cbit in Xd. rewrite Y in Xd. discriminate Xd. }
  assert (L : Z.land (cval c) (sumZ (map cval l)) = 0).
  { apply Z.bits_inj'. intros j J. rewrite Z.land_spec, Z.bits_0, cval_bit, IH by assumption. now apply E. }
  change (sumZ (map cval (c :: l))) with (cval c + sumZ (map cval l)).
  rewrite Z.add_nocarry_lxor by exact L. rewrite Z.lxor_spec, cval_bit, IH by assumption. cbn [existsb].
  specialize (E i I). destruct (cbit c i), (existsb (fun c0 => cbit c0 i) l); try reflexivity. discriminate E.
Qed.
Lemma sum_covered l c i : Forall cok l -> all_apart l = true -> In c l -> 0 <= i -> covers c i = true -> Z.testbit (sumZ (map cval l)) i = cbit c i.
Proof.
  intros F A C I Cv. rewrite sum_bit by assumption. destruct (cbit c i) eqn:B.
  - apply existsb_exists. now exists c.
  - destruct (existsb _ l) eqn:X; [|reflexivity]. apply existsb_exists in X. destruct X as (d & D & Xd).
    assert (Cd : covers d i = true) by (unfold cbit in Xd; apply andb_true_iff in Xd; tauto).
    exfalso. clear F I. revert A C D. induction l as [|x l IH]; [intros _ []|]. cbn [all_apart]. intros A [->|C] [->|D].
    + congruence.
    + apply andb_true_iff in A. destruct A as [A _]. rewrite forallb_forall in A. specialize (A d D). rewrite (apart_covers c d i A Cv) in Cd. discriminate.
    + apply andb_true_iff in A. destruct A as [A _]. rewrite forallb_forall in A. specialize (A c C). rewrite (apart_covers d c i A Cd) in Cv. discriminate.
    + apply andb_true_iff in A. destruct A as [_ A]. now apply IH.
Qed.
Lemma field_bit w p n i : 0 <= p -> 0 <= i < n -> Z.testbit (field w p n) i = Z.testbit w (p + i).
Proof. intros P I. unfold field. rewrite Z.mod_pow2_bits_low by lia. rewrite Z.div_pow2_bits by lia. f_equal. lia. Qed.
Lemma field_eq w p n v : 0 <= p -> 0 <= n -> 0 <= v < 2 ^ n -> (forall i, 0 <= i < n -> Z.testbit w (p + i) = Z.testbit v i) -> field w p n = v.
Proof.
  intros P N V H. apply Z.bits_inj'. intros i I. destruct (Z.ltb_spec i n).
  - rewrite field_bit by lia. apply H. lia.
  - rewrite (high_bit (field w p n) n) by (auto using field_range). now rewrite (high_bit v n).
Qed.
(** The field at the place of a component is its value. *)
Lemma sum_field l p n v : Forall cok l -> all_apart l = true -> In (p, n, v) l -> field (sumZ (map cval l)) p n = v.
Proof.
  intros F A C. assert (K : cok (p, n, v)) by (rewrite Forall_forall in F; exact (F _ C)). destruct K as (P & N & V).
  apply field_eq; auto. intros i I.
  assert (Cv : covers (p, n, v) (p + i) = true) by (unfold covers; apply andb_true_iff; split; [apply Z.leb_le|apply Z.ltb_lt]; lia).
  rewrite (sum_covered l (p, n, v) (p + i)) by (auto; lia). unfold cbit. rewrite Cv. cbn [andb]. f_equal. lia.
Qed.
Lemma sum_word l : Forall cok l -> all_apart l = true -> Forall (fun c => match c with (p, n, _) => p + n <= 32 end) l -> is_word (sumZ (map cval l)).
Proof.
  intros F A B. assert (P : 0 <= sumZ (map cval l)).
  { clear A B. induction F as [|[[p n] v] l C F IH]; [cbn; lia|]. cbn [map sumZ fold_right cval] in *. destruct C as (C1 & C2 & C3). unfold sumZ in IH.
    assert (0 <= v * 2 ^ p) by (apply Z.mul_nonneg_nonneg; [lia|apply Z.pow_nonneg; lia]). lia. }
  split; [exact P|]. destruct (Z.eq_dec (sumZ (map cval l)) 0) as [->|Nz]; [reflexivity|].
  apply Z.log2_lt_cancel. rewrite Z.log2_pow2 by lia. destruct (Z.ltb_spec (Z.log2 (sumZ (map cval l))) 32) as [|G]; [assumption|exfalso].
  assert (T : Z.testbit (sumZ (map cval l)) (Z.log2 (sumZ (map cval l))) = true) by (apply Z.bit_log2; lia).
  rewrite sum_bit in T by (auto; lia). apply existsb_exists in T. destruct T as ([[p n] v] & D & Xd).
  rewrite Forall_forall in B. specialize (B _ D). cbn beta iota in B. unfold cbit, covers in Xd.
  apply andb_true_iff in Xd. destruct Xd as [Xd _]. apply andb_true_iff in Xd. destruct Xd as [_ Xd]. apply Z.ltb_lt in Xd. lia.
Qed.

(** ** Formats as components *)

Definition shape (k : okind) : list (Z * Z) :=
  match k with
  | Gpr p | Fpr p | Cop0 p => [(p, 5)]
  | Uimm | Simm | Branch16 => [(0, 16)]
  | Shamt => [(6, 5)] | Code20 => [(6, 20)] | CacheOp => [(16, 5)]
  | Mem => [(21, 5); (0, 16)] | Target26 => [(0, 26)]
  end.
Definition vals (k : okind) (o : operand) : list Z :=
  match k, o with
  | Gpr _, OReg n | Fpr _, OReg n | Cop0 _, OReg n => [n]
  | Uimm, OInt v | Shamt, OInt v | Code20, OInt v | CacheOp, OInt v => [v]
  | Simm, OInt v | Branch16, OInt v => [v mod 65536]
  | Mem, OMem off b => [b; off mod 65536]
  | Target26, OInt a => [(a / 4) mod 2 ^ 26]
  | _, _ => []
  end.
Definition comps (k : okind) (o : operand) : list comp := map (fun sv => (fst (fst sv), snd (fst sv), snd sv)) (combine (shape k) (vals k o)).
Definition format_comps (f : format) (os : list operand) : list comp :=
  f_key f ++ flat_map (fun ko => comps (fst ko) (snd ko)) (combine (f_ops f) os).

Lemma comps_place k o : fits k o -> sumZ (map cval (comps k o)) = place k o.
Proof. destruct k, o; cbn [fits]; try contradiction; intros F; unfold comps; cbn [shape vals combine map fst snd sumZ fold_right cval place]; lia. Qed.
Lemma sumZ_app2 a b : sumZ (a ++ b) = sumZ a + sumZ b.
Proof. unfold sumZ. induction a as [|x a IH]; cbn [app fold_right]; [lia|rewrite IH; lia]. Qed.
Lemma word_comps f os : Forall2 fits (f_ops f) os -> word f os = sumZ (map cval (format_comps f os)).
Proof.
  intros F. unfold word, format_comps. rewrite map_app, sumZ_app2. f_equal. unfold ops_word. induction F as [|k o ks os' K F IH]; [reflexivity|].
  cbn [combine flat_map map fst snd]. rewrite map_app, sumZ_app2, comps_place by assumption. rewrite <- IH. reflexivity.
Qed.
Definition strip (c : comp) : Z * Z := fst c.
Definition apart2 (a b : Z * Z) : bool := let '(p, n) := a in let '(q, m) := b in (p + n <=? q) || (q + m <=? p).
Fixpoint all_apart2 (l : list (Z * Z)) : bool := match l with [] => true | a :: r => forallb (apart2 a) r && all_apart2 r end.
Lemma all_apart_strip l : all_apart l = all_apart2 (map strip l).
Proof.
  induction l as [|c l IH]; [reflexivity|]. cbn [all_apart map all_apart2]. rewrite IH. f_equal.
  clear. induction l as [|d l IH]; [reflexivity|]. cbn [forallb map]. rewrite IH. destruct c as [[p n] v], d as [[q m] u]. reflexivity.
Qed.
Lemma comps_strip k o : fits k o -> map strip (comps k o) = shape k.
Proof. destruct k, o; cbn [fits]; try contradiction; reflexivity. Qed.
Lemma format_strip f os : Forall2 fits (f_ops f) os -> map strip (format_comps f os) = map strip (f_key f) ++ flat_map shape (f_ops f).
Proof.
  intros F. unfold format_comps. rewrite map_app. f_equal. induction F as [|k o ks os' K F IH]; [reflexivity|].
  cbn [combine flat_map fst snd]. now rewrite map_app, comps_strip, IH.
Qed.
Lemma comps_ok k o : fits k o -> forallb (fun s => 0 <=? fst s) (shape k) = true -> Forall cok (comps k o).
Proof.
  destruct k, o; cbn [fits]; try contradiction; intros F S; unfold comps; cbn [shape vals combine map fst snd forallb] in *;
    try (apply andb_true_iff in S; destruct S as [S _]; apply Z.leb_le in S);
    repeat (constructor; [unfold cok; split; [lia|split; [lia|]]|]); try (change (2 ^ 5) with 32; lia);
    try (change (2 ^ 16) with 65536; apply Z.mod_pos_bound; lia); try exact F; try (apply Z.mod_pos_bound; lia); try constructor; try lia.
  all: change (2 ^ 16) with 65536; lia.
Qed.
Definition sound_format (f : format) : bool :=
  all_apart2 (map strip (f_key f) ++ flat_map shape (f_ops f)) && forallb (fun s => (0 <=? fst s) && (fst s + snd s <=? 32)) (map strip (f_key f) ++ flat_map shape (f_ops f))
  && forallb (fun c : comp => match c with (p, n, v) => (0 <=? n) && (0 <=? v) && (v <? 2 ^ n) end) (f_key f).
Lemma isa_sound : forallb sound_format (isa ++ idioms) = true. Proof. vm_compute. reflexivity. Qed.

Lemma forallb_app2 {A} (p : A -> bool) a b : forallb p (a ++ b) = forallb p a && forallb p b.
Proof. induction a as [|x a IH]; cbn; [reflexivity|now rewrite IH, andb_assoc]. Qed.
Lemma format_ok f os : In f (isa ++ idioms) -> Forall2 fits (f_ops f) os -> Forall cok (format_comps f os) /\ all_apart (format_comps f os) = true
  /\ Forall (fun c : comp => match c with (p, n, _) => p + n <= 32 end) (format_comps f os).
Proof.
  intros I F. assert (S := isa_sound). rewrite forallb_forall in S. specialize (S f I). unfold sound_format in S.
  apply andb_true_iff in S. destruct S as [S K]. apply andb_true_iff in S. destruct S as [A B]. split; [|split].
  - unfold format_comps. apply Forall_app. rewrite forallb_app2 in B. apply andb_true_iff in B. destruct B as [B1 B2]. split.
    + clear F A B2. induction (f_key f) as [|[[p n] v] l IH]; constructor; cbn [map forallb strip fst snd] in *.
      * apply andb_true_iff in B1. destruct B1 as [B1 _]. apply andb_true_iff in B1. destruct B1 as [B1 _]. apply Z.leb_le in B1.
        apply andb_true_iff in K. destruct K as [K _]. apply andb_true_iff in K. destruct K as [K K2]. apply andb_true_iff in K. destruct K as [K0 K1].
        apply Z.leb_le in K0, K1. apply Z.ltb_lt in K2. unfold cok. auto.
      * apply andb_true_iff in B1, K. now apply IH.
    + clear A K B1. induction F as [|k o ks os' Kf F IH]; [constructor|]. cbn [combine flat_map fst snd] in *. rewrite forallb_app2 in B2. apply andb_true_iff in B2. destruct B2 as [B2 B3].
      apply Forall_app. split; [|now apply IH]. apply comps_ok; [assumption|]. rewrite forallb_forall in *. intros s Hs. specialize (B2 s Hs). apply andb_true_iff in B2. tauto.
  - now rewrite all_apart_strip, format_strip.
  - rewrite <- (format_strip f os F) in B. clear - B. induction (format_comps f os) as [|[[p n] v] l IH]; constructor; cbn [map forallb strip fst snd] in B; apply andb_true_iff in B; destruct B as [B1 B2].
    + apply andb_true_iff in B1. destruct B1 as [_ B1]. now apply Z.leb_le in B1.
    + now apply IH.
Qed.

(** The fixed fields and the operands of an encoded instruction. *)
Lemma word_is_word f os : In f (isa ++ idioms) -> Forall2 fits (f_ops f) os -> is_word (word f os).
Proof. intros I F. destruct (format_ok f os I F) as (A & B & C). rewrite word_comps by assumption. now apply sum_word. Qed.
Lemma word_field f os p n v : In f (isa ++ idioms) -> Forall2 fits (f_ops f) os -> In (p, n, v) (format_comps f os) -> field (word f os) p n = v.
Proof. intros I F C. destruct (format_ok f os I F) as (A & B & _). rewrite word_comps by assumption. now apply sum_field. Qed.
Lemma word_selects f os : In f (isa ++ idioms) -> Forall2 fits (f_ops f) os -> selects (word f os) f = true.
Proof.
  intros I F. unfold selects. apply forallb_forall. intros [[p n] v] K. apply Z.eqb_eq. apply word_field; auto. apply in_or_app. now left.
Qed.
Lemma signed_of v : -32768 <= v < 32768 -> signed16 (v mod 65536) = v.
Proof.
  intros V. unfold signed16. destruct (Z.ltb_spec (v mod 65536) 32768) as [L|L].
  - destruct (Z.ltb_spec v 0); [|rewrite Z.mod_small by lia; reflexivity].
    replace (v mod 65536) with (v + 65536) in L by (apply Z.mod_unique with (q := -1); lia). lia.
  - destruct (Z.ltb_spec v 0); [|rewrite Z.mod_small in L by lia; lia].
    replace (v mod 65536) with (v + 65536) by (apply Z.mod_unique with (q := -1); lia). lia.
Qed.
Lemma in_ops ks os k o : In (k, o) (combine ks os) -> forall c, In c (comps k o) -> In c (flat_map (fun ko => comps (fst ko) (snd ko)) (combine ks os)).
Proof. intros I c C. apply in_flat_map. exists (k, o). auto. Qed.
Lemma target_split a : 0 <= a < 2 ^ 32 -> a mod 4 = 0 -> a / 2 ^ 28 * 2 ^ 28 + a / 4 mod 2 ^ 26 * 4 = a.
Proof.
  intros A M. assert (E := Z.div_mod a 4 ltac:(lia)). rewrite M in E.
  assert (E2 := Z.div_mod (a / 4) (2 ^ 26) ltac:(lia)). rewrite Z.div_div in E2 by lia. change (4 * 2 ^ 26) with (2 ^ 28) in E2.
  change (2 ^ 28) with (2 ^ 26 * 4). change (2 ^ 28) with (2 ^ 26 * 4) in E2. lia.
Qed.
Lemma word_extract pc f os : In f (isa ++ idioms) -> Forall2 fits (f_ops f) os -> Forall2 (in_segment pc) (f_ops f) os ->
  map (extract pc (word f os)) (f_ops f) = os.
Proof.
  intros I F G. assert (H : forall k o, In (k, o) (combine (f_ops f) os) -> fits k o -> in_segment pc k o -> extract pc (word f os) k = o).
  { intros k o K Fo Go. assert (W : forall p n v, In (p, n, v) (comps k o) -> field (word f os) p n = v).
    { intros p n v C. apply word_field; auto. apply in_or_app. right. eapply in_ops; eauto. }
    destruct k, o; cbn [fits] in Fo; try contradiction; unfold comps in W; cbn [shape vals combine map fst snd] in W; cbn [extract].
    1-3: now rewrite (W pos 5 n) by (now left).
    - now rewrite (W 0 16 v) by (now left).
    - rewrite (W 0 16 (v mod 65536)) by (now left). now rewrite signed_of.
    - now rewrite (W 6 5 v) by (now left).
    - now rewrite (W 6 20 v) by (now left).
    - now rewrite (W 16 5 v) by (now left).
    - rewrite (W 21 5 base) by (now left). rewrite (W 0 16 (off mod 65536)) by (right; now left). now rewrite signed_of.
    - rewrite (W 0 26 (v / 4 mod 2 ^ 26)) by (now left). cbn [in_segment] in Go. rewrite <- Go. now rewrite target_split.
    - rewrite (W 0 16 (v mod 65536)) by (now left). now rewrite signed_of. }
  revert H. generalize (extract pc (word f os)) as e. clear I. intros e H.
  induction F as [|k o ks os' K F IH]; [reflexivity|]. inversion_clear G. cbn [map]. f_equal.
  - apply H; auto. now left.
  - apply IH; auto. intros k' o' K'. apply H. now right.
Qed.

(** ** Formats are told apart by their fixed fields *)

Definition clash (c d : comp) (i : Z) : bool := covers c i && covers d i && negb (Bool.eqb (cbit c i) (cbit d i)).
Definition positions : list Z := map Z.of_nat (seq 0 32).
Definition conflict (f f' : format) : bool :=
  existsb (fun c => existsb (fun d => existsb (clash c d) positions) (f_key f')) (f_key f).
Lemma conflict_rejects f f' os : In f (isa ++ idioms) -> In f' (isa ++ idioms) -> Forall2 fits (f_ops f) os -> conflict f f' = true -> selects (word f os) f' = false.
Proof.
  intros I I' F C. unfold conflict in C. apply existsb_exists in C. destruct C as (c & Kc & C). apply existsb_exists in C. destruct C as (d & Kd & C).
  apply existsb_exists in C. destruct C as (i & Pi & C). unfold clash in C. apply andb_true_iff in C. destruct C as [C X]. apply andb_true_iff in C. destruct C as [Cc Cd].
  apply negb_true_iff in X. apply Bool.eqb_false_iff in X.
  destruct (selects (word f os) f') eqn:S; [exfalso|reflexivity]. unfold selects in S. rewrite forallb_forall in S. specialize (S d Kd).
  assert (W := word_field f os). destruct c as [[p n] v], d as [[q m] u]. apply Z.eqb_eq in S.
  specialize (W p n v I F ltac:(apply in_or_app; now left)). apply X. unfold cbit. rewrite Cc, Cd. cbn [andb]. rewrite <- W, <- S.
  unfold covers in Cc, Cd. apply andb_true_iff in Cc, Cd. destruct Cc as [A1 A2], Cd as [B1 B2]. apply Z.leb_le in A1, B1. apply Z.ltb_lt in A2, B2.
  assert (P : 0 <= p) by (destruct (format_ok f os I F) as (K & _); rewrite Forall_forall in K; specialize (K (p, n, v) ltac:(apply in_or_app; now left)); now destruct K).
  assert (Q : 0 <= q).
  { assert (Z0 := isa_sound). rewrite forallb_forall in Z0. specialize (Z0 f' I'). unfold sound_format in Z0. apply andb_true_iff in Z0. destruct Z0 as [Z0 _].
    apply andb_true_iff in Z0. destruct Z0 as [_ Z0]. rewrite forallb_forall in Z0. specialize (Z0 (q, m) ltac:(apply in_or_app; left; apply (in_map strip _ _ Kd))).
    apply andb_true_iff in Z0. destruct Z0 as [Z0 _]. now apply Z.leb_le in Z0. }
  rewrite !field_bit by lia. f_equal; lia.
Qed.

Definition okind_eqb (a b : okind) : bool :=
  match a, b with
  | Gpr p, Gpr q | Fpr p, Fpr q | Cop0 p, Cop0 q => p =? q
  | Uimm, Uimm | Simm, Simm | Shamt, Shamt | Code20, Code20 | CacheOp, CacheOp | Mem, Mem | Target26, Target26 | Branch16, Branch16 => true
  | _, _ => false
  end.
Definition comp_eqb (a b : comp) : bool := match a, b with (p, n, v), (q, m, u) => (p =? q) && (n =? m) && (v =? u) end.
Fixpoint list_eqb {A} (e : A -> A -> bool) (a b : list A) : bool :=
  match a, b with [], [] => true | x :: a', y :: b' => e x y && list_eqb e a' b' | _, _ => false end.
Definition format_eqb (f g : format) : bool := str_eqb (f_name f) (f_name g) && list_eqb comp_eqb (f_key f) (f_key g) && list_eqb okind_eqb (f_ops f) (f_ops g).
Lemma list_eqb_true {A} (e : A -> A -> bool) (E : forall x y, e x y = true -> x = y) a b : list_eqb e a b = true -> a = b.
Proof. revert b. induction a as [|x a IH]; intros [|y b]; cbn; try discriminate; [reflexivity|]. intros H. apply andb_true_iff in H. destruct H as [H1 H2]. f_equal; auto. Qed.
Lemma okind_eqb_true a b : okind_eqb a b = true -> a = b.
Proof. destruct a, b; cbn; try discriminate; try reflexivity; intros H; apply Z.eqb_eq in H; now subst. Qed.
Lemma comp_eqb_true a b : comp_eqb a b = true -> a = b.
Proof.
  destruct a as [[p n] v], b as [[q m] u]. cbn. intros H. apply andb_true_iff in H. destruct H as [H H3]. apply andb_true_iff in H. destruct H as [H1 H2].
  apply Z.eqb_eq in H1, H2, H3. now subst.
Qed.
Lemma format_eqb_true f g : format_eqb f g = true -> f = g.
Proof.
  unfold format_eqb. intros H. apply andb_true_iff in H. destruct H as [H H3]. apply andb_true_iff in H. destruct H as [H1 H2].
  apply str_eqb_spec in H1. apply (list_eqb_true _ comp_eqb_true) in H2. apply (list_eqb_true _ okind_eqb_true) in H3. destruct f, g. cbn in *. now subst.
Qed.

(** The pairs of formats of which the first one is a special case of the second one. *)
Definition short_pair (f f' : format) : bool :=
  (format_eqb f long_jalr && format_eqb f' short_jalr) || (format_eqb f long_syscall && format_eqb f' short_syscall) || (format_eqb f long_break && format_eqb f' short_break).
Fixpoint told_apart (pre l : list format) : bool :=
  match l with
  | [] => true
  | f :: r => forallb (fun f' => conflict f f' || short_pair f f') pre && told_apart (pre ++ [f]) r
  end.
Lemma isa_told_apart : told_apart [] isa = true. Proof. vm_compute. reflexivity. Qed.
Lemma told_apart_split pre l a f b : told_apart pre l = true -> l = a ++ f :: b -> forallb (fun f' => conflict f f' || short_pair f f') (pre ++ a) = true.
Proof.
  revert pre l. induction a as [|x a IH]; intros pre l T ->; cbn [app told_apart] in T; apply andb_true_iff in T; destruct T as [T1 T2].
  - now rewrite app_nil_r.
  - specialize (IH (pre ++ [x]) _ T2 eq_refl). now rewrite <- app_assoc in IH.
Qed.
Lemma find_at {A} (p : A -> bool) a x b : forallb (fun y => negb (p y)) a = true -> p x = true -> find p (a ++ x :: b) = Some x.
Proof.
  intros F X. induction a as [|y a IH]; cbn [app find]; [now rewrite X|]. cbn [forallb] in F. apply andb_true_iff in F. destruct F as [F1 F2].
  apply negb_true_iff in F1. rewrite F1. now apply IH.
Qed.
Lemma in_left f : In f isa -> In f (isa ++ idioms). Proof. intros. apply in_or_app. now left. Qed.
Lemma short_rejects f f' os : In f isa -> Forall2 fits (f_ops f) os -> short_pair f f' = true -> ~ has_short_form f os -> selects (word f os) f' = false.
Proof.
  intros I F S N. apply not_true_is_false. intros T. apply N. clear N. unfold short_pair in S. apply in_left in I.
  apply orb_true_iff in S. destruct S as [S|S]; [apply orb_true_iff in S; destruct S as [S|S]|]; apply andb_true_iff in S; destruct S as [S1 S2]; apply format_eqb_true in S1, S2; subst f f'.
  - left. split; [reflexivity|]. unfold long_jalr, special in F. cbn [f_ops] in F. inversion F as [|k o ks os1 K1 F1]; subst. inversion F1 as [|k2 o2 ks2 os2 K2 F2]; subst. inversion F2; subst.
    destruct o as [n| |]; try contradiction. destruct o2 as [s| |]; try contradiction.
    assert (W := word_field long_jalr [OReg n; OReg s] 11 5 n I F ltac:(vm_compute; auto)).
    unfold selects, short_jalr in T. rewrite forallb_forall in T. specialize (T (rd5 31) ltac:(cbn; auto)). cbn beta iota delta [rd5] in T. rewrite W in T. apply Z.eqb_eq in T. subst. now exists s.
  - right. left. split; [reflexivity|]. unfold long_syscall, special in F. cbn [f_ops] in F. inversion F as [|k o ks os1 K1 F1]; subst. inversion F1; subst. destruct o as [|v|]; try contradiction.
    assert (W := word_field long_syscall [OInt v] 6 20 v I F ltac:(vm_compute; auto)).
    unfold selects, short_syscall in T. rewrite forallb_forall in T. specialize (T (6, 20, 0) ltac:(cbn; auto)). cbn beta iota in T. rewrite W in T. apply Z.eqb_eq in T. now subst.
  - right. right. split; [reflexivity|]. unfold long_break, special in F. cbn [f_ops] in F. inversion F as [|k o ks os1 K1 F1]; subst. inversion F1; subst. destruct o as [|v|]; try contradiction.
    assert (W := word_field long_break [OInt v] 6 20 v I F ltac:(vm_compute; auto)).
    unfold selects, short_break in T. rewrite forallb_forall in T. specialize (T (6, 20, 0) ltac:(cbn; auto)). cbn beta iota in T. rewrite W in T. apply Z.eqb_eq in T. now subst.
Qed.
Lemma read_self f os : In f isa -> Forall2 fits (f_ops f) os -> ~ has_short_form f os -> read_word (word f os) = Some f.
Proof.
  intros I F N. destruct (in_split _ _ I) as (a & b & E). assert (T := told_apart_split [] isa a f b isa_told_apart E). cbn [app] in T.
  unfold read_word. rewrite E. apply find_at; [|apply word_selects; auto using in_left].
  rewrite forallb_forall in *. intros f' I'. specialize (T f' I'). apply negb_true_iff. apply orb_true_iff in T. destruct T as [T|T].
  - apply conflict_rejects; auto using in_left. apply in_left. rewrite E. apply in_or_app. now left.
  - now apply short_rejects.
Qed.

(** ** What an encoded instruction reads as *)

Definition format_in (f : format) (l : list format) : bool := existsb (format_eqb f) l.
Lemma format_in_true f l : format_in f l = true -> In f l.
Proof. unfold format_in. intros H. apply existsb_exists in H. destruct H as (g & I & E). apply format_eqb_true in E. now subst. Qed.

Ltac inv_ops := repeat match goal with
  | H : Forall2 fits (_ :: _) ?os |- _ => let o := fresh "o" in let F := fresh "F" in inversion H as [|? o ? ? ? F]; subst; clear H
  | H : Forall2 fits [] ?os |- _ => inversion H; subst; clear H
  end.
Lemma pair3_inv {A B C} (a a' : A) (b b' : B) (c c' : C) : (a, b, c) = (a', b', c') -> a = a' /\ b = b' /\ c = c'.
Proof. intros E. injection E as -> -> ->. auto. Qed.
Lemma str_neq a b : str_eqb a b = false -> a <> b.
Proof. intros E ->. assert (X : str_eqb b b = true) by now apply str_eqb_spec. congruence. Qed.
Lemma idiom_word f os f' g : In f idioms -> In (f_name f, f', g) idiom_meanings -> Forall2 fits (f_ops f) os ->
  Forall2 fits (f_ops f') (g os) /\ word f os = word f' (g os).
Proof.
  intros I M F. unfold idioms in I. cbn [In] in I.
  repeat lazymatch type of I with False => contradiction I | _ \/ _ => destruct I as [I|I] end; subst f; cbn [f_name] in M;
  unfold idiom_meanings in M; cbn zeta in M; cbn [In] in M;
  repeat lazymatch type of M with False => contradiction M | _ \/ _ => destruct M as [M|M] end;
  apply pair3_inv in M; destruct M as (Nm & <- & <-);
  lazymatch type of Nm with ?a = ?b =>
    let v := eval vm_compute in (str_eqb a b) in
    lazymatch v with false => exfalso; exact (str_neq a b eq_refl Nm) | true => clear Nm end end;
  cbn [f_ops] in F; unfold Rd, Rs, Rt in F; inv_ops;
  repeat match goal with o : operand |- _ => destruct o; try contradiction end;
  (split; [repeat constructor; cbn [fits] in *; lia
          |unfold word, key_word, ops_word, sumZ; cbn [special normal regimm op6 funct6 rt5 f_key f_ops map combine fold_right fst snd place Rd Rs Rt]; lia]).
Qed.
Lemma idiom_reads f os f' g : In f idioms -> In (f_name f, f', g) idiom_meanings -> Forall2 fits (f_ops f) os ->
  In f' isa /\ Forall2 fits (f_ops f') (g os) /\ word f os = word f' (g os) /\ ~ has_short_form f' (g os).
Proof.
  intros I M F. split; [|destruct (idiom_word f os f' g I M F) as [A B]; split; [exact A|split; [exact B|]]].
  - apply format_in_true. assert (X : forallb (fun m => format_in (snd (fst m)) isa) idiom_meanings = true) by (vm_compute; reflexivity).
    rewrite forallb_forall in X. exact (X _ M).
  - intros H. assert (X : forallb (fun m => negb (format_in (snd (fst m)) [long_jalr; long_syscall; long_break])) idiom_meanings = true) by (vm_compute; reflexivity).
    rewrite forallb_forall in X. specialize (X _ M). cbn [fst snd] in X. destruct H as [[-> _]|[[-> _]|[-> _]]]; vm_compute in X; discriminate X.
Qed.

(** The instruction that the word of any instruction reads as has that word, too. *)
Lemma reads_as_word f os f' os' : reads_as f os f' os' -> Forall2 fits (f_ops f) os ->
  In f' isa /\ Forall2 fits (f_ops f') os' /\ word f os = word f' os' /\ ~ has_short_form f' os'.
Proof.
  intros R F. destruct R as [f os I N|s| | |f os f' g I M]; [auto| | | |now apply idiom_reads].
  - cbn [long_jalr special f_ops] in F. unfold Rd, Rs in F. inv_ops. split; [apply format_in_true; vm_compute; reflexivity|].
    split; [repeat constructor; cbn [fits] in *; lia|]. split; [unfold word, key_word, ops_word, sumZ; cbn [long_jalr short_jalr special op6 funct6 rd5 f_key f_ops map combine fold_right fst snd place Rd Rs Rt]; lia|].
    intros HS. destruct HS as [[HS _]|[[HS _]|[HS _]]]; apply (f_equal f_ops) in HS; discriminate HS.
  - split; [apply format_in_true; vm_compute; reflexivity|]. split; [constructor|]. split; [reflexivity|]. intros HS. destruct HS as [[HS _]|[[HS _]|[HS _]]]; apply (f_equal f_ops) in HS; discriminate HS.
  - split; [apply format_in_true; vm_compute; reflexivity|]. split; [constructor|]. split; [reflexivity|]. intros HS. destruct HS as [[HS _]|[[HS _]|[HS _]]]; apply (f_equal f_ops) in HS; discriminate HS.
Qed.
Lemma read_reads f os f' os' : reads_as f os f' os' -> Forall2 fits (f_ops f) os -> read_word (word f os) = Some f'.
Proof. intros R F. destruct (reads_as_word f os f' os' R F) as (I & F' & E & N). rewrite E. now apply read_self. Qed.
Lemma extract_reads pc f os f' os' : reads_as f os f' os' -> Forall2 fits (f_ops f) os -> Forall2 (in_segment pc) (f_ops f') os' ->
  map (extract pc (word f os)) (f_ops f') = os'.
Proof. intros R F G. destruct (reads_as_word f os f' os' R F) as (I & F' & E & N). rewrite E. apply word_extract; auto using in_left. Qed.
Lemma every_reads f os : In f (isa ++ idioms) -> Forall2 fits (f_ops f) os -> exists f' os', reads_as f os f' os'.
Proof.
  intros I F. apply in_app_iff in I. destruct I as [I|I].
  - destruct (format_eqb f long_jalr) eqn:E1; [apply format_eqb_true in E1; subst f|destruct (format_eqb f long_syscall) eqn:E2; [apply format_eqb_true in E2; subst f|destruct (format_eqb f long_break) eqn:E3; [apply format_eqb_true in E3; subst f|]]].
    + cbn [long_jalr special f_ops] in F. unfold Rd, Rs in F. inv_ops. destruct o as [n| |]; try contradiction. destruct o0 as [s| |]; try contradiction.
      destruct (Z.eq_dec n 31) as [->|Ne]; [exists short_jalr, [OReg s]; constructor|]. exists long_jalr, [OReg n; OReg s]. constructor; [assumption|].
      intros HS. destruct HS as [[_ (x & HS)]|[[HS _]|[HS _]]]; [injection HS; congruence|apply (f_equal f_ops) in HS; discriminate HS|apply (f_equal f_ops) in HS; discriminate HS].
    + cbn [long_syscall special f_ops] in F. inv_ops. destruct o as [|v|]; try contradiction.
      destruct (Z.eq_dec v 0) as [->|Ne]; [exists short_syscall, []; constructor|]. exists long_syscall, [OInt v]. constructor; [assumption|].
      intros HS. destruct HS as [[HS _]|[[_ HS]|[HS _]]]; [apply (f_equal f_ops) in HS; discriminate HS|injection HS; congruence|apply (f_equal f_name) in HS; vm_compute in HS; discriminate HS].
    + cbn [long_break special f_ops] in F. inv_ops. destruct o as [|v|]; try contradiction.
      destruct (Z.eq_dec v 0) as [->|Ne]; [exists short_break, []; constructor|]. exists long_break, [OInt v]. constructor; [assumption|].
      intros HS. destruct HS as [[HS _]|[[HS _]|[_ HS]]]; [apply (f_equal f_ops) in HS; discriminate HS|apply (f_equal f_name) in HS; vm_compute in HS; discriminate HS|injection HS; congruence].
    + exists f, os. constructor; [assumption|]. assert (R : forall g, format_eqb g g = true -> format_eqb f g = false -> f <> g) by (intros g G1 G2 ->; congruence).
      intros HS. destruct HS as [[HS _]|[[HS _]|[HS _]]]; revert HS; apply R; auto; vm_compute; reflexivity.
  - assert (X : forallb (fun i => existsb (fun m => str_eqb (fst (fst m)) (f_name i)) idiom_meanings) idioms = true) by (vm_compute; reflexivity).
    rewrite forallb_forall in X. specialize (X f I). apply existsb_exists in X. destruct X as ([[n f'] g] & M & E). cbn [fst] in E. apply str_eqb_spec in E. subst n.
    exists f', (g os). now apply ra_idiom.
Qed.
