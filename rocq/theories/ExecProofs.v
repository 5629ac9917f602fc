(** * ExecProofs: executing the words of pseudo-instructions (proofs only). *)

From Coq Require Import Lia.
From Verif Require Import Str SpecIsa SpecMachine MachineProofs.

Ltac ex1 := first [rewrite exec_rword by lia; unfold exec_special | rewrite exec_iword by lia; unfold exec_normal]; cbv beta iota zeta.
Ltac ex := cbn [straight]; repeat ex1.
Ltac vals := rewrite ?hi_write, ?lo_write, ?value_write, ?value_hilo, ?value_0, ?Z.eqb_refl.
(** Decide every register comparison. *)
Ltac eqbs :=
  repeat match goal with
  | |- context [?x =? ?y] => is_var x; first [is_var y | lazymatch y with 0 => idtac | 1 => idtac end]; destruct (Z.eqb_spec x y); try subst; try lia
  end.
Ltac same := split; reflexivity.
Ltac others := let x := fresh "x" in let H := fresh "H" in let J := fresh "J" in
  intros x H J; vals; destruct (Z.eqb_spec x 0); [subst x; vals; reflexivity|];
  repeat match goal with |- context [x =? ?y] => destruct (Z.eqb_spec x y); [exfalso; first [lia | apply J; left; unfold at_reg; lia]|] end; try reflexivity.

Section Exec.
Variable odd : Z -> Z.
Variables a b c : Z.
Hypothesis Ra : 0 <= a < 32.
Hypothesis Rb : 0 <= b < 32.
Hypothesis Rc : 0 <= c < 32.

Lemma bit_xor1 x : Z.lxor (bit x) 1 = bit (negb x).
Proof. now destruct x. Qed.

Lemma ex_sgt st : finishes odd [rword b a c 0 42] st (write st c (bit (signed64 (value st b) <? signed64 (value st a)))).
Proof. apply straight_finishes. ex. reflexivity. Qed.
Lemma ex_sgtu st : finishes odd [rword b a c 0 43] st (write st c (bit (value st b <? value st a))).
Proof. apply straight_finishes. ex. reflexivity. Qed.

Definition puts (ws : list Z) (scratch : list Z) (st : state) (v : Z) : Prop :=
  exists st', finishes odd ws st st' /\ result scratch st c v st' /\ same_hilo st st'.
Lemma result_write st v : result [] st c v (write st c v) /\ same_hilo st (write st c v).
Proof.
  split; [|same]. split.
  - intros N. vals. destruct (Z.eqb_spec c 0); [lia|reflexivity].
  - others.
Qed.
Lemma result_write2 st u v : result [] st c v (write (write st c u) c v) /\ same_hilo st (write (write st c u) c v).
Proof.
  split; [|same]. split.
  - intros N. vals. destruct (Z.eqb_spec c 0); [lia|reflexivity].
  - others.
Qed.
Lemma put1 w st v : exec odd w st = Next (write st c v) -> puts [w] [] st v.
Proof. intros E. exists (write st c v). split; [|apply result_write]. apply straight_finishes. cbn [straight]. now rewrite E. Qed.
Lemma put2 w w' st u v : exec odd w st = Next (write st c u) -> (c <> 0 -> exec odd w' (write st c u) = Next (write (write st c u) c v)) ->
  (c = 0 -> exists v', exec odd w' (write st c u) = Next (write (write st c u) c v')) ->
  puts [w; w'] [] st v.
Proof.
  intros E E' E0. destruct (Z.eq_dec c 0) as [Z0|N].
  - destruct (E0 Z0) as [v' E1]. exists (write (write st c u) c v'). split; [apply straight_finishes; cbn [straight]; now rewrite E, E1|].
    split; [|same]. split; [lia|]. others.
  - exists (write (write st c u) c v). split; [apply straight_finishes; cbn [straight]; rewrite E, E' by exact N; reflexivity|apply result_write2].
Qed.

Lemma ex_seq st : well st -> puts [rword a b c 0 38; iword 11 c c 1] [] st (bit (value st a =? value st b)).
Proof.
  intros [W _]. eapply put2; [ex1; reflexivity| |intros Z0; ex1; eauto].
  intros N. ex1. f_equal. f_equal. vals. destruct (Z.eqb_spec c 0); [lia|]. f_equal.
  assert (R := lxor_range (value st a) (value st b) 64 ltac:(lia) (W a) (W b)).
  change (low64 (signed16 1)) with 1. destruct (Z.eqb_spec (value st a) (value st b)) as [E|E].
  - rewrite E, Z.lxor_nilpotent. reflexivity.
  - apply Z.ltb_ge. destruct (Z.eq_dec (Z.lxor (value st a) (value st b)) 0) as [X|X]; [apply Z.lxor_eq in X; congruence|lia].
Qed.
Lemma ex_sne st : well st -> puts [rword a b c 0 38; rword 0 c c 0 43] [] st (bit (negb (value st a =? value st b))).
Proof.
  intros [W _]. eapply put2; [ex1; reflexivity| |intros Z0; ex1; eauto].
  intros N. ex1. f_equal. f_equal. vals. destruct (Z.eqb_spec c 0); [lia|]. f_equal.
  assert (R := lxor_range (value st a) (value st b) 64 ltac:(lia) (W a) (W b)).
  change (0 =? 0) with true. cbn iota. destruct (Z.eqb_spec (value st a) (value st b)) as [E|E].
  - rewrite E, Z.lxor_nilpotent. reflexivity.
  - apply Z.ltb_lt. destruct (Z.eq_dec (Z.lxor (value st a) (value st b)) 0) as [X|X]; [apply Z.lxor_eq in X; congruence|lia].
Qed.
Lemma ex_notlt x y st : 0 <= x < 32 -> 0 <= y < 32 -> puts [rword x y c 0 42; iword 14 c c 1] [] st (bit (signed64 (value st y) <=? signed64 (value st x))).
Proof.
  intros X Y. eapply put2; [ex1; reflexivity| |intros Z0; ex1; eauto].
  intros N. ex1. f_equal. f_equal. vals. destruct (Z.eqb_spec c 0); [lia|]. rewrite bit_xor1. f_equal. symmetry. apply Z.leb_antisym.
Qed.
Lemma ex_notltu x y st : 0 <= x < 32 -> 0 <= y < 32 -> puts [rword x y c 0 43; iword 14 c c 1] [] st (bit (value st y <=? value st x)).
Proof.
  intros X Y. eapply put2; [ex1; reflexivity| |intros Z0; ex1; eauto].
  intros N. ex1. f_equal. f_equal. vals. destruct (Z.eqb_spec c 0); [lia|]. rewrite bit_xor1. f_equal. symmetry. apply Z.leb_antisym.
Qed.

(** ** Moves *)
Lemma word32_val v : 0 <= v < 2 ^ 64 -> word32 (0 + v) = word32 v. Proof. now rewrite Z.add_0_l. Qed.
Lemma ex_move st : puts [rword 0 a c 0 33] [] st (word32 (value st a)).
Proof. apply put1. ex1. now vals. Qed.
Lemma ex_dmove st : well st -> puts [rword a 0 c 0 45] [] st (value st a).
Proof. intros [W _]. apply put1. ex1. vals. rewrite Z.add_0_r. now rewrite low64_small. Qed.
Lemma ex_clear st : puts [rword 0 0 c 0 33] [] st 0.
Proof. apply put1. ex1. reflexivity. Qed.
Lemma ex_negu st : puts [rword 0 a c 0 35] [] st (word32 (- value st a)).
Proof. apply put1. ex1. now vals. Qed.
Lemma ex_dnegu st : puts [rword 0 a c 0 47] [] st (low64 (- value st a)).
Proof. apply put1. ex1. now vals. Qed.
Lemma ex_neg st : signed32 (value st a) <> - 2 ^ 31 -> puts [rword 0 a c 0 34] [] st (word32 (- value st a)).
Proof.
  intros N. apply put1. ex1. vals. unfold checked. change (signed32 0) with 0. assert (R := signed32_range (value st a)).
  change (32 - 1) with 31. destruct ((- 2 ^ 31 <=? 0 - signed32 (value st a)) && (0 - signed32 (value st a) <? 2 ^ 31)) eqn:E; [reflexivity|].
  lia.
Qed.
Lemma ex_neg_ov st : signed32 (value st a) = - 2 ^ 31 -> raises odd [rword 0 a c 0 34] st Overflow.
Proof.
  intros N. apply (straight_raises odd [] _ [] st st); [reflexivity|]. ex1. vals. unfold checked. change (signed32 0) with 0. rewrite N. reflexivity.
Qed.
Lemma ex_dneg st : well st -> signed64 (value st a) <> - 2 ^ 63 -> puts [rword 0 a c 0 46] [] st (low64 (- value st a)).
Proof.
  intros [W _] N. apply put1. ex1. vals. unfold checked. change (signed64 0) with 0. assert (R := signed64_range _ (W a)).
  change (64 - 1) with 63. destruct ((- 2 ^ 63 <=? 0 - signed64 (value st a)) && (0 - signed64 (value st a) <? 2 ^ 63)) eqn:E; [reflexivity|].
  lia.
Qed.
Lemma ex_dneg_ov st : signed64 (value st a) = - 2 ^ 63 -> raises odd [rword 0 a c 0 46] st Overflow.
Proof.
  intros N. apply (straight_raises odd [] _ [] st st); [reflexivity|]. ex1. vals. unfold checked. change (signed64 0) with 0. rewrite N. reflexivity.
Qed.
Lemma ex_not st : well st -> puts [rword a 0 c 0 39] [] st (2 ^ 64 - 1 - value st a).
Proof.
  intros [W _]. apply put1. ex1. vals. rewrite Z.lor_0_r. f_equal. f_equal. unfold low64, Z.lnot.
  assert (R := W a). rewrite <- (Z.mod_add _ 1) by lia. rewrite Z.mod_small; lia.
Qed.

(** ** Absolute values *)
Lemma sra31 v : word32 (signed32 v / 2 ^ 31) = if signed32 v <? 0 then 2 ^ 64 - 1 else 0.
Proof.
  assert (R := signed32_range v). destruct (signed32 v <? 0) eqn:E.
  - replace (signed32 v / 2 ^ 31) with (-1); [reflexivity|]. apply Z.div_unique with (signed32 v + 2 ^ 31); lia.
  - rewrite Z.div_small by lia. reflexivity.
Qed.
Lemma ex_abs st : well st -> a <> 1 -> c <> 1 ->
  puts [rword 0 a 1 31 3; rword a 1 c 0 38; rword c 1 c 0 35] [at_reg] st (word32 (Z.abs (signed32 (value st a)))).
Proof.
  intros [W _] Na Nc. eexists. split; [|split].
  - apply straight_finishes. ex. reflexivity.
  - split; [|others]. intros N. vals. change (1 =? 0) with false. cbn iota.
    destruct (Z.eqb_spec c 0); [lia|]. destruct (Z.eqb_spec a 1); [lia|]. destruct (Z.eqb_spec 1 c); [lia|].
    rewrite sra31. assert (R := signed32_range (value st a)). apply word32_cong.
    assert (V : (if a =? 0 then 0 else value st a) = value st a) by (destruct (Z.eqb_spec a 0); [subst; reflexivity|reflexivity]). rewrite V.
    assert (M := signed32_mod (value st a)). assert (Wa := W a).
    destruct (signed32 (value st a) <? 0) eqn:E.
    + rewrite lxor_ones by lia. rewrite Z.abs_neq by lia.
      replace (2 ^ 64 - 1 - value st a - (2 ^ 64 - 1)) with (- value st a) by lia.
      rewrite <- (Z.sub_0_l (value st a)), <- (Z.sub_0_l (signed32 (value st a))). rewrite (Zminus_mod 0 (value st a)), (Zminus_mod 0 (signed32 (value st a))), M. reflexivity.
    + rewrite Z.lxor_0_r, Z.sub_0_r, Z.abs_eq by lia. now rewrite M.
  - same.
Qed.
(** [dabs] shifts by 31 instead of 63: right for values of 32 bits. *)
Lemma ex_dabs st : well st -> a <> 1 -> c <> 1 -> - 2 ^ 31 <= signed64 (value st a) < 2 ^ 31 ->
  puts [rword 0 a 1 31 59; rword a 1 c 0 38; rword c 1 c 0 46] [at_reg] st (low64 (Z.abs (signed64 (value st a)))).
Proof.
  intros [W _] Na Nc Sm. assert (Wa := W a).
  set (x := signed64 (value st a)) in *. set (s1 := write st 1 (if x <? 0 then 2 ^ 64 - 1 else 0)).
  set (s2 := write s1 c (if x <? 0 then 2 ^ 64 - 1 - value st a else value st a)).
  assert (X : value st a = if x <? 0 then x + 2 ^ 64 else x).
  { unfold x, signed64. destruct (value st a <? 2 ^ 63) eqn:E; [destruct (value st a <? 0) eqn:F; lia|]. destruct (value st a - 2 ^ 64 <? 0) eqn:F; lia. }
  assert (E1 : exec odd (rword 0 a 1 31 59) st = Next s1).
  { ex1. unfold s1. f_equal. f_equal. fold x. destruct (x <? 0) eqn:E.
    - replace (x / 2 ^ 31) with (-1); [reflexivity|]. apply Z.div_unique with (x + 2 ^ 31); lia.
    - rewrite Z.div_small by lia. reflexivity. }
  assert (V1 : value s1 a = value st a).
  { unfold s1. vals. destruct (Z.eqb_spec a 0); [subst; reflexivity|]. destruct (Z.eqb_spec a 1); [lia|reflexivity]. }
  assert (E2 : exec odd (rword a 1 c 0 38) s1 = Next s2).
  { ex1. rewrite V1. unfold s2. f_equal. f_equal. unfold s1. vals. change (1 =? 0) with false. cbn iota. destruct (x <? 0) eqn:E; [apply lxor_ones; lia|apply Z.lxor_0_r]. }
  destruct (Z.eq_dec c 0) as [C0|C0].
  - exists (write s2 c (low64 (0 - (if x <? 0 then 2 ^ 64 - 1 else 0)))). split; [|split; [|same]].
    + apply straight_finishes. cbn [straight]. rewrite E1, E2. ex1.
      assert (A : value s2 c = 0) by (rewrite C0; reflexivity). assert (B : value s2 1 = if x <? 0 then 2 ^ 64 - 1 else 0).
      { unfold s2, s1. vals. change (1 =? 0) with false. destruct (Z.eqb_spec 1 c); [lia|reflexivity]. }
      rewrite A, B. destruct (x <? 0); reflexivity.
    + split; [lia|]. unfold s2, s1. others.
  - exists (write s2 c (low64 (Z.abs x))). split; [|split; [|same]].
    + apply straight_finishes. cbn [straight]. rewrite E1, E2. ex1.
      assert (A : value s2 c = if x <? 0 then 2 ^ 64 - 1 - value st a else value st a).
      { unfold s2. vals. destruct (Z.eqb_spec c 0); [lia|reflexivity]. }
      assert (B : value s2 1 = if x <? 0 then 2 ^ 64 - 1 else 0).
      { unfold s2, s1. vals. change (1 =? 0) with false. destruct (Z.eqb_spec 1 c); [lia|reflexivity]. }
      rewrite A, B, X. unfold checked, signed64. destruct (x <? 0) eqn:E.
      * replace (2 ^ 64 - 1 - (x + 2 ^ 64)) with (- x - 1) by lia. change (2 ^ 64 - 1 <? 2 ^ 63) with false. cbn iota.
        destruct (- x - 1 <? 2 ^ 63) eqn:F; [|lia]. replace (- x - 1 - (2 ^ 64 - 1 - 2 ^ 64)) with (- x) by lia.
        change (64 - 1) with 63. destruct ((- 2 ^ 63 <=? - x) && (- x <? 2 ^ 63)) eqn:G; [|lia]. do 2 f_equal.
        rewrite Z.abs_neq by lia. replace (- x - 1 - (2 ^ 64 - 1)) with (- x + (-1) * 2 ^ 64) by lia. unfold low64. apply Z.mod_add. lia.
      * destruct (x <? 2 ^ 63) eqn:F; [|lia]. change (0 <? 2 ^ 63) with true. cbn iota. rewrite Z.sub_0_r. change (64 - 1) with 63.
        destruct ((- 2 ^ 63 <=? x) && (x <? 2 ^ 63)) eqn:G; [|lia]. now rewrite Z.abs_eq by lia.
    + split; [intros _; vals; destruct (Z.eqb_spec c 0); [lia|reflexivity]|]. unfold s2, s1. others.
Qed.

(** ** Multiplication *)
Lemma low64_eq0 q : - 2 ^ 63 <= q < 2 ^ 63 -> low64 q = 0 -> q = 0.
Proof. intros R E. rewrite <- (signed64_low q R), E. reflexivity. Qed.
Lemma low64_eqm1 q : - 2 ^ 63 <= q < 2 ^ 63 -> low64 q = 2 ^ 64 - 1 -> q = -1.
Proof. intros R E. rewrite <- (signed64_low q R), E. reflexivity. Qed.

Definition puts_hilo (ws : list Z) (scratch : list Z) (st : state) (v : Z) : Prop :=
  exists st', finishes odd ws st st' /\ result scratch st c v st'.
Lemma result_after st h l v : result [] st c v (write (write_hilo st h l) c v).
Proof. split; [intros N; vals; destruct (Z.eqb_spec c 0); [lia|reflexivity]|others]. Qed.

Lemma ex_mult st : puts_hilo [rword a b 0 0 24; rword 0 0 c 0 18] [] st (word32 (signed32 (value st a) * signed32 (value st b))).
Proof. eexists. split; [apply straight_finishes; ex; reflexivity|apply result_after]. Qed.
Lemma ex_multu st : puts_hilo [rword a b 0 0 25; rword 0 0 c 0 18] [] st (word32 (low32 (value st a) * low32 (value st b))).
Proof. eexists. split; [apply straight_finishes; ex; reflexivity|apply result_after]. Qed.
Lemma ex_dmult st : puts_hilo [rword a b 0 0 28; rword 0 0 c 0 18] [] st (low64 (signed64 (value st a) * signed64 (value st b))).
Proof. eexists. split; [apply straight_finishes; ex; reflexivity|apply result_after]. Qed.
Lemma ex_dmultu st : puts_hilo [rword a b 0 0 29; rword 0 0 c 0 18] [] st (low64 (value st a * value st b)).
Proof. eexists. split; [apply straight_finishes; ex; reflexivity|apply result_after]. Qed.

(** The high word of a product is the sign of its low word exactly when the product fits. *)
Lemma fits32 p : - 2 ^ 62 <= p <= 2 ^ 62 ->
  (word32 (signed32 (word32 p) / 2 ^ 31) =? word32 (p / 2 ^ 32)) = (- 2 ^ 31 <=? p) && (p <? 2 ^ 31).
Proof.
  intros R. rewrite signed32_word, sra31.
  assert (D := Z.div_mod p (2 ^ 32) ltac:(lia)). assert (M := Z.mod_pos_bound p (2 ^ 32) ltac:(lia)).
  set (q := p / 2 ^ 32) in *. assert (Q : - 2 ^ 31 <= q < 2 ^ 31) by (unfold q; split; [apply Z.div_le_lower_bound; lia|apply Z.div_lt_upper_bound; lia]).
  assert (W : word32 q = low64 q) by (unfold word32; now rewrite signed32_small by lia). rewrite W.
  assert (S : signed32 p = if p mod 2 ^ 32 <? 2 ^ 31 then p mod 2 ^ 32 else p mod 2 ^ 32 - 2 ^ 32) by reflexivity.
  assert (K : low64 q = if q <? 0 then q + 2 ^ 64 else q).
  { unfold low64. destruct (q <? 0) eqn:E; [rewrite <- (Z.mod_add q 1) by lia|]; rewrite Z.mod_small; lia. }
  rewrite K, S. clearbody q. destruct (p mod 2 ^ 32 <? 2 ^ 31) eqn:E1.
  - destruct (p mod 2 ^ 32 <? 0) eqn:E2; [lia|]. destruct (q <? 0) eqn:E3; lia.
  - destruct (p mod 2 ^ 32 - 2 ^ 32 <? 0) eqn:E2; [|lia]. destruct (q <? 0) eqn:E3; lia.
Qed.
Lemma fits64 p : - 2 ^ 126 <= p <= 2 ^ 126 ->
  (low64 (signed64 (low64 p) / 2 ^ 63) =? low64 (p / 2 ^ 64)) = (- 2 ^ 63 <=? p) && (p <? 2 ^ 63).
Proof.
  intros R.
  assert (D := Z.div_mod p (2 ^ 64) ltac:(lia)). assert (M := Z.mod_pos_bound p (2 ^ 64) ltac:(lia)).
  set (q := p / 2 ^ 64) in *. assert (Q : - 2 ^ 63 <= q < 2 ^ 63) by (unfold q; split; [apply Z.div_le_lower_bound; lia|apply Z.div_lt_upper_bound; lia]).
  assert (K : low64 q = if q <? 0 then q + 2 ^ 64 else q).
  { unfold low64. destruct (q <? 0) eqn:E; [rewrite <- (Z.mod_add q 1) by lia|]; rewrite Z.mod_small; lia. }
  assert (S : low64 (signed64 (low64 p) / 2 ^ 63) = if p mod 2 ^ 64 <? 2 ^ 63 then 0 else 2 ^ 64 - 1).
  { unfold signed64. unfold low64 at 2 3 4. destruct (p mod 2 ^ 64 <? 2 ^ 63) eqn:E.
    - rewrite Z.div_small by lia. reflexivity.
    - replace ((p mod 2 ^ 64 - 2 ^ 64) / 2 ^ 63) with (-1); [reflexivity|]. apply Z.div_unique with (p mod 2 ^ 64 - 2 ^ 63); lia. }
  rewrite K, S. clearbody q. destruct (p mod 2 ^ 64 <? 2 ^ 63) eqn:E1; destruct (q <? 0) eqn:E3; lia.
Qed.

Lemma ex_mulo st : c <> 0 -> c <> 1 ->
  let ws := [rword a b 0 0 24; rword 0 0 c 0 18; rword 0 c c 31 3; rword 0 0 1 0 16; rword c 1 0 6 54; rword 0 0 c 0 18] in
  let p := signed32 (value st a) * signed32 (value st b) in
  if (- 2 ^ 31 <=? p) && (p <? 2 ^ 31) then puts_hilo ws [at_reg] st (word32 p) else raises odd ws st (TrapCode 6).
Proof.
  intros C0 C1 ws p. assert (R : - 2 ^ 62 <= p <= 2 ^ 62).
  { assert (A := signed32_range (value st a)). assert (B := signed32_range (value st b)). unfold p. nia. }
  assert (F := fits32 p R). unfold ws.
  set (s1 := write_hilo st (word32 (p / 2 ^ 32)) (word32 p)). set (s2 := write s1 c (word32 p)).
  set (s3 := write s2 c (word32 (signed32 (word32 p) / 2 ^ 31))). set (s4 := write s3 1 (word32 (p / 2 ^ 32))).
  assert (E1 : exec odd (rword a b 0 0 24) st = Next s1) by (ex1; reflexivity).
  assert (E2 : exec odd (rword 0 0 c 0 18) s1 = Next s2) by (ex1; reflexivity).
  assert (E3 : exec odd (rword 0 c c 31 3) s2 = Next s3).
  { ex1. unfold s3. do 3 f_equal. unfold s2. vals. destruct (Z.eqb_spec c 0); [lia|reflexivity]. }
  assert (E4 : exec odd (rword 0 0 1 0 16) s3 = Next s4) by (ex1; reflexivity).
  assert (V : (value s4 c =? value s4 1) = (- 2 ^ 31 <=? p) && (p <? 2 ^ 31)).
  { rewrite <- F. unfold s4, s3. vals. change (1 =? 0) with false. destruct (Z.eqb_spec c 0); [lia|]. destruct (Z.eqb_spec c 1); [lia|]. reflexivity. }
  assert (E5 : exec odd (rword c 1 0 6 54) s4 = trap_if (negb (value s4 c =? value s4 1)) 6 s4) by (ex1; reflexivity).
  rewrite V in E5. destruct ((- 2 ^ 31 <=? p) && (p <? 2 ^ 31)).
  - exists (write s4 c (word32 p)). split.
    + apply straight_finishes. cbn [straight]. rewrite E1, E2, E3, E4, E5. cbn [negb trap_if]. ex1. reflexivity.
    + split; [intros _; vals; destruct (Z.eqb_spec c 0); [lia|reflexivity]|]. unfold s4, s3, s2, s1. others.
  - apply (straight_raises odd [rword a b 0 0 24; rword 0 0 c 0 18; rword 0 c c 31 3; rword 0 0 1 0 16] (rword c 1 0 6 54) [rword 0 0 c 0 18] st s4).
    + cbn [straight]. now rewrite E1, E2, E3, E4.
    + exact E5.
Qed.
Lemma ex_dmulo st : well st -> c <> 0 -> c <> 1 ->
  let ws := [rword a b 0 0 28; rword 0 0 c 0 18; rword 0 c c 31 63; rword 0 0 1 0 16; rword c 1 0 6 54; rword 0 0 c 0 18] in
  let p := signed64 (value st a) * signed64 (value st b) in
  if (- 2 ^ 63 <=? p) && (p <? 2 ^ 63) then puts_hilo ws [at_reg] st (low64 p) else raises odd ws st (TrapCode 6).
Proof.
  intros [W _] C0 C1 ws p. assert (R : - 2 ^ 126 <= p <= 2 ^ 126).
  { assert (A := signed64_range _ (W a)). assert (B := signed64_range _ (W b)). unfold p. nia. }
  assert (F := fits64 p R). unfold ws.
  set (s1 := write_hilo st (low64 (p / 2 ^ 64)) (low64 p)). set (s2 := write s1 c (low64 p)).
  set (s3 := write s2 c (low64 (signed64 (low64 p) / 2 ^ 63))). set (s4 := write s3 1 (low64 (p / 2 ^ 64))).
  assert (E1 : exec odd (rword a b 0 0 28) st = Next s1) by (ex1; reflexivity).
  assert (E2 : exec odd (rword 0 0 c 0 18) s1 = Next s2) by (ex1; reflexivity).
  assert (E3 : exec odd (rword 0 c c 31 63) s2 = Next s3).
  { ex1. unfold s3. do 3 f_equal. unfold s2. vals. destruct (Z.eqb_spec c 0); [lia|reflexivity]. }
  assert (E4 : exec odd (rword 0 0 1 0 16) s3 = Next s4) by (ex1; reflexivity).
  assert (V : (value s4 c =? value s4 1) = (- 2 ^ 63 <=? p) && (p <? 2 ^ 63)).
  { rewrite <- F. unfold s4, s3. vals. change (1 =? 0) with false. destruct (Z.eqb_spec c 0); [lia|]. destruct (Z.eqb_spec c 1); [lia|]. reflexivity. }
  assert (E5 : exec odd (rword c 1 0 6 54) s4 = trap_if (negb (value s4 c =? value s4 1)) 6 s4) by (ex1; reflexivity).
  rewrite V in E5. destruct ((- 2 ^ 63 <=? p) && (p <? 2 ^ 63)).
  - exists (write s4 c (low64 p)). split.
    + apply straight_finishes. cbn [straight]. rewrite E1, E2, E3, E4, E5. cbn [negb trap_if]. ex1. reflexivity.
    + split; [intros _; vals; destruct (Z.eqb_spec c 0); [lia|reflexivity]|]. unfold s4, s3, s2, s1. others.
  - apply (straight_raises odd [rword a b 0 0 28; rword 0 0 c 0 18; rword 0 c c 31 63; rword 0 0 1 0 16] (rword c 1 0 6 54) [rword 0 0 c 0 18] st s4).
    + cbn [straight]. now rewrite E1, E2, E3, E4.
    + exact E5.
Qed.
Lemma ex_mulou st : c <> 1 ->
  let ws := [rword a b 0 0 25; rword 0 0 1 0 16; rword 0 0 c 0 18; rword 1 0 0 6 54] in
  let p := low32 (value st a) * low32 (value st b) in
  if p <? 2 ^ 32 then puts_hilo ws [at_reg] st (word32 p) else raises odd ws st (TrapCode 6).
Proof.
  intros C1 ws p. assert (A := low32_range (value st a)). assert (B := low32_range (value st b)).
  assert (R : 0 <= p < 2 ^ 64) by (unfold p; nia). unfold ws.
  assert (Q : 0 <= p / 2 ^ 32 < 2 ^ 32) by (split; [apply Z.div_pos; lia|apply Z.div_lt_upper_bound; lia]).
  set (s1 := write_hilo st (word32 (p / 2 ^ 32)) (word32 p)). set (s2 := write s1 1 (word32 (p / 2 ^ 32))).
  set (s3 := write s2 c (word32 p)).
  assert (E1 : exec odd (rword a b 0 0 25) st = Next s1) by (ex1; reflexivity).
  assert (E2 : exec odd (rword 0 0 1 0 16) s1 = Next s2) by (ex1; reflexivity).
  assert (E3 : exec odd (rword 0 0 c 0 18) s2 = Next s3) by (ex1; reflexivity).
  assert (V : (value s3 1 =? value s3 0) = (p <? 2 ^ 32)).
  { unfold s3, s2. vals. change (1 =? 0) with false. change (0 =? 0) with true. destruct (Z.eqb_spec 1 c); [lia|]. cbn iota.
    destruct (p <? 2 ^ 32) eqn:E.
    - rewrite Z.div_small by lia. reflexivity.
    - apply Z.eqb_neq. intros X. apply (f_equal (fun x => x mod 2 ^ 32)) in X. rewrite word32_mod in X. rewrite Z.mod_small in X by lia.
      change (0 mod 2 ^ 32) with 0 in X. assert (D := Z.div_mod p (2 ^ 32) ltac:(lia)). assert (M := Z.mod_pos_bound p (2 ^ 32) ltac:(lia)). lia. }
  assert (E5 : exec odd (rword 1 0 0 6 54) s3 = trap_if (negb (value s3 1 =? value s3 0)) 6 s3) by (ex1; reflexivity).
  rewrite V in E5. destruct (p <? 2 ^ 32).
  - exists s3. split.
    + apply straight_finishes. cbn [straight]. rewrite E1, E2, E3, E5. reflexivity.
    + split; [intros N; unfold s3; vals; destruct (Z.eqb_spec c 0); [lia|reflexivity]|]. unfold s3, s2, s1. others.
  - apply (straight_raises odd [rword a b 0 0 25; rword 0 0 1 0 16; rword 0 0 c 0 18] (rword 1 0 0 6 54) [] st s3).
    + cbn [straight]. now rewrite E1, E2, E3.
    + exact E5.
Qed.
Lemma ex_dmulou st : well st -> c <> 1 ->
  let ws := [rword a b 0 0 29; rword 0 0 1 0 16; rword 0 0 c 0 18; rword 1 0 0 6 54] in
  let p := value st a * value st b in
  if p <? 2 ^ 64 then puts_hilo ws [at_reg] st p else raises odd ws st (TrapCode 6).
Proof.
  intros [W _] C1 ws p. assert (A := W a). assert (B := W b).
  assert (R : 0 <= p < 2 ^ 128) by (unfold p; nia). unfold ws.
  assert (Q : 0 <= p / 2 ^ 64 < 2 ^ 64) by (split; [apply Z.div_pos; lia|apply Z.div_lt_upper_bound; lia]).
  set (s1 := write_hilo st (low64 (p / 2 ^ 64)) (low64 p)). set (s2 := write s1 1 (low64 (p / 2 ^ 64))).
  set (s3 := write s2 c (low64 p)).
  assert (E1 : exec odd (rword a b 0 0 29) st = Next s1) by (ex1; reflexivity).
  assert (E2 : exec odd (rword 0 0 1 0 16) s1 = Next s2) by (ex1; reflexivity).
  assert (E3 : exec odd (rword 0 0 c 0 18) s2 = Next s3) by (ex1; reflexivity).
  assert (V : (value s3 1 =? value s3 0) = (p <? 2 ^ 64)).
  { unfold s3, s2. vals. change (1 =? 0) with false. change (0 =? 0) with true. destruct (Z.eqb_spec 1 c); [lia|]. cbn iota.
    rewrite low64_small by lia. assert (D := Z.div_mod p (2 ^ 64) ltac:(lia)). assert (M := Z.mod_pos_bound p (2 ^ 64) ltac:(lia)).
    destruct (p <? 2 ^ 64) eqn:E; [|apply Z.eqb_neq; lia]. rewrite Z.div_small by lia. reflexivity. }
  assert (E5 : exec odd (rword 1 0 0 6 54) s3 = trap_if (negb (value s3 1 =? value s3 0)) 6 s3) by (ex1; reflexivity).
  rewrite V in E5. destruct (p <? 2 ^ 64) eqn:E.
  - exists s3. split.
    + apply straight_finishes. cbn [straight]. rewrite E1, E2, E3, E5. reflexivity.
    + split; [intros N; unfold s3; vals; destruct (Z.eqb_spec c 0); [lia|apply low64_small; lia]|]. unfold s3, s2, s1. others.
  - apply (straight_raises odd [rword a b 0 0 29; rword 0 0 1 0 16; rword 0 0 c 0 18] (rword 1 0 0 6 54) [] st s3).
    + cbn [straight]. now rewrite E1, E2, E3.
    + exact E5.
Qed.

(** ** Unsigned division *)
Lemma word_nonzero v : word_value v -> v <> 0 -> low32 v <> 0 /\ signed32 v <> 0.
Proof.
  intros E N. assert (H : low32 v <> 0).
  { intros X. apply N. rewrite E. unfold word32, signed32. rewrite X. reflexivity. }
  split; [exact H|]. unfold signed32. assert (R := low32_range v). destruct (low32 v <? 2 ^ 31) eqn:L; lia.
Qed.
Lemma ex_divu st fn : fn = 16 \/ fn = 18 -> word_value (value st b) ->
  let ws := [rword b 0 0 7 52; rword a b 0 0 27; rword 0 0 c 0 fn] in
  if value st b =? 0 then raises odd ws st (TrapCode 7)
  else puts_hilo ws [] st (if fn =? 16 then word32 (low32 (value st a) mod low32 (value st b)) else word32 (low32 (value st a) / low32 (value st b))).
Proof.
  intros Fn Wb ws. unfold ws. assert (E1 : exec odd (rword b 0 0 7 52) st = trap_if (value st b =? 0) 7 st) by (ex1; reflexivity).
  destruct (Z.eqb_spec (value st b) 0) as [Z0|N].
  - apply (straight_raises odd [] _ _ st st); [reflexivity|]. exact E1.
  - destruct (word_nonzero _ Wb N) as [L _]. apply Z.eqb_neq in L.
    assert (E2 : exec odd (rword a b 0 0 27) st = Next (write_hilo st (word32 (low32 (value st a) mod low32 (value st b))) (word32 (low32 (value st a) / low32 (value st b)))))
      by (ex1; now rewrite L).
    eexists. split; [|apply (result_after st (word32 (low32 (value st a) mod low32 (value st b))) (word32 (low32 (value st a) / low32 (value st b))))].
    apply straight_finishes. cbn [straight]. rewrite E1. cbn [trap_if]. rewrite E2. destruct Fn as [-> | ->]; ex1; reflexivity.
Qed.
Lemma ex_ddivu st fn : fn = 16 \/ fn = 18 ->
  let ws := [rword b 0 0 7 52; rword a b 0 0 31; rword 0 0 c 0 fn] in
  if value st b =? 0 then raises odd ws st (TrapCode 7)
  else puts_hilo ws [] st (if fn =? 16 then value st a mod value st b else value st a / value st b).
Proof.
  intros Fn ws. unfold ws. assert (E1 : exec odd (rword b 0 0 7 52) st = trap_if (value st b =? 0) 7 st) by (ex1; reflexivity).
  destruct (Z.eqb_spec (value st b) 0) as [Z0|N].
  - apply (straight_raises odd [] _ _ st st); [reflexivity|]. exact E1.
  - apply Z.eqb_neq in N.
    assert (E2 : exec odd (rword a b 0 0 31) st = Next (write_hilo st (value st a mod value st b) (value st a / value st b)))
      by (ex1; now rewrite N).
    eexists. split; [|apply (result_after st (value st a mod value st b) (value st a / value st b))].
    apply straight_finishes. cbn [straight]. rewrite E1. cbn [trap_if]. rewrite E2. destruct Fn as [-> | ->]; ex1; reflexivity.
Qed.

(** ** Rotations *)
Lemma rotate v k : 0 <= v < 2 ^ 64 -> 0 <= k < 64 ->
  Z.lor (low64 (v * 2 ^ k)) (v / 2 ^ ((- k) mod 64)) = (v * 2 ^ k) mod 2 ^ 64 + (if k =? 0 then 0 else v / 2 ^ (64 - k)).
Proof.
  intros V K. destruct (Z.eqb_spec k 0) as [->|N].
  - change ((- 0) mod 64) with 0. rewrite Z.pow_0_r, Z.div_1_r, Z.mul_1_r, low64_small, Z.mod_small by lia. rewrite Z.lor_diag. lia.
  - replace ((- k) mod 64) with (64 - k) by (rewrite <- (Z.mod_add (- k) 1) by lia; rewrite Z.mod_small; lia).
    fold (low64 (v * 2 ^ k)). apply (lor_disjoint _ _ k); [lia| |].
    + split; [apply Z.div_pos; lia|]. apply Z.div_lt_upper_bound; [lia|]. rewrite <- Z.pow_add_r by lia. replace (64 - k + k) with 64 by lia. lia.
    + unfold low64. replace (2 ^ 64) with (2 ^ k * 2 ^ (64 - k)) by (rewrite <- Z.pow_add_r by lia; f_equal; lia).
      rewrite (Z.mul_comm v), Z.mul_mod_distr_l by lia. rewrite Z.mul_comm. apply Z.mod_mul. lia.
Qed.
Lemma neg_mod64 v : 0 <= v -> low64 (0 - v) mod 64 = (- (v mod 64)) mod 64.
Proof.
  intros H. unfold low64. change (2 ^ 64) with (64 * 2 ^ 58). rewrite Z.rem_mul_r by lia. rewrite (Z.mul_comm 64), Z.mod_add by lia. rewrite Z.mod_mod by lia.
  rewrite <- (Z.sub_0_l (v mod 64)). now rewrite Zminus_mod_idemp_r.
Qed.
Lemma ex_drol st : well st -> a <> 1 -> b <> 1 -> c <> 1 ->
  let k := value st b mod 64 in
  puts [rword 0 b 1 0 47; rword 1 a 1 0 22; rword b a c 0 20; rword c 1 c 0 37] [at_reg] st
    ((value st a * 2 ^ k) mod 2 ^ 64 + (if k =? 0 then 0 else value st a / 2 ^ (64 - k))).
Proof.
  intros [W _] Na Nb Nc k. assert (Wa := W a). assert (Wb := W b). assert (K : 0 <= k < 64) by (apply Z.mod_pos_bound; lia).
  eexists. split; [|split].
  - apply straight_finishes. ex. reflexivity.
  - split; [|others]. intros N. vals. change (1 =? 0) with false. cbn iota.
    destruct (Z.eqb_spec c 0); [lia|]. destruct (Z.eqb_spec a 1); [lia|]. destruct (Z.eqb_spec b 1); [lia|]. destruct (Z.eqb_spec 1 c); [lia|].
    assert (Va : (if a =? 0 then 0 else value st a) = value st a) by (destruct (Z.eqb_spec a 0); [subst; reflexivity|reflexivity]).
    assert (Vb : (if b =? 0 then 0 else value st b) = value st b) by (destruct (Z.eqb_spec b 0); [subst; reflexivity|reflexivity]).
    rewrite ?Va, ?Vb. rewrite neg_mod64 by lia. fold k. now apply rotate.
  - same.
Qed.
(** Rotating right by [k] is rotating left by [64 - k]. *)
Lemma rotate_right v k : 0 <= v < 2 ^ 64 -> 0 <= k < 64 ->
  Z.lor (v / 2 ^ k) (low64 (v * 2 ^ ((- k) mod 64))) = v / 2 ^ k + (if k =? 0 then 0 else (v * 2 ^ (64 - k)) mod 2 ^ 64).
Proof.
  intros V K. destruct (Z.eqb_spec k 0) as [->|N].
  - change ((- 0) mod 64) with 0. rewrite Z.pow_0_r, Z.div_1_r, Z.mul_1_r, low64_small by lia. rewrite Z.lor_diag. lia.
  - replace ((- k) mod 64) with (64 - k) by (rewrite <- (Z.mod_add (- k) 1) by lia; rewrite Z.mod_small; lia).
    fold (low64 (v * 2 ^ (64 - k))). rewrite Z.lor_comm, Z.add_comm. apply (lor_disjoint _ _ (64 - k)); [lia| |].
    + split; [apply Z.div_pos; lia|]. apply Z.div_lt_upper_bound; [lia|]. rewrite <- Z.pow_add_r by lia. replace (k + (64 - k)) with 64 by lia. lia.
    + unfold low64. replace (2 ^ 64) with (2 ^ (64 - k) * 2 ^ k) by (rewrite <- Z.pow_add_r by lia; f_equal; lia).
      rewrite (Z.mul_comm v), Z.mul_mod_distr_l by lia. rewrite Z.mul_comm. apply Z.mod_mul. lia.
Qed.
Lemma ex_dror st : well st -> a <> 1 -> b <> 1 -> c <> 1 ->
  let k := value st b mod 64 in
  puts [rword 0 b 1 0 47; rword 1 a 1 0 20; rword b a c 0 22; rword c 1 c 0 37] [at_reg] st
    (value st a / 2 ^ k + (if k =? 0 then 0 else (value st a * 2 ^ (64 - k)) mod 2 ^ 64)).
Proof.
  intros [W _] Na Nb Nc k. assert (Wa := W a). assert (Wb := W b). assert (K : 0 <= k < 64) by (apply Z.mod_pos_bound; lia).
  eexists. split; [|split].
  - apply straight_finishes. ex. reflexivity.
  - split; [|others]. intros N. vals. change (1 =? 0) with false. cbn iota.
    destruct (Z.eqb_spec c 0); [lia|]. destruct (Z.eqb_spec a 1); [lia|]. destruct (Z.eqb_spec b 1); [lia|]. destruct (Z.eqb_spec 1 c); [lia|].
    assert (Va : (if a =? 0 then 0 else value st a) = value st a) by (destruct (Z.eqb_spec a 0); [subst; reflexivity|reflexivity]).
    assert (Vb : (if b =? 0 then 0 else value st b) = value st b) by (destruct (Z.eqb_spec b 0); [subst; reflexivity|reflexivity]).
    rewrite ?Va, ?Vb. rewrite neg_mod64 by lia. fold k. now apply rotate_right.
  - same.
Qed.
(** ** Signed division: the inner branch skips the last instruction *)
Lemma word_signed v : word_value v -> signed64 v = signed32 v.
Proof. intros E. unfold word_value in E. rewrite E at 1. apply signed64_word. Qed.
Lemma word_eq v k : word_value v -> - 2 ^ 31 <= k < 2 ^ 31 -> (v =? low64 k) = (signed32 v =? k).
Proof.
  intros E K. assert (R := signed32_range v). destruct (Z.eqb_spec (signed32 v) k) as [X|X].
  - apply Z.eqb_eq. unfold word_value, word32 in E. now rewrite <- X.
  - apply Z.eqb_neq. intros Y. apply X. rewrite <- (word_signed v E), Y. rewrite signed64_low; lia.
Qed.
Lemma raise_at n k ws st x st' : cycles odd n ws (At 0 1 st) = At k (k + 1) st' -> 0 <= k -> forall w, nth_error ws (Z.to_nat k) = Some w -> exec odd w st' = Raise x ->
  raises odd ws st x.
Proof.
  intros C K w N E. exists (n + 1)%nat, st'. rewrite cycles_add, C. cbn [cycles]. rewrite (cycle_at _ _ _ _ _ w) by auto. now rewrite E.
Qed.
Ltac cyc := erewrite cycle_at; [|lia|reflexivity].

Lemma ex_div st fn : fn = 16 \/ fn = 18 -> a <> 1 -> b <> 1 -> word_value (value st a) -> word_value (value st b) ->
  let ws := [rword b 0 0 7 52; rword a b 0 0 26; iword 15 0 1 65535; iword 13 1 1 65535; iword 5 b 1 3; iword 15 0 1 32768; rword a 1 0 6 52; rword 0 0 c 0 fn] in
  let x := signed32 (value st a) in
  let y := signed32 (value st b) in
  if y =? 0 then raises odd ws st (TrapCode 7)
  else if y =? -1 then
    if x =? - 2 ^ 31 then raises odd ws st (TrapCode 6)
    else puts_hilo ws [at_reg] st (word32 (if fn =? 16 then Z.rem x y else Z.quot x y))
  else exists st', finishes odd ws st st' /\ hi st' = word32 (Z.rem x y) /\ lo st' = word32 (Z.quot x y)
         /\ forall r, r <> at_reg -> value st' r = value st r.
Proof.
  intros Fn Na Nb Wa Wb ws x y.
  assert (E1 : exec odd (rword b 0 0 7 52) st = trap_if (value st b =? 0) 7 st) by (ex1; reflexivity).
  assert (B0 : (value st b =? 0) = (y =? 0)) by (change 0 with (low64 0) at 1; apply word_eq; [exact Wb|lia]).
  rewrite B0 in E1. destruct (Z.eqb_spec y 0) as [Y0|Y0]; [unfold ws; apply (straight_raises odd [] _ _ st st); [reflexivity|exact E1]|].
  cbn [trap_if] in E1. set (s1 := write_hilo st (word32 (Z.rem x y)) (word32 (Z.quot x y))).
  assert (E2 : exec odd (rword a b 0 0 26) st = Next s1) by (ex1; fold x y; destruct (Z.eqb_spec y 0); [lia|reflexivity]).
  set (s2 := write s1 1 (word32 (65535 * 2 ^ 16))). set (s3 := write s2 1 (2 ^ 64 - 1)).
  assert (E3 : exec odd (iword 15 0 1 65535) s1 = Next s2) by (ex1; reflexivity).
  assert (E4 : exec odd (iword 13 1 1 65535) s2 = Next s3) by (ex1; reflexivity).
  assert (V3 : forall r, r <> 1 -> value s3 r = value st r).
  { intros r H. unfold s3, s2, s1. vals. destruct (Z.eqb_spec r 0); [subst; reflexivity|]. destruct (Z.eqb_spec r 1); [lia|reflexivity]. }
  assert (E5 : exec odd (iword 5 b 1 3) s3 = Branch (negb (y =? -1)) false 3).
  { ex1. rewrite V3 by exact Nb. change (value s3 1) with (low64 (-1)). rewrite word_eq by (auto; lia). reflexivity. }
  set (s4 := write s3 1 (low64 (- 2 ^ 31))). assert (E6 : exec odd (iword 15 0 1 32768) s3 = Next s4) by (ex1; reflexivity).
  assert (V4 : forall r, r <> 1 -> value s4 r = value st r).
  { intros r H. unfold s4. vals. rewrite V3 by exact H. destruct (Z.eqb_spec r 0); [subst; reflexivity|]. destruct (Z.eqb_spec r 1); [lia|reflexivity]. }
  assert (E7 : exec odd (rword a 1 0 6 52) s4 = trap_if (x =? - 2 ^ 31) 6 s4).
  { ex1. rewrite V4 by exact Na. change (value s4 1) with (low64 (- 2 ^ 31)). rewrite word_eq by (auto; lia). reflexivity. }
  assert (S5 : cycles odd 5 ws (At 0 1 st) = if y =? -1 then At 5 6 s3 else At 5 8 s3).
  { cbn [cycles]. cyc. rewrite E1. cyc. rewrite E2. cyc. rewrite E3. cyc. rewrite E4. cyc. rewrite E5. now destruct (y =? -1). }
  destruct (Z.eqb_spec y (-1)) as [Y1|Y1].
  - assert (S6 : cycles odd (5 + 1) ws (At 0 1 st) = At 6 (6 + 1) s4).
    { rewrite cycles_add, S5. cbn [cycles]. cyc. now rewrite E6. }
    destruct (Z.eqb_spec x (- 2 ^ 31)) as [X|X].
    + apply (raise_at (5 + 1) 6 ws st _ s4) with (w := rword a 1 0 6 52); [exact S6|lia|reflexivity|exact E7].
    + exists (write s4 c (word32 (if fn =? 16 then Z.rem x y else Z.quot x y))). split.
      * exists (5 + 1 + 2)%nat. rewrite cycles_add, S6. cbn [cycles]. cyc. rewrite E7. cbn [trap_if]. cyc. destruct Fn as [-> | ->]; ex1; reflexivity.
      * split; [intros N; vals; destruct (Z.eqb_spec c 0); [lia|reflexivity]|]. intros r H J. vals.
        destruct (Z.eqb_spec r 0); [subst; reflexivity|]. destruct (Z.eqb_spec r c); [lia|]. apply V4. intros ->. apply J. now left.
  - exists s4. split; [|split; [reflexivity|split; [reflexivity|exact V4]]].
    exists (5 + 1)%nat. rewrite cycles_add, S5. cbn [cycles]. cyc. now rewrite E6.
Qed.
Lemma full_eq v k : 0 <= v < 2 ^ 64 -> - 2 ^ 63 <= k < 2 ^ 63 -> (v =? low64 k) = (signed64 v =? k).
Proof.
  intros E K. destruct (Z.eqb_spec (signed64 v) k) as [X|X].
  - apply Z.eqb_eq. rewrite <- X. symmetry. now apply low64_signed.
  - apply Z.eqb_neq. intros Y. apply X. rewrite Y. now apply signed64_low.
Qed.
Lemma ex_ddiv st fn : fn = 16 \/ fn = 18 -> a <> 1 -> b <> 1 -> well st ->
  let ws := [rword b 0 0 7 52; rword a b 0 0 30; iword 25 0 1 65535; iword 5 b 1 4; iword 25 0 1 1; rword 0 1 1 31 60; rword a 1 0 6 52; rword 0 0 c 0 fn] in
  let x := signed64 (value st a) in
  let y := signed64 (value st b) in
  if y =? 0 then raises odd ws st (TrapCode 7)
  else if y =? -1 then
    if x =? - 2 ^ 63 then raises odd ws st (TrapCode 6)
    else puts_hilo ws [at_reg] st (low64 (if fn =? 16 then Z.rem x y else Z.quot x y))
  else exists st', finishes odd ws st st' /\ hi st' = low64 (Z.rem x y) /\ lo st' = low64 (Z.quot x y)
         /\ forall r, r <> at_reg -> value st' r = value st r.
Proof.
  intros Fn Na Nb [W _] ws x y. assert (Wa := W a). assert (Wb := W b).
  assert (E1 : exec odd (rword b 0 0 7 52) st = trap_if (value st b =? 0) 7 st) by (ex1; reflexivity).
  assert (B0 : (value st b =? 0) = (y =? 0)) by (change 0 with (low64 0) at 1; apply full_eq; [exact Wb|lia]).
  rewrite B0 in E1. destruct (Z.eqb_spec y 0) as [Y0|Y0]; [unfold ws; apply (straight_raises odd [] _ _ st st); [reflexivity|exact E1]|].
  cbn [trap_if] in E1. set (s1 := write_hilo st (low64 (Z.rem x y)) (low64 (Z.quot x y))).
  assert (E2 : exec odd (rword a b 0 0 30) st = Next s1).
  { ex1. fold x y. rewrite B0. destruct (Z.eqb_spec y 0); [lia|reflexivity]. }
  set (s3 := write s1 1 (low64 (-1))).
  assert (E4 : exec odd (iword 25 0 1 65535) s1 = Next s3) by (ex1; reflexivity).
  assert (V3 : forall r, r <> 1 -> value s3 r = value st r).
  { intros r H. unfold s3, s1. vals. destruct (Z.eqb_spec r 0); [subst; reflexivity|]. destruct (Z.eqb_spec r 1); [lia|reflexivity]. }
  assert (E5 : exec odd (iword 5 b 1 4) s3 = Branch (negb (y =? -1)) false 4).
  { ex1. rewrite V3 by exact Nb. change (value s3 1) with (low64 (-1)). rewrite full_eq by (auto; lia). reflexivity. }
  set (s4 := write s3 1 1). assert (E6 : exec odd (iword 25 0 1 1) s3 = Next s4) by (ex1; reflexivity).
  set (s5 := write s4 1 (low64 (- 2 ^ 63))). assert (E6' : exec odd (rword 0 1 1 31 60) s4 = Next s5) by (ex1; reflexivity).
  assert (V4 : forall r, r <> 1 -> value s4 r = value st r).
  { intros r H. unfold s4. vals. rewrite V3 by exact H. destruct (Z.eqb_spec r 0); [subst; reflexivity|]. destruct (Z.eqb_spec r 1); [lia|reflexivity]. }
  assert (V5 : forall r, r <> 1 -> value s5 r = value st r).
  { intros r H. unfold s5. vals. rewrite V4 by exact H. destruct (Z.eqb_spec r 0); [subst; reflexivity|]. destruct (Z.eqb_spec r 1); [lia|reflexivity]. }
  assert (E7 : exec odd (rword a 1 0 6 52) s5 = trap_if (x =? - 2 ^ 63) 6 s5).
  { ex1. rewrite V5 by exact Na. change (value s5 1) with (low64 (- 2 ^ 63)). rewrite full_eq by (auto; lia). reflexivity. }
  assert (S5 : cycles odd 4 ws (At 0 1 st) = if y =? -1 then At 4 5 s3 else At 4 8 s3).
  { cbn [cycles]. cyc. rewrite E1. cyc. rewrite E2. cyc. rewrite E4. cyc. rewrite E5. now destruct (y =? -1). }
  destruct (Z.eqb_spec y (-1)) as [Y1|Y1].
  - assert (S6 : cycles odd (4 + 2) ws (At 0 1 st) = At 6 (6 + 1) s5).
    { rewrite cycles_add, S5. cbn [cycles]. cyc. rewrite E6. cyc. now rewrite E6'. }
    destruct (Z.eqb_spec x (- 2 ^ 63)) as [X|X].
    + apply (raise_at (4 + 2) 6 ws st _ s5) with (w := rword a 1 0 6 52); [exact S6|lia|reflexivity|exact E7].
    + exists (write s5 c (low64 (if fn =? 16 then Z.rem x y else Z.quot x y))). split.
      * exists (4 + 2 + 2)%nat. rewrite cycles_add, S6. cbn [cycles]. cyc. rewrite E7. cbn [trap_if]. cyc. destruct Fn as [-> | ->]; ex1; reflexivity.
      * split; [intros N; vals; destruct (Z.eqb_spec c 0); [lia|reflexivity]|]. intros r H J. vals.
        destruct (Z.eqb_spec r 0); [subst; reflexivity|]. destruct (Z.eqb_spec r c); [lia|]. apply V5. intros ->. apply J. now left.
  - exists s4. split; [|split; [reflexivity|split; [reflexivity|exact V4]]].
    exists (4 + 1)%nat. rewrite cycles_add, S5. cbn [cycles]. cyc. now rewrite E6.
Qed.

(** ** Constants *)
Lemma ex_ori0 st v : 0 <= v < 65536 -> puts [iword 13 0 c v] [] st v.
Proof. intros V. apply put1. ex1. vals. now rewrite Z.lor_0_l. Qed.
Lemma ex_lui st v : 0 <= v < 65536 -> puts [iword 15 0 c v] [] st (word32 (v * 2 ^ 16)).
Proof. intros V. apply put1. ex1. reflexivity. Qed.
Lemma word32_split h l : 0 <= h < 65536 -> 0 <= l < 65536 -> Z.lor (word32 (h * 2 ^ 16)) l = word32 (h * 2 ^ 16 + l).
Proof.
  intros H L. assert (M : 0 <= h * 2 ^ 16 + l < 2 ^ 32) by lia.
  assert (S : word32 (h * 2 ^ 16 + l) = word32 (h * 2 ^ 16) + l).
  { unfold word32, signed32, low32. rewrite (Z.mod_small (h * 2 ^ 16 + l)), (Z.mod_small (h * 2 ^ 16)) by lia. unfold low64.
    destruct (h * 2 ^ 16 + l <? 2 ^ 31) eqn:E; destruct (h * 2 ^ 16 <? 2 ^ 31) eqn:F; try lia.
    - rewrite !Z.mod_small by lia. reflexivity.
    - rewrite <- (Z.mod_add (h * 2 ^ 16 + l - 2 ^ 32) 1), <- (Z.mod_add (h * 2 ^ 16 - 2 ^ 32) 1) by lia. rewrite !Z.mod_small by lia. lia. }
  rewrite S. apply (lor_disjoint _ _ 16); [lia|lia|].
  assert (D : word32 (h * 2 ^ 16) mod 2 ^ 16 = (word32 (h * 2 ^ 16) mod 2 ^ 32) mod 2 ^ 16).
  { change (2 ^ 32) with (2 ^ 16 * 2 ^ 16). rewrite Z.rem_mul_r by lia. rewrite (Z.mul_comm (2 ^ 16)), Z.mod_add by lia. now rewrite Z.mod_mod by lia. }
  rewrite D, word32_mod, (Z.mod_small (h * 2 ^ 16) (2 ^ 32)) by lia. apply Z.mod_mul. lia.
Qed.
Lemma ex_lui_ori st h l : 0 <= h < 65536 -> 0 <= l < 65536 -> puts [iword 15 0 c h; iword 13 c c l] [] st (word32 (h * 2 ^ 16 + l)).
Proof.
  intros H L. eapply put2; [ex1; reflexivity| |intros Z0; ex1; eauto].
  intros N. ex1. do 2 f_equal. vals. destruct (Z.eqb_spec c 0); [lia|]. now apply word32_split.
Qed.
Lemma ex_lui_addiu st h l : 0 <= h < 65536 -> 0 <= l < 65536 -> puts [iword 15 0 c h; iword 9 c c l] [] st (word32 (h * 2 ^ 16 + signed16 l)).
Proof.
  intros H L. eapply put2; [ex1; reflexivity| |intros Z0; ex1; eauto].
  intros N. ex1. do 2 f_equal. vals. destruct (Z.eqb_spec c 0); [lia|]. apply word32_cong.
  rewrite Zplus_mod, word32_mod, <- Zplus_mod. reflexivity.
Qed.
Definition dli_words (h3 h2 h1 h0 : Z) : list Z :=
  [iword 15 0 c h3; iword 13 c c h2; rword 0 c c 16 56; iword 13 c c h1; rword 0 c c 16 56; iword 13 c c h0].
Lemma shift_or v l : 0 <= v < 2 ^ 64 -> 0 <= l < 65536 -> Z.lor (low64 (v * 2 ^ 16)) l = low64 (v * 2 ^ 16 + l).
Proof.
  intros V L. assert (E : low64 (v * 2 ^ 16) = v mod 2 ^ 48 * 2 ^ 16).
  { unfold low64. change (2 ^ 64) with (2 ^ 48 * 2 ^ 16). apply Z.mul_mod_distr_r; lia. }
  assert (B := Z.mod_pos_bound v (2 ^ 48) ltac:(lia)).
  rewrite E, (lor_disjoint _ _ 16); [|lia|lia|apply Z.mod_mul; lia].
  unfold low64. assert (D := Z.div_mod v (2 ^ 48) ltac:(lia)).
  replace (v * 2 ^ 16 + l) with (v mod 2 ^ 48 * 2 ^ 16 + l + v / 2 ^ 48 * 2 ^ 64) by lia. rewrite Z.mod_add by lia. symmetry. apply Z.mod_small. lia.
Qed.
Lemma low64_shift v l : low64 (low64 v * 2 ^ 16 + l) = low64 (v * 2 ^ 16 + l).
Proof. unfold low64. rewrite Zplus_mod, Zmult_mod_idemp_l, <- Zplus_mod. reflexivity. Qed.
Lemma ex_dli st h3 h2 h1 h0 : 0 <= h3 < 65536 -> 0 <= h2 < 65536 -> 0 <= h1 < 65536 -> 0 <= h0 < 65536 ->
  puts (dli_words h3 h2 h1 h0) [] st (low64 (((h3 * 2 ^ 16 + h2) * 2 ^ 16 + h1) * 2 ^ 16 + h0)).
Proof.
  intros H3 H2 H1 H0. unfold dli_words. eexists. split; [|split].
  - apply straight_finishes. ex. reflexivity.
  - split; [|others]. intros N. vals. destruct (Z.eqb_spec c 0); [lia|].
    rewrite word32_split by lia. set (u := h3 * 2 ^ 16 + h2).
    rewrite (shift_or _ h1) by (auto; apply word32_range). rewrite (shift_or _ h0) by (auto; apply low64_range).
    rewrite low64_shift.
    assert (X : exists k, word32 u = u + k * 2 ^ 32).
    { unfold word32, signed32, low32. rewrite (Z.mod_small u) by (unfold u; lia). unfold low64. destruct (u <? 2 ^ 31) eqn:E.
      - exists 0. rewrite Z.mod_small by (unfold u in *; lia). lia.
      - exists (2 ^ 32 - 1). rewrite <- (Z.mod_add _ 1) by lia. rewrite Z.mod_small by (unfold u in *; lia). lia. }
    destruct X as [k ->]. apply low64_cong.
    replace (((u + k * 2 ^ 32) * 2 ^ 16 + h1) * 2 ^ 16 + h0) with ((u * 2 ^ 16 + h1) * 2 ^ 16 + h0 + k * 2 ^ 64) by lia. apply Z.mod_add. lia.
  - same.
Qed.
End Exec.
