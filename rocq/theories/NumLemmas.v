(** * NumLemmas: numerals (proofs only). *)

From Coq Require Import Lia.
From Verif Require Import Str Regex StrLemmas.

Lemma digits_val_app r a s t :
  digits_val r a (s ++ t) = match digits_val r a s with Some v => digits_val r v t | None => None end.
Proof.
  revert a. induction s as [|c s IH]; intros a; [reflexivity|]. cbn [app digits_val].
  destruct (to_digit r c); [apply IH|reflexivity].
Qed.

Lemma range_in' n x : 0 <= x < Z.of_nat n -> In x (map Z.of_nat (seq 0 n)).
Proof.
  intros H. apply in_map_iff. exists (Z.to_nat x). split; [lia|]. apply in_seq. lia.
Qed.
Lemma to_digit_char u r d : 0 <= d < r -> r <= 16 -> to_digit r (digit_char u d) = Some d.
Proof.
  intros H R. assert (In d (map Z.of_nat (seq 0 16))) by (apply range_in'; lia).
  assert (T : to_digit 16 (digit_char u d) = Some d).
  { cbn in H0. repeat destruct H0 as [<-|H0]; try (destruct u; reflexivity). destruct H0. }
  revert T. unfold to_digit. cbv zeta.
  destruct ((48 <=? code (digit_char u d)) && (code (digit_char u d) <=? 57)).
  - destruct (_ <? 16) eqn:A; [|discriminate]. intros T. injection T as E.
    replace (_ <? r) with true; [now rewrite E|]. symmetry. apply Z.ltb_lt. lia.
  - destruct ((97 <=? code (digit_char u d)) && (code (digit_char u d) <=? 122)).
    + destruct (_ <? 16) eqn:A; [|discriminate]. intros T. injection T as E.
      replace (_ <? r) with true; [now rewrite E|]. symmetry. apply Z.ltb_lt. lia.
    + destruct ((65 <=? code (digit_char u d)) && (code (digit_char u d) <=? 90)).
      * destruct (_ <? 16) eqn:A; [|discriminate]. intros T. injection T as E.
        replace (_ <? r) with true; [now rewrite E|]. symmetry. apply Z.ltb_lt. lia.
      * discriminate.
Qed.

(** Writing a number and reading it back. *)
Lemma digits_go_val f u r n acc a : 2 <= r <= 16 -> 0 <= n < r ^ Z.of_nat f ->
  exists k, digits_val r a (digits_go f u r n acc) = digits_val r (a * k + n) acc.
Proof.
  intros R. revert n acc. induction f as [|f IH]; intros n acc H.
  - cbn in H. exists 1. cbn. f_equal. lia.
  - cbn [digits_go]. assert (D := Z.mod_pos_bound n r ltac:(lia)).
    assert (E := Z.div_mod n r ltac:(lia)).
    destruct (Z.eqb_spec (n / r) 0) as [Z0|NZ].
    + exists r. cbn [digits_val]. rewrite to_digit_char by lia. f_equal. lia.
    + destruct (IH (n / r) (digit_char u (n mod r) :: acc)) as [k ->].
      { split; [apply Z.div_pos; lia|]. apply Z.div_lt_upper_bound; [lia|].
        replace (r * r ^ Z.of_nat f) with (r ^ Z.of_nat (S f)); [lia|].
        rewrite Nat2Z.inj_succ, Z.pow_succ_r by lia. reflexivity. }
      exists (k * r). cbn [digits_val]. rewrite to_digit_char by lia. f_equal. lia.
Qed.
Lemma digits_val_hex n : 0 <= n < 2 ^ 64 -> digits_val 16 0 (hex n) = Some n.
Proof.
  intros H. unfold hex. destruct (digits_go_val 16 false 16 n [] 0) as [k ->]; [lia| |reflexivity].
  change (16 ^ Z.of_nat 16) with (2 ^ 64). exact H.
Qed.
Lemma digits_val_hexU n : 0 <= n < 2 ^ 64 -> digits_val 16 0 (hexU n) = Some n.
Proof.
  intros H. unfold hexU. destruct (digits_go_val 16 true 16 n [] 0) as [k ->]; [lia| |reflexivity].
  change (16 ^ Z.of_nat 16) with (2 ^ 64). exact H.
Qed.
Lemma digits_val_dec n : 0 <= n < 10 ^ 20 -> digits_val 10 0 (dec n) = Some n.
Proof.
  intros H. unfold dec. destruct (digits_go_val 20 false 10 n [] 0) as [k ->]; [lia| |reflexivity].
  exact H.
Qed.
Lemma digits_val_zeros r k s : 2 <= r -> digits_val r 0 (repeat "0"%char k ++ s) = digits_val r 0 s.
Proof.
  intros R. induction k as [|k IH]; [reflexivity|]. cbn [repeat app digits_val].
  replace (to_digit r "0") with (Some 0); [exact IH|]. unfold to_digit. cbn.
  replace (0 <? r) with true; [reflexivity|]. symmetry. apply Z.ltb_lt. lia.
Qed.
Lemma digits_val_zero_pad k n : 0 <= n < 2 ^ 64 -> digits_val 16 0 (zero_pad k (hex n)) = Some n.
Proof. intros H. unfold zero_pad. rewrite digits_val_zeros by lia. now apply digits_val_hex. Qed.

Lemma hex_inj a b : 0 <= a < 2 ^ 64 -> 0 <= b < 2 ^ 64 -> hex a = hex b -> a = b.
Proof. intros A B E. apply digits_val_hex in A. apply digits_val_hex in B. rewrite E in A. congruence. Qed.
Lemma hexU_inj a b : 0 <= a < 2 ^ 64 -> 0 <= b < 2 ^ 64 -> hexU a = hexU b -> a = b.
Proof. intros A B E. apply digits_val_hexU in A. apply digits_val_hexU in B. rewrite E in A. congruence. Qed.
Lemma padded_hex_inj k a b : 0 <= a < 2 ^ 64 -> 0 <= b < 2 ^ 64 ->
  zero_pad k (hex a) = zero_pad k (hex b) -> a = b.
Proof.
  intros A B E. apply (digits_val_zero_pad k) in A. apply (digits_val_zero_pad k) in B.
  rewrite E in A. congruence.
Qed.

(** Every character of a written number is a digit. *)
Definition digit_in (r : Z) (c : ascii) : Prop := exists d, to_digit r c = Some d.
Lemma digits_val_chars r a s v : digits_val r a s = Some v -> Forall (digit_in r) s.
Proof.
  revert a. induction s as [|c s IH]; intros a H; [constructor|]. cbn [digits_val] in H.
  destruct (to_digit r c) as [d|] eqn:D; [|discriminate]. constructor; [now exists d|]. exact (IH _ H).
Qed.
Lemma hex_digits n : 0 <= n < 2 ^ 64 -> Forall (digit_in 16) (hex n).
Proof. intros H. eapply digits_val_chars. now apply digits_val_hex. Qed.
Lemma hexU_digits n : 0 <= n < 2 ^ 64 -> Forall (digit_in 16) (hexU n).
Proof. intros H. eapply digits_val_chars. now apply digits_val_hexU. Qed.

Lemma digit_in_or r c : digit_in r c -> r <= 16 -> In c (lit "0123456789abcdefABCDEF").
Proof.
  intros [d H] R. destruct c as [a b c' d' e f g h].
  assert (T : to_digit 16 (Ascii a b c' d' e f g h) <> None).
  { revert H. unfold to_digit. cbv zeta.
    set (n := code _). destruct ((48 <=? n) && (n <=? 57)).
    - destruct (_ <? r) eqn:A; [|discriminate]. intros _. apply Z.ltb_lt in A.
      replace (_ <? 16) with true; [discriminate|]. symmetry. apply Z.ltb_lt. lia.
    - destruct ((97 <=? n) && (n <=? 122)).
      + destruct (_ <? r) eqn:A; [|discriminate]. intros _. apply Z.ltb_lt in A.
        replace (_ <? 16) with true; [discriminate|]. symmetry. apply Z.ltb_lt. lia.
      + destruct ((65 <=? n) && (n <=? 90)).
        * destruct (_ <? r) eqn:A; [|discriminate]. intros _. apply Z.ltb_lt in A.
          replace (_ <? 16) with true; [discriminate|]. symmetry. apply Z.ltb_lt. lia.
        * rewrite Z.ltb_irrefl. discriminate. }
  clear H R d r.
  destruct a, b, c', d', e, f, g, h; first [ exfalso; apply T; reflexivity | cbn; tauto ].
Qed.
