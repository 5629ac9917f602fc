(** * CliProofs: the command line and the builder (proofs only). *)

From Coq Require Import Lia.
From Verif Require Import Lib Cli SpecIsa StrLemmas NumLemmas TextProofs OperandProofs ScanProofs RoundProofs ListingProofs WordProofs AsmProofs
  SpecText SpecProgram SpecCli.

(** ** Bytes *)

Lemma to_be_spec w : to_be_bytes w = big_endian w.
Proof. unfold to_be_bytes, big_endian. rewrite !Z.shiftr_div_pow2 by lia. reflexivity. Qed.
Lemma file_spec ws : holds ws (words_to_file ws).
Proof. unfold holds, words_to_file. rewrite flat_map_concat_map. f_equal. apply map_ext. exact to_be_spec. Qed.
Lemma from_be_big w : is_word w -> from_be_bytes (w / 2 ^ 24 mod 2 ^ 8) (w / 2 ^ 16 mod 2 ^ 8) (w / 2 ^ 8 mod 2 ^ 8) (w mod 2 ^ 8) = w.
Proof.
  unfold is_word, from_be_bytes. change (2 ^ 32) with 4294967296. change (2 ^ 24) with 16777216. change (2 ^ 16) with 65536. change (2 ^ 8) with 256.
  intros H. rewrite (Z.mod_small (w / 16777216)) by (split; [apply Z.div_pos; lia|apply Z.div_lt_upper_bound; lia]).
  replace (w / 16777216) with (w / 256 / 256 / 256) by (rewrite !Z.div_div by lia; reflexivity).
  replace (w / 65536) with (w / 256 / 256) by (rewrite !Z.div_div by lia; reflexivity).
  assert (A := Z.div_mod w 256 ltac:(lia)). assert (B := Z.div_mod (w / 256) 256 ltac:(lia)). assert (C := Z.div_mod (w / 256 / 256) 256 ltac:(lia)).
  lia.
Qed.
Lemma file_words_length ws : List.length (words_to_file ws) = (4 * List.length ws)%nat.
Proof. induction ws as [|w ws IH]; [reflexivity|]. change (words_to_file (w :: ws)) with (to_be_bytes w ++ words_to_file ws).
  rewrite app_length, IH. cbn [to_be_bytes List.length]. lia. Qed.
Lemma read_back_fuel ws : Forall is_word ws -> ws <> [] -> forall f, (List.length ws <= f)%nat -> file_to_words f (words_to_file ws) = Ok ws.
Proof.
  induction 1 as [|w ws W _ IH]; intros N f F; [congruence|]. destruct f as [|f]; [cbn in F; lia|].
  change (words_to_file (w :: ws)) with (to_be_bytes w ++ words_to_file ws). rewrite to_be_spec. unfold big_endian. cbn [app file_to_words].
  rewrite from_be_big by exact W. destruct ws as [|w' ws]; [reflexivity|].
  destruct (words_to_file (w' :: ws)) as [|b r] eqn:E; [apply (f_equal (@List.length Z)) in E; rewrite file_words_length in E; cbn in E; lia|].
  rewrite IH; [reflexivity|discriminate|cbn in *; lia].
Qed.
Lemma read_back ws : Forall is_word ws -> ws <> [] -> read_words (words_to_file ws) = Ok ws.
Proof. intros W N. apply read_back_fuel; auto. rewrite file_words_length. lia. Qed.

Lemma read_ok_fuel f bytes : Forall is_byte bytes -> (List.length bytes < f)%nat ->
  (forall k, List.length bytes = (4 * S k)%nat -> exists ws, file_to_words f bytes = Ok ws /\ holds ws bytes /\ Forall is_word ws /\ List.length ws = S k)
  /\ ((forall k, List.length bytes <> (4 * S k)%nat) -> exists p, file_to_words f bytes = Panic p).
Proof.
  revert bytes. induction f as [|f IH]; intros bytes B F; [lia|].
  destruct bytes as [|a [|b [|c [|d rest]]]]; try (split; [intros k; cbn; lia|intros _; eexists; reflexivity]).
  inversion B as [|? ? Ba B1]; subst. inversion B1 as [|? ? Bb B2]; subst. inversion B2 as [|? ? Bc B3]; subst. inversion B3 as [|? ? Bd Br]; subst.
  unfold is_byte in Ba, Bb, Bc, Bd. change (2 ^ 8) with 256 in *.
  assert (W : is_word (from_be_bytes a b c d)) by (unfold is_word, from_be_bytes; change (2 ^ 32) with 4294967296; lia).
  assert (H : big_endian (from_be_bytes a b c d) = [a; b; c; d]).
  { unfold big_endian, from_be_bytes. change (2 ^ 24) with 16777216. change (2 ^ 16) with 65536. change (2 ^ 8) with 256.
    assert (K : forall x q r m, x = q * m + r -> 0 <= r < m -> x / m = q) by (intros x q r m -> R; rewrite Z.div_add_l, Z.div_small by lia; lia).
    assert (L : forall x q r, x = q * 256 + r -> 0 <= r < 256 -> x mod 256 = r) by (intros x q r -> R; rewrite Z.add_comm, Z.mod_add, Z.mod_small by lia; lia).
    rewrite (K _ a (b * 65536 + c * 256 + d) 16777216) by lia. rewrite (Z.mod_small a) by lia.
    rewrite (K _ (a * 256 + b) (c * 256 + d) 65536) by lia. rewrite (L (a * 256 + b) a b) by lia.
    rewrite (K _ ((a * 256 + b) * 256 + c) d 256) by lia. rewrite (L ((a * 256 + b) * 256 + c) (a * 256 + b) c) by lia.
    rewrite (L (((a * 256 + b) * 256 + c) * 256 + d) ((a * 256 + b) * 256 + c) d) by lia. reflexivity. }
  cbn [file_to_words]. destruct rest as [|x rest].
  - split; [intros k E|intros E; exfalso; apply (E O); reflexivity]. exists [from_be_bytes a b c d].
    repeat split; auto; [unfold holds; cbn [map List.concat]; now rewrite H|cbn in *; lia].
  - assert (F' : (List.length (x :: rest) < f)%nat) by (cbn in *; lia). destruct (IH _ Br F') as [G1 G2]. split.
    + intros k E. destruct k as [|k]; [cbn in E; lia|]. destruct (G1 k) as (ws & R & Hw & Ww & L); [cbn [List.length] in *; lia|].
      exists (from_be_bytes a b c d :: ws). rewrite R. repeat split; auto; [|cbn; lia].
      unfold holds in *. cbn [map List.concat]. rewrite H, <- Hw. reflexivity.
    + intros E. destruct G2 as [p R]; [intros k E'; apply (E (S k)); cbn [List.length] in *; lia|]. exists p. now rewrite R.
Qed.

(** ** Symbol files *)

Lemma sym_insert_get a n m b : sym_get b (sym_insert a n m) = if b =? a then Some n else sym_get b m.
Proof.
  induction m as [|[a' n'] m IH]; cbn [sym_insert sym_get].
  - reflexivity.
  - destruct (Z.eqb_spec a a') as [->|N]; cbn [sym_get].
    + destruct (b =? a'); reflexivity.
    + destruct (Z.eqb_spec b a') as [->|N'].
      * destruct (Z.eqb_spec a' a); [congruence|reflexivity].
      * exact IH.
Qed.
Lemma yaml_get l : forall m b, sym_get b (fold_left (fun m kv => let (a, n) := yaml_entry kv in sym_insert a n m) l m) =
  match find (fun an => b =? fst an) (rev (map yaml_entry l)) with Some an => Some (snd an) | None => sym_get b m end.
Proof.
  induction l as [|kv l IH]; intros m b; [reflexivity|]. cbn [fold_left map rev]. destruct (yaml_entry kv) as [a n] eqn:E.
  rewrite IH. rewrite sym_insert_get.
  assert (K : forall p x, find (fun an => b =? fst an) (p ++ [x]) = match find (fun an : Z * str => b =? fst an) p with
    Some y => Some y | None => if b =? fst x then Some x else None end).
  { induction p as [|y p IHp]; intros x; cbn [app find]; [destruct (b =? fst x); reflexivity|]. destruct (b =? fst y); [reflexivity|apply IHp]. }
  rewrite K. destruct (find _ _); [reflexivity|]. cbn [fst]. destruct (b =? a); reflexivity.
Qed.
Lemma find_rev_last b l x : find (fun an => b =? fst an) (rev l) = Some x -> last_entry b l (snd x).
Proof.
  induction l as [|y l IH] using rev_ind; [discriminate|]. rewrite rev_app_distr. cbn [rev app find].
  destruct (Z.eqb_spec b (fst y)) as [E|N].
  - intros H. injection H as <-. subst b. exists l, []. destruct y. split; [reflexivity|]. intros n' [].
  - intros H. destruct (IH H) as (p & q & -> & Q). exists p, (q ++ [y]). rewrite <- app_assoc. split; [reflexivity|].
    intros n' I. apply in_app_or in I as [I|[I|[]]]; [now apply (Q n')|]. subst y. now apply N.
Qed.
Lemma find_rev_none b (l : list (Z * str)) : find (fun an => b =? fst an) (rev l) = None -> forall n, ~ In (b, n) l.
Proof. intros H n I. apply in_rev in I. apply (find_none _ _ H) in I. cbn in I. now rewrite Z.eqb_refl in I. Qed.
Lemma last_entry_unique a l n n' : last_entry a l n -> last_entry a l n' -> n = n'.
Proof.
  intros (p & q & -> & Q) (p' & q' & E & Q'). revert p' E. induction p as [|x p IH]; intros p' E.
  - destruct p' as [|y p']; cbn in E; [now injection E as ->|]. injection E as _ E. exfalso. apply (Q n'). rewrite E. apply in_or_app. right. now left.
  - destruct p' as [|y p']; cbn in E.
    + injection E as _ E. exfalso. apply (Q' n). rewrite <- E. apply in_or_app. right. now left.
    + injection E as _ E. eauto.
Qed.

(** ** Printed words *)

Lemma digits_go_len f : forall u n acc, 0 <= n < 16 ^ Z.of_nat f -> (0 < f)%nat -> (List.length (digits_go f u 16 n acc) <= f + List.length acc)%nat.
Proof.
  induction f as [|f IH]; intros u n acc H F; [lia|]. cbn [digits_go]. destruct (n / 16 =? 0) eqn:E; [cbn; lia|].
  apply Z.eqb_neq in E. destruct f as [|f].
  - exfalso. apply E. apply Z.div_small. exact H.
  - etransitivity; [apply IH; [|lia]|cbn [List.length]; lia]. split; [apply Z.div_pos; lia|]. apply Z.div_lt_upper_bound; [lia|].
    rewrite <- Z.pow_succ_r, <- Nat2Z.inj_succ by lia. apply H.
Qed.
Lemma digits_go_fuel f : forall g u n acc, 0 <= n < 16 ^ Z.of_nat f -> (0 < f)%nat -> (f <= g)%nat -> digits_go g u 16 n acc = digits_go f u 16 n acc.
Proof.
  induction f as [|f IH]; intros g u n acc H F G; [lia|]. destruct g as [|g]; [lia|]. cbn [digits_go]. destruct (n / 16 =? 0) eqn:E; [reflexivity|].
  apply Z.eqb_neq in E. destruct f as [|f].
  - exfalso. apply E. apply Z.div_small. exact H.
  - apply IH; [|lia|lia]. split; [apply Z.div_pos; lia|]. apply Z.div_lt_upper_bound; [lia|].
    rewrite <- Z.pow_succ_r, <- Nat2Z.inj_succ by lia. apply H.
Qed.
Lemma hexU_short w : is_word w -> (List.length (hexU w) <= 8)%nat.
Proof.
  intros W. unfold hexU. rewrite (digits_go_fuel 8) by (unfold is_word in W; cbn; lia || lia).
  etransitivity; [apply digits_go_len; [exact W|lia]|]. cbn. lia.
Qed.
Lemma digits_zeros k s v : digits 16 s v -> digits 16 (repeat "0"%char k ++ s) v.
Proof.
  intros D. induction k as [|k IH]; [exact D|]. cbn [repeat app]. set (t := repeat "0"%char k ++ s) in *. clearbody t. clear D.
  induction IH as [c d H|t v c d H IH' D].
  - replace d with (0 * 16 + d) by lia. change ["0"%char; c] with (["0"%char] ++ [c]). constructor; [|exact H]. constructor. split; [lia|left; reflexivity].
  - change ("0"%char :: t ++ [c]) with (("0"%char :: t) ++ [c]). now constructor.
Qed.
Lemma eight w : is_word w -> eight_digits (zero_pad 8 (hexU w)) w.
Proof.
  intros W. split.
  - apply digits_zeros, hexU_numeral. unfold is_word in W. lia.
  - unfold zero_pad. rewrite app_length, repeat_length. assert (L := hexU_short w W). lia.
Qed.

(** ** Symbol tables have one entry per address *)

Lemma sym_insert_keys a n m b : In b (map fst (sym_insert a n m)) -> b = a \/ In b (map fst m).
Proof.
  induction m as [|[a' n'] m IH]; cbn [sym_insert map fst In]; [intros [<-|[]]; auto|].
  destruct (Z.eqb_spec a a') as [->|N]; cbn [map fst In]; [tauto|]. intros [<-|I]; [tauto|]. destruct (IH I); tauto.
Qed.
Lemma sym_insert_nodup a n m : NoDup (map fst m) -> NoDup (map fst (sym_insert a n m)).
Proof.
  induction m as [|[a' n'] m IH]; cbn [sym_insert map fst]; intros D; [repeat constructor; intros []|].
  inversion D as [|? ? Hn Hd]; subst. destruct (Z.eqb_spec a a') as [->|N]; cbn [map fst]; [exact D|].
  constructor; [|auto]. intros I. apply sym_insert_keys in I as [->|I]; [congruence|auto].
Qed.
Lemma yaml_nodup l : forall m, NoDup (map fst m) -> NoDup (map fst (fold_left (fun m kv => let (a, n) := yaml_entry kv in sym_insert a n m) l m)).
Proof. induction l as [|kv l IH]; intros m D; [exact D|]. cbn [fold_left]. apply IH. destruct (yaml_entry kv). now apply sym_insert_nodup. Qed.
Lemma sym_get_in a m n : NoDup (map fst m) -> (In (a, n) m <-> sym_get a m = Some n).
Proof.
  induction m as [|[a' n'] m IH]; cbn [map fst sym_get]; intros D; [split; [intros []|discriminate]|].
  inversion D as [|? ? Hn Hd]; subst. destruct (Z.eqb_spec a a') as [->|N].
  - split; [intros [H|H]; [now injection H as ->|exfalso; apply Hn; now apply (in_map fst) in H]|intros H; injection H as ->; now left].
  - rewrite <- IH by exact Hd. split; [intros [H|H]; [injection H as -> ->; congruence|exact H]|now right].
Qed.
Lemma yaml_spec l : NoDup (map fst (yaml_syms l)) /\ forall a n, In (a, n) (yaml_syms l) <-> last_entry a (map yaml_entry l) n.
Proof.
  assert (D : NoDup (map fst (yaml_syms l))) by (apply yaml_nodup; constructor). split; [exact D|]. intros a n.
  rewrite (sym_get_in a _ n D). unfold yaml_syms. rewrite yaml_get. cbn [sym_get].
  destruct (find (fun an => a =? fst an) (rev (map yaml_entry l))) as [x|] eqn:F.
  - apply find_rev_last in F. split; [intros H; injection H as <-; exact F|]. intros H. f_equal. eapply last_entry_unique; eauto.
  - split; [discriminate|]. intros (p & q & E & _). exfalso. apply (find_rev_none _ _ F n). rewrite E. apply in_or_app. right. now left.
Qed.

(** ** Listings *)

Lemma stdout_length ls : List.length (listing_stdout ls) = (List.length (listing_file ls) + List.length ls)%nat.
Proof.
  unfold listing_stdout, listing_file. induction ls as [|l ls IH]; [reflexivity|]. cbn [map List.concat]. rewrite !app_length, IH. cbn [List.length]. lia.
Qed.
Definition not_nl (c : ascii) : bool := negb (Ascii.eqb c nl).
Lemma not_nl_id l : ~ In nl l -> filter not_nl l = l.
Proof.
  induction l as [|c l IH]; intros H; [reflexivity|]. cbn [filter]. unfold not_nl at 1. destruct (Ascii.eqb_spec c nl) as [->|N].
  - exfalso. apply H. now left.
  - cbn [negb]. rewrite IH; [reflexivity|]. intros I. apply H. now right.
Qed.
Lemma stdout_strip ls : Forall (fun l => ~ In nl l) ls -> filter not_nl (listing_stdout ls) = listing_file ls.
Proof.
  unfold listing_stdout, listing_file. induction 1 as [|l ls H _ IH]; [reflexivity|]. cbn [map List.concat]. rewrite !filter_app, IH, not_nl_id by exact H.
  cbn. now rewrite app_nil_r.
Qed.
Lemma disasm_nonempty oc m ws ls : m_debug m = false -> disassemble oc m ws = Ok ls -> ls <> [].
Proof.
  unfold disassemble. cbv zeta. intros ->. intros H. apply obind_ok in H as (b & _ & H). injection H as <-. discriminate.
Qed.

(** ** Base addresses *)

Lemma digits_hex_shape s v : digits 16 s v -> number_shape (#"0x" ++ s) false 16 s /\ digits_val 16 0 s = Some v.
Proof.
  intros D. assert (N : numeral (#"0x" ++ s) v) by now apply num_hex.
  destruct (numeral_shape _ _ N) as (radix & ds & S & V).
  inversion S as [n r d A Ne R E]; subst. destruct R as [-> | ->].
  - exfalso. change (10 =? 16) with false in E. cbn [app] in E. subst ds. 
    assert (C := A "x"%char ltac:(cbn; auto)). apply hex_chars_facts in C. now destruct C as (_ & _ & X & _).
  - change (16 =? 16) with true in E. cbn [app lit] in E. injection E as ->. split; [exact S|apply V].
Qed.
Lemma base_proof s v arg : digits 16 s v -> arg = s \/ arg = #"0x" ++ s -> parse_base arg = if v <? 2 ^ 32 then Some v else None.
Proof.
  intros D A. destruct (digits_hex_shape s v D) as [S V].
  assert (H : all_hex s /\ s <> []) by (inversion S; subst; auto). destruct H as [H Ne].
  assert (E : remove_all #"0x" arg = s) by (destruct A as [-> | ->]; [now apply hex_remove_0x|apply (number_remove _ _ _ _ S)]).
  unfold parse_base. rewrite E, (parse_int_digits u32 16 s v H Ne V). unfold in_range.
  assert (P : 0 <= v). { clear -D. induction D as [c d [H _]|s v c d D IH [H _]]; lia. }
  change (it_min u32) with 0. change (it_max u32) with (2 ^ 32 - 1).
  destruct (Z.ltb_spec v (2 ^ 32)); destruct (Z.leb_spec 0 v); destruct (Z.leb_spec v (2 ^ 32 - 1)); cbn [andb]; try reflexivity; lia.
Qed.
