(** * OperandProofs: parsing operands (proofs only). *)

From Coq Require Import Lia.
From Verif Require Import Str Regex Ast Parser SpecIsa SpecText StrLemmas NumLemmas TextProofs.

(** ** Digits and numerals *)

Lemma hex_digit_lower : forall k, (k < 16)%nat -> forall c, nth_error #"0123456789abcdef" k = Some c ->
  (forall r, Z.of_nat k < r <= 16 -> to_digit r c = Some (Z.of_nat k)) /\ In c #"0123456789abcdefABCDEF".
Proof.
  intros k L c. do 16 (destruct k as [|k]; [cbn; intros E; injection E as <-; split;
    [intros r [H1 H2]; unfold to_digit; cbn -[Z.ltb];
     match goal with |- (if ?x <? ?y then _ else _) = _ => destruct (Z.ltb_spec x y); [reflexivity|lia] end
    |vm_compute; tauto]|]). lia.
Qed.
Lemma hex_digit_upper : forall k, (k < 16)%nat -> forall c, nth_error #"0123456789ABCDEF" k = Some c ->
  (forall r, Z.of_nat k < r <= 16 -> to_digit r c = Some (Z.of_nat k)) /\ In c #"0123456789abcdefABCDEF".
Proof.
  intros k L c. do 16 (destruct k as [|k]; [cbn; intros E; injection E as <-; split;
    [intros r [H1 H2]; unfold to_digit; cbn -[Z.ltb];
     match goal with |- (if ?x <? ?y then _ else _) = _ => destruct (Z.ltb_spec x y); [reflexivity|lia] end
    |vm_compute; tauto]|]). lia.
Qed.
Lemma digit_spec r c d : r <= 16 -> digit r c d -> to_digit r c = Some d /\ In c #"0123456789abcdefABCDEF".
Proof.
  intros R [B [E|E]].
  - destruct (hex_digit_lower (Z.to_nat d) ltac:(lia) c E) as [H I]. split; [|exact I].
    rewrite H by lia. f_equal. lia.
  - destruct (hex_digit_upper (Z.to_nat d) ltac:(lia) c E) as [H I]. split; [|exact I].
    rewrite H by lia. f_equal. lia.
Qed.
Definition all_hex (s : str) : Prop := forall c, In c s -> In c #"0123456789abcdefABCDEF".
Lemma digits_spec r s v : 2 <= r <= 16 -> digits r s v ->
  digits_val r 0 s = Some v /\ s <> [] /\ all_hex s /\ 0 <= v.
Proof.
  intros R D. induction D as [c d D|s v c d D IH Dc].
  - assert (0 <= d) by (destruct D; lia). apply digit_spec in D as [T I]; [|lia]. cbn [digits_val]. rewrite T.
    repeat split; try discriminate; auto. intros x [<-|[]]. exact I.
  - destruct IH as (V & N & A & P). assert (0 <= d) by (destruct Dc; lia).
    apply digit_spec in Dc as [T I]; [|lia]. repeat split.
    + rewrite digits_val_app, V. cbn [digits_val]. now rewrite T.
    + destruct s; discriminate.
    + intros x Ix. apply in_app_or in Ix as [Ix|[<-|[]]]; auto.
    + nia.
Qed.

(** Characters of operands. *)
Definition chars_in (l : str) (s : str) : Prop := forall c, In c s -> In c l.
Definition char_ok (c : ascii) : bool := negb (special_char c) && negb (Ascii.eqb c ","%char).
Lemma char_ok_spec s : forallb char_ok s = true -> plain s /\ no_comma s.
Proof.
  intros H. rewrite forallb_forall in H. split.
  - apply plain_in. intros c I. specialize (H c I). unfold char_ok in H. apply andb_true_iff in H as [H _].
    now apply negb_true_iff.
  - intros I. specialize (H _ I). discriminate.
Qed.
Lemma hex_chars_facts c : In c #"0123456789abcdefABCDEF" ->
  is_ws c = false /\ char_ok c = true /\ c <> "x"%char /\ c <> "("%char /\ c <> ")"%char /\ c <> "-"%char /\ c <> "+"%char /\ c <> "@"%char /\ c <> "`"%char /\ c <> "%"%char.
Proof.
  intros I. vm_compute in I.
  repeat (destruct I as [<-|I]; [repeat split; try reflexivity; discriminate|]). destruct I.
Qed.

(** The shape of a numeral: optional sign, optional 0x, digits. *)
Inductive number_shape : str -> bool -> Z -> str -> Prop :=
| shape neg radix ds : all_hex ds -> ds <> [] -> (radix = 10 \/ radix = 16) ->
    number_shape ((if neg : bool then #"-" else []) ++ (if radix =? 16 then #"0x" else []) ++ ds) neg radix ds.

Lemma numeral_shape s v : numeral s v -> exists radix ds, number_shape s false radix ds
  /\ digits_val radix 0 ds = Some v /\ 0 <= v.
Proof.
  intros [s' v' D|s' v' D]; apply digits_spec in D as (V & N & A & P); try lia.
  - exists 10, s'. split; [apply (shape false 10 s'); auto|auto].
  - exists 16, s'. split; [apply (shape false 16 s'); auto|auto].
Qed.
Lemma signed_numeral_shape s v : signed_numeral s v -> exists neg radix ds, number_shape s neg radix ds
  /\ exists u, digits_val radix 0 ds = Some u /\ 0 <= u /\ v = if neg : bool then - u else u.
Proof.
  intros [s' v' H|s' v' H]; apply numeral_shape in H as (radix & ds & S & V & P).
  - exists false, radix, ds. split; [exact S|]. exists v'. auto.
  - exists true, radix, ds. split; [|exists v'; auto]. inversion S; subst. now apply (shape true).
Qed.

Lemma number_chars s neg radix ds c : number_shape s neg radix ds -> In c s ->
  In c #"-x0123456789abcdefABCDEF".
Proof.
  intros [n r d A N R] I. apply in_app_or in I as [I|I].
  - destruct n; [|destruct I]. destruct I as [<-|[]]. now left.
  - apply in_app_or in I as [I|I].
    + destruct (r =? 16); [|destruct I]. destruct I as [<-|[<-|[]]]; vm_compute; tauto.
    + right. right. now apply A.
Qed.
Lemma number_char_facts c : In c #"-x0123456789abcdefABCDEF" ->
  is_ws c = false /\ char_ok c = true /\ c <> "("%char /\ c <> ")"%char /\ c <> "@"%char /\ c <> "`"%char /\ c <> "%"%char /\ c <> nl.
Proof.
  intros I. vm_compute in I.
  repeat (destruct I as [<-|I]; [repeat split; try reflexivity; discriminate|]). destruct I.
Qed.
Lemma chars_no_ws s : (forall c, In c s -> is_ws c = false) -> no_ws s.
Proof. intros H. unfold no_ws. rewrite forallb_forall. intros c I. now rewrite H. Qed.
Lemma operand_ok_no_ws s : s <> [] -> no_ws s -> forallb char_ok s = true -> operand_ok s.
Proof.
  intros N W C. split; [exact N|]. split; [now apply char_ok_spec|].
  split; [now apply no_ws_tight_start|now apply no_ws_tight_end].
Qed.
Lemma number_nonempty s neg radix ds : number_shape s neg radix ds -> s <> [].
Proof. intros [n r d A N R]. destruct n, (r =? 16), d; try discriminate; congruence. Qed.
Lemma number_no_ws s neg radix ds : number_shape s neg radix ds -> no_ws s.
Proof. intros H. apply chars_no_ws. intros c I. now apply number_char_facts, (number_chars _ _ _ _ _ H). Qed.
Lemma number_operand_ok s neg radix ds : number_shape s neg radix ds -> operand_ok s.
Proof.
  intros H. apply operand_ok_no_ws; [eapply number_nonempty; eauto|eapply number_no_ws; eauto|].
  apply forallb_forall. intros c I. now apply number_char_facts, (number_chars _ _ _ _ _ H).
Qed.

(** [0x] occurs exactly in hexadecimal numerals, and removing it leaves sign and digits. *)
Lemma starts_0x_hex ds s : all_hex (ds) -> match ds with [] => False | _ => True end ->
  starts_with #"0x" (ds ++ s) = true -> exists d, ds = [d] /\ d = "0"%char /\ starts_with #"x" s = true.
Proof.
  intros A N H. destruct ds as [|c [|d ds]]; [destruct N| |].
  - cbn [app] in H. change (Ascii.eqb "0" c && starts_with #"x" s = true) in H.
    apply andb_true_iff in H as [H1 H2]. destruct (Ascii.eqb_spec "0" c); [subst|discriminate]. eauto.
  - exfalso. cbn [app] in H. change (Ascii.eqb "0" c && (Ascii.eqb "x" d && starts_with [] (ds ++ s)) = true) in H.
    apply andb_true_iff in H as [_ H]. apply andb_true_iff in H as [H _].
    destruct (Ascii.eqb_spec "x" d); [subst|discriminate].
    destruct (hex_chars_facts "x"%char (A _ (or_intror (or_introl eq_refl)))) as (_ & _ & X & _). now apply X.
Qed.
Lemma hex_no_0x ds : all_hex ds -> starts_with #"0x" ds = false.
Proof.
  intros A. destruct (starts_with #"0x" ds) eqn:E; [|reflexivity]. exfalso.
  destruct ds as [|c ds]; [discriminate|]. rewrite <- (app_nil_r (c :: ds)) in E.
  apply starts_0x_hex in E as (d & _ & _ & X); auto. discriminate.
Qed.
Lemma all_hex_tl c ds : all_hex (c :: ds) -> all_hex ds.
Proof. intros A x I. apply A. now right. Qed.
Lemma hex_find_0x ds : all_hex ds -> find_sub #"0x" ds = None.
Proof.
  induction ds as [|c ds IH]; intros A; [reflexivity|]. cbn [find_sub].
  rewrite hex_no_0x by exact A. rewrite IH; [reflexivity|]. now apply all_hex_tl in A.
Qed.
Lemma hex_remove_0x ds : all_hex ds -> remove_all #"0x" ds = ds.
Proof.
  induction ds as [|c ds IH]; intros A; [reflexivity|]. unfold remove_all in *. cbn [remove_go].
  rewrite hex_no_0x by exact A. f_equal. apply IH. now apply all_hex_tl in A.
Qed.
Lemma number_contains s neg radix ds : number_shape s neg radix ds -> contains #"0x" s = (radix =? 16).
Proof.
  intros [n r d A N R]. unfold contains. destruct R as [-> | ->].
  - change (10 =? 16) with false. cbn [app]. destruct n; cbn [app].
    + change (#"-" ++ d) with ("-"%char :: d). cbn [find_sub starts_with].
      change (starts_with #"0x" ("-"%char :: d)) with false. cbn iota. now rewrite hex_find_0x.
    + now rewrite hex_find_0x.
  - change (16 =? 16) with true. cbn [app]. destruct n.
    + reflexivity.
    + reflexivity.
Qed.
Lemma number_remove s neg radix ds : number_shape s neg radix ds ->
  remove_all #"0x" s = (if neg then #"-" else []) ++ ds.
Proof.
  intros [n r d A N R]. destruct R as [-> | ->].
  - change (10 =? 16) with false. destruct n; cbn [app].
    + change (remove_all #"0x" (#"-" ++ d)) with ("-"%char :: remove_all #"0x" d). now rewrite hex_remove_0x.
    + now apply hex_remove_0x.
  - change (16 =? 16) with true. destruct n.
    + change (remove_all #"0x" (#"-" ++ #"0x" ++ d)) with ("-"%char :: remove_all #"0x" d). now rewrite hex_remove_0x.
    + change (remove_all #"0x" ([] ++ #"0x" ++ d)) with (remove_all #"0x" d). now apply hex_remove_0x.
Qed.

Lemma parse_int_digits t r ds u : all_hex ds -> ds <> [] -> digits_val r 0 ds = Some u ->
  parse_int t r ds = in_range t u.
Proof.
  intros A N V. destruct ds as [|c ds]; [congruence|]. unfold parse_int.
  destruct (hex_chars_facts c (A c (or_introl eq_refl))) as (_ & _ & _ & _ & _ & M & P & _).
  destruct (Ascii.eqb_spec c "+"%char); [congruence|]. destruct (Ascii.eqb_spec c "-"%char); [congruence|].
  cbn [orb]. now rewrite V.
Qed.
Lemma parse_int_neg t r ds u : it_signed t = true -> ds <> [] -> digits_val r 0 ds = Some u ->
  parse_int t r (#"-" ++ ds) = in_range t (- u).
Proof.
  intros S N V. change (#"-" ++ ds) with ("-"%char :: ds). unfold parse_int. cbn [Ascii.eqb orb].
  destruct ds as [|c ds]; [congruence|]. rewrite S, V. reflexivity.
Qed.
Lemma parse_int_signed t r ds u (neg : bool) : all_hex ds -> ds <> [] -> digits_val r 0 ds = Some u ->
  (neg = true -> it_signed t = true) ->
  parse_int t r ((if neg then #"-" else []) ++ ds) = in_range t (if neg then - u else u).
Proof. destruct neg; intros A N V S; [now apply parse_int_neg; auto|now apply parse_int_digits]. Qed.

(** ** Regular expressions that need a parenthesis *)

Definition no_open (s : str) : Prop := ~ In "("%char s.
Definition no_close (s : str) : Prop := ~ In ")"%char s.

Lemma open_prefix r c s : c <> "("%char -> prefix_matches (RSeq (RClass (cls "(")) r) (c :: s) = [].
Proof.
  intros N. cbn [prefix_matches]. unfold cls. destruct (Ascii.eqb_spec c "("%char); [congruence|reflexivity].
Qed.
Lemma open_find_none r s : no_open s -> re_find (RSeq (RClass (cls "(")) r) s = None.
Proof.
  induction s as [|c s IH]; intros N; [reflexivity|].
  assert (c <> "("%char) by (intros ->; apply N; now left). cbn [re_find]. rewrite open_prefix by assumption.
  rewrite IH; [reflexivity|]. intros I. apply N. now right.
Qed.
Lemma no_open_imm s : no_open s -> re_find_str IMM_RE s = None.
Proof. intros N. unfold re_find_str, IMM_RE. now rewrite open_find_none. Qed.

(** ** Immediates *)

Lemma number_no_at s neg radix ds : number_shape s neg radix ds -> starts_with #"@@" s = false.
Proof.
  intros H. destruct s as [|c s]; [reflexivity|]. cbn [starts_with].
  destruct (number_char_facts c (number_chars _ _ _ _ c H (or_introl eq_refl))) as (_ & _ & _ & _ & N & _).
  change (Ascii.eqb "@" c && starts_with #"@" s = false).
  destruct (Ascii.eqb_spec "@" c); [congruence|reflexivity].
Qed.

Lemma parse_immediate_number e s t x text neg radix ds u :
  padded text x -> number_shape text neg radix ds -> digits_val radix 0 ds = Some u ->
  (neg = true -> it_signed t = true) -> assoc text (p_labels s) = None ->
  it_min t <= (if neg then - u else u) <= it_max t ->
  parse_immediate e s t x = imm_new t (if neg then - u else u).
Proof.
  intros P S V G L R. destruct (number_operand_ok _ _ _ _ S) as (_ & _ & T1 & T2).
  unfold parse_immediate. rewrite (padded_trim _ _ P T1 T2), (number_no_at _ _ _ _ S), L.
  assert (NO : no_open text).
  { intros I. destruct (number_char_facts _ (number_chars _ _ _ _ _ S I)) as (_ & _ & N & _). now apply N. }
  rewrite no_open_imm by exact NO. rewrite (number_contains _ _ _ _ S).
  assert (IR : in_range t (if neg then - u else u) = Some (if neg then - u else u)).
  { unfold in_range. destruct (Z.leb_spec (it_min t) (if neg then - u else u)); [|lia].
    destruct (Z.leb_spec (if neg then - u else u) (it_max t)); [reflexivity|lia]. }
  assert (Q : all_hex ds /\ ds <> [] /\ (radix = 10 \/ radix = 16)) by (now inversion S). destruct Q as (A & N & [-> | ->]).
  - change (10 =? 16) with false. cbn iota.
    assert (E : text = (if neg then #"-" else []) ++ ds) by (inversion S; reflexivity). rewrite E.
    rewrite (parse_int_signed t 10 ds u neg) by auto. now rewrite IR.
  - change (16 =? 16) with true. cbn iota. rewrite (number_remove _ _ _ _ S).
    rewrite (parse_int_signed t 16 ds u neg) by auto. now rewrite IR.
Qed.

Lemma parse_immediate_unsigned e s t x text v : padded text x -> numeral text v ->
  assoc text (p_labels s) = None -> it_min t <= v <= it_max t -> parse_immediate e s t x = imm_new t v.
Proof.
  intros P N L R. destruct (numeral_shape _ _ N) as (radix & ds & S & V & _).
  now apply (parse_immediate_number e s t x text false radix ds v).
Qed.
Lemma parse_immediate_signed e s t x text v : padded text x -> signed_numeral text v -> it_signed t = true ->
  assoc text (p_labels s) = None -> it_min t <= v <= it_max t -> parse_immediate e s t x = imm_new t v.
Proof.
  intros P N G L R. destruct (signed_numeral_shape _ _ N) as (neg & radix & ds & S & u & V & _ & ->).
  now apply (parse_immediate_number e s t x text neg radix ds u).
Qed.

(** ** Shift amounts *)

Lemma ends_with_tick s : (forall c, In c s -> c <> "`"%char) -> ends_with #"`" s = false.
Proof.
  intros H. unfold ends_with. change (rev #"`") with ["`"%char].
  destruct (rev s) as [|c r] eqn:E; [reflexivity|]. cbn [starts_with].
  destruct (Ascii.eqb_spec "`" c) as [<-|_]; [|reflexivity]. exfalso. apply (H "`"%char); [|reflexivity].
  apply in_rev. rewrite E. now left.
Qed.
Lemma drop_end_tick s : (forall c, In c s -> c <> "`"%char) -> drop_while_end (cls "`") s = s.
Proof.
  intros H. unfold drop_while_end. destruct (rev s) as [|c r] eqn:E.
  - apply (f_equal (@rev ascii)) in E. rewrite rev_involutive in E. now rewrite E.
  - cbn [drop_while]. unfold cls. destruct (Ascii.eqb_spec c "`") as [->|_].
    + exfalso. apply (H "`"%char); [|reflexivity]. apply in_rev. rewrite E. now left.
    + rewrite <- E. apply rev_involutive.
Qed.
Lemma parse_sa_number x text v : padded text x -> numeral text v -> 0 <= v < 2 ^ 31 -> parse_sa (trim x) = Ok v.
Proof.
  intros P N R. destruct (numeral_shape _ _ N) as (radix & ds & S & V & _).
  destruct (number_operand_ok _ _ _ _ S) as (_ & _ & T1 & T2). rewrite (padded_trim _ _ P T1 T2).
  assert (NT : forall c, In c text -> c <> "`"%char).
  { intros c I. now apply number_char_facts, (number_chars _ _ _ _ _ S). }
  unfold parse_sa. rewrite ends_with_tick by exact NT. rewrite (number_contains _ _ _ _ S). cbn [orb].
  assert (IR : in_range i32 v = Some v).
  { unfold in_range. change (it_min i32) with (- 2 ^ 31). change (it_max i32) with (2 ^ 31 - 1).
    destruct (Z.leb_spec (- 2 ^ 31) v); [|lia]. destruct (Z.leb_spec v (2 ^ 31 - 1)); [reflexivity|lia]. }
  assert (W : wrap 32 v = v) by (unfold wrap; apply Z.mod_small; lia).
  assert (Q : all_hex ds /\ ds <> [] /\ (radix = 10 \/ radix = 16)) by (now inversion S). destruct Q as (A & Nn & [-> | ->]).
  - change (negb (10 =? 16)) with true. cbn iota. rewrite drop_end_tick by exact NT.
    assert (E : text = ds) by (inversion S; reflexivity). rewrite E.
    rewrite (parse_int_digits i32 10 ds v) by auto. rewrite IR. cbn [unwrap obind]. now rewrite W.
  - change (negb (16 =? 16)) with false. cbn iota. rewrite (number_remove _ _ _ _ S). cbn [app].
    rewrite (parse_int_digits i32 16 ds v) by auto. rewrite IR. cbn [unwrap obind]. now rewrite W.
Qed.

(** ** Jump targets *)

Lemma find_none_symbol (syms : list (Z * str)) t : (forall a, ~ In (a, t) syms) ->
  find (fun av => str_eqb (snd av) t) syms = None.
Proof.
  intros H. induction syms as [|[a n] syms IH]; [reflexivity|]. cbn [find snd].
  destruct (str_eqb n t) eqn:E.
  - apply str_eqb_spec in E. subst. exfalso. apply (H a). now left.
  - apply IH. intros b I. apply (H b). now right.
Qed.
Lemma parse_target_number e s text v : numeral text v -> 0 <= v < 2 ^ 32 ->
  (forall a, ~ In (a, text) (e_syms e)) -> parse_target e s text = Ok (TAddress v).
Proof.
  intros N R Y. destruct (numeral_shape _ _ N) as (radix & ds & S & V & _).
  unfold parse_target. rewrite find_none_symbol by exact Y.
  assert (IR : in_range u32 v = Some v).
  { unfold in_range. change (it_min u32) with 0. change (it_max u32) with (2 ^ 32 - 1).
    destruct (Z.leb_spec 0 v); [|lia]. destruct (Z.leb_spec v (2 ^ 32 - 1)); [reflexivity|lia]. }
  assert (Q : all_hex ds /\ ds <> [] /\ (radix = 10 \/ radix = 16)) by (now inversion S). destruct Q as (A & Nn & [-> | ->]).
  - assert (E : text = ds) by (inversion S; reflexivity). rewrite E. rewrite hex_no_0x by exact A.
    destruct ds as [|c ds]; [congruence|].
    assert (D : digits_val 10 0 [c] <> None).
    { cbn [digits_val] in V |- *. now destruct (to_digit 10 c). }
    destruct (digits_val 10 0 [c]) as [d|] eqn:Dc; [|congruence].
    assert (Hc : all_hex [c]) by (intros x [<-|[]]; apply A; now left).
    rewrite (parse_int_digits u32 10 [c] d) by (auto; discriminate).
    assert (IRd : in_range u32 d = Some d).
    { cbn [digits_val] in Dc. destruct (to_digit 10 c) as [k|] eqn:K; [|discriminate].
      assert (Ed : 0 * 10 + k = d) by congruence. clear Dc. subst d.
      assert (0 <= k < 10).
      { unfold to_digit in K.
        match type of K with (if ?x <? ?y then _ else _) = _ => destruct (Z.ltb_spec x y); [|discriminate] end.
        assert (Kn := code_nonneg c) || idtac.
        injection K as K. rewrite <- K in *. split; [|assumption].
        unfold code. repeat match goal with |- context [if ?b then _ else _] => destruct b eqn:? end;
          repeat match goal with H : _ && _ = true |- _ => apply andb_true_iff in H as [? ?] end;
          repeat match goal with H : (_ <=? _) = true |- _ => apply Z.leb_le in H end; unfold code in *; lia. }
      unfold in_range. change (it_min u32) with 0. change (it_max u32) with (2 ^ 32 - 1).
      destruct (Z.leb_spec 0 (0 * 10 + k)); [|lia]. destruct (Z.leb_spec (0 * 10 + k) (2 ^ 32 - 1)); [reflexivity|lia]. }
    rewrite IRd. rewrite (parse_int_digits u32 10 (c :: ds) v) by auto. now rewrite IR.
  - assert (E : text = #"0x" ++ ds) by (inversion S; reflexivity).
    assert (St : starts_with #"0x" text = true) by (rewrite E; reflexivity). rewrite St.
    rewrite (number_remove _ _ _ _ S). cbn [app]. rewrite (parse_int_digits u32 16 ds v) by auto. now rewrite IR.
Qed.

(** ** Registers *)

Fixpoint r_digit (s : str) : bool :=
  match s with
  | c :: r => (Ascii.eqb c "r"%char && match r with d :: _ => is_digit d | [] => false end) || r_digit r
  | [] => false
  end.
Lemma r_digit_find s : r_digit s = false -> re_find REG_RE s = None.
Proof.
  induction s as [|c s IH]; intros H; [reflexivity|]. cbn [r_digit] in H. apply orb_false_iff in H as [H1 H2].
  cbn [re_find]. assert (P : prefix_matches REG_RE (c :: s) = []).
  { unfold REG_RE. cbn [prefix_matches]. unfold cls. destruct (Ascii.eqb c "r"); [|reflexivity].
    cbn [andb flat_map skipn app] in *. destruct s as [|d s]; [reflexivity|]. rewrite H1. reflexivity. }
  rewrite P, IH by exact H2. reflexivity.
Qed.
Lemma lower_digit c : is_digit (lower_char c) = is_digit c.
Proof. destruct c as [[] [] [] [] [] [] [] []]; reflexivity. Qed.
Lemma r_digit_lower s : r_digit (to_lower s) = false -> r_digit s = false.
Proof.
  unfold to_lower. induction s as [|c s IH]; [reflexivity|]. cbn [map r_digit]. intros H.
  apply orb_false_iff in H as [H1 H2]. rewrite (IH H2), orb_false_r.
  destruct (Ascii.eqb_spec c "r"%char) as [->|_]; [|reflexivity]. cbn [andb] in *.
  change (lower_char "r"%char) with "r"%char in H1. cbn [Ascii.eqb andb] in H1.
  destruct s as [|d s]; [reflexivity|]. cbn [map] in H1. now rewrite lower_digit in H1.
Qed.
Lemma to_digit_lower r c : to_digit r (lower_char c) = to_digit r c.
Proof. destruct c as [[] [] [] [] [] [] [] []]; reflexivity. Qed.
Lemma digits_val_lower r a s : digits_val r a (to_lower s) = digits_val r a s.
Proof.
  revert a. induction s as [|c s IH]; intros a; [reflexivity|]. cbn [to_lower map digits_val].
  rewrite to_digit_lower. destruct (to_digit r c); [apply IH|reflexivity].
Qed.
Lemma lower_sign c d : In d [ "+"; "-"; "$" ]%char -> Ascii.eqb (lower_char c) d = Ascii.eqb c d.
Proof.
  intros I. cbn in I.
  repeat (destruct I as [<-|I]; [destruct c as [[] [] [] [] [] [] [] []]; reflexivity|]). destruct I.
Qed.
Lemma parse_int_lower t r s : parse_int t r (to_lower s) = parse_int t r s.
Proof.
  destruct s as [|c s]; [reflexivity|]. unfold parse_int. cbn [to_lower map].
  rewrite !lower_sign by (cbn; tauto). change (lower_char c :: map lower_char s) with (to_lower (c :: s)).
  change (map lower_char s) with (to_lower s). rewrite !digits_val_lower.
  destruct s; reflexivity.
Qed.

Definition after_dollar (x : str) : str := drop_while (cls "$") (trim x).
Lemma after_dollar_token t x t' : padded t x -> no_ws t -> t <> [] ->
  (t = t' \/ t = #"$" ++ t') -> (forall c, hd_error t' = Some c -> Ascii.eqb c "$" = false) ->
  after_dollar x = t'.
Proof.
  intros P W N E H. unfold after_dollar.
  rewrite (padded_trim _ _ P) by (auto using no_ws_tight_start, no_ws_tight_end).
  assert (D : drop_while (cls "$") t' = t').
  { destruct t' as [|c t']; [reflexivity|]. cbn [drop_while]. unfold cls. now rewrite (H c eq_refl). }
  destruct E as [-> | ->]; [exact D|]. exact D.
Qed.

Definition reg_core (s : str) (r : str) : outcome str reg :=
  match re_find REG_RE r with
  | Some _ =>
      match parse_int u32 10 (drop_while (cls "r") r) with
      | Some n => reg_try_from n
      | None => Panic "register number"
      end
  | None =>
      match parse_int u32 10 r with
      | Some n => reg_try_from n
      | None => match assoc (to_lower r) reg_table with Some x => Ok x | None => Err s end
      end
  end.
Lemma reg_from_core x : reg_from_str x = reg_core x (after_dollar x).
Proof. reflexivity. Qed.

Lemma enum5_ex n : 0 <= n < 32 -> exists k, (k < 32)%nat /\ n = Z.of_nat k.
Proof. exists (Z.to_nat n). lia. Qed.
Ltac enumk k L n :=
  lazymatch n with
  | O => exfalso; lia
  | S ?m => destruct k as [|k]; [clear L|enumk k L m]
  end.
Ltac enum5 H :=
  let k := fresh "k" in let L := fresh "L" in
  apply enum5_ex in H; destruct H as (k & L & ->); enumk k L 32%nat.

Lemma named_facts (p : str -> bool) (names : list str) n s : forallb p names = true ->
  (List.length names = 32)%nat -> 0 <= n < 32 -> same_letters s (nth_name names n) ->
  exists nm, In nm names /\ p nm = true /\ to_lower s = to_lower nm /\ nm = nth_name names n.
Proof.
  intros F L R E. exists (nth_name names n). unfold nth_name in *.
  assert (I : In (nth (Z.to_nat n) names []) names) by (apply nth_In; rewrite L; lia).
  rewrite forallb_forall in F. auto.
Qed.

Definition gpr_name_ok (nm : str) : bool :=
  negb (r_digit (to_lower nm)) && match parse_int u32 10 (to_lower nm) with None => true | Some _ => false end.

Lemma gpr_token_core x s n : gpr_token s n -> reg_core x s = Ok (reg_of_num n).
Proof.
  intros [n' s' R E|n' R|n' R].
  - unfold reg_core.
    assert (F : r_digit (to_lower s') = false /\ parse_int u32 10 s' = None
                /\ assoc (to_lower s') reg_table = Some (reg_of_num n')).
    { rewrite <- (parse_int_lower u32 10 s'). unfold same_letters in E. rewrite E. clear E s'.
      enum5 R; vm_compute; auto. }
    destruct F as (F1 & F2 & F3). rewrite r_digit_find by (now apply r_digit_lower). now rewrite F2, F3.
  - enum5 R; vm_compute; reflexivity.
  - enum5 R; vm_compute; reflexivity.
Qed.

(** Every register token: no white space, no special characters, no [$] in front. *)
Definition token_char (c : ascii) : bool := negb (is_ws c) && char_ok c && negb (Ascii.eqb c "$") && negb (Ascii.eqb c "(") && negb (Ascii.eqb c ")").
Definition token_ok (s : str) : Prop := s <> [] /\ forallb token_char s = true.
Lemma token_char_lower c : token_char (lower_char c) = token_char c.
Proof. destruct c as [[] [] [] [] [] [] [] []]; reflexivity. Qed.
Lemma token_ok_lower a b : same_letters a b -> token_ok b -> token_ok a.
Proof.
  intros E [N F]. split; [eapply same_letters_nil; eauto|].
  rewrite (same_letters_forallb _ a b); auto. apply token_char_lower.
Qed.
Lemma gpr_token_ok s n : gpr_token s n -> token_ok s.
Proof.
  intros [n' s' R E|n' R|n' R].
  - eapply token_ok_lower; [exact E|]. clear E. enum5 R; split; (discriminate || reflexivity).
  - enum5 R; split; (discriminate || reflexivity).
  - enum5 R; split; (discriminate || reflexivity).
Qed.
Lemma fpr_token_ok s n : fpr_token s n -> token_ok s.
Proof.
  intros [n' s' R E|n' s' R E|n' R].
  - eapply token_ok_lower; [exact E|]. clear E. enum5 R; split; (discriminate || reflexivity).
  - eapply token_ok_lower; [exact E|]. clear E. enum5 R; split; (discriminate || reflexivity).
  - enum5 R; split; (discriminate || reflexivity).
Qed.
Lemma cop0_range n t : num_assoc n cop0_names = Some t -> 0 <= n < 32.
Proof.
  unfold cop0_names. cbn [num_assoc]. intros H.
  repeat match type of H with (if ?a =? ?b then _ else _) = _ => destruct (Z.eqb_spec a b); [subst; lia|] end.
  discriminate.
Qed.
Lemma cop0_token_ok s n : cop0_token s n -> token_ok s.
Proof.
  intros [n' s' t A E|n' t A]; assert (R := cop0_range _ _ A).
  - eapply token_ok_lower; [exact E|]. clear E. enum5 R; vm_compute in A; try discriminate; injection A as <-; split; (discriminate || reflexivity).
  - enum5 R; vm_compute in A; try discriminate; split; (discriminate || reflexivity).
Qed.
Lemma dollar_ok (tok : str -> Z -> Prop) s n : (forall t k, tok t k -> token_ok t) -> dollar tok s n ->
  exists t, tok t n /\ (s = t \/ s = #"$" ++ t) /\ s <> [] /\ no_ws s /\ forallb char_ok s = true
            /\ no_open s /\ no_close s /\ token_ok t.
Proof.
  intros H D.
  assert (K : forall t, token_ok t -> no_ws t /\ forallb char_ok t = true /\ no_open t /\ no_close t).
  { intros t [_ F]. rewrite forallb_forall in F. repeat split.
    - apply chars_no_ws. intros c I. specialize (F c I). unfold token_char in F. rewrite !andb_true_iff in F.
      destruct F as [[[[F _] _] _] _]. now apply negb_true_iff.
    - apply forallb_forall. intros c I. specialize (F c I). unfold token_char in F. now rewrite !andb_true_iff in F.
    - intros I. specialize (F _ I). discriminate.
    - intros I. specialize (F _ I). discriminate. }
  destruct D as [T|(t & -> & T)].
  - exists s. destruct (K s (H _ _ T)) as (K1 & K2 & K3 & K4). repeat split; auto; now apply (H _ _ T).
  - exists t. destruct (K t (H _ _ T)) as (K1 & K2 & K3 & K4). repeat split; auto; try discriminate; try (now apply (H _ _ T)).
    + intros [E|I]; [discriminate|]. now apply K3.
    + intros [E|I]; [discriminate|]. now apply K4.
Qed.
Lemma token_hd t c : token_ok t -> hd_error t = Some c -> Ascii.eqb c "$" = false.
Proof.
  intros [_ F] H. destruct t as [|d t]; [discriminate|]. injection H as ->. cbn [forallb] in F.
  apply andb_true_iff in F as [F _]. unfold token_char in F. rewrite !andb_true_iff in F.
  destruct F as [[[_ F] _] _]. now apply negb_true_iff.
Qed.

Lemma reg_parse x t n : padded t x -> gpr_text t n -> reg_from_str x = Ok (reg_of_num n).
Proof.
  intros P D. destruct (dollar_ok _ _ _ gpr_token_ok D) as (t' & T & E & N & W & _ & _ & _ & K).
  rewrite reg_from_core. rewrite (after_dollar_token t x t'); auto.
  - now apply gpr_token_core.
  - intros c. now apply token_hd.
Qed.

Definition freg_of_num (n : Z) : freg := match freg_try_from n with Ok f => f | _ => Fv0 end.
Definition c0reg_of_num (n : Z) : c0reg := match c0reg_try_from n with Ok f => f | _ => C0_Index end.

Definition freg_core (r : str) : outcome str freg :=
  match parse_int u32 10 r with
  | Some n => freg_try_from n
  | None => match assoc (to_lower r) freg_table with
            | Some x => Ok x
            | None => match parse_int u32 16 r with Some n => freg_try_from n | None => Err (to_lower r) end
            end
  end.
Lemma fpr_token_core s n : fpr_token s n -> freg_core s = Ok (freg_of_num n).
Proof.
  intros [n' s' R E|n' s' R E|n' R].
  - unfold freg_core.
    assert (F : parse_int u32 10 s' = None /\ assoc (to_lower s') freg_table = Some (freg_of_num n')).
    { rewrite <- (parse_int_lower u32 10 s'). unfold same_letters in E. rewrite E. clear E s'. enum5 R; vm_compute; auto. }
    destruct F as [-> ->]. reflexivity.
  - unfold freg_core.
    assert (F : parse_int u32 10 s' = None /\ assoc (to_lower s') freg_table = Some (freg_of_num n')).
    { rewrite <- (parse_int_lower u32 10 s'). unfold same_letters in E. rewrite E. clear E s'. enum5 R; vm_compute; auto. }
    destruct F as [-> ->]. reflexivity.
  - enum5 R; vm_compute; reflexivity.
Qed.
Lemma freg_parse x t n : padded t x -> fpr_text t n -> freg_from_str x = Ok (freg_of_num n).
Proof.
  intros P D. destruct (dollar_ok _ _ _ fpr_token_ok D) as (t' & T & E & N & W & _ & _ & _ & K).
  change (freg_from_str x) with (freg_core (after_dollar x)). rewrite (after_dollar_token t x t'); auto.
  - now apply fpr_token_core.
  - intros c. now apply token_hd.
Qed.
Definition c0reg_core (r : str) : outcome str c0reg :=
  match parse_int u32 10 r with
  | Some n => c0reg_try_from n
  | None => match parse_int u32 16 r with
            | Some n => c0reg_try_from n
            | None => match assoc (to_lower r) c0reg_table with Some x => Ok x | None => Err (to_lower r) end
            end
  end.
Lemma cop0_token_core s n : cop0_token s n -> c0reg_core s = Ok (c0reg_of_num n).
Proof.
  intros [n' s' t A E|n' t A]; assert (R := cop0_range _ _ A).
  - unfold c0reg_core.
    assert (F : parse_int u32 10 s' = None /\ parse_int u32 16 s' = None /\ assoc (to_lower s') c0reg_table = Some (c0reg_of_num n')).
    { rewrite <- (parse_int_lower u32 10 s'), <- (parse_int_lower u32 16 s'). unfold same_letters in E. rewrite E. clear E s'.
      enum5 R; vm_compute in A; try discriminate; injection A as <-; vm_compute; auto. }
    destruct F as (-> & -> & ->). reflexivity.
  - enum5 R; vm_compute in A; try discriminate; vm_compute; reflexivity.
Qed.
Lemma c0reg_parse x t n : padded t x -> cop0_text t n -> c0reg_from_str x = Ok (c0reg_of_num n).
Proof.
  intros P D. destruct (dollar_ok _ _ _ cop0_token_ok D) as (t' & T & E & N & W & _ & _ & _ & K).
  change (c0reg_from_str x) with (c0reg_core (after_dollar x)). rewrite (after_dollar_token t x t'); auto.
  - now apply cop0_token_core.
  - intros c. now apply token_hd.
Qed.

Lemma reg_of_num_num n : 0 <= n < 32 -> reg_num (reg_of_num n) = n.
Proof. intros R. enum5 R; reflexivity. Qed.
Lemma freg_of_num_num n : 0 <= n < 32 -> reg_num (freg_to_reg (freg_of_num n)) = n.
Proof. intros R. enum5 R; reflexivity. Qed.
Lemma c0reg_of_num_num n t : num_assoc n cop0_names = Some t -> reg_num (c0reg_to_reg (c0reg_of_num n)) = n.
Proof. intros A. assert (R := cop0_range _ _ A). enum5 R; vm_compute in A; try discriminate; reflexivity. Qed.

(** ** Memory operands *)

Lemma no_open_app a b : no_open (a ++ b) <-> no_open a /\ no_open b.
Proof. unfold no_open. rewrite in_app_iff. tauto. Qed.
Lemma no_close_app a b : no_close (a ++ b) <-> no_close a /\ no_close b.
Proof. unfold no_close. rewrite in_app_iff. tauto. Qed.
Lemma blank_no_open s : blank s -> no_open s.
Proof. unfold blank. rewrite forallb_forall. intros H I. specialize (H _ I). discriminate. Qed.
Lemma blank_no_close s : blank s -> no_close s.
Proof. unfold blank. rewrite forallb_forall. intros H I. specialize (H _ I). discriminate. Qed.
Lemma skipn_in {A} n (l : list A) x : In x (skipn n l) -> In x l.
Proof. intros H. rewrite <- (firstn_skipn n l). apply in_or_app. now right. Qed.

Definition gap_open : re := RSeq (RStar true is_ws) (RClass (cls "(")).
Lemma gap_open_none s : no_open s -> prefix_matches gap_open s = [].
Proof.
  intros N. unfold gap_open. cbn [prefix_matches].
  set (l := rev (seq 0 (S (run_len is_ws s)))). clearbody l.
  induction l as [|n l IH]; [reflexivity|]. cbn [flat_map]. rewrite IH, app_nil_r.
  destruct (skipn n s) as [|c r] eqn:E; [reflexivity|]. unfold cls.
  destruct (Ascii.eqb_spec c "("%char) as [->|_]; [|reflexivity].
  exfalso. apply N. apply (skipn_in n). rewrite E. now left.
Qed.
Lemma gap_open_here s : prefix_matches gap_open ("("%char :: s) = [1%nat].
Proof. reflexivity. Qed.

Lemma rev_seq_split n k : (k <= n)%nat ->
  exists l, rev (seq 0 (S n)) = rev (seq (S k) (n - k)) ++ k :: l.
Proof.
  intros L. exists (rev (seq 0 k)). 
  replace (S n) with (k + S (n - k))%nat by lia. rewrite seq_app, rev_app_distr. cbn [Nat.add seq].
  cbn [rev]. now rewrite <- app_assoc.
Qed.
Lemma flat_map_nil {A B} (f : A -> list B) l : (forall x, In x l -> f x = []) -> flat_map f l = [].
Proof. induction l as [|x l IH]; intros H; [reflexivity|]. cbn. rewrite H, IH; auto; [intros; apply H; now right|now left]. Qed.

Lemma offset_prefix c o rest : no_nl (c :: o ++ "("%char :: rest) -> no_open rest ->
  exists l, prefix_matches OFFSET_RE (c :: o ++ "("%char :: rest) = S (S (List.length o)) :: l.
Proof.
  intros N R. unfold OFFSET_RE. fold gap_open.
  assert (A : any_char c = true).
  { unfold any_char. destruct (Ascii.eqb_spec c nl) as [->|_]; [|reflexivity]. exfalso. apply N. now left. }
  assert (RL : run_len any_char (o ++ "("%char :: rest) = List.length (o ++ "("%char :: rest)).
  { apply run_len_any. intros I. apply N. now right. }
  set (x := c :: o ++ "("%char :: rest).
  assert (P : prefix_matches (RSeq (RClass any_char) (RStar true any_char)) x
              = map (Nat.add 1) (rev (seq 0 (S (List.length (o ++ "("%char :: rest)))))).
  { cbn [prefix_matches]. unfold x. rewrite A. cbn [flat_map skipn]. rewrite RL. now rewrite app_nil_r. }
  change (exists l, flat_map (fun n => map (Nat.add n) (prefix_matches gap_open (skipn n x)))
       (prefix_matches (RSeq (RClass any_char) (RStar true any_char)) x) = S (S (List.length o)) :: l).
  rewrite P. destruct (rev_seq_split (List.length (o ++ "("%char :: rest)) (List.length o)) as [l ->].
  { rewrite app_length. lia. }
  rewrite map_app. cbn [map]. rewrite flat_map_app. cbn [flat_map].
  rewrite flat_map_nil.
  - cbn [app].
    assert (Sk : skipn (1 + List.length o) x = "("%char :: rest).
    { unfold x. cbn [Nat.add skipn]. rewrite skipn_app, skipn_all, Nat.sub_diag. reflexivity. }
    rewrite Sk, gap_open_here. cbn [map app]. eexists. f_equal. lia.
  - intros n I. apply in_map_iff in I as (k & <- & I). apply in_rev in I. apply in_seq in I.
    rewrite gap_open_none; [reflexivity|]. unfold x. cbn [Nat.add skipn]. rewrite skipn_app.
    rewrite skipn_all2 by lia. cbn [app].
    destruct (k - List.length o)%nat as [|j] eqn:J; [lia|]. cbn [skipn]. intros I'. apply R. now apply (skipn_in j).
Qed.

Lemma offset_find o rest : o <> [] -> no_nl (o ++ "("%char :: rest) -> no_open rest ->
  re_find_str OFFSET_RE (o ++ "("%char :: rest) = Some (o ++ #"(").
Proof.
  intros Ne N R. destruct o as [|c o]; [congruence|]. cbn [app] in *.
  destruct (offset_prefix c o rest N R) as [l P]. unfold re_find_str. cbn [re_find].
  change (c :: o ++ "("%char :: rest) with (c :: (o ++ "("%char :: rest)) in P. rewrite P. cbn [skipn].
  apply (f_equal (@Some str)). 
  change (c :: firstn (S (List.length o)) (o ++ "("%char :: rest) = c :: (o ++ #"(")).
  apply (f_equal (cons c)).
  replace (o ++ "("%char :: rest) with ((o ++ #"(") ++ rest) by (now rewrite <- app_assoc).
  replace (S (List.length o)) with (List.length (o ++ #"(")) by (rewrite app_length; cbn; lia).
  rewrite firstn_app, Nat.sub_diag, firstn_all, app_nil_r. reflexivity.
Qed.

Lemma offset_prefix_none c s : no_open s -> prefix_matches OFFSET_RE (c :: s) = [].
Proof.
  intros R. unfold OFFSET_RE. fold gap_open.
  change (flat_map (fun n => map (Nat.add n) (prefix_matches gap_open (skipn n (c :: s))))
       (prefix_matches (RSeq (RClass any_char) (RStar true any_char)) (c :: s)) = []).
  apply flat_map_nil. intros n I. rewrite gap_open_none; [reflexivity|].
  assert (n <> 0%nat).
  { cbn [prefix_matches] in I. destruct (any_char c); [|destruct I]. cbn [flat_map] in I. rewrite app_nil_r in I.
    apply in_map_iff in I as (k & <- & _). discriminate. }
  destruct n as [|n]; [congruence|]. cbn [skipn]. intros I'. apply R. now apply (skipn_in n).
Qed.
Lemma offset_find_none c s : no_open s -> re_find OFFSET_RE (c :: s) = None.
Proof.
  revert c. induction s as [|d s IH]; intros c R.
  - cbn [re_find]. now rewrite (offset_prefix_none c []) by exact R.
  - cbn [re_find]. rewrite (offset_prefix_none c (d :: s)) by exact R.
    change (match re_find OFFSET_RE (d :: s) with Some (i, n) => Some (S i, n) | None => None end = None).
    rewrite IH; [reflexivity|]. intros I. apply R. now right.
Qed.

Definition lazy_close : re := RSeq (RStar false any_char) (RClass (cls ")")).
Lemma lazy_close_first r s : no_close r -> no_nl r ->
  exists l, prefix_matches lazy_close (r ++ ")"%char :: s) = S (List.length r) :: l.
Proof.
  intros C N. unfold lazy_close. cbn [prefix_matches].
  assert (L : (List.length r <= run_len any_char (r ++ ")"%char :: s))%nat).
  { clear C. induction r as [|c r IH]; [cbn; lia|]. cbn [app run_len List.length].
    assert (A : any_char c = true).
    { unfold any_char. destruct (Ascii.eqb_spec c nl) as [->|_]; [|reflexivity]. exfalso. apply N. now left. }
    rewrite A. assert (no_nl r) by (intros I; apply N; now right). specialize (IH H). lia. }
  set (m := run_len any_char (r ++ ")"%char :: s)) in *. clearbody m.
  replace (S m) with (List.length r + S (m - List.length r))%nat by lia. rewrite seq_app, flat_map_app.
  rewrite flat_map_nil.
  - cbn [app Nat.add seq flat_map]. rewrite skipn_app, skipn_all, Nat.sub_diag. cbn [skipn app].
    change (cls ")" ")"%char) with true. cbn [map app]. eexists. f_equal. lia.
  - intros k I. apply in_seq in I. rewrite skipn_app.
    replace (k - List.length r)%nat with 0%nat by lia. cbn [skipn].
    destruct (skipn k r) as [|c t] eqn:E.
    + exfalso. assert (LL := skipn_length k r). rewrite E in LL. cbn in LL. lia.
    + cbn [app]. unfold cls. destruct (Ascii.eqb_spec c ")"%char) as [->|_]; [|reflexivity].
      exfalso. apply C. apply (skipn_in k). rewrite E. now left.
Qed.

Lemma base_find o r s : no_open o -> no_close r -> no_nl r ->
  re_find BASE_RE (o ++ "("%char :: r ++ ")"%char :: s) = Some (List.length o, S (S (List.length r))).
Proof.
  intros O C N. unfold BASE_RE. fold lazy_close. induction o as [|c o IH].
  - cbn [app re_find List.length]. destruct (lazy_close_first r s C N) as [l P].
    assert (Q : prefix_matches (RSeq (RClass (cls "(")) lazy_close) ("("%char :: r ++ ")"%char :: s)
                = map S (prefix_matches lazy_close (r ++ ")"%char :: s))).
    { cbn [prefix_matches]. change (cls "(" "("%char) with true. cbn [flat_map skipn].
      rewrite app_nil_r. reflexivity. }
    rewrite Q, P. reflexivity.
  - cbn [app re_find]. rewrite open_prefix by (intros ->; apply O; now left).
    change (o ++ "("%char :: r ++ ")"%char :: s) with (o ++ "("%char :: (r ++ ")"%char :: s)) in IH.
    rewrite IH by (intros I; apply O; now right). reflexivity.
Qed.

Lemma strip_parens_none s : no_open s -> no_close s -> strip_parens s = s.
Proof.
  intros O C. unfold strip_parens. induction s as [|c s IH]; [reflexivity|]. cbn [filter].
  destruct (Ascii.eqb_spec c "("%char) as [->|_]; [exfalso; apply O; now left|].
  destruct (Ascii.eqb_spec c ")"%char) as [->|_]; [exfalso; apply C; now left|]. cbn [orb negb].
  f_equal. apply IH; intros I; [apply O|apply C]; now right.
Qed.
Lemma base_text_ok o r s : no_open o -> no_open r -> no_close r -> no_nl r -> no_open s ->
  base_text (o ++ "("%char :: r ++ ")"%char :: s) = Ok (trim r).
Proof.
  intros O Ro Rc N So. unfold base_text, find_iter.
  set (x := o ++ "("%char :: r ++ ")"%char :: s).
  assert (F : re_find_iter (S (List.length x)) BASE_RE x = [ "("%char :: r ++ [")"%char] ]).
  { assert (Lx : exists k, List.length x = S k).
    { unfold x. rewrite app_length. cbn. eexists. rewrite Nat.add_succ_r. reflexivity. }
    destruct Lx as [k Lx]. rewrite Lx.
    assert (St : forall f y, re_find_iter (S f) BASE_RE y = match re_find BASE_RE y with None => []
      | Some (i, n) => firstn n (skipn i y) :: re_find_iter f BASE_RE (skipn (i + Nat.max n 1) y) end) by reflexivity.
    rewrite St. clear St.
    unfold x at 1. rewrite base_find by auto.
    assert (D : skipn (List.length o) x = "("%char :: r ++ ")"%char :: s).
    { unfold x. now rewrite skipn_app, skipn_all, Nat.sub_diag. }
    rewrite D.
    assert (D2 : skipn (List.length o + Nat.max (S (S (List.length r))) 1) x = s).
    { replace (Nat.max (S (S (List.length r))) 1) with (S (S (List.length r))) by lia.
      replace x with ((o ++ "("%char :: r ++ [")"%char]) ++ s).
      2:{ unfold x. rewrite <- app_assoc. cbn [app]. rewrite <- app_assoc. reflexivity. }
      replace (List.length o + S (S (List.length r)))%nat with (List.length (o ++ "("%char :: r ++ [")"%char])).
      2:{ rewrite app_length. cbn [List.length]. rewrite app_length. cbn. lia. }
      now rewrite skipn_app, skipn_all, Nat.sub_diag. }
    rewrite D2. cbn [firstn].
    assert (Z : re_find_iter (S k) BASE_RE s = []).
    { unfold BASE_RE. fold lazy_close. cbn [re_find_iter]. now rewrite (open_find_none lazy_close s So). }
    rewrite Z. apply (f_equal (fun z => [ z ])).
    change ("("%char :: firstn (S (List.length r)) (r ++ ")"%char :: s) = "("%char :: (r ++ [")"%char])).
    apply (f_equal (cons "("%char)).
    replace (r ++ ")"%char :: s) with ((r ++ [")"%char]) ++ s) by (now rewrite <- app_assoc).
    replace (S (List.length r)) with (List.length (r ++ [")"%char])) by (rewrite app_length; cbn; lia).
    now rewrite firstn_app, Nat.sub_diag, firstn_all, app_nil_r. }
  rewrite F. cbn [rev app].
  assert (Z : strip_parens ("("%char :: r ++ [")"%char]) = strip_parens r).
  { unfold strip_parens. cbn [filter Ascii.eqb negb orb]. change (negb (Ascii.eqb "(" "(" || Ascii.eqb "(" ")")) with false.
    cbn iota. rewrite filter_app. cbn [filter]. change (negb (Ascii.eqb ")" "(" || Ascii.eqb ")" ")")) with false.
    cbn iota. apply app_nil_r. }
  rewrite Z. now rewrite strip_parens_none.
Qed.

Lemma remove_open o : no_open o -> remove_all #"(" (o ++ #"(") = o.
Proof.
  intros O. unfold remove_all. induction o as [|c o IH]; [reflexivity|]. cbn [app remove_go].
  change (starts_with #"(" (c :: o ++ #"(")) with (Ascii.eqb "(" c && true).
  destruct (Ascii.eqb_spec "(" c) as [<-|_]; [exfalso; apply O; now left|]. cbn [andb]. f_equal.
  apply IH. intros I. apply O. now right.
Qed.
Lemma firstn_open o : firstn (List.length (o ++ #"(") - 1) (o ++ #"(") = o.
Proof.
  rewrite app_length. cbn [List.length lit list_ascii_of_string].
  replace (List.length o + 1 - 1)%nat with (List.length o) by lia.
  now rewrite firstn_app, Nat.sub_diag, firstn_all, app_nil_r.
Qed.

(** [offset(base)]: the pieces the parser extracts. *)
Lemma mem_operand x off b t : padded t x -> operand_spelling Mem (OMem off b) t -> no_nl x ->
  exists o o' r, signed_numeral o off /\ padded o o' /\ re_find_str OFFSET_RE x = Some (o' ++ #"(") /\ no_open o'
    /\ base_text x = Ok (trim r) /\ reg_from_str (trim r) = Ok (reg_of_num b).
Proof.
  intros (pa & pb & Pa & Pb & ->) Hs N. inversion Hs as [| | | | | | | | |off' b' o r r' s' So Gr Pr (w & W & ->)]; subst.
  destruct (signed_numeral_shape _ _ So) as (neg & radix & ds & Sh & _).
  assert (Oo : no_open o /\ no_close o).
  { split; intros I; destruct (number_char_facts _ (number_chars _ _ _ _ _ Sh I)) as (_ & _ & N1 & N2 & _); auto. }
  destruct (dollar_ok _ _ _ gpr_token_ok Gr) as (t' & _ & _ & Rn & Rw & _ & Ro & Rc & _).
  destruct Pr as (ra & rb & Ra & Rb & ->).
  exists o, (pa ++ o ++ w), (ra ++ r ++ rb).
  assert (X : pa ++ (o ++ w ++ #"(" ++ (ra ++ r ++ rb) ++ #")") ++ pb
              = (pa ++ o ++ w) ++ "("%char :: (ra ++ r ++ rb) ++ ")"%char :: pb).
  { rewrite <- !app_assoc. reflexivity. }
  rewrite X in *. 
  assert (O1 : no_open (pa ++ o ++ w)).
  { rewrite !no_open_app. repeat split; auto using blank_no_open. tauto. }
  assert (O2 : no_open (ra ++ r ++ rb)) by (rewrite !no_open_app; auto using blank_no_open).
  assert (C2 : no_close (ra ++ r ++ rb)) by (rewrite !no_close_app; auto using blank_no_close).
  assert (N2 : no_nl (ra ++ r ++ rb)).
  { intros I. apply N. apply in_or_app. right. right. apply in_or_app. now left. }
  split; [exact So|]. split; [exists pa, w; auto|].
  split.
  - apply offset_find; [|exact N|].
    + apply number_nonempty in Sh. destruct pa; [|discriminate]. destruct o; [congruence|discriminate].
    + rewrite no_open_app. split; [exact O2|]. intros [E|I]; [discriminate|]. now apply (blank_no_open pb).
  - split; [exact O1|]. split; [apply base_text_ok; auto using blank_no_open|].
    rewrite (padded_trim r) by (try (exists ra, rb; auto); auto using no_ws_tight_start, no_ws_tight_end).
    apply (reg_parse r r b); [apply padded_refl|exact Gr].
Qed.

(** Every operand spelling is a well-formed operand text. *)
Lemma spelling_ok k o t : operand_spelling k o t -> operand_ok t.
Proof.
  intros H. destruct H as [p n s G|p n s G|p n s G|v s N|v s N|v s N|v s N|v s N|v s N|off b o r r' s So Gr Pr (w & W & ->)];
    try (apply numeral_shape in N as (radix & ds & S & _); now apply (number_operand_ok _ _ _ _ S)).
  - destruct (dollar_ok _ _ _ gpr_token_ok G) as (t' & _ & _ & ? & ? & ? & _). now apply operand_ok_no_ws.
  - destruct (dollar_ok _ _ _ fpr_token_ok G) as (t' & _ & _ & ? & ? & ? & _). now apply operand_ok_no_ws.
  - destruct (dollar_ok _ _ _ cop0_token_ok G) as (t' & _ & _ & ? & ? & ? & _). now apply operand_ok_no_ws.
  - apply signed_numeral_shape in N as (neg & radix & ds & S & _). now apply (number_operand_ok _ _ _ _ S).
  - apply signed_numeral_shape in So as (neg & radix & ds & S & _).
    destruct (number_operand_ok _ _ _ _ S) as (On & (Op & Oc) & Os & Oe).
    destruct (dollar_ok _ _ _ gpr_token_ok Gr) as (t' & _ & _ & Rn & Rw & Rk & _).
    apply char_ok_spec in Rk as [Rp Rc].
    split; [destruct o; [congruence|discriminate]|]. split; [split|split].
    + rewrite !plain_app. repeat split; auto using blank_plain. eapply padded_plain; eauto.
    + rewrite !no_comma_app. repeat split; auto using blank_no_comma.
      * intros [I|[]]; discriminate.
      * eapply padded_no_comma; eauto.
      * intros [I|[]]; discriminate.
    + now apply tight_start_app.
    + apply tight_end_app; [destruct w; discriminate|]. apply tight_end_app; [discriminate|].
      apply tight_end_app; [destruct r'; discriminate|]. apply tight_end_app; [discriminate|reflexivity].
Qed.
