(** * PropsWords: the words the statements use mean what they say.

    The specifications share some functions on text with the model (they are functions of Rust's
    library): white space, digits, small letters, [trim], [split], the texts of numbers.  Each is
    pinned down here, independently of how it is defined. *)

From Coq Require Import Lia.
From Verif Require Import Lib SpecIsa StrLemmas NumLemmas DecodeProofs TextProofs LineProofs ScanProofs RoundProofs SpecText.

Ltac each_char c := destruct c as [[] [] [] [] [] [] [] []].

(** White space: TAB, LF, VT, FF, CR and the space. *)
Theorem white_space c : is_ws c = true <-> In (code c) [9; 10; 11; 12; 13; 32].
Proof. split; each_char c; vm_compute; intros H; try discriminate H; tauto || (repeat destruct H as [H|H]; try discriminate H; now destruct H). Qed.

(** Decimal digits. *)
Theorem decimal_digit c : is_digit c = true <-> 48 <= code c <= 57.
Proof. split; each_char c; vm_compute; intros H; try discriminate H; try (split; discriminate); try reflexivity; destruct H as [A B]; (now destruct A) || now destruct B. Qed.

(** Small letters: the capital letters A to Z become a to z, everything else stays. *)
Theorem small_letters s : List.length (to_lower s) = List.length s
  /\ forall k c, nth_error s k = Some c -> exists d, nth_error (to_lower s) k = Some d
       /\ code d = (if (65 <=? code c) && (code c <=? 90) then code c + 32 else code c).
Proof.
  split; [apply map_length|]. intros k c N. exists (lower_char c). split; [now apply map_nth_error|]. clear N. each_char c; vm_compute; reflexivity.
Qed.

(** [trim]: the text without the white space around it. *)
Definition white (s : str) : Prop := forall c, In c s -> is_ws c = true.
Theorem trimmed s t : trim s = t <-> (exists a b, s = a ++ t ++ b /\ white a /\ white b)
  /\ (forall c r, t = c :: r -> is_ws c = false) /\ (forall c r, t = r ++ [c] -> is_ws c = false).
Proof.
  assert (W : forall x, forallb is_ws x = true <-> white x) by (intros x; apply forallb_forall). split.
  - intros <-. destruct (trim_decomp s) as (a & b & E & A & B), (trim_is_tight s) as [T1 T2]. split; [|split].
    + exists a, b. split; [exact E|]. split; now apply W.
    + intros c r Er. unfold tight_start in T1. now rewrite Er in T1.
    + intros c r Er. unfold tight_end in T2. rewrite Er, rev_app_distr in T2. exact T2.
  - intros ((a & b & -> & A & B) & F & L). apply trim_around; [now apply W|now apply W| |].
    + destruct t as [|c r]; [exact Logic.I|]. exact (F c r eq_refl).
    + unfold tight_end. destruct (rev t) as [|c r] eqn:R; [exact Logic.I|]. apply (L c (rev r)). rewrite <- (rev_involutive t), R. reflexivity.
Qed.

(** [split_char c]: the pieces between the [c]s. *)
Theorem pieces c s : join [c] (split_char c s) = s /\ (forall p, In p (split_char c s) -> ~ In c p) /\ split_char c s <> [].
Proof.
  split; [|split; [exact (split_char_not_in c s)|destruct s as [|x r]; cbn [split_char]; [discriminate|]; destruct (Ascii.eqb x c); [discriminate|]; destruct (split_char c r); discriminate]].
  induction s as [|x r IH]; [reflexivity|]. cbn [split_char]. destruct (Ascii.eqb_spec x c) as [->|N].
  - destruct (split_char c r) as [|p ps] eqn:E; [destruct r as [|y r]; cbn [split_char] in E; [discriminate E|destruct (Ascii.eqb y c); [discriminate E|destruct (split_char c r); discriminate E]]|].
    change (join [c] ([] :: p :: ps)) with ([] ++ [c] ++ join [c] (p :: ps)). now rewrite IH.
  - destruct (split_char c r) as [|p ps] eqn:E; [destruct r as [|y r]; cbn [split_char] in E; [discriminate E|destruct (Ascii.eqb y c); [discriminate E|destruct (split_char c r); discriminate E]]|].
    destruct ps as [|q ps]; [cbn [join] in *; now rewrite IH|]. change (join [c] ((x :: p) :: q :: ps)) with (x :: join [c] (p :: q :: ps)). now rewrite IH.
Qed.

(** [split_once c]: what stands before and after the first [c]. *)
Theorem first_split c s : match split_once c s with
  | Some (a, b) => s = a ++ [c] ++ b /\ ~ In c a
  | None => ~ In c s
  end.
Proof.
  induction s as [|x r IH]; [intros []|]. cbn [split_once]. destruct (Ascii.eqb_spec x c) as [->|N]; [split; [reflexivity|intros []]|].
  destruct (split_once c r) as [[a b]|].
  - destruct IH as [-> H]. split; [reflexivity|]. intros [E|I]; [now apply N|now apply H].
  - intros [E|I]; [now apply N|now apply IH].
Qed.

(** [clean]: the trimmed line up to the first comment, which begins with [;] or [//]. *)
Definition begins_comment (t : str) : Prop := exists r, t = #";" ++ r \/ t = #"//" ++ r.
Theorem up_to_comment l : exists r, trim l = clean l ++ r /\ (r = [] \/ begins_comment r)
  /\ forall a b, clean l = a ++ b -> b <> [] -> ~ begins_comment (b ++ r).
Proof.
  unfold clean. generalize (trim l). clear l. intros s.
  assert (B : forall t, starts_comment t = true <-> begins_comment t).
  { intros t. split.
    - destruct t as [|c t]; [discriminate|]. intros H. each_char c; try discriminate H; try (exists t; tauto).
      destruct t as [|d t]; [discriminate H|]. each_char d; try discriminate H. exists t. tauto.
    - intros [r [-> | ->]]; reflexivity. }
  induction s as [|c s IH].
  - exists []. split; [reflexivity|]. split; [now left|]. intros a b E. destruct a; [cbn in E; now subst b|discriminate E].
  - cbn [before_comment]. destruct (starts_comment (c :: s)) eqn:E.
    + exists (c :: s). split; [reflexivity|]. split; [right; now apply B|]. intros a b E'. destruct a; [cbn in E'; now subst b|discriminate E'].
    + destruct IH as (r & S & R & F). exists r. split; [cbn [app]; now rewrite <- S|]. split; [exact R|]. intros a b E' Nb. destruct a as [|x a].
      * cbn [app] in E'. subst b. cbn [app]. rewrite <- S. intros H. apply B in H. congruence.
      * cbn [app] in E'. injection E' as <- E'. exact (F a b E' Nb).
Qed.

(** The texts of numbers: digits with that value, without leading zeros. *)
Lemma no_leading u radix : 2 <= radix <= 16 -> forall fuel n acc, 0 < n < radix ^ Z.of_nat fuel -> exists c r, digits_go fuel u radix n acc = c :: r /\ c <> "0"%char.
Proof.
  intros R. induction fuel as [|f IH]; intros n acc H; [change (radix ^ Z.of_nat 0) with 1 in H; lia|]. cbn [digits_go].
  assert (P : radix ^ Z.of_nat (S f) = radix * radix ^ Z.of_nat f) by (rewrite Nat2Z.inj_succ, Z.pow_succ_r by lia; reflexivity).
  destruct (Z.eqb_spec (n / radix) 0) as [E|E].
  - exists (digit_char u (n mod radix)), acc. split; [reflexivity|]. assert (M : 0 < n mod radix < 16) by (assert (D := Z.div_mod n radix ltac:(lia)); assert (B := Z.mod_pos_bound n radix ltac:(lia)); nia).
    generalize (n mod radix) M. clear. intros d D. assert (C : d = 1 \/ d = 2 \/ d = 3 \/ d = 4 \/ d = 5 \/ d = 6 \/ d = 7 \/ d = 8 \/ d = 9 \/ d = 10 \/ d = 11 \/ d = 12 \/ d = 13 \/ d = 14 \/ d = 15) by lia.
    destruct u; repeat (destruct C as [-> |C]; [discriminate|]); subst d; discriminate.
  - apply IH. assert (0 <= n / radix) by (apply Z.div_pos; lia). split; [lia|]. apply Z.div_lt_upper_bound; lia.
Qed.
Lemma dec_numeral v : 0 <= v < 10 ^ 20 -> digits 10 (dec v) v.
Proof. intros H. unfold dec. destruct (digits_go_digits 19 false 10 v [] ltac:(lia)) as (s & -> & D); [exact H|]. now rewrite app_nil_r. Qed.
Theorem number_texts v : 0 <= v < 2 ^ 64 -> digits 10 (dec v) v /\ digits 16 (hex v) v /\ digits 16 (hexU v) v
  /\ forall t r, In t [dec v; hex v; hexU v] -> t = #"0" ++ r -> r = [].
Proof.
  intros R. split; [apply dec_numeral; lia|]. split; [now apply hex_numeral|]. split; [now apply hexU_numeral|].
  intros t r I E. destruct (Z.eq_dec v 0) as [-> |N].
  - destruct I as [I|[I|[I|[]]]]; rewrite E in I; vm_compute in I; injection I as I; now symmetry.
  - exfalso. assert (K : exists c r, t = c :: r /\ c <> "0"%char) by (destruct I as [<-|[<-|[<-|[]]]]; [apply (no_leading false 10)|apply (no_leading false 16)|apply (no_leading true 16)]; lia).
    destruct K as (c & r' & -> & K). injection E as E _. exact (K E).
Qed.

Print Assumptions white_space.
Print Assumptions decimal_digit.
Print Assumptions small_letters.
Print Assumptions trimmed.
Print Assumptions pieces.
Print Assumptions first_split.
Print Assumptions up_to_comment.
Print Assumptions number_texts.
