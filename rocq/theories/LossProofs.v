(** * LossProofs: which words have the same line (proofs only). *)

From Coq Require Import Lia.
From Verif Require Import PropsDisasm Lib SpecIsa StrLemmas NumLemmas DecodeProofs InjProofs TextProofs CodingProofs ExactProofs RoundExact SpecReading SpecText SpecExact.

Lemma find_before {A} (p : A -> bool) a b y x : In y a -> p y = true -> find p (a ++ b) = Some x -> In x a.
Proof.
  induction a as [|z a IH]; intros I P F; [destruct I|]. cbn [app find] in F. destruct (p z) eqn:Z; [injection F as ->; now left|].
  right. apply IH; auto. destruct I as [->|I]; [congruence|exact I].
Qed.

Definition before_long (k : nat) (s l : format) : bool := format_in s (firstn k isa) && negb (format_in l (firstn k isa)).
Fixpoint index_in (s : format) (l : list format) : nat := match l with [] => O | x :: l' => if format_eqb s x then 1 else S (index_in s l') end%nat.
Lemma shorts_first : forallb (fun p => before_long (index_in (fst p) isa) (fst p) (snd p)) [(short_jalr, long_jalr); (short_syscall, long_syscall); (short_break, long_break)] = true.
Proof. vm_compute. reflexivity. Qed.
Lemma format_in_intro f l : In f l -> (forall g, format_eqb g g = true) -> format_in f l = true.
Proof. intros I H. unfold format_in. apply existsb_exists. eauto. Qed.
Lemma short_wins s l w : In (s, l) [(short_jalr, long_jalr); (short_syscall, long_syscall); (short_break, long_break)] -> selects w s = true -> read_word w <> Some l.
Proof.
  intros I Sl R. assert (X := shorts_first). rewrite forallb_forall in X. specialize (X _ I). cbn [fst snd] in X. unfold before_long in X. set (k := index_in s isa) in X.
  apply andb_true_iff in X as [X1 X2]. apply format_in_true in X1. unfold read_word in R. rewrite <- (firstn_skipn k isa) in R.
  assert (Y := find_before _ _ _ s l X1 Sl R). apply negb_true_iff in X2. assert (Z : format_in l (firstn k isa) = true); [|congruence].
  unfold format_in. apply existsb_exists. exists l. split; [exact Y|]. clear - I. cbn [In] in I. repeat (destruct I as [I|I]; [apply pair_equal_spec in I as [_ <-]; vm_compute; reflexivity|]). destruct I.
Qed.

Lemma read_selects w f : read_word w = Some f -> selects w f = true.
Proof. unfold read_word. intros H. now apply find_some in H. Qed.
Lemma not_short base w f : read_word w = Some f -> ~ has_short_form f (map (extract base w) (f_ops f)).
Proof.
  intros R H. assert (Sl := read_selects w f R). destruct H as [[-> [s H]]|[[-> H]|[-> H]]].
  - unfold long_jalr, Rd, Rs in H. cbn [special f_ops map extract] in H. injection H as H _. revert R. apply (short_wins short_jalr); [now left|].
    unfold selects, short_jalr, long_jalr, op6, funct6, rd5 in *. cbn [special f_key forallb] in *. rewrite !andb_true_iff in *. rewrite H. intuition.
  - cbn [long_syscall special f_ops map extract] in H. injection H as H. revert R. apply (short_wins short_syscall); [right; now left|].
    unfold selects, short_syscall, long_syscall, op6, funct6 in *. cbn [special f_key forallb] in *. rewrite !andb_true_iff in *. rewrite H. intuition.
  - cbn [long_break special f_ops map extract] in H. injection H as H. revert R. apply (short_wins short_break); [right; right; now left|].
    unfold selects, short_break, long_break, op6, funct6 in *. cbn [special f_key forallb] in *. rewrite !andb_true_iff in *. rewrite H. intuition.
Qed.

Lemma shown_idem k o : shown_operand k (shown_operand k o) = shown_operand k o.
Proof.
  destruct o as [n|v|off b]; cbn [shown_operand]; auto.
  - destruct (signed_operand k && (v =? 32767))%bool eqn:X; cbn [shown_operand]; [|now rewrite X]. change (-32767 =? 32767) with false. now rewrite andb_false_r.
  - destruct (off =? 32767) eqn:X; cbn [shown_operand]; [reflexivity|now rewrite X].
Qed.

Lemma shown_combine (g : okind -> operand) ks :
  map (fun k => shown_operand k (g k)) ks = map (fun ko => shown_operand (fst ko) (snd ko)) (combine ks (map g ks)).
Proof. induction ks as [|k ks IH]; [reflexivity|]. cbn [map combine fst snd]. now rewrite IH. Qed.
Lemma shown_again (g : okind -> operand) ks :
  map (fun ko => shown_operand (fst ko) (snd ko)) (combine ks (map (fun k => shown_operand k (g k)) ks)) = map (fun k => shown_operand k (g k)) ks.
Proof. induction ks as [|k ks IH]; [reflexivity|]. cbn [map combine fst snd]. now rewrite shown_idem, IH. Qed.

Section Base.
Variable base : Z.
Hypothesis B : is_word base.

(** The operands shown are those of the word [shown_as], which reads as the same instruction. *)
Lemma shown_as_reads w f t : is_word w -> read_word w = Some f -> text f (shown_operands base w (f_ops f)) = Some t ->
  is_word (shown_as base w) /\ read_word (shown_as base w) = Some f /\ shown_operands base (shown_as base w) (f_ops f) = shown_operands base w (f_ops f).
Proof.
  intros W R T. destruct (shown_cases base w f W B R) as (w2 & W2 & R2 & Eo & _). unfold shown_as. rewrite R, T. rewrite <- Eo.
  set (os := map (extract base w2) (f_ops f)) in *. assert (If := read_word_in _ _ R). assert (If' := in_left f If).
  destruct (extracted_all base w2 (f_ops f) B) as [Ft Sg]. fold os in Ft, Sg. split; [now apply word_is_word|].
  split; [apply read_self; auto; now apply not_short|]. unfold shown_operands at 1.
  rewrite (shown_combine (extract base (word f os)) (f_ops f)). rewrite (word_extract base f os If' Ft Sg). rewrite Eo. unfold shown_operands. apply shown_again.
Qed.

Lemma tlb_word n t : num_assoc n tlb_names = Some t -> shown_text base (0x42000000 + n) = t /\ exists f, In f isa /\ text f [] = Some t /\ f_ops f = [] /\ word f [] = 0x42000000 + n.
Proof.
  intros N. assert (H : forallb (fun nt => match read_word (0x42000000 + fst nt) with
      | Some f => str_eqb (f_name f) (snd nt) && match f_ops f with [] => true | _ => false end && (word f [] =? 0x42000000 + fst nt) | None => false end) tlb_names = true) by (vm_compute; reflexivity).
  rewrite forallb_forall in H. specialize (H _ (num_assoc_in _ _ _ N)). cbn [fst snd] in H.
  destruct (read_word (0x42000000 + n)) as [f|] eqn:R; [|discriminate H]. rewrite !andb_true_iff in H. destruct H as [[H1 H2] H3]. apply str_eqb_spec in H1. apply Z.eqb_eq in H3.
  destruct (f_ops f) as [|k ks] eqn:O; [|discriminate H2]. assert (T : text f [] = Some t) by (unfold text; rewrite O, <- H1; reflexivity). split.
  - unfold shown_text. rewrite R, O. unfold shown_operands. cbn [map]. now rewrite T.
  - exists f. split; [now apply (read_word_in (0x42000000 + n))|auto].
Qed.

Theorem same_line w : is_word w -> shown_text base (shown_as base w) = shown_text base w.
Proof.
  intros W. destruct (read_word w) as [f|] eqn:R.
  - destruct (text f (shown_operands base w (f_ops f))) as [t|] eqn:T; [|unfold shown_as; now rewrite R, T].
    destruct (shown_as_reads w f t W R T) as (_ & R' & Eo). unfold shown_text. rewrite R, R', Eo, T. reflexivity.
  - unfold shown_as. rewrite R. destruct (num_assoc (field w 0 6) tlb_names) as [t|] eqn:N; [|reflexivity].
    destruct ((field w 26 6 =? 16) && (field w 25 1 =? 0))%bool eqn:C; [|reflexivity]. rewrite (proj1 (tlb_word _ _ N)). unfold shown_text. rewrite R. unfold unread_text. now rewrite N, C.
Qed.

(** A line and the word it stands for. *)
Definition line_view (t : str) (v : Z) : Prop :=
  (exists f os, In f isa /\ Forall2 ranged (f_ops f) os /\ text f os = Some t /\ v = word f os)
  \/ exists s, t = #".word" ++ " "%char :: ((#"0x" ++ zero_pad 8 (hex v)) ++ s) /\ is_word v /\ (s = [] \/ exists r, s = " "%char :: r).
Lemma view w : is_word w -> line_view (shown_text base w) (shown_as base w).
Proof.
  intros W. unfold shown_text, shown_as. destruct (read_word w) as [f|] eqn:R.
  - destruct (shown_cases base w f W B R) as (w2 & _ & _ & Eo & _). destruct (text f (shown_operands base w (f_ops f))) as [t|] eqn:T.
    + left. exists f, (shown_operands base w (f_ops f)). split; [exact (read_word_in _ _ R)|]. split; [rewrite <- Eo; now apply extract_ops_ranged|]. auto.
    + right. unfold unnamed_text, data_text. eexists. split; [|split; [exact W|right; eexists; reflexivity]]. rewrite <- app_assoc. reflexivity.
  - unfold unread_text. assert (D : line_view (data_text w) w).
    { right. exists []. split; [|auto]. rewrite app_nil_r. reflexivity. }
    destruct (num_assoc (field w 0 6) tlb_names) as [t|] eqn:N; [|exact D]. destruct ((field w 26 6 =? 16) && (field w 25 1 =? 0))%bool; [|exact D].
    left. destruct (tlb_word _ _ N) as (_ & f & If & T & O & Wd). exists f, []. rewrite O. auto.
Qed.

Lemma no_ws_space s : no_ws s -> free_of " "%char s.
Proof. unfold no_ws. rewrite forallb_forall. intros H x I ->. specialize (H _ I). discriminate H. Qed.
Lemma hex_pad_free v : is_word v -> free_of " " (#"0x" ++ zero_pad 8 (hex v)).
Proof. intros W. apply no_ws_space. apply no_ws_app. split; [reflexivity|apply zero_pad_no_ws, hex_no_ws]. Qed.
Lemma view_unique t v v' : line_view t v -> line_view t v' -> v = v'.
Proof.
  assert (X : forall f os t s, In f isa -> text f os = Some t -> t <> #".word" ++ " "%char :: s).
  { intros f os u s If T E. destruct (isa_name f If) as [Nf Nw]. subst u. apply text_cases in T as [(_ & _ & E)|(ts & _ & _ & E)].
    - apply (Nf " "%char); [|reflexivity]. rewrite <- E. apply in_or_app. right. now left.
    - apply split_unique in E as [E _]; [congruence|apply free_ofb; reflexivity|assumption]. }
  intros [(f & os & If & Rg & T & ->)|(s & E & W & Ns)] [(f' & os' & If' & Rg' & T' & ->)|(s' & E' & W' & Ns')].
  - destruct (text_inj f f' os os' t If If' Rg Rg' T T') as [<- <-]. reflexivity.
  - subst t. destruct (X _ _ _ _ If T eq_refl).
  - subst t. destruct (X _ _ _ _ If' T' eq_refl).
  - rewrite E in E'. apply app_inv_head in E'. apply (f_equal (@tl ascii)) in E'. cbn [tl] in E'. assert (F := hex_pad_free v W). assert (F' := hex_pad_free v' W').
    assert (G : #"0x" ++ zero_pad 8 (hex v) = #"0x" ++ zero_pad 8 (hex v')).
    { destruct Ns as [->|[r ->]], Ns' as [->|[r' ->]]; repeat rewrite app_nil_r in E'.
      - exact E'.
      - exfalso. apply (F " "%char); [|reflexivity]. rewrite E'. apply in_or_app. right. now left.
      - exfalso. apply (F' " "%char); [|reflexivity]. rewrite <- E'. apply in_or_app. right. now left.
      - now apply split_unique in E' as [E' _]. }
    apply app_inv_head in G. destruct W, W'. apply padded_hex_inj in G; lia.
Qed.

Theorem same_line_iff w1 w2 : is_word w1 -> is_word w2 -> (shown_text base w1 = shown_text base w2 <-> shown_as base w1 = shown_as base w2).
Proof.
  intros W1 W2. split; intros H.
  - apply (view_unique (shown_text base w1)); [now apply view|]. rewrite H. now apply view.
  - rewrite <- (same_line w1 W1), <- (same_line w2 W2). now rewrite H.
Qed.
End Base.
