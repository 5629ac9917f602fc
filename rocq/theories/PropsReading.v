(** * PropsReading: what was assembled is what the disassembler shows (C62). *)

From Coq Require Import Lia Permutation.
From Verif Require Import Lib SpecIsa SpecListing StrLemmas DecodeProofs DisasmProofs CodingProofs PropsDisasm AcceptProofs AcceptLines PropsAccept PropsLabels RefProofs
  SpecText SpecProgram SpecLabels SpecScopes SpecImm SpecAccept SpecReading.

(** ** C62  Assembled instructions read back as themselves *)

(** The instruction set of the specification is unambiguous: the word of an instruction has
    one reading, which gives back the operands. *)
Theorem C62_isa_unambiguous : forall f os f' os', reads_as f os f' os' -> Forall2 fits (f_ops f) os ->
  is_word (word f os) /\ read_word (word f os) = Some f'
  /\ forall pc, Forall2 (in_segment pc) (f_ops f') os' -> map (extract pc (word f os)) (f_ops f') = os'.
Proof.
  intros f os f' os' R F. destruct (reads_as_word f os f' os' R F) as (I & F' & E & N). split; [|split].
  - rewrite E. apply word_is_word; auto using in_left.
  - now apply read_reads with os'.
  - intros pc G. now apply extract_reads.
Qed.
(** Every instruction with operands that fit has such a reading. *)
Theorem C62_readings_exist : forall f os, In f (isa ++ idioms) -> Forall2 fits (f_ops f) os -> exists f' os', reads_as f os f' os'.
Proof. exact every_reads. Qed.

(** The line [t] for the instruction [e] in a listing of the segment of [base]. *)
Definition shows_as (base : Z) (e : format * list operand) (t : str) : Prop :=
  exists f' os', reads_as (fst e) (snd e) f' os' /\ text f' os' = Some t
                 /\ Forall2 (in_segment base) (f_ops f') os' /\ Forall2 not_largest (f_ops f') os'.
Definition encodable (e : format * list operand) : Prop := Forall2 fits (f_ops (fst e)) (snd e).
Definition encode (e : format * list operand) : Z := word (fst e) (snd e).

Lemma signed_extract pc w ks os : map (extract pc w) ks = os -> Forall2 not_largest ks os -> existsb signed_operand ks = true -> field w 0 16 <> 32767.
Proof.
  intros <- F X E. induction ks as [|k ks IH]; [discriminate X|]. cbn [map] in F. inversion F as [|? ? ? ? K F']; subst. cbn [existsb] in X.
  apply orb_true_iff in X. destruct X as [X|X]; [|now apply IH].
  destruct k; try discriminate X; cbn [extract not_largest] in K; rewrite E in K; apply K; reflexivity.
Qed.
Lemma shows_word base e t : shows_as base e t -> encodable e ->
  is_word (encode e) /\ ~ reserved_tlb (encode e) /\ ~ largest_immediate (encode e) /\ read_text base (encode e) = Some t.
Proof.
  destruct e as [f os]. intros (f' & os' & R & T & G & L) F. destruct (C62_isa_unambiguous f os f' os' R F) as (W & Rd & X). specialize (X base G).
  unfold encode. cbn [fst snd]. split; [exact W|]. split; [intros (N & _); congruence|]. split.
  - intros (h & Rh & S & E). replace h with f' in * by congruence. revert E. now apply (signed_extract base (word f os) (f_ops f') os').
  - unfold read_text. now rewrite Rd, X.
Qed.
Theorem C62_listing_partial : forall oc base es ts, is_word base -> Forall encodable es -> Forall2 (shows_as base) es ts ->
  disassemble oc (debug_at base) (map encode es) = Ok ts.
Proof.
  intros oc base es ts B F S.
  assert (A : Forall2 (fun w t => is_word w /\ ~ reserved_tlb w /\ ~ largest_immediate w /\ read_text base w = Some t) (map encode es) ts).
  { induction S as [|e t es ts S1 S IH]; [constructor|]. inversion_clear F. constructor; [now apply shows_word|auto]. }
  destruct (C02_words_read_per_isa_partial oc base (map encode es)) as (ls & D & L); auto.
  - clear - A. induction A; constructor; [tauto|assumption].
  - clear - A. induction A; constructor; [tauto|assumption].
  - rewrite D. f_equal. clear - A L. revert ls L. induction A as [|w t ws ts A1 A IH]; intros ls L; inversion L as [|? l ? ? L1 L2]; subst; [reflexivity|].
    f_equal; [apply L1; tauto|now apply IH].
Qed.

(** So a well-formed program whose words are those of the instructions [es] is listed as these
    instructions. *)
Theorem C62_program_listing_partial : forall rt oc m input wss es ts, orders rt -> named_symbols (m_syms m) -> addresses_fit rt m input ->
  distinct_labels (lines input) -> program (m_base m) (m_syms m) (lines input) [] (lines input) wss -> is_word (m_base m) ->
  List.concat wss = map encode es -> Forall encodable es -> Forall2 (shows_as (m_base m)) es ts ->
  exists out, assemble rt m input = Ok out /\ disassemble oc (debug_at (m_base m)) (get_bytes out) = Ok ts.
Proof.
  intros rt oc m input wss es ts Or Sy Ov D P B C F S. destruct (C60_program_assembles rt m input wss Or Sy Ov D P) as (out & A & _ & G).
  exists out. split; [exact A|]. rewrite G, C. now apply C62_listing_partial.
Qed.

(** Straight-line programs: a source line with its instructions. *)
Inductive straight_line : str -> list (format * list operand) -> Prop :=
| st_blank l : blank_line l -> straight_line l []
| st_label n l : identifier n -> label_line n l -> straight_line l []
| st_native f os l : In f (isa ++ idioms) -> native_line f os l -> Forall2 notation_fits (f_ops f) os -> case_condition f os l -> straight_line l [(f, os)].
Theorem C62_straight_line_partial : forall rt oc m input ess ts, orders rt -> named_symbols (m_syms m) -> addresses_fit rt m input -> distinct_labels (lines input) ->
  is_word (m_base m) -> Forall2 straight_line (lines input) ess -> Forall2 (shows_as (m_base m)) (List.concat ess) ts ->
  exists out, assemble rt m input = Ok out /\ disassemble oc (debug_at (m_base m)) (get_bytes out) = Ok ts.
Proof.
  intros rt oc m input ess ts Or Sy Ov D B L S.
  apply (C62_program_listing_partial rt oc m input (map (map encode) ess) (List.concat ess) ts Or Sy Ov D); auto.
  - clear - L. generalize (lines input) at 1 as all. generalize (@nil str) as before. induction L as [|l es ls ess L1 L IH]; intros before all; [constructor|].
    cbn [map]. constructor; [|apply IH]. destruct L1; [now apply pl_blank|now apply (pl_label _ _ _ _ n)|now apply pl_native].
  - symmetry. apply concat_map.
  - clear - L. induction L as [|l es ls ess L1 L IH]; [constructor|]. cbn [List.concat]. apply Forall_app. split; [|exact IH].
    destruct L1; constructor; [|constructor]. unfold encodable. cbn [fst snd]. clear - H1. induction H1 as [|k o ks os K F IH]; constructor; [now destruct K|assumption].
Qed.

(** Without the exception for 0x7fff. *)
Definition reads_text (base : Z) (e : format * list operand) (t : str) : Prop :=
  exists f' os', reads_as (fst e) (snd e) f' os' /\ text f' os' = Some t /\ Forall2 (in_segment base) (f_ops f') os'.
Definition C62_full (oc : bool) : Prop := forall base es ts, is_word base -> Forall encodable es -> Forall2 (reads_text base) es ts ->
  disassemble oc (debug_at base) (map encode es) = Ok ts.
(** [addiu $a0, $a1, 0x7fff] is shown as [addiu $a0, $a1, -0x7fff]. *)
Theorem C62_refuted : forall oc, ~ C62_full oc.
Proof.
  intros oc H. set (f := normal 9 "addiu" [Rt; Rs; Simm]). set (os := [OReg 4; OReg 5; OInt 32767]).
  assert (X : disassemble oc (debug_at 0) (map encode [(f, os)]) = Ok [ #"addiu $a0, $a1, 0x7fff" ]).
  { apply H.
    - split; [lia|reflexivity].
    - constructor; [|constructor]. unfold encodable. unfold f, os. cbn [fst snd f_ops normal]. constructor; [cbn [fits Rt Rs Rd]; lia|]. constructor; [cbn [fits Rt Rs Rd]; lia|]. constructor; [cbn [fits Rt Rs Rd]; lia|constructor].
    - constructor; [|constructor]. exists f, os. split; [|split].
      + apply ra_self; [apply format_in_true; vm_compute; reflexivity|].
        intros HS. destruct HS as [[HS _]|[[HS _]|[HS _]]]; apply (f_equal f_ops) in HS; discriminate HS.
      + vm_compute. reflexivity.
      + unfold f, os. cbn [f_ops normal]. constructor; [exact Logic.I|]. constructor; [exact Logic.I|]. constructor; [exact Logic.I|constructor]. }
  destruct oc; vm_compute in X; discriminate X.
Qed.

(** A program with a default link register, an idiom and a branch. *)
Definition shown_program : str := join [nl] [ #"start:"; #"  JALR $ra, $t9 ; call"; #"nop"; #"break 5"; #"move $a0, $a1"; #"b start"; #"lw $v0, -8($sp)" ].
Definition shown_lines : list str := [ #"jalr $t9"; #"sll $zero, $zero, 0x0"; #"break 0x5"; #"addu $a0, $zero, $a1"; #"beq $zero, $zero, -0x5"; #"lw $v0, -0x8($sp)" ].
Example C62_case : forall oc, exists out, assemble (mk_runtime oc (fun l => l)) (set_base 0x80000400 m_new) shown_program = Ok out
  /\ disassemble oc (debug_at 0x80000400) (get_bytes out) = Ok shown_lines.
Proof. intros []; eexists; (split; [vm_compute; reflexivity|vm_compute; reflexivity]). Qed.
(** Its instructions are instances of the theorems. *)
Definition shown_instructions : list (format * list operand) :=
  [ (long_jalr, [OReg 31; OReg 25]); (mk_format #"nop" [op6 0] [], []); (long_break, [OInt 5]); (mk_format #"move" [op6 0; funct6 33] [Rd; Rt], [OReg 4; OReg 5]);
    (mk_format #"b" [op6 4] [Branch16], [OInt (-5)]); (normal 35 "lw" [Rt; Mem], [OReg 2; OMem (-8) 29]) ].
Lemma idiom_case base name f' g f os t : find (fun f => str_eqb (f_name f) name) idioms = Some f ->
  In (f_name f, f', g) idiom_meanings -> text f' (g os) = Some t -> Forall2 (in_segment base) (f_ops f') (g os) -> Forall2 not_largest (f_ops f') (g os) -> shows_as base (f, os) t.
Proof. intros E M T G L. exists f', (g os). split; [|auto]. cbn [fst snd]. apply ra_idiom; [|exact M]. now apply find_some in E. Qed.
Example C62_case_meets_hypotheses : Forall encodable shown_instructions /\ Forall2 (shows_as 0x80000400) shown_instructions shown_lines.
Proof.
  split; [repeat constructor; cbn [fits Rt Rs Rd]; lia|].
  assert (Self : forall f os t, format_in f isa = true -> format_in f [long_jalr; long_syscall] = false -> (f = long_break -> os <> [OInt 0]) -> text f os = Some t ->
    Forall2 (in_segment 0x80000400) (f_ops f) os -> Forall2 not_largest (f_ops f) os -> shows_as 0x80000400 (f, os) t).
  { intros f os t I N B T G L. exists f, os. split; [|auto]. apply ra_self; [now apply format_in_true|]. intros HS. destruct HS as [[HS _]|[[HS _]|[HS E]]]; cbn [fst snd] in *.
    - subst f. vm_compute in N. discriminate N.
    - subst f. vm_compute in N. discriminate N.
    - exact (B HS E). }
  unfold shown_instructions, shown_lines. repeat match goal with |- Forall2 _ (_ :: _) _ => constructor | |- Forall2 _ [] _ => constructor end.
  - exists short_jalr, [OReg 25]. split; [constructor|]. split; [vm_compute; reflexivity|]. split; repeat constructor.
  - eapply (idiom_case _ #"nop"); [vm_compute; reflexivity|unfold idiom_meanings; cbn zeta; cbn [In f_name]; left; reflexivity|vm_compute; reflexivity|repeat constructor|repeat constructor].
  - apply Self; [vm_compute; reflexivity|vm_compute; reflexivity|discriminate|vm_compute; reflexivity|repeat constructor|repeat constructor].
  - eapply (idiom_case _ #"move"); [vm_compute; reflexivity|unfold idiom_meanings; cbn zeta; cbn [In f_name]; right; left; reflexivity|vm_compute; reflexivity|repeat constructor|repeat constructor].
  - eapply (idiom_case _ #"b"); [vm_compute; reflexivity|unfold idiom_meanings; cbn zeta; cbn [In f_name]; do 12 right; left; reflexivity|vm_compute; reflexivity|repeat constructor|repeat constructor; discriminate].
  - apply Self; [vm_compute; reflexivity|vm_compute; reflexivity|intros E; apply (f_equal f_ops) in E; discriminate E|vm_compute; reflexivity|repeat constructor|repeat constructor; discriminate].
Qed.

Print Assumptions C62_isa_unambiguous.
Print Assumptions C62_readings_exist.
Print Assumptions C62_listing_partial.
Print Assumptions C62_program_listing_partial.
Print Assumptions C62_straight_line_partial.
Print Assumptions C62_refuted.
