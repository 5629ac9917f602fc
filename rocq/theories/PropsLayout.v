(** * PropsLayout: comments, white space, case, and hash-map order (C30, C31, C32, C40). *)

From Coq Require Import Lia Permutation.
From Verif Require Import Lib SpecIsa StrLemmas TextProofs ScanProofs ProgProofs BranchProofs AsmProofs LabelProofs CongProofs ErrorProofs RefProofs PropsLabels PropsRefs ProgCong LayoutProofs SpacingProofs ListingProofs SpecErrors SpecText SpecProgram SpecSource.

Lemma same_words f x y out : same_but_place f x y -> x = Ok out -> y = Ok out.
Proof. intros H ->. destruct y; [now cbn in H; subst|destruct H|destruct H]. Qed.

(** ** C30  Comments and blank lines do not matter *)

Definition C30_full : Prop := forall rt m input input' out, orders rt -> decorated (fun _ => True) (lines input) (lines input') ->
  assemble rt m input = Ok out -> assemble rt m input' = Ok out.

(** For every program: blank and comment lines may be inserted anywhere, and comments appended
    to any line, directly after its text, or after white space (if the line is an instruction,
    with a space after its mnemonic).  Words, errors (but for their places) and panics stay. *)
Theorem C30_comments_partial rt m input input' : orders rt -> decorated takes_comment (lines input) (lines input') ->
  same_but_place trim (assemble rt m input) (assemble rt m input').
Proof. intros O D. apply layout; [exact O|]. apply decorated_matched; [exact D|apply nl_of_lines|apply nl_of_lines]. Qed.
Corollary C30_words_partial rt m input input' out : orders rt -> decorated takes_comment (lines input) (lines input') ->
  assemble rt m input = Ok out -> assemble rt m input' = Ok out.
Proof. intros O D. eapply same_words. now apply C30_comments_partial. Qed.

Definition bare : str := join [nl] [ #"start:"; #"addiu $a0, $a1, 4"; #"jr $ra"; #"nop" ].
Definition commented : str := join [nl] [ #"; a program"; #"start:// here"; #"  "; #"addiu $a0, $a1, 4  ; add"; #"jr $ra;return"; #"nop   // delay slot" ].
Example C30_case : decorated takes_comment (lines bare) (lines commented) /\ exists a b c, assemble plain_rt m_new bare = Ok [a; b; c].
Proof.
  split.
  - change (lines bare) with [ #"start:"; #"addiu $a0, $a1, 4"; #"jr $ra"; #"nop" ].
    change (lines commented) with [ #"; a program"; #"start:" ++ [] ++ #"// here"; #"  "; #"addiu $a0, $a1, 4" ++ #"  " ++ #"; add"; #"jr $ra" ++ [] ++ #";return"; #"nop" ++ #"   " ++ #"// delay slot" ].
    apply dc_insert; [exists [], #"; a program"; split; [reflexivity|]; split; [apply (end_semi #" a program")|reflexivity]|].
    apply dc_comment; [reflexivity|left; split; [reflexivity|discriminate]|reflexivity|].
    apply dc_insert; [exists #"  ", []; split; [reflexivity|]; split; [apply (end_blank []); reflexivity|reflexivity]|].
    apply dc_comment; [reflexivity| |reflexivity|].
    { right. exists [], #"addiu", #"$a0, $a1, 4  ", #"addiu $a0, $a1, 4 ", " "%char. repeat split; try reflexivity; [discriminate|]. intros [H|[H|[]]]; discriminate H. }
    apply dc_comment; [reflexivity|left; split; [reflexivity|discriminate]|reflexivity|].
    apply dc_comment; [reflexivity| |reflexivity|apply dc_nil].
    right. exists [], #"nop", #"  ", #"nop  ", " "%char. repeat split; try reflexivity; [discriminate|]. intros [H|[H|[]]]; discriminate H.
  - destruct (assemble plain_rt m_new bare) as [out| |] eqn:A; [|vm_compute in A; discriminate A|vm_compute in A; discriminate A].
    vm_compute in A. injection A as <-. eexists _, _, _. reflexivity.
Qed.

(** A comment after a label and a space is an error. *)
Theorem C30_refuted : ~ C30_full.
Proof.
  intros H. assert (A : assemble plain_rt m_new #"x:" = Ok []) by (vm_compute; reflexivity).
  assert (D : decorated (fun _ => True) (lines #"x:") (lines #"x: ; here")).
  { change (lines #"x:") with [ #"x:" ]. change (lines #"x: ; here") with [ #"x:" ++ #" " ++ #"; here" ]. apply dc_comment; [reflexivity|exact Logic.I|reflexivity|apply dc_nil]. }
  assert (B := H plain_rt m_new _ _ _ orders_plain D A). vm_compute in B. discriminate B.
Qed.

(** ** C31  Surrounding white space does not matter *)

(** White space at the ends of lines, then white space after the mnemonic. *)
Definition C31_full : Prop :=
  (forall rt m input input', orders rt -> Forall2 indented (lines input) (lines input') -> same_but_place (fun t => t) (assemble rt m input) (assemble rt m input'))
  /\ (forall rt m input input', orders rt -> Forall2 (fun l l' => l = l' \/ respaced (fun _ => True) l l') (lines input) (lines input') ->
      same_but_place trim (assemble rt m input) (assemble rt m input')).

(** The first part holds as stated, for every program. *)
Theorem C31_indentation rt m input input' : orders rt -> Forall2 indented (lines input) (lines input') ->
  same_but_place (fun t => t) (assemble rt m input) (assemble rt m input').
Proof. intros O D. apply layout; [exact O|]. now apply indented_matched. Qed.
(** The second part holds for white space that begins with a space. *)
Theorem C31_separator_partial rt m input input' : orders rt -> Forall2 (fun l l' => l = l' \/ respaced space_first l l') (lines input) (lines input') ->
  same_but_place trim (assemble rt m input) (assemble rt m input').
Proof. intros O D. apply layout; [exact O|]. now apply respaced_matched. Qed.
(** White space around the operands (and case and comments) may change as well. *)
Theorem C31_operands_partial rt m input input' : orders rt -> Forall2 (fun l l' => l = l' \/ same_instruction l l') (lines input) (lines input') ->
  same_but_place squeezed (assemble rt m input) (assemble rt m input').
Proof. intros O D. apply layout; [exact O|]. apply rewritten_matched; [apply nl_of_lines|apply nl_of_lines|exact D]. Qed.

Definition untidy : str := join [nl] [ #"  start: "; #" addiu $a0, $a1, 4"; #"jr $ra  "; #"   nop " ].
Example C31_case : Forall2 indented (lines bare) (lines untidy) /\ same_but_place (fun t => t) (assemble plain_rt m_new bare) (assemble plain_rt m_new untidy).
Proof.
  assert (D : Forall2 indented (lines bare) (lines untidy)).
  { change (lines bare) with [ #"start:"; #"addiu $a0, $a1, 4"; #"jr $ra"; #"nop" ]. change (lines untidy) with [ #"  start: "; #" addiu $a0, $a1, 4"; #"jr $ra  "; #"   nop " ].
    apply Forall2_cons; [exists #"  ", #" "; repeat split|]. apply Forall2_cons; [exists #" ", []; repeat split|]. apply Forall2_cons; [exists [], #"  "; repeat split|]. apply Forall2_cons; [exists #"   ", #" "; repeat split|apply Forall2_nil]. }
  split; [exact D|]. now apply C31_indentation; [exact orders_plain|].
Qed.
Definition spread : str := join [nl] [ #"start:"; #"addiu   $a0, $a1, 4"; #"jr  $ra"; #"nop" ].
Example C31_separator_case : Forall2 (fun l l' => l = l' \/ respaced space_first l l') (lines bare) (lines spread).
Proof.
  change (lines bare) with [ #"start:"; #"addiu $a0, $a1, 4"; #"jr $ra"; #"nop" ]. change (lines spread) with [ #"start:"; #"addiu   $a0, $a1, 4"; #"jr  $ra"; #"nop" ].
  apply Forall2_cons; [now left|]. apply Forall2_cons.
  { right. exists [], #"addiu", #" ", #"   ", "$"%char, #"a0, $a1, 4". repeat split; try reflexivity; try discriminate; eexists; reflexivity. }
  apply Forall2_cons; [|apply Forall2_cons; [now left|apply Forall2_nil]].
  right. exists [], #"jr", #" ", #"  ", "$"%char, #"ra". repeat split; try reflexivity; try discriminate; eexists; reflexivity.
Qed.
Definition restyled : str := join [nl] [ #"start:"; #"  ADDIU   $a0 ,$a1,	4  ; four"; #"Jr  $ra"; #"nop" ].
Example C31_operands_case : Forall2 (fun l l' => l = l' \/ same_instruction l l') (lines bare) (lines restyled).
Proof.
  change (lines bare) with [ #"start:"; #"addiu $a0, $a1, 4"; #"jr $ra"; #"nop" ]. change (lines restyled) with [ #"start:"; #"  ADDIU   $a0 ,$a1,	4  ; four"; #"Jr  $ra"; #"nop" ].
  apply Forall2_cons; [now left|]. apply Forall2_cons.
  { right. exists #"addiu", [ #"$a0"; #"$a1"; #"4" ]. split; [split; [discriminate|reflexivity]|]. split; [repeat constructor; discriminate|].
    split; [|split; [|split; [|split]]].
    - exists [], #"addiu $a0, $a1, 4", [], []. split; [reflexivity|]. split; [|repeat split; [apply (end_blank []); reflexivity|discriminate]].
      apply (st_ops #"addiu" #"addiu" #"$a0" [ #"$a1"; #"4" ] #"$a0" [ #" $a1"; #" 4" ]); [reflexivity|].
      apply Forall2_cons; [exists [], []; repeat split|]. apply Forall2_cons; [exists #" ", []; repeat split|]. apply Forall2_cons; [exists #" ", []; repeat split|apply Forall2_nil].
    - exists #"  ", #"ADDIU   $a0 ,$a1,	4", #"  ", #"; four". split; [reflexivity|]. split; [|repeat split; [apply (end_semi #" four")|discriminate]].
      apply (st_ops #"addiu" #"ADDIU" #"$a0" [ #"$a1"; #"4" ] #"  $a0 " [ #"$a1"; #"	4" ]); [reflexivity|].
      apply Forall2_cons; [exists #"  ", #" "; repeat split|]. apply Forall2_cons; [exists [], []; repeat split|]. apply Forall2_cons; [exists #"	", []; repeat split|apply Forall2_nil].
    - intros [H|[H|[H|[]]]]; discriminate H.
    - discriminate.
    - intros t [<-|[<-|[<-|[]]]]; reflexivity. }
  apply Forall2_cons; [|apply Forall2_cons; [now left|apply Forall2_nil]].
  right. exists #"jr", [ #"$ra" ]. split; [split; [discriminate|reflexivity]|]. split; [repeat constructor; discriminate|].
  split; [|split; [|split; [|split]]].
  - exists [], #"jr $ra", [], []. split; [reflexivity|]. split; [|repeat split; [apply (end_blank []); reflexivity|discriminate]].
    apply (st_ops #"jr" #"jr" #"$ra" [] #"$ra" []); [reflexivity|]. apply Forall2_cons; [exists [], []; repeat split|apply Forall2_nil].
  - exists [], #"Jr  $ra", [], []. split; [reflexivity|]. split; [|repeat split; [apply (end_blank []); reflexivity|discriminate]].
    apply (st_ops #"jr" #"Jr" #"$ra" [] #" $ra" []); [reflexivity|]. apply Forall2_cons; [exists #" ", []; repeat split|apply Forall2_nil].
  - intros [H|[H|[H|[]]]]; discriminate H.
  - discriminate.
  - intros t [<-|[]]; reflexivity.
Qed.
(** A logical immediate in capitals, with a small constant. *)
Example C31_logical_case : same_instruction #"andi $a0,$a1,0x7f" #"ANDI $a0,$a1, 0x7f".
Proof.
  exists #"andi", [ #"$a0"; #"$a1"; #"0x7f" ]. split; [split; [discriminate|reflexivity]|]. split; [repeat constructor; discriminate|].
  split; [|split; [|split; [|split]]].
  - exists [], #"andi $a0,$a1,0x7f", [], []. split; [reflexivity|]. split; [|repeat split; [apply (end_blank []); reflexivity|discriminate]].
    apply (st_ops #"andi" #"andi" #"$a0" [ #"$a1"; #"0x7f" ] #"$a0" [ #"$a1"; #"0x7f" ]); [reflexivity|].
    apply Forall2_cons; [exists [], []; repeat split|]. apply Forall2_cons; [exists [], []; repeat split|]. apply Forall2_cons; [exists [], []; repeat split|apply Forall2_nil].
  - exists [], #"ANDI $a0,$a1, 0x7f", [], []. split; [reflexivity|]. split; [|repeat split; [apply (end_blank []); reflexivity|discriminate]].
    apply (st_ops #"andi" #"ANDI" #"$a0" [ #"$a1"; #"0x7f" ] #"$a0" [ #"$a1"; #" 0x7f" ]); [reflexivity|].
    apply Forall2_cons; [exists [], []; repeat split|]. apply Forall2_cons; [exists [], []; repeat split|]. apply Forall2_cons; [exists #" ", []; repeat split|apply Forall2_nil].
  - intros _. left. intros t E. injection E as <-. left. exists 127. split; [|reflexivity]. apply (num_hex #"7f"). apply (digits_snoc 16 #"7" 7 "f"%char 15); [apply digits_one|]; (split; [lia|vm_compute; tauto]).
  - discriminate.
  - intros t [<-|[<-|[<-|[]]]]; reflexivity.
Qed.

(** A tab after the mnemonic is not taken as white space. *)
Theorem C31_refuted : ~ C31_full.
Proof.
  intros [_ H]. assert (X := H plain_rt m_new #"add $a0, $a1, $a2" (#"add" ++ ["009"%char] ++ #"$a0, $a1, $a2") orders_plain).
  assert (D : Forall2 (fun l l' => l = l' \/ respaced (fun _ => True) l l') (lines #"add $a0, $a1, $a2") (lines (#"add" ++ ["009"%char] ++ #"$a0, $a1, $a2"))).
  { change (lines #"add $a0, $a1, $a2") with [ #"add $a0, $a1, $a2" ]. change (lines (#"add" ++ ["009"%char] ++ #"$a0, $a1, $a2")) with [ #"add" ++ ["009"%char] ++ #"$a0, $a1, $a2" ].
    apply Forall2_cons; [right|apply Forall2_nil]. exists [], #"add", #" ", ["009"%char], "$"%char, #"a0, $a1, $a2". repeat split; try reflexivity; discriminate. }
  specialize (X D). vm_compute in X. exact X.
Qed.

(** ** C32  Mnemonics are case-insensitive *)

Definition C32_full : Prop := forall rt m input input' out, orders rt -> Forall2 (fun l l' => l = l' \/ recased (fun _ => True) l l') (lines input) (lines input') ->
  assemble rt m input = Ok out -> assemble rt m input' = Ok out.

(** It holds for every program and every mnemonic but the three logical immediates. *)
Theorem C32_case_partial rt m input input' : orders rt -> Forall2 (fun l l' => l = l' \/ recased (fun m => ~ zero_extends m) l l') (lines input) (lines input') ->
  same_but_place to_lower (assemble rt m input) (assemble rt m input').
Proof. intros O D. apply layout; [exact O|]. now apply recased_matched. Qed.
Corollary C32_words_partial rt m input input' out : orders rt -> Forall2 (fun l l' => l = l' \/ recased (fun m => ~ zero_extends m) l l') (lines input) (lines input') ->
  assemble rt m input = Ok out -> assemble rt m input' = Ok out.
Proof. intros O D. eapply same_words. now apply C32_case_partial. Qed.

Definition loud : str := join [nl] [ #"start:"; #"ADDIU $a0, $a1, 4"; #"jR $ra"; #"Nop" ].
Example C32_case : Forall2 (fun l l' => l = l' \/ recased (fun m => ~ zero_extends m) l l') (lines bare) (lines loud).
Proof.
  change (lines bare) with [ #"start:"; #"addiu $a0, $a1, 4"; #"jr $ra"; #"nop" ]. change (lines loud) with [ #"start:"; #"ADDIU $a0, $a1, 4"; #"jR $ra"; #"Nop" ].
  assert (Z : forall m, In m [ #"addiu"; #"jr"; #"nop" ] -> ~ zero_extends m) by (intros m [<-|[<-|[<-|[]]]] [H|[H|[H|[]]]]; discriminate H).
  apply Forall2_cons; [now left|]. apply Forall2_cons.
  { right. exists [], #"addiu", #"ADDIU", #" $a0, $a1, 4". repeat split; try reflexivity; [discriminate|apply Z; now left|]. right. right. eexists _, _. split; reflexivity. }
  apply Forall2_cons.
  { right. exists [], #"jr", #"jR", #" $ra". repeat split; try reflexivity; [discriminate|apply Z; right; now left|]. right. right. eexists _, _. split; reflexivity. }
  apply Forall2_cons; [|apply Forall2_nil].
  right. exists [], #"nop", #"Nop", []. repeat split; try reflexivity; [discriminate|apply Z; right; right; now left|]. now left.
Qed.

(** [ANDI] takes its constant as a signed number. *)
Theorem C32_refuted : ~ C32_full.
Proof.
  intros H. set (s := #"andi $a0, $a1, 0xffff"). set (t := #"ANDI $a0, $a1, 0xffff").
  assert (D : Forall2 (fun l l' => l = l' \/ recased (fun _ => True) l l') (lines s) (lines t)).
  { change (lines s) with [ s ]. change (lines t) with [ t ]. apply Forall2_cons; [right|apply Forall2_nil]. exists [], #"andi", #"ANDI", #" $a0, $a1, 0xffff".
    repeat split; try reflexivity; [discriminate|]. right. right. eexists _, _. split; reflexivity. }
  destruct (assemble plain_rt m_new s) as [out| |] eqn:A; [|vm_compute in A; discriminate A|vm_compute in A; discriminate A].
  assert (B := H plain_rt m_new s t out orders_plain D A). vm_compute in B. discriminate B.
Qed.

(** ** C40  Results do not depend on hash-map iteration order *)

Lemma find_name_perm (l l' : list (Z * str)) t : NoDup (map snd l) -> Permutation l l' -> option_map fst (find (fun av => str_eqb (snd av) t) l) = option_map fst (find (fun av => str_eqb (snd av) t) l').
Proof.
  assert (G : forall l : list (Z * str), NoDup (map snd l) -> forall a, option_map fst (find (fun av => str_eqb (snd av) t) l) = Some a <-> In (a, t) l).
  { clear l l'. intros l. induction l as [|[a n] l IH]; cbn [map snd find]; intros N a'; [split; [discriminate|intros []]|]. inversion N as [|? ? N1 N2]; subst.
    destruct (str_eqb n t) eqn:E.
    - apply str_eqb_spec in E as ->. cbn. split; [intros H; injection H as ->; now left|]. intros [H|H]; [now injection H as ->|]. exfalso. apply N1. now apply (in_map snd) in H.
    - rewrite (IH N2). split; [now right|]. intros [H|H]; [|exact H]. injection H as _ ->. rewrite str_eqb_refl in E. discriminate. }
  intros N P. assert (N' : NoDup (map snd l')) by (eapply Permutation_NoDup; [apply Permutation_map; exact P|exact N]).
  destruct (option_map fst (find _ l)) as [a|] eqn:E.
  - symmetry. apply (G l' N'). apply (G l N) in E. now apply (Permutation_in _ P).
  - destruct (option_map fst (find _ l')) as [a|] eqn:E'; [|reflexivity]. apply (G l' N') in E'. apply Permutation_sym in P. apply (Permutation_in _ P) in E'. apply (G l N) in E'. congruence.
Qed.
Lemma sym_get_perm (l l' : list (Z * str)) a : NoDup (map fst l) -> Permutation l l' -> sym_get a l = sym_get a l'.
Proof.
  intros N P. assert (N' : NoDup (map fst l')) by (eapply Permutation_NoDup; [apply Permutation_map; exact P|exact N]).
  destruct (sym_get a l') as [n|] eqn:E.
  - apply sym_get_some in E. apply (sym_get_in a l n N). apply Permutation_sym in P. now apply (Permutation_in _ P).
  - apply sym_get_none. intros n I. apply (Permutation_in _ P) in I. rewrite sym_get_none in E. now apply (E n).
Qed.

(** The same words, the same errors in the same order, the same panic, for every two orders of
    the label map and of the symbol map. *)
Theorem C40_assemble rt rt' m m' input : rt_oc rt = rt_oc rt' -> orders rt -> orders rt' ->
  m_base m = m_base m' -> Permutation (m_syms m) (m_syms m') -> NoDup (map snd (m_syms m)) ->
  assemble rt m input = assemble rt' m' input.
Proof.
  intros Oc O O' Ba P N.
  assert (H : same_outcome true (fun t => t) (assemble rt m input) (assemble rt' m' input)).
  { apply assemble_both; auto.
    - intros t. now apply find_name_perm.
    - clear. induction (lines input) as [|l ls IH]; [constructor|]. apply mt_pair; [|exact IH]. split; [reflexivity|]. destruct (role_of l); [exact I|reflexivity|].
      intros s s' Ak. apply same_inst; [exact Ak|apply clean_part|apply clean_part]. }
  destruct (assemble rt m input), (assemble rt' m' input); try (now destruct H).
  cbn in H. f_equal. clear - H. induction H as [|p q es es' A _ IH]; [reflexivity|]. now f_equal.
Qed.
Theorem C40_disassemble oc m m' input : m_base m = m_base m' -> m_debug m = m_debug m' -> Permutation (m_syms m) (m_syms m') -> NoDup (map fst (m_syms m)) ->
  disassemble oc m input = disassemble oc m' input.
Proof.
  intros Ba De P N. assert (S : forall a, sym_get a (m_syms m) = sym_get a (m_syms m')) by (intros a; now apply sym_get_perm).
  assert (M : map (match_sym m) (disassemble_insts input (m_base m)) = map (match_sym m') (disassemble_insts input (m_base m'))).
  { rewrite <- Ba. apply map_ext. intros x. unfold match_sym. destruct x; try reflexivity. destruct tgt; [reflexivity|]. now rewrite S. }
  assert (G : forall a, get_sym m a = get_sym m' a) by (intros a; unfold get_sym; now rewrite S).
  assert (E : forall i f x, ends_function oc m i f x = ends_function oc m' i f x) by (intros; unfold ends_function; now rewrite Ba).
  assert (L : forall l n i f b, listing oc m n i f b l = listing oc m' n i f b l).
  { induction l as [|x l IH]; intros n i f b; [reflexivity|]. cbn [listing]. destruct b.
    - destruct (show_inst x) as [text| |]; [|reflexivity|reflexivity]. cbn [obind]. rewrite IH. destruct (i <? n - 1); [|reflexivity]. destruct (@ck32 str oc (wrap 32 (i + 1) * 4)) as [k| |]; [|reflexivity|reflexivity]. cbn [obind]. rewrite <- Ba.
      destruct (@ck32 str oc (m_base m + k)) as [adr| |]; [|reflexivity|reflexivity]. cbn [obind]. now rewrite G.
    - rewrite E. destruct (ends_function oc m' i f x); [|reflexivity|reflexivity]. cbn [obind]. now rewrite IH. }
  unfold disassemble. cbv zeta. rewrite <- De, M. destruct (m_debug m); [reflexivity|]. rewrite L, G, Ba. reflexivity.
Qed.

(** Two orders of both maps; the local-label map has two entries when it is walked. *)
Definition reversed_rt : runtime := mk_runtime true (@rev _).
Definition two_locals : str := join [nl] [ #"first:"; #"@@x:"; #"nop"; #"@@y:"; #"b @@x"; #"nop"; #"second:"; #"jal go"; #"nop"; #"last:" ].
Definition some_symbols : list (Z * str) := [ (0x80001000, #"go"); (0x80002000, #"stop") ].
Example C40_case : orders reversed_rt /\ NoDup (map snd some_symbols) /\ NoDup (map fst some_symbols) /\ Permutation some_symbols (rev some_symbols)
  /\ exists out, assemble plain_rt (mk_mipsasm 0 some_symbols false) two_locals = Ok out /\ assemble reversed_rt (mk_mipsasm 0 (rev some_symbols) false) two_locals = Ok out.
Proof.
  assert (O : orders reversed_rt) by (intros l; symmetry; apply Permutation_rev).
  assert (N : NoDup (map snd some_symbols)) by (repeat constructor; [intros [H|[]]; discriminate H|intros []]).
  split; [exact O|]. split; [exact N|]. split; [repeat constructor; [intros [H|[]]; discriminate H|intros []]|]. split; [apply Permutation_rev|].
  destruct (assemble plain_rt (mk_mipsasm 0 some_symbols false) two_locals) as [out| |] eqn:A; [|vm_compute in A; discriminate A|vm_compute in A; discriminate A].
  exists out. split; [reflexivity|]. rewrite <- A. symmetry. apply C40_assemble; [reflexivity|exact orders_plain|exact O|reflexivity|apply Permutation_rev|exact N].
Qed.
(** With two symbols of one name the order shows. *)
Theorem C40_names_needed : exists m m' input, Permutation (m_syms m) (m_syms m') /\ m_base m = m_base m' /\ assemble plain_rt m input <> assemble plain_rt m' input.
Proof.
  exists (mk_mipsasm 0 [ (0x1000, #"go"); (0x2000, #"go") ] false), (mk_mipsasm 0 [ (0x2000, #"go"); (0x1000, #"go") ] false), #"j go".
  split; [apply perm_swap|]. split; [reflexivity|]. intros H. vm_compute in H. discriminate H.
Qed.
