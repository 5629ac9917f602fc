(** * LayoutProofs: comments, white space and case (proofs only). *)

From Coq Require Import Lia Permutation.
From Verif Require Import Lib SpecIsa StrLemmas TextProofs OperandProofs NativeProofs LineProofs ScanProofs ProgProofs BranchProofs LabelProofs CongProofs ErrorProofs RefProofs ProgCong SpecErrors SpecText SpecProgram SpecSource.

(** ** From lists of lines to programs *)

Lemma same_code e e' l l' : clean l = clean l' -> same_lines e e' false (fun t => t) l l'.
Proof.
  intros C. split; [discriminate|]. unfold role_of. rewrite <- C. destruct (clean l) as [|c r] eqn:E; [exact I|].
  destruct (ends_with #":" (c :: r)); [reflexivity|]. intros s s' Ak. apply same_inst; [exact Ak| |].
  - rewrite <- E. apply clean_part.
  - rewrite C. apply clean_part.
Qed.
Lemma akin_content f es es' : Forall2 (akin false f) es es' -> map (error_content f) es = map (error_content f) es'.
Proof. induction 1 as [|p q es es' H _ IH]; [reflexivity|]. cbn. now f_equal. Qed.
Lemma layout rt m input input' f : orders rt -> matched (mk_parser rt m input) (mk_parser rt m input') false f (lines input) (lines input') ->
  same_but_place f (assemble rt m input) (assemble rt m input').
Proof.
  intros Or M. assert (H := assemble_both rt rt m m input input' false f eq_refl eq_refl (fun _ => eq_refl) Or Or ltac:(discriminate) M).
  destruct (assemble rt m input), (assemble rt m input'); try (now destruct H); cbn in *; auto. now apply akin_content.
Qed.

(** ** Comments *)

Lemma starts_comment_head c : starts_comment c = true -> exists x r, c = x :: r /\ is_ws x = false.
Proof.
  destruct c as [|x r]; [discriminate|]. intros H. exists x, r. split; [reflexivity|].
  destruct x as [[] [] [] [] [] [] [] []]; try reflexivity; discriminate H.
Qed.
Lemma before_comment_app s t : starts_comment t = true -> match rev s with [] => True | c :: _ => c <> "/"%char end -> before_comment (s ++ t) = before_comment s.
Proof.
  intros T. induction s as [|c s IH]; intros E.
  - cbn [app]. destruct t; [discriminate|]. cbn [before_comment]. now rewrite T.
  - cbn [app before_comment]. assert (St : starts_comment (c :: s ++ t) = starts_comment (c :: s)).
    { destruct s as [|d s]; [|cbn [app]; destruct c as [[] [] [] [] [] [] [] []]; try reflexivity; destruct d as [[] [] [] [] [] [] [] []]; reflexivity].
      cbn in E. destruct c as [[] [] [] [] [] [] [] []]; try reflexivity. now contradiction E. }
    rewrite St. destruct (starts_comment (c :: s)); [reflexivity|]. f_equal. apply IH. cbn [rev] in E. destruct (rev s) as [|x r]; [exact I|]. exact E.
Qed.
Lemma trim_append l c : starts_comment c = true -> match rev l with [] => True | x :: _ => is_ws x = false end -> exists c', starts_comment c' = true /\ trim (l ++ c) = trim l ++ c'.
Proof.
  intros Sc E. destruct (starts_comment_head c Sc) as (x & r & -> & Wx).
  destruct (trim_decomp (x :: r)) as (a & b & D & Ba & Bb).
  assert (a = []) as ->. { destruct a as [|y a]; [reflexivity|]. cbn in D. injection D as <- _. cbn in Ba. rewrite Wx in Ba. discriminate. }
  cbn [app] in D. destruct (trim_is_tight (x :: r)) as [T1 T2]. set (c' := trim (x :: r)) in *.
  assert (Sc' : starts_comment c' = true).
  { destruct c' as [|y c']; [exfalso; cbn in D; rewrite <- D in Bb; cbn in Bb; rewrite Wx in Bb; discriminate|]. cbn in D. injection D as <- D.
    destruct x as [[] [] [] [] [] [] [] []]; try discriminate Sc; try reflexivity. destruct r as [|z r]; [discriminate Sc|].
    destruct c' as [|y c']; cbn in D; [|injection D as <- _; exact Sc]. exfalso. destruct b as [|y b]; [discriminate|]. injection D as <- _. cbn in Bb. apply andb_true_iff in Bb as [Bb _].
    destruct z as [[] [] [] [] [] [] [] []]; try discriminate Sc. discriminate Bb. }
  exists c'. split; [exact Sc'|]. destruct (drop_while_decomp is_ws l) as (w & Hw & Bw).
  assert (Tl : trim l = drop_while is_ws l).
  { unfold trim, drop_while_end. rewrite drop_while_tight; [apply rev_involutive|]. unfold tight_start. rewrite Hw in E. rewrite rev_app_distr in E.
    destruct (rev (drop_while is_ws l)); [exact I|]. exact E. }
  rewrite Tl. rewrite Hw at 1. rewrite D, <- app_assoc, (app_assoc (drop_while is_ws l)). rewrite (trim_ws_around w _ b Bw Bb). apply trim_tight.
  - assert (H := drop_while_head is_ws l). destruct (drop_while is_ws l) as [|y d]; [exact T1|exact H].
  - unfold tight_end. rewrite rev_app_distr. unfold tight_end in T2. destruct (rev c') as [|y d] eqn:R; [|exact T2]. apply (f_equal (@rev ascii)) in R. rewrite rev_involutive in R. rewrite R in Sc'. discriminate.
Qed.
Lemma clean_comment l c : starts_comment c = true -> ends_in_text l -> clean (l ++ c) = clean l.
Proof.
  intros Sc E. unfold clean. destruct (trim_append l c Sc) as (c' & Sc' & ->).
  - unfold ends_in_text in E. destruct (rev l); [exact I|apply E].
  - apply before_comment_app; [exact Sc'|]. destruct (trim_decomp l) as (a & b & D & Ba & Bb). unfold ends_in_text in E. rewrite D in E.
    assert (b = []) as ->.
    { destruct (rev b) as [|y b'] eqn:R; [apply (f_equal (@rev ascii)) in R; now rewrite rev_involutive in R|]. exfalso. rewrite !rev_app_distr, R in E. cbn in E. destruct E as [E _].
      rewrite <- forallb_rev, R in Bb. cbn in Bb. apply andb_true_iff in Bb as [Bb _]. congruence. }
    rewrite app_nil_r, rev_app_distr in E. destruct (rev (trim l)); [exact I|]. apply E.
Qed.
(** ** White space *)

Lemma indented_matched e e' ls ls' : Forall2 indented ls ls' -> matched e e' false (fun t => t) ls ls'.
Proof.
  induction 1 as [|l l' ls ls' (a & b & Ba & Bb & ->) _ IH]; [constructor|]. apply mt_pair; [|exact IH]. apply same_code. unfold clean. now rewrite trim_ws_around.
Qed.

(** ** Case *)

Lemma split_char_letters c a b : (forall x, lower_char x = c <-> x = c) -> to_lower a = to_lower b -> map to_lower (split_char c a) = map to_lower (split_char c b).
Proof.
  intros Hc. revert b. induction a as [|x a IH]; intros [|y b] E; try discriminate; [reflexivity|]. cbn in E. injection E as Ex E. specialize (IH b E). cbn [split_char].
  destruct (Ascii.eqb_spec x c) as [->|Nx], (Ascii.eqb_spec y c) as [->|Ny].
  - cbn [map]. now rewrite IH.
  - exfalso. apply Ny. apply Hc. rewrite <- Ex. now apply Hc.
  - exfalso. apply Nx. apply Hc. rewrite Ex. now apply Hc.
  - destruct (split_char c a), (split_char c b); cbn [map] in *; try discriminate; [cbn; now rewrite Ex|]. injection IH as I1 I2. rewrite I2. f_equal. unfold to_lower in *. cbn [map]. now rewrite Ex, I1.
Qed.
Lemma lower_dot x : lower_char x = "."%char <-> x = "."%char.
Proof. split; [|intros ->; reflexivity]. destruct x as [[] [] [] [] [] [] [] []]; vm_compute; intros H; try discriminate H; reflexivity. Qed.
Lemma last_letters a b : to_lower a = to_lower b -> same_letters (match rev a with c :: _ => [c] | [] => [] end) (match rev b with c :: _ => [c] | [] => [] end).
Proof.
  intros E. assert (X : map lower_char (rev a) = map lower_char (rev b)) by (rewrite !map_rev; now f_equal).
  destruct (rev a), (rev b); try discriminate; [reflexivity|]. cbn in X. injection X as X _. unfold same_letters. cbn. now rewrite X.
Qed.
Lemma not_unsigned op : ~ zero_extends op -> (str_eqb op #"andi" || str_eqb op #"ori" || str_eqb op #"xori")%bool = false.
Proof.
  intros H. destruct (_ || _)%bool eqn:E; [exfalso; apply H|reflexivity]. apply orb_true_iff in E as [E|E]; [apply orb_true_iff in E as [E|E]|]; apply str_eqb_spec in E; subst op; vm_compute; auto.
Qed.
Lemma same_op_letters e e' s s' raw raw' op op' arg args : alike e e' s s' raw raw' -> same_letters op op' -> ~ zero_extends op ->
  (forall x, In x args -> part x raw /\ part x raw') -> same s s' raw raw' to_lower (parse_op e s op arg args) (parse_op e' s' op' arg args).
Proof.
  intros Ak Sl Ne P.
  assert (Sc : option_map to_lower (nth_error (split_char "." op) 1) = option_map to_lower (nth_error (split_char "." op') 1)).
  { rewrite <- !nth_error_map. now rewrite (split_char_letters "." op op' lower_dot Sl). }
  apply same_op; auto.
  - now apply last_letters.
  - left. rewrite (not_unsigned op Ne). symmetry. apply not_unsigned. unfold zero_extends. now rewrite <- Sl.
  - now apply args_alike.
  - apply mem_like_refl.
  - reflexivity.
Qed.
Lemma split_once_prefix m r : ~ In " "%char m -> split_once " " (m ++ r) = match split_once " " r with Some (a, b) => Some (m ++ a, b) | None => None end.
Proof.
  induction m as [|c m IH]; intros N; cbn [app]; [destruct (split_once " " r) as [[? ?]|]; reflexivity|].
  cbn [split_once]. destruct (Ascii.eqb_spec c " ") as [->|_]; [exfalso; apply N; now left|]. rewrite IH by (intros J; apply N; now right). destruct (split_once " " r) as [[? ?]|]; reflexivity.
Qed.
Lemma ws_not_mnemonic m r : (exists c, In c m /\ is_ws c = true) -> ~ zero_extends (m ++ r).
Proof.
  intros (c & I & W) Z. assert (J : In (lower_char c) (to_lower (m ++ r))) by (unfold to_lower; apply in_map, in_or_app; now left).
  assert (Wl : is_ws (lower_char c) = true) by (destruct c as [[] [] [] [] [] [] [] []]; try discriminate W; reflexivity).
  assert (K : forallb (fun x => negb (is_ws x)) (to_lower (m ++ r)) = true) by (destruct Z as [Z|[Z|[Z|[]]]]; rewrite <- Z; reflexivity).
  rewrite forallb_forall in K. specialize (K _ J). rewrite Wl in K. discriminate K.
Qed.
Lemma ws_lower x : is_ws (lower_char x) = is_ws x.
Proof. destruct x as [[] [] [] [] [] [] [] []]; reflexivity. Qed.
Lemma same_inst_letters e e' s s' raw raw' m m' z : alike e e' s s' raw raw' -> mnemonic m -> same_letters m m' -> ~ zero_extends m ->
  (z = [] \/ exists c r, z = c :: r /\ is_ws c = true) -> part (m ++ z) raw -> part (m' ++ z) raw' ->
  same s s' raw raw' to_lower (parse_inst e s (m ++ z)) (parse_inst e' s' (m' ++ z)).
Proof.
  intros Ak [Nm Mm] Sl Ne Z P P'.
  assert (Sp : forall x, In x m -> is_ws x = false) by (intros x I; rewrite forallb_forall in Mm; specialize (Mm x I); apply andb_true_iff in Mm as [Mm _]; now apply negb_true_iff).
  assert (Sp' : forall x, In x m' -> is_ws x = false).
  { intros x I. apply (in_map lower_char) in I. fold (to_lower m') in I. rewrite <- Sl in I. apply in_map_iff in I as (y & Ey & I). specialize (Sp y I).
    rewrite <- ws_lower, <- Ey, ws_lower. exact Sp. }
  assert (N1 : ~ In " "%char m) by (intros J; specialize (Sp _ J); discriminate). assert (N2 : ~ In " "%char m') by (intros J; specialize (Sp' _ J); discriminate).
  assert (Nm' : m' <> []) by (intros ->; destruct m; [congruence|discriminate Sl]).
  unfold parse_inst. rewrite (split_once_prefix m z N1), (split_once_prefix m' z N2).
  assert (G : forall a, same_letters (m ++ a) (m' ++ a)) by (intros; unfold same_letters, to_lower in *; rewrite !map_app; now f_equal).
  assert (Nz : forall a, (a = [] \/ exists c r, a = c :: r /\ is_ws c = true) -> ~ zero_extends (m ++ a)).
  { intros a [->|(c & r & -> & W)]; [now rewrite app_nil_r|]. replace (m ++ c :: r) with ((m ++ [c]) ++ r) by (rewrite <- app_assoc; reflexivity).
    apply ws_not_mnemonic. exists c. split; [apply in_or_app; right; now left|exact W]. }
  destruct m as [|cm m0] eqn:Em; [congruence|]. destruct m' as [|cm' m0'] eqn:Em'; [congruence|]. rewrite <- Em, <- Em' in *.
  assert (Hd : (exists c r, m ++ z = c :: r) /\ exists c r, m' ++ z = c :: r) by (rewrite Em, Em'; split; eexists _, _; reflexivity).
  destruct Hd as [(c1 & r1 & H1) (c2 & r2 & H2)].
  destruct (split_once " " z) as [[a b]|] eqn:Ez; rewrite H1, H2; [|rewrite <- H1, <- H2].
  - apply same_op_letters; auto; [apply Nz|].
    + apply split_once_decomp in Ez. destruct a as [|ca ra]; [now left|right]. exists ca, ra. split; [reflexivity|]. destruct Z as [->|(c & r & -> & W)]; [discriminate|]. cbn in Ez. now injection Ez as <- _.
    + intros x I. apply split_char_part in I. apply split_once_decomp in Ez.
      assert (Q : part x z) by (apply (part_trans x b); [exact I|]; rewrite Ez; exists (a ++ #" "), []; rewrite app_nil_r, <- app_assoc; reflexivity).
      split; [apply (part_trans x z); [exact Q|]; apply (part_trans z (m ++ z)); [exists m, []; now rewrite app_nil_r|exact P]|
              apply (part_trans x z); [exact Q|]; apply (part_trans z (m' ++ z)); [exists m', []; now rewrite app_nil_r|exact P']].
  - apply same_op_letters; auto. intros x [<-|[]]. split; [exists [], raw|exists [], raw']; reflexivity.
Qed.

Lemma mnemonic_char x : (negb (is_ws (lower_char x)) && negb (existsb (Ascii.eqb (lower_char x)) #";/:"))%bool = (negb (is_ws x) && negb (existsb (Ascii.eqb x) #";/:"))%bool.
Proof. destruct x as [[] [] [] [] [] [] [] []]; reflexivity. Qed.
Lemma mnemonic_letters m m' : same_letters m m' -> mnemonic m -> mnemonic m'.
Proof.
  intros S [N M]. split; [intros ->; destruct m; [congruence|discriminate S]|]. rewrite forallb_forall in *. intros x I.
  apply (in_map lower_char) in I. fold (to_lower m') in I. rewrite <- S in I. apply in_map_iff in I as (y & E & I). rewrite <- mnemonic_char, <- E, mnemonic_char. now apply M.
Qed.
Lemma trim_mnemonic a m r : blank a -> mnemonic m -> trim (a ++ m ++ r) = m ++ drop_while_end is_ws r.
Proof.
  intros Ba [Nm Mm]. assert (W : forall x, In x m -> is_ws x = false) by (intros x I; rewrite forallb_forall in Mm; specialize (Mm x I); apply andb_true_iff in Mm as [Mm _]; now apply negb_true_iff).
  rewrite <- (app_nil_r (a ++ m ++ r)), <- app_assoc, trim_ws_around by (exact Ba || reflexivity).
  unfold trim, drop_while_end. rewrite (drop_while_tight (m ++ r)) by (destruct m; [congruence|apply W; now left]). rewrite rev_app_distr.
  assert (G : forall t, drop_while is_ws (t ++ rev m) = drop_while is_ws t ++ rev m).
  { induction t as [|c t IH]; cbn [app drop_while].
    - apply drop_while_tight. destruct (rev m) as [|y q] eqn:R; [exact I|]. apply W. apply in_rev. rewrite R. now left.
    - destruct (is_ws c); [exact IH|reflexivity]. }
  rewrite G, rev_app_distr, rev_involutive. reflexivity.
Qed.
Lemma before_mnemonic m z : mnemonic m -> (z = [] \/ starts_comment z = true \/ exists c r, z = c :: r /\ is_ws c = true) -> before_comment (m ++ z) = m ++ before_comment z.
Proof.
  intros [_ M] Z. induction m as [|c m IH]; [reflexivity|]. cbn [forallb] in M. apply andb_true_iff in M as [Mc M]. cbn [app before_comment].
  assert (starts_comment (c :: m ++ z) = false) as -> by (destruct c as [[] [] [] [] [] [] [] []]; try reflexivity; discriminate Mc).
  now rewrite (IH M).
Qed.
Lemma clean_mnemonic r : (r = [] \/ starts_comment r = true \/ exists c r', r = c :: r' /\ is_ws c = true) ->
  exists z, (z = [] \/ exists c r', z = c :: r' /\ is_ws c = true) /\ forall a m, blank a -> mnemonic m -> clean (a ++ m ++ r) = m ++ z.
Proof.
  intros R. exists (before_comment (drop_while_end is_ws r)). 
  assert (D : exists b, r = drop_while_end is_ws r ++ b /\ blank b).
  { unfold drop_while_end. destruct (drop_while_decomp is_ws (rev r)) as (b & E & Bb). exists (rev b). split; [|unfold blank; now rewrite forallb_rev]. rewrite <- rev_app_distr, <- E. now rewrite rev_involutive. }
  destruct D as (b & D & Bb). set (d := drop_while_end is_ws r) in *.
  assert (Rd : d = [] \/ starts_comment d = true \/ exists c r', d = c :: r' /\ is_ws c = true).
  { destruct d as [|c d0]; [now left|right]. destruct R as [->|[R|(c' & r' & -> & W)]]; [discriminate| |].
    - left. cbn in D. subst r. destruct c as [[] [] [] [] [] [] [] []]; try discriminate R; try reflexivity. destruct d0 as [|e d0]; [|exact R].
      exfalso. cbn [app] in R. destruct b as [|e b]; [discriminate|]. apply andb_true_iff in Bb as [Bb _]. destruct e as [[] [] [] [] [] [] [] []]; try discriminate R. discriminate Bb.
    - right. exists c, d0. split; [reflexivity|]. injection D as <- _. exact W. }
  split.
  - destruct Rd as [->|[Rd|(c & r' & E & W)]]; [now left| |].
    + left. destruct d; [discriminate|]. cbn [before_comment]. now rewrite Rd.
    + right. rewrite E. exists c, (before_comment r'). split; [|exact W]. cbn [before_comment]. destruct (starts_comment (c :: r')) eqn:S; [|reflexivity].
      destruct (starts_comment_head _ S) as (x & y & Q & Wx). injection Q as <- _. congruence.
  - intros a m Ba M. unfold clean. rewrite (trim_mnemonic a m r Ba M). now apply before_mnemonic.
Qed.
Lemma ends_mnemonic m z : mnemonic m -> ends_with #":" (m ++ z) = match z with [] => false | _ => ends_with #":" z end.
Proof.
  intros [Nm M]. unfold ends_with. rewrite rev_app_distr. destruct z as [|c z].
  - cbn [rev app]. destruct (rev m) as [|x q] eqn:R; [reflexivity|]. cbn [app starts_with].
    assert (I : In x m) by (apply in_rev; rewrite R; now left). rewrite forallb_forall in M. specialize (M x I). destruct x as [[] [] [] [] [] [] [] []]; try reflexivity; discriminate M.
  - destruct (rev (c :: z)) as [|x q] eqn:R; [apply (f_equal (@rev ascii)) in R; rewrite rev_involutive in R; discriminate|]. reflexivity.
Qed.
Lemma recased_lines e e' l l' : recased (fun m => ~ zero_extends m) l l' -> same_lines e e' false to_lower l l'.
Proof.
  intros (a & m & m' & r & Ba & M & Nz & Sl & R & Ro & -> & ->). split; [discriminate|].
  destruct (clean_mnemonic r R) as (z & Z & C). assert (M' := mnemonic_letters m m' Sl M). assert (C1 := C a m Ba M). assert (C2 := C a m' Ba M').
  rewrite Ro. assert (Ro' : role_of (a ++ m' ++ r) = Instruction).
  { unfold role_of in *. rewrite C1 in Ro. rewrite C2. assert (E1 := ends_mnemonic m z M). assert (E2 := ends_mnemonic m' z M').
    destruct (m ++ z) as [|c q] eqn:Q; [discriminate|]. destruct (m' ++ z) as [|c' q'] eqn:Q'; [destruct m'; [now destruct M'|discriminate]|].
    rewrite E2, <- E1. destruct (ends_with #":" (c :: q)); [discriminate|reflexivity]. }
  rewrite Ro'. intros s s' Ak. assert (P1 := clean_part (a ++ m ++ r)). assert (P2 := clean_part (a ++ m' ++ r)). rewrite C1 in *. rewrite C2 in *. apply same_inst_letters; auto.
Qed.
Lemma clean_refl_case e e' f l : same_lines e e' false f l l.
Proof.
  split; [discriminate|]. destruct (role_of l); [exact I|reflexivity|]. intros s s' Ak.
  assert (H := same_inst e e' s s' l l (clean l) Ak (clean_part l) (clean_part l)). unfold same, same_result in *.
  destruct (snd (parse_inst e s (clean l))) as [i|p|p], (snd (parse_inst e' s' (clean l))) as [i'|q|q]; auto. destruct H as (U & L1 & L2 & Le). split; [|auto].
  assert (G : forall p q f, unplaced (fun t => t) p = unplaced (fun t => t) q -> unplaced f p = unplaced f q) by (clear; intros p q f; destruct p, q; cbn; intros U; try discriminate U; congruence).
  now apply G.
Qed.
Lemma recased_matched e e' ls ls' : Forall2 (fun l l' => l = l' \/ recased (fun m => ~ zero_extends m) l l') ls ls' -> matched e e' false to_lower ls ls'.
Proof.
  induction 1 as [|l l' ls ls' [->|H] _ IH]; [constructor| |]; (apply mt_pair; [|exact IH]).
  - apply clean_refl_case.
  - now apply recased_lines.
Qed.

(** ** The white space after the mnemonic *)

Lemma dwe_app w c r : is_ws c = false -> drop_while_end is_ws (w ++ c :: r) = w ++ c :: drop_while_end is_ws r.
Proof.
  intros W. unfold drop_while_end. rewrite rev_app_distr. cbn [rev]. rewrite <- app_assoc.
  assert (G : forall t, drop_while is_ws (t ++ [c] ++ rev w) = drop_while is_ws t ++ [c] ++ rev w).
  { induction t as [|x t IH]; cbn [app drop_while]; [now rewrite W|]. destruct (is_ws x); [exact IH|reflexivity]. }
  rewrite G, !rev_app_distr, rev_involutive. cbn. now rewrite <- app_assoc.
Qed.
Lemma before_blank w x : blank w -> before_comment (w ++ x) = w ++ before_comment x.
Proof.
  induction w as [|c w IH]; intros B; [reflexivity|]. unfold blank in B. cbn [forallb] in B. apply andb_true_iff in B as [Bc B]. cbn [app before_comment].
  destruct (starts_comment (c :: w ++ x)) eqn:S; [|now rewrite (IH B)]. destruct (starts_comment_head _ S) as (y & q & Q & Wy). injection Q as <- _. congruence.
Qed.
Lemma clean_separated c r : is_ws c = false -> starts_comment (c :: r) = false ->
  exists q, forall a m w, blank a -> mnemonic m -> blank w -> w <> [] -> clean (a ++ m ++ w ++ c :: r) = m ++ w ++ c :: q.
Proof.
  intros Wc Sc. exists (before_comment (drop_while_end is_ws r)). intros a m w Ba M Bw Nw. unfold clean. rewrite (trim_mnemonic a m _ Ba M), (dwe_app w c r Wc).
  rewrite before_mnemonic; [|exact M|right; right; destruct w as [|x w]; [congruence|]; exists x, (w ++ c :: drop_while_end is_ws r); split; [reflexivity|]; unfold blank in Bw; cbn in Bw; now apply andb_true_iff in Bw as [Bw _]].
  rewrite (before_blank w _ Bw). cbn [before_comment].
  destruct (starts_comment (c :: drop_while_end is_ws r)) eqn:S; [|reflexivity]. exfalso.
  assert (D : exists b, r = drop_while_end is_ws r ++ b).
  { unfold drop_while_end. destruct (drop_while_decomp is_ws (rev r)) as (b & E & Bb). exists (rev b). rewrite <- rev_app_distr, <- E. now rewrite rev_involutive. }
  destruct D as (b & D). set (d := drop_while_end is_ws r) in *. rewrite D in Sc. clearbody d. clear D. destruct c as [[] [] [] [] [] [] [] []]; try discriminate S; try discriminate Sc.
  destruct d as [|e d]; [discriminate S|]. cbn [app] in Sc. destruct e as [[] [] [] [] [] [] [] []]; try discriminate S; discriminate Sc.
Qed.
Lemma ends_tail x c q : ends_with #":" (x ++ c :: q) = ends_with #":" (c :: q).
Proof.
  unfold ends_with. rewrite rev_app_distr. destruct (rev (c :: q)) as [|y z] eqn:R; [apply (f_equal (@rev ascii)) in R; rewrite rev_involutive in R; discriminate|]. reflexivity.
Qed.
Lemma split_comma_blank w x : blank w -> exists k r, split_char "," x = k :: r /\ split_char "," (w ++ x) = (w ++ k) :: r.
Proof.
  induction w as [|c w IH]; intros B.
  - cbn [app]. destruct (split_char "," x) as [|k r] eqn:E; [|eauto]. exfalso. destruct x as [|y x]; [discriminate|]. cbn [split_char] in E. destruct (Ascii.eqb y ","); [discriminate|]. destruct (split_char "," x); discriminate.
  - unfold blank in B. cbn [forallb] in B. apply andb_true_iff in B as [Bc B]. destruct (IH B) as (k & r & E1 & E2). exists k, r. split; [exact E1|]. cbn [app split_char].
    destruct (Ascii.eqb_spec c ",") as [->|_]; [discriminate Bc|]. now rewrite E2.
Qed.
Lemma trim_blank_head w x : blank w -> trim (w ++ x) = trim x.
Proof. intros B. rewrite <- (app_nil_r (w ++ x)), <- app_assoc. now rewrite trim_ws_around. Qed.
Lemma respaced_lines e e' l l' : respaced space_first l l' -> same_lines e e' false trim l l'.
Proof.
  intros (a & m & w & w' & c & r & Ba & M & Bw & Nw & Bw' & Nw' & (v & ->) & (v' & ->) & Wc & Sc & Ro & -> & ->). split; [discriminate|].
  destruct (clean_separated c r Wc Sc) as (q & C). assert (C1 := C a m _ Ba M Bw Nw). assert (C2 := C a m _ Ba M Bw' Nw').
  rewrite Ro. assert (Ro' : role_of (a ++ m ++ (" "%char :: v') ++ c :: r) = Instruction).
  { unfold role_of in *. rewrite C1 in Ro. rewrite C2. rewrite app_assoc in Ro. rewrite app_assoc.
    assert (E1 := ends_tail (m ++ " "%char :: v) c q). assert (E2 := ends_tail (m ++ " "%char :: v') c q).
    destruct ((m ++ " "%char :: v) ++ c :: q) as [|x0 y0] eqn:Q; [discriminate|]. destruct ((m ++ " "%char :: v') ++ c :: q) eqn:Q'; [destruct m; discriminate|].
    rewrite E2, <- E1. destruct (ends_with #":" (x0 :: y0)); [discriminate|reflexivity]. }
  rewrite Ro'. intros s s' Ak. assert (P1 := clean_part (a ++ m ++ (" "%char :: v) ++ c :: r)). assert (P2 := clean_part (a ++ m ++ (" "%char :: v') ++ c :: r)). rewrite C1 in *. rewrite C2 in *.
  assert (Bv : blank v) by exact Bw. assert (Bv' : blank v') by exact Bw'.
  assert (Nm : ~ In " "%char m) by (intros J; destruct M as [_ M]; rewrite forallb_forall in M; specialize (M _ J); discriminate).
  unfold parse_inst. rewrite !(split_once_prefix m _ Nm). cbn [app split_once]. change (Ascii.eqb " " " ") with true. cbv iota. rewrite !app_nil_r.
  assert (Hm : forall z, exists y t, m ++ z = y :: t) by (intros z; destruct m as [|y t]; [now destruct M|]; eexists _, _; reflexivity).
  destruct (Hm (" "%char :: v ++ c :: q)) as (y1 & t1 & H1). destruct (Hm (" "%char :: v' ++ c :: q)) as (y2 & t2 & H2). cbn [app] in P1, P2. rewrite H1, H2.
  assert (A1 : part (v ++ c :: q) (a ++ m ++ (" "%char :: v) ++ c :: r)) by (eapply part_trans; [|exact P1]; exists (m ++ #" "), []; rewrite app_nil_r, <- app_assoc; reflexivity).
  assert (A2 : part (v' ++ c :: q) (a ++ m ++ (" "%char :: v') ++ c :: r)) by (eapply part_trans; [|exact P2]; exists (m ++ #" "), []; rewrite app_nil_r, <- app_assoc; reflexivity).
  destruct (split_comma_blank v (c :: q) Bv) as (k & ts & K1 & K2). destruct (split_comma_blank v' (c :: q) Bv') as (k' & ts' & K1' & K2').
  rewrite K1 in K1'. injection K1' as <- <-. rewrite K2, K2'.
  assert (Pt : forall x, In x ts -> part x (c :: q)) by (intros x I; apply (split_char_part ","); rewrite K1; now right).
  assert (Pk : part (v ++ k) (v ++ c :: q)) by (apply (split_char_part ","); rewrite K2; now left).
  assert (Pk' : part (v' ++ k) (v' ++ c :: q)) by (apply (split_char_part ","); rewrite K2'; now left).
  apply same_op; try reflexivity; try (left; reflexivity); [exact Ak| | | | |].
  - now rewrite !trim_blank_head.
  - intros _. now rewrite !trim_blank_head.
  - apply Forall2_cons.
    + split; [|split; [|split]]; [now rewrite !trim_blank_head|now rewrite !trim_blank_head|now apply (part_trans _ _ _ Pk)|now apply (part_trans _ _ _ Pk')].
    + apply args_alike. intros x I. specialize (Pt x I). split; (eapply part_trans; [|first [exact A1|exact A2]]); (eapply part_trans; [exact Pt|]); [exists v, []|exists v', []]; now rewrite app_nil_r.
  - apply mem_like_refl.
  - cbn [List.length hd]. intros _ L. destruct ts; [|discriminate]. cbn [split_char] in K1.
    destruct (Ascii.eqb c ","); [destruct (split_char "," q) eqn:Z; [destruct (split_comma_blank [] q eq_refl) as (? & ? & X & _); congruence|discriminate]|].
    assert (k <> []) by (intros ->; destruct (split_char "," q); discriminate K1). split; intros Z; apply app_eq_nil in Z as [_ Z]; contradiction.
Qed.
Lemma respaced_matched e e' ls ls' : Forall2 (fun l l' => l = l' \/ respaced space_first l l') ls ls' -> matched e e' false trim ls ls'.
Proof.
  induction 1 as [|l l' ls ls' [->|H] _ IH]; [constructor| |]; (apply mt_pair; [|exact IH]).
  - apply clean_refl_case.
  - now apply respaced_lines.
Qed.
