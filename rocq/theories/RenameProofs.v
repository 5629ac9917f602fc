(** * RenameProofs: renaming the labels of a program (proofs only). *)

From Coq Require Import Lia Permutation.
From Verif Require SpacingProofs.
From Verif Require Import Lib SpecIsa StrLemmas NumLemmas DecodeProofs TextProofs OperandProofs NativeProofs LineProofs ScanProofs ProgProofs BranchProofs DisplayProofs LabelProofs PseudoProofs CompareProofs
  ErrorProofs RefProofs CongProofs EnvProofs SpecShow SpecText SpecProgram SpecLabels SpecPseudo SpecRename.

(** ** Words of a line *)

Definition ends_sep (a : str) : Prop := a = [] \/ exists a' c, a = a' ++ [c] /\ separator c = true.
Definition starts_sep (b : str) : Prop := b = [] \/ exists c b', b = c :: b' /\ separator c = true.
Lemma ws_separator c : is_ws c = true -> separator c = true.
Proof. intros H. unfold separator. now rewrite H. Qed.
Lemma ends_sep_blank a w : ends_sep a -> forallb is_ws w = true -> ends_sep (a ++ w).
Proof.
  intros A W. destruct (rev w) as [|c r] eqn:E.
  - apply (f_equal (@rev ascii)) in E. rewrite rev_involutive in E. subst w. now rewrite app_nil_r.
  - apply (f_equal (@rev ascii)) in E. rewrite rev_involutive in E. cbn [rev] in E. subst w. right. exists (a ++ rev r), c. split; [now rewrite app_assoc|].
    apply ws_separator. rewrite forallb_app in W. apply andb_prop in W as [_ W]. cbn in W. now rewrite andb_true_r in W.
Qed.
Lemma starts_sep_blank w b : starts_sep b -> forallb is_ws w = true -> starts_sep (w ++ b).
Proof. intros B W. destruct w as [|c w]; [exact B|]. right. exists c, (w ++ b). split; [reflexivity|]. apply ws_separator. cbn in W. now apply andb_prop in W. Qed.
(** A delimited piece of the text, trimmed. *)
Lemma trim_word a x b : ends_sep a -> starts_sep b -> word_in (trim x) (a ++ x ++ b).
Proof.
  intros A B. destruct (trim_decomp x) as (u & v & E & U & V). exists (a ++ u), (v ++ b). split; [rewrite E at 1; now rewrite <- !app_assoc|].
  split; [apply (ends_sep_blank a u A U)|apply (starts_sep_blank v b B V)].
Qed.
Lemma split_delimited c s : separator c = true -> forall x, In x (split_char c s) -> exists a b, s = a ++ x ++ b /\ ends_sep a /\ starts_sep b.
Proof.
  intros Sc. assert (G : match split_char c s with
    | [] => False
    | x :: r => (exists b, s = x ++ b /\ starts_sep b) /\ forall y, In y r -> exists a b, s = a ++ y ++ b /\ (exists a' c, a = a' ++ [c] /\ separator c = true) /\ starts_sep b end).
  { induction s as [|d s IH]; cbn [split_char].
    - split; [|intros y []]. exists []. split; [reflexivity|now left].
    - destruct (Ascii.eqb_spec d c) as [->|N].
      + split; [exists (c :: s); split; [reflexivity|right; eauto]|]. destruct (split_char c s) as [|x r]; [destruct IH|]. destruct IH as [(b & E & B) IH]. intros y [<-|I].
        * exists [c], b. split; [cbn [app]; now rewrite E at 1|]. split; [exists [], c; auto|exact B].
        * destruct (IH y I) as (a & b' & E' & (a' & d & -> & D) & B'). exists (c :: a' ++ [d]), b'. split; [cbn [app]; now rewrite E' at 1|]. split; [exists (c :: a'), d; auto|exact B'].
      + destruct (split_char c s) as [|x r]; [destruct IH|].
        * destruct IH as [(b & E & B) IH]. split; [exists b; split; [cbn [app]; now rewrite E at 1|exact B]|].
          intros y I. destruct (IH y I) as (a & b' & E' & (a' & d' & -> & D) & B'). exists (d :: a' ++ [d']), b'. split; [cbn [app]; now rewrite E' at 1|]. split; [exists (d :: a'), d'; auto|exact B']. }
  intros x I. destruct (split_char c s) as [|y r]; [destruct I|]. destruct G as [(b & E & B) G]. destruct I as [<-|I].
  - exists [], b. split; [exact E|]. split; [now left|exact B].
  - destruct (G x I) as (a & b' & E' & A & B'). exists a, b'. split; [exact E'|]. split; [now right|exact B'].
Qed.

(** The text in front of the last opening parenthesis. *)
Lemma offset_first x o : no_nl x -> re_find_str OFFSET_RE x = Some o -> exists u rest, x = u ++ "("%char :: rest /\ no_open rest /\ o = u ++ #"(".
Proof.
  intros N H. destruct (in_dec ascii_dec "("%char x) as [I|I].
  - assert (L : exists u rest, x = u ++ "("%char :: rest /\ no_open rest).
    { clear -I. induction x as [|c x IH]; [destruct I|]. destruct (in_dec ascii_dec "("%char x) as [J|J].
      - destruct (IH J) as (u & r & -> & R). now exists (c :: u), r.
      - destruct I as [->|I]; [|contradiction]. now exists [], x. }
    destruct L as (u & rest & -> & R). exists u, rest. split; [reflexivity|]. split; [exact R|]. destruct u as [|c u].
    + exfalso. unfold re_find_str in H. cbn [app] in H. rewrite offset_find_none in H by exact R. discriminate.
    + rewrite offset_find in H; [congruence|discriminate|exact N|exact R].
  - exfalso. unfold re_find_str in H. destruct x as [|c x]; [discriminate H|]. rewrite offset_find_none in H; [discriminate|]. intros J. apply I. now right.
Qed.
Lemma last_paren_app a rest : no_open rest -> last_paren (a ++ "("%char :: rest) = remove_all #"(" a ++ "("%char :: rest.
Proof.
  intros R. assert (L : forall r, no_open r -> last_paren r = r).
  { induction r as [|c r IH]; intros N; [reflexivity|]. cbn [last_paren]. rewrite IH by (intros I; apply N; now right). destruct (Ascii.eqb_spec c "("); [|reflexivity]. exfalso. apply N. left. congruence. }
  assert (E0 : existsb (Ascii.eqb "(") rest = false).
  { destruct (existsb _ _) eqn:E; [|reflexivity]. apply existsb_exists in E as (c & I & E). apply Ascii.eqb_eq in E. subst c. contradiction. }
  induction a as [|c a IH]; cbn [app last_paren].
  - rewrite E0, andb_false_r, (L rest R). reflexivity.
  - assert (E1 : existsb (Ascii.eqb "(") (a ++ "("%char :: rest) = true) by (rewrite existsb_app; cbn [existsb]; rewrite Ascii.eqb_refl; now rewrite orb_true_r).
    rewrite E1, andb_true_r, IH. unfold remove_all. cbn [remove_go].
    assert (E : starts_with #"(" (c :: a) = Ascii.eqb "(" c) by (change (starts_with #"(" (c :: a)) with (Ascii.eqb "(" c && true)%bool; apply andb_true_r). rewrite E.
    rewrite (Ascii.eqb_sym c "("). destruct (Ascii.eqb "(" c); reflexivity.
Qed.

Lemma split_two c s a x : split_char c s = [a; x] -> s = a ++ c :: x.
Proof. intros H. rewrite <- (SpacingProofs.join_split c s), H. reflexivity. Qed.

(** The texts that are looked up among the labels. *)
Inductive looked_up (arg : str) (args : list str) : str -> Prop :=
| lu_operand x : In x args -> looked_up arg args (trim x)
| lu_all : looked_up arg args (trim arg)
| lu_zero : looked_up arg args #"0"
| lu_offset a x o : args = [a; x] -> re_find_str OFFSET_RE x = Some o -> looked_up arg args (trim (firstn (List.length o - 1) o))
| lu_float a x o : args = [a; x] -> re_find_str OFFSET_RE x = Some o -> looked_up arg args (trim (remove_all #"(" o)).

Lemma remove_app a b : remove_all #"(" (a ++ b) = remove_all #"(" a ++ remove_all #"(" b.
Proof.
  unfold remove_all. induction a as [|c a IH]; [reflexivity|]. cbn [app remove_go].
  assert (E : forall r, starts_with #"(" (c :: r) = Ascii.eqb "(" c) by (intros r; change (starts_with #"(" (c :: r)) with (Ascii.eqb "(" c && true)%bool; apply andb_true_r). rewrite !E.
  destruct (Ascii.eqb "(" c); [exact IH|]. cbn [app]. f_equal. exact IH.
Qed.
Lemma looked_up_word ln op arg n : no_nl ln -> split_once " " ln = Some (op, arg) -> looked_up arg (split_char "," arg) n -> n <> #"0" ->
  word_in n ln \/ word_in n (last_paren ln).
Proof.
  intros N E C Nz. apply split_once_decomp in E. assert (Sp : ends_sep (op ++ #" ")) by (right; exists op, " "%char; auto).
  assert (Pre : forall a, ends_sep a -> ends_sep (op ++ #" " ++ a)).
  { intros a [->|(a' & c & -> & Sc)]; [now rewrite app_nil_r|]. right. exists (op ++ #" " ++ a'), c. split; [now rewrite <- !app_assoc|exact Sc]. }
  assert (El : ln = (op ++ #" ") ++ arg) by (rewrite <- app_assoc; exact E). clear E.
  destruct C as [x I| | |a x o Ex O|a x o Ex O].
  - left. destruct (split_delimited "," arg eq_refl x I) as (a & b & Ea & A & B). rewrite El, Ea. rewrite <- app_assoc.
    replace (op ++ #" " ++ a ++ x ++ b) with ((op ++ #" " ++ a) ++ x ++ b) by (now rewrite <- !app_assoc). apply trim_word; auto.
  - left. rewrite El. rewrite <- (app_nil_r arg) at 2. apply trim_word; [exact Sp|now left].
  - congruence.
  - left. apply split_two in Ex. assert (Nx : no_nl x) by (intros I; apply N; rewrite El, Ex; apply in_or_app; right; apply in_or_app; right; now right).
    destruct (offset_first x o Nx O) as (u & rest & Eu & R & ->). rewrite app_length, Nat.add_sub, firstn_app, Nat.sub_diag, firstn_all, app_nil_r.
    rewrite El, Ex, Eu. replace ((op ++ #" ") ++ a ++ ","%char :: u ++ "("%char :: rest) with ((op ++ #" " ++ a ++ #",") ++ u ++ "("%char :: rest) by (now rewrite <- !app_assoc).
    apply trim_word; [apply Pre; right; now exists a, ","%char|right; now exists "("%char, rest].
  - right. apply split_two in Ex. assert (Nx : no_nl x) by (intros I; apply N; rewrite El, Ex; apply in_or_app; right; apply in_or_app; right; now right).
    destruct (offset_first x o Nx O) as (u & rest & Eu & R & ->). rewrite El, Ex, Eu.
    replace ((op ++ #" ") ++ a ++ ","%char :: u ++ "("%char :: rest) with (((op ++ #" ") ++ a ++ #",") ++ u ++ "("%char :: rest) by (now rewrite <- !app_assoc).
    rewrite app_assoc, last_paren_app by exact R. rewrite !remove_app. change (remove_all #"(" #"(") with ([] : str). rewrite app_nil_r. rewrite <- !app_assoc.
    replace (remove_all #"(" op ++ remove_all #"(" #" " ++ remove_all #"(" a ++ remove_all #"(" #"," ++ remove_all #"(" u ++ "("%char :: rest)
      with ((remove_all #"(" op ++ remove_all #"(" #" " ++ remove_all #"(" a ++ #",") ++ remove_all #"(" u ++ "("%char :: rest) by (change (remove_all #"(" #",") with #","; now rewrite <- !app_assoc).
    apply trim_word; [right; exists (remove_all #"(" op ++ remove_all #"(" #" " ++ remove_all #"(" a), ","%char; split; [now rewrite <- !app_assoc|reflexivity]|right; now exists "("%char, rest].
Qed.

(** ** What reading a line depends on among the labels *)

Definition with_labels (s : pstate) (l : list (str * nat)) : pstate := mk_pstate (p_insts s) l (p_local s) (p_dropped s) (p_line s) (p_errors s) (p_warnings s).

Section Labels.
Variables (e : env) (s : pstate) (l : list (str * nat)) (arg : str) (args : list str).
Hypothesis Same : forall n, looked_up arg args n -> (assoc n (p_labels s) = None <-> assoc n l = None).
Let s2 := with_labels s l.

Lemma imm_labels t x : looked_up arg args (trim x) -> parse_immediate e s t x = parse_immediate e s2 t x.
Proof.
  intros L. unfold parse_immediate. change (p_labels s2) with l. specialize (Same _ L).
  destruct (starts_with #"@@" (trim x)); [reflexivity|]. destruct (assoc (trim x) (p_labels s)), (assoc (trim x) l); try reflexivity.
  - destruct Same as [_ X]. discriminate (X eq_refl).
  - destruct Same as [X _]. discriminate (X eq_refl).
Qed.
Lemma aimm_labels t x : looked_up arg args (trim x) -> aimm e s t x = aimm e s2 t x.
Proof. intros L. unfold aimm. now rewrite imm_labels. Qed.

(** The labels of an instruction are among those texts. *)
Definition label_of (i : inst) : option str :=
  match i with IImm _ _ _ (Label n) _ | IImm _ _ _ (LocalLabel n) _ | IJump _ (TLabel n) _ => Some n | _ => None end.
Definition imm_label (i : immediate) : Prop := match i with Label n | LocalLabel n => looked_up arg args n | _ => True end.
Definition inst_label (i : inst) : Prop := match label_of i with Some n => looked_up arg args n | None => True end.
Lemma aimm_label t x : looked_up arg args (trim x) -> yields imm_label (aimm e s t x).
Proof.
  intros L. assert (New : forall t v, match @imm_new perror t v with Ok i => imm_label i | _ => True end).
  { intros t' v. unfold imm_new. destruct (_ =? _); [exact Logic.I|]. destruct (_ =? _); [exact Logic.I|]. destruct (_ =? _); exact Logic.I. }
  unfold yields, aimm, lift, parse_immediate, fail_at. cbn [snd]. destruct (starts_with #"@@" (trim x)); [exact L|]. destruct (assoc (trim x) (p_labels s)); [exact L|].
  destruct (re_find_str IMM_RE (trim x)).
  - destruct (parse_target e s (strip_parens s0)) as [a|p|p]; cbn [obind]; try exact Logic.I. destruct (Nat.ltb _ _); [exact Logic.I|]. destruct (str_eqb _ _); [|destruct (str_eqb _ _); [|exact Logic.I]].
    + destruct (target_as_u32 a); cbn [obind]; try exact Logic.I. destruct (ck32 _ _); cbn [obind]; try exact Logic.I; try apply New.
    + destruct (target_as_u32 a); cbn [obind]; try exact Logic.I; try apply New.
  - destruct (contains _ _); (destruct (parse_int _ _ _); [apply New|]); destruct (get_line _ _); exact Logic.I.
Qed.
End Labels.

Ltac operand := apply lu_operand; cbn [In]; auto 6.
Ltac ext := repeat lazymatch goal with
  | |- mbind _ _ = mbind _ _ => apply mbind_ext; [|intros ?]
  | |- aimm _ _ _ _ = _ => match goal with H : _ |- _ => apply (aimm_labels _ _ _ _ _ H); operand end
  | |- match ?x with _ => _ end = _ => destruct x eqn:?
  | |- mbind _ _ = _ => fail
  | |- lift _ = _ => reflexivity
  | |- bad_count _ _ _ _ _ = _ => reflexivity
  | |- _ => reflexivity
  end.
Ltac arity := repeat match goal with |- match ?x with [] => _ | _ :: _ => _ end = _ => is_var x; destruct x; try reflexivity end.

Lemma op_labels e s l arg args op : (forall n, looked_up arg args n -> (assoc n (p_labels s) = None <-> assoc n l = None)) -> parse_op e s op arg args = parse_op e (with_labels s l) op arg args.
Proof.
  intros Same. set (s2 := with_labels s l).
  unfold parse_op. destruct (classify _) as [[]|].
  - unfold parse_mem. destruct args as [|a [|x [|]]]; try reflexivity. apply mbind_ext; [ext|].  intros r. apply mbind_ext; [reflexivity|]. intros b. apply mbind_ext; [reflexivity|]. intros base.
    destruct (re_find_str OFFSET_RE x) as [o|] eqn:O.
    + apply mbind_ext; [reflexivity|]. intros p. apply mbind_ext; [|reflexivity]. apply (aimm_labels e s l _ _ Same). eapply lu_offset; [reflexivity|exact O].
    + apply mbind_ext; [reflexivity|]. intros p. apply mbind_ext; [|reflexivity]. apply (aimm_labels e s l _ _ Same). apply lu_zero.
  - unfold parse_imm3. arity. ext.
  - unfold parse_imm2. arity. ext.
  - unfold parse_trap_imm. arity. ext.
  - unfold parse_branch1. arity. ext.
  - unfold parse_branch2. arity. ext.
  - unfold parse_jump. arity.
  - unfold parse_plain. reflexivity.
  - unfold parse_reg3. arity.
  - unfold parse_shift. arity.
  - unfold parse_shiftv. arity.
  - unfold parse_code. destruct args as [|a [|]]; try reflexivity. apply mbind_ext; [destruct a; [reflexivity|]; apply (aimm_labels _ _ _ _ _ Same); rewrite trim_idem; operand|reflexivity].
  - unfold parse_reg2. arity.
  - unfold parse_jalr. arity.
  - unfold parse_move. arity.
  - unfold parse_b. arity. ext.
  - unfold parse_li. arity. ext.
  - unfold parse_div. arity.
  - unfold parse_rs. arity.
  - unfold parse_rd. arity.
  - unfold parse_dli. arity. ext.
  - unfold parse_b. arity. ext.
  - unfold parse_cop0. arity.
  - unfold parse_cop1. arity.
  - unfold parse_plain. reflexivity.
  - unfold parse_fmem. destruct args as [|a [|x [|]]]; try reflexivity. apply mbind_ext; [reflexivity|]. intros r. apply mbind_ext; [reflexivity|]. intros b. apply mbind_ext; [reflexivity|]. intros base. apply mbind_ext; [reflexivity|]. intros p.
    apply mbind_ext; [|reflexivity]. destruct (re_find_str OFFSET_RE x) as [o|] eqn:O; apply (aimm_labels e s l _ _ Same); [eapply lu_float; [reflexivity|exact O]|apply lu_zero].
  - unfold parse_word. apply mbind_ext; [|reflexivity]. apply (aimm_labels e s l _ _ Same), lu_all.
  - reflexivity.
Qed.

Ltac step := lazymatch goal with
  | |- yields _ (mbind (aimm _ _ _ _) _) => lazymatch goal with |- yields (inst_label ?g ?gs) _ => apply (yields_bind (imm_label g gs)); [apply aimm_label|intros ? ?] end
  | |- yields _ (mbind _ _) => apply (yields_bind (fun _ => True)); [apply yields_any|intros ? ?]
  | |- yields _ (lift (Ok _)) => cbn; unfold inst_label; cbn; first [exact Logic.I | match goal with H : imm_label _ _ ?i |- _ => destruct i; solve [exact Logic.I | exact H] end]
  | |- yields _ (bad_count _ _ _ _ _) => apply yields_count
  | |- yields _ (match ?a with _ => _ end) => destruct a eqn:?
  | |- looked_up _ _ (trim _) => first [apply lu_zero; fail | operand | idtac]
  end.
Lemma op_label e s arg args op : yields (inst_label arg args) (parse_op e s op arg args).
Proof.
  unfold parse_op. destruct (classify _) as [[]|].
  - unfold parse_mem. destruct args as [|a [|x [|]]]; try apply yields_count. step. step. step. destruct (re_find_str OFFSET_RE x) as [o|] eqn:O.
    + step. step; [eapply lu_offset; [reflexivity|exact O]|]. step.
    + step. step; [apply lu_zero|]. step.
  - unfold parse_imm3. destruct args as [|a [|b [|c [|]]]]; try apply yields_count. step. step. step.
    apply (yields_bind (imm_label arg [a; b; c])); [destruct (_ || _)%bool; apply aimm_label; operand|]. intros i Hi. unfold yields. cbn. unfold inst_label. cbn. destruct i; exact Hi.
  - unfold parse_imm2. repeat step.
  - unfold parse_trap_imm. repeat step.
  - unfold parse_branch1. repeat step.
  - unfold parse_branch2. repeat step.
  - unfold parse_jump. destruct args as [|a [|]]; try apply yields_count. step. cbv zeta.
    apply (yields_bind (fun t => match t with TLabel n => looked_up arg [a] n | _ => True end)).
    + assert (L : looked_up arg [a] (trim a)) by operand. unfold yields, lift, parse_target, fail_at. cbn [snd]. destruct (find _ _) as [[]|]; [exact Logic.I|]. destruct (starts_with _ _).
      * destruct (parse_int _ _ _); [exact Logic.I|]. destruct (get_line _ _); exact Logic.I.
      * destruct (trim a) as [|c r]; [exact Logic.I|]. destruct (parse_int u32 10 [c]); [|exact L]. destruct (parse_int u32 10 (c :: r)); [exact Logic.I|]. destruct (get_line _ _); exact Logic.I.
    + intros t Ht. step. step. cbn. unfold inst_label. cbn. destruct t; exact Ht.
  - unfold parse_plain. repeat step.
  - unfold parse_reg3. repeat step.
  - unfold parse_shift. repeat step.
  - unfold parse_shiftv. repeat step.
  - unfold parse_code. destruct args as [|a [|]]; try apply yields_count. apply (yields_bind (fun _ => True)); [apply yields_any|]. intros i _. repeat step.
  - unfold parse_reg2. repeat step.
  - unfold parse_jalr. repeat step.
  - unfold parse_move. repeat step.
  - unfold parse_b. repeat step.
  - unfold parse_li. destruct args as [|a [|b [|]]]; try apply yields_count. step. step; [operand|]. step. destruct (_ >? _); [|repeat step].
    unfold yields, lift, fail_at, get_line. cbn. destruct (nth_error _ _); exact Logic.I.
  - unfold parse_div. repeat step.
  - unfold parse_rs. repeat step.
  - unfold parse_rd. repeat step.
  - unfold parse_dli. repeat step.
  - unfold parse_b. repeat step.
  - unfold parse_cop0. repeat step.
  - unfold parse_cop1. repeat step.
  - unfold parse_plain. repeat step.
  - unfold parse_fmem. destruct args as [|a [|x [|]]]; try apply yields_count. step. step. step. step. step; [|step].
    destruct (re_find_str OFFSET_RE x) as [o|] eqn:O; [eapply lu_float; [reflexivity|exact O]|apply lu_zero].
  - unfold parse_word. step; [apply lu_all|]. repeat step.
  - unfold parse_float. destruct (Nat.ltb _ _); [exact Logic.I|]. cbv zeta. destruct (mem_str _ float3_names); [repeat step|]. destruct (mem_str _ float2_names); [repeat step|].
    destruct (starts_with _ _); [repeat step|]. unfold yields, lift, fail_at, get_line. cbn. destruct (nth_error _ _); exact Logic.I.
Qed.

(** A whole line. *)
Lemma looked_up_line ln n : no_nl ln -> (let (op, arg) := match split_once " " ln with Some oa => oa | None => (ln, []) end in looked_up arg (split_char "," arg) n) ->
  n = [] \/ n = #"0" \/ word_in n ln \/ word_in n (last_paren ln).
Proof.
  intros N. destruct (split_once " " ln) as [[op arg]|] eqn:E.
  - intros L. destruct (str_eqb n #"0") eqn:Z; [right; left; now apply str_eqb_spec|]. right. right. apply (looked_up_word ln op arg n N E L). intros ->. discriminate Z.
  - intros L. destruct L as [x [<-|[]]| | |a x o Ex _|a x o Ex _]; [now left|now left|now right; left|discriminate|discriminate].
Qed.
Lemma line_labels e s l ln : no_nl ln -> (forall n, n = [] \/ n = #"0" \/ word_in n ln \/ word_in n (last_paren ln) -> assoc n (p_labels s) = None /\ assoc n l = None) ->
  parse_inst e s ln = parse_inst e (with_labels s l) ln.
Proof.
  intros N H. assert (X := fun n => looked_up_line ln n N). unfold parse_inst. destruct (match split_once " " ln with Some oa => oa | None => (ln, []) end) as [op arg]. destruct ln as [|c ln]; [reflexivity|].
  apply op_labels. intros n L. destruct (H n (X n L)) as [-> ->]. reflexivity.
Qed.
Lemma line_label e s ln w i n : no_nl ln -> parse_inst e s ln = (w, Ok i) -> label_of i = Some n -> n = [] \/ n = #"0" \/ word_in n ln \/ word_in n (last_paren ln).
Proof.
  intros N P L. apply (looked_up_line ln n N). unfold parse_inst in P. destruct (match split_once " " ln with Some oa => oa | None => (ln, []) end) as [op arg]. destruct ln as [|c ln]; [unfold lift, fail_at, get_line in P; destruct (nth_error _ _); discriminate P|].
  assert (Y := op_label e s arg (split_char "," arg) op). unfold yields in Y. rewrite P in Y. cbn [snd] in Y. unfold inst_label in Y. now rewrite L in Y.
Qed.

(** ** References *)

Definition reference_group (g : option group) : bool := match g with Some GBranch1 | Some GBranch2 | Some GB | Some GBc | Some GJump => true | _ => false end.
Lemma refers_group name : refers name -> name_okb name = true /\ reference_group (classify (trim (to_lower name))) = true.
Proof.
  assert (X : forallb (fun n => (name_okb n && reference_group (classify (trim (to_lower n))))%bool) ([ #"j"; #"jal" ] ++ map f_name (filter (fun f => negb (no_branch f)) (isa ++ idioms)) ++ map (fun x => fst (fst x)) compare_branches) = true) by (vm_compute; reflexivity).
  intros R. rewrite forallb_forall in X. specialize (X name). apply andb_prop. apply X. destruct R as [R|[(f & If & <- & B)|(lk & rl & I)]].
  - apply in_or_app. now left.
  - apply in_or_app. right. apply in_or_app. left. apply in_map, filter_In. split; [exact If|]. unfold no_branch.
    destruct (forallb _ (f_ops f)) eqn:F; [|reflexivity]. rewrite forallb_forall in F. specialize (F _ B). discriminate F.
  - apply in_or_app. right. apply in_or_app. right. apply (in_map (fun x => fst (fst x))) in I. exact I.
Qed.

Inductive same_ref (n n' : str) : inst -> inst -> Prop :=
| sr_label p rs rt b : same_ref n n' (IImm p rs rt (Label n) b) (IImm p rs rt (Label n') b)
| sr_local p rs rt b : same_ref n n' (IImm p rs rt (LocalLabel n) b) (IImm p rs rt (LocalLabel n') b)
| sr_jump p b : same_ref n n' (IJump p (TLabel n) b) (IJump p (TLabel n') b).
Definition plain_label (n : str) : Prop := identifier n /\ ~ occurs #"0x" n.
Lemma name_no_open n : identifier n -> no_open n.
Proof. intros [_ F] I. rewrite forallb_forall in F. specialize (F _ I). discriminate F. Qed.
Lemma name_not_number n : identifier n -> parse_int u32 10 n = None.
Proof.
  intros [H F]. destruct n as [|c n]; [destruct H|]. assert (C : label_char c = true) by (rewrite forallb_forall in F; apply F; now left).
  unfold parse_int. clear F. destruct c as [[] [] [] [] [] [] [] []]; try discriminate C; try discriminate H; cbn; try reflexivity; destruct n; reflexivity.
Qed.
(** What a branch to a label is read as. *)
Definition branch_ref (s : pstate) (n : str) : option immediate :=
  if is_local n then Some (LocalLabel n) else match assoc n (p_labels s) with Some _ => Some (Label n) | None => None end.
Lemma aimm_ref e s raw n x : ready e s raw -> plain_label n -> trim x = n ->
  match branch_ref s n with Some i => aimm e s u32 x = lift (Ok i) | None => exists p, aimm e s u32 x = lift (Err p) end.
Proof.
  intros Rd [Id Nh] T. unfold branch_ref, aimm, parse_immediate. rewrite T. fold (is_local n). destruct (is_local n); [reflexivity|]. destruct (assoc n (p_labels s)); [reflexivity|].
  rewrite (no_open_imm n (name_no_open n Id)). destruct (contains #"0x" n) eqn:C; [exfalso; apply Nh; destruct (contains_part _ _ C) as (u & v & ->); now exists u, v|].
  rewrite (name_not_number n Id). unfold fail_at. rewrite (get_line_ready _ _ _ Rd). cbn [obind]. eauto.
Qed.
Lemma target_ref e s n : identifier n -> find (fun av => str_eqb (snd av) n) (e_syms e) = None -> parse_target e s n = Ok (TLabel n).
Proof.
  intros [H F] Sy. unfold parse_target. rewrite Sy. destruct n as [|c n]; [destruct H|].
  assert (Z : starts_with #"0x" (c :: n) = false) by (change (starts_with #"0x" (c :: n)) with (Ascii.eqb "0" c && starts_with #"x" n)%bool; destruct (Ascii.eqb_spec "0" c) as [<-|]; [discriminate H|reflexivity]). rewrite Z.
  assert (Q : parse_int u32 10 [c] = None) by (apply name_not_number; split; [exact H|]; cbn [forallb] in F |- *; apply andb_prop in F as [-> _]; reflexivity). now rewrite Q.
Qed.
Lemma not_symbol n (syms : list (Z * str)) : (forall a, ~ In (a, n) syms) -> find (fun av => str_eqb (snd av) n) syms = None.
Proof. intros H. destruct (find _ syms) as [[a t]|] eqn:E; [|reflexivity]. apply find_some in E as [I E]. apply str_eqb_spec in E. cbn in E. subst t. now destruct (H a). Qed.

Lemma reference_parse e e' s s' raw raw' name ts n n' w i : refers name -> (forall t, In t ts -> exists a, gpr_text t a) -> plain_label n -> plain_label n' -> is_local n = is_local n' ->
  (forall a, ~ In (a, n) (e_syms e)) -> (forall a, ~ In (a, n') (e_syms e')) -> (assoc n (p_labels s) = None <-> assoc n' (p_labels s') = None) ->
  instruction_line name (ts ++ [n]) raw -> instruction_line name (ts ++ [n']) raw' -> no_nl raw -> no_nl raw' -> ready e s raw -> ready e' s' raw' ->
  role_of raw = Instruction /\ role_of raw' = Instruction /\
  (parse_inst e s (clean raw) = (w, Ok i) -> exists w' i', parse_inst e' s' (clean raw') = (w', Ok i') /\ same_ref n n' i i').
Proof.
  intros R G [Idn Nh] [Idn' Nh'] Lo Sy Sy' As L L' N N' Rd Rd'. destruct (refers_group name R) as [Nk Gr]. clear R.
  assert (F : forall m, identifier m -> Forall operand_ok (ts ++ [m])).
  { intros m Im. apply Forall_app. split; [|constructor; [now apply identifier_operand|constructor]]. apply Forall_forall. intros t It. destruct (G t It) as [a Ga]. now apply gpr_operand in Ga. }
  destruct (line_parse_parts e s name (ts ++ [n]) raw (name_okb_ok _ Nk) (F n Idn) N L) as (op & arg & xs & SL & Ar & Ne & Ec & P).
  destruct (line_parse_parts e' s' name (ts ++ [n']) raw' (name_okb_ok _ Nk) (F n' Idn') N' L') as (op' & arg' & xs' & SL' & Ar' & Ne' & Ec' & P').
  assert (Ro : forall r, clean r <> [] -> ends_with #":" (clean r) = false -> role_of r = Instruction) by (intros r Nr Er; unfold role_of; destruct (clean r); [congruence|now rewrite Er]).
  split; [now apply Ro|]. split; [now apply Ro|]. intros Q. rewrite P in Q. rewrite P'. clear P P' Ro L L' F.
  destruct Ar as [[E _]|[_ Ar]]; [destruct ts; discriminate E|]. destruct Ar' as [[E _]|[_ Ar']]; [destruct ts; discriminate E|].
  apply Forall2_app_inv_l in Ar as (ys & zs & Ys & Zs & ->). apply Forall2_app_inv_l in Ar' as (ys' & zs' & Ys' & Zs' & ->).
  inversion Zs as [|? x ? ? [Px _] Nz]; subst. inversion Nz; subst. clear Zs Nz. inversion Zs' as [|? x' ? ? [Px' _] Nz]; subst. inversion Nz; subst. clear Zs' Nz.
  assert (T := identifier_trim n x Idn Px). assert (T' := identifier_trim n' x' Idn' Px').
  assert (Bi := aimm_ref e s raw n x Rd (conj Idn Nh) T). assert (Bi' := aimm_ref e' s' raw' n' x' Rd' (conj Idn' Nh') T').
  assert (Brl : branch_ref s n = None \/ exists m m', branch_ref s n = Some m /\ branch_ref s' n' = Some m' /\ (m = Label n /\ m' = Label n' \/ m = LocalLabel n /\ m' = LocalLabel n')).
  { unfold branch_ref. rewrite <- Lo. destruct (is_local n); [right; eauto 7|]. destruct (assoc n (p_labels s)), (assoc n' (p_labels s')); auto; [right; eauto 7|]. destruct As as [_ X]. discriminate (X eq_refl). }
  assert (Cl : classify (trim (to_lower op)) = classify (trim (to_lower name))) by (now rewrite (lower_trim _ _ SL)).
  assert (Cl' : classify (trim (to_lower op')) = classify (trim (to_lower name))) by (now rewrite (lower_trim _ _ SL')).
  assert (Io : iop_of op' = iop_of op) by (rewrite (iop_of_letters _ _ SL), (iop_of_letters _ _ SL'); reflexivity).
  assert (Jo : jop_of op' = jop_of op) by (rewrite (jop_of_letters _ _ SL), (jop_of_letters _ _ SL'); reflexivity).
  assert (D := check_delay_ok e s raw Rd). assert (D' := check_delay_ok e' s' raw' Rd').
  assert (Cb : forall en st m y, m = Label n \/ m = LocalLabel n \/ m = Label n' \/ m = LocalLabel n' -> check_branch en st m y = ([], Ok tt)) by (intros en st m y [->|[->|[->| ->]]]; reflexivity).
  assert (Sr : forall m m' p rs r2 b, (m = Label n /\ m' = Label n' \/ m = LocalLabel n /\ m' = LocalLabel n') -> same_ref n n' (IImm p rs r2 m b) (IImm p rs r2 m' b)) by (intros m m' p rs r2 b [[-> ->]|[-> ->]]; constructor).
  assert (Gp : forall y y' t, In t ts -> padded t y -> padded t y' -> exists r, areg e s y = lift (Ok r) /\ areg e' s' y' = lift (Ok r)).
  { intros y y' t It Py Py'. destruct (G t It) as [a Ga]. exists (reg_of_num a). split; eapply areg_ok; eauto. }
  assert (Rn : ys = [] /\ ys' = [] \/ (exists y y' t, ys = [y] /\ ys' = [y'] /\ In t ts /\ padded t y /\ padded t y')
    \/ (exists y z y' z' t u, ys = [y; z] /\ ys' = [y'; z'] /\ In t ts /\ In u ts /\ padded t y /\ padded t y' /\ padded u z /\ padded u z') \/ (3 <= List.length ys)%nat).
  { clear -Ys Ys'. destruct Ys as [|t y ts ys [P1 _] Ys]; [inversion Ys'; auto|]. inversion Ys' as [|? y' ? yr' [P1' _] Ys2]; subst.
    destruct Ys as [|u z ts ys [P2 _] Ys]; [inversion Ys2; subst; right; left; exists y, y', t; cbn; auto|]. inversion Ys2 as [|? z' ? ys2 [P2' _] Ys3]; subst.
    destruct Ys as [|v a ts ys _ Ys]; [inversion Ys3; subst; right; right; left; exists y, z, y', z', t, u; cbn; auto 9|]. right. right. right. cbn. lia. }
  assert (Bc : forall a b ww, @bad_count e s inst arg a b <> (ww, Ok i)) by (intros a b ww H; unfold bad_count, lift, fail_at, get_line in H; destruct (nth_error _ _); discriminate H).
  assert (Ct : forall r, parse_op e s op arg r = (w, Ok i) -> (3 <= List.length ys)%nat -> r = ys ++ [x] -> reference_group (classify (trim (to_lower op))) = true -> False).
  { intros r H Ln -> Gg. destruct ys as [|y1 [|y2 [|y3 ys]]]; cbn in Ln; try lia. unfold parse_op in H. destruct (classify (trim (to_lower op))) as [[]|]; try discriminate Gg; unfold parse_branch1, parse_branch2, parse_jump, parse_b in H; cbn [app] in H; try exact (Bc _ _ _ H).
    destruct ys; exact (Bc _ _ _ H). }
  rewrite <- Cl in Gr, Cl'.
  destruct Rn as [[-> ->]|[(y & y' & t & -> & -> & It & Py & Py')|[(y & z & y' & z' & t & u & -> & -> & It & Iu & Py & Py' & Pz & Pz')|Ln]]]; [| | |exfalso; exact (Ct _ Q Ln eq_refl Gr)]; clear Ct; cbn [app] in *.
  - destruct (classify (trim (to_lower op))) as [g|] eqn:C; [|discriminate Gr]. destruct g; try discriminate Gr.
    + exfalso. unfold parse_op in Q. rewrite C in Q. exact (Bc _ _ _ Q).
    + exfalso. unfold parse_op in Q. rewrite C in Q. exact (Bc _ _ _ Q).
    + assert (Tt := target_ref e s n Idn (not_symbol n _ Sy)). assert (Tt' := target_ref e' s' n' Idn' (not_symbol n' _ Sy')).
      destruct (jop_of op) as [p|p|p] eqn:Jp; [|exfalso|exfalso].
      * rewrite (g_jump e s op arg _ [] p x n (TLabel n) C Jp D T Tt eq_refl) in Q. injection Q as _ <-. exists (delay_warning e' s' raw' ++ []), (IJump p (TLabel n') []).
        split; [|constructor]. apply (g_jump e' s' op' arg' _ [] p x' n' (TLabel n') Cl' Jo D' T' Tt' eq_refl).
      * unfold parse_op in Q. rewrite C in Q. unfold parse_jump in Q. rewrite D, T, Tt, Jp in Q. discriminate Q.
      * unfold parse_op in Q. rewrite C in Q. unfold parse_jump in Q. rewrite D, T, Tt, Jp in Q. discriminate Q.
    + destruct Brl as [Br|(m & m' & Br & Br' & Mm)]; [exfalso; rewrite Br in Bi; destruct Bi as [q Bi]; unfold parse_op in Q; rewrite C in Q; unfold parse_b in Q; rewrite D, Bi in Q; discriminate Q|].
      rewrite Br in Bi. rewrite Br' in Bi'. assert (C1 : check_branch e s m x = ([], Ok tt)) by (apply Cb; tauto). assert (C2 : check_branch e' s' m' x' = ([], Ok tt)) by (apply Cb; tauto).
      destruct (iop_of op) as [p|p|p] eqn:Ip; [|exfalso|exfalso].
      * rewrite (g_b e s op arg _ [] p x m (or_introl C) Ip D Bi C1) in Q. injection Q as _ <-. exists (delay_warning e' s' raw' ++ []), (IImm p reg_null reg_null m' []).
        split; [|now apply Sr]. apply (g_b e' s' op' arg' _ [] p x' m' (or_introl Cl') Io D' Bi' C2).
      * unfold parse_op in Q. rewrite C in Q. unfold parse_b in Q. rewrite D, Bi in Q. cbn [mbind lift] in Q. rewrite C1, Ip in Q. discriminate Q.
      * unfold parse_op in Q. rewrite C in Q. unfold parse_b in Q. rewrite D, Bi in Q. cbn [mbind lift] in Q. rewrite C1, Ip in Q. discriminate Q.
    + destruct Brl as [Br|(m & m' & Br & Br' & Mm)]; [exfalso; rewrite Br in Bi; destruct Bi as [q Bi]; unfold parse_op in Q; rewrite C in Q; unfold parse_b in Q; rewrite D, Bi in Q; discriminate Q|].
      rewrite Br in Bi. rewrite Br' in Bi'. assert (C1 : check_branch e s m x = ([], Ok tt)) by (apply Cb; tauto). assert (C2 : check_branch e' s' m' x' = ([], Ok tt)) by (apply Cb; tauto).
      destruct (iop_of op) as [p|p|p] eqn:Ip; [|exfalso|exfalso].
      * rewrite (g_b e s op arg _ [] p x m (or_intror C) Ip D Bi C1) in Q. injection Q as _ <-. exists (delay_warning e' s' raw' ++ []), (IImm p reg_null reg_null m' []).
        split; [|now apply Sr]. apply (g_b e' s' op' arg' _ [] p x' m' (or_intror Cl') Io D' Bi' C2).
      * unfold parse_op in Q. rewrite C in Q. unfold parse_b in Q. rewrite D, Bi in Q. cbn [mbind lift] in Q. rewrite C1, Ip in Q. discriminate Q.
      * unfold parse_op in Q. rewrite C in Q. unfold parse_b in Q. rewrite D, Bi in Q. cbn [mbind lift] in Q. rewrite C1, Ip in Q. discriminate Q.
  - destruct (Gp y y' t It Py Py') as (r & Ra & Ra'). destruct (classify (trim (to_lower op))) as [g|] eqn:C; [|discriminate Gr].
    destruct g; try discriminate Gr; try (exfalso; unfold parse_op in Q; rewrite C in Q; exact (Bc _ _ _ Q)).
    destruct Brl as [Br|(m & m' & Br & Br' & Mm)]; [exfalso; rewrite Br in Bi; destruct Bi as [q Bi]; unfold parse_op in Q; rewrite C in Q; unfold parse_branch1 in Q; rewrite D, Ra, Bi in Q; discriminate Q|].
    rewrite Br in Bi. rewrite Br' in Bi'. assert (C1 : check_branch e s m x = ([], Ok tt)) by (apply Cb; tauto). assert (C2 : check_branch e' s' m' x' = ([], Ok tt)) by (apply Cb; tauto).
    destruct (iop_of op) as [p|p|p] eqn:Ip; [|exfalso|exfalso].
    + rewrite (g_branch1 e s op arg _ [] p y x r m C Ip D Ra Bi C1) in Q. injection Q as _ <-. exists (delay_warning e' s' raw' ++ []), (IImm p r reg_null m' []).
      split; [|now apply Sr]. apply (g_branch1 e' s' op' arg' _ [] p y' x' r m' Cl' Io D' Ra' Bi' C2).
    + unfold parse_op in Q. rewrite C in Q. unfold parse_branch1 in Q. rewrite D, Ra, Bi in Q. cbn [mbind lift] in Q. rewrite C1, Ip in Q. discriminate Q.
    + unfold parse_op in Q. rewrite C in Q. unfold parse_branch1 in Q. rewrite D, Ra, Bi in Q. cbn [mbind lift] in Q. rewrite C1, Ip in Q. discriminate Q.
  - destruct (Gp y y' t It Py Py') as (r & Ra & Ra'). destruct (Gp z z' u Iu Pz Pz') as (r2 & Rb & Rb'). destruct (classify (trim (to_lower op))) as [g|] eqn:C; [|discriminate Gr].
    destruct g; try discriminate Gr; try (exfalso; unfold parse_op in Q; rewrite C in Q; exact (Bc _ _ _ Q)).
    destruct Brl as [Br|(m & m' & Br & Br' & Mm)]; [exfalso; rewrite Br in Bi; destruct Bi as [q Bi]; unfold parse_op in Q; rewrite C in Q; unfold parse_branch2 in Q; rewrite D, Ra, Rb, Bi in Q; discriminate Q|].
    rewrite Br in Bi. rewrite Br' in Bi'. assert (C1 : check_branch e s m x = ([], Ok tt)) by (apply Cb; tauto). assert (C2 : check_branch e' s' m' x' = ([], Ok tt)) by (apply Cb; tauto).
    destruct (iop_of op) as [p|p|p] eqn:Ip; [|exfalso|exfalso].
    + rewrite (g_branch2 e s op arg _ [] p y z x r r2 m C Ip D Ra Rb Bi C1) in Q. injection Q as _ <-. exists (delay_warning e' s' raw' ++ []), (IImm p r r2 m' []).
      split; [|now apply Sr]. apply (g_branch2 e' s' op' arg' _ [] p y' z' x' r r2 m' Cl' Io D' Ra' Rb' Bi' C2).
    + unfold parse_op in Q. rewrite C in Q. unfold parse_branch2 in Q. rewrite D, Ra, Rb, Bi in Q. cbn [mbind lift] in Q. rewrite C1, Ip in Q. discriminate Q.
    + unfold parse_op in Q. rewrite C in Q. unfold parse_branch2 in Q. rewrite D, Ra, Rb, Bi in Q. cbn [mbind lift] in Q. rewrite C1, Ip in Q. discriminate Q.
Qed.
