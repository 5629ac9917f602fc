(** * DecodeProofs: what debug-mode disassembly prints for every word (proofs only). *)

From Coq Require Import Lia.
From Verif Require Import Lib SpecIsa StrLemmas.

(** ** Bit fields *)

Lemma land_field w k n : 0 <= k -> 0 <= n -> Z.land (shr w k) (2 ^ n - 1) = field w k n.
Proof.
  intros Hk Hn. unfold shr, field. rewrite Z.shiftr_div_pow2 by lia.
  replace (2 ^ n - 1) with (Z.ones n) by (rewrite Z.ones_equiv; lia).
  now rewrite Z.land_ones.
Qed.
Lemma field_op w : is_word w -> shr w 26 = field w 26 6.
Proof.
  intros [H1 H2]. unfold shr, field. rewrite Z.shiftr_div_pow2 by lia.
  rewrite Z.mod_small; [reflexivity|]. split; [apply Z.div_pos; lia|].
  apply Z.div_lt_upper_bound; lia.
Qed.
Lemma field_range w k n : 0 <= n -> 0 <= field w k n < 2 ^ n.
Proof. intros. unfold field. apply Z.mod_pos_bound. lia. Qed.

Lemma shl_mul a k : 0 <= k -> 0 <= a -> a * 2 ^ k < 2 ^ 32 -> shl a k = a * 2 ^ k.
Proof.
  intros. unfold shl, wrap. rewrite Z.shiftl_mul_pow2 by lia. apply Z.mod_small. nia.
Qed.

(** [a | b] is a sum when the bits of [a] lie above those of [b]. *)
Lemma lor_add a b k : 0 <= k -> 0 <= b < 2 ^ k -> a mod 2 ^ k = 0 -> Z.lor a b = a + b.
Proof.
  intros Hk Hb Ha. symmetry. rewrite <- Z.lxor_lor.
  - apply Z.add_nocarry_lxor. apply Z.bits_inj'. intros n Hn. rewrite Z.land_spec, Z.bits_0.
    destruct (Z.ltb_spec n k).
    + replace (Z.testbit a n) with false; [reflexivity|]. symmetry.
      rewrite <- (Z.mod_pow2_bits_low a k n) by lia. rewrite Ha. apply Z.bits_0.
    + replace (Z.testbit b n) with false; [apply andb_false_r|]. symmetry.
      destruct (Z.eq_dec b 0) as [->|]; [apply Z.bits_0|].
      apply Z.bits_above_log2; [lia|]. apply Z.lt_le_trans with k; [|lia].
      apply Z.log2_lt_pow2; lia.
  - apply Z.bits_inj'. intros n Hn. rewrite Z.land_spec, Z.bits_0.
    destruct (Z.ltb_spec n k).
    + replace (Z.testbit a n) with false; [reflexivity|]. symmetry.
      rewrite <- (Z.mod_pow2_bits_low a k n) by lia. rewrite Ha. apply Z.bits_0.
    + replace (Z.testbit b n) with false; [apply andb_false_r|]. symmetry.
      destruct (Z.eq_dec b 0) as [->|]; [apply Z.bits_0|].
      apply Z.bits_above_log2; [lia|]. apply Z.lt_le_trans with k; [|lia].
      apply Z.log2_lt_pow2; lia.
Qed.

Lemma target_field base w : 0 <= base < 2 ^ 32 ->
  Z.lor (shl (Z.land w 67108863) 2) (Z.land base 4026531840)
  = base / 2 ^ 28 * 2 ^ 28 + field w 0 26 * 4.
Proof.
  intros Hb.
  assert (E1 : Z.land w 67108863 = field w 0 26).
  { change 67108863 with (2 ^ 26 - 1). rewrite <- land_field by lia. unfold shr.
    now rewrite Z.shiftr_0_r. }
  rewrite E1. assert (R := field_range w 0 26 ltac:(lia)).
  rewrite shl_mul by lia.
  assert (E2 : Z.land base 4026531840 = base / 2 ^ 28 * 2 ^ 28).
  { rewrite <- (Z.shiftr_div_pow2 base 28), <- Z.shiftl_mul_pow2 by lia.
    rewrite <- Z.ldiff_ones_r by lia. apply Z.bits_inj'. intros n Hn.
    rewrite Z.land_spec, Z.ldiff_spec, Z.testbit_ones_nonneg by lia.
    destruct (Z.ltb_spec n 32).
    - assert (I : In n (map Z.of_nat (seq 0 32))).
      { apply in_map_iff. exists (Z.to_nat n). rewrite in_seq. lia. }
      cbn in I. repeat (destruct I as [<-|I]; [cbn [negb Z.ltb Z.compare Pos.compare Pos.compare_cont];
        match goal with |- context [Z.testbit 4026531840 ?k] =>
          let v := eval vm_compute in (Z.testbit 4026531840 k) in
          change (Z.testbit 4026531840 k) with v end; reflexivity|]). destruct I.
    - assert (Z.testbit base n = false) as ->; [|reflexivity].
      destruct (Z.eq_dec base 0) as [->|]; [apply Z.bits_0|].
      apply Z.bits_above_log2; [lia|]. apply Z.lt_le_trans with 32; [|lia].
      apply Z.log2_lt_pow2; lia. }
  rewrite E2, Z.lor_comm. change (2 ^ 2) with 4. apply (lor_add _ _ 28); [lia|lia|].
  apply Z.mod_mul. lia.
Qed.

(** ** Texts without white space *)

Lemma digit_char_not_ws u d : is_ws (digit_char u d) = false \/ d < 0 \/ 36 <= d.
Proof.
  destruct (Z.ltb_spec d 0); [auto|]. destruct (Z.leb_spec 36 d); [auto|]. left.
  assert (I : In d (map Z.of_nat (seq 0 36))).
  { apply in_map_iff. exists (Z.to_nat d). rewrite in_seq. lia. }
  cbn in I. destruct u; repeat (destruct I as [<-|I]; [reflexivity|]); destruct I.
Qed.
Lemma digits_go_no_ws f u r n acc : 1 < r <= 36 -> no_ws acc -> no_ws (digits_go f u r n acc).
Proof.
  intros Hr. revert n acc. induction f as [|f IH]; intros n acc Ha; [exact Ha|].
  cbn [digits_go]. assert (B := Z.mod_pos_bound n r ltac:(lia)).
  assert (no_ws (digit_char u (n mod r) :: acc)) as H.
  { apply no_ws_cons. split; [|easy]. destruct (digit_char_not_ws u (n mod r)); [easy|lia]. }
  destruct (n / r =? 0); [exact H|]. now apply IH.
Qed.
Lemma digits_go_len f u r n acc : (List.length acc <= List.length (digits_go f u r n acc))%nat.
Proof.
  revert n acc. induction f as [|f IH]; intros n acc; [reflexivity|]. cbn [digits_go].
  destruct (n / r =? 0); [simpl; lia|]. specialize (IH (n / r) (digit_char u (n mod r) :: acc)).
  simpl in IH. lia.
Qed.
Lemma hex_no_ws n : no_ws (hex n).
Proof. apply digits_go_no_ws; [lia|apply no_ws_nil]. Qed.
Lemma hexU_no_ws n : no_ws (hexU n).
Proof. apply digits_go_no_ws; [lia|apply no_ws_nil]. Qed.
Lemma digits_go_nonempty f u r n acc : digits_go (S f) u r n acc <> [].
Proof.
  cbn [digits_go]. destruct (n / r =? 0); [easy|].
  assert (H := digits_go_len f u r (n / r) (digit_char u (n mod r) :: acc)).
  intros E. rewrite E in H. simpl in H. lia.
Qed.
Lemma hex_nonempty n : hex n <> [].
Proof. apply digits_go_nonempty. Qed.
Lemma zero_pad_no_ws w s : no_ws s -> no_ws (zero_pad w s).
Proof.
  intros H. unfold zero_pad. apply no_ws_app. split; [|easy].
  induction (w - List.length s)%nat; [easy|]. now apply no_ws_cons.
Qed.
Lemma signed_hex_no_ws v : no_ws (signed_hex v).
Proof.
  unfold signed_hex. apply no_ws_app. split; [destruct (v <? 32767); easy|].
  apply no_ws_app. split; [easy|apply hex_no_ws].
Qed.
Lemma hex0x_no_ws v : no_ws (hex0x v).
Proof. unfold hex0x. apply no_ws_app. split; [easy|apply hex_no_ws]. Qed.
Lemma dreg_no_ws r : no_ws (dreg r).
Proof. destruct r; reflexivity. Qed.
Lemma dfreg_no_ws r : no_ws (dfreg r).
Proof. destruct r; reflexivity. Qed.
Lemma c0reg_name_no_ws c : no_ws (c0reg_name c).
Proof. destruct c; reflexivity. Qed.

(** A printable operand: no white space, not empty. *)
Definition neat (s : str) : Prop := s <> [] /\ no_ws s.
Lemma neat_dreg r : neat (dreg r).
Proof. split; [easy|apply dreg_no_ws]. Qed.
Lemma neat_dfreg r : neat (dfreg r).
Proof. split; [easy|apply dfreg_no_ws]. Qed.
Lemma neat_signed v : neat (signed_hex v).
Proof. split; [|apply signed_hex_no_ws]. unfold signed_hex. now destruct (v <? 32767). Qed.
Lemma neat_hex0x v : neat (hex0x v).
Proof. split; [easy|apply hex0x_no_ws]. Qed.
Lemma neat_0x s : no_ws s -> neat (#"0x" ++ s).
Proof. split; [easy|]. now apply no_ws_app. Qed.
Lemma neat_mem a b : neat a -> no_ws b -> neat (a ++ #"(" ++ b ++ #")").
Proof.
  intros [H1 H2] H3. split.
  - destruct a; easy.
  - rewrite !no_ws_app. repeat split; easy.
Qed.
Lemma neat_c0 c : neat (c0reg_name c).
Proof. split; [now destruct c|apply c0reg_name_no_ws]. Qed.

Lemma neat_tight s : neat s -> tight_start s.
Proof. intros [H1 H2]. destruct s; [easy|]. now apply no_ws_cons in H2. Qed.

(** The operand list with one blank after each comma is left alone. *)
Lemma squeeze_join ts s : Forall neat ts -> ts <> [] -> s = [] ->
  squeeze (join sep ts ++ s) = join sep ts ++ s.
Proof.
  intros H Hn ->. rewrite app_nil_r. induction ts as [|t ts IH]; [easy|].
  apply Forall_cons_iff in H as [Ht Hts]. destruct ts as [|t2 ts].
  - cbn [join]. now apply squeeze_no_ws, Ht.
  - change (join sep (t :: t2 :: ts)) with (t ++ sep ++ join sep (t2 :: ts)).
    rewrite squeeze_no_ws_app by apply Ht. f_equal.
    change (sep ++ ?x) with (#"," ++ #" " ++ x).
    rewrite squeeze_no_ws_app by reflexivity.
    rewrite squeeze_ws_app; [|easy|easy|].
    + rewrite IH; [reflexivity|easy|easy].
    + apply Forall_cons_iff in Hts as [Ht2 _]. destruct Ht2 as [A B].
      destruct t2 as [|c t2]; [easy|]. apply no_ws_cons in B.
      destruct ts; simpl; tauto.
Qed.

Lemma squeeze_text name w ts :
  no_ws name -> w <> [] -> forallb is_ws w = true -> Forall neat ts -> ts <> [] ->
  squeeze (name ++ w ++ join sep ts) = name ++ #" " ++ join sep ts.
Proof.
  intros Hn Hw Hw2 Hts Hts2. rewrite squeeze_no_ws_app by easy. f_equal.
  rewrite squeeze_ws_app; [|easy|easy|].
  - f_equal. rewrite <- (app_nil_r (join sep ts)). now rewrite squeeze_join.
  - destruct ts as [|t ts]; [easy|]. apply Forall_cons_iff in Hts as [[A B] _].
    destruct t as [|c t]; [easy|]. apply no_ws_cons in B. destruct ts; simpl; tauto.
Qed.

Lemma debug_of_text i s name w ts :
  show_inst i = Ok s -> s = name ++ w ++ join sep ts ->
  no_ws name -> w <> [] -> forallb is_ws w = true -> Forall neat ts -> ts <> [] ->
  debug_inst i = Ok (name ++ #" " ++ join sep ts).
Proof.
  intros H -> ? ? ? ? ?. unfold debug_inst. rewrite H. cbn [obind]. rewrite replace_all_space.
  now rewrite squeeze_text.
Qed.
Lemma debug_of_plain i s : show_inst i = Ok s -> no_ws s -> debug_inst i = Ok s.
Proof.
  intros H Hn. unfold debug_inst. rewrite H. cbn [obind]. now rewrite replace_all_space, squeeze_no_ws.
Qed.

(** ** Operands *)

Lemma range_in n x : 0 <= x < Z.of_nat n -> In x (map Z.of_nat (seq 0 n)).
Proof. intros H. apply in_map_iff. exists (Z.to_nat x). rewrite in_seq. lia. Qed.
Ltac enum H := let I := fresh "I" in assert (I := range_in _ _ H); cbn in I; clear H;
  repeat (destruct I as [<-|I]); [..|destruct I].

Lemma dreg_of_num n : 0 <= n < 32 -> dreg (reg_of_num n) = #"$" ++ nth_name gpr_names n.
Proof. intros H. change 32 with (Z.of_nat 32) in H. enum H; reflexivity. Qed.
Lemma dfreg_of_num n : 0 <= n < 32 -> dfreg (reg_of_num n) = #"$" ++ nth_name fpr_names n.
Proof. intros H. change 32 with (Z.of_nat 32) in H. enum H; reflexivity. Qed.
Lemma reg_num_of_num n : 0 <= n < 32 -> reg_num (reg_of_num n) = n.
Proof. intros H. change 32 with (Z.of_nat 32) in H. enum H; reflexivity. Qed.
Lemma reg_of_num_num r : reg_of_num (reg_num r) = r.
Proof. now destruct r. Qed.
Lemma c0_of_num n t : 0 <= n < 32 -> num_assoc n cop0_names = Some t ->
  exists c, reg_to_c0reg (reg_of_num n) = Ok c /\ c0reg_name c = t.
Proof.
  intros H. change 32 with (Z.of_nat 32) in H.
  enum H; intros E; vm_compute in E; (discriminate || (injection E as <-; eexists; split; reflexivity)).
Qed.
Lemma c0_none n : 0 <= n < 32 -> num_assoc n cop0_names = None ->
  exists t, reg_to_c0reg (reg_of_num n) = Err t.
Proof.
  intros H. change 32 with (Z.of_nat 32) in H.
  enum H; intros E; vm_compute in E; (discriminate || (eexists; reflexivity)).
Qed.
Lemma signed_hex_text v : 0 <= v < 65536 -> v <> 32767 -> signed_hex v = signed_text (signed16 v).
Proof.
  intros H1 H2. unfold signed_hex, signed_text, signed16, sext.
  replace (v mod 2 ^ 16) with v by (symmetry; apply Z.mod_small; lia).
  change (2 ^ (16 - 1)) with 32768. change (2 ^ 16) with 65536.
  destruct (Z.eqb_spec v 32767); [lia|].
  destruct (Z.ltb_spec v 32767), (Z.ltb_spec v 32768); try lia.
  - rewrite Z.abs_eq by lia. destruct (Z.ltb_spec v 0); [lia|]. reflexivity.
  - destruct (Z.ltb_spec (v - 65536) 0); [|lia]. rewrite Z.abs_neq by lia. reflexivity.
Qed.
Lemma wrap16_small v : 0 <= v < 65536 -> wrap 16 v = v.
Proof. intros. unfold wrap. apply Z.mod_small. lia. Qed.

(** ** The instruction table, by major opcode *)

Definition key_op (f : format) : Z := match f_key f with (_, _, v) :: _ => v | [] => -1 end.
Definition bucket_of (l : list format) (op : Z) : list format := filter (fun f => key_op f =? op) l.
Notation bucket := (bucket_of isa).
Lemma in_bucket l op f : In f (bucket_of l op) -> In f l.
Proof. intros H. now apply filter_In in H. Qed.

Lemma isa_op_first : forallb (fun f => match f_key f with (26, 6, _) :: _ => true | _ => false end) isa = true.
Proof. vm_compute. reflexivity. Qed.

Lemma find_filter {A} (p q : A -> bool) l :
  (forall x, In x l -> p x = true -> q x = true) -> find p (filter q l) = find p l.
Proof.
  induction l as [|x l IH]; intros H; [reflexivity|]. cbn [filter find].
  destruct (p x) eqn:E.
  - rewrite (H x (or_introl eq_refl) E). cbn [find]. now rewrite E.
  - destruct (q x); cbn [find]; rewrite ?E; apply IH; intros y Hy; apply H; now right.
Qed.

Lemma find_bucket w l : 
  forallb (fun f => match f_key f with (26, 6, _) :: _ => true | _ => false end) l = true ->
  find (selects w) l = find (selects w) (bucket_of l (field w 26 6)).
Proof.
  intros A. unfold bucket_of. symmetry. apply find_filter. intros f Hf Hs.
  rewrite forallb_forall in A. specialize (A f Hf).
  unfold selects, key_op in *. destruct (f_key f) as [|[[p n] v] k]; [discriminate|].
  assert (E : p = 26 /\ n = 6) by (destruct p as [|p|p]; try discriminate;
    repeat (destruct p; try discriminate); destruct n as [|n|n]; try discriminate;
    repeat (destruct n; try discriminate); auto).
  destruct E as [-> ->]. cbn [forallb] in Hs. apply andb_true_iff in Hs as [Hs _].
  rewrite Z.eqb_sym. exact Hs.
Qed.
Lemma read_word_bucket w : read_word w = find (selects w) (bucket (field w 26 6)).
Proof. unfold read_word. apply find_bucket. exact isa_op_first. Qed.

Lemma mem_text imm n : 0 <= imm < 65536 -> imm <> 32767 -> 0 <= n < 32 ->
  signed_text (signed16 imm) ++ #"(" ++ #"$" ++ nth_name gpr_names n ++ #")"
  = signed_hex imm ++ #"(" ++ dreg (reg_of_num n) ++ #")".
Proof. intros. rewrite signed_hex_text, dreg_of_num by easy. now rewrite <- !app_assoc. Qed.

(** Texts of a format by number of operands. *)
Lemma some_inj {A} (a b : A) : Some a = Some b -> b = a.
Proof. now injection 1. Qed.
Lemma text_1 n k a o t : text (mk_format n k [a]) [o] = Some t ->
  exists x, operand_text a o = Some x /\ t = n ++ #" " ++ join sep [x].
Proof.
  unfold text; cbn [operands_text f_ops f_name].
  destruct (operand_text a o) eqn:E; [|discriminate]. injection 1 as <-. eauto.
Qed.
Lemma text_2 n k a b o p t : text (mk_format n k [a; b]) [o; p] = Some t ->
  exists x y, operand_text a o = Some x /\ operand_text b p = Some y
                  /\ t = n ++ #" " ++ join sep [x; y].
Proof.
  unfold text; cbn [operands_text f_ops f_name].
  destruct (operand_text a o) eqn:E; [|discriminate]. destruct (operand_text b p) eqn:E2; [|discriminate].
  injection 1 as <-. eauto 10.
Qed.
Lemma text_3 n k a b c o p q t : text (mk_format n k [a; b; c]) [o; p; q] = Some t ->
  exists x y z, operand_text a o = Some x /\ operand_text b p = Some y
     /\ operand_text c q = Some z /\ t = n ++ #" " ++ join sep [x; y; z].
Proof.
  unfold text; cbn [operands_text f_ops f_name].
  destruct (operand_text a o) eqn:E; [|discriminate]. destruct (operand_text b p) eqn:E2; [|discriminate].
  destruct (operand_text c q) eqn:E3; [|discriminate]. injection 1 as <-. eauto 15.
Qed.
Lemma text_0 n k os t : text (mk_format n k []) os = Some t -> t = n.
Proof. unfold text; cbn [operands_text f_ops f_name]. destruct os; [|discriminate]. now injection 1. Qed.

Lemma cop0_text rd t : 0 <= rd < 32 -> num_assoc rd cop0_names = Some t ->
  exists c, reg_to_c0reg (reg_of_num rd) = Ok c /\ t = c0reg_name c.
Proof. intros H E. destruct (c0_of_num _ _ H E) as (c & A & B). eauto. Qed.

Lemma show_cop0 op rs rt rd bytes c :
  In op [R_Cfc0; R_Ctc0; R_Dmfc0; R_Dmtc0; R_Mfc0; R_Mtc0] ->
  reg_to_c0reg rd = Ok c ->
  show_inst (IReg op rs rt rd 0 bytes) = Ok (op11 (rop_name op) ++ join sep [dreg rt; c0reg_name c]).
Proof.
  intros I E. cbn [show_inst].
  repeat (destruct I as [<-|I]; [cbn [show_reg]; now rewrite E|]). destruct I.
Qed.

(** The word does not select an entry of the table: [.word]. *)
Definition spec_line (base w : Z) (i : inst) : Prop :=
  match read_word w with
  | Some f => forall t, text f (map (extract base w) (f_ops f)) = Some t ->
                (has_signed f = true -> field w 0 16 <> 32767) -> debug_inst i = Ok t
  | None => (field w 26 6 = 16 /\ field w 25 1 = 0 /\ In (field w 0 6) [1; 2; 6; 8; 24]) \/ i = IBytes w
  end.


(** What the fields of a word are, as facts about variables. *)
Record fields_of (base w op rs rt rd sa code funct imm target : Z) : Prop := {
  F_op : field w 26 6 = op; F_rs : field w 21 5 = rs; F_rt : field w 16 5 = rt;
  F_rd : field w 11 5 = rd; F_sa : field w 6 5 = sa; F_code : field w 6 20 = code;
  F_fn : field w 0 6 = funct; F_imm : field w 0 16 = imm;
  F_tgt : extract base w Target26 = OInt target;
  F_co : field w 25 1 = rs / 16;
  R_rs : 0 <= rs < 32; R_rt : 0 <= rt < 32; R_rd : 0 <= rd < 32; R_sa : 0 <= sa < 32;
  R_fn : 0 <= funct < 64; R_imm : 0 <= imm < 65536; R_op : 0 <= op < 64
}.

Lemma disasm_word_fields base w : is_word w -> 0 <= base < 2 ^ 32 ->
  exists op rs rt rd sa code funct imm target,
    fields_of base w op rs rt rd sa code funct imm target
    /\ disasm_word base w = disasm_fields op rs rt rd sa code funct imm target w.
Proof.
  intros Hw Hb. do 9 eexists. split.
  - constructor; try reflexivity; try (now apply (field_range w)).
    unfold field. change (2 ^ 25) with (2 ^ 21 * 16). change (2 ^ 5) with 32. change (2 ^ 1) with 2.
    rewrite <- Z.div_div by lia. set (x := w / 2 ^ 21).
    Z.div_mod_to_equations. lia.
  - unfold disasm_word. rewrite field_op by easy.
    change 31 with (2 ^ 5 - 1). change 1048575 with (2 ^ 20 - 1). rewrite !land_field by lia.
    rewrite target_field by easy. f_equal.
    + change 63 with (2 ^ 6 - 1). rewrite <- land_field by lia. unfold shr. now rewrite Z.shiftr_0_r.
    + change 65535 with (2 ^ 16 - 1). rewrite <- land_field by lia. unfold shr. now rewrite Z.shiftr_0_r.
Qed.

Ltac neat1 :=
  lazymatch goal with
  | |- neat (dreg _) => apply neat_dreg
  | |- neat (dfreg _) => apply neat_dfreg
  | |- neat (signed_hex _) => apply neat_signed
  | |- neat (hex0x _) => apply neat_hex0x
  | |- neat (c0reg_name _) => apply neat_c0
  | |- neat (_ ++ hexU _) => apply neat_0x; apply hexU_no_ws
  | |- neat (signed_hex _ ++ _) => apply neat_mem; [apply neat_signed | apply dreg_no_ws]
  end.
Ltac list_neat := repeat (apply Forall_cons; [neat1|]); apply Forall_nil.

Lemma debug_op11 i n x ts :
  show_inst i = Ok (op11 n ++ x) -> x = join sep ts -> no_ws n -> (List.length n < 11)%nat ->
  Forall neat ts -> ts <> [] -> debug_inst i = Ok (n ++ #" " ++ join sep ts).
Proof.
  intros H -> Hn Hl Ht Ht2. eapply debug_of_text with (w := repeat " "%char (11 - List.length n)).
  - exact H.
  - unfold op11, pad_right. now rewrite <- app_assoc.
  - exact Hn.
  - destruct (11 - List.length n)%nat eqn:E; [lia|discriminate].
  - clear. induction (11 - List.length n)%nat; [reflexivity|assumption].
  - exact Ht.
  - exact Ht2.
Qed.
Lemma debug_raw i n b x ts :
  show_inst i = Ok (n ++ b ++ x) -> x = join sep ts -> no_ws n -> b <> [] ->
  forallb is_ws b = true -> Forall neat ts -> ts <> [] -> debug_inst i = Ok (n ++ #" " ++ join sep ts).
Proof. intros H -> Hn Hl Ht Ht2 Ht3. eapply debug_of_text with (w := b); eauto. Qed.
Lemma debug_fcond f rs rt sa bytes c n b (op := match f with true => R_Cs | false => R_Cd end) :
  fcond_try_from sa = Ok c ->
  n = #"c." ++ fcond_name c ++ #"." ++ (if f then #"s" else #"d") ->
  b = (if sa =? 9 then [] else ["009"%char]) ++ #"    " ->
  debug_inst (IReg op rs rt Zero sa bytes) = Ok (n ++ #" " ++ join sep [dfreg rs; dfreg rt]).
Proof.
  intros Hc Hn Hb. eapply debug_raw with (b := b).
  - unfold op. cbn [show_inst]. destruct f; cbn [show_reg]; unfold show_fcond; rewrite Hc, Hn, Hb;
      rewrite <- !app_assoc; reflexivity.
  - reflexivity.
  - rewrite Hn. destruct f, c; reflexivity.
  - rewrite Hb. destruct (sa =? 9); discriminate.
  - rewrite Hb. destruct (sa =? 9); reflexivity.
  - list_neat.
  - discriminate.
Qed.

Ltac use_op11 :=
  eapply debug_op11; [reflexivity | reflexivity | reflexivity | vm_compute; repeat constructor | list_neat | discriminate].
Lemma debug_raw2 i n n' b ts :
  show_inst i = Ok (n' ++ b ++ join sep ts) -> n' = n -> no_ws n -> b <> [] ->
  forallb is_ws b = true -> Forall neat ts -> ts <> [] -> debug_inst i = Ok (n ++ #" " ++ join sep ts).
Proof. intros H -> Hn Hl Ht Ht2 Ht3. eapply debug_of_text with (w := b); eauto. Qed.
Ltac use_raw q blanks :=
  apply (fun i n ts => debug_raw2 i n (dot_name q) blanks ts); [reflexivity | reflexivity | reflexivity | discriminate | reflexivity | list_neat | discriminate].
Ltac finish_text F :=
  cbn [disasm_fields]; unfold mk_imm, mk_jump, mk_reg;
  rewrite ?wrap16_small by exact (R_imm _ _ _ _ _ _ _ _ _ _ _ F);
  match goal with
  | |- debug_inst (IReg ?op _ _ _ _ _) = _ =>
      match op with
      | R_Cs => eapply (debug_fcond true); reflexivity
      | R_Cd => eapply (debug_fcond false); reflexivity
      | R_CeilLS => use_raw R_CeilLS #"    " | R_CeilLD => use_raw R_CeilLD #"    "
      | R_CeilWS => use_raw R_CeilWS #"    " | R_CeilWD => use_raw R_CeilWD #"    "
      | R_FloorLS => use_raw R_FloorLS #"   " | R_FloorLD => use_raw R_FloorLD #"   "
      | R_FloorWS => use_raw R_FloorWS #"   " | R_FloorWD => use_raw R_FloorWD #"   "
      | R_RoundLS => use_raw R_RoundLS #"   " | R_RoundLD => use_raw R_RoundLD #"   "
      | R_RoundWS => use_raw R_RoundWS #"   " | R_RoundWD => use_raw R_RoundWD #"   "
      | R_TruncLS => use_raw R_TruncLS #"   " | R_TruncLD => use_raw R_TruncLD #"   "
      | R_TruncWS => use_raw R_TruncWS #"   " | R_TruncWD => use_raw R_TruncWD #"   "
      | _ => use_op11
      end
  | |- _ => use_op11
  end.

Lemma tgt_text v x : operand_text Target26 (OInt v) = Some x -> x = #"0x" ++ hexU v.
Proof. cbn [operand_text]. intros H. apply some_inj in H. exact H. Qed.

Ltac op_text F Hs E :=
  lazymatch type of E with
  | operand_text Target26 _ = _ =>
      rewrite (F_tgt _ _ _ _ _ _ _ _ _ _ _ F) in E; apply tgt_text in E; subst
  | _ =>
  cbn [extract operand_text] in E;
  rewrite ?(F_rs _ _ _ _ _ _ _ _ _ _ _ F), ?(F_rt _ _ _ _ _ _ _ _ _ _ _ F),
    ?(F_rd _ _ _ _ _ _ _ _ _ _ _ F), ?(F_sa _ _ _ _ _ _ _ _ _ _ _ F),
    ?(F_code _ _ _ _ _ _ _ _ _ _ _ F), ?(F_imm _ _ _ _ _ _ _ _ _ _ _ F) in E;
  lazymatch type of E with
  | Some (signed_text _ ++ _) = _ => rewrite mem_text in E by
      first [exact (R_imm _ _ _ _ _ _ _ _ _ _ _ F) | exact (R_rs _ _ _ _ _ _ _ _ _ _ _ F)
            | (rewrite <- (F_imm _ _ _ _ _ _ _ _ _ _ _ F); apply Hs; reflexivity)];
    apply some_inj in E; subst
  | Some (_ ++ nth_name gpr_names _) = _ => rewrite <- dreg_of_num in E by
      first [exact (R_rs _ _ _ _ _ _ _ _ _ _ _ F) | exact (R_rt _ _ _ _ _ _ _ _ _ _ _ F)
            | exact (R_rd _ _ _ _ _ _ _ _ _ _ _ F)];
    apply some_inj in E; subst
  | Some (_ ++ nth_name fpr_names _) = _ => rewrite <- dfreg_of_num in E by
      first [exact (R_rs _ _ _ _ _ _ _ _ _ _ _ F) | exact (R_rt _ _ _ _ _ _ _ _ _ _ _ F)
            | exact (R_rd _ _ _ _ _ _ _ _ _ _ _ F) | exact (R_sa _ _ _ _ _ _ _ _ _ _ _ F)];
    apply some_inj in E; subst
  | Some (signed_text _) = _ => rewrite <- signed_hex_text in E by
      first [exact (R_imm _ _ _ _ _ _ _ _ _ _ _ F)
            | (rewrite <- (F_imm _ _ _ _ _ _ _ _ _ _ _ F); apply Hs; reflexivity)];
    apply some_inj in E; subst
  | num_assoc _ _ = _ => let c := fresh "c" in let C := fresh "C" in
    apply cop0_text in E; [destruct E as (c & C & ->)|exact (R_rd _ _ _ _ _ _ _ _ _ _ _ F)]
  | Some (#"0x" ++ hex ?v) = _ =>
      change (#"0x" ++ hex v) with (hex0x v) in E;
      lazymatch goal with
      | |- context [disasm_fields 47] =>
          rewrite <- (reg_num_of_num v) in E by exact (R_rt _ _ _ _ _ _ _ _ _ _ _ F)
      | _ => idtac
      end; apply some_inj in E; subst
  end end.

(** The table lookup as a function of the field values. *)
Definition keyval (op rs rt rd code funct : Z) (p : Z) : Z :=
  if p =? 26 then op else if p =? 21 then rs else if p =? 16 then rt
  else if p =? 11 then rd else if p =? 6 then code else if p =? 25 then rs / 16 else funct.
Definition sel (op rs rt rd code funct : Z) (f : format) : bool :=
  forallb (fun k => match k with (p, n, v) => keyval op rs rt rd code funct p =? v end) (f_key f).
Definition look (op rs rt rd code funct : Z) : option format :=
  find (sel op rs rt rd code funct) (bucket op).

Lemma find_ext {A} (p q : A -> bool) l : (forall x, In x l -> p x = q x) -> find p l = find q l.
Proof.
  induction l as [|x l IH]; intros H; [reflexivity|]. cbn [find].
  rewrite (H x (or_introl eq_refl)). destruct (q x); [reflexivity|]. apply IH. intros; apply H. now right.
Qed.
Lemma forallb_ext_in {A} (p q : A -> bool) l :
  (forall x, In x l -> p x = q x) -> forallb p l = forallb q l.
Proof.
  induction l as [|x l IH]; intros H; [reflexivity|]. cbn [forallb].
  rewrite (H x (or_introl eq_refl)), IH; [reflexivity|]. intros; apply H. now right.
Qed.

Lemma keyval_field base w op rs rt rd sa code funct imm target p n :
  fields_of base w op rs rt rd sa code funct imm target ->
  In (p, n) [(26, 6); (21, 5); (16, 5); (11, 5); (6, 20); (25, 1); (0, 6)] ->
  field w p n = keyval op rs rt rd code funct p.
Proof.
  intros F I. destruct F as [G1 G2 G3 G4 G5 G6 G7 G8 _ G9 _ _ _ _ _ _ _].
  cbn [In] in I.
  assert (Q : forall a b, (a, b) = (p, n) -> field w a b = keyval op rs rt rd code funct a ->
    field w p n = keyval op rs rt rd code funct p)
    by (intros a b E H; replace p with a by congruence; replace n with b by congruence; exact H).
  destruct I as [I|[I|[I|[I|[I|[I|[I|[]]]]]]]]; apply (Q _ _ I);
  unfold keyval; cbn [Z.eqb Pos.eqb]; assumption.
Qed.
Definition okkey (k : Z * Z * Z) : bool := match k with (p, n, _) =>
    existsb (fun q => (fst q =? p) && (snd q =? n))
      [(26, 6); (21, 5); (16, 5); (11, 5); (6, 20); (25, 1); (0, 6)] end.
Lemma isa_keys : forallb (fun f => forallb okkey (f_key f)) isa = true.
Proof. vm_compute. reflexivity. Qed.
Lemma okkey_in p n v : okkey (p, n, v) = true ->
  In (p, n) [(26, 6); (21, 5); (16, 5); (11, 5); (6, 20); (25, 1); (0, 6)].
Proof.
  unfold okkey. intros K. apply existsb_exists in K as ([p' n'] & I & E). cbn [fst snd] in E.
  apply andb_true_iff in E as [E1 E2]. apply Z.eqb_eq in E1, E2. subst p' n'. exact I.
Qed.
Lemma forallb_in {A} (p : A -> bool) l x : forallb p l = true -> In x l -> p x = true.
Proof. intros H. rewrite forallb_forall in H. apply H. Qed.
Lemma bucket_keys op f : In f (bucket op) -> forallb okkey (f_key f) = true.
Proof.
  intros H. apply in_bucket in H.
  exact (forallb_in (fun f => forallb okkey (f_key f)) isa f isa_keys H).
Qed.
Lemma selects_sel base w op rs rt rd sa code funct imm target f :
  fields_of base w op rs rt rd sa code funct imm target ->
  forallb okkey (f_key f) = true -> selects w f = sel op rs rt rd code funct f.
Proof.
  intros F K. rewrite forallb_forall in K. unfold selects, sel. apply forallb_ext_in.
  intros [[p n] v] Hk. specialize (K _ Hk). apply okkey_in in K.
  now rewrite (keyval_field _ _ _ _ _ _ _ _ _ _ _ _ _ F K).
Qed.
Lemma read_look base w op rs rt rd sa code funct imm target :
  fields_of base w op rs rt rd sa code funct imm target ->
  read_word w = look op rs rt rd code funct.
Proof.
  intros F. rewrite read_word_bucket, (F_op _ _ _ _ _ _ _ _ _ _ _ F).
  apply find_ext. intros f Hf.
  exact (selects_sel _ _ _ _ _ _ _ _ _ _ _ f F (bucket_keys _ _ Hf)).
Qed.

Ltac eval_read F R := rewrite (read_look _ _ _ _ _ _ _ _ _ _ _ F) in R; vm_compute in R.

Ltac some_leaf F :=
  let t := fresh "t" in let T := fresh "T" in let Hs := fresh "Hs" in
  intros t T Hs;
  lazymatch type of T with
  | text (mk_format _ _ []) _ = _ => apply text_0 in T; subst t; apply debug_of_plain; reflexivity
  | text (mk_format _ _ [_]) _ = _ =>
      let o := fresh "o" in let x := fresh "x" in let E := fresh "E" in let X := fresh "X" in
      apply text_1 in T; destruct T as (x & X & ->);
      op_text F Hs X; finish_text F
  | text (mk_format _ _ [_; _]) _ = _ =>
      let o := fresh "o" in let x := fresh "x" in let E := fresh "E" in let X := fresh "X" in
      let p := fresh "p" in let y := fresh "y" in let Y := fresh "Y" in
      apply text_2 in T; destruct T as (x & y & X & Y & ->);
      op_text F Hs X; op_text F Hs Y;
      lazymatch goal with
      | C : reg_to_c0reg _ = Ok _ |- _ =>
          cbn [disasm_fields]; unfold mk_reg;
          eapply debug_op11; [apply show_cop0; [cbn; tauto | exact C] | reflexivity | reflexivity
            | vm_compute; repeat constructor | list_neat | discriminate]
      | |- _ => finish_text F
      end
  | text (mk_format _ _ [_; _; _]) _ = _ =>
      let o := fresh "o" in let x := fresh "x" in let E := fresh "E" in let X := fresh "X" in
      let p := fresh "p" in let y := fresh "y" in let Y := fresh "Y" in
      let q := fresh "q" in let z := fresh "z" in let Z' := fresh "Z" in
      apply text_3 in T; destruct T as (x & y & z & X & Y & Z' & ->);
      op_text F Hs X; op_text F Hs Y; op_text F Hs Z'; finish_text F
  end.

Ltac leaf_of F R :=
  first [ discriminate R
        | apply some_inj in R; subst; cbn [f_ops map]; some_leaf F
        | right; reflexivity
        | left; split; [exact (F_op _ _ _ _ _ _ _ _ _ _ _ F)|]; split;
          [rewrite (F_co _ _ _ _ _ _ _ _ _ _ _ F); reflexivity
          | rewrite (F_fn _ _ _ _ _ _ _ _ _ _ _ F); cbn; tauto] ].
Ltac leaf F :=
  let R := fresh "R" in
  unfold spec_line; destruct (read_word _) eqn:R; eval_read F R; leaf_of F R.

Lemma decode_op_other base w op rs rt rd sa code funct imm target :
  fields_of base w op rs rt rd sa code funct imm target ->
  op <> 0 -> op <> 1 -> op <> 16 -> op <> 17 ->
  spec_line base w (disasm_fields op rs rt rd sa code funct imm target w).
Proof.
  intros F N0 N1 N16 N17. assert (R := R_op _ _ _ _ _ _ _ _ _ _ _ F).
  change 64 with (Z.of_nat 64) in R.
  enum R; try congruence; clear N0 N1 N16 N17; try (leaf F).
Qed.


Lemma decode_special base w rs rt rd sa code funct imm target :
  fields_of base w 0 rs rt rd sa code funct imm target ->
  spec_line base w (disasm_fields 0 rs rt rd sa code funct imm target w).
Proof.
  intros F. assert (R := R_fn _ _ _ _ _ _ _ _ _ _ _ F).
  change 64 with (Z.of_nat 64) in R.
  enum R; try (leaf F).
  - destruct (Z.eqb_spec rd 31) as [->|N]; [leaf F|].
    unfold spec_line; destruct (read_word _) eqn:R; apply Z.eqb_neq in N;
    rewrite (read_look _ _ _ _ _ _ _ _ _ _ _ F) in R; unfold look in R;
    match type of R with context [bucket ?k] =>
      let b := eval vm_compute in (bucket k) in change (bucket k) with b in R end;
    cbn [find sel forallb f_key keyval Z.eqb Pos.eqb andb] in R; rewrite N in R; cbn [andb] in R; [|discriminate R].
    apply some_inj in R; subst; cbn [f_ops map]. intros t T Hs.
    apply text_2 in T; destruct T as (x & y & X & Y & ->). op_text F Hs X. op_text F Hs Y.
    cbn [disasm_fields]; unfold mk_reg.
    eapply debug_op11 with (ts := [_; _]); [cbn [show_inst show_reg] | reflexivity | reflexivity
      | vm_compute; repeat constructor | list_neat | discriminate].
    generalize (R_rd _ _ _ _ _ _ _ _ _ _ _ F) N. clear. intros R.
    change 32 with (Z.of_nat 32) in R. enum R; (reflexivity || discriminate).
  - destruct (Z.eqb_spec code 0) as [->|N]; [leaf F|].
    unfold spec_line; destruct (read_word _) eqn:R; apply Z.eqb_neq in N;
    rewrite (read_look _ _ _ _ _ _ _ _ _ _ _ F) in R; unfold look in R;
    match type of R with context [bucket ?k] =>
      let b := eval vm_compute in (bucket k) in change (bucket k) with b in R end;
    cbn [find sel forallb f_key keyval Z.eqb Pos.eqb andb] in R; rewrite N in R; cbn [andb] in R; [|discriminate R].
    apply some_inj in R; subst; cbn [f_ops map]. intros t T Hs.
    apply text_1 in T; destruct T as (x & X & ->). op_text F Hs X.
    cbn [disasm_fields]; unfold mk_reg.
    eapply debug_op11; [cbn [show_inst show_reg]; rewrite N; reflexivity | reflexivity | reflexivity
      | vm_compute; repeat constructor | list_neat | discriminate].
  - destruct (Z.eqb_spec code 0) as [->|N]; [leaf F|].
    unfold spec_line; destruct (read_word _) eqn:R; apply Z.eqb_neq in N;
    rewrite (read_look _ _ _ _ _ _ _ _ _ _ _ F) in R; unfold look in R;
    match type of R with context [bucket ?k] =>
      let b := eval vm_compute in (bucket k) in change (bucket k) with b in R end;
    cbn [find sel forallb f_key keyval Z.eqb Pos.eqb andb] in R; rewrite N in R; cbn [andb] in R; [|discriminate R].
    apply some_inj in R; subst; cbn [f_ops map]. intros t T Hs.
    apply text_1 in T; destruct T as (x & X & ->). op_text F Hs X.
    cbn [disasm_fields]; unfold mk_reg.
    eapply debug_op11; [cbn [show_inst show_reg]; rewrite N; reflexivity | reflexivity | reflexivity
      | vm_compute; repeat constructor | list_neat | discriminate].
Qed.

Lemma decode_regimm base w rs rt rd sa code funct imm target :
  fields_of base w 1 rs rt rd sa code funct imm target ->
  spec_line base w (disasm_fields 1 rs rt rd sa code funct imm target w).
Proof.
  intros F. assert (R := R_rt _ _ _ _ _ _ _ _ _ _ _ F).
  change 32 with (Z.of_nat 32) in R. enum R; leaf F.
Qed.

Ltac case_rs F := let R := fresh "R" in assert (R := R_rs _ _ _ _ _ _ _ _ _ _ _ F);
  change 32 with (Z.of_nat 32) in R; enum R.
Ltac case_rt F := let R := fresh "R" in assert (R := R_rt _ _ _ _ _ _ _ _ _ _ _ F);
  change 32 with (Z.of_nat 32) in R; enum R.
Ltac case_fn F := let R := fresh "R" in assert (R := R_fn _ _ _ _ _ _ _ _ _ _ _ F);
  change 64 with (Z.of_nat 64) in R; enum R.


(** The TLB functions, once the [rs]/[rt] cases are excluded. *)
Definition tlb_match (funct w : Z) : inst :=
  match funct with
  | 1 => mk_reg R_Tlbr 0 0 0 0 w
  | 2 => mk_reg R_Tlbwi 0 0 0 0 w
  | 6 => mk_reg R_Tlbwr 0 0 0 0 w
  | 8 => mk_reg R_Tlbp 0 0 0 0 w
  | 24 => mk_reg R_Eret 0 0 0 0 w
  | _ => IBytes w
  end.
Lemma decode_tlb base w rs rt rd sa code funct imm target co :
  fields_of base w 16 rs rt rd sa code funct imm target ->
  (rs =? 0) = false -> (rs =? 1) = false -> (rs =? 2) = false -> (rs =? 4) = false ->
  (rs =? 5) = false -> (rs =? 6) = false ->
  (rs =? 8) && (rt =? 0) = false -> (rs =? 8) && (rt =? 1) = false ->
  (rs =? 8) && (rt =? 2) = false -> (rs =? 8) && (rt =? 3) = false ->
  rs / 16 = co -> co = 0 \/ co = 1 ->
  spec_line base w (tlb_match funct w).
Proof.
  intros F E0 E1 E2 E4 E5 E6 B0 B1 B2 B3 C HC.
  assert (R : read_word w = if co =? 1 then find (fun f => match f_key f with
    [_; _; (_, _, v)] => funct =? v | _ => false end)
    [tlb 1 "tlbr"; tlb 2 "tlbwi"; tlb 6 "tlbwr"; tlb 8 "tlbp"; tlb 24 "eret"] else None).
  { rewrite (read_look _ _ _ _ _ _ _ _ _ _ _ F); unfold look.
    match goal with |- context [bucket ?k] =>
      let b := eval vm_compute in (bucket k) in change (bucket k) with b end.
    cbn [find sel forallb f_key keyval Z.eqb Pos.eqb andb]. rewrite C.
    rewrite E0, E1, E2, E4, E5, E6. cbn [Z.eqb Pos.eqb andb].
    rewrite !andb_true_r, B0, B1, B2, B3. destruct HC as [-> | ->]; reflexivity. }
  unfold spec_line. rewrite R. clear R.
  assert (Hf := F_fn _ _ _ _ _ _ _ _ _ _ _ F). assert (Ho := F_op _ _ _ _ _ _ _ _ _ _ _ F).
  assert (Hc := F_co _ _ _ _ _ _ _ _ _ _ _ F). rewrite C in Hc.
  assert (Q := R_fn _ _ _ _ _ _ _ _ _ _ _ F). clear F.
  change 64 with (Z.of_nat 64) in Q. rewrite Hf, Ho, Hc. clear Hf Ho Hc.
  destruct HC as [-> | ->]; cbn [Z.eqb Pos.eqb find f_key tlb op6 co1 funct6];
  enum Q; cbn [Z.eqb Pos.eqb tlb_match];
  try (right; reflexivity);
  try (left; split; [reflexivity|split; [reflexivity|cbn; tauto]]);
  intros t T _; apply text_0 in T; subst t; apply debug_of_plain; reflexivity.
Qed.

Lemma decode_cop0 base w rs rt rd sa code funct imm target :
  fields_of base w 16 rs rt rd sa code funct imm target ->
  spec_line base w (disasm_fields 16 rs rt rd sa code funct imm target w).
Proof.
  intros F. case_rs F;
  lazymatch goal with
  | |- spec_line _ _ (disasm_fields _ 0 _ _ _ _ _ _ _ _) => leaf F
  | |- spec_line _ _ (disasm_fields _ 1 _ _ _ _ _ _ _ _) => leaf F
  | |- spec_line _ _ (disasm_fields _ 2 _ _ _ _ _ _ _ _) => leaf F
  | |- spec_line _ _ (disasm_fields _ 4 _ _ _ _ _ _ _ _) => leaf F
  | |- spec_line _ _ (disasm_fields _ 5 _ _ _ _ _ _ _ _) => leaf F
  | |- spec_line _ _ (disasm_fields _ 6 _ _ _ _ _ _ _ _) => leaf F
  | |- spec_line _ _ (disasm_fields _ 8 _ _ _ _ _ _ _ _) => idtac
  | |- _ => change (disasm_fields 16 ?a rt rd sa code funct imm target w) with (tlb_match funct w);
            eapply decode_tlb; [exact F | reflexivity..| cbn; tauto]
  end.
  case_rt F;
  lazymatch goal with
  | |- spec_line _ _ (disasm_fields _ _ 0 _ _ _ _ _ _ _) => leaf F
  | |- spec_line _ _ (disasm_fields _ _ 1 _ _ _ _ _ _ _) => leaf F
  | |- spec_line _ _ (disasm_fields _ _ 2 _ _ _ _ _ _ _) => leaf F
  | |- spec_line _ _ (disasm_fields _ _ 3 _ _ _ _ _ _ _) => leaf F
  | |- _ => change (disasm_fields 16 8 ?a rd sa code funct imm target w) with (tlb_match funct w);
            eapply decode_tlb; [exact F | reflexivity..| cbn; tauto]
  end.
Qed.

Lemma decode_cop1 base w rs rt rd sa code funct imm target :
  fields_of base w 17 rs rt rd sa code funct imm target ->
  spec_line base w (disasm_fields 17 rs rt rd sa code funct imm target w).
Proof.
  intros F. case_rs F;
  lazymatch goal with
  | |- spec_line _ _ (disasm_fields _ 8 _ _ _ _ _ _ _ _) => case_rt F; leaf F
  | |- spec_line _ _ (disasm_fields _ 16 _ _ _ _ _ _ _ _) => case_fn F; leaf F
  | |- spec_line _ _ (disasm_fields _ 17 _ _ _ _ _ _ _ _) => case_fn F; leaf F
  | |- spec_line _ _ (disasm_fields _ 20 _ _ _ _ _ _ _ _) => case_fn F; leaf F
  | |- spec_line _ _ (disasm_fields _ 21 _ _ _ _ _ _ _ _) => case_fn F; leaf F
  | |- _ => leaf F
  end.
Qed.

Lemma decode_all base w : is_word w -> 0 <= base < 2 ^ 32 -> spec_line base w (disasm_word base w).
Proof.
  intros Hw Hb. destruct (disasm_word_fields base w Hw Hb)
    as (op & rs & rt & rd & sa & code & funct & imm & target & F & ->).
  destruct (Z.eq_dec op 0) as [->|]; [now apply decode_special|].
  destruct (Z.eq_dec op 1) as [->|]; [now apply decode_regimm|].
  destruct (Z.eq_dec op 16) as [->|]; [now apply decode_cop0|].
  destruct (Z.eq_dec op 17) as [->|]; [now apply decode_cop1|].
  now apply decode_op_other.
Qed.
