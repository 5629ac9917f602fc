(** * MainProofs: lemmas about running the program. *)

From Coq Require Import Lia Permutation.
From Verif Require Import Lib Cli SpecIsa StrLemmas CliProofs WordProofs ScanProofs Main SpecText SpecProgram SpecCli SpecMain.

Lemma code_chr n : 0 <= n < 256 -> code (chr n) = n.
Proof. intros R. unfold code, chr. rewrite N_ascii_embedding by lia. lia. Qed.
Lemma chr_code c : chr (code c) = c.
Proof. unfold code, chr. rewrite N2Z.id. apply ascii_N_embedding. Qed.
Lemma code_byte c : is_byte (code c).
Proof. unfold is_byte, code. assert (H := N_ascii_bounded c). change (2 ^ 8) with 256. lia. Qed.

Lemma read_text_iff s p t : holds_bytes s -> (read_text s p = Some t <-> text_in s p t).
Proof.
  intros B. unfold read_text, text_in. destruct (sy_files s p) as [bytes|] eqn:F; [|split; [discriminate|intros [H _]; discriminate H]].
  specialize (B p bytes F). split.
  - destruct (forallb _ bytes) eqn:A; [|discriminate]. intros H. injection H as <-. rewrite forallb_forall in A.
    assert (E : map code (map chr bytes) = bytes).
    { rewrite map_map. rewrite <- (map_id bytes) at 2. apply map_ext_in. intros x I. apply code_chr. apply (proj1 (Forall_forall _ _) B) in I. unfold is_byte in I. lia. }
    split; [now rewrite E|]. apply Forall_forall. intros x I. apply in_map_iff in I as (b & <- & I). apply (proj1 (Forall_forall _ _) B) in I as J. apply A in I.
    rewrite code_chr by (unfold is_byte in J; lia). now apply Z.ltb_lt.
  - intros [E L]. injection E as ->. assert (A : forallb (fun b => b <? 128) (map code t) = true).
    { apply forallb_forall. intros x I. apply in_map_iff in I as (c & <- & I). apply Z.ltb_lt. exact (proj1 (Forall_forall _ _) L c I). }
    rewrite A. f_equal. rewrite map_map. rewrite <- (map_id t) at 2. apply map_ext. exact chr_code.
Qed.
Lemma code_inj a b : map code a = map code b -> a = b.
Proof. intros E. apply (f_equal (map chr)) in E. rewrite !map_map in E. rewrite !(map_ext _ (fun c => c) chr_code), !map_id in E. exact E. Qed.
Lemma text_unique s p t t' : text_in s p t -> text_in s p t' -> t = t'.
Proof. intros [A _] [B _]. rewrite A in B. injection B as B. now apply code_inj. Qed.
Lemma instance_unique s c m m' : instance s c m -> instance s c m' -> m = m'.
Proof.
  intros (A & (t & d & T & D & S) & G) (A' & (t' & d' & T' & D' & S') & G').
  assert (t = t') by (destruct (c_syms c); [exact (text_unique _ _ _ _ T T')|congruence]). subst t'. rewrite D in D'. injection D' as <-.
  destruct m, m'. cbn in *. congruence.
Qed.

(** A run stops at once, or gets an instance. *)
Definition stops (s : system) (r : result) : Prop := (r_status r = 1 \/ r_status r = 101) /\ r_out r = [] /\ r_files r = sy_files s.
Lemma run_view s c : holds_bytes s ->
  (exists m, instance s c m /\ run s c = match c_mode c with Asm => run_asm s c (m_base m) (m_syms m) | Disasm => run_disasm s c (m_base m) (m_syms m) end)
  \/ ((forall m, ~ instance s c m) /\ stops s (run s c)).
Proof.
  intros B. unfold run.
  assert (T : forall t, (match c_syms c with Some p => read_text s p | None => Some [] end) = Some t <-> match c_syms c with Some p => text_in s p t | None => t = [] end).
  { intros t. destruct (c_syms c) as [p|]; [now apply read_text_iff|]. split; [congruence|now intros ->]. }
  destruct (match c_syms c with Some p => read_text s p | None => Some [] end) as [text|].
  2:{ right. split; [|split; [now left|split; reflexivity]]. intros m (_ & (t & d & I & _) & _). apply T in I. discriminate I. }
  assert (Tt := proj1 (T text) eq_refl). destruct (sy_yaml s text) as [docs|] eqn:Y.
  2:{ right. split; [|split; [now right|split; reflexivity]]. intros m (_ & (t & d & I & D & _) & _). apply T in I. injection I as <-. congruence. }
  cbv zeta. destruct (parse_base (c_base c)) as [base|] eqn:P.
  2:{ right. split; [|split; [now left|split; reflexivity]]. intros m (A & _). congruence. }
  left. exists (mk_mipsasm base (sy_order s match docs with Hash entries :: _ => yaml_syms entries | _ => [] end) false).
  split; [|reflexivity]. split; [exact P|]. split; [|reflexivity]. exists text, docs. split; [exact Tt|]. split; [exact Y|reflexivity].
Qed.

Lemma instance_is s c m : instance s c m -> set_symbols (m_syms m) (set_base (m_base m) m_new) = m.
Proof. intros (_ & _ & D). destruct m. cbn in *. now subst. Qed.

(** Writing. *)
Lemma write_pieces_all room : forall ps w, (List.length w + List.length (List.concat ps) <= room)%nat -> write_pieces room w ps = (w ++ List.concat ps, true).
Proof.
  induction ps as [|p ps IH]; intros w L; cbn [write_pieces List.concat]; [now rewrite app_nil_r|]. cbn [List.concat] in L. rewrite app_length in L.
  destruct (Nat.leb_spec (List.length w + List.length p) room) as [H|H]; [|lia]. rewrite IH by (rewrite app_length; lia). now rewrite app_assoc.
Qed.
Lemma write_pieces_some room : forall ps w, (List.length w <= room)%nat -> (room < List.length w + List.length (List.concat ps))%nat ->
  write_pieces room w ps = (firstn room (w ++ List.concat ps), false).
Proof.
  induction ps as [|p ps IH]; intros w Lw L; cbn [write_pieces List.concat] in *; [cbn in L; lia|]. rewrite app_length in L.
  destruct (Nat.leb_spec (List.length w + List.length p) room) as [H|H].
  - rewrite IH by (rewrite app_length; lia). now rewrite app_assoc.
  - f_equal. rewrite firstn_app. rewrite (firstn_all2 w) by lia. f_equal. rewrite firstn_app.
    replace (room - List.length w - List.length p)%nat with 0%nat by lia. now rewrite app_nil_r.
Qed.
Lemma set_same f p b : set_file f p b p = Some b.
Proof. unfold set_file. replace (str_eqb p p) with true by (symmetry; now apply str_eqb_spec). reflexivity. Qed.
Lemma set_other f p b q : q <> p -> set_file f p b q = f q.
Proof. intros N. unfold set_file. destruct (str_eqb q p) eqn:E; [|reflexivity]. apply str_eqb_spec in E. contradiction. Qed.

(** What an output file gets. *)
Lemma output_view s said p ps : let r := output_file s said p ps in let whole := List.concat ps in
  r_out r = [] /\ (forall q, q <> p -> r_files r q = sy_files s q)
  /\ match sy_room s p with
     | None => r_status r = 1 /\ r_files r p = sy_files s p
     | Some room => if (List.length whole <=? room)%nat then r_status r = 0 /\ r_err r = said /\ r_files r p = Some whole
                    else r_status r = 1 /\ r_files r p = Some (firstn room whole)
     end.
Proof.
  cbv zeta. unfold output_file. destruct (sy_room s p) as [room|]; [|repeat split; reflexivity].
  destruct (Nat.leb_spec (List.length (List.concat ps)) room) as [H|H].
  - rewrite write_pieces_all by (cbn; lia). cbn [app]. split; [reflexivity|]. split; [intros q N; now apply set_other|]. repeat split. apply set_same.
  - rewrite write_pieces_some by (cbn; lia). cbn [app]. split; [reflexivity|]. split; [intros q N; now apply set_other|]. repeat split. apply set_same.
Qed.

Lemma print_errors_view es : match print_errors es with
  | (l, true) => exists ts, l = map (fun t => Said (t ++ [nl])) ts /\ Forall2 (fun e t => show_error e = Ok t) es ts
  | (_, false) => exists e, In e es /\ forall t, show_error e <> Ok t
  end.
Proof.
  induction es as [|e es IH]; cbn [print_errors]; [exists []; split; constructor|]. destruct (show_error e) as [t|?|?] eqn:E; [|exists e; split; [now left|intros t; congruence]..].
  destruct (print_errors es) as [l []].
  - destruct IH as (ts & -> & F). exists (t :: ts). split; [reflexivity|now constructor].
  - destruct IH as (e' & I & H). exists e'. split; [now right|exact H].
Qed.

Lemma cli_disasm_is oc m bytes : Forall is_byte bytes -> m_debug m = false ->
  (forall ws, holds ws bytes -> ws <> [] -> Forall is_word ws -> cli_disasm oc (m_base m) (m_syms m) bytes = disassemble oc m ws)
  /\ ((forall ws, holds ws bytes -> ws <> [] -> ~ Forall is_word ws) -> exists p, cli_disasm oc (m_base m) (m_syms m) bytes = Panic p).
Proof.
  intros B D. assert (M : set_symbols (m_syms m) (set_base (m_base m) m_new) = m) by (destruct m; cbn in *; now subst). unfold cli_disasm. rewrite M. split.
  - intros ws H N W. assert (E : bytes = words_to_file ws) by (unfold holds in H; rewrite H; symmetry; exact (file_spec ws)). rewrite E, (read_back ws W N). reflexivity.
  - intros H. unfold read_words. destruct (read_ok_fuel (S (List.length bytes)) bytes B ltac:(lia)) as [G1 G2].
    destruct (Nat.eq_dec (List.length bytes mod 4) 0) as [E|E].
    + destruct (List.length bytes) as [|n] eqn:L.
      * destruct G2 as [p G2]; [intros k; lia|]. rewrite G2. now exists p.
      * exfalso. assert (K : exists k, S n = (4 * S k)%nat).
        { exists (S n / 4 - 1)%nat. assert (Q := Nat.div_mod (S n) 4 ltac:(lia)). destruct (S n / 4)%nat; lia. }
        destruct K as [k K]. destruct (G1 k K) as (ws & _ & Hw & Ww & Lw). apply (H ws Hw); [intros ->; discriminate Lw|exact Ww].
    + destruct G2 as [p G2]; [|rewrite G2; now exists p]. intros k K. apply E. rewrite K, Nat.mul_comm. apply Nat.mod_mul. lia.
Qed.

(** ** Plans: what a run is going to do, which depends only on the files it reads. *)

Inductive plan := Fail (st : Z) (said : list note) | Print (t : str) (said : list note) | Write (p : path) (pieces : list (list Z)) (said : list note).
Definition planned_asm (s : system) (c : cli) (base : Z) (syms : list (Z * str)) : plan :=
  match read_text s (c_input c) with
  | None => Fail 1 [Library]
  | Some data =>
      let m := set_symbols syms (set_base base m_new) in
      let said := match assemble_warnings (sy_rt s) m data with Some w => print_warnings w | None => [] end in
      match assemble (sy_rt s) m data with
      | Panic _ => Fail 101 (said ++ [Library])
      | Err es => let (l, ok) := print_errors es in if ok then Fail 1 (said ++ l) else Fail 101 ((said ++ l) ++ [Library])
      | Ok insts =>
          match c_output c with
          | Some p => Write p [words_to_file (get_bytes insts)] said
          | None => Print (print_words (get_bytes insts)) said
          end
      end
  end.
Definition planned_disasm (s : system) (c : cli) (base : Z) (syms : list (Z * str)) : plan :=
  match sy_files s (c_input c) with
  | None => Fail 1 [Library]
  | Some bytes =>
      match cli_disasm (rt_oc (sy_rt s)) base syms bytes with
      | Ok listing => match c_output c with Some p => Write p (map (map code) listing) [] | None => Print (listing_stdout listing) [] end
      | _ => Fail 101 [Library]
      end
  end.
Definition planned (s : system) (c : cli) : plan :=
  match (match c_syms c with Some p => read_text s p | None => Some [] end) with
  | None => Fail 1 [Library]
  | Some text =>
      match sy_yaml s text with
      | None => Fail 101 [Library]
      | Some docs =>
          let syms := sy_order s (match docs with Hash entries :: _ => yaml_syms entries | _ => [] end) in
          match parse_base (c_base c) with
          | None => Fail 1 [Said (#"Error: Invalid base address `" ++ c_base c ++ #"`" ++ [nl])]
          | Some base => match c_mode c with Asm => planned_asm s c base syms | Disasm => planned_disasm s c base syms end
          end
      end
  end.
Definition carried_out (s : system) (p : plan) : result :=
  match p with
  | Fail st said => mk_result st [] said (sy_files s)
  | Print t said => mk_result 0 t said (sy_files s)
  | Write p ps said => output_file s said p ps
  end.
Lemma run_planned s c : run s c = carried_out s (planned s c).
Proof.
  unfold run, planned. destruct (match c_syms c with Some p => read_text s p | None => Some [] end) as [text|]; [|reflexivity]. destruct (sy_yaml s text) as [docs|]; [|reflexivity].
  cbv zeta. destruct (parse_base (c_base c)) as [base|]; [|reflexivity]. destruct (c_mode c).
  - unfold run_asm, planned_asm. destruct (read_text s (c_input c)) as [data|]; [|reflexivity]. cbv zeta. destruct (assemble _ _ data) as [out|es|q]; [|destruct (print_errors es) as [l []]; reflexivity|reflexivity].
    destruct (c_output c); reflexivity.
  - unfold run_disasm, planned_disasm. destruct (sy_files s (c_input c)) as [bytes|]; [|reflexivity]. destruct (cli_disasm _ _ _ bytes); [|reflexivity..]. destruct (c_output c); reflexivity.
Qed.

(** Same files to read, same rest of the system. *)
Record alike (c : cli) (s s' : system) : Prop := mk_alike {
  al_input : sy_files s' (c_input c) = sy_files s (c_input c);
  al_syms : forall p, c_syms c = Some p -> sy_files s' p = sy_files s p;
  al_yaml : sy_yaml s' = sy_yaml s; al_order : sy_order s' = sy_order s; al_rt : sy_rt s' = sy_rt s }.
Lemma planned_alike c s s' : alike c s s' -> planned s' c = planned s c.
Proof.
  intros [Hi Hs Hy Ho Hr]. unfold planned, planned_asm, planned_disasm.
  assert (T : forall p, sy_files s' p = sy_files s p -> read_text s' p = read_text s p) by (intros p E; unfold read_text; now rewrite E).
  rewrite Hy, Ho, Hr, Hi, (T _ Hi). destruct (c_syms c) as [p|]; [|reflexivity]. now rewrite (T p (Hs p eq_refl)).
Qed.
Lemma planned_shape s c : match planned s c with
  | Fail st _ => st = 1 \/ st = 101
  | Print _ _ => c_output c = None
  | Write p _ _ => c_output c = Some p
  end.
Proof.
  unfold planned. destruct (match c_syms c with Some p => read_text s p | None => Some [] end) as [text|]; [|now left]. destruct (sy_yaml s text) as [docs|]; [|now right].
  cbv zeta. destruct (parse_base (c_base c)) as [base|]; [|now left]. destruct (c_mode c).
  - unfold planned_asm. destruct (read_text s (c_input c)) as [data|]; [|now left]. cbv zeta. destruct (assemble _ _ data) as [out|es|q]; [|destruct (print_errors es) as [l []]; auto|now right].
    destruct (c_output c); reflexivity.
  - unfold planned_disasm. destruct (sy_files s (c_input c)) as [bytes|]; [|now left]. destruct (cli_disasm _ _ _ bytes); [|now right..]. destruct (c_output c); reflexivity.
Qed.
