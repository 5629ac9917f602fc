(** * PropsCli: the command line and the builder (C44-C46, C48, C57-C59).

    Statements, concrete instances and [Print Assumptions] only. *)

From Coq Require Import Lia.
From Verif Require Import Lib Cli SpecIsa SpecListing WordProofs CliProofs SpecText SpecProgram SpecCli.

(** ** C44  Byte order *)

(** What [asm -o] writes, and what [disasm] then works on. *)
Definition C44_full (rt : runtime) (oc : bool) : Prop :=
  forall base syms data bytes, word_symbols syms -> cli_asm rt base syms data = Ok bytes ->
  exists out, assemble rt (set_symbols syms (set_base base m_new)) data = Ok out
    /\ holds (get_bytes out) bytes
    /\ forall base' syms', cli_disasm oc base' syms' bytes = disassemble oc (set_symbols syms' (set_base base' m_new)) (get_bytes out).

(** A source without instructions gives an empty file, on which [disasm] crashes. *)
Theorem C44_refuted : forall rt oc, ~ C44_full rt oc.
Proof.
  intros rt oc H. destruct (H 0 [] [] [] (Forall_nil _)) as (out & A & _ & D); [reflexivity|].
  cbn in A. injection A as <-. specialize (D 0 []). discriminate D.
Qed.

Theorem C44_bytes_are_big_endian_words_partial : forall rt oc base syms data bytes, word_symbols syms ->
  cli_asm rt base syms data = Ok bytes ->
  exists out, assemble rt (set_symbols syms (set_base base m_new)) data = Ok out
    /\ Forall is_word (get_bytes out) /\ holds (get_bytes out) bytes
    /\ (get_bytes out <> [] -> forall base' syms',
        cli_disasm oc base' syms' bytes = disassemble oc (set_symbols syms' (set_base base' m_new)) (get_bytes out)).
Proof.
  intros rt oc base syms data bytes W H. unfold cli_asm in H.
  destruct (assemble rt (set_symbols syms (set_base base m_new)) data) as [out|er|p] eqn:A; try discriminate.
  cbn [obind] in H. injection H as <-. exists out. split; [reflexivity|].
  assert (Ww : Forall is_word (get_bytes out)) by (eapply assembled_words; [|exact A]; exact W).
  split; [exact Ww|]. split; [apply file_spec|]. intros N base' syms'. unfold cli_disasm. now rewrite read_back.
Qed.
Example C44_case : forall oc ord, cli_asm (mk_runtime oc ord) 0 [] (#"addiu $sp, $sp, -32" ++ [nl] ++ #"jr $ra") = Ok [0x27; 0xbd; 0xff; 0xe0; 0x03; 0xe0; 0x00; 0x08].
Proof. intros oc ord. vm_compute. reflexivity. Qed.

(** ** C45  Any input file *)

Definition C45_full : Prop := forall oc base syms bytes, Forall is_byte bytes -> forall p, cli_disasm oc base syms bytes <> Panic p.

(** The empty file, and a file with five bytes. *)
Theorem C45_refuted : ~ C45_full.
Proof. intros H. exact (H true 0 [] [] (Forall_nil _) _ eq_refl). Qed.
Theorem C45_refuted_five_bytes : exists p, cli_disasm true 0 [] [0; 0; 0; 0; 0] = Panic p.
Proof. eexists. reflexivity. Qed.

(** Exactly the files with a positive multiple of four bytes are read, as their big-endian
    words; every other file crashes the program. *)
Theorem C45_files_read_partial : forall bytes, Forall is_byte bytes ->
  (forall k, List.length bytes = (4 * S k)%nat ->
    exists ws, Forall is_word ws /\ holds ws bytes
      /\ forall oc base syms, cli_disasm oc base syms bytes = disassemble oc (set_symbols syms (set_base base m_new)) ws)
  /\ ((forall k, List.length bytes <> (4 * S k)%nat) -> forall oc base syms, exists p, cli_disasm oc base syms bytes = Panic p).
Proof.
  intros bytes B. destruct (read_ok_fuel (S (List.length bytes)) bytes B ltac:(lia)) as [G1 G2]. split.
  - intros k E. destruct (G1 k E) as (ws & R & H & W & _). exists ws. repeat split; auto. intros oc base syms.
    unfold cli_disasm, read_words. now rewrite R.
  - intros E oc base syms. destruct (G2 E) as [p R]. exists p. unfold cli_disasm, read_words. now rewrite R.
Qed.
Example C45_case : cli_disasm true 0x80000000 [] [0x27; 0xbd; 0xff; 0xe0] = Ok [#"func_80000000:"; #"addiu      $sp, $sp, -0x20"].
Proof. vm_compute. reflexivity. Qed.

(** ** C46  Listing files *)

Definition C46_full : Prop := forall oc base syms bytes ls, cli_disasm oc base syms bytes = Ok ls -> listing_file ls = listing_stdout ls.

(** It fails for every listing: [-o] drops all line ends. *)
Theorem C46_refuted_always : forall oc base syms bytes ls, cli_disasm oc base syms bytes = Ok ls -> listing_file ls <> listing_stdout ls.
Proof.
  intros oc base syms bytes ls H E. unfold cli_disasm in H. apply ScanProofs.obind_ok in H as (ws & _ & H).
  apply disasm_nonempty in H; [|reflexivity]. apply (f_equal (@List.length ascii)) in E. rewrite stdout_length in E. destruct ls; [congruence|]. cbn in E. lia.
Qed.
Theorem C46_refuted : ~ C46_full.
Proof.
  intros H. eapply C46_refuted_always with (oc := true) (base := 0) (syms := []) (bytes := [0; 0; 0; 0]); [vm_compute; reflexivity|].
  eapply H with (oc := true) (base := 0) (syms := []) (bytes := [0; 0; 0; 0]). vm_compute. reflexivity.
Qed.
(** The file is what the terminal shows without its line ends. *)
Theorem C46_same_text_partial : forall oc base syms bytes ls, cli_disasm oc base syms bytes = Ok ls -> Forall (fun l => ~ In nl l) ls ->
  listing_file ls = filter (fun c => negb (Ascii.eqb c nl)) (listing_stdout ls).
Proof. intros oc base syms bytes ls _ N. symmetry. exact (stdout_strip ls N). Qed.
Example C46_case : listing_file [#"f:"; #"jr $ra"] = #"f:jr $ra" /\ listing_stdout [#"f:"; #"jr $ra"] = #"f:" ++ [nl] ++ #"jr $ra" ++ [nl].
Proof. split; reflexivity. Qed.

(** ** C48  Builder settings *)

Definition call (c : setting) (m : mipsasm) : mipsasm :=
  match c with SetBase a => set_base a m | SetSymbols s => set_symbols s m | SetDebug => set_debug m end.
Definition configured (cs : list setting) : mipsasm := fold_left (fun m c => call c m) cs m_new.

Theorem C48_last_setting_wins : forall cs,
  m_base (configured cs) = last_base 0 cs /\ m_syms (configured cs) = last_symbols [] cs /\ m_debug (configured cs) = debug_called cs.
Proof.
  intros cs. unfold configured.
  assert (G : forall m, m_base (fold_left (fun m c => call c m) cs m) = last_base (m_base m) cs
    /\ m_syms (fold_left (fun m c => call c m) cs m) = last_symbols (m_syms m) cs
    /\ m_debug (fold_left (fun m c => call c m) cs m) = m_debug m || debug_called cs).
  { induction cs as [|c cs IH]; intros m; [repeat split; cbn; now rewrite orb_false_r|]. cbn [fold_left]. destruct (IH (call c m)) as (A & B & C).
    rewrite A, B, C. destruct c; cbn; repeat split; now rewrite ?orb_true_r. }
  exact (G m_new).
Qed.
(** Hence two instances give the same results when the last base and symbols agree (and, for
    disassembly, both or neither have debug). *)
Theorem C48_same_assembly : forall rt cs cs' input, last_base 0 cs = last_base 0 cs' -> last_symbols [] cs = last_symbols [] cs' ->
  assemble rt (configured cs) input = assemble rt (configured cs') input
  /\ assemble_warnings rt (configured cs) input = assemble_warnings rt (configured cs') input.
Proof.
  intros rt cs cs' input B S. destruct (C48_last_setting_wins cs) as (A1 & A2 & _). destruct (C48_last_setting_wins cs') as (B1 & B2 & _).
  unfold assemble, assemble_warnings, mk_parser. rewrite A1, A2, B1, B2, B, S. split; reflexivity.
Qed.
Theorem C48_same_disassembly : forall oc cs cs' ws, last_base 0 cs = last_base 0 cs' -> last_symbols [] cs = last_symbols [] cs' ->
  debug_called cs = debug_called cs' -> disassemble oc (configured cs) ws = disassemble oc (configured cs') ws.
Proof.
  intros oc cs cs' ws B S D. destruct (C48_last_setting_wins cs) as (A1 & A2 & A3). destruct (C48_last_setting_wins cs') as (B1 & B2 & B3).
  assert (E : configured cs = configured cs'); [|now rewrite E].
  destruct (configured cs), (configured cs'). cbn in *. congruence.
Qed.
Example C48_case : configured [SetDebug; SetBase 4; SetSymbols [(8, #"f")]; SetBase 0x80000000] = mk_mipsasm 0x80000000 [(8, #"f")] true
  /\ disassemble true (configured [SetDebug; SetBase 0x80000000]) [0x0c000002] = disassemble true (configured [SetBase 4; SetBase 0x80000000; SetDebug; SetDebug]) [0x0c000002].
Proof. split; reflexivity. Qed.

(** ** C57  Base address argument *)

Theorem C57_base_argument : forall s v arg, digits 16 s v -> arg = s \/ arg = #"0x" ++ s ->
  parse_base arg = if v <? 2 ^ 32 then Some v else None.
Proof. exact base_proof. Qed.
Example C57_case : parse_base #"0x80000400" = Some 0x80000400 /\ parse_base #"80000400" = Some 0x80000400 /\ parse_base #"0x100000000" = None.
Proof. repeat split; reflexivity. Qed.

(** ** C58  Symbol file *)

Theorem C58_last_entry_names_the_address : forall entries said, Forall2 entry_says entries said ->
  NoDup (map fst (yaml_syms entries)) /\ forall a n, In (a, n) (yaml_syms entries) <-> last_entry a said n.
Proof.
  intros entries said F. assert (E : map yaml_entry entries = said).
  { induction F as [|x y l l' S _ IH]; [reflexivity|]. cbn [map]. f_equal; [|exact IH]. destruct S as [k v a n K1 K2 V1 V2]. unfold yaml_entry. cbn [fst snd]. f_equal.
    - destruct k as [z|s|]; [now rewrite (K1 z eq_refl)|rewrite K2 by discriminate; reflexivity..].
    - destruct v as [z|s|]; [now rewrite V2 by discriminate|now rewrite (V1 s eq_refl)|now rewrite V2 by discriminate]. }
  subst said. apply yaml_spec.
Qed.
(** Every file says something. *)
Lemma entries_say entries : exists said, Forall2 entry_says entries said.
Proof.
  exists (map yaml_entry entries). induction entries as [|[k v] l IH]; constructor; [|exact IH]. unfold yaml_entry. cbn [fst snd].
  constructor; [now intros z -> |now destruct k; [intros H; now destruct (H v0)|..]|now intros s -> |now destruct v; [|intros H; now destruct (H s)|]].
Qed.
Example C58_case : yaml_syms [(YInt 0x80000400, YStr #"main"); (YInt 8, YStr #"f"); (YInt 0x80000400, YStr #"start")] = [(0x80000400, #"start"); (8, #"f")].
Proof. reflexivity. Qed.

(** ** C59  Words on the terminal *)

Theorem C59_words_printed : forall rt m input out, word_symbols (m_syms m) -> assemble rt m input = Ok out ->
  exists ts, print_words (get_bytes out) = #"[" ++ join #", " ts ++ #"]" ++ [nl] /\ Forall2 eight_digits ts (get_bytes out).
Proof.
  intros rt m input out W A. assert (F := assembled_words rt m input out W A).
  exists (map (fun w => zero_pad 8 (hexU w)) (get_bytes out)). split; [reflexivity|].
  induction F as [|w ws H _ IH]; constructor; auto. now apply eight.
Qed.
Example C59_case : print_words [0x27bdffe0; 0x8] = #"[27BDFFE0, 00000008]" ++ [nl].
Proof. vm_compute. reflexivity. Qed.

Print Assumptions C44_bytes_are_big_endian_words_partial.
Print Assumptions C45_files_read_partial.
Print Assumptions C46_refuted_always.
Print Assumptions C48_last_setting_wins.
Print Assumptions C48_same_assembly.
Print Assumptions C48_same_disassembly.
Print Assumptions C57_base_argument.
Print Assumptions C58_last_entry_names_the_address.
Print Assumptions C59_words_printed.
