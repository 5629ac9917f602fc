(** * PropsMain: running the program (C76 to C81). *)

From Coq Require Import Lia Permutation.
From Verif Require Import Lib Cli SpecIsa StrLemmas CliProofs WordProofs ScanProofs Main MainProofs SpecText SpecProgram SpecCli SpecMain.

(** ** C76  Assembling *)

Lemma symbols_words s c syms : (forall l, Permutation (sy_order s l) l) -> symbols_read s c syms -> word_symbols syms.
Proof.
  intros P (t & d & _ & _ & ->). apply Forall_forall. intros [a n] I. apply (Permutation_in _ (P _)) in I. destruct d as [|[entries|] d]; [destruct I| |destruct I].
  apply (proj2 (yaml_spec entries)) in I as (b & f & E & _). assert (J : In (a, n) (map yaml_entry entries)) by (rewrite E; apply in_elt).
  apply in_map_iff in J as ([k v] & J & _). unfold yaml_entry in J. injection J as J _. cbn [fst]. subst a. unfold is_word, wrap. apply Z.mod_pos_bound. reflexivity.
Qed.

Theorem C76_assembling s c : holds_bytes s -> (forall l, Permutation (sy_order s l) l) -> c_mode c = Asm ->
  (r_status (run s c) = 0 <-> exists ws, assembles s c ws /\ room_for s c (4 * List.length ws))
  /\ forall ws, assembles s c ws -> r_status (run s c) = 0 ->
     match c_output c with
     | None => words_shown ws (r_out (run s c))
     | Some p => r_out (run s c) = [] /\ exists bytes, r_files (run s c) p = Some bytes /\ holds ws bytes
     end.
Proof.
  intros B P Mo. destruct (run_view s c B) as [(m & I & R)|(No & (St & _))].
  2:{ split; [|intros ws (m & ? & ? & I & _); now destruct (No m)]. split; [intros E; destruct St as [St|St]; rewrite St in E; discriminate E|].
      intros (ws & (m & ? & ? & I & _) & _). now destruct (No m). }
  rewrite Mo in R. assert (U : forall ws, assembles s c ws -> exists data out, text_in s (c_input c) data /\ assemble (sy_rt s) m data = Ok out /\ ws = get_bytes out).
  { intros ws (m' & data & out & I' & T & A & E). rewrite (instance_unique s c m m' I I'). now exists data, out. }
  unfold run_asm in R. rewrite (instance_is s c m I) in R. destruct (read_text s (c_input c)) as [data|] eqn:Rd.
  2:{ assert (V : forall ws, ~ assembles s c ws) by (intros ws A; apply U in A as (data & out & T & _); apply (read_text_iff s _ _ B) in T; congruence).
      rewrite R. split; [|intros ws A; now apply V in A]. split; [discriminate|]. intros (ws & A & _). now apply V in A. }
  assert (T := proj1 (read_text_iff s _ _ B) Rd). cbv zeta in R.
  assert (V : forall ws, assembles s c ws -> exists out, assemble (sy_rt s) m data = Ok out /\ ws = get_bytes out).
  { intros ws A. apply U in A as (data' & out & T' & A & E). rewrite <- (text_unique s _ _ _ T T') in A. now exists out. }
  destruct (assemble (sy_rt s) m data) as [out|es|q] eqn:A.
  - assert (As : assembles s c (get_bytes out)) by (exists m, data, out; exact (conj I (conj T (conj A eq_refl)))).
    assert (Un : forall ws, assembles s c ws -> ws = get_bytes out) by (intros ws K; apply V in K as (out' & E & ->); now injection E as <-).
    destruct (c_output c) as [p|] eqn:O.
    + destruct (output_view s (match assemble_warnings (sy_rt s) m data with Some w => print_warnings w | None => [] end) p [words_to_file (get_bytes out)]) as (Ro & _ & V').
      cbn [List.concat] in V'. rewrite app_nil_r in V'. rewrite file_words_length in V'. rewrite R. destruct (sy_room s p) as [room|] eqn:Rm.
      * destruct (Nat.leb_spec (4 * List.length (get_bytes out)) room) as [L|L].
        -- destruct V' as (St & _ & F). split.
           ++ split; [intros _; exists (get_bytes out); split; [exact As|]; intros p' E; rewrite O in E; injection E as <-; exists room; split; [exact Rm|exact L]|]. intros _. exact St.
           ++ intros ws K _. rewrite (Un ws K). split; [exact Ro|]. exists (words_to_file (get_bytes out)). split; [exact F|apply file_spec].
        -- destruct V' as (St & _). split; [|intros ws K E; rewrite St in E; discriminate E]. split; [rewrite St; discriminate|].
           intros (ws & K & Rf). rewrite (Un ws K) in Rf. destruct (Rf p O) as (room' & E & L'). rewrite Rm in E. injection E as <-. lia.
      * destruct V' as (St & _). split; [|intros ws K E; rewrite St in E; discriminate E]. split; [rewrite St; discriminate|].
        intros (ws & K & Rf). destruct (Rf p O) as (room' & E & L'). congruence.
    + rewrite R. split.
      * split; [intros _; exists (get_bytes out); split; [exact As|]; intros p' E; congruence|reflexivity].
      * intros ws K _. rewrite (Un ws K). cbn [r_out]. exists (map (fun w => zero_pad 8 (hexU w)) (get_bytes out)). split; [reflexivity|].
        assert (Fw := assembled_words (sy_rt s) m data out (symbols_words s c _ P (proj1 (proj2 I))) A).
        clear - Fw. induction Fw as [|w l H _ IH]; [constructor|]. constructor; [now apply eight|exact IH].
  - assert (No : forall ws, ~ assembles s c ws) by (intros ws K; apply V in K as (out & E & _); discriminate E).
    assert (St : r_status (run s c) <> 0) by (rewrite R; destruct (print_errors es) as [l []]; discriminate).
    split; [|intros ws K; now apply No in K]. split; [now intros E|]. intros (ws & K & _). now apply No in K.
  - assert (No : forall ws, ~ assembles s c ws) by (intros ws K; apply V in K as (out & E & _); discriminate E).
    assert (St : r_status (run s c) <> 0) by (rewrite R; discriminate).
    split; [|intros ws K; now apply No in K]. split; [now intros E|]. intros (ws & K & _). now apply No in K.
Qed.

(** ** C77  Disassembling *)

Theorem C77_disassembling s c : holds_bytes s -> c_mode c = Disasm ->
  (r_status (run s c) = 0 <-> exists listing, disassembles s c listing /\ room_for s c (List.length (List.concat listing)))
  /\ forall listing, disassembles s c listing -> r_status (run s c) = 0 ->
     match c_output c with
     | None => r_out (run s c) = List.concat (map (fun l => l ++ [nl]) listing)
     | Some p => r_out (run s c) = [] /\ r_files (run s c) p = Some (map code (List.concat listing))
     end.
Proof.
  intros B Mo. destruct (run_view s c B) as [(m & I & R)|(No & (St & _))].
  2:{ split; [|intros ws (m & ? & ? & I & _); now destruct (No m)]. split; [intros E; destruct St as [St|St]; rewrite St in E; discriminate E|].
      intros (ws & (m & ? & ? & I & _) & _). now destruct (No m). }
  rewrite Mo in R. unfold run_disasm in R. destruct (sy_files s (c_input c)) as [bytes|] eqn:F.
  2:{ assert (V : forall l, ~ disassembles s c l) by (intros l (? & ? & b & _ & E & _); congruence).
      rewrite R. split; [|intros l A; now apply V in A]. split; [discriminate|]. intros (l & A & _). now apply V in A. }
  destruct (cli_disasm_is (rt_oc (sy_rt s)) m bytes (B _ _ F) (proj2 (proj2 I))) as [G1 G2].
  assert (V : forall l, disassembles s c l -> cli_disasm (rt_oc (sy_rt s)) (m_base m) (m_syms m) bytes = Ok l).
  { intros l (m' & ws & b & I' & E & H & N & W & D). rewrite F in E. injection E as <-. rewrite <- (instance_unique s c m m' I I') in D. now rewrite (G1 ws H N W). }
  destruct (cli_disasm (rt_oc (sy_rt s)) (m_base m) (m_syms m) bytes) as [listing|e|q] eqn:D.
  - assert (As : disassembles s c listing).
    { assert (K : exists ws, holds ws bytes /\ ws <> [] /\ Forall is_word ws).
      { destruct (read_ok_fuel (S (List.length bytes)) bytes (B _ _ F) ltac:(lia)) as [H1 H2]. unfold cli_disasm, read_words in D.
        destruct (Nat.eq_dec (List.length bytes mod 4) 0) as [E|E].
        - destruct (List.length bytes) as [|n] eqn:L; [destruct (H2 ltac:(intros k; lia)) as [p K]; rewrite K in D; discriminate D|].
          destruct (H1 (S n / 4 - 1)%nat) as (ws & _ & Hw & Ww & Lw); [assert (Q := Nat.div_mod (S n) 4 ltac:(lia)); destruct (S n / 4)%nat; lia|].
          exists ws. split; [exact Hw|]. split; [intros ->; discriminate Lw|exact Ww].
        - destruct H2 as [p K]; [intros k K; apply E; rewrite K, Nat.mul_comm; apply Nat.mod_mul; lia|]. rewrite K in D. discriminate D. }
      destruct K as (ws & H & N & W). exists m, ws, bytes. exact (conj I (conj F (conj H (conj N (conj W (eq_sym (G1 ws H N W))))))). }
    assert (Un : forall l, disassembles s c l -> l = listing) by (intros l K; apply V in K; now injection K as <-).
    destruct (c_output c) as [p|] eqn:O.
    + destruct (output_view s [] p (map (map code) listing)) as (Ro & _ & V').
      assert (Cc : List.concat (map (map code) listing) = map code (List.concat listing)) by (symmetry; apply concat_map). rewrite Cc, map_length in V'.
      rewrite R. destruct (sy_room s p) as [room|] eqn:Rm.
      * destruct (Nat.leb_spec (List.length (List.concat listing)) room) as [L|L].
        -- destruct V' as (St & _ & Fi). split.
           ++ split; [intros _; exists listing; split; [exact As|]; intros p' E; rewrite O in E; injection E as <-; exists room; split; [exact Rm|exact L]|]. intros _. exact St.
           ++ intros l K _. rewrite (Un l K). split; [exact Ro|exact Fi].
        -- destruct V' as (St & _). split; [|intros l K E; rewrite St in E; discriminate E]. split; [rewrite St; discriminate|].
           intros (l & K & Rf). rewrite (Un l K) in Rf. destruct (Rf p O) as (room' & E & L'). rewrite Rm in E. injection E as <-. lia.
      * destruct V' as (St & _). split; [|intros l K E; rewrite St in E; discriminate E]. split; [rewrite St; discriminate|].
        intros (l & K & Rf). destruct (Rf p O) as (room' & E & L'). congruence.
    + rewrite R. split.
      * split; [intros _; exists listing; split; [exact As|]; intros p' E; congruence|reflexivity].
      * intros l K _. rewrite (Un l K). reflexivity.
  - assert (No : forall l, ~ disassembles s c l) by (intros l K; apply V in K; discriminate K). rewrite R.
    split; [|intros l K; now apply No in K]. split; [discriminate|]. intros (l & K & _). now apply No in K.
  - assert (No : forall l, ~ disassembles s c l) by (intros l K; apply V in K; discriminate K). rewrite R.
    split; [|intros l K; now apply No in K]. split; [discriminate|]. intros (l & K & _). now apply No in K.
Qed.

(** ** C78  Which files a run changes *)

(** Only the output file; and when the run fails, not even that, unless there is too little room for
    it: then it holds as much as there is room for of what it would have held with enough room. *)
Theorem C78_files s c :
  (forall q, c_output c <> Some q -> r_files (run s c) q = sy_files s q)
  /\ forall p, c_output c = Some p -> r_status (run s c) <> 0 ->
       r_files (run s c) p = sy_files s p
       \/ exists room whole, sy_room s p = Some room /\ (room < List.length whole)%nat /\ r_files (run s c) p = Some (firstn room whole)
            /\ forall more, (exists n, more p = Some n /\ (List.length whole <= n)%nat) ->
                 r_status (run (with_room s more) c) = 0 /\ r_files (run (with_room s more) c) p = Some whole.
Proof.
  assert (Al : forall more, alike c s (with_room s more)) by (intros more; split; reflexivity).
  assert (Sh := planned_shape s c). rewrite run_planned. destruct (planned s c) as [st said|t said|p ps said] eqn:Pl; cbn [carried_out].
  - split; [reflexivity|]. intros p _ _. now left.
  - split; [reflexivity|]. intros p E. congruence.
  - destruct (output_view s said p ps) as (_ & Ot & V). split; [intros q N; apply Ot; congruence|]. intros p' E N. assert (p' = p) by congruence. subst p'.
    destruct (sy_room s p) as [room|] eqn:Rm; [|left; exact (proj2 V)]. destruct (Nat.leb_spec (List.length (List.concat ps)) room) as [L|L]; [now destruct V|].
    right. exists room, (List.concat ps). split; [reflexivity|]. split; [exact L|]. split; [exact (proj2 V)|]. intros more (n & M & Ln).
    rewrite run_planned, (planned_alike c s _ (Al more)), Pl. cbn [carried_out]. destruct (output_view (with_room s more) said p ps) as (_ & _ & V2).
    cbn [sy_room with_room] in V2. rewrite M in V2. destruct (Nat.leb_spec (List.length (List.concat ps)) n) as [_|Bad]; [|lia]. split; [exact (proj1 V2)|exact (proj2 (proj2 V2))].
Qed.

(** ** C79  What a run reports *)

Theorem C79_status s c :
  (r_status (run s c) = 0 \/ r_status (run s c) = 1 \/ r_status (run s c) = 101)
  /\ (r_status (run s c) <> 0 \/ c_output c <> None -> r_out (run s c) = []).
Proof.
  assert (Sh := planned_shape s c). rewrite run_planned. destruct (planned s c) as [st said|t said|p ps said]; cbn [carried_out r_status r_out].
  - split; [destruct Sh; auto|reflexivity].
  - split; [auto|]. intros [N|N]; [now destruct N|contradiction].
  - destruct (output_view s said p ps) as (Ro & _ & V). split; [|auto]. destruct (sy_room s p) as [room|]; [|right; left; exact (proj1 V)].
    destruct (_ <=? _)%nat; [left; exact (proj1 V)|right; left; exact (proj1 V)].
Qed.

(** A symbol file or an input that cannot be read (or is no text, where a text is needed): status 1. A
    bad base address: status 1, and the message names it. *)
Theorem C79_unread s c p : holds_bytes s -> c_syms c = Some p \/ (c_mode c = Asm /\ p = c_input c /\ exists m, instance s c m) -> (forall t, ~ text_in s p t) ->
  r_status (run s c) = 1 /\ forall q, r_files (run s c) q = sy_files s q.
Proof.
  intros B W N. assert (R : read_text s p = None) by (destruct (read_text s p) as [t|] eqn:R; [now destruct (N t (proj1 (read_text_iff s p t B) R))|reflexivity]).
  destruct W as [W|(Mo & -> & m & I)].
  - unfold run. rewrite W, R. split; reflexivity.
  - destruct (run_view s c B) as [(m' & _ & E)|(No & _)]; [|now destruct (No m)]. rewrite E, Mo. unfold run_asm. rewrite R. split; reflexivity.
Qed.
Theorem C79_base s c syms : holds_bytes s -> symbols_read s c syms -> parse_base (c_base c) = None ->
  r_status (run s c) = 1 /\ r_err (run s c) = [Said (#"Error: Invalid base address `" ++ c_base c ++ #"`" ++ [nl])] /\ forall q, r_files (run s c) q = sy_files s q.
Proof.
  intros B (text & docs & T & Y & _) P. unfold run.
  assert (R : match c_syms c with Some p => read_text s p | None => Some [] end = Some text) by (destruct (c_syms c) as [p|]; [now apply read_text_iff|now rewrite T]).
  rewrite R, Y. cbv zeta. rewrite P. repeat split; reflexivity.
Qed.

(** A program with errors: the status is 1 and standard error has, after the warnings, the text of
    each error, in order; or one of the errors cannot be displayed (C35), and the status is 101. No
    file is changed. *)
Theorem C79_errors s c m data es : holds_bytes s -> c_mode c = Asm -> instance s c m -> text_in s (c_input c) data -> assemble (sy_rt s) m data = Err es ->
  (forall q, r_files (run s c) q = sy_files s q)
  /\ ((exists ts w, Forall2 (fun e t => show_error e = Ok t) es ts /\ assemble_warnings (sy_rt s) m data = Some w
         /\ r_status (run s c) = 1 /\ r_err (run s c) = print_warnings w ++ map (fun t => Said (t ++ [nl])) ts)
      \/ ((exists e, In e es /\ forall t, show_error e <> Ok t) /\ r_status (run s c) = 101)).
Proof.
  intros B Mo I T A. destruct (run_view s c B) as [(m' & I' & R)|(No & _)]; [|now destruct (No m)]. rewrite <- (instance_unique s c m m' I I') in R. rewrite Mo in R.
  unfold run_asm in R. rewrite (instance_is s c m I), (proj2 (read_text_iff s _ _ B) T) in R. cbv zeta in R. rewrite A in R.
  assert (W : exists w, assemble_warnings (sy_rt s) m data = Some w).
  { unfold assemble in A. unfold assemble_warnings. destruct (parse (mk_parser (sy_rt s) m data)) as [[w o]|?|?]; [now exists w|discriminate A..]. }
  destruct W as [w W]. rewrite W in R. assert (V := print_errors_view es). destruct (print_errors es) as [l []].
  - destruct V as (ts & -> & F). rewrite R. split; [reflexivity|]. left. exists ts, w. split; [exact F|]. split; [exact W|]. split; reflexivity.
  - rewrite R. split; [reflexivity|]. right. split; [exact V|reflexivity].
Qed.

(** ** C80  Assembling to a file and disassembling that file *)

Theorem C80_there_and_back s c d p ws m : holds_bytes s -> (forall l, Permutation (sy_order s l) l) ->
  c_mode c = Asm -> c_output c = Some p -> assembles s c ws -> ws <> [] -> r_status (run s c) = 0 ->
  c_mode d = Disasm -> c_input d = p -> c_output d = None -> instance (after s (run s c)) d m ->
  let r := run (after s (run s c)) d in
  (r_status r = 0 <-> exists listing, disassemble (rt_oc (sy_rt s)) m ws = Ok listing)
  /\ forall listing, disassemble (rt_oc (sy_rt s)) m ws = Ok listing -> r_out r = List.concat (map (fun l => l ++ [nl]) listing).
Proof.
  intros B P Mc Oc As N St Md Id Od I. cbv zeta. destruct (C76_assembling s c B P Mc) as [_ G]. specialize (G ws As St). rewrite Oc in G. destruct G as (_ & bytes & F & H).
  assert (Fw : Forall is_word ws).
  { destruct As as (m' & data & out & I' & _ & A & ->). exact (assembled_words (sy_rt s) m' data out (symbols_words s c _ P (proj1 (proj2 I'))) A). }
  assert (Bb : Forall is_byte bytes).
  { unfold holds in H. subst bytes. apply Forall_concat. apply Forall_map. apply Forall_forall. intros w _. unfold big_endian, is_byte. repeat constructor; apply Z.mod_pos_bound; reflexivity. }
  assert (B' : holds_bytes (after s (run s c))).
  { intros q b E. cbn [after sy_files] in E. destruct (list_eq_dec ascii_dec q p) as [-> |Nq]; [rewrite F in E; injection E as <-; exact Bb|].
    rewrite (proj1 (C78_files s c) q) in E by congruence. exact (B q b E). }
  destruct (C77_disassembling (after s (run s c)) d B' Md) as [S1 S2].
  assert (K : forall listing, disassembles (after s (run s c)) d listing <-> disassemble (rt_oc (sy_rt s)) m ws = Ok listing).
  { intros listing. split.
    - intros (m' & ws' & b & I' & E & H' & N' & W' & D). cbn [after sy_files] in E. rewrite Id, F in E. injection E as <-. rewrite (instance_unique _ d m m' I I').
      assert (E : words_to_file ws = words_to_file ws') by (unfold holds in H, H'; transitivity bytes; [rewrite H; symmetry; symmetry; exact (file_spec ws)|rewrite H'; symmetry; exact (file_spec ws')]).
      assert (E2 := f_equal read_words E). rewrite (read_back ws Fw N), (read_back ws' W' N') in E2. injection E2 as ->. exact D.
    - intros D. exists m, ws, bytes. cbn [after sy_files]. rewrite Id. exact (conj I (conj F (conj H (conj N (conj Fw D))))). }
  split.
  - rewrite S1. split; [intros (l & D & _); exists l; now apply K|]. intros (l & D). exists l. split; [now apply K|]. intros q E. congruence.
  - intros listing D. assert (Q := S2 listing (proj2 (K listing) D)). rewrite Od in Q. apply Q. apply S1. exists listing. split; [now apply K|]. intros q E. congruence.
Qed.

(** ** C81  Repeating and reordering runs *)

Lemma effects s s' c : alike c s s' -> sy_room s' = sy_room s ->
  report (run s' c) = report (run s c)
  /\ forall q, r_files (run s' c) q = r_files (run s c) q \/ (r_files (run s' c) q = sy_files s' q /\ r_files (run s c) q = sy_files s q).
Proof.
  intros Al Rm. rewrite !run_planned, (planned_alike c s s' Al). destruct (planned s c) as [st said|t said|p ps said]; cbn [carried_out]; [split; [reflexivity|now right]..|].
  unfold output_file. rewrite Rm. destruct (sy_room s p) as [room|]; [|split; [reflexivity|now right]]. destruct (write_pieces room [] ps) as [b []].
  - split; [reflexivity|]. intros q. cbn [r_files]. unfold set_file. destruct (str_eqb q p); auto.
  - split; [reflexivity|]. intros q. cbn [r_files]. unfold set_file. destruct (str_eqb q p); auto.
Qed.

Theorem C81_again s c : c_output c <> Some (c_input c) -> (forall p, c_syms c = Some p -> c_output c <> Some p) ->
  report (run (after s (run s c)) c) = report (run s c)
  /\ forall q, r_files (run (after s (run s c)) c) q = r_files (run s c) q.
Proof.
  intros Ni Ns. assert (F := proj1 (C78_files s c)). assert (Al : alike c s (after s (run s c))) by (split; [now apply F|intros p E; apply F; now apply Ns|reflexivity..]).
  destruct (effects s _ c Al eq_refl) as [R E]. split; [exact R|]. intros q. destruct (E q) as [H|[H _]]; exact H.
Qed.

(** Runs none of which reads or writes what another writes: whatever the order, each reports the same
    as if it were the only one, and the files at the end are the same. *)
Lemma run_files_other s c q : c_output c <> Some q -> r_files (run s c) q = sy_files s q. Proof. exact (proj1 (C78_files s c) q). Qed.
Definition settled (s t : system) : Prop := sy_room t = sy_room s /\ sy_yaml t = sy_yaml s /\ sy_order t = sy_order s /\ sy_rt t = sy_rt s.
Lemma run_all_view cs : forall s0 s, settled s0 s -> ForallOrdPairs independent cs ->
  (forall c, In c cs -> sy_files s (c_input c) = sy_files s0 (c_input c) /\ (forall p, c_syms c = Some p -> sy_files s p = sy_files s0 p)) ->
  (forall c p, In c cs -> c_output c = Some p -> sy_files s p = sy_files s0 p) ->
  snd (run_all s cs) = map (fun c => (c, report (run s0 c))) cs
  /\ settled s0 (fst (run_all s cs))
  /\ (forall c p, In c cs -> c_output c = Some p -> sy_files (fst (run_all s cs)) p = r_files (run s0 c) p)
  /\ (forall p, (forall c, In c cs -> c_output c <> Some p) -> sy_files (fst (run_all s cs)) p = sy_files s p).
Proof.
  induction cs as [|c cs IH]; intros s0 s Se Fo Rd Wr; [repeat split; try apply Se; intros c p []|].
  inversion_clear Fo as [|? ? Fc Fo']. cbn [run_all]. destruct Se as (S1 & S2 & S3 & S4).
  assert (Al : alike c s0 s) by (destruct (Rd c (or_introl eq_refl)) as [A1 A2]; split; auto).
  destruct (effects s0 s c Al S1) as [R E].
  destruct (IH s0 (after s (run s c))) as (G1 & G2 & G3 & G4).
  - repeat split; assumption.
  - exact Fo'.
  - intros d Id. destruct (proj1 (Forall_forall _ _) Fc d Id) as [U _]. destruct (Rd d (or_intror Id)) as [D1 D2]. cbn [after sy_files]. split.
    + rewrite run_files_other by (intros Ex; now destruct (U _ Ex) as (X & _)). exact D1.
    + intros p Ep. rewrite run_files_other by (intros Ex; now destruct (U _ Ex) as (_ & X & _)). now apply D2.
  - intros d p Id Ep. destruct (proj1 (Forall_forall _ _) Fc d Id) as [U _]. cbn [after sy_files]. rewrite run_files_other by (intros Ex; now destruct (U _ Ex) as (_ & _ & X)).
    exact (Wr d p (or_intror Id) Ep).
  - destruct (run_all (after s (run s c)) cs) as [s' l] eqn:Ra. cbn [fst snd] in *. split; [cbn [map]; now rewrite G1, R|]. split; [exact G2|]. split.
    + intros d p [<-|Id] Ep; [|now apply G3]. rewrite G4 by (intros d Id Ed; destruct (proj1 (Forall_forall _ _) Fc d Id) as [U _]; now destruct (U p Ep) as (_ & _ & X)).
      cbn [after sy_files]. destruct (E p) as [H|[H H']]; [exact H|]. rewrite H, H'. exact (Wr c p (or_introl eq_refl) Ep).
    + intros p Np. rewrite G4 by (intros d Id; apply Np; now right). cbn [after sy_files]. apply run_files_other, Np. now left.
Qed.
Lemma independent_sym c d : independent c d -> independent d c. Proof. intros [A B]; split; assumption. Qed.
Lemma pairs_perm cs cs' : Permutation cs cs' -> ForallOrdPairs independent cs -> ForallOrdPairs independent cs'.
Proof.
  induction 1 as [|c l l' P IH|c d l|l l' l'' P1 IH1 P2 IH2]; intros F; auto.
  - inversion_clear F as [|? ? A B]. constructor; [|now apply IH]. now apply (Permutation_Forall P).
  - inversion_clear F as [|? ? A B]. inversion_clear B as [|? ? A' B']. inversion_clear A as [|? ? X Y]. constructor; [constructor; [now apply independent_sym|assumption]|]. constructor; assumption.
Qed.
Theorem C81_any_order s cs cs' : ForallOrdPairs independent cs -> Permutation cs cs' ->
  snd (run_all s cs) = map (fun c => (c, report (run s c))) cs
  /\ snd (run_all s cs') = map (fun c => (c, report (run s c))) cs'
  /\ forall p, sy_files (fst (run_all s cs)) p = sy_files (fst (run_all s cs')) p.
Proof.
  intros F P. assert (F' := pairs_perm cs cs' P F). assert (Se : settled s s) by (repeat split).
  destruct (run_all_view cs s s Se F) as (A1 & _ & A3 & A4); [now split|reflexivity|]. destruct (run_all_view cs' s s Se F') as (B1 & _ & B3 & B4); [now split|reflexivity|].
  split; [exact A1|]. split; [exact B1|]. intros p.
  destruct (existsb (fun c => match c_output c with Some q => str_eqb q p | None => false end) cs) eqn:E.
  - apply existsb_exists in E as (c & I & E). destruct (c_output c) as [q|] eqn:O; [|discriminate E]. apply str_eqb_spec in E. subst q.
    rewrite (A3 c p I O), (B3 c p (Permutation_in _ P I) O). reflexivity.
  - assert (No : forall c, In c cs -> c_output c <> Some p).
    { intros c I O. assert (T : existsb (fun c => match c_output c with Some q => str_eqb q p | None => false end) cs = true); [|congruence].
      apply existsb_exists. exists c. split; [exact I|]. rewrite O. now apply str_eqb_spec. }
    rewrite A4 by exact No. rewrite B4; [reflexivity|]. intros c I. apply No. exact (Permutation_in _ (Permutation_sym P) I).
Qed.

(** ** Cases *)

Definition files0 (p : path) : option (list Z) :=
  if str_eqb p #"a.s" then Some (map code (join [nl] [ #"main:"; #"  jal f"; #"  addiu $sp, $sp, -0x20 ; frame" ]))
  else if str_eqb p #"bad.s" then Some (map code #"addiu $a0, $zz, 1")
  else if str_eqb p #"syms.yaml" then Some (map code #"0x80000400: f")
  else if str_eqb p #"a.bin" then Some [1; 2; 3; 4]
  else None.
Definition yaml0 (t : str) : option (list document) := match t with [] => Some [] | _ => Some [Hash [(YInt 0x80000400, YStr #"f")]] end.
Definition s0 : system := mk_system files0 (fun _ => Some 1000%nat) yaml0 (fun l => l) (mk_runtime true (fun l => l)).
Definition asm0 : cli := mk_cli Asm (Some #"a.bin") (Some #"syms.yaml") #"a.s" #"0x80000000".
Definition show0 : cli := mk_cli Asm None (Some #"syms.yaml") #"a.s" #"0x80000000".
Definition bad0 : cli := mk_cli Asm (Some #"b.bin") None #"bad.s" #"0x80000000".
Definition dis0 : cli := mk_cli Disasm None (Some #"syms.yaml") #"a.bin" #"80000000".
Definition words0 : list Z := [0x0c000100; 0x27bdffe0].

Lemma s0_bytes : holds_bytes s0.
Proof.
  intros p bytes E. cbn [s0 sy_files] in E. unfold files0 in E.
  repeat (match type of E with (if ?b then _ else _) = _ => destruct b end; [injection E as <-; vm_compute; repeat constructor; discriminate|]). discriminate E.
Qed.
Lemma s0_order l : Permutation (sy_order s0 l) l. Proof. apply Permutation_refl. Qed.
Lemma instance0 c : c_syms c = Some #"syms.yaml" -> parse_base (c_base c) = Some 0x80000000 -> instance s0 c (mk_mipsasm 0x80000000 [(0x80000400, #"f")] false).
Proof.
  intros E P. split; [exact P|]. split; [|reflexivity]. exists #"0x80000400: f", [Hash [(YInt 0x80000400, YStr #"f")]]. rewrite E. split; [|split; reflexivity].
  split; [reflexivity|]. repeat constructor.
Qed.
Lemma assembles0 c : c_input c = #"a.s" -> c_syms c = Some #"syms.yaml" -> parse_base (c_base c) = Some 0x80000000 -> assembles s0 c words0.
Proof.
  intros Ei Es P. eexists _, (join [nl] [ #"main:"; #"  jal f"; #"  addiu $sp, $sp, -0x20 ; frame" ]), _. split; [exact (instance0 c Es P)|].
  split; [rewrite Ei; split; [reflexivity|repeat constructor]|]. split; [vm_compute; reflexivity|reflexivity].
Qed.
Example C76_case : holds_bytes s0 /\ (forall l, Permutation (sy_order s0 l) l) /\ assembles s0 asm0 words0 /\ room_for s0 asm0 (4 * List.length words0)
  /\ r_status (run s0 asm0) = 0 /\ r_files (run s0 asm0) #"a.bin" = Some [0x0c; 0; 1; 0; 0x27; 0xbd; 0xff; 0xe0]
  /\ r_out (run s0 show0) = #"[0C000100, 27BDFFE0]" ++ [nl].
Proof.
  split; [exact s0_bytes|]. split; [exact s0_order|]. split; [now apply assembles0|]. split; [intros p _; exists 1000%nat; split; [reflexivity|cbn; lia]|]. repeat split; vm_compute; reflexivity.
Qed.
Example C77_case : exists listing, disassembles (after s0 (run s0 asm0)) dis0 listing /\ List.length listing = 3%nat /\ r_status (run (after s0 (run s0 asm0)) dis0) = 0.
Proof.
  eexists. split; [|split; [|vm_compute; reflexivity]].
  - exists (mk_mipsasm 0x80000000 [(0x80000400, #"f")] false), words0. eexists. split; [|split; [vm_compute; reflexivity|split; [vm_compute; reflexivity|split; [discriminate|split; [repeat constructor; discriminate|vm_compute; reflexivity]]]]].
    split; [reflexivity|]. split; [|reflexivity]. exists #"0x80000400: f", [Hash [(YInt 0x80000400, YStr #"f")]]. split; [|split; reflexivity]. split; [vm_compute; reflexivity|repeat constructor].
  - reflexivity.
Qed.
(** Room for six bytes: the old contents are lost, and the file ends in the middle of a word. *)
Example C78_case : let s := with_room s0 (fun _ => Some 6%nat) in
  r_status (run s asm0) = 1 /\ sy_files s #"a.bin" = Some [1; 2; 3; 4] /\ r_files (run s asm0) #"a.bin" = Some [0x0c; 0; 1; 0; 0x27; 0xbd].
Proof. repeat split; vm_compute; reflexivity. Qed.
Example C79_case : r_status (run s0 bad0) = 1 /\ (exists t, r_err (run s0 bad0) = [Said t]) /\ r_files (run s0 bad0) #"b.bin" = None.
Proof. split; [vm_compute; reflexivity|]. split; [eexists; vm_compute; reflexivity|vm_compute; reflexivity]. Qed.
Example C79_base_case : r_err (run s0 (mk_cli Disasm None None #"a.bin" #"0xBEEG")) = [Said (#"Error: Invalid base address `0xBEEG`" ++ [nl])]
  /\ r_status (run s0 (mk_cli Asm None None #"missing.s" #"0")) = 1.
Proof. split; vm_compute; reflexivity. Qed.
Example C80_case : exists listing, disassemble true (mk_mipsasm 0x80000000 [(0x80000400, #"f")] false) words0 = Ok listing
  /\ r_out (run (after s0 (run s0 asm0)) dis0) = List.concat (map (fun l => l ++ [nl]) listing).
Proof. eexists. split; vm_compute; reflexivity. Qed.
Example C81_case : ForallOrdPairs independent [asm0; bad0; show0] /\ map (fun cr => fst (fst (snd cr))) (snd (run_all s0 [bad0; show0; asm0])) = [1; 0; 0].
Proof.
  split; [|vm_compute; reflexivity].
  assert (K : forall c d, (forall p, c_output c = Some p -> negb (str_eqb (c_input d) p) && negb (match c_syms d with Some q => str_eqb q p | None => false end) && negb (match c_output d with Some q => str_eqb q p | None => false end) = true) -> untouched c d).
  { intros c d H p E. specialize (H p E). apply andb_prop in H as [H H3]. apply andb_prop in H as [H1 H2]. apply negb_true_iff in H1, H2, H3.
    split; [intros X; rewrite X in H1; rewrite (proj2 (str_eqb_spec p p) eq_refl) in H1; discriminate H1|].
    split; intros X; [rewrite X, (proj2 (str_eqb_spec p p) eq_refl) in H2; discriminate H2|rewrite X, (proj2 (str_eqb_spec p p) eq_refl) in H3; discriminate H3]. }
  assert (I : independent asm0 bad0 /\ independent asm0 show0 /\ independent bad0 show0) by (split; [|split]; split; apply K; intros p E; try discriminate E; injection E as <-; reflexivity).
  destruct I as (I1 & I2 & I3). apply FOP_cons; [exact (Forall_cons _ I1 (Forall_cons _ I2 (Forall_nil _)))|]. apply FOP_cons; [exact (Forall_cons _ I3 (Forall_nil _))|].
  apply FOP_cons; [exact (Forall_nil _)|]. apply FOP_nil.
Qed.

Print Assumptions C76_assembling.
Print Assumptions C77_disassembling.
Print Assumptions C78_files.
Print Assumptions C79_status.
Print Assumptions C79_errors.
Print Assumptions C79_unread.
Print Assumptions C79_base.
Print Assumptions C80_there_and_back.
Print Assumptions C81_again.
Print Assumptions C81_any_order.
