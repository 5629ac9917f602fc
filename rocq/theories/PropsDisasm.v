(** * PropsDisasm: the disassembly properties (C02, C05-C09, C42, C49).

    Statements, concrete instances and [Print Assumptions] only; the proofs are in the
    [*Proofs] files.  The specification side is [SpecIsa] and [SpecListing]. *)

From Coq Require Import Lia.
From Verif Require Import Lib SpecIsa SpecListing StrLemmas DecodeProofs DisasmProofs ListingProofs InjProofs DisasmMore.

(** A disassembler in debug mode at a base address, without symbols. *)
Definition debug_at (base : Z) : mipsasm := set_debug (set_base base m_new).

(** ** C02  Every word disassembles to the ISA reading of its fields *)

Definition C02_full (oc : bool) : Prop :=
  forall base ws, is_word base -> Forall is_word ws ->
  exists ls, disassemble oc (debug_at base) ws = Ok ls
             /\ Forall2 (fun w l => read_text base w = Some l) ws ls.

(** The code prints [addi $zero, $zero, -0x7fff] for the immediate +0x7fff, decodes the
    reserved word 0x40600001 as [tlbr], and has no text for unnamed coprocessor registers. *)
Theorem C02_refuted : forall oc, ~ C02_full oc.
Proof. exact C02_refuted_proof. Qed.

Theorem C02_words_read_per_isa_partial : forall oc base ws, is_word base -> Forall is_word ws ->
  Forall (fun w => ~ reserved_tlb w /\ ~ largest_immediate w) ws ->
  exists ls, disassemble oc (debug_at base) ws = Ok ls
             /\ Forall2 (fun w l => forall t, read_text base w = Some t -> l = t) ws ls.
Proof. exact C02_partial_proof. Qed.

Example C02_case : disassemble true (debug_at 0x80000000)
  [0x27bdffe0; 0xafbf001c; 0x0c00a3f4; 0x46062082; 0x00000000; 0x7fffffff]
  = Ok [#"addiu $sp, $sp, -0x20"; #"sw $ra, 0x1c($sp)"; #"jal 0x80028FD0"; #"mul.s $fv1, $ft0, $ft1";
        #"sll $zero, $zero, 0x0"; #".word 0x7fffffff"].
Proof. vm_compute. reflexivity. Qed.
Example C02_case_meets_hypotheses : forall w,
  In w [0x27bdffe0; 0xafbf001c; 0x0c00a3f4; 0x46062082; 0x00000000; 0x7fffffff] ->
  is_word w /\ ~ reserved_tlb w /\ ~ largest_immediate w.
Proof. exact C02_case_proof. Qed.

(** ** C05  Debug-mode disassembly is total, one line per word *)

Theorem C05_debug_disassembly_total : forall oc m ws,
  m_debug m = true -> is_word (m_base m) -> Forall is_word ws ->
  exists ls, disassemble oc m ws = Ok ls /\ List.length ls = List.length ws.
Proof. exact debug_total. Qed.

(** ** C06  Default-mode disassembly never panics *)

Definition C06_full (oc : bool) : Prop :=
  forall m ws, is_word (m_base m) -> Forall is_word ws -> exists ls, disassemble oc m ws = Ok ls.

(** [j] to an address that has a symbol panics, in both build profiles. *)
Theorem C06_refuted : forall oc, ~ C06_full oc.
Proof. exact C06_refuted_proof. Qed.

(** With overflow checks, also a listing that reaches the end of the address space. *)
Theorem C06_refuted_overflow : exists m ws, is_word (m_base m) /\ Forall is_word ws /\ m_syms m = []
  /\ exists p, disassemble true m ws = Panic p.
Proof. exact C06_refuted_overflow_proof. Qed.

(** Any build: no panic when no [j] targets a symbol and the words fit below 2^32. *)
Theorem C06_default_total_partial : forall oc m ws, is_word (m_base m) -> Forall is_word ws ->
  m_base m + 4 * Z.of_nat (List.length ws) <= 2 ^ 32 ->
  (forall w, In w ws -> field w 26 6 = 2 -> forall n, ~ In (jump_address (m_base m) w, n) (m_syms m)) ->
  exists ls, disassemble oc m ws = Ok ls.
Proof. exact C06_partial_proof. Qed.

(** Release build: no panic when no [j] targets a symbol, whatever the size. *)
Theorem C06_default_total_release_partial : forall m ws, is_word (m_base m) -> Forall is_word ws ->
  (forall w, In w ws -> field w 26 6 = 2 -> forall n, ~ In (jump_address (m_base m) w, n) (m_syms m)) ->
  exists ls, disassemble false m ws = Ok ls.
Proof. exact C06_partial_release_proof. Qed.

Example C06_case : disassemble true (set_symbols [(0x80000010, #"f")] (set_base 0x80000000 m_new))
  [0x0c000004; 0x00000000; 0x03e00008; 0x00000000; 0x0c000004]
  = Ok [#"func_80000000:"; #"jal        f"; #"sll        $zero, $zero, 0x0"; #"jr         $ra";
        #"sll        $zero, $zero, 0x0"; []; #"f:"; #"jal        f"].
Proof. vm_compute. reflexivity. Qed.

(** ** C07  Structure of the default listing *)

Theorem C07_listing_structure : forall oc m ws ls,
  m_debug m = false -> is_word (m_base m) -> Forall is_word ws ->
  m_base m + 4 * Z.of_nat (List.length ws) <= 2 ^ 32 ->
  disassemble oc m ws = Ok ls ->
  exists cuts lines name body,
    ls = (name ++ #":") :: body
    /\ address_name (m_syms m) (m_base m) name
    /\ good_cuts (m_base m) ws cuts
    /\ blocks (m_syms m) (m_base m) cuts (List.length ws) 0 lines body
    /\ disassemble oc (set_debug m) ws = Ok (map collapse lines).
Proof. exact default_listing. Qed.

(** ** C08  Disassembly is compositional *)

Theorem C08_debug_concat : forall oc m ws1 ws2 ls1 ls2, m_debug m = true ->
  disassemble oc m ws1 = Ok ls1 -> disassemble oc m ws2 = Ok ls2 ->
  disassemble oc m (ws1 ++ ws2) = Ok (ls1 ++ ls2).
Proof. exact C08_concat_proof. Qed.

Theorem C08_segment_only : forall oc m b1 b2 ws, m_debug m = true ->
  is_word b1 -> is_word b2 -> Forall is_word ws -> b1 / 2 ^ 28 = b2 / 2 ^ 28 ->
  disassemble oc (set_base b1 m) ws = disassemble oc (set_base b2 m) ws.
Proof. exact C08_segment_proof. Qed.

(** ** C09  Disassembly does not lose information *)

Definition C09_full (oc : bool) : Prop :=
  forall base ws1 ws2 ls, is_word base -> Forall is_word ws1 -> Forall is_word ws2 ->
  disassemble oc (debug_at base) ws1 = Ok ls -> disassemble oc (debug_at base) ws2 = Ok ls -> ws1 = ws2.

(** Unused fields are not printed: 0x0000000f and 0x0000004f are both [sync]. *)
Theorem C09_refuted : forall oc, ~ C09_full oc.
Proof. exact C09_refuted_proof. Qed.

(** Not even for canonical words: 0x20007fff and 0x20008001 print alike. *)
Theorem C09_refuted_canonical : forall oc, exists w1 w2 l, w1 <> w2 /\ is_word w1 /\ is_word w2
  /\ canonical 0 w1 /\ canonical 0 w2
  /\ disassemble oc (debug_at 0) [w1] = Ok [l] /\ disassemble oc (debug_at 0) [w2] = Ok [l].
Proof. exact C09_refuted_canonical_proof. Qed.

Theorem C09_canonical_words_distinct_partial : forall oc base ws1 ws2 ls, is_word base ->
  Forall is_word ws1 -> Forall is_word ws2 ->
  (forall w, In w (ws1 ++ ws2) -> canonical base w /\ ~ reserved_tlb w /\ ~ largest_immediate w
                                  /\ read_text base w <> None) ->
  disassemble oc (debug_at base) ws1 = Ok ls -> disassemble oc (debug_at base) ws2 = Ok ls -> ws1 = ws2.
Proof. exact C09_partial_proof. Qed.

Example C09_case : forall w, In w [0x27bdffe0; 0xafbf001c; 0x0c00a3f4; 0x46062082; 0x7fffffff] ->
  canonical 0x80000000 w /\ read_text 0x80000000 w <> None.
Proof. exact C09_case_proof. Qed.

(** ** C42  Symbols replace jump targets *)

(** Compared with the disassembly without symbols, only the lines of [j]/[jal] to an address
    in the symbol table change, and they show the symbol. *)
Theorem C42_symbols_in_disassembly : forall oc base syms ws, is_word base -> Forall is_word ws ->
  NoDup (map fst syms) ->
  (forall a n c, In (a, n) syms -> In c n -> is_ws c = false) ->
  exists ls plain,
    disassemble oc (set_symbols syms (debug_at base)) ws = Ok ls
    /\ disassemble oc (debug_at base) ws = Ok plain
    /\ List.length ls = List.length ws /\ List.length plain = List.length ws
    /\ forall i w l p, nth_error ws i = Some w -> nth_error ls i = Some l -> nth_error plain i = Some p ->
       let target := jump_address base w in
       (field w 26 6 = 2 -> (forall n, In (target, n) syms -> l = #"j " ++ n)
                            /\ ((forall n, ~ In (target, n) syms) -> l = #"j 0x" ++ hexU target))
       /\ (field w 26 6 = 3 -> (forall n, In (target, n) syms -> l = #"jal " ++ n)
                            /\ ((forall n, ~ In (target, n) syms) -> l = #"jal 0x" ++ hexU target))
       /\ (field w 26 6 <> 2 -> field w 26 6 <> 3 -> l = p).
Proof. exact C42_proof. Qed.

Example C42_case : disassemble true (set_symbols [(0x80000010, #"f")] (debug_at 0x80000000))
  [0x0c000004; 0x0c000005; 0x24010010] = Ok [#"jal f"; #"jal 0x80000014"; #"addiu $at, $zero, 0x10"].
Proof. vm_compute. reflexivity. Qed.

(** ** C49  Signed immediates print their value *)

Definition C49_full (oc : bool) : Prop :=
  forall base w f, is_word base -> is_word w -> read_word w = Some f -> has_signed f = true ->
  exists pre post, disassemble oc (debug_at base) [w]
    = Ok [pre ++ #" " ++ signed_text (signed16 (field w 0 16)) ++ post].

Theorem C49_refuted : forall oc, ~ C49_full oc.
Proof. exact C49_refuted_proof. Qed.

Theorem C49_signed_immediates_partial : forall oc base w f, is_word base -> is_word w ->
  read_word w = Some f -> has_signed f = true -> field w 0 16 <> 32767 ->
  exists pre post, disassemble oc (debug_at base) [w]
    = Ok [pre ++ #" " ++ signed_text (signed16 (field w 0 16)) ++ post]
    /\ (post = [] \/ exists r, 0 <= r < 32 /\ post = #"($" ++ nth_name gpr_names r ++ #")").
Proof. exact C49_partial_proof. Qed.

Example C49_case : disassemble true (debug_at 0) [0x8fbfff80] = Ok [#"lw $ra, -0x80($sp)"].
Proof. vm_compute. reflexivity. Qed.
