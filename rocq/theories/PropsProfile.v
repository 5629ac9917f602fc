(** * PropsProfile: debug and release builds agree (C63). *)

From Coq Require Import Lia.
From Verif Require Import Lib SpecIsa ProfileProofs.

(** ** C63  Overflow checks only turn results into panics *)

(** With overflow checks (debug build) [assemble] either panics or does what the release build
    does: the same instructions and words, or the same errors. *)
Theorem C63_assemble : forall order m input, (exists p, assemble (mk_runtime true order) m input = Panic p)
  \/ assemble (mk_runtime true order) m input = assemble (mk_runtime false order) m input.
Proof.
  intros order m input. unfold assemble, mk_parser. cbn [rt_oc rt_order]. assert (A := parse_agree (lines input) (m_base m) (m_syms m) order). unfold agree in A.
  destruct (parse (mk_env (lines input) (m_base m) (m_syms m) true order)) as [[w [insts|es]]|e|p] eqn:E1; [| | |left; now exists p]; rewrite <- A.
  - assert (B := assemble_agree insts). unfold agree in B. destruct (@assemble_insts perror true insts) as [l|e|p]; [| |left; now exists p]; rewrite <- B; now right.
  - now right.
  - now right.
Qed.
(** And prints the same warnings. *)
Theorem C63_warnings : forall order m input ws, assemble_warnings (mk_runtime true order) m input = Some ws ->
  assemble_warnings (mk_runtime false order) m input = Some ws.
Proof.
  intros order m input ws. unfold assemble_warnings, mk_parser. cbn [rt_oc rt_order]. assert (A := parse_agree (lines input) (m_base m) (m_syms m) order). unfold agree in A.
  destruct (parse (mk_env (lines input) (m_base m) (m_syms m) true order)) as [[w r]|e|p] eqn:E1; [rewrite <- A; auto|discriminate|discriminate].
Qed.
Theorem C63_disassemble : forall m ws, (exists p, disassemble true m ws = Panic p) \/ disassemble true m ws = disassemble false m ws.
Proof.
  intros m ws. unfold disassemble. cbv zeta. destruct (m_debug m); [now right|].
  set (x := map (match_sym m) (disassemble_insts ws (m_base m))). assert (A := listing_agree m (Z.of_nat (List.length x)) x 0 0 false). unfold agree in A.
  destruct (listing true m (Z.of_nat (List.length x)) 0 0 false x) as [l|e|p]; [rewrite <- A; now right|rewrite <- A; now right|left; now exists p].
Qed.
(** So whatever panics in the release build panics in the debug build, too. *)
Theorem C63_release_panics : forall order m input p, assemble (mk_runtime false order) m input = Panic p ->
  exists q, assemble (mk_runtime true order) m input = Panic q.
Proof. intros order m input p H. destruct (C63_assemble order m input) as [A|A]; [exact A|]. exists p. congruence. Qed.

(** Both cases occur. *)
Example C63_case : forall order, exists out, assemble (mk_runtime true order) m_new #"lui $a0, %hi(0x80018340)" = Ok out
  /\ assemble (mk_runtime false order) m_new #"lui $a0, %hi(0x80018340)" = Ok out.
Proof. intros order. eexists. split; vm_compute; reflexivity. Qed.
Example C63_case_panic : forall order, exists out p, assemble (mk_runtime true order) m_new #"lui $a0, %hi(0xffff8000)" = Panic p
  /\ assemble (mk_runtime false order) m_new #"lui $a0, %hi(0xffff8000)" = Ok out.
Proof. intros order. eexists. eexists. split; vm_compute; reflexivity. Qed.

Print Assumptions C63_assemble.
Print Assumptions C63_warnings.
Print Assumptions C63_disassemble.
Print Assumptions C63_release_panics.
