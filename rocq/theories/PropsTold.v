(** * PropsTold: warnings can be displayed and come in order (C84). *)

From Coq Require Import Sorted Lia.
From Verif Require Import Lib SpecWarn SpecShow SpecReport ReportProofs WarnShown.

(** Every warning that assembling a program gives — whether it then succeeds or fails — is about a line of
    the program, can be displayed, and is displayed as its report (C83); and they come in the order of
    their lines. *)
Theorem C84_warnings rt m input ws : assemble_warnings rt m input = Some ws ->
  (forall w, In w ws ->
     (1 <= warned_line w <= List.length (lines input))%nat
     /\ exists t s, show_warning w = Ok t /\ colored t s /\ warning_report w s)
  /\ StronglySorted le (map warned_line ws).
Proof.
  intros A. destruct (warnings_told rt m input ws A) as (T & So & B). split; [|exact So].
  intros w I. rewrite Forall_forall in T, B. split; [exact (B w I)|]. destruct (T w I) as (t & E).
  destruct (warning_shown w t E) as (s & C & R). exists t, s. auto.
Qed.

(** Whenever assembling ends with words or with errors, there is a list of warnings. *)
Theorem C84_always rt m input : (exists out, assemble rt m input = Ok out) \/ (exists es, assemble rt m input = Err es) ->
  exists ws, assemble_warnings rt m input = Some ws.
Proof.
  unfold assemble, assemble_warnings. destruct (parse (mk_parser rt m input)) as [[ws r]|p|p]; [eauto| |];
    intros [[? H]|[? H]]; try discriminate H; eauto.
Qed.

Definition rt0 : runtime := mk_runtime true (fun l => l).
Definition m0 : mipsasm := mk_mipsasm 0x80000000 [] false.
Definition careless : str := join [nl] [ #"beq $a0, $a1, 0x80000002"; #"jal 0x80000401"; #"nop"; #"j 0x80000003 ; far"; #"foo" ].
(** Four warnings (the second line is in a delay slot, and it is not aligned either) in a program with an error. *)
Example C84_case : exists es ws, assemble rt0 m0 careless = Err es /\ assemble_warnings rt0 m0 careless = Some ws
  /\ map warned_line ws = [1; 2; 2; 4]%nat.
Proof. eexists _, _. split; [vm_compute; reflexivity|]. split; vm_compute; reflexivity. Qed.

Print Assumptions C84_warnings.
Print Assumptions C84_always.
