(** * SpecLines: what a source line means wherever it stands (specification only). *)

From Verif Require Import Lib SpecErrors SpecText SpecProgram SpecLabels.

(** The line [l] stands for [ws], alone and in every program whose labels are identifiers. *)
Definition writes (rt : runtime) (m : mipsasm) (l : str) (ws : list Z) : Prop :=
  (exists out, assemble rt m l = Ok out /\ get_bytes out = ws)
  /\ forall input out l1 l2, assemble rt m input = Ok out -> lines input = l1 ++ l :: l2 -> identifier_labels (lines input) ->
     exists i, nth_error out (instruction_count l1) = Some i /\ inst_bytes i = ws.

(** The line [l] is an error, alone and in every program whose labels are identifiers. *)
Definition rejects (rt : runtime) (m : mipsasm) (l : str) : Prop :=
  (exists p, assemble rt m l = Err [p])
  /\ forall input l1 l2, lines input = l1 ++ l :: l2 -> identifier_labels (lines input) ->
     match assemble rt m input with
     | Ok _ => False
     | Err es => exists p, In p es /\ error_line p = mk_line (S (List.length l1)) l
     | Panic _ => True
     end.
