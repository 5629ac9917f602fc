(** * SpecFlow: source programs with branches and loops (C72; specification only).

    A program is a list of items, one for each line with an instruction; branches name the
    item they go to.  As in the architecture, the instruction after a branch (the delay slot)
    is executed before control goes on, and branches "likely" skip it when they are not
    taken.  Nothing of the model is used. *)

From Verif Require Import Str SpecIsa SpecText SpecProgram SpecLabels SpecScopes SpecMachine SpecPseudo SpecAccept SpecRun.

(** ** Items *)

Inductive item :=
| Does (one_word : bool) (M : meaning)
| Jumps (words : nat) (likely : bool) (scratch : list Z) (c : state -> bool) (k : nat).   (* to item [k] when [c] holds; [scratch] registers are lost *)

(** The same registers, except [scratch], and the same hi and lo. *)
Definition same_but (scratch : list Z) (st st' : state) : Prop := (forall x, ~ In x scratch -> value st' x = value st x) /\ same_hilo st st'.

(** ** Execution of items *)

(** [Here i j st]: item [i] is next and item [j] follows it. *)
Inductive config := Here (i j : nat) (st : state) | Over (e : ending).

Inductive step (p : list item) : config -> config -> Prop :=
| step_does i j st one M st' : nth_error p i = Some (Does one M) -> M st (Goes st') -> step p (Here i j st) (Here j (S j) st')
| step_stops i j st one M e : nth_error p i = Some (Does one M) -> M st e -> (forall st', e <> Goes st') -> step p (Here i j st) (Over e)
| step_taken i j st n likely scratch c k st' : nth_error p i = Some (Jumps n likely scratch c k) -> c st = true -> same_but scratch st st' ->
    step p (Here i j st) (Here j k st')
| step_not_taken i j st n scratch c k st' : nth_error p i = Some (Jumps n false scratch c k) -> c st = false -> same_but scratch st st' ->
    step p (Here i j st) (Here j (S j) st')
| step_skips i j st n scratch c k st' : nth_error p i = Some (Jumps n true scratch c k) -> c st = false -> same_but scratch st st' ->
    step p (Here i j st) (Here (S j) (S (S j)) st').

(** The end of the program, or of its execution. *)
Definition final (p : list item) (c : config) : Prop := match c with Here i _ _ => i = List.length p | Over _ => True end.
(** [n] steps, or fewer when the end is reached. *)
Inductive steps (p : list item) : nat -> config -> config -> Prop :=
| steps_none c : steps p 0 c c
| steps_end n c : final p c -> steps p n c c
| steps_more n c c1 c2 : step p c c1 -> steps p n c1 c2 -> steps p (S n) c c2.

(** ** Lines *)

(** Branches of the processor: whether they are "likely", and their condition. *)
Definition test := list operand -> state -> option bool.
Definition on_two (f : Z -> Z -> bool) : test := fun os st => match os with [OReg s; OReg t] => Some (f (value st s) (value st t)) | _ => None end.
Definition on_one (f : Z -> bool) : test := fun os st => match os with [OReg s] => Some (f (value st s)) | _ => None end.
Definition branches : list (str * bool * test) :=
  [ (#"beq", false, on_two Z.eqb); (#"beql", true, on_two Z.eqb);
    (#"bne", false, on_two (fun a b => negb (a =? b))); (#"bnel", true, on_two (fun a b => negb (a =? b)));
    (#"beqz", false, on_one (fun a => a =? 0)); (#"beqzl", true, on_one (fun a => a =? 0));
    (#"bnez", false, on_one (fun a => negb (a =? 0))); (#"bnezl", true, on_one (fun a => negb (a =? 0)));
    (#"blez", false, on_one (fun a => signed64 a <=? 0)); (#"blezl", true, on_one (fun a => signed64 a <=? 0));
    (#"bgtz", false, on_one (fun a => signed64 a >? 0)); (#"bgtzl", true, on_one (fun a => signed64 a >? 0));
    (#"bltz", false, on_one (fun a => signed64 a <? 0)); (#"bltzl", true, on_one (fun a => signed64 a <? 0));
    (#"bgez", false, on_one (fun a => signed64 a >=? 0)); (#"bgezl", true, on_one (fun a => signed64 a >=? 0));
    (#"b", false, fun os _ => match os with [] => Some true | _ => None end) ].

Section Flow.
Variable odd : Z -> Z.
(** All lines of the program. *)
Variable all : list str.

(** The label [n] on line [l] (after the lines [before]) means the place with [k] instructions
    in front of it: an earlier global label, or a local label that the assembler resolves. *)
Inductive names_place (before : list str) (l n : str) (k : nat) : Prop :=
| np_global : In (n, k) (label_table 0 before) -> names_place before l n k
| np_local d1 : is_local n = true -> local_target all before l n d1 -> local_resolved all before n -> k = instruction_count d1 -> names_place before l n k.

Inductive flow_line (before : list str) (l : str) : item -> Prop :=
| fl_does M : computing_line odd l M -> flow_line before l (Does false M)
(* an instruction of the processor, or another name of one *)
| fl_one f os M : computing_line odd l M -> In f (isa ++ idioms) -> ~ In Branch16 (f_ops f) -> native_line f os l -> Forall2 notation_fits (f_ops f) os ->
    case_condition f os l -> flow_line before l (Does true M)
| fl_branch f os likely t n c k : In f (isa ++ idioms) -> In (f_name f, likely, t) branches -> branch_line f os n l -> (forall st, t os st = Some (c st)) ->
    identifier n -> names_place before l n k -> flow_line before l (Jumps 1 likely [] c k)
| fl_compare name likely rel ts tt s t n k : In (name, likely, rel) compare_branches -> gpr_text ts s -> gpr_text tt t -> instruction_line name [ts; tt; n] l ->
    identifier n -> names_place before l n k -> (k <= instruction_count before)%nat -> flow_line before l (Jumps 2 likely [at_reg] (fun st => rel (value st s) (value st t)) k).

(** The lines after the lines [before], and their items. *)
Inductive flow (before : list str) : list str -> list item -> Prop :=
| fw_end : flow before [] []
| fw_nothing l ls p : blank_line l -> flow (before ++ [l]) ls p -> flow before (l :: ls) p
| fw_names n l ls p : identifier n -> label_line n l -> flow (before ++ [l]) ls p -> flow before (l :: ls) p
| fw_code l x ls p : flow_line before l x -> flow (before ++ [l]) ls p -> flow before (l :: ls) (x :: p).
End Flow.

(** ** Programs whose branches are right *)

Definition one_word (x : item) : Prop := match x with Does one _ => one = true | Jumps n _ _ _ _ => n = 1%nat end.
(** Each branch has a one-word instruction after it that is not a branch; there are only
    one-word instructions between the branch and its target; and the target is not too far. *)
Definition well_branched (p : list item) : Prop := forall i n likely scratch c k, nth_error p i = Some (Jumps n likely scratch c k) ->
  (exists M, nth_error p (S i) = Some (Does true M)) /\ (k <= List.length p)%nat /\ Z.abs (Z.of_nat k - Z.of_nat i) < 32766
  /\ forall j x, (Nat.min i k <= j < Nat.max i k)%nat -> nth_error p j = Some x -> one_word x.

(** Where item [i] starts, in the words of the items. *)
Definition place_of (wss : list (list Z)) (i : nat) : Z := Z.of_nat (List.length (List.concat (firstn i wss))).

(** After [n] items (or at its end) the program is at configuration [c]; the machine, from the
    first word, gets there, too. *)
Definition machine_follows (odd : Z -> Z) (p : list item) (wss : list (list Z)) (st : state) (n : nat) (c : config) : Prop :=
  match c with
  | Here i _ st' => (i = List.length p -> finishes odd (List.concat wss) st st')
                    /\ (i <> List.length p -> exists cs npc, (n <= cs)%nat /\ cycles odd cs (List.concat wss) (At 0 1 st) = At (place_of wss i) npc st')
  | Over (Stops x) => raises odd (List.concat wss) st x
  | Over _ => True
  end.
