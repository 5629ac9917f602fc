(** * SpecCalls: source programs with functions and memory (C74; specification only).

    The machine of [SpecMachine] with memory, jumps and calls, on absolute addresses; and
    source programs with loads, stores, [j], [jal], [jr] and [jalr].  Nothing of the model is
    used. *)

From Verif Require Import Str SpecIsa SpecText SpecProgram SpecLabels SpecMachine SpecPseudo SpecAccept SpecRun SpecFlow.

(** ** Memory *)

(** The registers, and the bytes of memory by address. *)
Record world := mk_world { cpu : state; mem : Z -> Z }.
Definition with_cpu (w : world) (st : state) : world := mk_world st (mem w).
Definition well_world (w : world) : Prop := well (cpu w) /\ forall a, 0 <= mem w a < 256.

(** [n] bytes at an address, the first one most significant. *)
Fixpoint load (n : nat) (m : Z -> Z) (a : Z) : Z := match n with O => 0 | S k => m a * 256 ^ Z.of_nat k + load k m (a + 1) end.
Definition store (n : nat) (m : Z -> Z) (a v : Z) : Z -> Z := fun x =>
  if (a <=? x) && (x <? a + Z.of_nat n) then v / 256 ^ (a + Z.of_nat n - 1 - x) mod 256 else m x.
(** A number of [n] bytes as a signed one. *)
Definition signed_bytes (n : nat) (v : Z) : Z := if v <? 256 ^ Z.of_nat n / 2 then v else v - 256 ^ Z.of_nat n.

Inductive access := Load (bytes : nat) (signed : bool) | Store (bytes : nat).
Definition bytes_of (k : access) : nat := match k with Load n _ => n | Store n => n end.
(** Register [r] is loaded or stored at the address [off] bytes from the value of register
    [b]; the address has to be a multiple of the number of bytes. *)
Definition accessed (k : access) (r b off : Z) (w : world) : Z + world :=
  let a := low64 (value (cpu w) b + off) in
  if negb (a mod Z.of_nat (bytes_of k) =? 0) then inl a else
  match k with
  | Load n signed => let v := load n (mem w) a in inr (with_cpu w (write (cpu w) r (if signed then low64 (signed_bytes n v) else v)))
  | Store n => inr (mk_world (cpu w) (store n (mem w) a (value (cpu w) r)))
  end.

(** ** The machine *)

Inductive fault := Exception (x : exception) | AddressError (a : Z).
(** [WAt pc npc w]: the instruction at address [pc] is next and the one at [npc] follows it. *)
Inductive wstatus := WAt (pc npc : Z) (w : world) | WRaised (x : fault) (w : world) | WLost.

(** The return address goes to the register [link], if there is one. *)
Definition linked (link : option Z) (a : Z) (w : world) : world :=
  match link with Some r => with_cpu w (write (cpu w) r (word32 a)) | None => w end.

Definition opcode_access (op : Z) : option access :=
  match op with
  | 32 => Some (Load 1 true)      (* lb *)
  | 33 => Some (Load 2 true)      (* lh *)
  | 35 => Some (Load 4 true)      (* lw *)
  | 36 => Some (Load 1 false)     (* lbu *)
  | 37 => Some (Load 2 false)     (* lhu *)
  | 39 => Some (Load 4 false)     (* lwu *)
  | 55 => Some (Load 8 false)     (* ld *)
  | 40 => Some (Store 1)          (* sb *)
  | 41 => Some (Store 2)          (* sh *)
  | 43 => Some (Store 4)          (* sw *)
  | 63 => Some (Store 8)          (* sd *)
  | _ => None
  end.

(** The instruction [i] at [pc], when it is none of [SpecMachine]. *)
Definition beyond (i pc npc : Z) (w : world) : wstatus :=
  let op := field i 26 6 in
  let there := (pc + 4) / 2 ^ 28 * 2 ^ 28 + field i 0 26 * 4 in
  let rs := field i 21 5 in
  if op =? 2 then WAt npc there w                                                          (* j *)
  else if op =? 3 then WAt npc there (linked (Some 31) (pc + 8) w)                         (* jal *)
  else if op =? 0 then
    (if field i 0 6 =? 8 then WAt npc (low32 (value (cpu w) rs)) w                         (* jr *)
     else if field i 0 6 =? 9 then WAt npc (low32 (value (cpu w) rs)) (linked (Some (field i 11 5)) (pc + 8) w)    (* jalr *)
     else WLost)
  else match opcode_access op with
       | Some k => match accessed k (field i 16 5) rs (signed16 (field i 0 16)) w with
                   | inl a => WRaised (AddressError a) w
                   | inr w' => WAt npc (npc + 4) w'
                   end
       | None => WLost
       end.

Section Machine.
Variable odd : Z -> Z.
(** The code and the address of its first word. *)
Variables (code : list Z) (base : Z).

Definition fetch (pc : Z) : option Z := if (base <=? pc) && ((pc - base) mod 4 =? 0) then nth_error code (Z.to_nat ((pc - base) / 4)) else None.
Definition wcycle (s : wstatus) : wstatus :=
  match s with
  | WAt pc npc w =>
      match fetch pc with
      | None => WLost
      | Some i =>
          match exec odd i (cpu w) with
          | Next st => WAt npc (npc + 4) (with_cpu w st)
          | Branch true _ off => WAt npc (pc + 4 + 4 * off) w
          | Branch false false _ => WAt npc (npc + 4) w
          | Branch false true _ => WAt (npc + 4) (npc + 8) w
          | Raise x => WRaised (Exception x) w
          | Undefined => beyond i pc npc w
          end
      end
  | _ => s
  end.
Fixpoint wcycles (n : nat) (s : wstatus) : wstatus := match n with O => s | S k => wcycles k (wcycle s) end.
End Machine.

(** ** Items *)

Inductive citem :=
| Flow (x : item)                               (* as in SpecFlow *)
| Access (k : access) (r b off : Z)             (* load or store *)
| Jump (link : option Z) (k : nat)              (* to item [k] *)
| JumpTo (link : option Z) (a : Z)              (* to an address *)
| JumpReg (link : option Z) (r : Z).            (* to the address in register [r] *)

(** Items of the program, and addresses outside of it. *)
Inductive spot := Item (k : nat) | Outside (a : Z).
Definition after (t : spot) : spot := match t with Item k => Item (S k) | Outside a => Outside (a + 4) end.

(** [CHere i t w]: item [i] is next and [t] follows it; [CAway a w]: the program has gone to
    the address [a], outside of it; [COver x]: an exception has stopped it ([None]: nothing is
    said). *)
Inductive cconfig := CHere (i : nat) (t : spot) (w : world) | CAway (a : Z) (w : world) | COver (x : option fault).
Definition goes_on (t t' : spot) (w : world) : cconfig := match t with Item k => CHere k t' w | Outside a => CAway a w end.

Section Source.
Variable p : list citem.
(** The addresses of the items (and of the end). *)
Variable addr : nat -> Z.

(** The spot that has the address. *)
Definition leads (a : Z) (t : spot) : Prop :=
  match t with
  | Item k => (k <= List.length p)%nat /\ a = addr k
  | Outside b => b = a /\ forall k, (k <= List.length p)%nat -> addr k <> a
  end.
(** The address to return to: after the instruction that follows item [i]. *)
Definition return_address (i : nat) : Z := addr (S (S i)).

Inductive cstep : cconfig -> cconfig -> Prop :=
| cs_does i t w one M st : nth_error p i = Some (Flow (Does one M)) -> M (cpu w) (Goes st) -> cstep (CHere i t w) (goes_on t (after t) (with_cpu w st))
| cs_stops i t w one M x : nth_error p i = Some (Flow (Does one M)) -> M (cpu w) (Stops x) -> cstep (CHere i t w) (COver (Some (Exception x)))
| cs_unspecified i t w one M : nth_error p i = Some (Flow (Does one M)) -> M (cpu w) Unspecified -> cstep (CHere i t w) (COver None)
| cs_access i t w k r b off w' : nth_error p i = Some (Access k r b off) -> accessed k r b off w = inr w' -> cstep (CHere i t w) (goes_on t (after t) w')
| cs_fault i t w k r b off a : nth_error p i = Some (Access k r b off) -> accessed k r b off w = inl a -> cstep (CHere i t w) (COver (Some (AddressError a)))
| cs_taken i t w n likely scratch c k st : nth_error p i = Some (Flow (Jumps n likely scratch c k)) -> c (cpu w) = true -> same_but scratch (cpu w) st ->
    cstep (CHere i t w) (goes_on t (Item k) (with_cpu w st))
| cs_not_taken i t w n scratch c k st : nth_error p i = Some (Flow (Jumps n false scratch c k)) -> c (cpu w) = false -> same_but scratch (cpu w) st ->
    cstep (CHere i t w) (goes_on t (after t) (with_cpu w st))
| cs_skips i t w n scratch c k st : nth_error p i = Some (Flow (Jumps n true scratch c k)) -> c (cpu w) = false -> same_but scratch (cpu w) st ->
    cstep (CHere i t w) (goes_on (after t) (after (after t)) (with_cpu w st))
| cs_jump i t w link k : nth_error p i = Some (Jump link k) -> cstep (CHere i t w) (goes_on t (Item k) (linked link (return_address i) w))
| cs_jump_to i t w link a t' : nth_error p i = Some (JumpTo link a) -> leads a t' -> cstep (CHere i t w) (goes_on t t' (linked link (return_address i) w))
| cs_jump_reg i t w link r t' : nth_error p i = Some (JumpReg link r) -> leads (low32 (value (cpu w) r)) t' ->
    cstep (CHere i t w) (goes_on t t' (linked link (return_address i) w)).

(** The program has ended. *)
Definition cfinal (c : cconfig) : Prop := match c with CHere i _ _ => i = List.length p | _ => True end.
(** [n] steps, or fewer when the end is reached. *)
Inductive csteps : nat -> cconfig -> cconfig -> Prop :=
| csteps_none c : csteps 0 c c
| csteps_end n c : cfinal c -> csteps n c c
| csteps_more n c c1 c2 : cstep c c1 -> csteps n c1 c2 -> csteps (S n) c c2.
End Source.

(** ** Lines *)

Definition memory_instructions : list (str * access) :=
  [ (#"lb", Load 1 true); (#"lh", Load 2 true); (#"lw", Load 4 true); (#"lbu", Load 1 false); (#"lhu", Load 2 false); (#"lwu", Load 4 false); (#"ld", Load 8 false);
    (#"sb", Store 1); (#"sh", Store 2); (#"sw", Store 4); (#"sd", Store 8) ].
Definition link_of (name : str) : option Z := if str_eqb name #"jal" then Some 31 else None.

Section Lines.
Variable odd : Z -> Z.
Variable syms : list (Z * str).
Variable all : list str.

Inductive call_line (before : list str) (l : str) : citem -> Prop :=
| cl_flow x : flow_line odd all before l x -> call_line before l (Flow x)
(* op rt, offset(base) *)
| cl_access name k tr r tm b off : In (name, k) memory_instructions -> gpr_text tr r -> operand_spelling Mem (OMem off b) tm -> -32768 <= off < 32768 ->
    instruction_line name [tr; tm] l -> call_line before l (Access k r b off)
(* j and jal: to a global label before or after the jump, to a symbol or to a number *)
| cl_jump name n k : jump_line name n l -> identifier n -> (forall a, ~ In (a, n) syms) -> In (n, k) (label_table 0 all) -> call_line before l (Jump (link_of name) k)
| cl_jump_to name t a : jump_line name t l -> plain_name t -> names_address syms t a -> 0 <= a < 2 ^ 32 -> call_line before l (JumpTo (link_of name) a)
| cl_jr t r : gpr_text t r -> instruction_line #"jr" [t] l -> call_line before l (JumpReg None r)
| cl_jalr t r : gpr_text t r -> instruction_line #"jalr" [t] l -> call_line before l (JumpReg (Some 31) r)
| cl_jalr_link td d t r : gpr_text td d -> gpr_text t r -> instruction_line #"jalr" [td; t] l -> call_line before l (JumpReg (Some d) r).

Inductive calls (before : list str) : list str -> list citem -> Prop :=
| ca_end : calls before [] []
| ca_nothing l ls p : blank_line l -> calls (before ++ [l]) ls p -> calls before (l :: ls) p
| ca_names n l ls p : identifier n -> label_line n l -> calls (before ++ [l]) ls p -> calls before (l :: ls) p
| ca_code l x ls p : call_line before l x -> calls (before ++ [l]) ls p -> calls before (l :: ls) (x :: p).
End Lines.

(** ** Programs whose branches and jumps are right *)

Definition one_word_item (x : citem) : Prop := match x with Flow y => one_word y | _ => True end.
(** Items that can follow a branch or a jump. *)
Definition slot (x : citem) : Prop := match x with Flow (Does one _) => one = true | Access _ _ _ _ => True | _ => False end.
Definition transfers (x : citem) : Prop := match x with Flow (Does _ _) | Access _ _ _ _ => False | _ => True end.

(** Each branch and jump has a one-word instruction after it that is neither; branches are as
    in [SpecFlow]; there are only one-word instructions before the target of a jump; jumps to
    addresses stay in the segment. *)
Definition well_called (base : Z) (p : list citem) : Prop := forall i x, nth_error p i = Some x ->
  (transfers x -> exists y, nth_error p (S i) = Some y /\ slot y)
  /\ match x with
     | Flow (Jumps _ _ _ _ k) => (k <= List.length p)%nat /\ Z.abs (Z.of_nat k - Z.of_nat i) < 32766
         /\ forall j y, (Nat.min i k <= j < Nat.max i k)%nat -> nth_error p j = Some y -> one_word_item y
     | Jump _ k => (k <= List.length p)%nat /\ forall j y, (j < k)%nat -> nth_error p j = Some y -> one_word_item y
     | JumpTo _ a => a / 2 ^ 28 = base / 2 ^ 28 /\ a mod 2 ^ 28 < 2 ^ 26 /\ a mod 4 = 0
     | _ => True
     end.
(** The code is in the first 64 MB of a segment of 256 MB. *)
Definition in_segment (base : Z) (code : list Z) : Prop :=
  0 <= base < 2 ^ 32 /\ base mod 4 = 0 /\ base mod 2 ^ 28 + 4 * Z.of_nat (List.length code) < 2 ^ 26.

(** After [n] items (or at its end) the program is at [c]; the machine, from the first word,
    gets there, too. *)
Definition machine_comes_to (odd : Z -> Z) (base : Z) (wss : list (list Z)) (p : list citem) (w : world) (n : nat) (c : cconfig) : Prop :=
  let run cs := wcycles odd (List.concat wss) base cs (WAt base (base + 4) w) in
  match c with
  | CHere i _ w' => exists cs npc, run cs = WAt (address base wss i) npc w' /\ (i = List.length p /\ npc = address base wss i + 4 \/ i <> List.length p /\ (n <= cs)%nat)
  | CAway a w' => exists cs, run cs = WAt a (a + 4) w'
  | COver (Some x) => exists cs w', run cs = WRaised x w'
  | COver None => True
  end.
