(** * SpecListing: what a default-mode listing should look like (specification only).

    Uses only the text primitives and the field readings of [SpecIsa]. *)

From Verif Require Import Str SpecIsa.

(** Runs of white space collapsed to one blank. *)
Fixpoint collapse_from (after_blank : bool) (s : str) : str :=
  match s with
  | [] => []
  | c :: r =>
      if is_ws c
      then if after_blank then collapse_from true r else " "%char :: collapse_from true r
      else c :: collapse_from false r
  end.
Definition collapse : str -> str := collapse_from false.

(** Name of an address: its symbol, or [func_] and eight hexadecimal digits. *)
Definition address_name (syms : list (Z * str)) (a : Z) (name : str) : Prop :=
  In (a, name) syms \/ ((forall n, ~ In (a, n) syms) /\ name = #"func_" ++ zero_pad 8 (hex a)).

(** The byte address a jump word at a segment of [base] goes to. *)
Definition jump_address (base w : Z) : Z := base / 2 ^ 28 * 2 ^ 28 + field w 0 26 * 4.

(** Word [w] at address [own], in a function that starts at address [start], jumps away
    unconditionally: [jr], or [j] to an address before the function or after the word. *)
Definition leaves (base start own w : Z) : Prop :=
  (field w 26 6 = 0 /\ field w 0 6 = 8)
  \/ (field w 26 6 = 2 /\ (jump_address base w < start \/ own < jump_address base w)).

(** [cuts] marks the words after which a function ends.  The function containing word [i]
    starts (as the listing counts it) at the last marked word up to [i], or at word 0. *)
Definition function_start (cuts : nat -> bool) (i k : nat) : Prop :=
  (k <= i)%nat /\ (k = O \/ cuts k = true) /\ (forall j, (k < j <= i)%nat -> cuts j = false).

(** A word is marked exactly when the word before it leaves its function (and is not itself
    a marked word): marked words are delay slots. *)
Definition good_cuts (base : Z) (ws : list Z) (cuts : nat -> bool) : Prop :=
  forall i, (i < List.length ws)%nat ->
    (cuts i = true <->
     exists j k w, i = S j /\ cuts j = false /\ function_start cuts j k /\ nth_error ws j = Some w
                   /\ leaves base (base + 4 * Z.of_nat k) (base + 4 * Z.of_nat j) w).

(** The listing after its first line: one line per word, and after each marked word except
    the last word a blank line and the label of the next address. *)
Fixpoint blocks (syms : list (Z * str)) (base : Z) (cuts : nat -> bool) (n i : nat)
    (ls out : list str) : Prop :=
  match ls with
  | [] => out = []
  | l :: r =>
      if cuts i && Nat.ltb (S i) n
      then exists name rest, address_name syms (base + 4 * Z.of_nat (S i)) name
             /\ out = l :: [] :: (name ++ #":") :: rest /\ blocks syms base cuts n (S i) r rest
      else exists rest, out = l :: rest /\ blocks syms base cuts n (S i) r rest
  end.
