(** * SpecExtend: symbols in the text, and continuations of a program (C65, C66; specification only). *)

From Verif Require Import Str SpecText SpecScopes SpecShow.

(** The name occurs in a line of the program (without its comment), parentheses aside. *)
Definition mentioned (input n : str) : Prop := exists l, In l (lines input) /\ (occurs n (clean l) \/ occurs n (strip_parens (clean l))).

(** The lines [more] do not (before their first global label) define a local label that the last
    scope of the program [ls] already has. *)
Definition no_redefinition (ls more : list str) : Prop := forall n a c b p d q, ls = a ++ c :: b -> role_of c = Defines n -> is_local n = true -> no_global b ->
  more = p ++ d :: q -> no_global p -> role_of d <> Defines n.
