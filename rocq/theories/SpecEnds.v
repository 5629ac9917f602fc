(** * SpecEnds: the lines of a text (C69; specification only). *)

From Verif Require Import Str.

(** A line as such: neither a line feed nor a carriage return in it. *)
Definition bare_line (l : str) : Prop := ~ In nl l /\ ~ In cr l.

(** The text [s] has the lines [ls]: each ends in LF or in CR LF, and the last one may have no
    line end at all (unless it is empty). *)
Inductive text_of : list str -> str -> Prop :=
| text_none : text_of [] []
| text_last l : bare_line l -> l <> [] -> text_of [l] l
| text_line l t ls s : bare_line l -> t = [nl] \/ t = [cr; nl] -> text_of ls s -> text_of (l :: ls) (l ++ t ++ s).
