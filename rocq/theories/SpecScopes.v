(** * SpecScopes: local labels and their scopes (specification only). *)

From Verif Require Import Str SpecText.

(** A line that defines a global label. *)
Definition global_label (l : str) : bool := match role_of l with Defines n => negb (is_local n) | _ => false end.
(** Lines without global labels. *)
Definition no_global (ls : list str) : Prop := forall l, In l ls -> global_label l = false.

(** Line [raw] (after the lines [l1], before the lines [l2]) and line [d] (after [d1], before
    [d2]) of the same program are in the same scope: there is no global label between them. *)
Inductive same_scope (l1 : list str) (raw : str) (l2 : list str) (d1 : list str) (d : str) (d2 : list str) : Prop :=
| ss_before mid : l1 = d1 ++ d :: mid -> d2 = mid ++ raw :: l2 -> no_global mid -> same_scope l1 raw l2 d1 d d2
| ss_after mid : l2 = mid ++ d :: d2 -> d1 = l1 ++ raw :: mid -> no_global mid -> same_scope l1 raw l2 d1 d d2.
