(** * SpecDefault: which default-mode listings can be read back (specification only). *)

From Verif Require Import Str SpecIsa SpecText SpecProgram.

(** The words whose default-mode text has a tab: the float comparisons other than [c.ngle]. *)
Definition tab_free (w : Z) : Prop :=
  forall f, read_word w = Some f -> starts_with #"c." (f_name f) = true -> starts_with #"c.ngle." (f_name f) = true.

(** Symbol tables whose names can be read back: addresses and names are distinct, names are
    identifiers that are not made up names of addresses. *)
Record readable (syms : list (Z * str)) : Prop := mk_readable {
  rd_addresses : NoDup (map fst syms);
  rd_names : NoDup (map snd syms);
  rd_identifiers : forall a n, In (a, n) syms -> identifier n;
  rd_own : forall a n, In (a, n) syms -> starts_with #"func_" n = false
}.

