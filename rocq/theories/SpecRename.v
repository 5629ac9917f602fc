(** * SpecRename: renaming the labels of a program (C68; specification only). *)

From Verif Require Import Str SpecIsa SpecText SpecProgram SpecLabels SpecPseudo SpecShow.

(** A renaming of labels: pairs of an old and a new name.  Different labels stay different,
    local labels stay local, and none is the name of a symbol. *)
Record renaming (names : list (str * str)) (syms : list (Z * str)) : Prop := mk_renaming {
  rn_old : NoDup (map fst names);
  rn_new : NoDup (map snd names);
  rn_names : forall n n', In (n, n') names -> identifier n /\ identifier n' /\ is_local n = is_local n';
  rn_hex : forall n n', In (n, n') names -> ~ occurs #"0x" n /\ ~ occurs #"0x" n';
  rn_syms : forall n n' a, In (n, n') names -> ~ In (a, n) syms /\ ~ In (a, n') syms
}.

(** The name [n] is a word of the text [l]: between white space, commas, parentheses or the
    ends of the text. *)
Definition separator (c : ascii) : bool := is_ws c || existsb (Ascii.eqb c) #",()".
Definition word_in (n l : str) : Prop := exists a b, l = a ++ n ++ b
  /\ (a = [] \/ exists a' c, a = a' ++ [c] /\ separator c = true)
  /\ (b = [] \/ exists c b', b = c :: b' /\ separator c = true).

(** The text without all opening parentheses but the last (in the offset of a floating-point
    load or store they are ignored). *)
Fixpoint last_paren (s : str) : str :=
  match s with
  | [] => []
  | c :: r => if (Ascii.eqb c "(" && existsb (Ascii.eqb "(") r)%bool then last_paren r else c :: last_paren r
  end.
Definition uses (n l : str) : Prop := word_in n (clean l) \/ word_in n (last_paren (clean l)).

(** The mnemonics of branches, compare-and-branch pseudo-instructions and jumps. *)
Definition refers (name : str) : Prop :=
  In name [ #"j"; #"jal" ]
  \/ (exists f, In f (isa ++ idioms) /\ f_name f = name /\ In Branch16 (f_ops f))
  \/ (exists likely rel, In (name, likely, rel) compare_branches).

(** A line and the same line under the renaming. *)
Inductive renamed_line (names : list (str * str)) : str -> str -> Prop :=
| rl_empty l l' : role_of l = Empty -> role_of l' = Empty -> renamed_line names l l'
| rl_label n n' l l' : role_of l = Defines n -> role_of l' = Defines n' -> In (n, n') names -> renamed_line names l l'
| rl_other l : role_of l = Instruction -> (forall n n', In (n, n') names -> ~ uses n l /\ ~ uses n' l) -> renamed_line names l l
| rl_reference name ts n n' l l' : refers name -> (forall t, In t ts -> exists a, gpr_text t a) -> In (n, n') names ->
    instruction_line name (ts ++ [n]) l -> instruction_line name (ts ++ [n']) l' -> renamed_line names l l'.
Definition renamed (names : list (str * str)) (ls ls' : list str) : Prop := Forall2 (renamed_line names) ls ls'.
