(** * SpecCli: files and command-line arguments (specification only). *)

From Verif Require Import Str Cli SpecIsa SpecText.

(** The four bytes of a word, most significant first. *)
Definition big_endian (w : Z) : list Z := [w / 2 ^ 24 mod 2 ^ 8; w / 2 ^ 16 mod 2 ^ 8; w / 2 ^ 8 mod 2 ^ 8; w mod 2 ^ 8].

(** A file that holds the words [ws]: their bytes one after the other. *)
Definition holds (ws bytes : list Z) : Prop := bytes = List.concat (map big_endian ws).

Definition is_byte (b : Z) : Prop := 0 <= b < 2 ^ 8.

(** The symbol table read from a file: the address [a] has the name given by the last entry
    for [a]. *)
Definition last_entry (a : Z) (entries : list (Z * str)) (n : str) : Prop :=
  exists before after, entries = before ++ (a, n) :: after /\ forall n', ~ In (a, n') after.

(** What an entry of a symbol file says: the address is the whole number before the colon, cut to 32
    bits (0 if it is no whole number), the name is the text after it (none if it is no text). *)
Inductive entry_says : yaml * yaml -> Z * str -> Prop :=
| says k v a n : (forall z, k = YInt z -> a = z mod 2 ^ 32) -> ((forall z, k <> YInt z) -> a = 0) ->
    (forall s, v = YStr s -> n = s) -> ((forall s, v <> YStr s) -> n = []) -> entry_says (k, v) (a, n).

(** Calls that configure an instance. *)
Inductive setting := SetBase (a : Z) | SetSymbols (syms : list (Z * str)) | SetDebug.
Fixpoint last_base (d : Z) (l : list setting) : Z :=
  match l with [] => d | SetBase a :: r => last_base a r | _ :: r => last_base d r end.
Fixpoint last_symbols (d : list (Z * str)) (l : list setting) : list (Z * str) :=
  match l with [] => d | SetSymbols s :: r => last_symbols s r | _ :: r => last_symbols d r end.
Definition debug_called (l : list setting) : bool := existsb (fun c => match c with SetDebug => true | _ => false end) l.

(** Eight hexadecimal digits and their value. *)
Definition eight_digits (s : str) (w : Z) : Prop := digits 16 s w /\ List.length s = 8%nat.
