(** * Str: the Rust std string and integer primitives the code base calls.

    Simplification (all of this file): text is a list of [ascii] characters and the
    functions agree with Rust's on ASCII text (code points below 128).  Unicode white
    space, case folding, digits and UTF-8 slicing are not modelled. *)

From Coq Require Export ZArith List Ascii String Bool.
Export ListNotations.
Open Scope Z_scope.
Open Scope list_scope.
Open Scope bool_scope.

(** Rust [&str] / [String]. *)
Definition str := list ascii.

(** String literals: [#"abc"] is the character list. *)
Definition lit (s : string) : str := list_ascii_of_string s.
Notation "# s" := (lit s%string) (at level 0, s at level 0, format "# s").

(** Result of a Rust computation: [Ok], [Err] (a [Result::Err] value) or [Panic]
    (unwinding; the string only documents the site). *)
Inductive outcome (E A : Type) : Type :=
| Ok (a : A)
| Err (e : E)
| Panic (site : string).
Arguments Ok {E A} a.
Arguments Err {E A} e.
Arguments Panic {E A} site.

Definition obind {E A B} (x : outcome E A) (f : A -> outcome E B) : outcome E B :=
  match x with Ok a => f a | Err e => Err e | Panic p => Panic p end.

Notation "'do!' x <- e1 ; e2" := (obind e1 (fun x => e2))
  (at level 200, x name, e1 at level 100, e2 at level 200).

(** [Option::unwrap]. *)
Definition unwrap {E A} (site : string) (x : option A) : outcome E A :=
  match x with Some a => Ok a | None => Panic site end.

(** ** Characters *)

Definition code (c : ascii) : Z := Z.of_N (N_of_ascii c).
Definition chr (n : Z) : ascii := ascii_of_N (Z.to_N n).

(** [char::is_whitespace] and regex [\s] on ASCII: TAB, LF, VT, FF, CR, SPACE. *)
Definition is_ws (c : ascii) : bool :=
  match c with
  | "009"%char | "010"%char | "011"%char | "012"%char | "013"%char | " "%char => true
  | _ => false
  end.

(** [char::is_numeric] and regex [\d] on ASCII. *)
Definition is_digit (c : ascii) : bool :=
  match c with
  | "0" | "1" | "2" | "3" | "4" | "5" | "6" | "7" | "8" | "9" => true
  | _ => false
  end%char.

(** [char::to_lowercase] on ASCII. *)
Definition lower_char (c : ascii) : ascii :=
  if (65 <=? code c) && (code c <=? 90) then chr (code c + 32) else c.

(** [str::to_lowercase] on ASCII. *)
Definition to_lower (s : str) : str := map lower_char s.

(** Equality of strings. *)
Fixpoint str_eqb (a b : str) : bool :=
  match a, b with
  | [], [] => true
  | x :: a', y :: b' => Ascii.eqb x y && str_eqb a' b'
  | _, _ => false
  end.

(** [str::eq_ignore_ascii_case] (used by strum's [ascii_case_insensitive]). *)
Definition eq_ignore_case (a b : str) : bool := str_eqb (to_lower a) (to_lower b).

(** ** Trimming, searching, splitting *)

(** [str::trim_start_matches(p)] for a character predicate. *)
Fixpoint drop_while (p : ascii -> bool) (s : str) : str :=
  match s with
  | [] => []
  | c :: r => if p c then drop_while p r else s
  end.

(** [str::trim_end_matches(p)]. *)
Definition drop_while_end (p : ascii -> bool) (s : str) : str := rev (drop_while p (rev s)).

(** [str::trim]. *)
Definition trim (s : str) : str := drop_while_end is_ws (drop_while is_ws s).

(** [str::starts_with]. *)
Fixpoint starts_with (p s : str) : bool :=
  match p, s with
  | [], _ => true
  | x :: p', y :: s' => Ascii.eqb x y && starts_with p' s'
  | _ :: _, [] => false
  end.

(** [str::ends_with]. *)
Definition ends_with (p s : str) : bool := starts_with (rev p) (rev s).

(** [str::find]: byte offset of the first occurrence. *)
Fixpoint find_sub (p s : str) : option nat :=
  if starts_with p s then Some O
  else match s with
       | [] => None
       | _ :: r => match find_sub p r with Some n => Some (S n) | None => None end
       end.

(** [str::contains]. *)
Definition contains (p s : str) : bool :=
  match find_sub p s with Some _ => true | None => false end.

(** [str::replace(p, "")] for a non-empty pattern [p] ([k] counts the characters of a
    match still to be skipped). *)
Fixpoint remove_go (p : str) (k : nat) (s : str) : str :=
  match s with
  | [] => []
  | c :: r =>
      match k with
      | S k' => remove_go p k' r
      | O => if starts_with p s then remove_go p (List.length p - 1) r
             else c :: remove_go p O r
      end
  end.
Definition remove_all (p s : str) : str := remove_go p O s.

(** [str::replace(&['(', ')'][..], "")]. *)
Definition strip_parens (s : str) : str :=
  filter (fun c => negb (Ascii.eqb c "("%char || Ascii.eqb c ")"%char)) s.

(** [str::split(c)]: always at least one piece. *)
Fixpoint split_char (c : ascii) (s : str) : list str :=
  match s with
  | [] => [[]]
  | x :: r =>
      if Ascii.eqb x c then [] :: split_char c r
      else match split_char c r with
           | [] => [[x]]
           | p :: ps => (x :: p) :: ps
           end
  end.

(** [str::split_once(c)]. *)
Fixpoint split_once (c : ascii) (s : str) : option (str * str) :=
  match s with
  | [] => None
  | x :: r =>
      if Ascii.eqb x c then Some ([], r)
      else match split_once c r with
           | Some (a, b) => Some (x :: a, b)
           | None => None
           end
  end.

Definition nl : ascii := "010"%char.
Definition cr : ascii := "013"%char.

(** Drop one trailing carriage return. *)
Definition strip_cr (s : str) : str :=
  match rev s with
  | c :: r => if Ascii.eqb c cr then rev r else s
  | [] => s
  end.

(** [str::lines]: split at LF, a final empty piece is dropped, each LF-terminated line
    loses one trailing CR (a CR at the very end of the text without LF is kept, as in
    current std; older std dropped it; the difference is only visible in the text of
    error messages because the parser trims every line). *)
Fixpoint lines_of_pieces (ps : list str) : list str :=
  match ps with
  | [] => []
  | [p] => match p with [] => [] | _ => [p] end
  | p :: rest => strip_cr p :: lines_of_pieces rest
  end.
Definition lines (s : str) : list str := lines_of_pieces (split_char nl s).

(** [[T]::join(sep)] on strings. *)
Fixpoint join (sep : str) (ls : list str) : str :=
  match ls with
  | [] => []
  | [l] => l
  | l :: r => l ++ sep ++ join sep r
  end.

(** ** Integers *)

(** [char::to_digit(radix)]. *)
Definition to_digit (radix : Z) (c : ascii) : option Z :=
  let n := code c in
  let d := if (48 <=? n) && (n <=? 57) then n - 48
           else if (97 <=? n) && (n <=? 122) then n - 87
           else if (65 <=? n) && (n <=? 90) then n - 55
           else radix in
  if d <? radix then Some d else None.

Fixpoint digits_val (radix acc : Z) (s : str) : option Z :=
  match s with
  | [] => Some acc
  | c :: r => match to_digit radix c with
              | Some d => digits_val radix (acc * radix + d) r
              | None => None
              end
  end.

(** The integer types the code parses. *)
Record ity := { it_signed : bool; it_bits : Z }.
Definition u16 := {| it_signed := false; it_bits := 16 |}.
Definition i16 := {| it_signed := true; it_bits := 16 |}.
Definition u32 := {| it_signed := false; it_bits := 32 |}.
Definition i32 := {| it_signed := true; it_bits := 32 |}.
Definition i64 := {| it_signed := true; it_bits := 64 |}.

Definition it_min (t : ity) : Z := if it_signed t then - 2 ^ (it_bits t - 1) else 0.
Definition it_max (t : ity) : Z := if it_signed t then 2 ^ (it_bits t - 1) - 1 else 2 ^ it_bits t - 1.

Definition in_range (t : ity) (v : Z) : option Z :=
  if (it_min t <=? v) && (v <=? it_max t) then Some v else None.

(** [T::from_str_radix(s, radix)] / [s.parse::<T>()] (radix 10): [None] is any
    [ParseIntError] (the code discards the kind).  Rust checks overflow digit by digit;
    since magnitudes only grow, checking the final value gives the same verdict. *)
Definition parse_int (t : ity) (radix : Z) (s : str) : option Z :=
  match s with
  | [] => None
  | c :: r =>
      if Ascii.eqb c "+"%char || (Ascii.eqb c "-"%char) then
        match r with
        | [] => None
        | _ =>
            if Ascii.eqb c "+"%char then
              match digits_val radix 0 r with Some v => in_range t v | None => None end
            else if it_signed t then
              match digits_val radix 0 r with Some v => in_range t (- v) | None => None end
            else None (* '-' is not a digit *)
        end
      else match digits_val radix 0 s with Some v => in_range t v | None => None end
  end.

(** Digits of a non-negative number, most significant first ([fuel] digits at most). *)
Definition digit_char (upper : bool) (d : Z) : ascii :=
  if d <? 10 then chr (48 + d) else if upper then chr (55 + d) else chr (87 + d).

Fixpoint digits_go (fuel : nat) (upper : bool) (radix n : Z) (acc : str) : str :=
  match fuel with
  | O => acc
  | S f =>
      let acc' := digit_char upper (n mod radix) :: acc in
      if n / radix =? 0 then acc' else digits_go f upper radix (n / radix) acc'
  end.

(** [{:x}] and [{:X}] of a [u32] (at most 8 digits); the fuel of 16 digits covers every
    64-bit value. *)
Definition hex (n : Z) : str := digits_go 16 false 16 n [].
Definition hexU (n : Z) : str := digits_go 16 true 16 n [].

(** [to_string()] of an unsigned integer (20 digits cover every 64-bit value). *)
Definition dec (n : Z) : str := digits_go 20 false 10 n [].

(** [{:<w}] / [{:>w}] / [{:0>w}]. *)
Definition pad_right (w : nat) (s : str) : str := s ++ repeat " "%char (w - List.length s).
Definition pad_left (w : nat) (s : str) : str := repeat " "%char (w - List.length s) ++ s.
Definition zero_pad (w : nat) (s : str) : str := repeat "0"%char (w - List.length s) ++ s.

(** ** Fixed-width arithmetic *)

Definition wrap (bits v : Z) : Z := v mod 2 ^ bits.

(** [v as i16]/[as i32]: two's complement reading of the low [bits] bits. *)
Definition sext (bits v : Z) : Z :=
  let u := v mod 2 ^ bits in if u <? 2 ^ (bits - 1) then u else u - 2 ^ bits.

(** Result of an unsigned 32-bit [+], [-], [*] whose exact value is [v]: with overflow
    checks ([oc], debug profile) an out-of-range value panics, without (release) it wraps. *)
Definition ck32 {E} (oc : bool) (v : Z) : outcome E Z :=
  if (0 <=? v) && (v <? 2 ^ 32) then Ok v
  else if oc then Panic "attempt to add/subtract/multiply with overflow" else Ok (wrap 32 v).

(** [a << k], [a >> k], [a | b], [a & b] on [u32] (constant shift amounts below 32). *)
Definition shl (a k : Z) : Z := wrap 32 (Z.shiftl a k).
Definition shr (a k : Z) : Z := Z.shiftr a k.
