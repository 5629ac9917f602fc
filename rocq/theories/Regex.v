(** * Regex: leftmost-first matching as specified by the [regex] crate, and the six
    regular expressions of the code base. *)

From Verif Require Import Str.

(** Abstract syntax of the fragment used: repetition is only ever over a single
    character class. *)
Inductive re :=
| RClass (p : ascii -> bool)                    (** one character *)
| REps                                           (** empty *)
| RSeq (a b : re)
| RAlt (a b : re)                                (** prefers [a] *)
| RStar (greedy : bool) (p : ascii -> bool).     (** [p*] or [p*?] *)

(** Length of the longest prefix in the class. *)
Fixpoint run_len (p : ascii -> bool) (s : str) : nat :=
  match s with
  | [] => O
  | c :: r => if p c then S (run_len p r) else O
  end.

(** All lengths at which [r] matches a prefix of [s], in order of preference
    (the first is the one a backtracking / leftmost-first engine reports). *)
Fixpoint prefix_matches (r : re) (s : str) : list nat :=
  match r with
  | RClass p => match s with
                | c :: _ => if p c then [1%nat] else []
                | [] => []
                end
  | REps => [O]
  | RSeq a b =>
      flat_map (fun n => map (Nat.add n) (prefix_matches b (skipn n s))) (prefix_matches a s)
  | RAlt a b => prefix_matches a s ++ prefix_matches b s
  | RStar g p =>
      let ls := seq 0 (S (run_len p s)) in if g then rev ls else ls
  end.

(** [Regex::find]: [Some (start, len)] of the leftmost match. *)
Fixpoint re_find (r : re) (s : str) : option (nat * nat) :=
  match prefix_matches r s with
  | n :: _ => Some (O, n)
  | [] => match s with
          | [] => None
          | _ :: t => match re_find r t with
                      | Some (i, n) => Some (S i, n)
                      | None => None
                      end
          end
  end.

(** The matched text. *)
Definition re_find_str (r : re) (s : str) : option str :=
  match re_find r s with
  | Some (i, n) => Some (firstn n (skipn i s))
  | None => None
  end.

(** [Regex::find_iter]: non-overlapping matches from left to right (texts).  None of the
    regexes below matches the empty string; an empty match would advance by one. *)
Fixpoint re_find_iter (fuel : nat) (r : re) (s : str) : list str :=
  match fuel with
  | O => []
  | S f =>
      match re_find r s with
      | None => []
      | Some (i, n) =>
          firstn n (skipn i s) :: re_find_iter f r (skipn (i + Nat.max n 1) s)
      end
  end.

(** [Regex::replace_all(s, rep)] for a literal replacement text. *)
Fixpoint re_replace (fuel : nat) (r : re) (rep s : str) : str :=
  match fuel with
  | O => s
  | S f =>
      match re_find r s with
      | None => s
      | Some (i, n) =>
          firstn i s ++ rep ++ re_replace f r rep (skipn (i + Nat.max n 1) s)
      end
  end.

(** Fuel that always suffices: one step per character plus one. *)
Definition find_iter (r : re) (s : str) : list str := re_find_iter (S (List.length s)) r s.
Definition replace_all (r : re) (rep s : str) : str := re_replace (S (List.length s)) r rep s.

Definition cls (c : ascii) : ascii -> bool := fun x => Ascii.eqb x c.
(** [.] : any character except LF. *)
Definition any_char : ascii -> bool := fun x => negb (Ascii.eqb x nl).

(** src/parser.rs:56  [(/{2}|;).*] *)
Definition COMMENT_RE : re :=
  RSeq (RAlt (RSeq (RClass (cls "/")) (RClass (cls "/"))) (RClass (cls ";"))) (RStar true any_char).

(** src/parser.rs:57  [.+\s*\(]   ([.+] is [..*]) *)
Definition OFFSET_RE : re :=
  RSeq (RSeq (RClass any_char) (RStar true any_char))
       (RSeq (RStar true is_ws) (RClass (cls "("))).

(** src/parser.rs:58  [\(.*?\)] *)
Definition BASE_RE : re :=
  RSeq (RClass (cls "(")) (RSeq (RStar false any_char) (RClass (cls ")"))).

(** src/parser.rs:59  [\(.*\)] *)
Definition IMM_RE : re :=
  RSeq (RClass (cls "(")) (RSeq (RStar true any_char) (RClass (cls ")"))).

(** src/ast.rs:9  [r\d{1,2}] *)
Definition REG_RE : re :=
  RSeq (RClass (cls "r")) (RSeq (RClass is_digit) (RAlt (RClass is_digit) REps)).

(** src/ast.rs:10  [\s+] *)
Definition SPACE_RE : re := RSeq (RClass is_ws) (RStar true is_ws).
