(** * SpecDisplay: instructions that cannot be displayed (C56; specification only). *)

From Verif Require Import Str SpecText.

(** The mnemonic of a line, in lower case: what stands before the first space. *)
Definition mnemonic (l : str) : str :=
  trim (to_lower (match split_once " " (clean l) with Some (m, _) => m | None => clean l end)).

(** Pseudo-instructions. *)
Definition pseudo : list str :=
  [#"b"; #"bal"; #"beqzl"; #"bnezl"; #"bge"; #"bgt"; #"ble"; #"blt"; #"bgeu"; #"bgtu"; #"bleu"; #"bltu"; #"bgel"; #"bgtl"; #"blel"; #"bltl";
   #"bgeul"; #"bgtul"; #"bleul"; #"bltul"; #"dli"; #"li"; #"liu"; #"lli"; #"subi"; #"subiu"; #"dsubi"; #"dsubiu"; #"nop";
   #"dmul"; #"dmulu"; #"dmulo"; #"dmulou"; #"drem"; #"dremu"; #"drol"; #"dror"; #"mul"; #"mulu"; #"mulo"; #"mulou"; #"rem"; #"remu";
   #"seq"; #"sge"; #"sgeu"; #"sgt"; #"sgtu"; #"sle"; #"sleu"; #"sne"; #"abs"; #"dabs"; #"dmove"; #"dneg"; #"dnegu"; #"move"; #"neg"; #"negu"; #"not"; #"clear"].
