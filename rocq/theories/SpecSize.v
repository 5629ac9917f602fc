(** * SpecSize: how many words an instruction takes (C47; specification only). *)

From Verif Require Import Str SpecText.
From Verif Require Import SpecDisplay.

(** The instructions that may take more than one word, with the numbers of words they take:
    compare-and-branch two, a constant one or two (64-bit constants always six), and so on.
    [div] and its relatives take one word as instructions of the processor (two operands) and
    eight or three with three operands. *)
Definition long_instructions : list (str * list nat) :=
  map (fun n => (n, [2]%nat)) [#"bge"; #"bgt"; #"ble"; #"blt"; #"bgeu"; #"bgtu"; #"bleu"; #"bltu"; #"bgel"; #"bgtl"; #"blel"; #"bltl"; #"bgeul"; #"bgtul"; #"bleul"; #"bltul"]
  ++ map (fun n => (n, [1; 2]%nat)) [#"li"; #"liu"]
  ++ [(#"dli", [6]%nat)]
  ++ map (fun n => (n, [2]%nat)) [#"seq"; #"sne"; #"sge"; #"sgeu"; #"sle"; #"sleu"; #"mul"; #"mulu"; #"dmul"; #"dmulu"]
  ++ map (fun n => (n, [3]%nat)) [#"abs"; #"dabs"; #"remu"; #"dremu"]
  ++ map (fun n => (n, [4]%nat)) [#"mulou"; #"dmulou"; #"drol"; #"dror"]
  ++ map (fun n => (n, [6]%nat)) [#"mulo"; #"dmulo"]
  ++ map (fun n => (n, [8]%nat)) [#"rem"; #"drem"]
  ++ map (fun n => (n, [1; 8]%nat)) [#"div"; #"ddiv"]
  ++ map (fun n => (n, [1; 3]%nat)) [#"divu"; #"ddivu"].

(** Every other instruction takes one. *)
Definition sizes (m : str) : list nat := match find (fun x => str_eqb (fst x) m) long_instructions with Some (_, ns) => ns | None => [1%nat] end.

(** The operands of a line: what stands between the commas after the first space. *)
Definition operands (l : str) : list str := match split_once " " (clean l) with Some (_, a) => split_char "," a | None => [] end.
Definition divisions : list str := [#"div"; #"ddiv"; #"divu"; #"ddivu"].
