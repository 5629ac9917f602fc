(** * Cli: the data path of src/bin/bin.rs (argument and YAML parsing, files and the terminal
    are not modelled: a file is the list of its bytes, a text its list of characters). *)

From Verif Require Import Lib.

(** [u32::to_be_bytes] *)
Definition to_be_bytes (w : Z) : list Z :=
  [Z.shiftr w 24 mod 256; Z.shiftr w 16 mod 256; Z.shiftr w 8 mod 256; w mod 256].

(** [u32::from_be_bytes] *)
Definition from_be_bytes (a b c d : Z) : Z := ((a * 256 + b) * 256 + c) * 256 + d.

(** src/bin/bin.rs:83-88  the output file of [asm] *)
Definition words_to_file (ws : list Z) : list Z := flat_map to_be_bytes ws.

(** src/bin/bin.rs:94-105  reading the input of [disasm]: [loop] with [bytes[0..4]], which
    panics when fewer than four bytes are left *)
Fixpoint file_to_words (fuel : nat) (bytes : list Z) : outcome str (list Z) :=
  match fuel with
  | O => Panic "unreachable: out of fuel"
  | S f =>
      match bytes with
      | a :: b :: c :: d :: rest =>
          let w := from_be_bytes a b c d in
          match rest with
          | [] => Ok [w]
          | _ => do! ws <- file_to_words f rest; Ok (w :: ws)
          end
      | _ => Panic "bytes[0..4] out of range"
      end
  end.
Definition read_words (bytes : list Z) : outcome str (list Z) :=
  file_to_words (S (List.length bytes)) bytes.

(** src/bin/bin.rs:63-67  the base address argument ([None]: error message, exit 1) *)
Definition parse_base (arg : str) : option Z := parse_int u32 16 (remove_all #"0x" arg).

(** A YAML value as seen by src/bin/bin.rs:45-61: only integers and strings matter. *)
Inductive yaml := YInt (v : Z) | YStr (s : str) | YOther.

(** src/bin/bin.rs:51-55  one entry of the symbol file: [as_i64().unwrap_or_default() as u32],
    [as_str().unwrap_or_default()] *)
Definition yaml_entry (kv : yaml * yaml) : Z * str :=
  (wrap 32 (match fst kv with YInt v => v | _ => 0 end),
   match snd kv with YStr s => s | _ => [] end).

(** collecting into a [HashMap]: a later entry with the same address replaces the value *)
Fixpoint sym_insert (a : Z) (n : str) (m : list (Z * str)) : list (Z * str) :=
  match m with
  | [] => [(a, n)]
  | (a', n') :: r => if a =? a' then (a', n) :: r else (a', n') :: sym_insert a n r
  end.
Definition yaml_syms (l : list (yaml * yaml)) : list (Z * str) :=
  fold_left (fun m kv => let (a, n) := yaml_entry kv in sym_insert a n m) l [].

(** src/bin/bin.rs:90  [println!("{:08X?}", output)] *)
Definition print_words (ws : list Z) : str :=
  #"[" ++ join #", " (map (fun w => zero_pad 8 (hexU w)) ws) ++ #"]" ++ [nl].

(** src/bin/bin.rs:109-112  listing to a file: [write!] without a line end *)
Definition listing_file (ls : list str) : str := List.concat ls.

(** src/bin/bin.rs:113-117  listing to stdout: one [println!] per line *)
Definition listing_stdout (ls : list str) : str := List.concat (map (fun l => l ++ [nl]) ls).

(** src/bin/bin.rs:69-92  the [asm] mode: [Ok] the bytes of the output file, [Err] the text
    written to stderr (exit code 1) *)
Definition cli_asm (rt : runtime) (base : Z) (syms : list (Z * str)) (data : str)
  : outcome (list perror) (list Z) :=
  do! insts <- assemble rt (set_symbols syms (set_base base m_new)) data;
  Ok (words_to_file (get_bytes insts)).

(** src/bin/bin.rs:93-107  the [disasm] mode: the listing *)
Definition cli_disasm (oc : bool) (base : Z) (syms : list (Z * str)) (bytes : list Z)
  : outcome str (list str) :=
  do! ws <- read_words bytes;
  disassemble oc (set_symbols syms (set_base base m_new)) ws.
