(** * Main: the whole command-line program (src/bin/bin.rs).

    Simplifications: the arguments are already parsed (clap); a path names one file (no links); reading
    a file never stops halfway; a text file is ASCII (any other byte counts as a failure to read);
    standard output and standard error can always be written; yaml_rust is a parameter; the text of
    messages made by the libraries (file errors, panics) is not modelled, nor are the warnings printed
    before a panic. *)

From Verif Require Import Lib Cli.

Definition path := str.

(** src/bin/bin.rs:33-37  [enum Mode] *)
Inductive mode := Asm | Disasm.

(** src/bin/bin.rs:11-31  [struct Cli] *)
Record cli := mk_cli {
  c_mode : mode;
  c_output : option path;
  c_syms : option path;
  c_input : path;
  c_base : str
}.

(** A YAML document as seen by src/bin/bin.rs:46-48: its entries, or something that is no hash. *)
Inductive document := Hash (entries : list (yaml * yaml)) | NoHash.

(** What the program runs in: the contents of the files that can be read; how many bytes a file that
    is created can hold ([None]: it cannot be created); [YamlLoader::load_from_str] ([None]: an
    error); the iteration order of the symbol [HashMap]; the build profile and the label order. *)
Record system := mk_system {
  sy_files : path -> option (list Z);
  sy_room : path -> option nat;
  sy_yaml : str -> option (list document);
  sy_order : list (Z * str) -> list (Z * str);
  sy_rt : runtime
}.

(** What is written on standard error: texts of the program, and texts of libraries. *)
Inductive note := Said (t : str) | Library.

(** What a run leaves behind: the exit status, standard output and error, and the files. *)
Record result := mk_result {
  r_status : Z;
  r_out : str;
  r_err : list note;
  r_files : path -> option (list Z)
}.

(** A panic in [main] (Rust's exit status 101), an [Err] returned from [main] (exit status 1), and
    [std::process::exit(1)]. *)
Definition panicked (s : system) (said : list note) : result := mk_result 101 [] (said ++ [Library]) (sy_files s).
Definition returned_err (s : system) (said : list note) : result := mk_result 1 [] (said ++ [Library]) (sy_files s).
Definition exit_1 (s : system) (said : list note) : result := mk_result 1 [] said (sy_files s).

(** [fs::read_to_string] *)
Definition read_text (s : system) (p : path) : option str :=
  match sy_files s p with
  | Some bytes => if forallb (fun b => b <? 128) bytes then Some (map chr bytes) else None
  | None => None
  end.

(** [File::create] and then [write_all] of each piece in turn: the contents of the file, and whether
    everything was written. *)
Fixpoint write_pieces (room : nat) (written : list Z) (pieces : list (list Z)) : list Z * bool :=
  match pieces with
  | [] => (written, true)
  | p :: rest =>
      if (List.length written + List.length p <=? room)%nat then write_pieces room (written ++ p) rest
      else (written ++ firstn (room - List.length written) p, false)
  end.
Definition set_file (f : path -> option (list Z)) (p : path) (bytes : list Z) : path -> option (list Z) :=
  fun q => if str_eqb q p then Some bytes else f q.
Definition output_file (s : system) (said : list note) (p : path) (pieces : list (list Z)) : result :=
  match sy_room s p with
  | None => returned_err s said
  | Some room =>
      let (bytes, ok) := write_pieces room [] pieces in
      if ok then mk_result 0 [] said (set_file (sy_files s) p bytes)
      else mk_result 1 [] (said ++ [Library]) (set_file (sy_files s) p bytes)
  end.

(** src/bin/bin.rs:75-77  [for err in e { eprintln!("{}", err) }]: [false] if one of them panics *)
Fixpoint print_errors (es : list perror) : list note * bool :=
  match es with
  | [] => ([], true)
  | e :: rest =>
      match show_error e with
      | Ok t => let (l, ok) := print_errors rest in (Said (t ++ [nl]) :: l, ok)
      | _ => ([], false)
      end
  end.

(** [eprintln!("{}", warning)] during parsing *)
Definition print_warnings (ws : list pwarning) : list note :=
  map (fun w => Said (match show_warning w with Ok t => t | _ => [] end ++ [nl])) ws.

(** src/bin/bin.rs:70-92  [Mode::Asm] *)
Definition run_asm (s : system) (c : cli) (base : Z) (syms : list (Z * str)) : result :=
  match read_text s (c_input c) with
  | None => returned_err s []
  | Some data =>
      let m := set_symbols syms (set_base base m_new) in
      let said := match assemble_warnings (sy_rt s) m data with Some w => print_warnings w | None => [] end in
      match assemble (sy_rt s) m data with
      | Panic _ => panicked s said
      | Err es => let (l, ok) := print_errors es in if ok then exit_1 s (said ++ l) else panicked s (said ++ l)
      | Ok insts =>
          let words := get_bytes insts in
          match c_output c with
          | Some p => output_file s said p [words_to_file words]
          | None => mk_result 0 (print_words words) said (sy_files s)
          end
      end
  end.

(** src/bin/bin.rs:93-118  [Mode::Disasm] *)
Definition run_disasm (s : system) (c : cli) (base : Z) (syms : list (Z * str)) : result :=
  match sy_files s (c_input c) with
  | None => returned_err s []
  | Some bytes =>
      match cli_disasm (rt_oc (sy_rt s)) base syms bytes with
      | Ok listing =>
          match c_output c with
          | Some p => output_file s [] p (map (map code) listing)
          | None => mk_result 0 (listing_stdout listing) [] (sy_files s)
          end
      | _ => panicked s []
      end
  end.

(** src/bin/bin.rs:39-121  [main] *)
Definition run (s : system) (c : cli) : result :=
  match (match c_syms c with Some p => read_text s p | None => Some [] end) with
  | None => returned_err s []
  | Some text =>
      match sy_yaml s text with
      | None => panicked s []
      | Some docs =>
          let syms := sy_order s (match docs with Hash entries :: _ => yaml_syms entries | _ => [] end) in
          match parse_base (c_base c) with
          | None => exit_1 s [Said (#"Error: Invalid base address `" ++ c_base c ++ #"`" ++ [nl])]
          | Some base => match c_mode c with Asm => run_asm s c base syms | Disasm => run_disasm s c base syms end
          end
      end
  end.
