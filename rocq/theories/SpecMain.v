(** * SpecMain: running the program (C76 to C81; specification only). *)

From Verif Require Import Str Lib Cli Main SpecIsa SpecText SpecCli.

(** Files hold bytes. *)
Definition holds_bytes (s : system) : Prop := forall p bytes, sy_files s p = Some bytes -> Forall is_byte bytes.

(** The file [p] is the text [t]. *)
Definition text_in (s : system) (p : path) (t : str) : Prop := sy_files s p = Some (map code t) /\ Forall (fun c => code c < 128) t.

(** The symbols of a run: those of the first document of the symbol file ([yaml_syms], C58), in the
    order of the table; without a symbol file, those of an empty text. *)
Definition symbols_read (s : system) (c : cli) (syms : list (Z * str)) : Prop :=
  exists text docs, match c_syms c with Some p => text_in s p text | None => text = [] end
    /\ sy_yaml s text = Some docs
    /\ syms = sy_order s (match docs with Hash entries :: _ => yaml_syms entries | _ => [] end).

(** The instance a run works with: its base address (C57) and its symbols. *)
Definition instance (s : system) (c : cli) (m : mipsasm) : Prop :=
  parse_base (c_base c) = Some (m_base m) /\ symbols_read s c (m_syms m) /\ m_debug m = false.

(** There is room for [n] bytes in the output file, if there is one. *)
Definition room_for (s : system) (c : cli) (n : nat) : Prop :=
  forall p, c_output c = Some p -> exists room, sy_room s p = Some room /\ (n <= room)%nat.

(** The source assembles to the words [ws]; the input is disassembled as [listing]. *)
Definition assembles (s : system) (c : cli) (ws : list Z) : Prop :=
  exists m data out, instance s c m /\ text_in s (c_input c) data /\ assemble (sy_rt s) m data = Ok out /\ ws = get_bytes out.
Definition disassembles (s : system) (c : cli) (listing : list str) : Prop :=
  exists m ws bytes, instance s c m /\ sy_files s (c_input c) = Some bytes /\ holds ws bytes /\ ws <> [] /\ Forall is_word ws
    /\ disassemble (rt_oc (sy_rt s)) m ws = Ok listing.

(** The words, each as eight hexadecimal digits, in brackets. *)
Definition words_shown (ws : list Z) (t : str) : Prop :=
  exists ts, t = #"[" ++ join #", " ts ++ #"]" ++ [nl] /\ Forall2 eight_digits ts ws.

(** The same system with other room for files, and the system after a run. *)
Definition with_room (s : system) (room : path -> option nat) : system :=
  mk_system (sy_files s) room (sy_yaml s) (sy_order s) (sy_rt s).
Definition after (s : system) (r : result) : system :=
  mk_system (r_files r) (sy_room s) (sy_yaml s) (sy_order s) (sy_rt s).

(** One run after the other; what is left at the end, and what each of them reported. *)
Definition report (r : result) : Z * str * list note := (r_status r, r_out r, r_err r).
Fixpoint run_all (s : system) (cs : list cli) : system * list (cli * (Z * str * list note)) :=
  match cs with
  | [] => (s, [])
  | c :: rest => let r := run s c in let (s', l) := run_all (after s r) rest in (s', (c, report r) :: l)
  end.

(** The run [d] neither reads nor writes what [c] writes. *)
Definition untouched (c d : cli) : Prop :=
  forall p, c_output c = Some p -> c_input d <> p /\ c_syms d <> Some p /\ c_output d <> Some p.
Definition independent (c d : cli) : Prop := untouched c d /\ untouched d c.
