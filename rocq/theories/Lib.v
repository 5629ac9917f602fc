(** * Lib: src/lib.rs, the public API. *)

From Verif Require Export Ast Error Parser Assembler Disassembler Display.

(** src/lib.rs:46-50  [struct Mipsasm]; [m_syms] lists the symbol [HashMap] (distinct
    addresses) in its iteration order. *)
Record mipsasm := mk_mipsasm { m_base : Z; m_syms : list (Z * str); m_debug : bool }.

(** src/lib.rs:62-68  [Mipsasm::new], also 52-56 [Default] *)
Definition m_new : mipsasm := mk_mipsasm 0 [] false.

(** src/lib.rs:80-83  [base] *)
Definition set_base (addr : Z) (m : mipsasm) : mipsasm := mk_mipsasm addr (m_syms m) (m_debug m).

(** src/lib.rs:96-99  [symbols] *)
Definition set_symbols (syms : list (Z * str)) (m : mipsasm) : mipsasm :=
  mk_mipsasm (m_base m) syms (m_debug m).

(** src/lib.rs:114-117  [debug] *)
Definition set_debug (m : mipsasm) : mipsasm := mk_mipsasm (m_base m) (m_syms m) true.

(** The parts of the run-time environment that the result may depend on: the build profile
    and the iteration order of the local-label [HashMap]s. *)
Record runtime := mk_runtime {
  rt_oc : bool;
  rt_order : list (str * (nat * str)) -> list (str * (nat * str))
}.

(** src/parser.rs:74-86  [Parser::new(input, base, syms)] *)
Definition mk_parser (rt : runtime) (m : mipsasm) (input : str) : env :=
  mk_env (lines input) (m_base m) (m_syms m) (rt_oc rt) (rt_order rt).

(** src/lib.rs:131-136  [assemble]: [Ok] instructions, [Err] errors, or a panic *)
Definition assemble (rt : runtime) (m : mipsasm) (input : str) : outcome (list perror) (list inst) :=
  match parse (mk_parser rt m input) with
  | Ok (_, inl insts) =>
      match @assemble_insts perror (rt_oc rt) insts with
      | Ok l => Ok l
      | Err _ => Panic "unreachable: assembler::assemble returns no errors"
      | Panic p => Panic p
      end
  | Ok (_, inr errors) => Err errors
  | Err _ => Panic "unreachable: errors are collected"
  | Panic p => Panic p
  end.

(** The warnings [assemble] prints on stderr (when it does not panic). *)
Definition assemble_warnings (rt : runtime) (m : mipsasm) (input : str) : option (list pwarning) :=
  match parse (mk_parser rt m input) with
  | Ok (w, _) => Some w
  | _ => None
  end.

(** src/lib.rs:233-235  [get_bytes] *)
Definition get_bytes (l : list inst) : list Z := flat_map inst_bytes l.

(** [HashMap::get] of the symbol map *)
Fixpoint sym_get (a : Z) (syms : list (Z * str)) : option str :=
  match syms with
  | [] => None
  | (a', n) :: r => if a =? a' then Some n else sym_get a r
  end.

(** src/lib.rs:192-209  [match_syms], one instruction *)
Definition match_sym (m : mipsasm) (i : inst) : inst :=
  match i with
  | IJump op (TAddress addr) bytes =>
      match sym_get addr (m_syms m) with
      | Some n => IJump op (TLabel n) bytes
      | None => i
      end
  | _ => i
  end.

(** src/lib.rs:211-217  [get_sym] *)
Definition get_sym (m : mipsasm) (addr : Z) : str :=
  match sym_get addr (m_syms m) with
  | Some n => n
  | None => #"func_" ++ zero_pad 8 (hex addr)
  end.

(** [Option<u32>] comparison: [None] is below every [Some]. *)
Definition opt_lt (a : option Z) (b : Z) : bool := match a with None => true | Some x => x <? b end.
Definition opt_gt (a : option Z) (b : Z) : bool := match a with None => false | Some x => x >? b end.

(** src/lib.rs:176-181  is this jump the end of the function?  [i] is the index,
    [func_start] the byte offset of the current function. *)
Definition ends_function (oc : bool) (m : mipsasm) (i func_start : Z) (x : inst)
  : outcome str bool :=
  if is_unconditional_jump x then
    do! t <- get_jump_target x;
    do! lo <- ck32 oc (wrap 32 func_start + m_base m);
    if opt_lt t lo then Ok true
    else
      do! k <- ck32 oc (wrap 32 i * 4);
      do! hi <- ck32 oc (k + m_base m);
      Ok (opt_gt t hi)
  else Ok false.

(** src/lib.rs:163-185  the loop of [disassemble]: [n] is the number of instructions, [i]
    the index of the first one of [l]. *)
Fixpoint listing (oc : bool) (m : mipsasm) (n i func_start : Z) (function_ended : bool)
    (l : list inst) : outcome str (list str) :=
  match l with
  | [] => Ok []
  | x :: r =>
      if function_ended then
        do! text <- show_inst x;
        do! label <- (if i <? n - 1 then
                        do! k <- ck32 oc (wrap 32 (i + 1) * 4);
                        do! a <- ck32 oc (m_base m + k);
                        Ok [[]; get_sym m a ++ #":"]
                      else Ok []);
        do! rest <- listing oc m n (i + 1) (i * 4) false r;
        Ok (text :: label ++ rest)
      else
        do! ended <- ends_function oc m i func_start x;
        do! text <- show_inst x;
        do! rest <- listing oc m n (i + 1) func_start ended r;
        Ok (text :: rest)
  end.

Fixpoint map_outcome {E A B} (f : A -> outcome E B) (l : list A) : outcome E (list B) :=
  match l with
  | [] => Ok []
  | x :: r => do! y <- f x; do! ys <- map_outcome f r; Ok (y :: ys)
  end.

(** src/lib.rs:148-189  [disassemble] *)
Definition disassemble (oc : bool) (m : mipsasm) (input : list Z) : outcome str (list str) :=
  let x := map (match_sym m) (disassemble_insts input (m_base m)) in
  if m_debug m then map_outcome debug_inst x
  else
    do! body <- listing oc m (Z.of_nat (List.length x)) 0 0 false x;
    Ok ((get_sym m (m_base m) ++ #":") :: body).
