(** * Parser: src/parser.rs. *)

From Verif Require Export Ast Error.

(** src/parser.rs:61-71  [struct Parser]: the fields that never change.
    [e_oc] is the build profile (overflow checks on or off).  [e_syms] lists the symbol
    [HashMap] in its iteration order; [e_order] is the order in which a [HashMap] of local
    labels is iterated (theorems range over every permutation). *)
Record env := mk_env {
  e_input : list str;
  e_base : Z;
  e_syms : list (Z * str);
  e_oc : bool;
  e_order : list (str * (nat * str)) -> list (str * (nat * str))
}.

(** src/parser.rs:61-71  [struct Parser]: the mutable fields, and the warnings printed so
    far on stderr.  [p_labels] is the [IndexMap] in insertion order; the two [HashMap]s are
    association lists with at most one entry per key. *)
Record pstate := mk_pstate {
  p_insts : list (nat * inst);
  p_labels : list (str * nat);
  p_local : list (str * (nat * str));
  p_dropped : list (str * list (nat * str));
  p_line : nat;
  p_errors : list perror;
  p_warnings : list pwarning
}.

(** src/parser.rs:74-86  [Parser::new] *)
Definition init_state : pstate := mk_pstate [] [] [] [] O [] [].

(** [self.input.get(n - 1).unwrap()] as used by the [error!] and [warning!] macros *)
Definition get_line (e : env) (n : nat) : outcome perror line :=
  match nth_error (e_input e) (n - 1) with
  | Some c => Ok (mk_line n c)
  | None => Panic "input.get"
  end.

(** src/error.rs:4-117  [error!]: an error about line [n] *)
Definition fail_at {A} (e : env) (n : nat) (k : line -> perror) : outcome perror A :=
  do! l <- get_line e n; Err (k l).

(** [HashMap::insert] / [IndexMap::insert]: replaces in place or appends *)
Fixpoint map_insert {V} (k : str) (v : V) (m : list (str * V)) : list (str * V) :=
  match m with
  | [] => [(k, v)]
  | (k', v') :: r => if str_eqb k k' then (k', v) :: r else (k', v') :: map_insert k v r
  end.

(** src/parser.rs:97-103, 142-148  [entry(k)]: insert [vec![v]] or push [v] *)
Definition dropped_push (d : list (str * list (nat * str))) (kv : str * (nat * str))
  : list (str * list (nat * str)) :=
  match assoc (fst kv) d with
  | None => map_insert (fst kv) [snd kv] d
  | Some l => map_insert (fst kv) (l ++ [snd kv]) d
  end.

(** src/parser.rs:140-149  move every current local label to the dropped map *)
Definition flush_locals (e : env) (s : pstate) : pstate :=
  mk_pstate (p_insts s) (p_labels s) [] (fold_left dropped_push (e_order e (p_local s)) (p_dropped s))
            (p_line s) (p_errors s) (p_warnings s).

(** ** Operands *)

(** src/parser.rs:1022-1042  [parse_target] *)
Definition parse_target (e : env) (s : pstate) (t : str) : outcome perror target :=
  match find (fun av => str_eqb (snd av) t) (e_syms e) with
  | Some (a, _) => Ok (TAddress a)
  | None =>
      if starts_with #"0x" t then
        let t' := remove_all #"0x" t in
        match parse_int u32 16 t' with
        | Some v => Ok (TAddress v)
        | None => fail_at e (p_line s) (fun l => EInvalidTargetAddress l t')
        end
      else match t with
           | [] => Panic "target[0..1]"
           | c :: _ =>
               match parse_int u32 10 [c] with
               | Some _ =>
                   match parse_int u32 10 t with
                   | Some v => Ok (TAddress v)
                   | None => fail_at e (p_line s) (fun l => EInvalidTargetAddress l t)
                   end
               | None => Ok (TLabel t)
               end
           end
  end.

(** src/parser.rs:982-1020  [parse_immediate::<T>] *)
Definition parse_immediate (e : env) (s : pstate) (t : ity) (text : str) : outcome perror immediate :=
  let imm := trim text in
  if starts_with #"@@" imm then Ok (LocalLabel imm)
  else match assoc imm (p_labels s) with
  | Some _ => Ok (Label imm)
  | None =>
      match re_find_str IMM_RE imm with
      | Some x =>
          do! x <- parse_target e s (strip_parens x);
          if Nat.ltb (List.length imm) 3 then Panic "imm[..3]"
          else if str_eqb (firstn 3 imm) #"%hi" then
            do! a <- target_as_u32 x;
            do! v <- ck32 (e_oc e) (a + Z.land a 32768 * 2);
            imm_new u16 (wrap 16 (shr v 16))
          else if str_eqb (firstn 3 imm) #"%lo" then
            do! a <- target_as_u32 x;
            imm_new u16 (Z.land a 65535)
          else Panic "todo!()"
      | None =>
          if contains #"0x" imm then
            let imm' := remove_all #"0x" imm in
            match parse_int t 16 imm' with
            | Some v => imm_new t v
            | None => fail_at e (p_line s) (fun l => EInvalidImmediate l imm')
            end
          else
            match parse_int t 10 imm with
            | Some v => imm_new t v
            | None => fail_at e (p_line s) (fun l => EInvalidImmediate l imm)
            end
      end
  end.

(** src/parser.rs:1044-1064  [parse_float_cond] *)
Definition fcond_table : list (str * Z) :=
  [(#"f", 0); (#"un", 1); (#"eq", 2); (#"ueq", 3); (#"olt", 4); (#"ult", 5); (#"ole", 6);
   (#"ule", 7); (#"sf", 8); (#"ngle", 9); (#"seq", 10); (#"ngl", 11); (#"lt", 12);
   (#"nge", 13); (#"le", 14); (#"ngt", 15)].
Definition parse_float_cond (e : env) (s : pstate) (cond : str) : outcome perror Z :=
  match assoc (to_lower cond) fcond_table with
  | Some v => Ok v
  | None => fail_at e (p_line s) (fun l => EInvalidFloatCond l cond)
  end.

(** [x.parse().map_err(|e| error!(self, InvalidRegister, e))?] *)
Definition arg_reg (e : env) (s : pstate) (x : str) : outcome perror reg :=
  match reg_from_str x with
  | Ok r => Ok r
  | Err t => fail_at e (p_line s) (fun l => EInvalidRegister l t)
  | Panic p => Panic p
  end.
Definition arg_freg (e : env) (s : pstate) (x : str) : outcome perror freg :=
  match freg_from_str x with
  | Ok r => Ok r
  | Err t => fail_at e (p_line s) (fun l => EInvalidRegister l t)
  | Panic p => Panic p
  end.
Definition arg_c0reg (e : env) (s : pstate) (x : str) : outcome perror c0reg :=
  match c0reg_from_str x with
  | Ok r => Ok r
  | Err t => fail_at e (p_line s) (fun l => EInvalidRegister l t)
  | Panic p => Panic p
  end.

(** [x.parse().unwrap()] for a register *)
Definition arg_reg_unwrap (x : str) : outcome perror reg :=
  match reg_from_str x with
  | Ok r => Ok r
  | _ => Panic "register parse().unwrap()"
  end.

(** [$op.parse().unwrap()] in the [inst!] macro, src/parser.rs:11-53 *)
Definition iop_of (op : str) : outcome perror iop := unwrap "op.parse()" (iop_from_str op).
Definition jop_of (op : str) : outcome perror jop := unwrap "op.parse()" (jop_from_str op).
Definition rop_of (op : str) : outcome perror rop := unwrap "op.parse()" (rop_from_str op).

(** src/parser.rs:202-211, 746-757  the base of [offset(base)]: last match of [BASE_RE], parentheses
    removed, trimmed (panics when there is none) *)
Definition base_text (x : str) : outcome perror str :=
  match rev (find_iter BASE_RE x) with
  | b :: _ => Ok (trim (strip_parens b))
  | [] => Panic "BASE_RE.find_iter(x).last()"
  end.

(** src/parser.rs:411-416  a shift amount ([trim_end_matches('`')], decimal or hexadecimal
    [i32], reinterpreted as [u32]) *)
Definition parse_sa (sa : str) : outcome perror Z :=
  if ends_with #"`" sa || negb (contains #"0x" sa) then
    do! v <- unwrap "shift amount" (parse_int i32 10 (drop_while_end (cls "`") sa)); Ok (wrap 32 v)
  else
    do! v <- unwrap "shift amount" (parse_int i32 16 (remove_all #"0x" sa)); Ok (wrap 32 v).

(** ** Warnings: [eprintln!("{}", warning!(..))] while parsing *)

Definition M (A : Type) : Type := (list pwarning * outcome perror A)%type.
Definition lift {A} (x : outcome perror A) : M A := ([], x).
Definition mbind {A B} (x : M A) (f : A -> M B) : M B :=
  match x with
  | (w, Ok a) => let (w', r) := f a in (w ++ w', r)
  | (w, Err p) => (w, Err p)
  | (w, Panic p) => (w, Panic p)
  end.
Notation "'dm!' x <- e1 ; e2" := (mbind e1 (fun x => e2))
  (at level 200, x name, e1 at level 100, e2 at level 200).

(** Formatting the warning may panic; then nothing is printed and the parser unwinds. *)
Definition warn (w : outcome perror pwarning) : M unit :=
  match w with
  | Ok v => match show_warning v with
            | Ok _ => ([v], Ok tt)
            | Err p => ([], Err p)
            | Panic p => ([], Panic p)
            end
  | Err p => ([], Err p)
  | Panic p => ([], Panic p)
  end.

(** src/error.rs:121-133 with src/parser.rs:292-297 and the copies of it: warn when the
    previous instruction has a delay slot.  [line_num - 2] cannot underflow because an
    instruction was already parsed; the model indexes the previous line directly. *)
Definition check_delay (e : env) (s : pstate) : M unit :=
  match rev (p_insts s) with
  | [] => lift (Ok tt)
  | (_, last) :: _ =>
      if has_delay_slot last then
        warn (do! d <- get_line e (p_line s);
              match (p_line s - 1)%nat with
              | O => Panic "line_num - 2"
              | S n => do! l <- get_line e (S n); Ok (WDelaySlot l d)
              end)
      else lift (Ok tt)
  end.

(** src/parser.rs:303-305  unaligned branch *)
Definition check_branch (e : env) (s : pstate) (imm : immediate) (offset : str) : M unit :=
  if imm_is_label imm then lift (Ok tt)
  else dm! v <- lift (imm_as_u32 imm);
       if negb (v mod 4 =? 0) then
         warn (do! l <- get_line e (p_line s); Ok (WUnalignedBranch l offset))
       else lift (Ok tt).

(** src/parser.rs:353-355  unaligned jump *)
Definition check_jump (e : env) (s : pstate) (t : target) (text : str) : M unit :=
  if target_is_label t then lift (Ok tt)
  else dm! v <- lift (target_as_u32 t);
       if negb (v mod 4 =? 0) then
         warn (do! l <- get_line e (p_line s); Ok (WUnalignedJump l text))
       else lift (Ok tt).

(** ** Instructions *)

(** The arms of the big [match op.to_lowercase().trim()] (src/parser.rs:184-871). *)
Inductive group :=
| GMem | GImm3 | GImm2 | GTrapImm | GBranch1 | GBranch2 | GJump | GPlain | GReg3 | GShift
| GShiftV | GCode | GReg2 | GJalr | GMove | GB | GLi | GDiv | GRs | GRd | GDli | GBc | GCop0
| GCop1 | GTlb | GFMem | GWord.

Definition tag (g : group) (l : list str) : list (str * group) := map (fun n => (n, g)) l.

Definition group_table : list (str * group) :=
  (* 189-191 *)
  tag GMem [#"cache"; #"lb"; #"lbu"; #"ld"; #"ldl"; #"ldr"; #"lh"; #"lhu"; #"ll"; #"lld"; #"lw";
            #"lwl"; #"lwr"; #"lwu"; #"sb"; #"sc"; #"scd"; #"sd"; #"sdl"; #"sdr"; #"sh"; #"sw";
            #"swl"; #"swr"]
  (* 229-230 *)
  ++ tag GImm3 [#"addi"; #"addiu"; #"andi"; #"daddi"; #"daddiu"; #"ori"; #"slti"; #"sltiu";
                #"xori"; #"dsubi"; #"dsubiu"; #"subi"; #"subiu"]
  (* 251 *)
  ++ tag GImm2 [#"lui"; #"lli"]
  (* 271 *)
  ++ tag GTrapImm [#"teqi"; #"tgei"; #"tgeiu"; #"tlti"; #"tltiu"; #"tnei"]
  (* 287-288 *)
  ++ tag GBranch1 [#"bgez"; #"bgezal"; #"bgezall"; #"bgezl"; #"bltz"; #"bltzal"; #"bltzall";
                   #"bltzl"; #"beqz"; #"bnez"; #"beqzl"; #"bnezl"; #"bgtz"; #"bgtzl"; #"blez";
                   #"blezl"]
  (* 312-314 *)
  ++ tag GBranch2 [#"beq"; #"beql"; #"bne"; #"bnel"; #"bge"; #"bgt"; #"ble"; #"blt"; #"bgeu";
                   #"bgtu"; #"bleu"; #"bltu"; #"bgel"; #"bgtl"; #"blel"; #"bltl"; #"bgeul";
                   #"bgtul"; #"bleul"; #"bltul"]
  (* 341 *)
  ++ tag GJump [#"j"; #"jal"]
  (* 362 *)
  ++ tag GPlain [#"nop"; #"sync"]
  (* 373-376 *)
  ++ tag GReg3 [#"add"; #"addu"; #"and"; #"dadd"; #"daddu"; #"dsub"; #"dsubu"; #"nor"; #"or";
                #"slt"; #"sltu"; #"sub"; #"subu"; #"xor"; #"dmul"; #"dmulu"; #"dmulo";
                #"dmulou"; #"drem"; #"dremu"; #"drol"; #"dror"; #"mul"; #"mulu"; #"mulo";
                #"mulou"; #"rem"; #"remu"; #"seq"; #"sge"; #"sgeu"; #"sgt"; #"sgtu"; #"sle";
                #"sleu"; #"sne"]
  (* 395 *)
  ++ tag GShift [#"dsll"; #"dsll32"; #"dsra"; #"dsra32"; #"dsrl"; #"dsrl32"; #"sll"; #"sra"; #"srl"]
  (* 424 *)
  ++ tag GShiftV [#"dsllv"; #"dsrav"; #"dsrlv"; #"sllv"; #"srav"; #"srlv"]
  (* 443 *)
  ++ tag GCode [#"break"; #"syscall"]
  (* 468-469 *)
  ++ tag GReg2 [#"dmult"; #"dmultu"; #"mult"; #"multu"; #"teq"; #"tge"; #"tgeu"; #"tlt"; #"tltu";
                #"tne"]
  (* 485 *)
  ++ tag GJalr [#"jalr"]
  (* 507 *)
  ++ tag GMove [#"abs"; #"dabs"; #"dmove"; #"dneg"; #"dnegu"; #"move"; #"neg"; #"negu"; #"not"]
  (* 519 *)
  ++ tag GB [#"b"; #"bal"]
  (* 543, 560 *)
  ++ tag GLi [#"li"; #"liu"]
  (* 577 *)
  ++ tag GDiv [#"ddiv"; #"ddivu"; #"div"; #"divu"]
  (* 600 *)
  ++ tag GRs [#"jr"; #"mthi"; #"mtlo"]
  (* 625 *)
  ++ tag GRd [#"clear"; #"mfhi"; #"mflo"]
  (* 640 *)
  ++ tag GDli [#"dli"]
  (* 660 *)
  ++ tag GBc [#"bc0f"; #"bc1f"; #"bc0fl"; #"bc1fl"; #"bc0t"; #"bc1t"; #"bc0tl"; #"bc1tl"]
  (* 688 *)
  ++ tag GCop0 [#"cfc0"; #"ctc0"; #"dmfc0"; #"dmtc0"; #"mfc0"; #"mtc0"]
  (* 705 *)
  ++ tag GCop1 [#"cfc1"; #"ctc1"; #"dmfc1"; #"dmtc1"; #"mfc1"; #"mtc1"]
  (* 722 *)
  ++ tag GTlb [#"eret"; #"tlbp"; #"tlbr"; #"tlbwi"; #"tlbwr"]
  (* 733 *)
  ++ tag GFMem [#"ldc1"; #"lwc1"; #"sdc1"; #"swc1"]
  (* 774 *)
  ++ tag GWord [#".word"].

Definition classify (mnemonic : str) : option group := assoc mnemonic group_table.

(** src/parser.rs:782, 812-814  the two float groups of the fallback match *)
Definition float3_names : list str := [#"add"; #"sub"; #"mul"; #"div"].
Definition float2_names : list str :=
  [#"abs"; #"ceil.l"; #"ceil.w"; #"cvt.d"; #"cvt.l"; #"cvt.s"; #"cvt.w"; #"floor.l"; #"floor.w";
   #"mov"; #"neg"; #"round.l"; #"round.w"; #"sqrt"; #"trunc.l"; #"trunc.w"].
Definition mem_str (x : str) (l : list str) : bool := existsb (str_eqb x) l.

Section Inst.
Variable e : env.
Variable s : pstate.

Definition aimm (t : ity) (x : str) : M immediate := lift (parse_immediate e s t x).
Definition areg (x : str) : M reg := lift (arg_reg e s x).
Definition afreg (x : str) : M freg := lift (arg_freg e s x).

(** [return Err(error!(self, InvalidOperandCount, arg, n, args.len()))] *)
Definition bad_count {A} (arg : str) (expected found : nat) : M A :=
  lift (fail_at e (p_line s) (fun l => EInvalidOperandCount l expected found arg)).

(** src/parser.rs:189-224  [op rt, offset(base)] *)
Definition parse_mem (op arg : str) (args : list str) : M inst :=
  match args with
  | [a; x] =>
      dm! rt <- (if str_eqb (trim (to_lower op)) #"cache" then
                   dm! i <- aimm u16 a;
                   dm! v <- lift (imm_as_u32 i);
                   lift (match reg_try_from v with Ok r => Ok r | _ => Panic "Register::try_from" end)
                 else lift (arg_reg_unwrap a));
      dm! bt <- lift (base_text x);
      dm! base <- lift (arg_reg_unwrap bt);
      match re_find_str OFFSET_RE x with
      | Some o => dm! p <- lift (iop_of op);
                  dm! i <- aimm i16 (firstn (List.length o - 1) o);
                  lift (Ok (IImm p base rt i []))
      | None => dm! p <- lift (iop_of op);
                dm! i <- aimm i16 #"0";
                lift (Ok (IImm p base rt i []))
      end
  | _ => bad_count arg 2 (List.length args)
  end.

(** src/parser.rs:229-246  [op rt, rs, immediate]; the unsigned immediates are recognised by
    comparing the raw mnemonic (case-sensitively) *)
Definition parse_imm3 (op arg : str) (args : list str) : M inst :=
  match args with
  | [a; b; c] =>
      dm! rt <- areg a;
      dm! rs <- areg b;
      dm! p <- lift (iop_of op);
      dm! i <- (if str_eqb op #"andi" || str_eqb op #"ori" || str_eqb op #"xori"
                then aimm u16 c else aimm i16 c);
      lift (Ok (IImm p rs rt i []))
  | _ => bad_count arg 3 (List.length args)
  end.

(** src/parser.rs:251-266  [op rt, immediate] *)
Definition parse_imm2 (op arg : str) (args : list str) : M inst :=
  match args with
  | [a; b] =>
      dm! rt <- areg a;
      dm! p <- lift (iop_of op);
      dm! i <- aimm u16 b;
      lift (Ok (IImm p reg_null rt i []))
  | _ => bad_count arg 2 (List.length args)
  end.

(** src/parser.rs:271-286  [op rs, immediate] (traps) *)
Definition parse_trap_imm (op arg : str) (args : list str) : M inst :=
  match args with
  | [a; b] =>
      dm! rs <- areg a;
      dm! p <- lift (iop_of op);
      dm! i <- aimm i16 b;
      lift (Ok (IImm p rs reg_null i []))
  | _ => bad_count arg 2 (List.length args)
  end.

(** src/parser.rs:287-307  [op rs, offset] *)
Definition parse_branch1 (op arg : str) (args : list str) : M inst :=
  match args with
  | [a; o] =>
      dm! _ <- check_delay e s;
      dm! rs <- areg a;
      dm! i <- aimm u32 o;
      dm! _ <- check_branch e s i o;
      dm! p <- lift (iop_of op);
      lift (Ok (IImm p rs reg_null i []))
  | _ => bad_count arg 2 (List.length args)
  end.

(** src/parser.rs:312-336  [op rs, rt, offset] *)
Definition parse_branch2 (op arg : str) (args : list str) : M inst :=
  match args with
  | [a; b; o] =>
      dm! _ <- check_delay e s;
      dm! rs <- areg a;
      dm! rt <- areg b;
      dm! i <- aimm u32 o;
      dm! _ <- check_branch e s i o;
      dm! p <- lift (iop_of op);
      lift (Ok (IImm p rs rt i []))
  | _ => bad_count arg 3 (List.length args)
  end.

(** src/parser.rs:341-357  [op target] *)
Definition parse_jump (op arg : str) (args : list str) : M inst :=
  match args with
  | [a] =>
      dm! _ <- check_delay e s;
      let text := trim a in
      dm! t <- lift (parse_target e s text);
      dm! _ <- check_jump e s t text;
      dm! p <- lift (jop_of op);
      lift (Ok (IJump p t []))
  | _ => bad_count arg 1 (List.length args)
  end.

(** src/parser.rs:362-368, 722-728  no operands *)
Definition parse_plain (op : str) : M inst :=
  dm! p <- lift (rop_of op); lift (Ok (IReg p reg_null reg_null reg_null 0 [])).

(** src/parser.rs:373-390  [op rd, rs, rt] *)
Definition parse_reg3 (op arg : str) (args : list str) : M inst :=
  match args with
  | [a; b; c] =>
      dm! rd <- areg a;
      dm! rs <- areg b;
      dm! rt <- areg c;
      dm! p <- lift (rop_of op);
      lift (Ok (IReg p rs rt rd 0 []))
  | _ => bad_count arg 3 (List.length args)
  end.

(** src/parser.rs:395-419  [op rd, rt, sa] *)
Definition parse_shift (op arg : str) (args : list str) : M inst :=
  match args with
  | [a; b; c] =>
      dm! rd <- areg a;
      dm! rt <- areg b;
      dm! p <- lift (rop_of op);
      dm! sa <- lift (parse_sa (trim c));
      lift (Ok (IReg p reg_null rt rd sa []))
  | _ => bad_count arg 3 (List.length args)
  end.

(** src/parser.rs:424-438  [op rd, rt, rs] *)
Definition parse_shiftv (op arg : str) (args : list str) : M inst :=
  match args with
  | [a; b; c] =>
      dm! rd <- areg a;
      dm! rt <- areg b;
      dm! rs <- areg c;
      dm! p <- lift (rop_of op);
      lift (Ok (IReg p rs rt rd 0 []))
  | _ => bad_count arg 3 (List.length args)
  end.

(** src/parser.rs:443-463  [op code] *)
Definition parse_code (op arg : str) (args : list str) : M inst :=
  match args with
  | [a] =>
      dm! c <- (match a with [] => lift (Ok (Short 0)) | _ => aimm u16 (trim a) end);
      dm! p <- lift (rop_of op);
      dm! v <- lift (imm_as_u32 c);
      lift (Ok (IReg p reg_null reg_null reg_null v []))
  | _ => bad_count arg 1 (List.length args)
  end.

(** src/parser.rs:468-480  [op rs, rt] *)
Definition parse_reg2 (op arg : str) (args : list str) : M inst :=
  match args with
  | [a; b] =>
      dm! rs <- areg a;
      dm! rt <- areg b;
      dm! p <- lift (rop_of op);
      lift (Ok (IReg p rs rt reg_null 0 []))
  | _ => bad_count arg 2 (List.length args)
  end.

(** src/parser.rs:485-506  [jalr rs] or [jalr rd, rs] *)
Definition parse_jalr (op arg : str) (args : list str) : M inst :=
  match args with
  | [a] =>
      dm! _ <- check_delay e s;
      dm! rs <- areg a;
      dm! p <- lift (rop_of op);
      lift (Ok (IReg p rs reg_null Ra 0 []))
  | [a; b] =>
      dm! _ <- check_delay e s;
      dm! rs <- areg a;
      dm! rd <- areg b;
      dm! p <- lift (rop_of op);
      lift (Ok (IReg p rd reg_null rs 0 []))
  | _ => bad_count arg 2 (List.length args)
  end.

(** src/parser.rs:507-518  [op rd, rs] *)
Definition parse_move (op arg : str) (args : list str) : M inst :=
  match args with
  | [a; b] =>
      dm! rd <- areg a;
      dm! rs <- areg b;
      dm! p <- lift (rop_of op);
      lift (Ok (IReg p rs reg_null rd 0 []))
  | _ => bad_count arg 2 (List.length args)
  end.

(** src/parser.rs:519-542, 660-683  [op offset] *)
Definition parse_b (op arg : str) (args : list str) : M inst :=
  match args with
  | [o] =>
      dm! _ <- check_delay e s;
      dm! i <- aimm u32 o;
      dm! _ <- check_branch e s i o;
      dm! p <- lift (iop_of op);
      lift (Ok (IImm p reg_null reg_null i []))
  | _ => bad_count arg 1 (List.length args)
  end.

(** src/parser.rs:543-576  [li rt, imm], [liu rt, imm] *)
Definition parse_li (op arg : str) (args : list str) : M inst :=
  match args with
  | [a; b] =>
      dm! rt <- areg a;
      dm! i <- aimm i64 b;
      dm! v <- lift (imm_as_u64 i);
      if v >? 4294967295 then lift (fail_at e (p_line s) (fun l => EInvalidImmediate l b))
      else dm! p <- lift (iop_of op); lift (Ok (IImm p reg_null rt i []))
  | _ => bad_count arg 2 (List.length args)
  end.

(** src/parser.rs:577-595  [op rs, rt] (stored as rd, rs) or [op rd, rs, rt] *)
Definition parse_div (op arg : str) (args : list str) : M inst :=
  match args with
  | [a; b] =>
      dm! rd <- areg a;
      dm! rs <- areg b;
      dm! p <- lift (rop_of op);
      lift (Ok (IReg p rs reg_null rd 0 []))
  | [a; b; c] =>
      dm! rd <- areg a;
      dm! rs <- areg b;
      dm! rt <- areg c;
      dm! p <- lift (rop_of op);
      lift (Ok (IReg p rs rt rd 0 []))
  | _ => bad_count arg 3 (List.length args)
  end.

(** src/parser.rs:600-620  [op rs] *)
Definition parse_rs (op arg : str) (args : list str) : M inst :=
  match args with
  | [a] =>
      dm! _ <- (if str_eqb (trim (to_lower op)) #"jr" then check_delay e s else lift (Ok tt));
      dm! rs <- areg a;
      dm! p <- lift (rop_of op);
      lift (Ok (IReg p rs reg_null reg_null 0 []))
  | _ => bad_count arg 1 (List.length args)
  end.

(** src/parser.rs:625-639  [op rd] *)
Definition parse_rd (op arg : str) (args : list str) : M inst :=
  match args with
  | [a] =>
      dm! rd <- areg a;
      dm! p <- lift (rop_of op);
      lift (Ok (IReg p reg_null reg_null rd 0 []))
  | _ => bad_count arg 1 (List.length args)
  end.

(** src/parser.rs:640-655  [dli rt, imm] *)
Definition parse_dli (op arg : str) (args : list str) : M inst :=
  match args with
  | [a; b] =>
      dm! rt <- areg a;
      dm! p <- lift (iop_of op);
      dm! i <- aimm i64 b;
      lift (Ok (IImm p reg_null rt i []))
  | _ => bad_count arg 2 (List.length args)
  end.

(** src/parser.rs:688-700  [op rt, rd] (coprocessor 0) *)
Definition parse_cop0 (op arg : str) (args : list str) : M inst :=
  match args with
  | [a; b] =>
      dm! rt <- areg a;
      dm! rd <- lift (arg_c0reg e s b);
      dm! p <- lift (rop_of op);
      lift (Ok (IReg p reg_null rt (c0reg_to_reg rd) 0 []))
  | _ => bad_count arg 2 (List.length args)
  end.

(** src/parser.rs:705-717  [op rt, fs] *)
Definition parse_cop1 (op arg : str) (args : list str) : M inst :=
  match args with
  | [a; b] =>
      dm! rt <- areg a;
      dm! rd <- afreg b;
      dm! p <- lift (rop_of op);
      lift (Ok (IReg p reg_null rt (freg_to_reg rd) 0 []))
  | _ => bad_count arg 2 (List.length args)
  end.

(** src/parser.rs:733-773  [op ft, offset(base)] *)
Definition parse_fmem (op arg : str) (args : list str) : M inst :=
  match args with
  | [a; x] =>
      dm! ft <- afreg a;
      dm! bt <- lift (base_text x);
      dm! base <- areg bt;
      dm! p <- lift (iop_of op);
      dm! i <- aimm i16 (match re_find_str OFFSET_RE x with
                        | Some o => remove_all #"(" o
                        | None => #"0"
                        end);
      lift (Ok (IImm p base (freg_to_reg ft) i []))
  | _ => bad_count arg 2 (List.length args)
  end.

(** src/parser.rs:774-776  [.word imm] *)
Definition parse_word (arg : str) : M inst :=
  dm! i <- aimm u32 arg;
  dm! v <- lift (imm_as_u32 i);
  lift (Ok (IBytes v)).

(** src/parser.rs:777-870  the fallback arm: float instructions by the mnemonic without its
    last two characters *)
Definition parse_float (op arg : str) (args : list str) : M inst :=
  if Nat.ltb (List.length op) 2 then lift (Panic "op.len() - 2")
  else
    let stem := firstn (List.length op - 2) (to_lower op) in
    if mem_str stem float3_names then
      match args with
      | [a; b; c] =>
          dm! fd <- afreg a;
          dm! fs <- afreg b;
          dm! ft <- afreg c;
          dm! p <- lift (rop_of op);
          lift (Ok (IReg p (freg_to_reg fs) (freg_to_reg ft) (freg_to_reg fd) 0 []))
      | _ => bad_count arg 3 (List.length args)
      end
    else if mem_str stem float2_names then
      match args with
      | [a; b] =>
          dm! fd <- afreg a;
          dm! fs <- afreg b;
          dm! p <- lift (rop_of op);
          lift (Ok (IReg p (freg_to_reg fs) reg_null (freg_to_reg fd) 0 []))
      | _ => bad_count arg 2 (List.length args)
      end
    else if starts_with #"c." stem then
      match args with
      | [a; b] =>
          dm! fs <- afreg a;
          dm! ft <- afreg b;
          dm! p <- lift (rop_of (#"C." ++ match rev op with c :: _ => [c] | [] => [] end));
          dm! c <- lift (match nth_error (split_char "." op) 1 with
                         | Some cond => parse_float_cond e s cond
                         | None => Panic "split('.').get(1)"
                         end);
          lift (Ok (IReg p (freg_to_reg fs) (freg_to_reg ft) reg_null c []))
      | _ => bad_count arg 2 (List.length args)
      end
    else lift (fail_at e (p_line s) (fun l => EInvalidOpcode l op)).

(** src/parser.rs:184-871  the [match op.to_lowercase().trim()] *)
Definition parse_op (op arg : str) (args : list str) : M inst :=
  match classify (trim (to_lower op)) with
  | Some GMem => parse_mem op arg args
  | Some GImm3 => parse_imm3 op arg args
  | Some GImm2 => parse_imm2 op arg args
  | Some GTrapImm => parse_trap_imm op arg args
  | Some GBranch1 => parse_branch1 op arg args
  | Some GBranch2 => parse_branch2 op arg args
  | Some GJump => parse_jump op arg args
  | Some GPlain => parse_plain op
  | Some GReg3 => parse_reg3 op arg args
  | Some GShift => parse_shift op arg args
  | Some GShiftV => parse_shiftv op arg args
  | Some GCode => parse_code op arg args
  | Some GReg2 => parse_reg2 op arg args
  | Some GJalr => parse_jalr op arg args
  | Some GMove => parse_move op arg args
  | Some GB => parse_b op arg args
  | Some GLi => parse_li op arg args
  | Some GDiv => parse_div op arg args
  | Some GRs => parse_rs op arg args
  | Some GRd => parse_rd op arg args
  | Some GDli => parse_dli op arg args
  | Some GBc => parse_b op arg args
  | Some GCop0 => parse_cop0 op arg args
  | Some GCop1 => parse_cop1 op arg args
  | Some GTlb => parse_plain op
  | Some GFMem => parse_fmem op arg args
  | Some GWord => parse_word arg
  | None => parse_float op arg args
  end.

(** src/parser.rs:172-872  [parse_inst] *)
Definition parse_inst (ln : str) : M inst :=
  let (op, arg) := match split_once " " ln with
                   | Some oa => oa
                   | None => (ln, [])
                   end in
  match ln with
  | [] => lift (fail_at e (p_line s) EInvalidInstruction)
  | _ => parse_op op arg (split_char "," arg)
  end.

(** src/parser.rs:157-170  [parse_label] *)
Definition parse_label (label : str) : outcome perror str :=
  match label with
  | [] => Panic "label.chars().next()"
  | c :: _ =>
      if is_digit c then fail_at e (p_line s) (fun l => EInvalidLabel l label)
      else match assoc label (p_labels s) with
           | Some first =>
               do! l <- get_line e (p_line s);
               match nth_error (e_input e) first with
               | Some c => Err (EMultipleLabelDefinition l label (mk_line (S first) c))
               | None => Panic "input.get(first)"
               end
           | None => Ok label
           end
  end.

End Inst.

(** [line.strip_suffix(':').unwrap()] for a line ending in a colon *)
Definition drop_last (l : str) : str := firstn (List.length l - 1) l.

(** src/parser.rs:119-155  [scan_line] (after src/parser.rs:92: an error is recorded) *)
Definition scan_line (e : env) (s : pstate) (ln : str) : outcome perror pstate :=
  if ends_with #":" ln then
    if starts_with #"@@" ln then
      let scope := match rev (p_labels s) with (l, _) :: _ => l | [] => [] end in
      do! k <- parse_label e s (drop_last ln);
      Ok (mk_pstate (p_insts s) (p_labels s)
            (map_insert k (List.length (p_insts s), scope) (p_local s))
            (p_dropped s) (p_line s) (p_errors s) (p_warnings s))
    else
      do! k <- parse_label e s (drop_last ln);
      Ok (flush_locals e
            (mk_pstate (p_insts s) (map_insert k (List.length (p_insts s)) (p_labels s))
               (p_local s) (p_dropped s) (p_line s) (p_errors s) (p_warnings s)))
  else
    match ln with
    | [] => Ok s
    | _ =>
        match parse_inst e s ln with
        | (w, Ok i) => Ok (mk_pstate (p_insts s ++ [(p_line s, i)]) (p_labels s) (p_local s)
                             (p_dropped s) (p_line s) (p_errors s) (p_warnings s ++ w))
        | (w, Err p) => Ok (mk_pstate (p_insts s) (p_labels s) (p_local s) (p_dropped s)
                              (p_line s) (p_errors s ++ [p]) (p_warnings s ++ w))
        | (_, Panic p) => Panic p
        end
    end.

(** src/parser.rs:89-93  one iteration of the loop of [parse] *)
Definition step_line (e : env) (s : pstate) (raw : str) : outcome perror pstate :=
  let s1 := mk_pstate (p_insts s) (p_labels s) (p_local s) (p_dropped s) (S (p_line s))
              (p_errors s) (p_warnings s) in
  let l := replace_all COMMENT_RE [] (trim raw) in
  match scan_line e s1 l with
  | Ok s2 => Ok s2
  | Err p => Ok (mk_pstate (p_insts s1) (p_labels s1) (p_local s1) (p_dropped s1) (p_line s1)
                   (p_errors s1 ++ [p]) (p_warnings s1))
  | Panic p => Panic p
  end.

Fixpoint scan_lines (e : env) (s : pstate) (ls : list str) : outcome perror pstate :=
  match ls with
  | [] => Ok s
  | l :: r => do! s' <- step_line e s l; scan_lines e s' r
  end.

(** ** Label resolution *)

(** src/parser.rs:1066-1078  [get_label_scope] *)
Fixpoint index_of (k : str) (l : list (str * nat)) : option nat :=
  match l with
  | [] => None
  | (k', _) :: r => if str_eqb k k' then Some O
                    else match index_of k r with Some n => Some (S n) | None => None end
  end.
Definition get_label_scope (s : pstate) (lbl : str) : outcome perror (nat * nat) :=
  match lbl with
  | [] => Ok (O, List.length (p_insts s))
  | _ =>
      match assoc lbl (p_labels s), index_of lbl (p_labels s) with
      | Some label, Some i =>
          match nth_error (p_labels s) (S i) with
          | None => Ok (label, List.length (p_insts s))
          | Some (_, next) => Ok (label, next)
          end
      | _, _ => Panic "labels.get(lbl)"
      end
  end.

(** src/parser.rs:887, 914  [(addr as isize - (i + 1) as isize) as u16] *)
Definition label_offset (addr i : nat) : Z := wrap 16 (Z.of_nat addr - (Z.of_nat i + 1)).

(** src/parser.rs:909-925  the first recorded definition whose scope contains [i] *)
Fixpoint pick_local (s : pstate) (i : nat) (defs : list (nat * str)) : outcome perror (option nat) :=
  match defs with
  | [] => Ok None
  | (addr, lbl) :: r =>
      do! lu <- get_label_scope s lbl;
      if Nat.ltb i (fst lu) || Nat.ltb (snd lu) i then pick_local s i r else Ok (Some addr)
  end.

(** [op.to_string().starts_with('b')] *)
Definition is_b_op (op : iop) : bool := starts_with #"b" (iop_name op).

(** src/parser.rs:877-974  one iteration of [adjust_labels]: instruction [i] (from source
    line [n]); the result is the rewritten instruction and the errors pushed.  A [continue]
    leaves the instruction unchanged.  [lines] in the second error argument of
    [BranchOutOfBounds] is evaluated but unused by the macro except for the text. *)
Definition adjust_one (e : env) (s : pstate) (i : nat) (n : nat) (ins : inst)
  : outcome perror (inst * list perror) :=
  match ins with
  | IImm op rs rt (Label lbl) _ =>
      match assoc lbl (p_labels s) with
      | Some addr => Ok (IImm op rs rt (Short (label_offset addr i)) [], [])
      | None => Panic "labels.get(lbl).unwrap()"
      end
  | IImm op rs rt (LocalLabel loc) _ =>
      match assoc loc (p_dropped s) with
      | None => do! l <- get_line e n; Ok (ins, [EUndefinedLabel l loc])
      | Some defs =>
          do! p <- pick_local s i defs;
          match p with
          | Some addr => Ok (IImm op rs rt (Short (label_offset addr i)) [], [])
          | None => do! l <- get_line e n; Ok (ins, [ELocalLabelOutOfScope l loc])
          end
      end
  | IImm op rs rt (Int addr) _ =>
      if negb (is_b_op op) then Ok (ins, [])
      else
        let bound := do! m <- ck32 (e_oc e) (wrap 32 (Z.of_nat (List.length (p_insts s))) * 4);
                     ck32 (e_oc e) (e_base e + m) in
        do! bad <- (if addr <? e_base e then Ok true
                    else do! hi <- bound; Ok (addr >? hi));
        do! errs <- (if bad then
                       do! l <- get_line e (p_line s);
                       do! src <- get_line e n;
                       do! hi <- bound;
                       Ok [EBranchOutOfBounds l (l_content src) (e_base e, hi)]
                     else Ok []);
        let offset := addr - (Z.of_nat i + 1) in
        Ok (IImm op rs rt (Short (wrap 16 (Z.quot offset 4))) [], errs)
  | IJump op (TLabel lbl) _ =>
      match assoc lbl (p_labels s) with
      | None => do! l <- get_line e n; Ok (ins, [EUndefinedLabel l lbl])
      | Some addr =>
          do! m <- ck32 (e_oc e) (wrap 32 (Z.of_nat addr) * 4);
          do! a <- ck32 (e_oc e) (e_base e + m);
          Ok (IJump op (TAddress a) [], [])
      end
  | _ => Ok (ins, [])
  end.

(** src/parser.rs:875-980  [adjust_labels]: the loop reads only the instruction it rewrites
    and [insts.len()], so it is a left-to-right traversal. *)
Fixpoint adjust_from (e : env) (s : pstate) (i : nat) (l : list (nat * inst))
  : outcome perror (list inst * list perror) :=
  match l with
  | [] => Ok ([], [])
  | (n, ins) :: r =>
      do! p <- adjust_one e s i n ins;
      do! q <- adjust_from e s (S i) r;
      Ok (fst p :: fst q, snd p ++ snd q)
  end.

(** What [parse] leaves behind: its result, and the warnings printed. *)
Definition parse_result : Type := (list inst + list perror)%type.

(** src/parser.rs:88-117  [parse]: the lines, the final flush of local labels (only when
    some were dropped before), label resolution, and the verdict *)
Definition parse (e : env) : outcome perror (list pwarning * parse_result) :=
  do! s <- scan_lines e init_state (e_input e);
  let s' := match p_dropped s with [] => s | _ => flush_locals e s end in
  do! q <- adjust_from e s' 0 (p_insts s');
  let errors := p_errors s' ++ snd q in
  Ok (p_warnings s',
      match errors with [] => inl (fst q) | _ => inr errors end).
