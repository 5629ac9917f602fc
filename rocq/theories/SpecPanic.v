(** * SpecPanic: source lines that are harmless (C29; specification only).

    A source line of one of the known shapes, with or without mistakes in it, that does not
    run into one of the cases in which the assembler stops with a panic. *)

From Verif Require Import Str SpecIsa SpecText SpecLabels SpecImm.

(** The mnemonic of a line (what stands before the first space), and its operands (what
    stands between the commas after it, without the white space around them). *)
Definition operation (l : str) : str :=
  match split_once " " (clean l) with Some (m, _) => m | None => clean l end.
Definition operands (l : str) : list str :=
  map trim (split_char "," (match split_once " " (clean l) with Some (_, r) => r | None => [] end)).

(** What an operand is read as. *)
Inductive slot :=
| AReg     (** a general register *)
| TheReg   (** a general register that must be right *)
| Other    (** a coprocessor register *)
| Number   (** an immediate or a branch target *)
| Constant (** a number that cannot be a label *)
| Amount   (** a shift amount *)
| CacheNo  (** the operation of [cache] *)
| Memory   (** [offset(base)] *)
| Goal.    (** a jump target *)

(** The operands of the mnemonics. *)
Definition all (ks : list slot) (names : list str) : list (str * list slot) := map (fun n => (n, ks)) names.
Definition compares : list str :=
  [#"bge"; #"bgt"; #"ble"; #"blt"; #"bgeu"; #"bgtu"; #"bleu"; #"bltu"; #"bgel"; #"bgtl"; #"blel"; #"bltl";
   #"bgeul"; #"bgtul"; #"bleul"; #"bltul"].
Definition shapes : list (str * list slot) :=
  all [TheReg; Memory] [#"lb"; #"lbu"; #"ld"; #"ldl"; #"ldr"; #"lh"; #"lhu"; #"ll"; #"lld"; #"lw"; #"lwl"; #"lwr"; #"lwu";
    #"sb"; #"sc"; #"scd"; #"sd"; #"sdl"; #"sdr"; #"sh"; #"sw"; #"swl"; #"swr"]
  ++ all [CacheNo; Memory] [#"cache"]
  ++ all [Other; Memory] [#"ldc1"; #"lwc1"; #"sdc1"; #"swc1"]
  ++ all [AReg; AReg; Number] ([#"addi"; #"addiu"; #"andi"; #"daddi"; #"daddiu"; #"ori"; #"slti"; #"sltiu"; #"xori"; #"dsubi"; #"dsubiu";
    #"subi"; #"subiu"; #"beq"; #"beql"; #"bne"; #"bnel"] ++ compares)
  ++ all [AReg; Number] [#"dli"; #"lui"; #"lli"; #"teqi"; #"tgei"; #"tgeiu"; #"tlti"; #"tltiu"; #"tnei"; #"bgez"; #"bgezal"; #"bgezall"; #"bgezl";
    #"bltz"; #"bltzal"; #"bltzall"; #"bltzl"; #"beqz"; #"bnez"; #"beqzl"; #"bnezl"; #"bgtz"; #"bgtzl"; #"blez"; #"blezl"]
  ++ all [Number] [#"b"; #"bal"; #"bc0f"; #"bc1f"; #"bc0fl"; #"bc1fl"; #"bc0t"; #"bc1t"; #"bc0tl"; #"bc1tl"]
  ++ all [Goal] [#"j"; #"jal"]
  ++ all [] [#"nop"; #"sync"; #"eret"; #"tlbp"; #"tlbr"; #"tlbwi"; #"tlbwr"]
  ++ all [AReg; AReg; AReg] [#"add"; #"addu"; #"and"; #"dadd"; #"daddu"; #"dsub"; #"dsubu"; #"nor"; #"or"; #"slt"; #"sltu"; #"sub"; #"subu";
    #"xor"; #"dmul"; #"dmulu"; #"dmulo"; #"dmulou"; #"drem"; #"dremu"; #"drol"; #"dror"; #"mul"; #"mulu"; #"mulo"; #"mulou"; #"rem"; #"remu";
    #"seq"; #"sge"; #"sgeu"; #"sgt"; #"sgtu"; #"sle"; #"sleu"; #"sne"; #"dsllv"; #"dsrav"; #"dsrlv"; #"sllv"; #"srav"; #"srlv";
    #"ddiv"; #"ddivu"; #"div"; #"divu"]
  ++ all [AReg; AReg; Amount] [#"dsll"; #"dsll32"; #"dsra"; #"dsra32"; #"dsrl"; #"dsrl32"; #"sll"; #"sra"; #"srl"]
  ++ all [Constant] [#"break"; #"syscall"]
  ++ all [AReg; Constant] [#"li"; #"liu"]
  ++ all [AReg; AReg] [#"dmult"; #"dmultu"; #"mult"; #"multu"; #"teq"; #"tge"; #"tgeu"; #"tlt"; #"tltu"; #"tne"; #"abs"; #"dabs"; #"dmove";
    #"dneg"; #"dnegu"; #"move"; #"neg"; #"negu"; #"not"; #"ddiv"; #"ddivu"; #"div"; #"divu"; #"jalr"]
  ++ all [AReg] [#"jr"; #"mthi"; #"mtlo"; #"clear"; #"mfhi"; #"mflo"; #"jalr"]
  ++ all [AReg; Other] [#"cfc0"; #"ctc0"; #"dmfc0"; #"dmtc0"; #"mfc0"; #"mtc0"; #"cfc1"; #"ctc1"; #"dmfc1"; #"dmtc1"; #"mfc1"; #"mtc1"].

(** Floating-point operations: their names without the format, and in full. *)
Definition float_stems : list str :=
  [#"add"; #"sub"; #"mul"; #"div"; #"abs"; #"ceil.l"; #"ceil.w"; #"cvt.d"; #"cvt.l"; #"cvt.s"; #"cvt.w"; #"floor.l"; #"floor.w"; #"mov"; #"neg";
   #"round.l"; #"round.w"; #"sqrt"; #"trunc.l"; #"trunc.w"].
Definition float_names : list str :=
  [#"add.s"; #"add.d"; #"sub.s"; #"sub.d"; #"mul.s"; #"mul.d"; #"div.s"; #"div.d"; #"abs.s"; #"abs.d"; #"mov.s"; #"mov.d"; #"neg.s"; #"neg.d";
   #"sqrt.s"; #"sqrt.d"; #"ceil.l.s"; #"ceil.l.d"; #"ceil.w.s"; #"ceil.w.d"; #"floor.l.s"; #"floor.l.d"; #"floor.w.s"; #"floor.w.d";
   #"round.l.s"; #"round.l.d"; #"round.w.s"; #"round.w.d"; #"trunc.l.s"; #"trunc.l.d"; #"trunc.w.s"; #"trunc.w.d";
   #"cvt.d.s"; #"cvt.d.w"; #"cvt.d.l"; #"cvt.s.d"; #"cvt.s.w"; #"cvt.s.l"; #"cvt.l.s"; #"cvt.l.d"; #"cvt.w.s"; #"cvt.w.d"].

(** [%lo(x)], and [%hi(x)] unless rounding it up exceeds 32 bits. *)
Definition address_half (syms : list (Z * str)) (t : str) : Prop :=
  exists x a, plain_name x /\ names_address syms x a /\ is_word a
    /\ (t = #"%lo(" ++ x ++ #")" \/ (t = #"%hi(" ++ x ++ #")" /\ a < 4294934528)).
Definition low_half (syms : list (Z * str)) (t : str) : Prop :=
  exists x a, plain_name x /\ names_address syms x a /\ is_word a /\ t = #"%lo(" ++ x ++ #")".

(** The operand texts that are harmless, right or wrong. *)
Definition harmless (syms : list (Z * str)) (labels : list str) (k : slot) (t : str) : Prop :=
  match k with
  | AReg => (forall a c b, t = a ++ #"r" ++ [c] ++ b -> is_digit c = false)
            \/ (exists d ds n, (d = [] \/ d = #"$") /\ t = d ++ #"r" ++ ds /\ digits 10 ds n /\ n < 2 ^ 32)
  | TheReg => exists n, gpr_text t n
  | Other => True
  | Number => ~ In "("%char t \/ address_half syms t
  | Constant => ~ In "("%char t /\ ~ In t labels /\ is_local t = false
  | Amount => exists v, numeral t v /\ v < 2 ^ 31
  | CacheNo => exists v, numeral t v /\ v < 32
  | Memory => exists o b, based o b t /\ (~ In "("%char o \/ low_half syms o)
  | Goal => t <> []
  end.

(** A line that defines no nameless label, is not a [.word] line, keeps white space out of its
    mnemonic, and, if it has the right number of operands, has harmless ones.  [checked] says
    that arithmetic overflow is checked; then the compare-and-branch instructions are left
    out. *)
Definition harmless_instruction (checked : bool) (syms : list (Z * str)) (labels : list str) (l : str) : Prop :=
  let m := to_lower (operation l) in
  (forall c, In c m -> is_ws c = false) /\ m <> #".word"
  /\ (checked = true -> ~ In m compares)
  /\ (forall ks, In (m, ks) shapes -> List.length ks = List.length (operands l) -> Forall2 (harmless syms labels) ks (operands l))
  /\ (~ In m (map fst shapes) ->
        (2 <= List.length m)%nat
        /\ (forall stem a b, m = stem ++ [a; b] -> In stem float_stems -> In m float_names)
        /\ (forall r a b, m = #"c." ++ r ++ [a; b] -> b = "s"%char \/ b = "d"%char)).
Definition harmless_line (checked : bool) (syms : list (Z * str)) (labels : list str) (l : str) : Prop :=
  match role_of l with
  | Empty => True
  | Defines k => k <> []
  | Instruction => harmless_instruction checked syms labels l
  end.
