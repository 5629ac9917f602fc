(** * ModelTests: the assertions of /repo/tests evaluated on the model (tests of the model's
    fidelity, not proofs; generated by tools/gen_tests.py). *)

From Verif Require Import Lib.

Definition test_rt := mk_runtime true (fun l => l).
Definition test_m := set_base 2147483648 m_new.
(** A line feed is written as a vertical bar in the test texts below. *)
Definition test_text (s : string) : str :=
  map (fun c => if Ascii.eqb c "|" then nl else c) (lit s).
Definition asm_ok (t : string * list Z) : bool :=
  match assemble test_rt test_m (test_text (fst t)) with
  | Ok l => if list_eq_dec Z.eq_dec (get_bytes l) (snd t) then true else false
  | _ => false
  end.
Definition disasm_ok (t : string * list Z) : bool :=
  match disassemble true (set_debug test_m) (snd t) with
  | Ok [l] => str_eqb l (test_text (fst t))
  | _ => false
  end.

Definition asm_tests : list (string * list Z) :=
  [("add $a0, $a1, $a2"%string, [10887200]);
   ("addi $a0, $a1, 0x8"%string, [547618824]);
   ("addiu $a0, $a1, 0x8"%string, [614727688]);
   ("addu $a0, $a1, $a2"%string, [10887201]);
   ("and $a0, $a1, $a2"%string, [10887204]);
   ("andi $a0, $a1, 0x8"%string, [816054280]);
   ("BC0F:|bc0f BC0F"%string, [1090584575]);
   ("BC1F:|bc1f BC1F"%string, [1157693439]);
   ("BC0FL:|bc0fl BC0FL"%string, [1090715647]);
   ("BC1FL:|bc1fl BC1FL"%string, [1157824511]);
   ("BC0T:|bc0t BC0T"%string, [1090650111]);
   ("BC1T:|bc1t BC1T"%string, [1157758975]);
   ("BC0TL:|bc0tl BC0TL"%string, [1090781183]);
   ("BC1TL:|bc1tl BC1TL"%string, [1157890047]);
   ("BEQ:|beq $a0, $a1, BEQ"%string, [277217279]);
   ("BEQL:|beql $a0, $a1, BEQL"%string, [1350959103]);
   ("BGEZ:|bgez $a0, BGEZ"%string, [75628543]);
   ("BGEZAL:|bgezal $a0, BGEZAL"%string, [76677119]);
   ("BGEZALL:|bgezall $a0, BGEZALL"%string, [76808191]);
   ("BGEZL:|bgezl $a0, BGEZL"%string, [75759615]);
   ("BGTZ:|bgtz $a0, BGTZ"%string, [478216191]);
   ("BGTZL:|bgtzl $a0, BGTZL"%string, [1551958015]);
   ("BLEZ:|blez $a0, BLEZ"%string, [411107327]);
   ("BLEZL:|blezl $a0, BLEZL"%string, [1484849151]);
   ("BLTZ:|bltz $a0, BLTZ"%string, [75563007]);
   ("BLTZAL:|bltzal $a0, BLTZAL"%string, [76611583]);
   ("BLTZALL:|bltzall $a0, BLTZALL"%string, [76742655]);
   ("BLTZL:|bltzl $a0, BLTZL"%string, [75694079]);
   ("BNE:|bne $a0, $a1, BNE"%string, [344326143]);
   ("BNEL:|bnel $a0, $a1, BNEL"%string, [1418067967]);
   ("break"%string, [13]);
   ("break 0x20"%string, [2061]);
   ("cache 0x14, 0x10($a0)"%string, [3163815952]);
   ("cfc0 $a0, Context"%string, [1078206464]);
   ("cfc1 $a0, $fa1"%string, [1145335808]);
   ("ctc0 $a0, Context"%string, [1086595072]);
   ("ctc1 $a0, $fa1"%string, [1153724416]);
   ("dadd $a0, $a1, $a2"%string, [10887212]);
   ("daddi $a0, $a1, 0x8"%string, [1621360648]);
   ("daddiu $a0, $a1, 0x8"%string, [1688469512]);
   ("daddu $a0, $a1, $a2"%string, [10887213]);
   ("ddiv $a0, $a1"%string, [8716318]);
   ("ddivu $a0, $a1"%string, [8716319]);
   ("div $a0, $a1"%string, [8716314]);
   ("divu $a0, $a1"%string, [8716315]);
   ("dmfc0 $a0, Context"%string, [1076109312]);
   ("dmfc1 $a0, $fa1"%string, [1143238656]);
   ("dmult $a0, $a1"%string, [8716316]);
   ("dmultu $a0, $a1"%string, [8716317]);
   ("dmtc0 $a0, Context"%string, [1084497920]);
   ("dmtc1 $a0, $fa1"%string, [1151627264]);
   ("dsll $a0, $a1, 0x1f"%string, [337912]);
   ("dsll32 $a0, $a1, 0x1f"%string, [337916]);
   ("dsllv $a0, $a1, $a2"%string, [12918804]);
   ("dsra $a0, $a1, 0x1f"%string, [337915]);
   ("dsra32 $a0, $a1, 0x1f"%string, [337919]);
   ("dsrav $a0, $a1, $a2"%string, [12918807]);
   ("dsrl $a0, $a1, 0x1f"%string, [337914]);
   ("dsrl32 $a0, $a1, 0x1f"%string, [337918]);
   ("dsrlv $a0, $a1, $a2"%string, [12918806]);
   ("dsub $a0, $a1, $a2"%string, [10887214]);
   ("dsubu $a0, $a1, $a2"%string, [10887215]);
   ("eret"%string, [1107296280]);
   ("j 0x80000000"%string, [134217728]);
   ("jal 0x80000000"%string, [201326592]);
   ("jr $ra"%string, [65011720]);
   ("jalr $ra"%string, [65075209]);
   ("jalr $a0, $a1"%string, [10493961]);
   ("lb $a0, 0x10($a1)"%string, [2158231568]);
   ("lbu $a0, 0x10($a1)"%string, [2426667024]);
   ("ld $a0, 0x10($a1)"%string, [3701735440]);
   ("ldc1 $ft0, 0x8($a0)"%string, [3565420552]);
   ("ldl $a0, 0x10($a1)"%string, [1755578384]);
   ("ldr $a0, 0x10($a1)"%string, [1822687248]);
   ("lh $a0, 0x10($a1)"%string, [2225340432]);
   ("lhu $a0, 0x10($a1)"%string, [2493775888]);
   ("ll $a0, 0x10($a1)"%string, [3231973392]);
   ("lld $a0, 0x10($a1)"%string, [3500408848]);
   ("lwc1 $ft0, 0x8($a0)"%string, [3296985096]);
   ("lwu $a0, 0x10($a1)"%string, [2627993616]);
   ("lui $a0, 0x8000"%string, [1006927872]);
   ("lw $a0, 0x10($a1)"%string, [2359558160]);
   ("lwl $a0, 0x10($a1)"%string, [2292449296]);
   ("lwr $a0, 0x10($a1)"%string, [2560884752]);
   ("mfc0 $a0, Context"%string, [1074012160]);
   ("mfc1 $a0, $fa1"%string, [1141141504]);
   ("mfhi $a0"%string, [8208]);
   ("mflo $a0"%string, [8210]);
   ("mult $a0, $a1"%string, [8716312]);
   ("multu $a0, $a1"%string, [8716313]);
   ("mtc0 $a0, Context"%string, [1082400768]);
   ("mtc1 $a0, $fa1"%string, [1149530112]);
   ("mthi $a0"%string, [8388625]);
   ("mtlo $a0"%string, [8388627]);
   ("nor $a0, $a1, $a2"%string, [10887207]);
   ("or $a0, $a1, $a2"%string, [10887205]);
   ("ori $a0, $a1, 0x8"%string, [883163144]);
   ("sb $a0, 0x10($a1)"%string, [2695102480]);
   ("sc $a0, 0x10($a1)"%string, [3768844304]);
   ("scd $a0, 0x10($a1)"%string, [4037279760]);
   ("sd $a0, 0x10($a1)"%string, [4238606352]);
   ("sdc1 $ft0, 0x8($a0)"%string, [4102291464]);
   ("sdl $a0, 0x10($a1)"%string, [2963537936]);
   ("sdr $a0, 0x10($a1)"%string, [3030646800]);
   ("sh $a0, 0x10($a1)"%string, [2762211344]);
   ("sll $a0, $a1, 0x1f"%string, [337856]);
   ("sllv $a0, $a1, $a2"%string, [12918788]);
   ("slt $a0, $a1, $a2"%string, [10887210]);
   ("slti $a0, $a1, 0x8"%string, [681836552]);
   ("sltiu $a0, $a1, 0x8"%string, [748945416]);
   ("sltu $a0, $a1, $a2"%string, [10887211]);
   ("sra $a0, $a1, 0x1f"%string, [337859]);
   ("srav $a0, $a1, $a2"%string, [12918791]);
   ("srl $a0, $a1, 0x1f"%string, [337858]);
   ("srlv $a0, $a1, $a2"%string, [12918790]);
   ("sub $a0, $a1, $a2"%string, [10887202]);
   ("subu $a0, $a1, $a2"%string, [10887203]);
   ("sw $a0, 0x10($a1)"%string, [2896429072]);
   ("swc1 $ft0, 0x8($a0)"%string, [3833856008]);
   ("swl $a0, 0x10($a1)"%string, [2829320208]);
   ("swr $a0, 0x10($a1)"%string, [3097755664]);
   ("sync"%string, [15]);
   ("syscall"%string, [12]);
   ("syscall 0x20"%string, [2060]);
   ("teq $a0, $a1"%string, [8716340]);
   ("teqi $a0, 0x20"%string, [76283936]);
   ("tge $a0, $a1"%string, [8716336]);
   ("tgei $a0, 0x20"%string, [76021792]);
   ("tgeiu $a0, 0x20"%string, [76087328]);
   ("tgeu $a0, $a1"%string, [8716337]);
   ("tlbp"%string, [1107296264]);
   ("tlbr"%string, [1107296257]);
   ("tlbwi"%string, [1107296258]);
   ("tlbwr"%string, [1107296262]);
   ("tlt $a0, $a1"%string, [8716338]);
   ("tlti $a0, 0x20"%string, [76152864]);
   ("tltiu $a0, 0x20"%string, [76218400]);
   ("tltu $a0, $a1"%string, [8716339]);
   ("tne $a0, $a1"%string, [8716342]);
   ("tnei $a0, 0x20"%string, [76415008]);
   ("xor $a0, $a1, $a2"%string, [10887206]);
   ("xori $a0, $a1, 0x8"%string, [950272008]);
   ("abs $a0, $a1"%string, [331715; 10559526; 8462371]);
   ("B:|b B"%string, [268500991]);
   ("BAL:|bal BAL"%string, [68288511]);
   ("beq a0, a1, 0x80000008|nop|nop|nop"%string, [277151745; 0; 0; 0]);
   ("BEQZ:|beqz $a0, BEQZ"%string, [276889599]);
   ("BEQZL:|beqzl $a0, BEQZL"%string, [1350631423]);
   ("BGE:|bge $a0, $a1, BGE"%string, [8718378; 270598142]);
   ("BGEL:|bgel $a0, $a1, BGEL"%string, [8718378; 1344339966]);
   ("BGEU:|bgeu $a0, $a1, BGEU"%string, [8718379; 270598142]);
   ("BGEUL:|bgeul $a0, $a1, BGEUL"%string, [8718379; 1344339966]);
   ("BGT:|bgt $a0, $a1, BGT"%string, [10749994; 337707006]);
   ("BGTL:|bgtl $a0, $a1, BGTL"%string, [10749994; 1411448830]);
   ("BGTU:|bgtu $a0, $a1, BGTU"%string, [10749995; 337707006]);
   ("BGTUL:|bgtul $a0, $a1, BGTUL"%string, [10749995; 1411448830]);
   ("BLE:|ble $a0, $a1, BLE"%string, [10749994; 270598142]);
   ("BLEL:|blel $a0, $a1, BLEL"%string, [10749994; 1344339966]);
   ("BLEU:|bleu $a0, $a1, BLEU"%string, [10749995; 270598142]);
   ("BLEUL:|bleul $a0, $a1, BLEUL"%string, [10749995; 1344339966]);
   ("BLT:|blt $a0, $a1, BLT"%string, [8718378; 337707006]);
   ("BLTL:|bltl $a0, $a1, BLTL"%string, [8718378; 1411448830]);
   ("BLTU:|bltu $a0, $a1, BLTU"%string, [8718379; 337707006]);
   ("BLTUL:|bltul $a0, $a1, BLTUL"%string, [8718379; 1411448830]);
   ("BNEZ:|bnez $a0, BNEZ"%string, [343998463]);
   ("BNEZL:|bnezl $a0, BNEZL"%string, [1417740287]);
   ("clear $a0"%string, [8225]);
   ("dabs $a0, $a1"%string, [331771; 10559526; 8462382]);
   ("ddiv $a0, $a1, $a2"%string, [12583412; 10879006; 1677852671; 348192772; 1677787137; 69628; 10551732; 8210]);
   ("ddivu $a0, $a1, $a2"%string, [12583412; 10879007; 8210]);
   ("div $a0, $a1, $a2"%string, [12583412; 10879002; 1006764031; 874643455; 348192771; 1006731264; 10551732; 8210]);
   ("divu $a0, $a1, $a2"%string, [12583412; 10879003; 8210]);
   ("dli $a0, 0x123456789abcdef0"%string, [1006899764; 881088120; 271416; 881105596; 271416; 881123056]);
   ("dli $a0, -423023405674592"%string, [1006960638; 881098563; 271416; 881078316; 271416; 881086368]);
   ("dmove $a0, $a1"%string, [10493997]);
   ("dmul $a0, $a1, $a2"%string, [10879004; 8210]);
   ("dmulu $a0, $a1, $a2"%string, [10879005; 8210]);
   ("dmulo $a0, $a1, $a2"%string, [10879004; 8210; 272383; 2064; 8454582; 8210]);
   ("dmulou $a0, $a1, $a2"%string, [10879005; 2064; 8210; 2097590]);
   ("dneg $a0, $a1"%string, [335918]);
   ("dnegu $a0, $a1"%string, [335919]);
   ("drem $a0, $a1, $a2"%string, [12583412; 10879006; 1677852671; 348192772; 1677787137; 69628; 10551732; 8208]);
   ("dremu $a0, $a1, $a2"%string, [12583412; 10879007; 8208]);
   ("drol $a0, $a1, $a2"%string, [395311; 2426902; 12918804; 8462373]);
   ("dror $a0, $a1, $a2"%string, [395311; 2426900; 12918806; 8462373]);
   ("dsubi $a0, $a1, 0x8"%string, [1621426168]);
   ("dsubiu $a0, $a1, 0x8"%string, [1688535032]);
   ("lli $a0, 0x10"%string, [872677392]);
   ("li $a0, 0x12345678"%string, [1006899764; 881088120]);
   ("move $a0, $a1"%string, [335905]);
   ("mul $a0, $a1, $a2"%string, [10879000; 8210]);
   ("mulu $a0, $a1, $a2"%string, [10879001; 8210]);
   ("mulo $a0, $a1, $a2"%string, [10879000; 8210; 272323; 2064; 8454582; 8210]);
   ("mulou $a0, $a1, $a2"%string, [10879001; 2064; 8210; 2097590]);
   ("neg $a0, $a1"%string, [335906]);
   ("negu $a0, $a1"%string, [335907]);
   ("nop"%string, [0]);
   ("not $a0, $a1"%string, [10493991]);
   ("rem $a0, $a1, $a2"%string, [12583412; 10879002; 1006764031; 874643455; 348192771; 1006731264; 10551732; 8208]);
   ("remu $a0, $a1, $a2"%string, [12583412; 10879003; 8208]);
   ("seq $a0, $a1, $a2"%string, [10887206; 746848257]);
   ("sge $a0, $a1, $a2"%string, [10887210; 948174849]);
   ("sgeu $a0, $a1, $a2"%string, [10887211; 948174849]);
   ("sgt $a0, $a1, $a2"%string, [12918826]);
   ("sgtu $a0, $a1, $a2"%string, [12918827]);
   ("sle $a0, $a1, $a2"%string, [12918826; 948174849]);
   ("sleu $a0, $a1, $a2"%string, [12918827; 948174849]);
   ("sne $a0, $a1, $a2"%string, [10887206; 270379]);
   ("subi $a0, $a1, 0x8"%string, [547684344]);
   ("subiu $a0, $a1, 0x8"%string, [614793208]);
   ("abs.s $fa0, $fa1"%string, [1174434565]);
   ("abs.d $fa0, $fa1"%string, [1176531717]);
   ("add.s $fa0, $fa1, $ft0"%string, [1174696704]);
   ("add.d $fa0, $fa1, $ft0"%string, [1176793856]);
   ("c.eq.s $fa1, $ft0"%string, [1174695986]);
   ("c.eq.d $fa1, $ft0"%string, [1176793138]);
   ("c.f.s $fa1, $ft0"%string, [1174695984]);
   ("c.f.d $fa1, $ft0"%string, [1176793136]);
   ("c.le.s $fa1, $ft0"%string, [1174695998]);
   ("c.le.d $fa1, $ft0"%string, [1176793150]);
   ("c.lt.s $fa1, $ft0"%string, [1174695996]);
   ("c.lt.d $fa1, $ft0"%string, [1176793148]);
   ("c.nge.s $fa1, $ft0"%string, [1174695997]);
   ("c.nge.d $fa1, $ft0"%string, [1176793149]);
   ("c.ngl.s $fa1, $ft0"%string, [1174695995]);
   ("c.ngl.d $fa1, $ft0"%string, [1176793147]);
   ("c.ngle.s $fa1, $ft0"%string, [1174695993]);
   ("c.ngle.d $fa1, $ft0"%string, [1176793145]);
   ("c.ngt.s $fa1, $ft0"%string, [1174695999]);
   ("c.ngt.d $fa1, $ft0"%string, [1176793151]);
   ("c.ole.s $fa1, $ft0"%string, [1174695990]);
   ("c.ole.d $fa1, $ft0"%string, [1176793142]);
   ("c.olt.s $fa1, $ft0"%string, [1174695988]);
   ("c.olt.d $fa1, $ft0"%string, [1176793140]);
   ("c.seq.s $fa1, $ft0"%string, [1174695994]);
   ("c.seq.d $fa1, $ft0"%string, [1176793146]);
   ("c.sf.s $fa1, $ft0"%string, [1174695992]);
   ("c.sf.d $fa1, $ft0"%string, [1176793144]);
   ("c.ueq.s $fa1, $ft0"%string, [1174695987]);
   ("c.ueq.d $fa1, $ft0"%string, [1176793139]);
   ("c.ule.s $fa1, $ft0"%string, [1174695991]);
   ("c.ule.d $fa1, $ft0"%string, [1176793143]);
   ("c.ult.s $fa1, $ft0"%string, [1174695989]);
   ("c.ult.d $fa1, $ft0"%string, [1176793141]);
   ("c.un.s $fa1, $ft0"%string, [1174695985]);
   ("c.un.d $fa1, $ft0"%string, [1176793137]);
   ("ceil.l.s $fa0, $fa1"%string, [1174434570]);
   ("ceil.l.d $fa0, $fa1"%string, [1176531722]);
   ("ceil.w.s $fa0, $fa1"%string, [1174434574]);
   ("ceil.w.d $fa0, $fa1"%string, [1176531726]);
   ("cvt.d.l $fa0, $fa1"%string, [1184920353]);
   ("cvt.d.s $fa0, $fa1"%string, [1174434593]);
   ("cvt.d.w $fa0, $fa1"%string, [1182823201]);
   ("cvt.l.d $fa0, $fa1"%string, [1176531749]);
   ("cvt.l.s $fa0, $fa1"%string, [1174434597]);
   ("cvt.s.d $fa0, $fa1"%string, [1176531744]);
   ("cvt.s.l $fa0, $fa1"%string, [1184920352]);
   ("cvt.s.w $fa0, $fa1"%string, [1182823200]);
   ("cvt.w.d $fa0, $fa1"%string, [1176531748]);
   ("cvt.w.s $fa0, $fa1"%string, [1174434596]);
   ("div.s $fa0, $fa1, $ft0"%string, [1174696707]);
   ("div.d $fa0, $fa1, $ft0"%string, [1176793859]);
   ("floor.l.s $fa0, $fa1"%string, [1174434571]);
   ("floor.l.d $fa0, $fa1"%string, [1176531723]);
   ("floor.w.s $fa0, $fa1"%string, [1174434575]);
   ("floor.w.d $fa0, $fa1"%string, [1176531727]);
   ("mul.s $fa0, $fa1, $ft0"%string, [1174696706]);
   ("mul.d $fa0, $fa1, $ft0"%string, [1176793858]);
   ("mov.s $fa0, $fa1"%string, [1174434566]);
   ("mov.d $fa0, $fa1"%string, [1176531718]);
   ("neg.s $fa0, $fa1"%string, [1174434567]);
   ("neg.d $fa0, $fa1"%string, [1176531719]);
   ("round.l.s $fa0, $fa1"%string, [1174434568]);
   ("round.l.d $fa0, $fa1"%string, [1176531720]);
   ("round.w.s $fa0, $fa1"%string, [1174434572]);
   ("round.w.d $fa0, $fa1"%string, [1176531724]);
   ("sqrt.s $fa0, $fa1"%string, [1174434564]);
   ("sqrt.d $fa0, $fa1"%string, [1176531716]);
   ("sub.s $fa0, $fa1, $ft0"%string, [1174696705]);
   ("sub.d $fa0, $fa1, $ft0"%string, [1176793857]);
   ("trunc.l.s $fa0, $fa1"%string, [1174434569]);
   ("trunc.l.d $fa0, $fa1"%string, [1176531721]);
   ("trunc.w.s $fa0, $fa1"%string, [1174434573]);
   ("trunc.w.d $fa0, $fa1"%string, [1176531725])].

Definition disasm_tests : list (string * list Z) :=
  [("add $a0, $a1, $a2"%string, [10887200]);
   ("addi $a0, $a1, 0x8"%string, [547618824]);
   ("addiu $a0, $a1, 0x8"%string, [614727688]);
   ("addu $a0, $a1, $a2"%string, [10887201]);
   ("and $a0, $a1, $a2"%string, [10887204]);
   ("andi $a0, $a1, 0x8"%string, [816054280]);
   ("break"%string, [13]);
   ("break 0x20"%string, [2061]);
   ("cache 0x14, 0x10($a0)"%string, [3163815952]);
   ("cfc0 $a0, Context"%string, [1078206464]);
   ("cfc1 $a0, $fa1"%string, [1145335808]);
   ("ctc0 $a0, Context"%string, [1086595072]);
   ("ctc1 $a0, $fa1"%string, [1153724416]);
   ("dadd $a0, $a1, $a2"%string, [10887212]);
   ("daddi $a0, $a1, 0x8"%string, [1621360648]);
   ("daddiu $a0, $a1, 0x8"%string, [1688469512]);
   ("daddu $a0, $a1, $a2"%string, [10887213]);
   ("ddiv $a0, $a1"%string, [8716318]);
   ("ddivu $a0, $a1"%string, [8716319]);
   ("div $a0, $a1"%string, [8716314]);
   ("divu $a0, $a1"%string, [8716315]);
   ("dmfc0 $a0, Context"%string, [1076109312]);
   ("dmfc1 $a0, $fa1"%string, [1143238656]);
   ("dmult $a0, $a1"%string, [8716316]);
   ("dmultu $a0, $a1"%string, [8716317]);
   ("dmtc0 $a0, Context"%string, [1084497920]);
   ("dmtc1 $a0, $fa1"%string, [1151627264]);
   ("dsll $a0, $a1, 0x1f"%string, [337912]);
   ("dsll32 $a0, $a1, 0x1f"%string, [337916]);
   ("dsllv $a0, $a1, $a2"%string, [12918804]);
   ("dsra $a0, $a1, 0x1f"%string, [337915]);
   ("dsra32 $a0, $a1, 0x1f"%string, [337919]);
   ("dsrav $a0, $a1, $a2"%string, [12918807]);
   ("dsrl $a0, $a1, 0x1f"%string, [337914]);
   ("dsrl32 $a0, $a1, 0x1f"%string, [337918]);
   ("dsrlv $a0, $a1, $a2"%string, [12918806]);
   ("dsub $a0, $a1, $a2"%string, [10887214]);
   ("dsubu $a0, $a1, $a2"%string, [10887215]);
   ("eret"%string, [1107296280]);
   ("j 0x80000000"%string, [134217728]);
   ("jal 0x80000000"%string, [201326592]);
   ("jr $ra"%string, [65011720]);
   ("jalr $ra"%string, [65075209]);
   ("jalr $a0, $a1"%string, [10493961]);
   ("lb $a0, 0x10($a1)"%string, [2158231568]);
   ("lbu $a0, 0x10($a1)"%string, [2426667024]);
   ("ld $a0, 0x10($a1)"%string, [3701735440]);
   ("ldc1 $ft0, 0x8($a0)"%string, [3565420552]);
   ("ldl $a0, 0x10($a1)"%string, [1755578384]);
   ("ldr $a0, 0x10($a1)"%string, [1822687248]);
   ("lh $a0, 0x10($a1)"%string, [2225340432]);
   ("lhu $a0, 0x10($a1)"%string, [2493775888]);
   ("ll $a0, 0x10($a1)"%string, [3231973392]);
   ("lld $a0, 0x10($a1)"%string, [3500408848]);
   ("lwc1 $ft0, 0x8($a0)"%string, [3296985096]);
   ("lwu $a0, 0x10($a1)"%string, [2627993616]);
   ("lui $a0, 0x8000"%string, [1006927872]);
   ("lw $a0, 0x10($a1)"%string, [2359558160]);
   ("lwl $a0, 0x10($a1)"%string, [2292449296]);
   ("lwr $a0, 0x10($a1)"%string, [2560884752]);
   ("mfc0 $a0, Context"%string, [1074012160]);
   ("mfc1 $a0, $fa1"%string, [1141141504]);
   ("mfhi $a0"%string, [8208]);
   ("mflo $a0"%string, [8210]);
   ("mult $a0, $a1"%string, [8716312]);
   ("multu $a0, $a1"%string, [8716313]);
   ("mtc0 $a0, Context"%string, [1082400768]);
   ("mtc1 $a0, $fa1"%string, [1149530112]);
   ("mthi $a0"%string, [8388625]);
   ("mtlo $a0"%string, [8388627]);
   ("nor $a0, $a1, $a2"%string, [10887207]);
   ("or $a0, $a1, $a2"%string, [10887205]);
   ("ori $a0, $a1, 0x8"%string, [883163144]);
   ("sb $a0, 0x10($a1)"%string, [2695102480]);
   ("sc $a0, 0x10($a1)"%string, [3768844304]);
   ("scd $a0, 0x10($a1)"%string, [4037279760]);
   ("sd $a0, 0x10($a1)"%string, [4238606352]);
   ("sdc1 $ft0, 0x8($a0)"%string, [4102291464]);
   ("sdl $a0, 0x10($a1)"%string, [2963537936]);
   ("sdr $a0, 0x10($a1)"%string, [3030646800]);
   ("sh $a0, 0x10($a1)"%string, [2762211344]);
   ("sll $a0, $a1, 0x1f"%string, [337856]);
   ("sllv $a0, $a1, $a2"%string, [12918788]);
   ("slt $a0, $a1, $a2"%string, [10887210]);
   ("slti $a0, $a1, 0x8"%string, [681836552]);
   ("sltiu $a0, $a1, 0x8"%string, [748945416]);
   ("sltu $a0, $a1, $a2"%string, [10887211]);
   ("sra $a0, $a1, 0x1f"%string, [337859]);
   ("srav $a0, $a1, $a2"%string, [12918791]);
   ("srl $a0, $a1, 0x1f"%string, [337858]);
   ("srlv $a0, $a1, $a2"%string, [12918790]);
   ("sub $a0, $a1, $a2"%string, [10887202]);
   ("subu $a0, $a1, $a2"%string, [10887203]);
   ("sw $a0, 0x10($a1)"%string, [2896429072]);
   ("swc1 $ft0, 0x8($a0)"%string, [3833856008]);
   ("swl $a0, 0x10($a1)"%string, [2829320208]);
   ("swr $a0, 0x10($a1)"%string, [3097755664]);
   ("sync"%string, [15]);
   ("syscall"%string, [12]);
   ("syscall 0x20"%string, [2060]);
   ("teq $a0, $a1"%string, [8716340]);
   ("teqi $a0, 0x20"%string, [76283936]);
   ("tge $a0, $a1"%string, [8716336]);
   ("tgei $a0, 0x20"%string, [76021792]);
   ("tgeiu $a0, 0x20"%string, [76087328]);
   ("tgeu $a0, $a1"%string, [8716337]);
   ("tlbp"%string, [1107296264]);
   ("tlbr"%string, [1107296257]);
   ("tlbwi"%string, [1107296258]);
   ("tlbwr"%string, [1107296262]);
   ("tlt $a0, $a1"%string, [8716338]);
   ("tlti $a0, 0x20"%string, [76152864]);
   ("tltiu $a0, 0x20"%string, [76218400]);
   ("tltu $a0, $a1"%string, [8716339]);
   ("tne $a0, $a1"%string, [8716342]);
   ("tnei $a0, 0x20"%string, [76415008]);
   ("xor $a0, $a1, $a2"%string, [10887206]);
   ("xori $a0, $a1, 0x8"%string, [950272008]);
   ("abs.s $fa0, $fa1"%string, [1174434565]);
   ("abs.d $fa0, $fa1"%string, [1176531717]);
   ("add.s $fa0, $fa1, $ft0"%string, [1174696704]);
   ("add.d $fa0, $fa1, $ft0"%string, [1176793856]);
   ("c.eq.s $fa1, $ft0"%string, [1174695986]);
   ("c.eq.d $fa1, $ft0"%string, [1176793138]);
   ("c.f.s $fa1, $ft0"%string, [1174695984]);
   ("c.f.d $fa1, $ft0"%string, [1176793136]);
   ("c.le.s $fa1, $ft0"%string, [1174695998]);
   ("c.le.d $fa1, $ft0"%string, [1176793150]);
   ("c.lt.s $fa1, $ft0"%string, [1174695996]);
   ("c.lt.d $fa1, $ft0"%string, [1176793148]);
   ("c.nge.s $fa1, $ft0"%string, [1174695997]);
   ("c.nge.d $fa1, $ft0"%string, [1176793149]);
   ("c.ngl.s $fa1, $ft0"%string, [1174695995]);
   ("c.ngl.d $fa1, $ft0"%string, [1176793147]);
   ("c.ngle.s $fa1, $ft0"%string, [1174695993]);
   ("c.ngle.d $fa1, $ft0"%string, [1176793145]);
   ("c.ngt.s $fa1, $ft0"%string, [1174695999]);
   ("c.ngt.d $fa1, $ft0"%string, [1176793151]);
   ("c.ole.s $fa1, $ft0"%string, [1174695990]);
   ("c.ole.d $fa1, $ft0"%string, [1176793142]);
   ("c.olt.s $fa1, $ft0"%string, [1174695988]);
   ("c.olt.d $fa1, $ft0"%string, [1176793140]);
   ("c.seq.s $fa1, $ft0"%string, [1174695994]);
   ("c.seq.d $fa1, $ft0"%string, [1176793146]);
   ("c.sf.s $fa1, $ft0"%string, [1174695992]);
   ("c.sf.d $fa1, $ft0"%string, [1176793144]);
   ("c.ueq.s $fa1, $ft0"%string, [1174695987]);
   ("c.ueq.d $fa1, $ft0"%string, [1176793139]);
   ("c.ule.s $fa1, $ft0"%string, [1174695991]);
   ("c.ule.d $fa1, $ft0"%string, [1176793143]);
   ("c.ult.s $fa1, $ft0"%string, [1174695989]);
   ("c.ult.d $fa1, $ft0"%string, [1176793141]);
   ("c.un.s $fa1, $ft0"%string, [1174695985]);
   ("c.un.d $fa1, $ft0"%string, [1176793137]);
   ("ceil.l.s $fa0, $fa1"%string, [1174434570]);
   ("ceil.l.d $fa0, $fa1"%string, [1176531722]);
   ("ceil.w.s $fa0, $fa1"%string, [1174434574]);
   ("ceil.w.d $fa0, $fa1"%string, [1176531726]);
   ("cvt.d.l $fa0, $fa1"%string, [1184920353]);
   ("cvt.d.s $fa0, $fa1"%string, [1174434593]);
   ("cvt.d.w $fa0, $fa1"%string, [1182823201]);
   ("cvt.l.d $fa0, $fa1"%string, [1176531749]);
   ("cvt.l.s $fa0, $fa1"%string, [1174434597]);
   ("cvt.s.d $fa0, $fa1"%string, [1176531744]);
   ("cvt.s.l $fa0, $fa1"%string, [1184920352]);
   ("cvt.s.w $fa0, $fa1"%string, [1182823200]);
   ("cvt.w.d $fa0, $fa1"%string, [1176531748]);
   ("cvt.w.s $fa0, $fa1"%string, [1174434596]);
   ("div.s $fa0, $fa1, $ft0"%string, [1174696707]);
   ("div.d $fa0, $fa1, $ft0"%string, [1176793859]);
   ("floor.l.s $fa0, $fa1"%string, [1174434571]);
   ("floor.l.d $fa0, $fa1"%string, [1176531723]);
   ("floor.w.s $fa0, $fa1"%string, [1174434575]);
   ("floor.w.d $fa0, $fa1"%string, [1176531727]);
   ("mul.s $fa0, $fa1, $ft0"%string, [1174696706]);
   ("mul.d $fa0, $fa1, $ft0"%string, [1176793858]);
   ("mov.s $fa0, $fa1"%string, [1174434566]);
   ("mov.d $fa0, $fa1"%string, [1176531718]);
   ("neg.s $fa0, $fa1"%string, [1174434567]);
   ("neg.d $fa0, $fa1"%string, [1176531719]);
   ("round.l.s $fa0, $fa1"%string, [1174434568]);
   ("round.l.d $fa0, $fa1"%string, [1176531720]);
   ("round.w.s $fa0, $fa1"%string, [1174434572]);
   ("round.w.d $fa0, $fa1"%string, [1176531724]);
   ("sqrt.s $fa0, $fa1"%string, [1174434564]);
   ("sqrt.d $fa0, $fa1"%string, [1176531716]);
   ("sub.s $fa0, $fa1, $ft0"%string, [1174696705]);
   ("sub.d $fa0, $fa1, $ft0"%string, [1176793857]);
   ("trunc.l.s $fa0, $fa1"%string, [1174434569]);
   ("trunc.l.d $fa0, $fa1"%string, [1176531721]);
   ("trunc.w.s $fa0, $fa1"%string, [1174434573]);
   ("trunc.w.d $fa0, $fa1"%string, [1176531725])].

Example model_passes_asm_tests : forallb asm_ok asm_tests = true.
Proof. vm_compute. reflexivity. Qed.
Example model_passes_disasm_tests : forallb disasm_ok disasm_tests = true.
Proof. vm_compute. reflexivity. Qed.
