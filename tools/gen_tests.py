#!/usr/bin/env python3
"""Turns the assertions of /repo/tests into Coq examples about the model (ModelTests.v)."""
import re
out=[]
def q(s): return s.replace('"','""')
pairs=[]   # (text, words, roundtrip)
for f in ('cpu_inst_tests.rs','fpu_inst_tests.rs'):
    s=open('/repo/tests/'+f).read()
    for m in re.finditer(r'^(test|lbl_test)!\((\w+),\s*"([^"]*)",\s*(0x[0-9a-fA-F]+)\);',s,re.M|re.S):
        pairs.append((m.group(3),[int(m.group(4),16)],m.group(1)=='test'))
    for m in re.finditer(r'let inst = asm\("([^"]*)"\);\s*assert_eq!\(\s*inst,\s*vec!\[([^\]]*)\]',s):
        pairs.append((m.group(1),[int(x,16) for x in re.findall(r'0x[0-9a-fA-F]+',m.group(2))],False))
print(len(pairs))
o=open('/verif/rocq/theories/ModelTests.v','w')
o.write('''(** * ModelTests: the assertions of /repo/tests evaluated on the model (tests of the model's
    fidelity, not proofs; generated by tools/gen_tests.py). *)

From Verif Require Import Lib.

Definition test_rt := mk_runtime true (fun l => l).
Definition test_m := set_base 2147483648 m_new.
(** A line feed is written as a vertical bar in the test texts below. *)
Definition test_text (s : string) : str :=
  map (fun c => if Ascii.eqb c "|" then nl else c) (lit s).
Definition asm_ok (t : string * list Z) : bool :=
  match assemble test_rt test_m (test_text (fst t)) with
  | Ok l => if list_eq_dec Z.eq_dec (get_bytes l) (snd t) then true else false
  | _ => false
  end.
Definition disasm_ok (t : string * list Z) : bool :=
  match disassemble true (set_debug test_m) (snd t) with
  | Ok [l] => str_eqb l (test_text (fst t))
  | _ => false
  end.

Definition asm_tests : list (string * list Z) :=
  [''')
rows=[]
for t,w,_ in pairs:
    t=t.replace('\\n','|')
    rows.append('("%s"%%string, [%s])'%(q(t),'; '.join(map(str,w))))
o.write(';\n   '.join(rows)+'].\n\nDefinition disasm_tests : list (string * list Z) :=\n  [')
rows=[]
for t,w,r in pairs:
    if r: rows.append('("%s"%%string, [%s])'%(q(t),'; '.join(map(str,w))))
o.write(';\n   '.join(rows)+'].\n\n')
o.write('Example model_passes_asm_tests : forallb asm_ok asm_tests = true.\nProof. vm_compute. reflexivity. Qed.\n')
o.write('Example model_passes_disasm_tests : forallb disasm_ok disasm_tests = true.\nProof. vm_compute. reflexivity. Qed.\n')
