#!/usr/bin/env python3
"""Transcribes the match arms of /repo/src/disassembler.rs into Gallina (Disassembler.v)."""
import re
src=open('/repo/src/disassembler.rs').read().split('\n')
out=[]
w=out.append
w('''(** * Disassembler: src/disassembler.rs, match arms transcribed by tools/gen_dis.py. *)

From Verif Require Import Ast.

(** src/disassembler.rs:3-41  the [inst!] macro.  [Register::try_from(x).unwrap()] is
    [reg_of_num x]: every argument is a 5-bit field or a constant, for which [try_from]
    succeeds (lemma [reg_try_from_field] below). *)
Definition mk_imm (op : iop) (rs rt imm word : Z) : inst :=
  IImm op (reg_of_num rs) (reg_of_num rt) (Short (wrap 16 imm)) [word].
Definition mk_jump (op : jop) (target word : Z) : inst :=
  IJump op (TAddress target) [word].
Definition mk_reg (op : rop) (rs rt rd sa word : Z) : inst :=
  IReg op (reg_of_num rs) (reg_of_num rt) (reg_of_num rd) sa [word].

(** src/disassembler.rs:58-270  the match on the fields *)
Definition disasm_fields (op rs rt rd sa code funct imm target w : Z) : inst :=''')
def conv(s):
    m=re.match(r'inst!\((\w+), (.*)\)$',s)
    k=m.group(1); a=[x.strip() for x in m.group(2).split(',')]
    if k=='Bytes': return 'IBytes w'
    if k=='Imm': return 'mk_imm I_%s %s %s %s w'%tuple(a[:4])
    if k=='Jump': return 'mk_jump J_%s %s w'%tuple(a[:2])
    if len(a)==5: return 'mk_reg R_%s %s %s %s 0 w'%tuple(a[:4])
    assert len(a)==6
    sa=a[4]
    if sa=='funct & 0xF': sa='(Z.land funct 15)'
    return 'mk_reg R_%s %s %s %s %s w'%(a[0],a[1],a[2],a[3],sa)
start=[i for i,l in enumerate(src) if 'let i = match op' in l][0]
ind=2
stack=[]
for n in range(start,len(src)):
    l=src[n].strip().rstrip(',')
    if l.startswith('let i = match op'):
        w('  match op with'); stack.append('op'); continue
    if l in ('}','};'):
        stack.pop()
        w('  '*(len(stack)+1)+('end' if stack else 'end.'))
        if not stack: break
        continue
    m=re.match(r'(.+?) => match (.+) \{$',l)
    ind='  '*(len(stack)+0)+'  '
    def pat(p):
        if re.match(r'48\.\.=63',p): return '|'.join(str(i) for i in range(48,64)).replace('|',' | ')
        if p.startswith('('):
            a,b=[x.strip() for x in p[1:-1].split(',')]
            return '%s, %s'%(a,b)
        return p
    if m:
        p=pat(m.group(1))
        if stack[-1]=='pair' and p=='_': p='_, _'
        scr=m.group(2)
        if scr.startswith('('): scr=scr[1:-1]; k='pair'
        else: k='one'
        w('  '*len(stack)+'| %s => match %s with (* %d *)'%(p,scr,n+1)); stack.append(k); continue
    m=re.match(r'(.+?) => (inst!\(.*\))$',l)
    assert m,(n,l)
    p=pat(m.group(1))
    if stack[-1]=='pair' and p=='_': p='_, _'
    w('  '*len(stack)+'| %s => %s (* %d *)'%(p,conv(m.group(2)),n+1))
w('''
(** src/disassembler.rs:47-270  one iteration of the loop: the fields, then the match *)
Definition disasm_word (base_addr w : Z) : inst :=
  disasm_fields
    (shr w 26)
    (Z.land (shr w 21) 31)
    (Z.land (shr w 16) 31)
    (Z.land (shr w 11) 31)
    (Z.land (shr w 6) 31)
    (Z.land (shr w 6) 1048575)
    (Z.land w 63)
    (Z.land w 65535)
    (Z.lor (shl (Z.land w 67108863) 2) (Z.land base_addr 4026531840))
    w.

(** src/disassembler.rs:43-275  [disassemble] *)
Definition disassemble_insts (words : list Z) (base_addr : Z) : list inst :=
  map (disasm_word base_addr) words.

Lemma reg_try_from_field (k w : Z) :
  reg_try_from (Z.land (shr w k) 31) = Ok (reg_of_num (Z.land (shr w k) 31)).
Proof.
  assert (H : Z.land (shr w k) 31 = (shr w k) mod 32).
  { change 31 with (Z.ones 5). rewrite Z.land_ones by discriminate. reflexivity. }
  rewrite H. assert (B := Z.mod_pos_bound (shr w k) 32 eq_refl).
  generalize dependent (shr w k mod 32); intros x _ B.
  assert (In x (map Z.of_nat (seq 0 32))) as I.
  { apply in_map_iff. exists (Z.to_nat x). rewrite in_seq. split; [apply Z2Nat.id; tauto|].
    split; [apply Nat.le_0_l|]. change (0 + 32)%nat with (Z.to_nat 32).
    apply Z2Nat.inj_lt; tauto || discriminate. }
  revert x I B. change (forall x, In x (map Z.of_nat (seq 0 32)) -> 0 <= x < 32 ->
    reg_try_from x = Ok (reg_of_num x)).
  intros x I _. cbn in I. repeat (destruct I as [<-|I]; [reflexivity|]). destruct I.
Qed.''')
open('/verif/rocq/theories/Disassembler.v','w').write('\n'.join(out)+'\n')
