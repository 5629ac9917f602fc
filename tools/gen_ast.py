#!/usr/bin/env python3
"""Transcribes the enums and string tables of /repo/src/ast.rs into Gallina (AstTables.v)."""
import re
src=open('/repo/src/ast.rs').read().split('\n')
def enum(name):
    i=next(k for k,l in enumerate(src) if l.startswith('pub enum %s {'%name))
    j=i+1; res=[]; ts=None
    while src[j]!='}':
        l=src[j].strip()
        m=re.match(r'#\[strum\(to_string = "(.*)"\)\]',l)
        if m: ts=m.group(1)
        else:
            m=re.match(r'(\w+)(?: = (\d+))?,',l)
            if m:
                res.append((m.group(1),ts,m.group(2))); ts=None
        j+=1
    return res,i+1,j+1
def fn_lines(marker):
    i=next(k for k,l in enumerate(src) if l.startswith(marker))
    j=i
    while src[j]!='}': j+=1
    return src[i:j+1],i+1,j+1
out=[]
w=out.append
w('''(** * AstTables: enums and name tables of src/ast.rs, transcribed by tools/gen_ast.py. *)

From Verif Require Import Str.
''')
def emit_enum(name,coq,pref,namefn,cite_extra=''):
    es,a,b=enum(name)
    w('(** src/ast.rs:%d-%d  [enum %s] *)'%(a,b,name))
    w('Inductive %s :=\n%s.'%(coq,'\n'.join('| %s%s'%(pref,e[0]) for e in es)))
    w('')
    w('(** Every value, in declaration order. *)')
    w('Definition all_%s : list %s :=\n  [%s].'%(coq,coq,'; '.join(pref+e[0] for e in es)))
    w('')
    w('(** src/ast.rs:%d-%d  strum [Display] text%s *)'%(a,b,cite_extra))
    w('Definition %s_name (o : %s) : str :=\n  match o with\n%s\n  end.'%(coq,coq,'\n'.join('  | %s%s => #"%s"'%(pref,e[0],namefn(e)) for e in es)))
    w('')
    return es
snake=lambda e: e[1] if e[1] else e[0].lower()
def nums(es):
    n=0; r=[]
    for e in es:
        if e[2]: n=int(e[2])
        r.append((e[0],n)); n+=1
    return r
def emit_num(coq,pref,es,cite):
    w('(** %s  the discriminant ([as u32]) *)'%cite)
    w('Definition %s_num (r : %s) : Z :=\n  match r with\n%s\n  end.'%(coq,coq,'\n'.join('  | %s%s => %d'%(pref,a,n) for a,n in nums(es))))
    w('')
def emit_tryfrom(rust,coq,pref):
    ls,a,b=fn_lines('impl TryFrom<u32> for %s '%rust)
    w('(** src/ast.rs:%d-%d  [TryFrom<u32> for %s]; the error carries the decimal text *)'%(a,b,rust))
    w('Definition %s_try_from (n : Z) : outcome str %s :=\n  match n with'%(coq,coq))
    for l in ls:
        m=re.match(r'\s+(\d+) => Ok\(%s::(\w+)\),'%rust,l)
        if m: w('  | %s => Ok %s%s'%(m.group(1),pref,m.group(2)))
    w('  | e => Err (dec e)\n  end.\n')
def emit_strtable(rust,coq,pref):
    ls,a,b=fn_lines('impl FromStr for %s '%rust)
    w('(** src/ast.rs:%d-%d  the string arms of [FromStr for %s] *)'%(a,b,rust))
    rows=[]
    for l in ls:
        m=re.match(r'\s+((?:"\w+"(?: \| )?)+) => Ok\(%s::(\w+)\),'%rust,l)
        if m:
            for s in re.findall(r'"(\w+)"',m.group(1)): rows.append((s,m.group(2)))
    w('Definition %s_table : list (str * %s) :=\n  [%s].\n'%(coq,coq,';\n   '.join('(#"%s", %s%s)'%(s,pref,v) for s,v in rows)))
r=emit_enum('Register','reg','',lambda e:e[0].lower())
emit_num('reg','',r,'src/ast.rs:638-671,678-680')
emit_tryfrom('Register','reg','')
emit_strtable('Register','reg','')
f=emit_enum('FloatRegister','freg','',lambda e:e[0].lower())
emit_num('freg','',f,'src/ast.rs:793-826')
emit_tryfrom('FloatRegister','freg','')
emit_strtable('FloatRegister','freg','')
pas={'LLAddr':'LlAddr','ErrorEPC':'ErrorEpc'}
c=emit_enum('Cop0Register','c0reg','C0_',lambda e:pas.get(e[0],e[0]),' (PascalCase as rendered by heck: LLAddr prints LlAddr, ErrorEPC prints ErrorEpc)')
emit_num('c0reg','C0_',c,'src/ast.rs:931-957')
emit_tryfrom('Cop0Register','c0reg','C0_')
emit_strtable('Cop0Register','c0reg','C0_')
emit_enum('ITypeOp','iop','I_',snake)
emit_enum('JTypeOp','jop','J_',snake)
emit_enum('RTypeOp','rop','R_',snake)
fc=emit_enum('FloatCond','fcond','FC_',snake)
emit_tryfrom('FloatCond','fcond','FC_')
open('/verif/rocq/theories/AstTables.v','w').write('\n'.join(out))
