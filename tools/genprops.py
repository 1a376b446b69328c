#!/usr/bin/env python3
"""Write theories/Prop_X.v from theories/XProofs.v: every lemma p_Cnn_... there is restated as
Theorem Cnn_... closed by `exact`, every example ex_Cnn_... as Example, with the comment in front of it.
The generated files are committed; this script is only a convenience."""
import re,sys,os
th=os.path.join(os.path.dirname(__file__),'..','rocq','theories')
def gen(name):
    src=open(f'{th}/{name}Proofs.v').read()
    m=re.search(r'\(\*\*.*?\*\)\s*',src,re.S)
    imports=re.findall(r'^(?:From .*? Require .*?\.|Open Scope .*?\.|Local Open Scope .*?\.|Set .*?\.)$',src,re.M|re.S)
    imports=[re.sub(r'\s+',' ',i) for i in imports]
    # Verif imports get the proofs file too
    out=[f'(** * Prop_{name}: property theorems (statements only; proofs in {name}Proofs.v) *)']
    for i in imports:
        if i.startswith('From Verif'):
            out.append(i[:-1]+f' {name}Proofs.')
        else: out.append(i)
    out.append('')
    pat=re.compile(r'((?:\(\*\*(?:(?!\*\)).)*\*\)\s*)?)^(Lemma|Example) (p|ex)_(C\d\d\w*)\s*:(.*?)\nProof\.',re.S|re.M)
    n=0
    for mm in pat.finditer(src):
        com,kind,pre,nm,stmt=mm.groups()
        if '(** **' in com:
            com=com  # section header
        out.append((com.strip()+'\n' if com.strip() else '')+f"{'Theorem' if kind=='Lemma' else 'Example'} {nm if pre=='p' else 'ex_'+nm} :{stmt}\nProof. exact {pre}_{nm}. Qed.")
        if pre=='p': out.append(f'Print Assumptions {nm}.'); n+=1
        out.append('')
    open(f'{th}/Prop_{name}.v','w').write('\n'.join(out))
    print(name,n,'theorems')
for a in sys.argv[1:]: gen(a)
