#!/usr/bin/env python3
"""Generate Properties_*.v from *Thm.v: every `Lemma Cnn_name_pf : statement.` becomes
`Theorem Cnn_name : statement. Proof. exact Cnn_name_pf. Qed. Print Assumptions Cnn_name.`
Every `Example Cnn_name : statement.` (non-vacuity witness) is restated beside it, and every
`Definition Cnn_claim` (the full statement of a property that is false of the code) is quoted."""
import re,sys
src,dst,title=sys.argv[1:4]
s=open(src).read()
mod=src.split('/')[-1][:-2]
head=re.search(r'(From Coq Require.*?Import ListNotations\.)',s,re.S).group(1)
opens=''.join(l+'\n' for l in re.findall(r'^((?:Local )?Open Scope .*)$',s,re.M))
out=[f"(** {dst.split('/')[-1]}: {title}\n    Generated by tools/gen_props.py from {mod}.v: the property theorems, each followed by\n    instances that meet its hypotheses (examples). *)\n{head}\nFrom Verif Require Import {mod}.\n{opens}"]
n=e=0
COM=r'((?:\(\*\*(?:(?!\*\)).)*\*\)\s*)?)'
items=[]
for m in re.finditer(COM+r'Lemma (C\d+\w*)_pf\s*:(.*?)\.\nProof',s,re.S):
    com,name,st=m.groups(); items.append((m.start(),f"\n{com}Theorem {name} :{st}.\nProof. exact {name}_pf. Qed.\nPrint Assumptions {name}.\n")); n+=1
for m in re.finditer(COM+r'Example (C\d+\w*)\s*:(.*?)\.\nProof',s,re.S):
    com,name,st=m.groups(); items.append((m.start(),f"\n{com}Example {name} :{st}.\nProof. exact {mod}.{name}. Qed.\n")); e+=1
for m in re.finditer(COM+r'Definition (C\d+\w*claim)\s*:(.*?)\.\n(?=Lemma|\n|Theorem|Example|Definition|\(\*)',s,re.S):
    com,name,st=m.groups(); st=st.replace('(*','( *').replace('*)','* )')
    items.append((m.start(),f"\n{com}(* {mod}.v defines\n   {name} :{st}. *)\n"))
for _,t in sorted(items): out.append(t)
open(dst,'w').write(''.join(out))
print(dst,n,'theorems',e,'examples')
