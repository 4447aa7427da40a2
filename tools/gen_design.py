#!/usr/bin/env python3
"""Rewrite sections 4 and 5 of DESIGN.md from MANIFEST.json and Print Assumptions (needs a built rocq/)."""
import json,subprocess,re,os,tempfile
root=os.path.dirname(os.path.dirname(os.path.abspath(__file__)))
m=json.load(open(root+'/MANIFEST.json'))['claims']
title={}
for l in open(root+'/properties.jsonl'):
    p=json.loads(l);title[p['id']]=p['title']
names=[t for c in m for t in c['theorems']]
mods=[l.strip()[len('theories/'):-2].replace('/','.') for l in open(root+'/rocq/_CoqProject') if l.strip().startswith('theories/Props')]
s="From Verif Require Import "+" ".join(mods)+".\n"
for n in names: s+='Goal True. idtac "@@ %s". Abort.\nPrint Assumptions %s.\n'%(n,n)
d=tempfile.mkdtemp();open(d+'/pa.v','w').write(s)
out=subprocess.run(['coqc','-Q','theories','Verif',d+'/pa.v'],capture_output=True,text=True,cwd=root+'/rocq')
assert out.returncode==0,out.stderr
cur=None;ax={}
for l in out.stdout.splitlines():
    if l.startswith('@@ '): cur=l[3:];ax[cur]=[]
    elif l.startswith('Axioms') or 'Closed under' in l or not l or l.startswith(' '): pass
    else: ax[cur].append(l.split(':')[0].strip())
g={}
for k,v in ax.items(): g.setdefault(tuple(sorted(set(v))),[]).append(k)
o="## 4. Status per property\n(generated by tools/gen_design.py from MANIFEST.json)\n\n| Property | Title | Status | Theorems | Note |\n|---|---|---|---|---|\n"
for c in m: o+="| %s | %s | %s | %d | %s |\n"%(c['property'],title[c['property']].replace('|','/'),c['status'],len(c['theorems']),c.get('note','').replace('|','/'))
o+="\n## 5. Print Assumptions\n(generated; every theorem of MANIFEST.json)\n\n"
for k in sorted(g,key=len):
    if not k: o+="* Closed under the global context (no axioms): %d theorems, all those not named below.\n"%len(g[k])
    else: o+="* Standard library axioms %s: %s.\n"%(", ".join("`%s`"%x for x in k),", ".join(g[k]))
o+="\n"
f=root+'/DESIGN.md';t=open(f).read()
i=t.find("## 4. Status per property");j=t.find("## 6.")
if i<0: t=t.rstrip()+"\n\n"+o
else: t=t[:i]+o+(t[j:] if j>=0 else "")
open(f,'w').write(t)
