#!/usr/bin/env python3
"""Automatic mutation campaign: automut.py [--per N] [--jobs J] [--seed S] [files...]
For every Definition/Fixpoint of Model/*.v that seeded/LOG.jsonl does not mention yet, applies up to N
simple edits (wrong boundary, swapped branch, dropped update, ...), one at a time, to a scratch copy outside
/verif, and builds it until the first failure.  Results go to /tmp/mut2/auto.jsonl for a human to look at:
survivors are either equivalent edits or theorems to tighten; they are logged in seeded/LOG.jsonl after that."""
import json,sys,os,re,subprocess,shutil,glob,random,argparse
ap=argparse.ArgumentParser(); ap.add_argument("--per",type=int,default=1); ap.add_argument("--jobs",default="3")
ap.add_argument("--seed",type=int,default=1); ap.add_argument("--all",action="store_true"); ap.add_argument("files",nargs="*"); a=ap.parse_args()
root=os.path.dirname(os.path.dirname(os.path.abspath(__file__)))
os.makedirs("/tmp/mut2",exist_ok=True)
base="/tmp/mut2/base"; work="/tmp/mut2/work"; outf="/tmp/mut2/auto.jsonl"
if not os.path.exists(base): shutil.copytree(root+"/rocq",base,copy_function=shutil.copy2)
OPS=[(r"Nat\.ltb","Nat.leb"),(r"Nat\.leb","Nat.ltb"),(r"\bqltb\b","qleb"),(r"\bqleb\b","qltb"),(r"Z\.ltb","Z.leb"),(r"Z\.leb","Z.ltb"),
 (r"Nat\.eqb","Nat.leb"),(r"Z\.eqb","Z.leb"),(r" \+ "," - "),(r" - "," + "),(r" \* "," + "),(r"if negb \(","if ("),(r"\btrue\b","false"),(r"\bfalse\b","true"),
 (r"&&","||"),(r"\|\|","&&"),(r"\bfst\b","snd"),(r"\bsnd\b","fst"),(r"\bfirstn\b","skipn"),(r"\bskipn\b","firstn"),(r"seq 0","seq 1"),(r"\bS \(","("),
 (r"Throw (?!ValueError)\w+","Throw ValueError"),(r"Throw ValueError","Throw LogicError"),(r"Ok tt","Throw LogicError"),(r"\bUB\b","Diverge"),(r"NonFinite","UB"),
 (r"NDirect","NIndirect"),(r"NIndirect","NDirect"),(r"NFalse","NDirect"),(r"\bSome\b","(fun _ => None)"),(r"\bNone\b","Some"),
 (r"(?<![\w.])0(?![\w.%])","1"),(r"(?<![\w.])1(?![\w.%])","0"),(r"(?<![\w.])2(?![\w.%])","3"),(r"0%nat","1%nat"),(r"1%nat","0%nat"),(r"0%Z","1%Z"),(r"1%Z","2%Z"),(r"0%R","1%R"),
 (r"(\w+) \+\+ (\[[^\]]*\])",r"\2 ++ \1"),(r"\(\w+ \w+\) \+\+ (\[[^\]]*\])",r"\1"),(r"\b(\w+) \+\+ ",r""),(r"Qcmin","Qcmax"),(r"Qcmax","Qcmin"),(r"Rle_dec","Rlt_dec"),(r"Rlt_dec","Rle_dec"),
 (r"fold_left","(fun f l a => fold_right (fun x y => f y x) a l)"),(r"\bupd (\S+|\([^()]*\)) (\S+|\([^()]*\)) (\S+|\([^()]*\))",r"(\1)"),
 (r"\bsset (\S+|\([^()]*\)) (\S+|\([^()]*\)) (\S+|\([^()]*\))",r"(\3)"),(r"negb \(","("),(r"\[\]","[] ++ []"),(r"inb","(fun _ _ => false)"),(r"\brev\b",""),
 (r"(\w+) :: (\w+)",r"\2"),(r'""','"x"'),(r'"_"','"-"')]
logged=set(json.loads(l)["definition"] for l in open(root+"/seeded/LOG.jsonl"))
done=set()
if os.path.exists(outf):
    for l in open(outf): o=json.loads(l); done.add((o["file"],o["def"],o["new"]))
def mk(t=None): return subprocess.run("timeout 1200 make -j%s 2>&1 || echo MAKE-EXIT $?"%a.jobs,shell=True,cwd=work,capture_output=True,text=True).stdout
def encl(path,line):
    name="?"
    for i,l in enumerate(open(path).read().split("\n"),1):
        m=re.match(r"\s*(Theorem|Lemma|Example|Definition|Fixpoint|Corollary|Instance) (\w+)",l)
        if m:
            if i>line: break
            name=m.group(2)
    return name
rng=random.Random(a.seed)
for f in sorted(glob.glob(base+"/theories/Model/*.v")):
    fn="Model/"+os.path.basename(f)
    if a.files and os.path.basename(f)[:-2] not in a.files: continue
    s=open(f).read()
    clean=re.sub(r"\(\*.*?\*\)",lambda m:" "*len(m.group(0)),s,flags=re.S)
    pos=[(m.start(),m.group(2)) for m in re.finditer(r"(?m)^(Definition|Fixpoint|Record|Inductive|Notation|Local|Section|End|Arguments|Infix) ?(\S*)",clean)]+[(len(s),"")]
    for (i,n),(j,_) in zip(pos,pos[1:]):
        if not re.match(r"(Definition|Fixpoint)",clean[i:]): continue
        if not a.all and any(n in d for d in logged): continue
        body=clean[i:j]; k=body.find(":=")
        if k<0: continue
        cands=[]
        for pat,rep in OPS:
            for m in re.finditer(pat,body[k:]):
                new=m.expand(rep) if "\\" in rep else rep
                nb=body[:k]+body[k:][:m.start()]+new+body[k:][m.end():]
                if nb!=body: cands.append((m.group(0),new,nb))
        rng.shuffle(cands); got=0; seen=set()
        for old,new,nb in cands:
            if got>=a.per: break
            if (old,new) in seen: continue
            seen.add((old,new))
            if (fn,n,nb) in done: got+=1; continue
            shutil.rmtree(work,ignore_errors=True); subprocess.run(["cp","-a",base,work])
            p=work+"/theories/"+fn; open(p,"w").write(s[:i]+nb+s[j:])
            r=subprocess.run(["coqc","-Q","theories","Verif","theories/"+fn],cwd=work,capture_output=True,text=True)
            if r.returncode: continue
            got+=1
            out=mk()
            errs=[(x,encl(work+"/theories/"+x,int(l))) for x,l in re.findall(r'File "\./?(?:theories/)?([\w/]+\.v)", line (\d+), characters [\d-]+:\nError',out)]
            rec={"file":fn,"def":n,"old":old,"repl":new,"new":nb,"errs":errs,"tail":"" if errs else out[-300:]}
            open(outf,"a").write(json.dumps(rec)+"\n")
            print(("KILLED  " if errs else "SURVIVED"),fn,n,"|",old,"=>",new,"|",errs[:2],flush=True)
