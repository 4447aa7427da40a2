#!/usr/bin/env python3
"""Mutation testing of the theorems: mut.py FILE.json
FILE.json: list of {"file","def","old","new","claim","edit"(optional)}.  Each edit is applied to a scratch
copy of rocq/ (outside /verif), which is rebuilt; failures are mapped to theorem names and appended to
seeded/LOG.jsonl.  A survivor (nothing fails) is reported and logged with theorems_failed = []."""
import json,sys,os,re,subprocess,shutil,glob
root=os.path.dirname(os.path.dirname(os.path.abspath(__file__)))
base="/tmp/mut/base"; work="/tmp/mut/work"
subprocess.run(["rsync","-a","--delete",root+"/rocq/",base+"/"],check=True) if shutil.which("rsync") else (shutil.rmtree(base,ignore_errors=True),shutil.copytree(root+"/rocq",base,copy_function=shutil.copy2))
def build(d):
    return subprocess.run("coq_makefile -f _CoqProject -o Makefile >/dev/null && make -k -j4 2>&1",shell=True,cwd=d,capture_output=True,text=True).stdout
out=build(base)
assert "Error" not in out,out[-3000:]
# property theorems of each Props file
def encl(path,line):
    name="?"
    for i,l in enumerate(open(path).read().split("\n"),1):
        m=re.match(r"\s*(Theorem|Lemma|Example|Definition|Fixpoint|Corollary) (\w+)",l)
        if m: 
            if i>line: break
            name=m.group(2)
    return name
def uses(path):
    return open(path).read()
# which Props theorems mention / depend on a lemma: textual transitive closure over Proofs
decl={}
def load():
    for f in glob.glob(base+"/theories/P*/*.v"):
        s=open(f).read()
        parts=re.split(r"(?m)^(?:Theorem|Lemma|Example|Corollary|Definition|Fixpoint|Inductive) (\w+)",s)
        for n,b in zip(parts[1::2],parts[2::2]): decl.setdefault(n,set()).update(re.findall(r"\w+",b))
load()
def closure(names):
    seen=set(names); ch=True
    while ch:
        ch=False
        for n,b in decl.items():
            if n not in seen and b&seen: seen.add(n); ch=True
    return sorted(n for n in seen if re.match(r"C\d+_",n) and not n.endswith("nonvacuous"))
for m in json.load(open(sys.argv[1])):
    shutil.rmtree(work,ignore_errors=True); shutil.copytree(base,work,copy_function=shutil.copy2)
    p=work+"/theories/"+m["file"]; s=open(p).read()
    if s.count(m["old"])<1: print("NOT FOUND",m["def"],m["old"]); continue
    if m.get("after"):
        i=s.index(m["after"]); j=s.index(m["old"],i); s=s[:j]+m["new"]+s[j+len(m["old"]):]
    else:
        if s.count(m["old"])>1: print("AMBIGUOUS",m["def"],m["old"]); continue
        s=s.replace(m["old"],m["new"])
    open(p,"w").write(s)
    out=build(work)
    errs=[]
    for f,l in re.findall(r'File "\./?(?:theories/)?([\w/]+\.v)", line (\d+), characters [\d-]+:\nError',out):
        errs.append((f,encl(work+"/theories/"+f,int(l))))
    if any(f.startswith("Model") or f.startswith("Base") for f,_ in errs): print("DOES NOT COMPILE",m["def"],m["new"],out[-600:]); continue
    first=[n for _,n in errs]; failed=closure(first)
    rec={"definition":m["file"]+":"+m["def"],"edit":m.get("edit") or (m["old"]+"  ==>  "+m["new"]),"claim_broken":m["claim"],
         "first_failures":first,"theorems_failed":failed,"theorems_tightened":m.get("tightened",[])}
    open(root+"/seeded/LOG.jsonl","a").write(json.dumps(rec)+"\n")
    print(("KILLED  " if failed else "SURVIVED"),m["def"],"|",m["new"][:60].replace("\n"," "),"|",first,"|",len(failed),flush=True)
