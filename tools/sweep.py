#!/usr/bin/env python3
"""Automatic seeded bugs: sweep.py OUT SEED PER_DEF [names...].
For each definition of the model, PER_DEF random small edits that still type-check; rebuilds what depends on the
edited file until the first failure.  Prints survivors; appends every attempt to OUT (JSON lines)."""
import json, os, re, random, shutil, subprocess, sys, glob
BASE="/tmp/sweep/base/rocq"; W="/tmp/sweep/w"
out,seed,per=sys.argv[1],int(sys.argv[2]),int(sys.argv[3]); only=sys.argv[4:]
R=random.Random(seed)
if not os.path.exists(BASE+"/theories/Base.vo"):
    subprocess.run("rm -rf /tmp/sweep/base && mkdir -p /tmp/sweep/base && cd /verif && git archive HEAD | tar x -C /tmp/sweep/base && cd /tmp/sweep/base/rocq && coq_makefile -f _CoqProject -o Makefile >/dev/null && make -j3 >/dev/null 2>&1",shell=True,check=True)
OPS=[(r'<\?','<=?'),(r'<=\?','<?'),(r'(?<![<=])=\?','<=?'),(r'&&','||'),(r'\|\|','&&'),(r' \+ 1\b',''),(r' - 1\b',''),(r'\bseq 0\b','seq 1'),
 (r'\bfirstn\b','skipn'),(r'\bskipn\b','firstn'),(r'\btrue\b','false'),(r'\bfalse\b','true'),(r'\bNat\.min\b','Nat.max'),(r'\bNat\.max\b','Nat.min'),
 (r'\brev ',''),(r'\bfst\b','snd'),(r'\bsnd\b','fst'),(r'\bFail Panicked\b','Fail IoError'),(r'\bFail IoError\b','Fail Panicked'),(r'\bnegb ',''),
 (r'\bOk \[\]','Fail Panicked'),(r' \+ ',' - '),(r' - ',' + '),(r' \* ',' + '),(r'\bnth_error\b','nth_error'),
 (r'\bDatatypes\.S (\w+)\b',r'\1'),(r'\bS (\w+)\b',r'\1'),(r'(?<=[ (])0(?=[ )\]%;])','1'),(r'(?<=[ (])1(?=[ )\]%;])','2'),(r'\b(\d{2,})\b',lambda m:str(int(m.group(1))+1)),
 (r'(\w+) \+\+ (\w+)',r'\2 ++ \1'),(r'(\w+) \+\+ \[(\w+)\]',r'[\2] ++ \1'),(r'\bmode_DN\b','mode_NE'),(r'\bmode_UP\b','mode_NE'),(r'\bmode_NE\b','mode_ZR'),
 (r'\blet\* _ := (?:oassert|debug_assert m) [^\n]* in\n','')]
def defs(path):
    s=open(path).read()
    for m in re.finditer(r'^[ \t]*(?:Definition|Fixpoint)\s+([A-Za-z_0-9\']+)',s,re.M):
        e=re.compile(r'\.(?=\s|$)').search(s,m.end())
        # skip '.' inside qualified names is excluded by the lookahead
        yield m.group(1),m.start(),(e.end() if e else len(s)),s
def cands(s,a,b):
    d=s[a:b]; k=d.find(':=')
    if k<0: return []
    c=[]
    for pat,rep in OPS:
        for m in re.finditer(pat,d[k:]):
            new=m.expand(rep) if isinstance(rep,str) and '\\' in rep else (rep(m) if callable(rep) else rep)
            if new==m.group(0): continue
            x=a+k+m.start(); y=a+k+m.end()
            pre=s[max(a,x-25):x]; 
            if s.rfind('(*',0,x)>s.rfind('*)',0,x): continue
            c.append((x,y,new))
    return c
def deps():
    o=subprocess.run("coqdep -Q theories Verif theories/*.v 2>/dev/null",shell=True,cwd=BASE,capture_output=True,text=True).stdout
    d={}
    for l in o.splitlines():
        m=re.match(r"theories/(\w+)\.vo\b.*?: (.*)",l)
        if m: d[m.group(1)]=set(re.findall(r"theories/(\w+)\.vo\b",m.group(2)))
    return d
D=deps()
T={f:re.findall(r"^Theorem\s+(\w+)",open(f"{BASE}/theories/{f}.v").read(),re.M) for f in D if f.startswith("T")}
def enclosing(path,line):
    nm=None
    for i,l in enumerate(open(path),1):
        if i>line: break
        m=re.match(r"\s*(?:Lemma|Theorem|Example|Definition|Fixpoint|Corollary)\s+(\w+)",l)
        if m: nm=m.group(1)
    return nm
work=[]
for f in sorted(glob.glob(BASE+"/theories/M*.v"))+[BASE+"/theories/Bytes.v",BASE+"/theories/Base.v"]:
    for nm,a,b,s in defs(f):
        if only and nm not in only: continue
        c=cands(s,a,b); R.shuffle(c); work.append((f,nm,a,b,s,c))
R.shuffle(work)
print(len(work),"definitions",sum(1 for w in work if w[5]),"with candidates",flush=True)
for f,nm,a,b,s,c in work:
    done=0
    for x,y,new in c[:6]:
        if done>=per: break
        mod=os.path.basename(f)[:-2]
        shutil.rmtree(W,ignore_errors=True); subprocess.run(['cp','-a',BASE,W],check=True)
        open(f"{W}/theories/{mod}.v","w").write(s[:x]+new+s[y:])
        r=subprocess.run(["timeout","300","coqc","-q","-Q","theories","Verif",f"theories/{mod}.v"],cwd=W,capture_output=True,text=True)
        if r.returncode: continue
        done+=1
        l0=s.rfind('\n',0,x)+1; l1=s.find('\n',y); l1=len(s) if l1<0 else l1
        r=subprocess.run("timeout 1800 make -j3 2>&1",shell=True,cwd=W,capture_output=True,text=True).stdout
        m=re.search(r'File "\./theories/(\w+)\.v", line (\d+)[^\n]*\n(?!Warning)',r)
        rec=dict(definition=nm,file=mod,edit=f"{s[l0:l1].strip()}  ==>  {(s[l0:x]+new+s[y:l1]).strip()}")
        if m:
            rec["first_failure"]=f"{m.group(1)}.{enclosing(f'{W}/theories/{m.group(1)}.v',int(m.group(2)))}"
            bad={m.group(1)}
            while True:
                n={k for k,v in D.items() if v&bad}-bad
                if not n: break
                bad|=n
            rec["theorems"]=[t for k in sorted(bad) if k in T for t in T[k]]
        elif "Error" in r or "***" in r: rec["first_failure"]="?"+r[-300:]
        else: rec["survived"]=True; print("SURVIVED",mod,nm,rec["edit"],flush=True)
        open(out,"a").write(json.dumps(rec)+"\n")
