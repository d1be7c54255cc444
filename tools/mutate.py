#!/usr/bin/env python3
"""Seeded-bug runner: mutate.py MUTATIONS.json
Each mutation: {definition, file, old, new, edit, claim, tightened?}.  Works in a scratch copy
(/tmp/mut/w), rebuilds what depends on the edited file and appends to seeded/LOG.jsonl."""
import json, os, re, shutil, subprocess, sys
SRC="/tmp/mut/base/rocq"; W=os.environ.get("MUTDIR","/tmp/mut/w"); LOG="/verif/seeded/LOG.jsonl"
def enclosing(path, line):
    name=None
    for i,l in enumerate(open(path),1):
        if i>line: break
        m=re.match(r"\s*(?:Lemma|Theorem|Example|Definition|Fixpoint|Corollary)\s+(\w+)", l)
        if m: name=m.group(1)
    return name
def deps():
    out=subprocess.run("coqdep -Q theories Verif theories/*.v 2>/dev/null",shell=True,cwd=SRC,capture_output=True,text=True).stdout
    d={}
    for l in out.splitlines():
        m=re.match(r"theories/(\w+)\.vo\b.*?: (.*)",l)
        if m: d[m.group(1)]=set(re.findall(r"theories/(\w+)\.vo\b",m.group(2)))
    return d
# frozen, compiled copy of the last commit
subprocess.run("rm -rf /tmp/mut/base && mkdir -p /tmp/mut/base && cd /verif && git archive HEAD | tar x -C /tmp/mut/base && cd /tmp/mut/base/rocq && coq_makefile -f _CoqProject -o Makefile >/dev/null && make -j3 >/dev/null 2>&1",shell=True,check=True)
muts=json.load(open(sys.argv[1]))
for mu in muts:
    shutil.rmtree(W,ignore_errors=True); subprocess.run(['cp','-a',SRC,W],check=True)
    p=f"{W}/theories/{mu['file']}"; s=open(p).read()
    assert s.count(mu["old"])==mu.get("count",1),(mu["definition"],s.count(mu["old"]))
    open(p,"w").write(s.replace(mu["old"],mu["new"]))
    r=subprocess.run("coq_makefile -f _CoqProject -o Makefile >/dev/null; timeout 1500 make -k -j3 COQEXTRAFLAGS='' 2>&1",shell=True,cwd=W,capture_output=True,text=True).stdout
    fails=[]
    for m in re.finditer(r'File "\./theories/(\w+)\.v", line (\d+)',r):
        nm=enclosing(f"{W}/theories/{m.group(1)}.v",int(m.group(2)))
        e=f"{m.group(1)}.{nm}"
        if e not in fails and "Warning" not in r[m.end():m.end()+60]: fails.append(e)
    ff={f.split(".")[0] for f in fails}
    d=deps(); bad=set(ff)
    while True:
        n={k for k,v in d.items() if v&bad}-bad
        if not n: break
        bad|=n
    tf=[]
    if mu.get("prop"):
        for T in sorted(x for x in bad if x.startswith("T")):
            tf+=[t for t in re.findall(r"^\s*Theorem\s+(\w+)",open(f"{SRC}/theories/{T}.v").read(),re.M) if t[:3] in mu["prop"]]
    rec=dict(definition=mu["definition"],edit=mu.get("edit") or f"{mu['old'].strip()}  ==>  {mu['new'].strip()}",claim=mu["claim"],
             first_failures=fails,theorems_failed=tf,theorems_tightened=mu.get("tightened",[]))
    print(json.dumps(rec)[:600], "" if fails else "   *** SURVIVED ***",flush=True)
    if "--dry" not in sys.argv: open(LOG,"a").write(json.dumps(rec)+"\n")
