#!/usr/bin/env python3
"""Seeded-bug harness: copy rocq/ to /tmp/seed, apply one textual edit to the
model, rebuild with make -k and report which lemmas fail.
usage: seed.py edits.json   (list of {file, definition, old, new, edit, claim})
Appends one line per edit to seeded/LOG.jsonl."""
import json,os,re,shutil,subprocess,sys
# The base is a built clone of HEAD, so that work in progress does not disturb the run.
V="/tmp/seedbase/rocq"; S="/tmp/seed"
# SEED_FAST=1: reuse the base of the last run, and stop each build at its first error.
FAST=os.environ.get("SEED_FAST")
if not FAST:
    shutil.rmtree("/tmp/seedbase",ignore_errors=True)
    subprocess.run(["git","clone","-q","/verif","/tmp/seedbase"],check=True)
    # Examples are tests: only theorems may kill a wrong program.  Drop the conformance tests and every Example that nothing refers to.
    import glob
    _files=[l.strip() for l in open(V+"/_CoqProject") if "Conform_" not in l]
    open(V+"/_CoqProject","w").write("\n".join(_files)+"\n")
    for f in glob.glob(V+"/theories/Conform_*.v"): os.remove(f)
    _text={f:open(f).read() for f in glob.glob(V+"/theories/*.v")}
    _all="\n".join(_text.values())
    for f,t in _text.items():
        def drop(m):
            n=m.group(1)
            rest=len(re.findall(r"\b%s\b"%re.escape(n),_all))-len(re.findall(r"\b%s\b"%re.escape(n),m.group(0)))-len(re.findall(r"Print Assumptions %s\b"%re.escape(n),_all))
            return m.group(0) if rest>0 else ""
        t2=re.sub(r"^Example\s+(\w+).*?\bQed\.(?:\s*Print Assumptions \1\.)?",drop,t,flags=re.S|re.M)
        if t2!=t: open(f,"w").write(t2)
    subprocess.run("coq_makefile -f _CoqProject -o Makefile && make -j2 >/dev/null",shell=True,cwd=V,check=True)
def lemma_at(path,line):
    name="?"
    for i,l in enumerate(open(path),1):
        if i>line: break
        m=re.match(r"\s*(?:Lemma|Theorem|Example|Corollary|Remark|Definition|Fixpoint|Fact)\s+([A-Za-z0-9_']+)",l)
        if m: name=m.group(1)
    return name
log=open("/verif/seeded/LOG.jsonl","a")
for e in json.load(open(sys.argv[1])):
    shutil.rmtree(S,ignore_errors=True); subprocess.run(["cp","-a",V,S],check=True)
    p=f"{S}/theories/{e['file']}"
    s=open(p).read()
    if s.count(e["old"])!=1:
        print("SKIP (matches %d)"%s.count(e["old"]),e["definition"],e["edit"]); continue
    s=s.replace(e["old"],e["new"])
    open(p,"w").write(s)
    r=subprocess.run("coq_makefile -f _CoqProject -o Makefile && timeout 1200 make "+("-j2" if FAST else "-k -j2"),shell=True,cwd=S,capture_output=True,text=True)
    out=r.stdout+r.stderr
    failed=[]
    for m in re.finditer(r'File "\./theories/([A-Za-z0-9_]+)\.v", line (\d+).*\n(?:.*\n)?',out):
        if "Error" in out[m.start():m.start()+400]:
            failed.append(m.group(1)+"."+lemma_at(f"{S}/theories/{m.group(1)}.v",int(m.group(2))))
    deps={}
    for l in open(S+"/.Makefile.d"):
        m=re.match(r"theories/(\w+)\.vo\b.*?: (.*)",l)
        if m: deps[m.group(1)]=set(re.findall(r"theories/(\w+)\.vo\b",m.group(2)))
    bad={f.split(".")[0] for f in failed}
    ch=True
    while ch:
        ch=False
        for k,v in deps.items():
            if k not in bad and v & bad: bad.add(k); ch=True
    notbuilt=sorted(bad)
    print(json.dumps({"def":e["definition"],"edit":e["edit"],"failed":failed,"not_built":notbuilt}))
    if failed or e.get("log_survivor"):
        log.write(json.dumps({"definition":e["file"]+":"+e["definition"],"edit":e["edit"],"claim_broken":e["claim"],"theorems_failed":failed,"files_no_longer_building":notbuilt,"theorems_tightened":e.get("tightened",[])})+"\n"); log.flush()
    else: print("  *** SURVIVED")
