#!/usr/bin/env python3
"""Automatic seeded bugs: random single-token mutations of the definitions in the model files.
usage: mutate.py SEED COUNT [file...]
Builds until the first failure; mutants that do not type-check are not counted.  Killed and surviving
mutants are appended to seeded/LOG.jsonl (survivors with an empty list of failed theorems), survivors also
to seeded/survivors.jsonl for inspection."""
import json,os,random,re,shutil,subprocess,sys
V="/tmp/mutbase/rocq"; S="/tmp/mut"
CLAIMS={"HashTree":"C01-C07","RbTree":"C08-C15","Nested":"C16-C19","Cbor":"C20-C24","Leb128":"C38","RiHash":"C25,C26","Text":"C29,C63","HttpHash":"C27-C29","Cel":"C30-C33","Wildcard":"C34,C35","V2":"C36,C37","CertVerify":"C38-C40","SigCache":"C41,C42","Base64":"C43","Header":"C44,C45","Verify":"C46-C50,C63","HttpTree":"C51-C55,C64,C69","AssetRouter":"C56-C62,C65-C68","RbCompare":"C73","Serde":"C75","HttpBuild":"C76,C77","AssetMap":"C78","CertBuilder":"C79","V1Assets":"C80","JsBindings":"C81,C82","Utf8":"C20,C24","Errors":"C83,C84","JsonApi":"C87-C91","Counter":"C92,C93","Shared":"C95-C98","SiteExample":"C99-C101,C110","CustomAssets":"C102-C104","SmallExamples":"C105,C106","Labels":"C107","JsErrors":"C108","Candid":"C109","Fixtures":"C115,C116","Body":"C130","Encodings":"C132","CborCost":"C124","CelCost":"C125","RbCost":"C135","Messages":"C138,C139","CelErrors":"C141","CborErrors":"C143,C144","CanisterErrors":"C145,C146","CanisterMessages":"C147-C149"}
OPS=[(r"<=\?","<?"),(r"(?<!<)<\?","<=?"),(r"(?<![<])=\?","<=?"),(r"&&","||"),(r"\|\|","&&"),(r"\btrue\b","false"),(r"\bfalse\b","true"),
 (r"\bLt\b","Gt"),(r"\bGt\b","Lt"),(r"\bnegb ",""),(r"\bOErr\b","OPanic"),(r"\bOPanic\b","OErr"),(r"\bfst\b","snd"),(r"\bsnd\b","fst"),
 (r"(?<![\w.:#])(\d+)(?![\w:.])",None),(r'bs "([^"]+)"','STR'),(r" \+\+ (?:[\w']+|\[[^\]\[]*\])(?=[ ).\n])",""),(r"\b([\w']+) \+\+ ([\w']+)\b","SWAP"),(r"\bSome \w+\b","None"),(r"(?<= )\+(?= )","-"),
 (r"\bBlack\b","Red"),(r"\bRed\b","Black"),(r"\bL\b","R"),(r"\bleft\b","right"),(r"\bright\b","left"),(r"\(l r","(r l"),(r"\bl r\)","r l)"),(r"\bEq\b","Lt"),(r"\bNone => None\b","None => Some"),(r"=> \[\]","=> [[]]"),
 (r"\bfirstn\b","skipn"),(r"\bskipn\b","firstn"),(r"\brev ",""),(r"\blower ",""),(r"\btrim ",""),(r"\bremovelast ",""),(r"\btl ",""),(r"\bskip_ws ",""),
 (r"\bexistsb\b","forallb"),(r"\bforallb\b","existsb"),(r"\bPermanent\b","Temporary"),(r"\bPExact\b","PWildcard"),(r"\bPWildcard\b","PExact"),(r"(?<= )-(?= )","+"),(r"; \(bs [^;()]*\)(?=\])",""),(r"\bseq ","(fun x y => seq y x) ")]
def regions(s):
    """character ranges of Definition/Fixpoint sentences, comments blanked"""
    t=list(s); depth=0; i=0
    while i<len(s):
        if s.startswith("(*",i): depth+=1; t[i]=t[i+1]=" "; i+=2; continue
        if s.startswith("*)",i): depth-=1; t[i]=t[i+1]=" "; i+=2; continue
        if depth and s[i]!="\n": t[i]=" "
        i+=1
    t="".join(t); out=[]
    for m in re.finditer(r"^\s*(?:Definition|Fixpoint)\s+([\w']+).*?\.(?=\s*$)",t,flags=re.S|re.M):
        out.append((m.start(),m.end(),m.group(1)))
    return t,out
def mutants(f):
    s=open(f"{V}/theories/{f}.v").read(); t,rs=regions(s); res=[]
    for a,b,name in rs:
        body=t[a:b]
        for pat,rep in OPS:
            for m in re.finditer(pat,body):
                old=m.group(0)
                if rep is None: new=str(int(m.group(1))+1)
                elif rep=='STR': new='bs "%sz"'%m.group(1)
                elif rep=='SWAP': new="%s ++ %s"%(m.group(2),m.group(1))
                else: new=rep
                if new is None or new==old: continue
                p=a+m.start()
                line=s[s.rfind("\n",0,p)+1:s.find("\n",p)].strip()
                res.append((f,name,p,old,new,line))
    return s,res
def lemma_at(path,line):
    name="?"; kind="?"
    for i,l in enumerate(open(path),1):
        if i>line: break
        m=re.match(r"\s*(Lemma|Theorem|Example|Corollary|Remark|Definition|Fixpoint|Fact|Inductive|Record)\s+([A-Za-z0-9_']+)",l)
        if m: kind,name=m.group(1),m.group(2)
    return kind,name
def main():
    seed=int(sys.argv[1]); count=int(sys.argv[2]); files=sys.argv[3:] or list(CLAIMS)
    shutil.rmtree("/tmp/mutbase",ignore_errors=True)
    subprocess.run(["git","clone","-q","/verif","/tmp/mutbase"],check=True)
    # only theorems may kill: no conformance tests, no Example that nothing refers to
    import glob
    fs=[l.strip() for l in open(V+"/_CoqProject") if "Conform_" not in l]; open(V+"/_CoqProject","w").write("\n".join(fs)+"\n")
    for g in glob.glob(V+"/theories/Conform_*.v"): os.remove(g)
    text={g:open(g).read() for g in glob.glob(V+"/theories/*.v")}; everything="\n".join(text.values())
    for g,t in text.items():
        def drop(m):
            n=re.escape(m.group(1)); c=lambda x:len(re.findall(r"\b%s\b"%n,x))
            return m.group(0) if c(everything)-c(m.group(0))-len(re.findall(r"Print Assumptions %s\b"%n,everything))>0 else ""
        t2=re.sub(r"^Example\s+(\w+).*?\bQed\.(?:\s*Print Assumptions \1\.)?",drop,t,flags=re.S|re.M)
        if t2!=t: open(g,"w").write(t2)
    subprocess.run("coq_makefile -f _CoqProject -o Makefile && make -j3 >/dev/null",shell=True,cwd=V,check=True)
    seen=set()
    for l in list(open("/verif/seeded/LOG.jsonl"))+list(open("/verif/seeded/survivors.jsonl")):
        d=json.loads(l); seen.add((d["definition"],d["edit"]))
    rnd=random.Random(seed); src={}; pool=[]
    for f in files:
        src[f],ms=mutants(f); rnd.shuffle(ms); pool.append(ms)
    log=open("/verif/seeded/LOG.jsonl","a"); sur=open("/verif/seeded/survivors.jsonl","a")
    done=0; k=0
    while done<count and any(pool):
        ms=pool[k%len(pool)]; k+=1
        if not ms: continue
        f,name,p,old,new,line=ms.pop()
        edit="%s -> %s in: %s"%(old.strip(),new.strip() or "(removed)",line[:160])
        if (f+".v:"+name,edit) in seen: continue
        s=src[f]; s2=s[:p]+new+s[p+len(old):]
        shutil.rmtree(S,ignore_errors=True); subprocess.run(["cp","-a",V,S],check=True)
        open(f"{S}/theories/{f}.v","w").write(s2)
        r=subprocess.run("timeout 1500 make -j2",shell=True,cwd=S,capture_output=True,text=True)
        out=r.stdout+r.stderr; failed=[]; invalid=False
        for m in re.finditer(r'File "\./theories/([A-Za-z0-9_]+)\.v", line (\d+).*\n',out):
            if "Error" in out[m.start():m.start()+600]:
                kind,n=lemma_at(f"{S}/theories/{m.group(1)}.v",int(m.group(2)))
                if m.group(1)==f and kind in("Definition","Fixpoint"): invalid=True
                failed.append(m.group(1)+"."+n)
        if invalid: continue
        if r.returncode!=0 and not failed: failed=["(build timed out)"]
        done+=1
        rec={"definition":f+".v:"+name,"edit":edit,"claim_broken":"one of "+CLAIMS[f]+" (automatic mutation)","theorems_failed":failed,"theorems_tightened":[]}
        print(("SURVIVED " if not failed else "killed ")+json.dumps(rec),flush=True)
        if failed: log.write(json.dumps(rec)+"\n"); log.flush()
        else: sur.write(json.dumps(rec)+"\n"); sur.flush()
main()
