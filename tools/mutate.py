#!/usr/bin/env python3
"""Seeded-bug runner.  Usage: mutate.py muts.json
Each entry: {"file","def","old","new","edit","claim"}; works in a scratch copy under /tmp/mut, rebuilds with
make -k, reports which lemma broke first and which C.. theorems no longer build.  Appends to seeded/LOG.jsonl
unless "dry" is given as second argument.  Surviving mutants are printed and NOT logged."""
import json,os,re,subprocess,sys,shutil,glob
muts=json.load(open(sys.argv[1])); dry=len(sys.argv)>2
S="/tmp/mut/rocq"; SRC=os.environ.get("SRC","/verif/rocq")
shutil.rmtree("/tmp/mut",ignore_errors=True)
shutil.copytree(SRC,S,symlinks=True)
def sh(c): return subprocess.run(c,shell=True,cwd=S,capture_output=True,text=True)
# the generated conformance tests are left out: a mutant must be caught by a theorem, not by a test
c=open(S+"/_CoqProject").read(); open(S+"/_CoqProject","w").write(re.sub(r"theories/(?:Parse|Render)Tests\d\.v\n","",c))
J=os.environ.get("J","4")
sh(f"coq_makefile -f _CoqProject -o Makefile; make -j{J}")
subprocess.run("rm -rf /tmp/mut0; cp -a /tmp/mut /tmp/mut0",shell=True)
def restore(): subprocess.run("rm -rf /tmp/mut; cp -a /tmp/mut0 /tmp/mut",shell=True)
def name_at(f,line):
    t=open(os.path.join(S,f)).read().split("\n")[:line]
    for l in reversed(t):
        m=re.match(r"\s*(?:Theorem|Lemma|Example|Definition|Fixpoint|Corollary)\s+(\w+)",l)
        if m: return m.group(1)
    return "?"
for m in muts:
    f="theories/"+m["file"]; p=os.path.join(S,f); orig=open(p).read()
    if orig.count(m["old"])!=1: print("BAD ANCHOR",m["def"],orig.count(m["old"])); continue
    open(p,"w").write(orig.replace(m["old"],m["new"]))
    # "targets": files to try first; only if they still build is everything rebuilt
    t=" ".join("theories/"+x+".vo" for x in m.get("targets",os.environ.get("TARGETS","").split()))
    o=sh(f"make -k -j{J} {t}") if t else None
    if o is None or o.returncode==0: o=sh(f"make -k -j{J}"); t=""
    out=o.stdout+o.stderr
    errs=[(a,int(b)) for a,b in re.findall(r'File "\./(theories/\w+\.v)", line (\d+)[^\n]*\nError',out) ]
    errs=[(a,b) for a,b in errs if "rror" in out]
    broke=[a.split('/')[-1]+":"+name_at(a,b) for a,b in errs]
    failed=[]
    for pf in sorted(glob.glob(S+"/theories/Prop*.v")):
        vo=pf+"o"
        if t and os.path.basename(pf)[:-2] not in t.replace("theories/","").replace(".vo","").split() : continue
        src=open(pf).read()
        ths=re.findall(r"^Theorem (C\d+\w*)",src,re.M)
        if not os.path.exists(vo) or os.path.getmtime(vo)<os.path.getmtime(p):
            r=[b for a,b in errs if a.endswith("/"+os.path.basename(pf))]
            if r:
                pre="\n".join(src.split("\n")[:r[0]]); done=re.findall(r"^Theorem (C\d+\w*)",pre,re.M)
                failed.append(done[-1] if done else "?")
            else: failed+=ths if o.returncode else []
    status="KILLED" if o.returncode else "SURVIVED"
    print(status,m["def"],"|",m["edit"],"|",broke,flush=True)
    if o.returncode and not dry:
        direct=[x for x in failed]
        want=re.match(r"C\d+",m["claim"]).group(0)
        rec={"definition":m["def"],"edit":m["edit"],"claim_broken":m["claim"],
             "first_failures":broke,"theorems_failed":[x for x in direct if x.startswith(want)] or direct[:6],
             "theorems_tightened":m.get("tightened",[])}
        open("/verif/seeded/LOG.jsonl","a").write(json.dumps(rec)+"\n")
    restore()
