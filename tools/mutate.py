#!/usr/bin/env python3
"""Seeded-bug runner.  Reads mutants (JSON lines: definition, file, old, new, edit,
claim) from the file given, applies each in a scratch copy of rocq/, rebuilds and
appends the outcome to seeded/LOG.jsonl.  A mutant that still builds is printed as
SURVIVED and is not logged: it has to be looked at by hand."""
import json,os,re,shutil,subprocess,sys
root=os.path.dirname(os.path.dirname(os.path.abspath(__file__)))
scratch="/tmp/mut/rocq"
src="/tmp/mut/src"
# a snapshot, so that work can go on in rocq/ during a long run
shutil.rmtree(src,ignore_errors=True); subprocess.run(["cp","-a",root+"/rocq",src],check=True)
def sync():
    subprocess.run(["rsync","-a","--delete",src+"/",scratch+"/"],check=True) if shutil.which("rsync") else (
        shutil.rmtree(scratch,ignore_errors=True),subprocess.run(["cp","-a",src,scratch],check=True))
def lemma_at(path,line):
    name=None
    for i,l in enumerate(open(path),1):
        m=re.match(r"\s*(?:Local |#\[.*\] )?(?:Lemma|Theorem|Corollary|Example|Definition|Fixpoint|Inductive|Instance)\s+([\w']+)",l)
        if m: name=m.group(1)
        if i>=line: return name
    return name
def run(m):
    sync()
    p=scratch+"/theories/"+m["file"]
    s=open(p).read()
    n=s.count(m["old"])
    if n!=1: return "BAD: %d matches"%n
    open(p,"w").write(s.replace(m["old"],m["new"]))
    r=subprocess.run(["timeout","900","make","-k","-j3"],cwd=scratch,stdout=subprocess.PIPE,stderr=subprocess.STDOUT,text=True)
    fails=[]
    for mm in re.finditer(r'File "\./(theories/[^"]+)", line (\d+)',r.stdout):
        f,l=mm.group(1),int(mm.group(2))
        seg=r.stdout[mm.end():mm.end()+400]
        if "Error" not in seg.split("File")[0]: continue
        fails.append((f[len("theories/"):],lemma_at(scratch+"/"+f,l)))
    if r.returncode==0: return "SURVIVED"
    if not fails: return "BAD: build failed without location\n"+r.stdout[-500:]
    if any(f==m["file"] for f,_ in fails) and not m.get("own"):
        return "BAD: mutant does not compile or breaks its own file: %s"%fails
    return fails
def unbuilt():
    out=[]
    for d,_,fs in os.walk(scratch+"/theories"):
        for f in fs:
            if f.startswith("Properties") and f.endswith(".v"):
                vo=os.path.join(d,f)+"o"
                v=os.path.join(d,f)
                if not os.path.exists(vo): out.append(os.path.relpath(v,scratch+"/theories"))
    return out
only=set(sys.argv[2:])
for line in open(sys.argv[1]):
    if not line.strip(): continue
    m=json.loads(line)
    if only and m["definition"] not in only: continue
    r=run(m)
    if isinstance(r,str):
        print(r,m["definition"],m["edit"],flush=True); continue
    names=["%s (%s)"%(n,f) for f,n in r]
    print("killed",m["definition"],m["edit"],names,flush=True)
    with open(root+"/seeded/LOG.jsonl","a") as o:
        o.write(json.dumps({"definition":m["definition"]+" ("+m["file"]+")","edit":m["edit"],"claim":m["claim"],
          "theorems_failed":names,"theorems_tightened":m.get("tightened",[])})+"\n")
