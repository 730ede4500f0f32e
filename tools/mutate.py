#!/usr/bin/env python3
"""Seeded-bug driver: python3 tools/mutate.py mutants.json
Each mutant: {"file": "Model/X.v", "old": ..., "new": ..., "definition": ..., "edit": ..., "claim": ...,
"tightened": [...]}.
Copies /verif/rocq to /tmp/mut, applies the edit, rebuilds with -k, reports which lemma breaks and
appends one line per mutant to seeded/LOG.jsonl."""
import json,subprocess,sys,re,os,shutil
SRC=os.environ.get("MUTSRC","/verif/rocq"); DST=os.environ.get("MUTDST","/tmp/mut")
def run(c,**k): return subprocess.run(c,shell=True,capture_output=True,text=True,**k)
def enclosing(path,line):
    name=None
    for i,l in enumerate(open(path),1):
        m=re.match(r'\s*(?:Local\s+|Global\s+)?(Theorem|Lemma|Corollary|Example|Definition|Fixpoint|Fact)\s+([\w\']+)',l)
        if m: name=m.group(2)
        if i>=line: break
    return name
muts=json.load(open(sys.argv[1])); dry=len(sys.argv)>2
run(f"rm -rf {DST}; cp -a {SRC} {DST}")
for m in muts:
    run(f"cp -a {SRC}/. {DST}/")
    run(f"find {DST}/theories -name '*.vo*' -newer {DST}/stamp -delete") if os.path.exists(DST+"/stamp") else None
    run(f"rm -rf {DST}; cp -a {SRC} {DST}")
    p=f"{DST}/theories/{m['file']}"; s=open(p).read()
    if s.count(m['old'])!=1:
        print("!! pattern count",s.count(m['old']),m['definition'],m['edit']); continue
    open(p,'w').write(s.replace(m['old'],m['new']))
    r=run(f"cd {DST} && coq_makefile -f _CoqProject -o Makefile && (ulimit -v 12000000; timeout 1200 nice -n 10 make -k -j2 COQC='timeout 180 coqc')")
    out=r.stdout+r.stderr
    failed=[]
    for f,l in re.findall(r'File "\./?(theories/[^"]+)", line (\d+), characters [^\n]*\n(?=Error)',out):
        n=enclosing(f"{DST}/{f}",int(l)); 
        if n and n not in failed: failed.append(n)
    for f in re.findall(r'(theories/\S+)\.vo\] Error 124',out): failed.append("timeout in "+f)
    notbuilt=[]
    deps={}
    for d in os.listdir(DST):
        if d.endswith(".d"):
            for l in open(f"{DST}/{d}"):
                if ":" in l:
                    a,b=l.split(":",1)
                    for t in a.split():
                        if t.endswith(".vo"): deps.setdefault(t,set()).update(b.split())
    affected={f"theories/{m['file']}"}; n=-1
    while n!=len(affected):
        n=len(affected); affected|={t for t,ds in deps.items() if ds&affected}
    for l in open(f"{DST}/_CoqProject"):
        l=l.strip()
        if l.startswith("theories/Props/"):
            vo=f"{DST}/{l}o"
            # rebuilt or not: a failed dependency leaves the old .vo in place; compare times
            if l+'o' in affected and not os.path.exists(vo) or l+'o' in affected and os.path.getmtime(vo)<os.path.getmtime(p):
                notbuilt.append(os.path.basename(l))
    print(("KILLED " if failed else "SURVIVED "),m['definition'],"|",m['edit'],"|",failed,notbuilt)
    if not failed and r.returncode!=0: print(out[-1500:])
    if not dry:
        with open("/verif/seeded/LOG.jsonl","a") as fo:
            fo.write(json.dumps({"definition":m['definition'],"file":m['file'],"edit":m['edit'],"claim_broken":m['claim'],
             "theorems_failed":failed,"props_files_not_built":notbuilt,"theorems_tightened":m.get('tightened',[])})+"\n")
