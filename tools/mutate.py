#!/usr/bin/env python3
"""Seeded-bug runner. usage: mutate.py muts.json
Each entry: {"file","old","new","def","edit","claim"}. Works in /tmp/mut (copy of /verif/rocq).
Appends one line per attempt to /verif/seeded/LOG.jsonl."""
import json,sys,os,re,subprocess,shutil,glob
M='/tmp/mut'; SRC='/verif/rocq'
def sync():
    os.makedirs(M,exist_ok=True)
    subprocess.run(['rsync','-a','--delete',SRC+'/',M+'/'],check=False) if shutil.which('rsync') else (shutil.rmtree(M),shutil.copytree(SRC,M,copy_function=shutil.copy2))
def lemmas():
    names={}
    for f in glob.glob(M+'/theories/*.v'):
        s=open(f).read()
        ms=list(re.finditer(r'^\s*(?:Lemma|Theorem|Example|Corollary|Definition|Fixpoint)\s+([\w\']+)',s,re.M))
        for i,m in enumerate(ms):
            names.setdefault(m.group(1),[]).append((os.path.basename(f),s.count('\n',0,m.start(1))+1,s[m.start():ms[i+1].start() if i+1<len(ms) else len(s)]))
    return names
def main():
    muts=json.load(open(sys.argv[1]))
    sync()
    subprocess.run('coq_makefile -f _CoqProject -o Makefile >/dev/null && make -j4 >/dev/null 2>&1',shell=True,cwd=M)
    out=[]
    for mu in muts:
        f=M+'/theories/'+mu['file']
        s=open(f).read()
        if s.count(mu['old'])<1: print('NOT FOUND',mu['old']); continue
        open(f,'w').write(s.replace(mu['old'],mu['new'],1))
        r=subprocess.run('timeout 900 make -k -j4 2>&1',shell=True,cwd=M,capture_output=True,text=True).stdout
        errs=re.findall(r'File "\./theories/([\w.]+)", line (\d+),',r)
        # keep only real errors
        errs=[(a,int(b)) for (a,b) in re.findall(r'File "\./theories/([\w.]+)", line (\d+), characters [\d-]+:\nError',r)]
        failed=[]
        L=lemmas()
        for a,b in errs:
            best=None
            for n,occ in L.items():
                for (ff,ln,_) in occ:
                    if ff==a and ln<=b and (best is None or ln>best[1]): best=(n,ln)
            failed.append((a,best[0] if best else '?'))
        # transitive textual dependents among property theorems
        bad=set(n for _,n in failed); deps=set(bad); ch=True
        while ch:
            ch=False
            for n,occ in L.items():
                if n in deps: continue
                for (ff,ln,body) in occ:
                    if any(re.search(r'\b'+re.escape(d)+r'\b',body[len(n):]) for d in deps):
                        deps.add(n); ch=True; break
        props=sorted(n for n in deps if re.match(r'C\d\d',n))
        rec={"definition":mu['def'],"edit":mu['edit'],"claim_broken":mu['claim'],"killed":bool(errs),
             "failed_at":[f'{a}:{n}' for a,n in failed],"theorems_failed":props,"theorems_tightened":mu.get('tightened',[])}
        print(('KILLED ' if errs else 'SURVIVED ')+mu['def']+' | '+mu['edit']+' | '+';'.join(rec['failed_at'])+' | '+','.join(props))
        if errs or mu.get('log_survivor'):
            with open('/verif/seeded/LOG.jsonl','a') as g: g.write(json.dumps(rec)+'\n')
        sys.stdout.flush()
        open(f,'w').write(s)
        os.utime(f)
        # restore compiled state of the original
        subprocess.run('make -k -j4 >/dev/null 2>&1',shell=True,cwd=M)
main()
