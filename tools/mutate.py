#!/usr/bin/env python3
"""Seeded-bug testing.  For each entry of a list of edits to the model: copy the
development, apply the edit, rebuild as far as possible, and report which lemma
no longer proves and which property theorems (P*.v) rest on it.
usage: mutate.py edits.json [jobs]     (edits: list of {id,file,def,old,new,edit,claim})
Appends one line per attempt to /verif/seeded/LOG.jsonl."""
import json,os,re,subprocess,sys,shutil
SRC='/verif/rocq'; BASE=os.environ.get('BASE','/tmp/mut/base'); CUR=os.environ.get('CUR','/tmp/mut/cur'); LOG='/verif/seeded/LOG.jsonl'
def sh(c,**k): return subprocess.run(c,shell=True,capture_output=True,text=True,**k)
def names():
    defs={}
    for f in sorted(os.listdir(SRC+'/theories')):
        if not f.endswith('.v'): continue
        t=open(f'{SRC}/theories/{f}').read()
        ms=list(re.finditer(r'^\s*(?:Local |Global )?(?:Theorem|Lemma|Definition|Fixpoint|Example|Inductive|Record|Instance|Ltac|Corollary)\s+([\w\']+)',t,re.M))
        for i,m in enumerate(ms):
            e=ms[i+1].start() if i+1<len(ms) else len(t)
            defs[m.group(1)]=(f,t.count('\n',0,m.start())+1,set(re.findall(r"[\w']+",t[m.start():e]))-{m.group(1)})
    return defs
def lemma_at(f,line):
    t=open(f'{CUR}/theories/{f}').read().split('\n')
    for i in range(line-1,-1,-1):
        m=re.match(r'\s*(?:Theorem|Lemma|Example|Corollary|Definition|Fixpoint)\s+([\w\']+)',t[i])
        if m: return m.group(1)
def main():
    edits=json.load(open(sys.argv[1])); jobs=sys.argv[2] if len(sys.argv)>2 else '2'
    done=set()
    if os.path.exists(LOG):
        for l in open(LOG): done.add(json.loads(l).get('id'))
    defs=names()
    for e in edits:
        if e['id'] in done: continue
        sh(f'rm -rf {CUR}; cp -a {BASE} {CUR}')
        p=f"{CUR}/theories/{e['file']}"; t=open(p).read()
        if t.count(e['old'])!=1: print('BAD',e['id'],t.count(e['old'])); continue
        open(p,'w').write(t.replace(e['old'],e['new']))
        tg=' '.join(f'theories/{x}.vo' for x in e.get('targets',[]))   # default: everything
        r=sh(f'cd {CUR} && ulimit -v 10000000 && timeout 3600 make -k -j{jobs} TIMED= COQC="timeout 400 coqc" {tg} 2>&1')
        errs=[]
        for m in re.finditer(r'File "\./theories/(\w+\.v)", line (\d+), characters[^\n]*\nError',r.stdout):
            n=lemma_at(m.group(1),int(m.group(2)))
            if (m.group(1),n) not in errs: errs.append((m.group(1),n))
        for m in re.finditer(r'theories/(\w+)\.vo\] Error 124',r.stdout):
            q=sh(f'cd {CUR} && timeout 420 coqc -Q theories Verif -time theories/{m.group(1)}.v')
            cs=re.findall(r'Chars \d+ - (\d+)',q.stdout)
            if cs:
                b=open(f'{CUR}/theories/{m.group(1)}.v','rb').read()[:int(cs[-1])]
                errs.append((m.group(1)+'.v',lemma_at(m.group(1)+'.v',b.count(b'\n')+1)))
        bad={n for _,n in errs}
        # model definitions changed are not failures by themselves; propagate over proofs
        ch=True; fail=set(bad)
        while ch:
            ch=False
            for n,(f,l,tok) in defs.items():
                if n not in fail and tok&fail: fail.add(n); ch=True
        thms=sorted(n for n in fail if defs.get(n,('',))[0].startswith('P') and re.match(r'C\d\d',n) and not n.endswith('_ex'))
        rec={'id':e['id'],'definition':f"{e['file']}:{e['def']}",'edit':e['edit'],'claim_broken':e['claim'],
             'first_failures':[f'{f}:{n}' for f,n in errs],'theorems_failed':thms,'theorems_tightened':e.get('tightened',[])}
        if not errs: rec['note']='SURVIVED' if 'make' in r.stdout or r.returncode==0 else r.stdout[-500:]
        open(LOG,'a').write(json.dumps(rec)+'\n'); print(e['id'],rec['first_failures'],len(thms),flush=True)
main()
