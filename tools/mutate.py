#!/usr/bin/env python3
"""Applies a seeded bug to a scratch copy of the model and reports which theorems stop compiling.
usage: mutate.py MUTATIONS.json   (list of {file, def, old, new, claim, expect})
Works in /tmp/mut; appends to seeded/LOG.jsonl."""
import sys,json,subprocess,os,shutil,re
root='/verif'
muts=json.load(open(sys.argv[1]))
def lemma_at(path,line):
    L=open(path).read().split('\n'); name=None
    for i in range(min(line,len(L))):
        m=re.match(r'\s*(?:Lemma|Theorem|Example|Corollary|Definition|Fixpoint)\s+(\w+)',L[i])
        if m: name=m.group(1)
    return name
for m in muts:
    if os.path.exists('/tmp/mut'): shutil.rmtree('/tmp/mut')
    shutil.copytree(root+'/rocq','/tmp/mut',copy_function=shutil.copy2)
    for d,_,fs in os.walk('/tmp/mut'):   # keep the order of the time stamps, whatever the clock did
        for f in fs:
            q=os.path.join(d,f); t=os.stat(q).st_mtime-86400; os.utime(q,(t,t))
    p='/tmp/mut/theories/'+m['file']; s=open(p).read()
    if s.count(m['old'])!=1:
        print('BAD MUTATION',m['def'],s.count(m['old'])); continue
    open(p,'w').write(s.replace(m['old'],m['new']))
    r=subprocess.run('coq_makefile -f _CoqProject -o Makefile && timeout 1500 make '+('' if m.get('fast') else '-k ')+'-j2',shell=True,cwd='/tmp/mut',capture_output=True,text=True)
    out=r.stdout+r.stderr
    fails=[]
    for f,l in re.findall(r'File "\./theories/(\w+\.v)", line (\d+)',out):
        n=lemma_at('/tmp/mut/theories/'+f,int(l))
        if f'{f}:{n}' not in fails and 'Error' in out: fails.append(f'{f}:{n}')
    # files not rebuilt because of failed dependencies
    built=set(re.findall(r'COQC theories/(\w+\.v)',out))
    failed_files={x.split(':')[0] for x in fails}
    miss=[]
    for f in open('/tmp/mut/_CoqProject').read().split():
        if f.startswith('theories/Props'):
            b=os.path.basename(f)
            vo='/tmp/mut/'+f+'o'
            src='/tmp/mut/'+f
            ok=r.returncode==0 or (subprocess.run(['make','-q',f+'o'],cwd='/tmp/mut',capture_output=True).returncode==0)
            if not ok: miss.append(b)
    if not fails and (r.returncode or os.path.splitext(m['file'])[0]+'.v' not in built):
        print('UNKNOWN',m['def'],r.returncode,out[-300:]); sys.stdout.flush(); continue
    rec={'definition':m['def'],'edit':m.get('edit') or (m['old']+'  ==>  '+m['new']),'claim':m['claim'],'theorems_failed':fails,'property_files_not_rebuilt':miss,'theorems_tightened':m.get('tightened',[])}
    print(('CAUGHT ' if fails else '*** SURVIVED ')+m['def'],'|',m['new'][:60].replace('\n',' '),'|',fails[:4],miss)
    sys.stdout.flush()
    if not m.get('dry'): open(root+'/seeded/LOG.jsonl','a').write(json.dumps(rec)+'\n')
