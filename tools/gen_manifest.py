#!/usr/bin/env python3
"""Builds MANIFEST.json from the theorem names in rocq/theories/Props_*.v and the status table below."""
import json,re,glob,os
root=os.path.join(os.path.dirname(os.path.abspath(__file__)),'..')
props=[json.loads(l) for l in open(root+'/properties.jsonl')]
thms={}
for f in sorted(glob.glob(root+'/rocq/theories/Props_*.v')):
    for n in re.findall(r'^Theorem (\w+)',open(f).read(),re.M):
        thms.setdefault(n.split('_')[0],[]).append(n)
notes=json.load(open(root+'/tools/notes.json'))
claims=[]
for p in props:
    i=p['id']; t=thms.get(i,[]); n=notes.get(i,{})
    st=n.get('status') or ('partial' if not t or any(x.endswith('_partial') or x.endswith('_refuted') for x in t) else 'proved')
    claims.append({'property':i,'status':st,'theorems':t,'note':n.get('note','' if t else 'not yet modelled')})
json.dump({'claims':claims},open(root+'/MANIFEST.json','w'),indent=1)
from collections import Counter
print(Counter(c['status'] for c in claims), [c['property'] for c in claims if not c['theorems']])
