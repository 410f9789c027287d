#!/usr/bin/env python3
"""Generate MANIFEST.json: collects theorems named Cnn_* from rocq/theories/Prop_*.v."""
import re, glob, json, os
root=os.path.dirname(os.path.dirname(os.path.abspath(__file__)))
thms={}
for f in sorted(glob.glob(root+'/rocq/theories/Prop_*.v')):
    for m in re.finditer(r'^Theorem\s+(C(\d\d+)_\w+)',open(f).read(),re.M):
        thms.setdefault('C'+m.group(2),[]).append(m.group(1))
notes=json.load(open(root+'/tools/notes.json'))
claims=[]
for line in open(root+'/properties.jsonl'):
    pid=json.loads(line)['id']
    t=thms.get(pid,[])
    n=notes.get(pid,{})
    if not t and not n: continue
    st=n.get('status') or ('partial' if any(x.endswith('_partial') or x.endswith('_refuted') for x in t) else 'proved')
    claims.append(dict(property=pid,status=st,theorems=t,note=n.get('note','')))
json.dump(dict(claims=claims),open(root+'/MANIFEST.json','w'),indent=1)
print(len(claims),'claims;',sum(c['status']=='proved' for c in claims),'proved;',sum(len(c['theorems']) for c in claims),'theorems')
