import json,re,glob
# status table; theorems collected from Props files by prefix
props=[json.loads(l)['id'] for l in open('/verif/properties.jsonl')]
status=json.load(open('/verif/tools/status.json'))
ths={}
for f in sorted(glob.glob('/verif/rocq/theories/Props_*.v')):
    for m in re.finditer(r'^Theorem (C\d\d)(_\w+)',open(f).read(),re.M):
        ths.setdefault(m.group(1),[]).append(m.group(1)+m.group(2))
claims=[]
for p in props:
    st,note=status.get(p,[None,None])
    if st is None: st,note=('partial','not proved yet')
    claims.append(dict(property=p,status=st,theorems=ths.get(p,[]),note=note))
json.dump({"claims":claims},open('/verif/MANIFEST.json','w'),indent=1,ensure_ascii=False)
