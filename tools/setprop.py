"""setprop.py ID field=value ...: edit (or with all fields, append) an entry of properties.jsonl."""
import json,sys
P='/verif/properties.jsonl'
props=[json.loads(l) for l in open(P)]
def setp(pid,**kw):
    for p in props:
        if p['id']==pid: p.update(kw); break
    else: props.append(dict(id=pid,**kw))
    with open(P,'w') as f:
        for p in props: f.write(json.dumps(p,ensure_ascii=False)+'\n')
