"""Merge /tmp/mutlog.jsonl into seeded/LOG.jsonl (dedupe by id)."""
import json,os
p='seeded/LOG.jsonl'
old=[json.loads(l) for l in open(p)]
ids={d.get('id') for d in old}
n=0
RELABEL={'mu-trend':'C29','mu-peak':'C29','mu-max':'C29','mu-viol':'C29','sc-sense':'C36','sc-shift':'C36','sc-base':'C36','sc-int2':'C36','sc-int':'C39','bs-alias':'C34','cl-ks':'C44','mo-max2':'C43','mo-emp':'C43','pr-params':'C42','pr-top2':'C41','lf-userlost':'C06/C59'}
with open(p,'a') as f:
    for l in open('/tmp/mutlog.jsonl'):
        d=json.loads(l)
        if d['id'] in ids: continue
        d['claim']=RELABEL.get(d['id'],d['claim'])
        st=d.pop('stuck',None)
        if st: d['note']=str(st)
        f.write(json.dumps(d)+'\n'); ids.add(d['id']); n+=1
os.remove('/tmp/mutlog.jsonl'); print(n)
