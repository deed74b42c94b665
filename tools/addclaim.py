"""usage: addclaim.py spec.py : spec defines P (property dict), STATUS, THMS, NOTE, ROW (DESIGN row), FILES (list)"""
import sys,json
ns={}; exec(open(sys.argv[1]).read(),ns)
P=ns['P']
open('properties.jsonl','a').write(json.dumps(P)+"\n")
open('tools/claims.py','a').write('c(%s,%s,%s,%s)\n'%tuple(json.dumps(x,ensure_ascii=False) for x in (P['id'],ns['STATUS'],ns['THMS'],ns['NOTE'])))
L=open('DESIGN.md').read().split('\n')
i=[k for k,l in enumerate(L) if l.startswith('| C%02d |'%(int(P['id'][1:])-1))][0]
L.insert(i+1,'| %s | %s |'%(P['id'],ns['ROW']))
open('DESIGN.md','w').write('\n'.join(L))
p='rocq/_CoqProject'; s=open(p).read().rstrip('\n')
for f in ns['FILES']:
    s+='\ntheories/'+f
open(p,'w').write(s+'\n')
