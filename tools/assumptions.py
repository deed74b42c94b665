"""Recompile the property files and write what Print Assumptions prints for each theorem to ASSUMPTIONS.md (run after a full build)."""
import glob,os,re,subprocess
os.chdir(os.path.join(os.path.dirname(__file__),'../rocq/theories'))
groups={}
for f in sorted(glob.glob('Props/*.v')):
    names=re.findall(r'^Print Assumptions (\w+)\.',open(f).read(),re.M)
    o='/tmp/as_'+os.path.basename(f)+'o'
    out=subprocess.run(['coqc','-Q','.','Verif','-o',o if False else f+'o',f],capture_output=True,text=True)
    assert out.returncode==0,(f,out.stderr)
    blocks=[];cur=None
    for l in out.stdout.splitlines():
        if l.startswith('Closed under the global context'): blocks.append(()); cur=None
        elif l.startswith('Axioms:'): cur=[]; blocks.append(cur)
        elif cur is not None and (m:=re.match(r'^([A-Za-z_][\w.]*)(\s*:|$)',l)): cur.append(m.group(1))
    assert len(blocks)==len(names),(f,len(blocks),len(names))
    for n,b in zip(names,blocks): groups.setdefault(tuple(sorted(b)),{}).setdefault(os.path.basename(f),[]).append(n)
with open('../../ASSUMPTIONS.md','w') as g:
    g.write('# Output of Print Assumptions for every theorem in theories/Props (generated by tools/assumptions.py)\n')
    for b in sorted(groups):
        g.write('\n## '+('Closed under the global context' if not b else 'Axioms: '+', '.join('`%s`'%x for x in b))+'\n\n')
        for f,ns in groups[b].items(): g.write('* %s: %s\n'%(f,', '.join(ns)))
