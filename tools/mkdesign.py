# Builds /verif/DESIGN.md from tools/design_head.md, tools/methods.json, properties.jsonl, MANIFEST.json and tools/axioms.json
import json,re,os,glob,sys
V='/verif'
ax={}
if len(sys.argv)>1:
    # directory with the output of coqc for every Prop file: collect what Print Assumptions lists
    for f in sorted(glob.glob(V+'/rocq/theories/Prop*.v')):
        b=os.path.basename(f)[:-2]
        names=re.findall(r'^Print Assumptions (\w+)\.',open(f).read(),re.M)
        txt=open(os.path.join(sys.argv[1],b+'.txt')).read()
        blocks=[];cur=None
        for l in txt.split('\n'):
            if l.startswith('Closed under'): blocks.append([]);cur=None
            elif l.startswith('Axioms:'): cur=[];blocks.append(cur)
            elif cur is not None:
                m=re.match(r'^([A-Za-z_][\w.\']*)\s*(:.*)?$',l)
                if m and not l.startswith(' '): cur.append(m.group(1).split('.')[-1])
        assert len(names)==len(blocks),(b,len(names),len(blocks))
        for n,k in zip(names,blocks): ax[n]=sorted(set(k))
    json.dump(ax,open(V+'/tools/axioms.json','w'),indent=0)
ax=json.load(open(V+'/tools/axioms.json'))
props=[json.loads(l) for l in open(V+'/properties.jsonl')]
man={c['property']:c for c in json.load(open(V+'/MANIFEST.json'))['claims']}
meth=json.load(open(V+'/tools/methods.json'))
out=[open(V+'/tools/design_head.md').read()]
out.append('\n## Properties: model, method, result\n')
out.append('| id | property | model | method | status | result |\n|---|---|---|---|---|---|')
def m(i):
    k=int(i[1:])
    for r in meth:
        if any(a<=k<=b for a,b in r['range']): return r
    return {'model':'','method':''}
for p in props:
    c=man[p['id']];r=m(p['id'])
    out.append('| %s | %s | %s | %s | %s | %s |'%(p['id'],p['title'],r['model'],r['method'],c['status'],c['note'].replace('|','\\|')))
out.append('\n## Axioms per theorem (`Print Assumptions` in the property files)\n')
groups={}
for n,k in ax.items(): groups.setdefault(tuple(k),[]).append(n)
for k in sorted(groups,key=lambda k:(len(k),k)):
    out.append('* %s:\n  %s\n'%('**none** (closed under the global context)' if not k else '**'+', '.join(k)+'**',', '.join(groups[k])))
open(V+'/DESIGN.md','w').write('\n'.join(out)+'\n')
