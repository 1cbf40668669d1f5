import json,re,glob
props=[json.loads(l) for l in open('/verif/properties.jsonl')]
S={}
def c(id,status,note): S[id]=(status,note)
exec(open('/verif/tools/claims.py').read())
# theorem names from the Prop*.v files: names starting with Cnn_
names={}
for f in sorted(glob.glob('/verif/rocq/theories/Prop*.v')):
    for m in re.finditer(r'^Theorem\s+(C\d\d\d?)_(\w+)',open(f).read(),re.M):
        names.setdefault(m.group(1),[]).append(m.group(1)+'_'+m.group(2))
out=[]
for p in props:
    st,note=S.get(p['id'],('partial','not modelled yet'))
    th=names.get(p['id'],[])
    if p['id'] not in S: print('missing',p['id'])
    out.append(dict(property=p['id'],status=st,theorems=th,note=note))
json.dump({"claims":out},open('/verif/MANIFEST.json','w'),indent=1)
