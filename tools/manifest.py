import json,re,glob
thms=[]
for f in glob.glob('/verif/rocq/theories/P*.v'):
    thms+=re.findall(r'^Theorem (C\d\d\w*)',open(f).read(),re.M)
notes=json.load(open('/tmp/w/notes.json'))
props=[json.loads(l)['id'] for l in open('/verif/properties.jsonl')]
claims=[]
for p in props:
    t=sorted(x for x in thms if x.startswith(p+'_'))
    n=notes.get(p,{})
    st=n.get('status')
    if st is None:
        st='proved' if t else 'partial'
    claims.append({"property":p,"status":st,"theorems":t,"note":n.get('note','' if t else 'not yet proved')})
json.dump({"claims":claims},open('/verif/MANIFEST.json','w'),indent=1)
print({s:sum(c['status']==s for c in claims) for s in ('proved','partial','not_applicable')}, len(thms))
