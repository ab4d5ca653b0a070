import json,re,subprocess,glob
# claims: property -> (status, theorems, note)
C={}
def c(p,st,th,note): C[p]=dict(property=p,status=st,theorems=th,note=note)
exec(open('/tmp/claims.py').read())
ids=[json.loads(l)['id'] for l in open('/verif/properties.jsonl')]
names=set()
for f in glob.glob('/verif/rocq/theories/*.v'):
    names|=set(re.findall(r'^(?:Theorem|Lemma|Corollary)\s+(\w+)',open(f).read(),re.M))
for p in C.values():
    for t in p['theorems']: assert t in names,(p['property'],t)
    assert p['property'] in ids
missing=[i for i in ids if i not in C]
print('unclaimed',missing)
json.dump({"claims":[C[i] for i in ids if i in C]},open('/verif/MANIFEST.json','w'),indent=1)
