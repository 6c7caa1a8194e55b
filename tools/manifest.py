import re,glob,json,collections
th=collections.OrderedDict()
files=sorted(glob.glob('/verif/rocq/theories/Props*.v'))
for f in files:
    for m in re.finditer(r'^(?:Theorem|Lemma) (C\d\d\d?)_(\w+)',open(f).read(),re.M):
        th.setdefault(m.group(1),[]).append(m.group(1)+'_'+m.group(2))
exec(open('/verif/tools/notes.py').read())
ids=[json.loads(l)['id'] for l in open('/verif/properties.jsonl')]
claims=[]
for i in ids:
    if i not in th and i not in NOTES: continue
    st,note=NOTES.get(i,("proved",""))
    claims.append({"property":i,"status":st,"theorems":th.get(i,[]),"note":note})
json.dump({"claims":claims},open('/verif/MANIFEST.json','w'),indent=1)
print(len(claims),"claims", [ (c['property'],c['status']) for c in claims if c['status']!='proved' ], 'missing', [i for i in ids if i not in th])
