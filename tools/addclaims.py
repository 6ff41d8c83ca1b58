import json,sys
p='/verif/tools/claims.json'
cl=json.load(open(p))
new=json.load(sys.stdin)
ids={c['property']:c for c in cl}
for c in new: ids[c['property']]=c
out=[ids[k] for k in sorted(ids, key=lambda k: int(k[1:]))]
open(p,'w').write("[\n"+",\n".join(" "+json.dumps(c) for c in out)+"\n]\n")
