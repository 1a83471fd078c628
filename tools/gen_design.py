import json
H=json.load(open('/verif/tools/design_methods.json'))
M={c['property']:c for c in json.load(open('/verif/MANIFEST.json'))['claims']}
P=[json.loads(l) for l in open('/verif/properties.jsonl')]
head=open('/verif/tools/design_head.md').read()
out=[head.rstrip(),"","## 5. Property by property","",
"What is modelled is the code the anchors in properties.jsonl name; below, how each property is proved, its status and its theorems. `_refuted` theorems are counterexamples found in the code, `_partial` what holds instead. Every theorem listed prints `Closed under the global context`.",""]
for p in P:
    c=M[p['id']]
    out.append(f"* **{p['id']} {p['title']}** ({c['status']}). {H[p['id']]} Theorems: {', '.join('`'+t+'`' for t in c['theorems'])}."+(f" {c['note']}" if c['note'] else ""))
open('/verif/DESIGN.md','w').write("\n".join(out)+"\n")
