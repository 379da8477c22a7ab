#!/usr/bin/env python3
import json, os, sys
sys.path.insert(0, os.path.dirname(__file__))
from design_plan import PLAN
props=[json.loads(l) for l in open('/verif/properties.jsonl')]
head=open('/verif/tools/design_head.md').read()
out=[head,""]
for r in props:
    out.append(f"* **{r['id']} {r['title']}** — {PLAN.get(r['id'],'')}")
tail='/verif/tools/design_tail.md'
if os.path.exists(tail): out.append("\n"+open(tail).read())
open('/verif/DESIGN.md','w').write("\n".join(out)+"\n")
