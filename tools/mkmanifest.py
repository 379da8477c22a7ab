"""Regenerate MANIFEST.json from the theorem names in rocq/theories."""
import json, re, glob, os
here = os.path.dirname(os.path.abspath(__file__))
root = os.path.dirname(here)
from notes import NOTES, NOT_APPLICABLE
found = {}
for f in sorted(glob.glob(os.path.join(root, "rocq/theories/*.v"))):
    for m in re.finditer(r"^(?:Theorem|Corollary) (c(\d\d\d?)_\w+)", open(f).read(), re.M):
        found.setdefault("C" + m.group(2), []).append(m.group(1))
ids = [json.loads(l)["id"] for l in open(os.path.join(root, "properties.jsonl"))]
claims = []
for i in ids:
    ths = found.get(i, [])
    if ths:
        partial = any(t.endswith("_partial") or t.endswith("_refuted") for t in ths)
        claims.append({"property": i, "status": "partial" if partial else "proved",
                       "theorems": ths, "note": NOTES.get(i, "")})
    elif i in NOT_APPLICABLE:
        claims.append({"property": i, "status": "not_applicable", "theorems": [], "note": NOT_APPLICABLE[i]})
for i in found:
    assert i in ids, i
json.dump({"claims": claims}, open(os.path.join(root, "MANIFEST.json"), "w"), indent=1)
print(len(claims), "claims;", sum(c["status"] == "proved" for c in claims), "proved;",
      "missing:", [i for i in ids if i not in [c["property"] for c in claims]])
print("no note:", [c["property"] for c in claims if not c["note"]])
