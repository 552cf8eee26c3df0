"""Regenerate MANIFEST.json from the theorem names in rocq/theories/Props_*.v."""
import glob, json, os, re
root = os.path.dirname(os.path.dirname(os.path.abspath(__file__)))
props = [json.loads(l) for l in open(os.path.join(root, "properties.jsonl"))]
notes = json.load(open(os.path.join(root, "tools", "notes.json")))
thms = {}
for f in sorted(glob.glob(os.path.join(root, "rocq/theories/Props_*.v"))):
    for m in re.finditer(r"^Theorem ((C\d\d+)_\w+)", open(f).read(), re.M):
        thms.setdefault(m.group(2), []).append(m.group(1))
claims = []
for p in props:
    i = p["id"]
    t = thms.get(i, [])
    n = notes.get(i, {})
    if not t:
        if "status" not in n:
            continue
        claims.append(dict(property=i, status=n["status"], theorems=[], note=n.get("note", "")))
        continue
    st = n.get("status") or ("partial" if any(x.endswith("_partial") for x in t) else "proved")
    note = n.get("note", "")
    if any(x.endswith("_refuted") for x in t) and not note:
        note = "The part of the documented behaviour the code violates is refuted by a witness; the rest is proved."
    claims.append(dict(property=i, status=st, theorems=t, note=note))
json.dump({"claims": claims}, open(os.path.join(root, "MANIFEST.json"), "w"), indent=1)
known = {p["id"] for p in props}
print(len(claims), "claims; theorems:", sum(len(v) for v in thms.values()),
      "unknown:", sorted(set(thms) - known), "missing:", [p["id"] for p in props if p["id"] not in {c["property"] for c in claims}])
