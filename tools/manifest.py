"""Regenerate MANIFEST.json from notes.json and the theorem names found in the *_Props.v files.

A theorem named C07_... belongs to property C07.  A property is "partial" when notes.json says so,
otherwise "proved"; properties without theorems are reported with the status given in notes.json.
"""
import glob, json, re, sys, os
root = os.path.dirname(os.path.dirname(os.path.abspath(__file__)))
props = [json.loads(l) for l in open(os.path.join(root, "properties.jsonl"))]
notes = json.load(open(os.path.join(root, "tools", "notes.json")))
thms = {}
for f in sorted(glob.glob(os.path.join(root, "rocq", "theories", "*_Props*.v"))):
    for m in re.finditer(r"^Theorem\s+(C\d+)_(\w+)", open(f).read(), re.M):
        thms.setdefault(m.group(1), []).append(m.group(1) + "_" + m.group(2))
claims = []
for p in props:
    i = p["id"]
    n = notes.get(i, {})
    t = thms.get(i, [])
    status = n.get("status")
    if status is None:
        status = "partial" if (not t or any(x.endswith("_partial") or x.endswith("_refuted") for x in t)) else "proved"
    note = n.get("note", "" if t else "not yet proved")
    claims.append({"property": i, "status": status, "theorems": t, "note": note})
json.dump({"claims": claims}, open(os.path.join(root, "MANIFEST.json"), "w"), indent=1)
print({s: sum(c["status"] == s for c in claims) for s in ("proved", "partial", "not_applicable")}, "theorems", sum(map(len, thms.values())))
print("without theorem:", [c["property"] for c in claims if not c["theorems"]])
