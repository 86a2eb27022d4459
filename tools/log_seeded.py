"""Append the results of mutate.py to seeded/LOG.jsonl."""
import json, sys
for f in sys.argv[1:]:
    with open("/verif/seeded/LOG.jsonl", "a") as out:
        for r in json.load(open(f)):
            if "error" in r: print("skipped", r["definition"], r["error"][:80]); continue
            out.write(json.dumps({"file": r["file"], "definition": r["definition"], "edit": r.get("edit", r["old"] + " -> " + r["new"]),
                "claim_broken": r["claim"], "lemmas_broken": r["broken_lemmas"],
                "theorems_failed": r["failed"], "theorems_tightened": r.get("tightened", [])}) + "\n")
