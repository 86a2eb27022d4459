"""Append a property to properties.jsonl: addprop.py ID TITLE STATEMENT QUANTIFIER WHY ANCHORS(comma separated)"""
import json, sys
i, t, s, q, w, a = sys.argv[1:7]
have = [json.loads(l)["id"] for l in open("/verif/properties.jsonl")]
assert i not in have
open("/verif/properties.jsonl", "a").write(json.dumps({"id": i, "title": t, "statement": s, "quantifier": q, "why_tests_cant": w, "anchors": a.split(",")}) + "\n")
