#!/usr/bin/env python3
"""Regenerates MANIFEST.json: theorem names are collected from rocq/theories/Properties*.v
by their C<nn>_ prefix; status and note come from STATUS below."""
import json, re, glob, os
ROOT = os.path.dirname(os.path.dirname(os.path.abspath(__file__)))
thms = {}
for f in sorted(glob.glob(ROOT + "/rocq/theories/Properties*.v")):
    for m in re.finditer(r"^Theorem\s+(C\d\d+)(_\w+)", open(f).read(), re.M):
        thms.setdefault(m.group(1), []).append(m.group(1) + m.group(2))
NOTES = json.load(open(ROOT + "/tools/notes.json"))
claims = []
for line in open(ROOT + "/properties.jsonl"):
    i = json.loads(line)["id"]
    t = thms.get(i, [])
    n = NOTES.get(i, {})
    status = n.get("status", "proved" if t and not any(x.endswith(("_partial", "_refuted")) for x in t) else "partial")
    claims.append({"property": i, "status": status, "theorems": t,
                   "note": n.get("note", "" if t else "not proved yet")})
json.dump({"claims": claims}, open(ROOT + "/MANIFEST.json", "w"), indent=1)
print({s: sum(c["status"] == s for c in claims) for s in ("proved", "partial", "not_applicable")})
