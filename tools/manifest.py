"""Writes MANIFEST.json.  Run from /verif after adding theorems."""
import json
C = []
def c(prop, status, theorems, note=""):
    C.append({"property": prop, "status": status, "theorems": theorems.split(), "note": note})

exec(open("tools/claims.txt").read())
ids = [json.loads(l)["id"] for l in open("properties.jsonl")]
done = {x["property"] for x in C}
for i in ids:
    if i not in done:
        C.append({"property": i, "status": "partial", "theorems": [], "note": "not yet proved"})
C.sort(key=lambda x: x["property"])
json.dump({"claims": C}, open("MANIFEST.json", "w"), indent=1)
