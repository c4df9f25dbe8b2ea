"""Regenerate MANIFEST.json from the theorem names in rocq/theories/P_*.v.

A property is 'proved' if it has theorems and none ends in _partial (see NOTES for the exceptions)."""
import glob, json, re
NOTES = {}
try:
    NOTES = json.load(open("tools/notes.json"))
except FileNotFoundError:
    pass
ths = {}
for f in sorted(glob.glob("rocq/theories/P_*.v")):
    for m in re.finditer(r"^Theorem\s+(C\d\d\w*)", open(f).read(), re.M):
        ths.setdefault(m.group(1).split("_")[0], []).append(m.group(1))
claims = []
for line in open("properties.jsonl"):
    p = json.loads(line)["id"]
    t = ths.get(p, [])
    n = NOTES.get(p, {})
    if not t:
        continue
    status = n.get("status") or ("partial" if any(x.endswith("_partial") for x in t) else "proved")
    claims.append({"property": p, "status": status, "theorems": t, "note": n.get("note", "")})
json.dump({"claims": claims}, open("MANIFEST.json", "w"), indent=1)
print(len(claims), "claims", sum(len(c["theorems"]) for c in claims), "theorems")
