"""Regenerates MANIFEST.json from the theorem names in rocq/theories/*Props.v and tools/status.json."""
import glob, json, os, re
root = os.path.dirname(os.path.dirname(os.path.abspath(__file__)))
props = [json.loads(l) for l in open(os.path.join(root, "properties.jsonl"))]
status = json.load(open(os.path.join(root, "tools", "status.json")))
thms = {}
for f in sorted(glob.glob(os.path.join(root, "rocq", "theories", "*Props.v"))):
    for m in re.finditer(r"^Theorem ((C\d+)_\w+)", open(f).read(), re.M):
        thms.setdefault(m.group(2), []).append(m.group(1))
claims = []
for p in props:
    i = p["id"]
    s = status.get(i)
    if not thms.get(i) and not (s and s["status"] == "not_applicable"):
        continue
    if s is None:
        bad = [t for t in thms[i] if t.endswith(("_partial", "_refuted"))]
        s = {"status": "partial" if bad else "proved", "note": ""}
    claims.append({"property": i, "status": s["status"], "theorems": thms.get(i, []), "note": s["note"]})
json.dump({"claims": claims}, open(os.path.join(root, "MANIFEST.json"), "w"), indent=1, ensure_ascii=False)
print(len(props), "properties,", len(claims), "claims;", {x: sum(c["status"] == x for c in claims) for x in ("proved", "partial", "not_applicable")})
missing = [p["id"] for p in props if p["id"] not in {c["property"] for c in claims}]
print("without claim:", missing)
