"""Write MANIFEST.json from properties.jsonl, the theorem names in rocq/theories/*Props.v, and tools/notes.json."""
import glob, json, re

props = [json.loads(line) for line in open("/verif/properties.jsonl")]
notes = json.load(open("/verif/tools/notes.json"))
names = []
for fn in sorted(glob.glob("/verif/rocq/theories/*Props.v")):
    names += re.findall(r"^Theorem (C\d\d+_\w+)", open(fn).read(), re.M)
assert len(names) == len(set(names)), "duplicate names"
known = {p["id"] for p in props}
for n in names:
    assert n.split("_")[0] in known, n
claims = []
for p in props:
    i = p["id"]
    thms = [n for n in names if n.startswith(i + "_")]
    note = notes.get(i, {})
    if not thms:
        print("no theorem yet:", i)
        continue
    status = note.get("status")
    if status is None:
        status = "partial" if any(n.endswith("_partial") for n in thms) else "proved"
    claims.append({"property": i, "status": status, "theorems": thms, "note": note.get("note", "")})
json.dump({"claims": claims}, open("/verif/MANIFEST.json", "w"), indent=1)
print(len(claims), "claims,", len(names), "theorems")
