"""Writes MANIFEST.json: theorem names are collected from the Props*.v files by their Cnn_ prefix."""
import glob, json, re
notes = {}
exec(open("/verif/tools/notes.py").read())
thms = {}
for f in sorted(glob.glob("/verif/rocq/theories/Props*.v")):
    for m in re.finditer(r"^Theorem (C(\d\d+)_\w+)", open(f).read(), re.M):
        thms.setdefault("C" + m.group(2), []).append(m.group(1))
claims = []
for line in open("/verif/properties.jsonl"):
    pid = json.loads(line)["id"]
    status, note = notes.get(pid, ("partial", "No theorem yet."))
    if pid not in thms:
        status = "not_applicable" if status == "not_applicable" else "partial"
        if pid not in notes: note = "No theorem yet."
    claims.append({"property": pid, "status": status, "theorems": thms.get(pid, []), "note": note})
json.dump({"claims": claims}, open("/verif/MANIFEST.json", "w"), indent=1)
print(sum(c["status"] == "proved" for c in claims), "proved of", len(claims),
      "| without theorem:", [c["property"] for c in claims if not c["theorems"]])
