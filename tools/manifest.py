"""Rewrite MANIFEST.json from the claims table below and list the theory files in _CoqProject."""
import json, os, re
root = os.path.dirname(os.path.dirname(os.path.abspath(__file__)))
th = os.path.join(root, "rocq", "theories")
notes = json.load(open(os.path.join(root, "tools", "claims.json")))
names = {}
for f in sorted(os.listdir(th)):
    if f.startswith("P_") and f.endswith(".v"):
        for m in re.finditer(r"^Theorem (C\d+)(_\w+)", open(os.path.join(th, f)).read(), re.M):
            names.setdefault(m.group(1), []).append(m.group(1) + m.group(2))
claims = []
for line in open(os.path.join(root, "properties.jsonl")):
    p = json.loads(line)["id"]
    ths = names.get(p, [])
    if not ths:
        status, note = "partial", "Not proved yet."
    else:
        status, note = notes.get(p, ["proved", ""])
    claims.append({"property": p, "status": status, "theorems": ths, "note": note})
json.dump({"claims": claims}, open(os.path.join(root, "MANIFEST.json"), "w"), indent=1)
with open(os.path.join(root, "rocq", "_CoqProject"), "w") as g:
    g.write("-Q theories Verif\n")
    for f in sorted(os.listdir(th)):
        if f.endswith(".v"):
            g.write("theories/%s\n" % f)
print(sum(1 for c in claims if c["theorems"]), "of", len(claims))
