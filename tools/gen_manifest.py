"""Write MANIFEST.json from the theorem names in rocq/theories/P_*.v.

Theorems are matched to properties by their Cnn_ prefix; status and note come
from tools/notes.json (property -> [status, note]).
"""
import glob, json, re, os
root = os.path.dirname(os.path.dirname(os.path.abspath(__file__)))
notes = json.load(open(os.path.join(root, "tools/notes.json")))
thms = {}
for f in sorted(glob.glob(os.path.join(root, "rocq/theories/P_*.v"))):
    for m in re.finditer(r"^Theorem ((C\d+)_\w+)", open(f).read(), re.M):
        thms.setdefault(m.group(2), []).append(m.group(1))
claims = []
for line in open(os.path.join(root, "properties.jsonl")):
    p = json.loads(line)["id"]
    status, note = notes.get(p, ["partial", "not yet modelled"])
    claims.append({"property": p, "status": status, "theorems": thms.get(p, []), "note": note})
    if status == "proved" and not thms.get(p):
        print("no theorem for", p)
json.dump({"claims": claims}, open(os.path.join(root, "MANIFEST.json"), "w"), indent=1)
print(sum(len(v) for v in thms.values()), "theorems")
