"""Regenerate rocq/_CoqProject's file list and MANIFEST.json from the theories and tools/notes.json."""
import glob, json, os, re

root = os.path.dirname(os.path.dirname(os.path.abspath(__file__)))
theories = os.path.join(root, "rocq", "theories")
files = sorted(os.path.basename(f) for f in glob.glob(theories + "/*.v"))
with open(os.path.join(root, "rocq", "_CoqProject"), "w") as f:
    f.write("-Q theories Verif\n\n" + "".join(f"theories/{x}\n" for x in files))

notes = json.load(open(os.path.join(root, "tools", "notes.json")))
ids = [json.loads(l)["id"] for l in open(os.path.join(root, "properties.jsonl"))]
thms = {i: [] for i in ids}
for x in files:
    if x.startswith("P_"):
        for n in re.findall(r"^Theorem\s+(C\d\d_\w+)", open(os.path.join(theories, x)).read(), re.M):
            thms[n[:3]].append(n)
claims = []
for i in ids:
    if thms[i]:
        open_ = any(n.endswith(("_partial", "_refuted")) for n in thms[i])
        claims.append(dict(property=i, status="partial" if open_ else "proved", theorems=thms[i], note=notes.get(i, "")))
    else:
        print("no theorem yet:", i)
json.dump({"claims": claims}, open(os.path.join(root, "MANIFEST.json"), "w"), indent=1)
print(len(claims), "claims,", sum(map(len, thms.values())), "theorems")
