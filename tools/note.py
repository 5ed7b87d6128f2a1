"""note.py ID TEXT: set the manifest note of a property."""
import json, os, sys
p = os.path.join(os.path.dirname(os.path.abspath(__file__)), "notes.json")
d = json.load(open(p))
for k, v in zip(sys.argv[1::2], sys.argv[2::2]):
    d[k] = v
with open(p, "w") as f:
    f.write("{\n" + ",\n".join(f"{json.dumps(k)}: {json.dumps(d[k])}" for k in sorted(d)) + "\n}\n")
