"""Single source for properties.jsonl and MANIFEST.json.

P(id, title, statement, quantifier, why, anchors, status, theorems, note)
Run:  python3 tools/props.py   (rewrites /verif/properties.jsonl and /verif/MANIFEST.json)
"""
import json, os, glob
ROOT = os.path.dirname(os.path.dirname(os.path.abspath(__file__)))
PROPS = []
MAN = []

def P(id, title, statement, quantifier, why, anchors):
    PROPS.append(dict(id=id, title=title, statement=statement, quantifier=quantifier,
                      why_tests_cant=why, anchors=anchors))

def M(id, status, theorems, note=""):
    MAN.append(dict(property=id, status=status, theorems=theorems, note=note))

for f in sorted(glob.glob(os.path.join(ROOT, "tools", "props_*.py"))):
    exec(open(f).read(), dict(P=P, M=M))

ids = [p["id"] for p in PROPS]
assert len(ids) == len(set(ids)), "duplicate ids"
assert all(m["property"] in ids for m in MAN)
with open(os.path.join(ROOT, "properties.jsonl"), "w") as f:
    for p in sorted(PROPS, key=lambda p: p["id"]):
        f.write(json.dumps(p) + "\n")
with open(os.path.join(ROOT, "MANIFEST.json"), "w") as f:
    json.dump({"claims": sorted(MAN, key=lambda m: m["property"])}, f, indent=1)
    f.write("\n")
print(len(PROPS), "properties,", len(MAN), "claims,",
      "missing:", [i for i in ids if i not in {m["property"] for m in MAN}])
