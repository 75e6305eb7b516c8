"""Assembles DESIGN.md from tools/design.in.md (run: python3 tools/design.py > DESIGN.md, after a build)."""
import json, os, subprocess, sys
here = os.path.dirname(os.path.abspath(__file__))
HOW = json.load(open(here + "/how.json"))
FIND = open(here + "/findings.md").read().strip()
claims = {c["property"]: c for c in json.load(open(here + "/../MANIFEST.json"))["claims"]}
out = []
for l in open(here + "/../properties.jsonl"):
    p = json.loads(l)
    c = claims[p["id"]]
    out.append("**%s %s** (%s). %s  \nTheorems: %s." % (p["id"], p["title"], c["status"], HOW.get(p["id"], ""), ", ".join("`%s`" % t for t in c["theorems"])))
    if p["id"] not in HOW: print("no text for", p["id"], file=sys.stderr)
a = subprocess.run([sys.executable, here + "/assumptions.py"], capture_output=True, text=True, check=True).stdout.strip()
t = open(here + "/design.in.md").read()
t = t.replace("PERPROP", "\n\n".join(out)).replace("ASSUMPTIONS", a).replace("FINDINGS", FIND)
print(t, end="")
