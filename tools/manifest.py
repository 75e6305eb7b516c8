"""Source of MANIFEST.json (run: python3 tools/manifest.py > MANIFEST.json).
Theorem names are read from rocq/theories/Prop_*.v by their C?? prefix."""
import glob, json, re, os
here = os.path.dirname(os.path.abspath(__file__))
thms = {}
for f in sorted(glob.glob(here + "/../rocq/theories/Prop_*.v")):
    for m in re.finditer(r"^Theorem (C\d\d+\w*)", open(f).read(), re.M):
        thms.setdefault(m.group(1).split("_")[0], []).append(m.group(1))
NOTE = {
 "C06": "stated for a non-negative threshold; the steps counted are the recorded nan steps plus the one that stops the run",
 "C08": "refuted as stated; the exact report of a re-used object is proved",
 "C17": "refuted as stated (after a partial recharge without require_full_recharge); proved under the exact condition",
 "C18": "refuted for rkf45; proved for rk4",
 "C24": "eta_a is rejected, eta_r is not",
 "C25": "refuted; the exact region where it holds is proved",
 "C26": "refuted for Keplerian elements; exact contents of the array afterwards proved for both element sets",
 "C29": "refuted after assignment to elements_type; proved for every other sequence of calls",
 "C32": "time and propellant proved; duty-cycle part refuted",
}
PARTIAL = {"C08", "C17", "C18", "C24", "C25", "C26", "C29", "C32"}
extra = here + "/notes.json"
if os.path.exists(extra):
    d = json.load(open(extra)); NOTE.update(d["note"]); PARTIAL |= set(d["partial"])
claims = []
for c in sorted(thms, key=lambda c: int(c[1:])):
    claims.append({"property": c, "status": "partial" if c in PARTIAL or any(t.endswith("_partial") for t in thms[c]) else "proved",
                   "theorems": thms[c], "note": NOTE.get(c, "")})
print(json.dumps({"claims": claims}, indent=1))
