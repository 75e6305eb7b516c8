"""Prints a table of what Print Assumptions lists for every theorem of rocq/theories/Prop_*.v (after a build)."""
import glob, os, re, subprocess
here = os.path.dirname(os.path.abspath(__file__))
root = here + "/../rocq"
groups = {}
for f in sorted(glob.glob(root + "/theories/Prop_*.v")):
    names = re.findall(r"^Print Assumptions (\w+)\.", open(f).read(), re.M)
    out = subprocess.run(["coqc", "-Q", "theories", "Verif", "-o", "/tmp/" + os.path.basename(f) + "o", "theories/" + os.path.basename(f)],
                         cwd=root, capture_output=True, text=True).stdout
    parts = re.split(r"^(?=Closed under|Axioms:)", out, flags=re.M)[1:]
    assert len(parts) == len(names), (f, len(parts), len(names))
    for n, t in zip(names, parts):
        ax = tuple(sorted(re.findall(r"^([\w.]+)\s*(?:$|:)", t.replace("Axioms:", ""), re.M))) if t.startswith("Axioms") else ()
        groups.setdefault(ax, []).append(n)
for ax in sorted(groups, key=len):
    print("* **" + (", ".join("`%s`" % a for a in ax) if ax else "closed under the global context (no axiom)") + "** (%d):" % len(groups[ax]))
    print("  " + ", ".join(sorted(groups[ax])) + ".")
