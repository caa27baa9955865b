"""Print, as Markdown, what Print Assumptions says about each theorem of P_*.v
(to be run after the build; the result is part of DESIGN.md)."""
import glob, os, re, subprocess, tempfile
root = os.path.join(os.path.dirname(os.path.dirname(os.path.abspath(__file__))), "rocq")
groups = {}
for f in sorted(glob.glob(root + "/theories/P_*.v")):
    mod = os.path.basename(f)[:-2]
    names = re.findall(r"^Theorem (\w+)", open(f).read(), re.M)
    with tempfile.TemporaryDirectory() as d:
        q = os.path.join(d, "q.v")
        open(q, "w").write("From Verif Require %s.\n" % mod + "".join("Print Assumptions %s.%s.\n" % (mod, n) for n in names))
        out = subprocess.run(["coqc", "-q", "-Q", root + "/theories", "Verif", q], capture_output=True, text=True).stdout
    segs = re.split(r"^(?=Closed under|Axioms:)", out, flags=re.M)[1:]
    assert len(segs) == len(names), mod
    for n, s in zip(names, segs):
        ax = tuple(sorted(re.findall(r"^([A-Z][\w.]*)\s*:", s.replace("\n  :", " :"), re.M))) if s.startswith("Axioms") else ()
        ax = tuple(a for a in ax if a != "Axioms")
        groups.setdefault(ax, []).append(n)
for ax, ns in sorted(groups.items()):
    print("* **" + (", ".join(ax) if ax else "no axioms (closed under the global context)") + "**, %d theorems: " % len(ns) + ", ".join(ns) + ".")
