#!/usr/bin/env python3
"""Write a Coq file that prints the assumptions of every theorem of MANIFEST.json, or
summarise its output.

  assumptions.py gen > /tmp/pa.v; (cd rocq; coqc -Q theories Verif /tmp/pa.v > /tmp/pa.out)
  assumptions.py table /tmp/pa.out
"""
import glob, json, os, re, sys

ROOT = os.path.dirname(os.path.dirname(os.path.abspath(__file__)))
claims = json.load(open(os.path.join(ROOT, "MANIFEST.json")))["claims"]
names = [(c["property"], t) for c in claims for t in c["theorems"]]

if sys.argv[1] == "gen":
    where = {}
    for f in sorted(glob.glob(os.path.join(ROOT, "rocq/theories/*.v"))):
        for m in re.finditer(r"^\s*(?:Theorem|Lemma|Corollary|Example|Definition)\s+([\w']+)",
                             open(f).read(), re.M):
            where.setdefault(m.group(1), []).append(os.path.basename(f)[:-2])
    mods = sorted({where[t][0] for _, t in names})
    for m in mods:
        print("Require Verif.%s." % m)
    for _, t in names:
        cands = [m for m in where[t] if m.startswith(("T_", "Ex_"))] or where[t]
        print("Print Assumptions Verif.%s.%s." % (cands[0], t))
else:
    blocks = []
    for line in open(sys.argv[2]):
        if line.startswith("Closed under") or line.startswith("Axioms:"):
            blocks.append(set())
            continue
        m = re.match(r"([A-Za-z_][\w.']*)\s*(?::|$)", line)
        if m:
            blocks[-1].add(m.group(1))
    assert len(blocks) == len(names)
    ax = {t: b for (_, t), b in zip(names, blocks)}
    short = {"ClassicalDedekindReals.sig_forall_dec": "D",
             "ClassicalDedekindReals.sig_not_dec": "N",
             "FunctionalExtensionality.functional_extensionality_dep": "E",
             "Classical_Prop.classic": "C"}
    for c in claims:
        groups = {}
        for t in c["theorems"]:
            key = "".join(sorted(short.get(a, "?" + a) for a in ax[t])) or "-"
            groups.setdefault(key, []).append(t)
        cells = ["%s: %s" % (k, ", ".join("`%s`" % t for t in ts)) for k, ts in sorted(groups.items())]
        print("| %s | %s |" % (c["property"], "; ".join(cells)))
