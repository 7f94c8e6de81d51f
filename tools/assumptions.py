#!/usr/bin/env python3
"""Print what each theorem in MANIFEST.json rests on.

Run after building rocq/.  Writes a scratch file that asks Coq for
`Print Assumptions` of every theorem named in the manifest and summarises the
answers.
"""
import glob
import json
import os
import re
import subprocess
import tempfile

ROOT = os.path.dirname(os.path.dirname(os.path.abspath(__file__)))
THEORIES = os.path.join(ROOT, "rocq", "theories")
DECL = re.compile(r"^\s*(?:Theorem|Lemma|Corollary|Proposition|Fact|Remark)\s+([\w']+)", re.M)

where = {}
for path in sorted(glob.glob(os.path.join(THEORIES, "*.v"))):
    for name in DECL.findall(open(path).read()):
        where.setdefault(name, os.path.basename(path)[:-2])
names = [t for c in json.load(open(os.path.join(ROOT, "MANIFEST.json")))["claims"] for t in c["theorems"]]
with tempfile.TemporaryDirectory() as d:
    src = os.path.join(d, "Assumptions.v")
    with open(src, "w") as f:
        f.write("From Verif Require %s.\n" % " ".join(sorted({where[n] for n in names})))
        for n in names:
            f.write("Print Assumptions %s.%s.\n" % (where[n], n))
    out = subprocess.run(["coqc", "-Q", THEORIES, "Verif", src], capture_output=True, text=True)
    print(out.stderr, end="")
    closed = out.stdout.count("Closed under the global context")
    print("%d theorems, %d closed under the global context" % (len(names), closed))
    rest = [l for l in out.stdout.splitlines() if l != "Closed under the global context"]
    print("\n".join(rest))
