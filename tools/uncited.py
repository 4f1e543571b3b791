#!/usr/bin/env python3
"""List the definitions of the model files with no comment right above them that cites a source line."""
import glob, os, re
here = os.path.dirname(os.path.abspath(__file__))
n = 0
for v in sorted(glob.glob(os.path.join(here, "../rocq/theories/*Model.v"))):
    L = open(v).read().split("\n")
    for i, l in enumerate(L):
        m = re.match(r"\s*(Definition|Fixpoint|Inductive|Record|Notation)\s+(\S+)", l)
        if not m:
            continue
        j, c = i - 1, ""
        if j >= 0 and L[j].rstrip().endswith("*)"):
            while True:
                c = L[j] + " " + c
                if "(*" in L[j]:
                    break
                j -= 1
        if not re.search(r"\.py:\d+", c):
            print(f"{os.path.basename(v)}:{i + 1}: {m.group(2)}")
            n += 1
print(n, "definitions without a citation of their own")
