#!/usr/bin/env python3
"""Check the source citations in the model files.

For every citation 'file.py:a-b, [name]' in rocq/theories, the range must lie inside the file, and if
[name] is a function or class defined in that file, one of the
ranges must lie within that definition.  With --show, print the first and last line of each range.
"""
import ast, glob, re, sys, os
REPO = "/repo"
SHOW = "--show" in sys.argv
here = os.path.dirname(os.path.abspath(__file__))
bad = n = 0
files = {}
BASE = {}
for d, _, fs in os.walk(os.path.join(REPO, "edulint")):
    for x in fs:
        BASE[x] = os.path.relpath(os.path.join(d, x), REPO)
def info(f):
    if f not in files:
        src = open(os.path.join(REPO, f)).read()
        d = {}
        for x in ast.walk(ast.parse(src)):
            if isinstance(x, (ast.FunctionDef, ast.ClassDef)):
                first = min([x.lineno] + [y.lineno for y in x.decorator_list])
                d.setdefault(x.name, []).append((first, x.lineno, x.end_lineno))
        files[f] = (len(src.splitlines()), d)
    return files[f]
for v in sorted(glob.glob(os.path.join(here, "../rocq/theories/*.v"))):
    txt = open(v).read()
    for m in re.finditer(r"((?:\[[\w.]+\] \()?)([\w/]+\.py):((?:\d+(?:-\d+)?(?:, ?(?=\d))?)+)((?:,? *\n? *\[[\w.]+\](?:, | and )?)*)", txt):
        pre, f, rng, names = m.groups()
        names = pre + names
        if '/' not in f:
            f = BASE.get(f, f)
        line = txt.count("\n", 0, m.start()) + 1
        n += 1
        where = f"{os.path.basename(v)}:{line}: {f}:{rng}"
        if not os.path.exists(os.path.join(REPO, f)):
            print(where, "no such file"); bad += 1; continue
        size, defs = info(f)
        rs = [tuple(map(int, (x.split("-") * 2)[:2])) for x in rng.replace(" ", "").strip(",").split(",")]
        if SHOW:
            ls = open(os.path.join(REPO, f)).read().splitlines()
            for a, b in rs:
                print(where, '|', names.strip(' ,\n'), '|', ls[a-1].strip()[:70], '...', ls[min(b, size)-1].strip()[:60])
        for a, b in rs:
            if not (1 <= a <= b <= size):
                print(where, "out of range"); bad += 1
        for name in re.findall(r"\[([\w.]+)\]", names):
            name = name.split(".")[-1]
            if name in defs:
                ok = lambda a, b: any(
                    (d <= a and b <= e) or (d - 1 <= a <= l <= b <= e) for d, l, e in defs[name])
                if not any(ok(a, b) for a, b in rs):
                    print(where, name, "is at", defs[name]); bad += 1
print(f"{n} citations, {bad} problems")
sys.exit(bad > 0)
