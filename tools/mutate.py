"""Seed a bug into a scratch copy of the model and report which theorems stop proving.

usage: python3 tools/mutate.py SPEC.json   (a list of objects with keys
  file, definition, old, new, edit, claim [, tightened])
A proof that no longer goes through is replaced by `Admitted` in the scratch copy, so that every
theorem depending on it can be found with `Print Assumptions`.  Results are appended to
seeded/LOG.jsonl.  With --dry nothing is appended; --check only tests that the edits apply.
"""
import json, multiprocessing, os, re, shutil, subprocess, sys, tempfile

ROOT = os.path.dirname(os.path.dirname(os.path.abspath(__file__)))
SRC = os.path.join(ROOT, "rocq")


def files():
    return [l.strip()[len("theories/"):-2] for l in open(os.path.join(SRC, "_CoqProject"))
            if l.strip().endswith(".v")]


def deps(scratch):
    d = {}
    for f in files():
        txt = open(os.path.join(scratch, f + ".v")).read()
        req = " ".join(re.findall(r"From Verif Require (?:Import|Export) ([^.]*)\.", txt)).split()
        d[f] = req
    return d


def closure(d, f):
    out = {f}
    changed = True
    while changed:
        changed = False
        for g, r in d.items():
            if g not in out and out & set(r):
                out.add(g)
                changed = True
    return [g for g in files() if g in out]


STMT = re.compile(r"^\s*(?:Local |Global )?(?:Theorem|Lemma|Example|Corollary|Remark|Fact|Instance)\s+([\w']+)", re.M)


def compile_file(scratch, f, failed):
    path = os.path.join(scratch, f + ".v")
    for _ in range(400):
        try:
            p = subprocess.run(["coqc", "-Q", scratch, "Verif", path], capture_output=True, text=True, timeout=1200)
        except subprocess.TimeoutExpired:
            return None, "timeout"
        if p.returncode == 0:
            return p.stdout, None
        m = re.search(r'line (\d+), characters', p.stderr)
        if not m:
            return None, p.stderr
        line = int(m.group(1))
        txt = open(path).read()
        lines = txt.split("\n")
        pos = sum(len(x) + 1 for x in lines[:line - 1])
        start = None
        for s in STMT.finditer(txt):
            if s.start() <= pos + len(lines[line - 1]):
                start = s
        if start is None:
            return None, p.stderr
        q = re.compile(r"\bQed\.|\bDefined\.|\bAdmitted\.").search(txt, start.end())
        if q is None or q.group() == "Admitted." or q.end() < pos:
            return None, p.stderr
        pr = txt.find("Proof", start.end())
        if pr < 0 or pr > q.start():
            return None, p.stderr
        name = start.group(1)
        failed.append(f + "." + name)
        # keep the line structure irrelevant; drop the script
        txt = txt[:pr] + "Admitted." + txt[q.end():]
        open(path, "w").write(txt)
    return None, "too many failures"


def run(spec, log):
    scratch = os.path.join(tempfile.mkdtemp(prefix="mut"), "theories")
    shutil.copytree(os.path.join(SRC, "theories"), scratch)
    path = os.path.join(scratch, spec["file"] + ".v")
    txt = open(path).read()
    assert txt.count(spec["old"]) == 1, (spec["file"], spec["old"], txt.count(spec["old"]))
    open(path, "w").write(txt.replace(spec["old"], spec["new"]))
    failed, broken, err = [], [], None
    for f in closure(deps(scratch), spec["file"]):
        out, err = compile_file(scratch, f, failed)
        if err:
            print("  cannot compile", f, err[:600])
            break
        if f.endswith("Props"):
            names = re.findall(r"^Print Assumptions ([\w']+)\.", open(os.path.join(scratch, f + ".v")).read(), re.M)
            chunks = re.split(r"(?=^Closed under the global context|^Axioms:)", out, flags=re.M)
            chunks = [c for c in chunks if c.startswith("Closed under") or c.startswith("Axioms:")]
            assert len(chunks) == len(names), (f, len(chunks), len(names))
            broken += [n for n, c in zip(names, chunks) if c.startswith("Axioms:")]
    ex = [x.split(".")[1] for x in failed if x.split(".")[0].endswith(("Props", "Examples")) and x.split(".")[1] not in broken]
    rec = dict(definition=spec["file"] + "." + spec["definition"], edit=spec["edit"], claim=spec["claim"],
               failed=broken, failed_examples=ex, tightened=spec.get("tightened", []))
    if err:
        rec["note"] = "a dependent file could not be compiled at all: " + err.strip().split("\n")[-1][:200]
    if spec.get("note"):
        rec["note"] = spec["note"]
    print(json.dumps(rec))
    shutil.rmtree(os.path.dirname(scratch), ignore_errors=True)
    if log:
        with open(os.path.join(ROOT, "seeded", "LOG.jsonl"), "a") as g:
            g.write(json.dumps(rec) + "\n")


def attempt(args):
    try:
        run(*args)
    except Exception as e:
        print("  failed:", args[0]["edit"], repr(e)[:300])
    sys.stdout.flush()


if __name__ == "__main__":
    log = "--dry" not in sys.argv
    specs = [s for a in sys.argv[1:] if not a.startswith("--") for s in json.load(open(a))]
    bad = [s for s in specs if open(os.path.join(SRC, "theories", s["file"] + ".v")).read().count(s["old"]) != 1]
    for s in bad:
        print("  does not apply:", s["definition"], s["old"])
    if "--check" not in sys.argv and not bad:
        with multiprocessing.Pool(3) as pool:
            pool.map(attempt, [(s, log) for s in specs], chunksize=1)
