"""Puts DESIGN.md together (run after a build: python3 tools/design.py)."""
import glob, json, os, re, subprocess
ROOT = os.path.dirname(os.path.dirname(os.path.abspath(__file__)))


def read(p):
    with open(os.path.join(ROOT, p)) as f:
        return f.read()


def assumptions():
    """Theorem -> what Print Assumptions says."""
    out = {}
    th = os.path.join(ROOT, "rocq", "theories")
    for f in sorted(glob.glob(os.path.join(th, "*Props.v"))):
        names = re.findall(r"^Print Assumptions (\w+)\.", open(f).read(), re.M)
        r = subprocess.run(["coqc", "-Q", th, "Verif", f], capture_output=True, text=True, cwd=th)
        lines = [l for l in r.stdout.splitlines() if l.strip()]
        assert r.returncode == 0 and lines == ["Closed under the global context"] * len(names), (f, r.stdout[-500:], r.stderr)
        out[os.path.basename(f)] = names
    return out


def main():
    claims = {c["property"]: c for c in json.loads(read("MANIFEST.json"))["claims"]}
    props = [json.loads(l) for l in read("properties.jsonl").splitlines()]
    rows, found = "", ""
    for name in ("rows", "findings"):
        p = os.path.join(ROOT, "tools", "design_%s_extra.md" % name)
        text = open(p).read().strip("\n") if os.path.exists(p) else ""
        if name == "rows":
            rows = text
        else:
            found = text
    d = read("tools/design_head.md").replace("@EXTRA@\n", rows + "\n" if rows else "")
    d += read("tools/design_findings.md").replace("@EXTRA@\n", found + "\n" if found else "")
    d += "## Properties, theorems and what is missing\n\n"
    for p in props:
        c = claims[p["id"]]
        d += "* **%s %s** (%s). %s\n  Theorems: %s. %s\n" % (
            p["id"], p["title"], c["status"], p["statement"],
            ", ".join("`%s`" % t for t in c["theorems"]) or "none", c["note"])
    d += "\n## Print Assumptions\n\nEach of these theorems is \"Closed under the global context\".\n\n"
    for f, names in assumptions().items():
        d += "* %s: %s\n" % (f, ", ".join("`%s`" % n for n in names))
    with open(os.path.join(ROOT, "DESIGN.md"), "w") as f:
        f.write(d)


main()
