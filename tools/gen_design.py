"""Writes DESIGN.md; with --check also runs Print Assumptions for every theorem of MANIFEST.json."""
import json, os, re, subprocess, sys
V = os.path.dirname(os.path.dirname(os.path.abspath(__file__)))
T = V + "/rocq/theories/"
order = re.findall(r"theories/(\w+)\.v", open(V + "/rocq/_CoqProject").read())
where = {}
for f in order:
    for x in re.finditer(r"^\s*(?:Theorem|Lemma|Corollary|Fact|Proposition|Remark) (\w+)", open(T + f + ".v").read(), re.M):
        where.setdefault(x.group(1), f)
claims = json.load(open(V + "/MANIFEST.json"))["claims"]
props = {}
for l in open(V + "/properties.jsonl"):
    d = json.loads(l); props[d["id"]] = d
thms = []
for c in claims:
    for t in c["theorems"]:
        if t not in thms: thms.append(t)
if "--check" in sys.argv:
    src = "From Verif Require " + " ".join(sorted({where[t] for t in thms})) + ".\n"
    src += "".join("Print Assumptions %s.%s.\n" % (where[t], t) for t in thms)
    open("/tmp/pa.v", "w").write(src)
    r = subprocess.run("coqc -Q theories Verif /tmp/pa.v", shell=True, capture_output=True, text=True, cwd=V + "/rocq")
    n = r.stdout.count("Closed under the global context")
    print(n, "of", len(thms), "closed")
    assert n == len(thms), r.stderr
def imports(f, seen):
    """the model files a theory rests on"""
    if f in seen: return
    seen.add(f)
    for m in re.finditer(r"From Verif Require (?:Import |Export )?([\w\s]+)\.", open(T + f + ".v").read()):
        for g in m.group(1).split(): imports(g, seen)
model = [f for f in order if not re.match(r"Spec|Props_|Base$", f) and not f.endswith("Proofs")]
subst = json.load(open(V + "/tools/design_subst.json"))
out = open(V + "/tools/design_head.md").read().replace("@NTHM@", str(len(thms)))
for k, v in subst.items(): out = out.replace("@%s@" % k, v)
assert "@NTHM" not in out
out += "## The properties\n\n"
out += "For each property: what is modelled (the sources it is about), how it is proved, and the theorems. All theorems are\n"
out += "closed under the global context.\n\n"
for c in claims:
    p = props[c["property"]]
    fs = []
    for t in c["theorems"]:
        if where[t] not in fs: fs.append(where[t])
    specs = []
    for f in fs:
        for m in re.finditer(r"From Verif Require (?:Import |Export )?([\w\s]+)\.", open(T + f + ".v").read()):
            for g in m.group(1).split():
                if g.startswith("Spec") and g not in specs: specs.append(g)
    out += "### %s %s (%s)\n\n%s\n\n" % (c["property"], p["title"], c["status"], p["statement"])
    out += "* Quantifies over: %s\n* Code: %s\n" % (p["quantifier"], ", ".join("`%s`" % a for a in p["anchors"]))
    out += "* Theorems (in %s; vocabulary in %s): %s\n" % (", ".join("`%s`" % f for f in fs), ", ".join("`%s`" % s for s in specs) or "the statement", ", ".join("`%s`" % t for t in c["theorems"]))
    if c["note"]: out += "* %s\n" % c["note"]
    out += "\n"
out += open(V + "/tools/design_findings.md").read()
open(V + "/DESIGN.md", "w").write(out)
print(len(out.split("\n")), "lines")
