"""Rewrites the generated parts of DESIGN.md: the plan table (section 2), the list of findings (4)
and the table of assumptions (5).

usage: gen_assumptions.py [--recompile]; with --recompile every property file is compiled again
(the rest of the development must be built) and what Print Assumptions says is kept in
/tmp/pa/*.out; otherwise the files that are there are used."""
import glob, json, os, re, subprocess, sys
root = os.path.abspath(os.path.join(os.path.dirname(__file__), ".."))
exec(open(root + "/tools/gen_design_plan.py").read())
props = [json.loads(l) for l in open(root + "/properties.jsonl")]
claims = {c["property"]: c for c in json.load(open(root + "/MANIFEST.json"))["claims"]}

files = sorted(glob.glob(root + "/rocq/theories/Properties/*.v"))
os.makedirs("/tmp/pa", exist_ok=True)
for f in files:
    b = os.path.basename(f)[:-2]
    out = "/tmp/pa/%s.out" % b
    if "--recompile" in sys.argv or not os.path.exists(out) or os.path.getmtime(out) < os.path.getmtime(f):
        r = subprocess.run(["coqc", "-Q", "theories", "Verif", "-o", "/tmp/pa/%s.vo" % b, f],
                           cwd=root + "/rocq", capture_output=True, text=True)
        assert r.returncode == 0, (f, r.stderr)
        open(out, "w").write(r.stdout)
SHORT = {"ClassicalDedekindReals.sig_not_dec": "sig_not_dec",
         "ClassicalDedekindReals.sig_forall_dec": "sig_forall_dec",
         "FunctionalExtensionality.functional_extensionality_dep": "functional_extensionality_dep",
         "Classical_Prop.classic": "classic"}
groups = {}
for f in files:
    b = os.path.basename(f)[:-2]
    names = re.findall(r"^Print Assumptions ([\w']+)", open(f).read(), re.M)
    thms = re.findall(r"^\s*Theorem\s+(\w+)", open(f).read(), re.M)
    assert names == thms, (f, set(names) ^ set(thms))
    blocks = re.split(r"(?m)^(?=Axioms:|Closed under)", open("/tmp/pa/%s.out" % b).read())[1:]
    assert len(blocks) == len(names), (f, len(blocks), len(names))
    for n, t in zip(names, blocks):
        ax = re.findall(r"(?m)^([A-Za-z_][\w.']*)(?=\s*:|$)", t.split("\n", 1)[1]) if t.startswith("Axioms") else []
        for a in ax: assert a in SHORT, (n, a)
        groups.setdefault(tuple(sorted(SHORT[a] for a in ax)), []).append(n)

plan = "| id | property | model and proof | status |\n|---|---|---|---|\n"
for p in props:
    plan += "| %s | %s | %s | %s |\n" % (p["id"], p["title"], PLAN[p["id"]], claims[p["id"]]["status"])

find = ""
for p in props:
    c = claims[p["id"]]
    ref = [t for t in c["theorems"] if t.endswith("_refuted")]
    if ref:
        find += "* **%s** (%s). %s Witness: %s." % (p["id"], p["title"], c["note"], ", ".join("`%s`" % t for t in ref))
        par = [t for t in c["theorems"] if t not in ref]
        if par: find += " What holds: %s." % ", ".join("`%s`" % t for t in par)
        find += "\n"

ass = ""
for g in sorted(groups, key=len):
    ass += "**%s** — %d theorems: %s\n\n" % (" + ".join("`%s`" % a for a in g) if g else "Closed under the global context (no axiom)",
                                              len(groups[g]), ", ".join(sorted(groups[g], key=lambda t: (int(t[1:3]), t))))

doc = open(root + "/DESIGN.md").read()
for key, text in (("plan", plan), ("findings", find), ("assumptions", ass)):
    doc, n = re.subn(r"(?s)(<!-- begin:%s -->\n).*?(<!-- end:%s -->)" % (key, key), lambda m: m.group(1) + text + m.group(2), doc)
    assert n == 1, key
open(root + "/DESIGN.md", "w").write(doc)
print({g: len(v) for g, v in groups.items()})
