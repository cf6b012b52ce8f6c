#!/usr/bin/env python3
"""Run seeded faults: apply an edit to a model definition in a scratch copy, rebuild, give every
proof that fails a stand-in (an axiom that exists in the scratch copy only), and list the property
theorems whose Print Assumptions then mention the stand-in.

usage: mutate.py <mutants.py> [first-index [last-index]]; results are appended to seeded/LOG.jsonl."""
import json, os, re, shutil, subprocess, sys, time
SRC = "/tmp/mut/src/rocq"; DIR = "/tmp/mut/rocq"; LOG = "/verif/seeded/LOG.jsonl"
JOBS = os.environ.get("JOBS", "3")
KINDS = r"^\s*(?:Local |Global )?(?:Lemma|Theorem|Example|Corollary|Fact|Remark|Instance)\s+([\w']+)"

def sync():
    os.makedirs(DIR, exist_ok=True)
    subprocess.run(["rsync", "-a", "--delete", "--exclude=*.vo*", "--exclude=*.glob", "--exclude=*.out", "--exclude=.*.aux",
                    "--exclude=Makefile*", "--exclude=.Makefile*", SRC + "/", DIR + "/"], check=True) \
        if shutil.which("rsync") else fallback_sync()
    base = DIR + "/theories/Base/Base.v"
    text = open(SRC + "/theories/Base/Base.v").read() + "\nAxiom stand_in : forall P : Prop, P.\n"
    if open(base).read() != text: write(base, text)

def fallback_sync():
    for root, _, files in os.walk(SRC):
        for f in files:
            if f.endswith(".v") or f == "_CoqProject":
                s = os.path.join(root, f); d = s.replace(SRC, DIR)
                os.makedirs(os.path.dirname(d), exist_ok=True)
                if s.endswith("Base/Base.v") and os.path.exists(d): continue
                if not os.path.exists(d) or open(s).read() != open(d).read(): shutil.copyfile(s, d)

def write(path, text):
    with open(path, "w") as f: f.write(text)

def make():
    r = subprocess.run("ulimit -v 12000000; timeout 1500 make -k -j%s COQC=/tmp/mut/coqc.sh 2>&1" % JOBS,
                       shell=True, cwd=DIR, capture_output=True, text=True)
    return r.returncode, r.stdout

def patch(path, line):
    """Replace the proof around the given line; returns the name of the lemma, or None."""
    src = open(path).read().split("\n")
    i = line - 1
    while i >= 0 and not re.match(KINDS, src[i]): i -= 1
    if i < 0: return None
    name = re.match(KINDS, src[i]).group(1)
    j = i
    while j < len(src) and not re.search(r"\bProof\b", src[j]): j += 1
    k = j
    while k < len(src) and not re.search(r"\b(Qed|Defined)\.", src[k]): k += 1
    if not (i <= line - 1 <= k): return None
    if line - 1 < j and not re.search(r"\bProof\b", src[j]): return None
    if line - 1 < j: return None
    head = src[j][:src[j].index("Proof")]
    tail = src[k][re.search(r"\b(Qed|Defined)\.", src[k]).end():]
    src[j:k + 1] = [head + "Proof. apply stand_in. Qed." + tail]
    write(path, "\n".join(src))
    return name

def run(m):
    files = m["file"] if isinstance(m["file"], list) else [m["file"]]
    path = DIR + "/theories/" + m["file"]
    text = open(path).read()
    if text.count(m["old"]) != m.get("count", 1):
        print("!! %s: old text occurs %d times" % (m["definition"], text.count(m["old"]))); return
    touched = set()
    write(path, text.replace(m["old"], m["new"])); touched.add(path)
    failed, notes, t0, out = [], [], time.time(), ""
    for _ in range(60):
        rc, out = make()
        if rc == 0: break
        if rc == 124 and not re.search(r"^Error|Error 124", out, re.M): continue  # the whole build ran out of time: go on with it
        errs = re.findall(r'File "\./(theories/[^"]+)", line (\d+), characters [^\n]*\n(?:[^\n]*\n)?Error', out)
        errs = sorted(set(errs)) or []
        hung = re.findall(r"\*\*\* \[Makefile:\d+: (theories/\S+)\.vo\] Error 124", out)
        if hung: notes.append("timed out: " + ", ".join(sorted(set(hung)))); break
        progress = False
        seen = set()
        for f, line in errs:
            if f in seen: continue
            seen.add(f)
            n = patch(DIR + "/" + f, int(line)); touched.add(DIR + "/" + f)
            if n: failed.append(f.split("/")[-1][:-2] + "." + n); progress = True
            else: notes.append("does not typecheck: %s line %s" % (f, line))
        if not progress: break
        if any("typecheck" in n for n in notes): break
    props = []
    if rc == 0:
        for f in sorted(os.listdir(DIR + "/theories/Properties")):
            if not f.endswith(".v"): continue
            printed = open(DIR + "/theories/Properties/" + f + ".out").read()
            names = re.findall(r"^Print Assumptions ([\w']+)", open(DIR + "/theories/Properties/" + f).read(), re.M)
            blocks = re.split(r"(?m)^(?=Axioms:|Closed under)", printed)[1:]
            props += [n for n, b in zip(names, blocks) if "stand_in" in b]
    examples = [n.split(".")[1] for n in failed if re.search(r"_case\d*$|_example", n)]
    entry = {"definition": m["file"] + ":" + m["definition"], "edit": m["edit"], "claim": m["claim"],
             "theorems_failed": props, "lemmas_failed": failed, "examples_failed": examples,
             "detected": bool(failed or notes), "notes": "; ".join(notes), "tightened": m.get("tightened", []),
             "seconds": int(time.time() - t0)}
    with open(LOG, "a") as f: f.write(json.dumps(entry) + "\n")
    print(json.dumps({k: entry[k] for k in ("definition", "edit", "theorems_failed", "lemmas_failed", "notes")}), flush=True)
    for t in touched:
        if t.endswith("Base/Base.v"): continue
        s = open(t.replace(DIR, SRC)).read()
        write(t, s)
    sync()

if __name__ == "__main__":
    env = {}
    exec(open(sys.argv[1]).read(), env)
    # the faults are tried on the last commit, whatever is being edited meanwhile
    subprocess.run("rm -rf /tmp/mut/src && mkdir -p /tmp/mut/src && cd /verif && git archive HEAD rocq | tar -x -C /tmp/mut/src",
                   shell=True, check=True)
    a = int(sys.argv[2]) if len(sys.argv) > 2 else 0
    b = int(sys.argv[3]) if len(sys.argv) > 3 else 10**6
    # a compiler wrapper that keeps what each file prints
    write("/tmp/mut/coqc.sh", "#!/bin/sh\nfor last; do :; done\ntimeout 400 coqc \"$@\" > \"$last.out\" 2>&1; rc=$?\ncat \"$last.out\"; exit $rc\n")
    os.chmod("/tmp/mut/coqc.sh", 0o755)
    sync()
    subprocess.run("coq_makefile -f _CoqProject -o Makefile", shell=True, cwd=DIR, check=True, capture_output=True)
    rc, out = make()
    if rc: sys.exit("clean copy does not build\n" + out[-2000:])
    for m in env["mutants"][a:b]: run(m)
