"""Lists the files of the model with the first sentence of their headers in DESIGN.md, between two marks."""
import glob, os, re
here = os.path.dirname(os.path.abspath(__file__)); root = os.path.dirname(here)
first, last = "<!-- model files -->", "<!-- end of model files -->"
out = [first, "", "Files of the model (`rocq/theories/Model/`):", "", "| file | content |", "|---|---|"]
for f in sorted(glob.glob(root + "/rocq/theories/Model/*.v")):
    s = open(f).read()
    t = re.match(r"\(\*+\s*(.*?)\s*\*\)", s, re.S)
    t = re.sub(r"\s+", " ", t.group(1)) if t else ""
    m = re.match(r"(.*?[^.\d]\.)(\s|$)", t)
    t = (m.group(1) if m else t).replace("|", "\\|")
    out.append("| `%s` | %s |" % (os.path.basename(f), t))
out += ["", last]
p = root + "/DESIGN.md"; s = open(p).read()
if first in s:
    a, b = s.index(first), s.index(last) + len(last)
    s = s[:a] + "\n".join(out) + s[b:]
else:
    i = s.index("### 3.2 Simplifications")
    s = s[:i] + "\n".join(out) + "\n\n" + s[i:]
open(p, "w").write(s)
