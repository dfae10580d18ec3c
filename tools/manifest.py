#!/usr/bin/env python3
"""Regenerate MANIFEST.json from the table below and check every theorem name
against the sources."""
import json, os, re, sys
ROOT = os.path.dirname(os.path.dirname(os.path.abspath(__file__)))
CLAIMS = {}
def claim(pid, status, note, names):
    CLAIMS[pid] = dict(property=pid, status=status, theorems=names.split(), note=note)
exec(open(os.path.join(ROOT, "tools", "claims.py")).read())
src = "".join(open(os.path.join(ROOT, "rocq/theories", f)).read()
              for f in os.listdir(os.path.join(ROOT, "rocq/theories")) if f.endswith(".v"))
have = set(re.findall(r"^\s*(?:Theorem|Lemma|Example|Corollary)\s+([A-Za-z0-9_']+)", src, re.M))
props = [json.loads(l)["id"] for l in open(os.path.join(ROOT, "properties.jsonl")) if l.strip()]
bad = [(c, t) for c, d in CLAIMS.items() for t in d["theorems"] if t not in have]
missing = [p for p in props if p not in CLAIMS]
used = {t for d in CLAIMS.values() for t in d["theorems"]}
unused = sorted(t for t in re.findall(r"^\s*Theorem\s+(c\d\d_[A-Za-z0-9_']+)", src, re.M) if t not in used)
print("unknown theorems:", bad); print("properties without claim:", missing); print("theorems not listed:", unused)
json.dump({"claims": [CLAIMS[p] for p in props if p in CLAIMS]}, open(os.path.join(ROOT, "MANIFEST.json"), "w"), indent=1)
sys.exit(1 if bad else 0)
