#!/usr/bin/env python3
"""Rebuild MANIFEST.json from the theorem names in rocq/theories/Prop*.v and the notes below."""
import re, glob, json, os, collections
root = os.path.dirname(os.path.dirname(os.path.abspath(__file__)))
thms = collections.defaultdict(list)
for f in sorted(glob.glob(root + '/rocq/theories/Prop*.v')):
    for m in re.finditer(r'^Theorem\s+((C\d+)_\w+)', open(f).read(), re.M):
        thms[m.group(2)].append(m.group(1))
notes = json.load(open(root + '/tools/notes.json'))
claims = []
for line in open(root + '/properties.jsonl'):
    if not line.strip():
        continue
    i = json.loads(line)['id']
    t = thms.get(i, [])
    status = 'partial' if (not t or any(x.endswith('_partial') for x in t)) else 'proved'
    claims.append({"property": i, "status": status, "theorems": t, "note": notes.get(i, "" if t else "not proved yet")})
json.dump({"claims": claims}, open(root + '/MANIFEST.json', 'w'), indent=1)
print(sum(c['status'] == 'proved' for c in claims), 'proved of', len(claims))
