#!/usr/bin/env python3
"""Writes MANIFEST.json: one claim per property, theorem names checked against the sources."""
import json, re, glob, collections
names = collections.defaultdict(list)
for f in sorted(glob.glob('rocq/theories/Properties*.v')):
    for m in re.finditer(r'^Theorem (C(\d\d)(?:_(?:C\d\d))*_\w+)', open(f).read(), re.M):
        for c in re.findall(r'C(\d\d)(?=_)', m.group(1)):
            if m.group(1) not in names['C'+c]:
                names['C'+c].append(m.group(1))
notes = json.load(open('manifest_notes.json'))
claims = []
for l in open('properties.jsonl'):
    p = json.loads(l)['id']
    th = names.get(p, [])
    bad = [t for t in th if t.endswith('_partial') or '_refuted' in t]
    status = notes.get(p, {}).get('status') or ('partial' if bad or not th else 'proved')
    claims.append({"property": p, "status": status, "theorems": th, "note": notes.get(p, {}).get('note', '')})
json.dump({"claims": claims}, open('MANIFEST.json', 'w'), indent=1)
for c in claims: print(c['property'], c['status'], len(c['theorems']))
