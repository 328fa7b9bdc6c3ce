#!/usr/bin/env python3
"""Generate MANIFEST.json: theorem names are collected from rocq/theories/Prop*.v by their Cnn_ prefix;
status and note come from the table below."""
import json, re, glob, os
root = os.path.dirname(os.path.dirname(os.path.abspath(__file__)))
thms = {}
for f in sorted(glob.glob(root + '/rocq/theories/Prop*.v')):
    for m in re.finditer(r'^Theorem (C\d\d+)(_\w+)', open(f).read(), re.M):
        thms.setdefault(m.group(1), []).append(m.group(1) + m.group(2))
notes = json.load(open(root + '/tools/notes.json'))
props = [json.loads(l)['id'] for l in open(root + '/properties.jsonl')]
claims = []
for p in props:
    t = thms.get(p, [])
    n = notes.get(p)
    if not t:
        continue
    status = n['status'] if n else 'proved'
    if status == 'proved' and any(x.endswith('_partial') or '_refuted' in x for x in t) and not (n and n.get('force')):
        raise SystemExit(p + ': partial theorem but status proved')
    claims.append({"property": p, "status": status, "theorems": t, "note": n['note'] if n else ''})
json.dump({"claims": claims}, open(root + '/MANIFEST.json', 'w'), indent=1)
print(len(claims), 'claims;', [p for p in props if p not in thms], 'open')
