#!/usr/bin/env python3
"""Regenerates MANIFEST.json from the theorem names Cxx_... in rocq/theories/*_props.v and the notes below."""
import re, json, glob, collections
th = collections.defaultdict(list)
for f in sorted(glob.glob('/verif/rocq/theories/*_props.v')):
    for m in re.finditer(r'^Theorem\s+((?:C\d{2,3}_)+\w*)', open(f).read(), re.M):
        n = m.group(1)
        for p in re.findall(r'(C\d{2,3})(?=_)', n):
            th[p].append(n)
props = [json.loads(l) for l in open('/verif/properties.jsonl')]
notes = json.load(open('/verif/manifest_notes.json'))
claims = []
for p in props:
    i = p['id']; ts = th.get(i, [])
    if not ts: continue
    n = notes.get(i, {})
    if isinstance(n, str): n = {'note': n}
    st = n.get('status') or ('partial' if any(t.endswith('_partial') or t.endswith('_refuted') for t in ts) else 'proved')
    claims.append({'property': i, 'status': st, 'theorems': ts, 'note': n.get('note', p['title'])})
json.dump({'claims': claims}, open('/verif/MANIFEST.json', 'w'), indent=1)
print(len(claims), 'claims;', 'missing:', [p['id'] for p in props if p['id'] not in th])
