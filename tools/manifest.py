#!/usr/bin/env python3
"""Write MANIFEST.json from tools/status.json (status and notes per property) and
the theorem names found in rocq/theories/Properties*.v (prefix Cnn_)."""
import json, re, glob, os
root = os.path.join(os.path.dirname(os.path.abspath(__file__)), '..')
st = json.load(open(os.path.join(root, 'tools', 'status.json')))
thms = {}
for f in sorted(glob.glob(os.path.join(root, 'rocq/theories/Properties*.v'))):
    for n in re.findall(r'^Theorem (\S+)', open(f).read(), re.M):
        thms.setdefault(n[:3], []).append(n)
claims = []
for line in open(os.path.join(root, 'properties.jsonl')):
    i = json.loads(line)['id']
    s = st.get(i)
    if i not in thms and s is None:
        continue
    s = s or {}
    status = s.get('status') or ('partial' if all(t.endswith('_partial') for t in thms[i]) else 'proved')
    claims.append({'property': i, 'status': status, 'theorems': thms.get(i, []), 'note': s.get('note', '')})
json.dump({'claims': claims}, open(os.path.join(root, 'MANIFEST.json'), 'w'), indent=1)
print(len(claims), 'claims')
