"""Collect the property theorems (C<nn>_... in P_*.v) into MANIFEST.json.

notes.json holds, per property, an optional status override and a note."""
import glob, json, os, re
here = os.path.dirname(os.path.abspath(__file__))
root = os.path.dirname(here)
props = [json.loads(l)['id'] for l in open(os.path.join(root, 'properties.jsonl'))]
notes = json.load(open(os.path.join(here, 'notes.json')))
thms = {}
for f in sorted(glob.glob(os.path.join(root, 'rocq/theories/P_*.v'))):
    for name in re.findall(r'^Theorem (C\d\d\w*)', open(f).read(), re.M):
        thms.setdefault(name[:3], []).append(name)
claims = []
for p in props:
    n = notes.get(p, {})
    ts = thms.get(p, [])
    if not ts and 'status' not in n:
        continue
    st = n.get('status') or ('partial' if any(t.endswith('_partial') for t in ts) else 'proved')
    claims.append({'property': p, 'status': st, 'theorems': ts, 'note': n.get('note', '')})
json.dump({'claims': claims}, open(os.path.join(root, 'MANIFEST.json'), 'w'), indent=1)
print(len(claims), 'claims', sum(len(c['theorems']) for c in claims), 'theorems; missing', [p for p in props if p not in [c['property'] for c in claims]])
