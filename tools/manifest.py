"""Regenerate MANIFEST.json from the theorem names in rocq/theories/Props and the notes in tools/notes.json."""
import json, os, re, glob
root = os.path.dirname(os.path.dirname(os.path.abspath(__file__)))
props = [json.loads(l)['id'] for l in open(root + '/properties.jsonl') if l.strip()]
notes = json.load(open(root + '/tools/notes.json'))
thms = {}
for f in sorted(glob.glob(root + '/rocq/theories/Props/*.v')):
    for m in re.finditer(r'^\s*Theorem\s+((C\d+)_\w+)', open(f).read(), re.M):
        thms.setdefault(m.group(2), []).append(m.group(1))
claims = []
for p in props:
    t = thms.get(p, [])
    st = notes.get(p, {}).get('status')
    if st is None:
        st = 'partial' if (not t or any(x.endswith(('_partial', '_refuted')) for x in t)) else 'proved'
    claims.append({'property': p, 'status': st, 'theorems': t, 'note': notes.get(p, {}).get('note', '' if t else 'not modelled yet')})
json.dump({'claims': claims}, open(root + '/MANIFEST.json', 'w'), indent=1, ensure_ascii=False)
print(sum(c['status'] == 'proved' for c in claims), 'proved', sum(bool(c['theorems']) for c in claims), 'with theorems', len(claims), 'claims')
