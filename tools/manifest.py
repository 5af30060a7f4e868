"""Regenerate MANIFEST.json from the theorem names in rocq/theories/*_Props.v and notes.json."""
import json, re, pathlib
root = pathlib.Path(__file__).resolve().parent.parent
ids = [json.loads(l)['id'] for l in (root / 'properties.jsonl').read_text().splitlines() if l.strip()]
notes = json.loads((root / 'tools' / 'notes.json').read_text())
thms = {i: [] for i in ids}
for f in sorted((root / 'rocq' / 'theories').glob('*_Props.v')):
    for m in re.finditer(r'^(?:Theorem|Corollary)\s+((C\d\d+)_\w+)', f.read_text(), re.M):
        thms[m.group(2)].append(m.group(1))
claims = []
for i in ids:
    n = notes.get(i, {})
    status = n.get('status') or ('proved' if thms[i] and not any(t.endswith('_partial') for t in thms[i]) else 'partial')
    note = n.get('note', '')
    if not thms[i]:
        note = note or 'not yet modelled'
    ref = [t for t in thms[i] if t.endswith('_refuted')]
    if ref and not note:
        note = 'The parts that are false of the code, as the statement says: ' + ', '.join(ref) + '.'
    claims.append(dict(property=i, status=status, theorems=thms[i], note=note))
(root / 'MANIFEST.json').write_text(json.dumps(dict(claims=claims), indent=1) + '\n')
print({s: sum(c['status'] == s for c in claims) for s in ('proved', 'partial', 'not_applicable')},
      [c['property'] for c in claims if not c['theorems']], sum(len(c['theorems']) for c in claims))
