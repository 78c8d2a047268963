"""Writes MANIFEST.json from the table below; theorem names are collected from theories/*Props.v by prefix."""
import json, re, glob, os
root = os.path.dirname(os.path.dirname(os.path.abspath(__file__)))
props = [json.loads(l) for l in open(root + '/properties.jsonl')]
listed = {l.strip() for l in open(root + '/rocq/_CoqProject') if l.startswith('theories/')}
unlisted = {'theories/' + os.path.basename(f) for f in glob.glob(root + '/rocq/theories/*.v')} ^ listed
if unlisted:
    raise SystemExit('not built, or not there: ' + ' '.join(sorted(unlisted)))
thms = {}
for f in sorted(glob.glob(root + '/rocq/theories/*Props.v')):
    for m in re.finditer(r'^(?:Theorem|Corollary)\s+((C\d+)_\w+)', open(f).read(), re.M):
        thms.setdefault(m.group(2), []).append(m.group(1))
notes = json.load(open(root + '/tools/notes.json'))
claims = []
for p in props:
    i = p['id']
    n = notes.get(i, {})
    t = thms.get(i, [])
    if not t and n.get('status') != 'not_applicable':
        continue
    bad = [x for x in t if x.endswith('_partial') or x.endswith('_refuted')]
    status = n.get('status') or ('partial' if bad else 'proved')
    claims.append({'property': i, 'status': status, 'theorems': t, 'note': n.get('note', '')})
json.dump({'claims': claims}, open(root + '/MANIFEST.json', 'w'), indent=1)
print(len(claims), 'claims', sum(len(c['theorems']) for c in claims), 'theorems')
