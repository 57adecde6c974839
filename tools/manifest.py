"""Regenerate MANIFEST.json: theorems named C<nn>_... are attached to their property;
status and notes come from the tables below."""
import json, re, glob
partial = {}
notes = {}
na = {}
exec(open('/verif/tools/notes.py').read())
props = [json.loads(l)['id'] for l in open('/verif/properties.jsonl')]
thms = {}
for f in sorted(glob.glob('/verif/rocq/theories/Properties*.v')):
    for m in re.finditer(r'^Theorem (\w+)', open(f).read(), re.M):
        n = m.group(1)
        for c in re.findall(r'C\d{2,3}(?!\d)', n):
            thms.setdefault(c, []).append(n)
claims = []
for p in props:
    if p in na:
        claims.append(dict(property=p, status='not_applicable', theorems=[], note=na[p]))
    elif p in thms:
        claims.append(dict(property=p, status='partial' if p in partial else 'proved',
                           theorems=thms[p], note=partial.get(p, notes.get(p, ''))))
json.dump({'claims': claims}, open('/verif/MANIFEST.json', 'w'), indent=1)
print(len(claims), 'claims;', [p for p in props if p not in thms and p not in na])
