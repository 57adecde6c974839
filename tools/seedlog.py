# Appends the results of mutate.py (a .log file) to seeded/LOG.jsonl, without
# the attempts already there.  "tightened" is left empty: fill it in by hand when
# a theorem was changed because of the attempt.
import json,sys
LOG='/verif/seeded/LOG.jsonl'
key=lambda r:(r['definition'],r.get('old'),r.get('new'),r['edit'])
seen={key(json.loads(l)) for l in open(LOG) if l.strip()}
out=open(LOG,'a')
for p in sys.argv[1:]:
    for l in open(p):
        d=json.loads(l)
        r={'definition':d['file']+':'+d['definition'],'edit':d['edit'],'old':d['old'],'new':d['new'],
           'claim':d['claim'],'failed_theorems':d['failed_theorems'],'failed_lemmas':d['failed_lemmas'],
           'broken_build':d['broken'],'tightened':[]}
        if key(r) in seen: continue
        seen.add(key(r))
        out.write(json.dumps(r)+'\n')
        if not d['failed_theorems']: print('SURVIVED',r)
