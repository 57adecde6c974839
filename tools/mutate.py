#!/usr/bin/env python3
"""Mutation testing of the theorems.

usage: mutate.py SPEC.json [scratch-dir] [jobs]

SPEC.json is a list of {"file","definition","old","new","nth","edit","claim"},
with an optional list "also" of further {"definition","old","new","nth"} edits
made together with the first one (the same bug in several functions).
For each mutation the development is copied to the scratch directory, the edit
is made and the development is rebuilt.  A proof that fails is replaced by an
appeal to a marker axiom, so that the build continues; at the end the theorems
of the Properties files whose Print Assumptions mentions the marker (or whose
own proof failed) are the theorems that failed.  One JSON line per mutation is
printed and appended to SPEC.json.log."""
import json, os, re, shutil, subprocess, sys

spec = json.load(open(sys.argv[1]))
scratch = sys.argv[2] if len(sys.argv) > 2 else '/tmp/mut'
jobs = sys.argv[3] if len(sys.argv) > 3 else '2'
LIMIT = int(os.environ.get('MUT_LIMIT', '600'))  # seconds for one file
SRC = os.environ.get('MUT_SRC', '/verif/rocq')
START = re.compile(r'^\s*(?:Local\s+)?(Lemma|Theorem|Example|Corollary|Fact|Remark|Definition|Instance|Fixpoint)\s+(\w+)')

def sh(cmd, **kw):
    return subprocess.run(cmd, shell=True, cwd=scratch, stdout=subprocess.PIPE,
                          stderr=subprocess.STDOUT, text=True, **kw)

def run(m):
    shutil.rmtree(scratch, ignore_errors=True)
    shutil.copytree(SRC, scratch)
    th = os.path.join(scratch, 'theories')
    open(os.path.join(th, 'Mut.v'), 'w').write('Axiom hole : forall P : Prop, P.\n')
    proj = os.path.join(scratch, '_CoqProject')
    txt = open(proj).read().replace('theories/Scalar.v', 'theories/Mut.v\ntheories/Scalar.v')
    open(proj, 'w').write(txt)
    for e in [m] + m.get('also', []):
        p = os.path.join(th, e.get('file', m['file']))
        s = open(p).read()
        i0 = 0
        if e.get('definition'):
            mm = re.search(r'(Definition|Fixpoint)\s+' + re.escape(e['definition']) + r'\b', s)
            i0 = mm.start()
        k = i0 - 1
        for _ in range(e.get('nth', 1)):
            k = s.find(e['old'], k + 1)
            if k < 0: return {'error': 'pattern not found', **m}
        s = s[:k] + e['new'] + s[k + len(e['old']):]
        open(p, 'w').write(s)
    sh('coq_makefile -f _CoqProject -o Makefile')
    failed, broken = [], None
    for it in range(400):
        r = sh('make -j%s COQC="timeout %d coqc"' % (jobs, LIMIT))
        if r.returncode == 0: break
        errs = re.findall(r'File "\./theories/(\w+\.v)", line (\d+), characters', r.stdout)
        todo = {}
        # only the location that precedes an Error line counts
        for f, l, rest in re.findall(r'File "\./theories/(\w+\.v)", line (\d+), characters [^\n]*\n((?:.*\n){1})', r.stdout):
            if rest.startswith('Warning') : continue
            todo.setdefault(f, int(l))
        # a file that does not finish: the sentence it stopped in is the one after the last one timed
        for f in re.findall(r'theories/(\w+)\.vo\] Error 124', r.stdout):
            if f + '.v' in todo: continue
            t = sh('timeout %d coqc -q -time -Q theories Verif theories/%s.v' % (LIMIT, f))
            ends = re.findall(r'^Chars \d+ - (\d+) ', t.stdout, re.M)
            txt = open(os.path.join(th, f + '.v'), 'rb').read()
            e = int(ends[-1]) if ends else 0
            while e < len(txt) and txt[e:e+1].isspace(): e += 1
            todo[f + '.v'] = txt[:e].count(b'\n') + 1
        if not todo:
            broken = r.stdout[-400:]; break
        prog = False
        for f, l in todo.items():
            fp = os.path.join(th, f)
            lines = open(fp).read().split('\n')
            a = l - 1
            while a >= 0 and not START.match(lines[a]): a -= 1
            if a < 0: broken = f + ':%d' % l; break
            kind, name = START.match(lines[a]).groups()
            if kind == 'Definition' and ':= Eval vm_compute in' in lines[a]:
                # certificates that cannot be found
                open('/tmp/mut_type.v', 'w').write('From Verif Require Import Sym Tools %s.\nCheck %s.\n' % (f[:-2], name))
                t = subprocess.run('coqc -q -Q theories Verif /tmp/mut_type.v', shell=True, cwd=SRC, stdout=subprocess.PIPE, text=True).stdout
                ty = ' '.join(t.split(':', 1)[1].split()) if ':' in t else ''
                if not ty.startswith('list'): broken = '%s:%d (%s)' % (f, l, name); break
                lines[a] = 'Definition %s : %s := nil.' % (name, ty)
                z = a
                while z + 1 < len(lines) and lines[z + 1].strip() and not START.match(lines[z + 1]): z += 1
                del lines[a+1:z+1]
                open(fp, 'w').write('\n'.join(lines))
                prog = True; continue
            b = l - 1
            while b < len(lines) and not re.search(r'(Qed|Defined)\.\s*$', lines[b]): b += 1
            q = a
            while q <= b and q < len(lines) and not re.search(r'\bProof\b[^.]*\.', lines[q]): q += 1
            if b >= len(lines) or q > b or any(START.match(x) for x in lines[a+1:b+1]):
                broken = '%s:%d (%s %s does not typecheck)' % (f, l, kind, name); break
            if l - 1 < q:
                broken = '%s:%d (statement of %s does not typecheck)' % (f, l, name); break
            head = lines[q][:lines[q].index('Proof')]
            lines[q:b+1] = [head + 'Proof. exact (Verif.Mut.hole _). Qed.']
            if lines[0] != 'Require Verif.Mut.': lines.insert(0, 'Require Verif.Mut.')
            open(fp, 'w').write('\n'.join(lines))
            failed.append(name); prog = True
        if broken or not prog: break
    thms = []
    if not broken:
        for f in sorted(os.listdir(th)):
            if not (f.startswith('Properties') and f.endswith('.v')): continue
            vo = os.path.join('theories', f + 'o')
            if os.path.getmtime(os.path.join(scratch, vo)) == os.path.getmtime(os.path.join(SRC, vo)):
                continue  # not affected by the edit
            names = re.findall(r'^Print Assumptions (\w+)\.', open(os.path.join(th, f)).read(), re.M)
            r = sh('coqc -q -Q theories Verif theories/' + f)
            outs = re.split(r'(?=^Closed under the global context|^Axioms:)', r.stdout, flags=re.M)[1:]
            for n, o in zip(names, outs):
                if 'hole' in o: thms.append(n)
    return {**m, 'failed_lemmas': failed, 'failed_theorems': thms, 'broken': broken}

log = sys.argv[1] + '.log'
for m in spec:
    r = run(m)
    line = json.dumps(r)
    print(line, flush=True)
    open(log, 'a').write(line + '\n')
