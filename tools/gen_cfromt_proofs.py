# Prints the lemmas about the terms of makeCfromT (argument u, in CIExpU.v) or
# gmakeCfromT (argument g, in CIExpG.v).
import subprocess,re,sys
out=subprocess.run(['python3','/verif/tools/gen_cfromt.py','/repo/cqcpy/ci_utils.py','list'],capture_output=True,text=True).stdout
v=open('/verif/rocq/theories/CICfromT.v').read()
cid={'T1a':0,'T1b':1,'T2aa':2,'T2ab':3,'T2bb':4}
calls=dict(re.findall(r'let\? C := (u_\w+) (K .*) C in',v))
for l in out.strip().split('\n'):
    o,name,val=l.split(' ',2)
    if not name.startswith('u_') or sys.argv[1]!='u': continue
    ts=name[2:].split('_')
    f=re.search(r'inv (\d+)',val); f=f.group(1) if f else '1'
    w='; '.join(str(cid[t]) for t in ts)
    sh=''.join(t[1] for t in ts)
    nb=sum(int(c) for c in sh)
    # excitations in class order, loop indices assigned in order
    es=[];vals=[];k=0
    occ='ijkl'; vir='abcd'
    for t in ts:
        sp=t[2:]
        if t[1]=='1':
            es.append((sp,occ[k],vir[k])); vals.append(f'dat {t} [{vir[k]}; {occ[k]}]'); k+=1
        else:
            es.append((sp[0],occ[k],vir[k])); es.append((sp[1],occ[k+1],vir[k+1]))
            vals.append(f'dat {t} [{vir[k]}; {vir[k+1]}; {occ[k]}; {occ[k+1]}]'); k+=2
    E='; '.join(f"({'true' if s=='b' else 'false'}, {i}, {a} + no{s})%nat" for s,i,a in es)
    call=calls[name].replace('basis','(map dpair L)').replace('refa','(dstr A)').replace('refb','(dstr B)')
    intro=' '.join(f'apply adds_each; intros {x} ?.' for x in occ[:nb]+vir[:nb])
    ordt={'1':'','2':''}.get(sh, f'rewrite ord{sh}. ')
    steps=''
    for t in ts:
        n=int(t[1])*2
        steps+=f' rewrite t{cid[t]}.'+' do %d peel.'%n
    pl={1:'P1',2:'P2a',3:'P3a',4:'P4a'}[len(ts)]
    goodarg='' if pl=='P1' else f' with (lev := lev) by exact terms_good'
    print(f'''  Lemma {name}_ok : {o} <= m -> Adds (fun J => inv {f} * PJ J [{w}]%nat) ({name} {call}).
  Proof.
    intros Hm. unfold {name}. eapply adds_ext; cycle 1.
    - {intro} cbv beta. ranges.
      apply (leaf [{E}] (inv {f} * {' * '.join(vals)})); [valid_tac|cbn; lia|body_tac].
    - intros J _. cbv beta. {ordt}unfold PJ. rewrite {pl}{goodarg}.{steps}
      done_tac.
  Qed.''')
cid={'T1':0,'T2':1}
calls=dict(re.findall(r'let\? C := (g_\w+) (K .*) C in',v))
occ='ijkl'; vir='abcd'
for l in out.strip().split('\n'):
    o,name,val=l.split(' ',2)
    if not name.startswith('g_') or sys.argv[1]!='g': continue
    ts=name[2:].split('_')
    f=re.search(r'inv (\d+)',val); f=f.group(1) if f else '1'
    w='; '.join(str(cid[t]) for t in ts)
    sh=''.join(t[1] for t in ts)
    es=[];vals=[];k=0;dep=[]
    for t in ts:
        if t[1]=='1':
            es.append(k); dep.append(False); vals.append(f'dat T1 [v{vir[k]}; o{occ[k]}]'); k+=1
        else:
            es+= [k,k+1]; dep+=[False,True]
            vals.append(f'dat T2 [v{vir[k]}; v{vir[k+1]}; o{occ[k]}; o{occ[k+1]}]'); k+=2
    nb=k
    E='; '.join(f"({occ[i]}, {vir[i]})" for i in es)
    call=calls[name].replace('basis','(map dstr L)').replace('ref','(dstr ref)').replace('iocc','(occs ref)').replace('ivir','(virs ref)')
    intro=''
    for names,pre in ((occ,'o'),(vir,'v')):
        for i in range(nb):
            intro+=f'apply {"adds_later" if dep[i] else "adds_each2"}; intros {pre}{names[i]} {names[i]} ?. '
    ordt={'1':'','2':''}.get(sh, f'rewrite ord{sh}. ')
    steps=''
    for t in ts:
        steps+=f' rewrite gt{cid[t]}.'+' do %d peel.'%(int(t[1])*2)
    pl={1:'P1',2:'P2a',3:'P3a',4:'P4a'}[len(ts)]
    goodarg='' if pl=='P1' else f' with (lev := glev) by exact gterms_good'
    print(f'''  Lemma {name}_ok : {o} <= m -> Adds (fun J => inv {f} * gPJ J [{w}]%nat) ({name} {call}).
  Proof.
    intros Hm. unfold {name}. eapply adds_ext; cycle 1.
    - {intro}cbv beta. members.
      apply (gleaf [{E}] (inv {f} * {' * '.join(vals)})); [gvalid_tac|cbn; lia|occ_bounds; gbody_tac].
    - intros J _. cbv beta. {ordt}unfold gPJ. rewrite {pl}{goodarg}.{steps}
      done_tac.
  Qed.''')
