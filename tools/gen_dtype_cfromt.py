#!/usr/bin/env python3
"""Write rocq/theories/DtypeCfromT.v and DtypeC.v from CICfromT.v: the same loop
nests with assignments into an array of fixed dtype, and one lemma for each."""
import re, os
d = os.path.join(os.path.dirname(os.path.abspath(__file__)), '..', 'rocq', 'theories')
s = open(os.path.join(d, 'CICfromT.v')).read()
body = s[s.index('Section U.'):]
names = re.findall(r'Definition (\w+) \(C : list K\)', body)
calls = {}
for n in names:
    m = re.search(r'let\? C := ' + n + r' K ((?:inv )?)(.*) C in', body)
    calls[n] = (m.group(1), m.group(2))
w = body.replace('Variable K : cring.', 'Variable K : cring.\n  Variable store1 : K -> K.')
w = w.replace('add_at K C', 'add_at_w K store1 C')
for n in sorted(names, key=len, reverse=True):
    w = re.sub(r'\b' + n + r'\b(?!_w)( K )', n + '_w K store1 ', w)
    w = re.sub(r'Definition ' + n + r'\b', 'Definition ' + n + '_w', w)
w = re.sub(r'\bstart\b', 'start_w', w).replace('gmakeCfromT (no', 'gmakeCfromT_w (no').replace('makeCfromT (noa', 'makeCfromT_w (noa')
w = w.replace('Some (upd 0 1 (zeros K nd))', 'Some (upd 0 (store1 1) (zeros K nd))')
open(os.path.join(d, 'DtypeCfromT.v'), 'w').write('''(** gmakeCfromT and makeCfromT, ci_utils.py:418-597 and 600-1269, with the dtype of
    [C = numpy.zeros(nd)]: [store1] is what an assignment to an entry keeps
    (DtypeModel.v).  Generated by tools/gen_dtype_cfromt.py from CICfromT.v. *)
From Coq Require Import List Bool Arith ZArith.
From Verif Require Import Scalar Tensor NpModel CIModel CICfromT DtypeModel.
Import ListNotations.

''' + w)
kind = {'u': ('(basis : list upair) (refa refb : dstring)'), 'g': '(basis : list dstring) (ref : dstring)'}
out = '''(** makeCfromT and gmakeCfromT keep the real part of the coefficients.  Generated
    by tools/gen_dtype_cfromt.py. *)
From Coq Require Import List Bool Arith ZArith.
From Verif Require Import Scalar Tensor NpModel CIModel CICfromT DtypeModel DtypeCfromT DtypeSpec Dtype.
Import ListNotations.

Section C.
  Variable R : cring.
  Notation C := (CplxK R).
  Notation r1 := (re_store (R := R)).
  Notation relv := (relv R).
  Lemma each_relv {A} (l : list A) f g : (forall z x y, relv x y -> both relv (f z x) (g z y)) ->
    forall x y, relv x y -> both relv (each l f x) (each l g y).
  Proof.
    intros H. induction l as [|z l IH]; intros x y Hxy; cbn; [exact Hxy|].
    eapply both_bind; [apply H, Hxy|]. intros; apply IH; assumption.
  Qed.
  Ltac cstep := repeat first
    [ assumption
    | apply add_relv; assumption
    | apply each_relv; [intros ? ? ? ?|assumption]
    | apply both_same; intros ? _
    | match goal with
      | |- both _ (match ?r with Some _ => _ | None => _ end) _ => destruct r
      | |- both _ (if ?b then _ else _) _ => destruct b
      | p : (_ * _)%type |- _ => destruct p
      end ].
  Variable inv : nat -> C.
'''
for n in names:
    inv, args = calls[n]
    vs = args.split()
    bind = ' '.join(v for v in vs)
    out += '''  Lemma rel_%s %s x y : relv x y ->
    both relv (%s_w C r1 %s%s x) (%s C %s%s y).
  Proof. intros H. unfold %s_w, %s. cstep. Qed.
''' % (n, bind, n, inv, args, n, inv, args, n, n)
out += '''
  Lemma start_relv nd : both relv (start_w C r1 nd) (start C nd).
  Proof. destruct nd; [exact I|]. cbn. exact (f_equal (cons c1) (zeros_relv R nd)). Qed.
  Ltac headof t := match t with ?f _ => headof f | _ => t end.
  Ltac hd n k := lazymatch goal with |- both _ (bindo ?t _) _ => let h := headof t in constr_eq h n; k tt end.
  Ltac mstep := repeat first
    [ assumption
    | hd start_w ltac:(fun _ => eapply both_bind; [apply start_relv|intros ? ? ?])
    | apply both_same; intros ? _
    | match goal with
      | |- both _ (if ?b then _ else _) _ => destruct b
      | |- both _ None None => exact I
      | |- both _ (Some _) (Some _) => cbn [both]
      end
'''
for n in names:
    out += '    | hd %s_w ltac:(fun _ => eapply both_bind; [apply rel_%s; assumption|intros ? ? ?])\n' % (n, n)
out += '''    | match goal with |- both _ (bindo (if _ then _ else _) _) _ => eapply (both_bind relv); [|intros ? ? ?] end ].
  Lemma rel_gmakeCfromT no nv T1 T2 order occ : both relv (gmakeCfromT_w C r1 inv no nv T1 T2 order occ) (gmakeCfromT C inv no nv T1 T2 order occ).
  Proof. unfold gmakeCfromT_w, gmakeCfromT. cbv zeta. mstep. Qed.
  Lemma rel_makeCfromT noa nva nob nvb T1a T1b T2aa T2ab T2bb order :
    both relv (makeCfromT_w C r1 inv noa nva nob nvb T1a T1b T2aa T2ab T2bb order) (makeCfromT C inv noa nva nob nvb T1a T1b T2aa T2ab T2bb order).
  Proof. unfold makeCfromT_w, makeCfromT. cbv zeta. mstep. Qed.
End C.
'''
open(os.path.join(d, 'DtypeC.v'), 'w').write(out)
