(** Negative results about cc_equations.py. *)
From Coq Require Import List String ZArith QArith Qcanon Lia.
From Verif Require Import Scalar Tensor PySyntax PySem CCProg CCSpec CCExamples CCShapes Public.
Import ListNotations.
Local Open Scope string_scope.

Lemma load_args_length (A : alg) xs : forall h, List.length (fst (load_args A xs h)) = List.length xs.
Proof.
  induction xs as [|x xs IH]; intros h; simpl; [reflexivity|].
  destruct (load A x h) as [v h1]. specialize (IH h1).
  destruct (load_args A xs h1) as [vs h2]. simpl in *. now rewrite IH.
Qed.

Lemma pt_raises (K : cring) F I eo ev T1 T2 :
  raises (K := K) "ccsd_pt_simple" [F; I; eo; ev; T1; T2].
Proof.
  unfold raises, pycall.
  pose proof (load_args_length (conc_alg K) [F; I; eo; ev; T1; T2] (empty_heap _)) as HL.
  destruct (load_args _ _ _) as [vs h]. simpl in HL.
  do 6 (destruct vs as [|? vs]; [discriminate HL|]).
  destruct vs; [|discriminate HL].
  exists "ccsd(T) is not implemented". reflexivity.
Qed.

Lemma ring_entry idx (S2 : tensor QcK) I T2 q :
  returns (K := QcK) "ccd_ring_simple" [py_two_e I; arr T2] (arr S2) ->
  sample_entry "ccd_ring_simple" [py_two_e I; arr T2] 0 idx = Some q -> this (dat S2 idx) = q.
Proof.
  intros (args' & H & _) E. unfold sample_entry in E.
  change (pyval QcK) with (xval (conc_alg QcK)) in *.
  rewrite H in E. simpl in E. now injection E.
Qed.

Lemma ring_not_antisym :
  exists no nv I T2 S2,
    two_e_ok no nv I /\ t2_ok no nv T2 /\
    returns (K := QcK) "ccd_ring_simple" [py_two_e I; arr T2] (arr S2) /\
    ~ antisym_lead S2 /\ ~ antisym_tail S2.
Proof.
  destruct (sample_ok QcK 2 3) as (_ & HI & _ & HT & _).
  destruct (public_ok QcK (fun s => match s with so => 2 | sv => 3 | _ => 0 end)%nat
    "ccd_ring_simple" [I_; T2_] T2_ [py_two_e (sampleI QcK 2 3); arr (sampleT2 QcK 2 3)])
    as (v & Hr & Hf).
  - simpl. tauto.
  - repeat (first [apply Forall2_nil | apply Forall2_cons | split | apply fit_obj | apply fit_arr
    | reflexivity]).
  - inversion Hf as [|S2 ss Hs| |]; subst.
    exists 2%nat, 3%nat, (sampleI QcK 2 3), (sampleT2 QcK 2 3), S2.
    split; [exact HI|]. split; [exact HT|]. split; [exact Hr|].
    pose proof (ring_entry [0; 1; 0; 1]%nat S2 _ _ _ Hr eq_refl) as E1.
    pose proof (ring_entry [1; 0; 0; 1]%nat S2 _ _ _ Hr eq_refl) as E2.
    pose proof (ring_entry [0; 1; 1; 0]%nat S2 _ _ _ Hr eq_refl) as E3.
    assert (D1 : this (dat S2 [0; 1; 0; 1]%nat) = 239%Q) by (rewrite E1; vm_compute; reflexivity).
    assert (D2 : this (dat S2 [1; 0; 0; 1]%nat) = (-434)%Q) by (rewrite E2; vm_compute; reflexivity).
    assert (D3 : this (dat S2 [0; 1; 1; 0]%nat) = (-434)%Q) by (rewrite E3; vm_compute; reflexivity).
    clear E1 E2 E3.
    assert (R : inrange (shp S2) [0; 1; 0; 1]%nat).
    { rewrite Hs. unfold inrange. repeat constructor. }
    split; intros A; specialize (A _ _ _ _ R); apply (f_equal this) in A;
      rewrite D1 in A; cbn in A; rewrite ?D2, ?D3 in A; vm_compute in A; discriminate A.
Qed.
