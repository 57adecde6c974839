(** C96: traces of the coupled cluster density matrices *)
From Coq Require Import List Bool Arith String ZArith QArith Qcanon Lia.
From Verif Require Import Scalar Tensor PySyntax PySem CCProg CCSpec CCExamples CCShapes SpinSpec RespSpec URespSpec
  TraceSpec TraceThm PropertiesCC PropertiesResp PropertiesUResp.
Import ListNotations.
Local Open Scope nat_scope.

(** C96: the blocks returned by the ccsd_1rdm and ccsd_2rdm functions, together
    with L1 and L2 and completed by the reference determinant, are density
    matrices of [no] electrons, whatever the amplitudes and Lambda: the trace of
    the one-particle matrix is [no], and the partial trace of the two-particle
    matrix is [no - 1] times the one-particle matrix. *)
Theorem C96_traces (K : cring) no nv (T1 T2 L1 L2 : tensor K) :
  t1_ok no nv T1 -> t2_ok no nv T2 -> l1_ok no nv L1 -> l2_ok no nv L2 ->
  exists P, (forall f, In f density_functions -> returns f [arr T1; arr T2; arr L1; arr L2] (arr (P f))) /\
  let g := all2 no (one_blocks P L1) in
  sumN (no + nv) (fun p => gamma no g p p) = nK K no /\
  forall p r, p < no + nv -> r < no + nv ->
    sumN (no + nv) (fun q => Gamma no g (all4 no no (two_blocks P L2)) p q r q) = ((nK K no - 1) * gamma no g p r)%K.
Proof. exact (g_traces K no nv T1 T2 L1 L2). Qed.
Print Assumptions C96_traces.

(** C96: the same for the uccsd functions: [noa] electrons of alpha and [nob]
    electrons of beta spin, and both partial traces of the density matrix of
    pairs of different spins. *)
Theorem C96_unrestricted_traces (K : cring) noa nva nob nvb (T1a T1b T2aa T2ab T2bb L1a L1b L2aa L2ab L2bb : tensor K) :
  u_amps_ok noa nva nob nvb T1a T1b T2aa T2ab T2bb -> u_lams_ok noa nva nob nvb L1a L1b L2aa L2ab L2bb ->
  exists P, (forall f k, In (f, k) u_density_functions -> returns f
    [arr T1a; arr T1b; arr T2aa; arr T2ab; arr T2bb; arr L1a; arr L1b; arr L2aa; arr L2ab; arr L2bb]
    (tup (map (fun i => arr (P f i)) (seq 0 k)))) /\
  let Pa f := P (append "u" f) 0 in let Pb f := P (append "u" f) 1 in
  let ga := all2 noa (one_blocks Pa L1a) in let gb := all2 nob (one_blocks Pb L1b) in
  let Gm := Gamma_mixed noa nob ga gb (all4 noa nob (mixed_blocks P L2ab)) in
  sumN (noa + nva) (fun p => gamma noa ga p p) = nK K noa /\
  sumN (nob + nvb) (fun p => gamma nob gb p p) = nK K nob /\
  (forall p r, p < noa + nva -> r < noa + nva ->
    sumN (noa + nva) (fun q => Gamma noa ga (all4 noa noa (two_blocks Pa L2aa)) p q r q) = ((nK K noa - 1) * gamma noa ga p r)%K /\
    sumN (nob + nvb) (fun q => Gm p q r q) = (nK K nob * gamma noa ga p r)%K) /\
  (forall q s, q < nob + nvb -> s < nob + nvb ->
    sumN (nob + nvb) (fun p => Gamma nob gb (all4 nob nob (two_blocks Pb L2bb)) q p s p) = ((nK K nob - 1) * gamma nob gb q s)%K /\
    sumN (noa + nva) (fun p => Gm p q p s) = (nK K noa * gamma nob gb q s)%K).
Proof. exact (u_traces K noa nva nob nvb T1a T1b T2aa T2ab T2bb L1a L1b L2aa L2ab L2bb). Qed.
Print Assumptions C96_unrestricted_traces.

(** C96: the same for the rccsd functions, [no] electrons of each spin.  The
    last line, the trace over the exchanged pair, is the condition on the
    density matrix of two spins of a state without spin. *)
Theorem C96_restricted_traces (K : cring) no nv (T1 T2 L1 L2 : tensor K) :
  shp T1 = [nv; no] -> shp T2 = [nv; nv; no; no] -> pair_sym T2 -> shp L1 = [no; nv] -> shp L2 = [no; no; nv; nv] -> pair_sym L2 ->
  exists P, (forall f, In f r_density_functions -> returns f [arr T1; arr T2; arr L1; arr L2] (arr (P f))) /\
  let g := all2 no (one_blocks (fun f => P (append "r" f)) L1) in
  let Gm := Gamma_mixed no no g g (all4 no no (closed_blocks P L2)) in
  sumN (no + nv) (fun p => gamma no g p p) = nK K no /\
  forall p r, p < no + nv -> r < no + nv ->
    sumN (no + nv) (fun q => Gm p q r q) = (nK K no * gamma no g p r)%K /\
    sumN (no + nv) (fun q => Gm q p q r) = (nK K no * gamma no g p r)%K /\
    sumN (no + nv) (fun q => Gm p q q r) = gamma no g p r.
Proof. exact (r_traces K no nv T1 T2 L1 L2). Qed.
Print Assumptions C96_restricted_traces.

(** Inputs that meet the hypotheses, and blocks that are not zero. *)
Example C96_example :
  t1_ok 2 3 T1_23 /\ t2_ok 2 3 T2_23 /\ l1_ok 2 3 L1_23 /\ l2_ok 2 3 L2_23 /\
  sample_entry "ccsd_1rdm_ba" [arr T1_23; arr T2_23; arr L1_23; arr L2_23] 0 [0; 0] = Some 1215%Q /\
  u_amps_ok (K := QcK) 1 1 1 1 (const_t [1; 1] c1) (const_t [1; 1] c1) (const_t [1; 1; 1; 1] c0) (const_t [1; 1; 1; 1] c1) (const_t [1; 1; 1; 1] c0) /\
  u_lams_ok (K := QcK) 1 1 1 1 (const_t [1; 1] c1) (const_t [1; 1] c1) (const_t [1; 1; 1; 1] c0) (const_t [1; 1; 1; 1] c1) (const_t [1; 1; 1; 1] c0) /\
  pair_sym (K := QcK) (const_t [1; 1; 1; 1] c1).
Proof.
  destruct (sample_ok QcK 2 3) as (_ & _ & H3 & H4 & H5 & H6).
  destruct C95_example as (_ & U1 & U2 & _ & _ & _ & U3).
  split; [exact H3|]. split; [exact H4|]. split; [exact H5|]. split; [exact H6|].
  split; [vm_compute; reflexivity|]. split; [exact U1|]. split; [exact U2|]. exact U3.
Qed.
