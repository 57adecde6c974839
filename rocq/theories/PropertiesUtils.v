(** Properties of spin_utils.py, utils.py and ov_blocks.py: final statements.
    The models are SpinModel.v and UtilsModel.v ([None] = exception), the
    vocabulary is CCSpec.v, SpinSpec.v and UtilsSpec.v. *)
From Coq Require Import List String ZArith QArith.
From Verif Require Import Scalar Tensor CCSpec CCExamples NpModel SpinModel SpinSpec SpinExamples
  UtilsModel UtilsSpec SpinRound UtilsFacts SpinNeg.
Import ListNotations.
Local Open Scope nat_scope.

(** C38: conversion to spin orbitals and back returns the pieces. *)
Theorem C38_T1_round_trip (K : cring) (Ta Tb : tensor K) noa nva nob nvb :
  shp Ta = [nva; noa] -> shp Tb = [nvb; nob] ->
  exists t Ta' Tb', T1_to_spin Ta Tb noa nva nob nvb = Some t /\
    T1_to_spatial t noa nva nob nvb = Some (Ta', Tb') /\ teq Ta' Ta /\ teq Tb' Tb.
Proof. exact (T1_round K Ta Tb noa nva nob nvb). Qed.
Print Assumptions C38_T1_round_trip.

Theorem C38_T2_round_trip (K : cring) (Taa Tab Tbb : tensor K) noa nva nob nvb :
  shp Taa = [nva; nva; noa; noa] -> shp Tab = [nva; nvb; noa; nob] ->
  shp Tbb = [nvb; nvb; nob; nob] ->
  exists t aa ab bb, T2_to_spin Taa Tab Tbb noa nva nob nvb = Some t /\
    T2_to_spatial t noa nva nob nvb = Some (aa, ab, bb) /\
    teq aa Taa /\ teq ab Tab /\ teq bb Tbb.
Proof. exact (T2_round K Taa Tab Tbb noa nva nob nvb). Qed.
Print Assumptions C38_T2_round_trip.

Theorem C38_F_round_trip (K : cring) (Fa Fb : one_e K) noa nva nob nvb :
  one_e_ok noa nva Fa -> one_e_ok nob nvb Fb ->
  exists F Fa' Fb', F_to_spin Fa Fb noa nva nob nvb = Some F /\
    F_to_spatial F noa nva nob nvb = Some (Fa', Fb') /\ same_one_e Fa' Fa /\ same_one_e Fb' Fb.
Proof. exact (F_round K Fa Fb noa nva nob nvb). Qed.
Print Assumptions C38_F_round_trip.

(** int_to_spatial takes its sizes in the order noa, nob, nva, nvb. *)
Theorem C38_int_round_trip (K : cring) (Ia Ib : two_e K) (Iab : two_e_full K) noa nva nob nvb :
  two_e_shape noa nva Ia -> two_e_shape nob nvb Ib -> two_e_full_ok noa nva nob nvb Iab ->
  exists I Ia' Ib' Iab', int_to_spin2 Ia Ib Iab noa nva nob nvb = Some I /\
    int_to_spatial I noa nob nva nvb = Some (Ia', Ib', Iab') /\
    same_two_e Ia' Ia /\ same_two_e Ib' Ib /\ same_two_e_full Iab' Iab.
Proof. exact (int_round K Ia Ib Iab noa nva nob nvb). Qed.
Print Assumptions C38_int_round_trip.

Example C38_example :
  one_e_ok 1 2 (sampleF QcK 1 2) /\ two_e_shape 1 2 (sampleI QcK 1 2) /\
  two_e_shape 2 1 (sampleI QcK 2 1) /\ two_e_full_ok 1 2 2 1 (sampleJ QcK 1 2 2 1) /\
  match int_to_spin2 (sampleI QcK 1 2) (sampleI QcK 2 1) (sampleJ QcK 1 2 2 1) 1 2 2 1 with
  | Some Is => match int_to_spatial Is 1 2 2 1 with
              | Some (_, _, J) => Some (dat (fvvov J) [1; 0; 0; 0])
              | None => None end
  | None => None end = Some (Qcanon.Q2Qc 2).
Proof.
  destruct (u_sample_ok QcK 1 2 2 1) as ((H1 & _ & H2 & H3 & H4) & _).
  split; [exact H1|]. split; [apply H2|]. split; [apply H3|]. split; [exact H4|].
  vm_compute. reflexivity.
Qed.

(** C39: what T2_to_spin and int_to_spin2 build is antisymmetric where two
    bra or two ket indices lie in one space, and conserves spin; T1_to_spin
    and F_to_spin conserve spin. *)
Theorem C39_T2_to_spin_antisymmetric (K : cring) (Taa Tab Tbb : tensor K) noa nva nob nvb :
  t2_ok noa nva Taa -> shp Tab = [nva; nvb; noa; nob] -> t2_ok nob nvb Tbb ->
  exists t, T2_to_spin Taa Tab Tbb noa nva nob nvb = Some t /\
    t2_ok (noa + nob) (nva + nvb) t /\ conserves4 nva nva noa noa t.
Proof. exact (T2_to_spin_ok K Taa Tab Tbb noa nva nob nvb). Qed.
Print Assumptions C39_T2_to_spin_antisymmetric.

Theorem C39_int_to_spin2_antisymmetric (K : cring) (Ia Ib : two_e K) (Iab : two_e_full K)
    noa nva nob nvb :
  two_e_ok noa nva Ia -> two_e_ok nob nvb Ib -> two_e_full_ok noa nva nob nvb Iab ->
  exists I, int_to_spin2 Ia Ib Iab noa nva nob nvb = Some I /\
    two_e_ok (noa + nob) (nva + nvb) I /\ conserves_two_e noa nva I.
Proof. exact (int_to_spin2_ok K Ia Ib Iab noa nva nob nvb). Qed.
Print Assumptions C39_int_to_spin2_antisymmetric.

Theorem C39_T1_to_spin_conserves (K : cring) (Ta Tb : tensor K) noa nva nob nvb :
  shp Ta = [nva; noa] -> shp Tb = [nvb; nob] ->
  exists t, T1_to_spin Ta Tb noa nva nob nvb = Some t /\
    shp t = [nva + nvb; noa + nob] /\ conserves2 nva noa t.
Proof. exact (T1_to_spin_ok K Ta Tb noa nva nob nvb). Qed.
Print Assumptions C39_T1_to_spin_conserves.

Theorem C39_F_to_spin_conserves (K : cring) (Fa Fb : one_e K) noa nva nob nvb :
  one_e_ok noa nva Fa -> one_e_ok nob nvb Fb ->
  exists F, F_to_spin Fa Fb noa nva nob nvb = Some F /\ one_e_ok (noa + nob) (nva + nvb) F /\
    conserves2 noa noa (oo F) /\ conserves2 noa nva (ov F) /\
    conserves2 nva noa (vo F) /\ conserves2 nva nva (vv F).
Proof. exact (F_to_spin_ok K Fa Fb noa nva nob nvb). Qed.
Print Assumptions C39_F_to_spin_conserves.

(** a spin-conserving mixed block is not zero *)
Example C39_example :
  t2_ok 1 2 (sampleT2 QcK 1 2) /\ shp (sampleT2ab QcK 1 2 2 1) = [2; 1; 1; 2] /\
  t2_ok 2 1 (sampleT2 QcK 2 1) /\
  option_map (fun t => dat t [2; 1; 0; 2])
    (T2_to_spin (sampleT2 QcK 1 2) (sampleT2ab QcK 1 2 2 1) (sampleT2 QcK 2 1) 1 2 2 1)
  = Some (Qcanon.Q2Qc (-10)).
Proof.
  destruct (u_sample_ok QcK 1 2 2 1) as (_ & (_ & _ & H1 & H2 & H3) & _).
  split; [exact H1|]. split; [exact H2|]. split; [exact H3|]. vm_compute. reflexivity.
Qed.

(** C40: int_to_spin of plain integrals is int_to_spin2 of the antisymmetrised
    like-spin integrals. *)
Theorem C40_int_to_spin_antisymmetrizes (K : cring) (Ia Ib Iab : two_e_full K) noa nva nob nvb :
  two_e_full_ok noa nva noa nva Ia -> two_e_full_ok nob nvb nob nvb Ib ->
  two_e_full_ok noa nva nob nvb Iab ->
  exists I I', int_to_spin Ia Ib Iab noa nva nob nvb = Some I /\
    int_to_spin2 (anti_of Ia) (anti_of Ib) Iab noa nva nob nvb = Some I' /\ same_two_e I I' /\
    (pair_sym_full Ia -> pair_sym_full Ib ->
     two_e_ok (noa + nob) (nva + nvb) I /\ conserves_two_e noa nva I).
Proof. exact (int_to_spin_anti K Ia Ib Iab noa nva nob nvb). Qed.
Print Assumptions C40_int_to_spin_antisymmetrizes.

Example C40_example :
  two_e_full_ok 1 2 1 2 (sampleR QcK 1 2) /\ pair_sym_full (sampleR QcK 1 2) /\
  two_e_full_ok 2 1 2 1 (sampleR QcK 2 1) /\ pair_sym_full (sampleR QcK 2 1) /\
  two_e_full_ok 1 2 2 1 (sampleJ QcK 1 2 2 1) /\
  option_map (fun I => dat (vvvo I) [0; 1; 1; 0])
    (int_to_spin (sampleR QcK 1 2) (sampleR QcK 2 1) (sampleJ QcK 1 2 2 1) 1 2 2 1)
  = Some (Qcanon.Q2Qc (-5)).
Proof.
  destruct (r_sample_ok QcK 1 2) as (H1 & H2 & _). destruct (r_sample_ok QcK 2 1) as (H3 & H4 & _).
  split; [exact H1|]. split; [exact H2|]. split; [exact H3|]. split; [exact H4|].
  split; [apply (u_sample_ok QcK 1 2 2 1)|]. vm_compute. reflexivity.
Qed.

(** C41: on antisymmetric spin-conserving arrays, to spatial pieces and back
    changes nothing. *)
Theorem C41_T2_retraction (K : cring) (t : tensor K) noa nva nob nvb :
  t2_ok (noa + nob) (nva + nvb) t -> conserves4 nva nva noa noa t ->
  exists aa ab bb t', T2_to_spatial t noa nva nob nvb = Some (aa, ab, bb) /\
    T2_to_spin aa ab bb noa nva nob nvb = Some t' /\ teq t' t.
Proof. exact (T2_retract K t noa nva nob nvb). Qed.
Print Assumptions C41_T2_retraction.

Theorem C41_T1_retraction (K : cring) (t : tensor K) noa nva nob nvb :
  shp t = [nva + nvb; noa + nob] -> conserves2 nva noa t ->
  exists a b t', T1_to_spatial t noa nva nob nvb = Some (a, b) /\
    T1_to_spin a b noa nva nob nvb = Some t' /\ teq t' t.
Proof. exact (T1_retract K t noa nva nob nvb). Qed.
Print Assumptions C41_T1_retraction.

(** Without spin conservation it fails, for antisymmetric doubles too. *)
Theorem C41_needs_conservation :
  (exists (t : tensor QcK) noa nva nob nvb, t2_ok (noa + nob) (nva + nvb) t /\
     forall aa ab bb t', T2_to_spatial t noa nva nob nvb = Some (aa, ab, bb) ->
       T2_to_spin aa ab bb noa nva nob nvb = Some t' -> ~ teq t' t) /\
  (exists (t : tensor QcK) noa nva nob nvb, shp t = [nva + nvb; noa + nob] /\
     forall a b t', T1_to_spatial t noa nva nob nvb = Some (a, b) ->
       T1_to_spin a b noa nva nob nvb = Some t' -> ~ teq t' t).
Proof. exact (conj T2_not_retract T1_not_retract). Qed.
Print Assumptions C41_needs_conservation.

(** The arrays built by T2_to_spin meet the hypotheses (C39); see C39_example
    for a non-zero one. *)

(** C42: energy denominators. *)
Theorem C42_D1 (K : cring) (ev eo : tensor K) nv no : shp ev = [nv] -> shp eo = [no] ->
  exists D, D1 ev eo = Some D /\ shp D = [nv; no] /\
    forall a i, a < nv -> i < no -> dat D [a; i] = (dat ev [a] - dat eo [i])%K.
Proof. exact (D1_spec K ev eo nv no). Qed.
Print Assumptions C42_D1.

Theorem C42_D2 (K : cring) (ev eo : tensor K) nv no : shp ev = [nv] -> shp eo = [no] ->
  exists D, D2 ev eo = Some D /\ shp D = [nv; nv; no; no] /\
    (forall a b i j, a < nv -> b < nv -> i < no -> j < no ->
       dat D [a; b; i; j] = (dat ev [a] + dat ev [b] - dat eo [i] - dat eo [j])%K) /\
    (forall a b i j, a < nv -> b < nv -> i < no -> j < no ->
       dat D [a; b; i; j] = dat D [b; a; i; j] /\ dat D [a; b; i; j] = dat D [a; b; j; i]).
Proof. exact (D2_spec K ev eo nv no). Qed.
Print Assumptions C42_D2.

Theorem C42_D2u (K : cring) (eva evb eoa eob : tensor K) na nb ma mb :
  shp eva = [na] -> shp evb = [nb] -> shp eoa = [ma] -> shp eob = [mb] ->
  exists D, D2u eva evb eoa eob = Some D /\ shp D = [na; nb; ma; mb] /\
    forall a b i j, a < na -> b < nb -> i < ma -> j < mb ->
      dat D [a; b; i; j] = (dat eva [a] + dat evb [b] - dat eoa [i] - dat eob [j])%K.
Proof. exact (D2u_spec K eva evb eoa eob na nb ma mb). Qed.
Print Assumptions C42_D2u.

(** The spin-orbital denominators: e_p + e_q - e_r - e_s of the concatenated
    energies where spin is conserved, zero elsewhere. *)
Theorem C42_D2_to_spin (K : cring) (eva evb eoa eob : tensor K) nva nvb noa nob :
  shp eva = [nva] -> shp evb = [nvb] -> shp eoa = [noa] -> shp eob = [nob] ->
  exists Daa Dab Dbb D,
    D2 eva eoa = Some Daa /\ D2u eva evb eoa eob = Some Dab /\ D2 evb eob = Some Dbb /\
    D2_to_spin Daa Dab Dbb noa nva nob nvb = Some D /\
    shp D = [nva + nvb; nva + nvb; noa + nob; noa + nob] /\
    forall p q r s, inrange (shp D) [p; q; r; s] ->
      dat D [p; q; r; s] =
        if Nat.eqb (is_beta nva p + is_beta nva q) (is_beta noa r + is_beta noa s)
        then (cat nva eva evb p + cat nva eva evb q - cat noa eoa eob r - cat noa eoa eob s)%K
        else c0.
Proof. exact (D2_to_spin_spec K eva evb eoa eob nva nvb noa nob). Qed.
Print Assumptions C42_D2_to_spin.

Theorem C42_block_diag (K : cring) (A B : tensor K) ma na mb nb :
  shp A = [ma; na] -> shp B = [mb; nb] ->
  exists M, block_diag A B = Some M /\ shp M = [ma + mb; na + nb] /\
    (forall i j, i < ma -> j < na -> dat M [i; j] = dat A [i; j]) /\
    (forall i j, i < mb -> j < nb -> dat M [ma + i; na + j] = dat B [i; j]) /\
    (forall i j, i < ma -> j < nb -> dat M [i; na + j] = c0) /\
    (forall i j, i < mb -> j < na -> dat M [ma + i; j] = c0).
Proof. exact (block_diag_spec K A B ma na mb nb). Qed.
Print Assumptions C42_block_diag.

(** energies 0, 1, ... and 10, 11, ... *)
Definition en (n start : nat) : tensor QcK :=
  mkT [n] (fun idx => match idx with [i] => zK (Z.of_nat (start + i)) | _ => c0 end).
Example C42_example :
  shp (en 2 20) = [2] /\ shp (en 1 3) = [1] /\
  option_map (fun D => dat D [1; 0; 0; 0]) (D2 (en 2 20) (en 1 3)) = Some (Qcanon.Q2Qc 35) /\
  option_map (fun D => dat D [1; 0]) (D1 (en 2 20) (en 1 3)) = Some (Qcanon.Q2Qc 18).
Proof. repeat split; vm_compute; reflexivity. Qed.

(** C43: partition into occupied/virtual blocks.  A space is [false]
    (occupied) or [true] (virtual). *)
Theorem C43_full_blocks (K : cring) (Itot : tensor K) n1o n1v n2o n2v n3o n3v n4o n4v :
  shp Itot = [n1o + n1v; n2o + n2v; n3o + n3v; n4o + n4v] ->
  exists b, make_two_e_blocks_full Itot n1o n1v n2o n2v n3o n3v n4o n4v = Some b /\
    forall ss, List.length ss = 4 ->
      is_block [n1o; n2o; n3o; n4o] [n1v; n2v; n3v; n4v] Itot b ss.
Proof. exact (full_blocks K Itot n1o n1v n2o n2v n3o n3v n4o n4v). Qed.
Print Assumptions C43_full_blocks.

(** Itot can be reassembled from the sixteen blocks. *)
Theorem C43_reassemble (K : cring) (Itot : tensor K) n1o n1v n2o n2v n3o n3v n4o n4v b :
  make_two_e_blocks_full Itot n1o n1v n2o n2v n3o n3v n4o n4v = Some b ->
  forall p q r s, inrange (shp Itot) [p; q; r; s] ->
    let side n i := negb (Nat.ltb i n) in
    let loc n i := if Nat.ltb i n then i else i - n in
    exists u, attr (block_name [side n1o p; side n2o q; side n3o r; side n4o s]) b = Some u /\
      inrange (shp u) [loc n1o p; loc n2o q; loc n3o r; loc n4o s] /\
      dat Itot [p; q; r; s] = dat u [loc n1o p; loc n2o q; loc n3o r; loc n4o s].
Proof. exact (reassemble K Itot n1o n1v n2o n2v n3o n3v n4o n4v b). Qed.
Print Assumptions C43_reassemble.

(** make_two_e_blocks sets nine attributes; the other seven are None. *)
Theorem C43_nine_blocks (K : cring) (Itot : tensor K) n1o n1v n2o n2v n3o n3v n4o n4v :
  let v := true in let o := false in
  shp Itot = [n1o + n1v; n2o + n2v; n3o + n3v; n4o + n4v] ->
  exists b, make_two_e_blocks Itot n1o n1v n2o n2v n3o n3v n4o n4v = Some b /\
    Forall (is_block [n1o; n2o; n3o; n4o] [n1v; n2v; n3v; n4v] Itot b)
      [[v; v; v; v]; [v; v; v; o]; [v; o; v; v]; [v; v; o; o]; [v; o; v; o]; [o; o; v; v];
       [v; o; o; o]; [o; o; o; v]; [o; o; o; o]] /\
    Forall (fun ss => attr (block_name ss) b = None)
      [[v; v; o; v]; [o; v; v; v]; [o; v; v; o]; [v; o; o; v]; [o; v; o; v]; [o; v; o; o];
       [o; o; v; o]].
Proof. exact (nine_blocks K Itot n1o n1v n2o n2v n3o n3v n4o n4v). Qed.
Print Assumptions C43_nine_blocks.

Theorem C43_wrong_sizes_raise (K : cring) (Itot : tensor K) n1o n1v n2o n2v n3o n3v n4o n4v :
  shp Itot <> [n1o + n1v; n2o + n2v; n3o + n3v; n4o + n4v] ->
  make_two_e_blocks Itot n1o n1v n2o n2v n3o n3v n4o n4v = None /\
  make_two_e_blocks_full Itot n1o n1v n2o n2v n3o n3v n4o n4v = None.
Proof. exact (wrong_sizes K Itot n1o n1v n2o n2v n3o n3v n4o n4v). Qed.
Print Assumptions C43_wrong_sizes_raise.

Example C43_example :
  let Itot := fill4 QcK 3 4 2 3 poly in
  shp Itot = [1 + 2; 3 + 1; 1 + 1; 2 + 1] /\ block_name [true; false; false; true] = "voov"%string /\
  match make_two_e_blocks_full Itot 1 2 3 1 1 1 2 1 with
  | Some b => option_map (fun u => dat u [1; 2; 0; 0]) (attr "voov" b) | None => None end
  = Some (dat Itot [2; 2; 0; 2]).
Proof. repeat split; vm_compute; reflexivity. Qed.
