(** Theorems about the CI coefficients of exp(T1 + T2)|ref> (ci_utils.py,
    makeCfromT and gmakeCfromT): C36, C37.  Vocabulary: CISpec.v and CIExpSpec.v.
    [inv d] is the inverse of the number d; the amplitudes are T1[a, i] and
    T2[a, b, i, j]; [occs s] and [virs s] list the occupied and the empty
    positions of s. *)
From Coq Require Import List Bool Arith ZArith QArith Qcanon.
From Verif Require Import Scalar Tensor NpModel CIModel CISpec CIRep CIStrings CIExpSpec CICfromT CIExpU CIExpG CIQuadExp.
Import ListNotations.
Local Open Scope nat_scope.

(** C36: for orders 1, 2 and 3 the entry for each determinant of the basis is
    its amplitude in (1 + T + T^2/2 + ... + T^M/M!)|ref>, for every M that is at
    least the order: the powers beyond it do not contribute. *)
Theorem C36_order1 (K : cring) (inv : nat -> K) (n noa nva nob nvb : nat) (T1a T1b T2aa T2ab T2bb : tensor K) :
  (forall d, 0 < d -> cmul (nK K d) (inv d) = c1) -> noa + nva = n -> nob + nvb = n ->
  shp T1a = [nva; noa] -> shp T1b = [nvb; nob] ->
  exists L, ucis_basis n noa nob true = Some (map dpair L) /\
  forall M, 1 <= M -> makeCfromT K inv noa nva nob nvb T1a T1b T2aa T2ab T2bb 1
  = Some (map (fun J : udet => exp_amp inv M (fst J ++ snd J)
      (T_spins n noa nva nob nvb (fun a i => dat T1a [a; i]) (fun a i => dat T1b [a; i])
         (fun a b i j => dat T2aa [a; b; i; j]) (fun a b i j => dat T2ab [a; b; i; j])
         (fun a b i j => dat T2bb [a; b; i; j]))
      (aufbau n noa ++ aufbau n nob)) L).
Proof. exact (fun Inv Na Nb => C1 K inv Inv n noa nva nob nvb Na Nb T1a T1b T2aa T2ab T2bb). Qed.
Print Assumptions C36_order1.

Theorem C36_order2 (K : cring) (inv : nat -> K) (n noa nva nob nvb : nat) (T1a T1b T2aa T2ab T2bb : tensor K) :
  (forall d, 0 < d -> cmul (nK K d) (inv d) = c1) -> noa + nva = n -> nob + nvb = n ->
  shp T1a = [nva; noa] -> shp T1b = [nvb; nob] ->
  shp T2aa = [nva; nva; noa; noa] -> shp T2ab = [nva; nvb; noa; nob] -> shp T2bb = [nvb; nvb; nob; nob] ->
  exists L, ucisd_basis n noa nob = Some (map dpair L) /\
  forall M, 2 <= M -> makeCfromT K inv noa nva nob nvb T1a T1b T2aa T2ab T2bb 2
  = Some (map (fun J : udet => exp_amp inv M (fst J ++ snd J)
      (T_spins n noa nva nob nvb (fun a i => dat T1a [a; i]) (fun a i => dat T1b [a; i])
         (fun a b i j => dat T2aa [a; b; i; j]) (fun a b i j => dat T2ab [a; b; i; j])
         (fun a b i j => dat T2bb [a; b; i; j]))
      (aufbau n noa ++ aufbau n nob)) L).
Proof. exact (fun Inv Na Nb => C2 K inv Inv n noa nva nob nvb Na Nb T1a T1b T2aa T2ab T2bb). Qed.
Print Assumptions C36_order2.

Theorem C36_order3 (K : cring) (inv : nat -> K) (n noa nva nob nvb : nat) (T1a T1b T2aa T2ab T2bb : tensor K) :
  (forall d, 0 < d -> cmul (nK K d) (inv d) = c1) -> noa + nva = n -> nob + nvb = n ->
  shp T1a = [nva; noa] -> shp T1b = [nvb; nob] ->
  shp T2aa = [nva; nva; noa; noa] -> shp T2ab = [nva; nvb; noa; nob] -> shp T2bb = [nvb; nvb; nob; nob] ->
  exists L, ucisdt_basis n noa nob = Some (map dpair L) /\
  forall M, 3 <= M -> makeCfromT K inv noa nva nob nvb T1a T1b T2aa T2ab T2bb 3
  = Some (map (fun J : udet => exp_amp inv M (fst J ++ snd J)
      (T_spins n noa nva nob nvb (fun a i => dat T1a [a; i]) (fun a i => dat T1b [a; i])
         (fun a b i j => dat T2aa [a; b; i; j]) (fun a b i j => dat T2ab [a; b; i; j])
         (fun a b i j => dat T2bb [a; b; i; j]))
      (aufbau n noa ++ aufbau n nob)) L).
Proof. exact (fun Inv Na Nb => C3 K inv Inv n noa nva nob nvb Na Nb T1a T1b T2aa T2ab T2bb). Qed.
Print Assumptions C36_order3.

(** Order 4 lacks one term of T^3/6: the amplitude of T1b T1b T2aa, divided by 2.
    The conditions are those under which ucisdtq_basis is right (C27, C28). *)
Theorem C36_order4_lacks_a_term (K : cring) (inv : nat -> K) (n noa nva nob nvb : nat)
    (T1a T1b T2aa T2ab T2bb : tensor K) :
  (forall d, 0 < d -> cmul (nK K d) (inv d) = c1) -> noa + nva = n -> nob + nvb = n ->
  shp T1a = [nva; noa] -> shp T1b = [nvb; nob] ->
  shp T2aa = [nva; nva; noa; noa] -> shp T2ab = [nva; nvb; noa; nob] -> shp T2bb = [nvb; nvb; nob; nob] ->
  noa < 4 \/ nva < 4 -> nob < 4 \/ nvb < 4 ->
  exists L, ucisdtq_basis n noa nob = Some (map dpair L) /\
  forall M, 4 <= M -> makeCfromT K inv noa nva nob nvb T1a T1b T2aa T2ab T2bb 4
  = Some (map (fun J : udet => csub (exp_amp inv M (fst J ++ snd J)
      (T_spins n noa nva nob nvb (fun a i => dat T1a [a; i]) (fun a i => dat T1b [a; i])
         (fun a b i j => dat T2aa [a; b; i; j]) (fun a b i j => dat T2ab [a; b; i; j])
         (fun a b i j => dat T2bb [a; b; i; j]))
      (aufbau n noa ++ aufbau n nob))
    (cmul (inv 2) (amp (fst J ++ snd J)
      (opmul (T_beta1 n nob nvb (fun a i => dat T1b [a; i]))
         (opmul (T_beta1 n nob nvb (fun a i => dat T1b [a; i]))
            (T_alpha2 noa nva (fun a b i j => dat T2aa [a; b; i; j]))))
      (aufbau n noa ++ aufbau n nob)))) L).
Proof. exact (fun Inv Na Nb => C4 K inv Inv n noa nva nob nvb Na Nb T1a T1b T2aa T2ab T2bb). Qed.
Print Assumptions C36_order4_lacks_a_term.

(** With four electrons of a spin and four orbitals to put them in, the basis
    lists each string with four excitations of that spin several times (C28).
    The first of the copies gets the coefficient and the others are zero. *)
Theorem C36_order4_four_electrons (K : cring) (inv : nat -> K) (n noa nva nob nvb : nat)
    (T1a T1b T2aa T2ab T2bb : tensor K) :
  (forall d, 0 < d -> cmul (nK K d) (inv d) = c1) -> noa + nva = n -> nob + nvb = n ->
  shp T1a = [nva; noa] -> shp T1b = [nvb; nob] ->
  shp T2aa = [nva; nva; noa; noa] -> shp T2ab = [nva; nvb; noa; nob] -> shp T2bb = [nvb; nvb; nob; nob] ->
  noa <= 4 \/ nva < 4 -> nob <= 4 \/ nvb < 4 ->
  exists L C, ucisdtq_basis n noa nob = Some (map dpair L) /\
  makeCfromT K inv noa nva nob nvb T1a T1b T2aa T2ab T2bb 4 = Some C /\ length C = length L /\
  forall M, 4 <= M -> forall j (J : udet), nth_error L j = Some J ->
    (~ In J (firstn j L) -> nth j C c0 = csub (exp_amp inv M (fst J ++ snd J)
        (T_spins n noa nva nob nvb (fun a i => dat T1a [a; i]) (fun a i => dat T1b [a; i])
           (fun a b i j => dat T2aa [a; b; i; j]) (fun a b i j => dat T2ab [a; b; i; j])
           (fun a b i j => dat T2bb [a; b; i; j]))
        (aufbau n noa ++ aufbau n nob))
      (cmul (inv 2) (amp (fst J ++ snd J)
        (opmul (T_beta1 n nob nvb (fun a i => dat T1b [a; i]))
           (opmul (T_beta1 n nob nvb (fun a i => dat T1b [a; i]))
              (T_alpha2 noa nva (fun a b i j => dat T2aa [a; b; i; j]))))
        (aufbau n noa ++ aufbau n nob)))) /\
    (In J (firstn j L) -> nth j C c0 = c0).
Proof. exact (fun Inv Na Nb => C4_first K inv Inv n noa nva nob nvb Na Nb T1a T1b T2aa T2ab T2bb). Qed.
Print Assumptions C36_order4_four_electrons.

(** With five or more it raises, whatever the amplitudes: the basis lacks some
    of the strings that the loops reach. *)
Theorem C36_order4_five_electrons_raises (K : cring) (inv : nat -> K) (n noa nva nob nvb : nat)
    (T1a T1b T2aa T2ab T2bb : tensor K) :
  noa + nva = n -> nob + nvb = n -> 5 <= noa /\ 4 <= nva \/ 5 <= nob /\ 4 <= nvb ->
  makeCfromT K inv noa nva nob nvb T1a T1b T2aa T2ab T2bb 4 = None.
Proof. exact (fun Na Nb => C4_raises K inv n noa nva nob nvb Na Nb T1a T1b T2aa T2ab T2bb). Qed.
Print Assumptions C36_order4_five_electrons_raises.

(** It is right if that term cannot occur. *)
Theorem C36_order4_small (K : cring) (inv : nat -> K) (n noa nva nob nvb : nat)
    (T1a T1b T2aa T2ab T2bb : tensor K) :
  (forall d, 0 < d -> cmul (nK K d) (inv d) = c1) -> noa + nva = n -> nob + nvb = n ->
  shp T1a = [nva; noa] -> shp T1b = [nvb; nob] ->
  shp T2aa = [nva; nva; noa; noa] -> shp T2ab = [nva; nvb; noa; nob] -> shp T2bb = [nvb; nvb; nob; nob] ->
  noa < 4 \/ nva < 4 -> nob < 4 \/ nvb < 4 ->
  noa < 2 \/ nva < 2 \/ nob < 2 \/ nvb < 2 ->
  exists L, ucisdtq_basis n noa nob = Some (map dpair L) /\
  forall M, 4 <= M -> makeCfromT K inv noa nva nob nvb T1a T1b T2aa T2ab T2bb 4
  = Some (map (fun J : udet => exp_amp inv M (fst J ++ snd J)
      (T_spins n noa nva nob nvb (fun a i => dat T1a [a; i]) (fun a i => dat T1b [a; i])
         (fun a b i j => dat T2aa [a; b; i; j]) (fun a b i j => dat T2ab [a; b; i; j])
         (fun a b i j => dat T2bb [a; b; i; j]))
      (aufbau n noa ++ aufbau n nob)) L).
Proof. exact (fun Inv Na Nb => C4_few K inv Inv n noa nva nob nvb Na Nb T1a T1b T2aa T2ab T2bb). Qed.
Print Assumptions C36_order4_small.

(** A case in which the coefficient returned is not that of exp(T)|ref>. *)
Theorem C36_order4_refuted : exists (inv : nat -> QcK) (T1 T2 : tensor QcK) L C j J,
  (forall d, 0 < d -> cmul (nK QcK d) (inv d) = (c1 : QcK)) /\
  shp T1 = [2; 2] /\ shp T2 = [2; 2; 2; 2] /\
  ucisdtq_basis 4 2 2 = Some (map dpair L) /\
  makeCfromT QcK inv 2 2 2 2 T1 T1 T2 T2 T2 4 = Some C /\
  nth_error L j = Some J /\
  forall M, 4 <= M -> nth j C c0 <> exp_amp inv M (fst J ++ snd J)
    (T_spins 4 2 2 2 2 (fun a i => dat T1 [a; i]) (fun a i => dat T1 [a; i])
       (fun a b i j => dat T2 [a; b; i; j]) (fun a b i j => dat T2 [a; b; i; j]) (fun a b i j => dat T2 [a; b; i; j]))
    (aufbau 4 2 ++ aufbau 4 2).
Proof.
  exact (match C4_bad with ex_intro _ L (ex_intro _ C (ex_intro _ j H)) =>
    ex_intro _ qinv (ex_intro _ bad_T1 (ex_intro _ bad_T2 (ex_intro _ L (ex_intro _ C (ex_intro _ j (ex_intro _ bad_J
      (conj qinv_ok (conj eq_refl (conj eq_refl H))))))))) end).
Qed.
Print Assumptions C36_order4_refuted.

(** Any other order, or different numbers of alpha and beta orbitals, raises. *)
Theorem C36_raises (K : cring) (inv : nat -> K) (noa nva nob nvb : nat) (T1a T1b T2aa T2ab T2bb : tensor K) (order : Z) :
  noa + nva <> nob + nvb \/ (order < 1)%Z \/ (4 < order)%Z ->
  makeCfromT K inv noa nva nob nvb T1a T1b T2aa T2ab T2bb order = None.
Proof. exact (makeC_raises K inv noa nva nob nvb T1a T1b T2aa T2ab T2bb order). Qed.
Print Assumptions C36_raises.

(** The spin-orbital version, given the occupation of the reference of the
    bases: the first half of the orbitals is alpha. *)
Theorem C36_g_order1 (K : cring) (inv : nat -> K) (h no nv : nat) (T1 T2 : tensor K) :
  (forall d, 0 < d -> cmul (nK K d) (inv d) = c1) -> no + nv = 2 * h ->
  shp T1 = [nv; no] ->
  exists L, gcis_basis (no + nv) no true = Some (map dstr L) /\
  forall M, 1 <= M -> gmakeCfromT K inv no nv T1 T2 1 (Some (map b2z (gref h no)))
  = Some (map (fun J => exp_amp inv M J (T_spin_orbitals (occs (gref h no)) (virs (gref h no))
      (fun a i => dat T1 [a; i]) (fun a b i j => dat T2 [a; b; i; j])) (gref h no)) L).
Proof. exact (fun Inv H => G1 K inv Inv h no nv H T1 T2). Qed.
Print Assumptions C36_g_order1.

Theorem C36_g_order2 (K : cring) (inv : nat -> K) (h no nv : nat) (T1 T2 : tensor K) :
  (forall d, 0 < d -> cmul (nK K d) (inv d) = c1) -> no + nv = 2 * h ->
  shp T1 = [nv; no] -> shp T2 = [nv; nv; no; no] ->
  exists L, gcisd_basis (no + nv) no = Some (map dstr L) /\
  forall M, 2 <= M -> gmakeCfromT K inv no nv T1 T2 2 (Some (map b2z (gref h no)))
  = Some (map (fun J => exp_amp inv M J (T_spin_orbitals (occs (gref h no)) (virs (gref h no))
      (fun a i => dat T1 [a; i]) (fun a b i j => dat T2 [a; b; i; j])) (gref h no)) L).
Proof. exact (fun Inv H => G2 K inv Inv h no nv H T1 T2). Qed.
Print Assumptions C36_g_order2.

Theorem C36_g_order3 (K : cring) (inv : nat -> K) (h no nv : nat) (T1 T2 : tensor K) :
  (forall d, 0 < d -> cmul (nK K d) (inv d) = c1) -> no + nv = 2 * h ->
  shp T1 = [nv; no] -> shp T2 = [nv; nv; no; no] ->
  exists L, gcisdt_basis (no + nv) no = Some (map dstr L) /\
  forall M, 3 <= M -> gmakeCfromT K inv no nv T1 T2 3 (Some (map b2z (gref h no)))
  = Some (map (fun J => exp_amp inv M J (T_spin_orbitals (occs (gref h no)) (virs (gref h no))
      (fun a i => dat T1 [a; i]) (fun a b i j => dat T2 [a; b; i; j])) (gref h no)) L).
Proof. exact (fun Inv H => G3 K inv Inv h no nv H T1 T2). Qed.
Print Assumptions C36_g_order3.

(** Unlike makeCfromT, gmakeCfromT has all the terms of order 4. *)
Theorem C36_g_order4 (K : cring) (inv : nat -> K) (h no nv : nat) (T1 T2 : tensor K) :
  (forall d, 0 < d -> cmul (nK K d) (inv d) = c1) -> no + nv = 2 * h ->
  shp T1 = [nv; no] -> shp T2 = [nv; nv; no; no] ->
  no < 4 \/ nv < 4 ->
  exists L, gcisdtq_basis (no + nv) no = Some (map dstr L) /\
  forall M, 4 <= M -> gmakeCfromT K inv no nv T1 T2 4 (Some (map b2z (gref h no)))
  = Some (map (fun J => exp_amp inv M J (T_spin_orbitals (occs (gref h no)) (virs (gref h no))
      (fun a i => dat T1 [a; i]) (fun a b i j => dat T2 [a; b; i; j])) (gref h no)) L).
Proof. exact (fun Inv H => G4 K inv Inv h no nv H T1 T2). Qed.
Print Assumptions C36_g_order4.

Theorem C36_g_order4_four_electrons (K : cring) (inv : nat -> K) (h no nv : nat) (T1 T2 : tensor K) :
  (forall d, 0 < d -> cmul (nK K d) (inv d) = c1) -> no + nv = 2 * h ->
  shp T1 = [nv; no] -> shp T2 = [nv; nv; no; no] ->
  no <= 4 \/ nv < 4 ->
  exists L C, gcisdtq_basis (no + nv) no = Some (map dstr L) /\
  gmakeCfromT K inv no nv T1 T2 4 (Some (map b2z (gref h no))) = Some C /\ length C = length L /\
  forall M, 4 <= M -> forall j J, nth_error L j = Some J ->
    (~ In J (firstn j L) -> nth j C c0 = exp_amp inv M J (T_spin_orbitals (occs (gref h no)) (virs (gref h no))
        (fun a i => dat T1 [a; i]) (fun a b i j => dat T2 [a; b; i; j])) (gref h no)) /\
    (In J (firstn j L) -> nth j C c0 = c0).
Proof. exact (fun Inv H => G4_first K inv Inv h no nv H T1 T2). Qed.
Print Assumptions C36_g_order4_four_electrons.

Theorem C36_g_order4_five_electrons_raises (K : cring) (inv : nat -> K) (h no nv : nat) (T1 T2 : tensor K) :
  no + nv = 2 * h -> 5 <= no /\ 4 <= nv -> gmakeCfromT K inv no nv T1 T2 4 (Some (map b2z (gref h no))) = None.
Proof. exact (fun H => G4_raises K inv h no nv H T1 T2). Qed.
Print Assumptions C36_g_order4_five_electrons_raises.

(** Four alpha electrons in eight orbitals: one string with four excitations,
    sixteen times in the basis; the same for spin orbitals. *)
Example C36_example_four :
  let q := [false; false; false; false; true; true; true; true] in
  option_map (fun L => (length L, length (filter (fun x => upair_eq x (dpair (q, aufbau 8 0))) L))) (ucisdtq_basis 8 4 0)
    = Some (85, 16) /\
  option_map (fun L => (length L, length (filter (fun x => dstring_eq x (dstr [false; false; true; true; false; false; true; true])) L)))
    (gcisdtq_basis 8 4) = Some (85, 16) /\
  gref 4 4 = [true; true; false; false; true; true; false; false].
Proof. vm_compute. repeat split; reflexivity. Qed.

Theorem C36_g_raises (K : cring) (inv : nat -> K) (no nv : nat) (T1 T2 : tensor K) (order : Z) (occ : option (list Z)) :
  (order < 1)%Z \/ (4 < order)%Z \/ Nat.Odd (no + nv) -> gmakeCfromT K inv no nv T1 T2 order occ = None.
Proof. exact (gmakeC_raises K inv no nv T1 T2 order occ). Qed.
Print Assumptions C36_g_raises.

(** One alpha and one beta electron: singles 2 and 3, mixed doubles 5.  The
    coefficient of the double excitation is 5 + 2 * 3. *)
Example C36_example :
  (forall d, 0 < d -> cmul (nK QcK d) (qinv d) = (c1 : QcK)) /\
  option_map (map this) (makeCfromT QcK qinv 1 1 1 1 (mkT [1; 1] (fun _ => zK 2)) (mkT [1; 1] (fun _ => zK 3))
    (mkT [1; 1; 1; 1] (fun _ => c0)) (mkT [1; 1; 1; 1] (fun _ => zK 5)) (mkT [1; 1; 1; 1] (fun _ => c0)) 2)
  = Some [1%Q; 2%Q; 3%Q; 11%Q] /\
  this (exp_amp (K:=QcK) qinv 2 [false; true; false; true] (T_spins 2 1 1 1 1 (fun _ _ => zK 2) (fun _ _ => zK 3)
    (fun _ _ _ _ => c0) (fun _ _ _ _ => zK 5) (fun _ _ _ _ => c0)) [true; false; true; false]) = 11%Q /\
  option_map (map this) (gmakeCfromT QcK qinv 2 2
    (mkT [2; 2] (fun i => zK (Z.of_nat (2 * nth 0 i 0 + nth 1 i 0)))) (mkT [2; 2; 2; 2] (fun _ => zK 7)) 2
    (Some (map b2z (gref 2 2)))) = Some [1%Q; 0%Q; (-2)%Q; 1%Q; 3%Q; 5%Q] /\
  occs (gref 2 2) = [0; 2] /\ virs (gref 2 2) = [1; 3].
Proof. split; [exact qinv_ok|]. repeat split; vm_compute; reflexivity. Qed.

(** C37: without [occ] gmakeCfromT fails, whatever the order: the default
    occupation has half the length needed. *)
Theorem C37_default_occupation_raises (K : cring) (inv : nat -> K) (no nv : nat) (T1 T2 : tensor K) (order : Z) :
  0 < no + nv -> gmakeCfromT K inv no nv T1 T2 order None = None.
Proof. exact (gmakeC_default_raises K inv no nv T1 T2 order). Qed.
Print Assumptions C37_default_occupation_raises.

(** The same call with the occupation given succeeds. *)
Example C37_example :
  gmakeCfromT QcK qinv 2 2 (mkT [2; 2] (fun _ => c1)) (mkT [2; 2; 2; 2] (fun _ => c1)) 2 None = None /\
  gmakeCfromT QcK qinv 2 2 (mkT [2; 2] (fun _ => c1)) (mkT [2; 2; 2; 2] (fun _ => c1)) 2 (Some (map b2z (gref 2 2))) <> None.
Proof. split; [reflexivity|]. vm_compute. discriminate. Qed.
