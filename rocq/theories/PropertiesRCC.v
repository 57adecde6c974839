(** C63, C64: restricted (closed-shell) coupled cluster theory.  Specifications:
    RFockSpec.v (spin-summed operators, arguments of the restricted functions in
    terms of integrals), CISpec.v (determinants, [H_spatial], [u_space]),
    CIExpSpec.v, CCFockSpec.v (operator products, [opexp]). *)
From Coq Require Import List String ZArith QArith Factorial Lia.
From Verif Require Import Scalar Tensor PySyntax PySem CCProg CISpec CIFacts CIExpSpec CCSpec CCFockSpec SpinSpec CCExamples
  UFockSpec FockStates CIBases CILemmas CIExpU CIExpG RFockSpec RCC CCCI UExamples RExamples.
Import ListNotations.
Local Open Scope string_scope.

(** C63: h_pq and I_pqrs = <pq|rs> are the integrals over n spatial orbitals, |0>
    the determinant with the first no orbitals doubly occupied and |Psi> =
    exp(T)|0> with T = sum t_ai E_ai + 1/2 sum t_abij E_ai E_bj.  Then <0|H|Psi>
    is <0|H|0> plus the number returned by rcc_energy, for all amplitudes; ... *)
Theorem C63_energy (K : cring) n no nv h I F J T1 T2 inv M :
  r_hamiltonian n no nv h I F J -> r_amps_ok no nv T1 T2 -> inverts inv M -> (nv + nv < M)%nat ->
  let ref := (aufbau n no ++ aufbau n no)%list in
  let H := H_closed n h I in
  let Psi := opexp inv M (r_cluster n no nv T1 T2) in
  exists e,
    returns (K := K) "rcc_energy" [arr T1; arr T2; arr (ov F); arr (foovv J)] (numv e) /\
    amp ref Psi ref = c1 /\ amp ref (opmul H Psi) ref = (amp ref H ref + e)%K.
Proof.
  intros HR HT HI HM. destruct (r_schroedinger K n no nv h I F J HR T1 T2 HT inv M HI HM) as (e & R1 & R2 & He & _ & N & E & _).
  exact (ex_intro _ e (conj He (conj N E))).
Qed.
Print Assumptions C63_energy.

(** ... the residuals returned by rccsd_stanton are zero if and only if
    <x|H|Psi> = E <x|Psi> for all determinants x reached by at most two
    excitations, where E = <0|H|0> + rcc_energy; ... *)
Theorem C63_projected_schroedinger_equation (K : cring) n no nv h I F J T1 T2 inv M :
  r_hamiltonian n no nv h I F J -> r_amps_ok no nv T1 T2 -> inverts inv M -> (nv + nv < M)%nat ->
  let A := aufbau n no in let ref := (A ++ A)%list in
  let H := H_closed n h I in
  let Psi := opexp inv M (r_cluster n no nv T1 T2) in
  exists e R1 R2,
    returns (K := K) "rcc_energy" [arr T1; arr T2; arr (ov F); arr (foovv J)] (numv e) /\
    returns (K := K) "rccsd_stanton" [py_one_e F; py_two_e_full J; arr T1; arr T2] (tup [arr R1; arr R2]) /\
    (r_solved no nv R1 R2 <->
     forall x, u_space 2 A A x ->
       amp (fst x ++ snd x)%list (opmul H Psi) ref = ((amp ref H ref + e) * amp (fst x ++ snd x)%list Psi ref)%K).
Proof.
  intros HR HT HI HM. destruct (r_schroedinger K n no nv h I F J HR T1 T2 HT inv M HI HM) as (e & R1 & R2 & He & Hr & _ & _ & Q & _).
  exists e, R1, R2. exact (conj He (conj Hr Q)).
Qed.
Print Assumptions C63_projected_schroedinger_equation.

(** ... and with one occupied or one empty orbital, solved equations give an
    eigenstate of H in the full space. *)
Theorem C63_exact_for_two_excitations (K : cring) n no nv h I F J T1 T2 inv M :
  r_hamiltonian n no nv h I F J -> r_amps_ok no nv T1 T2 -> inverts inv M -> (nv + nv < M)%nat -> (no <= 1 \/ nv <= 1)%nat ->
  let ref := (aufbau n no ++ aufbau n no)%list in
  let H := H_closed n h I in
  let Psi := opexp inv M (r_cluster n no nv T1 T2) in
  exists e R1 R2,
    returns (K := K) "rcc_energy" [arr T1; arr T2; arr (ov F); arr (foovv J)] (numv e) /\
    returns (K := K) "rccsd_stanton" [py_one_e F; py_two_e_full J; arr T1; arr T2] (tup [arr R1; arr R2]) /\
    amp ref Psi ref = c1 /\
    (r_solved no nv R1 R2 -> forall t, List.length t = (n + n)%nat ->
       amp t (opmul H Psi) ref = ((amp ref H ref + e) * amp t Psi ref)%K).
Proof.
  intros HR HT HI HM Small. destruct (r_schroedinger K n no nv h I F J HR T1 T2 HT inv M HI HM) as (e & R1 & R2 & He & Hr & N & _ & _ & Q).
  exists e, R1, R2. exact (conj He (conj Hr (conj N (Q Small)))).
Qed.
Print Assumptions C63_exact_for_two_excitations.

(** [H_closed] is the Hamiltonian whose matrix elements the CI functions are
    proved to return (C33, C35), with equal integrals for both spins; every set
    of integrals has its arguments. *)
Theorem C63_same_hamiltonian (K : cring) n h I s t : pair_symmetric n I -> List.length s = (n + n)%nat ->
  amp s (H_closed n h I) t = H_spatial (K := K) n c0 h h I I I s t.
Proof.
  intros SI L. rewrite (same_amp K (n + n) _ _ s t (same_H K n h I SI) L). exact (eq_sym (H_spatial_amp K n h h I I I s t)).
Qed.
Print Assumptions C63_same_hamiltonian.

Theorem C63_every_hamiltonian (K : cring) n no nv h I : (no + nv)%nat = n -> pair_symmetric n I ->
  exists F J, r_hamiltonian (K := K) n no nv h I F J.
Proof. intros N S. exact (ex_intro _ _ (ex_intro _ _ (r_build_ok K n no nv h I N S))). Qed.
Print Assumptions C63_every_hamiltonian.

(** Four electrons in four orbitals and two electrons in three orbitals:
    amplitudes that solve the equations. *)
Example C63_example :
  r_hamiltonian 4 2 2 (z2 y4_h) (z4 y4_I) (rF y4) (rJ y4) /\ r_amps_ok 2 2 (rT1 y4) (rT2 y4) /\
  (exists R1 R2, returns (K := QcK) "rccsd_stanton" [py_one_e (rF y4); py_two_e_full (rJ y4); arr (rT1 y4); arr (rT2 y4)] (tup [arr R1; arr R2]) /\
     r_solved 2 2 R1 R2) /\
  r_energy y4 = Some (-26)%Q /\
  r_hamiltonian 3 1 2 (z2 y3_h) (z4 y3_I) (rF y3) (rJ y3) /\ r_amps_ok 1 2 (rT1 y3) (rT2 y3) /\
  (exists R1 R2, returns (K := QcK) "rccsd_stanton" [py_one_e (rF y3); py_two_e_full (rJ y3); arr (rT1 y3); arr (rT2 y3)] (tup [arr R1; arr R2]) /\
     r_solved 1 2 R1 R2) /\
  r_energy y3 = Some 18%Q.
Proof.
  assert (A4 : r_hamiltonian 4 2 2 (z2 y4_h) (z4 y4_I) (rF y4) (rJ y4)).
  { apply r_build_ok; [reflexivity|]. intros p q r s Lp Lq Lr Ls; unfold z4; f_equal;
      do 4 (destruct p as [|p]; [do 4 (destruct q as [|q]; [do 4 (destruct r as [|r]; [do 4 (destruct s as [|s]; [vm_compute; reflexivity|]); lia|]); lia|]); lia|]); lia. }
  assert (A3 : r_hamiltonian 3 1 2 (z2 y3_h) (z4 y3_I) (rF y3) (rJ y3)).
  { apply r_build_ok; [reflexivity|]. intros p q r s Lp Lq Lr Ls; unfold z4; f_equal;
      do 3 (destruct p as [|p]; [do 3 (destruct q as [|q]; [do 3 (destruct r as [|r]; [do 3 (destruct s as [|s]; [vm_compute; reflexivity|]); lia|]); lia|]); lia|]); lia. }
  assert (B4 : r_amps_ok 2 2 (rT1 y4) (rT2 y4)).
  { split; [reflexivity|]. split; [reflexivity|]. intros a b i j _ _ _ _. cbn. f_equal. rewrite (Nat.add_comm j i). lia. }
  assert (B3 : r_amps_ok 1 2 (rT1 y3) (rT2 y3)).
  { split; [reflexivity|]. split; [reflexivity|]. intros a b i j _ _ _ _. cbn. f_equal. lia. }
  assert (IV : forall M, inverts qinv M) by (intros M k _; apply qinv_ok, lt_O_fact).
  destruct (C63_projected_schroedinger_equation _ _ _ _ _ _ _ _ _ _ qinv 5 A4 B4 (IV 5%nat) ltac:(lia)) as (_ & R1 & R2 & _ & Q4 & _).
  destruct (C63_projected_schroedinger_equation _ _ _ _ _ _ _ _ _ _ qinv 5 A3 B3 (IV 5%nat) ltac:(lia)) as (_ & R1' & R2' & _ & Q3 & _).
  split; [exact A4|]. split; [exact B4|]. split.
  { exists R1, R2. split; [exact Q4|]. refine (r_check_solved 2 2 y4 R1 R2 _ Q4). vm_compute. reflexivity. }
  split; [vm_compute; reflexivity|]. split; [exact A3|]. split; [exact B3|]. split.
  { exists R1', R2'. split; [exact Q3|]. refine (r_check_solved 1 2 y3 R1' R2' _ Q3). vm_compute. reflexivity. }
  vm_compute. reflexivity.
Qed.

(** C64: for all amplitudes, solved or not, the restricted wave function
    exp(T)|0> is a singlet: it is annihilated by S+, S-, S_z and S^2. *)
Theorem C64_singlet (K : cring) n no nv T1 T2 inv M t : (no + nv)%nat = n -> List.length t = (n + n)%nat ->
  let ref := (aufbau n no ++ aufbau n no)%list in
  let Psi := opexp inv M (r_cluster (K := K) n no nv T1 T2) in
  amp t (opmul (S_plus n) Psi) ref = c0 /\ amp t (opmul (S_minus n) Psi) ref = c0 /\
  amp t (opmul (S_z n) Psi) ref = c0 /\ amp t (opmul (S_squared n) Psi) ref = c0.
Proof.
  intros N L. cbv zeta. rewrite !amp_eos, !eos_opmul. repeat split.
  - apply plus_zero; assumption.
  - apply minus_zero; assumption.
  - apply z_zero; assumption.
  - apply squared_zero; assumption.
Qed.
Print Assumptions C64_singlet.

(** The operators are those of the electron spin: they commute with H. *)
Theorem C64_spin_symmetry (K : cring) n h I s t : List.length s = (n + n)%nat ->
  let H := H_closed (K := K) n h I in
  amp s (opmul (S_plus n) H) t = amp s (opmul H (S_plus n)) t /\
  amp s (opmul (S_minus n) H) t = amp s (opmul H (S_minus n)) t /\
  amp s (opmul (S_z n) H) t = amp s (opmul H (S_z n)) t.
Proof.
  intros L. cbv zeta. rewrite !amp_eos, !eos_opmul. repeat split.
  - exact (spin_H K n false h I (kd t) s L).
  - exact (spin_H K n true h I (kd t) s L).
  - exact (z_H K n h I (kd t) s L).
Qed.
Print Assumptions C64_spin_symmetry.

(** The operators do not vanish: on one electron in one orbital. *)
Example C64_example :
  amp [true; false] (S_plus 1) [false; true] = (c1 : QcK) /\
  amp [false; true] (S_minus 1) [true; false] = (c1 : QcK) /\
  amp [true; false] (S_z 1) [true; false] = (chalf : QcK) /\
  amp [true; false] (S_squared 1) [true; false] = (chalf * chalf + chalf : QcK)%K /\
  (let Psi := opexp qinv 3 (r_cluster 2 1 1 (fill2 QcK 1 1 (fun _ _ => 2%Z)) (fill4 QcK 1 1 1 1 (fun _ _ _ _ => 3%Z))) in
   amp [false; true; true; false] Psi [true; false; true; false] = nK QcK 2 /\ amp [false; true; false; true] Psi [true; false; true; false] = nK QcK 7).
Proof. cbv zeta. repeat split; apply Qcanon.Qc_is_canon; vm_compute; reflexivity. Qed.
