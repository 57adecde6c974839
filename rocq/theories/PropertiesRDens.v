(** C68-C70: density matrices, Lambda equations and Lagrangian of restricted
    (closed-shell) coupled cluster theory.  Specifications: RDensSpec.v (Lambda and
    expectation values with spin-summed generators), RFockSpec.v (Hamiltonian,
    cluster operator, arguments of the program in terms of integrals),
    UDensSpec.v (normal ordering, orbitals of a block), CISpec.v, CIExpSpec.v,
    CCFockSpec.v, CCDensSpec.v (determinants, operator products, [opexp],
    [rdm_word]). *)
From Coq Require Import List String ZArith QArith Factorial Lia.
From Verif Require Import Scalar Tensor PySyntax PySem CCProg CISpec CIFacts CIExpSpec CCSpec CCFockSpec CCDensSpec SpinSpec CCExamples
  UFockSpec UDensSpec RFockSpec RDensSpec CIExpG CCEquiv UExamples RExamples RDens RDens2 RDens3.
Import ListNotations.
Local Open Scope string_scope.

(** C68: every restricted density matrix function returns one array.  Element by
    element it holds <0|(c + Lambda) exp(-T) {a+_q a_p} exp(T)|0> for P_pq and
    {a+_r a+_s a_q a_p} for P_pqrs, where Lambda = sum l_ia E_ia +
    1/2 sum l_ijab E_ia E_jb and {} is the normal ordered product.  The spaces of
    the indices are given by a list (true: virtual), and the spins of the
    operators by the patterns listed (false: alpha, true: beta); these blocks do
    not depend on c; ... *)
Theorem C68_density_matrices (K : cring) n no nv T1 T2 L1 L2 inv M f vs spins c :
  (no + nv)%nat = n -> r_amps_ok no nv T1 T2 -> r_lams_ok no nv L1 L2 -> inverts inv M -> (nv + nv < M)%nat ->
  let s2 := [[false; false]; [true; true]] in
  let ab := [[false; true; false; true]] in
  let ab_ba := [[false; true; false; true]; [true; false; true; false]] in
  In (f, vs, spins)
    [("rccsd_1rdm_ba", [true; true], s2); ("rccsd_1rdm_ji", [false; false], s2);
     ("rccsd_2rdm_cdab", [true; true; true; true], ab); ("rccsd_2rdm_ciab", [true; false; true; true], ab_ba);
     ("rccsd_2rdm_bcai", [true; true; true; false], ab_ba); ("rccsd_2rdm_bjai", [true; false; true; false], ab_ba);
     ("rccsd_2rdm_bjia", [true; false; false; true], ab_ba); ("rccsd_2rdm_jkai", [false; false; true; false], ab_ba);
     ("rccsd_2rdm_kaij", [false; true; false; false], ab_ba); ("rccsd_2rdm_klij", [false; false; false; false], ab)] ->
  exists P,
    returns (K := K) f [arr T1; arr T2; arr L1; arr L2] (arr P) /\
    shp P = map (extent no nv) vs /\
    forall ss xs, In ss spins -> inrange (map (extent no nv) vs) xs ->
      dat P xs = r_normal_expect inv M n no nv c T1 T2 L1 L2 (rdm_word (u_orbitals n no no vs ss xs)).
Proof.
  intros N HT HL HI HM s2 ab ab_ba Hin. exact (r_densities K n no nv N T1 T2 L1 L2 HT HL inv M HI HM f vs spins c Hin).
Qed.
Print Assumptions C68_density_matrices.

(** ... the blocks that depend on c take the value 1, or the argument of
    rccsd_1rdm_ai; ... *)
Theorem C68_density_matrices_tfac (K : cring) n no nv T1 T2 L1 L2 inv M f more vs spins c :
  (no + nv)%nat = n -> r_amps_ok no nv T1 T2 -> r_lams_ok no nv L1 L2 -> inverts inv M -> (nv + nv < M)%nat ->
  let s2 := [[false; false]; [true; true]] in
  f = "rccsd_1rdm_ai" /\ vs = [true; false] /\ spins = s2 /\ more = [numv c] \/
  f = "rccsd_1rdm_ai" /\ vs = [true; false] /\ spins = s2 /\ more = [] /\ c = c1 \/
  f = "rccsd_2rdm_abij" /\ vs = [true; true; false; false] /\ spins = [[false; true; false; true]] /\ more = [] /\ c = c1 ->
  exists P,
    returns (K := K) f ([arr T1; arr T2; arr L1; arr L2] ++ more) (arr P) /\
    shp P = map (extent no nv) vs /\
    forall ss xs, In ss spins -> inrange (map (extent no nv) vs) xs ->
      dat P xs = r_normal_expect inv M n no nv c T1 T2 L1 L2 (rdm_word (u_orbitals n no no vs ss xs)).
Proof.
  intros N HT HL HI HM s2 Hin.
  destruct (r_densities_fac K n no nv N T1 T2 L1 L2 HT HL inv M HI HM c) as (A & B & C).
  destruct Hin as [(-> & -> & -> & ->)|[(-> & -> & -> & -> & ->)|(-> & -> & -> & -> & ->)]]; [exact A|exact B|exact C].
Qed.
Print Assumptions C68_density_matrices_tfac.

(** ... and the two-particle values for equal spins are differences of entries:
    P_pqrs - P_pqsr or P_pqrs - P_qprs, the second term being taken from
    rccsd_2rdm_bjia for the vovo part. *)
Theorem C68_equal_spins (K : cring) n no nv T1 T2 L1 L2 inv M f g vs ket c s :
  (no + nv)%nat = n -> r_amps_ok no nv T1 T2 -> r_lams_ok no nv L1 L2 -> inverts inv M -> (nv + nv < M)%nat ->
  In (f, g, vs, ket)
    [("rccsd_2rdm_cdab", "rccsd_2rdm_cdab", [true; true; true; true], true);
     ("rccsd_2rdm_ciab", "rccsd_2rdm_ciab", [true; false; true; true], true);
     ("rccsd_2rdm_bcai", "rccsd_2rdm_bcai", [true; true; true; false], false);
     ("rccsd_2rdm_bjai", "rccsd_2rdm_bjia", [true; false; true; false], true);
     ("rccsd_2rdm_jkai", "rccsd_2rdm_jkai", [false; false; true; false], false);
     ("rccsd_2rdm_kaij", "rccsd_2rdm_kaij", [false; true; false; false], true);
     ("rccsd_2rdm_klij", "rccsd_2rdm_klij", [false; false; false; false], true)] \/
  (f, g, vs, ket) = ("rccsd_2rdm_abij", "rccsd_2rdm_abij", [true; true; false; false], true) /\ c = c1 ->
  exists P Q,
    returns (K := K) f [arr T1; arr T2; arr L1; arr L2] (arr P) /\ returns g [arr T1; arr T2; arr L1; arr L2] (arr Q) /\
    forall p q r t, inrange (map (extent no nv) vs) [p; q; r; t] ->
      r_normal_expect inv M n no nv c T1 T2 L1 L2 (rdm_word (u_orbitals n no no vs [s; s; s; s] [p; q; r; t]))
      = (dat P [p; q; r; t] - (if ket : bool then dat Q [p; q; t; r] else dat Q [q; p; r; t]))%K.
Proof.
  intros N HT HL HI HM [Hin|[Hin ->]].
  - assert (X : In (f, g, vs, if ket then swap_last else swap_first) r_same_list).
    { repeat (destruct Hin as [E|Hin]; [injection E as <- <- <- <-; cbn; tauto|]). destruct Hin. }
    destruct (r_same K n no nv N T1 T2 L1 L2 HT HL inv M HI HM _ _ _ _ c X) as (P & Q & R1 & R2 & E).
    exists P, Q. split; [exact R1|]. split; [exact R2|]. intros p q r t Hx. rewrite (E s _ Hx). destruct ket; reflexivity.
  - injection Hin as -> -> -> ->.
    destruct (r_same_fac K n no nv N T1 T2 L1 L2 HT HL inv M HI HM) as (P & R & E).
    exists P, P. split; [exact R|]. split; [exact R|]. intros p q r t Hx. exact (E s _ Hx).
Qed.
Print Assumptions C68_equal_spins.

(** C69: the residuals of the restricted Lambda equations are
    <0|(1 + Lambda) [exp(-T) H exp(T), tau]|0> with tau an alpha excitation or an
    excitation of an alpha and a beta electron; with the spin-summed excitations
    they appear with the factors 2 and 2(2 S_ijab - S_ijba). *)
Theorem C69_lambda_equations (K : cring) n no nv h I F J T1 T2 L1 L2 inv M :
  r_hamiltonian n no nv h I F J -> r_amps_ok no nv T1 T2 -> r_lams_ok no nv L1 L2 -> inverts inv M -> (nv + nv < M)%nat ->
  let comm := r_commutator inv M n no nv c1 T1 T2 L1 L2 (H_closed n h I) in
  exists S1 S2,
    returns (K := K) "rccsd_lambda_opt" [py_one_e F; py_two_e_full J; arr L1; arr L2; arr T1; arr T2] (tup [arr S1; arr S2]) /\
    (shp S1 = [no; nv] /\ shp S2 = [no; no; nv; nv]) /\
    ((forall i a, (i < no)%nat -> (a < nv)%nat -> dat S1 [i; a] = comm [(c1, [Cre (no + a); Ann i])]) /\
     (forall i j a b, (i < no)%nat -> (j < no)%nat -> (a < nv)%nat -> (b < nv)%nat ->
        dat S2 [i; j; a; b] = comm [(c1, [Cre (no + a); Cre (n + (no + b)); Ann (n + j); Ann i])])) /\
    ((forall i a, (i < no)%nat -> (a < nv)%nat -> comm (generator n (no + a) i) = (nK K 2 * dat S1 [i; a])%K) /\
     (forall i j a b, (i < no)%nat -> (j < no)%nat -> (a < nv)%nat -> (b < nv)%nat ->
        comm (opmul (generator n (no + a) i) (generator n (no + b) j)) = (nK K 2 * (nK K 2 * dat S2 [i; j; a; b] - dat S2 [i; j; b; a]))%K)).
Proof.
  intros HR HT HL HI HM.
  destruct (r_lambda_main K n no nv h I F J HR T1 T2 HT L1 L2 HL inv M HI HM) as (e & R1 & R2 & S1 & S2 & _ & _ & R & S & Q & (Q1 & Q2) & _).
  exists S1, S2. split; [exact R|]. split; [exact S|]. split; [exact Q|].
  split; [intros i a Li La; rewrite Q1 by assumption|intros i j a b Li Lj La Lb; rewrite Q2 by assumption]; rewrite nK2; reflexivity.
Qed.
Print Assumptions C69_lambda_equations.

(** C69: when T solves the restricted equations, the Lambda residuals vanish if and
    only if <0|(1 + Lambda) is a left eigenvector of exp(-T) H exp(T) in the space of
    at most two excitations, with the energy as the eigenvalue. *)
Theorem C69_left_eigenvector (K : cring) n no nv h I F J T1 T2 L1 L2 inv M :
  r_hamiltonian n no nv h I F J -> r_amps_ok no nv T1 T2 -> r_lams_ok no nv L1 L2 -> inverts inv M -> (nv + nv < M)%nat ->
  let A := aufbau n no in let ref := (A ++ A)%list in
  let H := H_closed n h I in
  let Hbar := transformed inv M (r_cluster n no nv T1 T2) H in
  let Lam := r_lambda n no nv c1 L1 L2 in
  exists e R1 R2 S1 S2,
    returns (K := K) "rcc_energy" [arr T1; arr T2; arr (ov F); arr (foovv J)] (numv e) /\
    returns (K := K) "rccsd_stanton" [py_one_e F; py_two_e_full J; arr T1; arr T2] (tup [arr R1; arr R2]) /\
    returns (K := K) "rccsd_lambda_opt" [py_one_e F; py_two_e_full J; arr L1; arr L2; arr T1; arr T2] (tup [arr S1; arr S2]) /\
    (r_solved no nv R1 R2 ->
     (r_lambda_solved no nv S1 S2 <->
      forall x, u_space 2 A A x ->
        amp ref (opmul Lam Hbar) (fst x ++ snd x)%list = ((amp ref H ref + e) * amp ref Lam (fst x ++ snd x)%list)%K)).
Proof.
  intros HR HT HL HI HM.
  destruct (r_lambda_main K n no nv h I F J HR T1 T2 HT L1 L2 HL inv M HI HM) as (e & R1 & R2 & S1 & S2 & He & Ht & R & _ & _ & _ & Q & _).
  exists e, R1, R2, S1, S2. exact (conj He (conj Ht (conj R Q))).
Qed.
Print Assumptions C69_left_eigenvector.

(** C70: <0|(1 + Lambda) exp(-T) H exp(T)|0> is <0|H|0> plus the energy returned by
    rcc_energy plus the residuals returned by rccsd_stanton weighted with Lambda:
    2 sum l_ia r_ai + sum l_ijab (2 r_abij - r_abji). *)
Theorem C70_expectation_of_the_hamiltonian (K : cring) n no nv h I F J T1 T2 L1 L2 inv M :
  r_hamiltonian n no nv h I F J -> r_amps_ok no nv T1 T2 -> r_lams_ok no nv L1 L2 -> inverts inv M -> (nv + nv < M)%nat ->
  let ref := (aufbau n no ++ aufbau n no)%list in
  let H := H_closed n h I in
  exists e R1 R2,
    returns (K := K) "rcc_energy" [arr T1; arr T2; arr (ov F); arr (foovv J)] (numv e) /\
    returns (K := K) "rccsd_stanton" [py_one_e F; py_two_e_full J; arr T1; arr T2] (tup [arr R1; arr R2]) /\
    r_expect inv M n no nv c1 T1 T2 L1 L2 H
    = (amp ref H ref + (e +
        (nK K 2 * sumN no (fun i => sumN nv (fun a => dat L1 [i; a] * dat R1 [a; i])) +
         sumN no (fun i => sumN no (fun j => sumN nv (fun a => sumN nv (fun b =>
           dat L2 [i; j; a; b] * (nK K 2 * dat R2 [a; b; i; j] - dat R2 [a; b; j; i]))))))))%K.
Proof.
  intros HR HT HL HI HM.
  destruct (r_lambda_main K n no nv h I F J HR T1 T2 HT L1 L2 HL inv M HI HM) as (e & R1 & R2 & S1 & S2 & He & Ht & _ & _ & _ & _ & _ & Q).
  exists e, R1, R2. split; [exact He|]. split; [exact Ht|]. cbv zeta. rewrite Q, nK2. reflexivity.
Qed.
Print Assumptions C70_expectation_of_the_hamiltonian.

(** Two electrons in two orbitals, H with the eigenvector (1, 1, 1, 2): T1 = T2 = 1
    and (1 + Lambda) = (7, 3, 3, 2)/7. *)
Definition y2_h (p q : nat) : Z := (nth q (nth p [[-5; -1]; [-1; -3]] []) 0)%Z.
Definition y2_I (p q r s : nat) : Z :=
  match (p + q + r + s)%nat with
  | 0%nat => 4 | 4%nat => 4 | 2%nat => if Nat.eqb p r then 3 else 2 | _ => 2
  end%Z.
Definition y2 : r_args := r_build 1 1 y2_h y2_I (fill2 QcK 1 1 (fun _ _ => 1%Z)) (fill4 QcK 1 1 1 1 (fun _ _ _ _ => 1%Z)).
Definition y2_l (z : Z) : QcK := Qcanon.Q2Qc (z # 7).
Definition y2_L1 : tensor QcK := mkT [1; 1]%nat (fun _ => y2_l 3).
Definition y2_L2 : tensor QcK := mkT [1; 1; 1; 1]%nat (fun _ => y2_l 2).
Definition y2_lam : option (pyval QcK) :=
  u_sample "rccsd_lambda_opt" [py_one_e (rF y2); py_two_e_full (rJ y2); arr y2_L1; arr y2_L2; arr (rT1 y2); arr (rT2 y2)].
Example C69_example :
  r_hamiltonian 2 1 1 (z2 y2_h) (z4 y2_I) (rF y2) (rJ y2) /\ r_amps_ok 1 1 (rT1 y2) (rT2 y2) /\ r_lams_ok 1 1 y2_L1 y2_L2 /\
  (exists R1 R2, returns (K := QcK) "rccsd_stanton" [py_one_e (rF y2); py_two_e_full (rJ y2); arr (rT1 y2); arr (rT2 y2)] (tup [arr R1; arr R2]) /\
     r_solved 1 1 R1 R2) /\
  (exists S1 S2, returns (K := QcK) "rccsd_lambda_opt" [py_one_e (rF y2); py_two_e_full (rJ y2); arr y2_L1; arr y2_L2; arr (rT1 y2); arr (rT2 y2)]
      (tup [arr S1; arr S2]) /\ r_lambda_solved 1 1 S1 S2).
Proof.
  assert (A : r_hamiltonian 2 1 1 (z2 y2_h) (z4 y2_I) (rF y2) (rJ y2)).
  { apply r_build_ok; [reflexivity|]. intros p q r s Lp Lq Lr Ls; unfold z4; f_equal;
      do 2 (destruct p as [|p]; [do 2 (destruct q as [|q]; [do 2 (destruct r as [|r]; [do 2 (destruct s as [|s]; [vm_compute; reflexivity|]); lia|]); lia|]); lia|]); lia. }
  assert (B : r_amps_ok 1 1 (rT1 y2) (rT2 y2)) by (repeat split; reflexivity).
  assert (C : r_lams_ok 1 1 y2_L1 y2_L2) by (repeat split; reflexivity).
  assert (IV : inverts qinv 3) by (intros k _; apply qinv_ok, lt_O_fact).
  destruct (C69_left_eigenvector _ _ _ _ _ _ _ _ _ _ _ _ qinv 3 A B C IV ltac:(lia)) as (_ & R1 & R2 & S1 & S2 & _ & Ht & Hl & _).
  do 3 (split; [assumption|]). split.
  - exists R1, R2. split; [exact Ht|]. refine (r_check_solved 1 1 y2 R1 R2 _ Ht). vm_compute. reflexivity.
  - exists S1, S2. split; [exact Hl|].
    assert (H : match y2_lam with Some r => match r_entry r 0 [0; 0]%nat, r_entry r 1 [0; 0; 0; 0]%nat with
        Some x, Some y => Qeq_bool x 0 && Qeq_bool y 0 | _, _ => false end | None => false end = true) by (vm_compute; reflexivity).
    destruct Hl as (args' & E & _). unfold y2_lam, u_sample in H. rewrite E in H. cbn [r_entry nth] in H. apply andb_prop in H as [H1 H2]. split.
    + intros i a Li La. assert (i = 0%nat) as -> by lia. assert (a = 0%nat) as -> by lia. apply Qc_zero, H1.
    + intros i j a b Li Lj La Lb. assert (i = 0%nat) as -> by lia. assert (j = 0%nat) as -> by lia. assert (a = 0%nat) as -> by lia. assert (b = 0%nat) as -> by lia.
      apply Qc_zero, H2.
Qed.

(** The arguments of C68: Lambda and T above; a density matrix entry. *)
Example C68_example :
  inverts (K := QcK) qinv 3 /\ r_lams_ok 1 1 y2_L1 y2_L2 /\
  inrange (map (extent 1 1) [true; false; false; true]) [0; 0; 0; 0]%nat /\
  rdm_word (u_orbitals 2 1 1 [true; false; false; true] [false; true; false; true] [0; 0; 0; 0]%nat) = [Cre 0; Cre 3; Ann 2; Ann 1] /\
  u_nprod 2 1 1 [Cre 0; Cre 3; Ann 2; Ann 1] = [Cre 3; Ann 2; Cre 0; Ann 1] /\
  sample_entry "rccsd_2rdm_bjia" [arr (rT1 y2); arr (rT2 y2); arr y2_L1; arr y2_L2] 0 [0; 0; 0; 0]%nat = Some (1 # 7)%Q.
Proof.
  split; [intros k _; apply qinv_ok, lt_O_fact|]. split; [repeat split; reflexivity|]. split; [repeat constructor|].
  repeat (split; [vm_compute; reflexivity|]). vm_compute. reflexivity.
Qed.
