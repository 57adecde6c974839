(** Arguments of the unrestricted functions built from integrals, for examples. *)
From Coq Require Import List Bool Arith ZArith String QArith Qcanon Ring Lia.
From Verif Require Import Scalar Tensor PySyntax PySem CCProg CISpec CIExpSpec CCSpec CCFockSpec SpinSpec CCExamples UFockSpec.
Import ListNotations.
Local Open Scope string_scope.

Section Build.
  Variable K : cring.
  Local Open Scope K_scope.
  Definition cut2 (f : nat -> nat -> K) (s1 d1 s2 d2 : nat) : tensor K :=
    mkT [d1; d2] (fun idx => match idx with [p; q] => f (s1 + p)%nat (s2 + q)%nat | _ => 0 end).
  Definition cut4 (g : nat -> nat -> nat -> nat -> K) (s1 d1 s2 d2 s3 d3 s4 d4 : nat) : tensor K :=
    mkT [d1; d2; d3; d4] (fun idx => match idx with [p; q; r; s] => g (s1 + p)%nat (s2 + q)%nat (s3 + r)%nat (s4 + s)%nat | _ => 0 end).
  Definition build1 (no nv : nat) (f : nat -> nat -> K) : one_e K :=
    OneE K (cut2 f 0 no 0 no) (cut2 f 0 no no nv) (cut2 f no nv 0 no) (cut2 f no nv no nv).
  Definition build2 (no nv : nat) (g : nat -> nat -> nat -> nat -> K) : two_e K :=
    TwoE K (cut4 g no nv no nv no nv no nv) (cut4 g no nv no nv no nv 0 no) (cut4 g no nv 0 no no nv no nv)
      (cut4 g no nv no nv 0 no 0 no) (cut4 g no nv 0 no no nv 0 no) (cut4 g 0 no 0 no no nv no nv)
      (cut4 g no nv 0 no 0 no 0 no) (cut4 g 0 no 0 no 0 no no nv) (cut4 g 0 no 0 no 0 no 0 no).
  Definition build2_mixed (noa nva nob nvb : nat) (g : nat -> nat -> nat -> nat -> K) : two_e_full K :=
    TwoEF K (cut4 g noa nva nob nvb noa nva nob nvb) (cut4 g noa nva nob nvb noa nva 0 nob)
      (cut4 g noa nva nob nvb 0 noa nob nvb) (cut4 g noa nva 0 nob noa nva nob nvb) (cut4 g 0 noa nob nvb noa nva nob nvb)
      (cut4 g noa nva nob nvb 0 noa 0 nob) (cut4 g noa nva 0 nob noa nva 0 nob) (cut4 g noa nva 0 nob 0 noa nob nvb)
      (cut4 g 0 noa nob nvb noa nva 0 nob) (cut4 g 0 noa nob nvb 0 noa nob nvb) (cut4 g 0 noa 0 nob noa nva nob nvb)
      (cut4 g 0 noa 0 nob 0 noa nob nvb) (cut4 g 0 noa 0 nob noa nva 0 nob) (cut4 g 0 noa nob nvb 0 noa 0 nob)
      (cut4 g noa nva 0 nob 0 noa 0 nob) (cut4 g 0 noa 0 nob 0 noa 0 nob).

  (** every set of integrals has the arguments of [u_hamiltonian] *)
  Lemma build_ok n noa nva nob nvb ha hb Ia Ib Iab : (noa + nva)%nat = n -> (nob + nvb)%nat = n ->
    pair_symmetric n Ia -> pair_symmetric n Ib ->
    u_hamiltonian (K := K) n noa nva nob nvb ha hb Ia Ib Iab
      (build1 noa nva (fock_alpha noa nob ha Ia Iab)) (build1 nob nvb (fock_beta noa nob hb Ib Iab))
      (build2 noa nva (anti Ia)) (build2 nob nvb (anti Ib)) (build2_mixed noa nva nob nvb Iab).
  Proof.
    intros Na Nb SA SB. do 4 (split; [assumption|]). unfold blocks1, one_e_ok, blocks2, blocks2_mixed, block2.
    repeat split.
  Qed.
End Build.

(** an entry of the residuals: k = 0, 1 singles, 2, 3, 4 doubles *)
Definition u_entry (r : pyval QcK) (k : nat) (idx : list nat) : option Q :=
  match r with
  | XTup [XTup [XArr ta; XArr tb]; XTup [XArr aa; XArr ab; XArr bb]] =>
      Some (this (dat (nth k [ta; tb; aa; ab; bb] ta) idx))
  | _ => None
  end.
Definition u_sample (f : string) (args : list (pyval QcK)) : option (pyval QcK) :=
  match pycall (conc_alg QcK) cc_prog f args with Ok (r, _) => Some r | Exn _ => None end.

(** Two orbitals, one electron of each spin.  The matrix of H in the basis of the
    four determinants is v v^T with v = (1, 2, 3, 4). *)
Definition x2_v (p q : nat) : Z := (1 + 2 * Z.of_nat q + Z.of_nat p)%Z.
Definition x2_ha (p q : nat) : Z := (nth q (nth p [[1; 2]; [2; -1]] []) 0)%Z.
Definition x2_hb (p q : nat) : Z := (nth q (nth p [[0; 1]; [1; 3]] []) 0)%Z.
Definition x2_kd (p q : nat) : Z := if Nat.eqb p q then 1%Z else 0%Z.
Definition x2_Ia (p q r s : nat) : Z := (Z.of_nat (p + q) + 3 * Z.of_nat (r + s) + 5 * Z.of_nat (p * r + q * s))%Z.
Definition x2_Ib (p q r s : nat) : Z := (2 * x2_Ia p q r s + 1)%Z.
Definition x2_Iab (p q r s : nat) : Z := (x2_v p q * x2_v r s - x2_ha p r * x2_kd q s - x2_hb q s * x2_kd p r)%Z.
Definition z2 (f : nat -> nat -> Z) : nat -> nat -> QcK := fun p q => zK (f p q).
Definition z4 (f : nat -> nat -> nat -> nat -> Z) : nat -> nat -> nat -> nat -> QcK := fun p q r s => zK (f p q r s).
(** the arguments for given integrals *)
Record u_args := UArgs { uFa : one_e QcK; uFb : one_e QcK; uIaa : two_e QcK; uIbb : two_e QcK; uJ : two_e_full QcK;
  uT1a : tensor QcK; uT1b : tensor QcK; uT2aa : tensor QcK; uT2ab : tensor QcK; uT2bb : tensor QcK }.
Definition u_build (noa nva nob nvb : nat) (ha hb : nat -> nat -> Z) (Ia Ib Iab : nat -> nat -> nat -> nat -> Z)
    (T1a T1b T2aa T2ab T2bb : tensor QcK) : u_args :=
  UArgs (build1 QcK noa nva (fock_alpha noa nob (z2 ha) (z4 Ia) (z4 Iab)))
    (build1 QcK nob nvb (fock_beta noa nob (z2 hb) (z4 Ib) (z4 Iab)))
    (build2 QcK noa nva (anti (z4 Ia))) (build2 QcK nob nvb (anti (z4 Ib))) (build2_mixed QcK noa nva nob nvb (z4 Iab))
    T1a T1b T2aa T2ab T2bb.
Definition u_run (x : u_args) : option (pyval QcK) :=
  u_sample "uccsd_stanton" [py_one_e (uFa x); py_one_e (uFb x); py_two_e (uIaa x); py_two_e (uIbb x); py_two_e_full (uJ x);
    tup [arr (uT1a x); arr (uT1b x)]; tup [arr (uT2aa x); arr (uT2ab x); arr (uT2bb x)]].
Definition u_energy (x : u_args) : option Q :=
  sample_entry "ucc_energy" [tup [arr (uT1a x); arr (uT1b x)]; tup [arr (uT2aa x); arr (uT2ab x); arr (uT2bb x)];
    arr (ov (uFa x)); arr (ov (uFb x)); arr (oovv (uIaa x)); arr (oovv (uIbb x)); arr (foovv (uJ x))] 0 [].

Definition x2 : u_args := u_build 1 1 1 1 x2_ha x2_hb x2_Ia x2_Ib x2_Iab
  (fill2 QcK 1 1 (fun _ _ => 2%Z)) (fill2 QcK 1 1 (fun _ _ => 3%Z))
  (fill4 QcK 1 1 1 1 (fun _ _ _ _ => 0%Z)) (fill4 QcK 1 1 1 1 (fun _ _ _ _ => (-2)%Z)) (fill4 QcK 1 1 1 1 (fun _ _ _ _ => 0%Z)).

(** Four orbitals, two alpha electrons and one beta electron: amplitudes that
    solve the equations of a Hamiltonian in a space that also has triple
    excitations. *)
Definition x4_s (n : nat) : Z := if Nat.even n then 1%Z else (-1)%Z.
Definition x4_at2 (l : list (list Z)) (p q : nat) : Z := nth q (nth p l []) 0%Z.
Definition x4_ha (p q : nat) : Z :=
  (Z.of_nat p - x4_s q - x4_at2 [[]; []; [-18; -14]; [5; 5]] p q)%Z.
Definition x4_hb (p q : nat) : Z :=
  (Z.of_nat (p + q) + x4_s p - x4_at2 [[]; [-13]; [0]; [17]] p q)%Z.
Definition x4_I (p q r s : nat) : Z := (x4_s (p + q) * x4_s (r + s) + x4_s (p * r + q * s) + Z.of_nat (p * s + q * r))%Z.
Definition x4_one (l m : list nat) : Z := if list_eq_dec Nat.eq_dec l m then 1%Z else 0%Z.
Definition x4_Ia (p q r s : nat) : Z :=
  (x4_I p q r s - 15 * (x4_one [p; q; r; s] [2; 3; 0; 1]%nat + x4_one [p; q; r; s] [3; 2; 1; 0]%nat))%Z.
Definition x4_Ib (p q r s : nat) : Z := (2 * x4_I p q r s + 1)%Z.
Definition x4_Iab (p q r s : nat) : Z :=
  (Z.of_nat (p * q) + x4_s r - x4_s (q + s) - (if Nat.eqb s 0 then
    x4_at2 (nth p [[]; []; [[]; [-18; -26]; [-38; -1]; [-18; 12]]; [[]; [17; 27]; [-17; 34]; [-47; 25]]] []) q r else 0))%Z.
Definition x4 : u_args := u_build 2 2 1 3 x4_ha x4_hb x4_Ia x4_Ib x4_Iab
  (fill2 QcK 2 2 (fun a i => (Z.of_nat a - Z.of_nat i)%Z)) (fill2 QcK 3 1 (fun a i => (Z.of_nat a - 1)%Z))
  (fill4 QcK 2 2 2 2 (fun a b i j => ((Z.of_nat a - Z.of_nat b) * (Z.of_nat i - Z.of_nat j))%Z))
  (fill4 QcK 2 3 2 1 (fun a b i j => (Z.of_nat (a + i) - Z.of_nat b)%Z)) (fill4 QcK 3 3 1 1 (fun _ _ _ _ => 0%Z)).

(** all entries of an array of residuals are zero *)
Definition u_zero2 (r : option (pyval QcK)) (k n1 n2 : nat) : bool :=
  match r with
  | Some r => forallb (fun a => forallb (fun i => match u_entry r k [a; i] with Some q => Qeq_bool q 0 | None => false end) (seq 0 n2)) (seq 0 n1)
  | None => false
  end.
Definition u_zero4 (r : option (pyval QcK)) (k n1 n2 n3 n4 : nat) : bool :=
  match r with
  | Some r => forallb (fun a => forallb (fun b => forallb (fun i => forallb (fun j =>
      match u_entry r k [a; b; i; j] with Some q => Qeq_bool q 0 | None => false end) (seq 0 n4)) (seq 0 n3)) (seq 0 n2)) (seq 0 n1)
  | None => false
  end.
Definition u_zeros (noa nva nob nvb : nat) (r : option (pyval QcK)) : bool :=
  u_zero2 r 0 nva noa && u_zero2 r 1 nvb nob && u_zero4 r 2 nva nva noa noa && u_zero4 r 3 nva nvb noa nob && u_zero4 r 4 nvb nvb nob nob.
Definition u_check (noa nva nob nvb : nat) (x : u_args) : bool := u_zeros noa nva nob nvb (u_run x).

Lemma Qc_zero (q : QcK) : Qeq_bool (this q) 0 = true -> q = c0.
Proof. intros H. apply Qeq_bool_iff in H. apply Qc_is_canon. rewrite H. reflexivity. Qed.
Lemma all_below n (P : nat -> bool) : forallb P (seq 0 n) = true -> forall i, (i < n)%nat -> P i = true.
Proof. intros H i L. rewrite forallb_forall in H. apply H, in_seq. lia. Qed.
Lemma zero2_ok r k n1 n2 (t : tensor QcK) : u_zero2 (Some r) k n1 n2 = true -> (forall idx, u_entry r k idx = Some (this (dat t idx))) ->
  forall a i, (a < n1)%nat -> (i < n2)%nat -> dat t [a; i] = (c0 : QcK).
Proof.
  intros H E a i La Li. pose proof (all_below _ _ (all_below _ _ H a La) i Li) as X. cbv beta in X. rewrite E in X.
  apply Qc_zero, X.
Qed.
Lemma zero4_ok r k n1 n2 n3 n4 (t : tensor QcK) : u_zero4 (Some r) k n1 n2 n3 n4 = true -> (forall idx, u_entry r k idx = Some (this (dat t idx))) ->
  forall a b i j, (a < n1)%nat -> (b < n2)%nat -> (i < n3)%nat -> (j < n4)%nat -> dat t [a; b; i; j] = (c0 : QcK).
Proof.
  intros H E a b i j La Lb Li Lj.
  pose proof (all_below _ _ (all_below _ _ (all_below _ _ (all_below _ _ H a La) b Lb) i Li) j Lj) as X. cbv beta in X. rewrite E in X.
  apply Qc_zero, X.
Qed.
Lemma u_zeros_ok noa nva nob nvb ta tb aa ab bb :
  u_zeros noa nva nob nvb (Some (tup [tup [arr ta; arr tb]; tup [arr aa; arr ab; arr bb]])) = true ->
  u_solved noa nva nob nvb ta tb aa ab bb.
Proof.
  unfold u_zeros. intros H.
  apply andb_prop in H as [H H5]. apply andb_prop in H as [H H4]. apply andb_prop in H as [H H3]. apply andb_prop in H as [H1 H2].
  split; [|split; [|split; [|split]]].
  - exact (zero2_ok _ _ _ _ ta H1 (fun _ => eq_refl)).
  - exact (zero2_ok _ _ _ _ tb H2 (fun _ => eq_refl)).
  - exact (zero4_ok _ _ _ _ _ _ aa H3 (fun _ => eq_refl)).
  - exact (zero4_ok _ _ _ _ _ _ ab H4 (fun _ => eq_refl)).
  - exact (zero4_ok _ _ _ _ _ _ bb H5 (fun _ => eq_refl)).
Qed.
Lemma u_check_solved noa nva nob nvb x ta tb aa ab bb : u_check noa nva nob nvb x = true ->
  returns (K := QcK) "uccsd_stanton" [py_one_e (uFa x); py_one_e (uFb x); py_two_e (uIaa x); py_two_e (uIbb x); py_two_e_full (uJ x);
      tup [arr (uT1a x); arr (uT1b x)]; tup [arr (uT2aa x); arr (uT2ab x); arr (uT2bb x)]]
    (tup [tup [arr ta; arr tb]; tup [arr aa; arr ab; arr bb]]) ->
  u_solved noa nva nob nvb ta tb aa ab bb.
Proof.
  unfold u_check, u_run, u_sample, returns. intros H (args' & E & _). rewrite E in H. exact (u_zeros_ok _ _ _ _ _ _ _ _ _ H).
Qed.
