(** C85: rounding errors of the functions of cc_equations.py and cc_energy.py.

    The statements use RoundSpec.v (rounded arithmetic, what an einsum in any order of
    operations may return, magnitudes, counts of roundings) and RoundTable.v. *)
From Coq Require Import List Bool Arith String ZArith Reals Lia Lra.
From Flocq Require Import Core.
From Verif Require Import Scalar Tensor PySyntax PySem CCProg CCSpec CCShapes RoundSpec RoundTable
  RoundCC RoundRun RoundMain RoundPub RoundInst RoundEnergy.
Import ListNotations.
Local Open Scope R_scope.

(** C85, every call: if the call with exact arguments returns r, then the call in
    rounded arithmetic returns a result x of the same shape with
    |x - r| <= ((1 + u)^d - 1) m entry by entry ([v_within]).  Here m is what the same
    call returns when every argument is replaced by a bound for its absolute value and every minus sign
    is dropped, and d is the number of roundings; both are found by running the function.
    The arguments may carry errors themselves.  Scalars, the norm, the sums, products
    and einsums are arbitrary, as long as each operation has a relative error of at most u;
    an einsum may be evaluated in any order, with intermediates and fused multiply-adds. *)
Theorem C85_every_call (K : cring) nrm u add mul ein f xs vs ms ds r out :
  is_norm K nrm -> is_arithmetic K nrm u add mul ein ->
  l_within K nrm u add mul ein xs vs ms ds ->
  pycall (conc_alg K) cc_prog f vs = Ok (r, out) ->
  exists x xo m mo d dd,
    pycall (fl_alg K add mul ein) cc_prog f xs = Ok (x, xo) /\
    pycall (mag_alg K nrm) cc_prog f ms = Ok (m, mo) /\
    pycall depth_alg cc_prog f ds = Ok (d, dd) /\
    v_within K nrm u add mul ein x r m d /\ l_within K nrm u add mul ein xo out mo dd.
Proof. intros HN HA. exact (rounding_bound K nrm u add mul ein HN HA cc_prog f xs vs ms ds r out). Qed.
Print Assumptions C85_every_call.

(** C85, public functions: with exact arguments of the documented shapes, and at most
    N orbitals in each space, the number of roundings is at most c N^e with the c and e
    of the table. *)
Theorem C85_public_functions (K : cring) nrm u add mul ein n N f argshapes resshape c e args :
  is_norm K nrm -> is_arithmetic K nrm u add mul ein ->
  (1 <= N)%nat -> (forall s, n s <= N)%nat ->
  In (f, argshapes, resshape) public_functions -> In (f, c, e) rounding_table ->
  Forall2 (fits n) args argshapes ->
  exists r x xo m mo, returns (K := K) f args r /\
    pycall (fl_alg K add mul ein) cc_prog f (map (as_given K add mul ein) args) = Ok (x, xo) /\
    pycall (mag_alg K nrm) cc_prog f (map (magnitudes K nrm) args) = Ok (m, mo) /\
    error_le K nrm u add mul ein (c * N ^ e) x r m.
Proof.
  intros HN HA H1 Hn. exact (public_rounding K nrm u add mul ein HN HA n N H1 Hn f argshapes resshape c e args).
Qed.
Print Assumptions C85_public_functions.

(** The table has a row for every public function. *)
Theorem C85_table_complete f argshapes resshape : In (f, argshapes, resshape) public_functions ->
  exists c e, In (f, c, e) rounding_table.
Proof.
  assert (H : forallb (fun p => existsb (fun r => String.eqb (fst (fst p)) (fst (fst r))) rounding_table) public_functions = true)
    by (vm_compute; reflexivity).
  rewrite forallb_forall in H. intros Hp. specialize (H _ Hp). apply existsb_exists in H as ([[g c] e] & Hr & E).
  cbn in E. apply String.eqb_eq in E. subst. eauto.
Qed.
Print Assumptions C85_table_complete.

(** (1 + u)^d - 1 is at most d u / (1 - d u). *)
Theorem C85_relative_error u d : 0 <= u -> INR d * u < 1 -> (1 + u) ^ d - 1 <= INR d * u / (1 - INR d * u).
Proof.
  intros U0 H. assert (G : (1 + u) ^ d * (1 - INR d * u) <= 1).
  { clear H. induction d as [|d IH]; [cbn; lra|]. rewrite S_INR. cbn [pow].
    assert (P : 0 <= (1 + u) ^ d) by (apply pow_le; lra). assert (Q : 0 <= INR d) by apply pos_INR.
    assert (X : (1 + u) * (1 - (INR d + 1) * u) <= 1 - INR d * u) by nra.
    apply Rle_trans with ((1 + u) ^ d * (1 - INR d * u)); [|exact IH].
    replace ((1 + u) * (1 + u) ^ d * (1 - (INR d + 1) * u)) with ((1 + u) ^ d * ((1 + u) * (1 - (INR d + 1) * u))) by ring.
    apply Rmult_le_compat_l; assumption. }
  apply Rmult_le_reg_r with (1 - INR d * u); [lra|].
  replace (INR d * u / (1 - INR d * u) * (1 - INR d * u)) with (INR d * u) by (field; lra). lra.
Qed.
Print Assumptions C85_relative_error.

Lemma m2 x y : x * (y * 1) = x * y. Proof. ring. Qed.
Lemma m3 x y z : x * (y * (z * 1)) = x * y * z. Proof. ring. Qed.
Lemma e_d_sum no nv T2 g : e_d no nv T2 g =
  Sum nv (fun a => Sum nv (fun b => Sum no (fun i => Sum no (fun j => T2 [a; b; i; j] * g [i; j; a; b])))).
Proof. unfold e_d, Sum. repeat (apply (sumN_ext RK); intros). apply m2. Qed.
Lemma e_s1_sum no nv T1 f : e_s1 no nv T1 f = Sum nv (fun a => Sum no (fun i => T1 [a; i] * f [i; a])).
Proof. unfold e_s1, Sum. repeat (apply (sumN_ext RK); intros). apply m2. Qed.
Lemma e_s2_sum no nv T1 g : e_s2 no nv T1 g =
  Sum nv (fun a => Sum no (fun i => Sum nv (fun b => Sum no (fun j => T1 [a; i] * T1 [b; j] * g [i; j; a; b])))).
Proof. unfold e_s2, Sum. repeat (apply (sumN_ext RK); intros). apply m3. Qed.

(** C85, energies: for real arrays the computed cc_energy and mp2_energy differ from
    the formulas by at most ((1 + u)^d - 1) times the same formulas of the absolute
    values, d = no^2 nv^2 + 3 and no^2 nv^2 + 2. *)
Theorem C85_energies u add mul ein no nv (T1 T2 f g : tensor RK) :
  is_arithmetic RK Rabs u add mul ein ->
  shp T1 = [nv; no] -> shp T2 = [nv; nv; no; no] -> shp f = [no; nv] -> shp g = [no; no; nv; nv] ->
  let a t := @XArr (fl_alg RK add mul ein) t in
  exists w1 o1 w2 o2,
    pycall (fl_alg RK add mul ein) cc_prog "cc_energy" [a T1; a T2; a f; a g] = Ok (@XNum (fl_alg RK add mul ein) w1, o1) /\
    Rabs (w1 - cc_formula no nv (dat T1) (dat T2) (dat f) (dat g)) <=
      ((1 + u) ^ (no * no * nv * nv + 3) - 1) *
      cc_formula no nv (absolute (dat T1)) (absolute (dat T2)) (absolute (dat f)) (absolute (dat g)) /\
    pycall (fl_alg RK add mul ein) cc_prog "mp2_energy" [a T1; a T2; a f; a g] = Ok (@XNum (fl_alg RK add mul ein) w2, o2) /\
    Rabs (w2 - mp2_formula no nv (dat T1) (dat T2) (dat f) (dat g)) <=
      ((1 + u) ^ (no * no * nv * nv + 2) - 1) *
      mp2_formula no nv (absolute (dat T1)) (absolute (dat T2)) (absolute (dat f)) (absolute (dat g)).
Proof.
  intros HA H1 H2 Hf Hg a.
  destruct (energy_error u add mul ein HA no nv T1 T2 f g H1 H2 Hf Hg Rabs_norm) as (w1 & o1 & E1 & B1).
  destruct (mp2_error u add mul ein HA no nv T1 T2 f g H1 H2 Hf Hg Rabs_norm) as (w2 & o2 & E2 & B2).
  rewrite !e_d_sum, !e_s1_sum in B1, B2. rewrite !e_s2_sum in B1.
  exists w1, o1, w2, o2. split; [exact E1|]. split; [exact B1|]. split; [exact E2|exact B2].
Qed.
Print Assumptions C85_energies.

(** C85, double precision: numbers rounded to 53 bits, with einsum by nested loops,
    are such an arithmetic with u = 2^-53 ... *)
Theorem C85_double_precision :
  let add x y := round53 (x + y) in let mul x y := round53 (x * y) in
  is_norm RK Rabs /\ is_arithmetic RK Rabs (/ 2 ^ 53) add mul (seq_einsum RK add mul).
Proof. split; [exact Rabs_norm|exact round53_arithmetic]. Qed.
Print Assumptions C85_double_precision.

(** ... and so is complex arithmetic built from any rounded real arithmetic, with the norm
    |re| + |im| and 2 u + u^2 in place of u. *)
Theorem C85_complex u add mul : 0 <= u ->
  (forall x y, Rabs (add x y - (x + y)) <= u * Rabs (x + y)) ->
  (forall x y, Rabs (mul x y - x * y) <= u * Rabs (x * y)) ->
  is_norm (CplxK RK) l1_norm /\
  is_arithmetic (CplxK RK) l1_norm (2 * u + u * u) (cplx_add add) (cplx_product add mul)
    (seq_einsum (CplxK RK) (cplx_add add) (cplx_product add mul)).
Proof. intros U A M. split; [exact l1_norm_ok|exact (cplx_arithmetic u add mul U A M)]. Qed.
Print Assumptions C85_complex.

(** For instance: in double precision, with up to 100 occupied and 100 virtual spin
    orbitals, no entry that ccsd_stanton returns is off by more than 2^-28 m. *)
Theorem C85_ccsd_100_orbitals no nv (args : list (pyval RK)) :
  (no <= 100)%nat -> (nv <= 100)%nat ->
  Forall2 (fits (fun s => match s with so => no | sv => nv | _ => 0%nat end)) args [F_; I_; T1_; T2_] ->
  let add x y := round53 (x + y) in let mul x y := round53 (x * y) in let ein := seq_einsum RK add mul in
  exists r d x xo m mo, returns "ccsd_stanton" args r /\
    pycall (fl_alg RK add mul ein) cc_prog "ccsd_stanton" (map (as_given RK add mul ein) args) = Ok (x, xo) /\
    pycall (mag_alg RK Rabs) cc_prog "ccsd_stanton" (map (magnitudes RK Rabs) args) = Ok (m, mo) /\
    error_le RK Rabs (/ 2 ^ 53) add mul ein d x r m /\ (1 + / 2 ^ 53) ^ d - 1 <= / 2 ^ 28.
Proof.
  intros Ho Hv HF add mul ein.
  destruct C85_double_precision as [HN HA].
  destruct (C85_public_functions RK Rabs (/ 2 ^ 53) add mul ein
    (fun s => match s with so => no | sv => nv | _ => 0%nat end) 100 "ccsd_stanton" [F_; I_; T1_; T2_] (STup [T1_; T2_]) 22 3 args
    HN HA ltac:(lia) ltac:(intros []; lia) ltac:(cbn; tauto) ltac:(cbn; tauto) HF) as (r & x & xo & m & mo & A & B & C & D).
  exists r, (22 * 100 ^ 3)%nat, x, xo, m, mo. repeat split; auto.
  assert (E : INR (22 * 100 ^ 3) = 22000000).
  { rewrite mult_INR, pow_INR. rewrite !INR_IZR_INZ. change (Z.of_nat 22) with 22%Z. change (Z.of_nat 100) with 100%Z. lra. }
  eapply Rle_trans; [apply C85_relative_error|]; rewrite ?E; try lra.
Qed.
Print Assumptions C85_ccsd_100_orbitals.

(** The hypotheses can be met: a real system with two occupied and three virtual spin
    orbitals; the exact arguments are related to themselves; the counts for cc_energy. *)
Definition ones (sh : list nat) : tensor RK := mkT (K := RK) sh (fun _ => 1 / 3).
Definition F_ex : one_e RK := OneE RK (ones [2; 2]%nat) (ones [2; 3]%nat) (ones [3; 2]%nat) (ones [3; 3]%nat).
Definition I_ex : two_e RK := TwoE RK (ones [3; 3; 3; 3]%nat) (ones [3; 3; 3; 2]%nat) (ones [3; 2; 3; 3]%nat) (ones [3; 3; 2; 2]%nat)
  (ones [3; 2; 3; 2]%nat) (ones [2; 2; 3; 3]%nat) (ones [3; 2; 2; 2]%nat) (ones [2; 2; 2; 3]%nat) (ones [2; 2; 2; 2]%nat).
Example C85_example :
  Forall2 (fits (fun s => match s with so => 2 | sv => 3 | _ => 0 end)%nat)
    [py_one_e F_ex; py_two_e I_ex; arr (ones [3; 2]%nat); arr (ones [3; 3; 2; 2]%nat)] [F_; I_; T1_; T2_] /\
  (forall u add mul ein (args : list (pyval RK)), is_arithmetic RK Rabs u add mul ein ->
    l_within RK Rabs u add mul ein (map (as_given RK add mul ein) args) args (map (magnitudes RK Rabs) args) (map (unrounded RK) args)) /\
  (exists o, pycall depth_alg cc_prog "cc_energy" (map (unrounded RK) [arr (ones [3; 2]%nat); arr (ones [3; 3; 2; 2]%nat);
      arr (ones [2; 3]%nat); arr (ones [2; 2; 3; 3]%nat)]) = Ok (@XNum depth_alg 39%nat, o)) /\
  (exists o, pycall depth_alg cc_prog "ccsd_stanton" (map (unrounded RK) [py_one_e F_ex; py_two_e I_ex; arr (ones [3; 2]%nat); arr (ones [3; 3; 2; 2]%nat)])
    = Ok (XTup [@XArr depth_alg ([3; 2], 32); @XArr depth_alg ([3; 3; 2; 2], 33)]%nat, o)) /\
  round53 (1 / 3) <> 1 / 3.
Proof.
  split; [|split; [|split; [|split]]].
  - repeat (first [apply Forall2_nil | apply Forall2_cons | split | apply fit_obj | apply fit_arr | reflexivity]).
  - intros u add mul ein args HA. apply l_within_given; [exact Rabs_norm|exact HA].
  - eexists. vm_compute. reflexivity.
  - eexists. vm_compute. reflexivity.
  - intros H. assert (P53 : FLX.Prec_gt_0 53) by reflexivity.
    assert (G : generic_format radix2 (FLX_exp 53) (1 / 3)).
    { rewrite <- H. exact (@generic_format_round radix2 (FLX_exp 53) (@FLX_exp_valid 53 P53) ZnearestE _ (1 / 3)). }
    apply (@FLX_format_generic radix2 53 P53) in G. destruct G as [[m e] G1 _]. unfold F2R in G1. cbn [Fnum Fexp] in G1.
    (* 3 m 2^e = 1 *)
    assert (X : (3 * m * 2 ^ Z.max 0 e = 2 ^ Z.max 0 (- e))%Z).
    { apply eq_IZR. rewrite !mult_IZR. rewrite !(IZR_Zpower radix2) by lia.
      destruct (Z.le_gt_cases 0 e).
      - rewrite (Z.max_r 0 e), (Z.max_l 0 (- e)) by lia. change (bpow radix2 0) with 1. lra.
      - rewrite (Z.max_l 0 e), (Z.max_r 0 (- e)) by lia. change (bpow radix2 0) with 1.
        assert (P : bpow radix2 e * bpow radix2 (- e) = 1) by (rewrite <- bpow_plus, Z.add_opp_diag_r; reflexivity).
        assert (Q : IZR m * bpow radix2 e * bpow radix2 (- e) = IZR m) by (rewrite Rmult_assoc, P; ring).
        rewrite <- G1 in Q. lra. }
    assert (Y : (2 ^ Z.max 0 (- e) mod 3 = 0)%Z).
    { rewrite <- X. rewrite <- !Z.mul_assoc, Z.mul_comm. apply Z.mod_mul. lia. }
    assert (Z0 : forall k, (0 <= k)%Z -> (2 ^ k mod 3 <> 0)%Z).
    { intros k Hk. pattern k. apply natlike_ind; [discriminate| |exact Hk]. intros z Hz IH. rewrite Z.pow_succ_r by lia.
      rewrite Z.mul_mod by lia. pose proof (Z.mod_pos_bound (2 ^ z) 3 ltac:(lia)).
      assert (2 ^ z mod 3 = 1 \/ 2 ^ z mod 3 = 2)%Z as [-> | ->] by lia; discriminate. }
    refine (Z0 _ _ Y). apply Z.le_max_l.
Qed.
