(** C103: the functions are Lipschitz on bounded arguments, and the usual
    iteration for the amplitudes and for Lambda converges when the coupling is
    small against the gap of the orbital energies. *)
From Coq Require Import List Arith Lia String Reals Lra.
From Verif Require Import Scalar Tensor PySyntax PySem CCProg CCSpec SymSound CCShapes CovSpec RoundSpec UtilsModel ShiftSpec Shift
  NegSpec SpinSpec IterSpec Lips Banach Iter IterCC IterLam IterD IterR IterRL IterU IterUL IterEq.
Import ListNotations.
Local Open Scope R_scope.

(** For given orbital numbers and a bound on the arguments, the results of a
    function have a bound, and they change by at most a constant times the
    change of the arguments. *)
Theorem C103_lipschitz (n : space -> nat) f a r B :
  In (f, a, r) public_functions -> 0 <= B ->
  exists C, 0 <= C /\ forall us vs d, bounded_args n B a us -> bounded_args n B a vs -> 0 <= d -> near_args n d a us vs ->
    exists u v, returns f us u /\ returns f vs v /\ bounded n C r u /\ bounded n C r v /\ near n (C * d) r u v.
Proof. exact (lipschitz n f a r B). Qed.
Print Assumptions C103_lipschitz.

(** There is a ratio, which depends on the numbers of orbitals only, such that
    for a Fock matrix without orbital energies and integrals below this ratio
    times the gap the equations have exactly one solution with entries up to
    one, and the iteration from zero gains a factor of two in every pass. *)
Theorem C103_ccsd_converges no nv : exists kappa, 0 < kappa /\
  forall f g F0 F I eo ev, In f ["lccsd_simple"; "ccsd_simple"; "ccsd_stanton"]%string -> one_e_ok no nv F0 -> two_e_ok no nv I ->
    energy_shift no nv eo ev F0 F -> gap no nv eo ev g -> at_most_F (kappa * g) F0 -> at_most_I (kappa * g) I ->
    exists T1 T2, t1_ok no nv T1 /\ t2_ok no nv T2 /\ at_most (1 / 2) T1 /\ at_most (1 / 2) T2 /\
      solves f F I T1 T2 /\
      (forall T1' T2', t1_ok no nv T1' -> t2_ok no nv T2' -> at_most 1 T1' -> at_most 1 T2' -> solves f F I T1' T2' ->
         teq T1' T1 /\ teq T2' T2) /\
      (exists t1 t2, iterates no nv f F I eo ev t1 t2) /\
      (forall t1 t2, iterates no nv f F I eo ev t1 t2 ->
         forall k, differ ((1 / 2) ^ k) (t1 k) T1 /\ differ ((1 / 2) ^ k) (t2 k) T2).
Proof. exact (ccsd_converges no nv). Qed.
Print Assumptions C103_ccsd_converges.

(** The energies along such an iteration converge at the same rate. *)
Theorem C103_energies_converge no nv B (V W T1 T2 : tensor RK) (t1 t2 : nat -> tensor RK) :
  shp V = [no; nv] -> shp W = [no; no; nv; nv] -> 0 <= B -> at_most B V -> at_most B W ->
  shp T1 = [nv; no] -> shp T2 = [nv; nv; no; no] -> at_most (1 / 2) T1 -> at_most (1 / 2) T2 ->
  (forall k, differ ((1 / 2) ^ k) (t1 k) T1 /\ differ ((1 / 2) ^ k) (t2 k) T2) ->
  exists C E, returns "cc_energy" [arr T1; arr T2; arr V; arr W] (numv (K := RK) E) /\
    forall k, exists Ek, returns "cc_energy" [arr (t1 k); arr (t2 k); arr V; arr W] (numv (K := RK) Ek) /\
      Rabs (Ek - E) <= C * (1 / 2) ^ k.
Proof. exact (energies_converge no nv B V W T1 T2 t1 t2). Qed.
Print Assumptions C103_energies_converge.

(** The same for Lambda, at any amplitudes with entries up to one. *)
Theorem C103_lambda_converges no nv : exists kappa, 0 < kappa /\
  forall f g F0 F I eo ev T1 T2, In f ["ccsd_lambda_simple"; "ccsd_lambda_opt"; "ccsd_lambda_stanton"]%string ->
    one_e_ok no nv F0 -> two_e_ok no nv I ->
    energy_shift no nv eo ev F0 F -> gap no nv eo ev g -> at_most_F (kappa * g) F0 -> at_most_I (kappa * g) I ->
    t1_ok no nv T1 -> t2_ok no nv T2 -> at_most 1 T1 -> at_most 1 T2 ->
    exists L1 L2, l1_ok no nv L1 /\ l2_ok no nv L2 /\ at_most (1 / 2) L1 /\ at_most (1 / 2) L2 /\
      solves_l f F I T1 T2 L1 L2 /\
      (forall L1' L2', l1_ok no nv L1' -> l2_ok no nv L2' -> at_most 1 L1' -> at_most 1 L2' -> solves_l f F I T1 T2 L1' L2' ->
         teq L1' L1 /\ teq L2' L2) /\
      (exists l1 l2, iterates_l no nv f F I eo ev T1 T2 l1 l2) /\
      (forall l1 l2, iterates_l no nv f F I eo ev T1 T2 l1 l2 ->
         forall k, differ ((1 / 2) ^ k) (l1 k) L1 /\ differ ((1 / 2) ^ k) (l2 k) L2).
Proof. exact (lambda_converges no nv). Qed.
Print Assumptions C103_lambda_converges.

(** Doubles only: the same for the linearised and the two coupled cluster
    doubles residuals. *)
Theorem C103_doubles_converge no nv : exists kappa, 0 < kappa /\
  forall f g (F0 F : one_e RK) (I : two_e RK) eo ev,
    In f ["lccd_simple"; "ccd_simple"; "ccd_stanton"]%string -> one_e_ok no nv F0 -> two_e_ok no nv I ->
    energy_shift no nv eo ev F0 F -> gap no nv eo ev g -> at_most_F (kappa * g) F0 -> at_most_I (kappa * g) I ->
    exists T2, t2_ok no nv T2 /\ at_most (1 / 2) T2 /\ solves_d f F I T2 /\
      (forall T2', t2_ok no nv T2' -> at_most 1 T2' -> solves_d f F I T2' -> teq T2' T2) /\
      (exists t2, iterates_d no nv f F I eo ev t2) /\
      (forall t2, iterates_d no nv f F I eo ev t2 -> forall k, differ ((1 / 2) ^ k) (t2 k) T2).
Proof. exact (ccd_converges no nv). Qed.
Print Assumptions C103_doubles_converge.

(** Closed shells: the same for the restricted residuals, for integrals with
    <pq|rs> = <qp|sr> and amplitudes with T2[abij] = T2[baji]. *)
Theorem C103_closed_shell_converges no nv : exists kappa, 0 < kappa /\
  forall g (F0 F : one_e RK) (J : two_e_full RK) eo ev,
    one_e_ok no nv F0 -> two_e_full_ok no nv no nv J -> pair_sym_full J ->
    energy_shift no nv eo ev F0 F -> gap no nv eo ev g -> at_most_F (kappa * g) F0 -> at_most_J (kappa * g) J ->
    exists T1 T2, shp T1 = [nv; no] /\ shp T2 = [nv; nv; no; no] /\ pair_sym T2 /\ at_most (1 / 2) T1 /\ at_most (1 / 2) T2 /\
      solves_r "rccsd_stanton" F J T1 T2 /\
      (forall T1' T2', shp T1' = [nv; no] -> shp T2' = [nv; nv; no; no] -> pair_sym T2' -> at_most 1 T1' -> at_most 1 T2' ->
         solves_r "rccsd_stanton" F J T1' T2' -> teq T1' T1 /\ teq T2' T2) /\
      (exists t1 t2, iterates_r no nv "rccsd_stanton" F J eo ev t1 t2) /\
      (forall t1 t2, iterates_r no nv "rccsd_stanton" F J eo ev t1 t2 ->
         forall k, differ ((1 / 2) ^ k) (t1 k) T1 /\ differ ((1 / 2) ^ k) (t2 k) T2).
Proof. exact (rccsd_converges no nv). Qed.
Print Assumptions C103_closed_shell_converges.

(** ... and for Lambda of closed shells at any amplitudes of moderate size. *)
Theorem C103_closed_shell_lambda_converges no nv : exists kappa, 0 < kappa /\
  forall g (F0 F : one_e RK) (J : two_e_full RK) eo ev T1 T2,
    one_e_ok no nv F0 -> two_e_full_ok no nv no nv J -> pair_sym_full J ->
    energy_shift no nv eo ev F0 F -> gap no nv eo ev g -> at_most_F (kappa * g) F0 -> at_most_J (kappa * g) J ->
    shp T1 = [nv; no] -> shp T2 = [nv; nv; no; no] -> pair_sym T2 -> at_most 1 T1 -> at_most 1 T2 ->
    exists L1 L2, shp L1 = [no; nv] /\ shp L2 = [no; no; nv; nv] /\ pair_sym L2 /\ at_most (1 / 2) L1 /\ at_most (1 / 2) L2 /\
      solves_rl "rccsd_lambda_opt" F J T1 T2 L1 L2 /\
      (forall L1' L2', shp L1' = [no; nv] -> shp L2' = [no; no; nv; nv] -> pair_sym L2' -> at_most 1 L1' -> at_most 1 L2' ->
         solves_rl "rccsd_lambda_opt" F J T1 T2 L1' L2' -> teq L1' L1 /\ teq L2' L2) /\
      (exists l1 l2, iterates_rl no nv "rccsd_lambda_opt" F J eo ev T1 T2 l1 l2) /\
      (forall l1 l2, iterates_rl no nv "rccsd_lambda_opt" F J eo ev T1 T2 l1 l2 ->
         forall k, differ ((1 / 2) ^ k) (l1 k) L1 /\ differ ((1 / 2) ^ k) (l2 k) L2).
Proof.
  destruct (rlambda_converges no nv) as (kappa & K0 & H). exists kappa. split; [exact K0|].
  intros g F0 F J eo ev T1 T2 HF HJ PJ HE HG BF BJ S1 S2 P2 B1 B2.
  destruct (H "rccsd_lambda_opt"%string g F0 F J eo ev T1 T2 (or_introl eq_refl) HF HJ PJ HE HG BF BJ S1 (Logic.conj S2 P2) B1 B2)
    as (t & u & Q1 & (Q2 & Q3) & Q4 & Q5 & Q6 & Q7 & Q8).
  exists t, u. do 6 (split; [assumption|]). split; [|exact Q8].
  intros t' u' V1 V2 V3 V4 V5 V6. exact (Q7 t' u' V1 (Logic.conj V2 V3) V4 V5 V6).
Qed.
Print Assumptions C103_closed_shell_lambda_converges.

(** Unrestricted: the same for the five blocks of amplitudes. *)
Theorem C103_unrestricted_converges noa nva nob nvb : exists kappa, 0 < kappa /\
  forall g Fa0 Fa Fb0 Fb Ia Ib J eoa eva eob evb, u_ham_ok noa nva nob nvb Fa0 Fb0 Ia Ib J ->
    energy_shift noa nva eoa eva Fa0 Fa -> energy_shift nob nvb eob evb Fb0 Fb -> gap noa nva eoa eva g -> gap nob nvb eob evb g ->
    u_small (kappa * g) Fa0 Fb0 Ia Ib J ->
    let f := "uccsd_stanton"%string in let H := py_uham Fa Fb Ia Ib J in
    exists T, u_ok noa nva nob nvb T /\ (forall b, at_most (1 / 2) (T b)) /\ solves_u f H T /\
      (forall T', u_ok noa nva nob nvb T' -> (forall b, at_most 1 (T' b)) -> solves_u f H T' -> forall b, teq (T' b) (T b)) /\
      (exists t, iterates_u noa nva nob nvb f H eoa eva eob evb t) /\
      (forall t, iterates_u noa nva nob nvb f H eoa eva eob evb t -> forall k b, differ ((1 / 2) ^ k) (t k b) (T b)).
Proof. exact (uccsd_converges noa nva nob nvb). Qed.
Print Assumptions C103_unrestricted_converges.

Theorem C103_unrestricted_lambda_converges noa nva nob nvb : exists kappa, 0 < kappa /\
  forall g Fa0 Fa Fb0 Fb Ia Ib J eoa eva eob evb T, u_ham_ok noa nva nob nvb Fa0 Fb0 Ia Ib J ->
    energy_shift noa nva eoa eva Fa0 Fa -> energy_shift nob nvb eob evb Fb0 Fb -> gap noa nva eoa eva g -> gap nob nvb eob evb g ->
    u_small (kappa * g) Fa0 Fb0 Ia Ib J -> u_ok noa nva nob nvb T -> (forall b, at_most 1 (T b)) ->
    let f := "uccsd_lambda_opt"%string in let H := py_uham Fa Fb Ia Ib J in
    exists L, u_ok_l noa nva nob nvb L /\ (forall b, at_most (1 / 2) (L b)) /\ solves_ul f H (py_u T) L /\
      (forall L', u_ok_l noa nva nob nvb L' -> (forall b, at_most 1 (L' b)) -> solves_ul f H (py_u T) L' -> forall b, teq (L' b) (L b)) /\
      (exists l, iterates_ul noa nva nob nvb f H (py_u T) eoa eva eob evb l) /\
      (forall l, iterates_ul noa nva nob nvb f H (py_u T) eoa eva eob evb l -> forall k b, differ ((1 / 2) ^ k) (l k b) (L b)).
Proof. exact (ulambda_converges noa nva nob nvb). Qed.
Print Assumptions C103_unrestricted_lambda_converges.

(** For a closed shell, whatever its size and whether or not anything converges,
    both iterations can always be carried out and the unrestricted one passes
    through the spin blocks of the restricted one. *)
Theorem C103_closed_shell_same_iterates no nv (F : one_e RK) (J : two_e_full RK) eo ev :
  one_e_ok no nv F -> two_e_full_ok no nv no nv J -> pair_sym_full J -> shp eo = [no] -> shp ev = [nv] ->
  let H := py_uham F F (anti_of J) (anti_of J) J in
  (exists t1 t2, iterates_r no nv "rccsd_stanton" F J eo ev t1 t2) /\
  (exists t, iterates_u no nv no nv "uccsd_stanton" H eo ev eo ev t) /\
  forall t1 t2 t, iterates_r no nv "rccsd_stanton" F J eo ev t1 t2 -> iterates_u no nv no nv "uccsd_stanton" H eo ev eo ev t ->
  forall k, shp (t1 k) = [nv; no] /\ shp (t2 k) = [nv; nv; no; no] /\ pair_sym (t2 k) /\
    teq (t k Ua) (t1 k) /\ teq (t k Ub) (t1 k) /\ teq (t k Uab) (t2 k) /\
    teq (t k Uaa) (tminus (t2 k) (swap_ket (t2 k))) /\ teq (t k Ubb) (tminus (t2 k) (swap_ket (t2 k))).
Proof.
  intros HF HJ PJ So Sv H. destruct (iterates_exist no nv F J HF HJ PJ eo ev So Sv) as (X & Y).
  split; [exact X|]. split; [exact Y|]. intros t1 t2 t HR HU k.
  destruct (iterates_same no nv F J HF HJ PJ eo ev So Sv t1 t2 t HR HU k) as (S1 & S2 & P & E).
  split; [exact S1|]. split; [exact S2|]. split; [exact P|].
  split; [exact (E Ua)|]. split; [exact (E Ub)|]. split; [exact (E Uab)|]. split; [exact (E Uaa)|exact (E Ubb)].
Qed.
Print Assumptions C103_closed_shell_same_iterates.

(** Whatever the ratio, there are systems with couplings of that size. *)
Definition sg (i j : nat) : R := match Nat.compare i j with Lt => 1 | Gt => -1 | Eq => 0 end.
Definition ex2 (k : R) (sh : list nat) : tensor RK := @mkT RK sh (fun _ => k).
Definition ex4 (k : R) (lead tail : bool) (sh : list nat) : tensor RK := @mkT RK sh (fun idx => match idx with
  | [p; q; r; s] => k * (if lead then sg p q else 1) * (if tail then sg r s else 1) | _ => 0 end).
Definition exF (k : R) : one_e RK := OneE _ (ex2 k [2; 2]%nat) (ex2 k [2; 2]%nat) (ex2 k [2; 2]%nat) (ex2 k [2; 2]%nat).
Definition exI (k : R) : two_e RK :=
  let s := [2; 2; 2; 2]%nat in
  TwoE _ (ex4 k true true s) (ex4 k true false s) (ex4 k false true s) (ex4 k true true s) (ex4 k false false s)
         (ex4 k true true s) (ex4 k false true s) (ex4 k true false s) (ex4 k true true s).
Lemma sg_anti i j : sg i j = - sg j i.
Proof. unfold sg. rewrite (Nat.compare_antisym j i). destruct (Nat.compare j i); cbn; lra. Qed.
Lemma sg_abs i j : -1 <= sg i j <= 1.
Proof. unfold sg. destruct (Nat.compare i j); lra. Qed.
Lemma ex4_lead k b s : antisym_lead (ex4 k true b s).
Proof. intros p q r t _. cbn [ex4 dat]. rewrite (sg_anti p q). apply (Rminus_diag_uniq (k * - sg q p * _) (- (k * sg q p * _))). ring. Qed.
Lemma ex4_tail k b s : antisym_tail (ex4 k b true s).
Proof. intros p q r t _. cbn [ex4 dat]. rewrite (sg_anti r t). apply (Rminus_diag_uniq (k * _ * - sg t r) (- (k * _ * sg t r))). ring. Qed.
Lemma ex4_most k a b s : 0 < k -> at_most k (ex4 k a b s).
Proof.
  intros Hk idx _. cbn [ex4 dat]. destruct idx as [|p [|q [|r [|t [|? ?]]]]]; try (rewrite Rabs_R0; lra).
  set (x := if a then sg p q else 1). set (y := if b then sg r t else 1).
  assert (Hx : -1 <= x <= 1) by (subst x; destruct a; [apply sg_abs|lra]).
  assert (Hy : -1 <= y <= 1) by (subst y; destruct b; [apply sg_abs|lra]).
  rewrite !Rabs_mult, (Rabs_pos_eq k) by lra.
  assert (Ax : Rabs x <= 1) by (apply Rabs_le; lra). assert (Ay : Rabs y <= 1) by (apply Rabs_le; lra).
  pose proof (Rabs_pos x). pose proof (Rabs_pos y).
  assert (Rabs x * Rabs y <= 1 * 1) by (apply Rmult_le_compat; assumption).
  rewrite Rmult_assoc. apply Rle_trans with (k * (1 * 1)); [apply Rmult_le_compat_l; lra|lra].
Qed.
Lemma ex2_most k s : 0 < k -> at_most k (ex2 k s).
Proof. intros Hk idx _. cbn [ex2 dat]. rewrite Rabs_pos_eq; lra. Qed.
Example C103_example kappa : 0 < kappa ->
  let eo := @mkT RK [2]%nat (fun _ => 0) in let ev := @mkT RK [2]%nat (fun _ => 1) in
  let F0 := exF (kappa * 1) in let I := exI (kappa * 1) in
  one_e_ok 2 2 F0 /\ two_e_ok 2 2 I /\ (exists F, energy_shift 2 2 eo ev F0 F) /\ gap 2 2 eo ev 1 /\
  at_most_F (kappa * 1) F0 /\ at_most_I (kappa * 1) I /\
  dat (ov F0) [0; 1]%nat = kappa * 1 /\ dat (vvoo I) [0; 1; 1; 0]%nat = - (kappa * 1).
Proof.
  intros Hk eo ev F0 I. assert (H1 : 0 < kappa * 1) by lra.
  split; [repeat split|]. split.
  { split; [repeat split|]. unfold two_e_antisym. cbn [exI I vvvv vvvo vovv vvoo vovo oovv vooo ooov oooo].
    repeat split; first [apply ex4_lead|apply ex4_tail]. }
  split. { exists (addF RK F0 (diag 2 eo) (diag 2 ev)). split; [reflexivity|]. split; [reflexivity|].
    apply (addF_ok RK 2 2); [repeat split|reflexivity|reflexivity]. }
  split. { split; [lra|]. intros a i _ _. cbn. lra. }
  split. { repeat split; apply ex2_most; exact H1. }
  split. { unfold at_most_I. cbn [exI I vvvv vvvo vovv vvoo vovo oovv vooo ooov oooo]. repeat split; apply ex4_most; exact H1. }
  split; [reflexivity|]. cbn. unfold sg. cbn. ring.
Qed.

(** Integrals of that size for closed shells. *)
Definition exJ (k : R) : two_e_full RK :=
  let t := ex2 k [2; 2; 2; 2]%nat in TwoEF _ t t t t t t t t t t t t t t t t.
Example C103_closed_shell_example kappa : 0 < kappa ->
  two_e_full_ok 2 2 2 2 (exJ (kappa * 1)) /\ pair_sym_full (exJ (kappa * 1)) /\ at_most_J (kappa * 1) (exJ (kappa * 1)) /\
  dat (fvvoo (exJ (kappa * 1))) [0; 1; 1; 0]%nat = kappa * 1.
Proof.
  intros Hk. assert (H1 : 0 < kappa * 1) by lra. split; [repeat split|]. split.
  { assert (P : teq (ex2 (kappa * 1) [2; 2; 2; 2]%nat) (swap_both (ex2 (kappa * 1) [2; 2; 2; 2]%nat))) by (split; [reflexivity|intros idx _; reflexivity]).
    unfold pair_sym_full, pair_sym. cbn [exJ fvvvv fvvvo fvvov fvovv fovvv fvvoo fvovo fvoov fovvo fovov foovv fooov foovo fovoo fvooo foooo].
    do 9 (split; [exact P|]). exact P. }
  split; [|reflexivity].
  unfold at_most_J. cbn [exJ fvvvv fvvvo fvvov fvovv fovvv fvvoo fvovo fvoov fovvo fovov foovv fooov foovo fovoo fvooo foooo].
  do 15 (split; [apply ex2_most; exact H1|]). apply ex2_most; exact H1.
Qed.

(** ... and for different orbitals for different spins. *)
Example C103_unrestricted_example kappa : 0 < kappa ->
  u_ham_ok 2 2 2 2 (exF (kappa * 1)) (exF (kappa * 1)) (exI (kappa * 1)) (exI (kappa * 1)) (exJ (kappa * 1)) /\
  u_small (kappa * 1) (exF (kappa * 1)) (exF (kappa * 1)) (exI (kappa * 1)) (exI (kappa * 1)) (exJ (kappa * 1)) /\
  u_ok 2 2 2 2 (fun b => match b with Ua | Ub => ex2 1 [2; 2]%nat | Uab => ex2 1 [2; 2; 2; 2]%nat | _ => ex4 1 true true [2; 2; 2; 2]%nat end).
Proof.
  intros Hk. destruct (C103_example kappa Hk) as (P1 & P2 & _ & _ & P3 & P4 & _).
  destruct (C103_closed_shell_example kappa Hk) as (P5 & _ & P6 & _).
  split; [exact (Logic.conj P1 (Logic.conj P1 (Logic.conj P2 (Logic.conj P2 P5))))|].
  split; [exact (Logic.conj P3 (Logic.conj P3 (Logic.conj P4 (Logic.conj P4 P6))))|].
  assert (Q : t2_ok 2 2 (ex4 1 true true [2; 2; 2; 2]%nat)) by (split; [reflexivity|]; split; [apply ex4_lead|apply ex4_tail]).
  split; [reflexivity|]. split; [reflexivity|]. split; [exact Q|]. split; [reflexivity|exact Q].
Qed.
