(** Configuration interaction with complex orbitals is variational: final
    statements.  Vocabulary: VarSpec.v, VarCSpec.v, CISpec.v, ExSpec.v.  The
    examples of the repository store the matrix in a real array
    ([numpy.zeros((nd, nd))]); the statements here are about the complex array
    that the same loop over [ci_matrixel] fills for a complex Hamiltonian. *)
From Coq Require Import List Arith Bool Lia Reals Lra.
From Verif Require Import Scalar Tensor CIModel CIRep CISpec CIFacts CIBases CIVec UFockSpec ExModel ExSpec RoundSpec VarSpec Var NegCSpec NegC VarCSpec VarC.
Import ListNotations.
Local Open Scope list_scope.

(** C99: v^* M w is <v|H|w> and v^* w is <v|w>, complex conjugation on the left. *)
Theorem C99_complex_form n na nb (ha hb Ia Ib Iab : tensor CK) (c : CK) L :
  integrals_ok n ha hb Ia Ib Iab -> sector_basis n na nb L ->
  exists M, ci_matrix (K := CK) (map dpair L) ha hb Ia Ib Iab c = Some M /\
    forall v w : list CK, List.length v = List.length L -> List.length w = List.length L ->
      dot (map conj_of v) (mat_vec M w) = sandwich (n + n) (hamiltonian n ha hb Ia Ib Iab c) (bra (combination L v)) (combination L w) /\
      dot (map conj_of v) w = inner (n + n) (bra (combination L v)) (combination L w).
Proof.
  intros HI S. exists (Hrows CK (hamiltonian n ha hb Ia Ib Iab c) L). split; [exact (ci_rows CK n na nb ha hb Ia Ib Iab c HI L S)|].
  exact (fun v w => quad_c n na nb ha hb Ia Ib Iab c L v w S).
Qed.
Print Assumptions C99_complex_form.

(** C99: for Hermitian integrals the matrix is Hermitian, every eigenvalue is
    real, and states of different energies are orthogonal. *)
Theorem C99_complex_hermitian n na nb (ha hb Ia Ib Iab : tensor CK) (c : CK) L M :
  integrals_ok n ha hb Ia Ib Iab -> hermitian_integrals n ha hb Ia Ib Iab c -> sector_basis n na nb L ->
  ci_matrix (K := CK) (map dpair L) ha hb Ia Ib Iab c = Some M ->
  (forall i j row row' x y, nth_error M i = Some row -> nth_error row j = Some x ->
     nth_error M j = Some row' -> nth_error row' i = Some y -> x = conj_of y) /\
  (forall v E, eigenvector M v E -> nonzero_c v -> imaginary_part E = 0%R) /\
  (forall v w E E', eigenvector M v E -> eigenvector M w E' -> nonzero_c v -> E <> E' ->
     inner (n + n) (bra (combination L v)) (combination L w) = (0, 0)%R).
Proof.
  intros HI HH S EM. rewrite (ci_rows CK n na nb ha hb Ia Ib Iab c HI L S) in EM. injection EM as <-. split; [|split].
  - intros i j row row' x y Hi Hj Hj' Hi'. unfold Hrows in Hi, Hj'.
    rewrite nth_error_map in Hi, Hj'. destruct (nth_error L i) as [a|] eqn:Ea; [|discriminate Hi]. destruct (nth_error L j) as [b|] eqn:Eb; [|discriminate Hj'].
    injection Hi as <-. injection Hj' as <-. rewrite nth_error_map in Hj, Hi'. rewrite Eb in Hj. rewrite Ea in Hi'.
    injection Hj as <-. injection Hi' as <-. apply (H_herm n ha hb Ia Ib Iab c HH).
  - exact (fun v E => real_energy n ha hb Ia Ib Iab c HH L v E).
  - intros v w E E' Q Q' N NE.
    assert (Lv : List.length v = List.length L) by (rewrite (eig_len CK _ _ _ Q); apply rows_len).
    assert (Lw : List.length w = List.length L) by (rewrite (eig_len CK _ _ _ Q'); apply rows_len).
    destruct (quad_c n na nb ha hb Ia Ib Iab c L v w S Lv Lw) as [_ <-].
    exact (orth_c n ha hb Ia Ib Iab c HH L v w E E' Q Q' N NE).
Qed.
Print Assumptions C99_complex_hermitian.

(** C99: the eigenvalues lie above every lower bound of the energy, and with all
    determinants of these numbers of electrons the bounds are the same. *)
Theorem C99_complex_bound n na nb (ha hb Ia Ib Iab : tensor CK) (c : CK) L M :
  integrals_ok n ha hb Ia Ib Iab -> sector_basis n na nb L ->
  ci_matrix (K := CK) (map dpair L) ha hb Ia Ib Iab c = Some M ->
  let H := hamiltonian n ha hb Ia Ib Iab c in
  (forall e, energy_bound_c n na nb H e -> form_bound_c (List.length L) (mat_vec M) e) /\
  (forall e, form_bound_c (List.length L) (mat_vec M) e -> forall v E, eigenvector M v E -> nonzero_c v -> (e <= real_part E)%R) /\
  ((forall x, sector n na nb x -> In x L) -> forall e, form_bound_c (List.length L) (mat_vec M) e <-> energy_bound_c n na nb H e).
Proof.
  intros HI S EM H. rewrite (ci_rows CK n na nb ha hb Ia Ib Iab c HI L S) in EM. injection EM as <-.
  split; [exact (fun e => bound_form_c n na nb ha hb Ia Ib Iab c L e S)|]. split.
  - intros e B v E Q N. apply (above_c v _ e E N Q). apply B. rewrite (eig_len CK _ _ _ Q). apply rows_len.
  - intros Cp e. split; [exact (form_energy_c n na nb ha hb Ia Ib Iab c L e S Cp)|exact (bound_form_c n na nb ha hb Ia Ib Iab c L e S)].
Qed.
Print Assumptions C99_complex_bound.

(** C99: enlarging the basis can only lower the energies. *)
Theorem C99_complex_larger_basis n na nb (ha hb Ia Ib Iab : tensor CK) (c : CK) L L' M M' e :
  integrals_ok n ha hb Ia Ib Iab -> sector_basis n na nb L' -> NoDup L -> incl L L' ->
  ci_matrix (K := CK) (map dpair L) ha hb Ia Ib Iab c = Some M ->
  ci_matrix (K := CK) (map dpair L') ha hb Ia Ib Iab c = Some M' ->
  form_bound_c (List.length L') (mat_vec M') e ->
  form_bound_c (List.length L) (mat_vec M) e /\
  (forall v E, eigenvector M v E -> nonzero_c v -> (e <= real_part E)%R).
Proof.
  intros HI S' N I EM EM' B. assert (S : sector_basis n na nb L) by (split; [exact N|intros x Ix; apply S', I, Ix]).
  rewrite (ci_rows CK n na nb ha hb Ia Ib Iab c HI L' S') in EM'. injection EM' as <-.
  assert (B1 : form_bound_c (List.length L) (mat_vec M) e).
  { rewrite (ci_rows CK n na nb ha hb Ia Ib Iab c HI L S) in EM. injection EM as <-.
    exact (sub_form_c n na nb ha hb Ia Ib Iab c L L' e S' N I B). }
  split; [exact B1|]. exact (proj1 (proj2 (C99_complex_bound n na nb ha hb Ia Ib Iab c L M HI S EM)) e B1).
Qed.
Print Assumptions C99_complex_larger_basis.

(** One alpha electron in two orbitals with h = [[0, i], [-i, 0]]: the energies
    are -1 and 1, and -1 bounds the energy of all states. *)
Definition vc_h : tensor CK :=
  mkT (K := CK) [2; 2]%nat (fun ix => match ix with [0; 1]%nat => (0, 1)%R | [1; 0]%nat => (0, -1)%R | _ => (0, 0)%R end).
Definition vc_I : tensor CK := tzeros CK [2; 2; 2; 2]%nat.
Definition vc_L : list (det * det) := [([true; false], [false; false]); ([false; true], [false; false])].
Lemma vc_matrix : ci_matrix (K := CK) (map dpair vc_L) vc_h vc_h vc_I vc_I vc_I (0, 0)%R = Some [[(0, 0); (0, 1)]; [(0, -1); (0, 0)]]%R.
Proof.
  transitivity (Some (map (fun r => map (fun x : CK => x) r) [[(0, 0); (0, 1)]; [(0, -1); (0, 0)]]%R)); [|reflexivity].
  cbv -[Rplus Rmult Rminus Ropp IZR Rinv Rdiv].
  repeat match goal with |- Some _ = Some _ => f_equal | |- _ :: _ = _ :: _ => f_equal | |- (_, _) = (_, _) => f_equal end; lra.
Qed.
Example C99_complex_example :
  integrals_ok 2 vc_h vc_h vc_I vc_I vc_I /\ hermitian_integrals 2 vc_h vc_h vc_I vc_I vc_I (0, 0)%R /\
  sector_basis 2 1 0 vc_L /\ (forall x, sector 2 1 0 x -> In x vc_L) /\
  (exists M, ci_matrix (K := CK) (map dpair vc_L) vc_h vc_h vc_I vc_I vc_I (0, 0)%R = Some M /\
     eigenvector (K := CK) M [(1, 0); (0, -1)]%R (1, 0)%R /\ eigenvector (K := CK) M [(1, 0); (0, 1)]%R (-1, 0)%R /\
     nonzero_c [(1, 0); (0, 1)]%R /\ form_bound_c 2 (mat_vec M) (-1)%R) /\
  energy_bound_c 2 1 0 (hamiltonian 2 vc_h vc_h vc_I vc_I vc_I (0, 0)%R) (-1)%R.
Proof.
  assert (Z : (0 = - 0)%R) by lra.
  assert (HI : integrals_ok 2 vc_h vc_h vc_I vc_I vc_I) by (repeat split; intros; reflexivity).
  assert (S : sector_basis 2 1 0 vc_L).
  { split; [repeat constructor; cbn; intuition congruence|]. intros x [<-|[<-|[]]]; repeat split. }
  assert (Cp : forall x, sector 2 1 0 x -> In x vc_L).
  { intros [s t] (L1 & L2 & N1 & N2). cbn [fst snd] in *.
    destruct s as [|s0 [|s1 [|]]]; try discriminate L1. destruct t as [|t0 [|t1 [|]]]; try discriminate L2.
    destruct s0, s1; try discriminate N1; destruct t0, t1; try discriminate N2; cbn; auto. }
  pose proof vc_matrix as EM.
  assert (B : form_bound_c 2 (mat_vec (K := CK) [[(0, 0); (0, 1)]; [(0, -1); (0, 0)]]%R) (-1)%R).
  { intros v Hv. destruct v as [|[a1 a2] [|[b1 b2] [|u v]]]; try discriminate Hv. unfold real_part. cbn.
    pose proof (Rle_0_sqr (a1 - b2)). pose proof (Rle_0_sqr (a2 + b1)). unfold Rsqr in *. lra. }
  split; [exact HI|]. split; [|split; [exact S|split; [exact Cp|split]]].
  - split; [reflexivity|]. assert (H2 : forall p q, (p < 2)%nat -> (q < 2)%nat -> dat vc_h [p; q] = conj_of (dat vc_h [q; p])).
    { intros p q Hp Hq. destruct p as [|[|p]], q as [|[|q]]; try lia; apply injective_projections; cbn; lra. }
    repeat split; try exact H2; intros; apply injective_projections; cbn; lra.
  - eexists. split; [exact EM|].
    split; [|split; [|split; [|exact B]]].
    + unfold eigenvector. cbn. unfold cplx_mul. cbn. repeat match goal with |- _ :: _ = _ :: _ => f_equal | |- (_, _) = (_, _) => f_equal end; lra.
    + unfold eigenvector. cbn. unfold cplx_mul. cbn. repeat match goal with |- _ :: _ = _ :: _ => f_equal | |- (_, _) = (_, _) => f_equal end; lra.
    + exists (1, 0)%R. split; [left; reflexivity|]. intros X. apply (f_equal fst) in X. cbn in X. lra.
  - apply (proj2 (proj2 (C99_complex_bound 2 1 0 vc_h vc_h vc_I vc_I vc_I (0, 0)%R vc_L _ HI S EM)) Cp). exact B.
Qed.
