(** Configuration interaction is variational: final statements.  Vocabulary:
    VarSpec.v (wave functions, expectation values, bounds), CISpec.v
    (determinants, the Hamiltonian [H_spatial]), ExSpec.v ([mat_vec],
    [eigenvector]).  [dpair] gives the program's form of a determinant
    (CIRep.v). *)
From Coq Require Import List Arith Bool Lia Reals Lra.
From Coq Require Import String.
From Verif Require Import Scalar Tensor PySyntax PySem CCProg CIModel CIRep CISpec CIFacts CIStrings CIBases CILemmas CIVec CCSpec SpinSpec UFockSpec
  CCCI UExamples ExModel ExSpec ExCI RoundSpec VarSpec Var.
Import ListNotations.
Local Open Scope string_scope.
Local Open Scope list_scope.

(** C99: the CI matrix in any basis of determinants is the matrix of the
    Hamiltonian: v.(M w) is the matrix element of H between the wave functions
    with coefficients v and w, and v.w their inner product. *)
Theorem C99_quadratic_form (K : cring) n na nb (ha hb Ia Ib Iab : tensor K) c L :
  integrals_ok n ha hb Ia Ib Iab -> sector_basis n na nb L ->
  exists M, ci_matrix (map dpair L) ha hb Ia Ib Iab c = Some M /\
    (forall v w : list K, List.length v = List.length L -> List.length w = List.length L ->
       dot v (mat_vec M w) = sandwich (n + n) (hamiltonian n ha hb Ia Ib Iab c) (combination L v) (combination L w) /\
       dot v w = inner (n + n) (combination L v) (combination L w)) /\
    (forall (v : list K) E, List.length v = List.length L ->
       (eigenvector M v E <-> forall x, In x L ->
          lsum (map (fun t => hamiltonian n ha hb Ia Ib Iab c (fst x ++ snd x) t * combination L v t) (all_dets (n + n)))%K
          = (E * combination L v (fst x ++ snd x))%K)).
Proof.
  intros HI S. exists (Hrows K (hamiltonian n ha hb Ia Ib Iab c) L). split; [exact (ci_rows K n na nb ha hb Ia Ib Iab c HI L S)|].
  split; [exact (fun v w => quad K n na nb ha hb Ia Ib Iab c L v w S)|exact (fun v E => eigen_state K n na nb ha hb Ia Ib Iab c L v E S)].
Qed.
Print Assumptions C99_quadratic_form.

(** C99: the eigenvalues of every CI matrix lie above every lower bound of the
    energy of the states with these numbers of electrons, the exact ground state
    energy among them. *)
Theorem C99_lower_bound n na nb (ha hb Ia Ib Iab : tensor RK) c L M v E e :
  integrals_ok n ha hb Ia Ib Iab -> sector_basis n na nb L ->
  ci_matrix (map dpair L) ha hb Ia Ib Iab c = Some M ->
  eigenvector M v E -> nonzero v ->
  energy_bound n na nb (hamiltonian n ha hb Ia Ib Iab c) e -> (e <= E)%R.
Proof.
  intros HI S EM Q N B. rewrite (ci_rows RK n na nb ha hb Ia Ib Iab c HI L S) in EM. injection EM as <-.
  apply (above v _ e E N Q). apply (bound_form n na nb ha hb Ia Ib Iab c L e S B).
  rewrite (eig_len RK _ _ _ Q). apply rows_len.
Qed.
Print Assumptions C99_lower_bound.

(** C99: enlarging the basis can only lower the energies: a bound of the
    quadratic form of the larger matrix, its lowest eigenvalue for one, is a
    bound of the form of the smaller one, and so of its eigenvalues and of the
    energy of every determinant. *)
Theorem C99_larger_basis n na nb (ha hb Ia Ib Iab : tensor RK) c L L' M M' e :
  integrals_ok n ha hb Ia Ib Iab -> sector_basis n na nb L' -> NoDup L -> incl L L' ->
  ci_matrix (map dpair L) ha hb Ia Ib Iab c = Some M ->
  ci_matrix (map dpair L') ha hb Ia Ib Iab c = Some M' ->
  form_bound (List.length L') (mat_vec M') e ->
  form_bound (List.length L) (mat_vec M) e /\
  (forall v E, eigenvector M v E -> nonzero v -> (e <= E)%R) /\
  (forall x, In x L -> (e <= hamiltonian n ha hb Ia Ib Iab c (fst x ++ snd x) (fst x ++ snd x))%R).
Proof.
  intros HI S' N I EM EM' B. assert (S : sector_basis n na nb L) by (split; [exact N|intros x Ix; apply S', I, Ix]).
  rewrite (ci_rows RK n na nb ha hb Ia Ib Iab c HI L S) in EM. injection EM as <-.
  rewrite (ci_rows RK n na nb ha hb Ia Ib Iab c HI L' S') in EM'. injection EM' as <-.
  pose proof (sub_form n na nb ha hb Ia Ib Iab c L L' e S' N I B) as B1. split; [exact B1|]. split.
  - intros v E Q Nz. apply (above v _ e E Nz Q). apply B1. rewrite (eig_len RK _ _ _ Q). apply rows_len.
  - intros x Ix. exact (unit_energy n na nb ha hb Ia Ib Iab c L x S Ix e B1).
Qed.
Print Assumptions C99_larger_basis.

(** C99: with all determinants of the given numbers of electrons (full CI) the
    bounds are those of the energy, and the eigenvectors are the solutions of the
    Schroedinger equation. *)
Theorem C99_complete_basis n na nb (ha hb Ia Ib Iab : tensor RK) c L M :
  integrals_ok n ha hb Ia Ib Iab -> sector_basis n na nb L -> (forall x, sector n na nb x -> In x L) ->
  ci_matrix (map dpair L) ha hb Ia Ib Iab c = Some M ->
  let H := hamiltonian n ha hb Ia Ib Iab c in
  (forall e, form_bound (List.length L) (mat_vec M) e <-> energy_bound n na nb H e) /\
  (forall v E, List.length v = List.length L ->
     (eigenvector M v E <-> forall s, sector n na nb (firstn n s, skipn n s) ->
        lsum (map (fun t => H s t * combination L v t) (all_dets (n + n)))%K = (E * combination L v s)%K)).
Proof.
  intros HI S Cp EM H. rewrite (ci_rows RK n na nb ha hb Ia Ib Iab c HI L S) in EM. injection EM as <-. split.
  - intros e. split; [exact (form_energy n na nb ha hb Ia Ib Iab c L e S Cp)|exact (bound_form n na nb ha hb Ia Ib Iab c L e S)].
  - intros v E Hv. eapply iff_trans; [exact (eigen_state RK n na nb ha hb Ia Ib Iab c L v E S Hv)|]. split.
    + intros Q s Hs. pose proof (Q _ (Cp _ Hs)) as Q'. cbn [fst snd] in Q'. rewrite firstn_skipn in Q'. exact Q'.
    + intros Q x Ix. apply Q. destruct (proj2 S x Ix) as (A & B & C & D).
      rewrite firstn_app, skipn_app, A, Nat.sub_diag, firstn_all2, skipn_all2 by lia. cbn. rewrite app_nil_r. repeat split; assumption.
Qed.
Print Assumptions C99_complete_basis.

(** C99: for real symmetric integrals the states of different energies are
    orthogonal. *)
Theorem C99_orthogonal n na nb (ha hb Ia Ib Iab : tensor RK) c L M v w E E' :
  integrals_ok n ha hb Ia Ib Iab -> sector_basis n na nb L ->
  symmetric_h n ha -> symmetric_h n hb -> symmetric_I n Ia -> symmetric_I n Ib -> symmetric_I n Iab ->
  ci_matrix (map dpair L) ha hb Ia Ib Iab c = Some M ->
  eigenvector M v E -> eigenvector M w E' -> E <> E' ->
  inner (n + n) (combination L v) (combination L w) = 0%R.
Proof.
  intros HI S A1 A2 A3 A4 A5 EM Q Q' NE. rewrite (ci_rows RK n na nb ha hb Ia Ib Iab c HI L S) in EM. injection EM as <-.
  assert (Lv : List.length v = List.length L) by (rewrite (eig_len RK _ _ _ Q); apply rows_len).
  assert (Lw : List.length w = List.length L) by (rewrite (eig_len RK _ _ _ Q'); apply rows_len).
  destruct (quad RK n na nb ha hb Ia Ib Iab c L v w S Lv Lw) as [_ <-].
  exact (orth n na nb ha hb Ia Ib Iab c L v w E E' S A1 A2 A3 A4 A5 Q Q' NE).
Qed.
Print Assumptions C99_orthogonal.

(** C99: the CIS and CISD examples.  The energies of both lie above every bound
    of the energy; a bound of the CISD form, its lowest eigenvalue for one, lies
    below the reference energy and below all CIS states. *)
Theorem C99_examples n na nb (ha hb I : tensor RK) c :
  (na <= n)%nat -> (nb <= n)%nat -> integrals_ok n ha hb I I I ->
  let H := hamiltonian n ha hb I I I c in
  let ref := (aufbau n na ++ aufbau n nb) in
  exists Ms Msd,
    cis_example n na nb ha hb I c = Some Ms /\ cisd_example n na nb ha hb I c = Some Msd /\
    (forall e, energy_bound n na nb H e ->
       form_bound (List.length Msd) (mat_vec Msd) e /\
       (forall v E, eigenvector Ms v E -> nonzero v -> (e <= E)%R) /\
       (forall v E, eigenvector Msd v E -> nonzero v -> (e <= E)%R)) /\
    (forall e, form_bound (List.length Msd) (mat_vec Msd) e ->
       (e <= H ref ref)%R /\
       (forall v E, eigenvector Ms v E -> nonzero v -> (e <= E)%R) /\
       (forall v E, eigenvector Msd v E -> nonzero v -> (e <= E)%R)).
Proof.
  intros Na Nb HI H ref.
  destruct (ucis_singles n na nb) as (L & EL & ND & InL).
  destruct (ucisd_ok n na nb) as (L' & EL' & ND' & Hd & InL'). apply NoDup_map_inv in ND'.
  assert (S' : sector_basis n na nb L').
  { split; [exact ND'|]. intros x Ix. apply InL' in Ix as (ka & kb & (A1 & A2 & _) & (B1 & B2 & _) & _).
    rewrite aufbau_length in A1, B1. rewrite nel_aufbau in A2, B2 by assumption. repeat split; assumption. }
  assert (Ic : incl L L').
  { intros x Ix. apply InL in Ix as (ka & kb & A & B & C). apply InL'. exists ka, kb. repeat split; try apply A; try apply B. lia. }
  assert (Ir : In (aufbau n na, aufbau n nb) L').
  { destruct L' as [|y L']; [discriminate|]. injection Hd as ->. left. reflexivity. }
  assert (S : sector_basis n na nb L) by (split; [exact ND|intros x Ix; apply S', Ic, Ix]).
  pose proof (ci_rows RK n na nb ha hb I I I c HI L S) as EM. pose proof (ci_rows RK n na nb ha hb I I I c HI L' S') as EM'.
  exists (Hrows RK H L), (Hrows RK H L').
  split; [unfold cis_example; rewrite EL; exact EM|]. split; [unfold cisd_example; rewrite EL'; exact EM'|].
  assert (LM : List.length (Hrows RK H L') = List.length L') by apply rows_len. rewrite LM.
  assert (X : forall e, form_bound (List.length L') (mat_vec (Hrows RK H L')) e ->
    (e <= H ref ref)%R /\
       (forall v E, eigenvector (Hrows RK H L) v E -> nonzero v -> (e <= E)%R) /\
       (forall v E, eigenvector (Hrows RK H L') v E -> nonzero v -> (e <= E)%R)).
  { intros e B. destruct (C99_larger_basis n na nb ha hb I I I c L L' _ _ e HI S' ND Ic EM EM' B) as (_ & X1 & _).
    destruct (C99_larger_basis n na nb ha hb I I I c L' L' _ _ e HI S' ND' (incl_refl _) EM' EM' B) as (_ & X2 & X3).
    split; [exact (X3 _ Ir)|]. split; [exact X1|exact X2]. }
  split; [|exact X]. intros e B. pose proof (bound_form n na nb ha hb I I I c L' e S' B) as B'. split; [exact B'|].
  destruct (X e B') as (_ & X1 & X2). auto.
Qed.
Print Assumptions C99_examples.

(** C99: when only two excitations are possible, two electrons for one, coupled
    cluster theory is full CI (C60): at a solution of the equations the energy
    <0|H|0> + ucc_energy is an eigenvalue and lies above every bound, too. *)
Theorem C99_ccsd_two_excitations n noa nva nob nvb (ha hb Ia Ib Iab : tensor RK) Fa Fb Iaa Ibb J T1a T1b T2aa T2ab T2bb :
  shp ha = [n; n] -> shp hb = [n; n] -> shp Ia = [n; n; n; n] -> shp Ib = [n; n; n; n] -> shp Iab = [n; n; n; n] ->
  u_hamiltonian (K := RK) n noa nva nob nvb (fun p q => dat ha [p; q]) (fun p q => dat hb [p; q]) (fun p q r s => dat Ia [p; q; r; s])
    (fun p q r s => dat Ib [p; q; r; s]) (fun p q r s => dat Iab [p; q; r; s]) Fa Fb Iaa Ibb J ->
  u_amps_ok noa nva nob nvb T1a T1b T2aa T2ab T2bb ->
  (Nat.min noa nva + Nat.min nob nvb <= 2)%nat ->
  let H := hamiltonian n ha hb Ia Ib Iab c0 in
  let ref := (aufbau n noa ++ aufbau n nob) in
  exists (e : RK) ta tb aa ab bb,
    returns (K := RK) "ucc_energy" [tup [arr T1a; arr T1b]; tup [arr T2aa; arr T2ab; arr T2bb];
      arr (ov Fa); arr (ov Fb); arr (oovv Iaa); arr (oovv Ibb); arr (foovv J)] (numv e) /\
    returns (K := RK) "uccsd_stanton" [py_one_e Fa; py_one_e Fb; py_two_e Iaa; py_two_e Ibb; py_two_e_full J;
        tup [arr T1a; arr T1b]; tup [arr T2aa; arr T2ab; arr T2bb]]
      (tup [tup [arr ta; arr tb]; tup [arr aa; arr ab; arr bb]]) /\
    (u_solved noa nva nob nvb ta tb aa ab bb ->
     (exists M v, (exists b, ucisd_basis n noa nob = Some b /\ ci_matrix b ha hb Ia Ib Iab c0 = Some M) /\
        eigenvector M v (H ref ref + e)%R /\ nonzero v) /\
     forall bound, energy_bound n noa nob H bound -> (bound <= H ref ref + e)%R).
Proof.
  intros Pha Phb PIa PIb PIab HU HT Few H ref. pose proof HU as (Na & Nb & SA & SB & _).
  assert (Inv : forall d, (0 < d)%nat -> (nK RK d * (/ INR d)%R = 1)%K).
  { intros d Hd. assert (E : nK RK d = INR d).
    { clear. induction d as [|d IH]; [reflexivity|]. rewrite S_INR. cbn [nK]. rewrite IH. cbn [cadd c1 RK]. lra. }
    rewrite E. cbn [cmul c1 RK]. apply Rinv_r. apply not_0_INR. lia. }
  destruct (ucisd_ok n noa nob) as (L0 & E0 & _).
  destruct (order2 RK (fun d => (/ INR d)%R) Inv n noa nva nob nvb Na Nb T1a T1b T2aa T2ab T2bb HT _ E0) as (L & C & Eb & ND & Hd & InL & EC & HC).
  destruct (cc_ci RK n noa nva nob nvb ha hb Ia Ib Iab Pha Phb PIa PIb PIab Fa Fb Iaa Ibb J HU T1a T1b T2aa T2ab T2bb HT (fun d => (/ INR d)%R) Inv
      2 L C ND InL Hd HC) as (e & ta & tb & aa & ab & bb & Hc & He & HR & EH & LH & LC & C0 & _ & _ & _ & R3).
  exists e, ta, tb, aa, ab, bb. split; [exact He|]. split; [exact HR|]. intros S.
  assert (HI : integrals_ok n ha hb Ia Ib Iab) by (repeat split; assumption).
  assert (SB' : sector_basis n noa nob L).
  { split; [exact ND|]. intros x Ix. apply InL in Ix as (ka & kb & (A1 & A2 & _) & (B1 & B2 & _) & _).
    rewrite aufbau_length in A1, B1. rewrite nel_aufbau in A2, B2 by lia. repeat split; assumption. }
  assert (Q : eigenvector (Hrows RK H L) C (H ref ref + e)%R).
  { unfold eigenvector. pose proof (proj2 (R3 eq_refl Few) S) as Q. etransitivity; [|exact Q].
    rewrite (H_on_vec_ok RK n noa nob L C ha hb Ia Ib Iab Pha Phb PIa PIb PIab SA SB (proj2 SB') LC) in EH. injection EH as <-.
    unfold mat_vec, Hrows, project. rewrite map_map. apply map_ext. intros x. exact (combine_swap RK (fun y => H (lst x) (lst y)) L C LC). }
  assert (NZ : nonzero C).
  { exists (nth 0 C c0). split; [apply nth_In; rewrite LC; destruct L; [discriminate Hd|cbn; lia]|]. rewrite C0. cbn [c1 RK]. lra. }
  pose proof (ci_rows RK n noa nob ha hb Ia Ib Iab c0 HI L SB') as EM.
  split.
  - exists (Hrows RK H L), C. split; [|split; assumption]. exists (map dpair L0). split; [exact E0|]. rewrite Eb. exact EM.
  - intros bound B. exact (C99_lower_bound n noa nob ha hb Ia Ib Iab c0 L _ C _ bound HI SB' EM Q NZ B).
Qed.
Print Assumptions C99_ccsd_two_excitations.

(** Two electrons in two orbitals: the lowest CISD energy, -1, is the exact bound,
    the reference energy is 0 and the CIS energies are -1 and 3; the basis of the
    CISD matrix is complete. *)
Section Example.
  Variable K : cring.
  Variables x y z : K.
  Local Open Scope K_scope.
  Add Ring KrPV : (c_th K).
  Definition ex_h : tensor K := mkT (K := K) [2; 2]%nat (fun ix => match ix with [0; 0]%nat => x | _ => 0 end).
  Definition ex_I : tensor K := mkT (K := K) [2; 2; 2; 2]%nat (fun ix => match ix with
    | [0; 0; 0; 0]%nat | [0; 1; 0; 1]%nat | [1; 0; 1; 0]%nat => y
    | [1; 1; 1; 1]%nat | [0; 0; 1; 1]%nat | [1; 1; 0; 0]%nat | [0; 1; 1; 0]%nat | [1; 0; 0; 1]%nat => z
    | _ => 0
    end).
  Lemma ex_cisd : cisd_example 2 1 1 ex_h ex_h ex_I 1
    = Some [[1 + x + x + y; 0; 0; z]; [0; 1 + x + y; z; 0]; [0; z; 1 + x + y; 0]; [z; 0; 0; 1 + z]].
  Proof.
    cbv -[cadd cmul csub copp c0 c1 chalf car].
    repeat match goal with |- Some _ = Some _ => f_equal | |- _ :: _ = _ :: _ => f_equal end; ring.
  Qed.
  Lemma ex_cis : cis_example 2 1 1 ex_h ex_h ex_I 1 = Some [[1 + x + y; z]; [z; 1 + x + y]].
  Proof.
    cbv -[cadd cmul csub copp c0 c1 chalf car].
    repeat match goal with |- Some _ = Some _ => f_equal | |- _ :: _ = _ :: _ => f_equal end; ring.
  Qed.
  Lemma ex_ok : integrals_ok 2 ex_h ex_h ex_I ex_I ex_I /\ symmetric_h 2 ex_h /\ symmetric_I 2 ex_I.
  Proof.
    assert (P : pair_symmetric 2 (fun p q r s => dat ex_I [p; q; r; s])).
    { intros p q r s Hp Hq Hr Hs. destruct p as [|[|p]], q as [|[|q]], r as [|[|r]], s as [|[|s]]; try lia; reflexivity. }
    split; [repeat split; exact P|]. split.
    - intros p q Hp Hq. destruct p as [|[|p]], q as [|[|q]]; try lia; reflexivity.
    - intros p q r s Hp Hq Hr Hs. destruct p as [|[|p]], q as [|[|q]], r as [|[|r]], s as [|[|s]]; try lia; reflexivity.
  Qed.
End Example.
Example C99_example :
  let h := ex_h RK (-1)%R in let I := ex_I RK 1%R 2%R in
  integrals_ok 2 h h I I I /\ symmetric_h 2 h /\ symmetric_I 2 I /\
  (exists M, cisd_example 2 1 1 h h I 1%R = Some M /\ List.length M = 4%nat /\
     form_bound 4 (mat_vec M) (-1)%R /\
     eigenvector M [1; 0; 0; -1/2]%R (-1)%R /\ eigenvector M [1; 0; 0; 2]%R 4%R /\ nonzero [1; 0; 0; -1/2]%R) /\
  (exists M, cis_example 2 1 1 h h I 1%R = Some M /\ eigenvector M [1; 1]%R 3%R /\ eigenvector M [1; -1]%R (-1)%R) /\
  (exists L, ucisd_basis 2 1 1 = Some (map dpair L) /\ sector_basis 2 1 1 L /\ forall x, sector 2 1 1 x -> In x L).
Proof.
  intros h I. destruct (ex_ok RK (-1)%R 1%R 2%R) as (A & B & C). split; [exact A|]. split; [exact B|]. split; [exact C|]. split; [|split].
  - eexists. split; [exact (ex_cisd RK (-1)%R 1%R 2%R)|]. split; [reflexivity|]. split; [|split; [|split]].
    + intros v Hv. destruct v as [|p [|q [|r [|s [|u v]]]]]; try discriminate Hv. cbn.
      pose proof (Rle_0_sqr (p + 2 * s)). pose proof (Rle_0_sqr (q + r)). unfold Rsqr in *. lra.
    + unfold eigenvector. cbn. repeat match goal with |- _ :: _ = _ :: _ => f_equal end; lra.
    + unfold eigenvector. cbn. repeat match goal with |- _ :: _ = _ :: _ => f_equal end; lra.
    + exists 1%R. split; [left; reflexivity|lra].
  - eexists. split; [exact (ex_cis RK (-1)%R 1%R 2%R)|].
    split; unfold eigenvector; cbn; repeat match goal with |- _ :: _ = _ :: _ => f_equal end; lra.
  - destruct (ucisd_ok 2 1 1) as (L & EL & ND & _ & InL). apply NoDup_map_inv in ND. exists L. split; [exact EL|]. split; [split; [exact ND|]|].
    + intros x Ix. apply InL in Ix as (ka & kb & (A1 & A2 & _) & (B1 & B2 & _) & _). repeat split; assumption.
    + intros [s t] (L1 & L2 & N1 & N2). cbn [fst snd] in *. apply InL.
      exists (ndiff (aufbau 2 1) s / 2)%nat, (ndiff (aufbau 2 1) t / 2)%nat.
      destruct s as [|s0 [|s1 [|]]]; try discriminate L1. destruct t as [|t0 [|t1 [|]]]; try discriminate L2.
      destruct s0, s1; try discriminate N1; destruct t0, t1; try discriminate N2; repeat split; cbn; lia.
Qed.
(** The same integrals meet the hypotheses of [C99_ccsd_two_excitations]. *)
Example C99_ccsd_example :
  let h := ex_h RK (-1)%R in let I := ex_I RK 1%R 2%R in
  (exists Fa Fb Iaa Ibb J, u_hamiltonian (K := RK) 2 1 1 1 1 (fun p q => dat h [p; q]) (fun p q => dat h [p; q])
     (fun p q r s => dat I [p; q; r; s]) (fun p q r s => dat I [p; q; r; s]) (fun p q r s => dat I [p; q; r; s]) Fa Fb Iaa Ibb J) /\
  u_amps_ok (K := RK) 1 1 1 1 (tzeros RK [1; 1]%nat) (tzeros RK [1; 1]%nat) (tzeros RK [1; 1; 1; 1]%nat)
    (mkT (K := RK) [1; 1; 1; 1]%nat (fun _ => (-1/2)%R)) (tzeros RK [1; 1; 1; 1]%nat) /\
  (Nat.min 1 1 + Nat.min 1 1 <= 2)%nat.
Proof.
  intros h I. destruct (ex_ok RK (-1)%R 1%R 2%R) as ((_ & _ & _ & _ & _ & S & _) & _).
  split; [do 5 eexists; exact (build_ok RK 2 1 1 1 1 _ _ _ _ _ eq_refl eq_refl S S)|].
  split; [|cbn; lia]. assert (Z : t2_ok (K := RK) 1 1 (tzeros RK [1; 1; 1; 1]%nat)) by (split; [reflexivity|split; intros i j k l _; exact (eq_sym Ropp_0)]).
  split; [reflexivity|]. split; [reflexivity|]. split; [exact Z|]. split; [reflexivity|exact Z].
Qed.
