(** The quadratic form of a CI matrix of complex Hermitian integrals. *)
From Coq Require Import List Bool Arith Lia Reals Lra.
From Verif Require Import Scalar Tensor CIModel CIRep CISpec CIFacts CIBases CIFock CIMatrix CIVec CIExp FockStates UFockSpec CCCI ExModel ExSpec RoundSpec VarSpec Var NegCSpec NegC VarCSpec.
Import ListNotations.
Local Open Scope list_scope.
Local Open Scope R_scope.

Lemma conj_chalf : conj_of (chalf : CK) = chalf.
Proof. apply injective_projections; [reflexivity|apply Ropp_0]. Qed.
Lemma conj_zero : conj_of (c0 : CK) = c0.
Proof. apply injective_projections; [reflexivity|apply Ropp_0]. Qed.
Lemma conj_sgn g : conj_of (sgn g : CK) = sgn g.
Proof. destruct g; apply injective_projections; cbn; lra. Qed.
Lemma conj_braket bra ops ket : conj_of (braket (K := CK) bra ops ket) = braket bra ops ket.
Proof. unfold braket. destruct (act ops ket) as [[g t]|]; [destruct (det_eqb t bra)|]; [apply conj_sgn| |]; apply conj_zero. Qed.

Lemma H_adjoint n (c : CK) ha hb Ia Ib Iab bra ket : conj_of c = c ->
  (forall p q, (p < n)%nat -> (q < n)%nat -> ha p q = conj_of (ha q p)) -> (forall p q, (p < n)%nat -> (q < n)%nat -> hb p q = conj_of (hb q p)) ->
  (forall p q r s, (p < n)%nat -> (q < n)%nat -> (r < n)%nat -> (s < n)%nat -> Ia p q r s = conj_of (Ia r s p q)) ->
  (forall p q r s, (p < n)%nat -> (q < n)%nat -> (r < n)%nat -> (s < n)%nat -> Ib p q r s = conj_of (Ib r s p q)) ->
  (forall p q r s, (p < n)%nat -> (q < n)%nat -> (r < n)%nat -> (s < n)%nat -> Iab p q r s = conj_of (Iab r s p q)) ->
  H_spatial (K:=CK) n c ha hb Ia Ib Iab bra ket = conj_of (H_spatial n c ha hb Ia Ib Iab ket bra).
Proof.
  intros Ec Sa Sb Ssa Ssb Sab. unfold H_spatial.
  rewrite !conj_add, !conj_mul, Ec, conj_chalf, conj_braket.
  f_equal; [f_equal; [f_equal; [f_equal; [f_equal|]|]|]|].
  - f_equal. apply (braket_dag CK bra [] ket).
  - rewrite sumN_swap, conj_sum. apply sumN_ext; intros. rewrite conj_sum. apply sumN_ext; intros.
    rewrite conj_mul, conj_braket, braket_dag, Sa by auto. reflexivity.
  - rewrite sumN_swap, conj_sum. apply sumN_ext; intros. rewrite conj_sum. apply sumN_ext; intros.
    rewrite conj_mul, conj_braket, braket_dag, Sb by auto. reflexivity.
  - f_equal. etransitivity; [apply (S4_transpose CK n (fun p q r s => cmul (Ia p q r s) (braket bra [Cre p; Cre q; Ann s; Ann r] ket)))|].
    unfold S4. do 4 (rewrite conj_sum; apply sumN_ext; intros). rewrite conj_mul, conj_braket, braket_dag, Ssa by auto. reflexivity.
  - f_equal. etransitivity; [apply (S4_transpose CK n (fun p q r s => cmul (Ib p q r s) (braket bra [Cre (n+p); Cre (n+q); Ann (n+s); Ann (n+r)] ket)))|].
    unfold S4. do 4 (rewrite conj_sum; apply sumN_ext; intros). rewrite conj_mul, conj_braket, braket_dag, Ssb by auto. reflexivity.
  - etransitivity; [apply (S4_transpose CK n (fun p q r s => cmul (Iab p q r s) (braket bra [Cre p; Cre (n+q); Ann (n+s); Ann r] ket)))|].
    unfold S4. do 4 (rewrite conj_sum; apply sumN_ext; intros). rewrite conj_mul, conj_braket, braket_dag, Sab by auto. reflexivity.
Qed.

Lemma comb_conj L (v : list CK) s : combination L (map conj_of v) s = conj_of (combination L v s).
Proof.
  unfold combination. revert v. induction L as [|x L IH]; intros [|a v]; try (symmetry; apply conj_zero).
  cbn [combine map lsum fst snd]. rewrite conj_add, IH. f_equal. destruct det_eqb; [reflexivity|symmetry; apply conj_zero].
Qed.
Lemma dot_conj (v w : list CK) : dot (map conj_of v) (map conj_of w) = conj_of (dot v w).
Proof.
  unfold dot. revert w. induction v as [|a v IH]; intros [|b w]; try (symmetry; apply conj_zero).
  cbn [combine map lsum fst snd]. rewrite conj_add, conj_mul, IH. reflexivity.
Qed.
Lemma dot_self (v : list CK) : snd (dot (map conj_of v) v) = 0 /\ 0 <= fst (dot (map conj_of v) v) /\ (nonzero_c v -> 0 < fst (dot (map conj_of v) v)).
Proof.
  induction v as [|a v (I1 & I2 & I3)]; [split; [reflexivity|]; split; [cbn; lra|]; intros (x & [] & _)|].
  change (dot (map conj_of (a :: v)) (a :: v)) with (conj_of a * a + dot (map conj_of v) v)%K.
  set (d := dot (map conj_of v) v) in *. clearbody d.
  assert (F : fst (conj_of a * a + d)%K = modulus2 a + fst d) by (unfold modulus2; cbn; ring).
  assert (S : snd (conj_of a * a + d)%K = snd d) by (cbn; ring).
  rewrite F, S. pose proof (m2_pos a). split; [exact I1|]. split; [lra|]. intros (x & [<-|I] & N); [|pose proof (I3 (ex_intro _ x (conj I N))); lra].
  assert (modulus2 a <> 0) by (intros Z; apply N, m2_0, Z). lra.
Qed.

Section Complex.
  Variables (n na nb : nat) (ha hb Ia Ib Iab : tensor CK) (c : CK).
  Notation H := (hamiltonian n ha hb Ia Ib Iab c).
  Lemma quad_c L (v w : list CK) : sector_basis n na nb L -> List.length v = List.length L -> List.length w = List.length L ->
    dot (map conj_of v) (mat_vec (K := CK) (Hrows CK H L) w) = sandwich (n + n) H (bra (combination L v)) (combination L w) /\
    dot (map conj_of v) w = inner (n + n) (bra (combination L v)) (combination L w).
  Proof.
    intros S Hv Hw. destruct (quad CK n na nb ha hb Ia Ib Iab c L (map conj_of v) w S ltac:(rewrite map_length; exact Hv) Hw) as [A B].
    rewrite A, B. split; [apply sandwich_ext|apply inner_ext]; intros; trivial; apply comb_conj.
  Qed.
  Lemma above_c (v : list CK) (M : list (list CK)) (e : R) (E : CK) : nonzero_c v -> eigenvector M v E ->
    e * fst (dot (map conj_of v) v) <= fst (dot (map conj_of v) (mat_vec M v)) -> e <= fst E.
  Proof.
    intros N Q B. rewrite Q in B. rewrite (dot_scale CK (map conj_of v) v E) in B. destruct (dot_self v) as (S0 & _ & P). specialize (P N).
    set (d := dot (map conj_of v) v) in *. assert (F : fst (E * d)%K = fst E * fst d).
    { transitivity (fst E * fst d - snd E * snd d); [reflexivity|]. rewrite S0, Rmult_0_r. apply Rminus_0_r. }
    rewrite F in B. apply (Rmult_le_reg_r (fst d)); assumption.
  Qed.
  Lemma bound_form_c L e : sector_basis n na nb L -> energy_bound_c n na nb H e -> form_bound_c (List.length L) (mat_vec (K := CK) (Hrows CK H L)) e.
  Proof.
    intros S B v Hv. destruct (quad_c L v v S Hv Hv) as [-> ->]. apply B. apply comb_sector. apply S.
  Qed.
  Lemma bra_ext (f g : det -> CK) s : f s = g s -> bra f s = bra g s.
  Proof. unfold bra. now intros ->. Qed.
  Lemma sub_form_c L L' e : sector_basis n na nb L' -> NoDup L -> incl L L' ->
    form_bound_c (List.length L') (mat_vec (K := CK) (Hrows CK H L')) e -> form_bound_c (List.length L) (mat_vec (K := CK) (Hrows CK H L)) e.
  Proof.
    intros S' N I B v Hv. assert (S : sector_basis n na nb L) by (split; [exact N|intros x Ix; apply S', I, Ix]).
    destruct (quad_c L v v S Hv Hv) as [-> ->].
    set (v' := map (fun x => combination L v (lst x)) L').
    assert (E : forall s, combination L' v' s = combination L v s).
    { intros s. apply comb_tab; [apply (sb_nd n na nb _ S')|].
      destruct (in_dec (list_eq_dec Bool.bool_dec) s (map lst L')) as [J|J]; [left; exact J|right]. apply comb_out. intros J'. apply J.
      apply in_map_iff in J' as (x & <- & Ix). apply in_map, I, Ix. }
    assert (Lv' : List.length v' = List.length L') by apply map_length.
    pose proof (B v' Lv') as B'. destruct (quad_c L' v' v' S' Lv' Lv') as [Q1 Q2]. rewrite Q1, Q2 in B'.
    rewrite (inner_ext CK _ _ (bra (combination L v)) _ (combination L v)) in B' by (intros; try apply bra_ext; apply E).
    rewrite (sandwich_ext CK _ _ _ (bra (combination L v)) _ (combination L v)) in B' by (intros; try apply bra_ext; apply E). exact B'.
  Qed.
  Lemma form_energy_c L e : sector_basis n na nb L -> (forall x, sector n na nb x -> In x L) ->
    form_bound_c (List.length L) (mat_vec (K := CK) (Hrows CK H L)) e -> energy_bound_c n na nb H e.
  Proof.
    intros S Cp B psi Hp. set (v := map (fun x => psi (lst x)) L). assert (Hv : List.length v = List.length L) by apply map_length.
    assert (E : forall s, List.length s = (n + n)%nat -> psi s = combination L v s).
    { intros s Ls. symmetry. apply comb_tab; [apply (sb_nd n na nb _ S)|].
      destruct (in_dec (list_eq_dec Bool.bool_dec) s (map lst L)) as [J|J]; [left; exact J|right].
      destruct (Req_dec (modulus2 (psi s)) 0) as [Z|Z]; [apply m2_0; exact Z|]. destruct (state_complete CK n na nb L psi Cp Hp s Ls J).
      intros Y. apply Z, m2_0. exact Y. }
    rewrite (inner_ext CK _ _ (bra (combination L v)) _ (combination L v)) by (intros; try apply bra_ext; auto).
    rewrite (sandwich_ext CK _ _ _ (bra (combination L v)) _ (combination L v)) by (intros; try apply bra_ext; auto).
    destruct (quad_c L v v S Hv Hv) as [<- <-]. apply B. exact Hv.
  Qed.

  Hypothesis Hh : hermitian_integrals n ha hb Ia Ib Iab c.
  Lemma H_herm s t : H s t = conj_of (H t s).
  Proof.
    destruct Hh as (A0 & A1 & A2 & A3 & A4 & A5). apply H_adjoint; auto.
    apply injective_projections; [reflexivity|]. change (- imaginary_part c = imaginary_part c). rewrite A0. apply Ropp_0.
  Qed.
  Lemma form_adj L (v w : list CK) : List.length v = List.length L -> List.length w = List.length L ->
    dot (map conj_of v) (mat_vec (K := CK) (Hrows CK H L) w) = conj_of (dot (map conj_of w) (mat_vec (K := CK) (Hrows CK H L) v)).
  Proof.
    intros Hv Hw. rewrite <- dot_conj. rewrite map_map. rewrite (map_ext _ (fun x => x) conj_conj), map_id.
    assert (X : map conj_of (mat_vec (K := CK) (Hrows CK H L) v) = mat_vec (K := CK) (Hrows CK (fun s t => H t s) L) (map conj_of v)).
    { unfold mat_vec, Hrows. rewrite !map_map. apply map_ext. intros x.
      change (conj_of (dot (map (fun y => H (lst x) (lst y)) L) v) = dot (map (fun y => H (lst y) (lst x)) L) (map conj_of v)).
      rewrite <- dot_conj, map_map. f_equal. apply map_ext. intros y. symmetry. apply H_herm. }
    rewrite X. 
    assert (Hv' : List.length (map conj_of v) = List.length L) by (rewrite map_length; exact Hv).
    revert Hv'. generalize (map conj_of v) as u. intros u Hu.
    unfold mat_vec, Hrows. rewrite !map_map. rewrite (dot_SL CK u _ L Hu), (dot_SL CK w _ L Hw).
    rewrite (SL_ext CK (combine L u) _ (fun p => SL (combine L w) (fun q => cmul (snd p) (cmul (H (lst (fst p)) (lst (fst q))) (snd q))))).
    2: { intros p _. rewrite (combine_swap CK _ L w Hw), <- SL_mul. reflexivity. }
    rewrite SL_swap. apply SL_ext. intros q Iq. rewrite (combine_swap CK _ L u Hu), <- SL_mul. apply SL_ext. intros p Ip.
    set (a := snd p). set (b := snd q). set (h := H _ _). clearbody a b h. apply injective_projections; cbn; ring.
  Qed.
  Lemma real_energy L (v : list CK) E : eigenvector (K := CK) (Hrows CK H L) v E -> nonzero_c v -> snd E = 0.
  Proof.
    intros Q N. pose proof (eig_len CK _ _ _ Q) as Lv. rewrite rows_len in Lv.
    pose proof (form_adj L v v Lv Lv) as A. rewrite Q, (dot_scale CK) in A.
    destruct (dot_self v) as (S0 & _ & P). specialize (P N). set (d := dot (map conj_of v) v) in *. clearbody d.
    apply (f_equal snd) in A. change (fst E * snd d + snd E * fst d = - (fst E * snd d + snd E * fst d)) in A. rewrite S0 in A.
    assert (Z : snd E * fst d = 0) by lra. apply Rmult_integral in Z as [Z|Z]; [exact Z|lra].
  Qed.
  Lemma orth_c L (v w : list CK) E E' : eigenvector (K := CK) (Hrows CK H L) v E -> eigenvector (K := CK) (Hrows CK H L) w E' ->
    nonzero_c v -> E <> E' -> dot (map conj_of v) w = (0, 0).
  Proof.
    intros Q Q' Nv NE. pose proof (eig_len CK _ _ _ Q) as Lv. pose proof (eig_len CK _ _ _ Q') as Lw. rewrite rows_len in Lv, Lw.
    pose proof (real_energy L v E Q Nv) as RE.
    pose proof (form_adj L v w Lv Lw) as A. rewrite Q, Q', !(dot_scale CK), conj_mul in A.
    assert (B : conj_of (dot (map conj_of w) v) = dot (map conj_of v) w).
    { rewrite <- dot_conj, map_map, (map_ext _ (fun x => x) conj_conj), map_id. apply dot_comm. }
    rewrite B in A. set (d := dot (map conj_of v) w) in *. clearbody d.
    assert (CE : conj_of E = E) by (apply injective_projections; [reflexivity|change (- snd E = snd E); rewrite RE; apply Ropp_0]). rewrite CE in A.
    destruct (Req_dec (modulus2 d) 0) as [Z|Z]; [apply m2_0; exact Z|]. exfalso. apply NE.
    assert (D : modulus2 (E' - E)%K * modulus2 d = 0).
    { transitivity (modulus2 (E' * d - E * d)%K); [unfold modulus2; cbn; ring|]. rewrite A. unfold modulus2. cbn. ring. }
    apply Rmult_integral in D as [D|D]; [|contradiction]. apply m2_0 in D.
    pose proof (f_equal fst D) as D1. pose proof (f_equal snd D) as D2.
    change (fst E' - fst E = 0) in D1. change (snd E' - snd E = 0) in D2. apply injective_projections; lra.
  Qed.
End Complex.
