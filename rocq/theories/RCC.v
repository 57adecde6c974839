(** Restricted coupled cluster theory in Fock space (RFockSpec.v): the operators
    written with spin-summed generators act as those of UFockSpec.v. *)
From Coq Require Import List Bool Arith ZArith Lia Ring String Factorial.
From Verif Require Import Scalar Tensor PySyntax PySem CCProg CISpec CIFacts CIStrings CIFock CIMatrix CILemmas CIVec CIExpSpec CIExp
  CCSpec CCEquiv CCFockSpec FockStates FockExp FockT FockH FockSchr FockPerm NpModel SpinModel SpinSpec SpinFacts SpinRound
  UFockSpec UFock UFockOps UCCSchr CCSpin CCRest CCCI RFockSpec.
Import ListNotations.
Local Open Scope list_scope.

(** operators that act in the same way on states of N orbitals *)
Section Same.
  Variable K : cring.
  Local Open Scope K_scope.
  Add Ring KrRS : (c_th K).
  Variable N : nat.
  Definition acts_same (A B : list (K * list op)) : Prop := forall psi t, List.length t = N -> eos A psi t = eos B psi t.
  Lemma same_mul A A' B B' : acts_same A A' -> acts_same B B' -> acts_same (opmul A B) (opmul A' B').
  Proof.
    intros HA HB psi t L. rewrite !eos_opmul, HA by assumption. apply eos_ext. intros u Lu. apply HB. congruence.
  Qed.
  Lemma same_pow A B k : acts_same A B -> acts_same (opow A k) (opow B k).
  Proof.
    intros S. induction k as [|k IH]; [intros psi t _; reflexivity|]. cbn [opow]. apply same_mul; assumption.
  Qed.
  Lemma same_exp A B inv M : acts_same A B -> acts_same (opexp inv M A) (opexp inv M B).
  Proof.
    intros S psi t L. rewrite !eos_exp. apply sumN_ext. intros k _. f_equal. apply same_pow; assumption.
  Qed.
  Lemma same_amp A B s t : acts_same A B -> List.length s = N -> amp s A t = amp s B t.
  Proof. intros S L. rewrite !amp_eos. apply S, L. Qed.

  (** operators that commute *)
  Definition commute (A B : list (K * list op)) : Prop :=
    forall psi t, List.length t = N -> eos A (eos B psi) t = eos B (eos A psi) t.
  Lemma commute_pow A B k : commute A B -> commute A (opow B k).
  Proof.
    intros C. induction k as [|k IH]; intros psi t L.
    - rewrite eos_pow0. apply eos_ext. intros. apply eos_pow0.
    - rewrite eos_powS. rewrite (eos_ext K A _ (eos B (eos (opow B k) psi))) by (intros; apply eos_powS).
      rewrite C by auto. apply eos_ext. intros u Lu. apply IH. congruence.
  Qed.
  Lemma commute_exp A B inv M : commute A B -> commute A (opexp inv M B).
  Proof.
    intros C psi t L. rewrite eos_exp.
    rewrite (eos_ext K A _ (fun u => sumN (S M) (fun k => inv (fact k) * eos (opow B k) psi u))) by (intros; apply eos_exp).
    rewrite eos_sumN. apply sumN_ext. intros k _. rewrite eos_mul, commute_pow by assumption. reflexivity.
  Qed.
  Lemma commute_app A B C : commute A B -> commute A C -> commute A (B ++ C).
  Proof.
    intros HB HC psi t L. rewrite eos_app, <- HB, <- HC, <- eos_add by assumption. apply eos_ext. intros. apply eos_app.
  Qed.
  Lemma commute_mul A B C : commute A B -> commute A C -> commute A (opmul B C).
  Proof.
    intros HB HC psi t L. rewrite eos_opmul. rewrite (eos_ext K A _ (eos B (eos C psi))) by (intros; apply eos_opmul).
    rewrite HB by assumption. apply eos_ext. intros u Lu. apply HC. congruence.
  Qed.
  Lemma commute_scale A B c : commute A B -> commute A (opscale c B).
  Proof.
    intros HB psi t L. rewrite eos_opscale, <- HB, <- eos_mul by assumption. apply eos_ext. intros. apply eos_opscale.
  Qed.
  Lemma commute_nil A : commute A [].
  Proof.
    intros psi t L. rewrite eos_nil. rewrite (eos_ext K A _ (fun u => 0 * psi u)) by (intros; rewrite eos_nil; ring).
    rewrite eos_mul. ring.
  Qed.
  Lemma commute_fm {X} A (f : X -> list (K * list op)) l : (forall x, In x l -> commute A (f x)) -> commute A (flat_map f l).
  Proof.
    induction l as [|x l IH]; intros C; [apply commute_nil|]. cbn [flat_map]. apply commute_app.
    - apply C. left. reflexivity.
    - apply IH. intros y Hy. apply C. right. exact Hy.
  Qed.
End Same.
Arguments acts_same {K}. Arguments commute {K}.

Lemma forall_iff {X} (P Q : X -> Prop) : (forall x, P x <-> Q x) -> (forall x, P x) <-> (forall x, Q x).
Proof. firstorder. Qed.
Lemma imp_iff (A B C : Prop) : (A -> (B <-> C)) -> (A -> B) <-> (A -> C).
Proof. tauto. Qed.

Section Closed.
  Variable K : cring.
  Local Open Scope K_scope.
  Add Ring KrRC : (c_th K).
  Variable n : nat.

  (** *** Products of generators *)
  Lemma W_move psi t p q r s : (q < List.length t)%nat -> (r < List.length t)%nat -> (s < List.length t)%nat ->
    eow [Cre p; Ann r; Cre q; Ann s] psi t = (if Nat.eqb q r then W1 K psi t p s else 0) + W2 K psi t p q r s.
  Proof.
    intros Lq Lr Ls. unfold W1, W2.
    transitivity (eow [Cre p] (fun u => ctr (Ann r) (Cre q) * eow [Ann s] psi u + - (1) * eow [Cre q; Ann r; Ann s] psi u) t).
    - change [Cre p; Ann r; Cre q; Ann s] with ([Cre p] ++ [Ann r; Cre q; Ann s]). rewrite eow_app.
      apply eow_ext. intros u Lu. cbn [eow]. rewrite eo_anti by (cbn [opi]; lia). ring.
    - rewrite eow_add, !eow_mul.
      change (ctr (Ann r) (Cre q) * W1 K psi t p s + - (1) * W2 K psi t p q s r
        = (if Nat.eqb q r then W1 K psi t p s else 0) + W2 K psi t p q r s).
      rewrite (ctr_ac K), (W2_ket K psi t p q r s) by assumption. unfold delta. rewrite (Nat.eqb_sym r q). destruct (Nat.eqb q r); ring.
  Qed.
  Lemma eos_gen psi t p q : eos (generator n p q) psi t = W1 K psi t p q + W1 K psi t (n + p) (n + q).
  Proof. unfold generator, eos, SL. cbn [map lsum fst snd]. unfold W1. ring. Qed.
  Lemma eos_gen2 psi t p q r s : (p < n)%nat -> (q < n)%nat -> (r < n)%nat -> (s < n)%nat -> List.length t = (n + n)%nat ->
    eos (opmul (generator n p r) (generator n q s)) psi t
    = (if Nat.eqb q r then W1 K psi t p s + W1 K psi t (n + p) (n + s) else 0)
      + W2 K psi t p q r s + W2 K psi t (n + p) (n + q) (n + r) (n + s)
      + W2 K psi t p (n + q) r (n + s) + W2 K psi t (n + p) q (n + r) s.
  Proof.
    intros Lp Lq Lr Ls Lt. unfold generator, opmul, eos, SL. cbn [flat_map map app lsum fst snd].
    rewrite !W_move by lia.
    destruct (Nat.eqb_spec (n + q) r); [lia|]. destruct (Nat.eqb_spec q (n + r)); [lia|].
    destruct (Nat.eqb_spec q r), (Nat.eqb_spec (n + q) (n + r)); try lia; ring.
  Qed.

  Lemma SL_fm2 {A} (x : nat -> nat -> list A) a b (f : A -> K) :
    SL (flat_map (fun p => flat_map (fun q => x p q) (seq 0 b)) (seq 0 a)) f = S2 a b (fun p q => SL (x p q) f).
  Proof. rewrite SL_fm_seq. apply sumN_ext. intros p _. apply SL_fm_seq. Qed.
  Lemma SL_fm4 {A} (x : nat -> nat -> nat -> nat -> list A) a b c d (f : A -> K) :
    SL (flat_map (fun p => flat_map (fun q => flat_map (fun r => flat_map (fun s => x p q r s) (seq 0 d)) (seq 0 c)) (seq 0 b)) (seq 0 a)) f
    = S4 a b c d (fun p q r s => SL (x p q r s) f).
  Proof.
    rewrite SL_fm_seq. apply sumN_ext. intros p _. rewrite SL_fm_seq. apply sumN_ext. intros q _.
    rewrite SL_fm_seq. apply sumN_ext. intros r _. apply SL_fm_seq.
  Qed.
  Lemma S2_add a b F G : S2 a b (fun p q => F p q + G p q) = S2 a b F + S2 a b G :> K.
  Proof. unfold S2. rewrite <- sumN_add. apply sumN_ext. intros p _. apply sumN_add. Qed.

  (** the sum over both spins of the ends of a pair *)
  Lemma mixed_sum a b (v o : nat -> nat) (d : nat -> nat -> nat -> nat -> K) psi t :
    List.length t = (n + n)%nat -> (forall p, (p < a)%nat -> (v p < n)%nat) -> (forall p, (p < b)%nat -> (o p < n)%nat) ->
    (forall p q r s, (p < a)%nat -> (q < a)%nat -> (r < b)%nat -> (s < b)%nat -> d p q r s = d q p s r) ->
    S4 a a b b (fun p q r s => chalf * d p q r s * (W2 K psi t (v p) (n + v q) (o r) (n + o s) + W2 K psi t (n + v p) (v q) (n + o r) (o s)))
    = S4 a a b b (fun p q r s => d p q r s * W2 K psi t (v p) (n + v q) (o r) (n + o s)).
  Proof.
    intros Lt Lv Lo Sy.
    transitivity (S4 a a b b (fun p q r s => chalf * d p q r s * W2 K psi t (v p) (n + v q) (o r) (n + o s))
      + S4 a a b b (fun p q r s => chalf * d p q r s * W2 K psi t (n + v p) (v q) (n + o r) (o s))).
    { rewrite <- S4_add. apply S4_ext. intros. ring. }
    rewrite (S4_12 K a a b b (fun p q r s => chalf * d p q r s * W2 K psi t (n + v p) (v q) (n + o r) (o s))).
    rewrite (S4_34 K a a b b (fun p q r s => chalf * d q p r s * W2 K psi t (n + v q) (v p) (n + o r) (o s))), <- S4_add.
    apply S4_ext. intros p q r s Lp Lq Lr Ls. pose proof (Lv p Lp). pose proof (Lv q Lq). pose proof (Lo r Lr). pose proof (Lo s Ls).
    rewrite (W2_bra K psi t (n + v q) (v p)), (W2_ket K psi t (v p) (n + v q) (n + o s) (o r)) by lia.
    rewrite (Sy q p s r) by assumption. transitivity ((chalf + chalf) * (d p q r s * W2 K psi t (v p) (n + v q) (o r) (n + o s))); [ring|].
    rewrite half2. ring.
  Qed.

  (** *** The Hamiltonian *)
  Lemma same_H h I : pair_symmetric n I -> acts_same (n + n) (H_closed (K := K) n h I) (H_spatial_op n h h I I I).
  Proof.
    intros SI psi t Lt. unfold H_closed, H_spatial_op. rewrite !eos_app, !eos_one, !eos_two.
    unfold eos at 1 2. rewrite SL_fm2, SL_fm4.
    rewrite (S2_ext K _ _ _ (fun p q => h p q * W1 K psi t p q + h p q * W1 K psi t (n + p) (n + q))).
    2:{ intros p q _ _. change (eos (opscale (h p q) (generator n p q)) psi t = h p q * W1 K psi t p q + h p q * W1 K psi t (n + p) (n + q)).
        rewrite eos_opscale, eos_gen. ring. }
    rewrite (S4_ext K _ _ _ _ _ (fun p q r s => chalf * I p q r s * W2 K psi t p q r s + chalf * I p q r s * W2 K psi t (n + p) (n + q) (n + r) (n + s)
      + chalf * I p q r s * (W2 K psi t p (n + q) r (n + s) + W2 K psi t (n + p) q (n + r) s))).
    2:{ intros p q r s Lp Lq Lr Ls.
        match goal with |- SL ?A _ = _ => change (eos A psi t = chalf * I p q r s * W2 K psi t p q r s + chalf * I p q r s * W2 K psi t (n + p) (n + q) (n + r) (n + s)
          + chalf * I p q r s * (W2 K psi t p (n + q) r (n + s) + W2 K psi t (n + p) q (n + r) s)) end.
        rewrite eos_opscale, eos_app, eos_gen2 by assumption. destruct (Nat.eqb q r).
        - rewrite eos_opscale, eos_gen. ring.
        - rewrite eos_nil. ring. }
    rewrite S2_add, !S4_add. rewrite (mixed_sum n n (fun p => p) (fun p => p) I psi t Lt) by (auto; intros; apply SI; assumption).
    ring.
  Qed.

  (** *** The cluster operator *)
  Variables no nv : nat.
  Hypothesis Nn : (no + nv)%nat = n.
  Variables T1 T2 : tensor K.
  Hypothesis OK : r_amps_ok no nv T1 T2.
  Notation TA := (tminus T2 (swap_ket T2)).
  Lemma TA_at a b i j : dat TA [a; b; i; j] = dat T2 [a; b; i; j] - dat T2 [a; b; j; i].
  Proof. reflexivity. Qed.

  Lemma TA_ok : t2_ok no nv TA.
  Proof.
    destruct OK as (S1 & S2 & Sy).
    assert (SA : shp TA = [nv; nv; no; no]) by exact S2.
    split; [exact SA|]. split; intros a b i j Hi; rewrite SA in Hi; unfold inrange in Hi;
      repeat match goal with X : Forall2 _ _ _ |- _ => inversion X; clear X; subst end; rewrite !TA_at.
    - rewrite (Sy b a i j), (Sy b a j i) by (assumption || lia). ring.
    - ring.
  Qed.
  Lemma r_amps_u : u_amps_ok no nv no nv T1 T1 TA T2 TA.
  Proof.
    pose proof TA_ok as A. destruct OK as (S1 & S2 & Sy).
    split; [exact S1|]. split; [exact S1|]. split; [exact A|]. split; [exact S2|exact A].
  Qed.

  (** 1/2 sum t_abij a+_a a+_b a_j a_i for one spin = sum over pairs of t_abij - t_abji *)
  Lemma same_spin psi t (o v : nat -> nat) :
    (forall p, (p < no)%nat -> (o p < List.length t)%nat) -> (forall p, (p < nv)%nat -> (v p < List.length t)%nat) ->
    S4 nv nv no no (fun a b i j => chalf * dat T2 [a; b; i; j] * W2 K psi t (v a) (v b) (o i) (o j))
    = eos (doubles no nv o v (fun a b i j => dat TA [a; b; i; j])) psi t.
  Proof.
    intros Lo Lv. pose proof TA_ok as (SA & A1 & A2). rewrite <- quarter_pairs; try assumption.
    - transitivity (S4 nv nv no no (fun a b i j => quarter * dat T2 [a; b; i; j] * W2 K psi t (v a) (v b) (o i) (o j))
        + S4 nv nv no no (fun a b i j => quarter * dat T2 [a; b; i; j] * W2 K psi t (v a) (v b) (o i) (o j))).
      + rewrite <- S4_add. apply S4_ext. intros. rewrite <- quarter2. ring.
      + rewrite (S4_34 K nv nv no no (fun a b i j => quarter * dat T2 [a; b; i; j] * W2 K psi t (v a) (v b) (o i) (o j))) at 2.
        rewrite <- S4_add. apply S4_ext. intros a b i j La Lb Li Lj. rewrite TA_at, (W2_ket K psi t (v a) (v b) (o j) (o i)) by auto. ring.
    - intros a b i j La Lb Li Lj. apply A1. rewrite SA. repeat constructor; assumption.
    - intros a b i j La Lb Li Lj. apply A2. rewrite SA. repeat constructor; assumption.
  Qed.

  Lemma same_T : acts_same (n + n) (r_cluster n no nv T1 T2) (u_cluster n no nv no nv T1 T1 TA T2 TA).
  Proof.
    intros psi t Lt. unfold r_cluster, u_cluster, T_spins. rewrite !eos_app.
    unfold eos at 1 2. rewrite SL_fm2, SL_fm4.
    rewrite (S2_ext K _ _ _ (fun a i => dat T1 [a; i] * W1 K psi t (no + a) i + dat T1 [a; i] * W1 K psi t (n + (no + a)) (n + i))).
    2:{ intros a i _ _. match goal with |- SL ?A _ = ?r => change (eos A psi t = r) end. rewrite eos_opscale, eos_gen. ring. }
    rewrite (S4_ext K _ _ _ _ _ (fun a b i j => chalf * dat T2 [a; b; i; j] * W2 K psi t (no + a) (no + b) i j
      + chalf * dat T2 [a; b; i; j] * W2 K psi t (n + (no + a)) (n + (no + b)) (n + i) (n + j)
      + chalf * dat T2 [a; b; i; j] * (W2 K psi t (no + a) (n + (no + b)) i (n + j) + W2 K psi t (n + (no + a)) (no + b) (n + i) j))).
    2:{ intros a b i j La Lb Li Lj. match goal with |- SL ?A _ = ?r => change (eos A psi t = r) end.
        rewrite eos_opscale, eos_gen2 by lia. destruct (Nat.eqb_spec (no + b) i); [lia|]. ring. }
    rewrite S2_add, !S4_add.
    pose proof (same_spin psi t (fun i => i) (fun a => no + a)%nat ltac:(intros; cbv beta; lia) ltac:(intros; cbv beta; lia)) as X1. cbv beta in X1. rewrite X1.
    pose proof (same_spin psi t (fun i => n + i)%nat (fun a => n + (no + a))%nat ltac:(intros; cbv beta; lia) ltac:(intros; cbv beta; lia)) as X2. cbv beta in X2. rewrite X2.
    pose proof (mixed_sum nv no (fun a => no + a)%nat (fun i => i) (fun a b i j => dat T2 [a; b; i; j]) psi t Lt
      ltac:(intros; cbv beta; lia) ltac:(intros; cbv beta; lia) (proj2 (proj2 OK))) as X3. cbv beta in X3. rewrite X3.
    assert (P1 : eos (T_alpha1 no nv (fun a i => dat T1 [a; i])) psi t = S2 nv no (fun a i => dat T1 [a; i] * W1 K psi t (no + a) i)).
    { unfold T_alpha1, singles, eos. rewrite SL_fm_seq, S2_swap. apply sumN_ext. intros i _. rewrite SL_map_seq. apply sumN_ext. intros a _.
      cbn [fst snd]. rewrite (Nat.add_comm a no). reflexivity. }
    assert (P2 : eos (T_beta1 n no nv (fun a i => dat T1 [a; i])) psi t = S2 nv no (fun a i => dat T1 [a; i] * W1 K psi t (n + (no + a)) (n + i))).
    { unfold T_beta1, singles, eos. rewrite SL_fm_seq, S2_swap. apply sumN_ext. intros i _. rewrite SL_map_seq. apply sumN_ext. intros a _.
      cbn [fst snd]. rewrite (Nat.add_comm a no). reflexivity. }
    assert (D : forall f g h d, (forall a, f a = g a) -> eos (doubles no nv h f d) psi t = eos (doubles no nv h g d) psi t).
    { intros f g h d E. unfold doubles, eos. rewrite !SL_flat_map. apply SL_ext. intros ij _. rewrite !SL_map. apply SL_ext. intros ab _.
      cbn [fst snd]. rewrite !E. reflexivity. }
    assert (P4 : eos (T_mixed2 n no nv no nv (fun a b i j => dat T2 [a; b; i; j])) psi t
      = S4 nv nv no no (fun a b i j => dat T2 [a; b; i; j] * W2 K psi t (no + a) (n + (no + b)) i (n + j))).
    { unfold T_mixed2, mixed_doubles, eos. rewrite SL_flat_map.
      rewrite (SL_ext _ _ _ (fun ij => sumN nv (fun a => sumN nv (fun b =>
        dat T2 [a; b; fst ij; snd ij] * W2 K psi t (no + a) (n + (no + b)) (fst ij) (n + snd ij))))).
      - rewrite SL_prod. unfold S4. cbn [fst snd].
        rewrite (sumN_ext K no _ (fun i => sumN nv (fun a => sumN nv (fun b => sumN no (fun j =>
          dat T2 [a; b; i; j] * W2 K psi t (no + a) (n + (no + b)) i (n + j)))))).
        + rewrite sumN_swap. apply sumN_ext. intros a _. apply sumN_swap.
        + intros i _. rewrite sumN_swap. apply sumN_ext. intros a _. apply sumN_swap.
      - intros [i j] _. cbn [fst snd]. rewrite SL_map, SL_prod. apply sumN_ext. intros a _. apply sumN_ext. intros b _. cbn [fst snd].
        rewrite (Nat.add_comm a no), (Nat.add_comm b no). reflexivity. }
    rewrite P1, P2, P4. unfold T_alpha2, T_beta2.
    rewrite (D (fun a => a + no)%nat (fun a => no + a)%nat) by (intros; lia).
    rewrite (D (fun a => n + (a + no))%nat (fun a => n + (no + a))%nat) by (intros; lia).
    ring.
  Qed.
End Closed.

(** *** The arguments of the unrestricted functions *)
Section Args.
  Variable K : cring.
  Local Open Scope K_scope.
  Add Ring KrRA : (c_th K).
  Variables n no nv : nat.
  Variable h : nat -> nat -> K.
  Variable I : nat -> nat -> nat -> nat -> K.
  Variable F : one_e K.
  Variable J : two_e_full K.
  Hypothesis HR : r_hamiltonian n no nv h I F J.

  Lemma rN : (no + nv)%nat = n. Proof. exact (proj1 HR). Qed.
  Lemma r_J_ok : two_e_full_ok no nv no nv J.
  Proof.
    destruct HR as (_ & _ & _ & BJ).
    destruct BJ as (J1 & J2 & J3 & J4 & J5 & J6 & J7 & J8 & J9 & J10 & J11 & J12 & J13 & J14 & J15 & J16).
    exact (conj (proj1 J1) (conj (proj1 J2) (conj (proj1 J3) (conj (proj1 J4) (conj (proj1 J5) (conj (proj1 J6) (conj (proj1 J7) (conj (proj1 J8) (conj (proj1 J9) (conj (proj1 J10) (conj (proj1 J11) (conj (proj1 J12) (conj (proj1 J13) (conj (proj1 J14) (conj (proj1 J15) (proj1 J16)))))))))))))))).
  Qed.
  Lemma teq_swap (A B : tensor K) a1 d1 a2 d2 a3 d3 a4 d4 :
    block2 A I a1 d1 a2 d2 a3 d3 a4 d4 -> block2 B I a2 d2 a1 d1 a4 d4 a3 d3 ->
    (a1 + d1 <= n)%nat -> (a2 + d2 <= n)%nat -> (a3 + d3 <= n)%nat -> (a4 + d4 <= n)%nat -> teq A (swap_both B).
  Proof.
    intros (SA & DA) (SB & DB) L1 L2 L3 L4. split.
    - cbn [swap_both swap shp]. rewrite SA, SB. reflexivity.
    - intros idx Hi. rewrite SA in Hi. unfold inrange in Hi.
      repeat match goal with X : Forall2 _ _ _ |- _ => inversion X; clear X; subst end.
      cbn [swap_both swap dat map nth]. rewrite DA, DB by assumption. apply (proj1 (proj2 HR)); lia.
  Qed.
  Lemma r_J_sym : pair_sym_full J.
  Proof.
    pose proof rN as N. destruct HR as (_ & _ & _ & BJ).
    destruct BJ as (J1 & J2 & J3 & J4 & J5 & J6 & J7 & J8 & J9 & J10 & J11 & J12 & J13 & J14 & J15 & J16).
    unfold pair_sym_full, pair_sym. repeat match goal with |- _ /\ _ => split end; eapply teq_swap; try eassumption; lia.
  Qed.
  Lemma block_anti (A B : tensor K) a1 d1 a2 d2 a3 d3 a4 d4 :
    block2 A I a1 d1 a2 d2 a3 d3 a4 d4 -> block2 B I a1 d1 a2 d2 a4 d4 a3 d3 ->
    block2 (tminus A (swap_ket B)) (anti I) a1 d1 a2 d2 a3 d3 a4 d4.
  Proof.
    intros (SA & DA) (SB & DB). split; [exact SA|]. intros p q r s Lp Lq Lr Ls.
    cbn [tminus swap_ket swap dat map nth]. rewrite DA, DB by assumption. reflexivity.
  Qed.
  Lemma blocks1_ext f g G : (forall p q, (p < no + nv)%nat -> (q < no + nv)%nat -> f p q = g p q) ->
    blocks1 (K := K) no nv f G -> blocks1 no nv g G.
  Proof.
    intros E (O & A & B & C & D). split; [exact O|]. repeat split.
    - intros i j Li Lj. rewrite A, E by (assumption || lia). reflexivity.
    - intros i j Li Lj. rewrite B, E by (assumption || lia). reflexivity.
    - intros i j Li Lj. rewrite C, E by (assumption || lia). reflexivity.
    - intros i j Li Lj. rewrite D, E by (assumption || lia). reflexivity.
  Qed.
  Lemma r_to_u : u_hamiltonian n no nv no nv h h I I I F F (anti_of J) (anti_of J) J.
  Proof.
    pose proof rN as N. destruct HR as (_ & SI & BF & BJ).
    assert (BA : blocks2 no nv (anti I) (anti_of J)).
    { destruct BJ as (J1 & J2 & J3 & J4 & J5 & J6 & J7 & J8 & J9 & J10 & J11 & J12 & J13 & J14 & J15 & J16).
      unfold blocks2, anti_of; cbn [vvvv vvvo vovv vvoo vovo oovv vooo ooov oooo].
      repeat match goal with |- _ /\ _ => split end; apply block_anti; assumption. }
    split; [exact N|]. split; [exact N|]. split; [exact SI|]. split; [exact SI|].
    split; [|split; [|split; [exact BA|split; [exact BA|exact BJ]]]].
    - apply (blocks1_ext (r_fock no h I)); [|exact BF]. intros p q Lp Lq. unfold r_fock, fock_alpha, anti.
      transitivity (h p q + (sumN no (fun i => I p i q i - I p i i q) + sumN no (fun j => I p j q j))); [|ring].
      rewrite <- sumN_add. f_equal. apply sumN_ext. intros i _. ring.
    - apply (blocks1_ext (r_fock no h I)); [|exact BF]. intros p q Lp Lq. unfold r_fock, fock_beta, anti.
      transitivity (h p q + (sumN no (fun i => I p i q i - I p i i q) + sumN no (fun j => I j p j q))); [|ring].
      rewrite <- sumN_add. f_equal. apply sumN_ext. intros i Li. rewrite (SI i p i q) by lia. ring.
  Qed.
  Lemma r_F_ok : one_e_ok no nv F.
  Proof. exact (proj1 (proj1 (proj2 (proj2 HR)))). Qed.
  Lemma r_T_sym T1 T2 : r_amps_ok no nv T1 T2 -> pair_sym (K := K) T2.
  Proof.
    intros (S1 & S2 & Sy). split.
    - cbn [swap_both swap shp]. rewrite S2. reflexivity.
    - intros idx Hi. rewrite S2 in Hi. unfold inrange in Hi.
      repeat match goal with X : Forall2 _ _ _ |- _ => inversion X; clear X; subst end.
      cbn [swap_both swap dat map nth]. apply Sy; assumption.
  Qed.

  (** *** The restricted equations *)
  Variables T1 T2 : tensor K.
  Hypothesis HT : r_amps_ok no nv T1 T2.
  Variable inv : nat -> K.
  Variable M : nat.
  Hypothesis HI : inverts inv M.
  Hypothesis HM : (nv + nv < M)%nat.
  Notation A0 := (aufbau n no).
  Notation refS := (A0 ++ A0).
  Notation HC := (H_closed n h I).
  Notation XC := (opexp inv M (r_cluster n no nv T1 T2)).

  Lemma r_schroedinger :
    exists e R1 R2,
      returns (K := K) "rcc_energy"%string [arr T1; arr T2; arr (ov F); arr (foovv J)] (numv e) /\
      returns (K := K) "rccsd_stanton"%string [py_one_e F; py_two_e_full J; arr T1; arr T2] (tup [arr R1; arr R2]) /\
      amp refS XC refS = 1 /\
      amp refS (opmul HC XC) refS = amp refS HC refS + e /\
      (r_solved no nv R1 R2 <->
        forall x, u_space 2 A0 A0 x ->
          amp (fst x ++ snd x) (opmul HC XC) refS = (amp refS HC refS + e) * amp (fst x ++ snd x) XC refS) /\
      ((no <= 1 \/ nv <= 1)%nat -> r_solved no nv R1 R2 ->
        forall t, List.length t = (n + n)%nat ->
          amp t (opmul HC XC) refS = (amp refS HC refS + e) * amp t XC refS).
  Proof.
    pose proof rN as N. pose proof r_to_u as HU. pose proof (r_amps_u K no nv T1 T2 HT) as HA. pose proof r_J_sym as SJ. pose proof r_J_ok as OJ.
    pose proof (r_T_sym T1 T2 HT) as ST. pose proof HT as (S1 & S2 & Sy).
    assert (SH : acts_same (n + n) HC (H_spatial_op n h h I I I)) by (exact (same_H K n h I (proj1 (proj2 HR)))).
    assert (SX : acts_same (n + n) XC (opexp inv M (u_cluster n no nv no nv T1 T1 (tminus T2 (swap_ket T2)) T2 (tminus T2 (swap_ket T2)))))
      by (apply same_exp, same_T; assumption).
    destruct (u_schroedinger K n no nv no nv h h I I I F F (anti_of J) (anti_of J) J HU T1 T1 (tminus T2 (swap_ket T2)) T2 (tminus T2 (swap_ket T2)) HA inv M HI HM)
      as (e & ta & tb & aa & ab & bb & He & HRs & N1 & EE & Q & QE).
    destruct (c09 K no nv F J T1 T2 r_F_ok OJ SJ S1 S2 ST) as (R1 & R2 & ta' & tb' & aa' & ab' & bb' & HR1 & HR2 & E1 & E2 & E3 & E4 & E5 & E6).
    pose proof (returns_fun K _ _ _ _ HRs HR2) as X. injection X as <- <- <- <- <-.
    destruct (c10r_ok K no nv F J T1 T2 r_F_ok OJ SJ S1 S2 ST) as (e' & He' & He'').
    pose proof (returns_fun K _ _ _ _ He He'') as X. injection X as <-.
    assert (HH : u_ham_ok no nv no nv F F (anti_of J) (anti_of J) J) by (eapply ham_ok; eassumption).
    destruct (uccsd_spin_shapes K _ _ _ _ _ _ _ _ _ _ _ _ _ _ HH HA)
      as (_ & _ & _ & _ & _ & _ & ta' & tb' & aa' & ab' & bb' & _ & _ & _ & _ & _ & _ & _ & RU & _ & _ & _ & _ & P1 & P2 & P3 & P4 & P5).
    pose proof (returns_fun K _ _ _ _ HRs RU) as X. injection X as <- <- <- <- <-.
    assert (LR : List.length refS = (n + n)%nat) by (rewrite app_length, !aufbau_length; reflexivity).
    exists e, R1, R2. split; [exact He'|]. split; [exact HR1|].
    assert (SV : r_solved no nv R1 R2 <-> u_solved no nv no nv ta tb aa ab bb).
    { assert (D1 : forall a i, (a < nv)%nat -> (i < no)%nat -> dat ta [a; i] = dat R1 [a; i]).
      { intros a i La Li. apply (proj2 E1). rewrite P1. repeat constructor; assumption. }
      assert (D2 : forall a i, (a < nv)%nat -> (i < no)%nat -> dat tb [a; i] = dat R1 [a; i]).
      { intros a i La Li. apply (proj2 E2). rewrite P2. repeat constructor; assumption. }
      assert (D3 : forall a b i j, (a < nv)%nat -> (b < nv)%nat -> (i < no)%nat -> (j < no)%nat -> dat aa [a; b; i; j] = dat R2 [a; b; i; j] - dat R2 [a; b; j; i]).
      { intros a b i j La Lb Li Lj. apply (proj2 E3). rewrite P3. repeat constructor; assumption. }
      assert (D4 : forall a b i j, (a < nv)%nat -> (b < nv)%nat -> (i < no)%nat -> (j < no)%nat -> dat ab [a; b; i; j] = dat R2 [a; b; i; j]).
      { intros a b i j La Lb Li Lj. apply (proj2 E4). rewrite P4. repeat constructor; assumption. }
      assert (D5 : forall a b i j, (a < nv)%nat -> (b < nv)%nat -> (i < no)%nat -> (j < no)%nat -> dat bb [a; b; i; j] = dat R2 [a; b; i; j] - dat R2 [a; b; j; i]).
      { intros a b i j La Lb Li Lj. apply (proj2 E5). rewrite P5. repeat constructor; assumption. }
      split.
      - intros (Z1 & Z2). split; [|split; [|split; [|split]]].
        + intros a i La Li. rewrite D1 by assumption. apply Z1; assumption.
        + intros a i La Li. rewrite D2 by assumption. apply Z1; assumption.
        + intros a b i j La Lb Li Lj. rewrite D3, !Z2 by assumption. ring.
        + intros a b i j La Lb Li Lj. rewrite D4 by assumption. apply Z2; assumption.
        + intros a b i j La Lb Li Lj. rewrite D5, !Z2 by assumption. ring.
      - intros (Z1 & _ & _ & Z4 & _). split.
        + intros a i La Li. rewrite <- D1 by assumption. apply Z1; assumption.
        + intros a b i j La Lb Li Lj. rewrite <- D4 by assumption. apply Z4; assumption. }
    rewrite (same_amp K (n + n) XC _ refS refS SX LR).
    rewrite (same_amp K (n + n) HC _ refS refS SH LR).
    rewrite (same_amp K (n + n) (opmul HC XC) _ refS refS (same_mul K _ _ _ _ _ SH SX) LR).
    split; [exact N1|]. split; [exact EE|]. split.
    - rewrite SV, Q. apply forall_iff. intros x. apply imp_iff. intros (ka & kb & (L1 & _) & (L2 & _) & _). rewrite aufbau_length in L1, L2.
      assert (L : List.length (fst x ++ snd x) = (n + n)%nat) by (rewrite app_length; lia).
      rewrite (same_amp K (n + n) XC _ _ refS SX L), (same_amp K (n + n) (opmul HC XC) _ _ refS (same_mul K _ _ _ _ _ SH SX) L). reflexivity.
    - intros Small Z t L.
      rewrite (same_amp K (n + n) XC _ _ refS SX L), (same_amp K (n + n) (opmul HC XC) _ _ refS (same_mul K _ _ _ _ _ SH SX) L).
      apply QE; [lia|apply SV, Z|exact L].
  Qed.
End Args.

(** *** Spin *)
Section Spin.
  Variable K : cring.
  Local Open Scope K_scope.
  Add Ring KrRSp : (c_th K).
  Variable n : nat.
  Notation D i j := (if Nat.eqb i j then 1 else 0 : K).

  (** [a+_p a_q, a+_r a_s] = delta_qr a+_p a_s - delta_ps a+_r a_q *)
  Lemma one_comm psi t p q r s : (p < List.length t)%nat -> (q < List.length t)%nat -> (r < List.length t)%nat -> (s < List.length t)%nat ->
    eow [Cre p; Ann q] (eow [Cre r; Ann s] psi) t
    = eow [Cre r; Ann s] (eow [Cre p; Ann q] psi) t + D q r * W1 K psi t p s - D p s * W1 K psi t r q.
  Proof.
    intros Lp Lq Lr Ls. rewrite <- !eow_app. cbn [app]. rewrite !(W_move K) by assumption.
    rewrite (W2_bra K psi t r p s q), (W2_ket K psi t p r s q) by assumption. rewrite (Nat.eqb_sym r q).
    destruct (Nat.eqb q r), (Nat.eqb p s); ring.
  Qed.

  Definition spin_map (x y : nat -> nat) : list (K * list op) := map (fun p => (1, [Cre (x p); Ann (y p)])) (seq 0 n).
  Lemma eos_spin x y psi t : eos (spin_map x y) psi t = sumN n (fun p => eow [Cre (x p); Ann (y p)] psi t).
  Proof. unfold spin_map, eos. rewrite SL_map_seq. apply sumN_ext. intros p _. cbn [fst snd]. ring. Qed.
  Lemma sumN_pick m q (f : nat -> K) : (q < m)%nat -> sumN m (fun p => D p q * f p) = f q.
  Proof.
    intros L. replace m with (q + (1 + (m - q - 1)))%nat by lia. rewrite !sumN_plus.
    rewrite (sumN_ext K q _ (fun _ => 0)), sumN_0 by (intros i Li; destruct (Nat.eqb_spec i q); [lia|ring]).
    rewrite (sumN_ext K (m - q - 1) _ (fun _ => 0)), sumN_0 by (intros i Li; destruct (Nat.eqb_spec (q + (1 + i)) q); [lia|ring]).
    cbn [sumN]. rewrite Nat.add_0_r, Nat.eqb_refl. ring.
  Qed.

  (** both kinds of spin operators: [u] the orbitals filled, [d] the orbitals emptied *)
  Lemma spin_gen (b : bool) p q : (p < n)%nat -> (q < n)%nat ->
    let u i := if b then (n + i)%nat else i in let d i := if b then i else (n + i)%nat in
    commute (n + n) (spin_map u d) (generator n p q).
  Proof.
    intros Lp Lq u d psi t Lt. rewrite eos_spin, eos_gen.
    transitivity (sumN n (fun i => eow [Cre (u i); Ann (d i)] (fun w => W1 K psi w p q) t)
      + sumN n (fun i => eow [Cre (u i); Ann (d i)] (fun w => W1 K psi w (n + p) (n + q)) t)).
    { rewrite <- sumN_add. apply sumN_ext. intros i _. rewrite <- eow_add. apply eow_ext. intros w _. apply eos_gen. }
    assert (E : forall r s, (r < n + n)%nat -> (s < n + n)%nat ->
      sumN n (fun i => eow [Cre (u i); Ann (d i)] (fun w => W1 K psi w r s) t)
      = W1 K (eos (spin_map u d) psi) t r s + sumN n (fun i => D (d i) r * W1 K psi t (u i) s) - sumN n (fun i => D (u i) s * W1 K psi t r (d i))).
    { intros r s Lr Ls. transitivity (sumN n (fun i => eow [Cre r; Ann s] (eow [Cre (u i); Ann (d i)] psi) t + D (d i) r * W1 K psi t (u i) s + (- (1)) * (D (u i) s * W1 K psi t r (d i)))).
      - apply sumN_ext. intros i Li. unfold W1 at 1. change (fun w => eow [Cre r; Ann s] psi w) with (eow [Cre r; Ann s] psi).
        rewrite one_comm by (unfold u, d; destruct b; lia). ring.
      - rewrite !sumN_add, sumN_mul_l. change (W1 K (eos (spin_map u d) psi) t r s) with (eow [Cre r; Ann s] (eos (spin_map u d) psi) t).
        rewrite (eow_ext K [Cre r; Ann s] (eos (spin_map u d) psi) (fun w => SL (seq 0 n) (fun i => eow [Cre (u i); Ann (d i)] psi w)))
          by (intros w _; rewrite eos_spin, sumN_lsum; reflexivity).
        rewrite eow_SL. unfold SL. rewrite <- sumN_lsum.
        match goal with |- ?a + ?b + - (1) * ?c = ?a' + ?b - ?c => change a' with a end. ring. }
    rewrite !E by lia.
    assert (Z : forall i j, (i < n)%nat -> (j < n)%nat -> D i (n + j) = 0 /\ D (n + i) j = 0 /\ D (n + i) (n + j) = D i j).
    { intros i j Li Lj. destruct (Nat.eqb_spec i (n + j)), (Nat.eqb_spec (n + i) j), (Nat.eqb_spec (n + i) (n + j)), (Nat.eqb_spec i j); try lia; auto. }
    destruct b; unfold u, d.
    - rewrite (sumN_ext K n (fun i => D i (n + p) * _) (fun _ => 0)) by (intros i Li; rewrite (proj1 (Z i p Li Lp)); ring).
      rewrite (sumN_ext K n (fun i => D (n + i) q * _) (fun _ => 0)) by (intros i Li; rewrite (proj1 (proj2 (Z i q Li Lq))); ring).
      rewrite (sumN_ext K n (fun i => D (n + i) (n + q) * _) (fun i => D i q * W1 K psi t (n + p) i)) by (intros i Li; rewrite (proj2 (proj2 (Z i q Li Lq))); reflexivity).
      rewrite (sumN_pick n p (fun i => W1 K psi t (n + i) q)), (sumN_pick n q (fun i => W1 K psi t (n + p) i)), !sumN_0 by assumption. ring.
    - rewrite (sumN_ext K n (fun i => D i (n + q) * _) (fun _ => 0)) by (intros i Li; rewrite (proj1 (Z i q Li Lq)); ring).
      rewrite (sumN_ext K n (fun i => D (n + i) p * _) (fun _ => 0)) by (intros i Li; rewrite (proj1 (proj2 (Z i p Li Lp))); ring).
      rewrite (sumN_ext K n (fun i => D (n + i) (n + p) * _) (fun i => D i p * W1 K psi t i (n + q))) by (intros i Li; rewrite (proj2 (proj2 (Z i p Li Lp))); reflexivity).
      rewrite (sumN_pick n p (fun i => W1 K psi t i (n + q))), (sumN_pick n q (fun i => W1 K psi t p (n + i))), !sumN_0 by assumption. ring.
  Qed.

  Section Ops.
    Variable b : bool.
    Notation u := (fun i => if b then (n + i)%nat else i).
    Notation d := (fun i => if b then i else (n + i)%nat).
    Notation SO := (spin_map u d).
    Lemma spin_H h I : commute (n + n) SO (H_closed n h I).
    Proof.
      apply commute_app.
      - apply commute_fm. intros p Hp. apply commute_fm. intros q Hq. apply in_seq in Hp, Hq. apply commute_scale, spin_gen; lia.
      - apply commute_fm. intros p Hp. apply commute_fm. intros q Hq. apply commute_fm. intros r Hr. apply commute_fm. intros s Hs.
        apply in_seq in Hp, Hq, Hr, Hs. apply commute_scale, commute_app; [apply commute_mul; apply spin_gen; lia|].
        destruct (Nat.eqb q r); [apply commute_scale, spin_gen; lia|apply commute_nil].
    Qed.
    Lemma spin_T no nv T1 T2 : (no + nv)%nat = n -> commute (n + n) SO (r_cluster n no nv T1 T2).
    Proof.
      intros N. apply commute_app.
      - apply commute_fm. intros p Hp. apply commute_fm. intros q Hq. apply in_seq in Hp, Hq. apply commute_scale, spin_gen; lia.
      - apply commute_fm. intros p Hp. apply commute_fm. intros q Hq. apply commute_fm. intros r Hr. apply commute_fm. intros s Hs.
        apply in_seq in Hp, Hq, Hr, Hs. apply commute_scale, commute_mul; apply spin_gen; lia.
    Qed.
  End Ops.

  (** S_z *)
  Definition count (c : K) (x : nat -> nat) : list (K * list op) := map (fun p => (c, [Cre (x p); Ann (x p)])) (seq 0 n).
  Lemma eos_count c x psi t : eos (count c x) psi t = c * sumN n (fun p => eow [Cre (x p); Ann (x p)] psi t).
  Proof. unfold count, eos. rewrite SL_map_seq, <- sumN_mul_l. apply sumN_ext. intros p _. reflexivity. Qed.
  Lemma count_gen c (b : bool) p q : (p < n)%nat -> (q < n)%nat ->
    commute (n + n) (count c (fun i => if b then (n + i)%nat else i)) (generator n p q).
  Proof.
    intros Lp Lq psi t Lt. set (x := fun i => if b then (n + i)%nat else i). rewrite eos_count, eos_gen.
    assert (Z : forall i j, (i < n)%nat -> (j < n)%nat -> D i (n + j) = 0 /\ D (n + i) j = 0 /\ D (n + i) (n + j) = D i j).
    { intros i j Li Lj. destruct (Nat.eqb_spec i (n + j)), (Nat.eqb_spec (n + i) j), (Nat.eqb_spec (n + i) (n + j)), (Nat.eqb_spec i j); try lia; auto. }
    assert (E : forall r s, (r < n + n)%nat -> (s < n + n)%nat ->
      c * sumN n (fun i => eow [Cre (x i); Ann (x i)] (fun w => W1 K psi w r s) t)
      = W1 K (eos (count c x) psi) t r s + c * (sumN n (fun i => D (x i) r * W1 K psi t (x i) s) - sumN n (fun i => D (x i) s * W1 K psi t r (x i)))).
    { intros r s Lr Ls. transitivity (c * sumN n (fun i => eow [Cre r; Ann s] (eow [Cre (x i); Ann (x i)] psi) t + D (x i) r * W1 K psi t (x i) s + (- (1)) * (D (x i) s * W1 K psi t r (x i)))).
      - f_equal. apply sumN_ext. intros i Li. change (fun w => W1 K psi w r s) with (eow [Cre r; Ann s] psi).
        rewrite one_comm by (unfold x; destruct b; lia). ring.
      - rewrite !sumN_add, sumN_mul_l. change (W1 K (eos (count c x) psi) t r s) with (eow [Cre r; Ann s] (eos (count c x) psi) t).
        rewrite (eow_ext K [Cre r; Ann s] (eos (count c x) psi) (fun w => c * SL (seq 0 n) (fun i => eow [Cre (x i); Ann (x i)] psi w)))
          by (intros w _; rewrite eos_count, sumN_lsum; reflexivity).
        rewrite eow_mul, eow_SL. unfold SL. rewrite <- sumN_lsum.
        match goal with |- c * (?a + ?b + - (1) * ?d) = c * ?a' + c * (?b - ?d) => change a' with a end. ring. }
    transitivity (c * sumN n (fun i => eow [Cre (x i); Ann (x i)] (fun w => W1 K psi w p q) t)
      + c * sumN n (fun i => eow [Cre (x i); Ann (x i)] (fun w => W1 K psi w (n + p) (n + q)) t)).
    { transitivity (c * (sumN n (fun i => eow [Cre (x i); Ann (x i)] (fun w => W1 K psi w p q) t)
        + sumN n (fun i => eow [Cre (x i); Ann (x i)] (fun w => W1 K psi w (n + p) (n + q)) t))); [|ring].
      f_equal. rewrite <- sumN_add. apply sumN_ext. intros i _. rewrite <- eow_add. apply eow_ext. intros w _. apply eos_gen. }
    rewrite !E by lia. destruct b; unfold x.
    - rewrite (sumN_ext K n (fun i => D (n + i) p * _) (fun _ => 0)) by (intros i Li; rewrite (proj1 (proj2 (Z i p Li Lp))); ring).
      rewrite (sumN_ext K n (fun i => D (n + i) q * _) (fun _ => 0)) by (intros i Li; rewrite (proj1 (proj2 (Z i q Li Lq))); ring).
      rewrite (sumN_ext K n (fun i => D (n + i) (n + p) * _) (fun i => D i p * W1 K psi t (n + i) (n + q))) by (intros i Li; rewrite (proj2 (proj2 (Z i p Li Lp))); reflexivity).
      rewrite (sumN_ext K n (fun i => D (n + i) (n + q) * _) (fun i => D i q * W1 K psi t (n + p) (n + i))) by (intros i Li; rewrite (proj2 (proj2 (Z i q Li Lq))); reflexivity).
      rewrite (sumN_pick n p (fun i => W1 K psi t (n + i) (n + q))), (sumN_pick n q (fun i => W1 K psi t (n + p) (n + i))), !sumN_0 by assumption. ring.
    - rewrite (sumN_ext K n (fun i => D i (n + p) * _) (fun _ => 0)) by (intros i Li; rewrite (proj1 (Z i p Li Lp)); ring).
      rewrite (sumN_ext K n (fun i => D i (n + q) * _) (fun _ => 0)) by (intros i Li; rewrite (proj1 (Z i q Li Lq)); ring).
      rewrite (sumN_pick n p (fun i => W1 K psi t i q)), (sumN_pick n q (fun i => W1 K psi t p i)), !sumN_0 by assumption. ring.
  Qed.
  Lemma commute_app_l A B C : commute (K := K) (n + n) A C -> commute (n + n) B C -> commute (n + n) (A ++ B) C.
  Proof.
    intros HA HB psi t L. rewrite eos_app, HA, HB, <- eos_add by assumption. apply eos_ext. intros. symmetry. apply eos_app.
  Qed.
  Lemma Sz_gen p q : (p < n)%nat -> (q < n)%nat -> commute (K := K) (n + n) (S_z n) (generator n p q).
  Proof. intros Lp Lq. apply commute_app_l; [exact (count_gen chalf false p q Lp Lq)|exact (count_gen (- chalf) true p q Lp Lq)]. Qed.

  Lemma z_H h I : commute (n + n) (S_z n) (H_closed (K := K) n h I).
  Proof.
    apply commute_app.
    - apply commute_fm. intros p Hp. apply commute_fm. intros q Hq. apply in_seq in Hp, Hq. apply commute_scale, Sz_gen; lia.
    - apply commute_fm. intros p Hp. apply commute_fm. intros q Hq. apply commute_fm. intros r Hr. apply commute_fm. intros s Hs.
      apply in_seq in Hp, Hq, Hr, Hs. apply commute_scale, commute_app; [apply commute_mul; apply Sz_gen; lia|].
      destruct (Nat.eqb q r); [apply commute_scale, Sz_gen; lia|apply commute_nil].
  Qed.

  (** *** On the reference determinant *)
  Variables no nv : nat.
  Hypothesis Nn : (no + nv)%nat = n.
  Notation A0 := (aufbau n no).
  Notation refS := (A0 ++ A0).
  Lemma occ_ref p : (p < n)%nat -> occd refS p = Nat.ltb p no /\ occd refS (n + p) = Nat.ltb p no.
  Proof.
    intros L. assert (E : occd A0 p = Nat.ltb p no).
    { unfold occd, aufbau. rewrite (nth_indep _ false (Nat.ltb 0 no)) by (rewrite map_length, seq_length; exact L).
      rewrite (map_nth (fun i => Nat.ltb i no)), seq_nth by exact L. reflexivity. }
    split.
    - unfold occd. rewrite app_nth1 by (rewrite aufbau_length; exact L). exact E.
    - unfold occd. rewrite app_nth2 by (rewrite aufbau_length; lia). rewrite aufbau_length. replace (n + p - n)%nat with p by lia. exact E.
  Qed.
  Lemma flip_ref (b : bool) p t : (p < n)%nat ->
    eow [Cre (if b then (n + p)%nat else p); Ann (if b then p else (n + p)%nat)] (kd refS) t = 0 :> K.
  Proof.
    intros L. rewrite <- braket_eow. unfold braket. cbn [act]. destruct (occ_ref p L) as [O1 O2].
    assert (LR : List.length refS = (n + n)%nat) by (rewrite app_length, !aufbau_length; reflexivity).
    destruct b; cbn [act1].
    - rewrite O1. destruct (Nat.ltb p no) eqn:E; [|reflexivity]. rewrite put_length, occd_put, LR, O2.
      replace (Nat.eqb (n + p) p) with false by (symmetry; apply Nat.eqb_neq; lia). rewrite andb_false_l. cbn [negb]. rewrite andb_false_r. reflexivity.
    - rewrite O2. destruct (Nat.ltb p no) eqn:E; [|reflexivity]. rewrite put_length, occd_put, LR, O1.
      replace (Nat.eqb p (n + p)) with false by (symmetry; apply Nat.eqb_neq; lia). rewrite andb_false_l. cbn [negb]. rewrite andb_false_r. reflexivity.
  Qed.
  Lemma num_ref p t : (p < n)%nat -> List.length t = (n + n)%nat ->
    eow [Cre p; Ann p] (kd refS) t = (if Nat.ltb p no then kd refS t else 0) :> K /\
    eow [Cre (n + p); Ann (n + p)] (kd refS) t = (if Nat.ltb p no then kd refS t else 0) :> K.
  Proof.
    intros L Lt. destruct (occ_ref p L) as [O1 O2].
    assert (LR : List.length refS = (n + n)%nat) by (rewrite app_length, !aufbau_length; reflexivity).
    assert (G : forall x, (x < n + n)%nat -> occd refS x = Nat.ltb p no -> eow [Cre x; Ann x] (kd refS) t = (if Nat.ltb p no then kd refS t else 0) :> K).
    { intros x Lx O. rewrite <- braket_eow. unfold braket. cbn [act act1]. rewrite O. destruct (Nat.ltb p no) eqn:E; [|reflexivity].
      rewrite put_length, occd_put, LR. apply Nat.ltb_lt in Lx as Lx'. rewrite Lx', Nat.eqb_refl. cbn [andb negb].
      assert (P : put x true refS = refS) by (rewrite <- O; apply put_same).
      rewrite put_put, P, odd_below_put, Nat.ltb_irrefl. cbn [andb]. rewrite xorb_false_r, xorb_nilpotent. reflexivity. }
    split; [apply G; [lia|exact O1]|apply G; [lia|exact O2]].
  Qed.

  Variable inv : nat -> K.
  Variable M : nat.
  Variables T1 T2 : tensor K.
  Notation TC := (r_cluster n no nv T1 T2).
  Notation XC := (opexp inv M TC).

  Lemma kills A t : (forall w, List.length w = (n + n)%nat -> eos A (kd refS) w = 0) -> commute (n + n) A TC ->
    List.length t = (n + n)%nat -> eos A (eos XC (kd refS)) t = 0 :> K.
  Proof.
    intros Z C L. rewrite (commute_exp K (n + n) A TC inv M C) by assumption.
    rewrite (eos_ext K XC _ (fun w => 0 * kd refS w)); [rewrite eos_mul; ring|]. intros u Lu. rewrite Z by congruence. ring.
  Qed.
  Lemma plus_zero t : List.length t = (n + n)%nat -> eos (S_plus n) (eos XC (kd refS)) t = 0.
  Proof.
    apply kills; [|exact (spin_T false no nv T1 T2 Nn)]. intros w Lw. rewrite (eos_spin (fun p => p) (fun p => (n + p)%nat)).
    rewrite (sumN_ext K n _ (fun _ => 0)); [apply sumN_0|]. intros p Lp. exact (flip_ref false p w Lp).
  Qed.
  Lemma minus_zero t : List.length t = (n + n)%nat -> eos (S_minus n) (eos XC (kd refS)) t = 0.
  Proof.
    apply kills; [|exact (spin_T true no nv T1 T2 Nn)]. intros w Lw. rewrite (eos_spin (fun p => (n + p)%nat) (fun p => p)).
    rewrite (sumN_ext K n _ (fun _ => 0)); [apply sumN_0|]. intros p Lp. exact (flip_ref true p w Lp).
  Qed.
  Lemma z_zero t : List.length t = (n + n)%nat -> eos (S_z n) (eos XC (kd refS)) t = 0.
  Proof.
    apply kills.
    - intros w Lw. unfold S_z. rewrite eos_app. rewrite (eos_count chalf (fun p => p)), (eos_count (- chalf) (fun p => (n + p)%nat)).
      rewrite (sumN_ext K n (fun p => eow [Cre (n + p); Ann (n + p)] (kd refS) w) (fun p => eow [Cre p; Ann p] (kd refS) w)); [ring|].
      intros p Lp. destruct (num_ref p w Lp Lw) as [-> ->]. reflexivity.
    - apply commute_app.
      + apply commute_fm. intros p Hp. apply commute_fm. intros q Hq. apply in_seq in Hp, Hq. apply commute_scale, Sz_gen; lia.
      + apply commute_fm. intros p Hp. apply commute_fm. intros q Hq. apply commute_fm. intros r Hr. apply commute_fm. intros s Hs.
        apply in_seq in Hp, Hq, Hr, Hs. apply commute_scale, commute_mul; apply Sz_gen; lia.
  Qed.
  Lemma squared_zero t : List.length t = (n + n)%nat -> eos (S_squared n) (eos XC (kd refS)) t = 0.
  Proof.
    intros L. unfold S_squared. rewrite !eos_app, !eos_opmul, z_zero by assumption.
    rewrite (eos_ext K (S_minus n) _ (fun w => 0 * kd refS w)) by (intros u Lu; rewrite plus_zero by congruence; ring).
    rewrite (eos_ext K (S_z n) _ (fun w => 0 * kd refS w)) by (intros u Lu; rewrite z_zero by congruence; ring).
    rewrite !eos_mul. ring.
  Qed.
End Spin.
