(** The k-point calculations and the states of the crystal. *)
From Coq Require Import String.
From Coq Require Import List Bool Arith ZArith Lia Ring.
From Verif Require Import Scalar Tensor NpModel IntegralsModel IntegralsSpec IntegralsFacts IntegralsK
  CISpec CIExpSpec CIExp CCFockSpec UFockSpec UFock ExSpec ExClosed ExCI PTSpec UPTSpec UEnergy RPTSpec RPT KSpec KModel KFacts.
Import ListNotations.
Local Open Scope list_scope.

Section Scf.
  Variable K : cring.
  Local Open Scope K_scope.
  Add Ring KrKP : (c_th K).

  Lemma scf_energy (f : kscf K) e w nocc nvir : kscf_ok f -> momentum_group f -> k_exchangeable f ->
    let n := (k_n f * nocc + k_n f * nvir)%nat in
    let ref := aufbau n (k_n f * nocc) ++ aufbau n (k_n f * nocc) in
    let h := crystal_h f nocc nvir in let I := crystal_I f w nocc nvir in
    kpt_scf_energy f e w nocc = Some (e + w * amp ref (H_spatial_op n h h I I I) ref).
  Proof.
    intros Ok G X. cbv zeta.
    rewrite (reference K (k_n f * nocc + k_n f * nvir) _ (k_n f * nvir) _ (k_n f * nvir) _ _ _ _ _ eq_refl eq_refl (crystal_pair K f w nocc nvir G X) (crystal_pair K f w nocc nvir G X)).
    rewrite energy_closed, crystal_energy by exact G.
    destruct (solk_eq K f "chem" true Ok (group_table K f G) eq_refl) as (h1 & h2 & E & S1 & S2 & V1 & V2).
    unfold kpt_scf_energy. rewrite E. cbn [bindo]. f_equal.
    set (A := for_range (k_n f) (fun k Escf => Escf + (1 + 1) * sumN nocc (fun i => dat h1 [k; i; i]) * w) e).
    assert (EA : A = e + w * ((1 + 1) * sumN (k_n f) (fun k => sumN nocc (fun i => k_core f k i i)))).
    { unfold A. rewrite for_range_sum. f_equal. rewrite <- !sumN_mul_l. apply sumN_ext. intros k Lk.
      rewrite (sumN_ext K nocc (fun i => dat h1 [k; i; i]) (fun i => k_core f k i i)) by (intros; apply V1; exact Lk). ring. }
    set (P := fun k l => (1 + 1) * sumN nocc (fun i => sumN nocc (fun j => dat (tscale w h2) [k; k; l; i; i; j; j])) * w
       - sumN nocc (fun i => sumN nocc (fun j => dat (tscale w h2) [k; l; l; i; j; j; i])) * w).
    transitivity (A + sumN (k_n f) (fun k => sumN (k_n f) (P k))).
    { etransitivity; [|apply (for_range_sum K (k_n f) (fun k => sumN (k_n f) (P k)))].
      apply for_range_ext. intros k a Lk. etransitivity; [|apply (for_range_sum K (k_n f) (P k))].
      apply for_range_ext. intros l b Ll. unfold P. ring. }
    rewrite EA. match goal with |- _ + ?a = _ + ?w * (_ + ?b) => assert (Q : a = w * b) end.
    - rewrite <- sumN_mul_l. apply sumN_ext. intros k Lk. rewrite <- sumN_mul_l. apply sumN_ext. intros l Ll. unfold P. cbn [tscale dat].
      transitivity (w * (sumN nocc (fun i => sumN nocc (fun j => (1 + 1) * (w * dat h2 [k; k; l; i; i; j; j]))) +
        sumN nocc (fun i => sumN nocc (fun j => - (1) * (w * dat h2 [k; l; l; i; j; j; i]))))).
      { rewrite !(sumN_ext K nocc (fun i => sumN nocc (fun j => (1 + 1) * _)) _ (fun i _ => sumN_mul_l K nocc (1 + 1) _)).
        rewrite !(sumN_ext K nocc (fun i => sumN nocc (fun j => - (1) * _)) _ (fun i _ => sumN_mul_l K nocc (- (1)) _)).
        rewrite !sumN_mul_l. ring. }
      f_equal. rewrite <- sumN_add. apply sumN_ext. intros i Li. rewrite <- sumN_add. apply sumN_ext. intros j Lj.
      rewrite !V2 by assumption. rewrite kc_left, kc_right by assumption. ring.
    - rewrite Q. ring.
  Qed.
End Scf.

Section Reorder.
  Variable K : cring.
  Local Open Scope K_scope.
  Lemma blocks4 nk m1 m2 m3 m4 F : four K (nk * m1) (nk * m2) (nk * m3) (nk * m4) F =
    four K nk nk nk nk (fun k1 k2 k3 k4 => four K m1 m2 m3 m4 (fun i j a b => F (k1 * m1 + i) (k2 * m2 + j) (k3 * m3 + a) (k4 * m4 + b))%nat).
  Proof.
    unfold four. rewrite sum_blocks. apply sumN_ext. intros k1 _.
    assert (B3 : forall P Q, sumN (nk * m3) (fun A => sumN (nk * m4) (fun B => F P Q A B)) =
      sumN nk (fun k3 => sumN nk (fun k4 => sumN m3 (fun a => sumN m4 (fun b => F P Q (k3 * m3 + a)%nat (k4 * m4 + b)%nat))))).
    { intros P Q. rewrite sum_blocks. apply sumN_ext. intros k3 _. etransitivity; [|apply sumN_swap]. apply sumN_ext. intros a _. apply sum_blocks. }
    assert (B2 : forall P, sumN (nk * m2) (fun Q => sumN (nk * m3) (fun A => sumN (nk * m4) (fun B => F P Q A B))) =
      sumN nk (fun k2 => sumN nk (fun k3 => sumN nk (fun k4 => sumN m2 (fun j => sumN m3 (fun a => sumN m4 (fun b => F P (k2 * m2 + j)%nat (k3 * m3 + a)%nat (k4 * m4 + b)%nat))))))).
    { intros P. rewrite sum_blocks. apply sumN_ext. intros k2 _.
      etransitivity; [apply sumN_ext; intros j _; apply B3|]. rewrite sumN_swap. apply sumN_ext. intros k3 _. apply sumN_swap. }
    etransitivity; [apply sumN_ext; intros i _; apply B2|]. rewrite sumN_swap. apply sumN_ext. intros k2 _. rewrite sumN_swap. apply sumN_ext. intros k3 _. apply sumN_swap.
  Qed.
  Lemma turn nk F : four K nk nk nk nk F = four K nk nk nk nk (fun ka kb ki kj => F ki kj ka kb).
  Proof.
    unfold four.
    transitivity (sumN nk (fun ki => sumN nk (fun ka => sumN nk (fun kj => sumN nk (fun kb => F ki kj ka kb))))).
    { apply sumN_ext. intros i _. apply sumN_swap. }
    rewrite sumN_swap. apply sumN_ext. intros ka _.
    transitivity (sumN nk (fun ki => sumN nk (fun kb => sumN nk (fun kj => F ki kj ka kb)))); [apply sumN_ext; intros; apply sumN_swap|]. apply sumN_swap.
  Qed.
End Reorder.

Lemma diagonal_ext (K : cring) m (e e' : nat -> K) : (forall p, e p = e' p) -> diagonal m e = diagonal m e'.
Proof. intros E. unfold diagonal. apply map_ext. intros p. rewrite E. reflexivity. Qed.

Section Mp2.
  Variable R : cring.
  Notation C := (CplxK R).
  Variable inv : R -> R.
  Local Open Scope K_scope.
  Add Ring RrKM : (c_th R).
  Add Ring CrKM : (c_th C).

  Lemma fst_sum m (g : nat -> C) : fst (sumN m g) = sumN m (fun i => fst (g i)).
  Proof. induction m as [|m IH]; [reflexivity|]. cbn [sumN]. rewrite <- IH. reflexivity. Qed.
  Lemma fst_comb (x y : C) : fst ((1 + 1) * x - y) = (1 + 1) * fst x - fst y :> R.
  Proof. destruct x, y. cbn. ring. Qed.
  Lemma fst_real (x : C) (r : R) : fst (x * of_real r) = fst x * r :> R.
  Proof. destruct x. cbn. ring. Qed.
  Lemma real_sub (x y : R) : of_real x - of_real y = of_real (x - y) :> C.
  Proof. unfold of_real. cbn. f_equal. ring. Qed.
  Lemma real_add (x y : R) : of_real x + of_real y = of_real (x + y) :> C.
  Proof. unfold of_real. cbn. f_equal. ring. Qed.
  Lemma real_mul (x y : R) : of_real x * of_real y = of_real (x * y) :> C.
  Proof. unfold of_real. cbn. unfold cplx_mul. cbn. f_equal; ring. Qed.
  Lemma real_1 : of_real (1 : R) = (1 : C).
  Proof. reflexivity. Qed.

  Variable f : kscf C.
  Variable e : nat -> nat -> R.
  Variables nocc nvir : nat.
  Hypothesis Ok : kscf_ok f.
  Hypothesis M : k_nmo f = (nocc + nvir)%nat.
  Hypothesis G : momentum_group f.
  Hypothesis X : k_exchangeable f.
  Notation nk := (k_n f).
  Notation no := (nk * nocc)%nat.
  Notation nv := (nk * nvir)%nat.
  Notation n := (no + nv)%nat.
  Notation w := (of_real (inv (zK (Z.of_nat nk)))).
  Notation h := (crystal_h f nocc nvir).
  Notation I := (crystal_I f w nocc nvir).
  Notation lev := (crystal_levels (K := C) nk nocc nvir (fun k p => of_real (e k p))).
  Hypothesis Inv : forall x : R, x <> 0 -> inv x * x = 1.
  Hypothesis Gap1 : forall k l a i, (k < nk)%nat -> (l < nk)%nat -> (a < nvir)%nat -> (i < nocc)%nat -> e k (nocc + a)%nat - e l i <> 0.
  Hypothesis Gap2 : forall ka kb ki kj a b i j, (ka < nk)%nat -> (kb < nk)%nat -> (ki < nk)%nat -> (kj < nk)%nat ->
    (a < nvir)%nat -> (b < nvir)%nat -> (i < nocc)%nat -> (j < nocc)%nat -> e ka (nocc + a)%nat + e kb (nocc + b)%nat - e ki i - e kj j <> 0.
  Hypothesis Br : forall k a i, (k < nk)%nat -> (a < nvir)%nat -> (i < nocc)%nat -> k_fock f w nocc k (nocc + a) i = 0.

  Notation u := (korb f).
  Notation eo := (fun i => lev i).
  Notation ev := (fun a => lev (no + a)%nat).
  Notation mo := (momentum_of nk nocc nvir).
  Notation ob := (orbital_of nk nocc nvir).
  Definition t2 (A B P Q : nat) : C :=
    - I (no + A)%nat (no + B)%nat P Q *
      of_real (inv (e (mo (no + A)%nat) (ob (no + A)%nat) + e (mo (no + B)%nat) (ob (no + B)%nat) - e (mo P) (ob P) - e (mo Q) (ob Q))).

  Lemma blocks_eq : exists l, kpt_blocks f = Some l /\ forall kp kq kr p q r s, (kp < nk)%nat -> (kq < nk)%nat -> (kr < nk)%nat ->
    kpt_eri inv f l kp kq kr p q r s = kERI f kp kr kq (kconserv f kp kr kq) (u kp p) (u kr r) (u kq q) (u (kconserv f kp kr kq) s) * w.
  Proof.
    pose proof (group_table C f G) as MT.
    set (v := fun kp kq kr => gets (tzeros C []) (k_h2 C f false kp kq kr)).
    assert (E3 : forall kp kq kr, (kp < nk)%nat -> (kq < nk)%nat -> (kr < nk)%nat -> exists x, k_h2 C f false kp kq kr = Some x).
    { intros kp kq kr A B D. destruct (k_h2_eq C f false kp kq kr Ok MT A B D) as (x & E & _). exists x. exact E. }
    assert (E2 : forall kp kq, (kp < nk)%nat -> (kq < nk)%nat ->
      all_some (map (fun kr => k_h2 C f false kp kq kr) (seq 0 nk)) = Some (map (v kp kq) (seq 0 nk))).
    { intros kp kq A B. apply all_some_map. intros kr L. apply in_seq in L. apply E3; lia. }
    assert (E1 : forall kp, (kp < nk)%nat ->
      all_some (map (fun kq => all_some (map (fun kr => k_h2 C f false kp kq kr) (seq 0 nk))) (seq 0 nk)) = Some (map (fun kq => map (v kp kq) (seq 0 nk)) (seq 0 nk))).
    { intros kp A. rewrite (all_some_map []).
      2:{ intros kq L. apply in_seq in L. eexists. apply E2; lia. }
      f_equal. apply map_ext_in. intros kq L. apply in_seq in L. rewrite E2 by lia. reflexivity. }
    exists (map (fun kp => map (fun kq => map (v kp kq) (seq 0 nk)) (seq 0 nk)) (seq 0 nk)). split.
    - unfold kpt_blocks. cbv zeta. rewrite (all_some_map []).
      2:{ intros kp L. apply in_seq in L. eexists. apply E1; lia. }
      f_equal. apply map_ext_in. intros kp L. apply in_seq in L. rewrite E1 by lia. reflexivity.
    - intros kp kq kr p q r s A B D. unfold kpt_eri. rewrite !nth_table by assumption. unfold v.
      destruct (k_h2_eq C f false kp kq kr Ok MT A B D) as (x & E & _ & V). rewrite E. cbn [gets]. rewrite V. reflexivity.
  Qed.

  Lemma lev_occ k i : (k < nk)%nat -> (i < nocc)%nat -> lev (k * nocc + i)%nat = of_real (e k i).
  Proof. intros A B. unfold crystal_levels. destruct (occ_at nk nocc nvir k i A B) as [-> ->]. reflexivity. Qed.
  Lemma lev_vir k a : (k < nk)%nat -> (a < nvir)%nat -> lev (no + (k * nvir + a))%nat = of_real (e k (nocc + a)%nat).
  Proof. intros A B. unfold crystal_levels. destruct (vir_at nk nocc nvir k a A B) as [-> ->]. reflexivity. Qed.

  Lemma inv_real x : x <> 0 -> of_real (inv x) * of_real x = (1 : C).
  Proof. intros N. rewrite real_mul, Inv by exact N. reflexivity. Qed.

  Lemma pairs_value l : kpt_blocks f = Some l ->
    (forall kp kq kr p q r s, (kp < nk)%nat -> (kq < nk)%nat -> (kr < nk)%nat ->
    kpt_eri inv f l kp kq kr p q r s = kERI f kp kr kq (kconserv f kp kr kq) (u kp p) (u kr r) (u kq q) (u (kconserv f kp kr kq) s) * w) ->
    closed_pairs no nv I t2 =
    sumN nk (fun ka => sumN nk (fun kb => sumN nk (fun ki => let kj := kconserv f ka ki kb in
      (1 + 1) * four C nocc nocc nvir nvir (fun i j a b => kpt_eri inv f l ki kj ka i j (nocc + a) (nocc + b) * kpt_abij inv f e nocc l ka kb ki a b i j)
      - four C nocc nocc nvir nvir (fun i j a b => kpt_eri inv f l ki kj kb i j (nocc + b) (nocc + a) * kpt_abij inv f e nocc l ka kb ki a b i j)))).
  Proof.
    intros _ V. change (closed_pairs no nv I t2) with (four C no no nv nv (fun i j a b =>
      ((1 + 1) * I i j (no + a)%nat (no + b)%nat - I i j (no + b)%nat (no + a)%nat) * t2 a b i j)).
    rewrite blocks4, turn. unfold four at 1. apply sumN_ext. intros ka Lka. apply sumN_ext. intros kb Lkb. apply sumN_ext. intros ki Lki. cbv zeta.
    set (kj := kconserv f ka ki kb). assert (Lkj : (kj < nk)%nat) by (apply kc_lt; assumption).
    destruct (kc_cancel C f G ka ki kb kj Lka Lki Lkb Lkj eq_refl) as (Q1 & Q2 & _).
    transitivity (sumN nk (fun k => if Nat.eqb kj k then
      four C nocc nocc nvir nvir (fun i j a b => ((1 + 1) * kpt_eri inv f l ki kj ka i j (nocc + a) (nocc + b)
         - kpt_eri inv f l ki kj kb i j (nocc + b) (nocc + a)) * kpt_abij inv f e nocc l ka kb ki a b i j) else 0)).
    - apply sumN_ext. intros k Lk. destruct (Nat.eqb kj k) eqn:E.
      + apply Nat.eqb_eq in E. subst k. apply four_ext. intros i j a b Li Lj La Lb.
        unfold t2. rewrite !(I_oovv C f w nocc nvir), (I_vvoo C f w nocc nvir) by assumption.
        destruct (vir_at nk nocc nvir ka a Lka La) as [-> ->]. destruct (vir_at nk nocc nvir kb b Lkb Lb) as [-> ->].
        destruct (occ_at nk nocc nvir ki i Lki Li) as [-> ->]. destruct (occ_at nk nocc nvir kj j Lkj Lj) as [-> ->].
        rewrite Q1, Q2. fold kj. rewrite !Nat.eqb_refl. unfold kpt_abij. cbv zeta. fold kj. rewrite !V by assumption. rewrite Q1, Q2. fold kj. ring.
      + transitivity (four C nocc nocc nvir nvir (fun _ _ _ _ => 0 * 0)); [|rewrite (four_mul C nocc nocc nvir nvir 0 (fun _ _ _ _ => 0)); ring].
        apply four_ext. intros i j a b Li Lj La Lb. unfold t2. rewrite (I_vvoo C f w nocc nvir) by assumption. fold kj. rewrite E. ring.
    - rewrite sumN_pick by exact Lkj.
      transitivity (four C nocc nocc nvir nvir (fun i j a b => (1 + 1) * (kpt_eri inv f l ki kj ka i j (nocc + a) (nocc + b) * kpt_abij inv f e nocc l ka kb ki a b i j)
         + - (1) * (kpt_eri inv f l ki kj kb i j (nocc + b) (nocc + a) * kpt_abij inv f e nocc l ka kb ki a b i j))).
      + apply four_ext. intros. ring.
      + rewrite four_add, !four_mul. ring.
  Qed.

  Lemma kmp2_value : kmp2 inv f e nocc = Some (fst (closed_pairs no nv I t2) * inv (zK (Z.of_nat nk))).
  Proof.
    destruct blocks_eq as (l & E & V). rewrite (pairs_value l E V). unfold kmp2. rewrite E. cbn [bindo]. cbv zeta. f_equal. f_equal.
    replace (k_nmo f - nocc)%nat with nvir by lia.
    rewrite fst_sum.
    set (g := fun ka kb ki => let kj := kconserv f ka ki kb in
      (1 + 1) * fst (four C nocc nocc nvir nvir (fun i j a b => kpt_eri inv f l ki kj ka i j (nocc + a) (nocc + b) * kpt_abij inv f e nocc l ka kb ki a b i j))
      - fst (four C nocc nocc nvir nvir (fun i j a b => kpt_eri inv f l ki kj kb i j (nocc + b) (nocc + a) * kpt_abij inv f e nocc l ka kb ki a b i j))).
    transitivity (sumN nk (fun ka => sumN nk (fun kb => sumN nk (fun ki => g ka kb ki)))).
    - transitivity (0 + sumN nk (fun ka => sumN nk (fun kb => sumN nk (fun ki => g ka kb ki)))); [|ring].
      etransitivity; [|apply (for_range_sum R nk (fun ka => sumN nk (fun kb => sumN nk (fun ki => g ka kb ki))))].
      apply for_range_ext. intros ka x Lka. etransitivity; [|apply (for_range_sum R nk (fun kb => sumN nk (fun ki => g ka kb ki)))].
      apply for_range_ext. intros kb y Lkb. etransitivity; [|apply (for_range_sum R nk (fun ki => g ka kb ki))].
      apply for_range_ext. intros ki z Lki. unfold g, four. cbv zeta. ring.
    - apply sumN_ext. intros ka _. rewrite fst_sum. apply sumN_ext. intros kb _. rewrite fst_sum. apply sumN_ext. intros ki _.
      unfold g. cbv zeta. rewrite fst_comb. reflexivity.
  Qed.

  Notation refS := (aufbau n no ++ aufbau n no).
  Notation H0 := (diagonal (n + n) (two_spins n lev lev)).
  Notation V := (minus (H_spatial_op n h h I I I) H0).
  Notation E0 := ((1 + 1) * sumN no (fun P => lev P) : C).
  Lemma kmp2_pt :
    eigenstate (n + n) refS H0 E0 /\
    (exists Psi, first_order (n + n) refS H0 V E0 (amp refS V refS) Psi) /\
    exists E, kmp2 inv f e nocc = Some E /\
    forall Psi, first_order (n + n) refS H0 V E0 (amp refS V refS) Psi -> E = fst (amp refS (opmul V Psi) refS) * inv (zK (Z.of_nat nk)).
  Proof.
    assert (U1 : forall a i, (a < nv)%nat -> (i < no)%nat -> exists x : C, x * (ev a - eo i) = 1).
    { intros A P LA LP. destruct (split_block nk nvir A LA) as (k & a & Lk & La & ->). destruct (split_block nk nocc P LP) as (l & i & Ll & Li & ->).
      exists (of_real (inv (e k (nocc + a)%nat - e l i))). cbv beta. rewrite (lev_vir k a Lk La), (lev_occ l i Ll Li). rewrite real_sub. apply inv_real, Gap1; assumption. }
    assert (D2 : forall A B P Q, (A < nv)%nat -> (B < nv)%nat -> (P < no)%nat -> (Q < no)%nat ->
      of_real (inv (e (mo (no + A)%nat) (ob (no + A)%nat) + e (mo (no + B)%nat) (ob (no + B)%nat) - e (mo P) (ob P) - e (mo Q) (ob Q))) * (ev A + ev B - eo P - eo Q) = (1 : C)).
    { intros A B P Q LA LB LP LQ. destruct (split_block nk nvir A LA) as (ka & a & Lka & La & ->). destruct (split_block nk nvir B LB) as (kb & b & Lkb & Lb & ->).
      destruct (split_block nk nocc P LP) as (ki & i & Lki & Li & ->). destruct (split_block nk nocc Q LQ) as (kj & j & Lkj & Lj & ->).
      cbv beta. rewrite (lev_vir ka a Lka La), (lev_vir kb b Lkb Lb), (lev_occ ki i Lki Li), (lev_occ kj j Lkj Lj).
      destruct (vir_at nk nocc nvir ka a Lka La) as [-> ->]. destruct (vir_at nk nocc nvir kb b Lkb Lb) as [-> ->].
      destruct (occ_at nk nocc nvir ki i Lki Li) as [-> ->]. destruct (occ_at nk nocc nvir kj j Lkj Lj) as [-> ->].
      rewrite real_add, !real_sub. apply inv_real, Gap2; assumption. }
    assert (F0 : forall a i, (a < nv)%nat -> (i < no)%nat -> closed_fock no h I (no + a) i = 0).
    { intros A P LA LP. destruct (split_block nk nvir A LA) as (k & a & Lk & La & ->). destruct (split_block nk nocc P LP) as (l & i & Ll & Li & ->).
      rewrite (crystal_fock C f w nocc nvir G) by assumption. destruct (Nat.eqb k l); [apply Br; assumption|reflexivity]. }
    destruct (r_pt C n no nv eq_refl h I (crystal_pair C f w nocc nvir G X) eo ev t2 U1
      (fun A B P Q LA LB LP LQ => ex_intro _ _ (D2 A B P Q LA LB LP LQ)) F0) as (PA & PB & PC).
    { intros A B P Q LA LB LP LQ. unfold t2. pose proof (D2 A B P Q LA LB LP LQ) as D. cbv beta in D |- *.
      match type of D with ?x * ?y = _ => transitivity (- I (no + A)%nat (no + B)%nat P Q * (x * y)); [ring|rewrite D; ring] end. }
    assert (EL : forall p, two_spins n (levels no eo ev) (levels no eo ev) p = two_spins n lev lev p).
    { intros p. unfold two_spins. assert (L : forall q, levels no eo ev q = lev q).
      { intros q. unfold levels. destruct (Nat.ltb q no) eqn:E; [reflexivity|]. apply Nat.ltb_ge in E. f_equal. lia. }
      rewrite !L. reflexivity. }
    rewrite (diagonal_ext C (n + n) _ _ EL) in PA, PB, PC.
    split; [exact PA|]. split; [exact PB|]. eexists. split; [exact kmp2_value|]. intros Psi HP. rewrite (PC Psi HP). reflexivity.
  Qed.
End Mp2.
