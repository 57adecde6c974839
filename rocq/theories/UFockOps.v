(** The Hamiltonian and the cluster operator of UFock.v as operators: the
    spin-orbital forms with factors 1/4 and the forms over spatial orbitals act
    in the same way. *)
From Coq Require Import List Bool Arith ZArith Lia Ring String Factorial.
From Verif Require Import Scalar Tensor PySyntax PySem CCProg CISpec CIFacts CIStrings CIFock CIMatrix CILemmas CIVec CIExpSpec CIExp
  CCSpec CCFockSpec FockStates FockExp FockT FockH FockSchr FockPerm NpModel SpinModel SpinSpec SpinFacts SpinRound UFockSpec UFock.
Import ListNotations.
Local Open Scope list_scope.

Section Sums.
  Variable K : cring.
  Local Open Scope K_scope.
  Add Ring KrUS : (c_th K).

  Definition SB (f : bool -> K) : K := f false + f true.
  Lemma sumN_spin a b (f : nat -> K) : sumN (a + b) f = SB (fun s => sumN (side_len s a b) (fun i => f (at_spin a s i))).
  Proof. rewrite sumN_plus. reflexivity. Qed.
  Lemma SB_ext f g : (forall s, f s = g s) -> SB f = SB g.
  Proof. intros E. unfold SB. rewrite !E. reflexivity. Qed.
  Lemma sumN_SB n (f : nat -> bool -> K) : sumN n (fun i => SB (f i)) = SB (fun s => sumN n (fun i => f i s)).
  Proof. unfold SB. apply sumN_add. Qed.

  Definition S2 (a b : nat) (F : nat -> nat -> K) : K := sumN a (fun p => sumN b (fun q => F p q)).
  Definition S4 (a b c d : nat) (F : nat -> nat -> nat -> nat -> K) : K :=
    sumN a (fun p => sumN b (fun q => sumN c (fun r => sumN d (fun s => F p q r s)))).

  Lemma S2_ext a b F G : (forall p q, (p < a)%nat -> (q < b)%nat -> F p q = G p q) -> S2 a b F = S2 a b G.
  Proof. intros E. apply sumN_ext. intros p Lp. apply sumN_ext. intros q Lq. apply E; assumption. Qed.
  Lemma S4_ext a b c d F G :
    (forall p q r s, (p < a)%nat -> (q < b)%nat -> (r < c)%nat -> (s < d)%nat -> F p q r s = G p q r s) -> S4 a b c d F = S4 a b c d G.
  Proof. intros E. apply sumN_ext. intros p Lp. apply sumN_ext. intros q Lq. apply sumN_ext. intros r Lr. apply sumN_ext. intros s Ls.
    apply E; assumption. Qed.
  Lemma S2_swap a b F : S2 a b F = S2 b a (fun p q => F q p).
  Proof. apply sumN_swap. Qed.
  Lemma S4_12 a b c d F : S4 a b c d F = S4 b a c d (fun p q r s => F q p r s).
  Proof. apply sumN_swap. Qed.
  Lemma S4_34 a b c d F : S4 a b c d F = S4 a b d c (fun p q r s => F p q s r).
  Proof. apply sumN_ext. intros p _. apply sumN_ext. intros q _. apply sumN_swap. Qed.
  Lemma S4_add a b c d F G : S4 a b c d (fun p q r s => F p q r s + G p q r s) = S4 a b c d F + S4 a b c d G.
  Proof.
    unfold S4. rewrite <- sumN_add. apply sumN_ext. intros p _. rewrite <- sumN_add. apply sumN_ext. intros q _.
    rewrite <- sumN_add. apply sumN_ext. intros r _. rewrite <- sumN_add. reflexivity.
  Qed.
  Lemma S4_mul a b c d x F : S4 a b c d (fun p q r s => x * F p q r s) = x * S4 a b c d F.
  Proof.
    unfold S4. rewrite <- sumN_mul_l. apply sumN_ext. intros p _. rewrite <- sumN_mul_l. apply sumN_ext. intros q _.
    rewrite <- sumN_mul_l. apply sumN_ext. intros r _. rewrite <- sumN_mul_l. reflexivity.
  Qed.
  Lemma S4_zero a b c d F : (forall p q r s, (p < a)%nat -> (q < b)%nat -> (r < c)%nat -> (s < d)%nat -> F p q r s = 0) -> S4 a b c d F = 0.
  Proof.
    intros E. rewrite (S4_ext _ _ _ _ _ (fun _ _ _ _ => 0 * 0)) by (intros; rewrite E by assumption; ring).
    rewrite (S4_mul a b c d 0 (fun _ _ _ _ => 0)). ring.
  Qed.
  Lemma S2_zero a b F : (forall p q, (p < a)%nat -> (q < b)%nat -> F p q = 0) -> S2 a b F = 0.
  Proof. intros E. rewrite (S2_ext a b F (fun _ _ => 0) E). unfold S2. rewrite (sumN_ext K a _ (fun _ => 0)); [apply sumN_0|].
    intros p _. apply sumN_0. Qed.

  Lemma S2_spin a1 b1 a2 b2 F : S2 (a1 + b1) (a2 + b2) F
    = SB (fun s1 => SB (fun s2 => S2 (side_len s1 a1 b1) (side_len s2 a2 b2) (fun i j => F (at_spin a1 s1 i) (at_spin a2 s2 j)))).
  Proof.
    unfold S2. rewrite sumN_spin. apply SB_ext. intros s1. rewrite <- sumN_SB. apply sumN_ext. intros i _. apply sumN_spin.
  Qed.
  Lemma S4_spin a1 b1 a2 b2 a3 b3 a4 b4 F : S4 (a1 + b1) (a2 + b2) (a3 + b3) (a4 + b4) F
    = SB (fun s1 => SB (fun s2 => SB (fun s3 => SB (fun s4 =>
        S4 (side_len s1 a1 b1) (side_len s2 a2 b2) (side_len s3 a3 b3) (side_len s4 a4 b4)
          (fun i j k l => F (at_spin a1 s1 i) (at_spin a2 s2 j) (at_spin a3 s3 k) (at_spin a4 s4 l)))))).
  Proof.
    assert (P2 : forall m (f : nat -> bool -> bool -> K),
      sumN m (fun i => SB (fun s => SB (f i s))) = SB (fun s => SB (fun s' => sumN m (fun i => f i s s'))))
      by (intros; unfold SB; rewrite !sumN_add; reflexivity).
    assert (P3 : forall m (f : nat -> bool -> bool -> bool -> K),
      sumN m (fun i => SB (fun s => SB (fun s' => SB (f i s s')))) = SB (fun s => SB (fun s' => SB (fun s'' => sumN m (fun i => f i s s' s'')))))
      by (intros; unfold SB; rewrite !sumN_add; reflexivity).
    unfold S4. rewrite sumN_spin. apply SB_ext. intros s1.
    rewrite <- P3. apply sumN_ext. intros i _. rewrite sumN_spin. apply SB_ext. intros s2.
    rewrite <- P2. apply sumN_ext. intros j _. rewrite sumN_spin. apply SB_ext. intros s3.
    rewrite <- sumN_SB. apply sumN_ext. intros k _. apply sumN_spin.
  Qed.

  (** pairs i < j *)
  Lemma SL_seq {A} (x : nat -> A) (f : A -> K) a m : SL (map x (seq a m)) f = sumN m (fun k => f (x (a + k)%nat)).
  Proof.
    revert a. induction m as [|m IH]; intros a; [reflexivity|]. cbn [seq map]. rewrite SL_cons, IH.
    rewrite (sumN_plus K 1 m). f_equal; [cbn [sumN]; rewrite Nat.add_0_r; ring|].
    apply sumN_ext. intros k _. f_equal. f_equal. lia.
  Qed.
  Lemma SL_below n (f : nat * nat -> K) : SL (below n) f
    = sumN n (fun i => sumN n (fun j => if Nat.ltb i j then f (i, j) else 0)).
  Proof.
    unfold below. rewrite SL_fm_seq. apply sumN_ext. intros i Li. rewrite SL_seq.
    replace (sumN n (fun j => if Nat.ltb i j then f (i, j) else 0))
      with (sumN (i + 1 + (n - (i + 1))) (fun j => if Nat.ltb i j then f (i, j) else 0)) by (f_equal; lia).
    rewrite sumN_plus. rewrite (sumN_ext K (i + 1) _ (fun _ => 0)).
    - rewrite sumN_0. rewrite (sumN_ext K (n - (i + 1)) (fun j => if Nat.ltb i (i + 1 + j) then f (i, (i + 1 + j)%nat) else 0) (fun j => f (i, (i + 1 + j)%nat))); [ring|].
      intros j _. destruct (Nat.ltb_spec i (i + 1 + j)); [reflexivity|lia].
    - intros j Lj. destruct (Nat.ltb_spec i j); [lia|reflexivity].
  Qed.
  Lemma pairs n (f : nat -> nat -> K) : (forall i j, (i < n)%nat -> (j < n)%nat -> f i j = f j i) ->
    (forall i, (i < n)%nat -> f i i = 0) ->
    S2 n n f = (1 + 1) * SL (below n) (fun ij => f (fst ij) (snd ij)).
  Proof.
    intros Sy Dg. rewrite SL_below. cbn [fst snd].
    set (g := fun i j => if Nat.ltb i j then f i j else 0).
    change (sumN n (fun i => sumN n (fun j => if Nat.ltb i j then f i j else 0))) with (S2 n n g).
    transitivity (S2 n n g + S2 n n (fun i j => g j i)).
    - unfold S2. rewrite <- sumN_add. apply sumN_ext. intros i Li. rewrite <- sumN_add. apply sumN_ext. intros j Lj.
      unfold g. destruct (Nat.ltb_spec i j), (Nat.ltb_spec j i); [lia|ring|rewrite (Sy i j) by assumption; ring|].
      assert (i = j) by lia. subst j. rewrite Dg by assumption. ring.
    - rewrite <- (S2_swap n n g). ring.
  Qed.
  Lemma SL_prod a b (f : nat * nat -> K) : SL (list_prod (seq 0 a) (seq 0 b)) f = sumN a (fun i => sumN b (fun j => f (i, j))).
  Proof.
    assert (E : forall l, SL (list_prod l (seq 0 b)) f = SL l (fun i => sumN b (fun j => f (i, j)))).
    { induction l as [|x l IH]; [reflexivity|]. cbn [list_prod]. rewrite SL_app, SL_cons, IH, SL_map_seq. reflexivity. }
    rewrite E, sumN_lsum. reflexivity.
  Qed.
  Lemma own_opp (x : K) : x = - x -> x = 0.
  Proof.
    intros E. transitivity (chalf * (x + x)); [|rewrite E at 1; ring].
    transitivity ((1 + 1) * chalf * x); [rewrite half_two; ring|ring].
  Qed.
  Lemma quarter2 : quarter + quarter = chalf :> K.
  Proof. unfold quarter. transitivity ((1 + 1) * chalf * chalf : K); [ring|rewrite half_two; ring]. Qed.
  Lemma half2 : chalf + chalf = 1 :> K.
  Proof. transitivity ((1 + 1) * chalf : K); [ring|apply half_two]. Qed.
End Sums.
Arguments SB {K}. Arguments S2 {K}. Arguments S4 {K}.

Section Words.
  Variable K : cring.
  Local Open Scope K_scope.
  Add Ring KrUW : (c_th K).
  Variable psi : state K.
  Variable t : det.
  Definition W1 (p q : nat) : K := eow [Cre p; Ann q] psi t.
  Definition W2 (p q r s : nat) : K := eow [Cre p; Cre q; Ann s; Ann r] psi t.
  Lemma W2_bra p q r s : (p < List.length t)%nat -> (q < List.length t)%nat -> W2 p q r s = - W2 q p r s.
  Proof.
    intros Lp Lq. unfold W2. cbn [eow]. rewrite eo_anti by assumption. rewrite (ctr_cc K). ring.
  Qed.
  Lemma W2_ket p q r s : (r < List.length t)%nat -> (s < List.length t)%nat -> W2 p q r s = - W2 p q s r.
  Proof.
    intros Lr Ls. unfold W2.
    transitivity (eow [Cre p; Cre q] (fun u => (- (1)) * eow [Ann r; Ann s] psi u) t).
    - change [Cre p; Cre q; Ann s; Ann r] with ([Cre p; Cre q] ++ [Ann s; Ann r]). rewrite eow_app.
      apply eow_ext. intros u Lu. cbn [eow]. rewrite eo_anti by (cbn [opi]; lia). rewrite (ctr_aa K). ring.
    - rewrite eow_mul. change [Cre p; Cre q; Ann r; Ann s] with ([Cre p; Cre q] ++ [Ann r; Ann s]). rewrite eow_app. ring.
  Qed.

  (** 1/4 sum (I_pqrs - I_pqsr) a+_p a+_q a_s a_r = 1/2 sum I_pqrs a+_p a+_q a_s a_r *)
  Lemma quarter_anti n (x : nat -> nat) (I : nat -> nat -> nat -> nat -> K) : (forall p, (p < n)%nat -> (x p < List.length t)%nat) ->
    S4 n n n n (fun p q r s => quarter * anti I p q r s * W2 (x p) (x q) (x r) (x s))
    = S4 n n n n (fun p q r s => chalf * I p q r s * W2 (x p) (x q) (x r) (x s)).
  Proof.
    intros Lx.
    transitivity (S4 n n n n (fun p q r s => quarter * I p q r s * W2 (x p) (x q) (x r) (x s))
      + S4 n n n n (fun p q r s => (- quarter) * I p q s r * W2 (x p) (x q) (x r) (x s))).
    - rewrite <- S4_add. apply S4_ext. intros p q r s _ _ _ _. unfold anti. ring.
    - rewrite (S4_34 K n n n n (fun p q r s => (- quarter) * I p q s r * W2 (x p) (x q) (x r) (x s))), <- S4_add. apply S4_ext.
      intros p q r s Lp Lq Lr Ls. rewrite (W2_ket (x p) (x q) (x s) (x r)) by auto. rewrite <- (quarter2 K). ring.
  Qed.

  (** 1/4 sum t_abij a+_a a+_b a_j a_i = sum over a < b, i < j *)
  Lemma quarter_pairs no nv (o v : nat -> nat) (d : nat -> nat -> nat -> nat -> K) :
    (forall p, (p < no)%nat -> (o p < List.length t)%nat) -> (forall p, (p < nv)%nat -> (v p < List.length t)%nat) ->
    (forall a b i j, (a < nv)%nat -> (b < nv)%nat -> (i < no)%nat -> (j < no)%nat -> d a b i j = - d b a i j) ->
    (forall a b i j, (a < nv)%nat -> (b < nv)%nat -> (i < no)%nat -> (j < no)%nat -> d a b i j = - d a b j i) ->
    S4 nv nv no no (fun a b i j => quarter * d a b i j * W2 (v a) (v b) (o i) (o j)) = eos (doubles no nv o v d) psi t.
  Proof.
    intros Lo Lv A1 A2. unfold doubles, eos. rewrite SL_flat_map.
    set (G := fun a b i j => d a b i j * W2 (v a) (v b) (o i) (o j)).
    rewrite (SL_ext _ _ _ (fun ij => SL (below nv) (fun ab => G (fst ab) (snd ab) (fst ij) (snd ij)))).
    2:{ intros ij _. rewrite SL_map. reflexivity. }
    rewrite (S4_ext K _ _ _ _ _ (fun a b i j => quarter * G a b i j)) by (intros; unfold G; ring).
    rewrite S4_mul.
    assert (E : S4 nv nv no no G = S2 nv nv (fun a b => S2 no no (fun i j => G a b i j))) by reflexivity. rewrite E.
    rewrite (pairs K nv).
    - transitivity (quarter * ((1 + 1) * ((1 + 1) * SL (below nv) (fun ab => SL (below no) (fun ij => G (fst ab) (snd ab) (fst ij) (snd ij)))))).
      + f_equal. f_equal. rewrite <- SL_mul. apply SL_ext. intros [a b] Hab. cbn [fst snd]. apply pairs.
        * intros i j Li Lj. apply in_flat_map in Hab as (a' & Ha & Hb). apply in_map_iff in Hb as (b' & Eb & Hb). injection Eb as -> ->.
          apply in_seq in Ha, Hb. unfold G. rewrite (A2 a b i j), (W2_ket (v a) (v b) (o i) (o j)) by (auto; lia). ring.
        * intros i Li. apply in_flat_map in Hab as (a' & Ha & Hb). apply in_map_iff in Hb as (b' & Eb & Hb). injection Eb as -> ->.
          apply in_seq in Ha, Hb. unfold G. rewrite (own_opp K (d a b i i)); [ring|]. apply A2; lia.
      + rewrite SL_swap. transitivity ((1 + 1) * chalf * ((1 + 1) * chalf) * SL (below no) (fun ij => SL (below nv) (fun ab => G (fst ab) (snd ab) (fst ij) (snd ij)))).
        * unfold quarter. ring.
        * rewrite half_two. ring.
    - intros a b La Lb. apply S2_ext. intros i j Li Lj. unfold G. rewrite (A1 a b i j), (W2_bra (v a) (v b)) by auto. ring.
    - intros a La. apply S2_zero. intros i j Li Lj. unfold G. rewrite (own_opp K (d a a i j)); [ring|]. apply A1; assumption.
  Qed.
End Words.

Section UOps.
  Variable K : cring.
  Local Open Scope K_scope.
  Add Ring KrUO : (c_th K).
  Variables n noa nva nob nvb : nat.
  Hypothesis Na : (noa + nva)%nat = n.
  Hypothesis Nb : (nob + nvb)%nat = n.
  Notation no := (noa + nob)%nat.
  Notation nv := (nva + nvb)%nat.
  Notation pi := (pix noa nob nva).
  Notation rel := (relabel K noa nob nva).

  Lemma sum_pi (f : nat -> K) : sumN (no + nv) (fun x => f (pi x)) = sumN (n + n) f.
  Proof.
    assert (RA : sumN n f = sumN noa f + sumN nva (fun a => f (noa + a)%nat)) by (rewrite <- Na; apply sumN_plus).
    assert (RB : sumN n (fun i => f (n + i)%nat) = sumN nob (fun i => f (n + i)%nat) + sumN nvb (fun a => f (n + (nob + a))%nat))
      by (rewrite <- Nb at 1; apply sumN_plus).
    rewrite !sumN_plus, RA, RB.
    assert (E : forall c s, sumN (sz noa nva nob nvb c s) (fun i => f (pi (cst noa nob c + at_spin (sz noa nva nob nvb c false) s i)))
      = sumN (sz noa nva nob nvb c s) (fun i => f (at_spin n s (fst_of noa nob c s + i)))).
    { intros c s. apply sumN_ext. intros i Li. rewrite (pi_at n noa nva nob nvb Na Nb) by exact Li. reflexivity. }
    pose proof (E false false) as E1. pose proof (E false true) as E2. pose proof (E true false) as E3. pose proof (E true true) as E4.
    cbn [sz side_len cst at_spin fst_of Nat.add] in E1, E2, E3, E4.
    rewrite E1, E2, E3, E4. change (fun i : nat => f i) with f. ring.
  Qed.
  Lemma S2_pi (f : nat -> nat -> K) : S2 (no + nv) (no + nv) (fun x y => f (pi x) (pi y)) = S2 (n + n) (n + n) f.
  Proof.
    unfold S2. rewrite <- (sum_pi (fun p => sumN (n + n) (fun q => f p q))). apply sumN_ext. intros p _.
    exact (sum_pi (fun q => f (pi p) q)).
  Qed.
  Lemma S4_pi (f : nat -> nat -> nat -> nat -> K) :
    S4 (no + nv) (no + nv) (no + nv) (no + nv) (fun x y z w => f (pi x) (pi y) (pi z) (pi w)) = S4 (n + n) (n + n) (n + n) (n + n) f.
  Proof.
    unfold S4. rewrite <- (sum_pi (fun p => sumN (n + n) (fun q => sumN (n + n) (fun r => sumN (n + n) (fun s => f p q r s))))).
    apply sumN_ext. intros p _.
    rewrite <- (sum_pi (fun q => sumN (n + n) (fun r => sumN (n + n) (fun s => f (pi p) q r s)))). apply sumN_ext. intros q _.
    rewrite <- (sum_pi (fun r => sumN (n + n) (fun s => f (pi p) (pi q) r s))). apply sumN_ext. intros r _.
    exact (sum_pi (fun s => f (pi p) (pi q) (pi r) s)).
  Qed.

  Lemma eos_one m x (h : nat -> nat -> K) psi t : eos (one_body m x h) psi t = S2 m m (fun p q => h p q * W1 K psi t (x p) (x q)).
  Proof. unfold one_body, eos. rewrite SL_fm_seq. apply sumN_ext. intros p _. apply SL_map_seq. Qed.
  Lemma eos_two m x y (I : nat -> nat -> nat -> nat -> K) psi t :
    eos (two_body m x y I) psi t = S4 m m m m (fun p q r s => I p q r s * W2 K psi t (x p) (y q) (x r) (y s)).
  Proof.
    unfold two_body, eos. rewrite SL_fm_seq. apply sumN_ext. intros p _. rewrite SL_fm_seq. apply sumN_ext. intros q _.
    rewrite SL_fm_seq. apply sumN_ext. intros r _. apply SL_map_seq.
  Qed.

  Section H.
    Variables ha hb : nat -> nat -> K.
    Variables Ia Ib Iab : nat -> nat -> nat -> nat -> K.
    Notation HC := (H_op (no + nv) (hC K n noa nva nob ha hb) (gC K n noa nva nob Ia Ib Iab)).
    Notation HS := (H_spatial_op n ha hb Ia Ib Iab).

    Lemma eos_H psi t : List.length t = (n + n)%nat -> eos (rel HC) psi t = eos HS psi t.
    Proof.
      intros Lt. unfold eos, relabel. rewrite SL_map, H_op_sum. cbn [repeat sumL nth fst snd map pio].
      change (S2 (no + nv) (no + nv) (fun x y => so1 K n ha hb (pi x) (pi y) * W1 K psi t (pi x) (pi y))
        + S4 (no + nv) (no + nv) (no + nv) (no + nv) (fun x y z w => quarter * so2 K n Ia Ib Iab (pi x) (pi y) (pi z) (pi w) * W2 K psi t (pi x) (pi y) (pi z) (pi w))
        = eos HS psi t).
      rewrite (S2_pi (fun x y => so1 K n ha hb x y * W1 K psi t x y)),
        (S4_pi (fun x y z w => quarter * so2 K n Ia Ib Iab x y z w * W2 K psi t x y z w)).
      unfold H_spatial_op. rewrite !eos_app, !eos_one, !eos_two.
      rewrite (S2_spin K n n n n), (S4_spin K n n n n n n n n).
      assert (E1 : forall s1 s2, S2 (side_len s1 n n) (side_len s2 n n) (fun i j => so1 K n ha hb (at_spin n s1 i) (at_spin n s2 j) * W1 K psi t (at_spin n s1 i) (at_spin n s2 j))
        = S2 n n (fun i j => match s1, s2 with false, false => ha i j | true, true => hb i j | _, _ => 0 end * W1 K psi t (at_spin n s1 i) (at_spin n s2 j))).
      { intros s1 s2. replace (side_len s1 n n) with n by (destruct s1; reflexivity). replace (side_len s2 n n) with n by (destruct s2; reflexivity).
        apply S2_ext. intros i j Li Lj. unfold so1. rewrite !(leb_at n noa nva nob nvb Na Nb), !(ix_at n noa nva nob nvb Na Nb) by assumption. destruct s1, s2; reflexivity. }
      assert (E2 : forall s1 s2 s3 s4, S4 (side_len s1 n n) (side_len s2 n n) (side_len s3 n n) (side_len s4 n n) (fun i j k l =>
          quarter * so2 K n Ia Ib Iab (at_spin n s1 i) (at_spin n s2 j) (at_spin n s3 k) (at_spin n s4 l) * W2 K psi t (at_spin n s1 i) (at_spin n s2 j) (at_spin n s3 k) (at_spin n s4 l))
        = S4 n n n n (fun p q r s => quarter * match s1, s2, s3, s4 with
        | false, false, false, false => anti Ia p q r s
        | true, true, true, true => anti Ib p q r s
        | false, true, false, true => Iab p q r s
        | true, false, true, false => Iab q p s r
        | false, true, true, false => - Iab p q s r
        | true, false, false, true => - Iab q p r s
        | _, _, _, _ => 0
        end * W2 K psi t (at_spin n s1 p) (at_spin n s2 q) (at_spin n s3 r) (at_spin n s4 s))).
      { intros s1 s2 s3 s4. replace (side_len s1 n n) with n by (destruct s1; reflexivity). replace (side_len s2 n n) with n by (destruct s2; reflexivity).
        replace (side_len s3 n n) with n by (destruct s3; reflexivity). replace (side_len s4 n n) with n by (destruct s4; reflexivity).
        apply S4_ext. intros i j k l Li Lj Lk Ll. unfold so2. rewrite !(leb_at n noa nva nob nvb Na Nb), !(ix_at n noa nva nob nvb Na Nb) by assumption. destruct s1, s2, s3, s4; reflexivity. }
      unfold SB. rewrite !E1, !E2. cbn [at_spin].
      rewrite (S2_zero K n n (fun i j => 0 * W1 K psi t i (n + j))), (S2_zero K n n (fun i j => 0 * W1 K psi t (n + i) j)) by (intros; ring).
      pose proof (quarter_anti K psi t n (fun p => p) Ia ltac:(intros; cbv beta; lia)) as Qa. cbv beta in Qa. rewrite Qa. clear Qa.
      pose proof (quarter_anti K psi t n (fun p => (n + p)%nat) Ib ltac:(intros; cbv beta; lia)) as Qb. cbv beta in Qb. rewrite Qb. clear Qb.
      set (X := S4 n n n n (fun p q r s => Iab p q r s * W2 K psi t p (n + q) r (n + s))).
      assert (M1 : S4 n n n n (fun p q r s => quarter * Iab p q r s * W2 K psi t p (n + q) r (n + s)) = quarter * X).
      { unfold X. rewrite <- S4_mul. apply S4_ext. intros. ring. }
      assert (M2 : S4 n n n n (fun p q r s => quarter * Iab q p s r * W2 K psi t (n + p) q (n + r) s) = quarter * X).
      { rewrite <- M1, S4_12, S4_34. apply S4_ext. intros p q r s Lp Lq Lr Ls.
        rewrite (W2_bra K psi t (n + q) p), (W2_ket K psi t p (n + q) (n + s) r) by lia. ring. }
      assert (M3 : S4 n n n n (fun p q r s => quarter * - Iab p q s r * W2 K psi t p (n + q) (n + r) s) = quarter * X).
      { rewrite <- M1, S4_34. apply S4_ext. intros p q r s Lp Lq Lr Ls.
        rewrite (W2_ket K psi t p (n + q) (n + s) r) by lia. ring. }
      assert (M4 : S4 n n n n (fun p q r s => quarter * - Iab q p r s * W2 K psi t (n + p) q r (n + s)) = quarter * X).
      { rewrite <- M1, S4_12. apply S4_ext. intros p q r s Lp Lq Lr Ls.
        rewrite (W2_bra K psi t (n + q) p) by lia. ring. }
      rewrite M1, M2, M3, M4.
      repeat match goal with |- context[S4 n n n n (fun p q r s => quarter * 0 * @?W p q r s)] =>
        rewrite (S4_zero K n n n n (fun p q r s => quarter * 0 * W p q r s)) by (intros; ring) end.
      assert (Q : X = quarter * X + quarter * X + (quarter * X + quarter * X)).
      { transitivity (((1 + 1) * chalf) * ((1 + 1) * chalf) * X); [rewrite half_two; ring|unfold quarter; ring]. }
      rewrite Q at 5. ring.
    Qed.
  End H.

  (** *** The cluster operator *)
  Variables T1a T1b T2aa T2ab T2bb T1 T2 : tensor K.
  Hypothesis OK : u_amps_ok noa nva nob nvb T1a T1b T2aa T2ab T2bb.
  Hypothesis E1 : T1_to_spin T1a T1b noa nva nob nvb = Some T1.
  Hypothesis E2 : T2_to_spin T2aa T2ab T2bb noa nva nob nvb = Some T2.

  Lemma eos_Tu psi t : List.length t = (n + n)%nat ->
    eos (rel (cluster no nv T1 T2)) psi t = eos (u_cluster n noa nva nob nvb T1a T1b T2aa T2ab T2bb) psi t.
  Proof.
    intros Lt. destruct OK as (O1 & O2 & O3 & O4 & O5).
    destruct (T1_to_spin_holds K T1a T1b noa nva nob nvb O1 O2) as (T1' & E1' & H1). rewrite E1 in E1'. injection E1' as <-.
    destruct (T2_to_spin_holds K T2aa T2ab T2bb noa nva nob nvb (proj1 O3) O4 (proj1 O5)) as (T2' & E2' & H2).
    rewrite E2 in E2'. injection E2' as <-.
    unfold cluster, T_op. rewrite relabel_app, eos_app. unfold relabel, eos at 1 2. rewrite !SL_map, !SL_fm_seq.
    rewrite (sumN_ext K _ _ (fun a => sumN no (fun i => dat T1 [a; i] * W1 K psi t (pi (no + a)) (pi i))))
      by (intros a _; apply SL_map_seq).
    rewrite (sumN_ext K nv (fun i => SL (flat_map _ _) _) (fun a => sumN nv (fun b => sumN no (fun i => sumN no (fun j =>
      quarter * dat T2 [a; b; i; j] * W2 K psi t (pi (no + a)) (pi (no + b)) (pi i) (pi j))))))
      by (intros a _; rewrite SL_fm_seq; apply sumN_ext; intros b _; rewrite SL_fm_seq; apply sumN_ext; intros i _; apply SL_map_seq).
    change (S2 nv no (fun a i => dat T1 [a; i] * W1 K psi t (pi (no + a)) (pi i)) +
      S4 nv nv no no (fun a b i j => quarter * dat T2 [a; b; i; j] * W2 K psi t (pi (no + a)) (pi (no + b)) (pi i) (pi j))
      = eos (u_cluster n noa nva nob nvb T1a T1b T2aa T2ab T2bb) psi t).
    rewrite S2_spin, S4_spin.
    assert (PV : forall s a, (a < side_len s nva nvb)%nat -> pi (no + at_spin nva s a) = at_spin n s (side_len s noa nob + a)).
    { intros s a L. exact (pi_at n noa nva nob nvb Na Nb true s a L). }
    assert (PO : forall s i, (i < side_len s noa nob)%nat -> pi (at_spin noa s i) = at_spin n s i).
    { intros s i L. exact (pi_at n noa nva nob nvb Na Nb false s i L). }
    assert (X1 : forall s1 s2, S2 (side_len s1 nva nvb) (side_len s2 noa nob) (fun a i =>
        dat T1 [at_spin nva s1 a; at_spin noa s2 i] * W1 K psi t (pi (no + at_spin nva s1 a)) (pi (at_spin noa s2 i)))
      = S2 (side_len s1 nva nvb) (side_len s2 noa nob) (fun a i => match spin2 T1a T1b [s1; s2] with Some u => dat u [a; i] | None => 0 end
          * W1 K psi t (at_spin n s1 (side_len s1 noa nob + a)) (at_spin n s2 i))).
    { intros s1 s2. apply S2_ext. intros a i La Li. rewrite PV, PO by assumption.
      rewrite (entry2 K _ _ _ _ _ _ s1 s2 a i H1 La Li). reflexivity. }
    assert (X2 : forall s1 s2 s3 s4, S4 (side_len s1 nva nvb) (side_len s2 nva nvb) (side_len s3 noa nob) (side_len s4 noa nob) (fun a b i j =>
        quarter * dat T2 [at_spin nva s1 a; at_spin nva s2 b; at_spin noa s3 i; at_spin noa s4 j]
        * W2 K psi t (pi (no + at_spin nva s1 a)) (pi (no + at_spin nva s2 b)) (pi (at_spin noa s3 i)) (pi (at_spin noa s4 j)))
      = S4 (side_len s1 nva nvb) (side_len s2 nva nvb) (side_len s3 noa nob) (side_len s4 noa nob) (fun a b i j =>
        quarter * match spin4_anti T2aa T2ab T2bb [s1; s2; s3; s4] with Some u => dat u [a; b; i; j] | None => 0 end
        * W2 K psi t (at_spin n s1 (side_len s1 noa nob + a)) (at_spin n s2 (side_len s2 noa nob + b)) (at_spin n s3 i) (at_spin n s4 j))).
    { intros s1 s2 s3 s4. apply S4_ext. intros a b i j La Lb Li Lj. rewrite !PV, !PO by assumption.
      rewrite (entry4 K _ _ _ _ _ _ _ _ _ _ s1 s2 s3 s4 a b i j H2 La Lb Li Lj). reflexivity. }
    unfold SB. rewrite !X1, !X2. clear X1 X2.
    cbn [at_spin side_len spin2 spin4_anti spin4 tneg swap_both swap_ket swap_bra swap map nth dat shp].
    rewrite (S2_zero K nva nob (fun a i => 0 * W1 K psi t (noa + a) (n + i))), (S2_zero K nvb noa (fun a i => 0 * W1 K psi t (n + (nob + a)) i)) by (intros; ring).
    repeat match goal with |- context[S4 ?a ?b ?c ?d (fun p q r s => quarter * 0 * @?W p q r s)] =>
      rewrite (S4_zero K a b c d (fun p q r s => quarter * 0 * W p q r s)) by (intros; ring) end.
    unfold u_cluster, T_spins. rewrite !eos_app.
    assert (P1 : eos (T_alpha1 noa nva (fun a i => dat T1a [a; i])) psi t = S2 nva noa (fun a i => dat T1a [a; i] * W1 K psi t (noa + a) i)).
    { unfold T_alpha1, singles, eos. rewrite SL_fm_seq, S2_swap. apply sumN_ext. intros i _. rewrite SL_map_seq. apply sumN_ext. intros a _.
      cbn [fst snd]. rewrite (Nat.add_comm a noa). reflexivity. }
    assert (P2 : eos (T_beta1 n nob nvb (fun a i => dat T1b [a; i])) psi t = S2 nvb nob (fun a i => dat T1b [a; i] * W1 K psi t (n + (nob + a)) (n + i))).
    { unfold T_beta1, singles, eos. rewrite SL_fm_seq, S2_swap. apply sumN_ext. intros i _. rewrite SL_map_seq. apply sumN_ext. intros a _.
      cbn [fst snd]. rewrite (Nat.add_comm a nob). reflexivity. }
    assert (P3 : eos (T_alpha2 noa nva (fun a b i j => dat T2aa [a; b; i; j])) psi t
      = S4 nva nva noa noa (fun a b i j => quarter * dat T2aa [a; b; i; j] * W2 K psi t (noa + a) (noa + b) i j)).
    { unfold T_alpha2. rewrite <- quarter_pairs; [|intros; lia|intros; lia| |].
      - apply S4_ext. intros a b i j _ _ _ _. rewrite !(Nat.add_comm _ noa). reflexivity.
      - intros a b i j La Lb Li Lj. apply (proj1 (proj2 O3)). rewrite (proj1 O3). repeat constructor; assumption.
      - intros a b i j La Lb Li Lj. apply (proj2 (proj2 O3)). rewrite (proj1 O3). repeat constructor; assumption. }
    assert (P5 : eos (T_beta2 n nob nvb (fun a b i j => dat T2bb [a; b; i; j])) psi t
      = S4 nvb nvb nob nob (fun a b i j => quarter * dat T2bb [a; b; i; j] * W2 K psi t (n + (nob + a)) (n + (nob + b)) (n + i) (n + j))).
    { unfold T_beta2. rewrite <- quarter_pairs; [|intros; lia|intros; lia| |].
      - apply S4_ext. intros a b i j _ _ _ _. rewrite !(Nat.add_comm _ nob). reflexivity.
      - intros a b i j La Lb Li Lj. apply (proj1 (proj2 O5)). rewrite (proj1 O5). repeat constructor; assumption.
      - intros a b i j La Lb Li Lj. apply (proj2 (proj2 O5)). rewrite (proj1 O5). repeat constructor; assumption. }
    set (X := S4 nva nvb noa nob (fun a b i j => dat T2ab [a; b; i; j] * W2 K psi t (noa + a) (n + (nob + b)) i (n + j))).
    assert (P4 : eos (T_mixed2 n noa nva nob nvb (fun a b i j => dat T2ab [a; b; i; j])) psi t = X).
    { unfold T_mixed2, mixed_doubles, eos. rewrite SL_flat_map.
      rewrite (SL_ext _ _ _ (fun ij => sumN nva (fun a => sumN nvb (fun b =>
        dat T2ab [a; b; fst ij; snd ij] * W2 K psi t (noa + a) (n + (nob + b)) (fst ij) (n + snd ij))))).
      - rewrite SL_prod. unfold X, S4. cbn [fst snd].
        rewrite (sumN_ext K noa _ (fun i => sumN nva (fun a => sumN nvb (fun b => sumN nob (fun j =>
          dat T2ab [a; b; i; j] * W2 K psi t (noa + a) (n + (nob + b)) i (n + j)))))).
        + rewrite sumN_swap. apply sumN_ext. intros a _. apply sumN_swap.
        + intros i _. rewrite sumN_swap. apply sumN_ext. intros a _. apply sumN_swap.
      - intros [i j] _. cbn [fst snd]. rewrite SL_map, SL_prod. apply sumN_ext. intros a _. apply sumN_ext. intros b _. cbn [fst snd].
        rewrite (Nat.add_comm a noa), (Nat.add_comm b nob). reflexivity. }
    rewrite P1, P2, P3, P4, P5.
    assert (M1 : S4 nva nvb noa nob (fun a b i j => quarter * dat T2ab [a; b; i; j] * W2 K psi t (noa + a) (n + (nob + b)) i (n + j)) = quarter * X).
    { unfold X. rewrite <- S4_mul. apply S4_ext. intros. ring. }
    assert (M2 : S4 nvb nva nob noa (fun a b i j => quarter * dat T2ab [b; a; j; i] * W2 K psi t (n + (nob + a)) (noa + b) (n + i) j) = quarter * X).
    { rewrite <- M1, S4_12, S4_34. apply S4_ext. intros p q r s Lp Lq Lr Ls.
      rewrite (W2_bra K psi t (n + (nob + q)) (noa + p)), (W2_ket K psi t (noa + p) (n + (nob + q)) (n + s) r) by lia. ring. }
    assert (M3 : S4 nva nvb nob noa (fun a b i j => quarter * - dat T2ab [a; b; j; i] * W2 K psi t (noa + a) (n + (nob + b)) (n + i) j) = quarter * X).
    { rewrite <- M1, S4_34. apply S4_ext. intros p q r s Lp Lq Lr Ls.
      rewrite (W2_ket K psi t (noa + p) (n + (nob + q)) (n + s) r) by lia. ring. }
    assert (M4 : S4 nvb nva noa nob (fun a b i j => quarter * - dat T2ab [b; a; i; j] * W2 K psi t (n + (nob + a)) (noa + b) i (n + j)) = quarter * X).
    { rewrite <- M1, S4_12. apply S4_ext. intros p q r s Lp Lq Lr Ls.
      rewrite (W2_bra K psi t (n + (nob + q)) (noa + p)) by lia. ring. }
    rewrite M1, M2, M3, M4.
    assert (Q : X = quarter * X + quarter * X + (quarter * X + quarter * X)).
    { transitivity (((1 + 1) * chalf) * ((1 + 1) * chalf) * X); [rewrite half_two; ring|unfold quarter; ring]. }
    rewrite Q at 5. ring.
  Qed.
End UOps.
