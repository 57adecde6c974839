(** Unrestricted inputs in Fock space: the spin-orbital arrays built by
    spin_utils.py are the blocks of the Hamiltonian and of the cluster operator
    over spatial orbitals, after exchanging the beta occupied and the alpha
    virtual orbitals. *)
From Coq Require Import List Bool Arith ZArith Lia Ring String Factorial.
From Verif Require Import Scalar Tensor PySyntax PySem CCProg CISpec CIFacts CIStrings CIFock CIMatrix CILemmas CIVec CIExpSpec CIExp
  CCSpec CCFockSpec FockStates FockExp FockT FockH FockSchr FockPerm NpModel SpinModel SpinSpec SpinFacts SpinRound UFockSpec.
Import ListNotations.
Local Open Scope list_scope.

Section UFock.
  Variable K : cring.
  Local Open Scope K_scope.
  Add Ring KrUF : (c_th K).
  Variables n noa nva nob nvb : nat.
  Hypothesis Na : (noa + nva)%nat = n.
  Hypothesis Nb : (nob + nvb)%nat = n.
  Notation no := (noa + nob)%nat.
  Notation nv := (nva + nvb)%nat.
  Notation pi := (pix noa nob nva).
  Notation opsum := (list (K * list op)).

  (** *** Integrals over spin orbitals *)
  Definition ix (x : nat) : nat := if Nat.leb n x then (x - n)%nat else x.
  Definition so1 (ha hb : nat -> nat -> K) (p q : nat) : K :=
    match Nat.leb n p, Nat.leb n q with
    | false, false => ha (ix p) (ix q) | true, true => hb (ix p) (ix q) | _, _ => 0
    end.
  Definition so2 (Ia Ib Iab : nat -> nat -> nat -> nat -> K) (p q r s : nat) : K :=
    match Nat.leb n p, Nat.leb n q, Nat.leb n r, Nat.leb n s with
    | false, false, false, false => anti Ia (ix p) (ix q) (ix r) (ix s)
    | true, true, true, true => anti Ib (ix p) (ix q) (ix r) (ix s)
    | false, true, false, true => Iab (ix p) (ix q) (ix r) (ix s)
    | true, false, true, false => Iab (ix q) (ix p) (ix s) (ix r)
    | false, true, true, false => - Iab (ix p) (ix q) (ix s) (ix r)
    | true, false, false, true => - Iab (ix q) (ix p) (ix r) (ix s)
    | _, _, _, _ => 0
    end.

  Lemma leb_at s p : (p < n)%nat -> Nat.leb n (at_spin n s p) = s.
  Proof. intros L. destruct s; cbn [at_spin]; [apply Nat.leb_le; lia|apply Nat.leb_gt; lia]. Qed.
  Lemma ix_at s p : (p < n)%nat -> ix (at_spin n s p) = p.
  Proof. intros L. unfold ix. rewrite leb_at by exact L. destruct s; cbn [at_spin]; lia. Qed.

  (** a class: occupied (false) or virtual (true) *)
  Definition sz (c s : bool) : nat := if c then side_len s nva nvb else side_len s noa nob.
  Definition fst_of (c s : bool) : nat := if c then side_len s noa nob else 0%nat.
  Definition cst (c : bool) : nat := if c then no else 0%nat.

  Lemma in_n c s i : (i < sz c s)%nat -> (fst_of c s + i < n)%nat.
  Proof. unfold sz, fst_of, side_len. destruct c, s; lia. Qed.
  Lemma pi_at c s i : (i < sz c s)%nat -> pi (cst c + at_spin (sz c false) s i) = at_spin n s (fst_of c s + i).
  Proof.
    unfold sz, fst_of, cst, side_len, at_spin, pix. intros L.
    destruct c, s; repeat match goal with |- context[Nat.ltb ?x ?y] => destruct (Nat.ltb_spec x y) end; lia.
  Qed.

  Section Ham.
    Variables ha hb : nat -> nat -> K.
    Variables Ia Ib Iab : nat -> nat -> nat -> nat -> K.
    Definition hC (x y : nat) : K := so1 ha hb (pi x) (pi y).
    Definition gC (x y z w : nat) : K := so2 Ia Ib Iab (pi x) (pi y) (pi z) (pi w).

    Lemma hC_at c1 c2 s1 s2 i j : (i < sz c1 s1)%nat -> (j < sz c2 s2)%nat ->
      hC (cst c1 + at_spin (sz c1 false) s1 i) (cst c2 + at_spin (sz c2 false) s2 j)
      = match s1, s2 with false, false => ha (fst_of c1 false + i) (fst_of c2 false + j)
        | true, true => hb (fst_of c1 true + i) (fst_of c2 true + j) | _, _ => 0 end.
    Proof.
      intros L1 L2. pose proof (in_n _ _ _ L1). pose proof (in_n _ _ _ L2). unfold hC, so1. rewrite !pi_at by assumption.
      rewrite !leb_at, !ix_at by assumption. destruct s1, s2; reflexivity.
    Qed.
    Lemma gC_at c1 c2 c3 c4 s1 s2 s3 s4 i j k l :
      (i < sz c1 s1)%nat -> (j < sz c2 s2)%nat -> (k < sz c3 s3)%nat -> (l < sz c4 s4)%nat ->
      gC (cst c1 + at_spin (sz c1 false) s1 i) (cst c2 + at_spin (sz c2 false) s2 j)
         (cst c3 + at_spin (sz c3 false) s3 k) (cst c4 + at_spin (sz c4 false) s4 l)
      = let p := (fst_of c1 s1 + i)%nat in let q := (fst_of c2 s2 + j)%nat in
        let r := (fst_of c3 s3 + k)%nat in let s := (fst_of c4 s4 + l)%nat in
        match s1, s2, s3, s4 with
        | false, false, false, false => anti Ia p q r s
        | true, true, true, true => anti Ib p q r s
        | false, true, false, true => Iab p q r s
        | true, false, true, false => Iab q p s r
        | false, true, true, false => - Iab p q s r
        | true, false, false, true => - Iab q p r s
        | _, _, _, _ => 0
        end.
    Proof.
      intros L1 L2 L3 L4. pose proof (in_n _ _ _ L1). pose proof (in_n _ _ _ L2). pose proof (in_n _ _ _ L3).
      pose proof (in_n _ _ _ L4). unfold gC, so2. rewrite !pi_at by assumption.
      rewrite !leb_at, !ix_at by assumption. destruct s1, s2, s3, s4; reflexivity.
    Qed.

    Hypothesis PA : pair_symmetric n Ia.
    Hypothesis PB : pair_symmetric n Ib.

    Lemma ix_lt x : (x < n + n)%nat -> (ix x < n)%nat.
    Proof. unfold ix. destruct (Nat.leb_spec n x); lia. Qed.
    Lemma pi_lt x : (x < no + nv)%nat -> (pi x < n + n)%nat.
    Proof. intros L. pose proof (pix_lt noa nob nva nvb x ltac:(lia)). lia. Qed.

    Lemma anti_gC : antisym_ints (no + nv) gC.
    Proof.
      intros p q r s Lp Lq Lr Ls. unfold gC.
      pose proof (ix_lt _ (pi_lt _ Lp)) as Ip. pose proof (ix_lt _ (pi_lt _ Lq)) as Iq.
      pose proof (ix_lt _ (pi_lt _ Lr)) as Ir. pose proof (ix_lt _ (pi_lt _ Ls)) as Is.
      unfold so2.
      destruct (Nat.leb n (pi p)), (Nat.leb n (pi q)), (Nat.leb n (pi r)), (Nat.leb n (pi s)); unfold anti;
        split; try ring.
      - rewrite (PB (ix (pi q)) (ix (pi p)) (ix (pi r)) (ix (pi s))), (PB (ix (pi q)) (ix (pi p)) (ix (pi s)) (ix (pi r))) by assumption. ring.
      - rewrite (PA (ix (pi q)) (ix (pi p)) (ix (pi r)) (ix (pi s))), (PA (ix (pi q)) (ix (pi p)) (ix (pi s)) (ix (pi r))) by assumption. ring.
    Qed.

    (** *** The Fock matrix *)
    Lemma fock_at c1 c2 s1 s2 i j : (i < sz c1 s1)%nat -> (j < sz c2 s2)%nat ->
      fock no hC gC (cst c1 + at_spin (sz c1 false) s1 i) (cst c2 + at_spin (sz c2 false) s2 j)
      = match s1, s2 with
        | false, false => fock_alpha noa nob ha Ia Iab (fst_of c1 false + i) (fst_of c2 false + j)
        | true, true => fock_beta noa nob hb Ib Iab (fst_of c1 true + i) (fst_of c2 true + j)
        | _, _ => 0 end.
    Proof.
      intros L1 L2. unfold fock. rewrite hC_at by assumption. rewrite sumN_plus.
      assert (EA : forall x, (x < noa)%nat -> gC (cst c1 + at_spin (sz c1 false) s1 i) x (cst c2 + at_spin (sz c2 false) s2 j) x
          = match s1, s2 with false, false => anti Ia (fst_of c1 false + i) x (fst_of c2 false + j) x
            | true, true => Iab x (fst_of c1 true + i)%nat x (fst_of c2 true + j)%nat | _, _ => 0 end).
      { intros x Lx. pose proof (gC_at c1 false c2 false s1 false s2 false i x j x L1 Lx L2 Lx) as E.
        cbn [cst at_spin Nat.add fst_of] in E. rewrite E. destruct s1, s2; reflexivity. }
      assert (EB : forall x, (x < nob)%nat -> gC (cst c1 + at_spin (sz c1 false) s1 i) (noa + x) (cst c2 + at_spin (sz c2 false) s2 j) (noa + x)
          = match s1, s2 with false, false => Iab (fst_of c1 false + i)%nat x (fst_of c2 false + j)%nat x
            | true, true => anti Ib (fst_of c1 true + i) x (fst_of c2 true + j) x | _, _ => 0 end).
      { intros x Lx. pose proof (gC_at c1 false c2 false s1 true s2 true i x j x L1 Lx L2 Lx) as E.
        cbn [cst at_spin Nat.add fst_of sz side_len] in E. rewrite E. destruct s1, s2; reflexivity. }
      rewrite (sumN_ext K noa _ _ EA), (sumN_ext K nob _ _ EB).
      unfold fock_alpha, fock_beta. destruct s1, s2; rewrite ?sumN_0; try ring.
    Qed.

    Lemma at_cls c p : (p < sz c false + sz c true)%nat -> exists s i, p = at_spin (sz c false) s i /\ (i < sz c s)%nat.
    Proof.
      intros L. destruct (at_split _ _ _ L) as (s & i & E & Li). exists s, i. split; [exact E|].
      destruct s; exact Li.
    Qed.
    Lemma block1_so c1 c2 (t A B : tensor K) f : holds [sz c1 false; sz c2 false] [sz c1 true; sz c2 true] t (spin2 A B) ->
      (forall s1 s2 i j, (i < sz c1 s1)%nat -> (j < sz c2 s2)%nat ->
        match spin2 A B [s1; s2] with Some u => dat u [i; j] | None => 0 end = f (cst c1 + at_spin (sz c1 false) s1 i)%nat (cst c2 + at_spin (sz c2 false) s2 j)%nat) ->
      forall p q, (p < sz c1 false + sz c1 true)%nat -> (q < sz c2 false + sz c2 true)%nat -> dat t [p; q] = f (cst c1 + p)%nat (cst c2 + q)%nat.
    Proof.
      intros H E p q Lp Lq. destruct (at_cls _ _ Lp) as (s1 & i & -> & Li). destruct (at_cls _ _ Lq) as (s2 & j & -> & Lj).
      rewrite (entry2 K _ _ _ _ _ _ s1 s2 i j H) by (destruct s1, s2; assumption). apply E; assumption.
    Qed.

    Variables Fa Fb : one_e K.
    Variables Iaa Ibb : two_e K.
    Variable J : two_e_full K.
    Hypothesis BFa : blocks1 noa nva (fock_alpha noa nob ha Ia Iab) Fa.
    Hypothesis BFb : blocks1 nob nvb (fock_beta noa nob hb Ib Iab) Fb.
    Hypothesis BIa : blocks2 noa nva (anti Ia) Iaa.
    Hypothesis BIb : blocks2 nob nvb (anti Ib) Ibb.
    Hypothesis BJ : blocks2_mixed noa nva nob nvb Iab J.

    Lemma F_blocks F : F_to_spin Fa Fb noa nva nob nvb = Some F -> blocks1 no nv (fock no hC gC) F.
    Proof.
      intros E. destruct BFa as (Oa & A1 & A2 & A3 & A4). destruct BFb as (Ob & B1 & B2 & B3 & B4).
      destruct (F_to_spin_holds K Fa Fb noa nva nob nvb Oa Ob) as (F' & E' & H1 & H2 & H3 & H4).
      rewrite E in E'. injection E' as <-.
      split; [|split; [|split; [|split]]].
      - destruct H1 as (S1 & _), H2 as (S2 & _), H3 as (S3 & _), H4 as (S4 & _). repeat split; assumption.
      - apply (block1_so false false _ _ _ _ H1). intros s1 s2 i j Li Lj. rewrite fock_at by assumption.
        destruct s1, s2; cbn [spin2]; auto.
      - apply (block1_so false true _ _ _ _ H2). intros s1 s2 i j Li Lj. rewrite fock_at by assumption.
        destruct s1, s2; cbn [spin2]; auto.
      - apply (block1_so true false _ _ _ _ H3). intros s1 s2 i j Li Lj. rewrite fock_at by assumption.
        destruct s1, s2; cbn [spin2]; auto.
      - apply (block1_so true true _ _ _ _ H4). intros s1 s2 i j Li Lj. rewrite fock_at by assumption.
        destruct s1, s2; cbn [spin2]; auto.
    Qed.

    Lemma block2_so c1 c2 c3 c4 (t aaaa bbbb ab ba x y : tensor K) :
      holds [sz c1 false; sz c2 false; sz c3 false; sz c4 false] [sz c1 true; sz c2 true; sz c3 true; sz c4 true] t
        (spin4 aaaa bbbb ab (swap_both ba) (tneg (swap_ket x)) (tneg (swap_bra y))) ->
      block2 aaaa (anti Ia) (fst_of c1 false) (sz c1 false) (fst_of c2 false) (sz c2 false) (fst_of c3 false) (sz c3 false) (fst_of c4 false) (sz c4 false) ->
      block2 bbbb (anti Ib) (fst_of c1 true) (sz c1 true) (fst_of c2 true) (sz c2 true) (fst_of c3 true) (sz c3 true) (fst_of c4 true) (sz c4 true) ->
      block2 ab Iab (fst_of c1 false) (sz c1 false) (fst_of c2 true) (sz c2 true) (fst_of c3 false) (sz c3 false) (fst_of c4 true) (sz c4 true) ->
      block2 ba Iab (fst_of c2 false) (sz c2 false) (fst_of c1 true) (sz c1 true) (fst_of c4 false) (sz c4 false) (fst_of c3 true) (sz c3 true) ->
      block2 x Iab (fst_of c1 false) (sz c1 false) (fst_of c2 true) (sz c2 true) (fst_of c4 false) (sz c4 false) (fst_of c3 true) (sz c3 true) ->
      block2 y Iab (fst_of c2 false) (sz c2 false) (fst_of c1 true) (sz c1 true) (fst_of c3 false) (sz c3 false) (fst_of c4 true) (sz c4 true) ->
      block2 t gC (cst c1) (sz c1 false + sz c1 true) (cst c2) (sz c2 false + sz c2 true)
        (cst c3) (sz c3 false + sz c3 true) (cst c4) (sz c4 false + sz c4 true).
    Proof.
      intros H (_ & Ba) (_ & Bb) (_ & Bab) (_ & Bba) (_ & Bx) (_ & By). split; [exact (proj1 H)|].
      intros p q r s Lp Lq Lr Ls.
      destruct (at_cls _ _ Lp) as (s1 & i & -> & Li). destruct (at_cls _ _ Lq) as (s2 & j & -> & Lj).
      destruct (at_cls _ _ Lr) as (s3 & k & -> & Lk). destruct (at_cls _ _ Ls) as (s4 & l & -> & Ll).
      rewrite (entry4 K _ _ _ _ _ _ _ _ _ _ s1 s2 s3 s4 i j k l H) by (destruct s1, s2, s3, s4; assumption).
      rewrite gC_at by assumption. cbv zeta.
      destruct s1, s2, s3, s4; cbn [spin4]; try reflexivity; cbn [tneg swap_both swap_ket swap_bra swap map nth dat shp]; auto;
        try (apply f_equal; auto).
    Qed.

    Lemma I_blocks I : int_to_spin2 Iaa Ibb J noa nva nob nvb = Some I -> blocks2 no nv gC I.
    Proof.
      intros E.
      destruct BIa as (A1 & A2 & A3 & A4 & A5 & A6 & A7 & A8 & A9).
      destruct BIb as (B1 & B2 & B3 & B4 & B5 & B6 & B7 & B8 & B9).
      destruct BJ as (J1 & J2 & J3 & J4 & J5 & J6 & J7 & J8 & J9 & J10 & J11 & J12 & J13 & J14 & J15 & J16).
      assert (Sa : two_e_shape noa nva Iaa).
      { exact (conj (proj1 A1) (conj (proj1 A2) (conj (proj1 A3) (conj (proj1 A4) (conj (proj1 A5) (conj (proj1 A6) (conj (proj1 A7) (conj (proj1 A8) (proj1 A9))))))))). }
      assert (Sb : two_e_shape nob nvb Ibb).
      { exact (conj (proj1 B1) (conj (proj1 B2) (conj (proj1 B3) (conj (proj1 B4) (conj (proj1 B5) (conj (proj1 B6) (conj (proj1 B7) (conj (proj1 B8) (proj1 B9))))))))). }
      assert (SJ : two_e_full_ok noa nva nob nvb J).
      { exact (conj (proj1 J1) (conj (proj1 J2) (conj (proj1 J3) (conj (proj1 J4) (conj (proj1 J5) (conj (proj1 J6) (conj (proj1 J7) (conj (proj1 J8) (conj (proj1 J9) (conj (proj1 J10) (conj (proj1 J11) (conj (proj1 J12) (conj (proj1 J13) (conj (proj1 J14) (conj (proj1 J15) (proj1 J16)))))))))))))))). }
      destruct (int_to_spin2_holds K Iaa Ibb J noa nva nob nvb Sa Sb SJ) as (I' & E' & H1 & H2 & H3 & H4 & H5 & H6 & H7 & H8 & H9).
      rewrite E in E'. injection E' as <-.
      split; [|split; [|split; [|split; [|split; [|split; [|split; [|split]]]]]]].
      - exact (block2_so true true true true _ _ _ _ _ _ _ H1 A1 B1 J1 J1 J1 J1).
      - exact (block2_so true true true false _ _ _ _ _ _ _ H2 A2 B2 J2 J3 J3 J2).
      - exact (block2_so true false true true _ _ _ _ _ _ _ H3 A3 B3 J4 J5 J4 J5).
      - exact (block2_so true true false false _ _ _ _ _ _ _ H4 A4 B4 J6 J6 J6 J6).
      - exact (block2_so true false true false _ _ _ _ _ _ _ H5 A5 B5 J7 J10 J8 J9).
      - exact (block2_so false false true true _ _ _ _ _ _ _ H6 A6 B6 J11 J11 J11 J11).
      - exact (block2_so true false false false _ _ _ _ _ _ _ H7 A7 B7 J15 J14 J15 J14).
      - exact (block2_so false false false true _ _ _ _ _ _ _ H8 A8 B8 J12 J13 J13 J12).
      - exact (block2_so false false false false _ _ _ _ _ _ _ H9 A9 B9 J16 J16 J16 J16).
    Qed.
  End Ham.
End UFock.
