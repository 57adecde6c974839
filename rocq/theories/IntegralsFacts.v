(** Facts about the model of integrals.py. *)
From Coq Require Import List Bool Arith ZArith Ring Lia.
From Verif Require Import Scalar Tensor NpModel CCSpec SpinSpec SpinFacts TestUtilsFacts IntegralsModel IntegralsSpec.
Import ListNotations.

Section Facts.
  Variable K : cring.
  Local Open Scope K_scope.
  Add Ring Kri : (c_th K).
  Notation T := (tensor K).

  Lemma ERI_pair (m : mol K) c1 c2 c3 c4 : exchangeable m -> ERI m c1 c2 c3 c4 = ERI m c3 c4 c1 c2.
  Proof.
    intros X. unfold ERI.
    transitivity (sumN (nao m) (fun mu => sumN (nao m) (fun la => sumN (nao m) (fun nu => sumN (nao m) (fun si =>
      bar m (c1 mu) * c2 nu * (bar m (c3 la) * c4 si) * eri m [mu; nu; la; si]))))).
    { apply sumN_ext. intros mu _. apply sumN_swap. }
    rewrite sumN_swap. apply sumN_ext. intros la _.
    transitivity (sumN (nao m) (fun mu => sumN (nao m) (fun si => sumN (nao m) (fun nu =>
      bar m (c1 mu) * c2 nu * (bar m (c3 la) * c4 si) * eri m [mu; nu; la; si])))).
    { apply sumN_ext. intros mu _. apply sumN_swap. }
    rewrite sumN_swap. apply sumN_ext. intros si _. apply sumN_ext. intros mu _. apply sumN_ext. intros nu _.
    rewrite X. ring.
  Qed.

  Definition tab4 (n1 n2 n3 n4 : nat) (f : nat -> nat -> nat -> nat -> K) : T :=
    mkT [n1; n2; n3; n4] (fun idx => match idx with [p; q; r; s] => f p q r s | _ => c0 end).

  Lemma ao2mo_eq m o1 o2 o3 o4 n1 n2 n3 n4 : coeffs m o1 n1 -> coeffs m o2 n2 -> coeffs m o3 n3 -> coeffs m o4 n4 ->
    ao2mo K m o1 o2 o3 o4 = Some (tab4 n1 n2 n3 n4 (fun p q r s =>
      ERI m (column o1 p) (column o2 q) (column o3 r) (column o4 s))).
  Proof.
    intros H1 H2 H3 H4. unfold ao2mo, transform. rewrite H1, H2, H3, H4, !Nat.eqb_refl. reflexivity.
  Qed.

  Lemma get_chem_eq m o1 o2 o3 o4 n1 n2 n3 n4 anti : coeffs m o1 n1 -> coeffs m o2 n2 -> coeffs m o3 n3 ->
    coeffs m o4 n4 ->
    exists x, get_chem K m o1 o2 o3 o4 anti = Some x /\ shp x = [n1; n2; n3; n4] /\
      forall p q r s, dat x [p; q; r; s] =
        ERI m (column o1 p) (column o2 q) (column o3 r) (column o4 s)
        - (if anti then ERI m (column o1 p) (column o4 s) (column o3 r) (column o2 q) else 0).
  Proof.
    intros H1 H2 H3 H4. unfold get_chem. rewrite (ao2mo_eq m o1 o2 o3 o4 n1 n2 n3 n4) by assumption. cbn [bindo].
    destruct anti.
    - rewrite (ao2mo_eq m o1 o4 o3 o2 n1 n4 n3 n2) by assumption. cbn [bindo].
      unfold ttrans, tab4. cbn [shp length]. change (is_perm [0; 3; 2; 1]%nat 4) with true. cbn iota. cbn [bindo].
      unfold tsub, tadd, tneg. cbn [shp map nth dat]. rewrite shape_refl. eexists. split; [reflexivity|].
      split; [reflexivity|]. intros p q r s. cbn [dat]. change (untrans [0; 3; 2; 1]%nat 4 [p; q; r; s]) with [p; s; r; q].
      cbn iota. ring.
    - eexists. split; [reflexivity|]. split; [reflexivity|]. intros p q r s. cbn. ring.
  Qed.

  Lemma get_phys_eq m o1 o2 o3 o4 n1 n2 n3 n4 anti : coeffs m o1 n1 -> coeffs m o2 n2 -> coeffs m o3 n3 ->
    coeffs m o4 n4 ->
    exists x, get_phys K m o1 o2 o3 o4 anti = Some x /\ shp x = [n1; n2; n3; n4] /\
      forall p q r s, dat x [p; q; r; s] =
        ERI m (column o1 p) (column o3 r) (column o2 q) (column o4 s)
        - (if anti then ERI m (column o1 p) (column o4 s) (column o2 q) (column o3 r) else 0).
  Proof.
    intros H1 H2 H3 H4. unfold get_phys.
    destruct (get_chem_eq m o1 o3 o2 o4 n1 n3 n2 n4 anti H1 H3 H2 H4) as (x & E & S & V). rewrite E. cbn [bindo].
    unfold ttrans. rewrite S. cbn [length]. change (is_perm [0; 2; 1; 3]%nat 4) with true. cbn iota.
    eexists. split; [reflexivity|]. split; [reflexivity|]. intros p q r s. cbn [dat].
    change (untrans [0; 2; 1; 3]%nat 4 [p; q; r; s]) with [p; r; q; s]. apply V.
  Qed.

  (** spin-block assembly *)
  Definition spin_row (a : nat) (p : nat) : bool := Nat.leb a p.

  Lemma so_a (oa ob : T) n k p : shp oa = [k; n] -> (p < n)%nat -> so oa ob (at_spin n false p) = (false, column oa p).
  Proof. intros S L. unfold so, at_spin. rewrite S. cbn [nth]. rewrite (proj2 (Nat.ltb_lt _ _) L). reflexivity. Qed.
  Lemma so_b (oa ob : T) n k p : shp oa = [k; n] -> so oa ob (at_spin n true p) = (true, column ob p).
  Proof.
    intros S. unfold so, at_spin. rewrite S. cbn [nth]. replace (n + p <? n)%nat with false by (symmetry; apply Nat.ltb_ge; lia).
    f_equal. f_equal. lia.
  Qed.

  Lemma in4' a b c d i j k l : inrange [a; b; c; d] [i; j; k; l] <-> (i < a /\ j < b /\ k < c /\ l < d)%nat.
  Proof. exact (in4 a b c d i j k l). Qed.

  Lemma split1 a b p : (p < a + b)%nat -> exists s i, p = at_spin a s i /\ (i < side_len s a b)%nat.
  Proof.
    intros H. destruct (Nat.leb_spec a p).
    - exists true, (p - a)%nat. cbn. lia.
    - exists false, p. cbn. lia.
  Qed.

  Ltac hset H ts := let t := fresh "t" in let E := fresh "E" in let H' := fresh "H" in
    match type of H with holds ?na ?nb ?t0 ?b =>
      match goal with |- context[tset _ ?u t0] =>
        destruct (holds_set K na nb t0 b ts u H eq_refl) as (t & E & H');
        [cbn [sels side_len]; assumption || reflexivity
        |cbn [SpinFacts.sides combine map SpinFacts.side fst snd] in E; rewrite E; cbn [bindo]; clear E H] end end.

  Lemma get_chemu_eq m o1 o2 o3 o4 p1 p2 p3 p4 a1 a2 a3 a4 b1 b2 b3 b4 anti :
    coeffs m o1 a1 -> coeffs m o2 a2 -> coeffs m o3 a3 -> coeffs m o4 a4 ->
    coeffs m p1 b1 -> coeffs m p2 b2 -> coeffs m p3 b3 -> coeffs m p4 b4 ->
    exists x, get_chemu K m o1 o2 o3 o4 p1 p2 p3 p4 anti = Some x /\
      shp x = [a1 + b1; a2 + b2; a3 + b3; a4 + b4]%nat /\
      forall p q r s, inrange (shp x) [p; q; r; s] -> dat x [p; q; r; s] =
        soERI m (so o1 p1 p) (so o2 p2 q) (so o3 p3 r) (so o4 p4 s)
        - (if anti then soERI m (so o1 p1 p) (so o4 p4 s) (so o3 p3 r) (so o2 p2 q) else 0).
  Proof.
    intros H1 H2 H3 H4 G1 G2 G3 G4. unfold get_chemu.
    destruct (get_chem_eq m o1 o2 o3 o4 a1 a2 a3 a4 anti H1 H2 H3 H4) as (Ia & Ea & Sa & Va). rewrite Ea. cbn [bindo].
    destruct (get_chem_eq m p1 p2 p3 p4 b1 b2 b3 b4 anti G1 G2 G3 G4) as (Ib & Eb & Sb & Vb). rewrite Eb. cbn [bindo].
    destruct (get_chem_eq m o1 o2 p3 p4 a1 a2 b3 b4 false H1 H2 G3 G4) as (Ic & Ec & Sc & Vc). rewrite Ec. cbn [bindo].
    destruct (get_chem_eq m p1 p2 o3 o4 b1 b2 a3 a4 false G1 G2 H3 H4) as (Id & Ed & Sd & Vd). rewrite Ed. cbn [bindo].
    unfold ncols. rewrite H1, H2, H3, H4, G1, G2, G3, G4. cbn [bindo].
    pose proof (holds_zeros K [a1; a2; a3; a4] [b1; b2; b3; b4] eq_refl) as Z. cbn [sums] in Z.
    hset Z [false; false; false; false]. hset H [true; true; true; true].
    hset H0 [false; false; true; true]. hset H [true; true; false; false].
    destruct anti.
    - destruct (get_chem_eq m o1 o4 p3 p2 a1 a4 b3 b2 false H1 H4 G3 G2) as (Ie & Ee & Se & Ve). rewrite Ee. cbn [bindo].
      destruct (get_chem_eq m p1 p4 o3 o2 b1 b4 a3 a2 false G1 G4 H3 H2) as (If & Ef & Sf & Vf). rewrite Ef. cbn [bindo].
      unfold ttrans. rewrite Se, Sf. cbn [length]. change (is_perm [0; 3; 2; 1]%nat 4) with true. cbn iota. cbn [bindo map nth].
      hset H0 [false; true; true; false].
      match goal with |- context[tset _ ?u t3] =>
        destruct (holds_set K _ _ t3 _ [true; false; false; true] u H eq_refl) as (t4 & E & (S & L & V)); [reflexivity|] end.
      cbn [SpinFacts.sides combine map SpinFacts.side fst snd] in E; rewrite E. exists t4. split; [reflexivity|].
      split; [exact S|]. intros p q r s R. rewrite S in R.
      cbn [sums] in R. apply in4 in R. destruct R as (R1 & R2 & R3 & R4).
      apply split1 in R1 as (s1 & p' & -> & R1). apply split1 in R2 as (s2 & q' & -> & R2).
      apply split1 in R3 as (s3 & r' & -> & R3). apply split1 in R4 as (s4 & s' & -> & R4).
      change [at_spin a1 s1 p'; at_spin a2 s2 q'; at_spin a3 s3 r'; at_spin a4 s4 s'] with
        (ats [a1; a2; a3; a4]%nat [s1; s2; s3; s4] [p'; q'; r'; s']).
      rewrite V by (reflexivity || (cbn [sels]; apply in4; auto)).
      destruct s1, s2, s3, s4;
        cbn [side_len] in R1, R2, R3, R4; cbn [bools_eqb Bool.eqb andb];
        rewrite ?(so_a o1 p1 _ _ _ H1), ?(so_a o2 p2 _ _ _ H2), ?(so_a o3 p3 _ _ _ H3), ?(so_a o4 p4 _ _ _ H4),
          ?(so_b o1 p1 _ _ _ H1), ?(so_b o2 p2 _ _ _ H2), ?(so_b o3 p3 _ _ _ H3), ?(so_b o4 p4 _ _ _ H4) by assumption;
        unfold soERI; cbn [fst snd Bool.eqb andb]; rewrite ?Va, ?Vb, ?Vc, ?Vd; unfold tneg; cbn [dat];
        try (match goal with |- context[untrans ?a 4 [?i; ?j; ?k; ?l]] =>
          change (untrans a 4 [i; j; k; l]) with [i; l; k; j]; rewrite ?Ve, ?Vf end); ring.
    - destruct H0 as (S & L & V). eexists. split; [reflexivity|].
      split; [exact S|]. intros p q r s R. rewrite S in R.
      cbn [sums] in R. apply in4 in R. destruct R as (R1 & R2 & R3 & R4).
      apply split1 in R1 as (s1 & p' & -> & R1). apply split1 in R2 as (s2 & q' & -> & R2).
      apply split1 in R3 as (s3 & r' & -> & R3). apply split1 in R4 as (s4 & s' & -> & R4).
      change [at_spin a1 s1 p'; at_spin a2 s2 q'; at_spin a3 s3 r'; at_spin a4 s4 s'] with
        (ats [a1; a2; a3; a4]%nat [s1; s2; s3; s4] [p'; q'; r'; s']).
      rewrite V by (reflexivity || (cbn [sels]; apply in4; auto)).
      destruct s1, s2, s3, s4;
        cbn [side_len] in R1, R2, R3, R4; cbn [bools_eqb Bool.eqb andb];
        rewrite ?(so_a o1 p1 _ _ _ H1), ?(so_a o2 p2 _ _ _ H2), ?(so_a o3 p3 _ _ _ H3), ?(so_a o4 p4 _ _ _ H4),
          ?(so_b o1 p1 _ _ _ H1), ?(so_b o2 p2 _ _ _ H2), ?(so_b o3 p3 _ _ _ H3), ?(so_b o4 p4 _ _ _ H4) by assumption;
        unfold soERI; cbn [fst snd Bool.eqb andb]; rewrite ?Va, ?Vb, ?Vc, ?Vd; ring.
  Qed.

  Lemma get_chemu_all_eq m oa ob na nb anti : exchangeable m -> coeffs m oa na -> coeffs m ob nb ->
    exists x, get_chemu_all K m oa ob anti = Some x /\
      shp x = [na + nb; na + nb; na + nb; na + nb]%nat /\
      forall p q r s, inrange (shp x) [p; q; r; s] -> dat x [p; q; r; s] =
        soERI m (so oa ob p) (so oa ob q) (so oa ob r) (so oa ob s)
        - (if anti then soERI m (so oa ob p) (so oa ob s) (so oa ob r) (so oa ob q) else 0).
  Proof.
    intros X Ha Hb. unfold get_chemu_all. unfold ncols. rewrite Ha, Hb. cbn [bindo].
    rewrite (ao2mo_eq m oa oa oa oa na na na na), (ao2mo_eq m ob ob ob ob nb nb nb nb),
      (ao2mo_eq m oa oa ob ob na na nb nb) by assumption. cbn [bindo].
    pose proof (holds_zeros K [na; na; na; na] [nb; nb; nb; nb] eq_refl) as Z. cbn [sums] in Z.
    hset Z [false; false; false; false]. hset H [true; true; true; true].
    hset H0 [false; false; true; true].
    unfold ttrans at 1. unfold tab4 at 1. cbn [shp length]. change (is_perm [2; 3; 0; 1]%nat 4) with true. cbn iota.
    cbn [bindo map nth].
    hset H [true; true; false; false].
    destruct H0 as (S & L & V).
    assert (VV : forall p q r s, inrange (shp t2) [p; q; r; s] -> dat t2 [p; q; r; s] =
        soERI m (so oa ob p) (so oa ob q) (so oa ob r) (so oa ob s)).
    { intros p q r s R. rewrite S in R.
      cbn [sums] in R. apply in4 in R. destruct R as (R1 & R2 & R3 & R4).
      apply split1 in R1 as (s1 & p' & -> & R1). apply split1 in R2 as (s2 & q' & -> & R2).
      apply split1 in R3 as (s3 & r' & -> & R3). apply split1 in R4 as (s4 & s' & -> & R4).
      change [at_spin na s1 p'; at_spin na s2 q'; at_spin na s3 r'; at_spin na s4 s'] with
        (ats [na; na; na; na]%nat [s1; s2; s3; s4] [p'; q'; r'; s']).
      rewrite V by (reflexivity || (cbn [sels]; apply in4; auto)).
      destruct s1, s2, s3, s4; cbn [side_len] in R1, R2, R3, R4; cbn [bools_eqb Bool.eqb andb];
        rewrite ?(so_a oa ob _ _ _ Ha), ?(so_b oa ob _ _ _ Ha) by assumption;
        unfold soERI; cbn [fst snd Bool.eqb andb]; cbn [tab4 dat]; try reflexivity.
      change (untrans [2; 3; 0; 1]%nat 4 [p'; q'; r'; s']) with [r'; s'; p'; q']. cbn iota. apply ERI_pair, X. }
    destruct anti.
    - unfold ttrans. rewrite S. cbn [sums length]. change (is_perm [0; 3; 2; 1]%nat 4) with true. cbn iota. cbn [bindo].
      unfold tsub, tadd, tneg. rewrite S. cbn [sums shp map nth]. rewrite shape_refl. eexists. split; [reflexivity|].
      split; [reflexivity|]. cbn [shp dat]. intros p q r s R.
      change (untrans [0; 3; 2; 1]%nat 4 [p; q; r; s]) with [p; s; r; q].
      rewrite !VV by (rewrite S; cbn [sums]; apply in4 in R; apply in4; tauto). ring.
    - eexists. split; [reflexivity|]. split; [exact S|]. intros p q r s R. rewrite VV by exact R. ring.
  Qed.

  Lemma trans_phys (x : T) n1 n2 n3 n4 : shp x = [n1; n2; n3; n4] ->
    exists y, ttrans [0; 2; 1; 3]%nat x = Some y /\ shp y = [n1; n3; n2; n4] /\
      forall p q r s, dat y [p; q; r; s] = dat x [p; r; q; s].
  Proof.
    intros S. unfold ttrans. rewrite S. cbn [length]. change (is_perm [0; 2; 1; 3]%nat 4) with true. cbn iota.
    eexists. split; [reflexivity|]. split; reflexivity.
  Qed.

  Lemma get_phys_antiu_eq m o1 o2 o3 o4 p1 p2 p3 p4 a1 a2 a3 a4 b1 b2 b3 b4 :
    coeffs m o1 a1 -> coeffs m o2 a2 -> coeffs m o3 a3 -> coeffs m o4 a4 ->
    coeffs m p1 b1 -> coeffs m p2 b2 -> coeffs m p3 b3 -> coeffs m p4 b4 ->
    exists x, get_phys_antiu K m o1 o2 o3 o4 p1 p2 p3 p4 = Some x /\
      shp x = [a1 + b1; a2 + b2; a3 + b3; a4 + b4]%nat /\
      forall p q r s, inrange (shp x) [p; q; r; s] -> dat x [p; q; r; s] =
        phys_anti m (so o1 p1 p) (so o2 p2 q) (so o3 p3 r) (so o4 p4 s).
  Proof.
    intros H1 H2 H3 H4 G1 G2 G3 G4. unfold get_phys_antiu, get_chem_antiu.
    destruct (get_chemu_eq m o1 o3 o2 o4 p1 p3 p2 p4 a1 a3 a2 a4 b1 b3 b2 b4 true) as (x & E & S & V); try assumption.
    rewrite E. cbn [bindo]. destruct (trans_phys x _ _ _ _ S) as (y & E' & S' & V').
    exists y. split; [exact E'|]. split; [exact S'|]. intros p q r s R. rewrite V', V; [reflexivity|].
    rewrite S. rewrite S' in R. apply in4 in R. apply in4. tauto.
  Qed.

  Lemma get_physu_all_eq m oa ob na nb anti : exchangeable m -> coeffs m oa na -> coeffs m ob nb ->
    exists x, get_physu_all K m oa ob anti = Some x /\
      shp x = [na + nb; na + nb; na + nb; na + nb]%nat /\
      forall p q r s, inrange (shp x) [p; q; r; s] -> dat x [p; q; r; s] =
        if anti then phys_anti m (so oa ob p) (so oa ob q) (so oa ob r) (so oa ob s)
        else phys m (so oa ob p) (so oa ob q) (so oa ob r) (so oa ob s).
  Proof.
    intros X Ha Hb. unfold get_physu_all.
    destruct (get_chemu_all_eq m oa ob na nb anti X Ha Hb) as (x & E & S & V).
    rewrite E. cbn [bindo]. destruct (trans_phys x _ _ _ _ S) as (y & E' & S' & V').
    exists y. split; [exact E'|]. split; [exact S'|]. intros p q r s R. rewrite V', V.
    - destruct anti; [reflexivity|]. unfold phys. ring.
    - rewrite S. rewrite S' in R. apply in4 in R. apply in4. tauto.
  Qed.

  Lemma soERI_pair (m : mol K) x1 x2 x3 x4 : exchangeable m -> soERI m x1 x2 x3 x4 = soERI m x3 x4 x1 x2.
  Proof. intros X. unfold soERI. rewrite andb_comm. destruct (_ && _); [apply ERI_pair, X|reflexivity]. Qed.

  Lemma phys_anti_lead (m : mol K) x1 x2 x3 x4 : exchangeable m -> phys_anti m x1 x2 x3 x4 = - phys_anti m x2 x1 x3 x4.
  Proof.
    intros X. unfold phys_anti, phys. rewrite (soERI_pair m x1 x3), (soERI_pair m x1 x4) by exact X. ring.
  Qed.
  Lemma phys_anti_tail (m : mol K) x1 x2 x3 x4 : phys_anti m x1 x2 x3 x4 = - phys_anti m x1 x2 x4 x3.
  Proof. unfold phys_anti. ring. Qed.

  Lemma physu_all_antisym m oa ob na nb : exchangeable m -> coeffs m oa na -> coeffs m ob nb ->
    exists x, get_physu_all K m oa ob true = Some x /\ antisym_lead x /\ antisym_tail x /\
      get_phys_antiu_all K m oa ob = Some x.
  Proof.
    intros X Ha Hb. destruct (get_physu_all_eq m oa ob na nb true X Ha Hb) as (x & E & S & V).
    exists x. split; [exact E|]. split; [|split; [|exact E]].
    - intros i j k l R. rewrite !V by (rewrite S in *; apply in4 in R; apply in4; tauto). apply phys_anti_lead, X.
    - intros i j k l R. rewrite !V by (rewrite S in *; apply in4 in R; apply in4; tauto). apply phys_anti_tail.
  Qed.

  Lemma so_fst (oa ob : T) k na p : shp oa = [k; na] -> fst (so oa ob p) = (na <=? p)%nat.
  Proof.
    intros S. unfold so. rewrite S. cbn [nth]. destruct (Nat.ltb_spec p na); cbn [fst]; symmetry;
      [apply Nat.leb_gt|apply Nat.leb_le]; lia.
  Qed.

  Lemma physu_all_spin m oa ob na nb anti : exchangeable m -> coeffs m oa na -> coeffs m ob nb ->
    exists x, get_physu_all K m oa ob anti = Some x /\
      forall p q r s, inrange (shp x) [p; q; r; s] ->
        (is_beta na p + is_beta na q <> is_beta na r + is_beta na s)%nat -> dat x [p; q; r; s] = 0.
  Proof.
    intros X Ha Hb. destruct (get_physu_all_eq m oa ob na nb anti X Ha Hb) as (x & E & S & V).
    exists x. split; [exact E|]. intros p q r s R N. rewrite V by exact R.
    unfold is_beta in N. unfold phys_anti, phys, soERI. rewrite !(so_fst oa ob _ _ _ Ha).
    destruct (na <=? p), (na <=? q), (na <=? r), (na <=? s), anti; cbn in *; try ring; lia.
  Qed.

  (** ** eri_blocks *)
  Lemma columns_eq v occ (c : T) a : shp c = [a; length occ] ->
    exists c', columns K (chosen v) occ c = Some c' /\ shp c' = [a; length (positions v occ)] /\
      forall j, column c' j = column c (nth j (positions v occ) 0%nat).
  Proof.
    intros S. unfold columns. rewrite S, Nat.eqb_refl. eexists. split; [reflexivity|]. split; reflexivity.
  Qed.

  Lemma positions_lt v occ i : (i < length (positions v occ))%nat -> (nth i (positions v occ) 0 < length occ)%nat.
  Proof.
    intros H. pose proof (nth_In _ 0%nat H) as I. unfold positions in I at 2. apply filter_In in I.
    destruct I as [I _]. apply in_seq in I. lia.
  Qed.

  Lemma so_pos v occa occb (ca cb ca' cb' : T) a p : shp ca = [a; length occa] ->
    shp ca' = [a; length (positions v occa)] ->
    (forall j, column ca' j = column ca (nth j (positions v occa) 0%nat)) ->
    (forall j, column cb' j = column cb (nth j (positions v occb) 0%nat)) ->
    (p < length (so_positions v occa occb))%nat ->
    so ca' cb' p = so ca cb (nth p (so_positions v occa occb) 0%nat).
  Proof.
    intros Sa Sa' Ca Cb L. unfold so_positions in L. rewrite app_length, map_length in L.
    unfold so at 1. rewrite Sa'. cbn [nth]. unfold so_positions. destruct (Nat.ltb_spec p (length (positions v occa))).
    - rewrite app_nth1 by assumption. rewrite Ca. unfold so. rewrite Sa. cbn [nth].
      rewrite (proj2 (Nat.ltb_lt _ _)) by (apply positions_lt; assumption). reflexivity.
    - rewrite app_nth2 by assumption. rewrite Cb.
      rewrite (nth_indep (map _ _) 0%nat (length occa + 0)%nat) by (rewrite map_length; lia).
      rewrite (map_nth (fun i => (length occa + i)%nat)). unfold so. rewrite Sa. cbn [nth].
      rewrite (proj2 (Nat.ltb_ge _ _)) by lia. do 2 f_equal. lia.
  Qed.
  Lemma so_pos_lt v occa occb p : (p < length (so_positions v occa occb))%nat ->
    (nth p (so_positions v occa occb) 0 < length occa + length occb)%nat.
  Proof.
    intros L. unfold so_positions in *. rewrite app_length, map_length in L.
    destruct (Nat.ltb_spec p (length (positions v occa))).
    - rewrite app_nth1 by assumption. pose proof (positions_lt v occa p). lia.
    - rewrite app_nth2 by assumption.
      rewrite (nth_indep (map _ _) 0%nat (length occa + 0)%nat) by (rewrite map_length; lia).
      rewrite (map_nth (fun i => (length occa + i)%nat)).
      pose proof (positions_lt v occb (p - length (positions v occa))). lia.
  Qed.

  Lemma block_eq m occa occb moa mob J (sa sb : bool -> T) v1 v2 v3 v4 : exchangeable m ->
    coeffs m moa (length occa) -> coeffs m mob (length occb) ->
    get_phys_antiu_all K m moa mob = Some J ->
    (forall v, shp (sa v) = [nao m; length (positions v occa)] /\
      (forall j, column (sa v) j = column moa (nth j (positions v occa) 0%nat))) ->
    (forall v, shp (sb v) = [nao m; length (positions v occb)] /\
      (forall j, column (sb v) j = column mob (nth j (positions v occb) 0%nat))) ->
    exists u, get_phys_antiu K m (sa v1) (sa v2) (sa v3) (sa v4) (sb v1) (sb v2) (sb v3) (sb v4) = Some u /\
      is_ov_block occa occb J v1 v2 v3 v4 u.
  Proof.
    intros X Ha Hb EJ Hsa Hsb.
    destruct (get_physu_all_eq m moa mob _ _ true X Ha Hb) as (J' & EJ' & SJ & VJ).
    unfold get_phys_antiu_all in EJ. rewrite EJ in EJ'. injection EJ' as <-.
    edestruct (get_phys_antiu_eq m (sa v1) (sa v2) (sa v3) (sa v4) (sb v1) (sb v2) (sb v3) (sb v4)) as (u & E & S & V);
      [apply Hsa|apply Hsa|apply Hsa|apply Hsa|apply Hsb|apply Hsb|apply Hsb|apply Hsb|].
    assert (LL : forall v, (length (positions v occa) + length (positions v occb))%nat = length (so_positions v occa occb)).
    { intros v. unfold so_positions. rewrite app_length, map_length. reflexivity. }
    rewrite !LL in S.
    exists u. split; [exact E|]. split; [exact S|]. intros p q r s R. rewrite V by exact R.
    rewrite S in R. apply in4 in R. destruct R as (R1 & R2 & R3 & R4).
    rewrite VJ by (rewrite SJ; apply in4; auto using so_pos_lt).
    rewrite (so_pos v1 occa occb moa mob (sa v1) (sb v1) (nao m) p), (so_pos v2 occa occb moa mob (sa v2) (sb v2) (nao m) q),
      (so_pos v3 occa occb moa mob (sa v3) (sb v3) (nao m) r), (so_pos v4 occa occb moa mob (sa v4) (sb v4) (nao m) s);
      try assumption; try apply Hsa; try apply Hsb. reflexivity.
  Qed.

  Lemma build_eq m code occa occb moa mob (oa ob va vb : T) : exchangeable m ->
    coeffs m moa (length occa) -> coeffs m mob (length occb) ->
    columns K occupied occa moa = Some oa -> columns K virtual occa moa = Some va ->
    columns K occupied occb mob = Some ob -> columns K virtual occb mob = Some vb ->
    exists J B, get_phys_antiu_all K m moa mob = Some J /\ build_integrals K m code oa ob va vb = Some B /\
      blocks_of code occa occb J B.
  Proof.
    intros X Ha Hb E1 E2 E3 E4.
    destruct (get_physu_all_eq m moa mob _ _ true X Ha Hb) as (J & EJ & SJ & VJ).
    set (sa := fun v : bool => if v then va else oa). set (sb := fun v : bool => if v then vb else ob).
    assert (Hsa : forall v, shp (sa v) = [nao m; length (positions v occa)] /\
      (forall j, column (sa v) j = column moa (nth j (positions v occa) 0%nat))).
    { intros v. destruct (columns_eq v occa moa _ Ha) as (c' & E & S & C).
      destruct v; cbn [sa]; [change (chosen true) with virtual in E|change (chosen false) with occupied in E]; 
      [rewrite E in E2; injection E2 as <-|rewrite E in E1; injection E1 as <-]; split; assumption. }
    assert (Hsb : forall v, shp (sb v) = [nao m; length (positions v occb)] /\
      (forall j, column (sb v) j = column mob (nth j (positions v occb) 0%nat))).
    { intros v. destruct (columns_eq v occb mob _ Hb) as (c' & E & S & C).
      destruct v; cbn [sb]; [change (chosen true) with virtual in E|change (chosen false) with occupied in E]; 
      [rewrite E in E4; injection E4 as <-|rewrite E in E3; injection E3 as <-]; split; assumption. }
    assert (BB := fun v1 v2 v3 v4 => block_eq m occa occb moa mob J sa sb v1 v2 v3 v4 X Ha Hb EJ Hsa Hsb).
    exists J. unfold build_integrals, attr.
    destruct (BB true true true true) as (u1 & F1 & G1). destruct (BB true true true false) as (u2 & F2 & G2).
    destruct (BB true false true true) as (u3 & F3 & G3). destruct (BB true true false false) as (u4 & F4 & G4).
    destruct (BB true false true false) as (u5 & F5 & G5). destruct (BB false false true true) as (u6 & F6 & G6).
    destruct (BB true false false false) as (u7 & F7 & G7). destruct (BB false false false true) as (u8 & F8 & G8).
    destruct (BB false false false false) as (u9 & F9 & G9).
    cbn [sa sb] in F1, F2, F3, F4, F5, F6, F7, F8, F9. rewrite F1, F2, F3, F4, F5, F6, F7, F8, F9. cbn [bindo].
    unfold blocks_of, block_if.
    exists (EriB K
      (if Nat.eqb code 1 || Nat.eqb code 0 then Some u1 else None) (if Nat.eqb code 2 || Nat.eqb code 0 then Some u2 else None)
      (if Nat.eqb code 3 || Nat.eqb code 0 then Some u3 else None) (if Nat.eqb code 4 || Nat.eqb code 0 then Some u4 else None)
      (if Nat.eqb code 5 || Nat.eqb code 0 then Some u5 else None) (if Nat.eqb code 6 || Nat.eqb code 0 then Some u6 else None)
      (if Nat.eqb code 7 || Nat.eqb code 0 then Some u7 else None) (if Nat.eqb code 8 || Nat.eqb code 0 then Some u8 else None)
      (if Nat.eqb code 9 || Nat.eqb code 0 then Some u9 else None)).
    split; [exact EJ|]. split.
    - repeat match goal with |- context[if ?b then Some (Some _) else _] => destruct b; cbn [bindo] end; reflexivity.
    - cbn [e_vvvv e_vvvo e_vovv e_vvoo e_vovo e_oovv e_vooo e_ooov e_oooo].
      repeat split; match goal with |- if ?b then _ else _ => destruct b; [eexists; split; [reflexivity|eassumption]|reflexivity] end.
  Qed.

  Lemma eri_blocks_u m code occa occb moa mob : exchangeable m ->
    coeffs m moa (length occa) -> coeffs m mob (length occb) ->
    exists J B, get_phys_antiu_all_gen K m (Uscf K occa occb moa mob) = Some J /\
      eri_blocks K m (Uscf K occa occb moa mob) code = Some B /\ blocks_of code occa occb J B.
  Proof.
    intros X Ha Hb.
    destruct (columns_eq false occa moa _ Ha) as (oa & E1 & _). destruct (columns_eq true occa moa _ Ha) as (va & E2 & _).
    destruct (columns_eq false occb mob _ Hb) as (ob & E3 & _). destruct (columns_eq true occb mob _ Hb) as (vb & E4 & _).
    destruct (build_eq m code occa occb moa mob oa ob va vb X Ha Hb E1 E2 E3 E4) as (J & B & EJ & EB & H).
    exists J, B. split; [exact EJ|]. split; [|exact H].
    unfold eri_blocks. change (chosen false) with occupied in *. change (chosen true) with virtual in *.
    rewrite E1, E2, E3, E4. exact EB.
  Qed.
  Lemma eri_blocks_r m code occ mo : exchangeable m -> coeffs m mo (length occ) ->
    exists J B, get_phys_antiu_all_gen K m (Rscf K occ mo) = Some J /\
      eri_blocks K m (Rscf K occ mo) code = Some B /\ blocks_of code occ occ J B.
  Proof.
    intros X Ha.
    destruct (columns_eq false occ mo _ Ha) as (oa & E1 & _). destruct (columns_eq true occ mo _ Ha) as (va & E2 & _).
    destruct (build_eq m code occ occ mo mo oa oa va va X Ha Ha E1 E2 E1 E2) as (J & B & EJ & EB & H).
    exists J, B. split; [exact EJ|]. split; [|exact H].
    unfold eri_blocks. change (chosen false) with occupied in *. change (chosen true) with virtual in *.
    rewrite E1, E2. exact EB.
  Qed.
End Facts.
