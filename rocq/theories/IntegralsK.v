(** Facts about the k-point functions of integrals.py. *)
From Coq Require Import String Ascii.
From Coq Require Import List Bool Arith ZArith Ring Lia.
From Verif Require Import Scalar Tensor NpModel CCSpec SpinSpec TestUtilsFacts IntegralsModel IntegralsSpec
  IntegralsFacts.
Import ListNotations.

Definition gets {A} (d : A) (o : option A) : A := match o with Some x => x | None => d end.
Lemma all_some_map {A B} (d : B) (f : A -> option B) l : (forall k, In k l -> exists x, f k = Some x) ->
  all_some (map f l) = Some (map (fun k => gets d (f k)) l).
Proof.
  induction l as [|a l IH]; intros H; [reflexivity|]. cbn. destruct (H a (or_introl eq_refl)) as (x & E). rewrite E.
  cbn. rewrite IH by (intros; apply H; right; assumption). reflexivity.
Qed.
Lemma nth_table {B} (d : B) (g : nat -> B) n k : (k < n)%nat -> nth k (map g (seq 0 n)) d = g k.
Proof.
  intros H. rewrite (nth_indep _ d (g 0%nat)) by (rewrite map_length, seq_length; exact H).
  rewrite map_nth, seq_nth by exact H. reflexivity.
Qed.

Section Facts.
  Variable K : cring.
  Local Open Scope K_scope.
  Add Ring Krk : (c_th K).
  Notation T := (tensor K).

  Definition kmol (f : kscf K) k1 k2 k3 k4 : mol K := Mol K (k_nao f) (k_eri f k1 k2 k3 k4) (k_bar f).

  Lemma kERI_pair (f : kscf K) k1 k2 k3 k4 c1 c2 c3 c4 : k_exchangeable f ->
    kERI f k1 k2 k3 k4 c1 c2 c3 c4 = kERI f k3 k4 k1 k2 c3 c4 c1 c2.
  Proof.
    intros X. unfold kERI.
    transitivity (ERI (Mol K (k_nao f) (fun idx => match idx with [mu; nu; la; si] => k_eri f k1 k2 k3 k4 [mu; nu; la; si] | _ => c0 end)
      (k_bar f)) c1 c2 c3 c4); [reflexivity|].
    unfold ERI. cbn [nao eri bar]. set (n := k_nao f).
    transitivity (sumN n (fun mu => sumN n (fun la => sumN n (fun nu => sumN n (fun si =>
      k_bar f (c1 mu) * c2 nu * (k_bar f (c3 la) * c4 si) * k_eri f k1 k2 k3 k4 [mu; nu; la; si]))))).
    { apply sumN_ext. intros mu _. apply sumN_swap. }
    rewrite sumN_swap. apply sumN_ext. intros la _.
    transitivity (sumN n (fun mu => sumN n (fun si => sumN n (fun nu =>
      k_bar f (c1 mu) * c2 nu * (k_bar f (c3 la) * c4 si) * k_eri f k1 k2 k3 k4 [mu; nu; la; si])))).
    { apply sumN_ext. intros mu _. apply sumN_swap. }
    rewrite sumN_swap. apply sumN_ext. intros si _. apply sumN_ext. intros mu _. apply sumN_ext. intros nu _.
    rewrite (X k1 k2 k3 k4). ring.
  Qed.

  Lemma chem_solk_zero (f : kscf K) k1 k2 k3 k4 (o1 o2 o3 o4 : T) n1 n2 n3 n4 anti :
    (k1 < k_n f)%nat -> (k2 < k_n f)%nat -> (k3 < k_n f)%nat ->
    shp o1 = [k_nao f; n1] -> shp o2 = [k_nao f; n2] -> shp o3 = [k_nao f; n3] -> shp o4 = [k_nao f; n4] ->
    kconserv f k1 k2 k3 <> k4 ->
    get_chem_solk K f (k1, k2, k3, k4) o1 o2 o3 o4 anti = Some (tzeros K [n1; n2; n3; n4]).
  Proof.
    intros L1 L2 L3 S1 S2 S3 S4 N. unfold get_chem_solk.
    rewrite (proj2 (Nat.ltb_lt _ _) L1), (proj2 (Nat.ltb_lt _ _) L2), (proj2 (Nat.ltb_lt _ _) L3).
    unfold ncols. rewrite S1, S2, S3, S4. cbn [bindo andb negb].
    rewrite (proj2 (Nat.eqb_neq _ _)) by auto. reflexivity.
  Qed.

  Lemma chem_solk_eq (f : kscf K) k1 k2 k3 k4 (o1 o2 o3 o4 : T) n1 n2 n3 n4 anti :
    (k1 < k_n f)%nat -> (k2 < k_n f)%nat -> (k3 < k_n f)%nat -> (k4 < k_n f)%nat ->
    shp o1 = [k_nao f; n1] -> shp o2 = [k_nao f; n2] -> shp o3 = [k_nao f; n3] -> shp o4 = [k_nao f; n4] ->
    kconserv f k1 k2 k3 = k4 ->
    exists x, get_chem_solk K f (k1, k2, k3, k4) o1 o2 o3 o4 anti = Some x /\ shp x = [n1; n2; n3; n4] /\
      forall p q r s, dat x [p; q; r; s] =
        kERI f k1 k2 k3 k4 (column o1 p) (column o2 q) (column o3 r) (column o4 s)
        - (if anti then kERI f k1 k4 k3 k2 (column o1 p) (column o4 s) (column o3 r) (column o2 q) else 0).
  Proof.
    intros L1 L2 L3 L4 S1 S2 S3 S4 N. unfold get_chem_solk.
    rewrite (proj2 (Nat.ltb_lt _ _) L1), (proj2 (Nat.ltb_lt _ _) L2), (proj2 (Nat.ltb_lt _ _) L3).
    unfold ncols. rewrite S1, S2, S3, S4, N. cbn [bindo andb negb]. rewrite Nat.eqb_refl, (proj2 (Nat.ltb_lt _ _) L4).
    cbn [negb]. change (kao2mo K f k1 k2 k3 k4) with (ao2mo K (kmol f k1 k2 k3 k4)).
    change (kao2mo K f k1 k4 k3 k2) with (ao2mo K (kmol f k1 k4 k3 k2)).
    rewrite (ao2mo_eq K (kmol f k1 k2 k3 k4) o1 o2 o3 o4 n1 n2 n3 n4) by assumption. cbn [bindo].
    destruct anti.
    - rewrite (ao2mo_eq K (kmol f k1 k4 k3 k2) o1 o4 o3 o2 n1 n4 n3 n2) by assumption. cbn [bindo].
      unfold ttrans, tab4. cbn [shp length]. change (is_perm [0; 3; 2; 1]%nat 4) with true. cbn iota. cbn [bindo].
      unfold tsub, tadd, tneg. cbn [shp map nth dat]. rewrite shape_refl. eexists. split; [reflexivity|].
      split; [reflexivity|]. intros p q r s. cbn [dat]. change (untrans [0; 3; 2; 1]%nat 4 [p; q; r; s]) with [p; s; r; q].
      cbn iota. unfold kERI, kmol. ring.
    - eexists. split; [reflexivity|]. split; [reflexivity|]. intros p q r s. cbn. unfold kERI, kmol. ring.
  Qed.

  Lemma phys_solk_zero (f : kscf K) k1 k2 k3 k4 (o1 o2 o3 o4 : T) n1 n2 n3 n4 anti :
    (k1 < k_n f)%nat -> (k2 < k_n f)%nat -> (k3 < k_n f)%nat ->
    shp o1 = [k_nao f; n1] -> shp o2 = [k_nao f; n2] -> shp o3 = [k_nao f; n3] -> shp o4 = [k_nao f; n4] ->
    kconserv f k1 k3 k2 <> k4 ->
    exists x, get_phys_solk K f (k1, k2, k3, k4) o1 o2 o3 o4 anti = Some x /\ shp x = [n1; n2; n3; n4] /\
      forall p q r s, dat x [p; q; r; s] = 0.
  Proof.
    intros L1 L2 L3 S1 S2 S3 S4 N. unfold get_phys_solk.
    rewrite (chem_solk_zero f k1 k3 k2 k4 o1 o3 o2 o4 n1 n3 n2 n4 anti) by assumption. cbn [bindo].
    destruct (trans_phys K (tzeros K [n1; n3; n2; n4]) _ _ _ _ eq_refl) as (y & E & S & V).
    exists y. split; [exact E|]. split; [exact S|]. intros. rewrite V. reflexivity.
  Qed.
  Lemma phys_solk_eq (f : kscf K) k1 k2 k3 k4 (o1 o2 o3 o4 : T) n1 n2 n3 n4 anti :
    (k1 < k_n f)%nat -> (k2 < k_n f)%nat -> (k3 < k_n f)%nat -> (k4 < k_n f)%nat ->
    shp o1 = [k_nao f; n1] -> shp o2 = [k_nao f; n2] -> shp o3 = [k_nao f; n3] -> shp o4 = [k_nao f; n4] ->
    kconserv f k1 k3 k2 = k4 ->
    exists x, get_phys_solk K f (k1, k2, k3, k4) o1 o2 o3 o4 anti = Some x /\ shp x = [n1; n2; n3; n4] /\
      forall p q r s, dat x [p; q; r; s] =
        kERI f k1 k3 k2 k4 (column o1 p) (column o3 r) (column o2 q) (column o4 s)
        - (if anti then kERI f k1 k4 k2 k3 (column o1 p) (column o4 s) (column o2 q) (column o3 r) else 0).
  Proof.
    intros L1 L2 L3 L4 S1 S2 S3 S4 N. unfold get_phys_solk.
    destruct (chem_solk_eq f k1 k3 k2 k4 o1 o3 o2 o4 n1 n3 n2 n4 anti) as (x & E & S & V); try assumption.
    rewrite E. cbn [bindo]. destruct (trans_phys K x _ _ _ _ S) as (y & E' & S' & V').
    exists y. split; [exact E'|]. split; [exact S'|]. intros. rewrite V'. apply V.
  Qed.

  (** antisymmetry of the antisymmetrized k-point integrals under exchange of
      both the k-points and the orbitals of one pair *)
  Lemma phys_solk_antisym (f : kscf K) k1 k2 k3 k4 (o1 o2 o3 o4 : T) n1 n2 n3 n4 : momentum_table f -> k_exchangeable f ->
    (k1 < k_n f)%nat -> (k2 < k_n f)%nat -> (k3 < k_n f)%nat -> (k4 < k_n f)%nat ->
    shp o1 = [k_nao f; n1] -> shp o2 = [k_nao f; n2] -> shp o3 = [k_nao f; n3] -> shp o4 = [k_nao f; n4] ->
    exists x y z, get_phys_solk K f (k1, k2, k3, k4) o1 o2 o3 o4 true = Some x /\
      get_phys_solk K f (k1, k2, k4, k3) o1 o2 o4 o3 true = Some y /\
      get_phys_solk K f (k2, k1, k3, k4) o2 o1 o3 o4 true = Some z /\
      forall p q r s, dat x [p; q; r; s] = - dat y [p; q; s; r] /\ dat x [p; q; r; s] = - dat z [q; p; r; s].
  Proof.
    intros M X L1 L2 L3 L4 S1 S2 S3 S4.
    assert (A : forall a b c d, (a < k_n f)%nat -> (b < k_n f)%nat -> (c < k_n f)%nat -> (d < k_n f)%nat ->
      kconserv f a c b = d -> kconserv f a d b = c /\ kconserv f b c a = d).
    { intros a b c d La Lb Lc Ld E. destruct (M a c b La Lc Lb) as (_ & B & C). rewrite E in B, C. split; [exact B|].
      destruct (M b d a Lb Ld La) as (_ & B' & _). rewrite C in B'. exact B'. }
    destruct (Nat.eq_dec (kconserv f k1 k3 k2) k4) as [E|N].
    - destruct (A k1 k2 k3 k4 L1 L2 L3 L4 E) as (B & C).
      destruct (phys_solk_eq f k1 k2 k3 k4 o1 o2 o3 o4 n1 n2 n3 n4 true) as (x & Ex & _ & Vx); try assumption.
      destruct (phys_solk_eq f k1 k2 k4 k3 o1 o2 o4 o3 n1 n2 n4 n3 true) as (y & Ey & _ & Vy); try assumption.
      destruct (phys_solk_eq f k2 k1 k3 k4 o2 o1 o3 o4 n2 n1 n3 n4 true) as (z & Ez & _ & Vz); try assumption.
      exists x, y, z. do 3 (split; [assumption|]). intros p q r s. rewrite Vx, Vy, Vz. split; [ring|].
      rewrite (kERI_pair f k1 k3 k2 k4), (kERI_pair f k1 k4 k2 k3) by exact X. ring.
    - assert (N1 : kconserv f k1 k4 k2 <> k3).
      { intros B. destruct (A k1 k2 k4 k3 L1 L2 L4 L3 B) as (B' & _). contradiction. }
      assert (N2 : kconserv f k2 k3 k1 <> k4).
      { intros B. destruct (A k2 k1 k3 k4 L2 L1 L3 L4 B) as (_ & B'). contradiction. }
      destruct (phys_solk_zero f k1 k2 k3 k4 o1 o2 o3 o4 n1 n2 n3 n4 true) as (x & Ex & _ & Vx); try assumption.
      destruct (phys_solk_zero f k1 k2 k4 k3 o1 o2 o4 o3 n1 n2 n4 n3 true) as (y & Ey & _ & Vy); try assumption.
      destruct (phys_solk_zero f k2 k1 k3 k4 o2 o1 o3 o4 n2 n1 n3 n4 true) as (z & Ez & _ & Vz); try assumption.
      exists x, y, z. do 3 (split; [assumption|]). intros p q r s. rewrite Vx, Vy, Vz. split; ring.
  Qed.

  (** ** get_solk_integrals *)
  Lemma coeff_at (f : kscf K) k : kscf_ok f -> (k < k_n f)%nat ->
    exists o, nth_error (k_coeff f) k = Some o /\ shp o = [k_nao f; k_nmo f] /\ forall p, korb f k p = column o p.
  Proof.
    intros (_ & L & F & _) H. rewrite <- L in H. destruct (nth_error (k_coeff f) k) as [o|] eqn:E.
    - exists o. split; [reflexivity|]. split.
      + apply nth_error_In in E. rewrite Forall_forall in F. apply F, E.
      + intros p. unfold korb. rewrite (nth_error_nth _ _ _ E). reflexivity.
    - apply nth_error_None in E. lia.
  Qed.

  Lemma k_h1_eq (f : kscf K) k : kscf_ok f -> (k < k_n f)%nat ->
    exists x, k_h1 K f k = Some x /\ shp x = [k_nmo f; k_nmo f] /\
      forall p q, dat x [p; q] = sumN (k_nao f) (fun nu =>
        sumN (k_nao f) (fun mu => k_bar f (korb f k p mu) * dat (k_hcore f k) [mu; nu]) * korb f k q nu).
  Proof.
    intros Ok L. destruct (coeff_at f k Ok L) as (o & E & S & C). unfold k_h1. rewrite E. cbn [bindo].
    unfold dagger. rewrite S. cbn [bindo]. unfold matmul at 1. cbn [shp].
    destruct Ok as (_ & _ & _ & H). rewrite (H k L), Nat.eqb_refl. cbn [bindo]. unfold matmul. cbn [shp].
    rewrite S, Nat.eqb_refl. eexists. split; [reflexivity|]. split; [reflexivity|]. intros p q. rewrite !C. reflexivity.
  Qed.

  Lemma k_h2_eq (f : kscf K) chem kp kq kr : kscf_ok f -> momentum_table f ->
    (kp < k_n f)%nat -> (kq < k_n f)%nat -> (kr < k_n f)%nat ->
    exists x, k_h2 K f chem kp kq kr = Some x /\ shp x = [k_nmo f; k_nmo f; k_nmo f; k_nmo f] /\
      forall p q r s, dat x [p; q; r; s] =
        if chem then kERI f kp kq kr (kconserv f kp kq kr) (korb f kp p) (korb f kq q) (korb f kr r)
                       (korb f (kconserv f kp kq kr) s)
        else kERI f kp kr kq (kconserv f kp kr kq) (korb f kp p) (korb f kr r) (korb f kq q)
                       (korb f (kconserv f kp kr kq) s).
  Proof.
    intros Ok M Lp Lq Lr. unfold k_h2.
    destruct (coeff_at f kp Ok Lp) as (o1 & E1 & S1 & C1). destruct (coeff_at f kq Ok Lq) as (o2 & E2 & S2 & C2).
    destruct (coeff_at f kr Ok Lr) as (o3 & E3 & S3 & C3). rewrite E1, E2, E3. cbn [bindo].
    destruct chem.
    - destruct (M kp kq kr Lp Lq Lr) as (Ls & _). destruct (coeff_at f _ Ok Ls) as (o4 & E4 & S4 & C4).
      rewrite E4. cbn [bindo].
      destruct (chem_solk_eq f kp kq kr (kconserv f kp kq kr) o1 o2 o3 o4 _ _ _ _ false Lp Lq Lr Ls S1 S2 S3 S4 eq_refl)
        as (x & E & S & V). rewrite E. cbn [bindo]. rewrite S, shape_refl. exists x. split; [reflexivity|]. split; [exact S|].
      intros p q r s. rewrite V, C1, C2, C3, C4. ring.
    - destruct (M kp kr kq Lp Lr Lq) as (Ls & _). destruct (coeff_at f _ Ok Ls) as (o4 & E4 & S4 & C4).
      rewrite E4. cbn [bindo].
      destruct (phys_solk_eq f kp kq kr (kconserv f kp kr kq) o1 o2 o3 o4 _ _ _ _ false Lp Lq Lr Ls S1 S2 S3 S4 eq_refl)
        as (x & E & S & V). rewrite E. cbn [bindo]. rewrite S, shape_refl. exists x. split; [reflexivity|]. split; [exact S|].
      intros p q r s. rewrite V, C1, C2, C3, C4. ring.
  Qed.

  Lemma solk_eq (f : kscf K) ord chem : kscf_ok f -> momentum_table f -> is_chem ord = Some chem ->
    exists h1 h2, get_solk_integrals K f ord = Some (h1, h2) /\
      shp h1 = [k_n f; k_nmo f; k_nmo f] /\
      shp h2 = [k_n f; k_n f; k_n f; k_nmo f; k_nmo f; k_nmo f; k_nmo f] /\
      (forall k p q, (k < k_n f)%nat -> dat h1 [k; p; q] = sumN (k_nao f) (fun nu =>
        sumN (k_nao f) (fun mu => k_bar f (korb f k p mu) * dat (k_hcore f k) [mu; nu]) * korb f k q nu)) /\
      (forall kp kq kr p q r s, (kp < k_n f)%nat -> (kq < k_n f)%nat -> (kr < k_n f)%nat ->
        dat h2 [kp; kq; kr; p; q; r; s] =
        if chem then kERI f kp kq kr (kconserv f kp kq kr) (korb f kp p) (korb f kq q) (korb f kr r)
                       (korb f (kconserv f kp kq kr) s)
        else kERI f kp kr kq (kconserv f kp kr kq) (korb f kp p) (korb f kr r) (korb f kq q)
                       (korb f (kconserv f kp kr kq) s)).
  Proof.
    intros Ok M EC. pose proof Ok as (R & L & F & _). unfold get_solk_integrals. rewrite R, L. cbn [negb].
    rewrite (all_some_map (tzeros K [])).
    2:{ intros k I. apply in_seq in I. destruct (k_h1_eq f k Ok) as (x & E & _); [lia|]. exists x. exact E. }
    cbn [bindo]. rewrite EC. cbn [bindo].
    replace (forallb _ (k_coeff f)) with true.
    2:{ symmetry. apply forallb_forall. intros o I. rewrite Forall_forall in F. rewrite (F o I). apply Nat.eqb_refl. }
    cbn [negb].
    assert (Q : forall kp kq kr, (kp < k_n f)%nat -> (kq < k_n f)%nat -> (kr < k_n f)%nat ->
      exists x, k_h2 K f chem kp kq kr = Some x).
    { intros kp kq kr A B C. destruct (k_h2_eq f chem kp kq kr Ok M A B C) as (x & E & _). exists x; exact E. }
    assert (Q1 : forall kp kq, (kp < k_n f)%nat -> (kq < k_n f)%nat ->
      all_some (map (fun kr => k_h2 K f chem kp kq kr) (seq 0 (k_n f))) =
        Some (map (fun kr => gets (tzeros K []) (k_h2 K f chem kp kq kr)) (seq 0 (k_n f)))).
    { intros kp kq A B. apply all_some_map. intros kr I. apply in_seq in I. apply Q; lia. }
    assert (Q2 : forall kp, (kp < k_n f)%nat ->
      all_some (map (fun kq => all_some (map (fun kr => k_h2 K f chem kp kq kr) (seq 0 (k_n f)))) (seq 0 (k_n f))) =
        Some (map (fun kq => gets [] (all_some (map (fun kr => k_h2 K f chem kp kq kr) (seq 0 (k_n f))))) (seq 0 (k_n f)))).
    { intros kp A. apply all_some_map. intros kq I. apply in_seq in I. eexists. apply Q1; lia. }
    rewrite (all_some_map []).
    2:{ intros kp I. apply in_seq in I. eexists. apply Q2; lia. }
    cbn [bindo]. do 2 eexists. split; [reflexivity|].
    unfold stack at 1 2. cbn [shp]. rewrite !map_length, !seq_length. do 2 (split; [reflexivity|]). split.
    - intros k p q A. cbn [stack dat]. rewrite nth_table by exact A.
      destruct (k_h1_eq f k Ok A) as (x & E & _ & V). rewrite E. cbn [gets]. apply V.
    - intros kp kq kr p q r s A B C. unfold stack at 1. cbn [dat]. rewrite map_map, nth_table by exact A.
      rewrite Q2 by exact A. cbn [gets]. unfold stack at 1. cbn [dat]. rewrite map_map, nth_table by exact B.
      rewrite Q1 by assumption. cbn [gets]. unfold stack. cbn [dat]. rewrite nth_table by exact C.
      destruct (k_h2_eq f chem kp kq kr Ok M A B C) as (x & E & _ & V). rewrite E. cbn [gets]. apply V.
  Qed.

  Lemma solk_phys_chem (f : kscf K) oc op : kscf_ok f -> momentum_table f -> is_chem oc = Some true -> is_chem op = Some false ->
    exists h1 hc hp, get_solk_integrals K f oc = Some (h1, hc) /\
      (exists h1', get_solk_integrals K f op = Some (h1', hp) /\ teq h1' h1) /\
      forall kp kq kr p q r s, (kp < k_n f)%nat -> (kq < k_n f)%nat -> (kr < k_n f)%nat ->
        dat hp [kp; kq; kr; p; q; r; s] = dat hc [kp; kr; kq; p; r; q; s].
  Proof.
    intros Ok M Ec Ep. destruct (solk_eq f oc true Ok M Ec) as (h1 & hc & E & S1 & S2 & V1 & V2).
    destruct (solk_eq f op false Ok M Ep) as (h1' & hp & E' & S1' & S2' & V1' & V2').
    exists h1, hc, hp. split; [exact E|]. split.
    - exists h1'. split; [exact E'|]. split; [congruence|]. rewrite S1'. intros idx R.
      destruct idx as [|k [|p [|q [|]]]]; try (exfalso; apply F2len in R; discriminate R).
      assert (k < k_n f)%nat by (inversion R; assumption). rewrite V1, V1' by assumption. reflexivity.
    - intros kp kq kr p q r s A B C. rewrite V2, V2' by assumption. reflexivity.
  Qed.

  Lemma solk_exchange (f : kscf K) oc : kscf_ok f -> momentum_table f -> k_exchangeable f -> is_chem oc = Some true ->
    exists h1 h2, get_solk_integrals K f oc = Some (h1, h2) /\
      forall kp kq kr p q r s, (kp < k_n f)%nat -> (kq < k_n f)%nat -> (kr < k_n f)%nat ->
        dat h2 [kp; kq; kr; p; q; r; s] = dat h2 [kr; kconserv f kp kq kr; kp; r; s; p; q].
  Proof.
    intros Ok M X Ec. destruct (solk_eq f oc true Ok M Ec) as (h1 & h2 & E & S1 & S2 & V1 & V2).
    exists h1, h2. split; [exact E|]. intros kp kq kr p q r s A B C. destruct (M kp kq kr A B C) as (D & D1 & D2).
    rewrite !V2 by assumption. rewrite D2. apply kERI_pair, X.
  Qed.

  (** h1 is Hermitian when the core Hamiltonian is *)
  Lemma sumN_bar n (b : K -> K) g : b 0 = 0 -> (forall x y, b (x + y) = b x + b y) ->
    b (sumN n g) = sumN n (fun i => b (g i)).
  Proof. intros B0 BA. induction n; cbn; [exact B0|]. rewrite BA, IHn. reflexivity. Qed.

  Lemma solk_hermitian (f : kscf K) ord chem : kscf_ok f -> momentum_table f -> is_chem ord = Some chem ->
    k_bar f 0 = 0 -> (forall x y, k_bar f (x + y) = k_bar f x + k_bar f y) ->
    (forall x y, k_bar f (x * y) = k_bar f x * k_bar f y) -> (forall x, k_bar f (k_bar f x) = x) ->
    (forall k mu nu, (k < k_n f)%nat -> dat (k_hcore f k) [mu; nu] = k_bar f (dat (k_hcore f k) [nu; mu])) ->
    exists h1 h2, get_solk_integrals K f ord = Some (h1, h2) /\
      forall k p q, (k < k_n f)%nat -> dat h1 [k; p; q] = k_bar f (dat h1 [k; q; p]).
  Proof.
    intros Ok M Ec B0 BA BM BB H. destruct (solk_eq f ord chem Ok M Ec) as (h1 & h2 & E & S1 & S2 & V1 & V2).
    exists h1, h2. split; [exact E|]. intros k p q L. rewrite !V1 by exact L.
    rewrite sumN_bar by assumption.
    transitivity (sumN (k_nao f) (fun nu => sumN (k_nao f) (fun mu =>
      k_bar f (korb f k p mu) * dat (k_hcore f k) [mu; nu] * korb f k q nu))).
    { apply sumN_ext. intros nu _. symmetry. apply sumN_mul_r. }
    rewrite sumN_swap. apply sumN_ext. intros nu _. rewrite BM, sumN_bar by assumption. rewrite <- sumN_mul_r.
    apply sumN_ext. intros mu _. rewrite BM, BB, (H k nu mu L). ring.
  Qed.
End Facts.
