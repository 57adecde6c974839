(** Properties of integrals.py: final statements.  The model is
    IntegralsModel.v ([None] = exception), in which PySCF's AO->MO
    transformation is represented by its contract; the vocabulary is
    IntegralsSpec.v.  The theorems about get_X are also about get_X_sol. *)
From Coq Require Import String Ascii.
From Coq Require Import List Bool Arith ZArith QArith Qcanon Lia.
From Verif Require Import Scalar Tensor CCSpec SpinSpec IntegralsModel IntegralsSpec IntegralsFacts IntegralsK.
Import ListNotations.
Local Open Scope nat_scope.
Local Open Scope K_scope.

(** Two atomic orbitals, interchangeable electrons, and two sets of orbitals. *)
Definition ex_mol : mol QcK :=
  Mol QcK 2 (fun idx => match idx with
    | [a; b; c; d] => Q2Qc (Z.of_nat ((a + 2 * b + 1) * (c + 2 * d + 1) + a * c)%nat # 3) | _ => Q2Qc 0 end) (fun x => x).
Definition ex_mo (w : Z) : tensor QcK :=
  @mkT QcK [2; 2] (fun idx => match idx with [mu; p] => Q2Qc ((Z.of_nat (2 * mu + p)%nat * w + 1)%Z # 2) | _ => Q2Qc 0 end).
Lemma ex_mol_ok : exchangeable ex_mol /\ coeffs ex_mol (ex_mo 1) 2 /\ coeffs ex_mol (ex_mo (-2)) 2.
Proof.
  split; [|split; reflexivity]. intros a b c d. cbn [ex_mol eri]. do 3 f_equal. lia.
Qed.

(** C49: the entries of get_chem and get_phys.  With anti=True, get_chem
    subtracts (14|32), get_phys subtracts <12|43>. *)
Theorem C49_get_chem_value (K : cring) (m : mol K) o1 o2 o3 o4 n1 n2 n3 n4 anti :
  coeffs m o1 n1 -> coeffs m o2 n2 -> coeffs m o3 n3 -> coeffs m o4 n4 ->
  exists x, get_chem K m o1 o2 o3 o4 anti = Some x /\ shp x = [n1; n2; n3; n4] /\
    forall p q r s, dat x [p; q; r; s] =
      ERI m (column o1 p) (column o2 q) (column o3 r) (column o4 s)
      - (if anti then ERI m (column o1 p) (column o4 s) (column o3 r) (column o2 q) else 0).
Proof. exact (get_chem_eq K m o1 o2 o3 o4 n1 n2 n3 n4 anti). Qed.
Print Assumptions C49_get_chem_value.

Theorem C49_get_phys_value (K : cring) (m : mol K) o1 o2 o3 o4 n1 n2 n3 n4 anti :
  coeffs m o1 n1 -> coeffs m o2 n2 -> coeffs m o3 n3 -> coeffs m o4 n4 ->
  exists x, get_phys K m o1 o2 o3 o4 anti = Some x /\ get_phys_gen K m o1 o2 o3 o4 anti = Some x /\
    (anti = true -> get_phys_anti K m o1 o2 o3 o4 = Some x) /\ shp x = [n1; n2; n3; n4] /\
    forall p q r s, dat x [p; q; r; s] =
      ERI m (column o1 p) (column o3 r) (column o2 q) (column o4 s)
      - (if anti then ERI m (column o1 p) (column o4 s) (column o2 q) (column o3 r) else 0).
Proof.
  intros H1 H2 H3 H4. destruct (get_phys_eq K m o1 o2 o3 o4 n1 n2 n3 n4 anti H1 H2 H3 H4) as (x & E & S & V).
  exists x. split; [exact E|]. split; [exact E|]. split; [intros ->; exact E|]. split; assumption.
Qed.
Print Assumptions C49_get_phys_value.

(** C49: antisymmetry of get_phys(anti=True): in the last pair when the third
    and fourth orbital sets agree, in the first pair when the first two do. *)
Theorem C49_get_phys_antisymmetric (K : cring) (m : mol K) o1 o2 o3 o4 n1 n2 n3 n4 :
  coeffs m o1 n1 -> coeffs m o2 n2 -> coeffs m o3 n3 -> coeffs m o4 n4 ->
  exists x, get_phys K m o1 o2 o3 o4 true = Some x /\
    (o3 = o4 -> antisym_tail x) /\ (o1 = o2 -> exchangeable m -> antisym_lead x).
Proof.
  intros H1 H2 H3 H4. destruct (get_phys_eq K m o1 o2 o3 o4 n1 n2 n3 n4 true H1 H2 H3 H4) as (x & E & S & V).
  exists x. split; [exact E|]. split.
  - intros -> p q r s _. rewrite !V. exact (phys_anti_tail K m (false, column o1 p) (false, column o2 q)
      (false, column o4 r) (false, column o4 s)).
  - intros -> X p q r s _. rewrite !V. exact (phys_anti_lead K m (false, column o2 p) (false, column o2 q)
      (false, column o3 r) (false, column o4 s) X).
Qed.
Print Assumptions C49_get_phys_antisymmetric.

Example C49_get_phys_example :
  match get_phys QcK ex_mol (ex_mo 1) (ex_mo 1) (ex_mo (-2)) (ex_mo (-2)) true with
  | Some x => Some (this (dat x [0; 1; 0; 1]%nat), this (dat x [1; 0; 0; 1]%nat), this (dat x [0; 1; 1; 0]%nat))
  | None => None end = Some (-2 # 3, 2 # 3, 2 # 3)%Q.
Proof. vm_compute. reflexivity. Qed.

(** C49: get_chem_anti does not antisymmetrize the integrals it is asked for:
    it ignores its second orbital set.  It is right when that is the first. *)
Theorem C49_get_chem_anti_ignores_o2 (K : cring) (m : mol K) o1 o2 o2' o3 o4 :
  get_chem_anti K m o1 o2 o3 o4 = get_chem_anti K m o1 o2' o3 o4 /\
  get_chem_anti K m o1 o1 o3 o4 = get_chem K m o1 o1 o3 o4 true.
Proof. split; reflexivity. Qed.
Print Assumptions C49_get_chem_anti_ignores_o2.

Theorem C49_get_chem_anti_refuted :
  exists (m : mol QcK) o1 o2 o3 o4 x y, exchangeable m /\ coeffs m o1 2 /\ coeffs m o2 2 /\ coeffs m o3 2 /\
    coeffs m o4 2 /\ get_chem_anti QcK m o1 o2 o3 o4 = Some x /\ get_chem QcK m o1 o2 o3 o4 true = Some y /\
    dat x [0; 0; 1; 1]%nat <> dat y [0; 0; 1; 1]%nat.
Proof.
  destruct ex_mol_ok as (X & A & B).
  destruct (get_chem_eq QcK ex_mol (ex_mo 1) (ex_mo 1) (ex_mo 1) (ex_mo 1) 2 2 2 2 true A A A A) as (x & Ex & _ & Vx).
  destruct (get_chem_eq QcK ex_mol (ex_mo 1) (ex_mo (-2)) (ex_mo 1) (ex_mo 1) 2 2 2 2 true A B A A) as (y & Ey & _ & Vy).
  exists ex_mol, (ex_mo 1), (ex_mo (-2)), (ex_mo 1), (ex_mo 1), x, y.
  repeat (split; [assumption|]). rewrite Vx, Vy. intros E. apply (f_equal this) in E. vm_compute in E. discriminate E.
Qed.
Print Assumptions C49_get_chem_anti_refuted.

(** C49: the unrestricted functions return the integrals over spin orbitals
    (all alpha before all beta on every axis). *)
Theorem C49_get_chemu_value (K : cring) (m : mol K) o1 o2 o3 o4 p1 p2 p3 p4 a1 a2 a3 a4 b1 b2 b3 b4 anti :
  coeffs m o1 a1 -> coeffs m o2 a2 -> coeffs m o3 a3 -> coeffs m o4 a4 ->
  coeffs m p1 b1 -> coeffs m p2 b2 -> coeffs m p3 b3 -> coeffs m p4 b4 ->
  exists x, get_chemu K m o1 o2 o3 o4 p1 p2 p3 p4 anti = Some x /\
    (anti = true -> get_chem_antiu K m o1 o2 o3 o4 p1 p2 p3 p4 = Some x) /\
    shp x = [a1 + b1; a2 + b2; a3 + b3; a4 + b4]%nat /\
    forall p q r s, inrange (shp x) [p; q; r; s] -> dat x [p; q; r; s] =
      soERI m (so o1 p1 p) (so o2 p2 q) (so o3 p3 r) (so o4 p4 s)
      - (if anti then soERI m (so o1 p1 p) (so o4 p4 s) (so o3 p3 r) (so o2 p2 q) else 0).
Proof.
  intros H1 H2 H3 H4 G1 G2 G3 G4.
  destruct (get_chemu_eq K m o1 o2 o3 o4 p1 p2 p3 p4 a1 a2 a3 a4 b1 b2 b3 b4 anti H1 H2 H3 H4 G1 G2 G3 G4)
    as (x & E & H). exists x. split; [exact E|]. split; [intros ->; exact E|exact H].
Qed.
Print Assumptions C49_get_chemu_value.

Theorem C49_get_chemu_all_value (K : cring) (m : mol K) oa ob na nb anti :
  exchangeable m -> coeffs m oa na -> coeffs m ob nb ->
  exists x, get_chemu_all K m oa ob anti = Some x /\ (anti = true -> get_chem_antiu_all K m oa ob = Some x) /\
    shp x = [na + nb; na + nb; na + nb; na + nb]%nat /\
    forall p q r s, inrange (shp x) [p; q; r; s] -> dat x [p; q; r; s] =
      soERI m (so oa ob p) (so oa ob q) (so oa ob r) (so oa ob s)
      - (if anti then soERI m (so oa ob p) (so oa ob s) (so oa ob r) (so oa ob q) else 0).
Proof.
  intros X Ha Hb. destruct (get_chemu_all_eq K m oa ob na nb anti X Ha Hb) as (x & E & H).
  exists x. split; [exact E|]. split; [intros ->; exact E|exact H].
Qed.
Print Assumptions C49_get_chemu_all_value.

Theorem C49_get_physu_all_value (K : cring) (m : mol K) oa ob na nb anti :
  exchangeable m -> coeffs m oa na -> coeffs m ob nb ->
  exists x, get_physu_all K m oa ob anti = Some x /\ shp x = [na + nb; na + nb; na + nb; na + nb]%nat /\
    forall p q r s, inrange (shp x) [p; q; r; s] -> dat x [p; q; r; s] =
      if anti then phys_anti m (so oa ob p) (so oa ob q) (so oa ob r) (so oa ob s)
      else phys m (so oa ob p) (so oa ob q) (so oa ob r) (so oa ob s).
Proof. exact (get_physu_all_eq K m oa ob na nb anti). Qed.
Print Assumptions C49_get_physu_all_value.

Theorem C49_physu_all_antisymmetric (K : cring) (m : mol K) oa ob na nb :
  exchangeable m -> coeffs m oa na -> coeffs m ob nb ->
  exists x, get_physu_all K m oa ob true = Some x /\ antisym_lead x /\ antisym_tail x /\
    get_phys_antiu_all K m oa ob = Some x.
Proof. exact (physu_all_antisym K m oa ob na nb). Qed.
Print Assumptions C49_physu_all_antisymmetric.

(** an integral whose two electrons do not keep their spins is zero *)
Theorem C49_physu_all_spin_forbidden (K : cring) (m : mol K) oa ob na nb anti :
  exchangeable m -> coeffs m oa na -> coeffs m ob nb ->
  exists x, get_physu_all K m oa ob anti = Some x /\
    forall p q r s, inrange (shp x) [p; q; r; s] ->
      (is_beta na p + is_beta na q <> is_beta na r + is_beta na s)%nat -> dat x [p; q; r; s] = 0.
Proof. exact (physu_all_spin K m oa ob na nb anti). Qed.
Print Assumptions C49_physu_all_spin_forbidden.

Theorem C49_get_phys_antiu_value (K : cring) (m : mol K) o1 o2 o3 o4 p1 p2 p3 p4 a1 a2 a3 a4 b1 b2 b3 b4 :
  coeffs m o1 a1 -> coeffs m o2 a2 -> coeffs m o3 a3 -> coeffs m o4 a4 ->
  coeffs m p1 b1 -> coeffs m p2 b2 -> coeffs m p3 b3 -> coeffs m p4 b4 ->
  exists x, get_phys_antiu K m o1 o2 o3 o4 p1 p2 p3 p4 = Some x /\
    shp x = [a1 + b1; a2 + b2; a3 + b3; a4 + b4]%nat /\
    forall p q r s, inrange (shp x) [p; q; r; s] -> dat x [p; q; r; s] =
      phys_anti m (so o1 p1 p) (so o2 p2 q) (so o3 p3 r) (so o4 p4 s).
Proof. exact (get_phys_antiu_eq K m o1 o2 o3 o4 p1 p2 p3 p4 a1 a2 a3 a4 b1 b2 b3 b4). Qed.
Print Assumptions C49_get_phys_antiu_value.

(** C49: the blocks of eri_blocks are the blocks of get_phys_antiu_all_gen
    belonging to the occupied and virtual orbitals, wherever these stand in
    mo_occ, and code selects the block. *)
Theorem C49_eri_blocks_unrestricted (K : cring) (m : mol K) code occa occb moa mob :
  exchangeable m -> coeffs m moa (length occa) -> coeffs m mob (length occb) ->
  exists J B, get_phys_antiu_all_gen K m (Uscf K occa occb moa mob) = Some J /\
    eri_blocks K m (Uscf K occa occb moa mob) code = Some B /\ blocks_of code occa occb J B.
Proof. exact (eri_blocks_u K m code occa occb moa mob). Qed.
Print Assumptions C49_eri_blocks_unrestricted.

Theorem C49_eri_blocks_restricted (K : cring) (m : mol K) code occ mo :
  exchangeable m -> coeffs m mo (length occ) ->
  exists J B, get_phys_antiu_all_gen K m (Rscf K occ mo) = Some J /\
    eri_blocks K m (Rscf K occ mo) code = Some B /\ blocks_of code occ occ J B.
Proof. exact (eri_blocks_r K m code occ mo). Qed.
Print Assumptions C49_eri_blocks_restricted.

Example C49_eri_blocks_example :
  exchangeable ex_mol /\ coeffs ex_mol (ex_mo 1) 2 /\ coeffs ex_mol (ex_mo (-2)) 2 /\
  match eri_blocks QcK ex_mol (Uscf QcK [0; 1]%Z [1; 0]%Z (ex_mo 1) (ex_mo (-2))) 4 with
  | Some B => match e_vvoo B, e_oovv B with
              | Some x, None => Some (this (dat x [0; 1; 0; 1]%nat), this (dat x [1; 0; 0; 1]%nat)) | _, _ => None end
  | None => None end = Some (559 # 6, -559 # 6)%Q.
Proof.
  destruct ex_mol_ok as (A & B & C). split; [exact A|]. split; [exact B|]. split; [exact C|].
  vm_compute. reflexivity.
Qed.

(** C53: k-point integrals vanish unless momentum is conserved, ... *)
Theorem C53_solk_zero_unless_conserved (K : cring) (f : kscf K) k1 k2 k3 k4 o1 o2 o3 o4 n1 n2 n3 n4 anti :
  (k1 < k_n f)%nat -> (k2 < k_n f)%nat -> (k3 < k_n f)%nat ->
  shp o1 = [k_nao f; n1] -> shp o2 = [k_nao f; n2] -> shp o3 = [k_nao f; n3] -> shp o4 = [k_nao f; n4] ->
  (kconserv f k1 k2 k3 <> k4 ->
     exists x, get_chem_solk K f (k1, k2, k3, k4) o1 o2 o3 o4 anti = Some x /\ shp x = [n1; n2; n3; n4] /\
       forall p q r s, dat x [p; q; r; s] = 0) /\
  (kconserv f k1 k3 k2 <> k4 ->
     exists x, get_phys_solk K f (k1, k2, k3, k4) o1 o2 o3 o4 anti = Some x /\ shp x = [n1; n2; n3; n4] /\
       forall p q r s, dat x [p; q; r; s] = 0).
Proof.
  intros L1 L2 L3 S1 S2 S3 S4. split; intros N.
  - exists (tzeros K [n1; n2; n3; n4]). split; [|split; reflexivity].
    exact (chem_solk_zero K f k1 k2 k3 k4 o1 o2 o3 o4 n1 n2 n3 n4 anti L1 L2 L3 S1 S2 S3 S4 N).
  - exact (phys_solk_zero K f k1 k2 k3 k4 o1 o2 o3 o4 n1 n2 n3 n4 anti L1 L2 L3 S1 S2 S3 S4 N).
Qed.
Print Assumptions C53_solk_zero_unless_conserved.

(** ... have the values of their names when it is, ... *)
Theorem C53_solk_value (K : cring) (f : kscf K) k1 k2 k3 k4 o1 o2 o3 o4 n1 n2 n3 n4 anti :
  (k1 < k_n f)%nat -> (k2 < k_n f)%nat -> (k3 < k_n f)%nat -> (k4 < k_n f)%nat ->
  shp o1 = [k_nao f; n1] -> shp o2 = [k_nao f; n2] -> shp o3 = [k_nao f; n3] -> shp o4 = [k_nao f; n4] ->
  (kconserv f k1 k2 k3 = k4 ->
     exists x, get_chem_solk K f (k1, k2, k3, k4) o1 o2 o3 o4 anti = Some x /\ shp x = [n1; n2; n3; n4] /\
       forall p q r s, dat x [p; q; r; s] =
         kERI f k1 k2 k3 k4 (column o1 p) (column o2 q) (column o3 r) (column o4 s)
         - (if anti then kERI f k1 k4 k3 k2 (column o1 p) (column o4 s) (column o3 r) (column o2 q) else 0)) /\
  (kconserv f k1 k3 k2 = k4 ->
     exists x, get_phys_solk K f (k1, k2, k3, k4) o1 o2 o3 o4 anti = Some x /\ shp x = [n1; n2; n3; n4] /\
       forall p q r s, dat x [p; q; r; s] =
         kERI f k1 k3 k2 k4 (column o1 p) (column o3 r) (column o2 q) (column o4 s)
         - (if anti then kERI f k1 k4 k2 k3 (column o1 p) (column o4 s) (column o2 q) (column o3 r) else 0)).
Proof.
  intros L1 L2 L3 L4 S1 S2 S3 S4. split; intros N.
  - exact (chem_solk_eq K f k1 k2 k3 k4 o1 o2 o3 o4 n1 n2 n3 n4 anti L1 L2 L3 L4 S1 S2 S3 S4 N).
  - exact (phys_solk_eq K f k1 k2 k3 k4 o1 o2 o3 o4 n1 n2 n3 n4 anti L1 L2 L3 L4 S1 S2 S3 S4 N).
Qed.
Print Assumptions C53_solk_value.

(** ... and are antisymmetric under the exchange of both the k-points and the
    orbitals of a pair, conserving or not. *)
Theorem C53_phys_solk_antisymmetric (K : cring) (f : kscf K) k1 k2 k3 k4 o1 o2 o3 o4 n1 n2 n3 n4 :
  momentum_table f -> k_exchangeable f ->
  (k1 < k_n f)%nat -> (k2 < k_n f)%nat -> (k3 < k_n f)%nat -> (k4 < k_n f)%nat ->
  shp o1 = [k_nao f; n1] -> shp o2 = [k_nao f; n2] -> shp o3 = [k_nao f; n3] -> shp o4 = [k_nao f; n4] ->
  exists x y z, get_phys_solk K f (k1, k2, k3, k4) o1 o2 o3 o4 true = Some x /\
    get_phys_solk K f (k1, k2, k4, k3) o1 o2 o4 o3 true = Some y /\
    get_phys_solk K f (k2, k1, k3, k4) o2 o1 o3 o4 true = Some z /\
    forall p q r s, dat x [p; q; r; s] = - dat y [p; q; s; r] /\ dat x [p; q; r; s] = - dat z [q; p; r; s].
Proof. exact (phys_solk_antisym K f k1 k2 k3 k4 o1 o2 o3 o4 n1 n2 n3 n4). Qed.
Print Assumptions C53_phys_solk_antisymmetric.

(** C53: get_solk_integrals.  The order is chemists' when the string starts
    with c or C. *)
Lemma names_order_chem ord chem : names_order ord chem -> is_chem ord = Some chem.
Proof.
  intros (a & s & -> & H). unfold is_chem. f_equal. apply Bool.eq_iff_eq_true. rewrite H, Bool.orb_true_iff, !Ascii.eqb_eq. reflexivity.
Qed.
Theorem C53_get_solk_integrals_value (K : cring) (f : kscf K) (ord : string) chem :
  kscf_ok f -> momentum_table f -> names_order ord chem ->
  exists h1 h2, get_solk_integrals K f ord = Some (h1, h2) /\
    shp h1 = [k_n f; k_nmo f; k_nmo f] /\
    shp h2 = [k_n f; k_n f; k_n f; k_nmo f; k_nmo f; k_nmo f; k_nmo f] /\
    (forall k p q, (k < k_n f)%nat -> dat h1 [k; p; q] = sumN (k_nao f) (fun nu =>
      sumN (k_nao f) (fun mu => k_bar f (korb f k p mu) * dat (k_hcore f k) [mu; nu]) * korb f k q nu)) /\
    (forall kp kq kr p q r s, (kp < k_n f)%nat -> (kq < k_n f)%nat -> (kr < k_n f)%nat ->
      dat h2 [kp; kq; kr; p; q; r; s] =
      if chem then kERI f kp kq kr (kconserv f kp kq kr) (korb f kp p) (korb f kq q) (korb f kr r)
                     (korb f (kconserv f kp kq kr) s)
      else kERI f kp kr kq (kconserv f kp kr kq) (korb f kp p) (korb f kr r) (korb f kq q)
                     (korb f (kconserv f kp kr kq) s)).
Proof. intros H M O. exact (solk_eq K f ord chem H M (names_order_chem _ _ O)). Qed.
Print Assumptions C53_get_solk_integrals_value.

Theorem C53_solk_phys_is_chem_reordered (K : cring) (f : kscf K) (oc op : string) :
  kscf_ok f -> momentum_table f -> names_order oc true -> names_order op false ->
  exists h1 hc hp, get_solk_integrals K f oc = Some (h1, hc) /\
    (exists h1', get_solk_integrals K f op = Some (h1', hp) /\ teq h1' h1) /\
    forall kp kq kr p q r s, (kp < k_n f)%nat -> (kq < k_n f)%nat -> (kr < k_n f)%nat ->
      dat hp [kp; kq; kr; p; q; r; s] = dat hc [kp; kr; kq; p; r; q; s].
Proof. intros H M O P. exact (solk_phys_chem K f oc op H M (names_order_chem _ _ O) (names_order_chem _ _ P)). Qed.
Print Assumptions C53_solk_phys_is_chem_reordered.

Theorem C53_solk_electron_exchange (K : cring) (f : kscf K) (oc : string) :
  kscf_ok f -> momentum_table f -> k_exchangeable f -> names_order oc true ->
  exists h1 h2, get_solk_integrals K f oc = Some (h1, h2) /\
    forall kp kq kr p q r s, (kp < k_n f)%nat -> (kq < k_n f)%nat -> (kr < k_n f)%nat ->
      dat h2 [kp; kq; kr; p; q; r; s] = dat h2 [kr; kconserv f kp kq kr; kp; r; s; p; q].
Proof. intros H M X O. exact (solk_exchange K f oc H M X (names_order_chem _ _ O)). Qed.
Print Assumptions C53_solk_electron_exchange.

Theorem C53_solk_h1_hermitian (K : cring) (f : kscf K) (ord : string) chem :
  kscf_ok f -> momentum_table f -> names_order ord chem ->
  k_bar f 0 = 0 -> (forall x y, k_bar f (x + y) = k_bar f x + k_bar f y) ->
  (forall x y, k_bar f (x * y) = k_bar f x * k_bar f y) -> (forall x, k_bar f (k_bar f x) = x) ->
  (forall k mu nu, (k < k_n f)%nat -> dat (k_hcore f k) [mu; nu] = k_bar f (dat (k_hcore f k) [nu; mu])) ->
  exists h1 h2, get_solk_integrals K f ord = Some (h1, h2) /\
    forall k p q, (k < k_n f)%nat -> dat h1 [k; p; q] = k_bar f (dat h1 [k; q; p]).
Proof. intros H M O. exact (solk_hermitian K f ord chem H M (names_order_chem _ _ O)). Qed.
Print Assumptions C53_solk_h1_hermitian.

(** A cyclic mesh of three k-points with two orbitals at each. *)
Definition ex_k : kscf QcK :=
  KScf QcK true 2 3
    (fun k1 k2 k3 k4 idx => match idx with
      | [a; b; c; d] => Q2Qc (Z.of_nat ((a + 2 * b + k1 + 3 * k2 + 1) * (c + 2 * d + k3 + 3 * k4 + 1))%nat # 3)
      | _ => Q2Qc 0 end)
    (fun x => x) (fun a b c => (a + (3 - b) + c) mod 3)%nat
    (fun k => @mkT QcK [2; 2] (fun idx => match idx with [a; b] => Q2Qc (Z.of_nat (a + b + k)%nat # 5) | _ => Q2Qc 0 end))
    [ex_mo 1; ex_mo 2; ex_mo (-2)] 2.
Lemma ex_k_ok : kscf_ok ex_k /\ momentum_table ex_k /\ k_exchangeable ex_k /\
  (forall k mu nu, dat (k_hcore ex_k k) [mu; nu] = dat (k_hcore ex_k k) [nu; mu]).
Proof.
  split; [|split; [|split]].
  - split; [reflexivity|]. split; [reflexivity|]. split; [repeat constructor|]. reflexivity.
  - intros k1 k2 k3. cbn [ex_k k_n kconserv]. intros L1 L2 L3.
    destruct k1 as [|[|[|]]]; [| | |lia]; (destruct k2 as [|[|[|]]]; [| | |lia]);
      (destruct k3 as [|[|[|]]]; [| | |lia]); cbn; lia.
  - intros k1 k2 k3 k4 a b c d. cbn [ex_k k_eri]. do 3 f_equal. lia.
  - intros k mu nu. cbn [ex_k k_hcore dat]. do 3 f_equal. lia.
Qed.
Example C53_example :
  names_order "phys" false /\ names_order "Chem" true /\ names_order "chem" true /\
  match get_solk_integrals QcK ex_k "phys", get_solk_integrals QcK ex_k "chem" with
  | Some (h1, hp), Some (_, hc) => Some (this (dat h1 [2; 0; 1]%nat), this (dat hp [0; 1; 2; 0; 1; 1; 0]%nat),
      this (dat hc [0; 2; 1; 0; 1; 1; 0]%nat), this (dat hc [1; 0; 0; 1; 0; 0; 1]%nat))
  | _, _ => None end = Some (13 # 5, 4407 # 4, 4407 # 4, 861 # 1)%Q.
Proof.
  split; [|split; [|split]].
  - exists "p"%char, "hys"%string. split; [reflexivity|]. split; [discriminate|intros [H|H]; discriminate].
  - exists "C"%char, "hem"%string. split; [reflexivity|]. tauto.
  - exists "c"%char, "hem"%string. split; [reflexivity|]. tauto.
  - vm_compute. reflexivity.
Qed.
