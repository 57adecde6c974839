(** Vocabulary for the statements about integrals.py: two-electron integrals
    over spin orbitals, defined without reference to arrays of integrals. *)
From Coq Require Import String Ascii List Bool Arith ZArith.
From Verif Require Import Scalar Tensor CCSpec IntegralsModel.
Import ListNotations.

Section IntegralsSpec.
  Variable K : cring.
  Local Open Scope K_scope.
  Notation T := (tensor K).

  (** an orbital is its expansion coefficients over the atomic orbitals *)
  Definition orbital : Type := nat -> K.
  Definition column (o : T) (p : nat) : orbital := fun mu => dat o [mu; p].

  (** (12|34) = sum of c1* c2 c3* c4 (mu nu|la si) *)
  Definition ERI (m : mol K) (c1 c2 c3 c4 : orbital) : K :=
    sumN (nao m) (fun mu => sumN (nao m) (fun nu => sumN (nao m) (fun la => sumN (nao m) (fun si =>
      bar m (c1 mu) * c2 nu * (bar m (c3 la) * c4 si) * eri m [mu; nu; la; si])))).

  (** the two electrons are interchangeable: (mu nu|la si) = (la si|mu nu) *)
  Definition exchangeable (m : mol K) : Prop :=
    forall mu nu la si, eri m [mu; nu; la; si] = eri m [la; si; mu; nu].

  (** a spin orbital is a spin ([true] = beta) and an orbital *)
  Definition spin_orbital : Type := bool * orbital.
  Definition soERI (m : mol K) (x1 x2 x3 x4 : spin_orbital) : K :=
    if Bool.eqb (fst x1) (fst x2) && Bool.eqb (fst x3) (fst x4)
    then ERI m (snd x1) (snd x2) (snd x3) (snd x4) else 0.
  (** <12|34> and <12||34> *)
  Definition phys (m : mol K) (x1 x2 x3 x4 : spin_orbital) : K := soERI m x1 x3 x2 x4.
  Definition phys_anti (m : mol K) (x1 x2 x3 x4 : spin_orbital) : K := phys m x1 x2 x3 x4 - phys m x1 x2 x4 x3.

  (** the spin orbitals made of the columns of [oa] (alpha) followed by those
      of [ob] (beta) *)
  Definition so (oa ob : T) (p : nat) : spin_orbital :=
    let na := nth 1 (shp oa) 0%nat in
    if Nat.ltb p na then (false, column oa p) else (true, column ob (p - na)).

  (** [o] is an array of [n] orbitals of [m] *)
  Definition coeffs (m : mol K) (o : T) (n : nat) : Prop := shp o = [nao m; n].

  (** the positions of the occupied ([v = false]) or virtual ([v = true])
      orbitals of a list of occupation numbers, in increasing order *)
  Definition chosen (v : bool) (x : Z) : bool := if v then Z.eqb x 0 else Z.ltb 0 x.
  Definition positions (v : bool) (occ : list Z) : list nat :=
    filter (fun i => chosen v (nth i occ 0%Z)) (seq 0 (length occ)).
  (** the same for spin orbitals, all alpha before all beta ones *)
  Definition so_positions (v : bool) (occa occb : list Z) : list nat :=
    positions v occa ++ map (fun i => (length occa + i)%nat) (positions v occb).
  (** [u] is the block of [J] whose i-th index runs over the occupied or
      virtual spin orbitals as [v_i] says *)
  Definition is_ov_block (occa occb : list Z) (J : T) (v1 v2 v3 v4 : bool) (u : T) : Prop :=
    let L v := so_positions v occa occb in
    shp u = [length (L v1); length (L v2); length (L v3); length (L v4)] /\
    forall p q r s, inrange (shp u) [p; q; r; s] ->
      dat u [p; q; r; s] = dat J [nth p (L v1) 0; nth q (L v2) 0; nth r (L v3) 0; nth s (L v4) 0]%nat.
  (** what eri_blocks holds for block number [k]: the block if [code] asks for
      it ([code = k]) or for all ([code = 0]), else nothing *)
  Definition block_if (code k : nat) (occa occb : list Z) (J : T) (v1 v2 v3 v4 : bool) (o : option T) : Prop :=
    if Nat.eqb code k || Nat.eqb code 0 then exists u, o = Some u /\ is_ov_block occa occb J v1 v2 v3 v4 u
    else o = None.
  Notation V := true. Notation O := false.
  Definition blocks_of (code : nat) (occa occb : list Z) (J : T) (B : eriB K) : Prop :=
    block_if code 1 occa occb J V V V V (e_vvvv B) /\ block_if code 2 occa occb J V V V O (e_vvvo B) /\
    block_if code 3 occa occb J V O V V (e_vovv B) /\ block_if code 4 occa occb J V V O O (e_vvoo B) /\
    block_if code 5 occa occb J V O V O (e_vovo B) /\ block_if code 6 occa occb J O O V V (e_oovv B) /\
    block_if code 7 occa occb J V O O O (e_vooo B) /\ block_if code 8 occa occb J O O O V (e_ooov B) /\
    block_if code 9 occa occb J O O O O (e_oooo B).

  (** *** k-points *)
  (** the table of momentum conservation, k1 - k2 + k3 - k4 = 0, read in two
      other ways *)
  Definition momentum_table (f : kscf K) : Prop :=
    forall k1 k2 k3, (k1 < k_n f)%nat -> (k2 < k_n f)%nat -> (k3 < k_n f)%nat ->
      let k4 := kconserv f k1 k2 k3 in
      (k4 < k_n f)%nat /\ kconserv f k1 k4 k3 = k2 /\ kconserv f k3 k4 k1 = k2.
  (** (mu nu|la si) at k1 k2 k3 k4 is (la si|mu nu) at k3 k4 k1 k2 *)
  Definition k_exchangeable (f : kscf K) : Prop :=
    forall k1 k2 k3 k4 mu nu la si, k_eri f k1 k2 k3 k4 [mu; nu; la; si] = k_eri f k3 k4 k1 k2 [la; si; mu; nu].
  (** the integral over orbitals at four k-points *)
  Definition kERI (f : kscf K) (k1 k2 k3 k4 : nat) (c1 c2 c3 c4 : orbital) : K :=
    ERI (Mol K (k_nao f) (k_eri f k1 k2 k3 k4) (k_bar f)) c1 c2 c3 c4.
  (** a mean field with [nmo] orbitals at every k-point *)
  Definition kscf_ok (f : kscf K) : Prop :=
    k_rhf f = true /\ length (k_coeff f) = k_n f /\
    Forall (fun o => shp o = [k_nao f; k_nmo f]) (k_coeff f) /\
    forall k, (k < k_n f)%nat -> shp (k_hcore f k) = [k_nao f; k_nao f].
  (** orbital [p] at k-point [k] *)
  Definition korb (f : kscf K) (k p : nat) : orbital := column (nth k (k_coeff f) (tzeros K [])) p.
End IntegralsSpec.
Arguments column {K}. Arguments ERI {K}. Arguments exchangeable {K}. Arguments soERI {K}. Arguments phys {K}.
Arguments phys_anti {K}. Arguments so {K}. Arguments coeffs {K}. Arguments is_ov_block {K}.
Arguments block_if {K}. Arguments blocks_of {K}. Arguments momentum_table {K}. Arguments k_exchangeable {K}.
Arguments kERI {K}. Arguments kscf_ok {K}. Arguments korb {K}.

(** the string asks for chemists' order, (pq|rs), exactly when it starts with c
    or C; it must not be empty *)
Definition names_order (ord : string) (chem : bool) : Prop :=
  exists a s, ord = String a s /\ (chem = true <-> a = "c"%char \/ a = "C"%char).
