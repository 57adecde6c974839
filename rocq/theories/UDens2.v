(** The blocks of the unrestricted density matrices as expectation values. *)
From Coq Require Import List Bool Arith ZArith Lia Ring String Factorial.
From Verif Require Import Scalar Tensor PySyntax PySem CCProg CISpec CIFacts CIExpSpec CIExp
  CCSpec CCShapes CCFockSpec CCDensSpec FockStates FockPerm NpModel SpinModel SpinSpec SpinFacts SpinRound CCEquiv CCDens CCSpin Public
  UFockSpec UFock UFockOps UCCSchr UDensSpec UDens PropertiesSpin.
Import ListNotations.
Local Open Scope list_scope.

(** spin patterns in the order in which the blocks are returned *)
Definition two_spins : list (list bool) := [[false; false]; [true; true]].
Definition three_spins : list (list bool) :=
  [[false; false; false; false]; [true; true; true; true]; [false; true; false; true]].
Definition four_spins : list (list bool) :=
  [[false; false; false; false]; [true; true; true; true]; [false; true; false; true]; [true; false; true; false]].
Definition six_spins : list (list bool) :=
  [[false; false; false; false]; [true; true; true; true]; [false; true; false; true]; [false; true; true; false];
   [true; false; false; true]; [true; false; true; false]].

Definition u_plain : list (string * list bool * list (list bool)) :=
  [("uccsd_1rdm_ba", [true; true], two_spins); ("uccsd_1rdm_ji", [false; false], two_spins);
   ("uccsd_2rdm_cdab", [true; true; true; true], three_spins); ("uccsd_2rdm_ciab", [true; false; true; true], four_spins);
   ("uccsd_2rdm_bcai", [true; true; true; false], four_spins); ("uccsd_2rdm_bjai", [true; false; true; false], six_spins);
   ("uccsd_2rdm_jkai", [false; false; true; false], four_spins); ("uccsd_2rdm_kaij", [false; true; false; false], four_spins);
   ("uccsd_2rdm_klij", [false; false; false; false], three_spins)]%string.
Definition u_fac : list (string * list bool * list (list bool)) :=
  [("uccsd_1rdm_ai", [true; false], two_spins); ("uccsd_2rdm_abij", [true; true; false; false], three_spins)]%string.

Lemma F2_impl {A B} (P Q : A -> B -> Prop) l m : (forall a b, P a b -> Q a b) -> Forall2 P l m -> Forall2 Q l m.
Proof. intros E H. induction H; constructor; auto. Qed.

Section UDens2.
  Variable K : cring.
  Local Open Scope K_scope.
  Add Ring KrUD2 : (c_th K).
  Variables n noa nva nob nvb : nat.
  Hypothesis Na : (noa + nva)%nat = n.
  Hypothesis Nb : (nob + nvb)%nat = n.
  Notation no := (noa + nob)%nat.
  Notation nv := (nva + nvb)%nat.
  Notation pi := (pix noa nob nva).
  Notation ext := (u_extent noa nva nob nvb).
  Notation exts := (u_extents noa nva nob nvb).

  Lemma ext_sz v s : ext v s = sz noa nva nob nvb v s.
  Proof. destruct v, s; reflexivity. Qed.
  Lemma pi_orbital v s x : (x < ext v s)%nat -> pi (orbital no v (at_spin (ext v false) s x)) = u_orbital n noa nob v s x.
  Proof.
    rewrite !ext_sz. intros L. pose proof (pi_at n noa nva nob nvb Na Nb v s x L) as E. destruct v, s; exact E.
  Qed.
  Lemma pi_orbitals vs ss xs : List.length ss = List.length vs -> inrange (exts vs ss) xs ->
    map pi (orbitals no vs (ats (map (fun v => ext v false) vs) ss xs)) = u_orbitals n noa nob vs ss xs.
  Proof.
    revert ss xs. induction vs as [|v vs IH]; intros ss xs Ls R; destruct ss as [|s ss]; try discriminate; [reflexivity|].
    cbn [u_extents] in R. unfold inrange in R. destruct xs as [|x xs]; [inversion R|]. inversion R as [|x' y xs' l' Hx Hxs].
    cbn [map ats u_orbitals]. unfold orbitals. cbn [combine map fst snd]. rewrite pi_orbital by assumption. f_equal.
    apply IH; [cbn in Ls; lia|exact Hxs].
  Qed.
  Lemma ats_in vs ss xs : List.length ss = List.length vs -> inrange (exts vs ss) xs ->
    inrange (map (extent no nv) vs) (ats (map (fun v => ext v false) vs) ss xs).
  Proof.
    revert ss xs. induction vs as [|v vs IH]; intros ss xs Ls R; destruct ss as [|s ss]; try discriminate; [constructor|].
    cbn [u_extents] in R. unfold inrange in R. destruct xs as [|x xs]; [inversion R|]. inversion R as [|x' y xs' l' Hx Hxs].
    cbn [map ats]. constructor; [|apply IH; [cbn in Ls; lia|exact Hxs]].
    destruct v, s; cbn [u_extent extent at_spin] in *; lia.
  Qed.
  Lemma sels_ext vs ss : List.length ss = List.length vs ->
    sels ss (map (fun v => ext v false) vs) (map (fun v => ext v true) vs) = exts vs ss.
  Proof.
    revert ss. induction vs as [|v vs IH]; intros ss L; destruct ss as [|s ss]; try discriminate; [reflexivity|].
    cbn [map sels u_extents]. rewrite IH by (cbn in L; lia). destruct v, s; reflexivity.
  Qed.
  Lemma rdm_word_pi l : map (pio noa nob nva) (rdm_word l) = rdm_word (map pi l).
  Proof. destruct l as [|p [|q [|r [|s [|u l]]]]]; reflexivity. Qed.
  Lemma orbital_in v x : (x < extent no nv v)%nat -> (orbital no v x < no + nv)%nat.
  Proof. destruct v; cbn; lia. Qed.
  Lemma rdm_word_in vs xs : inrange (map (extent no nv) vs) xs ->
    Forall (fun o => (opi o < no + nv)%nat) (rdm_word (orbitals no vs xs)).
  Proof.
    intros R. assert (F : Forall (fun p => (p < no + nv)%nat) (orbitals no vs xs)).
    { revert xs R. induction vs as [|v vs IH]; intros xs R; [constructor|]. cbn [map] in R. unfold inrange in R.
      destruct xs as [|x xs]; [inversion R|]. inversion R as [|x' y xs' l' Hx Hxs]. unfold orbitals. cbn [combine map fst snd]. constructor; [apply orbital_in, Hx|].
      apply IH, Hxs. }
    destruct (orbitals no vs xs) as [|p [|q [|r [|s [|u l]]]]]; try constructor;
      repeat match goal with H : Forall _ (_ :: _) |- _ => apply Forall_cons_iff in H as [? H] end; cbn [opi]; auto;
      repeat constructor; cbn [opi]; auto.
  Qed.

  Variables T1a T1b T2aa T2ab T2bb : tensor K.
  Hypothesis OT : u_amps_ok noa nva nob nvb T1a T1b T2aa T2ab T2bb.
  Variables L1a L1b L2aa L2ab L2bb : tensor K.
  Hypothesis OL : u_lams_ok noa nva nob nvb L1a L1b L2aa L2ab L2bb.
  Variable inv : nat -> K.
  Variable M : nat.
  Hypothesis HI : inverts inv M.
  Hypothesis HM : (nv < M)%nat.
  Notation uargs := [arr T1a; arr T1b; arr T2aa; arr T2ab; arr T2bb; arr L1a; arr L1b; arr L2aa; arr L2ab; arr L2bb].
  Notation NE c := (u_normal_expect inv M n noa nva nob nvb c T1a T1b T2aa T2ab T2bb L1a L1b L2aa L2ab L2bb).

  Definition nsp (s : space) : nat := match s with so => noa | sv => nva | sO => nob | sV => nvb end.
  Lemma uargs_fit : Forall2 (fits nsp) uargs urdm_args.
  Proof.
    destruct OT as (O1 & O2 & O3 & O4 & O5). destruct OL as (P1 & P2 & P3 & P4 & P5).
    unfold t1_ok in O1, O2. unfold l1_ok in P1, P2.
    repeat (apply Forall2_cons; [apply fit_arr; cbn [map nsp]; first [assumption|apply O3|apply O5|apply P3|apply P5]|]). constructor.
  Qed.

  Definition block_is_u (f : string) (args : list (pyval K)) (vs : list bool) (spins : list (list bool)) (c : K) : Prop :=
    exists Ps, returns f args (tup (map arr Ps)) /\
      Forall2 (fun ss P => shp P = exts vs ss /\
        forall xs, inrange (exts vs ss) xs -> dat P xs = NE c (rdm_word (u_orbitals n noa nob vs ss xs))) spins Ps.

  Definition shapes_of (vs : list bool) (spins : list (list bool)) : shape :=
    let sp v s := match v, s with false, false => so | true, false => sv | false, true => sO | true, true => sV end in
    STup (map (fun ss => SArr (map (fun x => sp (fst x) (snd x)) (combine vs ss))) spins).
  Lemma shapes_fit vs spins (us : list (tensor K)) : fits nsp (tup (map arr us)) (shapes_of vs spins) ->
    Forall2 (fun ss P => shp P = exts vs ss) spins us.
  Proof.
    intros F. inversion F as [| |vs' l H|]; subst. clear F. revert us H. induction spins as [|ss spins IH]; intros us H.
    - destruct us; [constructor|inversion H].
    - destruct us as [|P us]; [inversion H|]. cbn [map] in H. inversion H as [|a b l1 l2 H1 H2]; subst. constructor; [|apply IH, H2].
      inversion H1 as [|t l E| |]; subst. rewrite E. clear. revert ss. induction vs as [|v vs IH]; intros ss; [reflexivity|].
      destruct ss as [|s ss]; [reflexivity|]. cbn [combine map u_extents fst snd]. rewrite IH. f_equal. destruct v, s; reflexivity.
  Qed.

  Lemma u_block f g vs spins c (more : list (pyval K)) (T1 T2 L1 L2 : tensor K) (b : list (tensor K) -> list bool -> option (tensor K)) k ms :
    T1_to_spin T1a T1b noa nva nob nvb = Some T1 -> T2_to_spin T2aa T2ab T2bb noa nva nob nvb = Some T2 ->
    T1_to_spin L1a L1b nva noa nvb nob = Some L1 -> T2_to_spin L2aa L2ab L2bb nva noa nvb nob = Some L2 ->
    (exists P, returns (K := K) f ([arr T1; arr T2; arr L1; arr L2] ++ more) (arr P) /\ shp P = map (extent no nv) vs /\
      forall xs, inrange (map (extent no nv) vs) xs ->
        dat P xs = normal_expect inv M no nv c T1 T2 L1 L2 (rdm_word (orbitals no vs xs))) ->
    (exists S us, returns f ([arr T1; arr T2; arr L1; arr L2] ++ more) (arr S) /\ returns g (uargs ++ more) (tup (map arr us)) /\
      List.length us = k /\ holds (map (fun v => ext v false) vs) (map (fun v => ext v true) vs) S (b us)) ->
    Forall2 (fits nsp) more ms ->
    In (g, urdm_args ++ ms, shapes_of vs spins) public_functions ->
    (forall us, List.length us = k -> Forall2 (fun ss P => List.length ss = List.length vs /\ b us ss = Some P) spins us) ->
    block_is_u g (uargs ++ more) vs spins c.
  Proof.
    intros E1 E2 E3 E4 (P & RP & SP & DP) (S & us & RS & RU & Hk & Hh) Hm Hin Hb.
    pose proof (returns_fun K _ _ _ _ RP RS) as X. injection X as <-.
    exists us. split; [exact RU|].
    assert (Sh : Forall2 (fun ss Q => shp Q = exts vs ss) spins us).
    { destruct (public_ok K nsp g (urdm_args ++ ms) (shapes_of vs spins) (uargs ++ more) Hin (Forall2_app uargs_fit Hm)) as (v & Rv & Fv).
      pose proof (returns_fun K _ _ _ _ RU Rv) as X. subst v. exact (shapes_fit _ _ _ Fv). }
    specialize (Hb us Hk). destruct Hh as (_ & _ & Hh).
    assert (D : Forall2 (fun ss Q => forall xs, inrange (exts vs ss) xs -> dat Q xs = NE c (rdm_word (u_orbitals n noa nob vs ss xs))) spins us).
    { eapply F2_impl; [|exact Hb]. intros ss Q [Ls Eq] xs Hx. cbv beta in *.
      pose proof (Hh ss xs ltac:(rewrite map_length; exact Ls)) as Y. rewrite sels_ext in Y by exact Ls. specialize (Y Hx).
      rewrite Eq in Y. rewrite <- Y. rewrite DP by (apply ats_in; assumption).
      rewrite <- (pi_orbitals vs ss xs Ls Hx). rewrite <- rdm_word_pi. symmetry.
      apply (normal_u K n noa nva nob nvb Na Nb T1a T1b T2aa T2ab T2bb T1 T2 OT E1 E2 L1a L1b L2aa L2ab L2bb L1 L2 OL E3 E4 inv M c).
      apply rdm_word_in. apply ats_in; assumption. }
    clear - Sh D. induction Sh as [|ss Q l l' Hs Hl IH]; [constructor|]. inversion D; constructor; auto.
  Qed.

  Ltac inl := repeat first [apply in_eq | apply in_cons].
  Ltac pats := intros us Hl; repeat (destruct us as [|? us]; [discriminate|]); destruct us; [|discriminate];
    repeat (constructor; [split; reflexivity|]); constructor.

  Lemma u_densities f vs spins c : In (f, vs, spins) u_plain -> block_is_u f uargs vs spins c.
  Proof.
    pose proof OT as (O1 & O2 & O3 & O4 & O5). pose proof OL as (P1 & P2 & P3 & P4 & P5).
    destruct (T1_to_spin_ok K T1a T1b noa nva nob nvb O1 O2) as (T1 & E1 & OT1 & _).
    destruct (T2_to_spin_ok K T2aa T2ab T2bb noa nva nob nvb O3 O4 O5) as (T2 & E2 & OT2 & _).
    destruct (T1_to_spin_ok K L1a L1b nva noa nvb nob P1 P2) as (L1 & E3 & OL1 & _).
    destruct (T2_to_spin_ok K L2aa L2ab L2bb nva noa nvb nob P3 P4 P5) as (L2 & E4 & OL2 & _).
    destruct (C21_urdm_blocks K noa nva nob nvb T1a T1b T2aa T2ab T2bb L1a L1b L2aa L2ab L2bb T1 T2 L1 L2 c0 OT OL E1 E2 E3 E4) as [Q _].
    pose proof (any_block K no nv inv M HI HM T1 T2 L1 L2 OT1 OT2 OL1 OL2) as AB.
    intros Hin. change uargs with (uargs ++ []).
    repeat (apply Forall_cons_iff in Q as [? Q]).
    cbn [In u_plain] in Hin.
    repeat (destruct Hin as [Hin|Hin]; [injection Hin as <- <- <-|]); [..|destruct Hin].
    - refine (u_block "ccsd_1rdm_ba" _ [true; true] _ c [] T1 T2 L1 L2 rdm2 2 [] E1 E2 E3 E4 (AB _ _ c _) H (Forall2_nil _) _ _); [inl|exact (nth_error_In public_functions 44 eq_refl)|pats].
    - refine (u_block "ccsd_1rdm_ji" _ [false; false] _ c [] T1 T2 L1 L2 rdm2 2 [] E1 E2 E3 E4 (AB _ _ c _) H0 (Forall2_nil _) _ _); [inl|exact (nth_error_In public_functions 45 eq_refl)|pats].
    - refine (u_block "ccsd_2rdm_cdab" _ [true; true; true; true] _ c [] T1 T2 L1 L2 rdm3 3 [] E1 E2 E3 E4 (AB _ _ c _) H4 (Forall2_nil _) _ _); [inl|exact (nth_error_In public_functions 56 eq_refl)|pats].
    - refine (u_block "ccsd_2rdm_ciab" _ [true; false; true; true] _ c [] T1 T2 L1 L2 rdm4_ket 4 [] E1 E2 E3 E4 (AB _ _ c _) H2 (Forall2_nil _) _ _); [inl|exact (nth_error_In public_functions 54 eq_refl)|pats].
    - refine (u_block "ccsd_2rdm_bcai" _ [true; true; true; false] _ c [] T1 T2 L1 L2 rdm4_bra 4 [] E1 E2 E3 E4 (AB _ _ c _) H7 (Forall2_nil _) _ _); [inl|exact (nth_error_In public_functions 59 eq_refl)|pats].
    - refine (u_block "ccsd_2rdm_bjai" _ [true; false; true; false] _ c [] T1 T2 L1 L2 rdm6 6 [] E1 E2 E3 E4 (AB _ _ c _) H5 (Forall2_nil _) _ _); [inl|exact (nth_error_In public_functions 57 eq_refl)|pats].
    - refine (u_block "ccsd_2rdm_jkai" _ [false; false; true; false] _ c [] T1 T2 L1 L2 rdm4_bra 4 [] E1 E2 E3 E4 (AB _ _ c _) H3 (Forall2_nil _) _ _); [inl|exact (nth_error_In public_functions 55 eq_refl)|pats].
    - refine (u_block "ccsd_2rdm_kaij" _ [false; true; false; false] _ c [] T1 T2 L1 L2 rdm4_ket 4 [] E1 E2 E3 E4 (AB _ _ c _) H8 (Forall2_nil _) _ _); [inl|exact (nth_error_In public_functions 60 eq_refl)|pats].
    - refine (u_block "ccsd_2rdm_klij" _ [false; false; false; false] _ c [] T1 T2 L1 L2 rdm3 3 [] E1 E2 E3 E4 (AB _ _ c _) H6 (Forall2_nil _) _ _); [inl|exact (nth_error_In public_functions 58 eq_refl)|pats].
  Qed.

  Lemma u_densities_fac f vs spins c : In (f, vs, spins) u_fac ->
    block_is_u f (uargs ++ [numv c]) vs spins c /\ block_is_u f uargs vs spins 1.
  Proof.
    pose proof OT as (O1 & O2 & O3 & O4 & O5). pose proof OL as (P1 & P2 & P3 & P4 & P5).
    destruct (T1_to_spin_ok K T1a T1b noa nva nob nvb O1 O2) as (T1 & E1 & OT1 & _).
    destruct (T2_to_spin_ok K T2aa T2ab T2bb noa nva nob nvb O3 O4 O5) as (T2 & E2 & OT2 & _).
    destruct (T1_to_spin_ok K L1a L1b nva noa nvb nob P1 P2) as (L1 & E3 & OL1 & _).
    destruct (T2_to_spin_ok K L2aa L2ab L2bb nva noa nvb nob P3 P4 P5) as (L2 & E4 & OL2 & _).
    destruct (C21_urdm_blocks K noa nva nob nvb T1a T1b T2aa T2ab T2bb L1a L1b L2aa L2ab L2bb T1 T2 L1 L2 c OT OL E1 E2 E3 E4) as [Q Q'].
    pose proof (any_fac_block K no nv inv M HI HM T1 T2 L1 L2 OT1 OT2 OL1 OL2) as AB.
    intros Hin. change uargs with (uargs ++ []) at 2.
    repeat (apply Forall_cons_iff in Q as [? Q]). repeat (apply Forall_cons_iff in Q' as [? Q']).
    assert (FN : Forall2 (fits nsp) [numv c] [SNum]) by (repeat constructor).
    cbn [In u_fac] in Hin.
    repeat (destruct Hin as [Hin|Hin]; [injection Hin as <- <- <-|]); [..|destruct Hin].
    - destruct (AB "ccsd_1rdm_ai"%string [true; false] c ltac:(inl)) as [A1 A2]. split.
      + refine (u_block "ccsd_1rdm_ai" _ [true; false] _ c [numv c] T1 T2 L1 L2 rdm2 2 [SNum] E1 E2 E3 E4 A1 H10 FN _ _); [exact (nth_error_In public_functions 47 eq_refl)|pats].
      + refine (u_block "ccsd_1rdm_ai" _ [true; false] _ 1 [] T1 T2 L1 L2 rdm2 2 [] E1 E2 E3 E4 A2 H1 (Forall2_nil _) _ _); [exact (nth_error_In public_functions 46 eq_refl)|pats].
    - destruct (AB "ccsd_2rdm_abij"%string [true; true; false; false] c ltac:(inl)) as [A1 A2]. split.
      + refine (u_block "ccsd_2rdm_abij" _ [true; true; false; false] _ c [numv c] T1 T2 L1 L2 rdm3 3 [SNum] E1 E2 E3 E4 A1 H11 FN _ _); [exact (nth_error_In public_functions 62 eq_refl)|pats].
      + refine (u_block "ccsd_2rdm_abij" _ [true; true; false; false] _ 1 [] T1 T2 L1 L2 rdm3 3 [] E1 E2 E3 E4 A2 H9 (Forall2_nil _) _ _); [exact (nth_error_In public_functions 61 eq_refl)|pats].
  Qed.
End UDens2.
