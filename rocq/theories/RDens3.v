(** The entries of the restricted density matrices. *)
From Coq Require Import List Bool Arith ZArith Lia Ring String Factorial.
From Verif Require Import Scalar Tensor PySyntax PySem CCProg CISpec CIFacts CILemmas CIExpSpec
  CCSpec CCShapes Public CCEquiv CCFockSpec CCDensSpec SpinSpec UFockSpec CCRest RFockSpec UDensSpec UDens2 RDensSpec RDens.
Import ListNotations.
Local Open Scope list_scope.

Lemma in_four a b c d xs : inrange [a; b; c; d] xs ->
  exists p q r s, xs = [p; q; r; s] /\ (p < a)%nat /\ (q < b)%nat /\ (r < c)%nat /\ (s < d)%nat.
Proof.
  unfold inrange. intros H. repeat match goal with X : Forall2 _ _ _ |- _ => inversion X; clear X; subst end.
  repeat eexists; assumption.
Qed.

Section RD3.
  Variable K : cring.
  Local Open Scope K_scope.
  Add Ring KrRD3 : (c_th K).
  Variables n no nv : nat.
  Hypothesis Nn : (no + nv)%nat = n.
  Variables T1 T2 L1 L2 : tensor K.
  Hypothesis HT : r_amps_ok no nv T1 T2.
  Hypothesis HL : r_lams_ok no nv L1 L2.
  Variable inv : nat -> K.
  Variable M : nat.
  Hypothesis HI : inverts inv M.
  Hypothesis HM : (nv + nv < M)%nat.
  Notation rargs := [arr T1; arr T2; arr L1; arr L2].
  Notation NE c := (r_normal_expect inv M n no nv c T1 T2 L1 L2).
  Notation ext := (map (extent no nv)).
  Notation word vs ss xs := (rdm_word (u_orbitals n no no vs ss xs)).
  Notation blocks := (spin_blocks K n no nv L1 L2 T1 T2 inv M).

  Lemma ext_r vs ss : List.length ss = List.length vs -> u_extents no nv no nv vs ss = ext vs.
  Proof.
    revert ss. induction vs as [|v vs IH]; intros [|s ss] L; try discriminate; [reflexivity|].
    cbn [u_extents map]. rewrite IH by (cbn in L; lia). destruct v, s; reflexivity.
  Qed.

  (** one spin block is the tensor r *)
  Lemma block_at vs c spins Ps k ss P : blocks vs c spins Ps -> nth_error spins k = Some ss -> nth_error Ps k = Some P ->
    List.length ss = List.length vs ->
    shp P = ext vs /\ forall xs, inrange (ext vs) xs -> dat P xs = NE c (word vs ss xs).
  Proof.
    intros B. revert k. induction B as [|s0 P0 l m (S & D) B IH]; intros k E1 E2 L; [destruct k; discriminate|].
    destruct k as [|k]; [|exact (IH k E1 E2 L)]. injection E1 as ->. injection E2 as ->. rewrite ext_r in S, D by exact L. auto.
  Qed.

  Definition one_spin : list (list bool) := [[false; false]; [true; true]].
  Definition ab_spins : list (list bool) := [[false; true; false; true]].
  Definition mixed_spins : list (list bool) := [[false; true; false; true]; [true; false; true; false]].
  Definition entries (P : tensor K) (vs : list bool) (spins : list (list bool)) (c : K) : Prop :=
    shp P = ext vs /\ forall ss xs, In ss spins -> inrange (ext vs) xs -> dat P xs = NE c (word vs ss xs).

  Ltac pick H k := let A := fresh in
    pose proof (block_at _ _ _ _ k _ _ H eq_refl eq_refl eq_refl) as A; destruct A as (? & A).
  Lemma from_one r vs c : List.length vs = 2%nat -> blocks vs c two_spins (t_how HOne r) -> entries r vs one_spin c.
  Proof.
    intros L H. destruct (block_at _ _ _ _ 0 _ _ H eq_refl eq_refl (eq_sym L)) as (S & D0).
    destruct (block_at _ _ _ _ 1 _ _ H eq_refl eq_refl (eq_sym L)) as (_ & D1).
    split; [exact S|]. intros ss xs [<-|[<-|[]]]; auto.
  Qed.
  Lemma from_three r vs c : List.length vs = 4%nat -> blocks vs c three_spins (t_how HKet3 r) -> entries r vs ab_spins c.
  Proof.
    intros L H. destruct (block_at _ _ _ _ 2 _ _ H eq_refl eq_refl (eq_sym L)) as (S & D0).
    split; [exact S|]. intros ss xs [<-|[]]; auto.
  Qed.
  Lemma from_four r vs c hw : hw = HKet4 \/ hw = HBra4 -> List.length vs = 4%nat -> blocks vs c four_spins (t_how hw r) -> entries r vs mixed_spins c.
  Proof.
    intros E L H. assert (X : nth_error (t_how hw r) 2 = Some r /\ nth_error (t_how hw r) 3 = Some r) by (destruct E as [->| ->]; split; reflexivity).
    destruct X as (X2 & X3).
    destruct (block_at _ _ _ _ 2 _ _ H eq_refl X2 (eq_sym L)) as (S & D0).
    destruct (block_at _ _ _ _ 3 _ _ H eq_refl X3 (eq_sym L)) as (_ & D1).
    split; [exact S|]. intros ss xs [<-|[<-|[]]]; auto.
  Qed.

  (** *** The vovo part *)
  Lemma ann_va a : (a < nv)%nat -> u_occupied n no no (no + a) = false.
  Proof. intros L. unfold u_occupied. destruct (Nat.ltb_spec (no + a) n); [|lia]. apply Nat.ltb_ge. lia. Qed.
  Lemma ann_vb a : (a < nv)%nat -> u_occupied n no no (n + (no + a)) = false.
  Proof. intros L. unfold u_occupied. destruct (Nat.ltb_spec (n + (no + a)) n); [lia|]. apply Nat.ltb_ge. lia. Qed.
  Lemma ann_oa i : (i < no)%nat -> u_occupied n no no i = true.
  Proof. intros L. unfold u_occupied. destruct (Nat.ltb_spec i n); [|lia]. apply Nat.ltb_lt. lia. Qed.
  Lemma ann_ob i : (i < no)%nat -> u_occupied n no no (n + i) = true.
  Proof. intros L. unfold u_occupied. destruct (Nat.ltb_spec (n + i) n); [lia|]. apply Nat.ltb_lt. lia. Qed.
  Lemma swap_cre (p q r s : nat) c :
    u_occupied n no no p = false -> u_occupied n no no q = true -> u_occupied n no no r = true -> u_occupied n no no s = false ->
    NE c [Cre p; Cre q; Ann r; Ann s] = - NE c [Cre q; Cre p; Ann r; Ann s].
  Proof.
    intros Hp Hq Hr Hs.
    assert (NP : u_nprod n no no [Cre p; Cre q; Ann r; Ann s] = u_nprod n no no [Cre q; Cre p; Ann r; Ann s]).
    { unfold u_nprod. cbn [filter u_annihilates]. rewrite Hp, Hq, Hr, Hs. reflexivity. }
    assert (NS : u_nsign n no no [Cre p; Cre q; Ann r; Ann s] = negb (u_nsign n no no [Cre q; Cre p; Ann r; Ann s])).
    { cbn [u_nsign filter u_annihilates]. rewrite Hp, Hq, Hr, Hs. reflexivity. }
    unfold r_normal_expect. rewrite NP, NS. destruct (u_nsign n no no [Cre q; Cre p; Ann r; Ann s]); cbn [negb CISpec.sgn]; ring.
  Qed.
  Lemma r_bj c : exists P Q,
    returns "rccsd_2rdm_bjai"%string rargs (arr P) /\ returns "rccsd_2rdm_bjia"%string rargs (arr Q) /\
    entries P [true; false; true; false] mixed_spins c /\ entries Q [true; false; false; true] mixed_spins c /\
    forall s b j a i, inrange (ext [true; false; true; false]) [b; j; a; i] ->
      NE c (word [true; false; true; false] [s; s; s; s] [b; j; a; i]) = dat P [b; j; a; i] - dat Q [b; j; i; a].
  Proof.
    destruct (r_vovo K n no nv Nn L1 L2 HL T1 T2 HT inv M HI HM c) as (r & r' & R & R' & B).
    exists r, r'. split; [exact R|]. split; [exact R'|].
    destruct (block_at _ _ _ _ 0 _ _ B eq_refl eq_refl eq_refl) as (S0 & D0).
    destruct (block_at _ _ _ _ 1 _ _ B eq_refl eq_refl eq_refl) as (_ & D1).
    destruct (block_at _ _ _ _ 2 _ _ B eq_refl eq_refl eq_refl) as (S2 & D2).
    destruct (block_at _ _ _ _ 3 _ _ B eq_refl eq_refl eq_refl) as (S3 & D3).
    destruct (block_at _ _ _ _ 4 _ _ B eq_refl eq_refl eq_refl) as (_ & D4).
    destruct (block_at _ _ _ _ 5 _ _ B eq_refl eq_refl eq_refl) as (_ & D5).
    split; [split; [exact S2|intros ss xs [<-|[<-|[]]]; auto]|]. split.
    - assert (SQ : shp r' = [nv; no; no; nv]).
      { destruct HT as (A1 & A2 & _). destruct HL as (A3 & A4 & _).
        assert (FA : Forall2 (fits (nsp no nv no nv)) rargs rdm_args).
        { repeat (apply Forall2_cons; [apply fit_arr; assumption|]). constructor. }
        destruct (public_ok K (nsp no nv no nv) "rccsd_2rdm_bjia" rdm_args (SArr [sv; so; so; sv]) rargs (nth_error_In public_functions 67 eq_refl) FA) as (v & Rv & Fv).
        pose proof (returns_fun K _ _ _ _ R' Rv) as X. subst v. inversion Fv as [|t l E| |]; subst. exact E. }
      split; [exact SQ|]. intros ss xs Hss Hx. cbn [map extent] in Hx. unfold inrange in Hx.
      destruct (in_four _ _ _ _ _ Hx) as (b & j & i & a & -> & Lb & Lj & Li & La).
      assert (Hx' : inrange (ext [true; false; true; false]) [b; j; a; i]) by (repeat constructor; assumption).
      destruct Hss as [<-|[<-|[]]].
      + specialize (D3 _ Hx'). cbn [tneg swap_ket swap dat map nth] in D3.
        cbn [u_orbitals u_orbital rdm_word] in D3 |- *. rewrite swap_cre in D3 by (first [apply ann_va; assumption|apply ann_vb; assumption|apply ann_oa; assumption|apply ann_ob; assumption]).
        transitivity (- - dat r' [b; j; i; a]); [ring|]. rewrite D3. ring.
      + specialize (D4 _ Hx'). cbn [tneg swap_ket swap dat map nth] in D4.
        cbn [u_orbitals u_orbital rdm_word] in D4 |- *. rewrite swap_cre in D4 by (first [apply ann_va; assumption|apply ann_vb; assumption|apply ann_oa; assumption|apply ann_ob; assumption]).
        transitivity (- - dat r' [b; j; i; a]); [ring|]. rewrite D4. ring.
    - intros s b j a i Hx. destruct s; [rewrite <- D1 by exact Hx|rewrite <- D0 by exact Hx]; reflexivity.
  Qed.

  (** the blocks that do not depend on c *)
  Definition r_plain_list : list (string * list bool * list (list bool)) :=
    [("rccsd_1rdm_ba", [true; true], one_spin); ("rccsd_1rdm_ji", [false; false], one_spin);
     ("rccsd_2rdm_cdab", [true; true; true; true], ab_spins); ("rccsd_2rdm_ciab", [true; false; true; true], mixed_spins);
     ("rccsd_2rdm_bcai", [true; true; true; false], mixed_spins); ("rccsd_2rdm_bjai", [true; false; true; false], mixed_spins);
     ("rccsd_2rdm_bjia", [true; false; false; true], mixed_spins); ("rccsd_2rdm_jkai", [false; false; true; false], mixed_spins);
     ("rccsd_2rdm_kaij", [false; true; false; false], mixed_spins); ("rccsd_2rdm_klij", [false; false; false; false], ab_spins)]%string.
  Ltac tab := unfold r_table; repeat (first [left; reflexivity | right]).
  Lemma r_densities f vs spins c : In (f, vs, spins) r_plain_list ->
    exists P, returns f rargs (arr P) /\ entries P vs spins c.
  Proof.
    pose proof (r_plain K n no nv Nn L1 L2 HL T1 T2 HT inv M HI HM c) as RP.
    intros Hin. unfold r_plain_list in Hin.
    repeat (destruct Hin as [E|Hin]; [injection E as <- <- <-|]); [..|destruct Hin].
    - destruct (RP "rccsd_1rdm_ba"%string "uccsd_1rdm_ba"%string HOne [true; true] two_spins ltac:(tab)) as (r & R & B). exists r. split; [exact R|]. apply from_one; [reflexivity|exact B].
    - destruct (RP "rccsd_1rdm_ji"%string "uccsd_1rdm_ji"%string HOne [false; false] two_spins ltac:(tab)) as (r & R & B). exists r. split; [exact R|]. apply from_one; [reflexivity|exact B].
    - destruct (RP "rccsd_2rdm_cdab"%string "uccsd_2rdm_cdab"%string HKet3 [true; true; true; true] three_spins ltac:(tab)) as (r & R & B). exists r. split; [exact R|]. apply from_three; [reflexivity|exact B].
    - destruct (RP "rccsd_2rdm_ciab"%string "uccsd_2rdm_ciab"%string HKet4 [true; false; true; true] four_spins ltac:(tab)) as (r & R & B). exists r. split; [exact R|]. apply (from_four r _ c HKet4); [auto|reflexivity|exact B].
    - destruct (RP "rccsd_2rdm_bcai"%string "uccsd_2rdm_bcai"%string HBra4 [true; true; true; false] four_spins ltac:(tab)) as (r & R & B). exists r. split; [exact R|]. apply (from_four r _ c HBra4); [auto|reflexivity|exact B].
    - destruct (r_bj c) as (P & Q & R & R' & E & E' & _). exists P. split; assumption.
    - destruct (r_bj c) as (P & Q & R & R' & E & E' & _). exists Q. split; assumption.
    - destruct (RP "rccsd_2rdm_jkai"%string "uccsd_2rdm_jkai"%string HBra4 [false; false; true; false] four_spins ltac:(tab)) as (r & R & B). exists r. split; [exact R|]. apply (from_four r _ c HBra4); [auto|reflexivity|exact B].
    - destruct (RP "rccsd_2rdm_kaij"%string "uccsd_2rdm_kaij"%string HKet4 [false; true; false; false] four_spins ltac:(tab)) as (r & R & B). exists r. split; [exact R|]. apply (from_four r _ c HKet4); [auto|reflexivity|exact B].
    - destruct (RP "rccsd_2rdm_klij"%string "uccsd_2rdm_klij"%string HKet3 [false; false; false; false] three_spins ltac:(tab)) as (r & R & B). exists r. split; [exact R|]. apply from_three; [reflexivity|exact B].
  Qed.
  Lemma r_densities_fac c :
    (exists P, returns "rccsd_1rdm_ai"%string (rargs ++ [numv c]) (arr P) /\ entries P [true; false] one_spin c) /\
    (exists P, returns "rccsd_1rdm_ai"%string rargs (arr P) /\ entries P [true; false] one_spin 1) /\
    (exists P, returns "rccsd_2rdm_abij"%string rargs (arr P) /\ entries P [true; true; false; false] ab_spins 1).
  Proof.
    destruct (r_fac K n no nv Nn L1 L2 HL T1 T2 HT inv M HI HM c) as ((r1 & R1 & B1) & (r2 & R2 & B2) & (r3 & R3 & B3)).
    split; [exists r1; split; [exact R1|apply from_one; [reflexivity|exact B1]]|].
    split; [exists r2; split; [exact R2|apply from_one; [reflexivity|exact B2]]|].
    exists r3; split; [exact R3|apply from_three; [reflexivity|exact B3]].
  Qed.

  (** *** Equal spins *)
  Definition same_as (P Q : tensor K) (vs : list bool) (sw : list nat -> list nat) (c : K) : Prop :=
    forall s xs, inrange (ext vs) xs -> NE c (word vs [s; s; s; s] xs) = dat P xs - dat Q (sw xs).
  Definition swap_last (xs : list nat) : list nat := match xs with [p; q; r; s] => [p; q; s; r] | _ => xs end.
  Definition swap_first (xs : list nat) : list nat := match xs with [p; q; r; s] => [q; p; r; s] | _ => xs end.
  Lemma same_blocks vs c spins Ps P : blocks vs c spins Ps -> List.length vs = 4%nat ->
    nth_error spins 0 = Some [false; false; false; false] -> nth_error spins 1 = Some [true; true; true; true] ->
    nth_error Ps 0 = Some P -> nth_error Ps 1 = Some P ->
    forall s xs, inrange (ext vs) xs -> NE c (word vs [s; s; s; s] xs) = dat P xs.
  Proof.
    intros B L E0 E1 P0 P1 s xs Hx.
    destruct (block_at _ _ _ _ 0 _ _ B E0 P0 (eq_sym L)) as (_ & D0). destruct (block_at _ _ _ _ 1 _ _ B E1 P1 (eq_sym L)) as (_ & D1).
    destruct s; [rewrite D1 by exact Hx|rewrite D0 by exact Hx]; reflexivity.
  Qed.
  Lemma four_of vs xs : List.length vs = 4%nat -> inrange (ext vs) xs -> exists p q r s, xs = [p; q; r; s].
  Proof.
    intros L Hx. destruct vs as [|v1 [|v2 [|v3 [|v4 [|]]]]]; try discriminate.
    destruct (in_four _ _ _ _ _ Hx) as (p & q & r & s & E & _). exists p, q, r, s. exact E.
  Qed.
  Lemma ket_at r xs vs : inrange (ext vs) xs -> List.length vs = 4%nat -> dat (tminus r (swap_ket r)) xs = dat (K := K) r xs - dat r (swap_last xs).
  Proof. intros Hx L. destruct (four_of vs xs L Hx) as (p & q & r' & s & ->). reflexivity. Qed.
  Lemma bra_at r xs vs : inrange (ext vs) xs -> List.length vs = 4%nat -> dat (tminus r (swap_bra r)) xs = dat (K := K) r xs - dat r (swap_first xs).
  Proof. intros Hx L. destruct (four_of vs xs L Hx) as (p & q & r' & s & ->). reflexivity. Qed.

  Definition r_same_list : list (string * string * list bool * (list nat -> list nat)) :=
    [("rccsd_2rdm_cdab", "rccsd_2rdm_cdab", [true; true; true; true], swap_last);
     ("rccsd_2rdm_ciab", "rccsd_2rdm_ciab", [true; false; true; true], swap_last);
     ("rccsd_2rdm_bcai", "rccsd_2rdm_bcai", [true; true; true; false], swap_first);
     ("rccsd_2rdm_bjai", "rccsd_2rdm_bjia", [true; false; true; false], swap_last);
     ("rccsd_2rdm_jkai", "rccsd_2rdm_jkai", [false; false; true; false], swap_first);
     ("rccsd_2rdm_kaij", "rccsd_2rdm_kaij", [false; true; false; false], swap_last);
     ("rccsd_2rdm_klij", "rccsd_2rdm_klij", [false; false; false; false], swap_last)]%string.
  Lemma r_same f g vs sw c : In (f, g, vs, sw) r_same_list ->
    exists P Q, returns f rargs (arr P) /\ returns g rargs (arr Q) /\ same_as P Q vs sw c.
  Proof.
    pose proof (r_plain K n no nv Nn L1 L2 HL T1 T2 HT inv M HI HM c) as RP.
    intros Hin. unfold r_same_list in Hin.
    repeat (destruct Hin as [E|Hin]; [injection E as <- <- <- <-|]); [..|destruct Hin].
    - destruct (RP "rccsd_2rdm_cdab"%string "uccsd_2rdm_cdab"%string HKet3 [true; true; true; true] three_spins ltac:(tab)) as (r & R & B). exists r, r. split; [exact R|]. split; [exact R|].
      intros s xs Hx. rewrite (same_blocks _ _ _ _ _ B eq_refl eq_refl eq_refl eq_refl eq_refl s xs Hx). exact (ket_at r xs _ Hx eq_refl).
    - destruct (RP "rccsd_2rdm_ciab"%string "uccsd_2rdm_ciab"%string HKet4 [true; false; true; true] four_spins ltac:(tab)) as (r & R & B). exists r, r. split; [exact R|]. split; [exact R|].
      intros s xs Hx. rewrite (same_blocks _ _ _ _ _ B eq_refl eq_refl eq_refl eq_refl eq_refl s xs Hx). exact (ket_at r xs _ Hx eq_refl).
    - destruct (RP "rccsd_2rdm_bcai"%string "uccsd_2rdm_bcai"%string HBra4 [true; true; true; false] four_spins ltac:(tab)) as (r & R & B). exists r, r. split; [exact R|]. split; [exact R|].
      intros s xs Hx. rewrite (same_blocks _ _ _ _ _ B eq_refl eq_refl eq_refl eq_refl eq_refl s xs Hx). exact (bra_at r xs _ Hx eq_refl).
    - destruct (r_bj c) as (P & Q & R & R' & _ & _ & E). exists P, Q. split; [exact R|]. split; [exact R'|].
      intros s xs Hx. destruct (four_of [true; false; true; false] xs eq_refl Hx) as (b & j & a & i & ->). exact (E s b j a i Hx).
    - destruct (RP "rccsd_2rdm_jkai"%string "uccsd_2rdm_jkai"%string HBra4 [false; false; true; false] four_spins ltac:(tab)) as (r & R & B). exists r, r. split; [exact R|]. split; [exact R|].
      intros s xs Hx. rewrite (same_blocks _ _ _ _ _ B eq_refl eq_refl eq_refl eq_refl eq_refl s xs Hx). exact (bra_at r xs _ Hx eq_refl).
    - destruct (RP "rccsd_2rdm_kaij"%string "uccsd_2rdm_kaij"%string HKet4 [false; true; false; false] four_spins ltac:(tab)) as (r & R & B). exists r, r. split; [exact R|]. split; [exact R|].
      intros s xs Hx. rewrite (same_blocks _ _ _ _ _ B eq_refl eq_refl eq_refl eq_refl eq_refl s xs Hx). exact (ket_at r xs _ Hx eq_refl).
    - destruct (RP "rccsd_2rdm_klij"%string "uccsd_2rdm_klij"%string HKet3 [false; false; false; false] three_spins ltac:(tab)) as (r & R & B). exists r, r. split; [exact R|]. split; [exact R|].
      intros s xs Hx. rewrite (same_blocks _ _ _ _ _ B eq_refl eq_refl eq_refl eq_refl eq_refl s xs Hx). exact (ket_at r xs _ Hx eq_refl).
  Qed.
  Lemma r_same_fac : exists P, returns "rccsd_2rdm_abij"%string rargs (arr P) /\ same_as P P [true; true; false; false] swap_last 1.
  Proof.
    destruct (r_fac K n no nv Nn L1 L2 HL T1 T2 HT inv M HI HM 1) as (_ & _ & (r & R & B)). exists r. split; [exact R|].
    intros s xs Hx. rewrite (same_blocks _ _ _ _ _ B eq_refl eq_refl eq_refl eq_refl eq_refl s xs Hx). exact (ket_at r xs _ Hx eq_refl).
  Qed.
End RD3.
