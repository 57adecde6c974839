(** The unrestricted iteration: instance of the convergence theorem for families
    of blocks. *)
From Coq Require Import List Bool Arith Lia String Reals Lra.
From Verif Require Import Scalar Tensor PySyntax PySem CCProg CCSpec SymSound CCShapes CCEquiv CCSym CovSpec Public Cov CovThm
  RoundSpec UtilsModel UtilsFacts ShiftSpec RespReal NegSpec SpinSpec IterSpec Lips Banach Iter IterN IterCC IterLam IterD IterR
  PropertiesCov PropertiesShift PropertiesUSym.
Import ListNotations.
Local Open Scope R_scope.

Section ScaleN.
  Variable n : space -> nat.
  Notation T := (tensor RK).
  Variable h : R.
  Hypothesis h0 : 0 < h.
  Lemma nsc_bounded l t : shp t = map n l -> at_most h t -> bounded_array n 1 l (sc h t).
  Proof.
    intros S H. split; [exact S|]. intros idx Hi. cbn [sc dat]. rewrite <- S in Hi. specialize (H idx Hi).
    unfold Rdiv. rewrite Rabs_mult, (Rabs_pos_eq (/ h)) by (apply Rlt_le, Rinv_0_lt_compat, h0).
    apply Rmult_le_reg_r with h; [exact h0|]. rewrite Rmult_assoc, Rinv_l by lra. lra.
  Qed.
  Lemma nsc_combined l t : shp t = map n l -> combined_array (K := RK) n h 0 l (sc h t) (sc h t) t.
  Proof.
    intros S. split; [exact S|]. split; [exact S|]. split; [exact S|]. intros idx Hi. cbn [sc dat].
    assert (Q : forall x : R, x = h * (x / h) + 0 * (x / h)) by (intros x; field; lra). exact (Q (dat t idx)).
  Qed.
  Lemma nsc_near e l (t : T) : 0 <= e -> shp t = map n l -> near_array n e l t t.
  Proof. intros He S. split; [exact S|]. split; [exact S|]. intros idx Hi. replace (dat t idx - dat t idx) with 0 by ring. rewrite Rabs_R0. exact He. Qed.

  Variables o v o' v' : space.
  Lemma nF_bounded F : one_e_ok (n o) (n v) F -> at_most_F h F -> bounded n 1 (fock o v) (py_one_e (scF h F)).
  Proof.
    intros (S1 & S2 & S3 & S4) (B1 & B2 & B3 & B4). unfold bounded, fock, py_one_e, scF, arr. cbn [related oo ov vo vv].
    repeat (split; [split; [reflexivity|split; [reflexivity|apply nsc_bounded; assumption]]|]). exact Logic.I.
  Qed.
  Lemma nF_near F e : 0 <= e -> one_e_ok (n o) (n v) F -> near n e (fock o v) (py_one_e (scF h F)) (py_one_e (scF h F)).
  Proof.
    intros He (S1 & S2 & S3 & S4). unfold near, fock, py_one_e, scF, arr. cbn [related oo ov vo vv].
    repeat (split; [split; [reflexivity|split; [reflexivity|apply nsc_near; assumption]]|]). exact Logic.I.
  Qed.
  Lemma nF_comb F : one_e_ok (n o) (n v) F -> combined (K := RK) n h 0 (fock o v) (py_one_e (scF h F)) (py_one_e (scF h F)) (py_one_e F).
  Proof.
    intros (S1 & S2 & S3 & S4). unfold combined, fock, py_one_e, scF, arr. cbn [related3 oo ov vo vv].
    repeat (split; [do 3 (split; [reflexivity|]); apply nsc_combined; assumption|]). exact Logic.I.
  Qed.
  Lemma nI_bounded I : two_e_shape (n o) (n v) I -> at_most_I h I -> bounded n 1 (eri9 o v) (py_two_e (scI h I)).
  Proof.
    intros (S1 & S2 & S3 & S4 & S5 & S6 & S7 & S8 & S9) (B1 & B2 & B3 & B4 & B5 & B6 & B7 & B8 & B9).
    unfold bounded, eri9, py_two_e, scI, arr. cbn [related vvvv vvvo vovv vvoo vovo oovv vooo ooov oooo].
    repeat (split; [split; [reflexivity|split; [reflexivity|apply nsc_bounded; assumption]]|]). exact Logic.I.
  Qed.
  Lemma nI_near I e : 0 <= e -> two_e_shape (n o) (n v) I -> near n e (eri9 o v) (py_two_e (scI h I)) (py_two_e (scI h I)).
  Proof.
    intros He (S1 & S2 & S3 & S4 & S5 & S6 & S7 & S8 & S9).
    unfold near, eri9, py_two_e, scI, arr. cbn [related vvvv vvvo vovv vvoo vovo oovv vooo ooov oooo].
    repeat (split; [split; [reflexivity|split; [reflexivity|apply nsc_near; assumption]]|]). exact Logic.I.
  Qed.
  Lemma nI_comb I : two_e_shape (n o) (n v) I -> combined (K := RK) n h 0 (eri9 o v) (py_two_e (scI h I)) (py_two_e (scI h I)) (py_two_e I).
  Proof.
    intros (S1 & S2 & S3 & S4 & S5 & S6 & S7 & S8 & S9).
    unfold combined, eri9, py_two_e, scI, arr. cbn [related3 vvvv vvvo vovv vvoo vovo oovv vooo ooov oooo].
    repeat (split; [do 3 (split; [reflexivity|]); apply nsc_combined; assumption|]). exact Logic.I.
  Qed.
  Ltac fields := unfold eri16, py_two_e_full, scJ, arr;
    cbn [related related3 fvvvv fvvvo fvvov fvovv fovvv fvvoo fvovo fvoov fovvo fovov foovv fooov foovo fovoo fvooo foooo].
  Lemma nJ_bounded J : two_e_full_ok (n o) (n v) (n o') (n v') J -> at_most_J h J -> bounded n 1 (eri16 o v o' v') (py_two_e_full (scJ h J)).
  Proof.
    intros (? & ? & ? & ? & ? & ? & ? & ? & ? & ? & ? & ? & ? & ? & ? & ?) (? & ? & ? & ? & ? & ? & ? & ? & ? & ? & ? & ? & ? & ? & ? & ?).
    unfold bounded. fields.
    repeat (split; [split; [reflexivity|split; [reflexivity|apply nsc_bounded; assumption]]|]). exact Logic.I.
  Qed.
  Lemma nJ_near J e : 0 <= e -> two_e_full_ok (n o) (n v) (n o') (n v') J -> near n e (eri16 o v o' v') (py_two_e_full (scJ h J)) (py_two_e_full (scJ h J)).
  Proof.
    intros He (? & ? & ? & ? & ? & ? & ? & ? & ? & ? & ? & ? & ? & ? & ? & ?). unfold near. fields.
    repeat (split; [split; [reflexivity|split; [reflexivity|apply nsc_near; assumption]]|]). exact Logic.I.
  Qed.
  Lemma nJ_comb J : two_e_full_ok (n o) (n v) (n o') (n v') J ->
    combined (K := RK) n h 0 (eri16 o v o' v') (py_two_e_full (scJ h J)) (py_two_e_full (scJ h J)) (py_two_e_full J).
  Proof.
    intros (? & ? & ? & ? & ? & ? & ? & ? & ? & ? & ? & ? & ? & ? & ? & ?). unfold combined. fields.
    repeat (split; [do 3 (split; [reflexivity|]); apply nsc_combined; assumption|]). exact Logic.I.
  Qed.

  Lemma n_amp_b l t : shp t = map n l -> at_most 1 t -> bounded n 1 (SArr l) (arr t).
  Proof. intros S H. split; [exact S|]. intros idx Hi. apply H. rewrite S. exact Hi. Qed.
  Lemma n_amp_n l e t u : shp t = map n l -> differ e t u -> near n e (SArr l) (arr t) (arr u).
  Proof. intros S (E & H). split; [exact S|]. split; [congruence|]. intros idx Hi. apply H. rewrite S. exact Hi. Qed.
  Lemma n_amp_s l (t : T) : shp t = map n l -> same n (SArr l) (arr t) (arr t) (arr t).
  Proof. intros S. split; [exact S|]. split; [exact S|]. split; [exact S|]. auto. Qed.

  Lemma n_arr C e l (u v1 w z : pyval RK) :
    bounded n C (SArr l) u -> near n (C * e) (SArr l) u v1 ->
    combined (K := RK) n h 0 (SArr l) u u w -> combined (K := RK) n h 0 (SArr l) v1 v1 z ->
    exists r r' : T, w = arr r /\ z = arr r' /\ shp r = map n l /\ at_most (C * h) r /\ differ (C * h * e) r r'.
  Proof.
    intros HB HN HC HD.
    destruct u as [|u| |]; try contradiction. destruct v1 as [|v1| |]; try contradiction.
    destruct w as [|w| |]; try contradiction. destruct z as [|z| |]; try contradiction.
    destruct HB as (_ & B1). destruct HN as (_ & _ & N1). destruct HC as (_ & _ & S1 & C1). destruct HD as (_ & _ & S3 & D1).
    exists w, z. split; [reflexivity|]. split; [reflexivity|]. split; [exact S1|].
    assert (M : forall x b, Rabs x <= b -> Rabs (h * x) <= b * h).
    { intros x b Hx. rewrite Rabs_mult, (Rabs_pos_eq h) by lra. rewrite (Rmult_comm b). apply Rmult_le_compat_l; lra. }
    assert (Q : forall x y : R, cadd (c := RK) (cmul (c := RK) h x) (cmul (c := RK) 0 y) = h * x) by (intros x y; change (h * x + 0 * y = h * x); ring).
    assert (Q2 : forall x y : R, h * x - h * y = h * (x - y)) by (intros; ring).
    split.
    - intros idx Hi. rewrite S1 in Hi. rewrite (C1 idx Hi), Q. apply M, B1, Hi.
    - split; [congruence|]. intros idx Hi. rewrite S1 in Hi. rewrite (C1 idx Hi), (D1 idx Hi), !Q, Q2.
      replace (C * h * e) with (C * e * h) by ring. apply M, N1, Hi.
  Qed.

  Ltac bust H := try (exfalso; cbn [related related3] in H; repeat match goal with A : _ /\ _ |- _ => destruct A end; contradiction).
  Definition ub (a b c d e : T) (x : ublock) : T := match x with Ua => a | Ub => b | Uaa => c | Uab => d | Ubb => e end.
  Lemma five_scaled C e (k : ublock -> list space) (u v1 w z : pyval RK) :
    let s := STup [STup [SArr (k Ua); SArr (k Ub)]; STup [SArr (k Uaa); SArr (k Uab); SArr (k Ubb)]] in
    bounded n C s u -> near n (C * e) s u v1 -> combined (K := RK) n h 0 s u u w -> combined (K := RK) n h 0 s v1 v1 z ->
    exists r r' : ublock -> T, w = tup (py_u r) /\ z = tup (py_u r') /\
      forall b, shp (r b) = map n (k b) /\ at_most (C * h) (r b) /\ differ (C * h * e) (r b) (r' b).
  Proof.
    intros s HB HN HC HD. subst s. unfold bounded, near, combined in *.
    destruct u as [|?|[|[|?|[|u1 [|u2 [|? ?]]]|?] [|[|?|[|u3 [|u4 [|u5 [|? ?]]]]|?] [|? ?]]]|?]; bust HB.
    destruct v1 as [|?|[|[|?|[|v1 [|v2 [|? ?]]]|?] [|[|?|[|v3 [|v4 [|v5 [|? ?]]]]|?] [|? ?]]]|?]; bust HN.
    destruct w as [|?|[|[|?|[|w1 [|w2 [|? ?]]]|?] [|[|?|[|w3 [|w4 [|w5 [|? ?]]]]|?] [|? ?]]]|?]; bust HC.
    destruct z as [|?|[|[|?|[|z1 [|z2 [|? ?]]]|?] [|[|?|[|z3 [|z4 [|z5 [|? ?]]]]|?] [|? ?]]]|?]; bust HD.
    destruct HB as ((B1 & B2 & _) & (B3 & B4 & B5 & _) & _). destruct HN as ((N1 & N2 & _) & (N3 & N4 & N5 & _) & _).
    destruct HC as ((C1 & C2 & _) & (C3 & C4 & C5 & _) & _). destruct HD as ((D1 & D2 & _) & (D3 & D4 & D5 & _) & _).
    destruct (n_arr C e _ _ _ _ _ B1 N1 C1 D1) as (r1 & q1 & -> & -> & P1).
    destruct (n_arr C e _ _ _ _ _ B2 N2 C2 D2) as (r2 & q2 & -> & -> & P2).
    destruct (n_arr C e _ _ _ _ _ B3 N3 C3 D3) as (r3 & q3 & -> & -> & P3).
    destruct (n_arr C e _ _ _ _ _ B4 N4 C4 D4) as (r4 & q4 & -> & -> & P4).
    destruct (n_arr C e _ _ _ _ _ B5 N5 C5 D5) as (r5 & q5 & -> & -> & P5).
    exists (ub r1 r2 r3 r4 r5), (ub q1 q2 q3 q4 q5). split; [reflexivity|]. split; [reflexivity|].
    intros [| | | |]; assumption.
  Qed.
End ScaleN.

Definition un (noa nva nob nvb : nat) (s : space) : nat := match s with so => noa | sv => nva | sO => nob | sV => nvb end.
Definition ukind (b : ublock) : list space :=
  match b with Ua => [sv; so] | Ub => [sV; sO] | Uaa => [sv; sv; so; so] | Uab => [sv; sV; so; sO] | Ubb => [sV; sV; sO; sO] end.
Notation uf_name := "uccsd_stanton"%string.
Definition u_args := [F_; Fb_; I_; Ib_; Iab_; uT1; uT2].
Definition u_flags := [true; true; true; true; true; false; false].
Lemma u_pub : In (uf_name, u_args, STup [uT1; uT2]) public_functions.
Proof. find_in. Qed.
Lemma u_hamarg : In (uf_name, u_flags) hamiltonian_arguments.
Proof. find_in. Qed.

Definition lip_const_u (noa nva nob nvb : nat) (C : R) : Prop :=
  0 <= C /\ forall h Fa Fb Ia Ib J (t t' : ublock -> tensor RK) e, 0 < h -> u_ham_ok noa nva nob nvb Fa Fb Ia Ib J -> u_small h Fa Fb Ia Ib J ->
    (forall b, shp (t b) = ushape noa nva nob nvb b) -> (forall b, shp (t' b) = ushape noa nva nob nvb b) ->
    (forall b, at_most 1 (t b)) -> (forall b, at_most 1 (t' b)) -> 0 <= e -> (forall b, differ e (t b) (t' b)) ->
    exists r r', returns uf_name (py_uham Fa Fb Ia Ib J ++ py_u t)%list (tup (py_u r)) /\
      returns uf_name (py_uham Fa Fb Ia Ib J ++ py_u t')%list (tup (py_u r')) /\
      forall b, shp (r b) = ushape noa nva nob nvb b /\ at_most (C * h) (r b) /\ differ (C * h * e) (r b) (r' b).
Lemma lip_u noa nva nob nvb : exists C, lip_const_u noa nva nob nvb C.
Proof.
  set (n := un noa nva nob nvb).
  destruct (lipschitz n uf_name _ _ 1 u_pub ltac:(lra)) as (C & C0 & H).
  exists C. split; [exact C0|].
  intros h Fa Fb Ia Ib J t t' e h0 (HFa & HFb & HIa & HIb & HJ) (BFa & BFb & BIa & BIb & BJ) S S' B B' He N.
  set (sc_ham := py_uham (scF h Fa) (scF h Fb) (scI h Ia) (scI h Ib) (scJ h J)).
  assert (BA : forall x, (forall b, shp (x b) = ushape noa nva nob nvb b) -> (forall b, at_most 1 (x b)) -> bounded_args n 1 u_args (sc_ham ++ py_u x)%list).
  { intros x Sx Bx.
    split; [exact (nF_bounded n h h0 so sv Fa HFa BFa)|]. split; [exact (nF_bounded n h h0 sO sV Fb HFb BFb)|].
    split; [exact (nI_bounded n h h0 so sv Ia (proj1 HIa) BIa)|]. split; [exact (nI_bounded n h h0 sO sV Ib (proj1 HIb) BIb)|].
    split; [exact (nJ_bounded n h h0 so sv sO sV J HJ BJ)|].
    split; [|split; [|exact Logic.I]].
    - split; [exact (n_amp_b n (ukind Ua) _ (Sx Ua) (Bx Ua))|]. split; [exact (n_amp_b n (ukind Ub) _ (Sx Ub) (Bx Ub))|exact Logic.I].
    - split; [exact (n_amp_b n (ukind Uaa) _ (Sx Uaa) (Bx Uaa))|]. split; [exact (n_amp_b n (ukind Uab) _ (Sx Uab) (Bx Uab))|].
      split; [exact (n_amp_b n (ukind Ubb) _ (Sx Ubb) (Bx Ubb))|exact Logic.I]. }
  destruct (H (sc_ham ++ py_u t)%list (sc_ham ++ py_u t')%list e (BA t S B) (BA t' S' B') He) as (u & v & Ru & Rv & Bu & Bv & Nuv).
  - split; [exact (nF_near n h so sv Fa e He HFa)|]. split; [exact (nF_near n h sO sV Fb e He HFb)|].
    split; [exact (nI_near n h so sv Ia e He (proj1 HIa))|]. split; [exact (nI_near n h sO sV Ib e He (proj1 HIb))|].
    split; [exact (nJ_near n h so sv sO sV J e He HJ)|].
    split; [|split; [|exact Logic.I]].
    + split; [exact (n_amp_n n (ukind Ua) e _ _ (S Ua) (N Ua))|]. split; [exact (n_amp_n n (ukind Ub) e _ _ (S Ub) (N Ub))|exact Logic.I].
    + split; [exact (n_amp_n n (ukind Uaa) e _ _ (S Uaa) (N Uaa))|]. split; [exact (n_amp_n n (ukind Uab) e _ _ (S Uab) (N Uab))|].
      split; [exact (n_amp_n n (ukind Ubb) e _ _ (S Ubb) (N Ubb))|exact Logic.I].
  - assert (W : forall x, (forall b, shp (x b) = ushape noa nva nob nvb b) ->
      combined_args (K := RK) n h 0 u_flags u_args (sc_ham ++ py_u x)%list (sc_ham ++ py_u x)%list (py_uham Fa Fb Ia Ib J ++ py_u x)%list).
    { intros x Sx.
      split; [exact (nF_comb n h h0 so sv Fa HFa)|]. split; [exact (nF_comb n h h0 sO sV Fb HFb)|].
      split; [exact (nI_comb n h h0 so sv Ia (proj1 HIa))|]. split; [exact (nI_comb n h h0 sO sV Ib (proj1 HIb))|].
      split; [exact (nJ_comb n h h0 so sv sO sV J HJ)|].
      split; [|split; [|exact Logic.I]].
      - split; [exact (n_amp_s n (ukind Ua) _ (Sx Ua))|]. split; [exact (n_amp_s n (ukind Ub) _ (Sx Ub))|exact Logic.I].
      - split; [exact (n_amp_s n (ukind Uaa) _ (Sx Uaa))|]. split; [exact (n_amp_s n (ukind Uab) _ (Sx Uab))|].
        split; [exact (n_amp_s n (ukind Ubb) _ (Sx Ubb))|exact Logic.I]. }
    destruct (C73_linear_in_hamiltonian RK n h 0 uf_name _ _ _ _ _ _ u_hamarg u_pub (W t S)) as (x & y & w & Rx & Ry & Rw & Cw).
    destruct (C73_linear_in_hamiltonian RK n h 0 uf_name _ _ _ _ _ _ u_hamarg u_pub (W t' S')) as (x' & y' & z & Rx' & Ry' & Rz & Cz).
    rewrite (returns_fun _ _ _ _ _ Rx Ru), (returns_fun _ _ _ _ _ Ry Ru) in Cw.
    rewrite (returns_fun _ _ _ _ _ Rx' Rv), (returns_fun _ _ _ _ _ Ry' Rv) in Cz.
    destruct (five_scaled n h h0 C e ukind u v w z Bu Nuv Cw Cz) as (r & r' & -> & -> & P).
    exists r, r'. split; [exact Rw|]. split; [exact Rz|]. intros b. destruct (P b) as (P1 & P2). split; [|exact P2].
    rewrite P1. destruct b; reflexivity.
Qed.

Definition resid_u (f : string) (args : list (pyval RK)) (t : ublock -> tensor RK) : ublock -> tensor RK :=
  match pycall (conc_alg RK) cc_prog f args with
  | Ok (XTup [XTup [XArr a; XArr b]; XTup [XArr c; XArr d; XArr e]], _) => ub a b c d e
  | _ => t
  end.
Lemma resid_u_eq f args t r : returns f args (tup (py_u r)) -> forall b, resid_u f args t b = r b.
Proof. intros (args' & E & _). unfold resid_u. rewrite E. intros [| | | |]; reflexivity. Qed.

Lemma returns_u f args r r' : returns f args (tup (py_u r)) -> returns f args (tup (py_u r')) -> forall b, r b = r' b.
Proof.
  intros R R'. pose proof (returns_fun _ _ _ _ _ R R') as Q. unfold py_u, tup, arr in Q.
  injection Q as Q1 Q2 Q3 Q4 Q5. intros [| | | |]; assumption.
Qed.

Section U.
  Variables noa nva nob nvb : nat.
  Notation T := (tensor RK).
  Notation sh := (ushape noa nva nob nvb).
  Variable res : string -> list (pyval RK) -> (ublock -> T) -> ublock -> T.
  Hypothesis res_eq : forall f args t r, returns f args (tup (py_u r)) -> forall b, res f args t b = r b.
  Variable C g : R.
  Variables (Fa0 Fa Fb0 Fb : one_e RK) (Ia Ib : two_e RK) (J : two_e_full RK) (eoa eva eob evb : T) (D : ublock -> T).
  Hypothesis HC : lip_const_u noa nva nob nvb C.
  Hypothesis HH : u_ham_ok noa nva nob nvb Fa0 Fb0 Ia Ib J.
  Hypotheses (HEa : energy_shift noa nva eoa eva Fa0 Fa) (HEb : energy_shift nob nvb eob evb Fb0 Fb).
  Hypotheses (HGa : gap noa nva eoa eva g) (HGb : gap nob nvb eob evb g).
  Variable h : R.
  Hypotheses (h0 : 0 < h) (Ch : C * h <= g / 2) (BH : u_small h Fa0 Fb0 Ia Ib J).
  Hypothesis HD : udenominators eoa eva eob evb D.
  Notation H0 := (py_uham Fa0 Fb0 Ia Ib J). Notation H1 := (py_uham Fa Fb Ia Ib J).

  Definition rf_u (t : ublock -> T) : ublock -> T := res uf_name (H0 ++ py_u t)%list t.
  Definition rfull_u (t : ublock -> T) : ublock -> T := res uf_name (H1 ++ py_u t)%list t.
  Notation ok_u := (u_ok noa nva nob nvb).
  Lemma ok_u_sh t : ok_u t -> forall b, shp (t b) = sh b.
  Proof. intros (P1 & P2 & (P3 & _) & P4 & (P5 & _)) [| | | |]; assumption. Qed.
  Lemma D_gap b idx : inrange (sh b) idx -> g <= dat (D b) idx.
  Proof.
    destruct HD as (E1 & E2 & E3 & E4 & E5). destruct b; cbn [ushape]; intros Hi.
    - exact (d1_sd noa nva g Fa0 Fa eoa eva _ HEa HGa E1 idx Hi).
    - exact (d1_sd nob nvb g Fb0 Fb eob evb _ HEb HGb E2 idx Hi).
    - exact (proj1 (d2_facts noa nva g Fa0 Fa eoa eva _ HEa HGa E3) idx Hi).
    - destruct (len4 _ _ _ _ _ Hi) as (a & b & i & j & ->). apply in4 in Hi. destruct Hi as (Ha & Hb & Hi & Hj).
      destruct (D2u_spec RK eva evb eoa eob nva nvb noa nob (proj1 (proj2 HEa)) (proj1 (proj2 HEb)) (proj1 HEa) (proj1 HEb)) as (D' & ED & _ & V).
      rewrite E4 in ED. injection ED as <-. rewrite (V a b i j Ha Hb Hi Hj).
      change (g <= dat eva [a] + dat evb [b] - dat eoa [i] - dat eob [j]).
      destruct HGa as (G0 & G). destruct HGb as (_ & G'). pose proof (G a i Ha Hi) as Q1. pose proof (G' b j Hb Hj) as Q2.
      assert (Q : forall x y z w : R, x + g <= y -> z + g <= w -> g <= y + w - x - z) by (intros; lra). exact (Q _ _ _ _ Q1 Q2).
    - exact (proj1 (d2_facts nob nvb g Fb0 Fb eob evb _ HEb HGb E5) idx Hi).
  Qed.
  Lemma ok_u_step t t' : ok_u t -> (forall b, quotient (sh b) (rf_u t b) (D b) (t' b)) -> ok_u t'.
  Proof.
    intros O Q. destruct HD as (E1 & E2 & E3 & E4 & E5).
    destruct (C05_uccsd_antisymmetric RK noa nva nob nvb Fa0 Fb0 Ia Ib J _ _ _ _ _ HH O) as (ta & tb & aa & ab & bb & R & (_ & _ & O3 & _ & O5) & _).
    assert (X : forall b, rf_u t b = ub ta tb aa ab bb b) by (apply res_eq; exact R).
    split; [exact (proj1 (Q Ua))|]. split; [exact (proj1 (Q Ub))|].
    split; [|split; [exact (proj1 (Q Uab))|]].
    - apply (anti4_quotient nva noa aa (D Uaa) (t' Uaa) O3 (proj2 (d2_facts noa nva g Fa0 Fa eoa eva _ HEa HGa E3))).
      pose proof (Q Uaa) as Q3. rewrite (X Uaa) in Q3. exact Q3.
    - apply (anti4_quotient nvb nob bb (D Ubb) (t' Ubb) O5 (proj2 (d2_facts nob nvb g Fb0 Fb eob evb _ HEb HGb E5))).
      pose proof (Q Ubb) as Q5. rewrite (X Ubb) in Q5. exact Q5.
  Qed.
  Lemma u_lip t t' e : ok_u t -> ok_u t' -> (forall b, at_most 1 (t b)) -> (forall b, at_most 1 (t' b)) ->
    0 <= e -> (forall b, differ e (t b) (t' b)) ->
    forall b idx, inrange (sh b) idx -> Rabs (dat (rf_u t b) idx) <= g / 2 /\ Rabs (dat (rf_u t b) idx - dat (rf_u t' b) idx) <= g / 2 * e.
  Proof.
    intros O O' B B' He N b idx Hi. destruct HC as (C0 & L).
    destruct (L h Fa0 Fb0 Ia Ib J t t' e h0 HH BH (ok_u_sh t O) (ok_u_sh t' O') B B' He N) as (r & r' & R & R' & P).
    unfold rf_u. rewrite (res_eq _ _ _ _ R b), (res_eq _ _ _ _ R' b).
    destruct (P b) as (S & A1 & (_ & A2)). rewrite S in A2.
    assert (M : C * h * e <= g / 2 * e) by (apply Rmult_le_compat_r; assumption).
    split; [eapply Rle_trans; [apply A1; rewrite S; exact Hi|exact Ch]|eapply Rle_trans; [apply A2, Hi|exact M]].
  Qed.
  Lemma u_full t : ok_u t -> exists r, returns uf_name (H1 ++ py_u t)%list (tup (py_u r)) /\
    forall b, shp (r b) = sh b /\ forall idx, inrange (sh b) idx -> dat (r b) idx = dat (rf_u t b) idx + dat (D b) idx * dat (t b) idx :> R.
  Proof.
    intros O. destruct HD as (E1 & E2 & E3 & E4 & E5).
    destruct (C98_unrestricted_denominators RK noa nva nob nvb Fa0 Fa Fb0 Fb Ia Ib J eoa eva eob evb _ _ _ _ _ HH O HEa HEb)
      as (da & db & daa & dab & dbb & ra & rb & raa & rab & rbb & ra' & rb' & raa' & rab' & rbb' & G1 & G2 & G3 & G4 & G5 & RR & R' & (P1 & _) & (P2 & _) & (P3 & _) & (P4 & _) & (P5 & _)).
    rewrite E1 in G1. rewrite E2 in G2. rewrite E3 in G3. rewrite E4 in G4. rewrite E5 in G5.
    injection G1 as <-. injection G2 as <-. injection G3 as <-. injection G4 as <-. injection G5 as <-.
    assert (X : forall b, rf_u t b = ub ra rb raa rab rbb b) by (apply res_eq; exact RR).
    exists (ub ra' rb' raa' rab' rbb'). split; [exact R'|].
    assert (Y : forall b r r', rf_u t b = r -> plus r (times (D b) (t b)) r' -> shp r' = sh b /\
      forall idx, inrange (sh b) idx -> dat r' idx = dat (rf_u t b) idx + dat (D b) idx * dat (t b) idx :> R).
    { intros b r r' Xb (S1 & S2 & P). cbn [times shp] in S1. rewrite (ok_u_sh t O b) in S1. rewrite <- S1 in P, S2.
      split; [exact S2|]. rewrite Xb. exact P. }
    intros [| | | |]; [exact (Y Ua _ _ (X Ua) P1)|exact (Y Ub _ _ (X Ub) P2)|exact (Y Uaa _ _ (X Uaa) P3)|exact (Y Uab _ _ (X Uab) P4)|exact (Y Ubb _ _ (X Ubb) P5)].
  Qed.

  Theorem u_converges : exists t, ok_u t /\ (forall b, at_most (1 / 2) (t b)) /\ solves_u uf_name H1 t /\
    (forall t', ok_u t' -> (forall b, at_most 1 (t' b)) -> solves_u uf_name H1 t' -> forall b, teq (t' b) (t b)) /\
    (exists y, iterates_u noa nva nob nvb uf_name H1 eoa eva eob evb y) /\
    (forall y, iterates_u noa nva nob nvb uf_name H1 eoa eva eob evb y -> forall k b, differ ((1 / 2) ^ k) (y k b) (t b)).
  Proof.
    assert (FE : forall t r, returns uf_name (H1 ++ py_u t)%list (tup (py_u r)) -> forall b, rfull_u t b = r b)
      by (intros t r R; exact (res_eq _ _ _ _ R)).
    destruct (solven ublock sh D g ok_u rf_u rfull_u (proj1 HGa) D_gap ok_u_sh) as (t & O & B & Z & U & (y & Hy & Oy) & N).
    - intros t t' (O1 & O2 & O3 & O4 & O5) E.
      split; [destruct (E Ua) as (S & _); unfold t1_ok in *; congruence|]. split; [destruct (E Ub) as (S & _); unfold t1_ok in *; congruence|].
      split; [exact (anti4_ext nva noa _ _ O3 (E Uaa))|]. split; [destruct (E Uab) as (S & _); congruence|exact (anti4_ext nvb nob _ _ O5 (E Ubb))].
    - split; [reflexivity|]. split; [reflexivity|]. split; [apply anti4_zero|]. split; [reflexivity|apply anti4_zero].
    - intros y t H E. split; [exact (proj1 (E Ua))|]. split; [exact (proj1 (E Ub))|].
      split; [apply (anti4_tends nva noa (fun k => y k Uaa)); [intros k; apply H|exact (E Uaa)]|]. split; [exact (proj1 (E Uab))|].
      apply (anti4_tends nvb nob (fun k => y k Ubb)); [intros k; apply H|exact (E Ubb)].
    - exact ok_u_step.
    - exact u_lip.
    - intros t O b idx Hi. destruct (u_full t O) as (r & R & P). rewrite (FE t r R b). apply (P b), Hi.
    - assert (Z' : forall t, ok_u t -> zeron ublock sh rfull_u t <-> solves_u uf_name H1 t).
      { intros t' O'. destruct (u_full t' O') as (r & R & P). split.
        - intros Zt. exists r. split; [exact R|]. intros b idx Hi. rewrite (proj1 (P b)) in Hi. rewrite <- (FE t' r R b). apply Zt, Hi.
        - intros (r' & R' & Zt) b idx Hi. rewrite (FE t' r' R' b). apply Zt. rewrite <- (returns_u _ _ _ _ R R' b), (proj1 (P b)). exact Hi. }
      exists t. split; [exact O|]. split; [exact B|]. split; [apply Z'; assumption|]. split; [|split].
      + intros t' O' B' S'. apply U; [exact O'|exact B'|apply Z'; assumption].
      + exists y. destruct Hy as (Y0 & Hy). split; [exact Y0|]. intros k. destruct (u_full _ (Oy k)) as (r & R & P).
        exists D, r. split; [exact HD|]. split; [exact R|]. intros b. rewrite <- (FE _ r R b). exact (Hy k b).
      + intros y' (Y0 & H) k b. apply N. split; [exact Y0|]. intros m c. destruct (H m) as (D' & r & (G1 & G2 & G3 & G4 & G5) & R & P).
        rewrite (FE _ r R c). destruct HD as (E1 & E2 & E3 & E4 & E5).
        assert (X : D c = D' c) by (destruct c; congruence). rewrite X. apply P.
  Qed.
End U.

Lemma udenominators_exist noa nva nob nvb (Fa0 Fa Fb0 Fb : one_e RK) eoa eva eob evb :
  energy_shift noa nva eoa eva Fa0 Fa -> energy_shift nob nvb eob evb Fb0 Fb -> exists D, udenominators eoa eva eob evb D.
Proof.
  intros HEa HEb.
  destruct (D1_spec RK eva eoa nva noa (proj1 (proj2 HEa)) (proj1 HEa)) as (da & E1 & _).
  destruct (D1_spec RK evb eob nvb nob (proj1 (proj2 HEb)) (proj1 HEb)) as (db & E2 & _).
  destruct (D2_spec RK eva eoa nva noa (proj1 (proj2 HEa)) (proj1 HEa)) as (daa & E3 & _).
  destruct (D2u_spec RK eva evb eoa eob nva nvb noa nob (proj1 (proj2 HEa)) (proj1 (proj2 HEb)) (proj1 HEa) (proj1 HEb)) as (dab & E4 & _).
  destruct (D2_spec RK evb eob nvb nob (proj1 (proj2 HEb)) (proj1 HEb)) as (dbb & E5 & _).
  exists (ub da db daa dab dbb). repeat split; assumption.
Qed.

Theorem uccsd_converges noa nva nob nvb : exists kappa, 0 < kappa /\
  forall g Fa0 Fa Fb0 Fb Ia Ib J eoa eva eob evb, u_ham_ok noa nva nob nvb Fa0 Fb0 Ia Ib J ->
    energy_shift noa nva eoa eva Fa0 Fa -> energy_shift nob nvb eob evb Fb0 Fb -> gap noa nva eoa eva g -> gap nob nvb eob evb g ->
    u_small (kappa * g) Fa0 Fb0 Ia Ib J ->
    exists t, u_ok noa nva nob nvb t /\ (forall b, at_most (1 / 2) (t b)) /\ solves_u uf_name (py_uham Fa Fb Ia Ib J) t /\
      (forall t', u_ok noa nva nob nvb t' -> (forall b, at_most 1 (t' b)) -> solves_u uf_name (py_uham Fa Fb Ia Ib J) t' -> forall b, teq (t' b) (t b)) /\
      (exists y, iterates_u noa nva nob nvb uf_name (py_uham Fa Fb Ia Ib J) eoa eva eob evb y) /\
      (forall y, iterates_u noa nva nob nvb uf_name (py_uham Fa Fb Ia Ib J) eoa eva eob evb y -> forall k b, differ ((1 / 2) ^ k) (y k b) (t b)).
Proof.
  destruct (lip_u noa nva nob nvb) as (C & HC). pose proof (proj1 HC) as C0.
  exists (/ (2 * (C + 1))). split; [apply Rinv_0_lt_compat; lra|].
  intros g Fa0 Fa Fb0 Fb Ia Ib J eoa eva eob evb HH HEa HEb HGa HGb BH.
  destruct (udenominators_exist noa nva nob nvb Fa0 Fa Fb0 Fb eoa eva eob evb HEa HEb) as (D & HD).
  destruct (ratio C C g C0 (Rle_refl C) (proj1 HGa)) as (R1 & R2).
  exact (u_converges noa nva nob nvb resid_u resid_u_eq C g Fa0 Fa Fb0 Fb Ia Ib J eoa eva eob evb D HC HH HEa HEb HGa HGb (/ (2 * (C + 1)) * g) R1 R2 BH HD).
Qed.
