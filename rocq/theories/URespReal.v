(** Derivatives of the energy of unrestricted and restricted coupled cluster
    theory with respect to a real parameter. *)
From Coq Require Import List Bool Arith ZArith Lia Ring String Reals Lra FunctionalExtensionality.
From Verif Require Import Scalar Tensor PySyntax PySem CCProg CCSpec SymSound CCShapes CCEquiv SpinSpec CovSpec Public Cov CovThm
  RoundSpec RespSpec Resp RespReal URespSpec URespThm RRespThm.
Import ListNotations.

Ltac find_pub := match goal with |- In _ ?l => let l' := eval hnf in l in change l with l'; repeat first [left; reflexivity | right] end.

Section Families.
  Variable n : space -> nat.
  Variable t0 : R.
  Local Open Scope R_scope.

  (** a family of values with value and derivative [d] at t0 *)
  Definition family (s : shape) (v : R -> pyval RK) (d : pyval (DualK RK)) : Prop :=
    exists x, tangent_value n t0 s x d /\ forall t, mapped n (at_t t) s x (v t).
  Fixpoint families (l : list shape) (vs : list (R -> pyval RK)) (ds : list (pyval (DualK RK))) : Prop :=
    match l, vs, ds with
    | [], [], [] => True
    | s :: l', v :: vs', d :: ds' => family s v d /\ families l' vs' ds'
    | _, _, _ => False
    end.
  Fixpoint named_families (l : list (string * shape)) (vs : list (string * (R -> pyval RK))) (ds : list (string * pyval (DualK RK))) : Prop :=
    match l, vs, ds with
    | [], [], [] => True
    | (a, s) :: l', (b, v) :: vs', (c, d) :: ds' => (a = b /\ a = c /\ family s v d) /\ named_families l' vs' ds'
    | _, _, _ => False
    end.

  Lemma family_arr l (x : R -> tensor RK) (d : tensor RK) :
    (forall t, shp (x t) = map n l) -> shp d = map n l -> array_derivative t0 x d ->
    family (SArr l) (fun t => arr (x t)) (arr (perturbed (x t0) d)).
  Proof.
    intros S1 S2 H. exists (arr (fam (map n l) x)). split.
    - split; [reflexivity|]. split; [exact (S1 t0)|]. intros idx Hi. split; [reflexivity|]. apply H. rewrite S2. exact Hi.
    - intros t. split; [reflexivity|]. split; [exact (S1 t)|]. intros idx Hi. reflexivity.
  Qed.

  Lemma families_args l : forall vs ds, families l vs ds ->
    exists xs, related_args (tangent_value n t0) l xs ds /\ forall t, related_args (mapped n (at_t t)) l xs (map (fun v => v t) vs).
  Proof.
    induction l as [|s l IH]; intros [|v vs] [|d ds] H; try contradiction.
    - exists []. split; [exact Logic.I|intros; exact Logic.I].
    - destruct H as ((x & A & B) & H). destruct (IH _ _ H) as (xs & C & D). exists (x :: xs).
      split; [split; assumption|]. intros t. split; [apply B|apply D].
  Qed.
  Lemma related_tup (K1 K2 : cring) (N : K1 -> K2 -> Prop) (A : list space -> tensor K1 -> tensor K2 -> Prop) l : forall xs ys,
    related_args (related N A) l xs ys -> related N A (STup l) (tup xs) (tup ys).
  Proof.
    induction l as [|s l IH]; intros [|x xs] [|y ys] H; try contradiction; [exact Logic.I|].
    destruct H as (H1 & H2). split; [exact H1|exact (IH _ _ H2)].
  Qed.
  Lemma tup_related (K1 K2 : cring) (N : K1 -> K2 -> Prop) (A : list space -> tensor K1 -> tensor K2 -> Prop) l x y :
    related N A (STup l) x y -> exists xs ys, x = tup xs /\ y = tup ys /\ related_args (related N A) l xs ys.
  Proof.
    destruct x as [| |xs|]; try contradiction. destruct y as [| |ys|]; try contradiction. intros H. exists xs, ys.
    split; [reflexivity|]. split; [reflexivity|]. revert xs ys H. induction l as [|s l IH]; intros [|x xs] [|y ys] H; try contradiction; [exact Logic.I|].
    destruct H as (H1 & H2). split; [exact H1|exact (IH _ _ H2)].
  Qed.
  Lemma args_cons (K1 K2 : cring) (Q : shape -> pyval K1 -> pyval K2 -> Prop) s l xs ys :
    related_args Q (s :: l) xs ys -> exists x xs' y ys', xs = x :: xs' /\ ys = y :: ys' /\ Q s x y /\ related_args Q l xs' ys'.
  Proof. destruct xs as [|x xs], ys as [|y ys]; try contradiction. intros (A & B). exists x, xs, y, ys. auto. Qed.
  Lemma args_nil (K1 K2 : cring) (Q : shape -> pyval K1 -> pyval K2 -> Prop) xs ys : related_args Q [] xs ys -> xs = [] /\ ys = [].
  Proof. destruct xs, ys; try contradiction. auto. Qed.
  Lemma arr_related (K1 K2 : cring) (N : K1 -> K2 -> Prop) (A : list space -> tensor K1 -> tensor K2 -> Prop) l x y :
    related N A (SArr l) x y -> exists t u, x = arr t /\ y = arr u /\ A l t u.
  Proof. destruct x as [|t| |]; try contradiction. destruct y as [|u| |]; try contradiction. intros H. exists t, u. auto. Qed.
  Lemma two_related (K1 K2 : cring) (N : K1 -> K2 -> Prop) (A : list space -> tensor K1 -> tensor K2 -> Prop) a b x y :
    related N A (STup [SArr a; SArr b]) x y ->
    exists x1 x2 y1 y2, x = tup [arr x1; arr x2] /\ y = tup [arr y1; arr y2] /\ A a x1 y1 /\ A b x2 y2.
  Proof.
    intros H. destruct (tup_related _ _ _ _ _ _ _ H) as (xs & ys & -> & -> & H0). clear H.
    destruct (args_cons _ _ _ _ _ _ _ H0) as (x1 & xs1 & y1 & ys1 & -> & -> & Q1 & H1). clear H0.
    destruct (args_cons _ _ _ _ _ _ _ H1) as (x2 & xs2 & y2 & ys2 & -> & -> & Q2 & H2). clear H1.
    destruct (args_nil _ _ _ _ _ H2) as (-> & ->).
    destruct (arr_related _ _ _ _ _ _ _ Q1) as (t1 & u1 & -> & -> & B1). destruct (arr_related _ _ _ _ _ _ _ Q2) as (t2 & u2 & -> & -> & B2).
    exists t1, t2, u1, u2. auto.
  Qed.
  Lemma three_related (K1 K2 : cring) (N : K1 -> K2 -> Prop) (A : list space -> tensor K1 -> tensor K2 -> Prop) a b c x y :
    related N A (STup [SArr a; SArr b; SArr c]) x y ->
    exists x1 x2 x3 y1 y2 y3, x = tup [arr x1; arr x2; arr x3] /\ y = tup [arr y1; arr y2; arr y3] /\ A a x1 y1 /\ A b x2 y2 /\ A c x3 y3.
  Proof.
    intros H. destruct (tup_related _ _ _ _ _ _ _ H) as (xs & ys & -> & -> & H0). clear H.
    destruct (args_cons _ _ _ _ _ _ _ H0) as (x1 & xs1 & y1 & ys1 & -> & -> & Q1 & H1). clear H0.
    destruct (args_cons _ _ _ _ _ _ _ H1) as (x2 & xs2 & y2 & ys2 & -> & -> & Q2 & H2). clear H1.
    destruct (args_cons _ _ _ _ _ _ _ H2) as (x3 & xs3 & y3 & ys3 & -> & -> & Q3 & H3). clear H2.
    destruct (args_nil _ _ _ _ _ H3) as (-> & ->).
    destruct (arr_related _ _ _ _ _ _ _ Q1) as (t1 & u1 & -> & -> & B1). destruct (arr_related _ _ _ _ _ _ _ Q2) as (t2 & u2 & -> & -> & B2).
    destruct (arr_related _ _ _ _ _ _ _ Q3) as (t3 & u3 & -> & -> & B3).
    exists t1, t2, t3, u1, u2, u3. auto 6.
  Qed.
  Lemma five_related (K1 K2 : cring) (N : K1 -> K2 -> Prop) (A : list space -> tensor K1 -> tensor K2 -> Prop) a b c d e x y :
    related N A (STup [STup [SArr a; SArr b]; STup [SArr c; SArr d; SArr e]]) x y ->
    exists x1 x2 x3 x4 x5 y1 y2 y3 y4 y5, x = tup [tup [arr x1; arr x2]; tup [arr x3; arr x4; arr x5]] /\
      y = tup [tup [arr y1; arr y2]; tup [arr y3; arr y4; arr y5]] /\ A a x1 y1 /\ A b x2 y2 /\ A c x3 y3 /\ A d x4 y4 /\ A e x5 y5.
  Proof.
    intros H. destruct (tup_related _ _ _ _ _ _ _ H) as (xs & ys & -> & -> & H0). clear H.
    destruct (args_cons _ _ _ _ _ _ _ H0) as (v1 & xs1 & w1 & ys1 & -> & -> & Q1 & H1). clear H0.
    destruct (args_cons _ _ _ _ _ _ _ H1) as (v2 & xs2 & w2 & ys2 & -> & -> & Q2 & H2). clear H1.
    destruct (args_nil _ _ _ _ _ H2) as (-> & ->).
    destruct (two_related _ _ _ _ _ _ _ _ Q1) as (x1 & x2 & y1 & y2 & -> & -> & B1 & B2).
    destruct (three_related _ _ _ _ _ _ _ _ _ Q2) as (x3 & x4 & x5 & y3 & y4 & y5 & -> & -> & B3 & B4 & B5).
    exists x1, x2, x3, x4, x5, y1, y2, y3, y4, y5. auto 10.
  Qed.
  Lemma family_tup l vs ds : families l vs ds -> family (STup l) (fun t => tup (map (fun v => v t) vs)) (tup ds).
  Proof.
    intros H. destruct (families_args _ _ _ H) as (xs & A & B). exists (tup xs). split; [apply related_tup; exact A|].
    intros t. apply related_tup. exact (B t).
  Qed.
  Lemma family_obj l : forall vs ds, named_families l vs ds -> family (SObj l) (fun t => XObj (map (fun v => (fst v, snd v t)) vs)) (XObj ds).
  Proof.
    enough (forall vs ds, named_families l vs ds -> exists xs, tangent_value n t0 (SObj l) (XObj xs) (XObj ds) /\
      forall t, mapped n (at_t t) (SObj l) (XObj xs) (XObj (map (fun v => (fst v, snd v t)) vs))) as X.
    { intros vs ds H. destruct (X _ _ H) as (xs & A & B). exists (XObj xs). split; assumption. }
    induction l as [|[a s] l IH]; intros [|[b v] vs] [|[c d] ds] H; try contradiction.
    - exists []. split; [exact Logic.I|intros; exact Logic.I].
    - destruct H as ((<- & <- & x & A & B) & H). destruct (IH _ _ H) as (xs & C & D). exists ((a, x) :: xs).
      split; [split; [split; [reflexivity|split; [reflexivity|exact A]]|exact C]|].
      intros t. split; [split; [reflexivity|split; [reflexivity|exact (B t)]]|exact (D t)].
  Qed.

  Lemma family_run f a r vs ds : In (f, a, r) public_functions -> families a vs ds ->
    exists x d, returns (K := DualK RK) f ds d /\ tangent_value n t0 r x d /\
      forall t, exists v, returns (K := RK) f (map (fun v => v t) vs) v /\ mapped n (at_t t) r x v.
  Proof.
    intros Hf H. destruct (families_args _ _ _ H) as (xs & A & B).
    destruct (differentiate t0 n f a r xs ds Hf A) as (x & d & C & D & E). exists x, d. split; [exact C|]. split; [exact D|].
    intros t. exact (E t _ (B t)).
  Qed.

  (** an array that vanishes near t0 vanishes over the dual numbers *)
  Lemma vanish l (x : tensor FunK) (d : tensor (DualK RK)) delta : 0 < delta -> tangent_array n t0 l x d ->
    (forall t, Rabs (t - t0) < delta -> exists u, mapped_array n (at_t t) l x u /\ zero_array (map n l) u) ->
    zero_array (map n l) d.
  Proof.
    intros Hd (A1 & A2 & A3) H. split; [exact A2|]. intros idx Hi.
    assert (Z : forall t, Rabs (t - t0) < delta -> dat x idx t = 0).
    { intros t Ht. destruct (H t Ht) as (u & (_ & _ & M) & (_ & Z)). pose proof (M _ Hi) as Q. rewrite (Z _ Hi) in Q. symmetry. exact Q. }
    destruct (A3 idx Hi) as (E & D). apply injective_projections; cbn [fst snd].
    - rewrite E. exact (Z t0 (at_centre t0 _ Hd)).
    - exact (flat_zero t0 _ _ delta D Hd Z).
  Qed.

  Variables (o v O V : space).
  Lemma family_one_e F dF : (forall t, one_e_ok (n o) (n v) (F t)) -> one_e_ok (n o) (n v) dF -> one_e_derivative t0 F dF ->
    family (fock o v) (fun t => py_one_e (F t)) (py_one_e (perturbed_one_e (F t0) dF)).
  Proof.
    intros H (S1 & S2 & S3 & S4) (E1 & E2 & E3 & E4).
    apply (family_obj [("oo", SArr [o; o]); ("ov", SArr [o; v]); ("vo", SArr [v; o]); ("vv", SArr [v; v])]%string
      [("oo", fun t => arr (oo (F t))); ("ov", fun t => arr (ov (F t))); ("vo", fun t => arr (vo (F t))); ("vv", fun t => arr (vv (F t)))]%string).
    repeat (split; [split; [reflexivity|split; [reflexivity|]]|]); try exact Logic.I;
      (apply family_arr; [intros t; apply (H t)|assumption|assumption]).
  Qed.
  Lemma family_two_e I dI : (forall t, two_e_shape (n o) (n v) (I t)) -> two_e_shape (n o) (n v) dI -> two_e_derivative t0 I dI ->
    family (eri9 o v) (fun t => py_two_e (I t)) (py_two_e (perturbed_two_e (I t0) dI)).
  Proof.
    intros H (S1 & S2 & S3 & S4 & S5 & S6 & S7 & S8 & S9) DI.
    unfold two_e_derivative in DI. repeat match goal with H : Forall _ (_ :: _) |- _ => inversion H; clear H; subst end.
    apply (family_obj [("vvvv", SArr [v; v; v; v]); ("vvvo", SArr [v; v; v; o]); ("vovv", SArr [v; o; v; v]);
        ("vvoo", SArr [v; v; o; o]); ("vovo", SArr [v; o; v; o]); ("oovv", SArr [o; o; v; v]);
        ("vooo", SArr [v; o; o; o]); ("ooov", SArr [o; o; o; v]); ("oooo", SArr [o; o; o; o])]%string
      [("vvvv", fun t => arr (vvvv (I t))); ("vvvo", fun t => arr (vvvo (I t))); ("vovv", fun t => arr (vovv (I t)));
       ("vvoo", fun t => arr (vvoo (I t))); ("vovo", fun t => arr (vovo (I t))); ("oovv", fun t => arr (oovv (I t)));
       ("vooo", fun t => arr (vooo (I t))); ("ooov", fun t => arr (ooov (I t))); ("oooo", fun t => arr (oooo (I t)))]%string).
    repeat (split; [split; [reflexivity|split; [reflexivity|]]|]); try exact Logic.I;
      (apply family_arr; [intros t; apply (H t)|assumption|assumption]).
  Qed.
  Lemma family_two_e_full I dI : (forall t, two_e_full_ok (n o) (n v) (n O) (n V) (I t)) -> two_e_full_ok (n o) (n v) (n O) (n V) dI ->
    two_e_full_derivative t0 I dI ->
    family (eri16 o v O V) (fun t => py_two_e_full (I t)) (py_two_e_full (perturbed_two_e_full (I t0) dI)).
  Proof.
    intros H (S1 & S2 & S3 & S4 & S5 & S6 & S7 & S8 & S9 & S10 & S11 & S12 & S13 & S14 & S15 & S16) DI.
    unfold two_e_full_derivative in DI. repeat match goal with H : Forall _ (_ :: _) |- _ => inversion H; clear H; subst end.
    let s := eval cbv [eri16] in (eri16 o v O V) in
    match s with SObj ?l => apply (family_obj l
      [("vvvv", fun t => arr (fvvvv (I t))); ("vvvo", fun t => arr (fvvvo (I t))); ("vvov", fun t => arr (fvvov (I t)));
       ("vovv", fun t => arr (fvovv (I t))); ("ovvv", fun t => arr (fovvv (I t))); ("vvoo", fun t => arr (fvvoo (I t)));
       ("vovo", fun t => arr (fvovo (I t))); ("voov", fun t => arr (fvoov (I t))); ("ovvo", fun t => arr (fovvo (I t)));
       ("ovov", fun t => arr (fovov (I t))); ("oovv", fun t => arr (foovv (I t))); ("ooov", fun t => arr (fooov (I t)));
       ("oovo", fun t => arr (foovo (I t))); ("ovoo", fun t => arr (fovoo (I t))); ("vooo", fun t => arr (fvooo (I t)));
       ("oooo", fun t => arr (foooo (I t)))]%string) end.
    repeat (split; [split; [reflexivity|split; [reflexivity|]]|]); try exact Logic.I;
      (apply family_arr; [intros t; apply (H t)|assumption|assumption]).
  Qed.
End Families.

Definition n4 (noa nva nob nvb : nat) (s : space) : nat := match s with so => noa | sv => nva | sO => nob | sV => nvb end.

Section Zero.
  Variable K : cring.
  Add Ring Kr_urr : (c_th K).
  Local Open Scope K_scope.
  Lemma sumN_zero m (F : nat -> K) : (forall i, (i < m)%nat -> F i = 0) -> sumN m F = 0.
  Proof. intros H. rewrite (sumN_ext K m F (fun _ => 0)) by exact H. apply sumN_0. Qed.
  Lemma dot2_zero m n (A B : list nat -> K) : (forall i j, (i < m)%nat -> (j < n)%nat -> A [i; j] = 0 \/ B [j; i] = 0) -> dot2 (K:=K) m n A B = 0.
  Proof.
    intros H. unfold dot2. apply sumN_zero. intros i Hi. apply sumN_zero. intros j Hj.
    destruct (H i j Hi Hj) as [-> | ->]; ring.
  Qed.
  Lemma dot4_zero m n k l (A B : list nat -> K) :
    (forall p q r s, (p < m)%nat -> (q < n)%nat -> (r < k)%nat -> (s < l)%nat -> A [p; q; r; s] = 0 \/ B [r; s; p; q] = 0) -> dot4 (K:=K) m n k l A B = 0.
  Proof.
    intros H. unfold dot4. do 4 (apply sumN_zero; intros ? ?).
    edestruct H as [-> | ->]; try eassumption; ring.
  Qed.
  Lemma zero_2 m n (A : tensor K) : zero_array [m; n] A -> forall i j, (i < m)%nat -> (j < n)%nat -> dat A [i; j] = 0.
  Proof. intros (_ & H) i j Hi Hj. apply H. repeat constructor; assumption. Qed.
  Lemma zero_4 m n k l (A : tensor K) : zero_array [m; n; k; l] A ->
    forall p q r s, (p < m)%nat -> (q < n)%nat -> (r < k)%nat -> (s < l)%nat -> dat A [p; q; r; s] = 0.
  Proof. intros (_ & H) p q r s Hp Hq Hr Hs. apply H. repeat constructor; assumption. Qed.
  Lemma tangent_zero sh (A : tensor (DualK K)) : zero_array sh A -> zero_array sh (tangent_part A).
  Proof. intros (S & H). split; [exact S|]. intros idx Hi. cbn. rewrite (H _ Hi). reflexivity. Qed.

  Lemma u_pairing_zero_r noa nva nob nvb (L1a L1b L2aa L2ab L2bb R1a R1b R2aa R2ab R2bb : tensor K) :
    zero_array [nva; noa] R1a -> zero_array [nvb; nob] R1b -> zero_array [nva; nva; noa; noa] R2aa -> zero_array [nva; nvb; noa; nob] R2ab ->
    zero_array [nvb; nvb; nob; nob] R2bb ->
    u_pairing noa nva nob nvb L1a L1b L2aa L2ab L2bb R1a R1b R2aa R2ab R2bb = 0.
  Proof.
    intros Z1 Z2 Z3 Z4 Z5. unfold u_pairing. rewrite !dot2_zero, !dot4_zero; [ring|..]; intros; right;
      first [eapply zero_2; eassumption | eapply zero_4; eassumption | cbn; eapply zero_4; eassumption].
  Qed.
  Lemma u_pairing_zero_l noa nva nob nvb (L1a L1b L2aa L2ab L2bb R1a R1b R2aa R2ab R2bb : tensor K) :
    zero_array [noa; nva] L1a -> zero_array [nob; nvb] L1b -> zero_array [noa; noa; nva; nva] L2aa -> zero_array [noa; nob; nva; nvb] L2ab ->
    zero_array [nob; nob; nvb; nvb] L2bb ->
    u_pairing noa nva nob nvb L1a L1b L2aa L2ab L2bb R1a R1b R2aa R2ab R2bb = 0.
  Proof.
    intros Z1 Z2 Z3 Z4 Z5. unfold u_pairing. rewrite !dot2_zero, !dot4_zero; [ring|..]; intros; left;
      first [eapply zero_2; eassumption | eapply zero_4; eassumption | cbn; eapply zero_4; eassumption].
  Qed.
  Lemma r_pairing_zero_r no nv (L1 L2 R1 R2 : tensor K) : zero_array [nv; no] R1 -> zero_array [nv; nv; no; no] R2 -> r_pairing no nv L1 L2 R1 R2 = 0.
  Proof.
    intros Z1 Z2. unfold r_pairing, closed4, twice. rewrite !dot2_zero, !dot4_zero; [ring|..]; intros; right;
      first [eapply zero_2; eassumption | eapply zero_4; eassumption | cbn; eapply zero_4; eassumption].
  Qed.
  Lemma r_pairing_zero_l no nv (L1 L2 R1 R2 : tensor K) : zero_array [no; nv] L1 -> zero_array [no; no; nv; nv] L2 -> r_pairing no nv L1 L2 R1 R2 = 0.
  Proof.
    intros Z1 Z2. unfold r_pairing, closed4, twice. rewrite !dot2_zero, !dot4_zero; [ring|..]; intros; left;
      first [eapply zero_2; eassumption | eapply zero_4; eassumption | cbn; eapply zero_4; eassumption].
  Qed.
End Zero.

(** *** Unrestricted *)
Section Unrestricted.
  Variables noa nva nob nvb : nat.
  Variable t0 : R.
  Local Open Scope R_scope.
  Notation n := (n4 noa nva nob nvb).
  Variables (Fa Fb : R -> one_e RK) (Ia Ib : R -> two_e RK) (J : R -> two_e_full RK).
  Variables (T1a T1b T2aa T2ab T2bb : R -> tensor RK).
  Variables (dFa dFb : one_e RK) (dIa dIb : two_e RK) (dJ : two_e_full RK).
  Variables (dT1a dT1b dT2aa dT2ab dT2bb L1a L1b L2aa L2ab L2bb : tensor RK).
  Hypothesis HH : forall t, u_ham_ok noa nva nob nvb (Fa t) (Fb t) (Ia t) (Ib t) (J t).
  Hypothesis HT : forall t, u_amps_ok noa nva nob nvb (T1a t) (T1b t) (T2aa t) (T2ab t) (T2bb t).
  Hypothesis HdH : u_ham_ok noa nva nob nvb dFa dFb dIa dIb dJ.
  Hypotheses (S1a : t1_ok noa nva dT1a) (S1b : t1_ok nob nvb dT1b) (S2aa : shp dT2aa = [nva; nva; noa; noa]).
  Hypotheses (S2ab : shp dT2ab = [nva; nvb; noa; nob]) (S2bb : shp dT2bb = [nvb; nvb; nob; nob]).
  Hypotheses (DFa : one_e_derivative t0 Fa dFa) (DFb : one_e_derivative t0 Fb dFb).
  Hypotheses (DIa : two_e_derivative t0 Ia dIa) (DIb : two_e_derivative t0 Ib dIb) (DJ : two_e_full_derivative t0 J dJ).
  Hypotheses (D1a : array_derivative t0 T1a dT1a) (D1b : array_derivative t0 T1b dT1b).
  Hypotheses (D2aa : array_derivative t0 T2aa dT2aa) (D2ab : array_derivative t0 T2ab dT2ab) (D2bb : array_derivative t0 T2bb dT2bb).
  Hypothesis HL : u_lams_ok noa nva nob nvb L1a L1b L2aa L2ab L2bb.

  Lemma u_dT : u_amps_ok noa nva nob nvb dT1a dT1b dT2aa dT2ab dT2bb.
  Proof.
    split; [exact S1a|]. split; [exact S1b|]. split.
    - apply (dT2_ok noa nva t0 T2aa dT2aa); [intros t; apply (HT t)|exact S2aa|exact D2aa].
    - split; [exact S2ab|]. apply (dT2_ok nob nvb t0 T2bb dT2bb); [intros t; apply (HT t)|exact S2bb|exact D2bb].
  Qed.

  Lemma fam_T1a : family n t0 T1_ (fun t => arr (T1a t)) (arr (perturbed (T1a t0) dT1a)).
  Proof. apply family_arr; [intros t; apply (HT t)|exact S1a|exact D1a]. Qed.
  Lemma fam_T1b : family n t0 T1b_ (fun t => arr (T1b t)) (arr (perturbed (T1b t0) dT1b)).
  Proof. apply family_arr; [intros t; apply (HT t)|exact S1b|exact D1b]. Qed.
  Lemma fam_T2aa : family n t0 T2_ (fun t => arr (T2aa t)) (arr (perturbed (T2aa t0) dT2aa)).
  Proof. apply family_arr; [intros t; apply (HT t)|exact S2aa|exact D2aa]. Qed.
  Lemma fam_T2ab : family n t0 T2ab_ (fun t => arr (T2ab t)) (arr (perturbed (T2ab t0) dT2ab)).
  Proof. apply family_arr; [intros t; apply (HT t)|exact S2ab|exact D2ab]. Qed.
  Lemma fam_T2bb : family n t0 T2bb_ (fun t => arr (T2bb t)) (arr (perturbed (T2bb t0) dT2bb)).
  Proof. apply family_arr; [intros t; apply (HT t)|exact S2bb|exact D2bb]. Qed.
  Lemma fam_uT1 : family n t0 uT1 (fun t => tup [arr (T1a t); arr (T1b t)]) (tup [arr (perturbed (T1a t0) dT1a); arr (perturbed (T1b t0) dT1b)]).
  Proof.
    apply (family_tup n t0 [T1_; T1b_] [fun t => arr (T1a t); fun t => arr (T1b t)]).
    split; [exact fam_T1a|]. split; [exact fam_T1b|exact Logic.I].
  Qed.
  Lemma fam_uT2 : family n t0 uT2 (fun t => tup [arr (T2aa t); arr (T2ab t); arr (T2bb t)])
    (tup [arr (perturbed (T2aa t0) dT2aa); arr (perturbed (T2ab t0) dT2ab); arr (perturbed (T2bb t0) dT2bb)]).
  Proof.
    apply (family_tup n t0 [T2_; T2ab_; T2bb_] [fun t => arr (T2aa t); fun t => arr (T2ab t); fun t => arr (T2bb t)]).
    split; [exact fam_T2aa|]. split; [exact fam_T2ab|]. split; [exact fam_T2bb|exact Logic.I].
  Qed.

  Definition u_args t : list (pyval RK) :=
    [py_one_e (Fa t); py_one_e (Fb t); py_two_e (Ia t); py_two_e (Ib t); py_two_e_full (J t);
     tup [arr (T1a t); arr (T1b t)]; tup [arr (T2aa t); arr (T2ab t); arr (T2bb t)]].

  Lemma u_dual_solved delta : 0 < delta ->
    (forall t, Rabs (t - t0) < delta -> exists R1a R1b R2aa R2ab R2bb,
       returns (K := RK) "uccsd_stanton" (u_args t) (tup [tup [arr R1a; arr R1b]; tup [arr R2aa; arr R2ab; arr R2bb]]) /\
       zero_array [nva; noa] R1a /\ zero_array [nvb; nob] R1b /\ zero_array [nva; nva; noa; noa] R2aa /\
       zero_array [nva; nvb; noa; nob] R2ab /\ zero_array [nvb; nvb; nob; nob] R2bb) ->
    exists S1a S1b S2aa S2ab S2bb,
      returns (K := DualK RK) "uccsd_stanton"
      [py_one_e (perturbed_one_e (Fa t0) dFa); py_one_e (perturbed_one_e (Fb t0) dFb); py_two_e (perturbed_two_e (Ia t0) dIa);
       py_two_e (perturbed_two_e (Ib t0) dIb); py_two_e_full (perturbed_two_e_full (J t0) dJ);
       tup [arr (perturbed (T1a t0) dT1a); arr (perturbed (T1b t0) dT1b)];
       tup [arr (perturbed (T2aa t0) dT2aa); arr (perturbed (T2ab t0) dT2ab); arr (perturbed (T2bb t0) dT2bb)]]
       (tup [tup [arr S1a; arr S1b]; tup [arr S2aa; arr S2ab; arr S2bb]]) /\
       zero_array [nva; noa] S1a /\ zero_array [nvb; nob] S1b /\ zero_array [nva; nva; noa; noa] S2aa /\
       zero_array [nva; nvb; noa; nob] S2ab /\ zero_array [nvb; nvb; nob; nob] S2bb.
  Proof.
    intros Hd HZ.
    destruct (family_run n t0 "uccsd_stanton" [F_; Fb_; I_; Ib_; Iab_; uT1; uT2] (STup [uT1; uT2])
      [fun t => py_one_e (Fa t); fun t => py_one_e (Fb t); fun t => py_two_e (Ia t); fun t => py_two_e (Ib t); fun t => py_two_e_full (J t);
       fun t => tup [arr (T1a t); arr (T1b t)]; fun t => tup [arr (T2aa t); arr (T2ab t); arr (T2bb t)]]
      [py_one_e (perturbed_one_e (Fa t0) dFa); py_one_e (perturbed_one_e (Fb t0) dFb); py_two_e (perturbed_two_e (Ia t0) dIa);
       py_two_e (perturbed_two_e (Ib t0) dIb); py_two_e_full (perturbed_two_e_full (J t0) dJ);
       tup [arr (perturbed (T1a t0) dT1a); arr (perturbed (T1b t0) dT1b)];
       tup [arr (perturbed (T2aa t0) dT2aa); arr (perturbed (T2ab t0) dT2ab); arr (perturbed (T2bb t0) dT2bb)]] ltac:(find_pub))
      as (x & d & Rd & TV & AT).
    { destruct HdH as (X1 & X2 & X3 & X4 & X5).
      split; [apply (family_one_e n t0 so sv); [intros t; apply (HH t)|exact X1|exact DFa]|].
      split; [apply (family_one_e n t0 sO sV); [intros t; apply (HH t)|exact X2|exact DFb]|].
      split; [apply (family_two_e n t0 so sv); [intros t; apply (HH t)|exact (proj1 X3)|exact DIa]|].
      split; [apply (family_two_e n t0 sO sV); [intros t; apply (HH t)|exact (proj1 X4)|exact DIb]|].
      split; [apply (family_two_e_full n t0 so sv sO sV); [intros t; apply (HH t)|exact X5|exact DJ]|].
      split; [exact fam_uT1|]. split; [exact fam_uT2|exact Logic.I]. }
    unfold tangent_value, uT1, uT2, T1_, T2_, T1b_, T2ab_, T2bb_, t1s, t2s in TV.
    destruct (five_related _ _ _ _ _ _ _ _ _ _ _ TV) as (x1 & x2 & x3 & x4 & x5 & S1 & S2 & S3 & S4 & S5 & -> & -> & A1 & A2 & A3 & A4 & A5). clear TV.
    exists S1, S2, S3, S4, S5. split; [exact Rd|].
    assert (Z : forall t, Rabs (t - t0) < delta -> exists R1 R2 R3 R4 R5,
      (mapped_array n (at_t t) [sv; so] x1 R1 /\ zero_array [nva; noa] R1) /\ (mapped_array n (at_t t) [sV; sO] x2 R2 /\ zero_array [nvb; nob] R2) /\
      (mapped_array n (at_t t) [sv; sv; so; so] x3 R3 /\ zero_array [nva; nva; noa; noa] R3) /\
      (mapped_array n (at_t t) [sv; sV; so; sO] x4 R4 /\ zero_array [nva; nvb; noa; nob] R4) /\
      (mapped_array n (at_t t) [sV; sV; sO; sO] x5 R5 /\ zero_array [nvb; nvb; nob; nob] R5)).
    { intros t Ht. destruct (HZ t Ht) as (R1 & R2 & R3 & R4 & R5 & RR & Z1 & Z2 & Z3 & Z4 & Z5). destruct (AT t) as (v & Rv & Mv).
      cbn [map] in Rv. unfold u_args in RR. rewrite <- (returns_fun _ _ _ _ _ RR Rv) in Mv.
      unfold mapped, tup, arr, uT1, uT2, T1_, T2_, T1b_, T2ab_, T2bb_, t1s, t2s in Mv. cbn [related] in Mv.
      destruct Mv as ((M1 & M2 & _) & (M3 & M4 & M5 & _) & _).
      exists R1, R2, R3, R4, R5. repeat (split; [split; assumption|]). split; assumption. }
    split; [|split; [|split; [|split]]].
    - apply (vanish n t0 [sv; so] x1 S1 delta Hd A1). intros t Ht. destruct (Z t Ht) as (R1 & R2 & R3 & R4 & R5 & B1 & _). exists R1. exact B1.
    - apply (vanish n t0 [sV; sO] x2 S2 delta Hd A2). intros t Ht. destruct (Z t Ht) as (R1 & R2 & R3 & R4 & R5 & _ & B1 & _). exists R2. exact B1.
    - apply (vanish n t0 [sv; sv; so; so] x3 S3 delta Hd A3). intros t Ht. destruct (Z t Ht) as (R1 & R2 & R3 & R4 & R5 & _ & _ & B1 & _). exists R3. exact B1.
    - apply (vanish n t0 [sv; sV; so; sO] x4 S4 delta Hd A4). intros t Ht. destruct (Z t Ht) as (R1 & R2 & R3 & R4 & R5 & _ & _ & _ & B1 & _). exists R4. exact B1.
    - apply (vanish n t0 [sV; sV; sO; sO] x5 S5 delta Hd A5). intros t Ht. destruct (Z t Ht) as (R1 & R2 & R3 & R4 & R5 & _ & _ & _ & _ & B1). exists R5. exact B1.
  Qed.

  Theorem u_energy_derivative delta M1a M1b M2aa M2ab M2bb : 0 < delta ->
    (forall t, Rabs (t - t0) < delta -> exists R1a R1b R2aa R2ab R2bb,
       returns (K := RK) "uccsd_stanton" (u_args t) (tup [tup [arr R1a; arr R1b]; tup [arr R2aa; arr R2ab; arr R2bb]]) /\
       zero_array [nva; noa] R1a /\ zero_array [nvb; nob] R1b /\ zero_array [nva; nva; noa; noa] R2aa /\
       zero_array [nva; nvb; noa; nob] R2ab /\ zero_array [nvb; nvb; nob; nob] R2bb) ->
    returns (K := RK) "uccsd_lambda_opt"
      [py_one_e (Fa t0); py_one_e (Fb t0); py_two_e (Ia t0); py_two_e (Ib t0); py_two_e_full (J t0);
       tup [arr L1a; arr L1b]; tup [arr L2aa; arr L2ab; arr L2bb]; tup [arr (T1a t0); arr (T1b t0)]; tup [arr (T2aa t0); arr (T2ab t0); arr (T2bb t0)]]
      (tup [tup [arr M1a; arr M1b]; tup [arr M2aa; arr M2ab; arr M2bb]]) ->
    zero_array [noa; nva] M1a -> zero_array [nob; nvb] M1b -> zero_array [noa; noa; nva; nva] M2aa ->
    zero_array [noa; nob; nva; nvb] M2ab -> zero_array [nob; nob; nvb; nvb] M2bb ->
    exists (E : R -> R) P,
      (forall t, returns (K := RK) "ucc_energy" [tup [arr (T1a t); arr (T1b t)]; tup [arr (T2aa t); arr (T2ab t); arr (T2bb t)];
         arr (ov (Fa t)); arr (ov (Fb t)); arr (oovv (Ia t)); arr (oovv (Ib t)); arr (foovv (J t))] (numv (E t : RK))) /\
      (forall f k, In (f, k) u_density_functions -> returns (K := RK) f
        [arr (T1a t0); arr (T1b t0); arr (T2aa t0); arr (T2ab t0); arr (T2bb t0); arr L1a; arr L1b; arr L2aa; arr L2ab; arr L2bb]
        (tup (map (fun i => arr (P f i)) (seq 0 k)))) /\
      derivable_pt_lim E t0 (u_contraction noa nva nob nvb L1a L1b L2aa L2ab L2bb P dFa dFb dIa dIb dJ).
  Proof.
    intros Hd HZ RM Y1 Y2 Y3 Y4 Y5.
    destruct (u_dual_solved delta Hd HZ) as (S1 & S2 & S3 & S4 & S5 & RS & Z1 & Z2 & Z3 & Z4 & Z5).
    destruct (u_change RK noa nva nob nvb (Fa t0) dFa (Fb t0) dFb (Ia t0) dIa (Ib t0) dIb (J t0) dJ
      (T1a t0) (T1b t0) (T2aa t0) (T2ab t0) (T2bb t0) dT1a dT1b dT2aa dT2ab dT2bb L1a L1b L2aa L2ab L2bb (HH t0) (HT t0) HL HdH u_dT)
      as (e & R1 & R2 & R3 & R4 & R5 & N1 & N2 & N3 & N4 & N5 & P & Re & RR & RN & RP & Ee).
    pose proof (returns_fun _ _ _ _ _ RS RR) as E1. injection E1 as <- <- <- <- <-.
    pose proof (returns_fun _ _ _ _ _ RM RN) as E2. injection E2 as <- <- <- <- <-.
    rewrite (u_pairing_zero_l RK _ _ _ _ M1a M1b M2aa M2ab M2bb) in Ee by assumption.
    rewrite (u_pairing_zero_r RK) in Ee by (apply tangent_zero; assumption).
    assert (Ef : snd e = u_contraction noa nva nob nvb L1a L1b L2aa L2ab L2bb P dFa dFb dIa dIb dJ).
    { cbn in Ee. rewrite !Rplus_0_r in Ee. exact Ee. }
    destruct (family_run n t0 "ucc_energy" [uT1; uT2; SArr [so; sv]; SArr [sO; sV]; SArr [so; so; sv; sv]; SArr [sO; sO; sV; sV]; SArr [so; sO; sv; sV]] SNum
      [fun t => tup [arr (T1a t); arr (T1b t)]; fun t => tup [arr (T2aa t); arr (T2ab t); arr (T2bb t)];
       fun t => arr (ov (Fa t)); fun t => arr (ov (Fb t)); fun t => arr (oovv (Ia t)); fun t => arr (oovv (Ib t)); fun t => arr (foovv (J t))]
      [tup [arr (perturbed (T1a t0) dT1a); arr (perturbed (T1b t0) dT1b)];
       tup [arr (perturbed (T2aa t0) dT2aa); arr (perturbed (T2ab t0) dT2ab); arr (perturbed (T2bb t0) dT2bb)];
       arr (perturbed (ov (Fa t0)) (ov dFa)); arr (perturbed (ov (Fb t0)) (ov dFb)); arr (perturbed (oovv (Ia t0)) (oovv dIa));
       arr (perturbed (oovv (Ib t0)) (oovv dIb)); arr (perturbed (foovv (J t0)) (foovv dJ))] ltac:(find_pub))
      as (x & d & Rd & TV & AT).
    { destruct HdH as (X1 & X2 & X3 & X4 & X5).
      split; [exact fam_uT1|]. split; [exact fam_uT2|].
      split; [apply (family_arr n t0 [so; sv]); [intros t; apply (HH t)|apply X1|apply DFa]|].
      split; [apply (family_arr n t0 [sO; sV]); [intros t; apply (HH t)|apply X2|apply DFb]|].
      unfold two_e_derivative, two_e_full_derivative in *. rewrite Forall_forall in DIa, DIb, DJ.
      split; [apply (family_arr n t0 [so; so; sv; sv]); [intros t; apply (HH t)|apply X3|apply DIa; do 5 right; left; reflexivity]|].
      split; [apply (family_arr n t0 [sO; sO; sV; sV]); [intros t; apply (HH t)|apply X4|apply DIb; do 5 right; left; reflexivity]|].
      split; [apply (family_arr n t0 [so; sO; sv; sV]); [intros t; apply (HH t)|apply X5|apply DJ; do 10 right; left; reflexivity]|exact Logic.I]. }
    rewrite <- (returns_fun _ _ _ _ _ Re Rd) in TV. unfold tangent_value, numv in TV. destruct x as [x| | |]; cbn [related] in TV; try contradiction.
    destruct TV as (E0 & D). exists x, P. split; [|split; [exact RP|rewrite <- Ef; exact D]].
    intros t. destruct (AT t) as (v & Rv & Mv).
    unfold mapped in Mv. destruct v as [v| | |]; cbn [related] in Mv; try contradiction. subst v. exact Rv.
  Qed.
End Unrestricted.

(** *** Restricted *)
Section Restricted.
  Variables no nv : nat.
  Variable t0 : R.
  Local Open Scope R_scope.
  Notation n := (n2 no nv).
  Variables (F : R -> one_e RK) (J : R -> two_e_full RK) (T1 T2 : R -> tensor RK).
  Variables (dF : one_e RK) (dJ : two_e_full RK) (dT1 dT2 L1 L2 : tensor RK).
  Hypotheses (HF : forall t, one_e_ok no nv (F t)) (HJ : forall t, two_e_full_ok no nv no nv (J t)) (PJ : forall t, pair_sym_full (J t)).
  Hypotheses (H1 : forall t, shp (T1 t) = [nv; no]) (H2 : forall t, shp (T2 t) = [nv; nv; no; no]) (P2 : forall t, pair_sym (T2 t)).
  Hypotheses (HdF : one_e_ok no nv dF) (HdJ : two_e_full_ok no nv no nv dJ) (PdJ : pair_sym_full dJ).
  Hypotheses (Hd1 : shp dT1 = [nv; no]) (Hd2 : shp dT2 = [nv; nv; no; no]).
  Hypotheses (DF : one_e_derivative t0 F dF) (DJ : two_e_full_derivative t0 J dJ).
  Hypotheses (D1 : array_derivative t0 T1 dT1) (D2 : array_derivative t0 T2 dT2).
  Hypotheses (H3 : shp L1 = [no; nv]) (H4 : shp L2 = [no; no; nv; nv]) (P4 : pair_sym L2).

  Lemma r_dT2 : pair_sym dT2.
  Proof.
    split; [cbn; rewrite Hd2; reflexivity|]. intros idx Hi.
    assert (Hj : inrange (shp dT2) (map (fun k => nth k idx 0%nat) [1; 0; 3; 2]%nat)).
    { rewrite Hd2 in *. inversion Hi as [|? ? ? ? A Hi1]; subst. inversion Hi1 as [|? ? ? ? B Hi2]; subst.
      inversion Hi2 as [|? ? ? ? C Hi3]; subst. inversion Hi3 as [|? ? ? ? D Hi4]; subst. inversion Hi4; subst. repeat (constructor; [assumption|]). constructor. }
    eapply uniqueness_limite; [apply D2; exact Hi|].
    replace (fun t => dat (T2 t) idx) with (fun t => dat (T2 t) (map (fun k => nth k idx 0%nat) [1; 0; 3; 2]%nat) : R); [exact (D2 _ Hj)|].
    apply functional_extensionality. intros t. destruct (P2 t) as (_ & Q). symmetry. apply Q. rewrite H2, <- Hd2. exact Hi.
  Qed.
  Lemma fam_T1 : family n t0 T1_ (fun t => arr (T1 t)) (arr (perturbed (T1 t0) dT1)).
  Proof. apply family_arr; [exact H1|exact Hd1|exact D1]. Qed.
  Lemma fam_T2 : family n t0 T2_ (fun t => arr (T2 t)) (arr (perturbed (T2 t0) dT2)).
  Proof. apply family_arr; [exact H2|exact Hd2|exact D2]. Qed.

  Lemma r_dual_solved delta : 0 < delta ->
    (forall t, Rabs (t - t0) < delta -> exists R1 R2,
       returns (K := RK) "rccsd_stanton" [py_one_e (F t); py_two_e_full (J t); arr (T1 t); arr (T2 t)] (tup [arr R1; arr R2]) /\
       zero_array [nv; no] R1 /\ zero_array [nv; nv; no; no] R2) ->
    exists S1 S2, returns (K := DualK RK) "rccsd_stanton" [py_one_e (perturbed_one_e (F t0) dF); py_two_e_full (perturbed_two_e_full (J t0) dJ);
        arr (perturbed (T1 t0) dT1); arr (perturbed (T2 t0) dT2)] (tup [arr S1; arr S2]) /\
      zero_array [nv; no] S1 /\ zero_array [nv; nv; no; no] S2.
  Proof.
    intros Hd HZ.
    destruct (family_run n t0 "rccsd_stanton" [F_; Ir_; T1_; T2_] (STup [T1_; T2_])
      [fun t => py_one_e (F t); fun t => py_two_e_full (J t); fun t => arr (T1 t); fun t => arr (T2 t)]
      [py_one_e (perturbed_one_e (F t0) dF); py_two_e_full (perturbed_two_e_full (J t0) dJ); arr (perturbed (T1 t0) dT1); arr (perturbed (T2 t0) dT2)] ltac:(find_pub))
      as (x & d & Rd & TV & AT).
    { split; [apply (family_one_e n t0 so sv); assumption|]. split; [apply (family_two_e_full n t0 so sv so sv); assumption|].
      split; [exact fam_T1|]. split; [exact fam_T2|exact Logic.I]. }
    unfold tangent_value, T1_, T2_, t1s, t2s in TV.
    destruct (two_related _ _ _ _ _ _ _ _ TV) as (x1 & x2 & S1 & S2 & -> & -> & A1 & A2). clear TV. exists S1, S2. split; [exact Rd|].
    assert (Z : forall t, Rabs (t - t0) < delta -> exists R1 R2,
      (mapped_array n (at_t t) [sv; so] x1 R1 /\ zero_array [nv; no] R1) /\ (mapped_array n (at_t t) [sv; sv; so; so] x2 R2 /\ zero_array [nv; nv; no; no] R2)).
    { intros t Ht. destruct (HZ t Ht) as (R1 & R2 & RR & Z1 & Z2). destruct (AT t) as (v & Rv & Mv). cbn [map] in Rv.
      rewrite <- (returns_fun _ _ _ _ _ RR Rv) in Mv. unfold mapped, tup, arr, T1_, T2_, t1s, t2s in Mv. cbn [related] in Mv.
      destruct Mv as (M1 & M2 & _). exists R1, R2. split; split; assumption. }
    split.
    - apply (vanish n t0 [sv; so] x1 S1 delta Hd A1). intros t Ht. destruct (Z t Ht) as (R1 & R2 & B & _). exists R1. exact B.
    - apply (vanish n t0 [sv; sv; so; so] x2 S2 delta Hd A2). intros t Ht. destruct (Z t Ht) as (R1 & R2 & _ & B). exists R2. exact B.
  Qed.

  Theorem r_energy_derivative delta M1 M2 : 0 < delta ->
    (forall t, Rabs (t - t0) < delta -> exists R1 R2,
       returns (K := RK) "rccsd_stanton" [py_one_e (F t); py_two_e_full (J t); arr (T1 t); arr (T2 t)] (tup [arr R1; arr R2]) /\
       zero_array [nv; no] R1 /\ zero_array [nv; nv; no; no] R2) ->
    returns (K := RK) "rccsd_lambda_opt" [py_one_e (F t0); py_two_e_full (J t0); arr L1; arr L2; arr (T1 t0); arr (T2 t0)] (tup [arr M1; arr M2]) ->
    zero_array [no; nv] M1 -> zero_array [no; no; nv; nv] M2 ->
    exists (E : R -> R) P,
      (forall t, returns (K := RK) "rcc_energy" [arr (T1 t); arr (T2 t); arr (ov (F t)); arr (foovv (J t))] (numv (E t : RK))) /\
      (forall f, In f r_density_functions -> returns (K := RK) f [arr (T1 t0); arr (T2 t0); arr L1; arr L2] (arr (P f))) /\
      derivable_pt_lim E t0 (r_contraction no nv L1 L2 P dF dJ).
  Proof.
    intros Hd HZ RM Y1 Y2. destruct (r_dual_solved delta Hd HZ) as (S1 & S2 & RS & Z1 & Z2).
    destruct (r_change RK no nv (F t0) dF (J t0) dJ (T1 t0) (T2 t0) dT1 dT2 L1 L2 (HF t0) (HJ t0) (PJ t0) (H1 t0) (H2 t0) (P2 t0) H3 H4 P4
      HdF HdJ PdJ Hd1 Hd2 r_dT2) as (e & R1 & R2 & N1 & N2 & P & Re & RR & RN & RP & Ee).
    pose proof (returns_fun _ _ _ _ _ RS RR) as E1. injection E1 as <- <-.
    pose proof (returns_fun _ _ _ _ _ RM RN) as E2. injection E2 as <- <-.
    rewrite (r_pairing_zero_l RK _ _ M1 M2) in Ee by assumption.
    rewrite (r_pairing_zero_r RK) in Ee by (apply tangent_zero; assumption).
    assert (Ef : snd e = r_contraction no nv L1 L2 P dF dJ).
    { cbn in Ee. rewrite !Rplus_0_r in Ee. exact Ee. }
    destruct (family_run n t0 "rcc_energy" [T1_; T2_; SArr [so; sv]; SArr [so; so; sv; sv]] SNum
      [fun t => arr (T1 t); fun t => arr (T2 t); fun t => arr (ov (F t)); fun t => arr (foovv (J t))]
      [arr (perturbed (T1 t0) dT1); arr (perturbed (T2 t0) dT2); arr (perturbed (ov (F t0)) (ov dF)); arr (perturbed (foovv (J t0)) (foovv dJ))] ltac:(find_pub))
      as (x & d & Rd & TV & AT).
    { split; [exact fam_T1|]. split; [exact fam_T2|].
      split; [apply (family_arr n t0 [so; sv]); [intros t; apply (HF t)|apply HdF|apply DF]|].
      unfold two_e_full_derivative in *. rewrite Forall_forall in DJ.
      split; [apply (family_arr n t0 [so; so; sv; sv]); [intros t; apply (HJ t)|apply HdJ|apply DJ; do 10 right; left; reflexivity]|exact Logic.I]. }
    rewrite <- (returns_fun _ _ _ _ _ Re Rd) in TV. unfold tangent_value, numv in TV. destruct x as [x| | |]; cbn [related] in TV; try contradiction.
    destruct TV as (E0 & D). exists x, P. split; [|split; [exact RP|rewrite <- Ef; exact D]].
    intros t. destruct (AT t) as (v & Rv & Mv).
    unfold mapped in Mv. destruct v as [v| | |]; cbn [related] in Mv; try contradiction. subst v. exact Rv.
  Qed.
End Restricted.
