(** Closed-shell inputs: symbolic counterparts of plain integrals and spatial
    amplitudes, and of the antisymmetrised arrays made from them. *)
From Coq Require Import List Bool Arith ZArith Lia Ring String.
From Verif Require Import Scalar Tensor PySyntax PySem PySim Sym SymSound Norm CCProg CCSpec Engine
  Tools SOCtx NpModel SpinModel SpinSpec.
Import ListNotations.
Local Open Scope string_scope.

(** the sixteen blocks, 61-76 *)
Definition sIr : sval :=
  XObj [("vvvv", inp 61 [cV; cV; cV; cV]); ("vvvo", inp 62 [cV; cV; cV; cO]);
        ("vvov", inp 63 [cV; cV; cO; cV]); ("vovv", inp 64 [cV; cO; cV; cV]);
        ("ovvv", inp 65 [cO; cV; cV; cV]); ("vvoo", inp 66 [cV; cV; cO; cO]);
        ("vovo", inp 67 [cV; cO; cV; cO]); ("voov", inp 68 [cV; cO; cO; cV]);
        ("ovvo", inp 69 [cO; cV; cV; cO]); ("ovov", inp 70 [cO; cV; cO; cV]);
        ("oovv", inp 71 [cO; cO; cV; cV]); ("ooov", inp 72 [cO; cO; cO; cV]);
        ("oovo", inp 73 [cO; cO; cV; cO]); ("ovoo", inp 74 [cO; cV; cO; cO]);
        ("vooo", inp 75 [cV; cO; cO; cO]); ("oooo", inp 76 [cO; cO; cO; cO])].

(** A - B with its last two indices exchanged *)
Definition s_anti (t u : positive) (sh : list cls) : stens :=
  STens sh [Mono 1 0 [] [(t, [X 0; X 1; X 2; X 3])]; Mono (-1) 0 [] [(u, [X 0; X 1; X 3; X 2])]].
Definition anti (t u : positive) (sh : list cls) : sval := sarr (s_anti t u sh).
Definition sIanti : sval :=
  XObj [("vvvv", anti 61 61 [cV; cV; cV; cV]); ("vvvo", anti 62 63 [cV; cV; cV; cO]);
        ("vovv", anti 64 64 [cV; cO; cV; cV]); ("vvoo", anti 66 66 [cV; cV; cO; cO]);
        ("vovo", anti 67 68 [cV; cO; cV; cO]); ("oovv", anti 71 71 [cO; cO; cV; cV]);
        ("vooo", anti 75 75 [cV; cO; cO; cO]); ("ooov", anti 72 73 [cO; cO; cO; cV]);
        ("oooo", anti 76 76 [cO; cO; cO; cO])].
Definition sT2anti : sval := anti 15 15 [cV; cV; cO; cO].
Definition sL2anti : sval := anti 17 17 [cO; cO; cV; cV].

Definition pair (t : positive) : list alt := [(false, [1; 0; 3; 2], t)].
Definition r_tb : table :=
  [(61, ([cV; cV; cV; cV], pair 61)); (63, ([cV; cV; cO; cV], pair 62));
   (65, ([cO; cV; cV; cV], pair 64)); (66, ([cV; cV; cO; cO], pair 66));
   (69, ([cO; cV; cV; cO], pair 68)); (70, ([cO; cV; cO; cV], pair 67));
   (71, ([cO; cO; cV; cV], pair 71)); (73, ([cO; cO; cV; cO], pair 72));
   (75, ([cV; cO; cO; cO], pair 74)); (76, ([cO; cO; cO; cO], pair 76));
   (15, ([cV; cV; cO; cO], pair 15)); (17, ([cO; cO; cV; cV], pair 17))]%positive.

Notation srH := [sF; sIr].
Notation suHr := [sF; sF; sIanti; sIanti; sIr].
Notation suTr := [XTup [sT1; sT1]; XTup [sT2anti; sT2; sT2anti]].
Notation suLr := [XTup [sL1; sL1]; XTup [sL2anti; sL2; sL2anti]].

Section RCtx.
  Variable K : cring.
  Local Open Scope K_scope.
  Add Ring Kr16 : (c_th K).
  Variables no nv : nat.
  Variable F : one_e K.
  Variable J : two_e_full K.
  Variables T1 T2 L1 L2 : tensor K.
  Variable tfac : K.

  Definition r_ex (t : positive) : list nat -> K :=
    match t with
    | 61 => dat (fvvvv J) | 62 => dat (fvvvo J) | 63 => dat (fvvov J) | 64 => dat (fvovv J)
    | 65 => dat (fovvv J) | 66 => dat (fvvoo J) | 67 => dat (fvovo J) | 68 => dat (fvoov J)
    | 69 => dat (fovvo J) | 70 => dat (fovov J) | 71 => dat (foovv J) | 72 => dat (fooov J)
    | 73 => dat (foovo J) | 74 => dat (fovoo J) | 75 => dat (fvooo J) | 76 => dat (foooo J)
    | _ => fun _ => c0
    end%positive.
  Definition r_rho := so_rho K F (zeroI K no nv) T1 T2 L1 L2 tfac r_ex.
  Notation dim := (so_dim no nv).
  Notation R := (Rval K dim r_rho).

  Lemma entry_pair (u w : tensor K) t t' a b c d :
    (forall idx, r_rho t idx = dat u idx) -> (forall idx, r_rho t' idx = dat w idx) ->
    shp u = map dim [a; b; c; d] -> teq u (swap_both w) ->
    entry_ok K dim r_rho (t, ([a; b; c; d], pair t')).
  Proof.
    intros Hr Hr' Hs [_ H]. constructor; [|constructor]. intros idx Hi. rewrite <- Hs in Hi.
    rewrite Hr, Hr'. rewrite (H _ Hi). reflexivity.
  Qed.

  (** teq u (swap_both w) the other way round *)
  Lemma pair_flip (u w : tensor K) a b c d : shp w = [a; b; c; d] ->
    teq u (swap_both w) -> teq w (swap_both u).
  Proof.
    intros Hs [Hu H]. unfold swap_both, swap in *. cbn in Hu, H. rewrite Hs in Hu. cbn in Hu.
    split; [rewrite Hs; cbn; rewrite Hu; reflexivity|].
    intros idx Hi. rewrite Hs in Hi. destruct (idx4 _ _ _ _ _ Hi) as (i & j & k & l & ->).
    cbn. rewrite H; [reflexivity|]. rewrite Hu.
    inversion Hi as [|? ? ? ? X1 Y1]; subst. inversion Y1 as [|? ? ? ? X2 Y2]; subst.
    inversion Y2 as [|? ? ? ? X3 Y3]; subst. inversion Y3 as [|? ? ? ? X4 Y4]; subst.
    repeat constructor; assumption.
  Qed.

  Hypothesis HF : one_e_ok no nv F.
  Hypothesis HJ : two_e_full_ok no nv no nv J.
  Hypothesis PJ : pair_sym_full J.
  Hypothesis H1 : shp T1 = [nv; no].
  Hypothesis H2 : shp T2 = [nv; nv; no; no].
  Hypothesis P2 : pair_sym T2.
  Hypothesis H3 : shp L1 = [no; nv].
  Hypothesis H4 : shp L2 = [no; no; nv; nv].
  Hypothesis P4 : pair_sym L2.

  Lemma r_sym : sym_ok K dim r_rho r_tb.
  Proof.
    destruct HJ as (J1 & J2 & J3 & J4 & J5 & J6 & J7 & J8 & J9 & J10 & J11 & J12 & J13 & J14 & J15 & J16).
    destruct PJ as (Q1 & Q2 & Q3 & Q4 & Q5 & Q6 & Q7 & Q8 & Q9 & Q10).
    apply (pair_flip _ _ nv no no no J15) in Q9.
    unfold r_tb, sym_ok.
    repeat match goal with
    | |- Forall _ (_ :: _) => constructor
    | |- Forall _ [] => constructor
    | |- Forall _ (pair _) =>
        eapply entry_pair; [intros; reflexivity|intros; reflexivity|simpl; eassumption|
          first [exact Q1|exact Q2|exact Q3|exact Q4|exact Q5|exact Q6|exact Q7|exact Q8|
                 exact Q9|exact Q10|exact P2|exact P4]]
    end.
  Qed.

  Lemma rR_inp t sh u : shp u = map dim sh -> (forall idx, r_rho t idx = dat u idx) ->
    R (inp t sh) (arr u).
  Proof. intros Hs Hr. apply Rx_arr. apply input_sound; auto. Qed.

  Lemma rR_anti t t' (u w : tensor K) a b c d : shp u = map dim [a; b; c; d] ->
    (forall idx, r_rho t idx = dat u idx) -> (forall idx, r_rho t' idx = dat w idx) ->
    Rarr K dim r_rho (s_anti t t' [a; b; c; d]) (tminus u (swap_ket w)).
  Proof.
    intros Hs Hr Hr'. split; [exact Hs|]. split.
    - repeat (constructor; [repeat constructor|]). constructor.
    - intros idx Hi. cbn [shp tminus] in Hi. rewrite Hs in Hi.
      destruct (idx4 _ _ _ _ _ Hi) as (i & j & k & l & ->).
      unfold den, den_mono, den_fac, s_anti.
      cbn. rewrite ?Hr, ?Hr'. unfold dyad. cbn. ring.
  Qed.

  Lemma rR_F : R sF (py_one_e F).
  Proof. apply R_F. exact HF. Qed.
  Lemma rR_J : R sIr (py_two_e_full J).
  Proof.
    destruct HJ as (J1 & J2 & J3 & J4 & J5 & J6 & J7 & J8 & J9 & J10 & J11 & J12 & J13 & J14 & J15 & J16).
    apply Rx_obj.
    repeat (constructor; [split; [reflexivity|apply rR_inp; [assumption|reflexivity]]|]); constructor.
  Qed.
  Lemma rR_Ja : R sIanti (py_two_e (anti_of J)).
  Proof.
    destruct HJ as (J1 & J2 & J3 & J4 & J5 & J6 & J7 & J8 & J9 & J10 & J11 & J12 & J13 & J14 & J15 & J16).
    apply Rx_obj.
    repeat (constructor; [split; [reflexivity|apply Rx_arr; apply rR_anti;
      [assumption|reflexivity|reflexivity]]|]); constructor.
  Qed.
  Lemma rR_T1 : R sT1 (arr T1).
  Proof. apply R_T1. exact H1. Qed.
  Lemma rR_T2 : R sT2 (arr T2).
  Proof. apply R_T2. exact H2. Qed.
  Lemma rR_L1 : R sL1 (arr L1).
  Proof. apply R_L1. exact H3. Qed.
  Lemma rR_L2 : R sL2 (arr L2).
  Proof. apply R_L2. exact H4. Qed.
  Lemma rR_T2a : R sT2anti (arr (tminus T2 (swap_ket T2))).
  Proof. apply Rx_arr. apply rR_anti; [exact H2|reflexivity|reflexivity]. Qed.
  Lemma rR_L2a : R sL2anti (arr (tminus L2 (swap_ket L2))).
  Proof. apply Rx_arr. apply rR_anti; [exact H4|reflexivity|reflexivity]. Qed.
  Lemma rR_fac : R sFac (numv tfac).
  Proof. apply R_fac. Qed.
  (** single blocks *)
  Lemma rR_ov : R (inp 2 [cO; cV]) (arr (ov F)).
  Proof. destruct HF as (_ & H & _). apply rR_inp; [exact H|reflexivity]. Qed.
  Lemma rR_oovv : R (inp 71 [cO; cO; cV; cV]) (arr (foovv J)).
  Proof. apply rR_inp; [apply HJ|reflexivity]. Qed.
  Lemma rR_oovva : R (anti 71 71 [cO; cO; cV; cV]) (arr (oovv (anti_of J))).
  Proof. apply Rx_arr. apply rR_anti; [apply HJ|reflexivity|reflexivity]. Qed.
End RCtx.
