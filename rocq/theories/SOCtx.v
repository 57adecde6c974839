(** Spin-orbital inputs: symbolic counterparts of Fock blocks, antisymmetrised
    integrals and amplitudes, and the proof that they are related to any
    concrete inputs with the stated symmetries. *)
From Coq Require Import List Bool Arith ZArith Lia Ring String.
From Verif Require Import Scalar Tensor PySyntax PySem PySim Sym SymSound Norm CCProg CCSpec Engine.
Import ListNotations.
Local Open Scope string_scope.

Definition cO : cls := 1%positive.
Definition cV : cls := 2%positive.

Definition so_dim (no nv : nat) (c : cls) : nat :=
  match c with 1%positive => no | 2%positive => nv | _ => 0 end.

Definition inp (t : positive) (sh : list cls) : sval := sarr (s_input t sh).

Definition sF : sval :=
  XObj [("oo", inp 1 [cO; cO]); ("ov", inp 2 [cO; cV]); ("vo", inp 3 [cV; cO]);
        ("vv", inp 4 [cV; cV])].
Definition sI : sval :=
  XObj [("vvvv", inp 5 [cV; cV; cV; cV]); ("vvvo", inp 6 [cV; cV; cV; cO]);
        ("vovv", inp 7 [cV; cO; cV; cV]); ("vvoo", inp 8 [cV; cV; cO; cO]);
        ("vovo", inp 9 [cV; cO; cV; cO]); ("oovv", inp 10 [cO; cO; cV; cV]);
        ("vooo", inp 11 [cV; cO; cO; cO]); ("ooov", inp 12 [cO; cO; cO; cV]);
        ("oooo", inp 13 [cO; cO; cO; cO])].
Definition sT1 : sval := inp 14 [cV; cO].
Definition sT2 : sval := inp 15 [cV; cV; cO; cO].
Definition sL1 : sval := inp 16 [cO; cV].
Definition sL2 : sval := inp 17 [cO; cO; cV; cV].

(** a number passed as argument *)
Definition sFac : sval := @XNum sym_alg [Mono 1 0 [] [(18%positive, [])]].

Definition lead (t : positive) : list alt := [(true, [1; 0; 2; 3], t)].
Definition tail (t : positive) : list alt := [(true, [0; 1; 3; 2], t)].
Definition both (t : positive) : list alt :=
  [(true, [1; 0; 2; 3], t); (true, [0; 1; 3; 2], t); (false, [1; 0; 3; 2], t)].

Definition so_tb : table :=
  [(1, ([cO; cO], [])); (2, ([cO; cV], [])); (3, ([cV; cO], [])); (4, ([cV; cV], []));
   (5, ([cV; cV; cV; cV], both 5)); (6, ([cV; cV; cV; cO], lead 6));
   (7, ([cV; cO; cV; cV], tail 7)); (8, ([cV; cV; cO; cO], both 8));
   (9, ([cV; cO; cV; cO], [])); (10, ([cO; cO; cV; cV], both 10));
   (11, ([cV; cO; cO; cO], tail 11)); (12, ([cO; cO; cO; cV], lead 12));
   (13, ([cO; cO; cO; cO], both 13)); (14, ([cV; cO], []));
   (15, ([cV; cV; cO; cO], both 15)); (16, ([cO; cV], []));
   (17, ([cO; cO; cV; cV], both 17))]%positive.

Section Entries.
  Variable K : cring.
  Local Open Scope K_scope.
  Add Ring Kr5 : (c_th K).
  Variable dim : cls -> nat.
  Variable rho : positive -> list nat -> K.

  Definition entry_ok (p : positive * tinfo) : Prop :=
    let '(t, (ty, alts)) := p in
      Forall (fun a => let '(s, q, t') := a in
        forall idx, inrange (map dim ty) idx ->
          rho t idx = sgn K s (rho t' (map (fun k => nth k idx 0%nat) q))) alts.

  Lemma entry_none t ty : entry_ok (t, (ty, [])).
  Proof. constructor. Qed.

  Lemma idx4 a b c d idx : inrange [a; b; c; d] idx -> exists i j k l, idx = [i; j; k; l].
  Proof.
    intros H. apply inrange_length in H. simpl in H.
    destruct idx as [|i [|j [|k [|l [|]]]]]; try discriminate. eauto.
  Qed.

  Lemma idx2 a b idx : inrange [a; b] idx -> exists i j, idx = [i; j].
  Proof.
    intros H. apply inrange_length in H. simpl in H.
    destruct idx as [|i [|j [|]]]; try discriminate. eauto.
  Qed.

  Lemma entry_lead (u : tensor K) t a b c d :
    (forall idx, rho t idx = dat u idx) -> shp u = map dim [a; b; c; d] -> antisym_lead u ->
    entry_ok (t, ([a; b; c; d], lead t)).
  Proof.
    intros Hr Hs Ha. constructor; [|constructor]. intros idx Hi. rewrite <- Hs in Hi.
    pose proof Hi as Hi'. rewrite Hs in Hi'.
    destruct (idx4 _ _ _ _ _ Hi') as (i & j & k & l & ->). simpl. rewrite !Hr.
    apply Ha. auto.
  Qed.

  Lemma entry_tail (u : tensor K) t a b c d :
    (forall idx, rho t idx = dat u idx) -> shp u = map dim [a; b; c; d] -> antisym_tail u ->
    entry_ok (t, ([a; b; c; d], tail t)).
  Proof.
    intros Hr Hs Ha. constructor; [|constructor]. intros idx Hi. rewrite <- Hs in Hi.
    pose proof Hi as Hi'. rewrite Hs in Hi'.
    destruct (idx4 _ _ _ _ _ Hi') as (i & j & k & l & ->). simpl. rewrite !Hr.
    apply Ha. auto.
  Qed.

  Lemma entry_both (u : tensor K) t a c :
    (forall idx, rho t idx = dat u idx) -> shp u = map dim [a; a; c; c] ->
    antisym_lead u -> antisym_tail u ->
    entry_ok (t, ([a; a; c; c], both t)).
  Proof.
    intros Hr Hs Ha Hb. constructor; [|constructor; [|constructor; [|constructor]]].
    - pose proof (entry_lead u t a a c c Hr Hs Ha) as H. inversion H; subst. auto.
    - pose proof (entry_tail u t a a c c Hr Hs Hb) as H. inversion H; subst. auto.
    - intros idx Hi. rewrite <- Hs in Hi. pose proof Hi as Hi'. rewrite Hs in Hi'.
      destruct (idx4 _ _ _ _ _ Hi') as (i & j & k & l & ->). simpl. rewrite !Hr.
      rewrite (Ha _ _ _ _ Hi). rewrite (Hb j i k l); [ring|].
      rewrite Hs in *. clear - Hi'. simpl in *.
      inversion Hi' as [|? ? ? ? H1 H2]; subst. inversion H2 as [|? ? ? ? H3 H4]; subst.
      constructor; auto.
  Qed.
End Entries.

Section SOCtx.
  Variable K : cring.
  Add Ring Kr6 : (c_th K).
  Variables no nv : nat.
  Variable F : one_e K.
  Variable I : two_e K.
  Variables T1 T2 L1 L2 : tensor K.
  Variable tfac : K.
  (** values of further symbols, if a statement needs any *)
  Variable ex : positive -> list nat -> K.
  Definition so_rho (t : positive) : list nat -> K :=
    match t with
    | 1 => dat (oo F) | 2 => dat (ov F) | 3 => dat (vo F) | 4 => dat (vv F)
    | 5 => dat (vvvv I) | 6 => dat (vvvo I) | 7 => dat (vovv I) | 8 => dat (vvoo I)
    | 9 => dat (vovo I) | 10 => dat (oovv I) | 11 => dat (vooo I) | 12 => dat (ooov I)
    | 13 => dat (oooo I) | 14 => dat T1 | 15 => dat T2 | 16 => dat L1 | 17 => dat L2
    | 18 => fun _ => tfac
    | _ => ex t
    end%positive.

  Notation dim := (so_dim no nv).
  Notation R := (Rval K dim so_rho).

  Lemma so_sym : two_e_ok no nv I -> t2_ok no nv T2 -> l2_ok no nv L2 ->
    sym_ok K dim so_rho so_tb.
  Proof.
    intros [(S1 & S2 & S3 & S4 & S5 & S6 & S7 & S8 & S9)
            ([A1 B1] & A2 & A3 & [A4 B4] & [A6 B6] & A7 & A8 & [A9 B9])]
           (S15 & A15 & B15) (S17 & A17 & B17).
    unfold so_tb, sym_ok.
    repeat match goal with
    | |- Forall _ (_ :: _) => constructor
    | |- Forall _ [] => constructor
    | |- Forall _ (both _) =>
        eapply entry_both; [intros; reflexivity|simpl; eassumption|assumption|assumption]
    | |- Forall _ (lead _) => eapply entry_lead; [intros; reflexivity|simpl; eassumption|assumption]
    | |- Forall _ (tail _) => eapply entry_tail; [intros; reflexivity|simpl; eassumption|assumption]
    end.
  Qed.

  Lemma R_inp t sh u : shp u = map dim sh -> (forall idx, so_rho t idx = dat u idx) ->
    R (inp t sh) (arr u).
  Proof. intros Hs Hr. apply Rx_arr. apply input_sound; auto. Qed.

  Lemma R_F : one_e_ok no nv F -> R sF (py_one_e F).
  Proof.
    intros (F1 & F2 & F3 & F4). apply Rx_obj.
    repeat (constructor; [split; [reflexivity|apply R_inp; [assumption|reflexivity]]|]).
    constructor.
  Qed.

  Lemma R_I : two_e_shape no nv I -> R sI (py_two_e I).
  Proof.
    intros (I1 & I2 & I3 & I4 & I5 & I6 & I7 & I8 & I9). apply Rx_obj.
    repeat (constructor; [split; [reflexivity|apply R_inp; [assumption|reflexivity]]|]).
    constructor.
  Qed.

  Lemma R_T1 : t1_ok no nv T1 -> R sT1 (arr T1).
  Proof. intros H. apply R_inp; [exact H|reflexivity]. Qed.
  Lemma R_T2 : shp T2 = [nv; nv; no; no] -> R sT2 (arr T2).
  Proof. intros H. apply R_inp; [exact H|reflexivity]. Qed.
  Lemma R_L1 : l1_ok no nv L1 -> R sL1 (arr L1).
  Proof. intros H. apply R_inp; [exact H|reflexivity]. Qed.
  Lemma R_L2 : shp L2 = [no; no; nv; nv] -> R sL2 (arr L2).
  Proof. intros H. apply R_inp; [exact H|reflexivity]. Qed.
  (** single blocks *)
  Lemma R_ov : one_e_ok no nv F -> R (inp 2 [cO; cV]) (arr (ov F)).
  Proof. intros (_ & H & _). apply R_inp; [exact H|reflexivity]. Qed.
  Lemma R_oovv : two_e_shape no nv I -> R (inp 10 [cO; cO; cV; cV]) (arr (oovv I)).
  Proof. intros (_ & _ & _ & _ & _ & H & _). apply R_inp; [exact H|reflexivity]. Qed.

  Lemma R_fac : R sFac (numv tfac).
  Proof.
    apply Rx_num. split; [repeat constructor|].
    unfold den, den_mono, den_fac. simpl. unfold dyad. simpl. ring.
  Qed.
End SOCtx.

Definition noex (K : cring) (_ : positive) (_ : list nat) : K := c0.

(** Trivial inputs, for functions that take only some of the above. *)
Section Trivial.
  Variable K : cring.
  Local Open Scope K_scope.
  Add Ring Kr7 : (c_th K).

  Lemma zeros_lead sh : antisym_lead (tzeros K sh).
  Proof. intros i j k l _. simpl. ring. Qed.
  Lemma zeros_tail sh : antisym_tail (tzeros K sh).
  Proof. intros i j k l _. simpl. ring. Qed.

  Definition zeroF (no nv : nat) : one_e K :=
    OneE K (tzeros K [no; no]) (tzeros K [no; nv]) (tzeros K [nv; no]) (tzeros K [nv; nv]).
  Definition zeroI (no nv : nat) : two_e K :=
    TwoE K (tzeros K [nv; nv; nv; nv]) (tzeros K [nv; nv; nv; no]) (tzeros K [nv; no; nv; nv])
      (tzeros K [nv; nv; no; no]) (tzeros K [nv; no; nv; no]) (tzeros K [no; no; nv; nv])
      (tzeros K [nv; no; no; no]) (tzeros K [no; no; no; nv]) (tzeros K [no; no; no; no]).

  Lemma zeroF_ok no nv : one_e_ok no nv (zeroF no nv).
  Proof. repeat split. Qed.
  Lemma zeroI_ok no nv : two_e_ok no nv (zeroI no nv).
  Proof. repeat split; try apply zeros_lead; apply zeros_tail. Qed.
  Lemma zeroT1_ok no nv : t1_ok no nv (tzeros K [nv; no]).
  Proof. reflexivity. Qed.
  Lemma zeroT2_ok no nv : t2_ok no nv (tzeros K [nv; nv; no; no]).
  Proof. repeat split; try apply zeros_lead; apply zeros_tail. Qed.
  Lemma zeroL1_ok no nv : l1_ok no nv (tzeros K [no; nv]).
  Proof. reflexivity. Qed.
  Lemma zeroL2_ok no nv : l2_ok no nv (tzeros K [no; no; nv; nv]).
  Proof. repeat split; try apply zeros_lead; apply zeros_tail. Qed.
End Trivial.

(** The zero array as a symbolic array. *)
Lemma R_zero K dim rho sh : Rval K dim rho (sarr (s_zero sh)) (arr (tzeros K (map dim sh))).
Proof.
  apply Rx_arr. split; [reflexivity|]. split; [constructor|]. intros. reflexivity.
Qed.

Lemma two_e_ok_shape K no nv (I : two_e K) : two_e_ok no nv I -> two_e_shape no nv I.
Proof. intros [H _]. exact H. Qed.
Lemma t2_ok_shape K no nv (T : tensor K) : t2_ok no nv T -> shp T = [nv; nv; no; no].
Proof. intros [H _]. exact H. Qed.
Lemma l2_ok_shape K no nv (T : tensor K) : l2_ok no nv T -> shp T = [no; no; nv; nv].
Proof. intros [H _]. exact H. Qed.

#[export] Hint Resolve two_e_ok_shape t2_ok_shape l2_ok_shape R_ov R_oovv : soctx.
#[export] Hint Resolve so_sym R_F R_I R_T1 R_T2 R_L1 R_L2 R_fac R_zero
  zeroF_ok zeroI_ok zeroT1_ok zeroT2_ok zeroL1_ok zeroL2_ok : soctx.

(** Solve the side conditions of a statement with arguments among F, I, T1,
    T2, L1, L2. *)
Ltac so_args := repeat (first [apply Forall2_nil | apply Forall2_cons]); eauto with soctx.
