(** The unrestricted iteration for a closed shell passes through the spin blocks
    of the restricted one. *)
From Coq Require Import List Bool Arith Lia String Reals Lra.
From Verif Require Import Scalar Tensor PySyntax PySem CCProg CCSpec SymSound CCShapes CCEquiv CovSpec Public
  RoundSpec UtilsModel UtilsFacts SpinSpec IterSpec Iter IterCC IterR IterU PropertiesCov PropertiesRest.
Import ListNotations.
Local Open Scope R_scope.

Lemma id_map : ring_map (K1 := RK) (K2 := RK) (fun x => x).
Proof. split; [reflexivity|]. split; reflexivity. Qed.

Section Same.
  Variable n : space -> nat.
  Notation T := (tensor RK).
  Notation idm := (mapped (K1 := RK) (K2 := RK) n (fun x => x)).
  Lemma same_arr l (t u : T) : shp t = map n l -> teq t u -> idm (SArr l) (arr t) (arr u).
  Proof.
    intros S (E & H). split; [exact S|]. split; [congruence|]. intros idx Hi. symmetry. apply H. rewrite S. exact Hi.
  Qed.
  Lemma same_refl_arr l (t : T) : shp t = map n l -> mapped_array (K1 := RK) (K2 := RK) n (fun x => x) l t t.
  Proof. intros S. split; [exact S|]. split; [exact S|]. reflexivity. Qed.
  Variables o v o' v' : space.
  Lemma same_F F : one_e_ok (n o) (n v) F -> idm (fock o v) (py_one_e F) (py_one_e F).
  Proof.
    intros (S1 & S2 & S3 & S4). unfold mapped, fock, py_one_e, arr. cbn [related].
    repeat (split; [split; [reflexivity|split; [reflexivity|apply same_refl_arr; assumption]]|]). exact Logic.I.
  Qed.
  Lemma same_I I : two_e_shape (n o) (n v) I -> idm (eri9 o v) (py_two_e I) (py_two_e I).
  Proof.
    intros (S1 & S2 & S3 & S4 & S5 & S6 & S7 & S8 & S9). unfold mapped, eri9, py_two_e, arr. cbn [related].
    repeat (split; [split; [reflexivity|split; [reflexivity|apply same_refl_arr; assumption]]|]). exact Logic.I.
  Qed.
  Lemma same_J J : two_e_full_ok (n o) (n v) (n o') (n v') J -> idm (eri16 o v o' v') (py_two_e_full J) (py_two_e_full J).
  Proof.
    intros (? & ? & ? & ? & ? & ? & ? & ? & ? & ? & ? & ? & ? & ? & ? & ?). unfold mapped, eri16, py_two_e_full, arr. cbn [related].
    repeat (split; [split; [reflexivity|split; [reflexivity|apply same_refl_arr; assumption]]|]). exact Logic.I.
  Qed.
End Same.

Section E.
  Variables no nv : nat.
  Notation T := (tensor RK).
  Notation n := (un no nv no nv).
  Notation sh := (ushape no nv no nv).
  Variables (F : one_e RK) (J : two_e_full RK).
  Hypotheses (HF : one_e_ok no nv F) (HJ : two_e_full_ok no nv no nv J).
  Notation H := (py_uham F F (anti_of J) (anti_of J) J).
  Lemma anti_shape : two_e_shape no nv (anti_of J).
  Proof. destruct HJ as (? & ? & ? & ? & ? & ? & ? & ? & ? & ? & ? & ? & ? & ? & ? & ?). repeat split; assumption. Qed.

  Lemma u_congr (t u : ublock -> T) r s : (forall b, shp (t b) = sh b) -> (forall b, teq (t b) (u b)) ->
    returns uf_name (H ++ py_u t)%list (tup (py_u r)) -> returns uf_name (H ++ py_u u)%list (tup (py_u s)) ->
    forall b, shp (r b) = sh b /\ teq (r b) (s b).
  Proof.
    intros S E R1 R2.
    destruct (C75_scalar_map RK RK (fun x => x) n uf_name _ _ (H ++ py_u t)%list (H ++ py_u u)%list id_map u_pub) as (v & w & Rv & Rw & M).
    { split; [exact (same_F n so sv F HF)|]. split; [exact (same_F n sO sV F HF)|].
      split; [exact (same_I n so sv _ anti_shape)|]. split; [exact (same_I n sO sV _ anti_shape)|].
      split; [exact (same_J n so sv sO sV J HJ)|]. split; [|split; [|exact Logic.I]].
      - split; [exact (same_arr n (ukind Ua) _ _ (S Ua) (E Ua))|]. split; [exact (same_arr n (ukind Ub) _ _ (S Ub) (E Ub))|exact Logic.I].
      - split; [exact (same_arr n (ukind Uaa) _ _ (S Uaa) (E Uaa))|]. split; [exact (same_arr n (ukind Uab) _ _ (S Uab) (E Uab))|].
        split; [exact (same_arr n (ukind Ubb) _ _ (S Ubb) (E Ubb))|exact Logic.I]. }
    rewrite (returns_fun _ _ _ _ _ Rv R1), (returns_fun _ _ _ _ _ Rw R2) in M.
    destruct M as ((M1 & M2 & _) & (M3 & M4 & M5 & _) & _).
    assert (Q : forall l (x y : T), mapped (K1 := RK) (K2 := RK) n (fun x => x) (SArr l) (arr x) (arr y) -> shp x = map n l /\ teq x y).
    { intros l x y (S1 & S2 & P). split; [exact S1|]. split; [congruence|]. intros idx Hi. symmetry. apply P. rewrite <- S1. exact Hi. }
    intros [| | | |]; [exact (Q _ _ _ M1)|exact (Q _ _ _ M2)|exact (Q _ _ _ M3)|exact (Q _ _ _ M4)|exact (Q _ _ _ M5)].
  Qed.
  (** the spin blocks of closed-shell amplitudes *)
  Definition blocks_of (t u : T) : ublock -> T := ub t t (tminus u (swap_ket u)) u (tminus u (swap_ket u)).
  Hypothesis PJ : pair_sym_full J.
  Variables eo ev : T.
  Hypotheses (So : shp eo = [no]) (Sv : shp ev = [nv]).

  Lemma step_same (T1 T2 T1' T2' : T) (t t' : ublock -> T) D r d1 d2 r1 r2 :
    shp T1 = [nv; no] -> shp T2 = [nv; nv; no; no] -> pair_sym T2 -> (forall b, teq (t b) (blocks_of T1 T2 b)) ->
    D1 ev eo = Some d1 -> D2 ev eo = Some d2 -> returns rf_name [py_one_e F; py_two_e_full J; arr T1; arr T2] (tup [arr r1; arr r2]) ->
    divided_step T1 r1 d1 T1' -> divided_step T2 r2 d2 T2' ->
    udenominators eo ev eo ev D -> returns uf_name (H ++ py_u t)%list (tup (py_u r)) -> (forall b, divided_step (t b) (r b) (D b) (t' b)) ->
    shp T1' = [nv; no] /\ shp T2' = [nv; nv; no; no] /\ pair_sym T2' /\ (forall b, teq (t' b) (blocks_of T1' T2' b)).
  Proof.
    intros S1 S2 P2 E E1 E2 HR (V1 & W1) (V2 & W2) (G1 & G2 & G3 & G4 & G5) RU W.
    rewrite E1 in G1, G2. rewrite E2 in G3, G5. rewrite <- D2_D2u, E2 in G4.
    injection G1 as G1. injection G2 as G2. injection G3 as G3. injection G4 as G4. injection G5 as G5.
    destruct (C09_rccsd_is_closed_shell_uccsd RK no nv F J T1 T2 HF HJ PJ S1 S2 P2) as (q1 & q2 & ta & tb & aa & ab & bb & RR & RA & A1 & A2 & A3 & A4 & A5 & PS).
    pose proof (returns_fun _ _ _ _ _ HR RR) as X. injection X as <- <-.
    assert (SB : forall b, shp (blocks_of T1 T2 b) = sh b) by (intros [| | | |]; cbn; assumption).
    pose proof (u_congr (blocks_of T1 T2) t (ub ta tb aa ab bb) r SB
      (fun b => teq_s _ _ (E b)) RA RU) as CG.
    assert (Sr1 : shp r1 = [nv; no]). { destruct (CG Ua) as (Z & _). cbn [ub ushape] in Z. destruct A1 as (Y & _). congruence. }
    assert (Sr2 : shp r2 = [nv; nv; no; no]). { destruct (CG Uab) as (Z & _). cbn [ub ushape] in Z. destruct A4 as (Y & _). congruence. }
    rewrite S1 in V1, W1. rewrite S2 in V2, W2.
    destruct (D2_spec RK ev eo nv no Sv So) as (d2' & E2' & _ & _ & DS). rewrite E2 in E2'. injection E2' as <-.
    assert (p2 : pair4 nv no T2) by (split; assumption). apply pair4_at in p2. destruct p2 as (_ & p2).
    assert (q2 : pair4 nv no r2) by (split; assumption). apply pair4_at in q2. destruct q2 as (_ & q2).
    split; [exact V1|]. split; [exact V2|]. split.
    { apply (proj2 (pair4_at nv no T2')). split; [exact V2|]. intros a b i j Hi. apply in4 in Hi as Hj. destruct Hj as (Ha & Hb & Hi' & Hj).
      rewrite (W2 _ Hi), (W2 [b; a; j; i]) by (apply in4; auto). rewrite (p2 _ _ _ _ Hi), (q2 _ _ _ _ Hi).
      rewrite (proj1 (DS a b i j Ha Hb Hi' Hj)), (proj2 (DS b a i j Hb Ha Hi' Hj)). reflexivity. }
    (* each block of the residual, then of the amplitudes *)
    assert (St : forall b, shp (t b) = sh b) by (intros b; destruct (E b) as (Z & _); rewrite Z; apply SB).
    assert (RB : forall b idx, inrange (sh b) idx -> dat (r b) idx = dat (blocks_of r1 r2 b) idx).
    { intros b idx Hi. destruct (CG b) as (Z & (_ & Y)). rewrite <- Y by (rewrite Z; exact Hi).
      destruct b; cbn [ub blocks_of] in *; [apply A1|apply A2|apply A3|apply A4|apply A5]; rewrite Z; exact Hi. }
    assert (TB : forall b idx, inrange (sh b) idx -> dat (t b) idx = dat (blocks_of T1 T2 b) idx).
    { intros b idx Hi. apply (E b). rewrite (St b). exact Hi. }
    assert (SB' : forall b, shp (blocks_of T1' T2' b) = sh b) by (intros [| | | |]; cbn; assumption).
    intros b. destruct (W b) as (V & WB). rewrite (St b) in V, WB. split; [rewrite V, (SB' b); reflexivity|].
    rewrite V. intros idx Hi. rewrite (WB idx Hi), (RB b idx Hi), (TB b idx Hi).
    assert (AS : forall idx, inrange [nv; nv; no; no] idx ->
      dat (tminus T2 (swap_ket T2)) idx - dat (tminus r2 (swap_ket r2)) idx / dat d2 idx = dat (tminus T2' (swap_ket T2')) idx).
    { intros id Hd. destruct (len4 _ _ _ _ _ Hd) as (a & c & i & j & ->). apply in4 in Hd as Hd'. destruct Hd' as (Ha & Hc & Hi' & Hj).
      pose proof (W2 _ Hd) as X1. pose proof (W2 [a; c; j; i] ltac:(apply in4; auto)) as X2.
      change (dat T2 [a; c; i; j] - dat T2 [a; c; j; i] - (dat r2 [a; c; i; j] - dat r2 [a; c; j; i]) / dat d2 [a; c; i; j] =
              dat T2' [a; c; i; j] - dat T2' [a; c; j; i]).
      rewrite X1, X2, <- (proj2 (DS a c i j Ha Hc Hi' Hj)).
      assert (Q : forall x y z w e : R, x - y - (z - w) / e = x - z / e - (y - w / e)) by (intros; unfold Rdiv; ring). apply Q. }
    destruct b; cbn [blocks_of ub ushape] in *.
    - rewrite <- G1. symmetry. apply W1, Hi.
    - rewrite <- G2. symmetry. apply W1, Hi.
    - rewrite <- G3. apply AS, Hi.
    - rewrite <- G4. symmetry. apply W2, Hi.
    - rewrite <- G5. apply AS, Hi.
  Qed.

  Theorem iterates_same (t1 t2 : nat -> T) (t : nat -> ublock -> T) :
    iterates_r no nv rf_name F J eo ev t1 t2 -> iterates_u no nv no nv uf_name H eo ev eo ev t ->
    forall k, shp (t1 k) = [nv; no] /\ shp (t2 k) = [nv; nv; no; no] /\ pair_sym (t2 k) /\ forall b, teq (t k b) (blocks_of (t1 k) (t2 k) b).
  Proof.
    intros (Y1 & Y2 & HR) (Y & HU) k. induction k as [|k (S1 & S2 & P & E)].
    - rewrite Y1, Y2. split; [reflexivity|]. split; [reflexivity|].
      split; [apply (pair4_zero nv no)|]. intros b. rewrite Y.
      assert (Q : 0 = 0 - 0) by ring.
      destruct b; (split; [reflexivity|]); intros idx _; cbn; first [reflexivity|exact Q].
    - destruct (HR k) as (d1 & d2 & r1 & r2 & E1 & E2 & R & Q1 & Q2). destruct (HU k) as (D & r & HD & RU & W).
      exact (step_same _ _ _ _ _ _ D r d1 d2 r1 r2 S1 S2 P E E1 E2 R Q1 Q2 HD RU W).
  Qed.

  (** both iterations exist, whatever the Hamiltonian *)
  Lemma u_returns (t u : ublock -> T) r : (forall b, shp (t b) = sh b) -> (forall b, teq (t b) (u b)) ->
    returns uf_name (H ++ py_u t)%list (tup (py_u r)) -> exists s, returns uf_name (H ++ py_u u)%list (tup (py_u s)).
  Proof.
    intros S E R1.
    destruct (C75_scalar_map RK RK (fun x => x) n uf_name _ _ (H ++ py_u t)%list (H ++ py_u u)%list id_map u_pub) as (v & w & Rv & Rw & M).
    { split; [exact (same_F n so sv F HF)|]. split; [exact (same_F n sO sV F HF)|].
      split; [exact (same_I n so sv _ anti_shape)|]. split; [exact (same_I n sO sV _ anti_shape)|].
      split; [exact (same_J n so sv sO sV J HJ)|]. split; [|split; [|exact Logic.I]].
      - split; [exact (same_arr n (ukind Ua) _ _ (S Ua) (E Ua))|]. split; [exact (same_arr n (ukind Ub) _ _ (S Ub) (E Ub))|exact Logic.I].
      - split; [exact (same_arr n (ukind Uaa) _ _ (S Uaa) (E Uaa))|]. split; [exact (same_arr n (ukind Uab) _ _ (S Uab) (E Uab))|].
        split; [exact (same_arr n (ukind Ubb) _ _ (S Ubb) (E Ubb))|exact Logic.I]. }
    rewrite (returns_fun _ _ _ _ _ Rv R1) in M.
    unfold mapped, uT1, uT2, tup, py_u, arr in M. cbn [related] in M.
    destruct w as [| |ws|]; try contradiction. destruct ws as [|w1 [|w2 [|]]]; try (exfalso; clear - M; cbn in M; tauto).
    destruct M as (M1 & M2 & _). destruct w1 as [| |ws|]; try contradiction. destruct ws as [|a [|b [|]]]; try (exfalso; clear - M1; cbn in M1; tauto).
    destruct w2 as [| |ws|]; try contradiction. destruct ws as [|c [|d [|e [|]]]]; try (exfalso; clear - M2; cbn in M2; tauto).
    destruct M1 as (Ma & Mb & _). destruct M2 as (Mc & Md & Me & _).
    destruct a as [|a| |]; try contradiction. destruct b as [|b| |]; try contradiction. destruct c as [|c| |]; try contradiction.
    destruct d as [|d| |]; try contradiction. destruct e as [|e| |]; try contradiction.
    exists (ub a b c d e). exact Rw.
  Qed.
  Definition stepped (t r d : T) : T := @mkT RK (shp t) (fun idx => dat t idx - dat r idx / dat d idx).
  Lemma stepped_ok t r d : divided_step t r d (stepped t r d).
  Proof. split; [reflexivity|]. intros idx _. reflexivity. Qed.
  Fixpoint rseq (d1 d2 : T) (k : nat) : T * T :=
    match k with
    | O => (tzeros RK [nv; no], tzeros RK [nv; nv; no; no])
    | S k => let p := rseq d1 d2 k in
             let q := resid rf_name [py_one_e F; py_two_e_full J; arr (fst p); arr (snd p)] (fst p) (snd p) in
             (stepped (fst p) (fst q) d1, stepped (snd p) (snd q) d2)
    end.
  Fixpoint useq (D : ublock -> T) (k : nat) : ublock -> T :=
    match k with
    | O => fun b => tzeros RK (sh b)
    | S k => fun b => stepped (useq D k b) (resid_u uf_name (H ++ py_u (useq D k))%list (useq D k) b) (D b)
    end.
  Theorem iterates_exist : (exists t1 t2, iterates_r no nv rf_name F J eo ev t1 t2) /\ (exists t, iterates_u no nv no nv uf_name H eo ev eo ev t).
  Proof.
    destruct (D1_spec RK ev eo nv no Sv So) as (d1 & E1 & _). destruct (D2_spec RK ev eo nv no Sv So) as (d2 & E2 & _).
    set (D := ub d1 d1 d2 d2 d2).
    assert (HD : udenominators eo ev eo ev D).
    { split; [exact E1|]. split; [exact E1|]. split; [exact E2|]. split; [rewrite <- D2_D2u; exact E2|exact E2]. }
    assert (X : forall k, (shp (fst (rseq d1 d2 k)) = [nv; no] /\ shp (snd (rseq d1 d2 k)) = [nv; nv; no; no] /\ pair_sym (snd (rseq d1 d2 k)) /\
                 forall b, teq (useq D k b) (blocks_of (fst (rseq d1 d2 k)) (snd (rseq d1 d2 k)) b)) /\
               update_r rf_name F J eo ev (fst (rseq d1 d2 k)) (snd (rseq d1 d2 k)) (fst (rseq d1 d2 (S k))) (snd (rseq d1 d2 (S k))) /\
               exists r, returns uf_name (H ++ py_u (useq D k))%list (tup (py_u r)) /\ forall b, divided_step (useq D k b) (r b) (D b) (useq D (S k) b)).
    { assert (Y : forall k, (shp (fst (rseq d1 d2 k)) = [nv; no] /\ shp (snd (rseq d1 d2 k)) = [nv; nv; no; no] /\ pair_sym (snd (rseq d1 d2 k)) /\
                 forall b, teq (useq D k b) (blocks_of (fst (rseq d1 d2 k)) (snd (rseq d1 d2 k)) b)) ->
        exists r1 r2 r, returns rf_name [py_one_e F; py_two_e_full J; arr (fst (rseq d1 d2 k)); arr (snd (rseq d1 d2 k))] (tup [arr r1; arr r2]) /\
          divided_step (fst (rseq d1 d2 k)) r1 d1 (fst (rseq d1 d2 (S k))) /\ divided_step (snd (rseq d1 d2 k)) r2 d2 (snd (rseq d1 d2 (S k))) /\
          returns uf_name (H ++ py_u (useq D k))%list (tup (py_u r)) /\ forall b, divided_step (useq D k b) (r b) (D b) (useq D (S k) b)).
      { intros k (S1 & S2 & P & E).
        destruct (C09_rccsd_is_closed_shell_uccsd RK no nv F J _ _ HF HJ PJ S1 S2 P) as (q1 & q2 & ta & tb & aa & ab & bb & RR & RA & _).
        assert (SB : forall b, shp (blocks_of (fst (rseq d1 d2 k)) (snd (rseq d1 d2 k)) b) = sh b) by (intros [| | | |]; cbn; assumption).
        destruct (u_returns _ (useq D k) (ub ta tb aa ab bb) SB (fun b => teq_s _ _ (E b)) RA) as (s & Rs).
        exists q1, q2, s. split; [exact RR|].
        cbn [rseq fst snd useq]. rewrite (resid_eq _ _ _ _ _ _ RR). cbn [fst snd].
        split; [apply stepped_ok|]. split; [apply stepped_ok|]. split; [exact Rs|].
        intros b. rewrite (resid_u_eq _ _ _ _ Rs b). apply stepped_ok. }
      intros k. assert (Z : shp (fst (rseq d1 d2 k)) = [nv; no] /\ shp (snd (rseq d1 d2 k)) = [nv; nv; no; no] /\ pair_sym (snd (rseq d1 d2 k)) /\
                 forall b, teq (useq D k b) (blocks_of (fst (rseq d1 d2 k)) (snd (rseq d1 d2 k)) b)).
      { induction k as [|k IH].
        - split; [reflexivity|]. split; [reflexivity|]. split; [apply (pair4_zero nv no)|]. intros b.
          assert (Q : 0 = 0 - 0) by ring.
          destruct b; (split; [reflexivity|]); intros idx _; cbn; first [reflexivity|exact Q].
        - destruct (Y k IH) as (r1 & r2 & r & R1 & Q1 & Q2 & RU & W). destruct IH as (S1 & S2 & P & E).
          exact (step_same _ _ _ _ _ _ D r d1 d2 r1 r2 S1 S2 P E E1 E2 R1 Q1 Q2 HD RU W). }
      split; [exact Z|]. destruct (Y k Z) as (r1 & r2 & r & R1 & Q1 & Q2 & RU & W).
      split; [exists d1, d2, r1, r2; repeat (split; [assumption|]); assumption|exists r; split; assumption]. }
    split.
    - exists (fun k => fst (rseq d1 d2 k)), (fun k => snd (rseq d1 d2 k)). split; [reflexivity|]. split; [reflexivity|]. intros k. apply X.
    - exists (useq D). split; [reflexivity|]. intros k. destruct (X k) as (_ & _ & r & RU & W). exists D, r. split; [exact HD|]. split; assumption.
  Qed.
End E.
