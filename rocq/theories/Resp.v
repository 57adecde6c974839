(** First derivatives of the coupled cluster energy from the density matrices. *)
From Coq Require Import List Bool Arith ZArith Lia Ring String.
From Verif Require Import Scalar Tensor PySyntax PySem CCProg CCSpec SymSound SOCtx CCDeriv CCShapes CCEquiv CovSpec CovThm RespSpec.
Import ListNotations.

Section DualSums.
  Variable K : cring.
  Add Ring Kr_rs : (c_th K).
  Local Open Scope K_scope.
  Notation DK := (DualK K).

  Lemma fst_sumN n (f : nat -> DK) : fst (sumN n f) = sumN n (fun i => fst (f i)).
  Proof. induction n; simpl; [reflexivity|]. rewrite IHn. reflexivity. Qed.
  Lemma snd_sumN n (f : nat -> DK) : snd (sumN n f) = sumN n (fun i => snd (f i)).
  Proof. induction n; simpl; [reflexivity|]. rewrite IHn. reflexivity. Qed.

  Lemma snd_dot2 m n (A B : list nat -> DK) :
    snd (dot2 (K:=DK) m n A B) = dot2 (K:=K) m n (fun i => fst (A i)) (fun i => snd (B i)) + dot2 (K:=K) m n (fun i => snd (A i)) (fun i => fst (B i)).
  Proof.
    unfold dot2. rewrite snd_sumN, <- sumN_add. apply sumN_ext. intros p _.
    rewrite snd_sumN, <- sumN_add. apply sumN_ext. intros q _. reflexivity.
  Qed.
  Lemma snd_dot4 m n k l (A B : list nat -> DK) :
    snd (dot4 (K:=DK) m n k l A B) = dot4 (K:=K) m n k l (fun i => fst (A i)) (fun i => snd (B i)) + dot4 (K:=K) m n k l (fun i => snd (A i)) (fun i => fst (B i)).
  Proof.
    unfold dot4. rewrite snd_sumN, <- sumN_add. apply sumN_ext. intros p _.
    rewrite snd_sumN, <- sumN_add. apply sumN_ext. intros q _.
    rewrite snd_sumN, <- sumN_add. apply sumN_ext. intros r _.
    rewrite snd_sumN, <- sumN_add. apply sumN_ext. intros s _. reflexivity.
  Qed.

  Lemma snd_add (x y : DK) : snd (x + y)%K = snd x + snd y.
  Proof. reflexivity. Qed.
  Lemma snd_quarter (x : DK) : snd (quarter (K:=DK) * x)%K = quarter * snd x.
  Proof. destruct x. unfold quarter. simpl. ring. Qed.
  Lemma snd_chalf (x : DK) : snd (chalf (c:=DK) * x)%K = chalf * snd x.
  Proof. destruct x. simpl. ring. Qed.

  Lemma dot2_eq m n (A A' B B' : list nat -> K) :
    (forall p q, (p < m)%nat -> (q < n)%nat -> A [p; q] = A' [p; q]) ->
    (forall p q, (p < m)%nat -> (q < n)%nat -> B [q; p] = B' [q; p]) ->
    dot2 (K:=K) m n A B = dot2 (K:=K) m n A' B'.
  Proof.
    intros HA HB. unfold dot2. apply sumN_ext. intros p Hp. apply sumN_ext. intros q Hq.
    rewrite HA, HB; auto.
  Qed.
  Lemma dot4_eq m n k l (A A' B B' : list nat -> K) :
    (forall p q r s, (p < m)%nat -> (q < n)%nat -> (r < k)%nat -> (s < l)%nat -> A [p; q; r; s] = A' [p; q; r; s]) ->
    (forall p q r s, (p < m)%nat -> (q < n)%nat -> (r < k)%nat -> (s < l)%nat -> B [r; s; p; q] = B' [r; s; p; q]) ->
    dot4 (K:=K) m n k l A B = dot4 (K:=K) m n k l A' B'.
  Proof.
    intros HA HB. unfold dot4. apply sumN_ext. intros p Hp. apply sumN_ext. intros q Hq.
    apply sumN_ext. intros r Hr. apply sumN_ext. intros s Hs. rewrite HA, HB; auto.
  Qed.
  Lemma dot2_zero m n (A B : list nat -> K) :
    (forall p q, (p < m)%nat -> (q < n)%nat -> A [p; q] = 0) -> dot2 (K:=K) m n A B = 0.
  Proof.
    intros H. unfold dot2. rewrite <- (sumN_0 K m). apply sumN_ext. intros p Hp.
    rewrite <- (sumN_0 K n). apply sumN_ext. intros q Hq. rewrite H by auto. ring.
  Qed.
  Lemma dot4_zero m n k l (A B : list nat -> K) :
    (forall p q r s, (p < m)%nat -> (q < n)%nat -> (r < k)%nat -> (s < l)%nat -> A [p; q; r; s] = 0) -> dot4 (K:=K) m n k l A B = 0.
  Proof.
    intros H. unfold dot4. rewrite <- (sumN_0 K m). apply sumN_ext. intros p Hp.
    rewrite <- (sumN_0 K n). apply sumN_ext. intros q Hq. rewrite <- (sumN_0 K k). apply sumN_ext. intros r Hr.
    rewrite <- (sumN_0 K l). apply sumN_ext. intros s Hs. rewrite H by auto. ring.
  Qed.
  Lemma dot2_zero_r m n (A B : list nat -> K) :
    (forall p q, (p < m)%nat -> (q < n)%nat -> B [q; p] = 0) -> dot2 (K:=K) m n A B = 0.
  Proof.
    intros H. unfold dot2. rewrite <- (sumN_0 K m). apply sumN_ext. intros p Hp.
    rewrite <- (sumN_0 K n). apply sumN_ext. intros q Hq. rewrite H by auto. ring.
  Qed.
  Lemma dot4_zero_r m n k l (A B : list nat -> K) :
    (forall p q r s, (p < m)%nat -> (q < n)%nat -> (r < k)%nat -> (s < l)%nat -> B [r; s; p; q] = 0) -> dot4 (K:=K) m n k l A B = 0.
  Proof.
    intros H. unfold dot4. rewrite <- (sumN_0 K m). apply sumN_ext. intros p Hp.
    rewrite <- (sumN_0 K n). apply sumN_ext. intros q Hq. rewrite <- (sumN_0 K k). apply sumN_ext. intros r Hr.
    rewrite <- (sumN_0 K l). apply sumN_ext. intros s Hs. rewrite H by auto. ring.
  Qed.
End DualSums.

Lemma in2 (m n p q : nat) : (p < m)%nat -> (q < n)%nat -> inrange [m; n] [p; q].
Proof. intros. repeat constructor; assumption. Qed.
Lemma in4 (m n k l p q r s : nat) : (p < m)%nat -> (q < n)%nat -> (r < k)%nat -> (s < l)%nat -> inrange [m; n; k; l] [p; q; r; s].
Proof. intros. repeat constructor; assumption. Qed.

Section Response.
  Variable K : cring.
  Add Ring Kr_re : (c_th K).
  Local Open Scope K_scope.
  Notation DK := (DualK K).
  Variables no nv : nat.
  Variables F dF : one_e K.
  Variables I dI : two_e K.
  Variables T1 dT1 T2 dT2 L1 L2 : tensor K.
  Hypotheses (HF : one_e_ok no nv F) (HdF : one_e_ok no nv dF).
  Hypotheses (HI : two_e_ok no nv I) (HdI : two_e_ok no nv dI).
  Hypotheses (H1 : t1_ok no nv T1) (Hd1 : t1_ok no nv dT1) (H2 : t2_ok no nv T2) (Hd2 : t2_ok no nv dT2).
  Hypotheses (HL1 : l1_ok no nv L1) (HL2 : l2_ok no nv L2).

  Lemma pert_lead (t d : tensor K) : shp t = shp d -> antisym_lead t -> antisym_lead d -> antisym_lead (perturbed t d).
  Proof.
    intros S A B i j k l Hi. apply injective_projections; cbn; [apply A; exact Hi|].
    apply B. rewrite <- S. exact Hi.
  Qed.
  Lemma pert_tail (t d : tensor K) : shp t = shp d -> antisym_tail t -> antisym_tail d -> antisym_tail (perturbed t d).
  Proof.
    intros S A B i j k l Hi. apply injective_projections; cbn; [apply A; exact Hi|].
    apply B. rewrite <- S. exact Hi.
  Qed.
  Lemma pert_one_e_ok : one_e_ok no nv (perturbed_one_e F dF).
  Proof. destruct HF as (A & B & C & D). repeat split; assumption. Qed.
  Lemma pert_two_e_ok : two_e_ok no nv (perturbed_two_e I dI).
  Proof.
    destruct HI as [(S1 & S2 & S3 & S4 & S5 & S6 & S7 & S8 & S9)
            ([A1 B1] & A2 & A3 & [A4 B4] & [A6 B6] & A7 & A8 & [A9 B9])].
    destruct HdI as [(S1' & S2' & S3' & S4' & S5' & S6' & S7' & S8' & S9')
            ([A1' B1'] & A2' & A3' & [A4' B4'] & [A6' B6'] & A7' & A8' & [A9' B9'])].
    split; [repeat split; assumption|].
    repeat split; try (apply pert_lead; [congruence| |]; assumption); apply pert_tail; try assumption; congruence.
  Qed.
  Lemma lift_l2_ok : l2_ok no nv (lift L2).
  Proof. destruct HL2 as (S & A & B). split; [exact S|]. split; [apply lift_lead|apply lift_tail]; assumption. Qed.

  (** orbitals of every space *)
  Definition n2 (s : space) : nat := match s with so | sO => no | sv | sV => nv end.
  Definition value (x : DK) : K := fst x.
  Lemma value_map : ring_map (K1 := DK) value.
  Proof. split; [reflexivity|split]; intros [a b] [c d]; reflexivity. Qed.

  Lemma values f l (P : tensor DK) :
    In (f, rdm_args, SArr l) public_functions ->
    returns (K := DK) f [arr (perturbed T1 dT1); arr (perturbed T2 dT2); arr (lift L1); arr (lift L2)] (arr P) ->
    exists Q, returns (K := K) f [arr T1; arr T2; arr L1; arr L2] (arr Q) /\
      forall idx, inrange (map n2 l) idx -> fst (dat P idx) = dat Q idx.
  Proof.
    intros Hin R.
    destruct (map_thm DK K value n2 f rdm_args (SArr l)
      [arr (perturbed T1 dT1); arr (perturbed T2 dT2); arr (lift L1); arr (lift L2)] [arr T1; arr T2; arr L1; arr L2] value_map Hin)
      as (v & w & R1 & R2 & M).
    - destruct H2 as (S2 & _). destruct HL2 as (S4 & _). unfold rdm_args, T1_, T2_, L1_, L2_, t1s, t2s, l1s, l2s.
      cbn [related_args]. unfold mapped, arr. cbn [related]. unfold mapped_array. cbn [map n2].
      repeat split; try assumption; reflexivity.
    - rewrite <- (returns_fun _ _ _ _ _ R R1) in M. unfold mapped, arr in M. cbn [related] in M.
      destruct w as [| t | | ]; try contradiction. destruct M as (_ & _ & M).
      exists t. split; [exact R2|]. intros idx Hi. symmetry. apply M. exact Hi.
  Qed.

  Ltac find_in := match goal with |- In _ ?l => let l' := eval hnf in l in change l with l'; repeat first [left; reflexivity | right] end.

  Definition at_name (ps : list (string * tensor K)) (f : string) : tensor K :=
    match find (fun p => String.eqb f (fst p)) ps with Some p => snd p | None => tzeros K [] end.

  Lemma response S1 S2 M1 M2 :
    returns (K := DK) "ccsd_simple" [py_one_e (perturbed_one_e F dF); py_two_e (perturbed_two_e I dI);
      arr (perturbed T1 dT1); arr (perturbed T2 dT2)] (tup [arr S1; arr S2]) ->
    zero_array [nv; no] S1 -> zero_array [nv; nv; no; no] S2 ->
    returns (K := K) "ccsd_lambda_simple" [py_one_e F; py_two_e I; arr L1; arr L2; arr T1; arr T2] (tup [arr M1; arr M2]) ->
    zero_array [no; nv] M1 -> zero_array [no; no; nv; nv] M2 ->
    exists (e : DK) P,
      returns (K := DK) "cc_energy" [arr (perturbed T1 dT1); arr (perturbed T2 dT2);
        arr (perturbed (ov F) (ov dF)); arr (perturbed (oovv I) (oovv dI))] (numv e) /\
      (forall f, In f density_functions -> returns (K := K) f [arr T1; arr T2; arr L1; arr L2] (arr (P f))) /\
      snd e = contraction no nv L1 L2 P dF dI.
  Proof.
    intros RS (_ & Z1) (_ & Z2) RM (_ & Y1) (_ & Y2).
    pose proof pert_one_e_ok as OF. pose proof pert_two_e_ok as OI.
    assert (O1 : t1_ok no nv (perturbed T1 dT1)) by exact H1.
    assert (O2 : t2_ok no nv (perturbed T2 dT2)) by (apply perturbed_t2_ok; assumption).
    assert (O3 : l1_ok no nv (lift L1)) by exact HL1.
    pose proof lift_l2_ok as O4.
    destruct (rdm_lagrangian DK no nv _ _ _ _ _ _ OF OI O1 O2 O3 O4)
      as (e & S1' & S2' & Pba & Pji & Pai & Pcdab & Pklij & Pabij & Pciab & Pbcai & Pjkai & Pkaij & Pbjai & Re & Rs & RP & EQ).
    destruct (rdm_lagrangian DK no nv (lift_one_e F) (lift_two_e I) _ _ _ _ (lift_one_e_ok K no nv F HF) (lift_two_e_ok K no nv I HI) O1 O2 O3 O4)
      as (e0 & U1 & U2 & Qba & Qji & Qai & Qcdab & Qklij & Qabij & Qciab & Qbcai & Qjkai & Qkaij & Qbjai & Re0 & Rs0 & RQ & EQ0).
    destruct (lambda_is_derivative K no nv F I T1 T2 L1 L2 dT1 dT2 HF HI H1 H2 HL1 HL2 Hd1 Hd2)
      as (e1 & V1 & V2 & N1 & N2 & Re1 & Rs1 & RN & EQ1).
    pose proof (returns_fun _ _ _ _ _ RS Rs) as X. injection X as <- <-.
    pose proof (returns_fun _ _ _ _ _ Re0 Re1) as X. injection X as <-.
    pose proof (returns_fun _ _ _ _ _ Rs0 Rs1) as X. injection X as <- <-.
    pose proof (returns_fun _ _ _ _ _ RM RN) as X. injection X as <- <-.
    repeat match goal with H : Forall _ (_ :: _) |- _ => inversion H; clear H; subst end.
    cbn [fst snd] in *.
    repeat match goal with
    | A : returns ?f _ (arr ?P), B : returns ?f _ (arr ?Q) |- _ =>
        pose proof (returns_fun _ _ _ _ _ A B) as X; injection X as <-; clear B
    end.
    repeat match goal with H : Forall _ [] |- _ => clear H end.
    Ltac get f n := match goal with A : returns f _ (arr ?P) |- _ =>
      eapply values in A; [destruct A as (n & ? & ?)|find_in] end.
    get "ccsd_1rdm_ba"%string Wba. get "ccsd_1rdm_ji"%string Wji. get "ccsd_1rdm_ai"%string Wai.
    get "ccsd_2rdm_cdab"%string Wcdab. get "ccsd_2rdm_klij"%string Wklij. get "ccsd_2rdm_abij"%string Wabij.
    get "ccsd_2rdm_ciab"%string Wciab. get "ccsd_2rdm_bcai"%string Wbcai. get "ccsd_2rdm_jkai"%string Wjkai.
    get "ccsd_2rdm_kaij"%string Wkaij. get "ccsd_2rdm_bjai"%string Wbjai.
    exists e, (at_name [("ccsd_1rdm_ba", Wba); ("ccsd_1rdm_ji", Wji); ("ccsd_1rdm_ai", Wai);
       ("ccsd_2rdm_cdab", Wcdab); ("ccsd_2rdm_klij", Wklij); ("ccsd_2rdm_abij", Wabij);
       ("ccsd_2rdm_ciab", Wciab); ("ccsd_2rdm_bcai", Wbcai); ("ccsd_2rdm_jkai", Wjkai);
       ("ccsd_2rdm_kaij", Wkaij); ("ccsd_2rdm_bjai", Wbjai)]%string).
    split; [exact Re|]. split.
    { intros f Hf. repeat (destruct Hf as [<-|Hf]; [assumption|]). destruct Hf. }
    apply (f_equal snd) in EQ. apply (f_equal snd) in EQ0.
    rewrite !snd_add, !snd_quarter, !snd_chalf, !snd_add, !snd_dot2, !snd_dot4 in EQ, EQ0.
    cbn [fst snd dat lift perturbed perturbed_one_e perturbed_two_e lift_one_e lift_two_e oo ov vo vv
         vvvv vvvo vovv vvoo vovo oovv vooo ooov oooo] in EQ, EQ0.
    repeat match type of EQ with context [fun i : list nat => @dat K ?t i] => change (fun i : list nat => @dat K t i) with (@dat K t) in EQ end.
    repeat match type of EQ0 with context [fun i : list nat => @dat K ?t i] => change (fun i : list nat => @dat K t i) with (@dat K t) in EQ0 end.
    rewrite !(dot2_zero K no nv (fun _ => 0)) in EQ, EQ0 by reflexivity.
    rewrite !(dot4_zero K no no nv nv (fun _ => 0)) in EQ, EQ0 by reflexivity.
    rewrite !(fun m n A => dot2_zero_r K m n A (fun _ => 0) (fun _ _ _ _ => eq_refl)) in EQ0.
    rewrite !(fun m n k l A => dot4_zero_r K m n k l A (fun _ => 0) (fun _ _ _ _ _ _ _ _ => eq_refl)) in EQ0.
    rewrite (dot2_zero_r K no nv _ (fun i => snd (dat S1 i))) in EQ
      by (intros p q Hp Hq; rewrite (Z1 _ (in2 _ _ _ _ Hq Hp)); reflexivity).
    rewrite (dot4_zero_r K no no nv nv _ (fun i => snd (dat S2 i))) in EQ
      by (intros p q r s Hp Hq Hr Hs; rewrite (Z2 _ (in4 _ _ _ _ _ _ _ _ Hr Hs Hp Hq)); reflexivity).
    rewrite (dot2_zero K no nv (dat M1)) in EQ1 by (intros p q Hp Hq; apply Y1, in2; assumption).
    rewrite (dot4_zero K no no nv nv (dat M2)) in EQ1 by (intros p q r s Hp Hq Hr Hs; apply Y2, in4; assumption).
    Ltac same2 A B := rewrite (fun Z => dot2_eq K _ _ (fun i => fst (dat A i)) (dat B) _ _ Z (fun _ _ _ _ => eq_refl))
      by (intros p q Hp Hq; match goal with H : forall idx, _ -> fst (dat A idx) = dat B idx |- _ => apply H, in2; assumption end).
    Ltac same4 A B := rewrite (fun Z => dot4_eq K _ _ _ _ (fun i => fst (dat A i)) (dat B) _ _ Z (fun _ _ _ _ _ _ _ _ => eq_refl))
      by (intros p q r s Hp Hq Hr Hs; match goal with H : forall idx, _ -> fst (dat A idx) = dat B idx |- _ => apply H, in4; assumption end).
    symmetry in EQ.
    match type of EQ with ?l = _ => set (X := l) in EQ end.
    assert (EX : X = X) by reflexivity. unfold X at 1 in EX.
    revert EX. same2 Qba Wba. same2 Qji Wji. same2 Qai Wai. same4 Qcdab Wcdab. same4 Qklij Wklij. same4 Qabij Wabij.
    same4 Qciab Wciab. same4 Qbcai Wbcai. same4 Qjkai Wjkai. same4 Qkaij Wkaij. same4 Qbjai Wbjai.
    intros EX. rewrite EQ in EX. clear EQ X.
    unfold contraction. cbn [at_name find fst snd String.eqb Ascii.eqb Bool.eqb].
    match type of EQ0 with ?l = ?r => assert (Z : r = 0) end.
    { rewrite <- EQ0.
      transitivity (snd e0 + (dot2 no nv (dat L1) (fun i => snd (dat U1 i)) + quarter * dot4 no no nv nv (dat L2) (fun i => snd (dat U2 i)))).
      - ring.
      - rewrite EQ1. ring. }
    match type of EX with ?l = snd e + ?r => transitivity l; [rewrite EX; ring|] end. clear EX EQ0.
    match type of Z with ?l = 0 => match goal with |- _ = ?r => transitivity (r + l); [|rewrite Z; ring] end end.
    unfold at_name. cbn [find fst snd String.eqb Ascii.eqb Bool.eqb].
    ring.
  Qed.

  Lemma zero_teq (K' : cring) sh (s t : tensor K') : teq s t -> zero_array sh s -> zero_array sh t.
  Proof.
    intros (E & H) (S & Z). split; [congruence|]. intros idx Hi. rewrite <- H by (rewrite S; exact Hi). exact (Z idx Hi).
  Qed.
  Lemma xeq_pair (K' : cring) (r : pyval K') (a b : tensor K') : xeq (tup [arr a; arr b]) r ->
    exists a' b', r = tup [arr a'; arr b'] /\ teq a a' /\ teq b b'.
  Proof.
    intros H. inversion H as [| |vs ws H' E1 E2|]; subst. inversion H' as [|? ? ? ? X1 H'']; subst. inversion H'' as [|? ? ? ? X2 H3]; subst. inversion H3; subst.
    inversion X1; subst. inversion X2; subst. eexists _, _. split; [reflexivity|]. split; assumption.
  Qed.
  Lemma teq_symm (K' : cring) (a b : tensor K') : teq a b -> teq b a.
  Proof. intros (S & H). split; [auto|]. intros idx Hi. symmetry. apply H. rewrite S. exact Hi. Qed.
  Lemma xeq_pair_r (K' : cring) (r : pyval K') (a b : tensor K') : xeq r (tup [arr a; arr b]) ->
    exists a' b', r = tup [arr a'; arr b'] /\ teq a a' /\ teq b b'.
  Proof.
    intros H. inversion H as [| |vs ws H' E1 E2|]; subst. inversion H' as [|? ? ? ? X1 H'']; subst. inversion H'' as [|? ? ? ? X2 H3]; subst. inversion H3; subst.
    inversion X1; subst. inversion X2; subst. eexists _, _. split; [reflexivity|]. split; apply teq_symm; assumption.
  Qed.

  Lemma response_any f fl S1 S2 M1 M2 :
    In f ["ccsd_simple"; "ccsd_stanton"]%string ->
    In fl ["ccsd_lambda_simple"; "ccsd_lambda_opt"; "ccsd_lambda_stanton"]%string ->
    returns (K := DK) f [py_one_e (perturbed_one_e F dF); py_two_e (perturbed_two_e I dI);
      arr (perturbed T1 dT1); arr (perturbed T2 dT2)] (tup [arr S1; arr S2]) ->
    zero_array [nv; no] S1 -> zero_array [nv; nv; no; no] S2 ->
    returns (K := K) fl [py_one_e F; py_two_e I; arr L1; arr L2; arr T1; arr T2] (tup [arr M1; arr M2]) ->
    zero_array [no; nv] M1 -> zero_array [no; no; nv; nv] M2 ->
    exists (e : DK) P,
      returns (K := DK) "cc_energy" [arr (perturbed T1 dT1); arr (perturbed T2 dT2);
        arr (perturbed (ov F) (ov dF)); arr (perturbed (oovv I) (oovv dI))] (numv e) /\
      (forall f, In f density_functions -> returns (K := K) f [arr T1; arr T2; arr L1; arr L2] (arr (P f))) /\
      snd e = contraction no nv L1 L2 P dF dI.
  Proof.
    intros Hf Hl RS Z1 Z2 RM Y1 Y2.
    pose proof pert_one_e_ok as OF. pose proof pert_two_e_ok as OI.
    assert (O1 : t1_ok no nv (perturbed T1 dT1)) by exact H1.
    assert (O2 : t2_ok no nv (perturbed T2 dT2)) by (apply perturbed_t2_ok; assumption).
    assert (X : exists S1 S2, returns (K := DK) "ccsd_simple" [py_one_e (perturbed_one_e F dF); py_two_e (perturbed_two_e I dI);
      arr (perturbed T1 dT1); arr (perturbed T2 dT2)] (tup [arr S1; arr S2]) /\ zero_array [nv; no] S1 /\ zero_array [nv; nv; no; no] S2).
    { destruct Hf as [<-|[<-|[]]]; [exists S1, S2; auto|].
      destruct (ccsd_stanton_simple DK no nv _ _ _ _ OF OI O1 O2) as (r & s & R1 & R2 & E).
      rewrite <- (returns_fun _ _ _ _ _ RS R2) in E. destruct (xeq_pair_r _ _ _ _ E) as (a & b & -> & E1 & E2).
      exists a, b. split; [exact R1|]. split; eapply zero_teq; eassumption. }
    assert (Y : exists M1 M2, returns (K := K) "ccsd_lambda_simple" [py_one_e F; py_two_e I; arr L1; arr L2; arr T1; arr T2] (tup [arr M1; arr M2])
      /\ zero_array [no; nv] M1 /\ zero_array [no; no; nv; nv] M2).
    { destruct (lambda_agree K no nv F I L1 L2 T1 T2 HF HI HL1 HL2 H1 H2) as (r & r1 & r2 & r3 & int & Q0 & Q1 & Q2 & _ & _ & E1 & E2 & _).
      destruct Hl as [<-|[<-|[<-|[]]]]; [exists M1, M2; auto| |].
      - rewrite <- (returns_fun _ _ _ _ _ RM Q1) in E1. destruct (xeq_pair_r _ _ _ _ E1) as (a & b & -> & X1 & X2).
        exists a, b. split; [exact Q0|]. split; eapply zero_teq; eassumption.
      - rewrite <- (returns_fun _ _ _ _ _ RM Q2) in E2. destruct (xeq_pair_r _ _ _ _ E2) as (a & b & -> & X1 & X2).
        exists a, b. split; [exact Q0|]. split; eapply zero_teq; eassumption. }
    destruct X as (? & ? & ? & ? & ?), Y as (? & ? & ? & ? & ?). eapply response; eassumption.
  Qed.
End Response.
