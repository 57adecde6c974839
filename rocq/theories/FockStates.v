(** Fermion operators as linear maps on states (functions on determinants):
    anticommutation relations and expectation values in a reference
    determinant by contractions. *)
From Coq Require Import List Bool Arith ZArith Lia Ring.
From Verif Require Import Scalar CISpec CIFacts CIFock CIMatrix CIVec CIExpSpec CIExp.
Import ListNotations.
Local Open Scope list_scope.

(** the ways to take one element out of a list: parity of its position, the
    element and the rest *)
Fixpoint picks {A} (w : list A) : list (bool * A * list A) :=
  match w with
  | [] => []
  | x :: w' => (false, x, w') :: map (fun p => (negb (fst (fst p)), snd (fst p), x :: snd p)) (picks w')
  end.

Lemma picks_in {A} (w : list A) s y r : In (s, y, r) (picks w) -> In y w /\ incl r w /\ length w = S (length r).
Proof.
  revert s r. induction w as [|x w IH]; intros s r H; [destruct H|]. cbn [picks] in H. destruct H as [H|H].
  - injection H as <- <- <-. split; [left; auto|]. split; [|reflexivity]. intros z Hz. right. auto.
  - apply in_map_iff in H as ([[s' y'] r'] & E & H). cbn in E. injection E as <- <- <-.
    destruct (IH _ _ H) as (A1 & A2 & A3). split; [right; auto|]. split; [|cbn; lia].
    intros z [<-|Hz]; [left; auto|right; auto].
Qed.

Section Fock.
  Variable K : cring.
  Local Open Scope K_scope.
  Add Ring KrFock : (c_th K).

  Definition state := det -> K.

  (** the coefficient of t in o|psi> *)
  Definition eo (o : op) (psi : state) : state := fun t =>
    if Nat.ltb (opi o) (length t) && Bool.eqb (occd t (opi o)) (opb o)
    then sgn (odd_below (opi o) t) * psi (put (opi o) (negb (opb o)) t) else 0.
  Fixpoint eow (w : list op) (psi : state) : state :=
    match w with [] => psi | o :: w' => eo o (eow w' psi) end.
  Definition eos (A : list (K * list op)) (psi : state) : state := fun t =>
    SL A (fun a => fst a * eow (snd a) psi t).
  Definition kd (s : det) : state := fun t => if det_eqb s t then 1 else 0.

  Lemma sgn_sgn b c : sgn b * sgn c = sgn (xorb b c) :> K.
  Proof. destruct b, c; cbn; ring. Qed.

  Lemma act1_rev o s g t : act1 o s = Some (g, t) <->
    Nat.ltb (opi o) (length t) && Bool.eqb (occd t (opi o)) (opb o) = true /\
    g = odd_below (opi o) t /\ s = put (opi o) (negb (opb o)) t.
  Proof.
    rewrite act1_eq. split.
    - destruct (Nat.ltb (opi o) (length s)) eqn:L; [|discriminate].
      destruct (Bool.eqb (occd s (opi o)) (negb (opb o))) eqn:B; [|discriminate]. cbn [andb].
      intros [= <- <-]. rewrite put_length, L, occd_put, Nat.eqb_refl, L. cbn [andb].
      rewrite eqb_reflx. apply eqb_prop in B.
      rewrite odd_below_put, Nat.ltb_irrefl. cbn [andb].
      rewrite put_put, <- B, put_same. auto.
    - intros (C & -> & ->). apply andb_true_iff in C as [L B]. apply eqb_prop in B.
      rewrite put_length, L, occd_put, Nat.eqb_refl, L. cbn [andb]. rewrite eqb_reflx.
      rewrite odd_below_put, Nat.ltb_irrefl. cbn [andb].
      rewrite put_put, <- B, put_same. auto.
  Qed.

  Lemma braket_eow w bra ket : braket bra w ket = eow w (kd ket) bra.
  Proof.
    revert bra. induction w as [|o w IH]; intros bra.
    - reflexivity.
    - cbn [eow]. unfold eo. rewrite <- IH. unfold braket. cbn [act].
      destruct (Nat.ltb (opi o) (length bra) && Bool.eqb (occd bra (opi o)) (opb o)) eqn:C.
      + assert (A : act1 o (put (opi o) (negb (opb o)) bra) = Some (odd_below (opi o) bra, bra)).
        { apply act1_rev. auto. }
        destruct (act w ket) as [[g s]|]; [|ring].
        destruct (det_eqb s (put (opi o) (negb (opb o)) bra)) eqn:E.
        * apply det_eqb_eq in E. subst s. rewrite A, det_eqb_refl, sgn_sgn. reflexivity.
        * destruct (act1 o s) as [[g' s']|] eqn:A'; [|ring].
          destruct (det_eqb s' bra) eqn:E'; [|ring]. apply det_eqb_eq in E'. subst s'.
          apply act1_rev in A' as (_ & _ & ->). rewrite det_eqb_refl in E. discriminate.
      + destruct (act w ket) as [[g s]|]; [|reflexivity].
        destruct (act1 o s) as [[g' s']|] eqn:A'; [|reflexivity].
        destruct (det_eqb s' bra) eqn:E'; [|reflexivity]. apply det_eqb_eq in E'. subst s'.
        apply act1_rev in A' as (C' & _). congruence.
  Qed.

  Lemma amp_eos bra A ket : amp bra A ket = eos A (kd ket) bra.
  Proof.
    unfold amp, eos, SL. f_equal. apply map_ext. intros a. rewrite braket_eow. reflexivity.
  Qed.

  (** *** Linearity *)
  Lemma eo_ext o psi phi t : (forall u, length u = length t -> psi u = phi u) -> eo o psi t = eo o phi t.
  Proof. intros E. unfold eo. rewrite E by apply put_length. reflexivity. Qed.
  Lemma eow_ext w psi phi : forall t, (forall u, length u = length t -> psi u = phi u) -> eow w psi t = eow w phi t.
  Proof.
    induction w as [|o w IH]; intros t E; [apply E; reflexivity|]. cbn [eow]. apply eo_ext.
    intros u L. apply IH. intros v L'. apply E. congruence.
  Qed.
  Lemma eos_ext A psi phi t : (forall u, length u = length t -> psi u = phi u) -> eos A psi t = eos A phi t.
  Proof. intros E. unfold eos. apply SL_ext. intros a _. f_equal. apply eow_ext, E. Qed.

  Lemma eo_add o psi phi t : eo o (fun u => psi u + phi u) t = eo o psi t + eo o phi t.
  Proof. unfold eo. destruct (_ && _); ring. Qed.
  Lemma eo_mul o c psi t : eo o (fun u => c * psi u) t = c * eo o psi t.
  Proof. unfold eo. destruct (_ && _); ring. Qed.
  Lemma eo_SL {A} o (l : list A) (f : A -> state) t :
    eo o (fun u => SL l (fun x => f x u)) t = SL l (fun x => eo o (f x) t).
  Proof.
    unfold eo. destruct (_ && _).
    - rewrite <- SL_mul. reflexivity.
    - symmetry. apply SL_0.
  Qed.
  Lemma eow_add w psi phi : forall t, eow w (fun u => psi u + phi u) t = eow w psi t + eow w phi t.
  Proof.
    induction w as [|o w IH]; intros t; [reflexivity|]. cbn [eow]. rewrite <- eo_add. apply eo_ext. intros. apply IH.
  Qed.
  Lemma eow_mul w c psi : forall t, eow w (fun u => c * psi u) t = c * eow w psi t.
  Proof.
    induction w as [|o w IH]; intros t; [reflexivity|]. cbn [eow]. rewrite <- eo_mul. apply eo_ext. intros. apply IH.
  Qed.
  Lemma eow_SL {A} w (l : list A) (f : A -> state) : forall t,
    eow w (fun u => SL l (fun x => f x u)) t = SL l (fun x => eow w (f x) t).
  Proof.
    induction w as [|o w IH]; intros t; [reflexivity|]. cbn [eow]. rewrite <- eo_SL. apply eo_ext. intros. apply IH.
  Qed.
  Lemma eow_app v w psi t : eow (v ++ w) psi t = eow v (eow w psi) t.
  Proof. revert t. induction v as [|o v IH]; intros t; [reflexivity|]. cbn [eow app]. apply eo_ext. intros. apply IH. Qed.
  Lemma eos_add A psi phi t : eos A (fun u => psi u + phi u) t = eos A psi t + eos A phi t.
  Proof. unfold eos. rewrite <- SL_add. apply SL_ext. intros a _. rewrite eow_add. ring. Qed.
  Lemma eos_mul A c psi t : eos A (fun u => c * psi u) t = c * eos A psi t.
  Proof. unfold eos. rewrite <- SL_mul. apply SL_ext. intros a _. rewrite eow_mul. ring. Qed.
  Lemma eos_SL {B} A (l : list B) (f : B -> state) t :
    eos A (fun u => SL l (fun x => f x u)) t = SL l (fun x => eos A (f x) t).
  Proof.
    unfold eos. rewrite SL_swap. apply SL_ext. intros a _. rewrite eow_SL, SL_mul. reflexivity.
  Qed.
  Lemma eos_app A B psi t : eos (A ++ B) psi t = eos A psi t + eos B psi t.
  Proof. apply SL_app. Qed.
  Lemma eos_opmul A B psi t : eos (opmul A B) psi t = eos A (eos B psi) t.
  Proof.
    unfold eos at 1 2, opmul. rewrite SL_flat_map. apply SL_ext. intros a _. rewrite SL_map.
    unfold eos. rewrite (eow_SL (snd a)), <- SL_mul. apply SL_ext. intros b _. cbn [fst snd].
    rewrite eow_app, eow_mul. ring.
  Qed.

  (** *** Anticommutation *)
  (** the number {o1, o2} *)
  Definition ctr (o1 o2 : op) : K := if Nat.eqb (opi o1) (opi o2) && xorb (opb o1) (opb o2) then 1 else 0.

  Lemma eo_anti o1 o2 psi t : (opi o1 < length t)%nat -> (opi o2 < length t)%nat ->
    eo o1 (eo o2 psi) t = ctr o1 o2 * psi t - eo o2 (eo o1 psi) t.
  Proof.
    intros L1 L2. unfold eo, ctr. rewrite !put_length.
    apply Nat.ltb_lt in L1 as L1'. apply Nat.ltb_lt in L2 as L2'. rewrite L1', L2'. cbn [andb].
    rewrite !occd_put, !odd_below_put, L1', L2', !andb_true_r.
    destruct (Nat.eqb_spec (opi o1) (opi o2)) as [E|N].
    - rewrite E, Nat.eqb_refl, Nat.ltb_irrefl, !put_put. cbn [andb].
      assert (P : forall b, occd t (opi o2) = b -> put (opi o2) b t = t) by (intros b <-; apply put_same).
      destruct (occd t (opi o2)) eqn:Oc, (opb o1), (opb o2); cbn [negb Bool.eqb xorb andb]; try ring;
        rewrite P by reflexivity; destruct (odd_below (opi o2) t); cbn; ring.
    - destruct (Nat.eqb_spec (opi o2) (opi o1)) as [E|_]; [congruence|]. cbn [andb].
      rewrite (put_comm (opi o2) (opi o1)) by auto.
      destruct (Bool.eqb (occd t (opi o1)) (opb o1)) eqn:B1, (Bool.eqb (occd t (opi o2)) (opb o2)) eqn:B2; try ring.
      apply eqb_prop in B1, B2. rewrite B1, B2.
      destruct (Nat.ltb_spec (opi o1) (opi o2)), (Nat.ltb_spec (opi o2) (opi o1)); try lia;
        destruct (opb o1), (opb o2), (odd_below (opi o1) t), (odd_below (opi o2) t); cbn; ring.
  Qed.

  Lemma sgn_negb b : sgn (negb b) = - sgn b :> K.
  Proof. destruct b; cbn; ring. Qed.

  Lemma pull o w psi : forall t, (opi o < length t)%nat -> Forall (fun x => (opi x < length t)%nat) w ->
    eow (o :: w) psi t
    = SL (picks w) (fun p => sgn (fst (fst p)) * ctr o (snd (fst p)) * eow (snd p) psi t)
      + sgn (Nat.odd (length w)) * eow (w ++ [o]) psi t.
  Proof.
    induction w as [|x w IH]; intros t Lo Lw.
    - cbn. ring.
    - inversion Lw as [|? ? Lx Lw']; subst. cbn [eow picks]. rewrite eo_anti by auto.
      rewrite SL_cons, SL_map. cbn [fst snd].
      transitivity (ctr o x * eow w psi t - eo x (fun u =>
        SL (picks w) (fun p => sgn (fst (fst p)) * ctr o (snd (fst p)) * eow (snd p) psi u)
        + sgn (Nat.odd (length w)) * eow (w ++ [o]) psi u) t).
      + apply (f_equal (fun z => ctr o x * eow w psi t - z)). apply eo_ext. intros u Lu. apply IH; rewrite Lu; auto.
      + rewrite eo_add, eo_mul, eo_SL. cbn [app eow length].
        rewrite Nat.odd_succ, <- Nat.negb_odd, sgn_negb.
        rewrite (SL_ext K (picks w) (fun p => eo x (fun u => sgn (fst (fst p)) * ctr o (snd (fst p)) * eow (snd p) psi u) t)
                  (fun p => - (1) * (sgn (negb (fst (fst p))) * ctr o (snd (fst p)) * eo x (eow (snd p) psi) t))).
        2:{ intros p _. rewrite eo_mul, sgn_negb. ring. }
        rewrite SL_mul. cbn [sgn]. ring.
  Qed.

  (** *** Expectation values in a reference determinant *)
  Variable ref : det.
  (** operators that annihilate the reference *)
  Definition qann (o : op) : bool := Bool.eqb (occd ref (opi o)) (opb o).

  Lemma qann_ref o t : qann o = true -> (opi o < length t)%nat -> length t = length ref -> eo o (kd ref) t = 0.
  Proof.
    unfold qann, eo, kd. intros Q L E. destruct (_ && _) eqn:C; [|reflexivity].
    destruct (det_eqb ref (put (opi o) (negb (opb o)) t)) eqn:D; [|ring]. apply det_eqb_eq in D.
    rewrite D, occd_put, Nat.eqb_refl in Q. apply Nat.ltb_lt in L. rewrite L in Q. cbn [andb] in Q.
    destruct (opb o); discriminate.
  Qed.

  Lemma qcre_ref o psi : qann o = false -> eo o psi ref = 0.
  Proof. unfold qann, eo. intros ->. rewrite andb_false_r. reflexivity. Qed.

  Lemma eow_zero w psi : forall t, (forall u, length u = length t -> psi u = 0) -> eow w psi t = 0.
  Proof.
    induction w as [|o w IH]; intros t Z; [apply Z; reflexivity|]. cbn [eow]. unfold eo.
    destruct (_ && _); [|reflexivity]. rewrite IH; [ring|]. intros u L. apply Z. rewrite L. apply put_length.
  Qed.

  Definition vev (w : list op) : K := eow w (kd ref) ref.

  Lemma vev_nil : vev [] = 1.
  Proof. unfold vev, kd. cbn. rewrite det_eqb_refl. reflexivity. Qed.

  Lemma vev_cons o w : (opi o < length ref)%nat -> Forall (fun x => (opi x < length ref)%nat) w ->
    vev (o :: w) = if qann o then SL (picks w) (fun p => sgn (fst (fst p)) * ctr o (snd (fst p)) * vev (snd p)) else 0.
  Proof.
    intros Lo Lw. destruct (qann o) eqn:Q.
    - unfold vev. rewrite pull by auto. rewrite eow_app.
      rewrite (eow_zero w (eow [o] (kd ref))); [ring|].
      intros u L. cbn [eow]. apply qann_ref; auto. rewrite L. auto.
    - apply qcre_ref, Q.
  Qed.

  (** the amplitude of an excited determinant as an expectation value *)
  Definition adj (o : op) : op := match o with Cre p => Ann p | Ann p => Cre p end.
  Lemma eo_adj o s g t psi : act1 o s = Some (g, t) -> eo (adj o) psi s = sgn g * psi t.
  Proof.
    rewrite act1_eq. unfold eo.
    assert (Ai : opi (adj o) = opi o) by (destruct o; reflexivity).
    assert (Ab : opb (adj o) = negb (opb o)) by (destruct o; reflexivity). rewrite Ai, Ab.
    destruct (_ && _) eqn:C; [|discriminate]. intros [= <- <-]. rewrite negb_involutive. reflexivity.
  Qed.
  Lemma eow_adj w : forall s g t psi, act w s = Some (g, t) -> eow (rev (map adj w)) psi s = sgn g * psi t.
  Proof.
    induction w as [|o w IH]; intros s g t psi E.
    - cbn in E. injection E as <- <-. cbn. ring.
    - cbn [act] in E. destruct (act w s) as [[g1 s1]|] eqn:E1; [|discriminate].
      destruct (act1 o s1) as [[g2 s2]|] eqn:E2; [|discriminate]. injection E as <- <-.
      cbn [map rev]. rewrite eow_app, (IH _ _ _ _ E1). cbn [eow]. rewrite (eo_adj _ _ _ _ _ E2).
      rewrite <- sgn_sgn. ring.
  Qed.
End Fock.
Arguments eo {K}. Arguments eow {K}. Arguments eos {K}. Arguments kd {K}. Arguments vev {K}. Arguments ctr {K}.
