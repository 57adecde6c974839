(** The cluster operator T1 + T2: nilpotency, commutators with elementary
    operators and the similarity transformation of operator products. *)
From Coq Require Import List Bool Arith ZArith Lia Ring Factorial.
From Verif Require Import Scalar CISpec CIFacts CIFock CIMatrix CIVec CIExpSpec CIExp Tensor CCSpec CCFockSpec FockStates FockExp.
Import ListNotations.
Local Open Scope list_scope.

Section FockT.
  Variable K : cring.
  Local Open Scope K_scope.
  Add Ring KrFT : (c_th K).
  Notation opsum := (list (K * list op)).

  Lemma SL_map_seq {A} (x : nat -> A) m (f : A -> K) : SL (map x (seq 0 m)) f = sumN m (fun i => f (x i)).
  Proof. rewrite SL_map, sumN_lsum. reflexivity. Qed.
  Lemma SL_fm_seq {A} (x : nat -> list A) m (f : A -> K) :
    SL (flat_map x (seq 0 m)) f = sumN m (fun i => SL (x i) f).
  Proof. rewrite SL_flat_map, sumN_lsum. reflexivity. Qed.

  (** *** Operators that excite out of the first [no] orbitals *)
  Variables no nv : nat.
  Notation n := (no + nv)%nat.
  Definition exc_op (o : op) : Prop :=
    match o with Cre p => (no <= p < n)%nat | Ann p => (p < no)%nat end.
  Definition exc_sum (A : opsum) : Prop := Forall (fun a => Forall exc_op (snd a)) A.

  Lemma exc_lt o : exc_op o -> (opi o < n)%nat.
  Proof. destruct o; cbn; lia. Qed.
  Lemma exc_ctr x y : exc_op x -> exc_op y -> ctr x y = 0 :> K.
  Proof.
    unfold ctr. destruct x as [p|p], y as [q|q]; cbn; intros A B; rewrite ?andb_false_r; auto;
      destruct (Nat.eqb_spec p q); auto; lia.
  Qed.

  Lemma exc_move x w psi t : length t = n -> exc_op x -> Forall exc_op w ->
    eow (x :: w) psi t = sgn (Nat.odd (length w)) * eow (w ++ [x]) psi t :> K.
  Proof.
    intros L Hx Hw. rewrite pull.
    - rewrite SL_zero; [ring|]. intros [[s y] r] Hp. cbn [fst snd].
      apply picks_in in Hp as (Hy & _). rewrite Forall_forall in Hw. rewrite exc_ctr by auto. ring.
    - rewrite L. apply exc_lt, Hx.
    - rewrite L. eapply Forall_impl; [|exact Hw]. apply exc_lt.
  Qed.

  Lemma exc_words v w psi : Nat.odd (length w) = false -> Forall exc_op v -> Forall exc_op w ->
    forall t, length t = n -> eow (v ++ w) psi t = eow (w ++ v) psi t :> K.
  Proof.
    intros E Hv Hw. induction Hv as [|x v Hx Hv IH]; intros t L.
    - rewrite app_nil_r. reflexivity.
    - cbn [app eow].
      rewrite (eo_ext K x _ (eow w (eow v psi))).
      2:{ intros u Lu. rewrite IH by congruence. apply eow_app. }
      change (eo x (eow w (eow v psi)) t) with (eow (x :: w) (eow v psi) t).
      rewrite exc_move, E by auto. cbn [sgn]. rewrite (eow_app K w (x :: v)), (eow_app K w [x]). cbn [eow]. ring.
  Qed.

  Lemma exc_sums (A B : opsum) psi t : exc_sum A -> exc_sum B -> Forall (fun b => Nat.odd (length (snd b)) = false) B ->
    length t = n -> eos A (eos B psi) t = eos B (eos A psi) t.
  Proof.
    intros HA HB HE L. rewrite <- !eos_opmul. unfold eos, opmul. rewrite !SL_flat_map.
    transitivity (SL A (fun a => SL B (fun b => fst a * fst b * eow (snd a ++ snd b) psi t))).
    { apply SL_ext. intros a _. rewrite SL_map. reflexivity. }
    rewrite SL_swap. apply SL_ext. intros b Hb. rewrite SL_map. apply SL_ext. intros a Ha. cbn [fst snd].
    unfold exc_sum in *. rewrite Forall_forall in HA, HB, HE. rewrite exc_words by auto. ring.
  Qed.

  (** *** Nilpotency *)
  Definition vlev (t : det) : nat := nel (skipn no t).

  Lemma nel_le s : (nel s <= length s)%nat.
  Proof. induction s as [|b s IH]; cbn; [lia|]. destruct b; lia. Qed.
  Lemma vlev_le t : length t = n -> (vlev t <= nv)%nat.
  Proof. intros L. unfold vlev. eapply Nat.le_trans; [apply nel_le|]. rewrite skipn_length. lia. Qed.
  Lemma skipn_put_lt k p b s : (p < k)%nat -> skipn k (put p b s) = skipn k s.
  Proof.
    revert p s. induction k as [|k IH]; intros p s L; [lia|]. destruct s as [|x s]; [reflexivity|].
    destruct p as [|p]; [reflexivity|]. cbn. apply IH. lia.
  Qed.
  Lemma skipn_put_ge k p b s : (k <= p)%nat -> skipn k (put p b s) = put (p - k) b (skipn k s).
  Proof.
    revert p s. induction k as [|k IH]; intros p s L.
    - cbn [skipn]. f_equal. lia.
    - destruct s as [|x s]; [reflexivity|]. destruct p as [|p]; [lia|]. cbn. apply IH. lia.
  Qed.
  Lemma vlev_ann p s : (p < no)%nat -> vlev (put p true s) = vlev s.
  Proof. intros L. unfold vlev. rewrite skipn_put_lt by auto. reflexivity. Qed.
  Lemma occd_skipn k p s : occd (skipn k s) p = occd s (k + p).
  Proof.
    revert s. induction k as [|k IH]; intros s; [reflexivity|]. destruct s as [|x s]; [destruct p; reflexivity|].
    cbn. apply IH.
  Qed.
  Lemma vlev_cre p s : (no <= p)%nat -> occd s p = true -> vlev s = S (vlev (put p false s)).
  Proof.
    intros L O. unfold vlev. rewrite skipn_put_ge by auto.
    assert (O' : occd (skipn no s) (p - no) = true) by (rewrite occd_skipn; replace (no + (p - no))%nat with p by lia; auto).
    pose proof (nel_put (p - no) false (skipn no s) (occd_lt _ _ O')) as H. rewrite O' in H. lia.
  Qed.

  (** psi has no component with fewer than k electrons in the virtual orbitals *)
  Definition vmin (k : nat) (psi : state K) : Prop := forall t, length t = n -> (vlev t < k)%nat -> psi t = 0.

  Lemma vmin_mono k m psi : (m <= k)%nat -> vmin k psi -> vmin m psi.
  Proof. intros L H t Lt V. apply H; auto. lia. Qed.
  Lemma vmin_zero psi : vmin (S nv) psi -> forall t, length t = n -> psi t = 0.
  Proof. intros H t L. apply H; auto. apply vlev_le in L. lia. Qed.
  Lemma vmin_ann k p psi : (p < no)%nat -> vmin k psi -> vmin k (eo (Ann p) psi).
  Proof.
    intros L H t Lt V. unfold eo. cbn [opi opb negb]. destruct (_ && _); [|reflexivity].
    rewrite H; [ring|rewrite put_length; auto|rewrite vlev_ann; auto].
  Qed.
  Lemma vmin_cre k p psi : (no <= p)%nat -> vmin k psi -> vmin (S k) (eo (Cre p) psi).
  Proof.
    intros L H t Lt V. unfold eo. cbn [opi opb negb]. destruct (_ && _) eqn:C; [|reflexivity].
    apply andb_true_iff in C as [_ C]. apply eqb_prop in C. rewrite (vlev_cre p t) in V by auto.
    rewrite H; [ring|rewrite put_length; auto|lia].
  Qed.
  Lemma vmin_word k w psi : Forall exc_op w -> vmin k psi -> vmin k (eow w psi).
  Proof.
    intros Hw H. induction Hw as [|o w Ho Hw IH]; [exact H|]. cbn [eow]. destruct o as [p|p]; cbn in Ho.
    - apply (vmin_mono (S k)); [lia|]. apply vmin_cre; [lia|exact IH].
    - apply vmin_ann; [lia|exact IH].
  Qed.
  Lemma vmin_word_S k p w psi : exc_op (Cre p) -> Forall exc_op w -> vmin k psi -> vmin (S k) (eow (Cre p :: w) psi).
  Proof. intros Hp Hw H. cbn [eow]. apply vmin_cre; [cbn in Hp; lia|]. apply vmin_word; auto. Qed.

  Definition raising (A : opsum) : Prop :=
    Forall (fun a => exists p w, snd a = Cre p :: w /\ exc_op (Cre p) /\ Forall exc_op w) A.
  Lemma vmin_raising A k psi : raising A -> vmin k psi -> vmin (S k) (eos A psi).
  Proof.
    intros HA H t L V. unfold eos. apply SL_zero. intros a Ha. unfold raising in HA. rewrite Forall_forall in HA.
    destruct (HA a Ha) as (p & w & -> & Hp & Hw). rewrite (vmin_word_S k p w psi Hp Hw H t L V). ring.
  Qed.
  Lemma vmin_pow A k psi : raising A -> vmin k (eos (opow A k) psi).
  Proof.
    intros HA. induction k as [|k IH]; [intros t L V; lia|].
    intros t L V. rewrite eos_powS. apply (vmin_raising A k); auto.
  Qed.
  Lemma raising_nil A k psi t : raising A -> (S nv <= k)%nat -> length t = n -> eos (opow A k) psi t = 0.
  Proof.
    intros HA L Lt. apply (vmin_zero (eos (opow A k) psi)); [|exact Lt].
    apply (vmin_mono k); [exact L|]. apply vmin_pow, HA.
  Qed.

  (** *** T1 + T2 *)
  Variable t1 : nat -> nat -> K.
  Variable t2 : nat -> nat -> nat -> nat -> K.
  Notation T := (T_op no nv t1 t2).

  Ltac seqs := repeat match goal with
    | H : In _ (seq _ _) |- _ => apply in_seq in H
    | H : In _ (flat_map _ _) |- _ => apply in_flat_map in H as (? & ? & ?)
    | H : In _ (map _ _) |- _ => apply in_map_iff in H as (? & <- & ?)
    end.
  Ltac words := repeat first [apply Forall_cons | apply Forall_nil]; cbn; lia.

  Lemma T_raising : raising T.
  Proof.
    apply Forall_app. split; apply Forall_forall; intros x Hx; seqs; cbn [snd]; eexists _, _;
      (split; [reflexivity|]); (split; [cbn; lia|words]).
  Qed.
  Lemma raising_exc A : raising A -> exc_sum A.
  Proof. apply Forall_impl. intros a (p & w & -> & Hp & Hw). constructor; auto. Qed.
  Lemma T_even : Forall (fun b : K * list op => Nat.odd (length (snd b)) = false) T.
  Proof. apply Forall_app. split; apply Forall_forall; intros x Hx; seqs; reflexivity. Qed.

  Lemma eos_T psi t : eos T psi t
    = sumN nv (fun a => sumN no (fun i => t1 a i * eow [Cre (no + a); Ann i] psi t))
      + sumN nv (fun a => sumN nv (fun b => sumN no (fun i => sumN no (fun j =>
          quarter * t2 a b i j * eow [Cre (no + a); Cre (no + b); Ann j; Ann i] psi t)))).
  Proof.
    unfold T_op. rewrite eos_app. unfold eos. rewrite !SL_fm_seq. f_equal.
    - apply sumN_ext. intros a _. apply SL_map_seq.
    - apply sumN_ext. intros a _. rewrite SL_fm_seq. apply sumN_ext. intros b _. rewrite SL_fm_seq.
      apply sumN_ext. intros i _. apply SL_map_seq.
  Qed.

  (** [o, T] *)
  Definition B_op (o : op) : opsum :=
    match o with
    | Ann p =>
        if Nat.leb no p then
          map (fun i => (t1 (p - no)%nat i, [Ann i])) (seq 0 no) ++
          flat_map (fun b => flat_map (fun i => map (fun j =>
            (chalf * t2 (p - no)%nat b i j, [Cre (no + b); Ann j; Ann i])) (seq 0 no)) (seq 0 no)) (seq 0 nv)
        else []
    | Cre p =>
        if Nat.ltb p no then
          map (fun a => (- t1 a p, [Cre (no + a)])) (seq 0 nv) ++
          flat_map (fun a => flat_map (fun b => map (fun i =>
            (- (chalf * t2 a b p i), [Cre (no + a); Cre (no + b); Ann i])) (seq 0 no)) (seq 0 nv)) (seq 0 nv)
        else []
    end.

  Lemma B_exc o : exc_sum (B_op o).
  Proof.
    destruct o as [p|p]; cbn [B_op].
    - destruct (Nat.ltb p no); [|constructor].
      apply Forall_app. split; apply Forall_forall; intros x Hx; seqs; cbn [snd]; words.
    - destruct (Nat.leb no p); [|constructor].
      apply Forall_app. split; apply Forall_forall; intros x Hx; seqs; cbn [snd]; words.
  Qed.

  Lemma B_comm o psi t : length t = n -> eos (B_op o) (eos T psi) t = eos T (eos (B_op o) psi) t.
  Proof. intros L. apply exc_sums; auto using B_exc, T_even, raising_exc, T_raising. Qed.

  Hypothesis A1 : forall a b i j, (a < nv)%nat -> (b < nv)%nat -> (i < no)%nat -> (j < no)%nat ->
    t2 a b i j = - t2 b a i j.
  Hypothesis A2 : forall a b i j, (a < nv)%nat -> (b < nv)%nat -> (i < no)%nat -> (j < no)%nat ->
    t2 a b i j = - t2 a b j i.

  Lemma pull2 o x y psi t : (opi o < length t)%nat -> (opi x < length t)%nat -> (opi y < length t)%nat ->
    eo o (eow [x; y] psi) t = ctr o x * eow [y] psi t - ctr o y * eow [x] psi t + eow [x; y] (eo o psi) t :> K.
  Proof.
    intros L1 L2 L3. change (eo o (eow [x; y] psi) t) with (eow [o; x; y] psi t).
    rewrite pull; auto. unfold SL. cbn [picks map fst snd lsum negb]. cbn [length Nat.odd Nat.even negb app]. cbn [sgn eow]. ring.
  Qed.
  Lemma pull4 o x y z w psi t : (opi o < length t)%nat -> (opi x < length t)%nat -> (opi y < length t)%nat ->
    (opi z < length t)%nat -> (opi w < length t)%nat ->
    eo o (eow [x; y; z; w] psi) t
    = ctr o x * eow [y; z; w] psi t - ctr o y * eow [x; z; w] psi t
      + ctr o z * eow [x; y; w] psi t - ctr o w * eow [x; y; z] psi t + eow [x; y; z; w] (eo o psi) t :> K.
  Proof.
    intros. change (eo o (eow [x; y; z; w] psi) t) with (eow [o; x; y; z; w] psi t).
    rewrite pull; auto. unfold SL. cbn [picks map fst snd lsum negb]. cbn [length Nat.odd Nat.even negb app]. cbn [sgn eow]. ring.
  Qed.

  Lemma ctr_cc p q : ctr (Cre p) (Cre q) = 0 :> K.
  Proof. unfold ctr. cbn. rewrite andb_false_r. reflexivity. Qed.
  Lemma ctr_aa p q : ctr (Ann p) (Ann q) = 0 :> K.
  Proof. unfold ctr. cbn. rewrite andb_false_r. reflexivity. Qed.
  Lemma ctr_ca p q : ctr (Cre p) (Ann q) = delta p q :> K.
  Proof. unfold ctr, delta. cbn. rewrite andb_true_r. reflexivity. Qed.
  Lemma ctr_ac p q : ctr (Ann p) (Cre q) = delta p q :> K.
  Proof. unfold ctr, delta. cbn. rewrite andb_true_r. reflexivity. Qed.

  Lemma eos_T_comm o psi t : (opi o < n)%nat -> length t = n ->
    eo o (eos T psi) t = eos T (eo o psi) t +
     (sumN nv (fun a => sumN no (fun i => t1 a i *
        (ctr o (Cre (no + a)) * eow [Ann i] psi t - ctr o (Ann i) * eow [Cre (no + a)] psi t)))
      + sumN nv (fun a => sumN nv (fun b => sumN no (fun i => sumN no (fun j => quarter * t2 a b i j *
         (ctr o (Cre (no + a)) * eow [Cre (no + b); Ann j; Ann i] psi t
          - ctr o (Cre (no + b)) * eow [Cre (no + a); Ann j; Ann i] psi t
          + ctr o (Ann j) * eow [Cre (no + a); Cre (no + b); Ann i] psi t
          - ctr o (Ann i) * eow [Cre (no + a); Cre (no + b); Ann j] psi t)))))).
  Proof.
    intros Lo L. rewrite (eo_ext K o (eos T psi) _ t (fun u _ => eos_T psi u)), eo_add, eos_T.
    rewrite !eo_sumN.
    rewrite (sumN_ext K nv (fun a => eo o _ t) (fun a =>
      sumN no (fun i => t1 a i * eow [Cre (no + a); Ann i] (eo o psi) t)
      + sumN no (fun i => t1 a i * (ctr o (Cre (no + a)) * eow [Ann i] psi t - ctr o (Ann i) * eow [Cre (no + a)] psi t)))).
    2:{ intros a Ha. rewrite eo_sumN, <- sumN_add. apply sumN_ext. intros i Hi. rewrite eo_mul, pull2 by (cbn; lia). ring. }
    rewrite sumN_add.
    match goal with |- _ + ?X = ?A + ?B + (?C + ?D) => assert (E : X = B + D) end.
    { rewrite <- sumN_add. apply sumN_ext. intros a Ha. rewrite eo_sumN, <- sumN_add.
      apply sumN_ext. intros b Hb. rewrite eo_sumN, <- sumN_add.
      apply sumN_ext. intros i Hi. rewrite eo_sumN, <- sumN_add.
      apply sumN_ext. intros j Hj. rewrite eo_mul, pull4 by (cbn; lia). ring. }
    rewrite E. ring.
  Qed.

  Lemma delta_off c a : (c < no)%nat -> delta c (no + a) = 0 :> K.
  Proof. intros L. unfold delta. destruct (Nat.eqb_spec c (no + a)); [lia|reflexivity]. Qed.
  Lemma delta_off' c a : (a < no)%nat -> (no <= c)%nat -> delta c a = 0 :> K.
  Proof. intros L. unfold delta. destruct (Nat.eqb_spec c a); [lia|reflexivity]. Qed.
  Lemma delta_sh p a : (no <= p)%nat -> delta p (no + a) = delta (p - no) a :> K.
  Proof.
    intros L. unfold delta. destruct (Nat.eqb_spec p (no + a)), (Nat.eqb_spec (p - no) a); try lia; reflexivity.
  Qed.

  Lemma T_comm o psi t : (opi o < n)%nat -> length t = n ->
    eo o (eos T psi) t = eos T (eo o psi) t + eos (B_op o) psi t.
  Proof.
    intros Lo L. rewrite eos_T_comm by auto. f_equal. destruct o as [p|p]; cbn [opi] in Lo; cbn [B_op].
    - destruct (Nat.ltb_spec p no) as [Lp|Lp].
      + rewrite eos_app. unfold eos. rewrite SL_map_seq, SL_fm_seq. f_equal.
        * apply sumN_ext. intros a Ha. cbn [fst snd].
          rewrite (sumN_ext K no _ (fun i => delta p i * (- (t1 a i * eow [Cre (no + a)] psi t)))).
          -- rewrite sumN_delta' by auto. ring.
          -- intros i Hi. rewrite ctr_cc, ctr_ca. ring.
        * apply sumN_ext. intros a Ha. rewrite SL_fm_seq. apply sumN_ext. intros b Hb. rewrite SL_map_seq. cbn [fst snd].
          rewrite (sumN_ext K no _ (fun i => sumN no (fun j => delta p j * (quarter * t2 a b i j * eow [Cre (no + a); Cre (no + b); Ann i] psi t))
             + delta p i * sumN no (fun j => - (quarter * t2 a b i j * eow [Cre (no + a); Cre (no + b); Ann j] psi t)))).
          2:{ intros i Hi. rewrite <- sumN_mul_l, <- sumN_add. apply sumN_ext. intros j Hj. rewrite !ctr_cc, !ctr_ca. ring. }
          rewrite sumN_add, sumN_delta' by auto.
          rewrite <- sumN_add. apply sumN_ext. intros i Hi. rewrite sumN_delta' by auto.
          rewrite (A2 a b i p) by auto. unfold quarter.
          transitivity (- (chalf * t2 a b p i) * ((1 + 1) * chalf) * eow [Cre (no + a); Cre (no + b); Ann i] psi t); [ring|].
          rewrite half_two. ring.
      + rewrite eos_nil.
        rewrite (sumN_ext K nv _ (fun _ => 0)), sumN_0.
        2:{ intros a Ha. rewrite <- (sumN_0 K no). apply sumN_ext. intros i Hi. rewrite ctr_cc, ctr_ca, delta_off' by auto. ring. }
        rewrite (sumN_ext K nv _ (fun _ => 0)), sumN_0; [ring|].
        intros a Ha. rewrite <- (sumN_0 K nv). apply sumN_ext. intros b Hb. rewrite <- (sumN_0 K no).
        apply sumN_ext. intros i Hi. rewrite <- (sumN_0 K no). apply sumN_ext. intros j Hj.
        rewrite !ctr_cc, !ctr_ca, !delta_off' by auto. ring.
    - destruct (Nat.leb_spec no p) as [Lp|Lp].
      + rewrite eos_app. unfold eos. rewrite SL_map_seq, SL_fm_seq. cbn [fst snd]. f_equal.
        * rewrite (sumN_ext K nv _ (fun a => delta (p - no) a * sumN no (fun i => t1 a i * eow [Ann i] psi t))).
          -- rewrite sumN_delta' by lia. reflexivity.
          -- intros a Ha. rewrite <- sumN_mul_l. apply sumN_ext. intros i Hi. rewrite ctr_aa, ctr_ac, delta_sh by auto. ring.
        * transitivity (sumN nv (fun a => delta (p - no) a * sumN nv (fun b => sumN no (fun i => sumN no (fun j =>
             quarter * t2 a b i j * eow [Cre (no + b); Ann j; Ann i] psi t))))
            + sumN nv (fun a => sumN nv (fun b => delta (p - no) b * sumN no (fun i => sumN no (fun j =>
             - (quarter * t2 a b i j * eow [Cre (no + a); Ann j; Ann i] psi t)))))).
          -- rewrite <- sumN_add. apply sumN_ext. intros a Ha. rewrite <- sumN_mul_l, <- sumN_add.
             apply sumN_ext. intros b Hb. rewrite <- !sumN_mul_l, <- sumN_add.
             apply sumN_ext. intros i Hi. rewrite <- !sumN_mul_l, <- sumN_add.
             apply sumN_ext. intros j Hj. rewrite !ctr_aa, !ctr_ac, !delta_sh by auto. ring.
          -- rewrite sumN_delta' by lia. rewrite <- sumN_add. apply sumN_ext. intros b Hb.
             rewrite sumN_delta' by lia. rewrite SL_fm_seq, <- sumN_add. apply sumN_ext. intros i Hi.
             rewrite SL_map_seq, <- sumN_add. apply sumN_ext. intros j Hj. cbn [fst snd].
             rewrite (A1 b (p - no)) by (auto; lia). unfold quarter.
             transitivity (chalf * t2 (p - no)%nat b i j * ((1 + 1) * chalf) * eow [Cre (no + b); Ann j; Ann i] psi t); [ring|].
             rewrite half_two. ring.
      + rewrite eos_nil.
        rewrite (sumN_ext K nv _ (fun _ => 0)), sumN_0.
        2:{ intros a Ha. rewrite <- (sumN_0 K no). apply sumN_ext. intros i Hi. rewrite ctr_aa, ctr_ac, delta_off by auto. ring. }
        rewrite (sumN_ext K nv _ (fun _ => 0)), sumN_0; [ring|].
        intros a Ha. rewrite <- (sumN_0 K nv). apply sumN_ext. intros b Hb. rewrite <- (sumN_0 K no).
        apply sumN_ext. intros i Hi. rewrite <- (sumN_0 K no). apply sumN_ext. intros j Hj.
        rewrite !ctr_aa, !ctr_ac, !delta_off by auto. ring.
  Qed.

  (** *** Similarity transformation *)
  Definition tilde (o : op) (psi : state K) : state K := fun t => eo o psi t + eos (B_op o) psi t.
  Fixpoint tildew (w : list op) (psi : state K) : state K :=
    match w with [] => psi | o :: w' => tilde o (tildew w' psi) end.

  Variable inv : nat -> K.
  Variable M : nat.
  Hypothesis Inv : inverts inv M.
  Hypothesis LM : (nv < M)%nat.

  Lemma word_exp w psi : Forall (fun o => (opi o < n)%nat) w -> forall t, length t = n ->
    eow w (eos (opexp inv M T) psi) t = eos (opexp inv M T) (tildew w psi) t.
  Proof.
    induction 1 as [|o w Ho Hw IH]; intros t L; [reflexivity|]. cbn [eow tildew].
    rewrite (eo_ext K o _ (eos (opexp inv M T) (tildew w psi))) by (intros u Lu; apply IH; congruence).
    apply (o_exp K inv M Inv n T) with (B := B_op o); auto.
    - intros k phi u Lk Lu. apply raising_nil; auto using T_raising. lia.
    - intros. apply T_comm; auto.
    - intros. apply B_comm; auto.
  Qed.

  Theorem transformed_eos (A : opsum) psi t : Forall (fun a => Forall (fun o => (opi o < n)%nat) (snd a)) A ->
    length t = n ->
    eos (transformed inv M T A) psi t = SL A (fun a => fst a * tildew (snd a) psi t).
  Proof.
    intros HA L. unfold transformed. rewrite eos_opmul.
    rewrite (eos_ext K _ _ (eos (opexp inv M T) (fun u => SL A (fun a => fst a * tildew (snd a) psi u)))).
    - apply exp_opp with (n := n); auto.
      intros k phi u Lk Lu. apply raising_nil; auto using T_raising. lia.
    - intros u Lu. rewrite eos_opmul, eos_SL. unfold eos at 1. apply SL_ext. intros a Ha.
      rewrite eos_mul. f_equal. rewrite Forall_forall in HA. apply word_exp; auto. congruence.
  Qed.
End FockT.
