(** Matrix elements of products of operators between determinants: the
    Slater-Condon rules on the level of the specification CISpec.v. *)
From Coq Require Import List Bool Arith ZArith Lia.
From Verif Require Import Scalar Tensor CIModel CISpec CIRep CIFacts CIStrings.
Import ListNotations.

(** *** Two annihilators, two creators *)
Definition c2 (s : det) (r t : nat) : det := put t false (put r false s).
Definition act4 (p q r t : nat) (k : det) : option (bool * det) :=
  if occd k r && occd k t && negb (Nat.eqb r t) && negb (Nat.eqb p q)
     && negb (occd (c2 k r t) p) && negb (occd (c2 k r t) q)
  then Some (xorb (xorb (odd_below p (c2 k r t)) (odd_below q (c2 k r t)))
            (xorb (xorb (odd_below r (c2 k r t)) (odd_below t (c2 k r t)))
                  (xorb (Nat.ltb q p) (Nat.ltb t r))),
             put p true (put q true (c2 k r t)))
  else None.

Lemma act_act4 p q r t k : p < length k -> q < length k -> r < length k -> t < length k ->
  act [Cre p; Cre q; Ann t; Ann r] k = act4 p q r t k.
Proof.
  intros Lp Lq Lr Lt. unfold act4, c2. cbn [act act1].
  destruct (occd k r) eqn:Or; [|reflexivity]. cbn [andb].
  rewrite (occd_put r false k t). apply Nat.ltb_lt in Lr as Lr'. rewrite Lr', andb_true_r.
  destruct (Nat.eqb_spec t r) as [->|Ntr].
  { rewrite Nat.eqb_refl. cbn [negb andb]. rewrite andb_false_r. reflexivity. }
  destruct (occd k t) eqn:Ot; [|reflexivity].
  destruct (Nat.eqb_spec r t) as [->|_]; [congruence|]. cbn [negb andb].
  set (c := put t false (put r false k)).
  assert (Lc : length c = length k) by (unfold c; rewrite !put_length; reflexivity).
  assert (Cr : occd c r = false).
  { unfold c. rewrite !occd_put, put_length, Nat.eqb_refl, Lr'. cbn.
    destruct (Nat.eqb_spec r t); [congruence|reflexivity]. }
  assert (Ct : occd c t = false).
  { unfold c. rewrite occd_put, put_length, Nat.eqb_refl. apply Nat.ltb_lt in Lt. rewrite Lt. reflexivity. }
  rewrite Lc. apply Nat.ltb_lt in Lq as Lq'. rewrite Lq'. cbn [andb].
  destruct (occd c q) eqn:Oq; cbn [negb]; [rewrite andb_false_r; reflexivity|].
  rewrite put_length, Lc. apply Nat.ltb_lt in Lp as Lp'. rewrite Lp'. cbn [andb].
  rewrite (occd_put q true c p), Lc, Lq', andb_true_r.
  destruct (Nat.eqb_spec p q) as [->|Npq]; [reflexivity|]. cbn [negb andb].
  destruct (occd c p) eqn:Op; [reflexivity|]. cbn [negb andb].
  do 2 f_equal.
  rewrite (odd_below_put q true c p), Lc, Lq', andb_true_r, Oq.
  assert (Sr : odd_below r k = xorb (odd_below r c) (Nat.ltb t r)).
  { unfold c. rewrite !odd_below_put, !put_length. rewrite (occd_put r false k t), Lr'.
    apply Nat.ltb_lt in Lt as Lt'. rewrite Lt', Nat.ltb_irrefl, andb_true_r. cbn [andb].
    destruct (Nat.eqb_spec t r); [congruence|]. rewrite Ot. cbn [andb].
    destruct (Nat.ltb t r); cbn [xorb]; destruct (odd_below r k); reflexivity. }
  assert (St : odd_below t (put r false k) = odd_below t c).
  { unfold c. rewrite (odd_below_put t false), Nat.ltb_irrefl. reflexivity. }
  rewrite Sr, St. destruct (Nat.ltb q p), (Nat.ltb t r), (odd_below p c), (odd_below q c),
    (odd_below r c), (odd_below t c); reflexivity.
Qed.

Lemma occd_c2 k r t x : r < length k -> t < length k ->
  occd (c2 k r t) x = if Nat.eqb x r || Nat.eqb x t then false else occd k x.
Proof.
  intros Lr Lt. unfold c2. rewrite !occd_put, !put_length.
  apply Nat.ltb_lt in Lr. apply Nat.ltb_lt in Lt. rewrite Lr, Lt, !andb_true_r.
  destruct (Nat.eqb x t), (Nat.eqb x r); reflexivity.
Qed.
Lemma c2_length k r t : length (c2 k r t) = length k.
Proof. unfold c2. rewrite !put_length. reflexivity. Qed.
Lemma c2_sym k r t : c2 k r t = c2 k t r.
Proof.
  unfold c2. destruct (Nat.eq_dec r t) as [->|N]; [reflexivity|]. apply put_comm. auto.
Qed.

(** *** One-body elements *)
Section Elements.
  Variable K : cring.
  Local Open Scope K_scope.
  Add Ring KrF : (c_th K).

  Definition delta (p q : nat) : K := if Nat.eqb p q then 1 else 0.
  Definition occK (s : det) (p : nat) : K := if occd s p then 1 else 0.
  Definition E1 (bra ket : det) (p q : nat) : K := braket bra [Cre p; Ann q] ket.
  Definition E2 (bra ket : det) (p q r s : nat) : K := braket bra [Cre p; Cre q; Ann s; Ann r] ket.
  Definition same (bra ket : det) : K := if det_eqb ket bra then 1 else 0.

  Lemma braket_nil bra ket : braket (K:=K) bra [] ket = same bra ket.
  Proof. unfold braket, same. cbn. destruct (det_eqb ket bra); reflexivity. Qed.

  Lemma same_refl s : same s s = 1.
  Proof. unfold same. rewrite det_eqb_refl. reflexivity. Qed.
  Lemma same_neq s t : s <> t -> same s t = 0.
  Proof.
    intros N. unfold same. destruct (det_eqb t s) eqn:E; [|reflexivity].
    apply det_eqb_eq in E. congruence.
  Qed.

  Lemma act_number s p : p < length s ->
    act [Cre p; Ann p] s = if occd s p then Some (false, s) else None.
  Proof.
    intros L. cbn [act act1]. destruct (occd s p) eqn:O; [|reflexivity].
    rewrite put_length. apply Nat.ltb_lt in L as L'. rewrite L'. cbn [andb].
    rewrite occd_put, Nat.eqb_refl, L'. cbn [andb negb].
    rewrite odd_below_put, Nat.ltb_irrefl. cbn [andb]. rewrite put_put, <- O, put_same.
    destruct (odd_below p s); reflexivity.
  Qed.

  Lemma E1_diag s p q : p < length s -> q < length s -> E1 s s p q = delta p q * occK s p.
  Proof.
    intros Lp Lq. unfold E1, braket, delta, occK. destruct (Nat.eqb_spec p q) as [->|N].
    - rewrite act_number by auto. destruct (occd s q); [|ring]. rewrite det_eqb_refl. cbn. ring.
    - rewrite act_exc by auto. destruct (exc s q p) as [[g t]|] eqn:E; [|ring].
      destruct (det_eqb t s) eqn:D; [|ring]. apply det_eqb_eq in D. subst t.
      pose proof (exc_ndiff _ _ _ _ _ Lp E). rewrite ndiff_refl in H. discriminate.
  Qed.

  Lemma E1_zero bra ket p q : length bra = length ket -> p < length ket -> q < length ket ->
    2 < ndiff ket bra -> E1 bra ket p q = 0.
  Proof.
    intros L Lp Lq D. unfold E1, braket. destruct (Nat.eq_dec p q) as [->|N].
    - rewrite act_number by auto. destruct (occd ket q); [|reflexivity].
      destruct (det_eqb ket bra) eqn:E; [|reflexivity]. apply det_eqb_eq in E. subst.
      rewrite ndiff_refl in D. lia.
    - rewrite act_exc by auto. destruct (exc ket q p) as [[g t]|] eqn:E; [|reflexivity].
      destruct (det_eqb t bra) eqn:F; [|reflexivity]. apply det_eqb_eq in F. subst t.
      pose proof (exc_ndiff _ _ _ _ _ Lp E). lia.
  Qed.

  Lemma E1_single ket o v p q : o < length ket -> v < length ket -> p < length ket -> q < length ket ->
    occd ket o = true -> occd ket v = false ->
    E1 (ex1 ket o v) ket p q = delta p v * delta q o * sgn (between ket o v).
  Proof.
    intros Lo Lv Lp Lq Oo Ov. set (bra := ex1 ket o v).
    assert (Nov : o <> v) by (intros ->; congruence).
    assert (Bo : occd bra o = false).
    { unfold bra. rewrite ex1_occd by auto. apply Nat.eqb_neq in Nov. rewrite Nov, Nat.eqb_refl. reflexivity. }
    assert (Bv : occd bra v = true) by (unfold bra; rewrite ex1_occd, Nat.eqb_refl by auto; reflexivity).
    unfold E1, braket, delta. destruct (Nat.eq_dec p q) as [->|N].
    - rewrite act_number by auto.
      assert (delta q v * delta q o = 0) as Z.
      { unfold delta. destruct (Nat.eqb_spec q v), (Nat.eqb_spec q o); subst; try ring. congruence. }
      unfold delta in Z. rewrite Z. destruct (occd ket q); [|ring].
      destruct (det_eqb ket bra) eqn:E; [|ring]. apply det_eqb_eq in E. congruence.
    - rewrite act_exc by auto. destruct (exc ket q p) as [[g t]|] eqn:E.
      + destruct (exc_occ _ _ _ _ _ E) as (Oq & Op & _ & O). specialize (O Lp).
        destruct (det_eqb t bra) eqn:F.
        * apply det_eqb_eq in F. subst t.
          assert (p = v). { pose proof (O v) as HH. rewrite Bv in HH.
            destruct (Nat.eqb_spec v p); [auto|]. destruct (Nat.eqb_spec v q); congruence. }
          assert (q = o). { pose proof (O o) as HH. rewrite Bo in HH.
            destruct (Nat.eqb_spec o p); [congruence|]. destruct (Nat.eqb_spec o q); congruence. }
          subst p q. rewrite !Nat.eqb_refl. unfold exc in E. rewrite Oo, Ov in E. cbn in E.
          injection E as Eg. rewrite <- Eg. ring.
        * destruct (Nat.eqb_spec p v) as [->|]; [|ring]. destruct (Nat.eqb_spec q o) as [->|]; [|ring].
          exfalso. unfold exc in E. rewrite Oo, Ov in E. cbn in E. injection E as _ <-.
          fold (ex1 ket o v) in F. fold bra in F. rewrite det_eqb_refl in F. discriminate.
      + destruct (Nat.eqb_spec p v) as [->|]; [|ring]. destruct (Nat.eqb_spec q o) as [->|]; [|ring].
        unfold exc in E. rewrite Oo, Ov in E. discriminate.
  Qed.

  (** *** Two-body elements *)
  Lemma E2_closed bra ket p q r s :
    p < length ket -> q < length ket -> r < length ket -> s < length ket ->
    E2 bra ket p q r s
    = match act4 p q r s ket with
      | Some (g, t) => if det_eqb t bra then sgn g else 0
      | None => 0
      end.
  Proof. intros. unfold E2, braket. rewrite act_act4 by auto. reflexivity. Qed.

  Lemma sgn_neg g : sgn (negb g) = - sgn g :> K.
  Proof. destruct g; cbn; ring. Qed.
  Lemma sgn_xorb g h : sgn (xorb g h) = sgn g * sgn h :> K.
  Proof. destruct g, h; cbn; ring. Qed.

  Lemma ltb_flip p q : p <> q -> Nat.ltb q p = negb (Nat.ltb p q).
  Proof. intros N. destruct (Nat.ltb_spec q p), (Nat.ltb_spec p q); try lia; reflexivity. Qed.

  Lemma E2_swap_cre bra ket p q r s :
    p < length ket -> q < length ket -> r < length ket -> s < length ket ->
    E2 bra ket q p r s = - E2 bra ket p q r s.
  Proof.
    intros Lp Lq Lr Ls. rewrite !E2_closed by auto. unfold act4.
    destruct (Nat.eqb_spec p q) as [->|N].
    { rewrite Nat.eqb_refl. cbn [negb]. rewrite !andb_false_r. cbn [andb]. ring. }
    destruct (Nat.eqb_spec q p); [congruence|]. cbn [negb].
    destruct (occd ket r && occd ket s && negb (Nat.eqb r s)); cbn [andb]; [|ring].
    destruct (occd (c2 ket r s) p), (occd (c2 ket r s) q); cbn [negb andb]; try ring.
    rewrite (put_comm q p) by auto. destruct (det_eqb _ bra); [|ring].
    rewrite <- sgn_neg. f_equal. rewrite (ltb_flip p q N).
    destruct (Nat.ltb p q), (odd_below p (c2 ket r s)), (odd_below q (c2 ket r s)),
      (odd_below r (c2 ket r s)), (odd_below s (c2 ket r s)), (Nat.ltb s r); reflexivity.
  Qed.

  Lemma E2_swap_ann bra ket p q r s :
    p < length ket -> q < length ket -> r < length ket -> s < length ket ->
    E2 bra ket p q s r = - E2 bra ket p q r s.
  Proof.
    intros Lp Lq Lr Ls. rewrite !E2_closed by auto. unfold act4. rewrite (c2_sym ket s r).
    destruct (Nat.eqb_spec r s) as [->|N].
    { rewrite Nat.eqb_refl. cbn [negb]. rewrite !andb_false_r. cbn [andb]. ring. }
    destruct (Nat.eqb_spec s r); [congruence|]. cbn [negb]. rewrite !andb_true_r.
    rewrite (andb_comm (occd ket s)).
    destruct (occd ket r && occd ket s); cbn [andb]; [|ring].
    destruct (negb (Nat.eqb p q) && negb (occd (c2 ket r s) p) && negb (occd (c2 ket r s) q)); [|ring].
    destruct (det_eqb _ bra); [|ring].
    rewrite <- sgn_neg. f_equal. rewrite (ltb_flip r s N).
    destruct (Nat.ltb r s), (odd_below p (c2 ket r s)), (odd_below q (c2 ket r s)),
      (odd_below r (c2 ket r s)), (odd_below s (c2 ket r s)), (Nat.ltb q p); reflexivity.
  Qed.

  Lemma E2_same_cre bra ket p r s :
    p < length ket -> r < length ket -> s < length ket -> E2 bra ket p p r s = 0.
  Proof. intros Lp Lr Ls. apply self_opp_zero. apply E2_swap_cre; auto. Qed.
  Lemma E2_same_ann bra ket p q r :
    p < length ket -> q < length ket -> r < length ket -> E2 bra ket p q r r = 0.
  Proof. intros Lp Lr Ls. apply self_opp_zero. apply E2_swap_ann; auto. Qed.

  (** an orbital occupied in bra and not in ket is created *)
  Lemma E2_needs_cre bra ket p q r s v :
    p < length ket -> q < length ket -> r < length ket -> s < length ket ->
    occd bra v = true -> occd ket v = false -> p <> v -> q <> v -> E2 bra ket p q r s = 0.
  Proof.
    intros Lp Lq Lr Ls Bv Kv Np Nq. rewrite E2_closed by auto.
    destruct (act4 p q r s ket) as [[g t]|] eqn:E; [|reflexivity].
    destruct (det_eqb t bra) eqn:D; [|reflexivity]. exfalso. apply det_eqb_eq in D. subst t.
    unfold act4 in E. destruct (_ && _ && _ && _ && _ && _); [|discriminate]. injection E as _ <-.
    rewrite !occd_put in Bv. destruct (Nat.eqb_spec v p); [congruence|]. destruct (Nat.eqb_spec v q); [congruence|].
    cbn [andb] in Bv. rewrite occd_c2 in Bv by auto. rewrite Kv in Bv.
    destruct (Nat.eqb v r || Nat.eqb v s); discriminate.
  Qed.
  Lemma E2_needs_ann bra ket p q r s o :
    p < length ket -> q < length ket -> r < length ket -> s < length ket ->
    occd bra o = false -> occd ket o = true -> r <> o -> s <> o -> E2 bra ket p q r s = 0.
  Proof.
    intros Lp Lq Lr Ls Bo Ko Nr Ns. rewrite E2_closed by auto.
    destruct (act4 p q r s ket) as [[g t]|] eqn:E; [|reflexivity].
    destruct (det_eqb t bra) eqn:D; [|reflexivity]. exfalso. apply det_eqb_eq in D. subst t.
    unfold act4 in E. destruct (_ && _ && _ && _ && _ && _) eqn:C; [|discriminate].
    injection E as _ <-.
    assert (Co : occd (c2 ket r s) o = true).
    { rewrite occd_c2 by auto. destruct (Nat.eqb_spec o r); [congruence|].
      destruct (Nat.eqb_spec o s); [congruence|]. exact Ko. }
    rewrite !occd_put, Co in Bo.
    destruct (Nat.eqb o p && _); [discriminate|]. destruct (Nat.eqb o q && _); discriminate.
  Qed.

  Lemma E2_zero bra ket p q r s : length bra = length ket ->
    p < length ket -> q < length ket -> r < length ket -> s < length ket ->
    4 < ndiff ket bra -> E2 bra ket p q r s = 0.
  Proof.
    intros L Lp Lq Lr Ls D. rewrite E2_closed by auto.
    destruct (act4 p q r s ket) as [[g t]|] eqn:E; [|reflexivity].
    destruct (det_eqb t bra) eqn:F; [|reflexivity]. exfalso. apply det_eqb_eq in F. subst t.
    unfold act4 in E. destruct (_ && _ && _ && _ && _ && _); [|discriminate]. injection E as _ <-.
    unfold c2 in D.
    assert (T : forall s x b, x < length s -> ndiff s (put x b s) <= 1)
      by (intros; rewrite ndiff_put by auto; destruct (Bool.eqb _ _); lia).
    pose proof (T ket r false Lr).
    pose proof (T (put r false ket) s false ltac:(rewrite put_length; auto)).
    pose proof (T (put s false (put r false ket)) q true ltac:(rewrite !put_length; auto)).
    pose proof (T (put q true (put s false (put r false ket))) p true ltac:(rewrite !put_length; auto)).
    pose proof (ndiff_triangle ket (put r false ket) (put s false (put r false ket)) ltac:(rewrite !put_length; auto) ltac:(rewrite !put_length; auto)).
    pose proof (ndiff_triangle ket (put s false (put r false ket)) (put q true (put s false (put r false ket))) ltac:(rewrite !put_length; auto) ltac:(rewrite !put_length; auto)).
    pose proof (ndiff_triangle ket (put q true (put s false (put r false ket))) (put p true (put q true (put s false (put r false ket)))) ltac:(rewrite !put_length; auto) ltac:(rewrite !put_length; auto)).
    lia.
  Qed.

  (** no difference *)
  Lemma E2_diag_main s p q : p < length s -> q < length s -> p <> q ->
    E2 s s p q p q = occK s p * occK s q.
  Proof.
    intros Lp Lq N. rewrite E2_closed by auto. unfold act4, occK.
    destruct (occd s p) eqn:Op; cbn [andb]; [|ring].
    destruct (occd s q) eqn:Oq; cbn [andb]; [|ring].
    destruct (Nat.eqb_spec p q); [congruence|]. cbn [negb andb].
    rewrite !occd_c2 by auto. rewrite !Nat.eqb_refl, orb_true_r. cbn [orb negb andb].
    assert (R : put p true (put q true (c2 s p q)) = s).
    { unfold c2. rewrite put_put. rewrite (put_comm q p), put_put by auto.
      assert (put q true s = s) as -> by (rewrite <- Oq; apply put_same). rewrite <- Op. apply put_same. }
    rewrite R, det_eqb_refl. 
    replace (xorb _ _) with false; [cbn; ring|].
    destruct (odd_below p (c2 s p q)), (odd_below q (c2 s p q)), (Nat.ltb q p); reflexivity.
  Qed.

  Lemma E2_diag s p q r t : p < length s -> q < length s -> r < length s -> t < length s ->
    E2 s s p q r t = (delta p r * delta q t - delta p t * delta q r) * (occK s p * occK s q).
  Proof.
    intros Lp Lq Lr Lt. unfold delta.
    destruct (Nat.eq_dec p q) as [->|Npq].
    { rewrite E2_same_cre by auto. destruct (Nat.eqb q r), (Nat.eqb q t); ring. }
    destruct (Nat.eqb_spec p r) as [<-|Npr].
    - destruct (Nat.eqb_spec q t) as [<-|Nqt].
      + rewrite E2_diag_main by auto. destruct (Nat.eqb_spec p q); [congruence|]. ring.
      + destruct (Nat.eqb_spec q p); [congruence|].
        (* t is annihilated or p = t *)
        transitivity (0 : K); [|destruct (Nat.eqb p t); ring].
        destruct (Nat.eq_dec p t) as [->|Npt]; [apply E2_same_ann; auto|].
        rewrite E2_closed by auto. destruct (act4 p q p t s) as [[g u]|] eqn:E; [|reflexivity].
        destruct (det_eqb u s) eqn:D; [|reflexivity]. exfalso. apply det_eqb_eq in D. subst u.
        unfold act4 in E. destruct (_ && _ && _ && _ && _ && _) eqn:C; [|discriminate].
        injection E as _ R. repeat rewrite andb_true_iff in C. destruct C as (((((C1 & C2) & C3) & C4) & C5) & C6).
        assert (X : occd s t = true) by auto. rewrite <- R in X. rewrite !occd_put in X.
        destruct (Nat.eqb_spec t p); [congruence|]. destruct (Nat.eqb_spec t q); [congruence|]. cbn [andb] in X.
        rewrite occd_c2, Nat.eqb_refl, orb_true_r in X by auto. discriminate.
    - destruct (Nat.eqb_spec p t) as [<-|Npt].
      + destruct (Nat.eqb_spec q r) as [<-|Nqr].
        * rewrite E2_swap_ann, E2_diag_main by auto. destruct (Nat.eqb_spec q p); [congruence|]. ring.
        * destruct (Nat.eqb_spec q p); [congruence|].
          transitivity (0 : K); [|ring].
          rewrite E2_swap_ann by auto. 
          rewrite E2_closed by auto. destruct (act4 p q p r s) as [[g u]|] eqn:E; [|ring].
          destruct (det_eqb u s) eqn:D; [|ring]. exfalso. apply det_eqb_eq in D. subst u.
          unfold act4 in E. destruct (_ && _ && _ && _ && _ && _) eqn:C; [|discriminate].
          injection E as _ R. repeat rewrite andb_true_iff in C. destruct C as (((((C1 & C2) & C3) & C4) & C5) & C6).
          assert (X : occd s r = true) by auto. rewrite <- R in X. rewrite !occd_put in X.
          destruct (Nat.eqb_spec r p); [congruence|]. destruct (Nat.eqb_spec r q); [congruence|]. cbn [andb] in X.
          rewrite occd_c2, Nat.eqb_refl, orb_true_r in X by auto. discriminate.
      + transitivity (0 : K); [|ring].
        rewrite E2_closed by auto. destruct (act4 p q r t s) as [[g u]|] eqn:E; [|reflexivity].
        destruct (det_eqb u s) eqn:D; [|reflexivity]. exfalso. apply det_eqb_eq in D. subst u.
        unfold act4 in E. destruct (_ && _ && _ && _ && _ && _) eqn:C; [|discriminate].
        injection E as _ R. repeat rewrite andb_true_iff in C. destruct C as (((((C1 & C2) & C3) & C4) & C5) & C6).
        assert (X : occd s p = false).
        { rewrite occd_c2 in C5 by auto. destruct (Nat.eqb_spec p r); [congruence|].
          destruct (Nat.eqb_spec p t); [congruence|]. cbn in C5. apply negb_true_iff in C5. exact C5. }
        rewrite <- R in X. rewrite occd_put, Nat.eqb_refl, put_length, c2_length in X.
        apply Nat.ltb_lt in Lp. rewrite Lp in X. discriminate.
  Qed.

  (** one difference *)
  Lemma between_core ket o v : o < length ket -> v < length ket -> occd ket o = true -> occd ket v = false ->
    between ket o v = xorb (odd_below o (put o false ket)) (odd_below v (put o false ket)).
  Proof.
    intros Lo Lv Oo Ov. assert (Nov : o <> v) by (intros ->; congruence).
    unfold between. rewrite !odd_below_put, Nat.ltb_irrefl. cbn [andb].
    apply Nat.ltb_lt in Lo as Lo'. rewrite Lo', andb_true_r, Oo.
    destruct (Nat.ltb_spec o v).
    - rewrite Nat.min_l, Nat.max_r by lia. rewrite odd_below_S, Oo.
      destruct (odd_below o ket), (odd_below v ket); reflexivity.
    - rewrite Nat.min_r, Nat.max_l by lia. rewrite odd_below_S, Ov.
      destruct (odd_below o ket), (odd_below v ket); reflexivity.
  Qed.

  Definition coreK (ket : det) (o x : nat) : K := if Nat.eqb x o then 0 else occK ket x.

  Lemma E2_single_main ket o v q s : o < length ket -> v < length ket -> q < length ket -> s < length ket ->
    occd ket o = true -> occd ket v = false ->
    E2 (ex1 ket o v) ket v q o s = delta q s * coreK ket o q * sgn (between ket o v).
  Proof.
    intros Lo Lv Lq Ls Oo Ov. assert (Nov : o <> v) by (intros ->; congruence).
    rewrite E2_closed by auto. unfold act4, delta, coreK, occK. rewrite Oo. cbn [andb].
    destruct (Nat.eqb_spec q s) as [<-|Nqs].
    - destruct (Nat.eqb_spec q o) as [->|Nqo].
      { rewrite Nat.eqb_refl. cbn [negb]. rewrite andb_false_r. cbn [andb]. ring. }
      destruct (occd ket q) eqn:Oq; cbn [andb]; [|ring].
      destruct (Nat.eqb_spec o q); [congruence|]. cbn [negb andb].
      destruct (Nat.eqb_spec v q); [congruence|]. cbn [negb andb].
      rewrite !occd_c2 by auto. rewrite (Nat.eqb_refl q), orb_true_r, Ov.
      destruct (Nat.eqb v o || Nat.eqb v q); cbn [negb andb].
      + replace (put v true (put q true (c2 ket o q))) with (ex1 ket o v).
        2:{ unfold c2, ex1. f_equal. rewrite put_put.
            rewrite <- (put_same q (put o false ket)) at 1. f_equal.
            rewrite occd_put. destruct (Nat.eqb_spec q o); [congruence|]. exact Oq. }
        rewrite det_eqb_refl. rewrite (between_core ket o v) by auto.
        assert (C : forall x, x <> q -> odd_below x (put o false ket) = xorb (odd_below x (c2 ket o q)) (Nat.ltb q x)).
        { intros x Nx. unfold c2. rewrite (odd_below_put q false), put_length.
          apply Nat.ltb_lt in Lq as Lq'. rewrite Lq', andb_true_r, occd_put.
          destruct (Nat.eqb_spec q o); [congruence|]. cbn [andb]. rewrite Oq.
          destruct (Nat.ltb q x), (odd_below x (put o false ket)); reflexivity. }
        rewrite !C by auto. transitivity (sgn (K:=K) (xorb
           (xorb (odd_below o (c2 ket o q)) (Nat.ltb q o)) (xorb (odd_below v (c2 ket o q)) (Nat.ltb q v)))); [|ring].
        f_equal. destruct (odd_below o (c2 ket o q)), (odd_below v (c2 ket o q)), (odd_below q (c2 ket o q)),
          (Nat.ltb q o), (Nat.ltb q v); reflexivity.
      + replace (put v true (put q true (c2 ket o q))) with (ex1 ket o v).
        2:{ unfold c2, ex1. f_equal. rewrite put_put.
            rewrite <- (put_same q (put o false ket)) at 1. f_equal.
            rewrite occd_put. destruct (Nat.eqb_spec q o); [congruence|]. exact Oq. }
        rewrite det_eqb_refl. rewrite (between_core ket o v) by auto.
        assert (C : forall x, x <> q -> odd_below x (put o false ket) = xorb (odd_below x (c2 ket o q)) (Nat.ltb q x)).
        { intros x Nx. unfold c2. rewrite (odd_below_put q false), put_length.
          apply Nat.ltb_lt in Lq as Lq'. rewrite Lq', andb_true_r, occd_put.
          destruct (Nat.eqb_spec q o); [congruence|]. cbn [andb]. rewrite Oq.
          destruct (Nat.ltb q x), (odd_below x (put o false ket)); reflexivity. }
        rewrite !C by auto. transitivity (sgn (K:=K) (xorb
           (xorb (odd_below o (c2 ket o q)) (Nat.ltb q o)) (xorb (odd_below v (c2 ket o q)) (Nat.ltb q v)))); [|ring].
        f_equal. destruct (odd_below o (c2 ket o q)), (odd_below v (c2 ket o q)), (odd_below q (c2 ket o q)),
          (Nat.ltb q o), (Nat.ltb q v); reflexivity.
    - transitivity (0 : K); [|ring].
      destruct (occd ket s && _ && _ && _ && _) eqn:C; [|reflexivity].
      destruct (det_eqb _ _) eqn:D; [|reflexivity]. exfalso. apply det_eqb_eq in D.
      repeat rewrite andb_true_iff in C. destruct C as ((((C1 & C2) & C3) & C4) & C5).
      apply (f_equal (fun u => occd u s)) in D. rewrite ex1_occd in D by auto.
      rewrite !occd_put in D. destruct (Nat.eqb_spec s v); [congruence|].
      destruct (Nat.eqb_spec s q); [congruence|]. cbn [andb] in D.
      rewrite occd_c2, Nat.eqb_refl, orb_true_r in D by auto.
      destruct (Nat.eqb_spec s o) as [->|]; [rewrite Nat.eqb_refl in C2; discriminate|]. congruence.
  Qed.

  Lemma E2_single ket o v p q r s : o < length ket -> v < length ket ->
    p < length ket -> q < length ket -> r < length ket -> s < length ket ->
    occd ket o = true -> occd ket v = false ->
    E2 (ex1 ket o v) ket p q r s
    = sgn (between ket o v) *
      (delta p v * delta r o * (delta q s * coreK ket o q)
       - delta p v * delta s o * (delta q r * coreK ket o q)
       - delta q v * delta r o * (delta p s * coreK ket o p)
       + delta q v * delta s o * (delta p r * coreK ket o p)).
  Proof.
    intros Lo Lv Lp Lq Lr Ls Oo Ov. assert (Nov : o <> v) by (intros ->; congruence).
    assert (Bo : occd (ex1 ket o v) o = false).
    { rewrite ex1_occd by auto. apply Nat.eqb_neq in Nov. rewrite Nov, Nat.eqb_refl. reflexivity. }
    assert (Bv : occd (ex1 ket o v) v = true) by (rewrite ex1_occd, Nat.eqb_refl by auto; reflexivity).
    assert (Dr : forall x, delta x x = 1) by (intros; unfold delta; rewrite Nat.eqb_refl; reflexivity).
    assert (Dn : forall x y, x <> y -> delta x y = 0)
      by (intros x y N; unfold delta; apply Nat.eqb_neq in N; rewrite N; reflexivity).
    assert (Cv : coreK ket o v = 0).
    { unfold coreK, occK. rewrite Ov. destruct (Nat.eqb v o); reflexivity. }
    assert (Co : coreK ket o o = 0) by (unfold coreK; rewrite Nat.eqb_refl; reflexivity).
    assert (Mq : delta q o * coreK ket o q = 0).
    { destruct (Nat.eq_dec q o) as [->|N]; [rewrite Co; ring|rewrite Dn by auto; ring]. }
    assert (Mp : delta p o * coreK ket o p = 0).
    { destruct (Nat.eq_dec p o) as [->|N]; [rewrite Co; ring|rewrite Dn by auto; ring]. }
    destruct (Nat.eq_dec p v) as [->|Npv].
    - destruct (Nat.eq_dec q v) as [->|Nqv].
      { rewrite E2_same_cre by auto. rewrite Cv. ring. }
      rewrite (Dn q v) by auto. rewrite Dr.
      destruct (Nat.eq_dec r o) as [->|Nro].
      + destruct (Nat.eq_dec s o) as [->|Nso].
        { rewrite E2_same_ann by auto. rewrite Mq, Dr. ring. }
        rewrite E2_single_main by auto. rewrite Dr, (Dn s o) by auto. ring.
      + rewrite (Dn r o) by auto. destruct (Nat.eq_dec s o) as [->|Nso].
        * rewrite E2_swap_ann, E2_single_main by auto. rewrite Dr. ring.
        * rewrite (Dn s o) by auto. rewrite (E2_needs_ann _ ket v q r s o) by auto. ring.
    - rewrite (Dn p v) by auto. destruct (Nat.eq_dec q v) as [->|Nqv].
      + rewrite Dr. destruct (Nat.eq_dec r o) as [->|Nro].
        * destruct (Nat.eq_dec s o) as [->|Nso].
          { rewrite E2_same_ann by auto. rewrite Mp, Dr. ring. }
          rewrite E2_swap_cre, E2_single_main by auto. rewrite Dr, (Dn s o) by auto. ring.
        * rewrite (Dn r o) by auto. destruct (Nat.eq_dec s o) as [->|Nso].
          -- rewrite E2_swap_cre, E2_swap_ann, E2_single_main by auto. rewrite Dr. ring.
          -- rewrite (Dn s o) by auto. rewrite (E2_needs_ann _ ket p v r s o) by auto. ring.
      + rewrite (Dn q v) by auto. rewrite (E2_needs_cre _ ket p q r s v) by auto. ring.
  Qed.

  (** two differences *)
  Definition sig2 (c : det) (o1 o2 v1 v2 : nat) : bool :=
    xorb (xorb (odd_below v1 c) (odd_below v2 c)) (xorb (odd_below o1 c) (odd_below o2 c)).

  Lemma E2_double ket o1 o2 v1 v2 p q r s : 
    o1 < o2 -> v1 < v2 -> o2 < length ket -> v2 < length ket ->
    p < length ket -> q < length ket -> r < length ket -> s < length ket ->
    occd ket o1 = true -> occd ket o2 = true -> occd ket v1 = false -> occd ket v2 = false ->
    E2 (put v1 true (put v2 true (c2 ket o1 o2))) ket p q r s
    = sgn (sig2 (c2 ket o1 o2) o1 o2 v1 v2) *
      ((delta p v1 * delta q v2 - delta p v2 * delta q v1)
       * (delta r o1 * delta s o2 - delta r o2 * delta s o1)).
  Proof.
    intros Lo Lv Lo2 Lv2 Lp Lq Lr Ls O1 O2 V1 V2. set (bra := put v1 true _).
    assert (Lo1 : o1 < length ket) by lia. assert (Lv1 : v1 < length ket) by lia.
    assert (B : forall x, occd bra x = if Nat.eqb x v1 then true else if Nat.eqb x v2 then true
             else if Nat.eqb x o1 || Nat.eqb x o2 then false else occd ket x).
    { intros x. unfold bra. rewrite !occd_put, !put_length, c2_length, occd_c2 by auto.
      apply Nat.ltb_lt in Lv1. apply Nat.ltb_lt in Lv2. rewrite Lv1, Lv2, !andb_true_r. reflexivity. }
    assert (B1 : occd bra v1 = true) by (rewrite B, Nat.eqb_refl; reflexivity).
    assert (B2 : occd bra v2 = true) by (rewrite B, Nat.eqb_refl; destruct (Nat.eqb v2 v1); reflexivity).
    assert (B3 : occd bra o1 = false).
    { rewrite B. destruct (Nat.eqb_spec o1 v1); [congruence|]. destruct (Nat.eqb_spec o1 v2); [congruence|].
      rewrite Nat.eqb_refl. reflexivity. }
    assert (B4 : occd bra o2 = false).
    { rewrite B. destruct (Nat.eqb_spec o2 v1); [congruence|]. destruct (Nat.eqb_spec o2 v2); [congruence|].
      rewrite Nat.eqb_refl, orb_true_r. reflexivity. }
    assert (Dr : forall x, delta x x = 1) by (intros; unfold delta; rewrite Nat.eqb_refl; reflexivity).
    assert (Dn : forall x y, x <> y -> delta x y = 0)
      by (intros x y N; unfold delta; apply Nat.eqb_neq in N; rewrite N; reflexivity).
    assert (Main : E2 bra ket v1 v2 o1 o2 = sgn (sig2 (c2 ket o1 o2) o1 o2 v1 v2)).
    { rewrite E2_closed by auto. unfold act4. rewrite O1, O2. 
      destruct (Nat.eqb_spec o1 o2); [lia|]. destruct (Nat.eqb_spec v1 v2); [lia|]. cbn [negb andb].
      rewrite !occd_c2, V1, V2 by auto.
      assert (X : forall b : bool, (if b then false else false) = false) by (intros []; reflexivity).
      rewrite !X. cbn [negb andb]. fold bra. rewrite det_eqb_refl. f_equal.
      assert (Nat.ltb v2 v1 = false) as -> by (apply Nat.ltb_ge; lia).
      assert (Nat.ltb o2 o1 = false) as -> by (apply Nat.ltb_ge; lia).
      unfold sig2. cbn [xorb]. rewrite xorb_false_r. reflexivity. }
    destruct (Nat.eq_dec p v1) as [->|Np1].
    - rewrite Dr, (Dn v1 v2) by lia. destruct (Nat.eq_dec q v2) as [->|Nq2].
      + rewrite Dr. destruct (Nat.eq_dec r o1) as [->|Nr1].
        * rewrite Dr, (Dn o1 o2) by lia. destruct (Nat.eq_dec s o2) as [->|Ns2].
          -- rewrite Main, Dr. ring.
          -- rewrite (Dn s o2) by auto. rewrite (E2_needs_ann bra ket v1 v2 o1 s o2) by (auto; lia). ring.
        * rewrite (Dn r o1) by auto. destruct (Nat.eq_dec r o2) as [->|Nr2].
          -- rewrite Dr. destruct (Nat.eq_dec s o1) as [->|Ns1].
             ++ rewrite E2_swap_ann, Main, Dr by auto. ring.
             ++ rewrite (Dn s o1) by auto. rewrite (E2_needs_ann bra ket v1 v2 o2 s o1) by (auto; lia). ring.
          -- rewrite (Dn r o2) by auto. destruct (Nat.eq_dec s o1) as [->|Ns1].
             ++ rewrite (E2_needs_ann bra ket v1 v2 r o1 o2) by (auto; lia). ring.
             ++ rewrite (E2_needs_ann bra ket v1 v2 r s o1) by auto. ring.
      + rewrite (Dn q v2) by auto. rewrite (E2_needs_cre bra ket v1 q r s v2) by (auto; lia). ring.
    - rewrite (Dn p v1) by auto. destruct (Nat.eq_dec p v2) as [->|Np2].
      + rewrite Dr. destruct (Nat.eq_dec q v1) as [->|Nq1].
        * rewrite Dr. rewrite E2_swap_cre by auto. destruct (Nat.eq_dec r o1) as [->|Nr1].
          -- rewrite Dr, (Dn o1 o2) by lia. destruct (Nat.eq_dec s o2) as [->|Ns2].
             ++ rewrite Main, Dr. ring.
             ++ rewrite (Dn s o2) by auto. rewrite (E2_needs_ann bra ket v1 v2 o1 s o2) by (auto; lia). ring.
          -- rewrite (Dn r o1) by auto. destruct (Nat.eq_dec r o2) as [->|Nr2].
             ++ rewrite Dr. destruct (Nat.eq_dec s o1) as [->|Ns1].
                ** rewrite E2_swap_ann, Main, Dr by auto. ring.
                ** rewrite (Dn s o1) by auto. rewrite (E2_needs_ann bra ket v1 v2 o2 s o1) by (auto; lia). ring.
             ++ rewrite (Dn r o2) by auto. destruct (Nat.eq_dec s o1) as [->|Ns1].
                ** rewrite (E2_needs_ann bra ket v1 v2 r o1 o2) by (auto; lia). ring.
                ** rewrite (E2_needs_ann bra ket v1 v2 r s o1) by auto. ring.
        * rewrite (Dn q v1) by auto. rewrite (E2_needs_cre bra ket v2 q r s v1) by (auto; lia). ring.
      + rewrite (Dn p v2) by auto. destruct (Nat.eq_dec q v1) as [->|Nq1].
        * rewrite (E2_needs_cre bra ket p v1 r s v2) by (auto; lia). ring.
        * rewrite (E2_needs_cre bra ket p q r s v1) by auto. ring.
  Qed.
End Elements.
Arguments delta {K}. Arguments occK {K}. Arguments E1 {K}. Arguments E2 {K}. Arguments same {K}.
Arguments coreK {K}.
