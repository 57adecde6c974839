(** Occupation strings: the model of CIModel.v against the operators of
    CISpec.v. *)
From Coq Require Import List Bool Arith ZArith Lia.
From Verif Require Import Scalar Tensor NpModel CIModel CISpec CIRep.
Import ListNotations.


(** *** put, occd, odd_below *)
Lemma put_length p b s : length (put p b s) = length s.
Proof. revert p. induction s as [|x s IH]; intros [|p]; cbn; auto. Qed.

Lemma occd_put p b s q :
  occd (put p b s) q = if Nat.eqb q p && Nat.ltb p (length s) then b else occd s q.
Proof.
  revert p q. induction s as [|x s IH]; intros p q.
  - cbn. destruct q; rewrite andb_false_r; reflexivity.
  - destruct p as [|p], q as [|q]; cbn; auto. apply IH.
Qed.

Lemma occd_lt s p : occd s p = true -> p < length s.
Proof.
  intros H. destruct (Nat.lt_ge_cases p (length s)) as [|L]; [assumption|].
  unfold occd in H. rewrite nth_overflow in H by assumption. discriminate.
Qed.

Lemma det_ext (s t : det) :
  length s = length t -> (forall p, p < length s -> occd s p = occd t p) -> s = t.
Proof.
  revert t. induction s as [|x s IH]; intros [|y t] L H; cbn in *; try discriminate; auto.
  f_equal; [apply (H 0); lia|]. apply IH; [lia|]. intros p Hp. apply (H (S p)). lia.
Qed.

Lemma det_ext' (s t : det) :
  length s = length t -> (forall p, occd s p = occd t p) -> s = t.
Proof. intros L H. apply det_ext; auto. Qed.

Lemma det_eqb_eq s t : det_eqb s t = true <-> s = t.
Proof.
  revert t. induction s as [|x s IH]; intros [|y t]; cbn; split; intros H; try discriminate; auto.
  - apply andb_true_iff in H as [A B]. apply eqb_prop in A. apply IH in B. subst. reflexivity.
  - injection H as -> ->. rewrite eqb_reflx. apply IH. reflexivity.
Qed.

Lemma det_eqb_refl s : det_eqb s s = true.
Proof. apply det_eqb_eq. reflexivity. Qed.

Lemma det_eqb_sym s t : det_eqb s t = det_eqb t s.
Proof.
  destruct (det_eqb s t) eqn:E, (det_eqb t s) eqn:F; auto.
  - apply det_eqb_eq in E. subst. rewrite det_eqb_refl in F. discriminate.
  - apply det_eqb_eq in F. subst. rewrite det_eqb_refl in E. discriminate.
Qed.

Lemma odd_below_put p b s q :
  odd_below q (put p b s)
  = if Nat.ltb p q && Nat.ltb p (length s)
    then xorb (odd_below q s) (xorb b (occd s p)) else odd_below q s.
Proof.
  revert p q. induction s as [|x s IH]; intros p q.
  - cbn. destruct q; rewrite andb_false_r; reflexivity.
  - destruct p as [|p], q as [|q]; try (cbn; reflexivity).
    + cbn. destruct b, x, (odd_below q s); reflexivity.
    + change (odd_below (S q) (put (S p) b (x :: s))) with (xorb x (odd_below q (put p b s))).
      rewrite IH. change (Nat.ltb (S p) (S q)) with (Nat.ltb p q).
      change (Nat.ltb (S p) (length (x :: s))) with (Nat.ltb p (length s)).
      change (odd_below (S q) (x :: s)) with (xorb x (odd_below q s)).
      change (occd (x :: s) (S p)) with (occd s p).
      destruct (Nat.ltb p q && Nat.ltb p (length s)); [|reflexivity].
      destruct x, (odd_below q s), b, (occd s p); reflexivity.
Qed.

Lemma odd_below_S p s : odd_below (S p) s = xorb (odd_below p s) (occd s p).
Proof.
  revert p. induction s as [|x s IH]; intros p; [destruct p; reflexivity|].
  destruct p as [|p].
  - cbn. destruct s; destruct x; reflexivity.
  - change (odd_below (S (S p)) (x :: s)) with (xorb x (odd_below (S p) s)).
    rewrite IH. cbn. destruct x, (odd_below p s); cbn; unfold occd; cbn;
      destruct (nth p s false); reflexivity.
Qed.

(** *** the model's arrays *)
Lemma upd_put p b s : upd p (b2z b) (map b2z s) = map b2z (put p b s).
Proof. revert p. induction s as [|x s IH]; intros [|p]; cbn; auto. rewrite IH. reflexivity. Qed.

Lemma getz_b2z s p : p < length s -> getz (map b2z s) p = Some (b2z (occd s p)).
Proof.
  intros L. unfold getz. rewrite nth_error_map.
  rewrite (nth_error_nth' s false L). reflexivity.
Qed.

Lemma getz_none s p : length s <= p -> getz (map b2z s) p = None.
Proof. intros L. apply nth_error_None. rewrite map_length. exact L. Qed.

Definition odd (l : list bool) : bool := odd_below (length l) l.

Lemma sumz_b2z_mod l : (sumz (map b2z l) mod 2 = b2z (odd l))%Z.
Proof.
  induction l as [|b l IH]; [reflexivity|].
  change (sumz (map b2z (b :: l))) with (b2z b + sumz (map b2z l))%Z.
  change (odd (b :: l)) with (xorb b (odd l)).
  rewrite Z.add_mod, IH by lia. destruct b, (odd l); reflexivity.
Qed.

Lemma parity_sign_b2z l : parity_sign (map b2z l) = zsgn (odd l).
Proof. unfold parity_sign. rewrite sumz_b2z_mod. destruct (odd l); reflexivity. Qed.

Lemma odd_slice s i j : i <= j -> j <= length s ->
  odd (firstn (j - i) (skipn i s)) = xorb (odd_below i s) (odd_below j s).
Proof.
  revert i j. induction s as [|x s IH]; intros i j L1 L2; cbn in L2.
  - replace j with 0 by lia. replace i with 0 by lia. reflexivity.
  - destruct i as [|i].
    + rewrite Nat.sub_0_r. destruct j as [|j]; [reflexivity|].
      change (odd (firstn (S j) (skipn 0 (x :: s)))) with (xorb x (odd (firstn j s))).
      change (firstn j s) with (firstn j (skipn 0 s)).
      replace (firstn j (skipn 0 s)) with (firstn (j - 0) (skipn 0 s)) by (f_equal; lia).
      rewrite IH by lia.
      change (odd_below 0 (x :: s)) with false.
      change (odd_below (S j) (x :: s)) with (xorb x (odd_below j s)).
      change (odd_below 0 s) with (odd_below 0 s).
      destruct s; cbn; destruct x, (odd_below j _); reflexivity.
    + destruct j as [|j]; [lia|]. cbn [skipn Nat.sub].
      rewrite IH by lia.
      change (odd_below (S i) (x :: s)) with (xorb x (odd_below i s)).
      change (odd_below (S j) (x :: s)) with (xorb x (odd_below j s)).
      destruct x, (odd_below i s), (odd_below j s); reflexivity.
Qed.

Lemma map_slice s i j : slicez (map b2z s) i j = map b2z (firstn (j - i) (skipn i s)).
Proof. unfold slicez. rewrite skipn_map, firstn_map. reflexivity. Qed.

(** *** excite *)
(** the phase of moving an electron from i to a *)
Definition between (s : det) (i a : nat) : bool :=
  xorb (odd_below (S (Nat.min i a)) s) (odd_below (Nat.max i a) s).
Definition exc (s : det) (i a : nat) : option (bool * det) :=
  if occd s i && negb (occd s a) then Some (between s i a, put a true (put i false s)) else None.

Lemma excite_exc s i a : i < length s -> a < length s ->
  excite (dstr s) i a
  = Some (match exc s i a with Some (g, t) => Some (zsgn g, dstr t) | None => None end).
Proof.
  intros Li La. unfold excite, exc. cbn [d_occ dstr d_n].
  rewrite (getz_b2z s i Li), (getz_b2z s a La). cbn [bindo].
  destruct (occd s i) eqn:Oi; cbn [b2z negb Z.eqb Pos.eqb andb]; [|reflexivity].
  destruct (occd s a) eqn:Oa; cbn [b2z negb Z.eqb Pos.eqb andb]; [reflexivity|].
  assert (N : i <> a) by (intros ->; congruence).
  apply Nat.eqb_neq in N as Ne. rewrite Ne.
  assert (P : forall u v, u < length s -> v < length s ->
    (let? occnew := setz (map b2z s) u 0 in let? occnew0 := setz occnew v 1 in
     Dstring (length s) occnew0) = Some (dstr (put v true (put u false s)))).
  { intros u v Lu Lv. unfold setz. rewrite map_length. apply Nat.ltb_lt in Lu as Lu'.
    rewrite Lu'. cbn [bindo]. pose proof (upd_put u false s) as P1. cbn [b2z] in P1. rewrite P1, map_length, put_length.
    apply Nat.ltb_lt in Lv as Lv'. rewrite Lv'. cbn [bindo].
    pose proof (upd_put v true (put u false s)) as P2. cbn [b2z] in P2. rewrite P2. unfold Dstring.
    rewrite map_length, !put_length, Nat.eqb_refl. unfold dstr.
    rewrite !put_length. reflexivity. }
  specialize (P i a Li La).
  destruct (setz (map b2z s) i 0) as [o1|]; [|discriminate]. cbn [bindo] in *.
  destruct (setz o1 a 1) as [o2|]; [|discriminate]. cbn [bindo] in *.
  rewrite P. cbn [bindo].
  unfold between. destruct (Nat.ltb i a) eqn:L.
  - apply Nat.ltb_lt in L. rewrite map_slice, parity_sign_b2z, odd_slice by lia.
    rewrite Nat.min_l, Nat.max_r by lia. rewrite Nat.add_1_r. reflexivity.
  - apply Nat.ltb_ge in L. assert (a < i) by lia.
    rewrite map_slice, parity_sign_b2z, odd_slice by lia.
    rewrite Nat.min_r, Nat.max_l by lia. rewrite Nat.add_1_r. reflexivity.
Qed.

Lemma excite_out s i a : length s <= i \/ (occd s i = true /\ length s <= a) ->
  excite (dstr s) i a = None.
Proof.
  intros [H|[O H]]; unfold excite; cbn [d_occ dstr].
  - rewrite (getz_none s i H). reflexivity.
  - rewrite (getz_b2z s i (occd_lt _ _ O)), O, (getz_none s a H). reflexivity.
Qed.

Lemma act_exc s i a : a < length s -> i <> a ->
  act [Cre a; Ann i] s = exc s i a.
Proof.
  intros La N. unfold exc. cbn [act act1].
  destruct (occd s i) eqn:Oi; [|reflexivity]. cbn [andb].
  rewrite put_length. assert (Li := occd_lt _ _ Oi).
  apply Nat.ltb_lt in La as La'. apply Nat.ltb_lt in Li as Li'. rewrite La'. cbn [andb].
  rewrite occd_put, Li'. assert (Ne : Nat.eqb a i = false) by (apply Nat.eqb_neq; lia).
  rewrite Ne. cbn [andb].
  destruct (occd s a) eqn:Oa; [reflexivity|]. cbn [negb]. f_equal. f_equal.
  unfold between. rewrite odd_below_put, Li', andb_true_r, Oi.
  destruct (Nat.ltb i a) eqn:L.
  - apply Nat.ltb_lt in L. rewrite Nat.min_l, Nat.max_r by lia.
    rewrite odd_below_S, Oi. destruct (odd_below i s), (odd_below a s); reflexivity.
  - apply Nat.ltb_ge in L. rewrite Nat.min_r, Nat.max_l by lia.
    rewrite odd_below_S, Oa. destruct (odd_below i s), (odd_below a s); reflexivity.
Qed.

(** *** consequences *)
Lemma exc_occ s i a g t : exc s i a = Some (g, t) ->
  occd s i = true /\ occd s a = false /\ i <> a /\
  (a < length s -> forall p, occd t p = if Nat.eqb p a then true else if Nat.eqb p i then false else occd s p).
Proof.
  unfold exc. destruct (occd s i) eqn:Oi; [|discriminate].
  destruct (occd s a) eqn:Oa; [discriminate|]. cbn [andb negb]. intros [= <- <-].
  repeat split; auto; [intros ->; congruence|].
  intros La p. rewrite occd_put, put_length. apply Nat.ltb_lt in La. rewrite La, andb_true_r.
  destruct (Nat.eqb p a); [reflexivity|]. rewrite occd_put.
  apply occd_lt in Oi. apply Nat.ltb_lt in Oi. rewrite Oi, andb_true_r. reflexivity.
Qed.

Lemma exc_length s i a g t : exc s i a = Some (g, t) -> length t = length s.
Proof.
  unfold exc. destruct (occd s i && negb (occd s a)); [|discriminate]. intros [= <- <-].
  rewrite !put_length. reflexivity.
Qed.

Lemma nel_put p b s : p < length s ->
  nel (put p b s) + (if occd s p then 1 else 0) = nel s + (if b then 1 else 0).
Proof.
  revert p. induction s as [|x s IH]; intros p L; cbn in L; [lia|].
  destruct p as [|p].
  - cbn. destruct x, b; lia.
  - cbn [put nel]. change (occd (x :: s) (S p)) with (occd s p).
    specialize (IH p ltac:(lia)). lia.
Qed.

Lemma exc_nel s i a g t : a < length s -> exc s i a = Some (g, t) -> nel t = nel s.
Proof.
  intros La E. destruct (exc_occ _ _ _ _ _ E) as (Oi & Oa & N & _).
  unfold exc in E. rewrite Oi, Oa in E. cbn in E. injection E as _ <-.
  assert (Li := occd_lt _ _ Oi).
  pose proof (nel_put i false s Li) as A. rewrite Oi in A.
  pose proof (nel_put a true (put i false s) ltac:(rewrite put_length; lia)) as B.
  rewrite occd_put, Oa in B.
  assert (Nat.eqb a i = false) as Ne by (apply Nat.eqb_neq; lia). rewrite Ne in B. cbn [andb] in B. lia.
Qed.

Lemma put_put p b c s : put p b (put p c s) = put p b s.
Proof. revert p. induction s as [|x s IH]; intros [|p]; cbn; auto. rewrite IH. reflexivity. Qed.

Lemma put_same p s : put p (occd s p) s = s.
Proof. revert p. induction s as [|x s IH]; intros [|p]; cbn; auto. f_equal. apply IH. Qed.

Lemma put_comm p q b c s : p <> q -> put p b (put q c s) = put q c (put p b s).
Proof.
  revert p q. induction s as [|x s IH]; intros [|p] [|q] N; cbn; auto; try congruence.
  f_equal. apply IH. congruence.
Qed.

Lemma exc_back s i a g t : i < length s -> a < length s -> exc s i a = Some (g, t) ->
  exc t a i = Some (g, s).
Proof.
  intros Li La E. destruct (exc_occ _ _ _ _ _ E) as (Oi & Oa & N & O).
  specialize (O La). unfold exc at 1.
  rewrite (O a), (O i), Nat.eqb_refl.
  assert (Nat.eqb i a = false) as Ne by (apply Nat.eqb_neq; lia). rewrite Ne, Nat.eqb_refl.
  cbn [andb negb]. unfold exc in E. rewrite Oi, Oa in E. cbn [andb negb] in E.
  injection E as <- <-. f_equal. f_equal.
  - unfold between. rewrite (Nat.min_comm a i), (Nat.max_comm a i).
    rewrite !odd_below_put, put_length. apply Nat.ltb_lt in Li as Li'. apply Nat.ltb_lt in La as La'.
    rewrite Li', La', !andb_true_r, !occd_put, Li', Oi, Oa.
    assert (Nat.eqb a i = false) as Ne' by (apply Nat.eqb_neq; lia). rewrite Ne'. cbn [andb].
    destruct (Nat.lt_total i a) as [L|[L|L]]; [|lia|].
    + rewrite Nat.min_l, Nat.max_r by lia.
      rewrite (proj2 (Nat.ltb_ge a (S i))), (proj2 (Nat.ltb_lt i (S i))), (Nat.ltb_irrefl a),
        (proj2 (Nat.ltb_lt i a)) by lia.
      destruct (odd_below (S i) s), (odd_below a s); reflexivity.
    + rewrite Nat.min_r, Nat.max_l by lia.
      rewrite (proj2 (Nat.ltb_lt a (S a))), (proj2 (Nat.ltb_ge i (S a))), (Nat.ltb_irrefl i),
        (proj2 (Nat.ltb_lt a i)) by lia.
      destruct (odd_below (S a) s), (odd_below i s); reflexivity.
  - rewrite put_put, (put_comm i a) by congruence. rewrite put_put.
    assert (P1 : put a false s = s) by (rewrite <- Oa; apply put_same).
    assert (P2 : put i true s = s) by (rewrite <- Oi; apply put_same).
    rewrite P2, P1. reflexivity.
Qed.

(** *** level *)
Lemma level_ndiff s t : level (dstr s) (dstr t) = Z.of_nat (ndiff s t).
Proof.
  unfold level. cbn [d_occ dstr]. revert t.
  induction s as [|x s IH]; intros [|y t]; try reflexivity.
  cbn [map combine ndiff]. 
  change (sumz (?a :: ?l)) with (a + sumz l)%Z. rewrite IH. cbn [fst snd].
  destruct x, y; cbn -[Z.of_nat Z.add]; lia.
Qed.

Lemma ndiff_sym s t : ndiff s t = ndiff t s.
Proof.
  revert t. induction s as [|x s IH]; intros [|y t]; cbn; auto.
  rewrite IH. destruct x, y; reflexivity.
Qed.

Lemma ndiff_zero s t : length s = length t -> (ndiff s t = 0 <-> s = t).
Proof.
  revert t. induction s as [|x s IH]; intros [|y t] L; cbn in *; try discriminate; [tauto|].
  injection L as L. specialize (IH t L).
  destruct (Bool.eqb x y) eqn:E.
  - apply eqb_prop in E. subst. split; intros H; [f_equal; apply IH; exact H|].
    injection H as H. apply IH in H. exact H.
  - split; intros H; [discriminate|]. injection H as H _. subst. rewrite eqb_reflx in E. discriminate.
Qed.

Lemma ndiff_triangle s t u : length s = length t -> length t = length u ->
  ndiff s u <= ndiff s t + ndiff t u.
Proof.
  revert t u. induction s as [|x s IH]; intros [|y t] [|z u] L1 L2; cbn in *; try discriminate; [lia|].
  specialize (IH t u ltac:(lia) ltac:(lia)). destruct x, y, z; cbn; lia.
Qed.

Lemma ndiff_even s t : length s = length t -> nel s = nel t -> Nat.Even (ndiff s t).
Proof.
  intros L.
  assert (G : Nat.even (ndiff s t + nel s + nel t) = true).
  { revert t L. induction s as [|x s IH]; intros [|y t] L; try discriminate; [reflexivity|].
    cbn in L. specialize (IH t ltac:(lia)).
    cbn [ndiff nel]. destruct x, y; cbn [Bool.eqb];
      [replace (0 + ndiff s t + (1 + nel s) + (1 + nel t)) with (S (S (ndiff s t + nel s + nel t))) by lia
      |replace (1 + ndiff s t + (1 + nel s) + (0 + nel t)) with (S (S (ndiff s t + nel s + nel t))) by lia
      |replace (1 + ndiff s t + (0 + nel s) + (1 + nel t)) with (S (S (ndiff s t + nel s + nel t))) by lia
      |]; exact IH. }
  intros E. apply Nat.even_spec. rewrite E in G.
  replace (ndiff s t + nel t + nel t) with (ndiff s t + 2 * nel t) in G by lia.
  rewrite Nat.even_add_mul_2 in G. exact G.
Qed.

Lemma ndiff_refl s : ndiff s s = 0.
Proof. apply ndiff_zero; reflexivity. Qed.

Lemma ndiff_put p b s : p < length s ->
  ndiff s (put p b s) = if Bool.eqb (occd s p) b then 0 else 1.
Proof.
  revert p. induction s as [|x s IH]; intros p L; cbn in L; [lia|].
  destruct p as [|p].
  - cbn. rewrite ndiff_refl. destruct (Bool.eqb x b); reflexivity.
  - cbn [put ndiff]. rewrite eqb_reflx. apply (IH p). lia.
Qed.

Lemma ndiff_put2 p q s : p < length s -> q < length s -> occd s p = true -> occd s q = false ->
  ndiff s (put q true (put p false s)) = 2.
Proof.
  revert p q. induction s as [|x s IH]; intros p q Lp Lq Op Oq; cbn in Lp, Lq; [lia|].
  destruct p as [|p], q as [|q].
  - congruence.
  - cbn in Op. subst x. cbn [put ndiff Bool.eqb].
    rewrite ndiff_put by lia. change (occd (true :: s) (S q)) with (occd s q) in Oq.
    rewrite Oq. reflexivity.
  - cbn in Oq. subst x. cbn [put ndiff Bool.eqb].
    rewrite ndiff_put by lia. change (occd (false :: s) (S p)) with (occd s p) in Op.
    rewrite Op. reflexivity.
  - cbn [put ndiff]. rewrite eqb_reflx. apply (IH p q); auto; lia.
Qed.

Lemma exc_ndiff s i a g t : a < length s -> exc s i a = Some (g, t) -> ndiff s t = 2.
Proof.
  intros La E. destruct (exc_occ _ _ _ _ _ E) as (Oi & Oa & _).
  unfold exc in E. rewrite Oi, Oa in E. injection E as _ <-.
  apply ndiff_put2; auto. apply occd_lt. exact Oi.
Qed.

(** *** equality of strings *)
Lemma array_equal_eq a b : array_equal a b = true <-> a = b.
Proof.
  revert b. induction a as [|x a IH]; intros [|y b]; cbn; split; intros H; try discriminate; auto.
  - apply andb_true_iff in H as [A B]. apply Z.eqb_eq in A. apply IH in B. subst. reflexivity.
  - injection H as -> ->. rewrite Z.eqb_refl. apply IH. reflexivity.
Qed.

Lemma dstring_eq_iff a b : dstring_eq a b = true <-> a = b.
Proof.
  unfold dstring_eq. rewrite andb_true_iff, array_equal_eq, Nat.eqb_eq.
  destruct a, b; cbn. split; [intros [-> ->]; reflexivity|intros [= -> ->]; auto].
Qed.

Lemma dstr_inj s t : dstr s = dstr t -> s = t.
Proof.
  intros [= _ H]. revert t H. induction s as [|x s IH]; intros [|y t] H; try discriminate; auto.
  cbn in H. injection H as A B. f_equal; [destruct x, y; auto; discriminate|]. apply IH. exact B.
Qed.

Lemma dstring_eq_dstr s t : dstring_eq (dstr s) (dstr t) = det_eqb s t.
Proof.
  destruct (det_eqb s t) eqn:E.
  - apply det_eqb_eq in E. subst. apply dstring_eq_iff. reflexivity.
  - destruct (dstring_eq (dstr s) (dstr t)) eqn:F; [|reflexivity].
    apply dstring_eq_iff in F. apply dstr_inj in F. subst. rewrite det_eqb_refl in E. discriminate.
Qed.

(** *** vibrational strings *)
Lemma upd_length {A} p (x : A) l : length (upd p x l) = length l.
Proof. revert p. induction l as [|y l IH]; intros [|p]; cbn; auto. Qed.

Lemma nth_upd {A} p (x : A) l q d : p < length l ->
  nth q (upd p x l) d = if Nat.eqb q p then x else nth q l d.
Proof.
  revert p q. induction l as [|y l IH]; intros p q L; cbn in L; [lia|].
  destruct p as [|p], q as [|q]; cbn; auto. apply IH. lia.
Qed.

Lemma upd_upd {A} p (x y : A) l : upd p x (upd p y l) = upd p x l.
Proof. revert p. induction l as [|z l IH]; intros [|p]; cbn; auto. rewrite IH. reflexivity. Qed.

Lemma upd_same {A} p l (d : A) : upd p (nth p l d) l = l.
Proof. revert p. induction l as [|z l IH]; intros [|p]; cbn; auto. f_equal. apply IH. Qed.

Lemma sumz_upd p x l : p < length l -> (sumz (upd p x l) = sumz l + x - nth p l 0)%Z.
Proof.
  revert p. induction l as [|y l IH]; intros p L; cbn in L; [lia|].
  destruct p as [|p]; cbn [upd nth]; change (sumz (?a :: ?l)) with (a + sumz l)%Z; [lia|].
  change (sumz (?a :: ?l)) with (a + sumz l)%Z. rewrite IH by lia. lia.
Qed.

Definition pstr (l : list Z) : pstring := mkP (length l) l.

Lemma raize_pstr l p : p < length l -> raize (pstr l) p = Some (pstr (upd p (nth p l 0 + 1)%Z l)).
Proof.
  intros L. unfold raize, getz, setz, Pstring, pstr. cbn [p_occ p_n].
  rewrite (nth_error_nth' l 0%Z L). cbn [bindo]. apply Nat.ltb_lt in L as L'. rewrite L'.
  cbn [bindo]. rewrite upd_length, Nat.eqb_refl. reflexivity.
Qed.

Lemma lower_pstr l p : p < length l ->
  lower (pstr l) p
  = Some (if Z.eqb (nth p l 0%Z) 0 then None else Some (pstr (upd p (nth p l 0 - 1)%Z l))).
Proof.
  intros L. unfold lower, getz, setz, Pstring, pstr. cbn [p_occ p_n].
  rewrite (nth_error_nth' l 0%Z L). cbn [bindo].
  destruct (Z.eqb (nth p l 0%Z) 0); [reflexivity|]. apply Nat.ltb_lt in L as L'. rewrite L'.
  cbn [bindo]. rewrite upd_length, Nat.eqb_refl. reflexivity.
Qed.
