(** Order 4 of makeCfromT and gmakeCfromT with four or more electrons of one
    kind, where the bases list quadruple excitations (C36, C28): with four the
    first copy of each string gets its coefficient, with more the call raises. *)
From Coq Require Import List Bool Arith ZArith Lia Permutation Sorted.
From Verif Require Import Scalar Tensor NpModel CIModel CISpec CIQuadSpec CIRep CIFacts CIStrings CIBases CILemmas CIFock CIMatrix
  CIVec CIExpSpec CIExp CICfromT CIAdds CIExpU CIExpG CIQuads.
Import ListNotations.
Local Open Scope list_scope.

(** *** With four electrons every quadruple excitation is in the list *)
Lemma quad_all s t p : nel s = 4 -> excited 4 s t -> occd s p = true -> occd t p = false.
Proof.
  intros N X Op. apply moves_In in X. unfold moves in X. apply in_map_iff in X as ((I & A) & <- & H).
  apply in_prod_iff in H as [HI HA].
  apply combs_In in HI as (SI & LI & CI); [|apply sorted_occs].
  apply combs_In in HA as (SA & LA & CA); [|apply sorted_virs].
  assert (Lp : p < length s) by (apply occd_lt; auto).
  rewrite move_occd by auto. cbn [fst snd].
  destruct (mem p A) eqn:MA.
  { apply mem_In, CA, in_virs in MA as [_ V]. congruence. }
  assert (IP : In p I).
  { apply (@NoDup_length_incl _ I (occs s) (sorted_NoDup I SI)); [rewrite occs_length; lia|exact CI|].
    apply in_occs. exact Op. }
  apply mem_In in IP. rewrite IP. reflexivity.
Qed.

Lemma in_copies {X} (l : list X) c x : In x (concat (repeat l c)) <-> In x l /\ 0 < c.
Proof.
  induction c as [|c IH]; cbn [repeat concat]; [split; [intros []|lia]|].
  rewrite in_app_iff, IH. split; [intros [H|[H _]]; split; auto; lia|tauto].
Qed.

Lemma q_members s l : q_list_of s l -> nel s <= 4 \/ length s - nel s < 4 ->
  (4 <= nel s -> occd s 0 = true /\ occd s 1 = true) -> forall t, In t l <-> excited 4 s t.
Proof.
  intros (l1 & ND & I1 & P) F O t. rewrite (Permutation_in' eq_refl P), in_copies, I1. split; [tauto|].
  intros X. pose proof (excited_bound _ _ _ X) as [B1 B2]. assert (N : nel s = 4) by lia.
  destruct (O ltac:(lia)) as [O0 O1].
  split; [split; [exact X|split; eapply quad_all; eauto]|]. rewrite N in B2 |- *. lia.
Qed.

Lemma q_only s l t : q_list_of s l -> In t l -> excited 4 s t /\ occd t 0 = false.
Proof. intros (l1 & ND & I1 & P). rewrite (Permutation_in' eq_refl P), in_copies, I1. tauto. Qed.

Lemma excited_unique j k s t : excited j s t -> excited k s t -> j = k.
Proof. intros (_ & _ & H) (_ & _ & H'). lia. Qed.

(** *** Four excitations one after the other *)
Lemma chain4 s i j k l a b c d :
  occd s i = true -> occd s j = true -> occd s k = true -> occd s l = true -> i < j -> j < k -> k < l ->
  a < length s -> b < length s -> c < length s -> d < length s ->
  occd s a = false -> occd s b = false -> occd s c = false -> occd s d = false -> a < b -> b < c -> c < d ->
  exists g1 t1 g2 t2 g3 t3 g4 t4, exc s i a = Some (g1, t1) /\ exc t1 j b = Some (g2, t2) /\
    exc t2 k c = Some (g3, t3) /\ exc t3 l d = Some (g4, t4) /\ excited 4 s t4 /\
    forall p, occd s p = true -> p <> i -> p <> j -> p <> k -> p <> l -> occd t4 p = true.
Proof.
  intros Oi Oj Ok Ol Lij Ljk Lkl La Lb Lc Ld Va Vb Vc Vd Lab Lbc Lcd.
  pose proof (occd_lt _ _ Oi). pose proof (occd_lt _ _ Oj). pose proof (occd_lt _ _ Ok). pose proof (occd_lt _ _ Ol).
  assert (P : forall u p q x, q < length u -> p < length u -> occd (put q true (put p false u)) x
    = if Nat.eqb x q then true else if Nat.eqb x p then false else occd u x).
  { intros u p q x Lq Lp. rewrite !occd_put, put_length. apply Nat.ltb_lt in Lq, Lp. rewrite Lq, Lp, !andb_true_r. reflexivity. }
  set (s1 := put a true (put i false s)). set (s2 := put b true (put j false s1)).
  set (s3 := put c true (put k false s2)). set (s4 := put d true (put l false s3)).
  assert (L1 : length s1 = length s) by (unfold s1; rewrite !put_length; auto).
  assert (L2 : length s2 = length s) by (unfold s2; rewrite !put_length; auto).
  assert (L3 : length s3 = length s) by (unfold s3; rewrite !put_length; auto).
  assert (P1 : forall x, occd s1 x = if Nat.eqb x a then true else if Nat.eqb x i then false else occd s x)
    by (intros x; apply P; lia).
  assert (P2 : forall x, occd s2 x = if Nat.eqb x b then true else if Nat.eqb x j then false else occd s1 x)
    by (intros x; apply P; lia).
  assert (P3 : forall x, occd s3 x = if Nat.eqb x c then true else if Nat.eqb x k then false else occd s2 x)
    by (intros x; apply P; lia).
  assert (P4 : forall x, occd s4 x = if Nat.eqb x d then true else if Nat.eqb x l then false else occd s3 x)
    by (intros x; apply P; lia).
  Local Ltac eqbs := repeat match goal with |- context [Nat.eqb ?x ?y] => destruct (Nat.eqb_spec x y) as [Q|_];
    [first [reflexivity|exfalso; first [congruence|clear - Q; lia|lia]]|] end; auto.
  assert (E1 : exc s i a = Some (between s i a, s1)) by (unfold exc; rewrite Oi, Va; reflexivity).
  assert (E2 : exc s1 j b = Some (between s1 j b, s2)).
  { unfold exc. replace (occd s1 j) with true by (symmetry; rewrite P1; eqbs).
    replace (occd s1 b) with false by (symmetry; rewrite P1; eqbs). reflexivity. }
  assert (E3 : exc s2 k c = Some (between s2 k c, s3)).
  { unfold exc. replace (occd s2 k) with true by (symmetry; rewrite P2, P1; eqbs).
    replace (occd s2 c) with false by (symmetry; rewrite P2, P1; eqbs). reflexivity. }
  assert (E4 : exc s3 l d = Some (between s3 l d, s4)).
  { unfold exc. replace (occd s3 l) with true by (symmetry; rewrite P3, P2, P1; eqbs).
    replace (occd s3 d) with false by (symmetry; rewrite P3, P2, P1; eqbs). reflexivity. }
  do 8 eexists. split; [exact E1|]. split; [exact E2|]. split; [exact E3|]. split; [exact E4|]. split.
  - assert (X1 : excited 1 s s1) by (apply (exc_level s s i a _ s1 0) in E1; auto; apply excited0; reflexivity).
    assert (X2 : excited 2 s s2) by (apply (exc_level s s1 j b _ s2 1) in E2; auto).
    assert (X3 : excited 3 s s3) by (apply (exc_level s s2 k c _ s3 2) in E3; auto).
    apply (exc_level s s3 l d _ s4 3) in E4; auto.
  - intros p Op N1 N2 N3 N4. rewrite P4, P3, P2, P1. eqbs.
Qed.

(** *** Loops that fail *)
Lemma each_none {S A} (l : list A) (body : A -> S -> option S) x : In x l -> (forall C, body x C = None) ->
  forall C, each l body C = None.
Proof.
  induction l as [|y l IH]; intros I H C; [destruct I|]. cbn [each].
  destruct I as [->|I]; [rewrite H; reflexivity|]. destruct (body y C) as [C'|]; [|reflexivity]. cbn [bindo]. apply IH; auto.
Qed.
Lemma bind_none {S T} (x : option S) (f : S -> option T) : (forall C, f C = None) -> (let? C := x in f C) = None.
Proof. intros H. destruct x; [apply H|reflexivity]. Qed.

Section Raise.
  Variable K : cring.
  Variable inv : nat -> K.
  Variables (noa nva nob nvb n : nat).
  Hypothesis Na : n = noa + nva.
  Hypothesis Nb : n = nob + nvb.
  Notation A := (aufbau n noa). Notation B := (aufbau n nob).
  Variable L : list udet.

  Lemma quad_exists k v : 5 <= k -> 4 <= v -> n = k + v ->
    exists g1 t1 g2 t2 g3 t3 g4 t4, exc (aufbau n k) 1 (0 + k) = Some (g1, t1) /\ exc t1 2 (1 + k) = Some (g2, t2) /\
    exc t2 3 (2 + k) = Some (g3, t3) /\ exc t3 4 (3 + k) = Some (g4, t4) /\ excited 4 (aufbau n k) t4 /\ occd t4 0 = true.
  Proof.
    intros Hk Hv E.
    assert (O : forall p, p < k -> occd (aufbau n k) p = true)
      by (intros p H; rewrite aufbau_occd by lia; apply Nat.ltb_lt; lia).
    assert (V : forall p, k <= p -> occd (aufbau n k) p = false)
      by (intros p H; rewrite aufbau_occd by lia; apply Nat.ltb_ge; lia).
    destruct (chain4 (aufbau n k) 1 2 3 4 (0 + k) (1 + k) (2 + k) (3 + k))
      as (g1 & t1 & g2 & t2 & g3 & t3 & g4 & t4 & E1 & E2 & E3 & E4 & X & Y);
      rewrite ?aufbau_length; try (apply O; lia); try (apply V; lia); try lia.
    exists g1, t1, g2, t2, g3, t3, g4, t4. repeat (split; [assumption|]). apply Y; [apply O; lia|lia..].
  Qed.

  Ltac loop y := apply (each_none _ _ y); [unfold range; apply in_seq; lia|]; cbv beta.
  Ltac step := rewrite excite_exc by (rewrite ?aufbau_length; lia); cbn [bindo].

  Lemma u_T2aa_T2aa_none T2aa : 5 <= noa -> 4 <= nva ->
    (forall t, excited 4 A t -> occd t 0 = true -> ~ In (t, B) L) ->
    forall C, u_T2aa_T2aa K inv noa nva (map dpair L) (dstr A) (dstr B) T2aa C = None.
  Proof.
    intros Ho Hv Out. destruct (quad_exists noa nva Ho Hv Na) as (g1 & t1 & g2 & t2 & g3 & t3 & g4 & t4 & E1 & E2 & E3 & E4 & X & Y).
    pose proof (exc_length _ _ _ _ _ E1). pose proof (exc_length _ _ _ _ _ E2). pose proof (exc_length _ _ _ _ _ E3).
    pose proof (aufbau_length n noa).
    unfold u_T2aa_T2aa. loop 1. loop 2. loop 3. loop 4. loop 0. loop 1. loop 2. loop 3. intros C.
    step. rewrite E1. step. rewrite E2. step. rewrite E3. step. rewrite E4.
    change (dstr t4, dstr B) with (dpair (t4, B)).
    rewrite (index_none dpair upair_eq upair_eq_iff dpair_inj) by auto. reflexivity.
  Qed.
  Lemma u_T2bb_T2bb_none T2bb : 5 <= nob -> 4 <= nvb ->
    (forall t, excited 4 B t -> occd t 0 = true -> ~ In (A, t) L) ->
    forall C, u_T2bb_T2bb K inv nob nvb (map dpair L) (dstr A) (dstr B) T2bb C = None.
  Proof.
    intros Ho Hv Out. destruct (quad_exists nob nvb Ho Hv Nb) as (g1 & t1 & g2 & t2 & g3 & t3 & g4 & t4 & E1 & E2 & E3 & E4 & X & Y).
    pose proof (exc_length _ _ _ _ _ E1). pose proof (exc_length _ _ _ _ _ E2). pose proof (exc_length _ _ _ _ _ E3).
    pose proof (aufbau_length n nob).
    unfold u_T2bb_T2bb. loop 1. loop 2. loop 3. loop 4. loop 0. loop 1. loop 2. loop 3. intros C.
    step. rewrite E1. step. rewrite E2. step. rewrite E3. step. rewrite E4.
    change (dstr A, dstr t4) with (dpair (A, t4)).
    rewrite (index_none dpair upair_eq upair_eq_iff dpair_inj) by auto. reflexivity.
  Qed.
End Raise.

(** the references *)
Lemma aufbau_01 n k : k <= n -> 4 <= nel (aufbau n k) -> occd (aufbau n k) 0 = true /\ occd (aufbau n k) 1 = true.
Proof. intros L. rewrite nel_aufbau by auto. intros H. rewrite !aufbau_occd by auto. split; apply Nat.ltb_lt; lia. Qed.

Lemma gref_nel m N : N <= 2 * m -> nel (gref m N) = N.
Proof.
  intros L. pose proof (Nat.div_mod N 2 ltac:(discriminate)). pose proof (Nat.mod_upper_bound N 2 ltac:(discriminate)).
  apply (proj2 (gref_spec m N)). lia.
Qed.
Lemma gref_0 m N p : N <= 2 * m -> p < N - N / 2 -> occd (gref m N) p = true.
Proof.
  intros L H'. pose proof (Nat.div_mod N 2 ltac:(discriminate)). pose proof (Nat.mod_upper_bound N 2 ltac:(discriminate)).
  unfold gref, occd. rewrite app_nth1 by (rewrite aufbau_length; lia).
  fold (occd (aufbau m (N - N / 2)) p). rewrite aufbau_occd by lia. apply Nat.ltb_lt. lia.
Qed.
Lemma gref_01 m N : N <= 2 * m -> 4 <= nel (gref m N) -> occd (gref m N) 0 = true /\ occd (gref m N) 1 = true.
Proof.
  intros L. rewrite gref_nel by auto. intros H.
  pose proof (Nat.div_mod N 2 ltac:(discriminate)). pose proof (Nat.mod_upper_bound N 2 ltac:(discriminate)).
  split; apply gref_0; lia.
Qed.

(** the determinants of ucisdtq_basis *)
Lemma ucisdtq_members n na nb : na <= n -> nb <= n -> na <= 4 \/ n - na < 4 -> nb <= 4 \/ n - nb < 4 ->
  exists L, ucisdtq_basis n na nb = Some (map dpair L) /\ hd_error L = Some (aufbau n na, aufbau n nb) /\
  forall x, In x L <-> u_space 4 (aufbau n na) (aufbau n nb) x.
Proof.
  intros La Lb Fa Fb. destruct (ucisdtq_exact n na nb La Lb) as (L & L0 & la & lb & E & P & _ & Hd & I0 & Qa & Qb).
  exists L. split; [exact E|]. split; [exact Hd|]. intros x.
  assert (Ia : forall t, In t la <-> excited 4 (aufbau n na) t)
    by (apply (q_members _ la Qa); rewrite ?nel_aufbau, ?aufbau_length by auto; auto using aufbau_01;
        intros; apply aufbau_01; rewrite ?nel_aufbau; auto).
  assert (Ib : forall t, In t lb <-> excited 4 (aufbau n nb) t)
    by (apply (q_members _ lb Qb); rewrite ?nel_aufbau, ?aufbau_length by auto; auto using aufbau_01;
        intros; apply aufbau_01; rewrite ?nel_aufbau; auto).
  rewrite (Permutation_in' eq_refl P), !in_app_iff, I0, !in_map_iff. unfold u_space. split.
  - intros [(ka & kb & X & Y & Z & _)|[(t & <- & I)|(t & <- & I)]].
    + exists ka, kb. auto.
    + apply Ia in I. exists 4, 0. split; [exact I|]. split; [apply excited0; reflexivity|lia].
    + apply Ib in I. exists 0, 4. split; [apply excited0; reflexivity|]. split; [exact I|lia].
  - intros (ka & kb & X & Y & Z).
    destruct (Nat.eq_dec ka 4) as [->|Ka]; [|destruct (Nat.eq_dec kb 4) as [->|Kb]].
    + right. left. exists (fst x). rewrite Ia. split; [|exact X]. assert (kb = 0) by lia. subst kb.
      apply excited0 in Y. destruct x; cbn in *. congruence.
    + right. right. exists (snd x). rewrite Ib. split; [|exact Y]. assert (ka = 0) by lia. subst ka.
      apply excited0 in X. destruct x; cbn in *. congruence.
    + left. exists ka, kb. split; [exact X|]. split; [exact Y|]. lia.
Qed.

Lemma gcisdtq_members m N : N <= 2 * m -> N <= 4 \/ 2 * m - N < 4 ->
  exists L, gcisdtq_basis (2 * m) N = Some (map dstr L) /\ hd_error L = Some (gref m N) /\
  forall t, In t L <-> exists k, excited k (gref m N) t /\ k <= 4.
Proof.
  intros Le F. destruct (gcisdtq_exact m N Le) as (L & l & E & _ & Hd & I0 & Q).
  exists (L ++ l). split; [exact E|]. split; [destruct L; [discriminate|exact Hd]|]. intros t.
  assert (Il : forall t, In t l <-> excited 4 (gref m N) t)
    by (apply (q_members _ l Q); rewrite ?gref_nel, ?gref_length by auto; auto;
        intros; apply gref_01; rewrite ?gref_nel; auto).
  rewrite in_app_iff, I0, Il. split.
  - intros [(k & X & Lk)|X]; [exists k|exists 4]; split; auto.
  - intros (k & X & Lk). destruct (Nat.eq_dec k 4) as [->|N4]; [auto|]. left. exists k. split; [auto|lia].
Qed.

Section FinalQ.
  Variable K : cring.
  Local Open Scope K_scope.
  Variable inv : nat -> K.
  Hypothesis Inv : forall d, 0 < d -> nK K d * inv d = 1.
  Variables (n noa nva nob nvb : nat).
  Hypothesis Na : (noa + nva = n)%nat.
  Hypothesis Nb : (nob + nvb = n)%nat.
  Variables T1a T1b T2aa T2ab T2bb : tensor K.
  Notation A := (aufbau n noa). Notation B := (aufbau n nob).
  Notation t1a := (fun a i => dat T1a [a; i]).
  Notation t1b := (fun a i => dat T1b [a; i]).
  Notation t2aa := (fun a b i j => dat T2aa [a; b; i; j]).
  Notation t2ab := (fun a b i j => dat T2ab [a; b; i; j]).
  Notation t2bb := (fun a b i j => dat T2bb [a; b; i; j]).
  Notation T := (T_spins n noa nva nob nvb t1a t1b t2aa t2ab t2bb).

  Lemma C4_first : shp T1a = [nva; noa] -> shp T1b = [nvb; nob] -> shp T2aa = [nva; nva; noa; noa] ->
    shp T2ab = [nva; nvb; noa; nob] -> shp T2bb = [nvb; nvb; nob; nob] ->
    (noa <= 4 \/ nva < 4)%nat -> (nob <= 4 \/ nvb < 4)%nat ->
    exists L C, ucisdtq_basis n noa nob = Some (map dpair L) /\
    makeCfromT K inv noa nva nob nvb T1a T1b T2aa T2ab T2bb 4 = Some C /\ length C = length L /\
    forall M, 4 <= M -> forall j (J : udet), nth_error L j = Some J ->
      (~ In J (firstn j L) -> nth j C 0 = exp_amp inv M (fst J ++ snd J) T (A ++ B)
          - inv 2 * amp (fst J ++ snd J) (opmul (T_beta1 n nob nvb t1b)
              (opmul (T_beta1 n nob nvb t1b) (T_alpha2 noa nva t2aa))) (A ++ B)) /\
      (In J (firstn j L) -> nth j C 0 = 0).
  Proof.
    intros S1a S1b S2aa S2ab S2bb Fa Fb.
    destruct (ucisdtq_members n noa nob) as (L & E & Hd & InL); try lia. exists L.
    destruct (make4_first K noa nva nob nvb n 4 (eq_sym Na) (eq_sym Nb) L InL T1a T1b T2aa T2ab T2bb S1a S1b S2aa S2ab S2bb inv
      (Inv1' K inv Inv n noa nva nob nvb Na Nb) Inv Hd eq_refl E) as (C & EC & LC & N).
    exists C. split; [exact E|]. split; [exact EC|]. split; [exact LC|]. intros M HM j J HJ.
    rewrite <- coef_exp by auto. rewrite <- (missing K noa nva nob nvb n 4) with (L := L) (T1a := T1a) (T2ab := T2ab) (T2bb := T2bb) by auto.
    apply N; auto.
  Qed.

  Lemma C4_raises : (5 <= noa /\ 4 <= nva \/ 5 <= nob /\ 4 <= nvb)%nat ->
    makeCfromT K inv noa nva nob nvb T1a T1b T2aa T2ab T2bb 4 = None.
  Proof.
    intros H. destruct (ucisdtq_exact n noa nob) as (L & L0 & la & lb & E & P & _ & Hd & I0 & Qa & Qb); try lia.
    assert (OutA : forall t, excited 4 A t -> occd t 0%nat = true -> ~ In (t, B) L).
    { intros t X Y I. rewrite (Permutation_in' eq_refl P), !in_app_iff, I0, !in_map_iff in I.
      destruct I as [(ka & kb & X' & _ & _ & Z & _)|[(u & [= <-] & I)|(u & [= <- ->] & I)]].
      - cbn [fst] in X'. pose proof (excited_unique _ _ _ _ X X'). lia.
      - apply (q_only _ _ _ Qa) in I. destruct I. congruence.
      - assert (X' : excited 0 A A) by (apply excited0; reflexivity). pose proof (excited_unique _ _ _ _ X X'). lia. }
    assert (OutB : forall t, excited 4 B t -> occd t 0%nat = true -> ~ In (A, t) L).
    { intros t X Y I. rewrite (Permutation_in' eq_refl P), !in_app_iff, I0, !in_map_iff in I.
      destruct I as [(ka & kb & _ & X' & _ & _ & Z)|[(u & [= -> <-] & I)|(u & [= <-] & I)]].
      - cbn [snd] in X'. pose proof (excited_unique _ _ _ _ X X'). lia.
      - assert (X' : excited 0 B B) by (apply excited0; reflexivity). pose proof (excited_unique _ _ _ _ X X'). lia.
      - apply (q_only _ _ _ Qb) in I. destruct I. congruence. }
    unfold makeCfromT. cbv zeta. rewrite Na, Nb, Nat.eqb_refl. cbn [negb].
    change (Z.ltb 4 1) with false. change (Z.eqb 4 1) with false. change (Z.eqb 4 2) with false. change (Z.eqb 4 3) with false.
    change (Z.eqb 4 4) with true. change (Z.leb 2 4) with true. change (Z.leb 3 4) with true. change (Z.leb 4 4) with true.
    cbv iota. rewrite E, !Dstring_default. cbn [bindo].
    do 5 (apply bind_none; intros ?).
    match goal with |- bindo ?x _ = None => assert (X : x = None); [|rewrite X; reflexivity] end.
    destruct H as [[Ho Hv]|[Ho Hv]].
    - rewrite (u_T2aa_T2aa_none K inv noa nva nob nvb n) by (auto; lia). reflexivity.
    - do 5 (apply bind_none; intros ?). rewrite (u_T2bb_T2bb_none K inv noa nva nob nvb n) by (auto; lia). reflexivity.
  Qed.
End FinalQ.

Section FinalGQ.
  Variable K : cring.
  Local Open Scope K_scope.
  Variable inv : nat -> K.
  Hypothesis Inv : forall d, 0 < d -> nK K d * inv d = 1.
  Variables (h no nv : nat).
  Hypothesis Half : (no + nv = 2 * h)%nat.
  Variables T1 T2 : tensor K.
  Notation t1 := (fun a i => dat T1 [a; i]).
  Notation t2 := (fun a b i j => dat T2 [a; b; i; j]).
  Notation ref := (gref h no).
  Notation T := (T_spin_orbitals (occs ref) (virs ref) t1 t2).

  Lemma G4_first : shp T1 = [nv; no] -> shp T2 = [nv; nv; no; no] -> (no <= 4 \/ nv < 4)%nat ->
    exists L C, gcisdtq_basis (no + nv) no = Some (map dstr L) /\
    gmakeCfromT K inv no nv T1 T2 4 (Some (map b2z ref)) = Some C /\ length C = length L /\
    forall M, 4 <= M -> forall j J, nth_error L j = Some J ->
      (~ In J (firstn j L) -> nth j C 0 = exp_amp inv M J T ref) /\ (In J (firstn j L) -> nth j C 0 = 0).
  Proof.
    intros S1 S2 F. destruct (gcisdtq_members h no) as (L & E & Hd & InL); try lia. rewrite <- Half in E.
    destruct (ref_no h no nv Half) as (R1 & R2 & R3).
    destruct (gmake4_first K ref no nv 4 R1 R2 L InL T1 T2 S1 S2 inv Inv Hd R3 eq_refl E) as (C & EC & LC & N).
    exists L, C. split; [exact E|]. split; [exact EC|]. split; [exact LC|]. intros M HM j J HJ.
    rewrite <- (gcoef_exp K inv h no nv Half). apply N; auto.
  Qed.

  Lemma enumerate_at (l : list nat) i : i < length l -> In (i, nth i l 0%nat) (enumerate l).
  Proof. intros H. rewrite enumerate_nth, in_map_iff. exists i. split; [reflexivity|]. apply in_seq. lia. Qed.
  Lemma sorted_lt (l : list nat) i j : sorted l -> i < j -> j < length l -> nth i l 0%nat < nth j l 0%nat.
  Proof.
    revert i j. induction l as [|x l IH]; intros i j S H Hj; [cbn in Hj; lia|].
    apply StronglySorted_inv in S as [S F]. rewrite Forall_forall in F. destruct j as [|j]; [lia|]. cbn [nth].
    destruct i as [|i]; [apply F, nth_In; cbn in Hj; lia|]. apply IH; auto; cbn in Hj; lia.
  Qed.

  Lemma G4_raises : (5 <= no /\ 4 <= nv)%nat -> gmakeCfromT K inv no nv T1 T2 4 (Some (map b2z ref)) = None.
  Proof.
    intros [Ho Hv]. destruct (gcisdtq_exact h no) as (L & l & E & _ & Hd & I0 & Q); [lia|]. rewrite <- Half in E.
    destruct (ref_no h no nv Half) as (R1 & R2 & R3).
    assert (Out : forall t, excited 4 ref t -> occd t 0%nat = true -> ~ In t (L ++ l)).
    { intros t X Y I. rewrite in_app_iff, I0 in I. destruct I as [(k & X' & Z)|I].
      - pose proof (excited_unique _ _ _ _ X X'). lia.
      - apply (q_only _ _ _ Q) in I. destruct I. congruence. }
    assert (SO : sorted (occs ref)) by apply sorted_occs. assert (SV : sorted (virs ref)) by apply sorted_virs.
    assert (IO : forall p, p < no -> In (nth p (occs ref) 0%nat) (occs ref)) by (intros; apply nth_In; lia).
    assert (IV : forall p, p < nv -> In (nth p (virs ref) 0%nat) (virs ref)) by (intros; apply nth_In; lia).
    pose (o := fun p => nth p (occs ref) 0%nat). pose (v := fun p => nth p (virs ref) 0%nat).
    assert (Lo : forall p q, p < q -> q < no -> o p < o q) by (intros; unfold o; apply sorted_lt; auto; lia).
    assert (Lv : forall p q, p < q -> q < nv -> v p < v q) by (intros; unfold v; apply sorted_lt; auto; lia).
    assert (Oo : forall p, p < no -> occd ref (o p) = true) by (intros; apply in_occs, IO; auto).
    assert (Ov : forall p, p < nv -> v p < length ref /\ occd ref (v p) = false) by (intros; apply in_virs, IV; auto).
    assert (o 0 < o 1)%nat by (apply Lo; lia). assert (o 1 < o 2)%nat by (apply Lo; lia).
    assert (o 2 < o 3)%nat by (apply Lo; lia). assert (o 3 < o 4)%nat by (apply Lo; lia).
    assert (v 0 < v 1)%nat by (apply Lv; lia). assert (v 1 < v 2)%nat by (apply Lv; lia).
    assert (v 2 < v 3)%nat by (apply Lv; lia).
    assert (O0 : occd ref 0%nat = true).
    { pose proof (Nat.div_mod no 2 ltac:(discriminate)). pose proof (Nat.mod_upper_bound no 2 ltac:(discriminate)).
      apply gref_0; lia. }
    destruct (Ov 0%nat ltac:(lia)) as [B0 V0]. destruct (Ov 1%nat ltac:(lia)) as [B1 V1].
    destruct (Ov 2%nat ltac:(lia)) as [B2 V2]. destruct (Ov 3%nat ltac:(lia)) as [B3 V3].
    pose proof (Oo 1%nat ltac:(lia)) as O1. pose proof (Oo 2%nat ltac:(lia)) as O2.
    pose proof (Oo 3%nat ltac:(lia)) as O3. pose proof (Oo 4%nat ltac:(lia)) as O4.
    destruct (chain4 ref (o 1%nat) (o 2%nat) (o 3%nat) (o 4%nat) (v 0%nat) (v 1%nat) (v 2%nat) (v 3%nat))
      as (g1 & u1 & g2 & u2 & g3 & u3 & g4 & u4 & E1 & E2 & E3 & E4 & X & Y); auto.
    assert (Y0 : occd u4 0%nat = true) by (apply Y; [exact O0|lia..]). clear Y.
    pose proof (occd_lt _ _ O1). pose proof (occd_lt _ _ O2). pose proof (occd_lt _ _ O3). pose proof (occd_lt _ _ O4).
    pose proof (exc_length _ _ _ _ _ E1). pose proof (exc_length _ _ _ _ _ E2). pose proof (exc_length _ _ _ _ _ E3).
    unfold gmakeCfromT. cbv zeta.
    change (Z.ltb 4 1) with false. change (Z.eqb 4 1) with false. change (Z.eqb 4 2) with false. change (Z.eqb 4 3) with false.
    change (Z.eqb 4 4) with true. change (Z.leb 2 4) with true. change (Z.leb 3 4) with true. change (Z.leb 4 4) with true.
    cbv iota. rewrite E, indices_pos_occs, indices_pos_virs, (Dstring_dstr ref _ R3). cbn [bindo].
    do 4 (apply bind_none; intros ?).
    match goal with |- bindo ?x _ = None => assert (Z0 : x = None); [|rewrite Z0; reflexivity] end.
    match goal with |- bindo ?x _ = None => assert (Z0 : x = None); [|rewrite Z0; reflexivity] end.
    unfold g_T2_T2.
    apply each_none with (x := (1%nat, o 1%nat)); [apply enumerate_at; lia|]. cbv beta iota.
    apply each_none with (x := (2%nat, o 2%nat)); [apply enumerate_at; lia|]. cbv beta iota. intros ?.
    destruct (Nat.leb_spec (o 2%nat) (o 1%nat)); [lia|].
    apply each_none with (x := (3%nat, o 3%nat)); [apply enumerate_at; lia|]. cbv beta iota.
    apply each_none with (x := (4%nat, o 4%nat)); [apply enumerate_at; lia|]. cbv beta iota. intros ?.
    destruct (Nat.leb_spec (o 4%nat) (o 3%nat)); [lia|].
    apply each_none with (x := (0%nat, v 0%nat)); [apply enumerate_at; lia|]. cbv beta iota.
    apply each_none with (x := (1%nat, v 1%nat)); [apply enumerate_at; lia|]. cbv beta iota. intros ?.
    destruct (Nat.leb_spec (v 1%nat) (v 0%nat)); [lia|].
    apply each_none with (x := (2%nat, v 2%nat)); [apply enumerate_at; lia|]. cbv beta iota.
    apply each_none with (x := (3%nat, v 3%nat)); [apply enumerate_at; lia|]. cbv beta iota. intros ?.
    destruct (Nat.leb_spec (v 3%nat) (v 2%nat)); [lia|].
    rewrite excite_exc by lia. cbn [bindo]. rewrite E1.
    rewrite excite_exc by lia. cbn [bindo]. rewrite E2.
    rewrite excite_exc by lia. cbn [bindo]. rewrite E3.
    rewrite excite_exc by lia. cbn [bindo]. rewrite E4.
    rewrite (index_none dstr dstring_eq dstring_eq_iff dstr_inj) by auto. reflexivity.
  Qed.
End FinalGQ.
