(** Vibrational strings and bases: s_pstrings, d_pstrings, vcis_basis, vcisd_basis. *)
From Coq Require Import List Bool Arith ZArith Lia.
From Verif Require Import Scalar Tensor NpModel CIModel CISpec CIRep CIFacts CIStrings.
Import ListNotations.

(** v with one more quantum in mode p *)
Definition inc (p : nat) (v : list nat) : list nat := upd p (nth p v 0 + 1) v.
Definition dec (p : nat) (v : list nat) : list nat := upd p (nth p v 0 - 1) v.

Lemma map_upd {A B} (f : A -> B) p x l : map f (upd p x l) = upd p (f x) (map f l).
Proof. revert p. induction l as [|y l IH]; intros [|p]; cbn; auto. rewrite IH. reflexivity. Qed.

Lemma inc_length p v : length (inc p v) = length v. Proof. apply upd_length. Qed.

Lemma pvec_inj v w : pvec v = pvec w -> v = w.
Proof.
  intros [= _ H]. revert w H. induction v as [|x v IH]; intros [|y w] H; try discriminate; auto.
  cbn in H. injection H as A B. f_equal; [lia|]. apply IH. exact B.
Qed.

Lemma raize_pvec v p : p < length v -> raize (pvec v) p = Some (pvec (inc p v)).
Proof.
  intros L. unfold pvec. rewrite <- (map_length Z.of_nat v) at 1. fold (pstr (map Z.of_nat v)).
  rewrite raize_pstr by (rewrite map_length; auto). unfold pstr, inc. rewrite !upd_length, map_length.
  rewrite map_upd. do 3 f_equal. change 0%Z with (Z.of_nat 0). rewrite map_nth. lia.
Qed.

Lemma raize_pvec_out v p : length v <= p -> raize (pvec v) p = None.
Proof.
  intros L. unfold raize, getz. cbn [p_occ pvec].
  rewrite (proj2 (nth_error_None _ _)) by (rewrite map_length; auto). reflexivity.
Qed.

Lemma lower_pvec v p : p < length v ->
  lower (pvec v) p = Some (if Nat.eqb (nth p v 0) 0 then None else Some (pvec (dec p v))).
Proof.
  intros L. unfold pvec. rewrite <- (map_length Z.of_nat v) at 1. fold (pstr (map Z.of_nat v)).
  rewrite lower_pstr by (rewrite map_length; auto).
  change 0%Z with (Z.of_nat 0). rewrite map_nth.
  destruct (Nat.eqb_spec (nth p v 0) 0) as [E|E].
  - rewrite E. reflexivity.
  - destruct (Z.eqb_spec (Z.of_nat (nth p v 0)) (Z.of_nat 0)); [lia|].
    unfold pstr, dec. rewrite !upd_length, map_length, map_upd. do 4 f_equal. lia.
Qed.

Lemma total_upd p x v : p < length v -> total (upd p x v) + nth p v 0 = total v + x.
Proof.
  revert p. induction v as [|y v IH]; intros p L; cbn in L; [lia|].
  destruct p as [|p]; cbn [upd nth total]; [lia|]. specialize (IH p ltac:(lia)). lia.
Qed.
Lemma total_inc p v : p < length v -> total (inc p v) = S (total v).
Proof. intros L. unfold inc. pose proof (total_upd p (nth p v 0 + 1) v L). lia. Qed.
Lemma total_dec p v : p < length v -> nth p v 0 <> 0 -> S (total (dec p v)) = total v.
Proof. intros L N. unfold dec. pose proof (total_upd p (nth p v 0 - 1) v L). lia. Qed.

Lemma nth_inc p v q : p < length v ->
  nth q (inc p v) 0 = if Nat.eqb q p then S (nth q v 0) else nth q v 0.
Proof.
  intros L. unfold inc. rewrite nth_upd by auto. destruct (Nat.eqb_spec q p); subst; lia.
Qed.

Lemma dec_inc p v : p < length v -> dec p (inc p v) = v.
Proof.
  intros L. unfold dec, inc. rewrite nth_upd, Nat.eqb_refl, upd_upd by auto.
  replace (nth p v 0 + 1 - 1) with (nth p v 0) by lia. apply upd_same.
Qed.
Lemma inc_dec p v : p < length v -> nth p v 0 <> 0 -> inc p (dec p v) = v.
Proof.
  intros L N. unfold dec, inc. rewrite nth_upd, Nat.eqb_refl, upd_upd by auto.
  replace (nth p v 0 - 1 + 1) with (nth p v 0) by lia. apply upd_same.
Qed.

Definition vac (m : nat) : list nat := repeat 0 m.
Lemma vac_length m : length (vac m) = m. Proof. apply repeat_length. Qed.
Lemma nth_vac m q : nth q (vac m) 0 = 0. Proof. apply nth_repeat. Qed.
Lemma total_vac m : total (vac m) = 0. Proof. induction m; auto. Qed.
Lemma total_0 v : total v = 0 -> v = vac (length v).
Proof.
  induction v as [|x v IH]; [reflexivity|]. cbn. intros H. unfold vac in IH.
  rewrite <- IH by lia. f_equal. lia.
Qed.

Definition plist1 (m : nat) : list (list nat) := map (fun i => inc i (vac m)) (seq 0 m).
Definition plist2 (m : nat) : list (list nat) :=
  flat_map (fun i => map (fun j => inc j (inc i (vac m))) (seq i (m - i))) (seq 0 m).

(** first occupied mode *)
Fixpoint first (v : list nat) : nat :=
  match v with 0 :: v' => S (first v') | _ => 0 end.

Lemma first_spec v i : i < length v -> nth i v 0 <> 0 -> (forall p, p < i -> nth p v 0 = 0) -> first v = i.
Proof.
  revert i. induction v as [|x v IH]; intros i L N H; cbn in L; [lia|].
  destruct i as [|i].
  - cbn in N. destruct x; [lia|reflexivity].
  - specialize (H 0 ltac:(lia)) as H0. cbn in H0. subst x. cbn. f_equal. apply IH; [lia|auto|].
    intros p Lp. apply (H (S p)). lia.
Qed.

Lemma first_pos v : total v <> 0 ->
  first v < length v /\ nth (first v) v 0 <> 0 /\ (forall p, p < first v -> nth p v 0 = 0).
Proof.
  induction v as [|x v IH]; cbn [total]; intros H; [lia|]. destruct x as [|x].
  - destruct (IH ltac:(lia)) as (A & B & C). cbn. repeat split; auto; [lia|].
    intros [|p] L; auto. apply C. lia.
  - cbn. repeat split; [lia|lia|]. intros p L. lia.
Qed.

Lemma plist1_In m v : In v (plist1 m) <-> length v = m /\ total v = 1.
Proof.
  unfold plist1. rewrite in_map_iff. split.
  - intros (i & <- & I). apply in_seq in I. rewrite inc_length, vac_length, total_inc, total_vac by (rewrite vac_length; lia).
    auto.
  - intros [L T]. destruct (first_pos v) as (A & B & _); [lia|]. exists (first v).
    split; [|apply in_seq; lia]. rewrite <- L.
    pose proof (total_dec (first v) v A B) as D.
    assert (E : dec (first v) v = vac (length v)).
    { rewrite (total_0 (dec (first v) v)) by lia. unfold dec. rewrite upd_length. reflexivity. }
    rewrite <- E. apply inc_dec; auto.
Qed.

Lemma plist2_In m v : In v (plist2 m) <-> length v = m /\ total v = 2.
Proof.
  unfold plist2. rewrite in_flat_map. split.
  - intros (i & I & H). apply in_map_iff in H as (j & <- & J). apply in_seq in I. apply in_seq in J.
    rewrite !inc_length, vac_length, !total_inc, total_vac by (rewrite ?inc_length, vac_length; lia). auto.
  - intros [L T]. destruct (first_pos v) as (A & B & C); [lia|].
    pose proof (total_dec (first v) v A B) as D.
    set (i := first v) in *. set (w := dec i v) in *.
    destruct (first_pos w) as (A' & B' & C'); [lia|].
    assert (Lw : length w = m) by (unfold w, dec; rewrite upd_length; auto).
    pose proof (total_dec (first w) w A' B') as D'. set (j := first w) in *.
    assert (E : dec j w = vac m).
    { rewrite (total_0 (dec j w)) by lia. unfold dec. rewrite upd_length, Lw. reflexivity. }
    assert (Lij : i <= j).
    { destruct (Nat.le_gt_cases i j) as [|G]; auto. exfalso. apply B'.
      unfold w, dec. rewrite nth_upd by auto. destruct (Nat.eqb_spec j i); [lia|]. apply C. auto. }
    assert (Ew : w = inc j (vac m)) by (rewrite <- E; symmetry; apply inc_dec; auto).
    exists i. split; [apply in_seq; lia|]. apply in_map_iff. exists j. split; [|apply in_seq; lia].
    transitivity (inc i (inc j (vac m))); [|rewrite <- Ew; apply inc_dec; auto].
    apply nth_ext with 0 0; [rewrite !inc_length; auto|]. intros p Lp.
    rewrite !nth_inc by (rewrite ?inc_length, vac_length; lia).
    destruct (Nat.eqb p i), (Nat.eqb p j); reflexivity.
Qed.

Lemma plist1_NoDup m : NoDup (plist1 m).
Proof.
  unfold plist1. apply map_inj_on_NoDup; [|apply seq_NoDup].
  intros i j I J E. apply in_seq in I. apply in_seq in J.
  assert (H : nth i (inc j (vac m)) 0 = 1).
  { rewrite <- E, nth_inc, nth_vac, Nat.eqb_refl by (rewrite vac_length; lia). reflexivity. }
  rewrite nth_inc, nth_vac in H by (rewrite vac_length; lia).
  destruct (Nat.eqb_spec i j); [auto|discriminate].
Qed.

Lemma plist2_NoDup m : NoDup (plist2 m).
Proof.
  unfold plist2. apply (flat_map_NoDup first); [apply seq_NoDup| |].
  - intros i I. apply in_seq in I. apply map_inj_on_NoDup; [|apply seq_NoDup].
    intros j k J J' E. apply in_seq in J. apply in_seq in J'.
    assert (H : nth j (inc k (inc i (vac m))) 0 = S (nth j (inc i (vac m)) 0)).
    { rewrite <- E, (nth_inc j), Nat.eqb_refl by (rewrite inc_length, vac_length; lia). reflexivity. }
    rewrite (nth_inc k) in H by (rewrite inc_length, vac_length; lia).
    destruct (Nat.eqb_spec j k); [auto|lia].
  - intros i v I H. apply in_map_iff in H as (j & <- & J). apply in_seq in I. apply in_seq in J.
    apply first_spec; [rewrite !inc_length, vac_length; lia| |];
      intros; rewrite !nth_inc, nth_vac in * by (rewrite ?inc_length, vac_length; lia).
    + rewrite Nat.eqb_refl. destruct (Nat.eqb i j); lia.
    + destruct (Nat.eqb_spec p j), (Nat.eqb_spec p i); lia.
Qed.

Lemma vac_zero m : map (fun _ => 0%Z) (seq 0 m) = map Z.of_nat (vac m).
Proof.
  assert (H : forall a, map (fun _ => 0%Z) (seq a m) = map Z.of_nat (vac m)); [|apply H].
  induction m as [|m IH]; intros a; [reflexivity|]. cbn. f_equal. apply IH.
Qed.

Lemma Pstring_vac m : Pstring m (map Z.of_nat (vac m)) = Some (pvec (vac m)).
Proof. unfold Pstring, pvec. rewrite map_length, vac_length, Nat.eqb_refl. reflexivity. Qed.

Lemma flat_map_single {A B} (f : A -> B) l : flat_map (fun x => [f x]) l = map f l.
Proof. induction l as [|x l IH]; [reflexivity|]. cbn. rewrite IH. reflexivity. Qed.

Lemma s_pstrings_list m : s_pstrings m = Some (map pvec (plist1 m)).
Proof.
  unfold s_pstrings. rewrite vac_zero, Pstring_vac. cbn [bindo].
  rewrite (collect_ok _ _ (fun i => [pvec (inc i (vac m))])).
  - unfold plist1. rewrite map_map, (flat_map_single (fun i => pvec (inc i (vac m)))). reflexivity.
  - intros i I. apply in_seq in I. rewrite raize_pvec by (rewrite vac_length; lia). reflexivity.
Qed.

Lemma d_pstrings_list m : d_pstrings m = Some (map pvec (plist2 m)).
Proof.
  unfold d_pstrings. rewrite vac_zero, Pstring_vac. cbn [bindo].
  rewrite (collect_ok _ _ (fun i => map (fun j => pvec (inc j (inc i (vac m)))) (seq i (m - i)))).
  - unfold plist2. f_equal. induction (seq 0 m) as [|x l IH]; [reflexivity|].
    cbn [flat_map]. rewrite map_app, IH, map_map. reflexivity.
  - intros i I. apply in_seq in I. rewrite <- flat_map_single. apply collect_ok. intros j J.
    apply in_seq in J. rewrite raize_pvec by (rewrite vac_length; lia). cbn [bindo].
    rewrite raize_pvec by (rewrite inc_length, vac_length; lia). reflexivity.
Qed.

Lemma vcis_ok m : exists L, vcis_basis m = Some (map pvec L) /\ NoDup L /\
  hd_error L = Some (repeat 0 m) /\ (forall v, In v L <-> length v = m /\ total v <= 1).
Proof.
  exists (vac m :: plist1 m). split.
  - unfold vcis_basis. rewrite vac_zero, Pstring_vac, s_pstrings_list. reflexivity.
  - split; [|split; [reflexivity|]].
    + constructor; [|apply plist1_NoDup]. intros H. apply plist1_In in H. rewrite total_vac in H. lia.
    + intros v. cbn [In]. rewrite plist1_In. split.
      * intros [<-|[A B]]; [rewrite vac_length, total_vac|]; lia.
      * intros [A B]. destruct (Nat.eq_dec (total v) 0) as [E|E]; [left|right; lia].
        rewrite (total_0 v E), A. reflexivity.
Qed.

Lemma vcisd_ok m : exists L, vcisd_basis m = Some (map pvec L) /\ NoDup L /\
  hd_error L = Some (repeat 0 m) /\ (forall v, In v L <-> length v = m /\ total v <= 2).
Proof.
  exists (vac m :: plist1 m ++ plist2 m). split.
  - unfold vcisd_basis. rewrite vac_zero, Pstring_vac, s_pstrings_list, d_pstrings_list.
    cbn [bindo]. cbn [map app]. rewrite map_app. reflexivity.
  - split; [|split; [reflexivity|]].
    + constructor; [|apply NoDup_app'; auto using plist1_NoDup, plist2_NoDup].
      * intros H. apply in_app_iff in H as [H|H]; [apply plist1_In in H|apply plist2_In in H];
          rewrite total_vac in H; lia.
      * intros v H H'. apply plist1_In in H. apply plist2_In in H'. lia.
    + intros v. cbn [In]. rewrite in_app_iff, plist1_In, plist2_In. split.
      * intros [<-|[[A B]|[A B]]]; [rewrite vac_length, total_vac|..]; lia.
      * intros [A B]. destruct (Nat.eq_dec (total v) 0) as [E|E]; [left|right; lia].
        rewrite (total_0 v E), A. reflexivity.
Qed.
