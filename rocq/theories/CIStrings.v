(** The lists of excited strings: s_strings, d_strings, t_strings, q_strings. *)
From Coq Require Import List Bool Arith ZArith Lia Sorted Permutation.
From Verif Require Import Scalar Tensor NpModel CIModel CISpec CIRep CIFacts.
Import ListNotations.

(** *** Sorted lists and combinations *)
Notation sorted := (StronglySorted lt).

Lemma sorted_ext (l m : list nat) :
  sorted l -> sorted m -> (forall x, In x l <-> In x m) -> l = m.
Proof.
  revert m. induction l as [|x l IH]; intros [|y m] Sl Sm H; auto.
  - destruct (proj2 (H y)); left; auto.
  - destruct (proj1 (H x)); left; auto.
  - apply StronglySorted_inv in Sl as [Sl Fl]. apply StronglySorted_inv in Sm as [Sm Fm].
    rewrite Forall_forall in Fl, Fm.
    assert (x = y).
    { destruct (proj1 (H x) (or_introl eq_refl)) as [E|E]; [auto|].
      destruct (proj2 (H y) (or_introl eq_refl)) as [F|F]; [auto|].
      specialize (Fl y F). specialize (Fm x E). lia. }
    subst y. f_equal. apply IH; auto. intros z. split; intros I.
    + destruct (proj1 (H z) (or_intror I)) as [E|E]; auto. subst. specialize (Fl z I). lia.
    + destruct (proj2 (H z) (or_intror I)) as [E|E]; auto. subst. specialize (Fm z I). lia.
Qed.

Lemma sorted_NoDup l : sorted l -> NoDup l.
Proof.
  induction 1 as [|x l S IH F]; constructor; auto.
  rewrite Forall_forall in F. intros I. specialize (F x I). lia.
Qed.

Lemma sorted_filter f l : sorted l -> sorted (filter f l).
Proof.
  induction 1 as [|x l S IH F]; [constructor|]. cbn. destruct (f x); auto.
  constructor; auto. rewrite Forall_forall in *. intros y I. apply F.
  apply filter_In in I. apply I.
Qed.

Lemma sorted_seq a n : sorted (seq a n).
Proof.
  revert a. induction n as [|n IH]; intros a; cbn; constructor; auto.
  rewrite Forall_forall. intros y I. apply in_seq in I. lia.
Qed.

Fixpoint combs {A} (k : nat) (l : list A) : list (list A) :=
  match k with
  | O => [[]]
  | S k' => match l with
            | [] => []
            | x :: l' => map (cons x) (combs k' l') ++ combs k l'
            end
  end.

Lemma binom_0_S k : binom 0 (S k) = 0. Proof. reflexivity. Qed.

Lemma combs_length {A} k (l : list A) : length (combs k l) = binom (length l) k.
Proof.
  revert k. induction l as [|x l IH]; intros [|k]; try reflexivity.
  cbn [combs]. rewrite app_length, map_length, IH.
  change (combs (S k) l) with (combs (S k) l). rewrite IH. reflexivity.
Qed.

Lemma combs_In k l m : sorted l ->
  (In m (combs k l) <-> sorted m /\ length m = k /\ incl m l).
Proof.
  revert k m. induction l as [|x l IH]; intros k m S.
  - destruct k; cbn; split.
    + intros [<-|[]]. repeat split; [constructor|intros y []].
    + intros (_ & H & _). destruct m; [auto|discriminate].
    + intros [].
    + intros (_ & H & I). destruct m as [|y m]; [discriminate|]. destruct (I y). left. auto.
  - apply StronglySorted_inv in S as [S F]. rewrite Forall_forall in F.
    destruct k as [|k].
    { cbn. split; [intros [<-|[]]; repeat split; [constructor|intros y []]|].
      intros (_ & H & _). destruct m; [auto|discriminate]. }
    cbn [combs]. rewrite in_app_iff, in_map_iff. split.
    + intros [(m' & <- & I)|I].
      * apply IH in I as (S' & L & C); auto. repeat split.
        -- constructor; auto. rewrite Forall_forall. intros y Y. apply F, C, Y.
        -- cbn. auto.
        -- intros y [<-|Y]; [left; auto|right; apply C; auto].
      * apply (IH (Datatypes.S k)) in I as (S' & L & C); auto. repeat split; auto. intros y Y. right. auto.
    + intros (S' & L & C). destruct m as [|y m]; [discriminate|].
      apply StronglySorted_inv in S' as [S' F']. rewrite Forall_forall in F'.
      destruct (C y (or_introl eq_refl)) as [<-|Y].
      * left. exists m. split; auto. apply IH; auto. repeat split; auto.
        intros z Z. destruct (C z (or_intror Z)) as [<-|]; auto. specialize (F' x Z). lia.
      * right. apply (IH (Datatypes.S k)); auto. repeat split; [constructor; auto; apply Forall_forall; auto|auto|].
        intros z [<-|Z]; auto. destruct (C z (or_intror Z)) as [<-|]; auto.
        specialize (F' x Z). specialize (F y Y). lia.
Qed.

Lemma combs_NoDup k l : sorted l -> NoDup (combs k l).
Proof.
  revert k. induction l as [|x l IH]; intros [|k] S; cbn;
    try (constructor; [intros []|constructor]); [constructor|].
  apply StronglySorted_inv in S as [S F]. rewrite Forall_forall in F.
  apply NoDup_app'; [apply FinFun.Injective_map_NoDup; [intros a b [= ->]; auto|auto]|auto|].
  intros m I J. apply in_map_iff in I as (m' & <- & I).
  apply combs_In in J as (_ & _ & C); auto. specialize (C x (or_introl eq_refl)).
  specialize (F x C). lia.
Qed.

(** *** Occupied and empty orbitals, moves *)
Definition occs (s : det) : list nat := filter (occd s) (seq 0 (length s)).
Definition virs (s : det) : list nat := filter (fun p => negb (occd s p)) (seq 0 (length s)).

Lemma in_occs s p : In p (occs s) <-> occd s p = true.
Proof.
  unfold occs. rewrite filter_In, in_seq. split; [tauto|]. intros H. split; auto.
  apply occd_lt in H. lia.
Qed.
Lemma in_virs s p : In p (virs s) <-> p < length s /\ occd s p = false.
Proof.
  unfold virs. rewrite filter_In, in_seq, negb_true_iff. split; intros [A B]; split; auto; lia.
Qed.
Lemma sorted_occs s : sorted (occs s).
Proof. apply sorted_filter, sorted_seq. Qed.
Lemma sorted_virs s : sorted (virs s).
Proof. apply sorted_filter, sorted_seq. Qed.

(** empty the orbitals in I, fill those in A *)
Definition mem (p : nat) (l : list nat) : bool := existsb (Nat.eqb p) l.
Lemma mem_In p l : mem p l = true <-> In p l.
Proof.
  unfold mem. rewrite existsb_exists. split.
  - intros (x & I & E). apply Nat.eqb_eq in E. subst. auto.
  - intros I. exists p. rewrite Nat.eqb_refl. auto.
Qed.
Lemma mem_false p l : mem p l = false <-> ~ In p l.
Proof. rewrite <- mem_In. destruct (mem p l); split; intros; auto; congruence. Qed.

Definition move (s : det) (IA : list nat * list nat) : det :=
  map (fun p => if mem p (snd IA) then true else if mem p (fst IA) then false else occd s p)
      (seq 0 (length s)).

Lemma move_length s IA : length (move s IA) = length s.
Proof. unfold move. rewrite map_length, seq_length. reflexivity. Qed.

Lemma nth_map_seq {A} (f : nat -> A) n p d : p < n -> nth p (map f (seq 0 n)) d = f p.
Proof.
  intros L. rewrite (nth_indep _ d (f 0)) by (rewrite map_length, seq_length; auto).
  rewrite map_nth, seq_nth by auto. reflexivity.
Qed.

Lemma move_occd s IA p : p < length s ->
  occd (move s IA) p
  = if mem p (snd IA) then true else if mem p (fst IA) then false else occd s p.
Proof.
  intros L. unfold move, occd. rewrite nth_map_seq by auto. reflexivity.
Qed.

(** the orbitals emptied and filled in going from s to t *)
Definition removed (s t : det) : list nat :=
  filter (fun p => occd s p && negb (occd t p)) (seq 0 (length s)).
Definition added (s t : det) : list nat :=
  filter (fun p => negb (occd s p) && occd t p) (seq 0 (length s)).

Lemma sorted_removed s t : sorted (removed s t).
Proof. apply sorted_filter, sorted_seq. Qed.
Lemma sorted_added s t : sorted (added s t).
Proof. apply sorted_filter, sorted_seq. Qed.

Lemma in_removed s t p : In p (removed s t) <-> occd s p = true /\ occd t p = false.
Proof.
  unfold removed. rewrite filter_In, in_seq, andb_true_iff, negb_true_iff. split; [tauto|].
  intros [A B]. split; auto. apply occd_lt in A. lia.
Qed.
Lemma in_added s t p : length t = length s ->
  (In p (added s t) <-> occd s p = false /\ occd t p = true).
Proof.
  intros L. unfold added. rewrite filter_In, in_seq, andb_true_iff, negb_true_iff. split; [tauto|].
  intros [A B]. split; auto. apply occd_lt in B. lia.
Qed.

Lemma removed_move s I A : sorted I -> sorted A -> incl I (occs s) -> incl A (virs s) ->
  removed s (move s (I, A)) = I.
Proof.
  intros SI SA CI CA. apply sorted_ext; auto using sorted_removed. intros p.
  rewrite in_removed. split.
  - intros [O M]. rewrite move_occd in M by (apply occd_lt; auto). cbn [fst snd] in M.
    destruct (mem p A); [discriminate|]. destruct (mem p I) eqn:E; [apply mem_In; auto|congruence].
  - intros H. assert (O := CI p H). apply in_occs in O. split; auto.
    rewrite move_occd by (apply occd_lt; auto). cbn [fst snd].
    assert (mem p I = true) by (apply mem_In; auto).
    assert (mem p A = false). { apply mem_false. intros C. apply CA, in_virs in C. destruct C. congruence. }
    rewrite H0, H1. reflexivity.
Qed.

Lemma added_move s I A : sorted I -> sorted A -> incl I (occs s) -> incl A (virs s) ->
  added s (move s (I, A)) = A.
Proof.
  intros SI SA CI CA. apply sorted_ext; auto using sorted_added. intros p.
  rewrite in_added by apply move_length. split.
  - intros [O M]. assert (L := occd_lt _ _ M). rewrite move_length in L.
    rewrite move_occd in M by auto. cbn [fst snd] in M.
    destruct (mem p A) eqn:E; [apply mem_In; auto|]. destruct (mem p I); congruence.
  - intros H. assert (O := CA p H). apply in_virs in O as [L O]. split; auto.
    rewrite move_occd by auto. cbn [fst snd].
    assert (mem p A = true) by (apply mem_In; auto). rewrite H0. reflexivity.
Qed.

Lemma move_removed s t : length t = length s -> t = move s (removed s t, added s t).
Proof.
  intros L. apply det_ext; [rewrite move_length; auto|]. intros p Hp. rewrite L in Hp.
  rewrite move_occd by auto. cbn [fst snd].
  destruct (mem p (added s t)) eqn:E.
  - apply mem_In, in_added in E; tauto.
  - destruct (mem p (removed s t)) eqn:F.
    + apply mem_In, in_removed in F. tauto.
    + apply mem_false in E. apply mem_false in F. rewrite in_added in E by auto. rewrite in_removed in F.
      destruct (occd s p), (occd t p); auto; tauto.
Qed.

(** counting *)
Lemma filter_seq_shift f a n :
  filter f (seq (S a) n) = map S (filter (fun p => f (S p)) (seq a n)).
Proof.
  revert a. induction n as [|n IH]; intros a; [reflexivity|]. cbn [seq filter].
  rewrite IH. destruct (f (S a)); reflexivity.
Qed.

Lemma count_removed s t : length t = length s ->
  length (removed s t) + nel t = length (added s t) + nel s /\
  length (removed s t) + length (added s t) = ndiff s t.
Proof.
  revert t. induction s as [|x s IH]; intros [|y t] L; try discriminate; [split; reflexivity|].
  injection L as L. destruct (IH t L) as [A B].
  assert (R : removed (x :: s) (y :: t) = (if x && negb y then [0] else []) ++ map S (removed s t)).
  { unfold removed. cbn [length seq filter]. rewrite filter_seq_shift.
    destruct x, y; reflexivity. }
  assert (D : added (x :: s) (y :: t) = (if negb x && y then [0] else []) ++ map S (added s t)).
  { unfold added. cbn [length seq filter]. rewrite filter_seq_shift.
    destruct x, y; reflexivity. }
  rewrite R, D, !app_length, !map_length. cbn [nel ndiff]. destruct x, y; cbn; lia.
Qed.

Lemma excited_iff k s t :
  excited k s t <-> length t = length s /\ length (removed s t) = k /\ length (added s t) = k.
Proof.
  unfold excited. split.
  - intros (L & N & D). destruct (count_removed s t L) as [A B]. repeat split; auto; lia.
  - intros (L & R & A). destruct (count_removed s t L) as [X Y]. repeat split; auto; lia.
Qed.

(** all k-fold moves *)
Definition moves (k : nat) (s : det) : list det :=
  map (move s) (list_prod (combs k (occs s)) (combs k (virs s))).

Lemma moves_In k s t : In t (moves k s) <-> excited k s t.
Proof.
  unfold moves. rewrite in_map_iff, excited_iff. split.
  - intros ((I, A) & <- & H). apply in_prod_iff in H as [HI HA].
    apply combs_In in HI as (SI & LI & CI); [|apply sorted_occs].
    apply combs_In in HA as (SA & LA & CA); [|apply sorted_virs].
    rewrite removed_move, added_move by auto. rewrite move_length. auto.
  - intros (L & R & A). exists (removed s t, added s t). split; [symmetry; apply move_removed; auto|].
    apply in_prod_iff. rewrite !combs_In by auto using sorted_occs, sorted_virs.
    repeat split; auto using sorted_removed, sorted_added.
    + intros p H. apply in_removed in H. apply in_occs. tauto.
    + intros p H. apply in_added in H; [|auto]. apply in_virs. split; [|tauto].
      rewrite <- L. apply occd_lt. tauto.
Qed.

Lemma map_inj_on_NoDup {A B} (f : A -> B) l :
  (forall x y, In x l -> In y l -> f x = f y -> x = y) -> NoDup l -> NoDup (map f l).
Proof.
  induction l as [|x l IH]; intros H N; [constructor|]. inversion N as [|? ? N1 N2]; subst.
  cbn. constructor.
  - intros I. apply in_map_iff in I as (y & E & I). assert (y = x); [|subst; auto].
    apply H; auto; [right|left]; auto.
  - apply IH; auto. intros a b Ia Ib. apply H; right; auto.
Qed.

Lemma NoDup_list_prod {A B} (l : list A) (m : list B) : NoDup l -> NoDup m -> NoDup (list_prod l m).
Proof.
  intros Nl Nm. induction l as [|x l IH]; [constructor|]. inversion Nl; subst. cbn.
  apply NoDup_app'; auto.
  - apply FinFun.Injective_map_NoDup; auto. intros a b [= ->]. auto.
  - intros [a b] I J. apply in_map_iff in I as (y & [= <- <-] & _). apply in_prod_iff in J. tauto.
Qed.

Lemma moves_NoDup k s : NoDup (moves k s).
Proof.
  unfold moves. apply map_inj_on_NoDup.
  - intros [I A] [I' A'] H H' E. apply in_prod_iff in H as [HI HA]. apply in_prod_iff in H' as [HI' HA'].
    apply combs_In in HI as (SI & LI & CI); [|apply sorted_occs].
    apply combs_In in HA as (SA & LA & CA); [|apply sorted_virs].
    apply combs_In in HI' as (SI' & LI' & CI'); [|apply sorted_occs].
    apply combs_In in HA' as (SA' & LA' & CA'); [|apply sorted_virs].
    f_equal.
    + rewrite <- (removed_move s I A), <- (removed_move s I' A') by auto. rewrite E. reflexivity.
    + rewrite <- (added_move s I A), <- (added_move s I' A') by auto. rewrite E. reflexivity.
  - apply NoDup_list_prod; apply combs_NoDup; auto using sorted_occs, sorted_virs.
Qed.

Lemma occs_length s : length (occs s) = nel s.
Proof.
  unfold occs. induction s as [|x s IH]; [reflexivity|]. cbn [length seq filter].
  rewrite filter_seq_shift. change (fun p => occd (x :: s) (S p)) with (occd s).
  change (occd (x :: s) 0) with x. cbn [nel].
  destruct x; cbn [length]; rewrite map_length, IH; reflexivity.
Qed.

Lemma virs_length s : length (virs s) = length s - nel s.
Proof.
  unfold virs. assert (H : length (virs s) + nel s = length s); [|unfold virs in H; lia].
  unfold virs. induction s as [|x s IH]; [reflexivity|]. cbn [length seq filter].
  rewrite filter_seq_shift. change (fun p => negb (occd (x :: s) (S p))) with (fun p => negb (occd s p)).
  change (occd (x :: s) 0) with x. cbn [nel].
  destruct x; cbn [negb length]; rewrite map_length; lia.
Qed.

Lemma moves_length k s : length (moves k s) = binom (nel s) k * binom (length s - nel s) k.
Proof.
  unfold moves. rewrite map_length, prod_length, !combs_length, occs_length, virs_length. reflexivity.
Qed.

(** *** The loops *)
Lemma collect_ok {A B} (l : list A) (body : A -> option (list B)) (f : A -> list B) :
  (forall x, In x l -> body x = Some (f x)) -> collect l body = Some (flat_map f l).
Proof.
  induction l as [|x l IH]; intros H; [reflexivity|]. cbn.
  rewrite (H x) by (left; auto). cbn. rewrite IH by (intros y I; apply H; right; auto).
  reflexivity.
Qed.

Lemma flat_map_NoDup {A B} (g : B -> A) (f : A -> list B) l :
  NoDup l -> (forall x, In x l -> NoDup (f x)) ->
  (forall x y, In x l -> In y (f x) -> g y = x) -> NoDup (flat_map f l).
Proof.
  induction l as [|x l IH]; intros N H K; [constructor|]. inversion N; subst. cbn.
  apply NoDup_app'.
  - apply H. left. auto.
  - apply IH; auto; intros; [apply H|apply K]; auto; right; auto.
  - intros y I J. apply in_flat_map in J as (z & Z & J).
    assert (g y = x) by (apply K; auto; left; auto).
    assert (g y = z) by (apply K; auto; right; auto). congruence.
Qed.

Lemma indices_pos_filter l a :
  map fst (filter (fun ix : nat * Z => Z.ltb 0 (snd ix)) (combine (seq a (length l)) l))
  = filter (fun p => Z.ltb 0 (nth (p - a) l 0%Z)) (seq a (length l)).
Proof.
  revert a. induction l as [|x l IH]; intros a; [reflexivity|].
  cbn [length seq combine filter snd].
  replace (nth (a - a) (x :: l) 0%Z) with x by (rewrite Nat.sub_diag; reflexivity).
  assert (E : filter (fun p => Z.ltb 0 (nth (p - a) (x :: l) 0%Z)) (seq (S a) (length l))
            = filter (fun p => Z.ltb 0 (nth (p - S a) l 0%Z)) (seq (S a) (length l))).
  { apply filter_ext_in. intros p I. apply in_seq in I.
    replace (p - a) with (S (p - S a)) by lia. reflexivity. }
  rewrite E, <- IH. destruct (Z.ltb 0 x); reflexivity.
Qed.

Lemma indices_pos_occs s : indices_pos (map b2z s) = occs s.
Proof.
  unfold indices_pos. rewrite indices_pos_filter, map_length. unfold occs.
  apply filter_ext_in. intros p I. apply in_seq in I. rewrite Nat.sub_0_r.
  change 0%Z with (b2z false) at 2. rewrite map_nth. fold (occd s p).
  destruct (occd s p); reflexivity.
Qed.

Lemma occd_negb s p : p < length s -> occd (map negb s) p = negb (occd s p).
Proof.
  intros L. unfold occd. rewrite (nth_indep _ false (negb false)) by (rewrite map_length; auto).
  apply map_nth.
Qed.

Lemma virt_b2z s : virt (map b2z s) = map b2z (map negb s).
Proof. unfold virt. rewrite !map_map. apply map_ext. intros []; reflexivity. Qed.

Lemma indices_pos_virs s : indices_pos (virt (map b2z s)) = virs s.
Proof.
  rewrite virt_b2z, indices_pos_occs. unfold occs, virs. rewrite map_length.
  apply filter_ext_in. intros p I. apply in_seq in I. apply occd_negb. lia.
Qed.

Lemma excite__ok s i a : occd s i = true -> a < length s -> occd s a = false ->
  excite_ (dstr s) i a = Some (dstr (put a true (put i false s))).
Proof.
  intros O L V. unfold excite_. rewrite excite_exc by (auto; apply occd_lt; auto).
  unfold exc. rewrite O, V. reflexivity.
Qed.

(** one step of a loop with [if j <= i: continue] *)
Definition after (i : nat) (l : list nat) : list nat := filter (fun j => Nat.ltb i j) l.

Lemma collect_after {B} i l (body : nat -> option (list B)) (f : nat -> list B) :
  (forall j, In j l -> i < j -> body j = Some (f j)) ->
  collect l (fun j => if Nat.leb j i then Some [] else body j) = Some (flat_map f (after i l)).
Proof.
  induction l as [|x l IH]; intros H; [reflexivity|]. cbn [collect].
  rewrite IH by (intros j I; apply H; right; auto).
  unfold after. cbn [filter]. fold (after i l).
  destruct (Nat.leb x i) eqn:E.
  - apply Nat.leb_le in E. assert (Nat.ltb i x = false) as -> by (apply Nat.ltb_ge; lia). reflexivity.
  - apply Nat.leb_gt in E. assert (Nat.ltb i x = true) as -> by (apply Nat.ltb_lt; lia).
    rewrite H by (auto; left; auto). reflexivity.
Qed.

Lemma in_after i l j : In j (after i l) <-> In j l /\ i < j.
Proof. unfold after. rewrite filter_In, Nat.ltb_lt. tauto. Qed.
Lemma sorted_after i l : sorted l -> sorted (after i l).
Proof. apply sorted_filter. Qed.

Definition ex1 (s : det) (i a : nat) : det := put a true (put i false s).

Lemma ex1_occd s i a p : i < length s -> a < length s ->
  occd (ex1 s i a) p = if Nat.eqb p a then true else if Nat.eqb p i then false else occd s p.
Proof.
  intros Li La. unfold ex1. rewrite !occd_put, put_length.
  apply Nat.ltb_lt in Li. apply Nat.ltb_lt in La. rewrite Li, La, !andb_true_r. reflexivity.
Qed.
Lemma ex1_length s i a : length (ex1 s i a) = length s.
Proof. unfold ex1. rewrite !put_length. reflexivity. Qed.

Section Loops.
  Variable s : det.
  Notation O := (occs s).
  Notation V := (virs s).

  Definition list1 : list det :=
    flat_map (fun i => flat_map (fun a => [ex1 s i a]) V) O.
  Definition list2 : list det :=
    flat_map (fun i => flat_map (fun a => flat_map (fun j => flat_map (fun b =>
      [ex1 (ex1 s i a) j b]) (after a V)) (after i O)) V) O.
  Definition list3 : list det :=
    flat_map (fun i => flat_map (fun a => flat_map (fun j => flat_map (fun b =>
      flat_map (fun k => flat_map (fun c =>
        [ex1 (ex1 (ex1 s i a) j b) k c]) (after b V)) (after j O)) (after a V)) (after i O)) V) O.

  Lemma flat_map_dstr {A} (f : A -> list det) l :
    flat_map (fun x => map dstr (f x)) l = map dstr (flat_map f l).
  Proof. induction l as [|x l IH]; [reflexivity|]. cbn. rewrite map_app, IH. reflexivity. Qed.

  Ltac occ_tac := repeat match goal with
    | H : In _ (occs _) |- _ => apply in_occs in H
    | H : In _ (virs _) |- _ => apply in_virs in H as [? ?]
    end.

  Lemma ex1_occ_other i a p : occd s i = true -> a < length s -> p <> a -> p <> i ->
    occd (ex1 s i a) p = occd s p.
  Proof.
    intros Oi La Na Ni. rewrite ex1_occd by (auto; apply occd_lt; auto).
    apply Nat.eqb_neq in Na. apply Nat.eqb_neq in Ni. rewrite Na, Ni. reflexivity.
  Qed.

  Lemma s_loops :
    collect O (fun i => collect V (fun a => let? d := excite_ (dstr s) i a in Some [d]))
    = Some (map dstr list1).
  Proof.
    unfold list1. rewrite <- flat_map_dstr. apply collect_ok. intros i Hi.
    rewrite <- flat_map_dstr. apply collect_ok. intros a Ha. occ_tac.
    rewrite excite__ok by auto. reflexivity.
  Qed.

  Lemma d_loops :
    collect O (fun i => collect V (fun a =>
      collect O (fun j => if Nat.leb j i then Some [] else
        collect V (fun b => if Nat.leb b a then Some [] else
          let? d1 := excite_ (dstr s) i a in
          let? d2 := excite_ d1 j b in Some [d2]))))
    = Some (map dstr list2).
  Proof.
    unfold list2. rewrite <- flat_map_dstr. apply collect_ok. intros i Hi.
    rewrite <- flat_map_dstr. apply collect_ok. intros a Ha.
    rewrite <- flat_map_dstr. apply collect_after. intros j Hj Lij.
    rewrite <- flat_map_dstr. apply collect_after. intros b Hb Lab. occ_tac.
    assert (a <> j /\ a <> i /\ b <> i /\ b <> j) as (? & ? & ? & ?)
      by (repeat split; intros ->; congruence).
    rewrite excite__ok by auto. cbn [bindo]. fold (ex1 s i a).
    rewrite excite__ok by (rewrite ?ex1_length, ?ex1_occ_other; auto; lia). reflexivity.
  Qed.

  Lemma ex2_occ_other i a j b p : occd s i = true -> a < length s -> j < length s -> b < length s ->
    p <> a -> p <> i -> p <> j -> p <> b ->
    occd (ex1 (ex1 s i a) j b) p = occd s p.
  Proof.
    intros Oi La Lj Lb N1 N2 N3 N4. rewrite ex1_occd by (rewrite ex1_length; auto).
    apply Nat.eqb_neq in N3. apply Nat.eqb_neq in N4. rewrite N3, N4.
    apply ex1_occ_other; auto.
  Qed.

  Lemma t_loops :
    collect O (fun i => collect V (fun a =>
      collect O (fun j => if Nat.leb j i then Some [] else
        collect V (fun b => if Nat.leb b a then Some [] else
          collect O (fun k => if Nat.leb k j then Some [] else
            collect V (fun c => if Nat.leb c b then Some [] else
              let? d1 := excite_ (dstr s) i a in
              let? d2 := excite_ d1 j b in
              let? d3 := excite_ d2 k c in Some [d3]))))))
    = Some (map dstr list3).
  Proof.
    unfold list3. rewrite <- flat_map_dstr. apply collect_ok. intros i Hi.
    rewrite <- flat_map_dstr. apply collect_ok. intros a Ha.
    rewrite <- flat_map_dstr. apply collect_after. intros j Hj Lij.
    rewrite <- flat_map_dstr. apply collect_after. intros b Hb Lab.
    rewrite <- flat_map_dstr. apply collect_after. intros k Hk Ljk.
    rewrite <- flat_map_dstr. apply collect_after. intros c Hc Lbc. occ_tac.
    assert (a <> j /\ a <> i /\ b <> i /\ b <> j /\ a <> k /\ b <> k /\ c <> i /\ c <> j /\ c <> k)
      as (? & ? & ? & ? & ? & ? & ? & ? & ?)
      by (repeat split; intros ->; congruence).
    assert (j < length s) by (apply occd_lt; auto).
    rewrite excite__ok by auto. cbn [bindo]. fold (ex1 s i a).
    rewrite excite__ok by (rewrite ?ex1_length, ?ex1_occ_other; auto; lia). cbn [bindo].
    fold (ex1 (ex1 s i a) j b).
    rewrite excite__ok by (rewrite ?ex1_length, ?ex2_occ_other; auto; lia). reflexivity.
  Qed.

  (** the strings in the lists as moves *)
  Lemma ex1_move i a : In i O -> In a V -> ex1 s i a = move s ([i], [a]).
  Proof.
    intros Hi Ha. occ_tac. assert (i < length s) by (apply occd_lt; auto).
    apply det_ext; [rewrite move_length, ex1_length; auto|]. intros p Hp. rewrite ex1_length in Hp.
    rewrite ex1_occd, move_occd by auto. cbn. rewrite !orb_false_r. reflexivity.
  Qed.
  Lemma ex2_move i a j b : In i O -> In a V -> In j O -> In b V -> i < j -> a < b ->
    ex1 (ex1 s i a) j b = move s ([i; j], [a; b]).
  Proof.
    intros Hi Ha Hj Hb Lij Lab. occ_tac.
    assert (i < length s) by (apply occd_lt; auto). assert (j < length s) by (apply occd_lt; auto).
    assert (a <> j) by (intros ->; congruence).
    apply det_ext; [rewrite move_length, !ex1_length; auto|]. intros p Hp. rewrite !ex1_length in Hp.
    rewrite !ex1_occd, move_occd by (rewrite ?ex1_length; auto). cbn. rewrite !orb_false_r.
    destruct (Nat.eqb_spec p a), (Nat.eqb_spec p b), (Nat.eqb_spec p i), (Nat.eqb_spec p j);
      cbn; auto; lia.
  Qed.
  Lemma ex3_move i a j b k c : In i O -> In a V -> In j O -> In b V -> In k O -> In c V ->
    i < j -> a < b -> j < k -> b < c ->
    ex1 (ex1 (ex1 s i a) j b) k c = move s ([i; j; k], [a; b; c]).
  Proof.
    intros Hi Ha Hj Hb Hk Hc Lij Lab Ljk Lbc. occ_tac.
    assert (i < length s) by (apply occd_lt; auto). assert (j < length s) by (apply occd_lt; auto).
    assert (k < length s) by (apply occd_lt; auto).
    assert (a <> j /\ a <> k /\ b <> k) as (? & ? & ?) by (repeat split; intros ->; congruence).
    apply det_ext; [rewrite move_length, !ex1_length; auto|]. intros p Hp. rewrite !ex1_length in Hp.
    rewrite !ex1_occd, move_occd by (rewrite ?ex1_length; auto). cbn. rewrite !orb_false_r.
    destruct (Nat.eqb_spec p a), (Nat.eqb_spec p b), (Nat.eqb_spec p c), (Nat.eqb_spec p i),
      (Nat.eqb_spec p j), (Nat.eqb_spec p k); cbn; auto; lia.
  Qed.

  Lemma sorted1 x : sorted [x].
  Proof. repeat constructor. Qed.
  Lemma sorted2 x y : x < y -> sorted [x; y].
  Proof. repeat constructor; auto. Qed.
  Lemma sorted3 x y z : x < y -> y < z -> sorted [x; y; z].
  Proof. repeat constructor; auto. lia. Qed.
  Lemma incl_1 x (l : list nat) : In x l -> incl [x] l.
  Proof. intros H y [<-|[]]. auto. Qed.
  Lemma incl_2 x y (l : list nat) : In x l -> In y l -> incl [x; y] l.
  Proof. intros H1 H2 z [<-|[<-|[]]]; auto. Qed.
  Lemma incl_3 x y w (l : list nat) : In x l -> In y l -> In w l -> incl [x; y; w] l.
  Proof. intros H1 H2 H3 z [<-|[<-|[<-|[]]]]; auto. Qed.

  Lemma list1_In t : In t list1 <-> excited 1 s t.
  Proof.
    rewrite <- moves_In. unfold list1, moves. rewrite in_flat_map, in_map_iff. split.
    - intros (i & Hi & H). apply in_flat_map in H as (a & Ha & [<-|[]]).
      exists ([i], [a]). split; [symmetry; apply ex1_move; auto|].
      apply in_prod_iff. rewrite !combs_In by auto using sorted_occs, sorted_virs.
      repeat split; auto using sorted1, incl_1.
    - intros ((I & A) & <- & H). apply in_prod_iff in H as [HI HA].
      apply combs_In in HI as (SI & LI & CI); [|apply sorted_occs].
      apply combs_In in HA as (SA & LA & CA); [|apply sorted_virs].
      destruct I as [|i [|? ?]]; try discriminate. destruct A as [|a [|? ?]]; try discriminate.
      assert (Hi : In i O) by (apply CI; left; auto). assert (Ha : In a V) by (apply CA; left; auto).
      exists i. split; auto. apply in_flat_map. exists a. split; auto. left. apply ex1_move; auto.
  Qed.

  Lemma list2_In t : In t list2 <-> excited 2 s t.
  Proof.
    rewrite <- moves_In. unfold list2, moves. rewrite in_flat_map, in_map_iff. split.
    - intros (i & Hi & H). apply in_flat_map in H as (a & Ha & H).
      apply in_flat_map in H as (j & Hj & H). apply in_flat_map in H as (b & Hb & [<-|[]]).
      apply in_after in Hj as [Hj Lij]. apply in_after in Hb as [Hb Lab].
      exists ([i; j], [a; b]). split; [symmetry; apply ex2_move; auto|].
      apply in_prod_iff. rewrite !combs_In by auto using sorted_occs, sorted_virs.
      repeat split; auto using sorted2, incl_2.
    - intros ((I & A) & <- & H). apply in_prod_iff in H as [HI HA].
      apply combs_In in HI as (SI & LI & CI); [|apply sorted_occs].
      apply combs_In in HA as (SA & LA & CA); [|apply sorted_virs].
      destruct I as [|i [|j [|? ?]]]; try discriminate. destruct A as [|a [|b [|? ?]]]; try discriminate.
      apply StronglySorted_inv in SI as [_ FI]. apply StronglySorted_inv in SA as [_ FA].
      rewrite Forall_forall in FI, FA.
      assert (Hi : In i O) by (apply CI; left; auto). assert (Ha : In a V) by (apply CA; left; auto).
      assert (Hj : In j O) by (apply CI; right; left; auto).
      assert (Hb : In b V) by (apply CA; right; left; auto).
      assert (i < j) by (apply FI; left; auto). assert (a < b) by (apply FA; left; auto).
      exists i. split; auto. apply in_flat_map. exists a. split; auto.
      apply in_flat_map. exists j. split; [apply in_after; auto|].
      apply in_flat_map. exists b. split; [apply in_after; auto|]. left. apply ex2_move; auto.
  Qed.

  Lemma list3_In t : In t list3 <-> excited 3 s t.
  Proof.
    rewrite <- moves_In. unfold list3, moves. rewrite in_flat_map, in_map_iff. split.
    - intros (i & Hi & H). apply in_flat_map in H as (a & Ha & H).
      apply in_flat_map in H as (j & Hj & H). apply in_flat_map in H as (b & Hb & H).
      apply in_flat_map in H as (k & Hk & H). apply in_flat_map in H as (c & Hc & [<-|[]]).
      apply in_after in Hj as [Hj Lij]. apply in_after in Hb as [Hb Lab].
      apply in_after in Hk as [Hk Ljk]. apply in_after in Hc as [Hc Lbc].
      exists ([i; j; k], [a; b; c]). split; [symmetry; apply ex3_move; auto|].
      apply in_prod_iff. rewrite !combs_In by auto using sorted_occs, sorted_virs.
      repeat split; auto using sorted3, incl_3.
    - intros ((I & A) & <- & H). apply in_prod_iff in H as [HI HA].
      apply combs_In in HI as (SI & LI & CI); [|apply sorted_occs].
      apply combs_In in HA as (SA & LA & CA); [|apply sorted_virs].
      destruct I as [|i [|j [|k [|? ?]]]]; try discriminate.
      destruct A as [|a [|b [|c [|? ?]]]]; try discriminate.
      apply StronglySorted_inv in SI as [SI FI]. apply StronglySorted_inv in SA as [SA FA].
      apply StronglySorted_inv in SI as [_ FI']. apply StronglySorted_inv in SA as [_ FA'].
      rewrite Forall_forall in FI, FA, FI', FA'.
      assert (Hi : In i O) by (apply CI; left; auto). assert (Ha : In a V) by (apply CA; left; auto).
      assert (Hj : In j O) by (apply CI; right; left; auto).
      assert (Hb : In b V) by (apply CA; right; left; auto).
      assert (Hk : In k O) by (apply CI; right; right; left; auto).
      assert (Hc : In c V) by (apply CA; right; right; left; auto).
      assert (i < j) by (apply FI; left; auto). assert (a < b) by (apply FA; left; auto).
      assert (j < k) by (apply FI'; left; auto). assert (b < c) by (apply FA'; left; auto).
      exists i. split; auto. apply in_flat_map. exists a. split; auto.
      apply in_flat_map. exists j. split; [apply in_after; auto|].
      apply in_flat_map. exists b. split; [apply in_after; auto|].
      apply in_flat_map. exists k. split; [apply in_after; auto|].
      apply in_flat_map. exists c. split; [apply in_after; auto|]. left. apply ex3_move; auto.
  Qed.

  Notation rem k := (fun t => nth k (removed s t) 0).
  Notation add k := (fun t => nth k (added s t) 0).

  Ltac key mv := 
    rewrite mv by auto;
    rewrite ?removed_move, ?added_move by
      (auto using sorted1, sorted2, sorted3, incl_1, incl_2, incl_3);
    reflexivity.

  Lemma list1_NoDup : NoDup list1.
  Proof.
    unfold list1. apply (flat_map_NoDup (rem 0)); [apply sorted_NoDup, sorted_occs| |].
    - intros i Hi. apply (flat_map_NoDup (add 0)); [apply sorted_NoDup, sorted_virs| |].
      + intros a Ha. constructor; [intros []|constructor].
      + intros a t Ha [<-|[]]. key ex1_move.
    - intros i t Hi H. apply in_flat_map in H as (a & Ha & [<-|[]]). key ex1_move.
  Qed.

  Lemma list2_NoDup : NoDup list2.
  Proof.
    unfold list2. apply (flat_map_NoDup (rem 0)); [apply sorted_NoDup, sorted_occs| |].
    - intros i Hi. apply (flat_map_NoDup (add 0)); [apply sorted_NoDup, sorted_virs| |].
      + intros a Ha. apply (flat_map_NoDup (rem 1)); [apply sorted_NoDup, sorted_after, sorted_occs| |].
        * intros j Hj. apply in_after in Hj as [Hj Lij].
          apply (flat_map_NoDup (add 1)); [apply sorted_NoDup, sorted_after, sorted_virs| |].
          -- intros b Hb. constructor; [intros []|constructor].
          -- intros b t Hb [<-|[]]. apply in_after in Hb as [Hb Lab]. key ex2_move.
        * intros j t Hj H. apply in_flat_map in H as (b & Hb & [<-|[]]).
          apply in_after in Hj as [Hj Lij]. apply in_after in Hb as [Hb Lab]. key ex2_move.
      + intros a t Ha H. apply in_flat_map in H as (j & Hj & H).
        apply in_flat_map in H as (b & Hb & [<-|[]]).
        apply in_after in Hj as [Hj Lij]. apply in_after in Hb as [Hb Lab]. key ex2_move.
    - intros i t Hi H. apply in_flat_map in H as (a & Ha & H). apply in_flat_map in H as (j & Hj & H).
      apply in_flat_map in H as (b & Hb & [<-|[]]).
      apply in_after in Hj as [Hj Lij]. apply in_after in Hb as [Hb Lab]. key ex2_move.
  Qed.

  Lemma list3_NoDup : NoDup list3.
  Proof.
    unfold list3. apply (flat_map_NoDup (rem 0)); [apply sorted_NoDup, sorted_occs| |].
    - intros i Hi. apply (flat_map_NoDup (add 0)); [apply sorted_NoDup, sorted_virs| |].
      + intros a Ha. apply (flat_map_NoDup (rem 1)); [apply sorted_NoDup, sorted_after, sorted_occs| |].
        * intros j Hj. apply in_after in Hj as [Hj Lij].
          apply (flat_map_NoDup (add 1)); [apply sorted_NoDup, sorted_after, sorted_virs| |].
          -- intros b Hb. apply in_after in Hb as [Hb Lab].
             apply (flat_map_NoDup (rem 2)); [apply sorted_NoDup, sorted_after, sorted_occs| |].
             ++ intros k Hk. apply in_after in Hk as [Hk Ljk].
                apply (flat_map_NoDup (add 2)); [apply sorted_NoDup, sorted_after, sorted_virs| |].
                ** intros c Hc. constructor; [intros []|constructor].
                ** intros c t Hc [<-|[]]. apply in_after in Hc as [Hc Lbc]. key ex3_move.
             ++ intros k t Hk H. apply in_flat_map in H as (c & Hc & [<-|[]]).
                apply in_after in Hk as [Hk Ljk]. apply in_after in Hc as [Hc Lbc]. key ex3_move.
          -- intros b t Hb H. apply in_flat_map in H as (k & Hk & H).
             apply in_flat_map in H as (c & Hc & [<-|[]]). apply in_after in Hb as [Hb Lab].
             apply in_after in Hk as [Hk Ljk]. apply in_after in Hc as [Hc Lbc]. key ex3_move.
        * intros j t Hj H. apply in_flat_map in H as (b & Hb & H).
          apply in_flat_map in H as (k & Hk & H). apply in_flat_map in H as (c & Hc & [<-|[]]).
          apply in_after in Hj as [Hj Lij]. apply in_after in Hb as [Hb Lab].
          apply in_after in Hk as [Hk Ljk]. apply in_after in Hc as [Hc Lbc]. key ex3_move.
      + intros a t Ha H. apply in_flat_map in H as (j & Hj & H).
        apply in_flat_map in H as (b & Hb & H). apply in_flat_map in H as (k & Hk & H).
        apply in_flat_map in H as (c & Hc & [<-|[]]).
        apply in_after in Hj as [Hj Lij]. apply in_after in Hb as [Hb Lab].
        apply in_after in Hk as [Hk Ljk]. apply in_after in Hc as [Hc Lbc]. key ex3_move.
    - intros i t Hi H. apply in_flat_map in H as (a & Ha & H). apply in_flat_map in H as (j & Hj & H).
      apply in_flat_map in H as (b & Hb & H). apply in_flat_map in H as (k & Hk & H).
      apply in_flat_map in H as (c & Hc & [<-|[]]).
      apply in_after in Hj as [Hj Lij]. apply in_after in Hb as [Hb Lab].
      apply in_after in Hk as [Hk Ljk]. apply in_after in Hc as [Hc Lbc]. key ex3_move.
  Qed.

  (** number of strings *)
  Lemma list_count k l : NoDup l -> (forall t, In t l <-> excited k s t) ->
    length l = binom (nel s) k * binom (length s - nel s) k.
  Proof.
    intros N H. rewrite <- moves_length. apply Permutation_length, NoDup_Permutation; auto.
    - apply moves_NoDup.
    - intros t. rewrite H, moves_In. tauto.
  Qed.
End Loops.

(** *** The Python functions *)
Lemma Dstring_dstr s n : length s = n -> Dstring n (map b2z s) = Some (dstr s).
Proof. intros <-. unfold Dstring. rewrite map_length, Nat.eqb_refl. reflexivity. Qed.

Lemma default_occ_aufbau n k : default_occ n k = map b2z (aufbau n k).
Proof. unfold default_occ, aufbau. rewrite map_map. reflexivity. Qed.

Lemma aufbau_length n k : length (aufbau n k) = n.
Proof. unfold aufbau. rewrite map_length, seq_length. reflexivity. Qed.

Lemma s_strings_ref s nocc : s_strings (length s) nocc (Some (map b2z s)) = Some (map dstr (list1 s)).
Proof.
  unfold s_strings. cbn [get_occ]. rewrite (Dstring_dstr s _ eq_refl). cbn [bindo].
  rewrite indices_pos_occs, indices_pos_virs. apply s_loops.
Qed.
Lemma d_strings_ref s nocc : d_strings (length s) nocc (Some (map b2z s)) = Some (map dstr (list2 s)).
Proof.
  unfold d_strings. cbn [get_occ]. rewrite (Dstring_dstr s _ eq_refl). cbn [bindo].
  rewrite indices_pos_occs, indices_pos_virs. apply d_loops.
Qed.
Lemma t_strings_ref s nocc : t_strings (length s) nocc (Some (map b2z s)) = Some (map dstr (list3 s)).
Proof.
  unfold t_strings. cbn [get_occ]. rewrite (Dstring_dstr s _ eq_refl). cbn [bindo].
  rewrite indices_pos_occs, indices_pos_virs. apply t_loops.
Qed.

Lemma s_strings_default n k : s_strings n k None = s_strings n k (Some (map b2z (aufbau n k))).
Proof. rewrite <- default_occ_aufbau. reflexivity. Qed.
Lemma d_strings_default n k : d_strings n k None = d_strings n k (Some (map b2z (aufbau n k))).
Proof. rewrite <- default_occ_aufbau. reflexivity. Qed.
Lemma t_strings_default n k : t_strings n k None = t_strings n k (Some (map b2z (aufbau n k))).
Proof. rewrite <- default_occ_aufbau. reflexivity. Qed.
Lemma q_strings_default n k : q_strings n k None = q_strings n k (Some (map b2z (aufbau n k))).
Proof. rewrite <- default_occ_aufbau. reflexivity. Qed.

Lemma s_strings_aufbau n k : s_strings n k None = Some (map dstr (list1 (aufbau n k))).
Proof. rewrite s_strings_default. rewrite <- (aufbau_length n k) at 1. apply s_strings_ref. Qed.
Lemma d_strings_aufbau n k : d_strings n k None = Some (map dstr (list2 (aufbau n k))).
Proof. rewrite d_strings_default. rewrite <- (aufbau_length n k) at 1. apply d_strings_ref. Qed.
Lemma t_strings_aufbau n k : t_strings n k None = Some (map dstr (list3 (aufbau n k))).
Proof. rewrite t_strings_default. rewrite <- (aufbau_length n k) at 1. apply t_strings_ref. Qed.

(** [f] lists the k-fold excitations of s *)
Definition enumerates (k : nat) (s : det) (r : option (list dstring)) : Prop :=
  exists l, r = Some (map dstr l) /\ NoDup (map dstr l) /\
    (forall t, In t l <-> excited k s t) /\
    length l = binom (nel s) k * binom (length s - nel s) k.

Lemma NoDup_dstr l : NoDup l -> NoDup (map dstr l).
Proof. apply FinFun.Injective_map_NoDup. exact dstr_inj. Qed.

Lemma s_enumerates s nocc : enumerates 1 s (s_strings (length s) nocc (Some (map b2z s))).
Proof.
  exists (list1 s). rewrite s_strings_ref. split; [reflexivity|].
  split; [apply NoDup_dstr, list1_NoDup|]. split; [apply list1_In|].
  apply list_count; [apply list1_NoDup|apply list1_In].
Qed.
Lemma d_enumerates s nocc : enumerates 2 s (d_strings (length s) nocc (Some (map b2z s))).
Proof.
  exists (list2 s). rewrite d_strings_ref. split; [reflexivity|].
  split; [apply NoDup_dstr, list2_NoDup|]. split; [apply list2_In|].
  apply list_count; [apply list2_NoDup|apply list2_In].
Qed.
Lemma t_enumerates s nocc : enumerates 3 s (t_strings (length s) nocc (Some (map b2z s))).
Proof.
  exists (list3 s). rewrite t_strings_ref. split; [reflexivity|].
  split; [apply NoDup_dstr, list3_NoDup|]. split; [apply list3_In|].
  apply list_count; [apply list3_NoDup|apply list3_In].
Qed.
