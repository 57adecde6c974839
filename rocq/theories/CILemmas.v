(** Lemmas in the form of the statements of PropertiesCI.v (C23-C29). *)
From Coq Require Import List Bool Arith ZArith Lia.
From Verif Require Import Scalar Tensor NpModel CIModel CISpec CIRep CIFacts CIStrings CIBases CIVib CIHeap.
Import ListNotations.

Lemma excite_op s i a : i < length s -> a < length s -> i <> a ->
  excite (dstr s) i a
  = Some (match act [Cre a; Ann i] s with
          | Some (g, t) => Some (zsgn g, dstr t)
          | None => None
          end).
Proof. intros Li La N. rewrite excite_exc, act_exc by auto. reflexivity. Qed.

Lemma excite_none s i a : i < length s -> a < length s ->
  (excite (dstr s) i a = Some None <-> occd s i = false \/ occd s a = true).
Proof.
  intros Li La. rewrite excite_exc by auto. unfold exc.
  destruct (occd s i), (occd s a); cbn; split; intros H; auto; try discriminate.
  destruct H; discriminate.
Qed.

Lemma excite_some s i a sg e : i < length s -> a < length s ->
  excite (dstr s) i a = Some (Some (sg, e)) ->
  exists t, e = dstr t /\ (sg = 1%Z \/ sg = (-1)%Z) /\ length t = length s /\ nel t = nel s /\
    occd t i = false /\ occd t a = true /\ (forall p, p <> i -> p <> a -> occd t p = occd s p) /\
    excite (dstr t) a i = Some (Some (sg, dstr s)) /\ diff (dstr s) (dstr t) = 2%Z.
Proof.
  intros Li La H. rewrite excite_exc in H by auto.
  destruct (exc s i a) as [[g t]|] eqn:E; [|discriminate]. injection H as <- <-.
  pose proof (exc_length _ _ _ _ _ E) as L. destruct (exc_occ _ _ _ _ _ E) as (Oi & Oa & N & O).
  specialize (O La).
  exists t. split; [reflexivity|]. split; [destruct g; cbn; auto|]. split; [exact L|].
  split; [eapply exc_nel; eauto|]. rewrite !O, Nat.eqb_refl.
  destruct (Nat.eqb_spec i a); [contradiction|]. rewrite Nat.eqb_refl. split; [reflexivity|].
  split; [reflexivity|]. split.
  { intros p Ni Na. rewrite O. apply Nat.eqb_neq in Ni. apply Nat.eqb_neq in Na. rewrite Na, Ni. reflexivity. }
  split.
  - rewrite excite_exc by (rewrite L; auto). rewrite (exc_back _ _ _ _ _ Li La E). reflexivity.
  - unfold diff. rewrite level_ndiff, (exc_ndiff _ _ _ _ _ La E). reflexivity.
Qed.

Lemma diff_metric s t u : length s = length t -> length t = length u ->
  diff (dstr s) (dstr t) = Z.of_nat (ndiff s t) /\
  diff (dstr s) (dstr t) = diff (dstr t) (dstr s) /\
  (diff (dstr s) (dstr t) = 0%Z <-> s = t) /\
  (diff (dstr s) (dstr u) <= diff (dstr s) (dstr t) + diff (dstr t) (dstr u))%Z /\
  (nel s = nel t -> Z.even (diff (dstr s) (dstr t)) = true).
Proof.
  intros L1 L2. unfold diff. rewrite !level_ndiff. split; [reflexivity|].
  split; [rewrite (ndiff_sym s t); reflexivity|]. split.
  - rewrite <- (ndiff_zero s t L1). lia.
  - split; [pose proof (ndiff_triangle s t u L1 L2); lia|].
    intros N. destruct (ndiff_even s t L1 N) as [k ->]. rewrite Nat2Z.inj_mul. apply Z.even_mul.
Qed.

Lemma raize_spec v p : p < length v ->
  exists w, raize (pvec v) p = Some (pvec w) /\ length w = length v /\ total w = S (total v) /\
    nth p w 0 = S (nth p v 0) /\ (forall q, q <> p -> nth q w 0 = nth q v 0) /\
    lower (pvec w) p = Some (Some (pvec v)).
Proof.
  intros L. exists (inc p v). split; [apply raize_pvec; auto|]. split; [apply inc_length|].
  split; [apply total_inc; auto|]. rewrite nth_inc, Nat.eqb_refl by auto. split; [reflexivity|].
  split.
  - intros q N. rewrite nth_inc by auto. apply Nat.eqb_neq in N. rewrite N. reflexivity.
  - rewrite lower_pvec by (rewrite inc_length; auto). rewrite nth_inc, Nat.eqb_refl by auto. cbn.
    rewrite dec_inc by auto. reflexivity.
Qed.

Lemma lower_spec v p : p < length v ->
  (lower (pvec v) p = Some None <-> nth p v 0 = 0) /\
  (forall r, lower (pvec v) p = Some (Some r) -> exists w, r = pvec w /\ length w = length v /\
     S (total w) = total v /\ S (nth p w 0) = nth p v 0 /\
     (forall q, q <> p -> nth q w 0 = nth q v 0) /\
     raize (pvec w) p = Some (pvec v)).
Proof.
  intros L. rewrite lower_pvec by auto. destruct (Nat.eqb_spec (nth p v 0) 0) as [E|E].
  - split; [tauto|]. discriminate.
  - split; [split; [discriminate|tauto]|]. intros r [= <-].
    exists (dec p v). assert (Ld : length (dec p v) = length v) by apply upd_length.
    split; [reflexivity|]. split; [exact Ld|].
    split; [apply total_dec; auto|]. unfold dec at 1. rewrite nth_upd, Nat.eqb_refl by auto.
    split; [lia|]. split.
    + intros q N. unfold dec. rewrite nth_upd by auto. apply Nat.eqb_neq in N. rewrite N. reflexivity.
    + rewrite raize_pvec by (rewrite Ld; auto). rewrite inc_dec by auto. reflexivity.
Qed.

(** [f] lists, without duplicates, exactly the k-fold excitations of s *)
Lemma s_strings_ok s nocc : exists l,
  s_strings (length s) nocc (Some (map b2z s)) = Some (map dstr l) /\ NoDup (map dstr l) /\
  (forall t, In t l <-> excited 1 s t) /\ length l = binom (nel s) 1 * binom (length s - nel s) 1.
Proof. exact (s_enumerates s nocc). Qed.

(** the u-bases *)

Ltac small_tags := intros k H; cbn in H;
  repeat (destruct H as [<-|H]; [cbn; lia|]); destruct H.

Lemma u_enum A B tags m : (forall k, In k tags -> fst k <= 3 /\ snd k <= 3) ->
  NoDup tags -> (forall ka kb, In (ka, kb) tags <-> ka + kb <= m) ->
  NoDup (map dpair (ulist A B tags)) /\
  (forall x, In x (ulist A B tags) <-> u_space m A B x).
Proof.
  intros H N T. split.
  - apply FinFun.Injective_map_NoDup; [exact dpair_inj|]. apply ulist_NoDup; auto.
  - intros [a b]. rewrite ulist_In by auto. unfold u_space. cbn [fst snd].
    split; intros (ka & kb & X); exists ka, kb; rewrite T in *; tauto.
Qed.

Ltac tag_iff := intros ka kb; split;
  [ intros H; cbn in H; repeat (destruct H as [[= <- <-]|H]; [lia|]); destruct H
  | intros H; destruct ka as [|[|[|[|]]]], kb as [|[|[|[|]]]]; try lia; cbn; tauto ].
Ltac nodup_tags := repeat constructor; cbn; intuition congruence.

Lemma ucis_ok n na nb : exists L, ucis_basis n na nb true = Some (map dpair L) /\
  NoDup (map dpair L) /\ hd_error L = Some (aufbau n na, aufbau n nb) /\
  (forall x, In x L <-> u_space 1 (aufbau n na) (aufbau n nb) x).
Proof.
  eexists. split; [apply ucis_list|]. destruct (u_enum (aufbau n na) (aufbau n nb)
    [(0, 0); (1, 0); (0, 1)] 1) as [N I]; [small_tags|nodup_tags|tag_iff|]. auto.
Qed.

Lemma ucisd_ok n na nb : exists L, ucisd_basis n na nb = Some (map dpair L) /\
  NoDup (map dpair L) /\ hd_error L = Some (aufbau n na, aufbau n nb) /\
  (forall x, In x L <-> u_space 2 (aufbau n na) (aufbau n nb) x).
Proof.
  eexists. split; [apply ucisd_list|]. destruct (u_enum (aufbau n na) (aufbau n nb)
    [(0, 0); (1, 0); (0, 1); (2, 0); (0, 2); (1, 1)] 2) as [N I];
    [small_tags|nodup_tags|tag_iff|]. auto.
Qed.

Lemma ucisdt_ok n na nb : exists L, ucisdt_basis n na nb = Some (map dpair L) /\
  NoDup (map dpair L) /\ hd_error L = Some (aufbau n na, aufbau n nb) /\
  (forall x, In x L <-> u_space 3 (aufbau n na) (aufbau n nb) x).
Proof.
  eexists. split; [apply ucisdt_list|]. destruct (u_enum (aufbau n na) (aufbau n nb)
    [(0, 0); (1, 0); (0, 1); (2, 0); (0, 2); (1, 1); (3, 0); (0, 3); (2, 1); (1, 2)] 3) as [N I];
    [small_tags|nodup_tags|tag_iff|]. auto.
Qed.

Lemma ucis_no_ref n na nb : exists L, ucis_basis n na nb true = Some (map dpair ((aufbau n na, aufbau n nb) :: L)) /\
  ucis_basis n na nb false = Some (map dpair L).
Proof.
  eexists. rewrite !ucis_list. split; [|reflexivity]. reflexivity.
Qed.

(** quadruples *)
Lemma excited_bound k s t : excited k s t -> k <= nel s /\ k <= length s - nel s.
Proof.
  intros H. apply moves_In in H. unfold moves in H. apply in_map_iff in H as ((I & A) & _ & H).
  apply in_prod_iff in H as [HI HA].
  apply combs_In in HI as (SI & LI & CI); [|apply sorted_occs].
  apply combs_In in HA as (SA & LA & CA); [|apply sorted_virs].
  split; [rewrite <- occs_length, <- LI|rewrite <- virs_length, <- LA];
    apply NoDup_incl_length; auto using sorted_NoDup.
Qed.

Lemma nel_aufbau n k : k <= n -> nel (aufbau n k) = k.
Proof.
  intros L. rewrite aufbau_split by auto.
  assert (R : forall m, nel (repeat false m) = 0) by (induction m; auto).
  generalize (n - k). intros m. induction k as [|k IH]; cbn; [auto|]. rewrite IH by lia. reflexivity.
Qed.

Lemma q_right n k : k <= n -> k < 4 \/ n - k < 4 ->
  q_strings n k None = Some [] /\ (forall t, ~ excited 4 (aufbau n k) t).
Proof.
  intros L S. split; [rewrite q_strings_list, q_small by auto; reflexivity|].
  intros t H. apply excited_bound in H. rewrite nel_aufbau, aufbau_length in H by auto. lia.
Qed.

Lemma q_wrong n k : 4 <= k -> 4 <= n - k -> exists l, q_strings n k None = Some (map dstr l) /\
  ~ NoDup l /\ (5 <= k -> exists t, excited 4 (aufbau n k) t /\ ~ In t l).
Proof.
  intros L1 L2. exists (list4q n k). split; [apply q_strings_list; lia|].
  split; [apply q_duplicates; auto; lia|]. intros H. apply q_misses; auto; lia.
Qed.

Lemma ucisdtq_ok n na nb : na <= n -> nb <= n ->
  na < 4 \/ n - na < 4 -> nb < 4 \/ n - nb < 4 ->
  exists L, ucisdtq_basis n na nb = Some (map dpair L) /\
  NoDup (map dpair L) /\ hd_error L = Some (aufbau n na, aufbau n nb) /\
  (forall x, In x L <-> u_space 4 (aufbau n na) (aufbau n nb) x).
Proof.
  intros La Lb Ha Hb. eexists.
  split; [apply ucisdtq_list; [apply (q_right n na La Ha)|apply (q_right n nb Lb Hb)]|].
  set (tags := [(0, 0); (1, 0); (0, 1); (2, 0); (0, 2); (1, 1); (3, 0); (0, 3); (2, 1); (1, 2);
                (3, 1); (2, 2); (1, 3)]).
  assert (T : forall k, In k tags -> fst k <= 3 /\ snd k <= 3) by small_tags.
  split; [|split; [reflexivity|]].
  - apply FinFun.Injective_map_NoDup; [exact dpair_inj|]. apply ulist_NoDup; auto. nodup_tags.
  - intros [a b]. rewrite ulist_In by auto. unfold u_space. cbn [fst snd].
    split; intros (ka & kb & X); exists ka, kb.
    + destruct X as (I & X). split; [tauto|]. split; [tauto|]. unfold tags in I. cbn in I.
      repeat (destruct I as [[= <- <-]|I]; [lia|]). destruct I.
    + destruct X as (X & Y & Z). split; [|tauto].
      assert (ka <> 4) by (intros ->; apply (proj2 (q_right n na La Ha) a X)).
      assert (kb <> 4) by (intros ->; apply (proj2 (q_right n nb Lb Hb) b Y)).
      destruct ka as [|[|[|[|]]]], kb as [|[|[|[|]]]]; try lia; cbn; tauto.
Qed.

Lemma ucisdtq_dup n na nb : na <= n -> nb <= n -> 4 <= na -> 4 <= n - na ->
  exists L, ucisdtq_basis n na nb = Some L /\ ~ NoDup L.
Proof.
  intros La Lb H1 H2. unfold ucisdtq_basis.
  rewrite !s_strings_aufbau, !d_strings_aufbau, !t_strings_aufbau, !Dstring_default,
    (q_strings_list n na La), (q_strings_list n nb Lb). cbn [bindo].
  eexists. split; [reflexivity|]. intros N.
  repeat match type of N with NoDup ((?a ++ map (fun x => (x, dstr (aufbau n nb))) (map dstr (list4q n na))) ++ _) => fail 1
                       | NoDup (_ ++ _) => apply NoDup_app_l' in N end.
  apply NoDup_app_l' in N. apply NoDup_app_r' in N.
  apply NoDup_map_inv in N. apply NoDup_map_inv in N. revert N. apply q_duplicates; auto.
Qed.

(** the g-bases *)
Lemma g_enum s tags m : (forall k, In k tags -> k <= 3) -> NoDup tags ->
  (forall k, In k tags <-> k <= m) ->
  NoDup (map dstr (glist s tags)) /\
  (forall t, In t (glist s tags) <-> exists k, excited k s t /\ k <= m).
Proof.
  intros H N T. split.
  - apply FinFun.Injective_map_NoDup; [exact dstr_inj|]. apply glist_NoDup; auto.
  - intros t. rewrite glist_In by auto. split; intros (k & X); exists k; rewrite T in *; tauto.
Qed.
Ltac nodup_nat := repeat (apply NoDup_cons; [cbn; lia|]); apply NoDup_nil.
Ltac gtags := intros k H; cbn in H; repeat (destruct H as [<-|H]; [lia|]); destruct H.
Ltac gtag_iff := intros k; split;
  [ intros H; cbn in H; repeat (destruct H as [<-|H]; [lia|]); destruct H
  | intros H; destruct k as [|[|[|[|]]]]; try lia; cbn; tauto ].

Lemma gcis_ok m N : exists L, gcis_basis (2 * m) N true = Some (map dstr L) /\
  NoDup (map dstr L) /\ hd_error L = Some (gref m N) /\
  (forall t, In t L <-> exists k, excited k (gref m N) t /\ k <= 1).
Proof.
  eexists. split; [apply gcis_list|]. destruct (g_enum (gref m N) [0; 1] 1) as [D I];
    [gtags|nodup_nat|gtag_iff|]. auto.
Qed.
Lemma gcisd_ok m N : exists L, gcisd_basis (2 * m) N = Some (map dstr L) /\
  NoDup (map dstr L) /\ hd_error L = Some (gref m N) /\
  (forall t, In t L <-> exists k, excited k (gref m N) t /\ k <= 2).
Proof.
  eexists. split; [apply gcisd_list|]. destruct (g_enum (gref m N) [0; 1; 2] 2) as [D I];
    [gtags|nodup_nat|gtag_iff|]. auto.
Qed.
Lemma gcisdt_ok m N : exists L, gcisdt_basis (2 * m) N = Some (map dstr L) /\
  NoDup (map dstr L) /\ hd_error L = Some (gref m N) /\
  (forall t, In t L <-> exists k, excited k (gref m N) t /\ k <= 3).
Proof.
  eexists. split; [apply gcisdt_list|]. destruct (g_enum (gref m N) [0; 1; 2; 3] 3) as [D I];
    [gtags|nodup_nat|gtag_iff|]. auto.
Qed.
Lemma gcis_no_ref m N : exists L, gcis_basis (2 * m) N true = Some (map dstr (gref m N :: L)) /\
  gcis_basis (2 * m) N false = Some (map dstr L).
Proof. eexists. rewrite !gcis_list. split; reflexivity. Qed.

Lemma g_odd_raises m N gs :
  gcis_basis (2 * m + 1) N gs = None /\ gcisd_basis (2 * m + 1) N = None /\
  gcisdt_basis (2 * m + 1) N = None /\ gcisdtq_basis (2 * m + 1) N = None.
Proof.
  unfold gcis_basis, gcisd_basis, gcisdt_basis, gcisdtq_basis. cbv zeta.
  rewrite Dstring_odd. repeat split.
Qed.

Lemma gref_spec m N : length (gref m N) = 2 * m /\ (N - Nat.div N 2 <= m -> nel (gref m N) = N).
Proof.
  split; [apply gref_length|]. intros L. unfold gref.
  assert (A : forall a b, nel (a ++ b) = nel a + nel b)
    by (induction a as [|x a IH]; intros b; cbn; [auto|rewrite IH; lia]).
  assert (D : Nat.div N 2 <= N - Nat.div N 2).
  { pose proof (Nat.div_mod N 2 ltac:(lia)). lia. }
  rewrite A, !nel_aufbau by lia. lia.
Qed.
