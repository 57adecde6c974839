(** Proofs: exactly which quadruple excitations q_strings returns, and how
    often (ci_utils.py:135-168), for any reference in which orbitals 0 and 1
    are occupied, and the bases that contain its list.  Specification:
    CIQuadSpec.v. *)
From Coq Require Import List Bool Arith ZArith Lia Permutation Sorted.
From Verif Require Import Scalar Tensor NpModel CIModel CISpec CIQuadSpec CIRep CIFacts CIStrings CIBases CILemmas CIExpG.
Import ListNotations.

(** *** Copies of a list *)
Definition copies {X} (l : list X) (c : nat) : list X := concat (repeat l c).

Lemma copies_0 {X} (l : list X) : copies l 0 = [].
Proof. reflexivity. Qed.
Lemma copies_nil {X} c : copies (@nil X) c = [].
Proof. induction c; [reflexivity|]. unfold copies in *. cbn. auto. Qed.
Lemma copies_app {X} (l : list X) c d : copies l (c + d) = copies l c ++ copies l d.
Proof. unfold copies. rewrite repeat_app, concat_app. reflexivity. Qed.
Lemma copies_mul {X} (l : list X) c d : copies (copies l c) d = copies l (c * d).
Proof.
  induction d as [|d IH]; [rewrite Nat.mul_0_r; reflexivity|].
  change (copies l c ++ copies (copies l c) d = copies l (c * S d)).
  rewrite IH, <- copies_app. f_equal. lia.
Qed.
Lemma copies_perm {X} (l l' : list X) c : Permutation l l' -> Permutation (copies l c) (copies l' c).
Proof.
  intros P. induction c as [|c IH]; [constructor|].
  change (Permutation (l ++ copies l c) (l' ++ copies l' c)). apply Permutation_app; auto.
Qed.
Lemma copies_map {X Y} (f : X -> Y) l c : map f (copies l c) = copies (map f l) c.
Proof. unfold copies. rewrite concat_map. f_equal. induction c; cbn; [|rewrite IHc]; reflexivity. Qed.
Lemma flat_map_copies {X Y} (f : X -> list Y) (l : list X) c :
  Permutation (flat_map (fun x => copies (f x) c) l) (copies (flat_map f l) c).
Proof.
  induction l as [|x l IH]; cbn [flat_map]; [rewrite copies_nil; constructor|].
  rewrite IH. clear IH. generalize (f x) (flat_map f l). intros u v. induction c as [|c IH]; [constructor|].
  change (Permutation ((u ++ copies u c) ++ v ++ copies v c) ((u ++ v) ++ copies (u ++ v) c)).
  rewrite <- IH, <- !app_assoc. apply Permutation_app_head. rewrite !app_assoc. apply Permutation_app_tail.
  apply Permutation_app_comm.
Qed.

(** a loop over the entries of an occupation list whose body does not depend
    on which orbital the entry belongs to *)
Lemma loop_ones {X} (s : det) (l : list X) :
  flat_map (fun j => if Z.leb j 0 then [] else l) (map b2z s) = copies l (nel s).
Proof. induction s as [|[] s IH]; cbn; [reflexivity|rewrite IH; reflexivity|exact IH]. Qed.
Lemma loop_zeros {X} (s : det) (l : list X) :
  flat_map (fun i => if Z.eqb i 0 then l else []) (map b2z s) = copies l (length s - nel s).
Proof.
  assert (Le : forall u, nel u <= length u) by (induction u as [|[] u IH]; cbn; lia).
  induction s as [|[] s IH]; cbn [map b2z flat_map Z.eqb nel length app].
  - reflexivity.
  - rewrite IH. f_equal.
  - rewrite IH. specialize (Le s). replace (S (length s) - (0 + nel s)) with (S (length s - nel s)) by lia. reflexivity.
Qed.

Section Quads.
  Variable s : det.
  Hypothesis O0 : occd s 0 = true.
  Hypothesis O1 : occd s 1 = true.
  Notation O := (occs s).
  Notation V := (virs s).

  (** the list of one pass of the loops over i and j *)
  Definition qlist : list det :=
    flat_map (fun a => flat_map (fun b => flat_map (fun k => flat_map (fun c => flat_map (fun l => flat_map (fun d =>
      [ex1 (ex1 (ex1 (ex1 s 0 a) 1 b) k c) l d])
      (after c V)) (after k O)) (after b V)) (after 1 O)) (after a V)) V.

  Lemma in01 : In 0 O /\ In 1 O.
  Proof. rewrite !in_occs. auto. Qed.

  Lemma ex4_move a b k c l d : In a V -> In b V -> In c V -> In d V -> In k O -> In l O ->
    a < b -> b < c -> c < d -> 1 < k -> k < l ->
    ex1 (ex1 (ex1 (ex1 s 0 a) 1 b) k c) l d = move s ([0; 1; k; l], [a; b; c; d]).
  Proof.
    intros Ha Hb Hc Hd Hk Hl Lab Lbc Lcd L1k Lkl.
    rewrite (ex3_move s 0 a 1 b k c) by (auto using (proj1 in01), (proj2 in01)).
    apply in_occs in Hk, Hl. apply in_virs in Ha as [La Va], Hb as [Lb Vb], Hc as [Lc Vc], Hd as [Ld Vd].
    assert (k < length s) by (apply occd_lt; auto). assert (l < length s) by (apply occd_lt; auto).
    assert (a <> l /\ b <> l /\ c <> l) as (? & ? & ?) by (repeat split; intros ->; congruence).
    apply det_ext; [rewrite ex1_length, !move_length; auto|]. intros p Hp. rewrite ex1_length, move_length in Hp.
    rewrite ex1_occd, !move_occd by (rewrite ?move_length; auto). cbn. rewrite !orb_false_r.
    destruct (Nat.eqb_spec p a), (Nat.eqb_spec p b), (Nat.eqb_spec p c), (Nat.eqb_spec p d),
      (Nat.eqb_spec p k), (Nat.eqb_spec p l); destruct p as [|[|p]]; cbn; auto; lia.
  Qed.

  Lemma excite_ex1 u i a : occd u i = true -> a < length u -> occd u a = false ->
    excite_ (dstr u) i a = Some (dstr (ex1 u i a)).
  Proof. apply excite__ok. Qed.

  Lemma q_loops nocc : exists l,
    q_strings (length s) nocc (Some (map b2z s)) = Some (map dstr l) /\
    Permutation l (copies qlist (nel s * (length s - nel s))).
  Proof.
    exists (flat_map (fun i => if Z.eqb i 0 then
      flat_map (fun a => flat_map (fun j => if Z.leb j 0 then [] else
        flat_map (fun b => flat_map (fun k => flat_map (fun c => flat_map (fun l => flat_map (fun d =>
          [ex1 (ex1 (ex1 (ex1 s 0 a) 1 b) k c) l d])
          (after c V)) (after k O)) (after b V)) (after 1 O)) (after a V)) (map b2z s)) V else []) (map b2z s)).
    split.
    - unfold q_strings. cbn [get_occ]. rewrite (Dstring_dstr s _ eq_refl). cbn [bindo].
      rewrite indices_pos_occs, indices_pos_virs. rewrite <- flat_map_dstr.
      apply collect_ok. intros i Hi.
      assert (B : forall z, In z (map b2z s) -> z = 0%Z \/ z = 1%Z)
        by (intros z I; apply in_map_iff in I as ([] & <- & _); auto).
      destruct (B i Hi) as [-> | ->].
      2:{ cbn [Z.eqb map]. apply CIExpG.collect_nil. intros a _. apply CIExpG.collect_nil. intros j Hj.
          destruct (B j Hj) as [-> | ->]; reflexivity. }
      change (Z.eqb 0 0) with true. cbn iota. rewrite <- flat_map_dstr.
      apply collect_ok. intros a Ha. rewrite <- flat_map_dstr.
      apply collect_ok. intros j Hj. destruct (B j Hj) as [-> | ->]; [reflexivity|].
      change (Z.leb 1 0) with false. cbn iota. rewrite <- flat_map_dstr.
      apply collect_after. intros b Hb Lab.
      rewrite (collect_ext O _ (fun k => if Nat.leb k 1 then Some [] else
        collect V (fun c => if Nat.leb c b then Some [] else
          collect O (fun l => if Nat.leb l k then Some [] else
            collect V (fun d => if Nat.leb d c then Some [] else
              let? d1 := excite_ (dstr s) (Z.to_nat 0) a in
              let? d2 := excite_ d1 (Z.to_nat 1) b in
              let? d3 := excite_ d2 k c in
              let? d4 := excite_ d3 l d in Some [d4]))))).
      2:{ intros k _. destruct (Nat.leb_spec k 1), (Z.leb_spec (Z.of_nat k) 1); try lia; reflexivity. }
      rewrite <- flat_map_dstr. apply collect_after. intros k Hk L1k.
      rewrite <- flat_map_dstr. apply collect_after. intros c Hc Lbc.
      rewrite <- flat_map_dstr. apply collect_after. intros l Hl Lkl.
      rewrite <- flat_map_dstr. apply collect_after. intros d Hd Lcd.
      change (Z.to_nat 0) with 0. change (Z.to_nat 1) with 1.
      apply in_occs in Hk, Hl. apply in_virs in Ha as [La Va], Hb as [Lb Vb], Hc as [Lc Vc], Hd as [Ld Vd].
      assert (X : forall p q, occd s p = true -> occd s q = false -> p <> q) by (intros p q H H' ->; congruence).
      assert (X0 : forall q, occd s q = false -> q <> 0 /\ q <> 1) by (intros q H; split; intros ->; congruence).
      pose proof (X0 a Va). pose proof (X0 b Vb). pose proof (X0 c Vc). pose proof (X0 d Vd).
      pose proof (X k a Hk Va). pose proof (X k b Hk Vb). pose proof (X k c Hk Vc). pose proof (X k d Hk Vd).
      pose proof (X l a Hl Va). pose proof (X l b Hl Vb). pose proof (X l c Hl Vc). pose proof (X l d Hl Vd).
      assert (L1 : 1 < length s) by (apply occd_lt; auto). assert (L0 : 0 < length s) by lia.
      pose proof (occd_lt _ _ Hk). pose proof (occd_lt _ _ Hl).
      rewrite (excite_ex1 s 0 a) by auto. cbn [bindo].
      rewrite (excite_ex1 (ex1 s 0 a) 1 b); cbn [bindo];
        [| rewrite ex1_occd by auto; repeat match goal with |- context [Nat.eqb ?x ?y] => destruct (Nat.eqb_spec x y); try lia end; auto
         | rewrite ex1_length; auto
         | rewrite ex1_occd by auto; repeat match goal with |- context [Nat.eqb ?x ?y] => destruct (Nat.eqb_spec x y); try lia end; auto].
      rewrite (excite_ex1 (ex1 (ex1 s 0 a) 1 b) k c); cbn [bindo];
        [| rewrite !ex1_occd by (rewrite ?ex1_length; auto); repeat match goal with |- context [Nat.eqb ?x ?y] => destruct (Nat.eqb_spec x y); try lia end; auto
         | rewrite !ex1_length; auto
         | rewrite !ex1_occd by (rewrite ?ex1_length; auto); repeat match goal with |- context [Nat.eqb ?x ?y] => destruct (Nat.eqb_spec x y); try lia end; auto].
      rewrite (excite_ex1 (ex1 (ex1 (ex1 s 0 a) 1 b) k c) l d); cbn [bindo];
        [reflexivity
         | rewrite !ex1_occd by (rewrite ?ex1_length; auto); repeat match goal with |- context [Nat.eqb ?x ?y] => destruct (Nat.eqb_spec x y); try lia end; auto
         | rewrite !ex1_length; auto
         | rewrite !ex1_occd by (rewrite ?ex1_length; auto); repeat match goal with |- context [Nat.eqb ?x ?y] => destruct (Nat.eqb_spec x y); try lia end; auto].
    - rewrite loop_zeros, <- copies_mul. apply copies_perm.
      unfold qlist. rewrite <- flat_map_copies.
      erewrite flat_map_ext; [apply Permutation_refl|]. intros a. cbv beta. rewrite loop_ones. reflexivity.
  Qed.

  Lemma sorted4 x y z w : x < y -> y < z -> z < w -> sorted [x; y; z; w].
  Proof. repeat constructor; lia. Qed.
  Lemma incl_4 x y w v (l : list nat) : In x l -> In y l -> In w l -> In v l -> incl [x; y; w; v] l.
  Proof. intros H1 H2 H3 H4 z [<-|[<-|[<-|[<-|[]]]]]; auto. Qed.

  Lemma qlist_In t : In t qlist <-> excited 4 s t /\ occd t 0 = false /\ occd t 1 = false.
  Proof.
    destruct in01 as [I0 I1]. rewrite <- moves_In. unfold qlist, moves. rewrite in_flat_map, in_map_iff. split.
    - intros (a & Ha & H). apply in_flat_map in H as (b & Hb & H). apply in_flat_map in H as (k & Hk & H).
      apply in_flat_map in H as (c & Hc & H). apply in_flat_map in H as (l & Hl & H).
      apply in_flat_map in H as (d & Hd & [<-|[]]).
      apply in_after in Hb as [Hb Lab], Hk as [Hk L1k], Hc as [Hc Lbc], Hl as [Hl Lkl], Hd as [Hd Lcd].
      rewrite ex4_move by auto. split.
      + exists ([0; 1; k; l], [a; b; c; d]). split; [reflexivity|].
        apply in_prod_iff. rewrite !combs_In by auto using sorted_occs, sorted_virs.
        repeat split; auto using sorted4, incl_4.
      + apply in_virs in Ha as [La Va], Hb as [Lb Vb], Hc as [Lc Vc], Hd as [Ld Vd].
        assert (X0 : forall q, occd s q = false -> q <> 0 /\ q <> 1) by (intros q H; split; intros ->; congruence).
        pose proof (X0 a Va). pose proof (X0 b Vb). pose proof (X0 c Vc). pose proof (X0 d Vd).
        assert (L1 : 1 < length s) by (apply occd_lt; auto).
        rewrite !move_occd by lia. cbn [fst snd mem existsb].
        repeat match goal with |- context [Nat.eqb ?x ?y] => destruct (Nat.eqb_spec x y); try lia end; auto.
    - intros (((I & A) & <- & H) & E0 & E1). apply in_prod_iff in H as [HI HA].
      apply combs_In in HI as (SI & LI & CI); [|apply sorted_occs].
      apply combs_In in HA as (SA & LA & CA); [|apply sorted_virs].
      assert (L1 : 1 < length s) by (apply occd_lt; auto).
      rewrite move_occd in E0, E1 by lia. cbn [fst snd] in E0, E1.
      assert (M0 : In 0 I).
      { destruct (mem 0 A); [discriminate|]. destruct (mem 0 I) eqn:M; [apply mem_In; auto|congruence]. }
      assert (M1 : In 1 I).
      { destruct (mem 1 A); [discriminate|]. destruct (mem 1 I) eqn:M; [apply mem_In; auto|congruence]. }
      clear E0 E1.
      destruct I as [|i [|j [|k [|l [|? ?]]]]]; try discriminate.
      destruct A as [|a [|b [|c [|d [|? ?]]]]]; try discriminate.
      apply StronglySorted_inv in SI as [SI FI]. apply StronglySorted_inv in SA as [SA FA].
      apply StronglySorted_inv in SI as [SI FI']. apply StronglySorted_inv in SA as [SA FA'].
      apply StronglySorted_inv in SI as [_ FI'']. apply StronglySorted_inv in SA as [_ FA''].
      rewrite Forall_forall in FI, FA, FI', FA', FI'', FA''.
      assert (i < j) by (apply FI; cbn; auto). assert (j < k) by (apply FI'; cbn; auto).
      assert (k < l) by (apply FI''; cbn; auto).
      assert (a < b) by (apply FA; cbn; auto). assert (b < c) by (apply FA'; cbn; auto).
      assert (c < d) by (apply FA''; cbn; auto).
      assert (i = 0) by (cbn in M0; lia). assert (j = 1) by (cbn in M1; lia). subst i j.
      assert (Hk : In k O) by (apply CI; cbn; auto). assert (Hl : In l O) by (apply CI; cbn; auto).
      assert (Ha : In a V) by (apply CA; cbn; auto). assert (Hb : In b V) by (apply CA; cbn; auto).
      assert (Hc : In c V) by (apply CA; cbn; auto). assert (Hd : In d V) by (apply CA; cbn; auto).
      exists a. split; auto. apply in_flat_map. exists b. split; [apply in_after; auto|].
      apply in_flat_map. exists k. split; [apply in_after; auto|].
      apply in_flat_map. exists c. split; [apply in_after; auto|].
      apply in_flat_map. exists l. split; [apply in_after; auto|].
      apply in_flat_map. exists d. split; [apply in_after; auto|]. left. apply ex4_move; auto.
  Qed.

  Notation rem k := (fun t => nth k (removed s t) 0).
  Notation add k := (fun t => nth k (added s t) 0).
  Ltac key :=
    destruct in01 as [I0 I1];
    repeat match goal with H : In _ (after _ _) |- _ => apply in_after in H as [? ?] end;
    rewrite ex4_move by auto;
    rewrite ?removed_move, ?added_move by (auto using sorted4, incl_4);
    reflexivity.
  Ltac open H :=
    repeat match type of H with
           | In _ (flat_map _ _) => apply in_flat_map in H as (? & ? & H)
           | In _ [_] => destruct H as [<-|[]]
           end.

  Lemma qlist_NoDup : NoDup qlist.
  Proof.
    unfold qlist. apply (flat_map_NoDup (add 0)); [apply sorted_NoDup, sorted_virs| |].
    2:{ intros a t Ha H. open H. key. }
    intros a Ha. apply (flat_map_NoDup (add 1)); [apply sorted_NoDup, sorted_after, sorted_virs| |].
    2:{ intros b t Hb H. open H. key. }
    intros b Hb. apply (flat_map_NoDup (rem 2)); [apply sorted_NoDup, sorted_after, sorted_occs| |].
    2:{ intros k t Hk H. open H. key. }
    intros k Hk. apply (flat_map_NoDup (add 2)); [apply sorted_NoDup, sorted_after, sorted_virs| |].
    2:{ intros c t Hc H. open H. key. }
    intros c Hc. apply (flat_map_NoDup (rem 3)); [apply sorted_NoDup, sorted_after, sorted_occs| |].
    2:{ intros l t Hl H. open H. key. }
    intros l Hl. apply (flat_map_NoDup (add 3)); [apply sorted_NoDup, sorted_after, sorted_virs| |].
    2:{ intros d t Hd H. open H. key. }
    intros d Hd. constructor; [intros []|constructor].
  Qed.
End Quads.

Lemma q_list_none s : (forall t, ~ excited 4 s t) -> q_list_of s [].
Proof.
  intros H. exists []. split; [constructor|]. split; [intros t; split; [intros []|intros [X _]; destruct (H t X)]|].
  change (Permutation [] (copies (@nil det) (nel s * (length s - nel s)))). rewrite copies_nil. constructor.
Qed.

Lemma q_exact n k : k <= n -> exists l, q_strings n k None = Some (map dstr l) /\ q_list_of (aufbau n k) l.
Proof.
  intros L. destruct (Nat.lt_ge_cases k 4) as [F|F].
  - exists []. destruct (q_right n k L (or_introl F)) as [Q N]. rewrite Q. split; [reflexivity|]. apply q_list_none, N.
  - assert (O : forall p, p < 4 -> occd (aufbau n k) p = true)
      by (intros p H; rewrite aufbau_occd by lia; apply Nat.ltb_lt; lia).
    destruct (q_loops (aufbau n k) (O 0 ltac:(lia)) (O 1 ltac:(lia)) k) as (l & E & P).
    rewrite aufbau_length in E. exists l. split; [rewrite q_strings_default; exact E|].
    exists (qlist (aufbau n k)). split; [apply qlist_NoDup; apply O; lia|].
    split; [intros t; apply qlist_In; apply O; lia|exact P].
Qed.

Lemma g_q_exact m N : N <= 2 * m -> exists l,
  q_strings (2 * m) N (Some (map b2z (gref m N))) = Some (map dstr l) /\ q_list_of (gref m N) l.
Proof.
  intros L. pose proof (Nat.div_mod N 2 ltac:(discriminate)). pose proof (Nat.mod_upper_bound N 2 ltac:(discriminate)).
  assert (Half : N - N / 2 <= m) by lia. pose proof (gref_spec m N) as [G1 G2]. specialize (G2 Half).
  destruct (Nat.lt_ge_cases N 4) as [F|F].
  - exists []. rewrite (g_q_small m N L (or_introl F)). split; [reflexivity|]. apply q_list_none.
    intros t X. apply excited_bound in X. rewrite G2 in X. lia.
  - assert (O : forall p, p < 2 -> occd (gref m N) p = true).
    { intros p H'. unfold gref, occd. rewrite app_nth1 by (rewrite aufbau_length; lia).
      fold (occd (aufbau m (N - N / 2)) p). rewrite aufbau_occd by lia. apply Nat.ltb_lt. lia. }
    destruct (q_loops (gref m N) (O 0 ltac:(lia)) (O 1 ltac:(lia)) N) as (l & E & P).
    rewrite gref_length in E. exists l. split; [exact E|].
    exists (qlist (gref m N)). split; [apply qlist_NoDup; apply O; lia|].
    split; [intros t; apply qlist_In; apply O; lia|exact P].
Qed.

(** gcisdtq_basis: gcisdt_basis followed by that list *)
Lemma gcisdtq_exact m N : N <= 2 * m ->
  exists L l, gcisdtq_basis (2 * m) N = Some (map dstr (L ++ l)) /\
  NoDup L /\ hd_error L = Some (gref m N) /\
  (forall t, In t L <-> exists k, excited k (gref m N) t /\ k <= 3) /\ q_list_of (gref m N) l.
Proof.
  intros Le. destruct (gcisdt_ok m N) as (L & E & ND & Hd & InL). destruct (g_q_exact m N Le) as (l & Q & X).
  exists L, l. split; [|split; [exact (NoDup_map_inv _ _ ND)|auto]].
  unfold gcisdtq_basis. unfold gcisdt_basis in E. cbv zeta in E |- *. rewrite g_occ_gref in *. rewrite Q.
  destruct (Dstring _ _); [|discriminate]. cbn [bindo] in *. destruct (s_strings _ _ _); [|discriminate]. cbn [bindo] in *.
  destruct (d_strings _ _ _); [|discriminate]. cbn [bindo] in *. destruct (t_strings _ _ _); [|discriminate]. cbn [bindo] in *.
  rewrite map_app. injection E as <-. reflexivity.
Qed.

(** ucisdtq_basis: the pairs with at most three excitations of one spin, once
    each, and those lists for either spin *)
Lemma ucisdtq_exact n na nb : na <= n -> nb <= n ->
  exists L L0 la lb, ucisdtq_basis n na nb = Some (map dpair L) /\
  Permutation L (L0 ++ map (fun a => (a, aufbau n nb)) la ++ map (fun b => (aufbau n na, b)) lb) /\
  NoDup L0 /\ hd_error L = Some (aufbau n na, aufbau n nb) /\
  (forall x, In x L0 <-> exists ka kb, excited ka (aufbau n na) (fst x) /\ excited kb (aufbau n nb) (snd x) /\
     ka + kb <= 4 /\ ka <= 3 /\ kb <= 3) /\
  q_list_of (aufbau n na) la /\ q_list_of (aufbau n nb) lb.
Proof.
  intros La Lb. destruct (q_exact n na La) as (la & Qa & Ea). destruct (q_exact n nb Lb) as (lb & Qb & Eb).
  pose (t1 := [(0, 0); (1, 0); (0, 1); (2, 0); (0, 2); (1, 1); (3, 0); (0, 3); (2, 1); (1, 2)]).
  pose (t2 := [(3, 1); (2, 2); (1, 3)]).
  set (A := aufbau n na) in *. set (B := aufbau n nb) in *.
  exists (ulist A B t1 ++ list_prod la [B] ++ list_prod [A] lb ++ ulist A B t2), (ulist A B (t1 ++ t2)), la, lb.
  assert (T : forall k, In k (t1 ++ t2) -> fst k <= 3 /\ snd k <= 3) by small_tags.
  split; [|split; [|split; [|split; [reflexivity|split; [|auto]]]]].
  - unfold ucisdtq_basis. rewrite Qa, Qb. u_unfold. f_equal. unfold t1, t2, ulist; cbn [flat_map lst fst snd].
    rewrite ?map_app. cbn [map list_prod app]. rewrite ?app_nil_r, <- ?app_assoc. reflexivity.
  - unfold ulist. rewrite flat_map_app. rewrite <- app_assoc. apply Permutation_app_head.
    replace (list_prod la [B]) with (map (fun a => (a, B)) la)
      by (clear; induction la as [|x la IH]; cbn; [|rewrite IH]; reflexivity).
    replace (list_prod [A] lb) with (map (fun b => (A, b)) lb) by (cbn; rewrite app_nil_r; reflexivity).
    rewrite app_assoc, Permutation_app_comm. reflexivity.
  - apply ulist_NoDup; auto. unfold t1, t2. cbn [app]. nodup_tags.
  - intros [a b]. rewrite ulist_In by auto. cbn [fst snd].
    split; intros (ka & kb & X); exists ka, kb.
    + destruct X as (I & X). split; [tauto|]. split; [tauto|]. unfold t1, t2 in I. cbn in I.
      repeat (destruct I as [[= <- <-]|I]; [lia|]). destruct I.
    + destruct X as (X & Y & Z & Z1 & Z2). split; [|tauto].
      destruct ka as [|[|[|[|]]]], kb as [|[|[|[|]]]]; try lia; cbn; tauto.
Qed.
