(** The CI bases: u-, g- and v-variants, and q_strings. *)
From Coq Require Import List Bool Arith ZArith Lia Sorted Permutation.
From Verif Require Import Scalar Tensor NpModel CIModel CISpec CIRep CIFacts CIStrings.
Import ListNotations.

(** the strings of excitation level k <= 3 *)
Definition lst (k : nat) (s : det) : list det :=
  match k with 0 => [s] | 1 => list1 s | 2 => list2 s | _ => list3 s end.

Lemma excited0 s t : excited 0 s t <-> t = s.
Proof.
  unfold excited. split.
  - intros (L & _ & D). symmetry. apply ndiff_zero; auto.
  - intros ->. rewrite ndiff_refl. auto.
Qed.

Lemma lst_In k s t : k <= 3 -> (In t (lst k s) <-> excited k s t).
Proof.
  intros L. destruct k as [|[|[|[|k]]]]; cbn [lst];
    [|apply list1_In|apply list2_In|apply list3_In|lia].
  rewrite excited0. cbn. split; [intros [<-|[]]; auto|auto].
Qed.

Lemma lst_NoDup k s : NoDup (lst k s).
Proof.
  destruct k as [|[|[|k]]]; cbn [lst]; auto using list1_NoDup, list2_NoDup, list3_NoDup.
  constructor; [intros []|constructor].
Qed.

Lemma excited_level k s t : excited k s t -> Nat.div2 (ndiff s t) = k.
Proof. intros (_ & _ & ->). apply Nat.div2_double. Qed.

(** *** Unrestricted bases *)

Definition ulist (A B : det) (tags : list (nat * nat)) : list udet :=
  flat_map (fun k => list_prod (lst (fst k) A) (lst (snd k) B)) tags.

Lemma ulist_In A B tags a b : (forall k, In k tags -> fst k <= 3 /\ snd k <= 3) ->
  (In (a, b) (ulist A B tags)
   <-> exists ka kb, In (ka, kb) tags /\ excited ka A a /\ excited kb B b).
Proof.
  intros H. unfold ulist. rewrite in_flat_map. split.
  - intros ((ka, kb) & I & P). destruct (H _ I). apply in_prod_iff in P.
    cbn [fst snd] in *. rewrite !lst_In in P by auto. exists ka, kb. tauto.
  - intros (ka & kb & I & P). destruct (H _ I). exists (ka, kb). split; auto.
    apply in_prod_iff. cbn [fst snd] in *. rewrite !lst_In by auto. auto.
Qed.

Lemma ulist_NoDup A B tags : (forall k, In k tags -> fst k <= 3 /\ snd k <= 3) ->
  NoDup tags -> NoDup (ulist A B tags).
Proof.
  intros H N. unfold ulist.
  apply (flat_map_NoDup (fun ab => (Nat.div2 (ndiff A (fst ab)), Nat.div2 (ndiff B (snd ab))))); auto.
  - intros k _. apply NoDup_list_prod; apply lst_NoDup.
  - intros [ka kb] [a b] I P. destruct (H _ I). apply in_prod_iff in P. cbn [fst snd] in *.
    rewrite !lst_In in P by auto. destruct P as [P Q].
    rewrite (excited_level _ _ _ P), (excited_level _ _ _ Q). reflexivity.
Qed.

Lemma map_list_prod_dstr la lb :
  map dpair (list_prod la lb) = pairs (map dstr la) (map dstr lb).
Proof.
  unfold pairs. induction la as [|a la IH]; [reflexivity|].
  change (list_prod (a :: la) lb) with (map (fun y => (a, y)) lb ++ list_prod la lb).
  rewrite map_app, IH. cbn [map flat_map]. rewrite !map_map. reflexivity.
Qed.
Lemma map_left la B : map (fun a => (a, dstr B)) (map dstr la) = map dpair (list_prod la [B]).
Proof. induction la as [|a la IH]; [reflexivity|]. cbn. rewrite IH. reflexivity. Qed.
Lemma map_right A lb : map (fun b => (dstr A, b)) (map dstr lb) = map dpair (list_prod [A] lb).
Proof. cbn. rewrite app_nil_r, !map_map. reflexivity. Qed.

Lemma Dstring_default n k : Dstring n (default_occ n k) = Some (dstr (aufbau n k)).
Proof. rewrite default_occ_aufbau. apply Dstring_dstr, aufbau_length. Qed.

Ltac u_unfold := rewrite ?s_strings_aufbau, ?d_strings_aufbau, ?t_strings_aufbau, ?Dstring_default;
  cbn [bindo]; rewrite ?map_left, ?map_right, <- ?map_list_prod_dstr.

Section U.
  Variables n na nb : nat.
  Notation A := (aufbau n na).
  Notation B := (aufbau n nb).

  Lemma ucis_list gs : ucis_basis n na nb gs
    = Some (map dpair (ulist A B ((if gs : bool then [(0, 0)] else []) ++ [(1, 0); (0, 1)]))).
  Proof.
    unfold ucis_basis. u_unfold. f_equal. destruct gs; unfold ulist; cbn [app flat_map lst fst snd];
      rewrite ?map_app; cbn [map list_prod app]; rewrite ?app_nil_r, <- ?app_assoc; reflexivity.
  Qed.

  Lemma ucisd_list : ucisd_basis n na nb
    = Some (map dpair (ulist A B [(0, 0); (1, 0); (0, 1); (2, 0); (0, 2); (1, 1)])).
  Proof.
    unfold ucisd_basis. u_unfold. f_equal. unfold ulist; cbn [flat_map lst fst snd].
    rewrite ?map_app. cbn [map list_prod app]. rewrite ?app_nil_r, <- ?app_assoc. reflexivity.
  Qed.

  Lemma ucisdt_list : ucisdt_basis n na nb
    = Some (map dpair (ulist A B [(0, 0); (1, 0); (0, 1); (2, 0); (0, 2); (1, 1);
                                  (3, 0); (0, 3); (2, 1); (1, 2)])).
  Proof.
    unfold ucisdt_basis. u_unfold. f_equal. unfold ulist; cbn [flat_map lst fst snd].
    rewrite ?map_app. cbn [map list_prod app]. rewrite ?app_nil_r, <- ?app_assoc. reflexivity.
  Qed.

  Lemma ucisdtq_list : q_strings n na None = Some [] -> q_strings n nb None = Some [] ->
    ucisdtq_basis n na nb
    = Some (map dpair (ulist A B [(0, 0); (1, 0); (0, 1); (2, 0); (0, 2); (1, 1);
                                  (3, 0); (0, 3); (2, 1); (1, 2); (3, 1); (2, 2); (1, 3)])).
  Proof.
    intros Qa Qb. unfold ucisdtq_basis. rewrite Qa, Qb. u_unfold. f_equal.
    unfold ulist; cbn [flat_map lst fst snd].
    rewrite ?map_app. cbn [map list_prod app]. rewrite ?app_nil_r, <- ?app_assoc. reflexivity.
  Qed.
End U.

(** [index] on duplicate-free lists *)
Lemma index_spec {T} (eqb : T -> T -> bool) (E : forall x y, eqb x y = true <-> x = y) (l : list T) x :
  NoDup l ->
  match index eqb x l with
  | Some k => forall j, nth_error l j = Some x <-> j = k
  | None => ~ In x l
  end.
Proof.
  induction l as [|y l IH]; intros N; [intros []|]. inversion N as [|? ? N1 N2]; subst. cbn.
  destruct (eqb y x) eqn:F.
  - apply E in F. subst y. intros [|j]; cbn; [tauto|]. split; [|lia].
    intros H. apply nth_error_In in H. contradiction.
  - assert (y <> x) by (intros ->; assert (eqb x x = true) by (apply E; auto); congruence).
    specialize (IH N2). destruct (index eqb x l) as [k|]; cbn.
    + intros [|j]; cbn; [|rewrite IH; lia]. split; [intros [=]; congruence|lia].
    + intros [|]; auto.
Qed.

Lemma upair_eq_iff x y : upair_eq x y = true <-> x = y.
Proof.
  unfold upair_eq. rewrite andb_true_iff, !dstring_eq_iff. destruct x, y; cbn.
  split; [intros [-> ->]; auto|intros [= -> ->]; auto].
Qed.

Lemma dpair_inj x y : dpair x = dpair y -> x = y.
Proof.
  destruct x, y. intros E. pose proof (f_equal fst E) as E1. pose proof (f_equal snd E) as E2.
  apply dstr_inj in E1. apply dstr_inj in E2. cbn in *. congruence.
Qed.

Lemma index_unique {T} (eqb : T -> T -> bool) (E : forall x y, eqb x y = true <-> x = y) l x :
  NoDup l -> In x l -> exists k, index eqb x l = Some k /\ forall j, nth_error l j = Some x <-> j = k.
Proof.
  intros N I. pose proof (index_spec eqb E l x N) as S. destruct (index eqb x l) as [k|]; [|tauto].
  exists k. auto.
Qed.

(** *** g-bases *)
Definition glist (s : det) (tags : list nat) : list det := flat_map (fun k => lst k s) tags.

Lemma glist_In s tags t : (forall k, In k tags -> k <= 3) ->
  (In t (glist s tags) <-> exists k, In k tags /\ excited k s t).
Proof.
  intros H. unfold glist. rewrite in_flat_map. split; intros (k & I & P); exists k;
    specialize (H _ I); [rewrite lst_In in P by auto|rewrite lst_In by auto]; auto.
Qed.

Lemma glist_NoDup s tags : (forall k, In k tags -> k <= 3) -> NoDup tags -> NoDup (glist s tags).
Proof.
  intros H N. unfold glist. apply (flat_map_NoDup (fun t => Nat.div2 (ndiff s t))); auto.
  - intros. apply lst_NoDup.
  - intros k t I P. rewrite lst_In in P by auto. apply excited_level; auto.
Qed.


Lemma g_occ_gref m N : g_occ (2 * m) N = map b2z (gref m N).
Proof.
  unfold g_occ, gref. rewrite map_app, <- !default_occ_aufbau.
  replace (Nat.div (2 * m) 2) with m; [reflexivity|].
  symmetry. rewrite Nat.mul_comm. apply Nat.div_mul. lia.
Qed.
Lemma gref_length m N : length (gref m N) = 2 * m.
Proof. unfold gref. rewrite app_length, !aufbau_length. lia. Qed.

Lemma g_occ_odd m N : length (g_occ (2 * m + 1) N) = 2 * m.
Proof.
  unfold g_occ. rewrite app_length. unfold default_occ. rewrite !map_length, !seq_length.
  replace (Nat.div (2 * m + 1) 2) with m; [lia|].
  apply Nat.div_unique with 1; lia.
Qed.

Lemma s_strings_gref m N : s_strings (2 * m) N (Some (map b2z (gref m N))) = Some (map dstr (list1 (gref m N))).
Proof. rewrite <- (gref_length m N) at 1. apply s_strings_ref. Qed.
Lemma d_strings_gref m N : d_strings (2 * m) N (Some (map b2z (gref m N))) = Some (map dstr (list2 (gref m N))).
Proof. rewrite <- (gref_length m N) at 1. apply d_strings_ref. Qed.
Lemma t_strings_gref m N : t_strings (2 * m) N (Some (map b2z (gref m N))) = Some (map dstr (list3 (gref m N))).
Proof. rewrite <- (gref_length m N) at 1. apply t_strings_ref. Qed.

Ltac g_unfold := cbv zeta; rewrite ?g_occ_gref, ?s_strings_gref, ?d_strings_gref, ?t_strings_gref;
  rewrite (Dstring_dstr _ _ (gref_length _ _)); cbn [bindo].

Lemma gcis_list m N gs : gcis_basis (2 * m) N gs
  = Some (map dstr (glist (gref m N) ((if gs : bool then [0] else []) ++ [1]))).
Proof.
  unfold gcis_basis. g_unfold. f_equal. destruct gs; unfold glist; cbn [flat_map app lst];
  rewrite ?app_nil_r; reflexivity.
Qed.
Lemma gcisd_list m N : gcisd_basis (2 * m) N = Some (map dstr (glist (gref m N) [0; 1; 2])).
Proof.
  unfold gcisd_basis. g_unfold. f_equal. unfold glist; cbn [flat_map app lst map].
  rewrite ?map_app, ?app_nil_r, <- ?app_assoc. reflexivity.
Qed.
Lemma gcisdt_list m N : gcisdt_basis (2 * m) N = Some (map dstr (glist (gref m N) [0; 1; 2; 3])).
Proof.
  unfold gcisdt_basis. g_unfold. f_equal. unfold glist; cbn [flat_map app lst map].
  rewrite ?map_app, ?app_nil_r, <- ?app_assoc. reflexivity.
Qed.

Lemma Dstring_odd m N : Dstring (2 * m + 1) (g_occ (2 * m + 1) N) = None.
Proof.
  unfold Dstring. rewrite g_occ_odd. destruct (Nat.eqb_spec (2 * m + 1) (2 * m)); [lia|reflexivity].
Qed.

Lemma NoDup_app_r' {A} (l m : list A) : NoDup (l ++ m) -> NoDup m.
Proof. induction l as [|x l IH]; cbn; auto. intros H. inversion H; auto. Qed.

Lemma NoDup_app_l' {A} (l m : list A) : NoDup (l ++ m) -> NoDup l.
Proof. induction l as [|x l IH]; cbn; intros H; [constructor|]. inversion H; subst. constructor; auto. rewrite in_app_iff in *. tauto. Qed.

(** *** q_strings *)
Section Q.
  Variables n nocc : nat.
  Hypothesis Hn : nocc <= n.
  Notation s := (aufbau n nocc).
  Notation O := (occs (aufbau n nocc)).
  Notation V := (virs (aufbau n nocc)).

  Lemma aufbau_occd p : occd (aufbau n nocc) p = Nat.ltb p nocc.
  Proof.
    destruct (Nat.lt_ge_cases p n) as [L|L].
    - unfold occd, aufbau. apply (nth_map_seq (fun i => Nat.ltb i nocc) n p false L).
    - unfold occd. rewrite nth_overflow by (rewrite aufbau_length; auto).
      symmetry. apply Nat.ltb_ge. lia.
  Qed.
  Lemma aufbau_occs p : In p O <-> p < nocc.
  Proof. rewrite in_occs, aufbau_occd. apply Nat.ltb_lt. Qed.
  Lemma aufbau_virs p : In p V <-> nocc <= p < n.
  Proof. rewrite in_virs, aufbau_occd, aufbau_length, Nat.ltb_ge. tauto. Qed.

  Definition q_inner (a b k c l d : nat) : det :=
    ex1 (ex1 (ex1 (ex1 s 0 a) 1 b) k c) l d.
  Definition q_body (i : Z) : list det :=
    if Z.eqb i 0 then
      flat_map (fun a => flat_map (fun j => if Z.leb j i then [] else
        flat_map (fun b => flat_map (fun k => flat_map (fun c => flat_map (fun l => flat_map (fun d =>
          [q_inner a b k c l d]) (after c V)) (after k O)) (after b V)) (after 1 O)) (after a V))
        (map b2z s)) V
    else [].
  Definition list4q : list det := flat_map q_body (map b2z s).

  Lemma collect_skip {X Y} (l : list X) (skip : X -> bool) (body : X -> option (list Y)) f :
    (forall x, In x l -> skip x = false -> body x = Some (f x)) ->
    collect l (fun x => if skip x then Some [] else body x)
    = Some (flat_map (fun x => if skip x then [] else f x) l).
  Proof.
    intros H. apply collect_ok. intros x I. destruct (skip x) eqn:E; auto.
  Qed.

  Lemma in_b2z i : In i (map b2z s) -> i = 0%Z \/ i = 1%Z.
  Proof. intros I. apply in_map_iff in I as ([] & <- & _); cbn; auto. Qed.

  Lemma collect_nil {X Y} (l : list X) : collect l (fun _ => Some (@nil Y)) = Some [].
  Proof. induction l as [|x l IH]; [reflexivity|]. cbn. rewrite IH. reflexivity. Qed.

  Lemma collect_ext {X Y} (l : list X) (f g : X -> option (list Y)) :
    (forall x, In x l -> f x = g x) -> collect l f = collect l g.
  Proof.
    induction l as [|x l IH]; intros H; [reflexivity|]. cbn. rewrite (H x) by (left; auto).
    rewrite IH by (intros y I; apply H; right; auto). reflexivity.
  Qed.

  Lemma flat_map_if {X Y} (b : bool) (f : X -> list Y) l :
    (if b then [] else flat_map f l) = flat_map f (if b then [] else l).
  Proof. destruct b; reflexivity. Qed.

  Lemma map_if {X Y} (f : X -> Y) (b : bool) l : map f (if b then [] else l) = if b then [] else map f l.
  Proof. destruct b; reflexivity. Qed.

  Lemma flat_map_dstr' {X} (g : X -> list dstring) (f : X -> list det) l :
    (forall x, g x = map dstr (f x)) -> flat_map g l = map dstr (flat_map f l).
  Proof.
    intros H. induction l as [|x l IH]; [reflexivity|]. cbn. rewrite map_app, IH, H. reflexivity.
  Qed.

  Lemma q_strings_list : q_strings n nocc None = Some (map dstr list4q).
  Proof.
    rewrite q_strings_default. unfold q_strings. cbn [get_occ].
    rewrite (Dstring_dstr s n (aufbau_length n nocc)). cbn [bindo].
    rewrite indices_pos_occs, indices_pos_virs. unfold list4q. rewrite <- flat_map_dstr.
    apply collect_ok. intros i Hi.
    destruct (in_b2z i Hi) as [-> | ->].
    2:{ assert (E : q_body 1 = []) by reflexivity. rewrite E.
        rewrite (collect_ext V _ (fun _ => Some [])).
        { rewrite collect_nil. reflexivity. }
        intros a Ha. rewrite (collect_ext _ _ (fun _ => Some [])).
        { apply collect_nil. }
        intros j Hj. destruct (in_b2z j Hj) as [-> | ->]; reflexivity. }
    unfold q_body. change (Z.eqb 0 0) with true. cbn iota. rewrite <- flat_map_dstr.
    apply collect_ok. intros a Ha. rewrite <- flat_map_dstr.
    apply collect_ok. intros j Hj. destruct (in_b2z j Hj) as [-> | ->]; [reflexivity|].
    change (Z.leb 1 0) with false. cbn iota. rewrite <- flat_map_dstr.
    apply collect_after. intros b Hb Lab.
    rewrite (collect_ext O _ (fun k => if Nat.leb k 1 then Some [] else
      collect V (fun c => if Nat.leb c b then Some [] else
        collect O (fun l => if Nat.leb l k then Some [] else
          collect V (fun d => if Nat.leb d c then Some [] else
            let? d1 := excite_ (dstr s) (Z.to_nat 0) a in
            let? d2 := excite_ d1 (Z.to_nat 1) b in
            let? d3 := excite_ d2 k c in
            let? d4 := excite_ d3 l d in Some [d4]))))).
    2:{ intros k _. destruct (Nat.leb_spec k 1), (Z.leb_spec (Z.of_nat k) 1); try lia; reflexivity. }
    rewrite <- flat_map_dstr. apply collect_after. intros k Hk L1k.
    rewrite <- flat_map_dstr. apply collect_after. intros c Hc Lbc.
    rewrite <- flat_map_dstr. apply collect_after. intros l Hl Lkl.
    rewrite <- flat_map_dstr. apply collect_after. intros d Hd Lcd.
    change (Z.to_nat 0) with 0. change (Z.to_nat 1) with 1.
    rewrite aufbau_virs in Ha, Hb, Hc, Hd. rewrite aufbau_occs in Hk, Hl.
    assert (Os : forall p, p < nocc -> occd s p = true) by (intros p H; rewrite aufbau_occd; apply Nat.ltb_lt; auto).
    assert (Vs : forall p, nocc <= p -> occd s p = false) by (intros p H; rewrite aufbau_occd; apply Nat.ltb_ge; auto).
    pose proof (aufbau_length n nocc) as Ls.
    repeat (rewrite excite__ok; cbn [bindo];
      [| rewrite ?occd_put, ?put_length, ?Ls;
         repeat match goal with |- context [Nat.eqb ?x ?y] => destruct (Nat.eqb_spec x y); try lia end;
         cbn [andb]; apply Os; lia
       | rewrite ?put_length, Ls; lia
       | rewrite ?occd_put, ?put_length, ?Ls;
         repeat match goal with |- context [Nat.eqb ?x ?y] => destruct (Nat.eqb_spec x y); try lia end;
         cbn [andb]; apply Vs; lia ]).
    reflexivity.
  Qed.

  Lemma list4q_In t : In t list4q <->
    n > nocc /\ exists a b k c l d, In a V /\ In b V /\ In c V /\ In d V /\ In k O /\ In l O /\
      a < b /\ b < c /\ c < d /\ 1 < k /\ k < l /\ t = q_inner a b k c l d.
  Proof.
    unfold list4q. rewrite in_flat_map. split.
    - intros (i & Hi & H). unfold q_body in H. destruct (Z.eqb i 0) eqn:E; [|destruct H].
      apply in_flat_map in H as (a & Ha & H). apply in_flat_map in H as (j & Hj & H).
      destruct (Z.leb j i); [destruct H|].
      apply in_flat_map in H as (b & Hb & H). apply in_flat_map in H as (k & Hk & H).
      apply in_flat_map in H as (c & Hc & H). apply in_flat_map in H as (l & Hl & H).
      apply in_flat_map in H as (d & Hd & [<-|[]]).
      rewrite in_after in *. split; [rewrite aufbau_virs in Ha; lia|].
      exists a, b, k, c, l, d. repeat split; tauto.
    - intros (N & a & b & k & c & l & d & Ha & Hb & Hc & Hd & Hk & Hl & Lab & Lbc & Lcd & L1k & Lkl & ->).
      exists 0%Z. rewrite aufbau_occs in Hk. split.
      { apply in_map_iff. exists false. split; auto. rewrite aufbau_virs in Ha.
        replace false with (occd s a) by (rewrite aufbau_occd; apply Nat.ltb_ge; lia).
        apply nth_In. rewrite aufbau_length. lia. }
      unfold q_body. cbn [Z.eqb]. apply in_flat_map. exists a. split; auto.
      apply in_flat_map. exists 1%Z. split.
      { apply in_map_iff. exists true. split; auto.
        replace true with (occd s 0) by (rewrite aufbau_occd; apply Nat.ltb_lt; lia).
        apply nth_In. rewrite aufbau_length. lia. }
      change (Z.leb 1 0) with false. cbn iota. 
      apply in_flat_map. exists b. split; [apply in_after; auto|].
      apply in_flat_map. exists k. split; [apply in_after; split; auto; apply aufbau_occs; auto|].
      apply in_flat_map. exists c. split; [apply in_after; auto|].
      apply in_flat_map. exists l. split; [apply in_after; auto|].
      apply in_flat_map. exists d. split; [apply in_after; auto|]. left. reflexivity.
  Qed.

  Lemma q_small : nocc < 4 \/ n - nocc < 4 -> list4q = [].
  Proof.
    intros S. destruct list4q as [|t l] eqn:E; [reflexivity|]. exfalso.
    assert (I : In t list4q) by (rewrite E; left; auto).
    apply list4q_In in I as (N & a & b & k & c & l' & d & Ha & Hb & Hc & Hd & Hk & Hl & H).
    rewrite aufbau_virs in *. rewrite aufbau_occs in *. lia.
  Qed.

  Lemma q_misses : 5 <= nocc -> 4 <= n - nocc ->
    exists t, excited 4 s t /\ ~ In t list4q.
  Proof.
    intros L1 L2.
    pose (M := ([1; 2; 3; 4], [nocc; nocc + 1; nocc + 2; nocc + 3])).
    exists (move s M). split.
    - apply moves_In. unfold moves. apply in_map_iff. exists M. split; auto.
      apply in_prod_iff. rewrite !combs_In by auto using sorted_occs, sorted_virs.
      repeat split; try (repeat constructor; lia).
      + intros p [<-|[<-|[<-|[<-|[]]]]]; apply aufbau_occs; lia.
      + intros p [<-|[<-|[<-|[<-|[]]]]]; apply aufbau_virs; lia.
    - intros I. apply list4q_In in I as (N & a & b & k & c & l & d & Ha & Hb & Hc & Hd & Hk & Hl & H & H' & H'' & H1 & H2 & E).
      rewrite aufbau_virs in *. rewrite aufbau_occs in *.
      assert (F : occd (move s M) 0 = true).
      { rewrite move_occd by (rewrite aufbau_length; lia). cbn [fst snd M].
        assert (mem 0 [nocc; nocc + 1; nocc + 2; nocc + 3] = false) as ->
          by (apply mem_false; cbn; lia).
        cbn [mem existsb Nat.eqb orb]. rewrite aufbau_occd. apply Nat.ltb_lt. lia. }
      rewrite E in F. unfold q_inner in F.
      rewrite !ex1_occd in F by (rewrite ?ex1_length, aufbau_length; lia).
      repeat match type of F with context [Nat.eqb ?x ?y] => destruct (Nat.eqb_spec x y); try lia end.
  Qed.

  Lemma aufbau_split : s = repeat true nocc ++ repeat false (n - nocc).
  Proof.
    apply det_ext; [rewrite aufbau_length, app_length, !repeat_length; lia|].
    intros p L. rewrite aufbau_length in L. rewrite aufbau_occd. unfold occd.
    destruct (Nat.ltb_spec p nocc).
    - rewrite app_nth1 by (rewrite repeat_length; auto). symmetry.
      rewrite (nth_indep _ false true) by (rewrite repeat_length; auto). apply nth_repeat.
    - rewrite app_nth2 by (rewrite repeat_length; auto). symmetry. apply nth_repeat.
  Qed.

  Lemma q_duplicates : 4 <= nocc -> 4 <= n - nocc -> ~ NoDup list4q.
  Proof.
    intros L1 L2 N.
    assert (I : In (q_inner nocc (nocc + 1) 2 (nocc + 2) 3 (nocc + 3)) list4q).
    { apply list4q_In. split; [lia|]. exists nocc, (nocc + 1), 2, (nocc + 2), 3, (nocc + 3).
      rewrite !aufbau_virs, !aufbau_occs. repeat split; lia. }
    set (x := q_inner nocc (nocc + 1) 2 (nocc + 2) 3 (nocc + 3)) in *.
    assert (J : In x (q_body 0)).
    { unfold list4q in I. apply in_flat_map in I as (i & Hi & H).
      destruct (in_b2z i Hi) as [-> | ->]; auto. destruct H. }
    unfold list4q in N. rewrite aufbau_split, map_app in N.
    destruct (n - nocc) as [|[|m]]; try lia. cbn [repeat map b2z] in N.
    rewrite flat_map_app in N. cbn [flat_map] in N.
    apply NoDup_app_r' in N. clear - N J.
    apply in_split in J as (l1 & l2 & E). rewrite E in N at 1.
    rewrite <- app_assoc in N. apply NoDup_remove_2 in N. apply N.
    rewrite !in_app_iff. right. right. left. rewrite E. apply in_app_iff. right. left. reflexivity.
  Qed.
End Q.
