(** Terms in which every summed index occurs once on the creation and once on
    the annihilation side, and every free index once on its own side, are
    covariant under a change of the orbitals. *)
From Coq Require Import List Bool Arith ZArith Lia Ring String.
From Verif Require Import Scalar Tensor PySyntax PySem PySim Sym SymSound Norm CCProg CCSpec Engine
  CCShapes Public CovSpec Cov.
Import ListNotations.

Definition key2 : Type := (ix * bool)%type.
Definition ix_eqb (a b : ix) : bool :=
  match a, b with X n, X m => Nat.eqb n m | D n, D m => Nat.eqb n m | _, _ => false end.
Definition key_eqb (a b : key2) : bool := ix_eqb (fst a) (fst b) && Bool.eqb (snd a) (snd b).
Lemma ix_eqb_spec a b : reflect (a = b) (ix_eqb a b).
Proof.
  destruct a as [m|m], b as [k|k]; simpl; try (constructor; congruence);
    destruct (Nat.eqb_spec m k); constructor; congruence.
Qed.
Lemma key_eqb_spec a b : reflect (a = b) (key_eqb a b).
Proof.
  destruct a as [i v], b as [j w]. unfold key_eqb. simpl. destruct (ix_eqb_spec i j); simpl; [|constructor; congruence].
  destruct v, w; simpl; constructor; congruence.
Qed.

(** the first [k] axes are on the creation side *)
Fixpoint slots (k : nat) (is : list ix) : list key2 :=
  match is with
  | [] => []
  | i :: is' => (i, match k with O => false | S _ => true end) :: slots (pred k) is'
  end.
Definition fslots (f : positive * list ix) : list key2 := slots (Nat.div2 (List.length (snd f))) (snd f).

Fixpoint cnt (k : key2) (l : list key2) : nat :=
  match l with [] => 0 | x :: l' => if key_eqb k x then S (cnt k l') else cnt k l' end.

Lemma cnt0 k l : cnt k l = 0 -> ~ In k l.
Proof.
  induction l as [|x l IH]; simpl; [tauto|]. destruct (key_eqb_spec k x); [discriminate|].
  intros H [E|E]; [congruence|]. exact (IH H E).
Qed.

Definition lookup_sym {Q} (t : positive) (tb : list (positive * (Q * option (list space)))) : option (Q * option (list space)) :=
  option_map snd (find (fun p => Pos.eqb t (fst p)) tb).

Definition fac_typed {Q} (tb : list (positive * (Q * option (list space)))) (sh dm : list cls) (f : positive * list ix) : bool :=
  match lookup_sym (fst f) tb with
  | Some (_, Some l) => typed sh dm (snd f) (map cl l)
  | Some (_, None) => typed sh dm (snd f) []
  | None => false
  end.

Definition rot_chk (tb : list (positive * (unit * option (list space)))) (sh : list cls) (m : mono) : bool :=
  let r := List.length sh in
  let s := flat_map fslots (m_fs m) in
  forallb (fac_typed tb sh (m_dm m)) (m_fs m) &&
  (forallb (fun k => Nat.eqb (cnt (D k, true) s) 1 && Nat.eqb (cnt (D k, false) s) 1) (seq 0 (List.length (m_dm m))) &&
   forallb (fun k => let v := Nat.ltb k (Nat.div2 r) in
              Nat.eqb (cnt (X k, v) s) 1 && Nat.eqb (cnt (X k, negb v) s) 0) (seq 0 r)).

Lemma lookup_in {Q} t tb (x : Q * option (list space)) : lookup_sym t tb = Some x -> In (t, x) tb.
Proof.
  unfold lookup_sym. destruct (find _ tb) as [[u y]|] eqn:E; [|discriminate]. simpl. intros [= <-].
  apply find_some in E as (E1 & E2). simpl in E2. apply Pos.eqb_eq in E2. subst u. exact E1.
Qed.

Section Rot.
  Variable K : cring.
  Local Open Scope K_scope.
  Add Ring Kr_rot : (c_th K).
  Variable n : space -> nat.
  Variables U V : space -> nat -> nat -> K.
  Hypothesis UV : inverse_of n U V.
  Notation dim := (sp_dim n).

  Definition of_cls {A} (f : space -> A) (c : cls) : A :=
    match c with 1 => f so | 2 => f sv | 3 => f sO | _ => f sV end%positive.
  Lemma of_cls_cl {A} (f : space -> A) s : of_cls f (cl s) = f s.
  Proof. destruct s; reflexivity. Qed.

  Definition W (c : cls) (v : bool) (i j : nat) : K := if v then of_cls V c i j else of_cls U c j i.

  Lemma W_inverse c j l : (j < dim c)%nat -> (l < dim c)%nat ->
    sumN (dim c) (fun p => W c true p j * W c false p l) = (if Nat.eqb l j then 1 else 0).
  Proof.
    intros Hj Hl. unfold W.
    assert (E : forall s, c = cl s -> sumN (dim c) (fun p => of_cls V c p j * of_cls U c l p) = (if Nat.eqb l j then 1 else 0)).
    { intros s ->. rewrite sp_dim_cl, !of_cls_cl in *. rewrite <- (UV s l j Hl Hj). apply sumN_ext. intros p _. ring. }
    destruct c as [[c|c|]|[[c|c|]|[c|c|]|]|]; try (simpl in Hj; lia).
    - exact (E sO eq_refl).
    - exact (E sV eq_refl).
    - exact (E sv eq_refl).
    - exact (E so eq_refl).
  Qed.

  Fixpoint tf (mu : key2 -> option cls) (val : key2 -> nat) (ss : list key2) (h : list nat -> K) : K :=
    match ss with
    | [] => h []
    | s :: ss' =>
        match mu s with
        | None => tf mu val ss' (fun l => h (val s :: l))
        | Some c => sumN (dim c) (fun j => W c (snd s) (val s) j * tf mu val ss' (fun l => h (j :: l)))
        end
    end.

  Lemma tf_ext mu mu' val val' ss : forall h h',
    (forall s, In s ss -> mu s = mu' s /\ val s = val' s) -> (forall l, h l = h' l) ->
    tf mu val ss h = tf mu' val' ss h'.
  Proof.
    induction ss as [|s ss IH]; intros h h' H Hh; [apply Hh|]. simpl.
    destruct (H s (or_introl eq_refl)) as (<- & <-).
    destruct (mu s).
    - apply sumN_ext. intros j _. f_equal. apply IH; [intros; apply H; right; auto|intros; apply Hh].
    - apply IH; [intros; apply H; right; auto|intros; apply Hh].
  Qed.

  Lemma tf_scale mu val ss : forall h a, tf mu val ss (fun l => a * h l) = a * tf mu val ss h.
  Proof.
    induction ss as [|s ss IH]; intros h a; simpl; [reflexivity|]. destruct (mu s).
    - rewrite <- sumN_mul_l. apply sumN_ext. intros j _. rewrite IH. ring.
    - apply IH.
  Qed.

  Lemma tf_app mu val b g : forall a h,
    tf mu val (a ++ b) (fun l => h (firstn (List.length a) l) * g (skipn (List.length a) l))
    = tf mu val a h * tf mu val b g.
  Proof.
    induction a as [|s a IH]; intros h; simpl.
    - apply tf_scale.
    - destruct (mu s).
      + rewrite <- sumN_mul_r. apply sumN_ext. intros j _. rewrite (IH (fun l => h (j :: l))). ring.
      + apply (IH (fun l => h (val s :: l))).
  Qed.

  Definition setk {A} (f : key2 -> A) (k : key2) (a : A) : key2 -> A := fun s => if key_eqb k s then a else f s.
  Lemma setk_eq {A} (f : key2 -> A) k a : setk f k a k = a.
  Proof. unfold setk. destruct (key_eqb_spec k k); congruence. Qed.
  Lemma setk_neq {A} (f : key2 -> A) k a s : s <> k -> setk f k a s = f s.
  Proof. intros. unfold setk. destruct (key_eqb_spec k s); congruence. Qed.

  Lemma tf_one mu val k c : mu k = Some c -> forall ss h, cnt k ss = 1%nat ->
    tf mu val ss h = sumN (dim c) (fun j => W c (snd k) (val k) j * tf (setk mu k None) (setk val k j) ss h).
  Proof.
    intros Hk. induction ss as [|s ss IH]; intros h Hc; simpl in Hc; [discriminate|].
    destruct (key_eqb_spec k s) as [<-|Hn].
    - injection Hc as Hc. apply cnt0 in Hc. simpl. rewrite Hk. apply sumN_ext. intros j _. f_equal.
      rewrite !setk_eq. apply tf_ext; [|reflexivity].
      intros s Hs. assert (s <> k) by (intros ->; auto). rewrite !setk_neq by auto. auto.
    - simpl. rewrite setk_neq by auto. destruct (mu s) as [c'|].
      + transitivity (sumN (dim c') (fun i => sumN (dim c) (fun j => W c (snd k) (val k) j *
          (W c' (snd s) (val s) i * tf (setk mu k None) (setk val k j) ss (fun l => h (i :: l)))))).
        * apply sumN_ext. intros i _. rewrite IH by auto. rewrite <- sumN_mul_l. apply sumN_ext. intros j _. ring.
        * rewrite sumN_swap. apply sumN_ext. intros j _. rewrite sumN_mul_l. f_equal. apply sumN_ext. intros i _.
          rewrite setk_neq by auto. reflexivity.
      + rewrite IH by auto. apply sumN_ext. intros j _. f_equal. apply tf_ext; [auto|]. intros l.
        rewrite setk_neq by auto. reflexivity.
  Qed.

  Lemma sumN_delta m j (f : nat -> K) : (j < m)%nat -> sumN m (fun l => (if Nat.eqb l j then 1 else 0) * f l) = f j.
  Proof.
    induction m as [|m IH]; intros H; [lia|]. change (sumN (S m) (fun l => (if Nat.eqb l j then 1 else 0) * f l))
      with (sumN m (fun l => (if Nat.eqb l j then 1 else 0) * f l) + (if Nat.eqb m j then 1 else 0) * f m).
    destruct (Nat.eqb_spec m j) as [->|Hn].
    - rewrite (sumN_ext _ j _ (fun _ => 0)).
      + rewrite sumN_0. ring.
      + intros i Hi. destruct (Nat.eqb_spec i j); [lia|]. ring.
    - rewrite IH by lia. ring.
  Qed.

  Lemma tf_dummy mu (val : nat -> key2 -> nat) i c ss h :
    mu (i, true) = Some c -> mu (i, false) = Some c ->
    cnt (i, true) ss = 1%nat -> cnt (i, false) ss = 1%nat ->
    (forall p v, val p (i, v) = p) -> (forall p q s, fst s <> i -> val p s = val q s) ->
    sumN (dim c) (fun p => tf mu (val p) ss h)
    = sumN (dim c) (fun p => tf (setk (setk mu (i, true) None) (i, false) None) (val p) ss h).
  Proof.
    intros M1 M2 C1 C2 V1 V2.
    set (mu2 := setk (setk mu (i, true) None) (i, false) None).
    set (G := fun j l => tf mu2 (setk (setk (val 0%nat) (i, true) j) (i, false) l) ss h).
    transitivity (sumN (dim c) (fun p => sumN (dim c) (fun j => sumN (dim c) (fun l => (W c true p j * W c false p l) * G j l)))).
    { apply sumN_ext. intros p _. rewrite (tf_one mu (val p) (i, true) c M1 ss h C1). apply sumN_ext. intros j _.
      rewrite (tf_one _ (setk (val p) (i, true) j) (i, false) c) by (auto; rewrite setk_neq by congruence; exact M2).
      rewrite <- sumN_mul_l. apply sumN_ext. intros l _.
      rewrite (setk_neq _ _ _ (i, false)) by congruence. rewrite !V1. cbn [snd].
      replace (G j l) with (tf mu2 (setk (setk (val p) (i, true) j) (i, false) l) ss h).
      { unfold mu2. ring. }
      apply tf_ext; [|reflexivity]. intros [i' v] _. split; [reflexivity|]. unfold setk.
      destruct (key_eqb_spec (i, false) (i', v)); [reflexivity|]. destruct (key_eqb_spec (i, true) (i', v)); [reflexivity|].
      apply V2. cbn [fst]. intros ->. destruct v; congruence. }
    transitivity (sumN (dim c) (fun j => sumN (dim c) (fun l => (if Nat.eqb l j then 1 else 0) * G j l))).
    { rewrite sumN_swap. apply sumN_ext. intros j Hj. rewrite sumN_swap. apply sumN_ext. intros l Hl.
      rewrite sumN_mul_r. rewrite W_inverse by auto. reflexivity. }
    apply sumN_ext. intros j Hj. rewrite sumN_delta by auto. unfold G. apply tf_ext; [|reflexivity].
    intros [i' v] _. split; [reflexivity|]. unfold setk.
    destruct (key_eqb_spec (i, false) (i', v)) as [E|E1]; [injection E as <- <-; symmetry; apply V1|].
    destruct (key_eqb_spec (i, true) (i', v)) as [E|E2]; [injection E as <- <-; symmetry; apply V1|].
    apply V2. cbn [fst]. intros ->. destruct v; congruence.
  Qed.

  Lemma sumN_sumL m ns : forall (f : nat -> list nat -> K),
    sumN m (fun i => sumL ns (f i)) = sumL ns (fun l => sumN m (fun i => f i l)).
  Proof.
    induction ns as [|k ns IH]; intros f; simpl; [reflexivity|].
    rewrite sumN_swap. apply sumN_ext. intros j _. apply (IH (fun i l => f i (j :: l))).
  Qed.

  Definition vl (xs ds : list nat) (s : key2) : nat := look xs ds (fst s).
  Definition clr_d (m : nat) (mu : key2 -> option cls) (s : key2) : option cls :=
    match fst s with D k => if Nat.leb m k then None else mu s | X _ => mu s end.
  Definition clr_x (m : nat) (mu : key2 -> option cls) (s : key2) : option cls :=
    match fst s with X k => if Nat.leb m k then None else mu s | D _ => mu s end.

  Lemma tf_dummies xs ss h suf : forall pre mu,
    (forall k v, (List.length pre <= k < List.length pre + List.length suf)%nat ->
       mu (D k, v) = Some (nth (k - List.length pre) suf 1%positive)) ->
    (forall k v, (List.length pre <= k < List.length pre + List.length suf)%nat -> cnt (D k, v) ss = 1%nat) ->
    (forall k v, In (D k, v) ss -> (k < List.length pre + List.length suf)%nat) ->
    sumL (map dim suf) (fun ds => tf mu (vl xs (pre ++ ds)) ss h)
    = sumL (map dim suf) (fun ds => tf (clr_d (List.length pre) mu) (vl xs (pre ++ ds)) ss h).
  Proof.
    induction suf as [|c suf IH]; intros pre mu Hm Hc Hs; simpl in *.
    - apply tf_ext; [|reflexivity]. intros [[k|k] v] Hi; split; try reflexivity.
      unfold clr_d. cbn [fst]. destruct (Nat.leb_spec (List.length pre) k); [|reflexivity]. apply Hs in Hi. lia.
    - set (mu1 := clr_d (S (List.length pre)) mu).
      transitivity (sumN (dim c) (fun p => sumL (map dim suf) (fun ds => tf mu1 (vl xs (pre ++ p :: ds)) ss h))).
      { apply sumN_ext. intros p _.
        assert (L : List.length (pre ++ [p]) = S (List.length pre)) by (rewrite app_length; simpl; lia).
        assert (E : forall m, sumL (map dim suf) (fun ds => tf m (vl xs (pre ++ p :: ds)) ss h)
                  = sumL (map dim suf) (fun ds => tf m (vl xs ((pre ++ [p]) ++ ds)) ss h)).
        { intros m. apply sumL_ext. intros ds _. rewrite <- app_assoc. reflexivity. }
        rewrite !E. unfold mu1. rewrite <- L. apply IH; rewrite ?L.
        - intros k v Hk. rewrite Hm by lia. replace (k - List.length pre)%nat with (S (k - S (List.length pre)))%nat by lia. reflexivity.
        - intros k v Hk. apply Hc. lia.
        - intros k v Hk. apply Hs in Hk. lia. }
      rewrite !sumN_sumL. apply sumL_ext. intros ds _.
      rewrite (tf_dummy mu1 (fun p => vl xs (pre ++ p :: ds)) (D (List.length pre)) c ss h).
      + apply sumN_ext. intros p _. apply tf_ext; [|reflexivity]. intros [[k|k] v] _; (split; [|reflexivity]); unfold setk, mu1, clr_d; cbn [fst].
        * destruct (key_eqb_spec (D (List.length pre), false) (X k, v)); [congruence|].
          destruct (key_eqb_spec (D (List.length pre), true) (X k, v)); [congruence|]. reflexivity.
        * destruct (key_eqb_spec (D (List.length pre), false) (D k, v)) as [E|E1]; [injection E as <- _; rewrite Nat.leb_refl; reflexivity|].
          destruct (key_eqb_spec (D (List.length pre), true) (D k, v)) as [E|E2]; [injection E as <- _; rewrite Nat.leb_refl; reflexivity|].
          destruct (Nat.leb_spec (S (List.length pre)) k), (Nat.leb_spec (List.length pre) k); try reflexivity; try lia.
          exfalso. assert (k = List.length pre) by lia. subst k. destruct v; congruence.
      + unfold mu1, clr_d. cbn [fst]. destruct (Nat.leb_spec (S (List.length pre)) (List.length pre)); [lia|].
        rewrite Hm by lia. rewrite Nat.sub_diag. reflexivity.
      + unfold mu1, clr_d. cbn [fst]. destruct (Nat.leb_spec (S (List.length pre)) (List.length pre)); [lia|].
        rewrite Hm by lia. rewrite Nat.sub_diag. reflexivity.
      + apply Hc. lia.
      + apply Hc. lia.
      + intros p v. unfold vl. cbn [fst look]. rewrite app_nth2, Nat.sub_diag by lia. reflexivity.
      + intros p q [[k|k] v] Hk; unfold vl; cbn [fst look]; [reflexivity|]. cbn [fst] in Hk.
        destruct (Nat.lt_ge_cases k (List.length pre)) as [H|H]; [rewrite !app_nth1 by auto; reflexivity|].
        rewrite !app_nth2 by auto. destruct (k - List.length pre)%nat as [|j] eqn:E; [exfalso; apply Hk; f_equal; lia|]. reflexivity.
  Qed.

  Lemma tf_externals ds ss h hf l : forall pre xs mu, List.length xs = List.length l ->
    (forall k v, (List.length pre <= k < List.length pre + List.length l)%nat ->
       mu (X k, v) = Some (nth (k - List.length pre) (map cl l) 1%positive)) ->
    (forall k, (List.length pre <= k < List.length pre + List.length l)%nat ->
       cnt (X k, Nat.ltb k hf) ss = 1%nat /\ cnt (X k, negb (Nat.ltb k hf)) ss = 0%nat) ->
    (forall k v, In (X k, v) ss -> (k < List.length pre + List.length l)%nat) ->
    tf mu (vl (pre ++ xs) ds) ss h
    = sumL (map n l) (fun e => mix U V (hf - List.length pre) l xs e * tf (clr_x (List.length pre) mu) (vl (pre ++ e) ds) ss h).
  Proof.
    induction l as [|s l IH]; intros pre [|x xs] mu HL Hm Hc Hs; simpl in HL; try discriminate.
    - cbn [map sumL mix]. transitivity (tf (clr_x (List.length pre) mu) (vl (pre ++ []) ds) ss h); [|ring].
      apply tf_ext; [|reflexivity]. intros [[k|k] v] Hi; split; try reflexivity.
      unfold clr_x. cbn [fst]. destruct (Nat.leb_spec (List.length pre) k); [|reflexivity]. apply Hs in Hi. simpl in Hi. lia.
    - injection HL as HL. simpl in Hm, Hc, Hs. set (m := List.length pre) in *. set (b := Nat.ltb m hf).
      destruct (Hc m ltac:(lia)) as (C1 & C0). fold b in C1, C0. apply cnt0 in C0.
      assert (M1 : mu (X m, b) = Some (cl s)) by (rewrite Hm by lia; rewrite Nat.sub_diag; reflexivity).
      rewrite (tf_one mu _ (X m, b) (cl s) M1 ss h C1). cbn [map sumL]. rewrite sp_dim_cl. apply sumN_ext. intros j _.
      assert (L : List.length (pre ++ [j]) = S m) by (rewrite app_length; simpl; unfold m; lia).
      assert (Vm : vl (pre ++ x :: xs) ds (X m, b) = x).
      { unfold vl, m. cbn [fst look]. rewrite app_nth2, Nat.sub_diag by lia. reflexivity. }
      rewrite Vm. cbn [snd].
      transitivity (W (cl s) b x j * tf (setk mu (X m, b) None) (vl ((pre ++ [j]) ++ xs) ds) ss h).
      { f_equal. apply tf_ext; [|reflexivity]. intros [[k|k] v] Hi; (split; [reflexivity|]); unfold setk, vl; cbn [fst look].
        - rewrite <- app_assoc. cbn [app].
          destruct (key_eqb_spec (X m, b) (X k, v)) as [E|E].
          + injection E as <- <-. unfold m. rewrite app_nth2, Nat.sub_diag by lia. reflexivity.
          + assert (k <> m). { intros ->. apply C0. destruct v, b; simpl; try congruence; exact Hi. }
            destruct (Nat.lt_ge_cases k (List.length pre)) as [H1|H1]; [rewrite !app_nth1 by auto; reflexivity|].
            rewrite !app_nth2 by auto. destruct (k - List.length pre)%nat eqn:E1; [unfold m in *; lia|]. reflexivity.
        - destruct (key_eqb_spec (X m, b) (D k, v)); [congruence|]. reflexivity. }
      rewrite (IH (pre ++ [j]) xs (setk mu (X m, b) None) HL); rewrite ?L.
      + rewrite <- sumL_mul_l. apply sumL_ext. intros e _. rewrite <- app_assoc. cbn [app].
        assert (E : mix U V (hf - m) (s :: l) (x :: xs) (j :: e) = W (cl s) b x j * mix U V (hf - S m) l xs e).
        { unfold W, b. rewrite !of_cls_cl. destruct (Nat.ltb_spec m hf) as [H1|H1].
          - replace (hf - m)%nat with (S (hf - S m)) by lia. reflexivity.
          - replace (hf - m)%nat with 0%nat by lia. replace (hf - S m)%nat with 0%nat by lia. reflexivity. }
        rewrite E. replace (tf (clr_x m mu) (vl (pre ++ j :: e) ds) ss h)
          with (tf (clr_x (S m) (setk mu (X m, b) None)) (vl (pre ++ j :: e) ds) ss h); [ring|].
        apply tf_ext; [|reflexivity]. intros [[k|k] v] Hi; (split; [|reflexivity]); unfold clr_x, setk; cbn [fst].
        * destruct (key_eqb_spec (X m, b) (X k, v)) as [E1|E1].
          -- injection E1 as <- <-. rewrite Nat.leb_refl. destruct (Nat.leb (S m) m); reflexivity.
          -- assert (k <> m). { intros ->. apply C0. destruct v, b; simpl; try congruence; exact Hi. }
             destruct (Nat.leb_spec (S m) k), (Nat.leb_spec m k); try reflexivity; lia.
        * destruct (key_eqb_spec (X m, b) (D k, v)); [congruence|]. reflexivity.
      + intros k v Hk. rewrite setk_neq by (intros E; injection E as E _; lia).
        rewrite Hm by lia. replace (k - m)%nat with (S (k - S m)) by lia. reflexivity.
      + intros k Hk. apply Hc. lia.
      + intros k v Hi. apply Hs in Hi. lia.
  Qed.

  Lemma tf_none mu val ss : forall h, (forall s, In s ss -> mu s = None) -> tf mu val ss h = h (map val ss).
  Proof.
    induction ss as [|s ss IH]; intros h H; simpl; [reflexivity|]. rewrite (H s) by (left; auto).
    apply IH. intros; apply H; right; auto.
  Qed.

  Lemma map_slots xs ds is : forall k, map (vl xs ds) (slots k is) = map (look xs ds) is.
  Proof. induction is as [|i is IH]; intros k; simpl; [reflexivity|]. rewrite IH. reflexivity. Qed.

  Section Mono.
    Variables rho rho' : positive -> list nat -> K.
    Variable tb : list (positive * (unit * option (list space))).
    Hypothesis Htb : Forall (sym_rel K K unit n n (fun _ => eq) (fun _ => rotated_array n U V) rho rho') tb.

    Variables sh dm : list cls.
    Definition icls (s : key2) : option cls := ix_cls sh dm (fst s).

    Lemma typed_slots xs ds is : forall k (l : list space) h, typed sh dm is (map cl l) = true ->
      tf icls (vl xs ds) (slots k is) h = sumL (map n l) (fun j => mix U V k l (map (look xs ds) is) j * h j).
    Proof.
      induction is as [|i is IH]; intros k [|s l] h H; simpl in H; try discriminate.
      - simpl. ring.
      - cbn [slots tf]. unfold icls at 1. cbn [fst]. destruct (ix_cls sh dm i) as [c|] eqn:E; [|discriminate].
        destruct (Pos.eqb_spec (cl s) c) as [<-|]; [|discriminate]. cbn [map sumL]. rewrite sp_dim_cl.
        apply sumN_ext. intros j _. cbn [snd]. rewrite (IH (pred k) l _ H).
        rewrite <- sumL_mul_l. apply sumL_ext. intros e _. unfold W, vl. rewrite !of_cls_cl. cbn [fst].
        destruct k; cbn [mix pred]; ring.
    Qed.

    Lemma typed_inrange xs ds is : forall (l : list space), typed sh dm is (map cl l) = true ->
      inrange (map dim sh) xs -> inrange (map dim dm) ds -> inrange (map n l) (map (look xs ds) is).
    Proof.
      induction is as [|i is IH]; intros [|s l] H Hx Hd; simpl in H; try discriminate; [constructor|].
      destruct (ix_cls sh dm i) as [c|] eqn:E; [|discriminate]. destruct (Pos.eqb_spec (cl s) c) as [<-|]; [|discriminate].
      cbn [map]. constructor; [|apply IH; auto]. rewrite <- sp_dim_cl.
      assert (G : forall (zs : list nat) cs k, inrange (map dim cs) zs -> nth_error cs k = Some (cl s) -> (nth k zs 0 < dim (cl s))%nat).
      { intros zs cs k Hz. unfold inrange in Hz. revert k. induction cs as [|c cs IHc] in zs, Hz |- *; intros [|k]; simpl in Hz; inversion Hz; subst; simpl; try discriminate.
        - intros [= ->]. assumption.
        - apply IHc. assumption. }
      destruct i as [k|k]; simpl in *; eapply G; eauto.
    Qed.

    Lemma fac_rot xs ds f : fac_typed tb sh dm f = true -> inrange (map dim sh) xs -> inrange (map dim dm) ds ->
      den_fac K rho' xs ds f = tf icls (vl xs ds) (fslots f) (rho (fst f)).
    Proof.
      unfold fac_typed, den_fac, fslots. destruct f as [t is]. cbn [fst snd]. intros H Hx Hd.
      destruct (lookup_sym t tb) as [[[] [l|]]|] eqn:E; [| |discriminate];
        apply lookup_in in E; rewrite Forall_forall in Htb; specialize (Htb _ E); unfold sym_rel in Htb; cbn [fst snd] in Htb.
      - destruct Htb as (a & b & (Sa & Sb & R) & Ea & Eb).
        pose proof (typed_inrange xs ds is l H Hx Hd) as HI.
        rewrite Eb by auto. rewrite R by auto. rewrite (typed_slots xs ds is _ l _ H).
        assert (L : List.length is = List.length l) by (apply Forall2_length in HI; rewrite !map_length in HI; auto).
        rewrite L. apply sumL_ext. intros j Hj. rewrite Ea by auto. reflexivity.
      - destruct is; [|discriminate]. simpl. auto.
    Qed.

    Fixpoint Hprod (fs : list (positive * list ix)) (l : list nat) : K :=
      match fs with
      | [] => 1
      | f :: fs' => rho (fst f) (firstn (List.length (fslots f)) l) * Hprod fs' (skipn (List.length (fslots f)) l)
      end.

    Lemma prod_tf mu val fs : prodK (map (fun f => tf mu val (fslots f) (rho (fst f))) fs) = tf mu val (flat_map fslots fs) (Hprod fs).
    Proof. induction fs as [|f fs IH]; simpl; [reflexivity|]. rewrite IH, tf_app. reflexivity. Qed.

    Lemma prod_none mu xs ds fs : (forall s, In s (flat_map fslots fs) -> mu s = None) ->
      tf mu (vl xs ds) (flat_map fslots fs) (Hprod fs) = prodK (map (den_fac K rho xs ds) fs).
    Proof.
      intros H. rewrite <- prod_tf. f_equal. apply map_ext_in. intros f Hf. rewrite tf_none.
      - unfold den_fac, fslots. rewrite map_slots. reflexivity.
      - intros s Hs. apply H. apply in_flat_map. eauto.
    Qed.
  End Mono.

  Section MonoRot.
    Variables rho rho' : positive -> list nat -> K.
    Variable tb : list (positive * (unit * option (list space))).
    Hypothesis Htb : Forall (sym_rel K K unit n n (fun _ => eq) (fun _ => rotated_array n U V) rho rho') tb.

    Lemma typed_keys sh dm is : forall ty k v, typed sh dm is ty = true -> In v (slots k is) ->
      match fst v with X i => (i < List.length sh)%nat | D i => (i < List.length dm)%nat end.
    Proof.
      induction is as [|i is IH]; intros [|c ty] k v H Hv; simpl in H, Hv; try discriminate; [contradiction|].
      destruct (ix_cls sh dm i) as [c'|] eqn:E; [|discriminate]. destruct (Pos.eqb c c'); [|discriminate].
      destruct Hv as [<-|Hv]; [|eapply IH; eauto]. cbn [fst]. destruct i as [m|m]; simpl in E;
        apply nth_error_Some; congruence.
    Qed.

    Lemma mono_rot l m xs : rot_chk tb (map cl l) m = true -> inrange (map n l) xs ->
      den_mono K dim rho' xs m
      = sumL (map n l) (fun e => mix U V (Nat.div2 (List.length l)) l xs e * den_mono K dim rho e m).
    Proof.
      unfold rot_chk. rewrite map_length. intros H Hx. apply andb_prop in H as (H1 & H). apply andb_prop in H as (H2 & H3).
      rewrite forallb_forall in H1, H2, H3.
      set (sh := map cl l) in *. set (ss := flat_map fslots (m_fs m)) in *. set (hf := Nat.div2 (List.length l)) in *.
      assert (KS : forall v, In v ss -> match fst v with X i => (i < List.length l)%nat | D i => (i < List.length (m_dm m))%nat end).
      { intros v Hv. apply in_flat_map in Hv as (f & Hf & Hv). specialize (H1 _ Hf). unfold fac_typed in H1.
        assert (T : exists ty, typed sh (m_dm m) (snd f) ty = true)
          by (destruct (lookup_sym (fst f) tb) as [[? [?|]]|]; [eauto|eauto|discriminate]).
        destruct T as (ty & T). pose proof (typed_keys _ _ _ _ _ _ T Hv) as G. unfold sh in G. rewrite map_length in G. exact G. }
      assert (Hxd : inrange (map dim sh) xs) by (unfold sh; rewrite map_sp_dim; exact Hx).
      unfold den_mono at 1.
      assert (E1 : sumL (map dim (m_dm m)) (fun ds => prodK (map (den_fac K rho' xs ds) (m_fs m)))
                 = sumL (map dim (m_dm m)) (fun ds => tf (icls sh (m_dm m)) (vl xs ([] ++ ds)) ss (Hprod rho (m_fs m)))).
      { apply sumL_ext. intros ds Hd. unfold ss. rewrite <- prod_tf. f_equal. apply map_ext_in. intros f Hf.
        apply (fac_rot rho rho' tb Htb); auto. }
      rewrite E1. clear E1.
      rewrite (tf_dummies xs ss (Hprod rho (m_fs m)) (m_dm m) [] (icls sh (m_dm m))); cycle 1.
      { intros k v Hk. simpl in Hk. unfold icls. cbn [fst ix_cls List.length]. rewrite Nat.sub_0_r.
        apply nth_error_nth'. lia. }
      { intros k v Hk. simpl in Hk. specialize (H2 k). rewrite in_seq in H2. specialize (H2 Hk).
        apply andb_prop in H2 as (A1 & A2). apply Nat.eqb_eq in A1, A2. destruct v; auto. }
      { intros k v Hk. apply KS in Hk. simpl. exact Hk. }
      transitivity (dyad (m_z m) (m_k m) * sumL (map dim (m_dm m)) (fun ds => sumL (map n l) (fun e =>
        mix U V hf l xs e * prodK (map (den_fac K rho e ds) (m_fs m))))).
      { f_equal. apply sumL_ext. intros ds Hd. cbn [app].
        change xs with ([] ++ xs) at 1.
        rewrite (tf_externals ds ss _ hf l [] xs).
        - apply sumL_ext. intros e He. cbn [List.length app]. rewrite Nat.sub_0_r. f_equal. apply prod_none.
          intros [[k|k] v] _; unfold clr_x, clr_d; cbn [fst]; reflexivity.
        - apply Forall2_length in Hx. rewrite map_length in Hx. auto.
        - intros k v Hk. simpl in Hk. unfold clr_d, icls. cbn [fst ix_cls List.length]. rewrite Nat.sub_0_r.
          apply nth_error_nth'. unfold sh. rewrite map_length. lia.
        - intros k Hk. simpl in Hk. specialize (H3 k). rewrite in_seq in H3. specialize (H3 Hk). cbv zeta in H3.
          apply andb_prop in H3 as (A1 & A2). apply Nat.eqb_eq in A1, A2. auto.
        - intros k v Hk. apply KS in Hk. simpl. exact Hk. }
      rewrite <- sumL_mul_l.
      transitivity (sumL (map n l) (fun e => sumL (map dim (m_dm m)) (fun ds => dyad (m_z m) (m_k m) *
        (mix U V hf l xs e * prodK (map (den_fac K rho e ds) (m_fs m)))))).
      { assert (SW : forall ns ms (f : list nat -> list nat -> K), sumL ns (fun a => sumL ms (f a)) = sumL ms (fun b => sumL ns (fun a => f a b))).
        { induction ns as [|k ns IHn]; intros ms f; simpl; [reflexivity|].
          transitivity (sumN k (fun i => sumL ms (fun b => sumL ns (fun a => f (i :: a) b)))).
          - apply sumN_ext. intros i _. apply (IHn ms (fun a => f (i :: a))).
          - apply (sumN_sumL k ms (fun i b => sumL ns (fun a => f (i :: a) b))). }
        rewrite <- SW. apply sumL_ext. intros ds _. symmetry. apply sumL_mul_l. }
      apply sumL_ext. intros e _. unfold den_mono. rewrite <- !sumL_mul_l. apply sumL_ext. intros ds _. ring.
    Qed.

    Lemma den_rot l ms xs : forallb (rot_chk tb (map cl l)) ms = true -> inrange (map n l) xs ->
      den K dim rho' xs ms = sumL (map n l) (fun e => mix U V (Nat.div2 (List.length l)) l xs e * den K dim rho e ms).
    Proof.
      intros H Hx. unfold den. induction ms as [|m ms IH]; simpl.
      - rewrite (sumL_ext _ _ _ (fun _ => 0)); [symmetry; apply sumL_0|]. intros; ring.
      - simpl in H. apply andb_prop in H as (H1 & H2). rewrite IH by auto. rewrite (mono_rot l m xs H1 Hx).
        rewrite <- sumL_add. apply sumL_ext. intros; ring.
    Qed.
  End MonoRot.
End Rot.

Lemma qrelated_unit {K1 K2 : cring} N A l : forall (vs : list (pyval K1)) (ws : list (pyval K2)),
  related_args (related N A) l vs ws -> qrelated K1 K2 unit (fun _ => N) (fun _ => A) (map (pair tt) l) vs ws.
Proof.
  induction l as [|s l IH]; intros [|v vs] [|w ws] H; try contradiction; [exact I|].
  destruct H as (H1 & H2). split; [exact H1|]. apply IH, H2.
Qed.

Theorem rot_sound (K : cring) (n : space -> nat) (U V : space -> nat -> nat -> K) f a r vs ws :
  inverse_of n U V -> cov_chk rot_chk f (map (pair tt) a) r = true ->
  related_args (rotated n U V) a vs ws ->
  exists v w, returns f vs v /\ returns f ws w /\ rotated n U V r v w.
Proof.
  intros UV HC HR.
  refine (pair_sound K K unit n n (fun _ => eq) (fun _ => rotated_array n U V) eq (rotated_array n U V) rot_chk f (map (pair tt) a) r vs ws _ _ HC (qrelated_unit _ _ _ _ _ HR)).
  - intros _ l t u (H1 & H2 & _). auto.
  - intros rho rho' HT. split.
    + intros ms Hm _. pose proof (den_rot K n U V UV rho rho' _ HT [] ms [] Hm ltac:(constructor)) as E.
      rewrite E. simpl. destruct K; simpl in *. rewrite (Rmul_1_l c_th). reflexivity.
    + intros l ms t u Hm (S1 & _ & E1) (S2 & _ & E2). cbn [s_sh s_ms] in *. rewrite map_sp_dim in S1, S2.
      split; [exact S1|]. split; [exact S2|]. intros idx Hi. rewrite E2 by (rewrite S2; exact Hi).
      rewrite (den_rot K n U V UV rho rho' _ HT l ms idx Hm Hi). apply sumL_ext. intros e He. rewrite E1 by (rewrite S1; exact He). reflexivity.
Qed.
