(** Rounding errors of the coupled cluster functions: the runs over exact arrays,
    rounded arrays, magnitudes and operation counts go in step. *)
From Coq Require Import List Bool Arith Ascii String ZArith Reals Permutation Lia Lra.
From Verif Require Import Scalar Tensor PySyntax PySem PySim SymSound RoundSpec RoundCC.
Import ListNotations.

Lemma allidx_length ns : List.length (allidx ns) = fold_right Nat.mul 1 ns.
Proof.
  induction ns as [|n ns IH]; [reflexivity|]. cbn [allidx fold_right].
  assert (G : forall l : list nat, List.length (flat_map (fun i => map (cons i) (allidx ns)) l) = List.length l * List.length (allidx ns)).
  { induction l as [|i l IHl]; [reflexivity|]. cbn [flat_map]. rewrite app_length, map_length, IHl. cbn. lia. }
  rewrite G, seq_length, IH. reflexivity.
Qed.

(** every factor of an einsum is an in-range entry of one of the operands *)
Lemma ein_terms_spec ins out shs sh f : ein_terms ins out shs = Some (sh, f) ->
  forall idx, inrange sh idx -> forall p, In p (f idx) ->
    List.length p = List.length ins /\ map fst p = seq 0 (List.length shs) /\
    forall l, In l p -> (fst l < List.length shs)%nat /\ inrange (nth (fst l) shs []) (snd l).
Proof.
  unfold ein_terms. destruct (bind_all Nat.eqb ins shs []) as [env|] eqn:Eb; [|discriminate].
  set (sm := summed_letters out env).
  destruct (dims_of out env) as [od|] eqn:Eo; [|discriminate].
  destruct (dims_of sm env) as [sd|] eqn:Es; [|discriminate].
  destruct (nodup_ascii out); [|discriminate]. intros [= <- <-] idx Hidx p Hp.
  apply in_map_iff in Hp as (s & <- & Hs). apply In_allidx in Hs.
  assert (HB : forall x y, Nat.eqb x y = true -> x = y) by (intros x y; apply Nat.eqb_eq).
  destruct (bind_all_spec Nat.eqb HB _ _ _ _ Eb) as [_ Hbound]. clear HB.
  pose proof (dims_of_app _ _ _ _ _ Eo Es) as Eord.
  assert (Hr : inrange (od ++ sd) (idx ++ s)) by (apply inrange_app; auto).
  assert (Lin : List.length ins = List.length shs) by (eapply Forall2_length; eauto).
  split; [|split].
  - rewrite map_length, combine_length, seq_length. lia.
  - rewrite map_map. cbn [fst]. rewrite <- Lin. clear. generalize 0%nat.
    induction ins as [|a ins IH]; intros n; cbn; [reflexivity|]. f_equal. apply IH.
  - intros l Hl. apply in_map_iff in Hl as ([j ls] & <- & Hj). cbn [fst snd].
    assert (HF : (j < List.length shs)%nat /\ Forall2 (fun a d => lookup_letter a env = Some d) ls (nth j shs [])).
    { clear -Hbound Hj. revert Hj.
      assert (G : forall n, In (j, ls) (combine (seq n (List.length ins)) ins) -> (n <= j < n + List.length shs)%nat /\
        Forall2 (fun a d => lookup_letter a env = Some d) ls (nth (j - n) shs [])).
      { induction Hbound as [|x y ins shs Hxy Hb IH]; intros n Hj; [destruct Hj|]. cbn in Hj. destruct Hj as [E|Hj].
        - injection E as -> ->. replace (j - j)%nat with 0%nat by lia. cbn. split; [lia|exact Hxy].
        - destruct (IH (S n) Hj) as [A B]. cbn [List.length]. split; [lia|].
          replace (j - n)%nat with (S (j - S n)) by lia. exact B. }
      intros Hj. destruct (G 0%nat Hj) as [A B]. split; [lia|]. replace j with (j - 0)%nat by lia. exact B. }
    destruct HF as [Lj HF]. split; [exact Lj|].
    clear - HF Hr Eord. induction HF as [|a d ls sh Ha HF IH]; simpl; [constructor|].
    constructor; auto.
    pose proof (bound_ordered _ out _ _ Ha) as Hin. fold sm in Hin.
    pose proof (dims_of_nth 0%nat _ _ _ _ Eord Hin) as Hd. rewrite Ha in Hd. injection Hd as ->.
    apply (inrange_nth _ _ (index_of a (out ++ sm)) Hr).
    rewrite (dims_of_length _ _ _ Eord). apply index_of_lt. exact Hin.
Qed.

(** the exact einsum sums these products *)
Lemma einsum_terms (K : cring) ins out (ts : list (tensor K)) :
  match einsum ins out ts with
  | None => ein_terms ins out (map shp ts) = None
  | Some t => exists f, ein_terms ins out (map shp ts) = Some (shp t, f) /\
      forall idx, dat t idx = psum K (entry K ts) (f idx)
  end.
Proof.
  unfold einsum, ein_terms. destruct (bind_all Nat.eqb ins (map shp ts) []) as [env|] eqn:Eb; [|reflexivity].
  set (sm := summed_letters out env).
  destruct (dims_of out env) as [od|]; [|reflexivity]. destruct (dims_of sm env) as [sd|]; [|reflexivity].
  destruct (nodup_ascii out); [|reflexivity].
  eexists. split; [reflexivity|]. intros idx. cbn [dat]. rewrite sumL_allidx. unfold psum. rewrite map_map.
  f_equal. apply map_ext. intros s. f_equal. rewrite map_map.
  assert (HB : forall x y, Nat.eqb x y = true -> x = y) by (intros x y; apply Nat.eqb_eq).
  destruct (bind_all_spec Nat.eqb HB _ _ _ _ Eb) as [_ Hbound]. apply Forall2_length in Hbound.
  rewrite map_length in Hbound. clear -Hbound.
  unfold entry. cbn [fst snd].
  generalize (fun a => nth (index_of a (out ++ sm)) (idx ++ s) 0%nat) as val. intros val.
  transitivity (map (fun x => dat (nth (fst x - 0) ts (tzeros K [])) (map val (snd x))) (combine (seq 0 (List.length ins)) ins)).
  2:{ apply map_ext. intros [j l]. cbn. rewrite Nat.sub_0_r. reflexivity. }
  generalize 0%nat. revert ts Hbound. induction ins as [|l ins IH]; intros [|t ts] HL n; cbn in HL; try discriminate; [reflexivity|].
  cbn [List.length seq combine map fst snd]. rewrite Nat.sub_diag. cbn [nth]. f_equal.
  rewrite (IH ts ltac:(lia) (S n)). apply map_ext_in. intros [j l'] Hj. apply in_combine_l, in_seq in Hj. cbn [fst snd].
  replace (j - n)%nat with (S (j - S n)) by lia. reflexivity.
Qed.

Lemma terms_length ins out shs sh f : ein_terms ins out shs = Some (sh, f) ->
  exists env sd, bind_all Nat.eqb ins shs [] = Some env /\ dims_of out env = Some sh /\
    dims_of (summed_letters out env) env = Some sd /\ nodup_ascii out = true /\
    List.length ins = List.length shs /\
    forall idx, List.length (f idx) = fold_right Nat.mul 1%nat sd.
Proof.
  unfold ein_terms. destruct (bind_all Nat.eqb ins shs []) as [env|] eqn:Eb; [|discriminate].
  destruct (dims_of out env) as [od|] eqn:Eo; [|discriminate].
  destruct (dims_of (summed_letters out env) env) as [sd|] eqn:Es; [|discriminate].
  destruct (nodup_ascii out) eqn:En; [|discriminate]. intros [= <- <-].
  exists env, sd. repeat split; auto.
  - assert (HB : forall x y, Nat.eqb x y = true -> x = y) by (intros x y; apply Nat.eqb_eq).
    destruct (bind_all_spec Nat.eqb HB _ _ _ _ Eb) as [_ Hbound]. apply Forall2_length in Hbound. exact Hbound.
  - intros idx. rewrite map_length, allidx_length. reflexivity.
Qed.

Section Run.
  Variable K : cring.
  Local Open Scope R_scope.
  Variable nrm : K -> R.
  Variable u : R.
  Variables (add mul : K -> K -> K) (ein : einsum_fun K).
  Hypothesis HN : is_norm K nrm.
  Hypothesis HA : is_arithmetic K nrm u add mul ein.
  Notation within := (within K nrm u).
  Notation t_within := (t_within K nrm u).
  Notation FL := (fl_alg K add mul ein).
  Notation MG := (mag_alg K nrm).
  Notation EX := (conc_alg K).

  Lemma U0 : 0 <= u. Proof. apply HA. Qed.

  (** exact array, magnitudes, number of roundings *)
  Definition earr : Type := (tensor K * tensor RK * (list nat * nat))%type.
  Definition enum : Type := (K * R * nat)%type.
  Definition p1 {A B C} (x : A * B * C) : A := fst (fst x).
  Definition p2 {A B C} (x : A * B * C) : B := snd (fst x).
  Definition p3 {A B C} (x : A * B * C) : C := snd x.
  Definition e_lift (a : option (tensor K)) (b : option (tensor RK)) (c : option (list nat * nat)) : option earr :=
    match a, b, c with Some a, Some b, Some c => Some (a, b, c) | _, _, _ => None end.
  Definition e_einsum (ins : list letters) (out : letters) (ts : list earr) : option (enum + earr) :=
    match conc_einsum K ins out (map p1 ts), conc_einsum RK ins out (map p2 ts), d_einsum ins out (map p3 ts) with
    | Some (inl a), Some (inl b), Some (inl c) => Some (inl (a, b, c))
    | Some (inr a), Some (inr b), Some (inr c) => Some (inr (a, b, c))
    | _, _, _ => None
    end.
  Definition err_alg : alg :=
    Alg earr enum
      (fun z k => (n_const EX z k, n_const MG z k, n_const depth_alg z k))
      (fun a b => (n_add EX (p1 a) (p1 b), n_add MG (p2 a) (p2 b), n_add depth_alg (p3 a) (p3 b)))
      (fun a b => (n_mul EX (p1 a) (p1 b), n_mul MG (p2 a) (p2 b), n_mul depth_alg (p3 a) (p3 b)))
      (fun a => (n_neg EX (p1 a), n_neg MG (p2 a), n_neg depth_alg (p3 a)))
      (fun a b => e_lift (a_add EX (p1 a) (p1 b)) (a_add MG (p2 a) (p2 b)) (a_add depth_alg (p3 a) (p3 b)))
      (fun a => (a_neg EX (p1 a), a_neg MG (p2 a), a_neg depth_alg (p3 a)))
      (fun k a => (a_scale EX (p1 k) (p1 a), a_scale MG (p2 k) (p2 a), a_scale depth_alg (p3 k) (p3 a)))
      (fun p a => e_lift (a_trans EX p (p1 a)) (a_trans MG p (p2 a)) (a_trans depth_alg p (p3 a)))
      e_einsum.

  Lemma e_lift_some a b c r : e_lift a b c = Some r -> a = Some (p1 r) /\ b = Some (p2 r) /\ c = Some (p3 r).
  Proof. destruct a, b, c; cbn; try discriminate. intros [= <-]. auto. Qed.

  (** projections *)
  Definition RnM (e : enum) (m : R) : Prop := p2 e = m.
  Definition RaM (e : earr) (m : tensor RK) : Prop := p2 e = m.
  Definition RnD (e : enum) (d : nat) : Prop := p3 e = d.
  Definition RaD (e : earr) (d : list nat * nat) : Prop := p3 e = d.

  Lemma forall2_map {A B} (g : A -> B) ts ts' : Forall2 (fun a b => g a = b) ts ts' -> map g ts = ts'.
  Proof. induction 1; cbn; congruence. Qed.

  Lemma sim_mag prog f args args' r out : Forall2 (Rx err_alg MG RnM RaM) args args' ->
    pycall err_alg prog f args = Ok (r, out) ->
    exists r' out', pycall MG prog f args' = Ok (r', out') /\ Rx err_alg MG RnM RaM r r' /\ Forall2 (Rx err_alg MG RnM RaM) out out'.
  Proof.
    apply pycall_sim; unfold RnM, RaM.
    - reflexivity.
    - intros a a' b b' <- <-. reflexivity.
    - intros a a' b b' <- <-. reflexivity.
    - intros a a' <-. reflexivity.
    - intros a a' b b' c <- <- H. apply e_lift_some in H as (_ & H & _). eauto.
    - intros a a' <-. reflexivity.
    - intros k k' a a' <- <-. reflexivity.
    - intros p a a' c <- H. apply e_lift_some in H as (_ & H & _). eauto.
    - intros ins o ts ts' s H E. apply forall2_map in H. subst ts'. cbn -[conc_einsum d_einsum e_einsum fl_einsum] in E |- *. unfold e_einsum in E.
      destruct (conc_einsum K ins o (map p1 ts)) as [[?|?]|], (conc_einsum RK ins o (map p2 ts)) as [[?|?]|] eqn:E2,
        (d_einsum ins o (map p3 ts)) as [[?|?]|] eqn:E3; try discriminate; injection E as <-; eexists; (split; [exact E2|]); reflexivity.
  Qed.
  Lemma sim_depth prog f args args' r out : Forall2 (Rx err_alg depth_alg RnD RaD) args args' ->
    pycall err_alg prog f args = Ok (r, out) ->
    exists r' out', pycall depth_alg prog f args' = Ok (r', out') /\ Rx err_alg depth_alg RnD RaD r r' /\ Forall2 (Rx err_alg depth_alg RnD RaD) out out'.
  Proof.
    apply pycall_sim; unfold RnD, RaD.
    - reflexivity.
    - intros a a' b b' <- <-. reflexivity.
    - intros a a' b b' <- <-. reflexivity.
    - intros a a' <-. reflexivity.
    - intros a a' b b' c <- <- H. apply e_lift_some in H as (_ & _ & H). eauto.
    - intros a a' <-. reflexivity.
    - intros k k' a a' <- <-. reflexivity.
    - intros p a a' c <- H. apply e_lift_some in H as (_ & _ & H). eauto.
    - intros ins o ts ts' s H E. apply forall2_map in H. subst ts'. cbn -[conc_einsum d_einsum e_einsum fl_einsum] in E |- *. unfold e_einsum in E.
      destruct (conc_einsum K ins o (map p1 ts)) as [[?|?]|], (conc_einsum RK ins o (map p2 ts)) as [[?|?]|] eqn:E2,
        (d_einsum ins o (map p3 ts)) as [[?|?]|] eqn:E3; try discriminate; injection E as <-; eexists; (split; [exact E3|]); reflexivity.
  Qed.

  (** the exact run never fails on one side only *)
  Definition RnE (v : K) (e : enum) : Prop := p1 e = v.
  Definition RaE (v : tensor K) (e : earr) : Prop := p1 e = v /\ shp (p2 e) = shp v /\ fst (p3 e) = shp v.

  Lemma d_einsum_terms ins out ds sh f : ein_terms ins out (map fst ds) = Some (sh, f) ->
    exists sd, (forall idx, List.length (f idx) = fold_right Nat.mul 1%nat sd) /\ List.length ins = List.length ds /\
      d_einsum ins out ds = Some (let d := (list_sum (map snd ds) + (fold_right Nat.mul 1%nat sd + List.length ins - 2))%nat in
        match out with [] => inl d | _ => inr (sh, d) end).
  Proof.
    intros H. destruct (terms_length _ _ _ _ _ H) as (env & sd & Eb & Eo & Es & En & HL & Hf).
    exists sd. rewrite map_length in HL. repeat split; auto. unfold d_einsum. rewrite Eb, Eo, Es, En. reflexivity.
  Qed.

  Lemma sim_exact prog f args args' r out : Forall2 (Rx EX err_alg RnE RaE) args args' ->
    pycall EX prog f args = Ok (r, out) ->
    exists r' out', pycall err_alg prog f args' = Ok (r', out') /\ Rx EX err_alg RnE RaE r r' /\ Forall2 (Rx EX err_alg RnE RaE) out out'.
  Proof.
    apply pycall_sim; unfold RnE, RaE.
    - reflexivity.
    - intros a a' b b' <- <-. reflexivity.
    - intros a a' b b' <- <-. reflexivity.
    - intros a a' <-. reflexivity.
    - intros a a' b b' c (<- & A2 & A3) (<- & B2 & B3) H. cbn in H. unfold tadd in H.
      destruct (shape_eqb (shp (p1 a')) (shp (p1 b'))) eqn:E; [|discriminate]. injection H as <-.
      apply shape_eqb_eq in E. cbn. unfold tadd. rewrite A2, B2, A3, B3, E, shape_eqb_refl. eexists. split; [reflexivity|]. cbn. rewrite ?E. auto.
    - intros a a' (<- & A2 & A3). auto.
    - intros k k' a a' <- (<- & A2 & A3). cbn. auto.
    - intros p a a' c (<- & A2 & A3) H. cbn in H |- *. unfold ttrans, d_trans in *. rewrite A2, A3.
      destruct (is_perm p (List.length (shp (p1 a')))); [|discriminate]. injection H as <-.
      eexists. split; [reflexivity|]. cbn. auto.
    - intros ins o ts ts' s H E. cbn -[conc_einsum d_einsum e_einsum fl_einsum] in E |- *. unfold e_einsum.
      assert (X1 : map p1 ts' = ts) by (clear E; induction H as [|a b ts ts' (<- & _) H IH]; cbn; congruence).
      assert (X2 : map shp (map p2 ts') = map shp ts) by (clear E X1; induction H as [|a b ts ts' (_ & Hs & _) H IH]; cbn; congruence).
      assert (X3 : map fst (map p3 ts') = map shp ts) by (clear E X1 X2; induction H as [|a b ts ts' (_ & _ & Hs) H IH]; cbn; congruence).
      rewrite X1, E. unfold conc_einsum in E.
      pose proof (einsum_terms K ins o ts) as T1. destruct (einsum ins o ts) as [t|]; [|discriminate].
      destruct T1 as (g & T1 & _).
      pose proof (einsum_terms RK ins o (map p2 ts')) as T2. rewrite X2, T1 in T2. unfold conc_einsum.
      destruct (einsum ins o (map p2 ts')) as [t2|]; [|discriminate]. destruct T2 as (g2 & T2 & _). injection T2 as T2s _.
      rewrite <- X3 in T1. destruct (d_einsum_terms _ _ _ _ _ T1) as (sd & _ & _ & ->).
      destruct o; injection E as <-; eexists; (split; [reflexivity|]); cbn; auto.
  Qed.

  (** rounded arithmetic *)
  Definition RnF (e : enum) (x : K) : Prop := within x (p1 e) (p2 e) (p3 e).
  Definition RaF (e : earr) (x : tensor K) : Prop := t_within x (p1 e) (p2 e) (p3 e).

  Lemma sim_fl prog f args args' r out : Forall2 (Rx err_alg FL RnF RaF) args args' ->
    pycall err_alg prog f args = Ok (r, out) ->
    exists r' out', pycall FL prog f args' = Ok (r', out') /\ Rx err_alg FL RnF RaF r r' /\ Forall2 (Rx err_alg FL RnF RaF) out out'.
  Proof.
    pose proof U0 as HU. destruct HA as (_ & Hadd & Hmul & Hein).
    apply pycall_sim; unfold RnF, RaF.
    - intros z k. cbn. apply within_exact; auto.
    - intros a a' b b' A B. cbn. eapply within_add; eauto.
    - intros a a' b b' A B. cbn. eapply within_mul; eauto.
    - intros a a' A. cbn. apply within_opp; auto.
    - intros a a' b b' c (A1 & A2 & A3 & A) (B1 & B2 & B3 & B) H. cbn in H. apply e_lift_some in H as (H1 & H2 & H3).
      cbn. unfold fl_add. unfold tadd in *. rewrite A1, B1.
      destruct (shape_eqb (shp (p1 a)) (shp (p1 b))) eqn:E; [|discriminate]. injection H1 as H1.
      destruct (shape_eqb (shp (p2 a)) (shp (p2 b))); [|discriminate]. injection H2 as H2.
      destruct (shape_eqb (fst (p3 a)) (fst (p3 b))); [|discriminate]. injection H3 as H3.
      eexists. split; [reflexivity|]. rewrite <- H1, <- H2, <- H3. apply shape_eqb_eq in E.
      split; [|split; [|split]]; cbn; auto; intros; rewrite E in *; eapply within_add; eauto.
    - intros a a' (A1 & A2 & A3 & A). split; [|split; [|split]]; cbn; auto; intros; apply within_opp; auto.
    - intros k k' a a' Hk (A1 & A2 & A3 & A). split; [|split; [|split]]; cbn; auto; intros; eapply within_mul; eauto.
    - intros p a a' c (A1 & A2 & A3 & A) H. cbn in H. apply e_lift_some in H as (H1 & H2 & H3).
      cbn. unfold ttrans, d_trans in *. rewrite A2 in H2. rewrite A3 in H3. rewrite A1.
      destruct (is_perm p (List.length (shp (p1 a)))) eqn:E; [|discriminate].
      injection H1 as H1. injection H2 as H2. injection H3 as H3. eexists. split; [reflexivity|].
      rewrite <- H1, <- H2, <- H3. split; [|split; [|split]]; cbn; auto; intros; apply A; apply inrange_untrans; auto.
    - intros ins o ts ts' s H E. cbn -[conc_einsum d_einsum e_einsum fl_einsum] in E |- *. unfold e_einsum in E.
      assert (X1 : map shp ts' = map shp (map p1 ts)) by (clear E; induction H as [|a b ts ts' (Hs & _) H IH]; cbn; congruence).
      assert (X2 : map shp (map p2 ts) = map shp (map p1 ts)) by (clear E X1; induction H as [|a b ts ts' (_ & Hs & _) H IH]; cbn; congruence).
      assert (X3 : map fst (map p3 ts) = map shp (map p1 ts)) by (clear E X1 X2; induction H as [|a b ts ts' (_ & _ & Hs & _) H IH]; cbn; congruence).
      unfold conc_einsum in E.
      pose proof (einsum_terms K ins o (map p1 ts)) as T1. destruct (einsum ins o (map p1 ts)) as [t|] eqn:EK; [|discriminate].
      destruct T1 as (g & T1 & V1).
      pose proof (einsum_terms RK ins o (map p2 ts)) as T2. rewrite X2, T1 in T2.
      destruct (einsum ins o (map p2 ts)) as [t2|]; [|destruct o; discriminate]. destruct T2 as (g2 & T2 & V2). injection T2 as T2s T2g. subst g2.
      pose proof T1 as T1'. rewrite <- X3 in T1'. destruct (d_einsum_terms _ _ _ _ _ T1') as (sd & Hlen & HL & ED). rewrite ED in E. cbv zeta in E.
      rewrite map_length in HL.
      (* the bound for one entry *)
      assert (W : forall idx w, inrange (shp t) idx -> computes_sum K nrm u (entry K ts') (g idx) w ->
        within w (dat t idx) (dat t2 idx) (list_sum (map snd (map p3 ts)) + (fold_right Nat.mul 1%nat sd + List.length ins - 2))).
      { intros idx w Hidx C. rewrite V1, V2, <- (Hlen idx).
        pose proof (ein_terms_spec _ _ _ _ _ T1 idx Hidx) as SP.
        eapply computes_sum_within with (x := entry K ts') (d := fun l => snd (nth (fst l) (map p3 ts) ([], 0%nat))); eauto.
        - intros p l Hp Hl. destruct (SP p Hp) as (_ & _ & S3). destruct (S3 l Hl) as [B I]. rewrite !map_length in B.
          unfold entry. clear -H B I. revert B I. generalize (fst l) as j. induction H as [|a b ts ts' Hab H IH]; intros j B I; [cbn in B; lia|].
          destruct j as [|j]; [cbn in I |- *; apply Hab; exact I|]. cbn in I |- *. apply IH; [cbn in B; lia|exact I].
        - intros p Hp. destruct (SP p Hp) as (S1 & S2 & _). split; [|exact S1].
          rewrite <- (map_map fst (fun j => snd (nth j (map p3 ts) ([], 0%nat)))), S2, !map_length.
          rewrite <- (map_length p3 ts). f_equal. generalize (map p3 ts) as ds. clear.
          induction ds as [|d ds IH]; [reflexivity|]. cbn [List.length seq map nth]. f_equal.
          rewrite <- seq_shift, map_map. exact IH. }
      destruct ins as [|l0 ins'].
      { destruct ts; [|discriminate HL]. inversion H; subst. cbn [map] in *.
        destruct o as [|c o]; [|discriminate EK].
        injection E as <-. exists (inl (dat t [])).
        split; [change (conc_einsum K [] [] [] = Some (inl (dat t []))); unfold conc_einsum; rewrite EK; reflexivity|].
        cbn [Rsum].
        unfold ein_terms in T1. cbn in T1. injection T1 as Ts Tg. cbn in Hlen. 
        rewrite V2, V1. rewrite <- Tg. cbn.
        pose proof (within_exact K nrm u HN HU (c1 : K) (1 + 0 - 2)) as X. rewrite (nrm1 K nrm HN) in X.
        unfold p1, p2, p3, psum. cbn. 
        replace (cadd (c1 : K) c0) with (c1 : K). 2:{ rewrite (Radd_comm (c_th K)). symmetry. apply (Radd_0_l (c_th K)). }
        replace (1 + 0)%R with 1%R by ring. specialize (Hlen []). rewrite <- Tg in Hlen. cbn in Hlen. rewrite <- Hlen. exact X. }
      unfold fl_einsum. rewrite <- X1 in T1.
      pose proof (Hein (l0 :: ins') o ts' (shp t) g ltac:(discriminate) T1) as Q.
      destruct o as [|c o].
      + destruct Q as (w & -> & C). injection E as <-. eexists. split; [reflexivity|]. cbn. apply W; auto.
        unfold ein_terms in T1. destruct (bind_all _ _ _ _); [|discriminate]. cbn in T1.
        destruct (dims_of _ _); [|discriminate]. injection T1 as <- _. constructor.
      + destruct Q as (t' & -> & Hs & C). injection E as <-. eexists. split; [reflexivity|]. cbn.
        split; [|split; [|split]]; cbn; auto.
  Qed.
End Run.
