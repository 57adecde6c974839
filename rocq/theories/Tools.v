(** More glue between symbolic runs and statements: results of a known form,
    symmetries of results, contractions, dual numbers. *)
From Coq Require Import List Bool Arith ZArith Lia Ring String.
From Verif Require Import Scalar Tensor PySyntax PySem PySim Sym SymSound Norm CCProg CCSpec Engine.
Import ListNotations.

(** *** Results of a known form *)
Definition get_arr (v : sval) : stens := match v with XArr a => a | _ => s_zero [] end.
Definition get_num (v : sval) : list mono := match v with XNum m => m | _ => [] end.
Definition item (k : nat) (v : sval) : sval :=
  match v with XTup l => nth k l (XTup []) | _ => XTup [] end.
Definition got (o : option sval) : sval := match o with Some v => v | None => XTup [] end.
Definition run_s (f : string) (args : list sval) : sval := got (run_chk f args).

(** layouts without sizes *)
Inductive form : Type := FNum | FArr | FTup (l : list form).
Fixpoint form_chk (fm : form) (v : sval) {struct fm} : bool :=
  match fm, v with
  | FNum, XNum _ => true
  | FArr, XArr _ => true
  | FTup l, XTup vs =>
      (fix go (l : list form) (vs : list sval) {struct l} : bool :=
         match l, vs with
         | [], [] => true
         | s :: l', v :: vs' => if form_chk s v then go l' vs' else false
         | _, _ => false
         end) l vs
  | _, _ => false
  end.
Definition run_form (fm : form) (f : string) (args : list sval) : bool :=
  match run_chk f args with Some v => form_chk fm v | None => false end.

(** *** Symmetry of a symbolic array *)
Definition anti_goal (p : list nat) (a : stens) : list mono :=
  match s_trans p a with Some b => diff (s_ms b) (s_ms (s_neg a)) | None => [m_one] end.
Definition anti_chk (tb : table) (p : list nat) (a : stens) (c : list cert) : bool :=
  match s_trans p a with
  | Some b => cls_list_eqb (s_sh b) (s_sh a) && check tb (s_sh b) (diff (s_ms b) (s_ms (s_neg a))) c
  | None => false
  end.
Definition find_anti (tb : table) (p : list nat) (a : stens) : list cert :=
  match s_trans p a with
  | Some b => find_certs tb (s_sh b) (diff (s_ms b) (s_ms (s_neg a)))
  | None => []
  end.
Definition p_lead : list nat := [1; 0; 2; 3].
Definition p_tail : list nat := [0; 1; 3; 2].

Definition sym_goal_chk (tb : table) (p : list nat) (a : stens) (c : list cert) : bool :=
  match s_trans p a with
  | Some b => cls_list_eqb (s_sh b) (s_sh a) && check tb (s_sh b) (diff (s_ms b) (s_ms a)) c
  | None => false
  end.

(** *** Contraction: sum over idx of A[idx] * B[idx permuted by q] *)
Definition s_dot (q : list nat) (a b : stens) : list mono :=
  map (m_close 0 (s_sh a)) (ms_mul (s_ms a) (map (m_ren q) (s_ms b))).

Section ToolsSound.
  Variable K : cring.
  Local Open Scope K_scope.
  Add Ring Kr9 : (c_th K).
  Variable dim : cls -> nat.
  Variable rho : positive -> list nat -> K.
  Notation Rv := (Rval K dim rho).

  Lemma Rv_num v w : form_chk FNum v = true -> Rv v w ->
    exists x, w = numv x /\ Rnum K dim rho (get_num v) x.
  Proof. destruct v; simpl; try discriminate. intros _ H. inversion H; subst. eexists; split; [reflexivity|auto]. Qed.
  Lemma Rv_arr v w : form_chk FArr v = true -> Rv v w ->
    exists t, w = arr t /\ Rarr K dim rho (get_arr v) t.
  Proof. destruct v; simpl; try discriminate. intros _ H. inversion H; subst. eexists; split; [reflexivity|auto]. Qed.

  Lemma run_num_sound f args vs : run_form FNum f args = true -> Forall2 Rv args vs ->
    exists x, returns f vs (numv x) /\ Rnum K dim rho (get_num (run_s f args)) x.
  Proof.
    unfold run_form, run_s. destruct (run_chk f args) as [v|] eqn:E; [|discriminate].
    intros H Hv. destruct (run_sound K dim rho _ _ _ _ E Hv) as (r & Hr & HR).
    destruct (Rv_num _ _ H HR) as (x & -> & Hx). eauto.
  Qed.
  Lemma run_arr_sound f args vs : run_form FArr f args = true -> Forall2 Rv args vs ->
    exists t, returns f vs (arr t) /\ Rarr K dim rho (get_arr (run_s f args)) t.
  Proof.
    unfold run_form, run_s. destruct (run_chk f args) as [v|] eqn:E; [|discriminate].
    intros H Hv. destruct (run_sound K dim rho _ _ _ _ E Hv) as (r & Hr & HR).
    destruct (Rv_arr _ _ H HR) as (x & -> & Hx). eauto.
  Qed.

  Lemma Rv_tup l v w : form_chk (FTup l) v = true -> Rv v w ->
    exists ws, w = tup ws /\ Forall2 (fun fs k => form_chk fs (item k v) = true) l (seq 0 (List.length l))
      /\ List.length ws = List.length l /\
      forall k, (k < List.length l)%nat -> Rv (item k v) (nth k ws (tup [])).
  Proof.
    destruct v as [| |vs|]; simpl; try discriminate. intros H Hw. inversion Hw; subst.
    exists vs'. split; [reflexivity|].
    assert (HL : List.length vs = List.length l /\
      (forall k, (k < List.length l)%nat -> form_chk (nth k l FNum) (nth k vs (XTup [])) = true)).
    { clear - H. revert vs H. induction l as [|s l IH]; intros [|v vs] H; try discriminate.
      - split; [reflexivity|]. simpl. lia.
      - destruct (form_chk s v) eqn:E; [|discriminate]. destruct (IH _ H) as [H1 H2].
        split; [simpl; lia|]. intros [|k] Hk; simpl; auto. apply H2. simpl in Hk. lia. }
    destruct HL as [HL1 HL2]. split; [|split].
    - apply Forall2_nth_intro with (da := FNum) (db := 0%nat).
      + rewrite seq_length. auto.
      + intros k Hk. rewrite seq_nth by auto. simpl. apply HL2. auto.
    - rewrite <- HL1. symmetry. eapply Forall2_length; eauto.
    - rewrite <- HL1. clear - H1.
      induction H1 as [|x y vs ws Hx Hf IH]; intros k Hk; simpl in *; [lia|].
      destruct k; simpl; auto. apply IH. lia.
  Qed.

  Lemma run_tup_sound l f args vs : run_form (FTup l) f args = true -> Forall2 Rv args vs ->
    exists ws, returns f vs (tup ws) /\ List.length ws = List.length l /\
      Forall2 (fun fs k => form_chk fs (item k (run_s f args)) = true) l (seq 0 (List.length l)) /\
      forall k, (k < List.length l)%nat -> Rv (item k (run_s f args)) (nth k ws (tup [])).
  Proof.
    unfold run_form, run_s. destruct (run_chk f args) as [v|] eqn:E; [|discriminate].
    intros H Hv. destruct (run_sound K dim rho _ _ _ _ E Hv) as (r & Hr & HR).
    destruct (Rv_tup _ _ _ H HR) as (x & -> & Hx & HL & Hk). exists x. auto.
  Qed.

  (** a pair of arrays *)
  Lemma run_pair_sound f args vs : run_form (FTup [FArr; FArr]) f args = true ->
    Forall2 Rv args vs ->
    exists t u, returns f vs (tup [arr t; arr u]) /\
      Rarr K dim rho (get_arr (item 0 (run_s f args))) t /\
      Rarr K dim rho (get_arr (item 1 (run_s f args))) u.
  Proof.
    intros H Hv. destruct (run_tup_sound _ _ _ _ H Hv) as (ws & Hr & HL & Hf & Hk).
    destruct ws as [|w0 [|w1 [|]]]; try discriminate.
    pose proof (Hk 0%nat) as H0. pose proof (Hk 1%nat) as H1. simpl in *.
    inversion Hf as [|? ? ? ? Hf0 Hf']; subst. inversion Hf' as [|? ? ? ? Hf1 _]; subst.
    destruct (Rv_arr _ _ Hf0 (H0 ltac:(lia))) as (t & -> & Ht).
    destruct (Rv_arr _ _ Hf1 (H1 ltac:(lia))) as (u & -> & Hu). eauto.
  Qed.

  Lemma run_arrs_sound l f args vs : run_form (FTup (map (fun _ => FArr) l)) f args = true ->
    Forall2 Rv args vs ->
    exists ts, returns f vs (tup (map arr ts)) /\ List.length ts = List.length l /\
      forall k, (k < @List.length nat l)%nat ->
        Rarr K dim rho (get_arr (item k (run_s f args))) (nth k ts (tzeros K [])).
  Proof.
    intros H Hv. destruct (run_tup_sound _ _ _ _ H Hv) as (ws & Hr & HL & Hf & Hk).
    rewrite map_length in *.
    assert (HA : exists ts, ws = map arr ts /\
      forall k, (k < List.length l)%nat ->
        Rarr K dim rho (get_arr (item k (run_s f args))) (nth k ts (tzeros K []))).
    { clear Hr H. revert l HL Hf Hk.
      generalize (run_s f args). intros v.
      assert (G : forall ws l a, List.length ws = List.length l ->
        Forall2 (fun fs k => form_chk fs (item k v) = true) (map (fun _ : nat => FArr) l)
          (seq a (List.length l)) ->
        (forall k, (k < List.length l)%nat -> Rv (item (a + k) v) (nth k ws (tup []))) ->
        exists ts, ws = map arr ts /\ forall k, (k < List.length l)%nat ->
          Rarr K dim rho (get_arr (item (a + k) v)) (nth k ts (tzeros K []))).
      { induction ws0 as [|w ws0 IH]; intros [|x l] a HL Hf Hk; try discriminate.
        - exists []. split; [reflexivity|]. simpl. intros; lia.
        - simpl in *. inversion Hf as [|? ? ? ? Hf0 Hf']; subst.
          pose proof (Hk 0%nat ltac:(lia)) as H0. simpl in H0. rewrite Nat.add_0_r in H0.
          destruct (Rv_arr _ _ Hf0 H0) as (t & -> & Ht).
          destruct (IH l (S a) ltac:(lia) Hf') as (ts & -> & Hts).
          { intros k Hlt. specialize (Hk (S k) ltac:(lia)). simpl in Hk.
            rewrite Nat.add_succ_r in Hk. exact Hk. }
          exists (t :: ts). split; [reflexivity|]. intros [|k] Hlt.
          + rewrite Nat.add_0_r. exact Ht.
          + rewrite Nat.add_succ_r. apply (Hts k). lia. }
      intros l HL Hf Hk. apply (G ws l 0%nat HL Hf). exact Hk. }
    destruct HA as (ts & -> & Hts). exists ts. rewrite map_length in HL. auto.
  Qed.

  Variable tb : table.
  Hypothesis Htb : sym_ok K dim rho tb.

  Lemma trans_sound p (a : stens) b t c :
    s_trans p a = Some b -> cls_list_eqb (s_sh b) (s_sh a) = true ->
    forall sgnd : bool,
    check tb (s_sh b) (diff (s_ms b) (s_ms (if sgnd then s_neg a else a))) c = true ->
    Rarr K dim rho a t ->
    forall idx, inrange (shp t) idx ->
      dat t (untrans p (List.length (shp t)) idx) = sgn K sgnd (dat t idx).
  Proof.
    intros E Es sg Hc HR idx Hi.
    destruct (S_atrans K dim rho p a t b HR E) as (t' & Et & HR').
    assert (teq t' (if sg then tneg t else t)) as [_ HT].
    { destruct sg.
      - eapply arr_eq_sound; [exact Htb| |exact Hc|exact HR'|].
        + exact Es.
        + apply S_aneg. exact HR.
      - eapply arr_eq_sound; [exact Htb| |exact Hc|exact HR'|exact HR]. exact Es. }
    unfold ttrans in Et. destruct (is_perm p (List.length (shp t))) eqn:Ep; [|discriminate].
    injection Et as <-. simpl in HT. rewrite HT.
    - destruct sg; reflexivity.
    - destruct HR' as (Hs & _). simpl in Hs. rewrite Hs.
      apply cls_list_eqb_eq in Es. rewrite Es. destruct HR as (Hs' & _). rewrite <- Hs'. auto.
  Qed.

  Lemma anti_sound p a c t : anti_chk tb p a c = true -> Rarr K dim rho a t ->
    forall idx, inrange (shp t) idx ->
      dat t (untrans p (List.length (shp t)) idx) = - dat t idx.
  Proof.
    unfold anti_chk. destruct (s_trans p a) as [b|] eqn:E; [|discriminate].
    intros H HR idx Hi. apply andb_prop in H. destruct H as [H1 H2].
    exact (trans_sound p a b t c E H1 true H2 HR idx Hi).
  Qed.

  Lemma sym_sound p a c t : sym_goal_chk tb p a c = true -> Rarr K dim rho a t ->
    forall idx, inrange (shp t) idx ->
      dat t (untrans p (List.length (shp t)) idx) = dat t idx.
  Proof.
    unfold sym_goal_chk. destruct (s_trans p a) as [b|] eqn:E; [|discriminate].
    intros H HR idx Hi. apply andb_prop in H. destruct H as [H1 H2].
    exact (trans_sound p a b t c E H1 false H2 HR idx Hi).
  Qed.

  Lemma anti_lead_sound a c t : anti_chk tb p_lead a c = true -> Rarr K dim rho a t ->
    List.length (s_sh a) = 4%nat -> antisym_lead t.
  Proof.
    intros H HR HL i j k l Hi. pose proof (anti_sound _ _ _ _ H HR _ Hi) as E.
    destruct HR as (Hs & _). rewrite Hs, map_length, HL in E. cbn in E. rewrite E. ring.
  Qed.
  Lemma anti_tail_sound a c t : anti_chk tb p_tail a c = true -> Rarr K dim rho a t ->
    List.length (s_sh a) = 4%nat -> antisym_tail t.
  Proof.
    intros H HR HL i j k l Hi. pose proof (anti_sound _ _ _ _ H HR _ Hi) as E.
    destruct HR as (Hs & _). rewrite Hs, map_length, HL in E. cbn in E. rewrite E. ring.
  Qed.

  Lemma s_dot_sound q a b t u : Rarr K dim rho a t -> Rarr K dim rho b u ->
    map (fun k => nth k (s_sh a) 1%positive) q = s_sh b ->
    Forall (fun k => (k < List.length (s_sh a))%nat) q ->
    Rnum K dim rho (s_dot q a b)
      (sumL (shp t) (fun idx => dat t idx * dat u (map (fun k => nth k idx 0%nat) q))).
  Proof.
    intros (Ht & Oa & Da) (Hu & Ob & Db) Hq Hlt.
    assert (Hlq : List.length q = @List.length cls (s_sh b)) by (rewrite <- Hq, map_length; reflexivity).
    set (r := List.length (s_sh a)) in *.
    assert (Ob' : Forall (m_ok r) (map (m_ren q) (s_ms b))).
    { rewrite Forall_map. eapply Forall_impl; [|exact Ob]. intros m Hm.
      apply m_ren_ok; auto. rewrite Hlq. exact Hm. }
    assert (Op : Forall (m_ok r) (ms_mul (s_ms a) (map (m_ren q) (s_ms b)))).
    { apply ms_mul_ok; auto. }
    split.
    - unfold s_dot. rewrite Forall_map. eapply Forall_impl; [|exact Op].
      intros m Hm. apply m_close_ok. exact Hm.
    - unfold s_dot, den. rewrite map_map.
      transitivity (lsum (map (fun m => sumL (map dim (s_sh a)) (fun ds => den_mono K dim rho ds m))
         (ms_mul (s_ms a) (map (m_ren q) (s_ms b))))).
      + rewrite <- sumL_lsum. rewrite Ht. apply sumL_ext. intros idx Hi.
        change (dat t idx * dat u (map (fun k => nth k idx 0%nat) q) =
                den K dim rho idx (ms_mul (s_ms a) (map (m_ren q) (s_ms b)))).
        assert (Hil : List.length idx = r).
        { apply inrange_length in Hi. rewrite map_length in Hi. exact Hi. }
        rewrite (den_ms_mul K dim rho r) by auto.
        rewrite Da by (rewrite Ht; exact Hi). f_equal.
        rewrite Db.
        * unfold den. rewrite map_map. f_equal. apply map_ext_in. intros m Hm.
          rewrite (den_ren K dim rho q idx m); [reflexivity|].
          rewrite Forall_forall in Ob. rewrite Hlq. auto.
        * rewrite Hu. rewrite <- Hq. rewrite map_map. clear - Hlt Hi.
          unfold inrange. induction Hlt as [|k q Hk Hq IH]; simpl; constructor; auto.
          pose proof (inrange_nth _ _ k Hi) as H. rewrite map_length in H. specialize (H Hk).
          rewrite (nth_map_lt dim _ _ 0%nat 1%positive Hk) in H. exact H.
      + f_equal. apply map_ext_in. intros m Hm. rewrite Forall_forall in Op.
        symmetry. exact (den_close K dim rho [] (s_sh a) m (Op m Hm)).
  Qed.

  Lemma Rnum_add a b x y : Rnum K dim rho a x -> Rnum K dim rho b y ->
    Rnum K dim rho (a ++ b) (x + y).
  Proof. apply S_nadd. Qed.
  Lemma Rnum_scale z k a x : Rnum K dim rho a x ->
    Rnum K dim rho (ms_mul [Mono z k [] []] a) (dyad z k * x).
  Proof. intros H. apply S_nmul; auto. apply S_const. Qed.
End ToolsSound.

(** *** Equality of two symbolic arrays *)
Definition aeq_chk (tb : table) (a b : stens) (c : list cert) : bool :=
  cls_list_eqb (s_sh a) (s_sh b) && check tb (s_sh a) (diff (s_ms a) (s_ms b)) c.
Definition find_aeq (tb : table) (a b : stens) : list cert :=
  find_certs tb (s_sh a) (diff (s_ms a) (s_ms b)).
Definition neq_chk (tb : table) (a b : list mono) (c : list cert) : bool :=
  check tb [] (diff a b) c.
Definition find_neq (tb : table) (a b : list mono) : list cert :=
  find_certs tb [] (diff a b).

Lemma aeq_sound (K : cring) dim rho tb a b c t u : aeq_chk tb a b c = true ->
  sym_ok K dim rho tb -> Rarr K dim rho a t -> Rarr K dim rho b u -> teq t u.
Proof.
  unfold aeq_chk. intros H Ht Ha Hb. apply andb_prop in H. destruct H.
  eapply arr_eq_sound; eauto.
Qed.
Lemma neq_sound (K : cring) dim rho tb a b c t u : neq_chk tb a b c = true ->
  sym_ok K dim rho tb -> Rnum K dim rho a t -> Rnum K dim rho b u -> t = u.
Proof. unfold neq_chk. intros. eapply num_eq_sound; eauto. Qed.

(** *** Antisymmetric rank-4 arrays of a given shape *)
Definition anti4_chk (tb : table) (sh : list cls) (a : stens) (c1 c2 : list cert) : bool :=
  cls_list_eqb (s_sh a) sh && Nat.eqb (List.length sh) 4 &&
  anti_chk tb p_lead a c1 && anti_chk tb p_tail a c2.
Lemma anti4_sound (K : cring) dim rho tb sh a c1 c2 t :
  anti4_chk tb sh a c1 c2 = true -> sym_ok K dim rho tb -> Rarr K dim rho a t ->
  shp t = map dim sh /\ antisym_lead t /\ antisym_tail t.
Proof.
  unfold anti4_chk. intros H Ht HR. repeat (apply andb_prop in H; destruct H as [H ?]).
  apply cls_list_eqb_eq in H. apply Nat.eqb_eq in H2. subst sh. split; [|split].
  - apply HR.
  - eapply anti_lead_sound; eauto.
  - eapply anti_tail_sound; eauto.
Qed.

(** Denotations depend on the values of the inputs only. *)
Lemma Rarr_rho_ext (K : cring) dim (rho rho' : positive -> list nat -> K) a t :
  (forall p idx, rho p idx = rho' p idx) -> Rarr K dim rho a t -> Rarr K dim rho' a t.
Proof.
  intros E (H1 & H2 & H3). split; [|split]; auto. intros idx Hi. rewrite H3 by auto.
  unfold den. f_equal. apply map_ext. intros m. unfold den_mono. f_equal. apply sumL_ext.
  intros ds _. f_equal. apply map_ext. intros f. unfold den_fac. apply E.
Qed.
Lemma Rnum_rho_ext (K : cring) dim (rho rho' : positive -> list nat -> K) a t :
  (forall p idx, rho p idx = rho' p idx) -> Rnum K dim rho a t -> Rnum K dim rho' a t.
Proof.
  intros E (H1 & ->). split; auto.
  unfold den. f_equal. apply map_ext. intros m. unfold den_mono. f_equal. apply sumL_ext.
  intros ds _. f_equal. apply map_ext. intros f. unfold den_fac. apply E.
Qed.
