(** From symbolic runs and checked polynomial identities to statements about
    concrete runs. *)
From Coq Require Import List Bool Arith ZArith Lia Ring String.
From Verif Require Import Scalar Tensor PySyntax PySem PySim Sym SymSound Norm CCProg CCSpec.
Import ListNotations.

Notation sval := (xval sym_alg).
Definition sarr (a : stens) : sval := @XArr sym_alg a.

(** *** Syntactic equality of symbolic values *)

Definition mono_eqb (a b : mono) : bool :=
  Z.eqb (m_z a) (m_z b) && Nat.eqb (m_k a) (m_k b) &&
  match cmp_list Pos.compare (m_dm a) (m_dm b), cmp_list cmp_fac (m_fs a) (m_fs b) with
  | Eq, Eq => true | _, _ => false end.

Fixpoint list_eqb {A} (e : A -> A -> bool) (a b : list A) : bool :=
  match a, b with
  | [], [] => true
  | x :: a', y :: b' => if e x y then list_eqb e a' b' else false
  | _, _ => false
  end.

Definition stens_eqb (a b : stens) : bool :=
  cls_list_eqb (s_sh a) (s_sh b) && list_eqb mono_eqb (s_ms a) (s_ms b).

Fixpoint sval_eqb (a b : sval) {struct a} : bool :=
  match a, b with
  | XNum m, XNum n => list_eqb mono_eqb m n
  | XArr s, XArr t => stens_eqb s t
  | XTup l, XTup m =>
      (fix go (l m : list sval) : bool :=
         match l, m with
         | [], [] => true
         | x :: l', y :: m' => if sval_eqb x y then go l' m' else false
         | _, _ => false
         end) l m
  | XObj l, XObj m =>
      (fix go (l m : list (string * sval)) : bool :=
         match l, m with
         | [], [] => true
         | (s, x) :: l', (t, y) :: m' =>
             if String.eqb s t then if sval_eqb x y then go l' m' else false else false
         | _, _ => false
         end) l m
  | _, _ => false
  end.

Lemma list_eqb_eq {A} (e : A -> A -> bool) : (forall x y, e x y = true -> x = y) ->
  forall a b, list_eqb e a b = true -> a = b.
Proof.
  intros He. induction a as [|x a IH]; intros [|y b]; simpl; try discriminate; auto.
  destruct (e x y) eqn:E; [|discriminate]. intros H. f_equal; auto.
Qed.

Lemma mono_eqb_eq a b : mono_eqb a b = true -> a = b.
Proof.
  destruct a as [z k d f], b as [z' k' d' f']. unfold mono_eqb. simpl. intros H.
  apply andb_prop in H. destruct H as [H H3]. apply andb_prop in H. destruct H as [H1 H2].
  apply Z.eqb_eq in H1. apply Nat.eqb_eq in H2.
  destruct (cmp_list Pos.compare d d') eqn:E1; try discriminate.
  destruct (cmp_list cmp_fac f f') eqn:E2; try discriminate.
  apply cmp_list_eq in E1; [|intros x y; apply Pos.compare_eq].
  apply cmp_list_eq in E2; [|apply cmp_fac_eq]. congruence.
Qed.

Lemma stens_eqb_eq a b : stens_eqb a b = true -> a = b.
Proof.
  destruct a, b. unfold stens_eqb. simpl. intros H. apply andb_prop in H.
  destruct H as [H1 H2]. apply cls_list_eqb_eq in H1.
  apply list_eqb_eq in H2; [|apply mono_eqb_eq]. congruence.
Qed.

Lemma sval_eqb_eq (a : sval) : forall b, sval_eqb a b = true -> a = b.
Proof.
  induction a as [n|s|l IH|l IH] using xval_ind'; intros [m|t|m|m]; simpl; try discriminate.
  - intros H. apply list_eqb_eq in H; [congruence|apply mono_eqb_eq].
  - intros H. apply stens_eqb_eq in H. congruence.
  - intros H. f_equal. revert m H. induction IH as [|x l Hx Hl IHl]; intros [|y m];
      try discriminate; auto. destruct (sval_eqb x y) eqn:E; [|discriminate].
    intros H. f_equal; auto.
  - intros H. f_equal. revert m H. induction IH as [|[s x] l Hx Hl IHl]; intros [|[t y] m];
      try discriminate; auto.
    destruct (String.eqb_spec s t); [|discriminate].
    destruct (sval_eqb x y) eqn:E; [|discriminate].
    intros H. simpl in Hx. f_equal; auto. f_equal; auto.
Qed.

(** Run a function symbolically; [None] if it fails or changes an argument. *)
Definition run_chk (f : string) (args : list sval) : option sval :=
  match pycall sym_alg cc_prog f args with
  | Ok (r, out) => if list_eqb sval_eqb args out then Some r else None
  | Exn _ => None
  end.

(** The polynomials that must vanish for two symbolic values to be equal. *)
Definition goal : Type := (list cls * list mono)%type.

Definition diff (a b : list mono) : list mono := a ++ map m_neg b.

Fixpoint eqs (a b : sval) {struct a} : option (list goal) :=
  match a, b with
  | XNum m, XNum n => Some [([], diff m n)]
  | XArr s, XArr t =>
      if cls_list_eqb (s_sh s) (s_sh t) then Some [(s_sh s, diff (s_ms s) (s_ms t))] else None
  | XTup l, XTup m =>
      (fix go (l m : list sval) : option (list goal) :=
         match l, m with
         | [], [] => Some []
         | x :: l', y :: m' =>
             match eqs x y, go l' m' with
             | Some g, Some gs => Some (g ++ gs) | _, _ => None end
         | _, _ => None
         end) l m
  | XObj l, XObj m =>
      (fix go (l m : list (string * sval)) : option (list goal) :=
         match l, m with
         | [], [] => Some []
         | (s, x) :: l', (t, y) :: m' =>
             if String.eqb s t then
               match eqs x y, go l' m' with
               | Some g, Some gs => Some (g ++ gs) | _, _ => None end
             else None
         | _, _ => None
         end) l m
  | _, _ => None
  end.

Fixpoint check_all (tb : table) (gs : list goal) (cs : list (list cert)) : bool :=
  match gs, cs with
  | [], [] => true
  | g :: gs', c :: cs' => if check tb (fst g) (snd g) c then check_all tb gs' cs' else false
  | _, _ => false
  end.

Definition eqx_chk (tb : table) (a b : sval) (cs : list (list cert)) : bool :=
  match eqs a b with Some gs => check_all tb gs cs | None => false end.

Definition find_eqx (tb : table) (a b : option sval) : list (list cert) :=
  match a, b with
  | Some a, Some b =>
      match eqs a b with
      | Some gs => map (fun g => find_certs tb (fst g) (snd g)) gs
      | None => []
      end
  | _, _ => []
  end.

(** number of terms left over, per array (for diagnosis) *)
Definition residues (tb : table) (a b : option sval) :=
  match a, b with
  | Some a, Some b =>
      option_map (map (fun g => residue tb (fst g) (snd g))) (eqs a b)
  | _, _ => None
  end.

Section EngineSound.
  Variable K : cring.
  Local Open Scope K_scope.
  Add Ring Kr4 : (c_th K).
  Variable dim : cls -> nat.
  Variable rho : positive -> list nat -> K.

  Definition Rval : sval -> pyval K -> Prop :=
    Rx sym_alg (conc_alg K) (Rnum K dim rho) (Rarr K dim rho).

  Lemma Rarr_fun a t u : Rarr K dim rho a t -> Rarr K dim rho a u -> teq t u.
  Proof.
    intros (H1 & _ & H2) (H3 & _ & H4). split; [congruence|].
    intros idx Hi. rewrite H2, H4; auto. rewrite H3, <- H1. auto.
  Qed.

  Lemma Rval_fun a : forall t u, Rval a t -> Rval a u -> xeq t u.
  Proof.
    induction a as [n|s|l IH|l IH] using xval_ind'; intros t u H1 H2;
      inversion H1; subst; inversion H2; subst.
    - destruct H0 as [_ ->], H3 as [_ ->]. apply (xeq_num K).
    - apply (xeq_arr K). eapply Rarr_fun; eauto.
    - constructor. clear H1 H2. revert vs' vs'0 H0 H3.
      induction IH as [|x l Hx Hl IHl]; intros vs ws Hv Hw; inversion Hv; subst;
        inversion Hw; subst; constructor; auto.
    - constructor. clear H1 H2. revert fs' fs'0 H0 H3.
      induction IH as [|x l Hx Hl IHl]; intros vs ws Hv Hw;
        inversion Hv as [|? ? ? ? [E1 R1]]; subst;
        inversion Hw as [|? ? ? ? [E2 R2]]; subst; constructor; auto.
      split; [exact (eq_trans (eq_sym E1) E2)|auto].
  Qed.

  Lemma Rval_fun_list a : forall t u, Forall2 Rval a t -> Forall2 Rval a u -> Forall2 xeq t u.
  Proof.
    induction a as [|x a IH]; intros t u H1 H2; inversion H1; subst; inversion H2; subst;
      constructor; auto. eapply Rval_fun; eauto.
  Qed.

  Theorem run_sound f args r vs : run_chk f args = Some r -> Forall2 Rval args vs ->
    exists r', returns f vs r' /\ Rval r r'.
  Proof.
    unfold run_chk, returns. intros H Hv.
    destruct (pycall sym_alg cc_prog f args) as [[r0 out]|] eqn:E; [|discriminate].
    destruct (list_eqb sval_eqb args out) eqn:E1; [|discriminate]. injection H as <-.
    apply list_eqb_eq in E1; [|intros x y; apply sval_eqb_eq]. subst out.
    destruct (pycall_sound K dim rho _ _ _ _ _ _ Hv E) as (r' & out' & E2 & Hr & Ho).
    exists r'. split; auto. exists out'. split; auto. eapply Rval_fun_list; eauto.
  Qed.

  Variable tb : table.
  Hypothesis Htb : sym_ok K dim rho tb.

  Lemma diff_ok r a b : Forall (m_ok r) a -> Forall (m_ok r) b -> Forall (m_ok r) (diff a b).
  Proof. intros. apply Forall_app. split; auto. apply neg_ok. auto. Qed.

  Lemma den_diff xs a b : den K dim rho xs (diff a b) = 0 ->
    den K dim rho xs a = den K dim rho xs b.
  Proof.
    unfold diff. rewrite den_app, den_ms_neg. intros H.
    transitivity (den K dim rho xs a + - den K dim rho xs b + den K dim rho xs b); [ring|].
    rewrite H. ring.
  Qed.

  Lemma check_all_in gs : forall cs, check_all tb gs cs = true ->
    forall g, In g gs -> exists c, check tb (fst g) (snd g) c = true.
  Proof.
    induction gs as [|g gs IH]; intros [|c cs]; simpl; try discriminate; [tauto|].
    destruct (check tb (fst g) (snd g) c) eqn:E; [|discriminate].
    intros H g' [<-|Hg]; eauto.
  Qed.

  Lemma arr_eq_sound a b c t u :
    cls_list_eqb (s_sh a) (s_sh b) = true ->
    check tb (s_sh a) (diff (s_ms a) (s_ms b)) c = true ->
    Rarr K dim rho a t -> Rarr K dim rho b u -> teq t u.
  Proof.
    intros E Hc (H1 & O1 & D1) (H2 & O2 & D2). apply cls_list_eqb_eq in E. split.
    - rewrite H1, H2, E. reflexivity.
    - intros idx Hi. rewrite D1, D2; auto.
      + apply den_diff. eapply check_sound; eauto.
        * apply diff_ok; auto. rewrite E. auto.
        * rewrite <- H1. auto.
      + rewrite H2, <- E, <- H1. auto.
  Qed.

  Lemma num_eq_sound a b c t u : check tb [] (diff a b) c = true ->
    Rnum K dim rho a t -> Rnum K dim rho b u -> t = u.
  Proof.
    intros Hc (O1 & ->) (O2 & ->). apply den_diff. eapply check_sound; eauto.
    - apply diff_ok; auto.
    - constructor.
  Qed.

  Lemma eqs_sound a : forall b gs t u, eqs a b = Some gs ->
    (forall g, In g gs -> exists c, check tb (fst g) (snd g) c = true) ->
    Rval a t -> Rval b u -> xeq t u.
  Proof.
    induction a as [n|s|l IH|l IH] using xval_ind'; intros [m|s'|m|m] gs t u; simpl;
      try discriminate; intros E Hg H1 H2; inversion H1; subst; inversion H2; subst.
    - injection E as <-. destruct (Hg _ (or_introl eq_refl)) as [c Hc]. simpl in Hc.
      rewrite (num_eq_sound _ _ _ _ _ Hc H0 H3). apply (xeq_num K).
    - destruct (cls_list_eqb (s_sh s) (s_sh s')) eqn:Es; [|discriminate]. injection E as <-.
      destruct (Hg _ (or_introl eq_refl)) as [c Hc]. simpl in Hc.
      apply (xeq_arr K). eapply arr_eq_sound; eauto.
    - constructor. clear H1 H2. revert m gs vs' vs'0 E Hg H0 H3.
      induction IH as [|x l Hx Hl IHl]; intros [|y m] gs vs ws E Hg Hv Hw; try discriminate;
        inversion Hv; subst; inversion Hw; subst; constructor.
      + destruct (eqs x y) as [g|] eqn:E1; [|discriminate].
        match type of E with match ?G with _ => _ end = _ => destruct G eqn:E2 end;
          [|discriminate]. injection E as <-.
        eapply Hx; eauto. intros g' Hg'. apply Hg. apply in_or_app. auto.
      + destruct (eqs x y) as [g|] eqn:E1; [|discriminate].
        match type of E with match ?G with _ => _ end = _ => destruct G eqn:E2 end;
          [|discriminate]. injection E as <-.
        eapply IHl; eauto. intros g' Hg'. apply Hg. apply in_or_app. auto.
    - constructor. clear H1 H2. revert m gs fs' fs'0 E Hg H0 H3.
      induction IH as [|[s x] l Hx Hl IHl]; intros [|[s' y] m] gs vs ws E Hg Hv Hw;
        try discriminate; inversion Hv as [|? ? ? ? [Ea Ra]]; subst;
        inversion Hw as [|? ? ? ? [Eb Rb]]; subst; constructor;
        simpl in *; destruct (String.eqb_spec s s'); try discriminate.
      + destruct (eqs x y) as [g|] eqn:E1; [|discriminate].
        match type of E with match ?G with _ => _ end = _ => destruct G eqn:E2 end;
          [|discriminate]. injection E as <-. split; [exact (eq_trans (eq_sym Ea) (eq_trans e Eb))|].
        eapply Hx; eauto. intros g' Hg'. apply Hg. apply in_or_app. auto.
      + destruct (eqs x y) as [g|] eqn:E1; [|discriminate].
        match type of E with match ?G with _ => _ end = _ => destruct G eqn:E2 end;
          [|discriminate]. injection E as <-.
        eapply IHl; eauto. intros g' Hg'. apply Hg. apply in_or_app. auto.
  Qed.

  Theorem eqx_sound a b cs t u : eqx_chk tb a b cs = true ->
    Rval a t -> Rval b u -> xeq t u.
  Proof.
    unfold eqx_chk. destruct (eqs a b) as [gs|] eqn:E; [|discriminate]. intros H.
    eapply eqs_sound; eauto. eapply check_all_in; eauto.
  Qed.
End EngineSound.

(** Two calls give equal results. *)
Definition agree_chk (tb : table) (f g : string) (a b : list sval) (cs : list (list cert)) : bool :=
  match run_chk f a, run_chk g b with
  | Some r, Some s => eqx_chk tb r s cs
  | _, _ => false
  end.

Definition find_agree (tb : table) (f g : string) (a b : list sval) : list (list cert) :=
  find_eqx tb (run_chk f a) (run_chk g b).

Theorem agree_sound (K : cring) dim rho tb f g a b cs va vb :
  agree_chk tb f g a b cs = true -> sym_ok K dim rho tb ->
  Forall2 (Rval K dim rho) a va -> Forall2 (Rval K dim rho) b vb ->
  exists r s, returns f va r /\ returns g vb s /\ xeq r s.
Proof.
  unfold agree_chk. intros H Ht Ha Hb.
  destruct (run_chk f a) as [r|] eqn:E1; [|discriminate].
  destruct (run_chk g b) as [s|] eqn:E2; [|discriminate].
  destruct (run_sound K dim rho _ _ _ _ E1 Ha) as (r' & R1 & V1).
  destruct (run_sound K dim rho _ _ _ _ E2 Hb) as (s' & R2 & V2).
  exists r', s'. split; auto. split; auto. eapply eqx_sound; eauto.
Qed.
