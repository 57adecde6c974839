(** Simulation between two runs of the interpreter over different algebras:
    if the operations are related, so are the runs. Used with the symbolic
    algebra on the left and concrete arrays on the right. *)
From Coq Require Import List Bool String ZArith FMapPositive Ascii.
From Verif Require Import Scalar Tensor PySyntax PySem.
Import ListNotations.

(** Induction principles for the nested inductive types. *)
Section ExprInd.
  Variable P : expr -> Prop.
  Hypothesis HVar : forall x, P (EVar x).
  Hypothesis HAttr : forall e a, P e -> P (EAttr e a).
  Hypothesis HNum : forall z k, P (ENum z k).
  Hypothesis HNeg : forall e, P e -> P (ENeg e).
  Hypothesis HAdd : forall e1 e2, P e1 -> P e2 -> P (EAdd e1 e2).
  Hypothesis HSub : forall e1 e2, P e1 -> P e2 -> P (ESub e1 e2).
  Hypothesis HMul : forall e1 e2, P e1 -> P e2 -> P (EMul e1 e2).
  Hypothesis HEin : forall s es, Forall P es -> P (EEinsum s es).
  Hypothesis HTrans : forall e p, P e -> P (ETrans e p).
  Hypothesis HCopy : forall e, P e -> P (ECopy e).
  Hypothesis HTup : forall es, Forall P es -> P (ETuple es).
  Hypothesis HObj : forall fs, Forall (fun p => P (snd p)) fs -> P (EObj fs).

  Fixpoint expr_ind' (e : expr) : P e :=
    match e with
    | EVar x => HVar x
    | EAttr e a => HAttr e a (expr_ind' e)
    | ENum z k => HNum z k
    | ENeg e => HNeg e (expr_ind' e)
    | EAdd e1 e2 => HAdd e1 e2 (expr_ind' e1) (expr_ind' e2)
    | ESub e1 e2 => HSub e1 e2 (expr_ind' e1) (expr_ind' e2)
    | EMul e1 e2 => HMul e1 e2 (expr_ind' e1) (expr_ind' e2)
    | EEinsum s es => HEin s es
        ((fix go l : Forall P l := match l with
          | [] => Forall_nil _ | x :: l' => Forall_cons _ (expr_ind' x) (go l') end) es)
    | ETrans e p => HTrans e p (expr_ind' e)
    | ECopy e => HCopy e (expr_ind' e)
    | ETuple es => HTup es
        ((fix go l : Forall P l := match l with
          | [] => Forall_nil _ | x :: l' => Forall_cons _ (expr_ind' x) (go l') end) es)
    | EObj fs => HObj fs
        ((fix go l : Forall (fun p => P (snd p)) l := match l with
          | [] => Forall_nil _ | x :: l' => Forall_cons _ (expr_ind' (snd x)) (go l') end) fs)
    end.
End ExprInd.

Section PatInd.
  Variable P : pat -> Prop.
  Hypothesis HV : forall x, P (PVar x).
  Hypothesis HT : forall ps, Forall P ps -> P (PTup ps).
  Fixpoint pat_ind' (p : pat) : P p :=
    match p with
    | PVar x => HV x
    | PTup ps => HT ps
        ((fix go l : Forall P l := match l with
          | [] => Forall_nil _ | x :: l' => Forall_cons _ (pat_ind' x) (go l') end) ps)
    end.
End PatInd.

Section ValInd.
  Variable A : alg.
  Variable P : val A -> Prop.
  Hypothesis HN : forall n, P (VNum n).
  Hypothesis HA : forall l, P (VArr l).
  Hypothesis HT : forall vs, Forall P vs -> P (VTup vs).
  Hypothesis HO : forall fs, Forall (fun p => P (snd p)) fs -> P (VObj fs).
  Fixpoint val_ind' (v : val A) : P v :=
    match v with
    | VNum n => HN n
    | VArr l => HA l
    | VTup vs => HT vs
        ((fix go l : Forall P l := match l with
          | [] => Forall_nil _ | x :: l' => Forall_cons _ (val_ind' x) (go l') end) vs)
    | VObj fs => HO fs
        ((fix go l : Forall (fun p => P (snd p)) l := match l with
          | [] => Forall_nil _ | x :: l' => Forall_cons _ (val_ind' (snd x)) (go l') end) fs)
    end.
End ValInd.

Section XvalInd.
  Variable A : alg.
  Variable P : xval A -> Prop.
  Hypothesis HN : forall n, P (XNum n).
  Hypothesis HA : forall t, P (XArr t).
  Hypothesis HT : forall vs, Forall P vs -> P (XTup vs).
  Hypothesis HO : forall fs, Forall (fun p => P (snd p)) fs -> P (XObj fs).
  Fixpoint xval_ind' (v : xval A) : P v :=
    match v with
    | XNum n => HN n
    | XArr l => HA l
    | XTup vs => HT vs
        ((fix go l : Forall P l := match l with
          | [] => Forall_nil _ | x :: l' => Forall_cons _ (xval_ind' x) (go l') end) vs)
    | XObj fs => HO fs
        ((fix go l : Forall (fun p => P (snd p)) l := match l with
          | [] => Forall_nil _ | x :: l' => Forall_cons _ (xval_ind' (snd x)) (go l') end) fs)
    end.
End XvalInd.

Section Sim.
  Variables A1 A2 : alg.
  Variable Rn : num A1 -> num A2 -> Prop.
  Variable Ra : arr A1 -> arr A2 -> Prop.
  Hypothesis H_const : forall z k, Rn (n_const A1 z k) (n_const A2 z k).
  Hypothesis H_nadd : forall a a' b b', Rn a a' -> Rn b b' -> Rn (n_add A1 a b) (n_add A2 a' b').
  Hypothesis H_nmul : forall a a' b b', Rn a a' -> Rn b b' -> Rn (n_mul A1 a b) (n_mul A2 a' b').
  Hypothesis H_nneg : forall a a', Rn a a' -> Rn (n_neg A1 a) (n_neg A2 a').
  Hypothesis H_aadd : forall a a' b b' c, Ra a a' -> Ra b b' -> a_add A1 a b = Some c ->
    exists c', a_add A2 a' b' = Some c' /\ Ra c c'.
  Hypothesis H_aneg : forall a a', Ra a a' -> Ra (a_neg A1 a) (a_neg A2 a').
  Hypothesis H_ascale : forall k k' a a', Rn k k' -> Ra a a' -> Ra (a_scale A1 k a) (a_scale A2 k' a').
  Hypothesis H_atrans : forall p a a' c, Ra a a' -> a_trans A1 p a = Some c ->
    exists c', a_trans A2 p a' = Some c' /\ Ra c c'.

  Definition Rsum (r : num A1 + arr A1) (r' : num A2 + arr A2) : Prop :=
    match r, r' with
    | inl a, inl a' => Rn a a'
    | inr a, inr a' => Ra a a'
    | _, _ => False
    end.

  Hypothesis H_einsum : forall ins out ts ts' r, Forall2 Ra ts ts' ->
    a_einsum A1 ins out ts = Some r ->
    exists r', a_einsum A2 ins out ts' = Some r' /\ Rsum r r'.

  Inductive Rv : val A1 -> val A2 -> Prop :=
  | Rv_num n n' : Rn n n' -> Rv (VNum n) (VNum n')
  | Rv_arr l : Rv (VArr l) (VArr l)
  | Rv_tup vs vs' : Forall2 Rv vs vs' -> Rv (VTup vs) (VTup vs')
  | Rv_obj fs fs' : Forall2 (fun p q => fst p = fst q /\ Rv (snd p) (snd q)) fs fs' ->
      Rv (VObj fs) (VObj fs').

  Definition Rr (r : rval A1) (r' : rval A2) : Prop :=
    match r, r' with
    | RTmp t, RTmp t' => Ra t t'
    | RVal v, RVal v' => Rv v v'
    | _, _ => False
    end.

  Definition Rh (h : heap A1) (h' : heap A2) : Prop :=
    hnext h = hnext h' /\
    forall l a, hget A1 l h = Some a -> exists a', hget A2 l h' = Some a' /\ Ra a a'.

  Definition Rpair (p : string * val A1) (q : string * val A2) : Prop :=
    fst p = fst q /\ Rv (snd p) (snd q).

  Definition Re (en : env A1) (en' : env A2) : Prop := Forall2 Rpair en en'.

  Inductive Rx : xval A1 -> xval A2 -> Prop :=
  | Rx_num n n' : Rn n n' -> Rx (XNum n) (XNum n')
  | Rx_arr t t' : Ra t t' -> Rx (XArr t) (XArr t')
  | Rx_tup vs vs' : Forall2 Rx vs vs' -> Rx (XTup vs) (XTup vs')
  | Rx_obj fs fs' : Forall2 (fun p q => fst p = fst q /\ Rx (snd p) (snd q)) fs fs' ->
      Rx (XObj fs) (XObj fs').

  Lemma assoc_sim x en en' v : Re en en' -> assoc x en = Some v ->
    exists v', assoc x en' = Some v' /\ Rv v v'.
  Proof.
    induction 1 as [|[y w] [y' w'] en en' [Hy Hw] _ IH]; simpl; [discriminate|].
    simpl in *. subst y'. destruct (String.eqb x y).
    - intros [= <-]. eauto.
    - auto.
  Qed.

  Lemma remove_sim x en en' : Re en en' -> Re (remove_var A1 x en) (remove_var A2 x en').
  Proof.
    induction 1 as [|[y w] [y' w'] en en' [Hy Hw] _ IH]; simpl; [constructor|].
    simpl in *. subst y'. destruct (String.eqb x y); auto.
    constructor; auto. split; auto.
  Qed.

  Lemma halloc_sim t t' h h' v h1 : Ra t t' -> Rh h h' -> halloc A1 t h = (v, h1) ->
    exists v' h1', halloc A2 t' h' = (v', h1') /\ Rv v v' /\ Rh h1 h1'.
  Proof.
    intros Ht [Hn Hm] [= <- <-]. unfold halloc. rewrite Hn.
    do 2 eexists. split; [reflexivity|]. split; [constructor|].
    split; simpl; auto. intros l a. unfold hget. simpl.
    destruct (Pos.eq_dec (hnext h') l) as [<-|Hl].
    - rewrite !PositiveMap.gss. intros [= <-]. eauto.
    - rewrite !PositiveMap.gso by auto. apply Hm.
  Qed.

  Lemma store_sim r r' h h' v h1 : Rr r r' -> Rh h h' -> store A1 r h = (v, h1) ->
    exists v' h1', store A2 r' h' = (v', h1') /\ Rv v v' /\ Rh h1 h1'.
  Proof.
    destruct r, r'; simpl; try contradiction.
    - apply halloc_sim.
    - intros Hv Hh [= <- <-]. eauto.
  Qed.

  Lemma hset_sim l t t' h h' : Ra t t' -> Rh h h' -> Rh (hset A1 l t h) (hset A2 l t' h').
  Proof.
    intros Ht [Hn Hm]. split; simpl; auto. intros k a. unfold hget. simpl.
    destruct (Pos.eq_dec l k) as [<-|Hl].
    - rewrite !PositiveMap.gss. intros [= <-]. eauto.
    - rewrite !PositiveMap.gso by auto. apply Hm.
  Qed.

  Lemma deref_sim r r' h h' t : Rr r r' -> Rh h h' -> deref A1 r h = Ok t ->
    exists t', deref A2 r' h' = Ok t' /\ Ra t t'.
  Proof.
    destruct r as [s|v], r' as [s'|v']; simpl; try contradiction.
    - intros Ht _ [= <-]. eauto.
    - intros Hv [_ Hm]. inversion Hv; subst; try discriminate.
      destruct (hget A1 l h) eqn:E; simpl; [|discriminate].
      intros [= <-]. destruct (Hm _ _ E) as (a' & -> & Ha). simpl. eauto.
  Qed.

  Ltac inv_do H :=
    match type of H with
    | rbind ?e _ = Ok _ =>
        let E := fresh "E" in destruct e eqn:E; simpl in H; [|discriminate H]
    end.

  Lemma neg_sim r r' h h' s : Rr r r' -> Rh h h' -> neg_rv A1 r h = Ok s ->
    exists s', neg_rv A2 r' h' = Ok s' /\ Rr s s'.
  Proof.
    intros Hr Hh. unfold neg_rv.
    assert (G : forall r r' s, Rr r r' -> (do t <- deref A1 r h; Ok (RTmp (a_neg A1 t))) = Ok s ->
              exists s', (do t <- deref A2 r' h'; Ok (RTmp (a_neg A2 t))) = Ok s' /\ Rr s s').
    { clear r r' s Hr. intros r r' s Hr H. inv_do H. injection H as <-.
      destruct (deref_sim _ _ _ _ _ Hr Hh E) as (t' & -> & Ht).
      eexists. split; [reflexivity|]. simpl. auto. }
    destruct r as [t|v], r' as [t'|v']; try contradiction.
    - apply (G (RTmp t) (RTmp t') s Hr).
    - simpl in Hr. inversion Hr; subst.
      + intros [= <-]. eexists. split; [reflexivity|]. constructor. auto.
      + apply (G (RVal (VArr l)) (RVal (VArr l)) s Hr).
      + discriminate.
      + discriminate.
  Qed.

  Lemma add_sim r1 r1' r2 r2' h h' s : Rr r1 r1' -> Rr r2 r2' -> Rh h h' ->
    add_rv A1 r1 r2 h = Ok s -> exists s', add_rv A2 r1' r2' h' = Ok s' /\ Rr s s'.
  Proof.
    intros Hr1 Hr2 Hh.
    assert (G : (do t1 <- deref A1 r1 h; do t2 <- deref A1 r2 h;
                 do t <- of_opt "ValueError: shapes" (a_add A1 t1 t2); Ok (RTmp t)) = Ok s ->
            exists s', (do t1 <- deref A2 r1' h'; do t2 <- deref A2 r2' h';
                 do t <- of_opt "ValueError: shapes" (a_add A2 t1 t2); Ok (RTmp t)) = Ok s'
                 /\ Rr s s').
    { intros H. inv_do H. inv_do H.
      destruct (a_add A1 a a0) eqn:E1; simpl in H; [|discriminate]. injection H as <-.
      destruct (deref_sim _ _ _ _ _ Hr1 Hh E) as (t1 & -> & Ht1).
      destruct (deref_sim _ _ _ _ _ Hr2 Hh E0) as (t2 & -> & Ht2). simpl.
      destruct (H_aadd _ _ _ _ _ Ht1 Ht2 E1) as (c' & -> & Hc). simpl. eauto. }
    unfold add_rv in *.
    destruct r1 as [t|v], r1' as [t'|v']; try contradiction; [exact G|].
    simpl in Hr1. inversion Hr1; subst; auto.
    destruct r2 as [t|v], r2' as [t'|v']; try contradiction; [exact G|].
    simpl in Hr2. inversion Hr2; subst; auto.
    intros [= <-]. eexists. split; [reflexivity|]. constructor. auto.
  Qed.

  Lemma mul_sim r1 r1' r2 r2' h h' s : Rr r1 r1' -> Rr r2 r2' -> Rh h h' ->
    mul_rv A1 r1 r2 h = Ok s -> exists s', mul_rv A2 r1' r2' h' = Ok s' /\ Rr s s'.
  Proof.
    intros Hr1 Hr2 Hh.
    assert (G : forall n n' r r', Rn n n' -> Rr r r' ->
                (do t <- deref A1 r h; Ok (RTmp (a_scale A1 n t))) = Ok s ->
                exists s', (do t <- deref A2 r' h'; Ok (RTmp (a_scale A2 n' t))) = Ok s'
                           /\ Rr s s').
    { intros n n' r r' Hn Hr H. inv_do H. injection H as <-.
      destruct (deref_sim _ _ _ _ _ Hr Hh E) as (t1 & -> & Ht1). simpl.
      eexists. split; [reflexivity|]. simpl. auto. }
    destruct r1 as [t|v], r1' as [t'|v']; try contradiction.
    - destruct r2 as [t2|v2], r2' as [t2'|v2']; try contradiction; [discriminate|].
      simpl in Hr2. inversion Hr2; subst; simpl; try discriminate.
      intros H'. eapply (G _ _ (RTmp t) (RTmp t')); eauto.
    - simpl in Hr1. inversion Hr1; subst; simpl.
      + destruct r2 as [t2|v2], r2' as [t2'|v2']; try contradiction.
        * intros H'. eapply (G _ _ (RTmp t2) (RTmp t2')); eauto.
        * simpl in Hr2. inversion Hr2; subst; simpl.
          -- intros [= <-]. eexists. split; [reflexivity|]. constructor. auto.
          -- intros H'. eapply (G _ _ (RVal (VArr l)) (RVal (VArr l))); eauto.
          -- discriminate.
          -- discriminate.
      + destruct r2 as [t2|v2], r2' as [t2'|v2']; try contradiction; [discriminate|].
        simpl in Hr2. inversion Hr2; subst; simpl; try discriminate.
        intros H'. eapply (G _ _ (RVal (VArr l)) (RVal (VArr l))); eauto.
      + destruct r2 as [t2|v2]; try discriminate. destruct v2; discriminate.
      + destruct r2 as [t2|v2]; try discriminate. destruct v2; discriminate.
  Qed.

  Lemma einsum_sim spec ts ts' r : Forall2 Ra ts ts' -> einsum_rv A1 spec ts = Ok r ->
    exists r', einsum_rv A2 spec ts' = Ok r' /\ Rr r r'.
  Proof.
    unfold einsum_rv. destruct (parse_spec [] spec) as [ins out]. intros Ht.
    destruct (a_einsum A1 ins out ts) as [s|] eqn:E; simpl; [|discriminate].
    destruct (H_einsum _ _ _ _ _ Ht E) as (s' & -> & Hs). simpl.
    destruct s, s'; simpl in Hs; try contradiction; intros [= <-];
      eexists; (split; [reflexivity|]); simpl; auto. constructor. auto.
  Qed.

  Lemma subval_sim v v' a w : Rv v v' -> subval A1 v a = Ok w ->
    exists w', subval A2 v' a = Ok w' /\ Rv w w'.
  Proof.
    intros Hv. inversion Hv; subst; simpl; try discriminate.
    destruct (assoc a fs) eqn:E; simpl; [|discriminate]. intros [= <-].
    destruct (assoc_sim _ _ _ _ (H : Re fs fs') E) as (w' & -> & Hw). simpl. eauto.
  Qed.

  Lemma eval_sim e : forall en en' h h' r h1, Re en en' -> Rh h h' ->
    eval A1 e en h = Ok (r, h1) ->
    exists r' h1', eval A2 e en' h' = Ok (r', h1') /\ Rr r r' /\ Rh h1 h1'.
  Proof.
    induction e using expr_ind'; intros en en' h h' r h1 He Hh Hev; cbn [eval] in *.
    - destruct (assoc x en) eqn:E; simpl in Hev; [|discriminate].
      injection Hev as <- <-. destruct (assoc_sim _ _ _ _ He E) as (v' & -> & Hv).
      simpl. eauto 6.
    - inv_do Hev. destruct a0 as [r0 h0].
      destruct (IHe _ _ _ _ _ _ He Hh E) as (r' & h1' & -> & Hr & Hh1). simpl.
      destruct r0 as [t|v], r' as [t'|v']; try discriminate; try contradiction.
      inv_do Hev. injection Hev as <- <-.
      destruct (subval_sim _ _ _ _ Hr E0) as (w' & -> & Hw). simpl. eauto 6.
    - injection Hev as <- <-. do 2 eexists. split; [reflexivity|].
      split; auto. constructor. apply H_const.
    - inv_do Hev. destruct a as [r0 h0]. inv_do Hev. injection Hev as <- <-.
      destruct (IHe _ _ _ _ _ _ He Hh E) as (r' & h1' & -> & Hr & Hh1). simpl.
      destruct (neg_sim _ _ _ _ _ Hr Hh1 E0) as (s' & -> & Hs). simpl. eauto 6.
    - inv_do Hev. destruct a as [r0 h0]. inv_do Hev. destruct a as [r2 h2].
      inv_do Hev. injection Hev as <- <-.
      destruct (IHe1 _ _ _ _ _ _ He Hh E) as (r' & h1' & -> & Hr & Hh1). simpl.
      destruct (IHe2 _ _ _ _ _ _ He Hh1 E0) as (r2' & h2' & -> & Hr2 & Hh2). simpl.
      destruct (add_sim _ _ _ _ _ _ _ Hr Hr2 Hh2 E1) as (s' & -> & Hs). simpl. eauto 6.
    - inv_do Hev. destruct a as [r0 h0]. inv_do Hev. destruct a as [r2 h2].
      inv_do Hev. inv_do Hev. injection Hev as <- <-.
      destruct (IHe1 _ _ _ _ _ _ He Hh E) as (r' & h1' & -> & Hr & Hh1). simpl.
      destruct (IHe2 _ _ _ _ _ _ He Hh1 E0) as (r2' & h2' & -> & Hr2 & Hh2). simpl.
      destruct (neg_sim _ _ _ _ _ Hr2 Hh2 E1) as (s' & -> & Hs). simpl.
      destruct (add_sim _ _ _ _ _ _ _ Hr Hs Hh2 E2) as (s2' & -> & Hs2). simpl. eauto 6.
    - inv_do Hev. destruct a as [r0 h0]. inv_do Hev. destruct a as [r2 h2].
      inv_do Hev. injection Hev as <- <-.
      destruct (IHe1 _ _ _ _ _ _ He Hh E) as (r' & h1' & -> & Hr & Hh1). simpl.
      destruct (IHe2 _ _ _ _ _ _ He Hh1 E0) as (r2' & h2' & -> & Hr2 & Hh2). simpl.
      destruct (mul_sim _ _ _ _ _ _ _ Hr Hr2 Hh2 E1) as (s' & -> & Hs). simpl. eauto 6.
    - inv_do Hev. destruct a as [ts h0]. inv_do Hev. injection Hev as <- <-.
      match type of E with ?G1 es h = _ =>
        match goal with |- context [rbind (?G2 es h') _] =>
        assert (HG : forall es0, Forall (fun e => forall en en' h h' r h1,
            Re en en' -> Rh h h' -> eval A1 e en h = Ok (r, h1) ->
            exists r' h1', eval A2 e en' h' = Ok (r', h1') /\ Rr r r' /\ Rh h1 h1') es0 ->
          forall h h' ts h1, Rh h h' -> G1 es0 h = Ok (ts, h1) ->
          exists ts' h1', G2 es0 h' = Ok (ts', h1') /\ Forall2 Ra ts ts' /\ Rh h1 h1')
        end end.
      { clear - He H_aadd H_ascale. induction es0 as [|e es0 IH]; intros HF h h' ts h1 Hh HG.
        - injection HG as <- <-. eauto 6.
        - inversion HF; subst. inv_do HG. destruct a as [r0 h0]. inv_do HG.
          inv_do HG. destruct a0 as [ts0 h2]. injection HG as <- <-.
          destruct (H1 _ _ _ _ _ _ He Hh E) as (r' & h1' & -> & Hr & Hh1). simpl.
          destruct (deref_sim _ _ _ _ _ Hr Hh1 E0) as (t' & -> & Ht). simpl.
          destruct (IH H2 _ _ _ _ Hh1 E1) as (ts' & h2' & -> & Hts & Hh2). simpl.
          eauto 8. }
      destruct (HG _ H _ _ _ _ Hh E) as (ts' & h1' & -> & Hts & Hh1). simpl.
      destruct (einsum_sim _ _ _ _ Hts E0) as (r' & -> & Hr). simpl. eauto 6.
    - inv_do Hev. destruct a as [r0 h0]. inv_do Hev.
      destruct (a_trans A1 p a) eqn:E1; simpl in Hev; [|discriminate].
      injection Hev as <- <-.
      destruct (IHe _ _ _ _ _ _ He Hh E) as (r' & h1' & -> & Hr & Hh1). simpl.
      destruct (deref_sim _ _ _ _ _ Hr Hh1 E0) as (t' & -> & Ht). simpl.
      destruct (H_atrans _ _ _ _ Ht E1) as (c' & -> & Hc). simpl. eauto 6.
    - inv_do Hev. destruct a as [r0 h0]. inv_do Hev. injection Hev as <- <-.
      destruct (IHe _ _ _ _ _ _ He Hh E) as (r' & h1' & -> & Hr & Hh1). simpl.
      destruct (deref_sim _ _ _ _ _ Hr Hh1 E0) as (t' & -> & Ht). simpl. eauto 6.
    - inv_do Hev. destruct a as [vs h0]. injection Hev as <- <-.
      match type of E with ?G1 es h = _ =>
        match goal with |- context [rbind (?G2 es h') _] =>
        assert (HG : forall es0, Forall (fun e => forall en en' h h' r h1,
            Re en en' -> Rh h h' -> eval A1 e en h = Ok (r, h1) ->
            exists r' h1', eval A2 e en' h' = Ok (r', h1') /\ Rr r r' /\ Rh h1 h1') es0 ->
          forall h h' vs h1, Rh h h' -> G1 es0 h = Ok (vs, h1) ->
          exists vs' h1', G2 es0 h' = Ok (vs', h1') /\ Forall2 Rv vs vs' /\ Rh h1 h1')
        end end.
      { clear - He H_aadd H_ascale. induction es0 as [|e es0 IH]; intros HF h h' vs h1 Hh HG.
        - injection HG as <- <-. eauto 6.
        - inversion HF; subst. inv_do HG. destruct a as [r0 h0].
          destruct (store A1 r0 h0) as [v h2] eqn:Es.
          inv_do HG. destruct a as [vs0 h3]. injection HG as <- <-.
          destruct (H1 _ _ _ _ _ _ He Hh E) as (r' & h1' & -> & Hr & Hh1). simpl.
          destruct (store_sim _ _ _ _ _ _ Hr Hh1 Es) as (v' & h2' & -> & Hv & Hh2).
          destruct (IH H2 _ _ _ _ Hh2 E0) as (vs' & h3' & -> & Hvs & Hh3). simpl.
          eauto 8. }
      destruct (HG _ H _ _ _ _ Hh E) as (vs' & h1' & -> & Hvs & Hh1). simpl.
      do 2 eexists. split; [reflexivity|]. split; auto. constructor. auto.
    - inv_do Hev. destruct a as [vs h0]. injection Hev as <- <-.
      match type of E with ?G1 fs h = _ =>
        match goal with |- context [rbind (?G2 fs h') _] =>
        assert (HG : forall fs0, Forall (fun p => forall en en' h h' r h1,
            Re en en' -> Rh h h' -> eval A1 (snd p) en h = Ok (r, h1) ->
            exists r' h1', eval A2 (snd p) en' h' = Ok (r', h1') /\ Rr r r' /\ Rh h1 h1') fs0 ->
          forall h h' vs h1, Rh h h' -> G1 fs0 h = Ok (vs, h1) ->
          exists vs' h1', G2 fs0 h' = Ok (vs', h1') /\ Forall2 Rpair vs vs' /\ Rh h1 h1')
        end end.
      { clear - He H_aadd H_ascale. induction fs0 as [|[x e] fs0 IH]; intros HF h h' vs h1 Hh HG.
        - injection HG as <- <-. eauto 6.
        - inversion HF; subst. inv_do HG. destruct a as [r0 h0].
          destruct (store A1 r0 h0) as [v h2] eqn:Es.
          inv_do HG. destruct a as [vs0 h3]. injection HG as <- <-. simpl in H1.
          destruct (H1 _ _ _ _ _ _ He Hh E) as (r' & h1' & -> & Hr & Hh1). simpl.
          destruct (store_sim _ _ _ _ _ _ Hr Hh1 Es) as (v' & h2' & -> & Hv & Hh2).
          destruct (IH H2 _ _ _ _ Hh2 E0) as (vs' & h3' & -> & Hvs & Hh3). simpl.
          do 2 eexists. split; [reflexivity|]. split; auto.
          constructor; auto. split; auto. }
      destruct (HG _ H _ _ _ _ Hh E) as (vs' & h1' & -> & Hvs & Hh1). simpl.
      do 2 eexists. split; [reflexivity|]. split; auto. constructor. auto.
  Qed.

  Lemma eval_args_sim es : forall en en' h h' vs h1, Re en en' -> Rh h h' ->
    eval_args A1 es en h = Ok (vs, h1) ->
    exists vs' h1', eval_args A2 es en' h' = Ok (vs', h1') /\ Forall2 Rv vs vs' /\ Rh h1 h1'.
  Proof.
    induction es as [|e es IH]; intros en en' h h' vs h1 He Hh HG; cbn [eval_args] in *.
    - injection HG as <- <-. eauto 6.
    - inv_do HG. destruct a as [r0 h0].
      destruct (store A1 r0 h0) as [v h2] eqn:Es.
      inv_do HG. destruct a as [vs0 h3]. injection HG as <- <-.
      destruct (eval_sim _ _ _ _ _ _ _ He Hh E) as (r' & h1' & -> & Hr & Hh1). simpl.
      destruct (store_sim _ _ _ _ _ _ Hr Hh1 Es) as (v' & h2' & -> & Hv & Hh2).
      destruct (IH _ _ _ _ _ _ He Hh2 E0) as (vs' & h3' & -> & Hvs & Hh3). simpl.
      eauto 8.
  Qed.

  Lemma bind_pat_sim p : forall v v' en en' en1, Rv v v' -> Re en en' ->
    bind_pat A1 p v en = Ok en1 ->
    exists en1', bind_pat A2 p v' en' = Ok en1' /\ Re en1 en1'.
  Proof.
    induction p using pat_ind'; intros v v' en en' en1 Hv He HB; cbn [bind_pat] in *.
    - injection HB as <-. eexists. split; [reflexivity|].
      constructor; auto. split; auto.
    - inversion Hv; subst; try discriminate.
      revert vs vs' en en' en1 He HB Hv H0.
      induction H as [|p ps Hp Hps IH]; intros vs vs' en en' en1 He HB Hv Hvs.
      + inversion Hvs; subst; [|discriminate]. injection HB as <-. eauto.
      + inversion Hvs; subst; [discriminate|]. inv_do HB.
        destruct (Hp _ _ _ _ _ H He E) as (en2 & -> & He2). simpl.
        eapply IH; eauto. constructor; auto.
  Qed.

  Lemma aug_sim b x r r' en en' h h' en1 h1 : Rr r r' -> Re en en' -> Rh h h' ->
    aug A1 b x r en h = Ok (en1, h1) ->
    exists en1' h1', aug A2 b x r' en' h' = Ok (en1', h1') /\ Re en1 en1' /\ Rh h1 h1'.
  Proof.
    intros Hr He Hh H. unfold aug in *.
    destruct (assoc x en) eqn:E; simpl in H; [|discriminate].
    destruct (assoc_sim _ _ _ _ He E) as (v' & -> & Hv). simpl.
    inv_do H.
    assert (Hm : exists m', (if b then neg_rv A2 r' h' else Ok r') = Ok m' /\ Rr a m').
    { destruct b.
      - eapply neg_sim; eauto.
      - injection E0 as <-. eauto. }
    destruct Hm as (m' & -> & Hm). simpl.
    inversion Hv; subst; try discriminate.
    - destruct a as [t|w], m' as [t'|w']; try contradiction; [discriminate|].
      simpl in Hm. inversion Hm; subst; try discriminate.
      injection H as <- <-. do 2 eexists. split; [reflexivity|]. split; auto.
      constructor; auto. split; simpl; auto. constructor. auto.
    - destruct (hget A1 l h) eqn:E1; simpl in H; [|discriminate].
      destruct Hh as [Hn Hh]. destruct (Hh _ _ E1) as (t0 & -> & Ht0). simpl.
      inv_do H. destruct (a_add A1 a0 a1) eqn:E3; simpl in H; [|discriminate].
      injection H as <- <-.
      destruct (deref_sim _ _ _ _ _ Hm (conj Hn Hh) E2) as (t1 & -> & Ht1). simpl.
      destruct (H_aadd _ _ _ _ _ Ht0 Ht1 E3) as (c & -> & Hc). simpl.
      do 2 eexists. split; [reflexivity|]. split; auto.
      apply hset_sim; auto. split; auto.
  Qed.

  Lemma bind_params_sim ps defs : forall vs vs' en, Forall2 Rv vs vs' ->
    bind_params A1 ps vs defs = Ok en ->
    exists en', bind_params A2 ps vs' defs = Ok en' /\ Re en en'.
  Proof.
    induction ps as [|p ps IH]; intros vs vs' en Hvs HB; inversion Hvs; subst;
      cbn [bind_params] in *; try discriminate.
    - injection HB as <-. eexists. split; eauto. constructor.
    - destruct (assoc p defs); simpl in *; [|discriminate]. inv_do HB.
      injection HB as <-. destruct (IH _ _ _ Hvs E) as (en' & -> & He). simpl.
      eexists. split; [reflexivity|]. constructor; auto. split; simpl; auto.
      constructor. apply H_const.
    - inv_do HB. injection HB as <-. destruct (IH _ _ _ H0 E) as (en' & -> & He). simpl.
      eexists. split; [reflexivity|]. constructor; auto. split; simpl; auto.
  Qed.

  Lemma exec_sim call1 call2 :
    (forall f vs vs' h h' v h1, Forall2 Rv vs vs' -> Rh h h' -> call1 f vs h = Ok (v, h1) ->
       exists v' h1', call2 f vs' h' = Ok (v', h1') /\ Rv v v' /\ Rh h1 h1') ->
    forall ss en en' h h' v h1, Re en en' -> Rh h h' ->
    exec A1 call1 ss en h = Ok (v, h1) ->
    exists v' h1', exec A2 call2 ss en' h' = Ok (v', h1') /\ Rv v v' /\ Rh h1 h1'.
  Proof.
    intros Hcall. induction ss as [|s ss IH]; intros en en' h h' v h1 He Hh HE.
    - injection HE as <- <-. do 2 eexists. split; [reflexivity|]. split; auto.
      constructor. constructor.
    - destruct s; cbn [exec] in *.
      + inv_do HE. destruct a as [r h2].
        destruct (store A1 r h2) as [w h3] eqn:Es. inv_do HE.
        destruct (eval_sim _ _ _ _ _ _ _ He Hh E) as (r' & h2' & -> & Hr & Hh2). simpl.
        destruct (store_sim _ _ _ _ _ _ Hr Hh2 Es) as (w' & h3' & -> & Hw & Hh3).
        destruct (bind_pat_sim _ _ _ _ _ _ Hw He E0) as (en2 & -> & He2). simpl. eauto.
      + inv_do HE. destruct a as [r h2]. inv_do HE. destruct a as [en2 h3].
        destruct (eval_sim _ _ _ _ _ _ _ He Hh E) as (r' & h2' & -> & Hr & Hh2). simpl.
        destruct (aug_sim _ _ _ _ _ _ _ _ _ _ Hr He Hh2 E0) as (en2' & h3' & -> & He2 & Hh3).
        simpl. eauto.
      + inv_do HE. destruct a as [r h2]. inv_do HE. destruct a as [en2 h3].
        destruct (eval_sim _ _ _ _ _ _ _ He Hh E) as (r' & h2' & -> & Hr & Hh2). simpl.
        destruct (aug_sim _ _ _ _ _ _ _ _ _ _ Hr He Hh2 E0) as (en2' & h3' & -> & He2 & Hh3).
        simpl. eauto.
      + eapply IH; eauto. apply remove_sim. auto.
      + inv_do HE. destruct a as [vs h2]. inv_do HE. destruct a as [w h3].
        destruct (eval_args_sim _ _ _ _ _ _ _ He Hh E) as (vs' & h2' & -> & Hvs & Hh2). simpl.
        destruct (Hcall _ _ _ _ _ _ _ Hvs Hh2 E0) as (w' & h3' & -> & Hw & Hh3). simpl.
        destruct p.
        * inv_do HE. destruct (bind_pat_sim _ _ _ _ _ _ Hw He E1) as (en2 & -> & He2).
          simpl. eauto.
        * eauto.
      + inv_do HE. destruct a as [r h2]. injection HE as HE.
        destruct (eval_sim _ _ _ _ _ _ _ He Hh E) as (r' & h2' & -> & Hr & Hh2). simpl.
        destruct (store_sim _ _ _ _ _ _ Hr Hh2 HE) as (w' & h3' & -> & Hw & Hh3). eauto.
      + discriminate.
  Qed.

  Lemma run_sim prog n : forall f vs vs' h h' v h1, Forall2 Rv vs vs' -> Rh h h' ->
    run A1 prog n f vs h = Ok (v, h1) ->
    exists v' h1', run A2 prog n f vs' h' = Ok (v', h1') /\ Rv v v' /\ Rh h1 h1'.
  Proof.
    induction n as [|n IH]; intros f vs vs' h h' v h1 Hvs Hh HR; cbn [run] in *;
      [discriminate|].
    destruct (assoc f prog) as [fd|]; simpl in *; [|discriminate].
    inv_do HR.
    destruct (bind_params_sim _ _ _ _ _ Hvs E) as (en' & -> & He). simpl.
    eapply exec_sim; eauto.
  Qed.

  Lemma load_sim x : forall x' h h' v h1, Rx x x' -> Rh h h' -> load A1 x h = (v, h1) ->
    exists v' h1', load A2 x' h' = (v', h1') /\ Rv v v' /\ Rh h1 h1'.
  Proof.
    induction x using xval_ind'; intros x' h h' v h1 Hx Hh HL; inversion Hx; subst;
      cbn [load] in *.
    - injection HL as <- <-. do 2 eexists. split; [reflexivity|]. split; auto.
      constructor; auto.
    - eapply halloc_sim; eauto.
    - match type of HL with (let (_, _) := ?G1 vs h in _) = _ =>
        match goal with |- context [let (_, _) := ?G2 vs' h' in _] =>
        assert (HG : forall vs0, Forall (fun x => forall x' h h' v h1, Rx x x' -> Rh h h' ->
            load A1 x h = (v, h1) ->
            exists v' h1', load A2 x' h' = (v', h1') /\ Rv v v' /\ Rh h1 h1') vs0 ->
          forall vs0' h h' ws h1, Forall2 Rx vs0 vs0' -> Rh h h' -> G1 vs0 h = (ws, h1) ->
          exists ws' h1', G2 vs0' h' = (ws', h1') /\ Forall2 Rv ws ws' /\ Rh h1 h1')
        end end.
      { clear - H_aadd H_ascale. induction vs0 as [|x vs0 IH]; intros HF vs0' h h' ws h1 HX Hh HG;
          inversion HX as [|? y ? l0 H1 H2]; subst.
        - injection HG as <- <-. eauto 6.
        - inversion HF as [|? ? H3 H4]; subst. destruct (load A1 x h) as [v0 h0] eqn:E0.
          destruct (H3 _ _ _ _ _ H1 Hh E0) as (v0' & h0' & -> & Hv0 & Hh0).
          match type of HG with (let (_, _) := ?G in _) = _ =>
            destruct G as [ws0 h2] eqn:E1 end.
          injection HG as <- <-.
          destruct (IH H4 _ _ _ _ _ H2 Hh0 E1) as (ws' & h2' & -> & Hws & Hh2). eauto 8. }
      match type of HL with (let (_, _) := ?G in _) = _ => destruct G as [ws h2] eqn:E1 end.
      injection HL as <- <-.
      destruct (HG _ H _ _ _ _ _ H1 Hh E1) as (ws' & h2' & -> & Hws & Hh2).
      do 2 eexists. split; [reflexivity|]. split; auto. constructor; auto.
    - match type of HL with (let (_, _) := ?G1 fs h in _) = _ =>
        match goal with |- context [let (_, _) := ?G2 fs' h' in _] =>
        assert (HG : forall vs0, Forall (fun p => forall x' h h' v h1, Rx (snd p) x' -> Rh h h' ->
            load A1 (snd p) h = (v, h1) ->
            exists v' h1', load A2 x' h' = (v', h1') /\ Rv v v' /\ Rh h1 h1') vs0 ->
          forall vs0' h h' ws h1,
          Forall2 (fun p q => fst p = fst q /\ Rx (snd p) (snd q)) vs0 vs0' ->
          Rh h h' -> G1 vs0 h = (ws, h1) ->
          exists ws' h1', G2 vs0' h' = (ws', h1') /\ Forall2 Rpair ws ws' /\ Rh h1 h1')
        end end.
      { clear - H_aadd H_ascale. induction vs0 as [|[s x] vs0 IH];
          intros HF vs0' h h' ws h1 HX Hh HG; inversion HX as [|? y ? l0 H1 H2]; subst.
        - injection HG as <- <-. eauto 6.
        - inversion HF as [|? ? H3 H4]; subst. destruct (load A1 x h) as [v0 h0] eqn:E0.
          destruct y as [s' x']. destruct H1 as [Es Hxx]. simpl in Es, Hxx, H3. subst s'.
          destruct (H3 _ _ _ _ _ Hxx Hh E0) as (v0' & h0' & -> & Hv0 & Hh0).
          match type of HG with (let (_, _) := ?G in _) = _ =>
            destruct G as [ws0 h2] eqn:E1 end.
          injection HG as <- <-.
          destruct (IH H4 _ _ _ _ _ H2 Hh0 E1) as (ws' & h2' & -> & Hws & Hh2).
          do 2 eexists. split; [reflexivity|]. split; auto. constructor; auto. split; auto. }
      match type of HL with (let (_, _) := ?G in _) = _ => destruct G as [ws h2] eqn:E1 end.
      injection HL as <- <-.
      destruct (HG _ H _ _ _ _ _ H1 Hh E1) as (ws' & h2' & -> & Hws & Hh2).
      do 2 eexists. split; [reflexivity|]. split; auto. constructor; auto.
  Qed.

  Lemma load_args_sim xs : forall xs' h h' vs h1, Forall2 Rx xs xs' -> Rh h h' ->
    load_args A1 xs h = (vs, h1) ->
    exists vs' h1', load_args A2 xs' h' = (vs', h1') /\ Forall2 Rv vs vs' /\ Rh h1 h1'.
  Proof.
    induction xs as [|x xs IH]; intros xs' h h' vs h1 HX Hh HL; inversion HX as [|? y ? l0 H1 H3]; subst;
      cbn [load_args] in *.
    - injection HL as <- <-. eauto 6.
    - destruct (load A1 x h) as [v h0] eqn:E0.
      destruct (load_sim _ _ _ _ _ _ H1 Hh E0) as (v' & h0' & -> & Hv & Hh0).
      destruct (load_args A1 xs h0) as [vs0 h2] eqn:E1. injection HL as <- <-.
      destruct (IH _ _ _ _ _ H3 Hh0 E1) as (vs' & h2' & -> & Hvs & Hh2). eauto 8.
  Qed.

  Lemma read_sim v : forall v' h h' x, Rv v v' -> Rh h h' -> read A1 v h = Ok x ->
    exists x', read A2 v' h' = Ok x' /\ Rx x x'.
  Proof.
    induction v using val_ind'; intros v' h h' x Hv Hh HR; inversion Hv; subst;
      cbn [read] in *.
    - injection HR as <-. eexists. split; [reflexivity|]. constructor; auto.
    - destruct (hget A1 l h) eqn:E; simpl in *; [|discriminate]. injection HR as <-.
      destruct (proj2 Hh _ _ E) as (a' & -> & Ha). simpl.
      eexists. split; [reflexivity|]. constructor; auto.
    - inv_do HR. injection HR as <-.
      match type of E with ?G1 vs = _ =>
        match goal with |- context [rbind (?G2 vs') _] =>
        assert (HG : forall vs0, Forall (fun v => forall v' h h' x, Rv v v' -> Rh h h' ->
            read A1 v h = Ok x -> exists x', read A2 v' h' = Ok x' /\ Rx x x') vs0 ->
          forall vs0' xs, Forall2 Rv vs0 vs0' -> G1 vs0 = Ok xs ->
          exists xs', G2 vs0' = Ok xs' /\ Forall2 Rx xs xs')
        end end.
      { clear - Hh H_aadd H_ascale. induction vs0 as [|v vs0 IH]; intros HF vs0' xs HV HG;
          inversion HV as [|? y ? l0 H1 H2]; subst.
        - injection HG as <-. eauto.
        - inversion HF as [|? ? H3 H4]; subst. inv_do HG. inv_do HG. injection HG as <-.
          destruct (H3 _ _ _ _ H1 Hh E) as (x' & -> & Hx). simpl.
          destruct (IH H4 _ _ H2 eq_refl) as (xs' & -> & Hxs). simpl. eauto. }
      destruct (HG _ H _ _ H1 E) as (xs' & -> & Hxs). simpl.
      eexists. split; [reflexivity|]. constructor; auto.
    - inv_do HR. injection HR as <-.
      match type of E with ?G1 fs = _ =>
        match goal with |- context [rbind (?G2 fs') _] =>
        assert (HG : forall vs0, Forall (fun p => forall v' h h' x, Rv (snd p) v' -> Rh h h' ->
            read A1 (snd p) h = Ok x -> exists x', read A2 v' h' = Ok x' /\ Rx x x') vs0 ->
          forall vs0' xs, Forall2 Rpair vs0 vs0' -> G1 vs0 = Ok xs ->
          exists xs', G2 vs0' = Ok xs' /\
            Forall2 (fun p q => fst p = fst q /\ Rx (snd p) (snd q)) xs xs')
        end end.
      { clear - Hh H_aadd H_ascale. induction vs0 as [|[s v] vs0 IH]; intros HF vs0' xs HV HG;
          inversion HV as [|? y ? l0 H1 H2]; subst.
        - injection HG as <-. eauto.
        - destruct y as [s' v']. destruct H1 as [Es Hvv]. simpl in Es, Hvv. subst s'.
          inversion HF as [|? ? H3 H4]; subst. inv_do HG. inv_do HG. injection HG as <-. simpl in H3.
          destruct (H3 _ _ _ _ Hvv Hh E) as (x' & -> & Hx). simpl.
          destruct (IH H4 _ _ H2 eq_refl) as (xs' & -> & Hxs). simpl.
          eexists. split; [reflexivity|]. constructor; auto. }
      destruct (HG _ H _ _ H1 E) as (xs' & -> & Hxs). simpl.
      eexists. split; [reflexivity|]. constructor; auto.
  Qed.

  Lemma read_args_sim vs : forall vs' h h' xs, Forall2 Rv vs vs' -> Rh h h' ->
    read_args A1 vs h = Ok xs -> exists xs', read_args A2 vs' h' = Ok xs' /\ Forall2 Rx xs xs'.
  Proof.
    induction vs as [|v vs IH]; intros vs' h h' xs HV Hh HR; inversion HV as [|? y ? l0 H1 H3]; subst;
      cbn [read_args] in *.
    - injection HR as <-. eauto.
    - inv_do HR. inv_do HR. injection HR as <-.
      destruct (read_sim _ _ _ _ _ H1 Hh E) as (x' & -> & Hx). simpl.
      destruct (IH _ _ _ _ H3 Hh E0) as (xs' & -> & Hxs). simpl. eauto.
  Qed.

  Theorem pycall_sim prog f args args' r out : Forall2 Rx args args' ->
    pycall A1 prog f args = Ok (r, out) ->
    exists r' out', pycall A2 prog f args' = Ok (r', out') /\ Rx r r' /\ Forall2 Rx out out'.
  Proof.
    intros Ha HP. unfold pycall in *.
    destruct (load_args A1 args (empty_heap A1)) as [vs h] eqn:E0.
    assert (Hh0 : Rh (empty_heap A1) (empty_heap A2)).
    { split; auto. intros l a. unfold hget. simpl. rewrite PositiveMap.gempty. discriminate. }
    destruct (load_args_sim _ _ _ _ _ _ Ha Hh0 E0) as (vs' & h' & -> & Hvs & Hh).
    inv_do HP. destruct a as [v h1]. inv_do HP. inv_do HP. injection HP as <- <-.
    destruct (run_sim _ _ _ _ _ _ _ _ _ Hvs Hh E) as (v' & h1' & -> & Hv & Hh1). simpl.
    destruct (read_sim _ _ _ _ _ Hv Hh1 E1) as (x' & -> & Hx). simpl.
    destruct (read_args_sim _ _ _ _ _ Hvs Hh1 E2) as (xs' & -> & Hxs). simpl. eauto.
  Qed.
End Sim.
