(** From a check of the symbolic result of a run to a statement about the
    results on related arguments (two or three runs). *)
From Coq Require Import List Bool Arith ZArith Lia Ring String.
From Verif Require Import Scalar Tensor PySyntax PySem PySim Sym SymSound Norm CCProg CCSpec Engine
  CCShapes Public CovSpec.
Import ListNotations.

(** Symbols of an argument: number and orbital spaces (None for a number),
    labelled with [q]. *)
Section Syms.
  Context {Q : Type}.
  Fixpoint syms (q : Q) (s : shape) (a : positive) {struct s} : list (positive * (Q * option (list space))) :=
    match s with
    | SNum => [(a, (q, None))]
    | SArr l => [(a, (q, Some l))]
    | STup l =>
        (fix go (l : list shape) (a : positive) : list (positive * (Q * option (list space))) :=
           match l with
           | [] => []
           | s :: l' => syms q s a ++ go l' (snd (inst s a))
           end) l a
    | SObj l =>
        (fix go (l : list (string * shape)) (a : positive) : list (positive * (Q * option (list space))) :=
           match l with
           | [] => []
           | (x, s) :: l' => syms q s a ++ go l' (snd (inst s a))
           end) l a
    end.
  Fixpoint symss (l : list (Q * shape)) (a : positive) : list (positive * (Q * option (list space))) :=
    match l with
    | [] => []
    | (q, s) :: l' => syms q s a ++ symss l' (snd (inst s a))
    end.
End Syms.

(** a check of every term of a symbolic value *)
Fixpoint allm (P : list cls -> mono -> bool) (v : sval) {struct v} : bool :=
  match v with
  | XNum ms => forallb (P []) ms
  | XArr a => forallb (P (s_sh a)) (s_ms a)
  | XTup vs => forallb (allm P) vs
  | XObj fs => forallb (fun p => allm P (snd p)) fs
  end.

Definition cov_chk {Q} (P : list (positive * (Q * option (list space))) -> list cls -> mono -> bool)
    (f : string) (a : list (Q * shape)) (r : shape) : bool :=
  match run_chk f (fst (insts (map snd a) 1)) with
  | Some v => sfit r v && allm (P (symss a 1)) v
  | None => false
  end.

Lemma insts_cons s l a : insts (s :: l) a =
  (fst (inst s a) :: fst (insts l (snd (inst s a))), snd (insts l (snd (inst s a)))).
Proof. simpl. destruct (inst s a) as [v b]. simpl. destruct (insts l b). reflexivity. Qed.

Lemma insto_cons x s l a : insto ((x, s) :: l) a =
  ((x, fst (inst s a)) :: fst (insto l (snd (inst s a))), snd (insto l (snd (inst s a)))).
Proof. simpl. destruct (inst s a) as [v b]. simpl. destruct (insto l b). reflexivity. Qed.

Section One.
  Variable K : cring.
  Local Open Scope K_scope.
  Add Ring Kr_cov : (c_th K).
  Variable n : space -> nat.
  Variable rho : positive -> list nat -> K.
  Notation dim := (sp_dim n).

  Lemma sym_num a v : Rval K dim rho (fst (inst SNum a)) v -> v = numv (rho a []).
  Proof.
    simpl. intros H. inversion H as [x y R| | |]; subst. destruct R as (_ & ->). unfold numv. f_equal.
    unfold den, den_mono, den_fac. simpl. unfold dyad. simpl. ring.
  Qed.

  Lemma map_nth_seq {A} (l : list A) d : map (fun k => nth k l d) (seq 0 (List.length l)) = l.
  Proof.
    induction l as [|x l IH]; [reflexivity|]. simpl. f_equal. rewrite <- seq_shift, map_map. exact IH.
  Qed.

  Lemma sym_arr l a v : Rval K dim rho (fst (inst (SArr l) a)) v ->
    exists t, v = arr t /\ shp t = map n l /\ forall idx, inrange (map n l) idx -> rho a idx = dat t idx.
  Proof.
    simpl. intros H. inversion H as [|x t R| |]; subst. destruct R as (S1 & _ & R). exists t.
    cbn [s_sh s_input] in S1. rewrite map_sp_dim in S1. split; [reflexivity|]. split; [exact S1|].
    intros idx Hi. rewrite R by (rewrite S1; exact Hi).
    unfold den, den_mono, den_fac. cbn [s_ms s_input map m_z m_k m_dm m_fs fst snd sumL lsum prodK].
    rewrite map_map. cbn [look].
    assert (L : List.length (map cl l) = List.length idx).
    { rewrite map_length. apply Forall2_length in Hi. rewrite map_length in Hi. auto. }
    rewrite L, map_nth_seq. unfold dyad. simpl. ring.
  Qed.
End One.

Section Pair.
  Variables K1 K2 : cring.
  Variable Q : Type.
  Variables n1 n2 : space -> nat.
  Variable N : Q -> K1 -> K2 -> Prop.
  Variable A : Q -> list space -> tensor K1 -> tensor K2 -> Prop.
  Variable N' : K1 -> K2 -> Prop.
  Variable A' : list space -> tensor K1 -> tensor K2 -> Prop.
  Hypothesis A_shape : forall q l t u, A q l t u -> shp t = map n1 l /\ shp u = map n2 l.
  Notation env1 := (positive -> list nat -> K1).
  Notation env2 := (positive -> list nat -> K2).

  Definition sym_rel (rho1 : env1) (rho2 : env2) (p : positive * (Q * option (list space))) : Prop :=
    match snd (snd p) with
    | None => N (fst (snd p)) (rho1 (fst p) []) (rho2 (fst p) [])
    | Some l => exists t u, A (fst (snd p)) l t u /\
        (forall idx, inrange (map n1 l) idx -> rho1 (fst p) idx = dat t idx) /\
        (forall idx, inrange (map n2 l) idx -> rho2 (fst p) idx = dat u idx)
    end.

  Lemma related_fits q s : forall v w, related (N q) (A q) s v w -> fits n1 v s /\ fits n2 w s.
  Proof.
    induction s as [|l|l IH|l IH] using shape_ind'; intros v w H; destruct v, w; try contradiction; cbn [related] in H.
    - split; apply fit_num.
    - apply A_shape in H as (H1 & H2). split; apply fit_arr; auto.
    - assert (G : Forall2 (fits n1) vs l /\ Forall2 (fits n2) vs0 l).
      { revert vs vs0 H. induction IH as [|s l Hs Hl IHl]; intros [|v vs] [|w ws] H; try contradiction; [split; constructor|].
        destruct H as (H1 & H2). apply Hs in H1 as (H3 & H4). apply IHl in H2 as (H5 & H6). split; constructor; auto. }
      destruct G. split; apply fit_tup; auto.
    - assert (G : Forall2 (fun v s => fst v = fst s /\ fits n1 (snd v) (snd s)) fs l /\
                  Forall2 (fun v s => fst v = fst s /\ fits n2 (snd v) (snd s)) fs0 l).
      { revert fs fs0 H. induction IH as [|[x s] l Hs Hl IHl]; intros [|[y v] vs] [|[z w] ws] H; try contradiction; [split; constructor|].
        destruct H as ((-> & -> & H1) & H2). apply Hs in H1 as (H3 & H4). apply IHl in H2 as (H5 & H6). split; constructor; auto. }
      destruct G. split; apply fit_obj; auto.
  Qed.

  Variable rho1 : env1.
  Variable rho2 : env2.
  Notation R1 := (Rval K1 (sp_dim n1) rho1).
  Notation R2 := (Rval K2 (sp_dim n2) rho2).

  Lemma in_related q s : forall a v w, related (N q) (A q) s v w ->
    R1 (fst (inst s a)) v -> R2 (fst (inst s a)) w -> Forall (sym_rel rho1 rho2) (syms q s a).
  Proof.
    induction s as [|l|l IH|l IH] using shape_ind'; intros a v w H G1 G2.
    - apply sym_num in G1. apply sym_num in G2. subst. constructor; [exact H|constructor].
    - apply sym_arr in G1 as (t & -> & S1 & E1). apply sym_arr in G2 as (u & -> & S2 & E2).
      constructor; [|constructor]. exists t, u. auto.
    - rewrite inst_tup in G1, G2. cbn [fst] in G1, G2. inversion G1 as [| |? vs F1|]; subst. inversion G2 as [| |? ws F2|]; subst.
      cbn [related] in H. cbn [syms]. clear G1 G2. revert a vs ws F1 F2 H.
      induction IH as [|s l Hs Hl IHl]; intros a vs ws F1 F2 H; [constructor|].
      rewrite insts_cons in F1, F2. cbn [fst] in F1, F2.
      inversion F1 as [|? v ? vs' F3 F4]; subst. inversion F2 as [|? w ? ws' F5 F6]; subst.
      destruct H as (H1 & H2). apply Forall_app. split; [eapply Hs; eauto|]. eapply IHl; eauto.
    - rewrite inst_obj in G1, G2. cbn [fst] in G1, G2. inversion G1 as [| | |? vs F1]; subst. inversion G2 as [| | |? ws F2]; subst.
      cbn [related] in H. cbn [syms]. clear G1 G2. revert a vs ws F1 F2 H.
      induction IH as [|[x s] l Hs Hl IHl]; intros a vs ws F1 F2 H; [constructor|].
      rewrite insto_cons in F1, F2. cbn [fst] in F1, F2.
      inversion F1 as [|? [y v] ? vs' (E3 & F3) F4]; subst. inversion F2 as [|? [z w] ? ws' (E5 & F5) F6]; subst.
      destruct H as ((_ & _ & H1) & H2). apply Forall_app. split; [eapply Hs; eauto|]. eapply IHl; eauto.
  Qed.

  Fixpoint qrelated (l : list (Q * shape)) (vs : list (pyval K1)) (ws : list (pyval K2)) : Prop :=
    match l, vs, ws with
    | [], [], [] => True
    | (q, s) :: l', v :: vs', w :: ws' => related (N q) (A q) s v w /\ qrelated l' vs' ws'
    | _, _, _ => False
    end.

  Lemma ins_related l : forall a vs ws, qrelated l vs ws ->
    Forall2 R1 (fst (insts (map snd l) a)) vs -> Forall2 R2 (fst (insts (map snd l) a)) ws ->
    Forall (sym_rel rho1 rho2) (symss l a).
  Proof.
    induction l as [|[q s] l IH]; intros a vs ws H F1 F2; [constructor|].
    cbn [map snd] in F1, F2. rewrite insts_cons in F1, F2. cbn [fst] in F1, F2.
    inversion F1 as [|? v ? vs' F3 F4]; subst. inversion F2 as [|? w ? ws' F5 F6]; subst.
    destruct H as (H1 & H2). cbn [symss]. apply Forall_app. split; [eapply in_related; eauto|]. eapply IH; eauto.
  Qed.

  Variable P : list cls -> mono -> bool.
  Hypothesis HN : forall ms, forallb (P []) ms = true -> Forall (m_ok 0) ms ->
    N' (den K1 (sp_dim n1) rho1 [] ms) (den K2 (sp_dim n2) rho2 [] ms).
  Hypothesis HA : forall l ms t u, forallb (P (map cl l)) ms = true ->
    Rarr K1 (sp_dim n1) rho1 (STens (map cl l) ms) t -> Rarr K2 (sp_dim n2) rho2 (STens (map cl l) ms) u -> A' l t u.

  Lemma out_related s : forall sv v w, sfit s sv = true -> allm P sv = true -> R1 sv v -> R2 sv w ->
    related N' A' s v w.
  Proof.
    induction s as [|l|l IH|l IH] using shape_ind'; intros [m|t|vs|fs] v w F C G1 G2; simpl in F; try discriminate;
      inversion G1; subst; inversion G2; subst; cbn [related].
    - destruct H0 as (Hm & ->). destruct H1 as (_ & ->). apply HN; auto.
    - apply cls_list_eqb_eq in F. destruct t as [sh ms]. cbn [s_sh] in F. subst sh. eapply HA; eauto.
    - cbn [allm] in C. clear G1 G2. revert vs vs' vs'0 F C H0 H1.
      induction IH as [|s l Hs Hl IHl]; intros [|x vs] ws us F C F1 F2; try discriminate;
        inversion F1; subst; inversion F2; subst; [exact I|].
      cbn [forallb] in C. apply andb_prop in C as (C1 & C2).
      destruct (sfit s x) eqn:E; [|discriminate]. split; [eapply Hs; eauto|eapply IHl; eauto].
    - cbn [allm] in C. clear G1 G2. revert fs fs' fs'0 F C H0 H1.
      induction IH as [|[y s] l Hs Hl IHl]; intros [|[x sv] vs] ws us F C F1 F2; try discriminate;
        inversion F1 as [|? [y1 v1] ? ? (E1 & G1)]; subst; inversion F2 as [|? [y2 v2] ? ? (E2 & G2)]; subst; [exact I|].
      cbn [forallb snd fst] in *. apply andb_prop in C as (C1 & C2). destruct (String.eqb_spec y x); [|discriminate].
      destruct (sfit s sv) eqn:E; [|discriminate]. subst. split; [split; [auto|]; split; [auto|]; eapply Hs; eauto|eapply IHl; eauto].
  Qed.
End Pair.

Lemma pair_sound (K1 K2 : cring) (Q : Type) (n1 n2 : space -> nat)
    (N : Q -> K1 -> K2 -> Prop) (A : Q -> list space -> tensor K1 -> tensor K2 -> Prop)
    (N' : K1 -> K2 -> Prop) (A' : list space -> tensor K1 -> tensor K2 -> Prop)
    (P : list (positive * (Q * option (list space))) -> list cls -> mono -> bool) f (a : list (Q * shape)) r
    (vs : list (pyval K1)) (ws : list (pyval K2)) :
  (forall q l t u, A q l t u -> shp t = map n1 l /\ shp u = map n2 l) ->
  (forall rho1 rho2, Forall (sym_rel K1 K2 Q n1 n2 N A rho1 rho2) (symss a 1) ->
     (forall ms, forallb (P (symss a 1%positive) []) ms = true -> Forall (m_ok 0) ms ->
        N' (den K1 (sp_dim n1) rho1 [] ms) (den K2 (sp_dim n2) rho2 [] ms)) /\
     (forall l ms t u, forallb (P (symss a 1%positive) (map cl l)) ms = true ->
        Rarr K1 (sp_dim n1) rho1 (STens (map cl l) ms) t -> Rarr K2 (sp_dim n2) rho2 (STens (map cl l) ms) u -> A' l t u)) ->
  cov_chk P f a r = true ->
  qrelated K1 K2 Q N A a vs ws ->
  exists v w, returns f vs v /\ returns f ws w /\ related N' A' r v w.
Proof.
  intros HA HP HC HR. unfold cov_chk in HC.
  destruct (run_chk f (fst (insts (map snd a) 1))) as [sv|] eqn:E; [|discriminate]. apply andb_prop in HC as (C1 & C2).
  assert (FF : Forall2 (fits n1) vs (map snd a) /\ Forall2 (fits n2) ws (map snd a)).
  { clear - HA HR. revert vs ws HR. induction a as [|[q s] a IH]; intros [|v vs] [|w ws] HR; try contradiction; [split; constructor|].
    destruct HR as (H1 & H2). destruct (related_fits K1 K2 Q n1 n2 N A HA _ _ _ _ H1). destruct (IH _ _ H2). split; constructor; auto. }
  destruct FF as (F1 & F2).
  assert (G1 : Forall (inst_good K1 n1) (map snd a)) by (apply Forall_forall; intros; apply inst_ok).
  assert (G2 : Forall (inst_good K2 n2) (map snd a)) by (apply Forall_forall; intros; apply inst_ok).
  destruct (insts_good K1 n1 _ G1 vs 1%positive F1) as (_ & g1 & H1). specialize (H1 g1 ltac:(intros t _ _ idx; reflexivity)).
  destruct (insts_good K2 n2 _ G2 ws 1%positive F2) as (_ & g2 & H2). specialize (H2 g2 ltac:(intros t _ _ idx; reflexivity)).
  destruct (run_sound _ _ _ _ _ _ _ E H1) as (v & Rv & V). destruct (run_sound _ _ _ _ _ _ _ E H2) as (w & Rw & W).
  exists v, w. split; [exact Rv|]. split; [exact Rw|].
  pose proof (ins_related K1 K2 Q n1 n2 N A g1 g2 a 1%positive vs ws HR H1 H2) as HS.
  destruct (HP g1 g2 HS) as (P1 & P2).
  eapply (out_related K1 K2 n1 n2 N' A' g1 g2 (P (symss a 1%positive))); eauto.
Qed.

Section Triple.
  Variable K : cring.
  Variable Q : Type.
  Variables n1 n2 n3 : space -> nat.
  Variable N : Q -> K -> K -> K -> Prop.
  Variable A : Q -> list space -> tensor K -> tensor K -> tensor K -> Prop.
  Variable N' : K -> K -> K -> Prop.
  Variable A' : list space -> tensor K -> tensor K -> tensor K -> Prop.
  Hypothesis A_shape : forall q l t u w, A q l t u w -> shp t = map n1 l /\ shp u = map n2 l /\ shp w = map n3 l.
  Notation env := (positive -> list nat -> K).

  Definition sym_rel3 (rho1 rho2 rho3 : env) (p : positive * (Q * option (list space))) : Prop :=
    match snd (snd p) with
    | None => N (fst (snd p)) (rho1 (fst p) []) (rho2 (fst p) []) (rho3 (fst p) [])
    | Some l => exists t u w, A (fst (snd p)) l t u w /\
        (forall idx, inrange (map n1 l) idx -> rho1 (fst p) idx = dat t idx) /\
        (forall idx, inrange (map n2 l) idx -> rho2 (fst p) idx = dat u idx) /\
        (forall idx, inrange (map n3 l) idx -> rho3 (fst p) idx = dat w idx)
    end.

  Lemma related3_fits q s : forall u v w, related3 (N q) (A q) s u v w -> fits n1 u s /\ fits n2 v s /\ fits n3 w s.
  Proof.
    induction s as [|l|l IH|l IH] using shape_ind'; intros u v w H; destruct u, v, w; try contradiction; cbn [related3] in H.
    - repeat split; apply fit_num.
    - apply A_shape in H as (H1 & H2 & H3). repeat split; apply fit_arr; auto.
    - assert (G : Forall2 (fits n1) vs l /\ Forall2 (fits n2) vs0 l /\ Forall2 (fits n3) vs1 l).
      { revert vs vs0 vs1 H. induction IH as [|s l Hs Hl IHl]; intros [|u us] [|v vs] [|w ws] H; try contradiction; [repeat split; constructor|].
        destruct H as (H1 & H2). apply Hs in H1 as (H3 & H4 & H7). apply IHl in H2 as (H5 & H6 & H8). repeat split; constructor; auto. }
      destruct G as (G1 & G2 & G3). repeat split; apply fit_tup; auto.
    - assert (G : Forall2 (fun v s => fst v = fst s /\ fits n1 (snd v) (snd s)) fs l /\
                  Forall2 (fun v s => fst v = fst s /\ fits n2 (snd v) (snd s)) fs0 l /\
                  Forall2 (fun v s => fst v = fst s /\ fits n3 (snd v) (snd s)) fs1 l).
      { revert fs fs0 fs1 H. induction IH as [|[x s] l Hs Hl IHl]; intros [|[y u] us] [|[z v] vs] [|[z' w] ws] H; try contradiction; [repeat split; constructor|].
        destruct H as ((-> & -> & -> & H1) & H2). apply Hs in H1 as (H3 & H4 & H7). apply IHl in H2 as (H5 & H6 & H8). repeat split; constructor; auto. }
      destruct G as (G1 & G2 & G3). repeat split; apply fit_obj; auto.
  Qed.

  Variables rho1 rho2 rho3 : env.
  Notation R1 := (Rval K (sp_dim n1) rho1).
  Notation R2 := (Rval K (sp_dim n2) rho2).
  Notation R3 := (Rval K (sp_dim n3) rho3).

  Lemma in_related3 q s : forall a u v w, related3 (N q) (A q) s u v w ->
    R1 (fst (inst s a)) u -> R2 (fst (inst s a)) v -> R3 (fst (inst s a)) w ->
    Forall (sym_rel3 rho1 rho2 rho3) (syms q s a).
  Proof.
    induction s as [|l|l IH|l IH] using shape_ind'; intros a u v w H G1 G2 G3.
    - apply sym_num in G1. apply sym_num in G2. apply sym_num in G3. subst. constructor; [exact H|constructor].
    - apply sym_arr in G1 as (t1 & -> & S1 & E1). apply sym_arr in G2 as (t2 & -> & S2 & E2). apply sym_arr in G3 as (t3 & -> & S3 & E3).
      constructor; [|constructor]. exists t1, t2, t3. auto.
    - rewrite inst_tup in G1, G2, G3. cbn [fst] in G1, G2, G3. inversion G1 as [| |? us F1|]; subst. inversion G2 as [| |? vs F2|]; subst.
      inversion G3 as [| |? ws F3|]; subst.
      cbn [related3] in H. cbn [syms]. clear G1 G2 G3. revert a us vs ws F1 F2 F3 H.
      induction IH as [|s l Hs Hl IHl]; intros a us vs ws F1 F2 F3 H; [constructor|].
      rewrite insts_cons in F1, F2, F3. cbn [fst] in F1, F2, F3.
      inversion F1 as [|? u ? us' A1 B1]; subst. inversion F2 as [|? v ? vs' A2 B2]; subst. inversion F3 as [|? w ? ws' A3 B3]; subst.
      destruct H as (H1 & H2). apply Forall_app. split; [eapply Hs; eauto|]. eapply IHl; eauto.
    - rewrite inst_obj in G1, G2, G3. cbn [fst] in G1, G2, G3. inversion G1 as [| | |? us F1]; subst. inversion G2 as [| | |? vs F2]; subst.
      inversion G3 as [| | |? ws F3]; subst.
      cbn [related3] in H. cbn [syms]. clear G1 G2 G3. revert a us vs ws F1 F2 F3 H.
      induction IH as [|[x s] l Hs Hl IHl]; intros a us vs ws F1 F2 F3 H; [constructor|].
      rewrite insto_cons in F1, F2, F3. cbn [fst] in F1, F2, F3.
      inversion F1 as [|? [y1 u] ? us' (_ & A1) B1]; subst. inversion F2 as [|? [y2 v] ? vs' (_ & A2) B2]; subst.
      inversion F3 as [|? [y3 w] ? ws' (_ & A3) B3]; subst.
      destruct H as ((_ & _ & _ & H1) & H2). apply Forall_app. split; [eapply Hs; eauto|]. eapply IHl; eauto.
  Qed.

  Fixpoint qrelated3 (l : list (Q * shape)) (us vs ws : list (pyval K)) : Prop :=
    match l, us, vs, ws with
    | [], [], [], [] => True
    | (q, s) :: l', u :: us', v :: vs', w :: ws' => related3 (N q) (A q) s u v w /\ qrelated3 l' us' vs' ws'
    | _, _, _, _ => False
    end.

  Lemma ins_related3 l : forall a us vs ws, qrelated3 l us vs ws ->
    Forall2 R1 (fst (insts (map snd l) a)) us -> Forall2 R2 (fst (insts (map snd l) a)) vs -> Forall2 R3 (fst (insts (map snd l) a)) ws ->
    Forall (sym_rel3 rho1 rho2 rho3) (symss l a).
  Proof.
    induction l as [|[q s] l IH]; intros a us vs ws H F1 F2 F3; [constructor|].
    cbn [map snd] in F1, F2, F3. rewrite insts_cons in F1, F2, F3. cbn [fst] in F1, F2, F3.
    inversion F1 as [|? u ? us' A1 B1]; subst. inversion F2 as [|? v ? vs' A2 B2]; subst. inversion F3 as [|? w ? ws' A3 B3]; subst.
    destruct H as (H1 & H2). cbn [symss]. apply Forall_app. split; [eapply in_related3; eauto|]. eapply IH; eauto.
  Qed.

  Variable P : list cls -> mono -> bool.
  Hypothesis HN : forall ms, forallb (P []) ms = true -> Forall (m_ok 0) ms ->
    N' (den K (sp_dim n1) rho1 [] ms) (den K (sp_dim n2) rho2 [] ms) (den K (sp_dim n3) rho3 [] ms).
  Hypothesis HA : forall l ms t u w, forallb (P (map cl l)) ms = true ->
    Rarr K (sp_dim n1) rho1 (STens (map cl l) ms) t -> Rarr K (sp_dim n2) rho2 (STens (map cl l) ms) u ->
    Rarr K (sp_dim n3) rho3 (STens (map cl l) ms) w -> A' l t u w.

  Lemma out_related3 s : forall sv u v w, sfit s sv = true -> allm P sv = true -> R1 sv u -> R2 sv v -> R3 sv w ->
    related3 N' A' s u v w.
  Proof.
    induction s as [|l|l IH|l IH] using shape_ind'; intros [m|t|xs|xs] u v w F C G1 G2 G3; simpl in F; try discriminate;
      inversion G1 as [? ? X1|? ? X1|? ? X1|? ? X1]; subst; inversion G2 as [? ? X2|? ? X2|? ? X2|? ? X2]; subst;
      inversion G3 as [? ? X3|? ? X3|? ? X3|? ? X3]; subst; cbn [related3].
    - destruct X1 as (Hm & ->). destruct X2 as (_ & ->). destruct X3 as (_ & ->). apply HN; auto.
    - apply cls_list_eqb_eq in F. destruct t as [sh ms]. cbn [s_sh] in F. subst sh. eapply HA; eauto.
    - cbn [allm] in C. clear G1 G2 G3. revert xs vs' vs'0 vs'1 F C X1 X2 X3.
      induction IH as [|s l Hs Hl IHl]; intros [|x xs] us vs ws F C F1 F2 F3; try discriminate;
        inversion F1; subst; inversion F2; subst; inversion F3; subst; [exact I|].
      cbn [forallb] in C. apply andb_prop in C as (C1 & C2).
      destruct (sfit s x) eqn:E; [|discriminate]. split; [eapply Hs; eauto|eapply IHl; eauto].
    - cbn [allm] in C. clear G1 G2 G3. revert xs fs' fs'0 fs'1 F C X1 X2 X3.
      induction IH as [|[y s] l Hs Hl IHl]; intros [|[x sv] xs] us vs ws F C F1 F2 F3; try discriminate;
        inversion F1 as [|? [y1 v1] ? ? (E1 & G1)]; subst; inversion F2 as [|? [y2 v2] ? ? (E2 & G2)]; subst;
        inversion F3 as [|? [y3 v3] ? ? (E3 & G3)]; subst; [exact I|].
      cbn [forallb snd fst] in *. apply andb_prop in C as (C1 & C2). destruct (String.eqb_spec y x); [|discriminate].
      destruct (sfit s sv) eqn:E; [|discriminate]. subst. split; [repeat (split; [auto|]); eapply Hs; eauto|eapply IHl; eauto].
  Qed.
End Triple.

Lemma map_snd_pair {A} (l : list A) : map snd (map (pair tt) l) = l.
Proof. rewrite map_map. apply map_id. Qed.

Lemma triple_sound (K : cring) (Q : Type) (n1 n2 n3 : space -> nat)
    (N : Q -> K -> K -> K -> Prop) (A : Q -> list space -> tensor K -> tensor K -> tensor K -> Prop)
    (N' : K -> K -> K -> Prop) (A' : list space -> tensor K -> tensor K -> tensor K -> Prop)
    (P : list (positive * (Q * option (list space))) -> list cls -> mono -> bool) f (a : list (Q * shape)) r
    (us vs ws : list (pyval K)) :
  (forall q l t u w, A q l t u w -> shp t = map n1 l /\ shp u = map n2 l /\ shp w = map n3 l) ->
  (forall rho1 rho2 rho3, Forall (sym_rel3 K Q n1 n2 n3 N A rho1 rho2 rho3) (symss a 1) ->
     (forall ms, forallb (P (symss a 1%positive) []) ms = true -> Forall (m_ok 0) ms ->
        N' (den K (sp_dim n1) rho1 [] ms) (den K (sp_dim n2) rho2 [] ms) (den K (sp_dim n3) rho3 [] ms)) /\
     (forall l ms t u w, forallb (P (symss a 1%positive) (map cl l)) ms = true ->
        Rarr K (sp_dim n1) rho1 (STens (map cl l) ms) t -> Rarr K (sp_dim n2) rho2 (STens (map cl l) ms) u ->
        Rarr K (sp_dim n3) rho3 (STens (map cl l) ms) w -> A' l t u w)) ->
  cov_chk P f a r = true ->
  qrelated3 K Q N A a us vs ws ->
  exists u v w, returns f us u /\ returns f vs v /\ returns f ws w /\ related3 N' A' r u v w.
Proof.
  intros HA HP HC HR. unfold cov_chk in HC.
  destruct (run_chk f (fst (insts (map snd a) 1))) as [sv|] eqn:E; [|discriminate]. apply andb_prop in HC as (C1 & C2).
  assert (FF : Forall2 (fits n1) us (map snd a) /\ Forall2 (fits n2) vs (map snd a) /\ Forall2 (fits n3) ws (map snd a)).
  { clear - HA HR. revert us vs ws HR. induction a as [|[q s] a IH]; intros [|u us] [|v vs] [|w ws] HR; try contradiction; [repeat split; constructor|].
    destruct HR as (H1 & H2). destruct (related3_fits K Q n1 n2 n3 N A HA _ _ _ _ _ H1) as (X1 & X2 & X3).
    destruct (IH _ _ _ H2) as (Y1 & Y2 & Y3). repeat split; constructor; auto. }
  destruct FF as (F1 & F2 & F3).
  assert (GG : forall n, Forall (inst_good K n) (map snd a)) by (intros n; apply Forall_forall; intros; apply inst_ok).
  destruct (insts_good K n1 _ (GG n1) us 1%positive F1) as (_ & g1 & H1). specialize (H1 g1 ltac:(intros t _ _ idx; reflexivity)).
  destruct (insts_good K n2 _ (GG n2) vs 1%positive F2) as (_ & g2 & H2). specialize (H2 g2 ltac:(intros t _ _ idx; reflexivity)).
  destruct (insts_good K n3 _ (GG n3) ws 1%positive F3) as (_ & g3 & H3). specialize (H3 g3 ltac:(intros t _ _ idx; reflexivity)).
  destruct (run_sound _ _ _ _ _ _ _ E H1) as (u & Ru & U). destruct (run_sound _ _ _ _ _ _ _ E H2) as (v & Rv & V).
  destruct (run_sound _ _ _ _ _ _ _ E H3) as (w & Rw & W).
  exists u, v, w. split; [exact Ru|]. split; [exact Rv|]. split; [exact Rw|].
  pose proof (ins_related3 K Q n1 n2 n3 N A g1 g2 g3 a 1%positive us vs ws HR H1 H2 H3) as HS.
  destruct (HP g1 g2 g3 HS) as (P1 & P2).
  eapply (out_related3 K n1 n2 n3 N' A' g1 g2 g3 (P (symss a 1%positive))); eauto.
Qed.

Lemma qrelated3_unit {K : cring} N A l : forall us vs ws : list (pyval K),
  related_args3 (related3 N A) l us vs ws -> qrelated3 K unit (fun _ => N) (fun _ => A) (map (pair tt) l) us vs ws.
Proof.
  induction l as [|s l IH]; intros [|u us] [|v vs] [|w ws] H; try contradiction; [exact I|].
  destruct H as (H1 & H2). split; [exact H1|]. apply IH, H2.
Qed.
