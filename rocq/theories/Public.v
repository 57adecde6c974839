(** Every public function, called with arguments of its documented shapes,
    returns a value of the documented shape and leaves its arguments alone:
    one symbolic run per function, with a fresh symbol for every array. *)
From Coq Require Import List Bool Arith ZArith Lia Ring String.
From Verif Require Import Scalar Tensor PySyntax PySem PySim Sym SymSound Norm CCProg CCSpec
  Engine CCShapes.
Import ListNotations.
Local Open Scope string_scope.

Definition cl (s : space) : cls :=
  match s with so => 1 | sv => 2 | sO => 3 | sV => 4 end%positive.
Definition sp_dim (n : space -> nat) (c : cls) : nat :=
  match c with 1 => n so | 2 => n sv | 3 => n sO | 4 => n sV | _ => 0%nat end%positive.

Lemma sp_dim_cl n s : sp_dim n (cl s) = n s.
Proof. destruct s; reflexivity. Qed.
Lemma map_sp_dim n l : map (sp_dim n) (map cl l) = map n l.
Proof. rewrite map_map. apply map_ext. apply sp_dim_cl. Qed.

Fixpoint inst (s : shape) (n : positive) {struct s} : sval * positive :=
  match s with
  | SNum => (@XNum sym_alg [Mono 1 0 [] [(n, [])]], Pos.succ n)
  | SArr l => (sarr (s_input n (map cl l)), Pos.succ n)
  | STup l =>
      let (vs, n1) :=
        (fix go (l : list shape) (n : positive) : list sval * positive :=
           match l with
           | [] => ([], n)
           | s :: l' => let (v, n1) := inst s n in let (vs, n2) := go l' n1 in (v :: vs, n2)
           end) l n in
      (XTup vs, n1)
  | SObj l =>
      let (vs, n1) :=
        (fix go (l : list (string * shape)) (n : positive) : list (string * sval) * positive :=
           match l with
           | [] => ([], n)
           | (x, s) :: l' =>
               let (v, n1) := inst s n in let (vs, n2) := go l' n1 in ((x, v) :: vs, n2)
           end) l n in
      (XObj vs, n1)
  end.

Fixpoint insts (l : list shape) (n : positive) : list sval * positive :=
  match l with
  | [] => ([], n)
  | s :: l' => let (v, n1) := inst s n in let (vs, n2) := insts l' n1 in (v :: vs, n2)
  end.

Fixpoint sfit (s : shape) (v : sval) {struct s} : bool :=
  match s, v with
  | SNum, XNum _ => true
  | SArr l, XArr a => cls_list_eqb (s_sh a) (map cl l)
  | STup l, XTup vs =>
      (fix go (l : list shape) (vs : list sval) {struct l} : bool :=
         match l, vs with
         | [], [] => true
         | s :: l', v :: vs' => if sfit s v then go l' vs' else false
         | _, _ => false
         end) l vs
  | SObj l, XObj vs =>
      (fix go (l : list (string * shape)) (vs : list (string * sval)) {struct l} : bool :=
         match l, vs with
         | [], [] => true
         | (x, s) :: l', (y, v) :: vs' =>
             if String.eqb x y then if sfit s v then go l' vs' else false else false
         | _, _ => false
         end) l vs
  | _, _ => false
  end.

Definition public_chk (e : string * list shape * shape) : bool :=
  let '(f, a, r) := e in
  match run_chk f (fst (insts a 1)) with Some v => sfit r v | None => false end.

Section ShapeInd.
  Variable P : shape -> Prop.
  Hypothesis Hnum : P SNum.
  Hypothesis Harr : forall l, P (SArr l).
  Hypothesis Htup : forall l, Forall P l -> P (STup l).
  Hypothesis Hobj : forall l, Forall (fun p => P (snd p)) l -> P (SObj l).
  Fixpoint shape_ind' (s : shape) : P s :=
    match s with
    | SNum => Hnum
    | SArr l => Harr l
    | STup l => Htup l ((fix go (l : list shape) : Forall P l :=
        match l with [] => Forall_nil _ | s :: l' => Forall_cons _ (shape_ind' s) (go l') end) l)
    | SObj l => Hobj l ((fix go (l : list (string * shape)) : Forall (fun p => P (snd p)) l :=
        match l with
        | [] => Forall_nil _
        | p :: l' => Forall_cons _ (shape_ind' (snd p)) (go l') end) l)
    end.
End ShapeInd.

Section PublicSound.
  Variable K : cring.
  Local Open Scope K_scope.
  Add Ring Kr8 : (c_th K).
  Variable n : space -> nat.
  Notation dim := (sp_dim n).
  Definition env := positive -> list nat -> K.

  (** [rho] agrees with [g] on the symbols from [a] up to [b] *)
  Definition agrees (a b : positive) (g rho : env) : Prop :=
    forall t, (a <= t)%positive -> (t < b)%positive -> forall idx, rho t idx = g t idx.

  Definition inst_good (s : shape) : Prop := forall (v : pyval K) a,
    fits n v s -> (a <= snd (inst s a))%positive /\
    exists g, forall rho, agrees a (snd (inst s a)) g rho ->
      Rval K dim rho (fst (inst s a)) v.

  Definition join (b : positive) (g h : env) : env := fun t => if Pos.ltb t b then g t else h t.

  Lemma join_l a b c g h rho : (b <= c)%positive -> agrees a c (join b g h) rho -> agrees a b g rho.
  Proof.
    intros Hc H t H1 H2 idx. rewrite (H t); auto; [|lia]. unfold join.
    destruct (Pos.ltb_spec t b); [reflexivity|lia].
  Qed.
  Lemma join_r a b c g h rho : (a <= b)%positive -> agrees a c (join b g h) rho -> agrees b c h rho.
  Proof.
    intros Hc H t H1 H2 idx. rewrite (H t); auto; [|lia]. unfold join.
    destruct (Pos.ltb_spec t b); [lia|reflexivity].
  Qed.

  Lemma insts_good l : Forall inst_good l -> forall (vs : list (pyval K)) a,
    Forall2 (fits n) vs l -> (a <= snd (insts l a))%positive /\
    exists g, forall rho, agrees a (snd (insts l a)) g rho ->
      Forall2 (Rval K dim rho) (fst (insts l a)) vs.
  Proof.
    induction 1 as [|s l Hs Hl IH]; intros vs a Hv;
      inversion Hv as [|x ? l0 ? H1 H3]; subst.
    - simpl. split; [lia|]. exists (fun _ _ => 0). constructor.
    - destruct (Hs x a H1) as (Ha & g & Hg). simpl.
      destruct (inst s a) as [v b] eqn:E. simpl in *.
      destruct (IH l0 b H3) as (Hb & h & Hh).
      destruct (insts l b) as [ws c] eqn:E2. simpl in *. split; [lia|].
      exists (join b g h). intros rho Hr. constructor.
      + apply Hg. eapply join_l; eauto.
      + apply Hh. eapply join_r; eauto.
  Qed.

  Lemma inst_tup l a : inst (STup l) a = (XTup (fst (insts l a)), snd (insts l a)).
  Proof.
    simpl. cut ((fix go (l : list shape) (n : positive) : list sval * positive :=
           match l with
           | [] => ([], n)
           | s :: l' => let (v, n1) := inst s n in let (vs, n2) := go l' n1 in (v :: vs, n2)
           end) l a = insts l a). { intros ->. destruct (insts l a). reflexivity. }
    revert a. induction l as [|s l IH]; intros a; [reflexivity|]. simpl.
    destruct (inst s a). rewrite IH. reflexivity.
  Qed.

  Fixpoint insto (l : list (string * shape)) (n : positive) : list (string * sval) * positive :=
    match l with
    | [] => ([], n)
    | (x, s) :: l' =>
        let (v, n1) := inst s n in let (vs, n2) := insto l' n1 in ((x, v) :: vs, n2)
    end.
  Lemma inst_obj l a : inst (SObj l) a = (XObj (fst (insto l a)), snd (insto l a)).
  Proof. simpl. fold insto. destruct (insto l a). reflexivity. Qed.

  Lemma insto_good l : Forall (fun p => inst_good (snd p)) l ->
    forall (vs : list (string * pyval K)) a,
    Forall2 (fun v s => fst v = fst s /\ fits n (snd v) (snd s)) vs l ->
    (a <= snd (insto l a))%positive /\
    exists g, forall rho, agrees a (snd (insto l a)) g rho ->
      Forall2 (fun v w => fst v = fst w /\ Rval K dim rho (snd v) (snd w)) (fst (insto l a)) vs.
  Proof.
    induction 1 as [|[x s] l Hs Hl IH]; intros vs a Hv; inversion Hv as [|[y v] ? ? ? [H1 H2] H3]; subst.
    - simpl. split; [lia|]. exists (fun _ _ => 0). constructor.
    - simpl in *. destruct (Hs v a H2) as (Ha & g & Hg).
      destruct (inst s a) as [v' b] eqn:E. simpl in *.
      destruct (IH _ b H3) as (Hb & h & Hh).
      destruct (insto l b) as [ws c] eqn:E2. simpl in *. split; [lia|].
      exists (join b g h). intros rho Hr. constructor.
      + simpl. split; [auto|]. apply Hg. eapply join_l; eauto.
      + apply Hh. eapply join_r; eauto.
  Qed.

  Lemma inst_ok s : inst_good s.
  Proof.
    induction s as [|l|l IH|l IH] using shape_ind'; intros v a Hv; inversion Hv; subst.
    - simpl. split; [lia|]. exists (fun _ _ => x). intros rho Hr. apply Rx_num.
      split; [repeat constructor|]. unfold den, den_mono, den_fac. simpl. unfold dyad. simpl.
      rewrite Hr; [ring|lia|lia].
    - simpl. split; [lia|]. exists (fun _ => dat t). intros rho Hr. apply Rx_arr.
      apply input_sound.
      + rewrite map_sp_dim. auto.
      + intros idx _. refine (Hr _ _ _ idx); lia.
    - rewrite inst_tup. simpl. destruct (insts_good l IH _ a H1) as (Ha & g & Hg).
      split; auto. exists g. intros rho Hr. apply Rx_tup. apply Hg. auto.
    - rewrite inst_obj. simpl fst. simpl snd. destruct (insto_good l IH _ a H1) as (Ha & g & Hg).
      split; auto. exists g. intros rho Hr. apply Rx_obj. apply Hg. auto.
  Qed.

  Lemma sfit_sound rho s : forall v w, sfit s v = true -> Rval K dim rho v w -> fits n w s.
  Proof.
    induction s as [|l|l IH|l IH] using shape_ind'; intros [m|t|vs|fs] w; simpl;
      try discriminate; intros H Hw; inversion Hw; subst.
    - apply fit_num.
    - apply cls_list_eqb_eq in H. destruct H1 as (Hs & _). apply fit_arr.
      rewrite Hs, H, map_sp_dim. reflexivity.
    - apply fit_tup. clear Hw. revert vs vs' H H1.
      induction IH as [|s l Hs Hl IHl]; intros [|v vs] ws H Hf; try discriminate;
        inversion Hf; subst; constructor; destruct (sfit s v) eqn:E; try discriminate; eauto.
    - apply fit_obj. clear Hw. revert fs fs' H H1.
      induction IH as [|[x s] l Hs Hl IHl]; intros [|[y v] vs] ws H Hf; try discriminate;
        inversion Hf as [|? [y' v'] ? ? [E1 R1]]; subst; constructor; simpl in *;
        destruct (String.eqb_spec x y); try discriminate;
        destruct (sfit s v) eqn:E; try discriminate; [|eauto].
      split; [exact (eq_sym (eq_trans e E1))|eauto].
  Qed.

  Theorem public_sound f a r (vs : list (pyval K)) : public_chk (f, a, r) = true ->
    Forall2 (fits n) vs a -> exists v, returns f vs v /\ fits n v r.
  Proof.
    unfold public_chk. intros H Hv.
    destruct (run_chk f (fst (insts a 1))) as [sv|] eqn:E; [|discriminate].
    assert (HF : Forall inst_good a) by (apply Forall_forall; intros; apply inst_ok).
    destruct (insts_good a HF vs 1%positive Hv) as (_ & g & Hg).
    assert (HR : Forall2 (Rval K dim g) (fst (insts a 1)) vs).
    { apply Hg. intros t _ _ idx. reflexivity. }
    destruct (run_sound K dim g _ _ _ _ E HR) as (v & Hr & Hs).
    exists v. split; auto. eapply sfit_sound; eauto.
  Qed.
End PublicSound.

Lemma public_all : forallb public_chk public_functions = true.
Proof. vm_compute. reflexivity. Qed.

Lemma public_ok (K : cring) (n : space -> nat) f a r (args : list (pyval K)) :
  In (f, a, r) public_functions -> Forall2 (fits n) args a ->
  exists v, returns f args v /\ fits n v r.
Proof.
  intros H. apply public_sound. exact (proj1 (forallb_forall _ _) public_all _ H).
Qed.

