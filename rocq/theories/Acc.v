(** The run that adds to T with all factors and the run that adds to zero without them go
    in step: every array carries a tag that says how its two values are related. *)
From Coq Require Import List Bool Arith Ascii String ZArith Lia Ring.
From Verif Require Import Scalar Tensor PySyntax PySem PySim SymSound CCProg CCSpec CCShapes AccSpec RoundSpec RoundCC RoundRun RoundMain RoundPub.
Import ListNotations.
Local Open Scope string_scope.

(** *** Tags: TW e: the first value is the weight of e times the second; TA k: the first
    value is T_k plus a weight times the second. *)
Definition exps : Type := (nat * degree)%type.
Inductive tag := TW (e : exps) | TA (k : nat) (o : option exps) | TBad.
Definition deg_eqb (a b : exps) : bool :=
  Nat.eqb (fst a) (fst b) && (Nat.eqb (deg_h (snd a)) (deg_h (snd b)) && Nat.eqb (deg_s (snd a)) (deg_s (snd b)) &&
    Nat.eqb (deg_t (snd a)) (deg_t (snd b)) && Nat.eqb (deg_l (snd a)) (deg_l (snd b))).
Definition deg_add (a b : exps) : exps :=
  (fst a + fst b, Deg (deg_h (snd a) + deg_h (snd b)) (deg_s (snd a) + deg_s (snd b)) (deg_t (snd a) + deg_t (snd b)) (deg_l (snd a) + deg_l (snd b))).
Definition d0 : exps := (0, Deg 0 0 0 0).
Definition tag_add (a b : tag) : tag :=
  match a, b with
  | TW x, TW y => if deg_eqb x y then TW x else TBad
  | TA k None, TW y => TA k (Some y)
  | TA k (Some x), TW y => if deg_eqb x y then TA k (Some x) else TBad
  | _, _ => TBad
  end.
Definition tag_mul (a b : tag) : tag := match a, b with TW x, TW y => TW (deg_add x y) | _, _ => TBad end.
Definition tag_pure (a : tag) : tag := match a with TW x => TW x | _ => TBad end.

(** an array: spaces, tag, and where among the arguments it comes from if it is unchanged *)
Record tarr : Type := TArr { ta_sp : list positive; ta_tag : tag; ta_org : option (list nat) }.
Definition t_einsum (ins : list letters) (out : letters) (ts : list tarr) : option (tag + tarr) :=
  match bind_all Pos.eqb ins (map ta_sp ts) [] with
  | None => None
  | Some env =>
      match dims_of out env, dims_of (summed_letters out env) env with
      | Some od, Some sd =>
          if nodup_ascii out then
            let b := fold_right tag_mul (TW d0) (map ta_tag ts) in
            Some (match out with [] => inl b | _ => inr (TArr od b None) end)
          else None
      | _, _ => None
      end
  end.
Definition tag_alg : alg :=
  Alg tarr tag (fun _ _ => TW d0) (fun a b => tag_add (tag_pure a) b) tag_mul tag_pure
    (fun a b => if psh_eqb (ta_sp a) (ta_sp b) then Some (TArr (ta_sp a) (tag_add (ta_tag a) (ta_tag b)) None) else None)
    (fun a => TArr (ta_sp a) (tag_pure (ta_tag a)) None) (fun k a => TArr (ta_sp a) (tag_mul k (ta_tag a)) None)
    (fun p a => if is_perm p (List.length (ta_sp a)) then Some (TArr (map (fun k => nth k (ta_sp a) 1%positive) p) (tag_pure (ta_tag a)) None) else None)
    t_einsum.

(** *** Arguments *)
Definition fdeg (w : factor) : degree :=
  match w with by_1 => Deg 0 0 0 0 | by_h => Deg 1 0 0 0 | by_s => Deg 0 1 0 0 | by_t => Deg 0 0 1 0 | by_l => Deg 0 0 0 1 end.
Fixpoint targ (d : degree) (p : list nat) (s : shape) {struct s} : xval tag_alg :=
  match s with
  | SNum => @XNum tag_alg TBad
  | SArr l => @XArr tag_alg (TArr (map pcls l) (TW (0, d)) (Some p))
  | STup l => XTup ((fix go i l := match l with [] => [] | s :: l' => targ d (i :: p) s :: go (S i) l' end) 0 l)
  | SObj l => XObj ((fix go i (l : list (string * shape)) := match l with [] => [] | (a, s) :: l' => (a, targ d (i :: p) s) :: go (S i) l' end) 0 l)
  end.
Fixpoint targ_l (d : degree) (p : list nat) (i : nat) (l : list shape) : list (xval tag_alg) :=
  match l with [] => [] | s :: l' => targ d (i :: p) s :: targ_l d p (S i) l' end.
Fixpoint targ_o (d : degree) (p : list nat) (i : nat) (l : list (string * shape)) : list (string * xval tag_alg) :=
  match l with [] => [] | (a, s) :: l' => (a, targ d (i :: p) s) :: targ_o d p (S i) l' end.
Fixpoint targs (i : nat) (l : list (shape * factor)) : list (xval tag_alg) :=
  match l with [] => [] | (s, w) :: l' => targ (fdeg w) [i] s :: targs (S i) l' end.
Fixpoint taccs (k : nat) (l : list (list space)) : list (xval tag_alg) :=
  match l with [] => [] | sp :: l' => @XArr tag_alg (TArr (map pcls sp) (TA k None) None) :: taccs (S k) l' end.
Fixpoint arrs (l : list shape) : option (list (list space)) :=
  match l with [] => Some [] | SArr sp :: l' => option_map (cons sp) (arrs l') | _ => None end.
Definition tfac : xval tag_alg := @XNum tag_alg (TW (1, Deg 0 0 0 0)).

(** the accumulators after the call, and the other arguments untouched *)
Fixpoint acc_out (k : nat) (e : exps) (l : list (list space)) (o : list (xval tag_alg)) : option (list (xval tag_alg)) :=
  match l, o with
  | [], o => Some o
  | sp :: l', XArr t :: o' =>
      match ta_tag (t : tarr) with
      | TA j (Some x) => if psh_eqb (ta_sp (t : tarr)) (map pcls sp) && (Nat.eqb j k && deg_eqb x e) then acc_out (S k) e l' o' else None
      | _ => None
      end
  | _, _ => None
  end.
Fixpoint path_eqb (a b : list nat) : bool :=
  match a, b with [], [] => true | x :: a', y :: b' => Nat.eqb x y && path_eqb a' b' | _, _ => false end.
Fixpoint untouched (x y : xval tag_alg) {struct x} : bool :=
  match x, y with
  | XArr a, XArr b => match ta_org (a : tarr), ta_org (b : tarr) with Some p, Some q => path_eqb p q | _, _ => false end
  | XTup xs, XTup ys => (fix go xs ys := match xs, ys with [], [] => true | x :: xs', y :: ys' => untouched x y && go xs' ys' | _, _ => false end) xs ys
  | XObj xs, XObj ys => (fix go (xs ys : list (string * xval tag_alg)) := match xs, ys with [], [] => true
      | (a, x) :: xs', (b, y) :: ys' => String.eqb a b && untouched x y && go xs' ys' | _, _ => false end) xs ys
  | _, _ => false
  end.
Fixpoint untouched_all (xs ys : list (xval tag_alg)) : bool :=
  match xs, ys with [], [XNum _] => true | x :: xs', y :: ys' => untouched x y && untouched_all xs' ys' | _, _ => false end.
Definition row_good (e : nat) (r : string * list shape * list (shape * factor) * degree) : bool :=
  let '(f, accs, args, d) := r in
  match arrs accs with
  | None => false
  | Some sps =>
      match pycall tag_alg cc_prog f (taccs 0 sps ++ targs 0 args ++ [tfac])%list with
      | Ok (XTup [], o) =>
          match acc_out 0 (e, d) sps o with
          | Some o' => untouched_all (targs 0 args) o'
          | None => false
          end
      | _ => false
      end
  end.
Lemma rows_good : forallb (row_good 1) contributions = true.
Proof. vm_compute. reflexivity. Qed.

(** *** Pairs of arrays *)
Definition pair_einsum (K : cring) ins out (ts : list (tensor K * tensor K)) : option ((K * K) + (tensor K * tensor K)) :=
  match conc_einsum K ins out (map fst ts), conc_einsum K ins out (map snd ts) with
  | Some (inl a), Some (inl b) => Some (inl (a, b))
  | Some (inr a), Some (inr b) => Some (inr (a, b))
  | _, _ => None
  end.
Definition opair {A B} (a : option A) (b : option B) : option (A * B) :=
  match a, b with Some x, Some y => Some (x, y) | _, _ => None end.
Definition pair_alg (K : cring) : alg :=
  Alg (tensor K * tensor K) (K * K) (fun z k => (dyad z k, dyad z k)) (fun a b => (cadd (fst a) (fst b), cadd (snd a) (snd b)))
    (fun a b => (cmul (fst a) (fst b), cmul (snd a) (snd b))) (fun a => (copp (fst a), copp (snd a)))
    (fun a b => opair (tadd (fst a) (fst b)) (tadd (snd a) (snd b))) (fun a => (tneg (fst a), tneg (snd a)))
    (fun k a => (tscale (fst k) (fst a), tscale (snd k) (snd a)))
    (fun p a => opair (ttrans p (fst a)) (ttrans p (snd a))) (pair_einsum K).

Section Proj.
  Variable K : cring.
  Lemma sim_fst prog f args args' r out :
    Forall2 (Rx (pair_alg K) (conc_alg K) (fun a b => fst a = b) (fun a b => fst a = b)) args args' ->
    pycall (pair_alg K) prog f args = Ok (r, out) ->
    exists r' out', pycall (conc_alg K) prog f args' = Ok (r', out') /\
      Rx (pair_alg K) (conc_alg K) (fun a b => fst a = b) (fun a b => fst a = b) r r' /\
      Forall2 (Rx (pair_alg K) (conc_alg K) (fun a b => fst a = b) (fun a b => fst a = b)) out out'.
  Proof.
    apply pycall_sim; cbn -[tadd ttrans conc_einsum]; intros; subst; auto.
    - unfold opair in *. destruct (tadd (fst a) (fst b)) as [x|]; [|discriminate]. destruct (tadd (snd a) (snd b)); [|discriminate].
      injection H1 as <-. eauto.
    - unfold opair in *. destruct (ttrans p (fst a)) as [x|]; [|discriminate]. destruct (ttrans p (snd a)); [|discriminate].
      injection H0 as <-. eauto.
    - assert (E : map fst ts = ts') by (clear H0; induction H; cbn; congruence). rewrite <- E. unfold pair_einsum in H0.
      destruct (conc_einsum K ins out0 (map fst ts)) as [[x|x]|]; [| |discriminate];
        destruct (conc_einsum K ins out0 (map snd ts)) as [[y|y]|]; try discriminate; injection H0 as <-; eexists; (split; [reflexivity|]); reflexivity.
  Qed.
  Lemma sim_snd prog f args args' r out :
    Forall2 (Rx (pair_alg K) (conc_alg K) (fun a b => snd a = b) (fun a b => snd a = b)) args args' ->
    pycall (pair_alg K) prog f args = Ok (r, out) ->
    exists r' out', pycall (conc_alg K) prog f args' = Ok (r', out') /\
      Rx (pair_alg K) (conc_alg K) (fun a b => snd a = b) (fun a b => snd a = b) r r' /\
      Forall2 (Rx (pair_alg K) (conc_alg K) (fun a b => snd a = b) (fun a b => snd a = b)) out out'.
  Proof.
    apply pycall_sim; cbn -[tadd ttrans conc_einsum]; intros; subst; auto.
    - unfold opair in *. destruct (tadd (fst a) (fst b)) as [x|]; [|discriminate]. destruct (tadd (snd a) (snd b)); [|discriminate].
      injection H1 as <-. eauto.
    - unfold opair in *. destruct (ttrans p (fst a)) as [x|]; [|discriminate]. destruct (ttrans p (snd a)); [|discriminate].
      injection H0 as <-. eauto.
    - assert (E : map snd ts = ts') by (clear H0; induction H; cbn; congruence). rewrite <- E. unfold pair_einsum in H0.
      destruct (conc_einsum K ins out0 (map fst ts)) as [[x|x]|]; [| |discriminate];
        destruct (conc_einsum K ins out0 (map snd ts)) as [[y|y]|]; try discriminate; injection H0 as <-; eexists; (split; [reflexivity|]); reflexivity.
  Qed.
End Proj.

Fixpoint get {K : cring} (root : pyval K) (p : list nat) : option (pyval K) :=
  match p with
  | [] => Some root
  | i :: p' =>
      match get root p' with
      | Some (XTup vs) => nth_error vs i
      | Some (XObj fs) => option_map snd (nth_error fs i)
      | _ => None
      end
  end.

Section Run.
  Variable K : cring.
  Local Open Scope K_scope.
  Add Ring Kr_acc : (c_th K).
  Variables h s t l fac : K.
  Definition W (e : exps) : K := pow fac (fst e) * weight h s t l (snd e).
  Variable Ts : nat -> tensor K.
  Variables r1 r2 : pyval K.
  Variable dim : positive -> nat.

  Lemma pow_add (x : K) a b : pow x (a + b) = pow x a * pow x b.
  Proof. induction a as [|a IH]; cbn; [ring|]. rewrite IH. ring. Qed.
  Lemma W_add a b : W (deg_add a b) = W a * W b.
  Proof. unfold W, weight, deg_add. cbn [fst snd deg_h deg_s deg_t deg_l]. rewrite !pow_add. ring. Qed.
  Lemma W_0 : W d0 = 1.
  Proof. unfold W, weight, d0. cbn. ring. Qed.
  Lemma deg_eqb_eq a b : deg_eqb a b = true -> a = b.
  Proof.
    destruct a as [a [a1 a2 a3 a4]], b as [b [b1 b2 b3 b4]]. unfold deg_eqb. cbn [fst snd deg_h deg_s deg_t deg_l]. intros H.
    repeat match goal with H : _ && _ = true |- _ => apply andb_prop in H as [? ?] end.
    repeat match goal with H : Nat.eqb _ _ = true |- _ => apply Nat.eqb_eq in H end. congruence.
  Qed.

  Definition trel (g : tag) (idx : list nat) (x y : K) : Prop :=
    match g with
    | TW e => x = W e * y
    | TA k None => x = dat (Ts k) idx /\ y = 0
    | TA k (Some e) => x = dat (Ts k) idx + W e * y
    | TBad => True
    end.
  Definition Rn (g : tag) (p : K * K) : Prop := match g with TW e => fst p = W e * snd p | _ => True end.
  Definition Ra (a : tarr) (p : tensor K * tensor K) : Prop :=
    shp (fst p) = map dim (ta_sp a) /\ shp (snd p) = map dim (ta_sp a) /\
    (forall idx, inrange (map dim (ta_sp a)) idx -> trel (ta_tag a) idx (dat (fst p) idx) (dat (snd p) idx)) /\
    match ta_org a with Some q => get r1 q = Some (arr (fst p)) /\ get r2 q = Some (arr (snd p)) | None => True end.

  Lemma trel_add g g' idx x y x' y' : trel g idx x y -> trel g' idx x' y' -> trel (tag_add g g') idx (x + x') (y + y').
  Proof.
    destruct g as [e|k [e|]|], g' as [e'|k' [e'|]|]; cbn; auto; intros A B.
    - destruct (deg_eqb e e') eqn:E; cbn; auto. apply deg_eqb_eq in E. subst. ring.
    - destruct (deg_eqb e e') eqn:E; cbn; auto. apply deg_eqb_eq in E. subst. ring.
    - destruct A as [-> ->]. rewrite B. ring.
  Qed.
  Lemma trel_neg g idx x y : trel g idx x y -> trel (tag_pure g) idx (- x) (- y).
  Proof. destruct g as [e|k o|]; cbn; auto. intros ->. ring. Qed.
  Lemma trel_mul g g' idx x y p : Rn g p -> trel g' idx x y -> trel (tag_mul g g') idx (fst p * x) (snd p * y).
  Proof. destruct g as [e|k o|], g' as [e'|k' o'|]; cbn; auto. intros -> ->. rewrite W_add. ring. Qed.

  Definition Rp := Rx tag_alg (pair_alg K) Rn Ra.

  Lemma ein_rel (ts : list tarr) ts' e : Forall2 Ra ts ts' -> fold_right tag_mul (TW d0) (map ta_tag ts) = TW e ->
    forall idxs, Forall2 (fun idx a => inrange (map dim (ta_sp a)) idx) idxs ts ->
    prodK (map (fun q => dat (fst (fst q)) (snd q)) (combine ts' idxs)) = W e * prodK (map (fun q => dat (snd (fst q)) (snd q)) (combine ts' idxs)).
  Proof.
    intros H. revert e. induction H as [|a p ts ts' Ha H IH]; intros e E idxs HI.
    - cbn in E. injection E as <-. cbn. rewrite W_0. ring.
    - inversion HI as [|idx ? idxs' ? H1 H2]; subst. cbn [map fold_right] in E.
      destruct (ta_tag a) as [x| |] eqn:E1; cbn in E; try discriminate.
      destruct (fold_right tag_mul (TW d0) (map ta_tag ts)) as [y| |] eqn:E2; cbn in E; try discriminate. injection E as <-.
      cbn [combine map prodK]. cbn [fst snd].
      rewrite (IH y eq_refl idxs' H2). destruct Ha as (_ & _ & Hr & _). specialize (Hr idx H1). rewrite E1 in Hr. cbn in Hr. rewrite Hr, W_add. ring.
  Qed.

  Lemma entries {B} (g : B -> tensor K) (ts : list B) (p : list (nat * list nat)) : map fst p = seq 0 (List.length ts) ->
    map (entry K (map g ts)) p = map (fun q => dat (g (fst q)) (snd q)) (combine ts (map snd p)).
  Proof.
    assert (G : forall ts n (p : list (nat * list nat)), map fst p = seq n (List.length ts) ->
      map (fun q => dat (nth (fst q - n) (map g ts) (tzeros K [])) (snd q)) p = map (fun q => dat (g (fst q)) (snd q)) (combine ts (map snd p))).
    { clear. induction ts as [|a ts IH]; intros n [|[j idx] p] E; try discriminate; [reflexivity|]. cbn in E. injection E as -> E.
      cbn [map combine fst snd]. rewrite Nat.sub_diag. cbn [nth]. f_equal. rewrite <- (IH (S n) p E).
      apply map_ext_in. intros [j idx'] Hj. cbn [fst snd].
      assert (Hj' : In j (seq (S n) (List.length ts))) by (rewrite <- E; apply (in_map fst) in Hj; exact Hj). apply in_seq in Hj'.
      replace (j - n)%nat with (S (j - S n)) by lia. reflexivity. }
    intros E. rewrite <- (G ts 0%nat p E). apply map_ext. intros [j idx]. unfold entry. cbn [fst snd]. rewrite Nat.sub_0_r. reflexivity.
  Qed.

  Lemma sim_tag prog f args args' r out : Forall2 Rp args args' ->
    pycall tag_alg prog f args = Ok (r, out) ->
    exists r' out', pycall (pair_alg K) prog f args' = Ok (r', out') /\ Rp r r' /\ Forall2 Rp out out'.
  Proof.
    apply pycall_sim.
    - intros z k. cbn. rewrite W_0. ring.
    - intros a a' b b' A B. cbn -[tag_add tag_pure]. destruct a as [x| |], b as [y| |]; cbn in *; auto.
      destruct (deg_eqb x y) eqn:E; cbn; auto. apply deg_eqb_eq in E. subst. rewrite A, B. ring.
    - intros a a' b b' A B. cbn. destruct a as [x| |], b as [y| |]; cbn in *; auto. rewrite A, B, W_add. ring.
    - intros a a' A. destruct a as [x| |]; cbn in *; auto. rewrite A. ring.
    - intros a a' b b' c (A1 & A2 & A3 & _) (B1 & B2 & B3 & _) H. cbn in H.
      destruct (psh_eqb (ta_sp a) (ta_sp b)) eqn:E; [|discriminate]. injection H as <-. apply psh_eqb_eq in E.
      eexists. split.
      { cbn. unfold tadd. rewrite A1, A2, B1, B2, E, shape_eqb_refl. reflexivity. }
      unfold Ra. cbn. rewrite <- E. split; [reflexivity|]. split; [reflexivity|]. split; [|exact Logic.I].
      intros idx Hi. apply trel_add; [apply A3, Hi|apply B3; rewrite <- E; exact Hi].
    - intros a a' (A1 & A2 & A3 & _). unfold Ra. cbn. split; [exact A1|]. split; [exact A2|]. split; [|exact Logic.I].
      intros idx Hi. apply trel_neg. auto.
    - intros k k' a a' Hk (A1 & A2 & A3 & _). unfold Ra. cbn. split; [exact A1|]. split; [exact A2|]. split; [|exact Logic.I].
      intros idx Hi. apply trel_mul; auto.
    - intros p a a' c (A1 & A2 & A3 & _) H. cbn in H.
      destruct (is_perm p (List.length (ta_sp a))) eqn:E; [|discriminate]. injection H as <-.
      eexists. split. { cbn. unfold ttrans. rewrite A1, A2, map_length, E. reflexivity. }
      assert (HS : map (fun k => nth k (map dim (ta_sp a)) 0%nat) p = map dim (map (fun k => nth k (ta_sp a) 1%positive) p)).
      { rewrite map_map. apply map_ext_in. intros k Hk. apply nth_map_lt. eapply perm_lt; eauto. }
      unfold Ra. cbn. split; [exact HS|]. split; [exact HS|]. split; [|exact Logic.I].
      intros idx Hi. rewrite <- HS in Hi.
      assert (HI : inrange (map dim (ta_sp a)) (untrans p (List.length (ta_sp a)) idx)).
      { pose proof (inrange_untrans p (map dim (ta_sp a)) idx) as U. rewrite map_length in U. auto. }
      specialize (A3 _ HI). destruct (ta_tag a) as [e|k o|]; cbn in *; auto.
    - intros ins o ts ts' r0 H E. cbn -[t_einsum pair_einsum] in E |- *. unfold t_einsum in E.
      destruct (bind_all Pos.eqb ins (map ta_sp ts) []) as [env|] eqn:Eb; [|discriminate].
      assert (X1 : map shp (map fst ts') = map (map dim) (map ta_sp ts)) by (clear E Eb; induction H as [|a b ts ts' (Hs & _) H IH]; [reflexivity|cbn [map]; f_equal; [exact Hs|exact IH]]).
      assert (X2 : map shp (map snd ts') = map (map dim) (map ta_sp ts)) by (clear E Eb X1; induction H as [|a b ts ts' (_ & Hs & _) H IH]; [reflexivity|cbn [map]; f_equal; [exact Hs|exact IH]]).
      assert (Hfd : forall x y, Pos.eqb x y = true -> Nat.eqb (dim x) (dim y) = true).
      { intros x y Hxy. apply Pos.eqb_eq in Hxy. subst. apply Nat.eqb_refl. }
      pose proof (bind_all_map dim Pos.eqb Nat.eqb Hfd _ _ _ _ Eb) as Eb'. cbn [map] in Eb'.
      destruct (dims_of o env) as [od|] eqn:Eo; [|discriminate].
      destruct (dims_of (summed_letters o env) env) as [sd|] eqn:Es; [|discriminate].
      destruct (nodup_ascii o) eqn:En; [|discriminate]. cbv zeta in E.
      assert (ET : exists fi, ein_terms ins o (map (map dim) (map ta_sp ts)) = Some (map dim od, fi)).
      { unfold ein_terms. rewrite Eb', summed_map, !dims_of_map, Eo, Es, En. cbn. eauto. }
      destruct ET as (fi & ET).
      pose proof (einsum_terms K ins o (map fst ts')) as T1. rewrite X1, ET in T1.
      destruct (einsum ins o (map fst ts')) as [t1|] eqn:E1; [|discriminate]. destruct T1 as (f1 & T1 & D1). injection T1 as S1 <-.
      pose proof (einsum_terms K ins o (map snd ts')) as T2. rewrite X2, ET in T2.
      destruct (einsum ins o (map snd ts')) as [t2|] eqn:E2; [|discriminate]. destruct T2 as (f2 & T2 & D2). injection T2 as S2 <-.
      set (g := fold_right tag_mul (TW d0) (map ta_tag ts)) in *.
      assert (HL : List.length ts = List.length ts') by (clear -H; induction H; cbn; auto).
      assert (KEY : forall idx, inrange (map dim od) idx -> trel g idx (dat t1 idx) (dat t2 idx)).
      { intros idx Hi. destruct g as [e|k [x|]|] eqn:Eg; cbn; auto.
        - rewrite D1, D2. pose proof (ein_terms_spec _ _ _ _ _ ET idx Hi) as SP. unfold psum.
          assert (Q : forall p, In p (fi idx) -> prodK (map (entry K (map fst ts')) p) = W e * prodK (map (entry K (map snd ts')) p)).
          { intros p Hp. destruct (SP p Hp) as (L1 & L2 & L3). rewrite !map_length in L2.
            assert (L2' : map fst p = seq 0 (List.length ts')) by (rewrite L2; f_equal; exact HL).
            rewrite !(entries _ ts' p L2'). apply (ein_rel ts ts' e H Eg). clear -L2 L3.
            assert (G : forall ts n (p : list (nat * list nat)), map fst p = seq n (List.length ts) ->
              (forall q, In q p -> inrange (nth (fst q - n) (map (map dim) (map ta_sp ts)) []) (snd q)) ->
              Forall2 (fun idx a => inrange (map dim (ta_sp a)) idx) (map snd p) ts).
            { clear. induction ts as [|a ts IH]; intros n [|[j idx] p] E H; try discriminate; [constructor|]. cbn in E. injection E as -> E.
              cbn [map]. constructor.
              - specialize (H (n, idx) (or_introl eq_refl)). cbn [fst snd map] in H. rewrite Nat.sub_diag in H. exact H.
              - apply (IH (S n)); [exact E|]. intros q Hq.
                assert (Hj' : In (fst q) (seq (S n) (List.length ts))) by (rewrite <- E; apply in_map; exact Hq). apply in_seq in Hj'.
                specialize (H q (or_intror Hq)). replace (fst q - n)%nat with (S (fst q - S n)) in H by lia. exact H. }
            apply (G ts 0%nat p L2). intros q Hq. rewrite Nat.sub_0_r. apply (proj2 (L3 q Hq)). }
          clear -Q. induction (fi idx) as [|p ps IH]; cbn; [ring|]. rewrite (Q p (or_introl eq_refl)), IH; [ring|]. intros; apply Q; right; auto.
        - exfalso. unfold g in Eg. clear -Eg. destruct (map ta_tag ts) as [|a l0]; cbn in Eg; [discriminate|].
          destruct a; cbn in Eg; try discriminate. destruct (fold_right tag_mul (TW d0) l0); discriminate.
        - exfalso. unfold g in Eg. clear -Eg. destruct (map ta_tag ts) as [|a l0]; cbn in Eg; [discriminate|].
          destruct a; cbn in Eg; try discriminate. destruct (fold_right tag_mul (TW d0) l0); discriminate. }
      unfold pair_einsum, conc_einsum. rewrite E1, E2.
      destruct o as [|c o]; injection E as <-; eexists; (split; [reflexivity|]); cbn.
      + assert (Z : map dim od = []) by (cbn in Eo; injection Eo as <-; reflexivity).
        specialize (KEY [] ltac:(rewrite Z; constructor)). unfold Rn. destruct g as [e| |]; cbn in *; auto.
      + unfold Ra. cbn. split; [congruence|]. split; [congruence|]. split; [exact KEY|exact Logic.I].
  Qed.

  (** *** Arguments and results *)
  Fixpoint pv (c : K) (v : pyval K) : xval (pair_alg K) :=
    match v with
    | XNum x => @XNum (pair_alg K) (c * x, x)
    | XArr T => @XArr (pair_alg K) (mkT (shp T) (fun i => c * dat T i), T)
    | XTup vs => XTup (map (pv c) vs)
    | XObj fs => XObj (map (fun p => (fst p, pv c (snd p))) fs)
    end.
  Lemma targ_tup d p ss : targ d p (STup ss) = XTup (targ_l d p 0 ss).
  Proof.
    cbn. f_equal. generalize 0%nat. induction ss as [|x ss IH]; intros i; cbn; [reflexivity|]. f_equal. apply IH.
  Qed.
  Lemma targ_obj d p ss : targ d p (SObj ss) = XObj (targ_o d p 0 ss).
  Proof.
    cbn. f_equal. generalize 0%nat. induction ss as [|[a x] ss IH]; intros i; cbn; [reflexivity|]. f_equal. apply IH.
  Qed.

  Variable n : space -> nat.
  Hypothesis Hdim : forall sp, dim (pcls sp) = n sp.

  Lemma targ_ok d c : c = W (0%nat, d) -> forall sh v p, fits n v sh -> get r1 p = Some (scaled c v) -> get r2 p = Some v ->
    Rp (targ d p sh) (pv c v).
  Proof.
    intros Hc. induction sh as [|sp|ss H|ss H] using shape_ind'; intros v p F G1 G2;
      inversion F as [x|T l' E|vs l' E|vs l' E]; subst v; subst.
    - constructor. exact Logic.I.
    - constructor. cbn in *. unfold Ra. cbn. rewrite map_map.
      assert (E' : shp T = map (fun x => dim (pcls x)) sp) by (rewrite E; apply map_ext; intros; symmetry; apply Hdim).
      split; [exact E'|]. split; [exact E'|]. split; [reflexivity|]. auto.
    - rewrite targ_tup. cbn [pv]. constructor. clear F.
      assert (B : forall i v, nth_error vs i = Some v -> get r1 (i :: p) = Some (scaled (W (0%nat, d)) v) /\ get r2 (i :: p) = Some v).
      { intros i v Hi. cbn. rewrite G1, G2. cbn [scaled]. rewrite nth_error_map. split; [rewrite Hi; reflexivity|first [exact Hi|exact (f_equal (option_map snd) Hi)]]. }
      clear G1 G2. cut (forall i, (forall j v, nth_error vs j = Some v -> get r1 ((i + j)%nat :: p) = Some (scaled (W (0%nat, d)) v) /\ get r2 ((i + j)%nat :: p) = Some v) ->
        Forall2 Rp (targ_l d p i ss) (map (pv (W (0%nat, d))) vs)).
      { intros Q. apply Q. exact B. }
      clear B. revert vs E. induction H as [|x ss Hx H IH]; intros vs E i B; inversion E; subst; cbn; constructor.
      + destruct (B 0%nat _ eq_refl) as [B1 B2]. rewrite Nat.add_0_r in B1, B2. apply Hx; auto.
      + apply IH; auto. intros j v Hj. replace (S i + j)%nat with (i + S j)%nat by lia. apply B. exact Hj.
    - rewrite targ_obj. cbn [pv]. constructor. clear F.
      assert (B : forall i v, nth_error vs i = Some v -> get r1 (i :: p) = Some (scaled (W (0%nat, d)) (snd v)) /\ get r2 (i :: p) = Some (snd v)).
      { intros i v Hi. cbn. rewrite G1, G2. cbn [scaled]. rewrite nth_error_map. split; [rewrite Hi; reflexivity|first [exact Hi|exact (f_equal (option_map snd) Hi)]]. }
      clear G1 G2. cut (forall i, (forall j v, nth_error vs j = Some v -> get r1 ((i + j)%nat :: p) = Some (scaled (W (0%nat, d)) (snd v)) /\ get r2 ((i + j)%nat :: p) = Some (snd v)) ->
        Forall2 (fun p q => fst p = fst q /\ Rp (snd p) (snd q)) (targ_o d p i ss) (map (fun p => (fst p, pv (W (0%nat, d)) (snd p))) vs)).
      { intros Q. apply Q. exact B. }
      clear B. revert vs E. induction H as [|[a x] ss Hx H IH]; intros vs E i B; inversion E as [|v y ? ? [E1 E2] E3]; subst; cbn; constructor.
      + cbn in *. destruct (B 0%nat _ eq_refl) as [B1 B2]. rewrite Nat.add_0_r in B1, B2. split; auto.
      + apply IH; auto. intros j w Hj. replace (S i + j)%nat with (i + S j)%nat by lia. apply B. exact Hj.
  Qed.

  Lemma path_eqb_eq a : forall b, path_eqb a b = true -> a = b.
  Proof.
    induction a as [|x a IH]; intros [|y b] H; try discriminate; [reflexivity|]. cbn in H. apply andb_prop in H as [H1 H2].
    apply Nat.eqb_eq in H1. f_equal; auto.
  Qed.

  Fixpoint xval_ind' {A} (P : xval A -> Prop) (H1 : forall x, P (XNum x)) (H2 : forall x, P (XArr x)) (H3 : forall l, Forall P l -> P (XTup l))
    (H4 : forall l, Forall (fun p => P (snd p)) l -> P (XObj l)) (v : xval A) : P v :=
    match v with
    | XNum x => H1 x | XArr x => H2 x
    | XTup l => H3 l ((fix go l : Forall P l := match l with [] => Forall_nil _ | x :: l' => Forall_cons _ (xval_ind' P H1 H2 H3 H4 x) (go l') end) l)
    | XObj l => H4 l ((fix go l : Forall (fun p => P (snd p)) l := match l with [] => Forall_nil _ | x :: l' => Forall_cons _ (xval_ind' P H1 H2 H3 H4 (snd x)) (go l') end) l)
    end.

  Lemma untouched_ok : forall x y w w', untouched x y = true -> Rp x w -> Rp y w' -> w = w'.
  Proof.
    induction x as [x|a|xs H|xs H] using xval_ind'; intros y w w' U A B.
    - discriminate.
    - destruct y as [|b| |]; try discriminate. inversion A as [|? pa A1| |]; subst. inversion B as [|? pb B1| |]; subst. cbn in U.
      destruct A1 as (_ & _ & _ & A1), B1 as (_ & _ & _ & B1). unfold Ra in *.
      destruct (ta_org a) as [q|]; [|discriminate]. destruct (ta_org b) as [q'|]; [|discriminate]. apply path_eqb_eq in U. subst q'.
      destruct A1 as [A1 A2], B1 as [B1 B2]. rewrite B1 in A1. rewrite B2 in A2. injection A1 as A1. injection A2 as A2.
      f_equal. destruct pa as [u v], pb as [u' v']. cbn in *. congruence.
    - destruct y as [| |ys|]; try discriminate. inversion A as [| |? ws A1|]; subst. inversion B as [| |? ws' B1|]; subst. f_equal. clear A B.
      cbn in U. revert ys ws ws' U A1 B1. induction H as [|x xs Hx H IH]; intros [|y ys] ws ws' U A1 B1; try discriminate; inversion A1; inversion B1; subst; auto.
      apply andb_prop in U as [U1 U2]. f_equal; eauto.
    - destruct y as [| | |ys]; try discriminate. inversion A as [| | |? ws A1]; subst. inversion B as [| | |? ws' B1]; subst. f_equal. clear A B.
      cbn in U. revert ys ws ws' U A1 B1. induction H as [|[a x] xs Hx H IH]; intros [|[b y] ys] ws ws' U A1 B1; try discriminate; auto.
      + inversion A1; inversion B1; subst; auto.
      + apply andb_prop in U as [U1 U2]. apply andb_prop in U1 as [U0 U1]. apply String.eqb_eq in U0. subst b.
        inversion A1 as [|? [wa wv] ? ? [E1 E2] E3]; inversion B1 as [|? [wa' wv'] ? ? [E1' E2'] E3']; subst. cbn in *. subst. f_equal; eauto. f_equal. eauto.
  Qed.
End Run.
