(** Real families: the functions differentiate, with the derivative that the
    run over the dual numbers gives; derivative of the energy. *)
From Coq Require Import List Bool Arith ZArith Lia Ring String Reals Lra FunctionalExtensionality Classical_Prop.
From Verif Require Import Scalar Tensor PySyntax PySem CCProg CCSpec SymSound SOCtx CCDeriv CCShapes CCEquiv CovSpec Public Cov CovThm
  RoundSpec RespSpec Resp.
Import ListNotations.

Section Diff.
  Variable t0 : R.
  Local Open Scope R_scope.

  (** functions with a derivative at t0 *)
  Definition diff_fun : Type := { p : (R -> R) * R | derivable_pt_lim (fst p) t0 (snd p) }.
  Definition mk_diff (f : R -> R) (d : R) (H : derivable_pt_lim f t0 d) : diff_fun := exist (fun p => derivable_pt_lim (fst p) t0 (snd p)) (f, d) H.
  Definition df (x : diff_fun) : R -> R := fst (proj1_sig x).
  Definition dd (x : diff_fun) : R := snd (proj1_sig x).
  Definition d_ok (x : diff_fun) : derivable_pt_lim (df x) t0 (dd x) := proj2_sig x.
  Lemma diff_eq (x y : diff_fun) : (forall t, df x t = df y t) -> dd x = dd y -> x = y.
  Proof.
    destruct x as [[f d] H], y as [[g e] G]. unfold df, dd. cbn. intros E <-.
    assert (f = g) as <- by (apply functional_extensionality; exact E).
    f_equal. apply proof_irrelevance.
  Qed.
  Definition d_const (c : R) : diff_fun := mk_diff (fun _ => c) 0 (derivable_pt_lim_const c t0).
  Definition d_add (x y : diff_fun) : diff_fun :=
    mk_diff (fun t => df x t + df y t) (dd x + dd y) (derivable_pt_lim_plus _ _ t0 _ _ (d_ok x) (d_ok y)).
  Definition d_sub (x y : diff_fun) : diff_fun :=
    mk_diff (fun t => df x t - df y t) (dd x - dd y) (derivable_pt_lim_minus _ _ t0 _ _ (d_ok x) (d_ok y)).
  Definition d_opp (x : diff_fun) : diff_fun :=
    mk_diff (fun t => - df x t) (- dd x) (derivable_pt_lim_opp _ t0 _ (d_ok x)).
  Definition d_mul (x y : diff_fun) : diff_fun :=
    mk_diff (fun t => df x t * df y t) (dd x * df y t0 + df x t0 * dd y) (derivable_pt_lim_mult _ _ t0 _ _ (d_ok x) (d_ok y)).

  Definition DiffK : cring.
  Proof.
    refine (CRing diff_fun (d_const 0) (d_const 1) d_add d_mul d_sub d_opp (d_const (/ 2)) _ _).
    - constructor; intros; apply diff_eq; try intros t; unfold d_add, d_sub, d_opp, d_mul, d_const, df, dd; cbn; ring.
    - apply diff_eq; try intros t; unfold d_add, d_const, df, dd; cbn; field.
  Defined.

  Definition to_fun (x : DiffK) : FunK := df x.
  Definition to_dual (x : DiffK) : DualK RK := (df x t0, dd x).
  Lemma to_fun_map : ring_map to_fun.
  Proof. split; [reflexivity|split]; intros x y; reflexivity. Qed.
  Lemma to_dual_map : ring_map to_dual.
  Proof.
    split; [reflexivity|split]; intros x y; [reflexivity|].
    apply injective_projections; [reflexivity|]. cbn. unfold dd at 1, df at 2. cbn. apply Rplus_comm.
  Qed.
  Lemma at_map t : ring_map (at_t t).
  Proof. split; [reflexivity|split]; intros x y; reflexivity. Qed.

  Lemma inrange_dec (sh idx : list nat) : {inrange sh idx} + {~ inrange sh idx}.
  Proof.
    revert sh. induction idx as [|i idx IH]; intros [|m sh].
    - left. constructor.
    - right. intros H. inversion H.
    - right. intros H. inversion H.
    - destruct (Compare_dec.lt_dec i m) as [L|L]; [destruct (IH sh) as [D|D]|].
      + left. constructor; assumption.
      + right. intros H. inversion H. contradiction.
      + right. intros H. inversion H. contradiction.
  Defined.

  Lemma array_lift n l (x : tensor FunK) (d : tensor (DualK RK)) : tangent_array n t0 l x d ->
    exists u : tensor DiffK, mapped_array n to_fun l u x /\ mapped_array n to_dual l u d.
  Proof.
    intros (S1 & S2 & H).
    exists (@mkT DiffK (map n l) (fun idx => match inrange_dec (map n l) idx with
      | left Hi => mk_diff (dat x idx) (snd (dat d idx)) (proj2 (H idx Hi))
      | right _ => d_const 0 end)).
    split; (split; [reflexivity|split; [assumption|]]); intros idx Hi; cbn [dat]; destruct (inrange_dec (map n l) idx) as [G|G]; try contradiction.
    - reflexivity.
    - unfold to_dual, df, dd. cbn. destruct (H idx G) as (E & _). rewrite <- E. apply surjective_pairing.
  Qed.

  Lemma value_lift n s : forall x d, tangent_value n t0 s x d ->
    exists u : pyval DiffK, mapped n to_fun s u x /\ mapped n to_dual s u d.
  Proof.
    unfold tangent_value, mapped.
    induction s as [|l|l IH|l IH] using shape_ind'; intros [p|p|ps|ps] [q|q|qs|qs] H; cbn [related] in *; try contradiction.
    - destruct H as (E & D). exists (@XNum (conc_alg DiffK) (mk_diff p (snd q) D)). cbn [related]. split; [reflexivity|].
      unfold to_dual, df, dd. cbn. rewrite <- E. apply surjective_pairing.
    - destruct (array_lift n l p q H) as (u & A & B). exists (@XArr (conc_alg DiffK) u). split; assumption.
    - enough (exists us, related (fun x y => y = to_fun x) (mapped_array n to_fun) (STup l) (@XTup (conc_alg DiffK) us) (@XTup (conc_alg FunK) ps) /\
                         related (fun x y => y = to_dual x) (mapped_array n to_dual) (STup l) (@XTup (conc_alg DiffK) us) (@XTup (conc_alg (DualK RK)) qs))
        as (us & A & B) by (exists (@XTup (conc_alg DiffK) us); split; assumption).
      revert ps qs H. induction IH as [|s l Hs Hl IHl]; intros [|p ps] [|q qs] H; try contradiction.
      + exists []. split; exact I.
      + destruct H as (H1 & H2). destruct (Hs _ _ H1) as (u & A & B). destruct (IHl _ _ H2) as (us & A' & B').
        exists (u :: us). split; (split; assumption).
    - enough (exists us, related (fun x y => y = to_fun x) (mapped_array n to_fun) (SObj l) (@XObj (conc_alg DiffK) us) (@XObj (conc_alg FunK) ps) /\
                         related (fun x y => y = to_dual x) (mapped_array n to_dual) (SObj l) (@XObj (conc_alg DiffK) us) (@XObj (conc_alg (DualK RK)) qs))
        as (us & A & B) by (exists (@XObj (conc_alg DiffK) us); split; assumption).
      revert ps qs H. induction IH as [|[y s] l Hs Hl IHl]; intros [|[yp p] ps] [|[yq q] qs] H; try contradiction.
      + exists []. split; exact I.
      + destruct H as ((E1 & E2 & H1) & H2). cbn [snd] in Hs. destruct (Hs _ _ H1) as (u & A & B). destruct (IHl _ _ H2) as (us & A' & B').
        exists ((y, u) :: us). split; (split; [split; [reflexivity|split; assumption]|assumption]).
  Qed.
  Lemma args_lift n a : forall xs ds, related_args (tangent_value n t0) a xs ds ->
    exists us : list (pyval DiffK), related_args (mapped n to_fun) a us xs /\ related_args (mapped n to_dual) a us ds.
  Proof.
    induction a as [|s a IH]; intros [|x xs] [|d ds] H; try contradiction.
    - exists []. split; exact I.
    - destruct H as (H1 & H2). destruct (value_lift n s _ _ H1) as (u & A & B). destruct (IH _ _ H2) as (us & A' & B').
      exists (u :: us). split; split; assumption.
  Qed.

  Lemma value_tangent n s : forall u x d, mapped n to_fun s u x -> mapped n to_dual s u d -> tangent_value n t0 s x d.
  Proof.
    unfold tangent_value, mapped.
    induction s as [|l|l IH|l IH] using shape_ind'; intros [u|u|us|us] [p|p|ps|ps] [q|q|qs|qs] A B; cbn [related] in *; try contradiction.
    - subst. split; [reflexivity|exact (d_ok u)].
    - destruct A as (S0 & S1 & A), B as (_ & S2 & B). split; [exact S1|]. split; [exact S2|]. intros idx Hi.
      rewrite (A _ Hi), (B _ Hi). split; [reflexivity|exact (d_ok (dat u idx))].
    - revert us ps qs A B. induction IH as [|s l Hs Hl IHl]; intros [|u us] [|p ps] [|q qs] A B; try contradiction; [exact I|].
      destruct A as (A & A'), B as (B & B'). split; [exact (Hs _ _ _ A B)|exact (IHl _ _ _ A' B')].
    - revert us ps qs A B. induction IH as [|[y s] l Hs Hl IHl]; intros [|[? u] us] [|[? p] ps] [|[? q] qs] A B; try contradiction; [exact I|].
      destruct A as ((E1 & E2 & A) & A'), B as ((E3 & E4 & B) & B'). cbn [snd] in Hs.
      split; [split; [exact E2|split; [exact E4|exact (Hs _ _ _ A B)]]|exact (IHl _ _ _ A' B')].
  Qed.

  Theorem differentiate n f a r (xs : list (pyval FunK)) (ds : list (pyval (DualK RK))) :
    In (f, a, r) public_functions -> related_args (tangent_value n t0) a xs ds ->
    exists x d, returns (K := DualK RK) f ds d /\ tangent_value n t0 r x d /\
      forall t vs, related_args (mapped n (at_t t)) a xs vs ->
        exists v, returns (K := RK) f vs v /\ mapped n (at_t t) r x v.
  Proof.
    intros Hf H. destruct (args_lift n a xs ds H) as (us & A & B).
    destruct (map_thm _ _ to_fun n f a r us xs to_fun_map Hf A) as (u & x & R1 & R2 & M1).
    destruct (map_thm _ _ to_dual n f a r us ds to_dual_map Hf B) as (u' & d & R1' & R3 & M2).
    rewrite <- (returns_fun _ _ _ _ _ R1 R1') in M2.
    exists x, d. split; [exact R3|]. split; [exact (value_tangent n r u x d M1 M2)|].
    intros t vs Hv. destruct (map_thm _ _ (at_t t) n f a r xs vs (at_map t) Hf Hv) as (x' & v & R4 & R5 & M3).
    rewrite <- (returns_fun _ _ _ _ _ R2 R4) in M3. exists v. split; assumption.
  Qed.
End Diff.

Section Energy.
  Variables no nv : nat.
  Variable t0 : R.
  Local Open Scope R_scope.
  Notation n := (n2 no nv).

  Definition fam (sh : list nat) (x : R -> tensor RK) : tensor FunK := @mkT FunK sh (fun idx t => dat (x t) idx).
  Lemma fam_tangent l (x : R -> tensor RK) (d : tensor RK) :
    (forall t, shp (x t) = map n l) -> shp d = map n l -> array_derivative t0 x d ->
    tangent_array n t0 l (fam (map n l) x) (perturbed (x t0) d).
  Proof.
    intros S1 S2 H. split; [reflexivity|]. split; [exact (S1 t0)|]. intros idx Hi. split; [reflexivity|].
    apply H. rewrite S2. exact Hi.
  Qed.
  Lemma fam_at l (x : R -> tensor RK) t : (forall t, shp (x t) = map n l) -> mapped_array n (at_t t) l (fam (map n l) x) (x t).
  Proof. intros S. split; [reflexivity|]. split; [exact (S t)|]. intros idx Hi. reflexivity. Qed.

  Lemma flat_zero (x : R -> R) l delta : derivable_pt_lim x t0 l -> 0 < delta -> (forall t, Rabs (t - t0) < delta -> x t = 0) -> l = 0.
  Proof.
    intros D Hd Z. destruct (Req_dec l 0) as [E|E]; [exact E|exfalso].
    destruct (D (Rabs l) (Rabs_pos_lt l E)) as [[d Hp] Hl]. cbn in Hl.
    set (h := Rmin d delta / 2).
    assert (Hm : 0 < Rmin d delta) by (apply Rmin_pos; assumption).
    assert (Hh : 0 < h) by (unfold h; lra).
    assert (M1 : Rmin d delta <= d) by apply Rmin_l. assert (M2 : Rmin d delta <= delta) by apply Rmin_r.
    assert (Ah : Rabs h = h) by (apply Rabs_pos_eq; lra).
    specialize (Hl h ltac:(lra)). rewrite Ah in Hl. specialize (Hl ltac:(unfold h in *; lra)).
    rewrite (Z (t0 + h)) in Hl by (replace (t0 + h - t0) with h by ring; rewrite Ah; unfold h in *; lra).
    rewrite (Z t0) in Hl by (replace (t0 - t0) with 0 by ring; rewrite Rabs_R0; exact Hd).
    replace ((0 - 0) / h - l) with (- l) in Hl by (field; lra). rewrite Rabs_Ropp in Hl. lra.
  Qed.
  Lemma at_centre delta : 0 < delta -> Rabs (t0 - t0) < delta.
  Proof. intros H. replace (t0 - t0) with 0 by ring. rewrite Rabs_R0. exact H. Qed.

  Variables (F : R -> one_e RK) (I : R -> two_e RK) (T1 T2 : R -> tensor RK).
  Variables (dF : one_e RK) (dI : two_e RK) (dT1 dT2 : tensor RK).
  Hypotheses (HF : forall t, one_e_ok no nv (F t)) (HI : forall t, two_e_ok no nv (I t)).
  Hypotheses (H1 : forall t, t1_ok no nv (T1 t)) (H2 : forall t, t2_ok no nv (T2 t)).
  Hypotheses (OdF : one_e_ok no nv dF) (OdI : two_e_ok no nv dI) (Od1 : t1_ok no nv dT1) (Od2 : shp dT2 = [nv; nv; no; no]).
  Hypotheses (DF : one_e_derivative t0 F dF) (DI : two_e_derivative t0 I dI).
  Hypotheses (D1 : array_derivative t0 T1 dT1) (D2 : array_derivative t0 T2 dT2).

  Lemma dT2_ok : t2_ok no nv dT2.
  Proof.
    split; [exact Od2|]. split.
    - intros i j k l Hi. cbn. eapply uniqueness_limite; [apply D2; exact Hi|].
      assert (Hj : inrange (shp dT2) [j; i; k; l]).
      { rewrite Od2 in *. inversion Hi as [|? ? ? ? A Hi1]; subst. inversion Hi1 as [|? ? ? ? B Hi2]; subst. constructor; [exact B|]. constructor; [exact A|exact Hi2]. }
      pose proof (derivable_pt_lim_opp _ _ _ (D2 _ Hj)) as X.
      replace (fun t => dat (T2 t) [i; j; k; l]) with (- (fun t => dat (T2 t) [j; i; k; l] : R))%F; [exact X|].
      apply functional_extensionality. intros t. destruct (H2 t) as (S & A & _). unfold opp_fct. symmetry. apply A. rewrite S, <- Od2. exact Hi.
    - intros i j k l Hi. cbn. eapply uniqueness_limite; [apply D2; exact Hi|].
      assert (Hj : inrange (shp dT2) [i; j; l; k]).
      { rewrite Od2 in *. inversion Hi as [|? ? ? ? A Hi1]; subst. inversion Hi1 as [|? ? ? ? B Hi2]; subst.
        inversion Hi2 as [|? ? ? ? C Hi3]; subst. inversion Hi3 as [|? ? ? ? D Hi4]; subst. repeat (constructor; [assumption|]). constructor. }
      pose proof (derivable_pt_lim_opp _ _ _ (D2 _ Hj)) as X.
      replace (fun t => dat (T2 t) [i; j; k; l]) with (- (fun t => dat (T2 t) [i; j; l; k] : R))%F; [exact X|].
      apply functional_extensionality. intros t. destruct (H2 t) as (S & _ & A). unfold opp_fct. symmetry. apply A. rewrite S, <- Od2. exact Hi.
  Qed.

  Definition famF : pyval FunK := XObj
    [("oo", arr (fam [no; no] (fun t => oo (F t)))); ("ov", arr (fam [no; nv] (fun t => ov (F t))));
     ("vo", arr (fam [nv; no] (fun t => vo (F t)))); ("vv", arr (fam [nv; nv] (fun t => vv (F t))))]%string.
  Definition famI : pyval FunK := XObj
    [("vvvv", arr (fam [nv; nv; nv; nv] (fun t => vvvv (I t)))); ("vvvo", arr (fam [nv; nv; nv; no] (fun t => vvvo (I t))));
     ("vovv", arr (fam [nv; no; nv; nv] (fun t => vovv (I t)))); ("vvoo", arr (fam [nv; nv; no; no] (fun t => vvoo (I t))));
     ("vovo", arr (fam [nv; no; nv; no] (fun t => vovo (I t)))); ("oovv", arr (fam [no; no; nv; nv] (fun t => oovv (I t))));
     ("vooo", arr (fam [nv; no; no; no] (fun t => vooo (I t)))); ("ooov", arr (fam [no; no; no; nv] (fun t => ooov (I t))));
     ("oooo", arr (fam [no; no; no; no] (fun t => oooo (I t))))]%string.

  Lemma famF_tangent : tangent_value n t0 F_ famF (py_one_e (perturbed_one_e (F t0) dF)).
  Proof.
    destruct OdF as (S1 & S2 & S3 & S4). destruct DF as (E1 & E2 & E3 & E4).
    unfold tangent_value, F_, fock, famF, py_one_e, arr. cbn [related].
    repeat (split; [split; [reflexivity|split; [reflexivity|]]|]); try exact Logic.I.
    - exact (fam_tangent [so; so] _ _ (fun t => proj1 (HF t)) S1 E1).
    - exact (fam_tangent [so; sv] _ _ (fun t => proj1 (proj2 (HF t))) S2 E2).
    - exact (fam_tangent [sv; so] _ _ (fun t => proj1 (proj2 (proj2 (HF t)))) S3 E3).
    - exact (fam_tangent [sv; sv] _ _ (fun t => proj2 (proj2 (proj2 (HF t)))) S4 E4).
  Qed.
  Lemma famF_at t : mapped n (at_t t) F_ famF (py_one_e (F t)).
  Proof.
    unfold mapped, F_, fock, famF, py_one_e, arr. cbn [related].
    repeat (split; [split; [reflexivity|split; [reflexivity|]]|]); try exact Logic.I.
    - exact (fam_at [so; so] _ t (fun t => proj1 (HF t))).
    - exact (fam_at [so; sv] _ t (fun t => proj1 (proj2 (HF t)))).
    - exact (fam_at [sv; so] _ t (fun t => proj1 (proj2 (proj2 (HF t))))).
    - exact (fam_at [sv; sv] _ t (fun t => proj2 (proj2 (proj2 (HF t))))).
  Qed.
  Lemma I_shapes t : two_e_shape no nv (I t).
  Proof. exact (proj1 (HI t)). Qed.
  Lemma famI_tangent : tangent_value n t0 I_ famI (py_two_e (perturbed_two_e (I t0) dI)).
  Proof.
    destruct OdI as ((S1 & S2 & S3 & S4 & S5 & S6 & S7 & S8 & S9) & _).
    unfold two_e_derivative in DI. repeat match goal with H : Forall _ (_ :: _) |- _ => inversion H; clear H; subst end.
    unfold tangent_value, I_, eri9, famI, py_two_e, arr. cbn [related].
    repeat (split; [split; [reflexivity|split; [reflexivity|]]|]); try exact Logic.I.
    - apply (fam_tangent [sv; sv; sv; sv]); try assumption; intros t; apply (I_shapes t).
    - apply (fam_tangent [sv; sv; sv; so]); try assumption; intros t; apply (I_shapes t).
    - apply (fam_tangent [sv; so; sv; sv]); try assumption; intros t; apply (I_shapes t).
    - apply (fam_tangent [sv; sv; so; so]); try assumption; intros t; apply (I_shapes t).
    - apply (fam_tangent [sv; so; sv; so]); try assumption; intros t; apply (I_shapes t).
    - apply (fam_tangent [so; so; sv; sv]); try assumption; intros t; apply (I_shapes t).
    - apply (fam_tangent [sv; so; so; so]); try assumption; intros t; apply (I_shapes t).
    - apply (fam_tangent [so; so; so; sv]); try assumption; intros t; apply (I_shapes t).
    - apply (fam_tangent [so; so; so; so]); try assumption; intros t; apply (I_shapes t).
  Qed.
  Lemma famI_at t : mapped n (at_t t) I_ famI (py_two_e (I t)).
  Proof.
    unfold mapped, I_, eri9, famI, py_two_e, arr. cbn [related].
    repeat (split; [split; [reflexivity|split; [reflexivity|]]|]); try exact Logic.I.
    - apply (fam_at [sv; sv; sv; sv]); intros t'; apply (I_shapes t').
    - apply (fam_at [sv; sv; sv; so]); intros t'; apply (I_shapes t').
    - apply (fam_at [sv; so; sv; sv]); intros t'; apply (I_shapes t').
    - apply (fam_at [sv; sv; so; so]); intros t'; apply (I_shapes t').
    - apply (fam_at [sv; so; sv; so]); intros t'; apply (I_shapes t').
    - apply (fam_at [so; so; sv; sv]); intros t'; apply (I_shapes t').
    - apply (fam_at [sv; so; so; so]); intros t'; apply (I_shapes t').
    - apply (fam_at [so; so; so; sv]); intros t'; apply (I_shapes t').
    - apply (fam_at [so; so; so; so]); intros t'; apply (I_shapes t').
  Qed.
  Notation famT1 := (fam [nv; no] T1).
  Notation famT2 := (fam [nv; nv; no; no] T2).

  Ltac find_in := match goal with |- In _ ?l => let l' := eval hnf in l in change l with l'; repeat first [left; reflexivity | right] end.

  (** the equations hold near t0: over the dual numbers the residuals vanish *)
  Lemma dual_solved f delta : In f ["ccsd_simple"; "ccsd_stanton"]%string -> 0 < delta ->
    (forall t, Rabs (t - t0) < delta -> exists R1 R2,
       returns (K := RK) f [py_one_e (F t); py_two_e (I t); arr (T1 t); arr (T2 t)] (tup [arr R1; arr R2]) /\
       zero_array [nv; no] R1 /\ zero_array [nv; nv; no; no] R2) ->
    exists S1 S2, returns (K := DualK RK) f [py_one_e (perturbed_one_e (F t0) dF); py_two_e (perturbed_two_e (I t0) dI);
        arr (perturbed (T1 t0) dT1); arr (perturbed (T2 t0) dT2)] (tup [arr S1; arr S2]) /\
      zero_array [nv; no] S1 /\ zero_array [nv; nv; no; no] S2.
  Proof.
    intros Hf Hd HZ.
    assert (Hin : In (f, [F_; I_; T1_; T2_], STup [T1_; T2_]) public_functions).
    { destruct Hf as [<-|[<-|[]]]; find_in. }
    destruct (differentiate t0 n f _ _ [famF; famI; arr famT1; arr famT2]
      [py_one_e (perturbed_one_e (F t0) dF); py_two_e (perturbed_two_e (I t0) dI); arr (perturbed (T1 t0) dT1); arr (perturbed (T2 t0) dT2)] Hin)
      as (x & d & Rd & TV & AT).
    { split; [exact famF_tangent|]. split; [exact famI_tangent|]. split; [exact (fam_tangent [sv; so] _ _ H1 Od1 D1)|].
      split; [exact (fam_tangent [sv; sv; so; so] _ _ (fun t => proj1 (H2 t)) Od2 D2)|exact Logic.I]. }
    assert (AT' : forall t, exists v, returns (K := RK) f [py_one_e (F t); py_two_e (I t); arr (T1 t); arr (T2 t)] v /\ mapped n (at_t t) (STup [T1_; T2_]) x v).
    { intros t. apply AT. split; [exact (famF_at t)|]. split; [exact (famI_at t)|]. split; [exact (fam_at [sv; so] T1 t H1)|].
      split; [exact (fam_at [sv; sv; so; so] T2 t (fun t => proj1 (H2 t)))|exact Logic.I]. }
    clear AT. unfold tangent_value, T1_, T2_, t1s, t2s in TV. 
    destruct x as [| |[|[|x1| |] [|[|x2| |] [|]]]|]; try contradiction; destruct d as [| |[|[|S1| |] [|[|S2| |] [|]]]|]; cbn [related] in TV; try tauto.
    destruct TV as ((A1 & A2 & A3) & (B1 & B2 & B3) & _). cbn [map n2] in *.
    exists S1, S2. split; [exact Rd|].
    assert (Z : forall t, Rabs (t - t0) < delta -> (forall idx, inrange [nv; no] idx -> dat x1 idx t = 0) /\ (forall idx, inrange [nv; nv; no; no] idx -> dat x2 idx t = 0)).
    { intros t Ht. destruct (HZ t Ht) as (R1 & R2 & RR & (_ & Z1) & (_ & Z2)). destruct (AT' t) as (v & Rv & Mv).
      rewrite <- (returns_fun _ _ _ _ _ RR Rv) in Mv. unfold mapped, tup, arr, T1_, T2_, t1s, t2s in Mv. cbn [related] in Mv.
      destruct Mv as ((_ & _ & M1) & (_ & _ & M2) & _). cbn [map n2] in *.
      split; intros idx Hi; [pose proof (M1 _ Hi) as Q; rewrite (Z1 _ Hi) in Q|pose proof (M2 _ Hi) as Q; rewrite (Z2 _ Hi) in Q]; symmetry; exact Q. }
    split; (split; [assumption|]); intros idx Hi.
    - destruct (A3 idx Hi) as (E & D). apply injective_projections; cbn [fst snd].
      + rewrite E. exact (proj1 (Z t0 (at_centre _ Hd)) idx Hi).
      + apply (flat_zero _ _ delta D Hd). intros t Ht. exact (proj1 (Z t Ht) idx Hi).
    - destruct (B3 idx Hi) as (E & D). apply injective_projections; cbn [fst snd].
      + rewrite E. exact (proj2 (Z t0 (at_centre _ Hd)) idx Hi).
      + apply (flat_zero _ _ delta D Hd). intros t Ht. exact (proj2 (Z t Ht) idx Hi).
  Qed.

  Variables (L1 L2 : tensor RK).
  Hypotheses (HL1 : l1_ok no nv L1) (HL2 : l2_ok no nv L2).

  Theorem energy_derivative f fl delta M1 M2 :
    In f ["ccsd_simple"; "ccsd_stanton"]%string -> 
    In fl ["ccsd_lambda_simple"; "ccsd_lambda_opt"; "ccsd_lambda_stanton"]%string ->
    0 < delta ->
    (forall t, Rabs (t - t0) < delta -> exists R1 R2,
       returns (K := RK) f [py_one_e (F t); py_two_e (I t); arr (T1 t); arr (T2 t)] (tup [arr R1; arr R2]) /\
       zero_array [nv; no] R1 /\ zero_array [nv; nv; no; no] R2) ->
    returns (K := RK) fl [py_one_e (F t0); py_two_e (I t0); arr L1; arr L2; arr (T1 t0); arr (T2 t0)] (tup [arr M1; arr M2]) ->
    zero_array [no; nv] M1 -> zero_array [no; no; nv; nv] M2 ->
    exists (E : R -> R) P,
      (forall t, returns (K := RK) "cc_energy" [arr (T1 t); arr (T2 t); arr (ov (F t)); arr (oovv (I t))] (numv (E t : RK))) /\
      (forall g, In g density_functions -> returns (K := RK) g [arr (T1 t0); arr (T2 t0); arr L1; arr L2] (arr (P g))) /\
      derivable_pt_lim E t0 (contraction no nv L1 L2 P dF dI).
  Proof.
    intros Hf Hl Hd HZ RM Y1 Y2. destruct (dual_solved f delta Hf Hd HZ) as (S1 & S2 & RS & Z1 & Z2).
    destruct (response_any RK no nv (F t0) dF (I t0) dI (T1 t0) dT1 (T2 t0) dT2 L1 L2 (HF t0) (HI t0) OdI (H1 t0) Od1 (H2 t0) dT2_ok HL1 HL2
      f fl S1 S2 M1 M2 Hf Hl RS Z1 Z2 RM Y1 Y2) as (e & P & Re & RP & Ee).
    destruct (differentiate t0 n "cc_energy" [T1_; T2_; SArr [so; sv]; SArr [so; so; sv; sv]] SNum
      [arr famT1; arr famT2; arr (fam [no; nv] (fun t => ov (F t))); arr (fam [no; no; nv; nv] (fun t => oovv (I t)))]
      [arr (perturbed (T1 t0) dT1); arr (perturbed (T2 t0) dT2); arr (perturbed (ov (F t0)) (ov dF)); arr (perturbed (oovv (I t0)) (oovv dI))] ltac:(find_in))
      as (x & d & Rd & TV & AT).
    { split; [exact (fam_tangent [sv; so] _ _ H1 Od1 D1)|].
      split; [exact (fam_tangent [sv; sv; so; so] _ _ (fun t => proj1 (H2 t)) Od2 D2)|].
      split; [exact (fam_tangent [so; sv] _ _ (fun t => proj1 (proj2 (HF t))) (proj1 (proj2 OdF)) (proj1 (proj2 DF)))|].
      split; [|exact Logic.I]. apply (fam_tangent [so; so; sv; sv]); [intros t; apply (I_shapes t)|apply (proj1 OdI)|].
      unfold two_e_derivative in DI. rewrite Forall_forall in DI. apply DI. do 5 right. left. reflexivity. }
    rewrite <- (returns_fun _ _ _ _ _ Re Rd) in TV. unfold tangent_value, numv in TV. destruct x as [x| | |]; cbn [related] in TV; try contradiction.
    destruct TV as (E0 & D). exists x, P. split; [|split; [exact RP|rewrite <- Ee; exact D]].
    intros t. destruct (AT t [arr (T1 t); arr (T2 t); arr (ov (F t)); arr (oovv (I t))]) as (v & Rv & Mv).
    { split; [exact (fam_at [sv; so] T1 t H1)|].
      split; [exact (fam_at [sv; sv; so; so] T2 t (fun t => proj1 (H2 t)))|].
      split; [exact (fam_at [so; sv] _ t (fun t => proj1 (proj2 (HF t))))|].
      split; [|exact Logic.I]. apply (fam_at [so; so; sv; sv]); intros t'; apply (I_shapes t'). }
    unfold mapped in Mv. destruct v as [v| | |]; cbn [related] in Mv; try contradiction. subst v. exact Rv.
  Qed.
End Energy.
