(** The projected Schroedinger equation: vanishing CCSD residuals and
    (H - E) exp(T)|0>. *)
From Coq Require Import List Bool Arith ZArith Lia Ring Factorial.
From Verif Require Import Scalar CISpec CIRep CIFacts CIStrings CIFock CIMatrix CILemmas CIVec CIExpSpec CIExp Tensor CCSpec
  CCFockSpec FockStates FockExp FockT.
Import ListNotations.
Local Open Scope list_scope.

(** *** Determinants by their number of electrons in virtual orbitals *)
Lemma map_const_repeat {A B} (c : B) (l : list A) : map (fun _ => c) l = repeat c (length l).
Proof. induction l as [|x l IH]; cbn; [reflexivity|]. rewrite IH. reflexivity. Qed.
Lemma aufbau_split no nv : aufbau (no + nv) no = repeat true no ++ repeat false nv.
Proof.
  unfold aufbau. rewrite seq_app, map_app. f_equal.
  - transitivity (map (fun _ => true) (seq 0 no)).
    + apply map_ext_in. intros i H. apply in_seq in H. apply Nat.ltb_lt. lia.
    + rewrite map_const_repeat, seq_length. reflexivity.
  - transitivity (map (fun _ => false) (seq no nv)).
    + apply map_ext_in. intros i H. apply in_seq in H. apply Nat.ltb_ge. lia.
    + rewrite map_const_repeat, seq_length. reflexivity.
Qed.
Lemma nel_app s t : nel (s ++ t) = nel s + nel t.
Proof. induction s as [|b s IH]; cbn; [reflexivity|]. rewrite IH. lia. Qed.
Lemma ndiff_app s s' t t' : length s = length t -> ndiff (s ++ s') (t ++ t') = ndiff s t + ndiff s' t'.
Proof.
  revert t. induction s as [|b s IH]; destruct t as [|c t]; cbn; intros L; try lia. rewrite IH by lia. lia.
Qed.
Lemma ndiff_true s : ndiff (repeat true (length s)) s + nel s = length s.
Proof. induction s as [|[] s IH]; cbn; lia. Qed.
Lemma ndiff_false s : ndiff (repeat false (length s)) s = nel s.
Proof. induction s as [|[] s IH]; cbn; lia. Qed.

Lemma vlev_excited no nv t : length t = no + nv -> nel t = no -> excited (vlev no t) (aufbau (no + nv) no) t.
Proof.
  intros L N. unfold excited. rewrite aufbau_length, nel_aufbau by lia. repeat split; auto.
  rewrite aufbau_split. unfold vlev. rewrite <- (firstn_skipn no t) in N. rewrite <- (firstn_skipn no t) at 1.
  rewrite nel_app in N.
  assert (L1 : length (firstn no t) = no) by (rewrite firstn_length; lia).
  assert (L2 : length (skipn no t) = nv) by (rewrite skipn_length; lia).
  rewrite ndiff_app by (rewrite repeat_length; auto).
  rewrite <- L1 at 1. rewrite <- L2 at 1. rewrite ndiff_false.
  pose proof (ndiff_true (firstn no t)). lia.
Qed.
Lemma excited_vlev no nv k t : excited k (aufbau (no + nv) no) t -> length t = no + nv /\ nel t = no /\ vlev no t = k.
Proof.
  intros (L & N & D). rewrite aufbau_length in L. rewrite nel_aufbau in N by lia.
  repeat split; auto. destruct (vlev_excited no nv t L N) as (_ & _ & D'). lia.
Qed.

Lemma aufbau_occ n k p : p < n -> occd (aufbau n k) p = Nat.ltb p k.
Proof. intros L. unfold occd, aufbau. apply nth_map_seq with (f := fun i => Nat.ltb i k). exact L. Qed.
Lemma aufbau_O no nv p : occd (aufbau (no + nv) no) p = true -> p < no.
Proof.
  intros O. pose proof (occd_lt _ _ O) as L. rewrite aufbau_length in L. rewrite aufbau_occ in O by auto.
  apply Nat.ltb_lt. exact O.
Qed.
Lemma aufbau_V no nv p : p < no + nv -> occd (aufbau (no + nv) no) p = false -> exists a, a < nv /\ p = no + a.
Proof.
  intros L O. rewrite aufbau_occ in O by auto. apply Nat.ltb_ge in O. exists (p - no). lia.
Qed.

Lemma excited_kind no nv k t : excited k (aufbau (no + nv) no) t -> kind t (aufbau (no + nv) no) k.
Proof.
  intros (L & N & D). destruct (kinds t (aufbau (no + nv) no) L N) as (d & _ & D' & X).
  assert (k = d) by lia. subst. exact X.
Qed.
Lemma single_word no nv t : excited 1 (aufbau (no + nv) no) t ->
  exists a i s, a < nv /\ i < no /\ act [Cre (no + a); Ann i] (aufbau (no + nv) no) = Some (s, t).
Proof.
  intros X. apply excited_kind in X. inversion X as [|o v Lo Lv Oo Ov _ _ E| |]; subst.
  rewrite aufbau_length in Lv. destruct (aufbau_V no nv v Lv Ov) as (a & La & ->). apply aufbau_O in Oo as Li.
  exists a, o, (between (aufbau (no + nv) no) o (no + a)). repeat split; auto.
  rewrite act_exc by (rewrite ?aufbau_length; lia). unfold exc. rewrite Oo, Ov. reflexivity.
Qed.
Lemma double_word no nv t : excited 2 (aufbau (no + nv) no) t ->
  exists a b i j s, a < nv /\ b < nv /\ i < no /\ j < no /\
    act [Cre (no + a); Cre (no + b); Ann j; Ann i] (aufbau (no + nv) no) = Some (s, t).
Proof.
  intros X. apply excited_kind in X. inversion X as [| |o1 o2 v1 v2 Lo Lv L2 L3 O1 O2 V1 V2 _ _ E|]; subst.
  rewrite aufbau_length in L2, L3.
  destruct (aufbau_V no nv v1 ltac:(lia) V1) as (a & La & ->).
  destruct (aufbau_V no nv v2 L3 V2) as (b & Lb & ->).
  apply aufbau_O in O1 as Li. apply aufbau_O in O2 as Lj.
  set (R := aufbau (no + nv) no) in *.
  assert (LR : length R = no + nv) by apply aufbau_length.
  exists a, b, o1, o2. eexists. repeat split; auto.
  rewrite act_act4 by lia. unfold act4. rewrite O1, O2.
  rewrite !occd_c2 by lia. rewrite V1, V2.
  replace (Nat.eqb o1 o2) with false by (symmetry; apply Nat.eqb_neq; lia).
  replace (Nat.eqb (no + a) (no + b)) with false by (symmetry; apply Nat.eqb_neq; lia).
  cbn [negb andb]. destruct (_ || _); destruct (_ || _); cbn [negb andb]; reflexivity.
Qed.
Lemma nel_put_le p b s : nel (put p b s) <= S (nel s).
Proof. revert p. induction s as [|c s IH]; intros [|p]; cbn; [lia|lia|destruct b; lia|specialize (IH p); lia]. Qed.
Lemma vlev_put_le no p b s : vlev no (put p b s) <= S (vlev no s).
Proof.
  unfold vlev. destruct (Nat.lt_ge_cases p no) as [L|L].
  - rewrite skipn_put_lt by auto. lia.
  - rewrite skipn_put_ge by auto. apply nel_put_le.
Qed.
Lemma vlev_put_o no p b s : p < no -> vlev no (put p b s) = vlev no s.
Proof. intros L. unfold vlev. rewrite skipn_put_lt by auto. reflexivity. Qed.
Lemma nel_repeat_false n : nel (repeat false n) = 0.
Proof. induction n; auto. Qed.
Lemma vlev_aufbau no nv : vlev no (aufbau (no + nv) no) = 0.
Proof.
  unfold vlev. rewrite aufbau_split, skipn_app, repeat_length, Nat.sub_diag, skipn_all2 by (rewrite repeat_length; lia).
  apply nel_repeat_false.
Qed.
Lemma word_single no nv a i : a < nv -> i < no ->
  exists s t, act [Cre (no + a); Ann i] (aufbau (no + nv) no) = Some (s, t) /\ length t = no + nv /\ vlev no t <= 1.
Proof.
  intros La Li. rewrite act_exc by (rewrite ?aufbau_length; lia). unfold exc.
  rewrite !aufbau_occ by lia. replace (Nat.ltb i no) with true by (symmetry; apply Nat.ltb_lt; lia).
  replace (Nat.ltb (no + a) no) with false by (symmetry; apply Nat.ltb_ge; lia). cbn [negb andb].
  eexists _, _. split; [reflexivity|]. rewrite !put_length, aufbau_length. split; [reflexivity|].
  eapply Nat.le_trans; [apply vlev_put_le|]. rewrite vlev_put_o, vlev_aufbau; auto.
Qed.
Lemma word_double no nv a b i j : a < nv -> b < nv -> i < no -> j < no -> a <> b -> i <> j ->
  exists s t, act [Cre (no + a); Cre (no + b); Ann j; Ann i] (aufbau (no + nv) no) = Some (s, t) /\
    length t = no + nv /\ vlev no t <= 2.
Proof.
  intros La Lb Li Lj Nab Nij. set (R := aufbau (no + nv) no).
  assert (LR : length R = no + nv) by apply aufbau_length.
  rewrite act_act4 by lia. unfold act4. rewrite !occd_c2 by lia. unfold R. rewrite !aufbau_occ by lia. fold R.
  replace (Nat.ltb i no) with true by (symmetry; apply Nat.ltb_lt; lia).
  replace (Nat.ltb j no) with true by (symmetry; apply Nat.ltb_lt; lia).
  replace (Nat.ltb (no + a) no) with false by (symmetry; apply Nat.ltb_ge; lia).
  replace (Nat.ltb (no + b) no) with false by (symmetry; apply Nat.ltb_ge; lia).
  replace (Nat.eqb i j) with false by (symmetry; apply Nat.eqb_neq; lia).
  replace (Nat.eqb (no + a) (no + b)) with false by (symmetry; apply Nat.eqb_neq; lia).
  assert (Z : forall c : bool, (if c then false else false) = false) by (intros []; reflexivity). rewrite !Z.
  cbn [negb andb]. eexists _, _. split; [reflexivity|]. unfold c2. rewrite !put_length. split; [exact LR|].
  eapply Nat.le_trans; [apply vlev_put_le|]. apply le_n_S. eapply Nat.le_trans; [apply vlev_put_le|]. apply le_n_S.
  rewrite !vlev_put_o by lia. unfold R. rewrite vlev_aufbau. lia.
Qed.

Lemma word_single_neq no nv a i s : a < nv -> i < no ->
  act [Cre (no + a); Ann i] (aufbau (no + nv) no) = Some (s, aufbau (no + nv) no) -> False.
Proof.
  intros La Li E. rewrite act_exc in E by (rewrite ?aufbau_length; lia).
  apply exc_ndiff in E; [|rewrite aufbau_length; lia]. rewrite ndiff_refl in E. lia.
Qed.
Lemma word_double_neq no nv a b i j s : a < nv -> b < nv -> i < no -> j < no ->
  act [Cre (no + a); Cre (no + b); Ann j; Ann i] (aufbau (no + nv) no) = Some (s, aufbau (no + nv) no) -> False.
Proof.
  intros La Lb Li Lj E. set (R := aufbau (no + nv) no) in *.
  assert (LR : length R = no + nv) by apply aufbau_length.
  rewrite act_act4 in E by lia. unfold act4 in E. destruct (_ && _); [|discriminate]. injection E as _ E.
  assert (O : occd R (no + a) = true).
  { rewrite <- E, occd_put, Nat.eqb_refl, put_length. unfold c2. rewrite !put_length, LR.
    replace (Nat.ltb (no + a) (no + nv)) with true by (symmetry; apply Nat.ltb_lt; lia). reflexivity. }
  apply aufbau_O in O. lia.
Qed.

(** *** Particle number *)
Fixpoint charge (w : list op) : Z :=
  match w with [] => 0 | Cre _ :: w' => 1 + charge w' | Ann _ :: w' => charge w' - 1 end.
Lemma charge_app v w : (charge (v ++ w) = charge v + charge w)%Z.
Proof. induction v as [|[p|p] v IH]; cbn [app charge]; lia. Qed.

Section Schr.
  Variable K : cring.
  Local Open Scope K_scope.
  Add Ring KrSch : (c_th K).
  Notation opsum := (list (K * list op)).
  Variables no nv : nat.
  Notation n := (no + nv)%nat.
  Notation ref := (aufbau n no).

  Definition neutral (A : opsum) : Prop := Forall (fun a => charge (snd a) = 0%Z) A.
  Definition nfix (z : Z) (psi : state K) : Prop := forall t, length t = n -> Z.of_nat (nel t) <> z -> psi t = 0.

  Lemma nfix_eo o z psi : nfix z psi -> nfix (match o with Cre _ => z + 1 | Ann _ => z - 1 end) (eo o psi).
  Proof.
    intros H t L N. unfold eo. destruct (_ && _) eqn:C; [|reflexivity].
    apply andb_true_iff in C as [C1 C2]. apply Nat.ltb_lt in C1.
    rewrite H; [ring|rewrite put_length; auto|].
    pose proof (nel_put (opi o) (negb (opb o)) t C1) as P. apply eqb_prop in C2. rewrite C2 in P.
    destruct o as [p|p]; cbn [opi opb negb] in *; lia.
  Qed.
  Lemma nfix_eow w z psi : nfix z psi -> nfix (z + charge w) (eow w psi).
  Proof.
    intros H. induction w as [|o w IH]; cbn [eow charge].
    - intros t L N. apply H; auto. lia.
    - intros t L N. apply (nfix_eo o (z + charge w) _ IH t L). destruct o; lia.
  Qed.
  Lemma nfix_eos A z psi : neutral A -> nfix z psi -> nfix z (eos A psi).
  Proof.
    intros HA H t L N. unfold eos. apply SL_zero. intros a Ha. unfold neutral in HA. rewrite Forall_forall in HA.
    rewrite (nfix_eow (snd a) z psi H t L); [ring|]. rewrite (HA a Ha). lia.
  Qed.
  Lemma neutral_pow A k : neutral A -> neutral (opow A k).
  Proof.
    intros HA. induction k as [|k IH]; cbn [opow]; [repeat constructor|].
    apply Forall_forall. intros x Hx. unfold opmul in Hx. apply in_flat_map in Hx as (a & Ha & Hx).
    apply in_map_iff in Hx as (b & <- & Hb). cbn [snd]. rewrite charge_app.
    unfold neutral in *. rewrite Forall_forall in HA, IH. rewrite (HA a Ha), (IH b Hb). reflexivity.
  Qed.
  Lemma neutral_scale c A : neutral A -> neutral (opscale c A).
  Proof. intros HA. apply Forall_map. exact HA. Qed.
  Lemma neutral_exp inv M A : neutral A -> neutral (opexp inv M A).
  Proof.
    intros HA. apply Forall_forall. intros x Hx. apply in_flat_map in Hx as (k & _ & Hx).
    revert x Hx. apply Forall_forall. apply neutral_scale, neutral_pow, HA.
  Qed.

  Ltac seqs := repeat match goal with
    | H : In _ (flat_map _ _) |- _ => apply in_flat_map in H as (? & ? & ?)
    | H : In _ (map _ _) |- _ => apply in_map_iff in H as (? & <- & ?)
    end.
  Lemma neutral_H h g : neutral (H_op n h g).
  Proof. apply Forall_app. split; apply Forall_forall; intros x Hx; seqs; reflexivity. Qed.
  Lemma neutral_T t1 t2 : neutral (T_op no nv t1 t2).
  Proof. apply Forall_app. split; apply Forall_forall; intros x Hx; seqs; reflexivity. Qed.
  Lemma nfix_ref : nfix (Z.of_nat no) (kd ref).
  Proof.
    intros t L N. unfold kd. destruct (det_eqb ref t) eqn:E; [|reflexivity].
    apply det_eqb_eq in E. subst t. rewrite nel_aufbau in N by lia. lia.
  Qed.

  (** *** exp(A) of a raising operator keeps the lowest level *)
  Lemma vmin_pow_from A k m psi : raising K no nv A -> vmin K no nv m psi -> vmin K no nv m (eos (opow A k) psi).
  Proof.
    intros HA H. induction k as [|k IH]; intros t L V.
    - rewrite eos_pow0. apply H; auto.
    - rewrite eos_powS. apply (vmin_mono K no nv (S m) m) with (t := t); auto. apply vmin_raising; auto.
  Qed.
  Lemma vmin_exp inv M A m psi : raising K no nv A -> vmin K no nv m psi -> vmin K no nv m (eos (opexp inv M A) psi).
  Proof.
    intros HA H t L V. rewrite eos_exp.
    rewrite (sumN_ext K (S M) _ (fun _ => 0)); [apply sumN_0|]. intros k _.
    rewrite (vmin_pow_from A k m psi HA H t L V). ring.
  Qed.
  Lemma raising_scale c A : raising K no nv A -> raising K no nv (opscale c A).
  Proof. intros HA. apply Forall_map. exact HA. Qed.

  (** in terms of excitation levels *)
  Lemma vmin_levels m psi : nfix (Z.of_nat no) psi ->
    (vmin K no nv m psi <-> forall k t, (k < m)%nat -> excited k ref t -> psi t = 0).
  Proof.
    intros N. split; intros H.
    - intros k t Lk Xk. destruct (excited_vlev no nv k t Xk) as (L & Ne & V). apply H; auto. lia.
    - intros t L V. destruct (Nat.eq_dec (nel t) no) as [E|E].
      + apply (H (vlev no t) t V). apply vlev_excited; auto.
      + apply N; auto. lia.
  Qed.

  Section Equation.
    Variable t1 : nat -> nat -> K.
    Variable t2 : nat -> nat -> nat -> nat -> K.
    Hypothesis A1 : forall a b i j, (a < nv)%nat -> (b < nv)%nat -> (i < no)%nat -> (j < no)%nat -> t2 a b i j = - t2 b a i j.
    Hypothesis A2 : forall a b i j, (a < nv)%nat -> (b < nv)%nat -> (i < no)%nat -> (j < no)%nat -> t2 a b i j = - t2 a b j i.
    Variable inv : nat -> K.
    Variable M : nat.
    Hypothesis Inv : inverts inv M.
    Hypothesis LM : (nv < M)%nat.
    Variable A : opsum.
    Hypothesis HA : Forall (fun a => Forall (fun o => (opi o < n)%nat) (snd a)) A.
    Hypothesis NA : neutral A.
    Notation T := (T_op no nv t1 t2).
    Notation X := (opexp inv M T).
    Notation Abar := (transformed inv M T A).

    Lemma A_exp psi t : length t = n -> eos A (eos X psi) t = eos X (eos Abar psi) t.
    Proof.
      intros L. rewrite (eos_ext K X (eos Abar psi) (fun u => SL A (fun a => fst a * tildew K no nv t1 t2 (snd a) psi u))).
      - rewrite eos_SL. unfold eos at 1. apply SL_ext. intros a Ha. rewrite eos_mul. f_equal.
        rewrite Forall_forall in HA. apply word_exp; auto.
      - intros u Lu. apply transformed_eos; auto. congruence.
    Qed.

    (** the deviation from an eigenstate, before and after the transformation *)
    Definition dev (E : K) : state K := fun t => eos Abar (kd ref) t - E * kd ref t.
    Definition res (E : K) : state K := fun t => eos A (eos X (kd ref)) t - E * eos X (kd ref) t.
    Lemma sub_mul (a b c : K) : a - b * c = a + (- b) * c.
    Proof. ring. Qed.
    Lemma res_dev E t : length t = n -> res E t = eos X (dev E) t.
    Proof.
      intros L. unfold res. rewrite A_exp by auto.
      rewrite (eos_ext K X (dev E) (fun u => eos Abar (kd ref) u + (- E) * kd ref u)) by (intros; apply sub_mul).
      rewrite eos_add, eos_mul. ring.
    Qed.
    Lemma dev_res E t : length t = n -> dev E t = eos (opexp inv M (opscale (- (1)) T)) (res E) t.
    Proof.
      intros L. rewrite (eos_ext K _ (res E) (eos X (dev E))) by (intros u Lu; apply res_dev; congruence).
      symmetry. apply exp_opp with (n := n); auto.
      intros k phi u Lk Lu. apply (raising_nil K no nv); auto using T_raising. lia.
    Qed.
    Lemma vmin_dev_res E m : vmin K no nv m (dev E) <-> vmin K no nv m (res E).
    Proof.
      split; intros H t L V.
      - rewrite res_dev by auto. apply (vmin_exp inv M T m (dev E)); auto using T_raising.
      - rewrite dev_res by auto. apply (vmin_exp inv M _ m (res E)); auto using T_raising, raising_scale.
    Qed.

    Lemma exp_nfix : nfix (Z.of_nat no) (eos X (kd ref)).
    Proof. apply nfix_eos; [apply neutral_exp, neutral_T|apply nfix_ref]. Qed.
    Lemma res_nfix E : nfix (Z.of_nat no) (res E).
    Proof.
      intros t L N. unfold res. rewrite (exp_nfix t L N).
      rewrite (nfix_eos A _ _ NA exp_nfix t L N). ring.
    Qed.
    Lemma dev_nfix E : nfix (Z.of_nat no) (dev E).
    Proof.
      intros t L N. rewrite dev_res by auto.
      apply (nfix_eos _ _ _ (neutral_exp inv M _ (neutral_scale _ _ (neutral_T t1 t2))) (res_nfix E) t L N).
    Qed.

    Lemma exp_ref_ref : eos X (kd ref) ref = 1.
    Proof.
      rewrite eos_exp. change (S M) with (1 + M)%nat. rewrite sumN_plus, sumN_1.
      rewrite (sumN_ext K M _ (fun _ => 0)), sumN_0.
      - rewrite eos_pow0. unfold kd. rewrite det_eqb_refl.
        pose proof (Inv 0%nat ltac:(lia)) as H. cbn [fact nK] in H.
        change (fact 0) with 1%nat. transitivity ((1 + 0) * inv 1%nat); [ring|exact H].
      - intros k _. rewrite (vmin_pow K no nv T (1 + k) (kd ref) (T_raising K no nv t1 t2)); [ring|apply aufbau_length|].
        rewrite vlev_aufbau. lia.
    Qed.

  End Equation.
End Schr.
