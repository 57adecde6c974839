(** Rounding errors of cc_energy and mp2_energy in closed form. *)
From Coq Require Import List Bool Arith Ascii String ZArith Reals Lia Lra.
From Verif Require Import Scalar Tensor PySyntax PySem PySim SymSound CCProg CCSpec RoundSpec RoundCC RoundRun RoundMain RoundPub.
Import ListNotations.

(** *** A run in which only three contractions occur *)
Section Tags.
  Variable A : alg.
  Inductive tag := tT1 | tT2 | tF | tG | tJunk.
  Variables (T1 T2 f g : PySem.arr A) (d s1 s2 : num A).
  Definition spec_d := fst (parse_spec [] "abij,ijab->").
  Definition spec_s1 := fst (parse_spec [] "ai,ia->").
  Definition spec_s2 := fst (parse_spec [] "ai,bj,ijab->").
  Hypothesis Hd : a_einsum A spec_d [] [T2; g] = Some (inl d).
  Hypothesis Hs1 : a_einsum A spec_s1 [] [T1; f] = Some (inl s1).
  Hypothesis Hs2 : a_einsum A spec_s2 [] [T1; T1; g] = Some (inl s2).
  Definition is_spec (s t : list letters) : bool := if list_eq_dec (list_eq_dec ascii_dec) s t then true else false.
  Definition tag_einsum (ins : list letters) (out : letters) (ts : list tag) : option (num A + tag) :=
    match out, ts with
    | [], [tT2; tG] => if is_spec ins spec_d then Some (inl d) else None
    | [], [tT1; tF] => if is_spec ins spec_s1 then Some (inl s1) else None
    | [], [tT1; tT1; tG] => if is_spec ins spec_s2 then Some (inl s2) else None
    | _, _ => None
    end.
  Definition tag_alg : alg :=
    Alg tag (num A) (n_const A) (n_add A) (n_mul A) (n_neg A)
      (fun _ _ => None) (fun _ => tJunk) (fun _ _ => tJunk) (fun _ _ => None) tag_einsum.
  Definition Rtag (t : tag) (a : PySem.arr A) : Prop :=
    match t with tT1 => a = T1 | tT2 => a = T2 | tF => a = f | tG => a = g | tJunk => True end.

  Notation XT := (@XArr tag_alg).
  Lemma is_spec_eq s t : is_spec s t = true -> s = t.
  Proof. unfold is_spec. destruct (list_eq_dec (list_eq_dec ascii_dec) s t); [auto|discriminate]. Qed.

  Lemma tag_sim prog fn args args' r out : Forall2 (Rx tag_alg A eq Rtag) args args' ->
    pycall tag_alg prog fn args = Ok (r, out) ->
    exists r' out', pycall A prog fn args' = Ok (r', out') /\ Rx tag_alg A eq Rtag r r' /\ Forall2 (Rx tag_alg A eq Rtag) out out'.
  Proof.
    apply pycall_sim; try reflexivity.
    - intros a a' b b' -> ->. reflexivity.
    - intros a a' b b' -> ->. reflexivity.
    - intros a a' ->. reflexivity.
    - intros a a' b b' c _ _ E. discriminate E.
    - intros p a a' c _ E. discriminate E.
    - intros ins out0 ts ts' s H E. cbn in E. unfold tag_einsum in E.
      destruct out0; [|discriminate].
      destruct ts as [|t1 [|t2 [|t3 [|]]]]; try discriminate; try (destruct t1; discriminate);
        try (destruct t1, t2; discriminate); try (destruct t1, t2, t3; discriminate).
      + inversion H as [|? a1 ? l1 R1 H1]; subst. inversion H1 as [|? a2 ? l2 R2 H2]; subst. inversion H2; subst.
        destruct t1, t2; try discriminate; cbn in R1, R2; subst.
        * destruct (is_spec ins spec_s1) eqn:S; [|discriminate]. apply is_spec_eq in S. subst. injection E as <-. exists (inl s1). split; [exact Hs1|reflexivity].
        * destruct (is_spec ins spec_d) eqn:S; [|discriminate]. apply is_spec_eq in S. subst. injection E as <-. exists (inl d). split; [exact Hd|reflexivity].
      + inversion H as [|? a1 ? l1 R1 H1]; subst. inversion H1 as [|? a2 ? l2 R2 H2]; subst. inversion H2 as [|? a3 ? l3 R3 H3]; subst. inversion H3; subst.
        destruct t1, t2, t3; try discriminate; cbn in R1, R2, R3; subst.
        destruct (is_spec ins spec_s2) eqn:S; [|discriminate]. apply is_spec_eq in S. subst. injection E as <-. exists (inl s2). split; [exact Hs2|reflexivity].
  Qed.
  Definition e_val : num A := n_add A (n_add A (n_mul A (n_const A 1 2) d) s1) (n_mul A (n_const A 1 1) s2).
  Definition mp2_val : num A := n_add A (n_mul A (n_const A 1 2) d) s1.
  Lemma tag_energy : pycall tag_alg cc_prog "cc_energy" [XT tT1; XT tT2; XT tF; XT tG] =
    Ok (@XNum tag_alg e_val, [XT tT1; XT tT2; XT tF; XT tG]).
  Proof. vm_compute. reflexivity. Qed.
  Lemma tag_mp2 : pycall tag_alg cc_prog "mp2_energy" [XT tT1; XT tT2; XT tF; XT tG] =
    Ok (@XNum tag_alg mp2_val, [XT tT1; XT tT2; XT tF; XT tG]).
  Proof. vm_compute. reflexivity. Qed.
  Lemma run_energy : exists o, pycall A cc_prog "cc_energy" [XArr T1; XArr T2; XArr f; XArr g] = Ok (XNum e_val, o).
  Proof.
    destruct (tag_sim cc_prog "cc_energy" [XT tT1; XT tT2; XT tF; XT tG] [XArr T1; XArr T2; XArr f; XArr g] _ _ ltac:(repeat constructor) tag_energy)
      as (r & o & E & R & _). inversion R; subst. eauto.
  Qed.
  Lemma run_mp2 : exists o, pycall A cc_prog "mp2_energy" [XArr T1; XArr T2; XArr f; XArr g] = Ok (XNum mp2_val, o).
  Proof.
    destruct (tag_sim cc_prog "mp2_energy" [XT tT1; XT tT2; XT tF; XT tG] [XArr T1; XArr T2; XArr f; XArr g] _ _ ltac:(repeat constructor) tag_mp2)
      as (r & o & E & R & _). inversion R; subst. eauto.
  Qed.
End Tags.

(** *** The contractions *)
Lemma ein_d (K : cring) no nv (T2 g : tensor K) : shp T2 = [nv; nv; no; no] -> shp g = [no; no; nv; nv] ->
  conc_einsum K spec_d [] [T2; g] = Some (inl (sumN nv (fun a => sumN nv (fun b => sumN no (fun i => sumN no (fun j =>
    cmul (dat T2 [a; b; i; j]) (cmul (dat g [i; j; a; b]) c1))))))).
Proof.
  intros H1 H2. unfold conc_einsum, einsum. cbn [map]. rewrite H1, H2. cbn. rewrite ?Nat.eqb_refl. cbn. rewrite ?Nat.eqb_refl. cbn. rewrite ?Nat.eqb_refl. cbn. rewrite ?Nat.eqb_refl. reflexivity.
Qed.
Lemma ein_s1 (K : cring) no nv (T1 f : tensor K) : shp T1 = [nv; no] -> shp f = [no; nv] ->
  conc_einsum K spec_s1 [] [T1; f] = Some (inl (sumN nv (fun a => sumN no (fun i => cmul (dat T1 [a; i]) (cmul (dat f [i; a]) c1))))).
Proof.
  intros H1 H2. unfold conc_einsum, einsum. cbn [map]. rewrite H1, H2. cbn. rewrite ?Nat.eqb_refl. cbn. rewrite ?Nat.eqb_refl. reflexivity.
Qed.
Lemma ein_s2 (K : cring) no nv (T1 g : tensor K) : shp T1 = [nv; no] -> shp g = [no; no; nv; nv] ->
  conc_einsum K spec_s2 [] [T1; T1; g] = Some (inl (sumN nv (fun a => sumN no (fun i => sumN nv (fun b => sumN no (fun j =>
    cmul (dat T1 [a; i]) (cmul (dat T1 [b; j]) (cmul (dat g [i; j; a; b]) c1)))))))).
Proof.
  intros H1 H2. unfold conc_einsum, einsum. cbn [map]. rewrite H1, H2. cbn. rewrite ?Nat.eqb_refl. cbn. rewrite ?Nat.eqb_refl. cbn. rewrite ?Nat.eqb_refl. cbn. rewrite ?Nat.eqb_refl. reflexivity.
Qed.
Lemma dep_d no nv : d_einsum spec_d [] [([nv; nv; no; no], 0); ([no; no; nv; nv], 0)] = Some (inl (nv * (nv * (no * (no * 1))) + 2 - 2)).
Proof. unfold d_einsum. cbn. rewrite ?Nat.eqb_refl. cbn. rewrite ?Nat.eqb_refl. cbn. rewrite ?Nat.eqb_refl. cbn. rewrite ?Nat.eqb_refl. reflexivity. Qed.
Lemma dep_s1 no nv : d_einsum spec_s1 [] [([nv; no], 0); ([no; nv], 0)] = Some (inl (nv * (no * 1) + 2 - 2)).
Proof. unfold d_einsum. cbn. rewrite ?Nat.eqb_refl. cbn. rewrite ?Nat.eqb_refl. reflexivity. Qed.
Lemma dep_s2 no nv : d_einsum spec_s2 [] [([nv; no], 0); ([nv; no], 0); ([no; no; nv; nv], 0)] = Some (inl (nv * (no * (nv * (no * 1))) + 3 - 2)).
Proof. unfold d_einsum. cbn. rewrite ?Nat.eqb_refl. cbn. rewrite ?Nat.eqb_refl. cbn. rewrite ?Nat.eqb_refl. cbn. rewrite ?Nat.eqb_refl. reflexivity. Qed.

Lemma ok_inj {A B} (a c : A) (b d : B) : Ok (a, b) = Ok (c, d) -> a = c.
Proof. congruence. Qed.

Section Energy.
  Variable u : R.
  Variables (add mul : R -> R -> R) (ein : einsum_fun RK).
  Hypothesis HA : is_arithmetic RK Rabs u add mul ein.
  Variables (no nv : nat) (T1 T2 f g : tensor RK).
  Hypothesis HT1 : shp T1 = [nv; no].
  Hypothesis HT2 : shp T2 = [nv; nv; no; no].
  Hypothesis Hf : shp f = [no; nv].
  Hypothesis Hg : shp g = [no; no; nv; nv].
  Hypothesis Rabs_norm : is_norm RK Rabs.
  Local Open Scope R_scope.
  Notation FL := (fl_alg RK add mul ein).
  Notation MG := (mag_alg RK Rabs).
  Notation XF := (@XArr FL).

  Definition e_d (T2 g : list nat -> R) : R :=
    sumN (K := RK) nv (fun a => sumN nv (fun b => sumN no (fun i => sumN no (fun j => (T2 [a; b; i; j] * (g [i; j; a; b] * 1) : RK))))).
  Definition e_s1 (T1 f : list nat -> R) : R :=
    sumN (K := RK) nv (fun a => sumN no (fun i => (T1 [a; i] * (f [i; a] * 1) : RK))).
  Definition e_s2 (T1 g : list nat -> R) : R :=
    sumN (K := RK) nv (fun a => sumN no (fun i => sumN nv (fun b => sumN no (fun j => (T1 [a; i] * (T1 [b; j] * (g [i; j; a; b] * 1)) : RK))))).
  Definition ab (t : tensor RK) : list nat -> R := fun i => Rabs (dat t i).
  Definition abt (t : tensor RK) : tensor RK := mkT (K := RK) (shp t) (ab t).

  Lemma dyad12 : dyad (K := RK) 1 2 = / 4. Proof. cbn. field. Qed.
  Lemma dyad11 : dyad (K := RK) 1 1 = / 2. Proof. cbn. field. Qed.
  Lemma abs4 : Rabs (/ 4) = / 4. Proof. apply Rabs_right. lra. Qed.
  Lemma abs2 : Rabs (/ 2) = / 2. Proof. apply Rabs_right. lra. Qed.

  Lemma e_val_exact (d s1 s2 : R) : e_val (conc_alg RK) d s1 s2 = / 4 * d + s1 + / 2 * s2.
  Proof. unfold e_val. rewrite <- dyad12, <- dyad11. reflexivity. Qed.
  Lemma e_val_mag (d s1 s2 : R) : e_val MG d s1 s2 = / 4 * d + s1 + / 2 * s2.
  Proof. unfold e_val. rewrite <- abs4, <- abs2, <- dyad12, <- dyad11. reflexivity. Qed.
  Lemma mp2_val_exact (d s1 : R) : mp2_val (conc_alg RK) d s1 = / 4 * d + s1.
  Proof. unfold mp2_val. rewrite <- dyad12. reflexivity. Qed.
  Lemma mp2_val_mag (d s1 : R) : mp2_val MG d s1 = / 4 * d + s1.
  Proof. unfold mp2_val. rewrite <- abs4, <- dyad12. reflexivity. Qed.

  Lemma num_inv rf v m d : v_within RK Rabs u add mul ein rf (@XNum (conc_alg RK) v) (@XNum MG m) (@XNum depth_alg d) ->
    exists x, rf = @XNum FL x /\ within RK Rabs u x v m d.
  Proof. intros W. inversion W; subst. eauto. Qed.

  Definition dep4 : nat := (no * no * nv * nv)%nat.

  Theorem energy_error : exists w o, pycall FL cc_prog "cc_energy" [XF T1; XF T2; XF f; XF g] = Ok (@XNum FL w, o) /\
    Rabs (w - (/ 4 * e_d (dat T2) (dat g) + e_s1 (dat T1) (dat f) + / 2 * e_s2 (dat T1) (dat g))) <=
    ((1 + u) ^ (dep4 + 3) - 1) * (/ 4 * e_d (ab T2) (ab g) + e_s1 (ab T1) (ab f) + / 2 * e_s2 (ab T1) (ab g)).
  Proof.
    destruct (run_energy (conc_alg RK) T1 T2 f g _ _ _ (ein_d RK no nv _ _ HT2 Hg) (ein_s1 RK no nv _ _ HT1 Hf) (ein_s2 RK no nv _ _ HT1 Hg)) as (o & E).
    destruct (run_energy MG (abt T1) (abt T2) (abt f) (abt g) _ _ _ (ein_d RK no nv (abt T2) (abt g) HT2 Hg) (ein_s1 RK no nv (abt T1) (abt f) HT1 Hf) (ein_s2 RK no nv (abt T1) (abt g) HT1 Hg)) as (om & EM).
    destruct (run_energy depth_alg ([nv; no], 0%nat) ([nv; nv; no; no], 0%nat) ([no; nv], 0%nat) ([no; no; nv; nv], 0%nat) _ _ _ (dep_d no nv) (dep_s1 no nv) (dep_s2 no nv)) as (od & ED).
    destruct (rounding_bound RK Rabs u add mul ein Rabs_norm HA cc_prog "cc_energy" _ _ _ _ _ _
      (l_within_given RK Rabs u add mul ein Rabs_norm HA [@XArr (conc_alg RK) T1; @XArr (conc_alg RK) T2; @XArr (conc_alg RK) f; @XArr (conc_alg RK) g]) E)
      as (rf & of & rm & om' & rd & od' & E1 & E2 & E3 & W & _).
    cbn [map] in E1, E2, E3. cbn [magnitudes unrounded as_given xmap] in E1, E2, E3.
    rewrite HT1, HT2, Hf, Hg in E3.
    rewrite ED in E3. apply ok_inj in E3. subst rd.
    pose proof (eq_trans (eq_sym EM) E2) as EQ. apply ok_inj in EQ. subst rm.
    destruct (num_inv _ _ _ _ W) as (x & -> & _ & W'). exists x, of. split; [exact E1|].
    unfold dist in W'. eapply Rle_trans; [|eapply Rle_trans; [exact W'|]].
    - apply Req_le. rewrite e_val_exact. reflexivity.
    - rewrite e_val_mag. unfold e_val.
      assert (X : n_add depth_alg (n_add depth_alg (n_mul depth_alg (n_const depth_alg 1 2) (nv * (nv * (no * (no * 1))) + 2 - 2)%nat) (nv * (no * 1) + 2 - 2)%nat)
        (n_mul depth_alg (n_const depth_alg 1 1) (nv * (no * (nv * (no * 1))) + 3 - 2)%nat) = (dep4 + 3)%nat).
      { cbn [n_add n_mul n_const depth_alg]. unfold dep4. 
        set (q := (no * nv)%nat). replace (nv * (nv * (no * (no * 1))))%nat with (q * q)%nat by (unfold q; ring).
        replace (nv * (no * (nv * (no * 1))))%nat with (q * q)%nat by (unfold q; ring).
        replace (nv * (no * 1))%nat with q by (unfold q; ring). replace (no * no * nv * nv)%nat with (q * q)%nat by (unfold q; ring).
        assert (q <= q * q)%nat by (destruct q; cbn; lia). lia. }
      rewrite X. apply Req_le. reflexivity.
  Qed.
  Theorem mp2_error : exists w o, pycall FL cc_prog "mp2_energy" [XF T1; XF T2; XF f; XF g] = Ok (@XNum FL w, o) /\
    Rabs (w - (/ 4 * e_d (dat T2) (dat g) + e_s1 (dat T1) (dat f))) <=
    ((1 + u) ^ (dep4 + 2) - 1) * (/ 4 * e_d (ab T2) (ab g) + e_s1 (ab T1) (ab f)).
  Proof.
    destruct (run_mp2 (conc_alg RK) T1 T2 f g _ _ _ (ein_d RK no nv _ _ HT2 Hg) (ein_s1 RK no nv _ _ HT1 Hf) (ein_s2 RK no nv _ _ HT1 Hg)) as (o & E).
    destruct (run_mp2 MG (abt T1) (abt T2) (abt f) (abt g) _ _ _ (ein_d RK no nv (abt T2) (abt g) HT2 Hg) (ein_s1 RK no nv (abt T1) (abt f) HT1 Hf) (ein_s2 RK no nv (abt T1) (abt g) HT1 Hg)) as (om & EM).
    destruct (run_mp2 depth_alg ([nv; no], 0%nat) ([nv; nv; no; no], 0%nat) ([no; nv], 0%nat) ([no; no; nv; nv], 0%nat) _ _ _ (dep_d no nv) (dep_s1 no nv) (dep_s2 no nv)) as (od & ED).
    destruct (rounding_bound RK Rabs u add mul ein Rabs_norm HA cc_prog "mp2_energy" _ _ _ _ _ _
      (l_within_given RK Rabs u add mul ein Rabs_norm HA [@XArr (conc_alg RK) T1; @XArr (conc_alg RK) T2; @XArr (conc_alg RK) f; @XArr (conc_alg RK) g]) E)
      as (rf & of & rm & om' & rd & od' & E1 & E2 & E3 & W & _).
    cbn [map] in E1, E2, E3. cbn [magnitudes unrounded as_given xmap] in E1, E2, E3.
    rewrite HT1, HT2, Hf, Hg in E3.
    rewrite ED in E3. apply ok_inj in E3. subst rd.
    pose proof (eq_trans (eq_sym EM) E2) as EQ. apply ok_inj in EQ. subst rm.
    destruct (num_inv _ _ _ _ W) as (x & -> & _ & W'). exists x, of. split; [exact E1|].
    unfold dist in W'. eapply Rle_trans; [|eapply Rle_trans; [exact W'|]].
    - apply Req_le. rewrite mp2_val_exact. reflexivity.
    - rewrite mp2_val_mag. unfold mp2_val.
      assert (X : n_add depth_alg (n_mul depth_alg (n_const depth_alg 1 2) (nv * (nv * (no * (no * 1))) + 2 - 2)%nat) (nv * (no * 1) + 2 - 2)%nat = (dep4 + 2)%nat).
      { cbn [n_add n_mul n_const depth_alg]. unfold dep4. 
        set (q := (no * nv)%nat). replace (nv * (nv * (no * (no * 1))))%nat with (q * q)%nat by (unfold q; ring).
        replace (nv * (no * 1))%nat with q by (unfold q; ring). replace (no * no * nv * nv)%nat with (q * q)%nat by (unfold q; ring).
        assert (q <= q * q)%nat by (destruct q; cbn; lia). lia. }
      rewrite X. apply Req_le. reflexivity.
  Qed.
End Energy.
