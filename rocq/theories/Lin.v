(** Terms with exactly one factor, or with at most one factor, from the marked
    arguments: linear and affine dependence on these arguments.  Terms under a
    map of the scalars. *)
From Coq Require Import List Bool Arith ZArith Lia Ring String.
From Verif Require Import Scalar Tensor PySyntax PySem PySim Sym SymSound Norm CCProg CCSpec Engine
  CCShapes Public CovSpec Cov Rot.
Import ListNotations.

Notation ltab := (list (positive * (bool * option (list space)))).

Definition marked (tb : ltab) (f : positive * list ix) : bool :=
  match lookup_sym (fst f) tb with Some (b, _) => b | None => false end.
Definition nmarked (tb : ltab) (fs : list (positive * list ix)) : nat := List.length (filter (marked tb) fs).

Definition lin_chk (tb : ltab) (sh : list cls) (m : mono) : bool :=
  forallb (fac_typed tb sh (m_dm m)) (m_fs m) && Nat.eqb (nmarked tb (m_fs m)) 1.
Definition aff_chk (tb : ltab) (sh : list cls) (m : mono) : bool :=
  forallb (fac_typed tb sh (m_dm m)) (m_fs m) && Nat.leb (nmarked tb (m_fs m)) 1.

Section Lin.
  Variable K : cring.
  Local Open Scope K_scope.
  Add Ring Kr_lin : (c_th K).
  Variable n : space -> nat.
  Notation dim := (sp_dim n).
  Variables c d : K.
  Variables r1 r2 r3 : positive -> list nat -> K.
  Variable tb : ltab.
  Definition lin_num (b : bool) (x y z : K) : Prop := if b then z = c * x + d * y else x = z /\ y = z.
  Definition lin_arr (b : bool) (l : list space) (s t u : tensor K) : Prop :=
    if b then combined_array n c d l s t u else same_array n l s t u.
  Hypothesis Htb : Forall (sym_rel3 K bool n n n lin_num lin_arr r1 r2 r3) tb.

  Lemma fac_lin sh dm xs ds f : fac_typed tb sh dm f = true -> inrange (map dim sh) xs -> inrange (map dim dm) ds ->
    if marked tb f then den_fac K r3 xs ds f = c * den_fac K r1 xs ds f + d * den_fac K r2 xs ds f
    else den_fac K r1 xs ds f = den_fac K r3 xs ds f /\ den_fac K r2 xs ds f = den_fac K r3 xs ds f.
  Proof.
    unfold fac_typed, den_fac, marked. destruct f as [t is]. cbn [fst snd]. intros H Hx Hd.
    destruct (lookup_sym t tb) as [[b [l|]]|] eqn:E; [| |discriminate];
      apply lookup_in in E; rewrite Forall_forall in Htb; specialize (Htb _ E); unfold sym_rel3 in Htb; cbn [fst snd] in Htb.
    - pose proof (typed_inrange n sh dm xs ds is l H Hx Hd) as HI.
      destruct Htb as (a & b' & w & R & E1 & E2 & E3). unfold lin_arr in R. rewrite E1, E2, E3 by exact HI.
      destruct b; destruct R as (_ & _ & _ & R); apply R; exact HI.
    - destruct is; [|discriminate]. exact Htb.
  Qed.

  Lemma fs_lin sh dm xs ds fs : forallb (fac_typed tb sh dm) fs = true -> inrange (map dim sh) xs -> inrange (map dim dm) ds ->
    let p r := prodK (map (den_fac K r xs ds) fs) in
    (nmarked tb fs = 0%nat -> p r1 = p r3 /\ p r2 = p r3) /\ (nmarked tb fs = 1%nat -> p r3 = c * p r1 + d * p r2).
  Proof.
    intros H Hx Hd p. subst p. cbv beta. induction fs as [|f fs IH]; [split; [auto|discriminate]|].
    cbn [forallb] in H. apply andb_prop in H as (H1 & H2). destruct (IH H2) as (I0 & I1).
    pose proof (fac_lin sh dm xs ds f H1 Hx Hd) as F. unfold nmarked in *. cbn [filter map prodK].
    destruct (marked tb f) eqn:E; cbn [List.length].
    - split; [discriminate|]. intros L. injection L as L. destruct (I0 L) as (J1 & J2). rewrite F, J1, J2. ring.
    - destruct F as (F1 & F2). split; intros L.
      + destruct (I0 L) as (J1 & J2). rewrite F1, F2, J1, J2. auto.
      + rewrite (I1 L), F1, F2. ring.
  Qed.

  Lemma mono_lin sh m xs : lin_chk tb sh m = true -> inrange (map dim sh) xs ->
    den_mono K dim r3 xs m = c * den_mono K dim r1 xs m + d * den_mono K dim r2 xs m.
  Proof.
    unfold lin_chk. intros H Hx. apply andb_prop in H as (H1 & H2). apply Nat.eqb_eq in H2. unfold den_mono.
    transitivity (dyad (m_z m) (m_k m) * (sumL (map dim (m_dm m)) (fun ds => c * prodK (map (den_fac K r1 xs ds) (m_fs m)) + d * prodK (map (den_fac K r2 xs ds) (m_fs m))))).
    - f_equal. apply sumL_ext. intros ds Hd. apply (fs_lin sh (m_dm m) xs ds (m_fs m) H1 Hx Hd). exact H2.
    - rewrite sumL_add, !sumL_mul_l. ring.
  Qed.

  Lemma mono_aff sh m xs : c + d = 1 -> aff_chk tb sh m = true -> inrange (map dim sh) xs ->
    den_mono K dim r3 xs m = c * den_mono K dim r1 xs m + d * den_mono K dim r2 xs m.
  Proof.
    intros CD H Hx. unfold aff_chk in H. apply andb_prop in H as (H1 & H2). apply Nat.leb_le in H2.
    destruct (Nat.eq_dec (nmarked tb (m_fs m)) 1) as [E|E].
    - apply (mono_lin sh); auto. unfold lin_chk. rewrite H1, E. reflexivity.
    - assert (Z : nmarked tb (m_fs m) = 0%nat) by lia. unfold den_mono.
      assert (S1 : sumL (map dim (m_dm m)) (fun ds => prodK (map (den_fac K r1 xs ds) (m_fs m))) = sumL (map dim (m_dm m)) (fun ds => prodK (map (den_fac K r3 xs ds) (m_fs m)))).
      { apply sumL_ext. intros ds Hd. apply (fs_lin sh (m_dm m) xs ds (m_fs m) H1 Hx Hd). exact Z. }
      assert (S2 : sumL (map dim (m_dm m)) (fun ds => prodK (map (den_fac K r2 xs ds) (m_fs m))) = sumL (map dim (m_dm m)) (fun ds => prodK (map (den_fac K r3 xs ds) (m_fs m)))).
      { apply sumL_ext. intros ds Hd. apply (fs_lin sh (m_dm m) xs ds (m_fs m) H1 Hx Hd). exact Z. }
      rewrite S1, S2. transitivity ((c + d) * (dyad (m_z m) (m_k m) * sumL (map dim (m_dm m)) (fun ds => prodK (map (den_fac K r3 xs ds) (m_fs m))))); [|ring].
      rewrite CD. ring.
  Qed.

  Lemma den_comb (P : mono -> bool) xs ms :
    (forall m, P m = true -> den_mono K dim r3 xs m = c * den_mono K dim r1 xs m + d * den_mono K dim r2 xs m) ->
    forallb P ms = true -> den K dim r3 xs ms = c * den K dim r1 xs ms + d * den K dim r2 xs ms.
  Proof.
    intros HP H. unfold den. induction ms as [|m ms IH]; simpl; [ring|]. simpl in H. apply andb_prop in H as (H1 & H2).
    rewrite (IH H2), (HP m H1). ring.
  Qed.
End Lin.

Lemma qrelated3_comb (K : cring) n (c d : K) hs : forall l us vs ws, combined_args n c d hs l us vs ws ->
  map snd (combine hs l) = l /\ qrelated3 K bool (lin_num K c d) (lin_arr K n c d) (combine hs l) us vs ws.
Proof.
  induction hs as [|h hs IH]; intros [|s l] [|u us] [|v vs] [|w ws] H; try contradiction; [split; [reflexivity|exact I]|].
  destruct H as (H1 & H2). destruct (IH _ _ _ _ H2) as (E & Q). split; [cbn [combine map snd]; f_equal; exact E|].
  cbn [combine qrelated3]. split; [|exact Q]. destruct h; exact H1.
Qed.

Lemma comb_sound (K : cring) (P : ltab -> list cls -> mono -> bool) n (c d : K) hs f a r us vs ws :
  (forall r1 r2 r3 tb, Forall (sym_rel3 K bool n n n (lin_num K c d) (lin_arr K n c d) r1 r2 r3) tb ->
     forall sh m xs, P tb sh m = true -> inrange (map (sp_dim n) sh) xs ->
     den_mono K (sp_dim n) r3 xs m = cadd (cmul c (den_mono K (sp_dim n) r1 xs m)) (cmul d (den_mono K (sp_dim n) r2 xs m))) ->
  cov_chk P f (combine hs a) r = true ->
  combined_args n c d hs a us vs ws ->
  exists u v w, returns f us u /\ returns f vs v /\ returns f ws w /\ combined n c d r u v w.
Proof.
  intros HP HC HR. destruct (qrelated3_comb K n c d hs a us vs ws HR) as (E & HQ).
  refine (triple_sound K bool n n n (lin_num K c d) (lin_arr K n c d) (fun x y z => z = cadd (cmul c x) (cmul d y)) (combined_array n c d)
    P f (combine hs a) r us vs ws _ _ HC HQ).
  - intros q l t u w R. unfold lin_arr in R. destruct q; destruct R as (? & ? & ? & _); auto.
  - intros r1 r2 r3 HT. split.
    + intros ms Hm _. apply (den_comb K n c d r1 r2 r3 (P (symss (combine hs a) 1%positive) [])); [|exact Hm].
      intros m M. apply (HP r1 r2 r3 _ HT [] m []); [exact M|constructor].
    + intros l ms t u w Hm (S1 & _ & E1) (S2 & _ & E2) (S3 & _ & E3). cbn [s_sh s_ms] in *. rewrite map_sp_dim in S1, S2, S3.
      split; [exact S1|]. split; [exact S2|]. split; [exact S3|]. intros idx Hi.
      rewrite E1 by (rewrite S1; exact Hi). rewrite E2 by (rewrite S2; exact Hi). rewrite E3 by (rewrite S3; exact Hi).
      apply (den_comb K n c d r1 r2 r3 (P (symss (combine hs a) 1%positive) (map cl l))); [|exact Hm].
      intros m M. apply (HP r1 r2 r3 _ HT (map cl l) m idx); [exact M|]. rewrite map_sp_dim. exact Hi.
Qed.

Theorem lin_sound (K : cring) n (c d : K) hs f a r us vs ws :
  cov_chk lin_chk f (combine hs a) r = true -> combined_args n c d hs a us vs ws ->
  exists u v w, returns f us u /\ returns f vs v /\ returns f ws w /\ combined n c d r u v w.
Proof. apply comb_sound. intros r1 r2 r3 tb HT sh m xs. apply (mono_lin K n c d r1 r2 r3 tb HT). Qed.

Theorem aff_sound (K : cring) n (c d : K) hs f a r us vs ws : cadd c d = c1 ->
  cov_chk aff_chk f (combine hs a) r = true -> combined_args n c d hs a us vs ws ->
  exists u v w, returns f us u /\ returns f vs v /\ returns f ws w /\ combined n c d r u v w.
Proof. intros CD. apply comb_sound. intros r1 r2 r3 tb HT sh m xs. apply (mono_aff K n c d r1 r2 r3 tb HT); exact CD. Qed.

(** *** Maps of the scalars *)

Definition map_chk (tb : list (positive * (unit * option (list space)))) (sh : list cls) (m : mono) : bool :=
  forallb (fac_typed tb sh (m_dm m)) (m_fs m).

Section Map.
  Variables K1 K2 : cring.
  Add Ring Kr_map1 : (c_th K1).
  Add Ring Kr_map2 : (c_th K2).
  Variable h : K1 -> K2.
  Hypothesis Hh : ring_map h.

  Lemma h_1 : h c1 = c1. Proof. apply Hh. Qed.
  Lemma h_add x y : h (cadd x y) = cadd (h x) (h y). Proof. apply Hh. Qed.
  Lemma h_mul x y : h (cmul x y) = cmul (h x) (h y). Proof. apply Hh. Qed.
  Lemma h_0 : h c0 = c0.
  Proof.
    pose proof (h_add c0 c0) as E. replace (cadd (c0 : K1) c0) with (c0 : K1) in E by ring.
    transitivity (cadd (cadd (h c0) (h c0)) (copp (h c0))); [ring|rewrite <- E; ring].
  Qed.
  Lemma h_opp x : h (copp x) = copp (h x).
  Proof.
    transitivity (cadd (h (cadd (copp x) x)) (copp (h x))); [rewrite h_add; ring|].
    replace (cadd (copp x) x) with (c0 : K1) by ring. rewrite h_0. ring.
  Qed.
  Lemma h_half : h chalf = chalf.
  Proof.
    transitivity (cmul (cadd chalf chalf) (h chalf) : K2); [rewrite c_half; ring|].
    transitivity (cmul chalf (cadd (h chalf) (h chalf)) : K2); [ring|]. rewrite <- h_add, c_half, h_1. ring.
  Qed.
  Lemma h_dyad z k : h (dyad z k) = dyad z k.
  Proof.
    assert (P : forall p, h (pK p) = pK p).
    { induction p as [p IH|p IH|]; simpl; rewrite ?h_add, ?h_1, ?IH; reflexivity. }
    assert (H : h (halfpow k) = halfpow k).
    { induction k as [|k IH]; simpl; [apply h_1|]. rewrite h_mul, h_half, IH. reflexivity. }
    unfold dyad. rewrite h_mul, H. f_equal. destruct z; simpl; [apply h_0|apply P|rewrite h_opp, P; reflexivity].
  Qed.
  Lemma h_sumN k f : h (sumN k f) = sumN k (fun i => h (f i)).
  Proof. induction k as [|k IH]; simpl; [apply h_0|]. rewrite h_add, IH. reflexivity. Qed.
  Lemma h_sumL ns : forall f, h (sumL ns f) = sumL ns (fun l => h (f l)).
  Proof.
    induction ns as [|k ns IH]; intros f; simpl; [reflexivity|]. rewrite h_sumN. apply sumN_ext. intros i _. apply IH.
  Qed.
  Lemma h_prod l : h (prodK l) = prodK (map h l).
  Proof. induction l as [|x l IH]; simpl; [apply h_1|]. rewrite h_mul, IH. reflexivity. Qed.

  Variable n : space -> nat.
  Notation dim := (sp_dim n).
  Variable r1 : positive -> list nat -> K1.
  Variable r2 : positive -> list nat -> K2.
  Variable tb : list (positive * (unit * option (list space))).
  Hypothesis Htb : Forall (sym_rel K1 K2 unit n n (fun _ x y => y = h x) (fun _ => mapped_array n h) r1 r2) tb.

  Lemma fac_map sh dm xs ds f : fac_typed tb sh dm f = true -> inrange (map dim sh) xs -> inrange (map dim dm) ds ->
    den_fac K2 r2 xs ds f = h (den_fac K1 r1 xs ds f).
  Proof.
    unfold fac_typed, den_fac. destruct f as [t is]. cbn [fst snd]. intros H Hx Hd.
    destruct (lookup_sym t tb) as [[[] [l|]]|] eqn:E; [| |discriminate];
      apply lookup_in in E; rewrite Forall_forall in Htb; specialize (Htb _ E); unfold sym_rel in Htb; cbn [fst snd] in Htb.
    - pose proof (typed_inrange n sh dm xs ds is l H Hx Hd) as HI.
      destruct Htb as (a & b & (_ & _ & R) & E1 & E2). rewrite E1, E2 by exact HI. apply R. exact HI.
    - destruct is; [|discriminate]. exact Htb.
  Qed.

  Lemma den_map sh xs ms : forallb (map_chk tb sh) ms = true -> inrange (map dim sh) xs ->
    den K2 dim r2 xs ms = h (den K1 dim r1 xs ms).
  Proof.
    intros H Hx. unfold den. induction ms as [|m ms IH]; simpl; [symmetry; apply h_0|].
    simpl in H. apply andb_prop in H as (H1 & H2). rewrite (IH H2), h_add. f_equal. unfold den_mono.
    rewrite h_mul, h_dyad, h_sumL. f_equal. apply sumL_ext. intros ds Hd. rewrite h_prod, map_map. f_equal.
    apply map_ext_in. intros f Hf. unfold map_chk in H1. rewrite forallb_forall in H1. apply (fac_map sh (m_dm m)); auto.
  Qed.
End Map.

Theorem map_sound (K1 K2 : cring) (h : K1 -> K2) (n : space -> nat) f a r vs ws :
  ring_map h -> cov_chk map_chk f (map (pair tt) a) r = true ->
  related_args (mapped n h) a vs ws ->
  exists v w, returns f vs v /\ returns f ws w /\ mapped n h r v w.
Proof.
  intros Hh HC HR.
  refine (pair_sound K1 K2 unit n n (fun _ x y => y = h x) (fun _ => mapped_array n h) (fun x y => y = h x) (mapped_array n h) map_chk f (map (pair tt) a) r vs ws _ _ HC (qrelated_unit _ _ _ _ _ HR)).
  - intros _ l t u (H1 & H2 & _). auto.
  - intros r1 r2 HT. split.
    + intros ms Hm _. apply (den_map K1 K2 h Hh n r1 r2 _ HT [] [] ms Hm). constructor.
    + intros l ms t u Hm (S1 & _ & E1) (S2 & _ & E2). cbn [s_sh s_ms] in *. rewrite map_sp_dim in S1, S2.
      split; [exact S1|]. split; [exact S2|]. intros idx Hi. rewrite E1 by (rewrite S1; exact Hi). rewrite E2 by (rewrite S2; exact Hi).
      apply (den_map K1 K2 h Hh n r1 r2 _ HT (map cl l) idx ms Hm). rewrite map_sp_dim. exact Hi.
Qed.
