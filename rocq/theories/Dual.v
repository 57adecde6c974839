(** Symbolic polynomials evaluated at dual numbers: derivatives and linear
    parts. *)
From Coq Require Import List Bool Arith ZArith Lia Ring String.
From Verif Require Import Scalar Tensor PySyntax PySem PySim Sym SymSound Norm CCProg CCSpec Engine.
Import ListNotations.

(** replace one occurrence of a varied input by its increment, in all ways *)
Fixpoint d_facs (N : positive -> option positive) (fs : list fac) : list (list fac) :=
  match fs with
  | [] => []
  | f :: fs' =>
      match N (fst f) with
      | Some t => ((t, snd f) :: fs') :: map (cons f) (d_facs N fs')
      | None => map (cons f) (d_facs N fs')
      end
  end.
Definition d_mono (N : positive -> option positive) (m : mono) : list mono :=
  map (Mono (m_z m) (m_k m) (m_dm m)) (d_facs N (m_fs m)).
Definition d_poly (N : positive -> option positive) (ms : list mono) : list mono :=
  flat_map (d_mono N) ms.

(** number of factors among the inputs [N] *)
Fixpoint deg (N : positive -> bool) (fs : list fac) : nat :=
  match fs with [] => 0 | f :: fs' => if N (fst f) then S (deg N fs') else deg N fs' end.
Definition low (N : positive -> bool) (ms : list mono) : list mono :=
  filter (fun m => Nat.leb (deg N (m_fs m)) 1) ms.

Section DualSound.
  Variable K : cring.
  Local Open Scope K_scope.
  Add Ring KrD : (c_th K).
  Notation DK := (DualK K).

  Lemma fst_add (x y : DK) : fst (cadd x y) = cadd (fst x) (fst y).
  Proof. destruct x, y. reflexivity. Qed.
  Lemma snd_add (x y : DK) : snd (cadd x y) = cadd (snd x) (snd y).
  Proof. destruct x, y. reflexivity. Qed.
  Lemma fst_mul (x y : DK) : fst (cmul x y) = cmul (fst x) (fst y).
  Proof. destruct x, y. reflexivity. Qed.
  Lemma snd_mul (x y : DK) : snd (cmul x y) = fst x * snd y + snd x * fst y.
  Proof. destruct x, y. simpl. ring. Qed.

  Lemma fst_sumN n (f : nat -> DK) : fst (sumN n f) = sumN n (fun i => fst (f i)).
  Proof. induction n; simpl; auto. rewrite IHn. reflexivity. Qed.
  Lemma snd_sumN n (f : nat -> DK) : snd (sumN n f) = sumN n (fun i => snd (f i)).
  Proof. induction n; simpl; auto. rewrite IHn. reflexivity. Qed.
  Lemma fst_sumL ns : forall (f : list nat -> DK), fst (sumL ns f) = sumL ns (fun i => fst (f i)).
  Proof.
    induction ns as [|n ns IH]; intros f; simpl; auto. rewrite fst_sumN. apply sumN_ext.
    intros i _. apply IH.
  Qed.
  Lemma snd_sumL ns : forall (f : list nat -> DK), snd (sumL ns f) = sumL ns (fun i => snd (f i)).
  Proof.
    induction ns as [|n ns IH]; intros f; simpl; auto. rewrite snd_sumN. apply sumN_ext.
    intros i _. apply IH.
  Qed.

  Lemma pK_dual p : @pK DK p = (pK p, 0).
  Proof.
    induction p as [p IH|p IH|]; simpl.
    - rewrite IH. apply injective_projections; cbn; ring.
    - rewrite IH. apply injective_projections; cbn; ring.
    - reflexivity.
  Qed.
  Lemma zK_dual z : @zK DK z = (zK z, 0).
  Proof. destruct z; simpl; rewrite ?pK_dual; apply injective_projections; cbn; ring. Qed.
  Lemma halfpow_dual k : @halfpow DK k = (halfpow k, 0).
  Proof. induction k; simpl; [reflexivity|]. rewrite IHk. apply injective_projections; cbn; ring. Qed.
  Lemma dyad_dual z k : @dyad DK z k = (dyad z k, 0).
  Proof. unfold dyad. rewrite zK_dual, halfpow_dual. apply injective_projections; cbn; ring. Qed.

  Variable dim : cls -> nat.
  Variable rho : positive -> list nat -> K.

  (** *** Derivative *)
  Variable N : positive -> option positive.
  Definition rho_d (t : positive) (idx : list nat) : DK :=
    (rho t idx, match N t with Some u => rho u idx | None => 0 end).

  Lemma lsum_map_mul_l {A} a (f : A -> K) l :
    lsum (map (fun x => a * f x) l) = a * lsum (map f l).
  Proof. rewrite <- lsum_mul_l, map_map. reflexivity. Qed.

  Lemma prod_d xs ds fs :
    prodK (map (den_fac DK rho_d xs ds) fs) =
    (prodK (map (den_fac K rho xs ds) fs),
     lsum (map (fun gs => prodK (map (den_fac K rho xs ds) gs)) (d_facs N fs))).
  Proof.
    induction fs as [|f fs IH]; [reflexivity|].
    change (prodK (map (den_fac DK rho_d xs ds) (f :: fs))) with
      (cmul (den_fac DK rho_d xs ds f) (prodK (map (den_fac DK rho_d xs ds) fs))).
    rewrite IH. clear IH. apply injective_projections; cbn.
    - reflexivity.
    - destruct (N (fst f)) as [u|]; simpl; rewrite ?map_map; simpl;
        rewrite lsum_map_mul_l; unfold den_fac, fac; simpl; ring.
  Qed.

  Lemma den_mono_d xs m :
    den_mono DK dim rho_d xs m = (den_mono K dim rho xs m, den K dim rho xs (d_mono N m)).
  Proof.
    unfold den_mono at 1. rewrite dyad_dual.
    set (S := sumL _ _).
    assert (H1 : fst S = sumL (map dim (m_dm m)) (fun ds => prodK (map (den_fac K rho xs ds) (m_fs m)))).
    { unfold S. rewrite fst_sumL. apply sumL_ext. intros ds _. rewrite prod_d. reflexivity. }
    assert (H2 : snd S = lsum (map (fun gs => sumL (map dim (m_dm m))
        (fun ds => prodK (map (den_fac K rho xs ds) gs))) (d_facs N (m_fs m)))).
    { unfold S. rewrite snd_sumL. rewrite <- sumL_lsum. apply sumL_ext. intros ds _.
      rewrite prod_d. reflexivity. }
    destruct S as [s1 s2]. simpl in H1, H2. subst s1 s2.
    apply injective_projections; cbn.
    - unfold den_mono. ring.
    - unfold den, d_mono. rewrite map_map. unfold den_mono. cbn.
      rewrite lsum_map_mul_l. ring.
  Qed.

  Lemma den_d xs ms :
    den DK dim rho_d xs ms = (den K dim rho xs ms, den K dim rho xs (d_poly N ms)).
  Proof.
    induction ms as [|m ms IH]; [reflexivity|]. 
    change (den DK dim rho_d xs (m :: ms)) with
      (cadd (den_mono DK dim rho_d xs m) (den DK dim rho_d xs ms)).
    rewrite IH, den_mono_d. unfold d_poly. simpl flat_map. rewrite den_app. reflexivity.
  Qed.

  Lemma snd_arr a (t : tensor DK) : Rarr DK dim rho_d a t ->
    Rarr K dim rho (STens (s_sh a) (d_poly N (s_ms a))) (mkT (shp t) (fun i => snd (dat t i))).
  Proof.
    intros (Hs & Ho & Hd). split; [exact Hs|]. split.
    - simpl. unfold d_poly. apply Forall_flat_map. eapply Forall_impl; [|exact Ho].
      intros m Hm. unfold d_mono. apply Forall_map.
      destruct m as [z k dm fs]. unfold m_ok in *. simpl in *. revert Hm.
      generalize (List.length (s_sh a)) (List.length dm). intros r d Hm. clear - Hm.
      induction fs as [|f fs IH]; simpl; [constructor|].
      inversion Hm as [|? ? H1 H2]; subst. specialize (IH H2).
      assert (HH : Forall (fun l => Forall (fun p => Forall (ix_ok r d) (snd p)) l)
                     (map (cons f) (d_facs N fs))).
      { apply Forall_map. eapply Forall_impl; [|exact IH]. intros l Hl. constructor; auto. }
      destruct (N (fst f)); [constructor; [|exact HH]|exact HH]. constructor; auto.
    - intros idx Hi. simpl. rewrite Hd by auto. rewrite den_d. reflexivity.
  Qed.

  Lemma snd_num a (x : DK) : Rnum DK dim rho_d a x -> Rnum K dim rho (d_poly N a) (snd x).
  Proof.
    intros (Ho & ->).
    pose proof (snd_arr (STens [] a) (mkT [] (fun _ => den DK dim rho_d [] a))) as H.
    destruct H as (_ & H1 & H2).
    - split; [reflexivity|]. split; [exact Ho|]. intros idx Hi. inversion Hi; subst. reflexivity.
    - split; [exact H1|]. apply (H2 []). constructor.
  Qed.
End DualSound.

(** *** Linear part *)
Section LowSound.
  Variable K : cring.
  Local Open Scope K_scope.
  Add Ring KrE : (c_th K).
  Notation DK := (DualK K).
  Variable dim : cls -> nat.
  Variable rho : positive -> list nat -> K.
  Variable N : positive -> bool.
  Definition rho_e (t : positive) (idx : list nat) : DK :=
    if N t then (0, rho t idx) else (rho t idx, 0).

  Lemma prod_e xs ds fs :
    prodK (map (den_fac DK rho_e xs ds) fs) =
    match deg N fs with
    | 0%nat => (prodK (map (den_fac K rho xs ds) fs), 0)
    | 1%nat => (0, prodK (map (den_fac K rho xs ds) fs))
    | _ => (0, 0)
    end.
  Proof.
    induction fs as [|f fs IH]; [reflexivity|].
    change (prodK (map (den_fac DK rho_e xs ds) (f :: fs))) with
      (cmul (den_fac DK rho_e xs ds f) (prodK (map (den_fac DK rho_e xs ds) fs))).
    rewrite IH. clear IH. simpl deg. unfold den_fac at 1, rho_e.
    destruct (N (fst f)); destruct (deg N fs) as [|[|n]]; apply injective_projections; cbn;
      unfold den_fac; ring.
  Qed.

  Definition parts (x : DK) : K := fst x + snd x.

  Lemma den_mono_e xs m :
    parts (den_mono DK dim rho_e xs m) =
    if Nat.leb (deg N (m_fs m)) 1 then den_mono K dim rho xs m else 0.
  Proof.
    unfold den_mono at 1. rewrite dyad_dual. unfold parts. rewrite fst_mul, snd_mul.
    rewrite fst_sumL, snd_sumL. simpl fst. simpl snd.
    unfold den_mono. destruct (deg N (m_fs m)) as [|[|n]] eqn:E; simpl Nat.leb; cbv iota.
    - rewrite (sumL_ext K _ _ (fun ds => prodK (map (den_fac K rho xs ds) (m_fs m)))).
      2: { intros ds _. rewrite prod_e, E. reflexivity. }
      rewrite (sumL_ext K _ (fun i => snd _) (fun ds => 0)).
      2: { intros ds _. rewrite prod_e, E. reflexivity. }
      rewrite sumL_0. ring.
    - rewrite (sumL_ext K _ (fun i => snd _) (fun ds => prodK (map (den_fac K rho xs ds) (m_fs m)))).
      2: { intros ds _. rewrite prod_e, E. reflexivity. }
      rewrite (sumL_ext K _ (fun i => fst _) (fun ds => 0)).
      2: { intros ds _. rewrite prod_e, E. reflexivity. }
      rewrite sumL_0. ring.
    - rewrite (sumL_ext K _ (fun i => snd _) (fun ds => 0)).
      2: { intros ds _. rewrite prod_e, E. reflexivity. }
      rewrite (sumL_ext K _ (fun i => fst _) (fun ds => 0)).
      2: { intros ds _. rewrite prod_e, E. reflexivity. }
      rewrite sumL_0. ring.
  Qed.

  Lemma parts_add x y : parts (cadd x y) = parts x + parts y.
  Proof. unfold parts. rewrite fst_add, snd_add. ring. Qed.

  Lemma den_e xs ms : parts (den DK dim rho_e xs ms) = den K dim rho xs (low N ms).
  Proof.
    induction ms as [|m ms IH].
    - unfold parts. cbn. ring.
    - change (den DK dim rho_e xs (m :: ms)) with
        (cadd (den_mono DK dim rho_e xs m) (den DK dim rho_e xs ms)).
      rewrite parts_add, IH, den_mono_e. unfold low. simpl.
      destruct (Nat.leb (deg N (m_fs m)) 1); [reflexivity|]. ring.
  Qed.

  Lemma parts_arr a (t : tensor DK) : Rarr DK dim rho_e a t ->
    Rarr K dim rho (STens (s_sh a) (low N (s_ms a))) (mkT (shp t) (fun i => parts (dat t i))).
  Proof.
    intros (Hs & Ho & Hd). split; [exact Hs|]. split.
    - simpl. unfold low. apply incl_Forall with (2 := Ho). intros x Hx.
      apply filter_In in Hx. tauto.
    - intros idx Hi. simpl. rewrite Hd by auto. apply den_e.
  Qed.
End LowSound.
