(** The quadratic form of a CI matrix is the expectation value of the Hamiltonian. *)
From Coq Require Import List Bool Arith ZArith Lia Ring Reals Lra.
From Verif Require Import Scalar Tensor CIModel CIRep CISpec CIFacts CIStrings CIBases CIFock CIMatrix CILemmas CIVec CIExpSpec CIExp
  FockStates UFockSpec CIExpU CCCI ExModel ExSpec ExRow RoundSpec VarSpec.
Import ListNotations.
Local Open Scope list_scope.

Lemma all_dets_in m s : In s (all_dets m) <-> List.length s = m.
Proof.
  revert s. induction m as [|m IH]; intros s; cbn [all_dets].
  - split; [intros [<-|[]]; reflexivity|]. destruct s; [left; reflexivity|discriminate].
  - rewrite in_app_iff, !in_map_iff. split.
    + intros [(t & <- & H)|(t & <- & H)]; apply IH in H; cbn; lia.
    + destruct s as [|[] s]; [discriminate| |]; intros H; injection H as H; [right|left]; exists s; (split; [reflexivity|apply IH; exact H]).
Qed.
Lemma nodup_app {A} (l m : list A) : NoDup l -> NoDup m -> (forall x, In x l -> In x m -> False) -> NoDup (l ++ m).
Proof.
  induction l as [|a l IH]; intros H1 H2 H; [exact H2|]. inversion H1 as [|? ? N H1']; subst. cbn. constructor.
  - rewrite in_app_iff. intros [I|I]; [contradiction|]. exact (H a (or_introl eq_refl) I).
  - apply IH; auto. intros x I J. exact (H x (or_intror I) J).
Qed.
Lemma all_dets_nodup m : NoDup (all_dets m).
Proof.
  induction m as [|m IH]; [constructor; [intros []|constructor]|]. cbn [all_dets]. apply nodup_app.
  - apply FinFun.Injective_map_NoDup; [intros x y H; injection H; auto|exact IH].
  - apply FinFun.Injective_map_NoDup; [intros x y H; injection H; auto|exact IH].
  - intros s H1 H2. apply in_map_iff in H1 as (t & <- & _). apply in_map_iff in H2 as (u & E & _). discriminate.
Qed.

Section Var.
  Variable K : cring.
  Local Open Scope K_scope.
  Add Ring KrVa : (c_th K).

  Lemma kd_sym (s t : det) : kd s t = kd t s :> K.
  Proof.
    unfold kd. destruct (det_eqb s t) eqn:E; [apply det_eqb_eq in E; subst; rewrite det_eqb_refl; reflexivity|].
    destruct (det_eqb t s) eqn:E'; [|reflexivity]. apply det_eqb_eq in E'. subst. rewrite det_eqb_refl in E. discriminate.
  Qed.
  Lemma comb_SL L (v : list K) s : combination L v s = SL (combine L v) (fun p => kd s (lst (fst p)) * snd p).
  Proof.
    unfold combination. change (SL (combine L v) (fun p => if det_eqb (fst (fst p) ++ snd (fst p)) s then snd p else 0)
      = SL (combine L v) (fun p => kd s (lst (fst p)) * snd p)).
    apply SL_ext. intros p _. rewrite kd_sym. unfold kd, lst. destruct det_eqb; ring.
  Qed.
  Lemma in_comb {A B} (l : list A) (m : list B) p : In p (combine l m) -> In (fst p) l.
  Proof. destruct p. apply in_combine_l. Qed.
  (** a sum over all determinants against a combination *)
  Lemma sum_comb m L (v : list K) f : (forall x, In x L -> List.length (lst x) = m) ->
    SL (all_dets m) (fun s => combination L v s * f s) = SL (combine L v) (fun p => snd p * f (lst (fst p))).
  Proof.
    intros HL. rewrite (SL_ext K _ _ (fun s => SL (combine L v) (fun p => snd p * (kd s (lst (fst p)) * f s)))).
    2: { intros s _. rewrite comb_SL, <- SL_mul_r. apply SL_ext. intros p _. ring. }
    rewrite SL_swap. apply SL_ext. intros p Ip. rewrite SL_mul. f_equal. apply delta_sum; [apply all_dets_nodup|].
    apply all_dets_in, HL. eapply in_comb. exact Ip.
  Qed.
  Lemma dot_SL (v : list K) {A} (g : A -> K) L : List.length v = List.length L ->
    dot v (map g L) = SL (combine L v) (fun p => snd p * g (fst p)).
  Proof.
    revert v. induction L as [|x L IH]; intros [|a v] H; try discriminate; [reflexivity|].
    injection H as H. cbn [map combine]. unfold dot in *. cbn [combine map]. rewrite SL_cons. cbn [lsum fst snd].
    rewrite <- (IH v H). reflexivity.
  Qed.
  Lemma comb_out L (w : list K) s : ~ In s (map lst L) -> combination L w s = 0.
  Proof.
    intros N. rewrite comb_SL. apply SL_zero. intros p Ip. unfold kd. destruct (det_eqb s (lst (fst p))) eqn:E; [|ring].
    apply det_eqb_eq in E. subst. exfalso. apply N. apply in_map. eapply in_comb. exact Ip.
  Qed.
  Lemma dot_comb L (v w : list K) : NoDup (map lst L) -> List.length v = List.length L -> List.length w = List.length L ->
    SL (combine L v) (fun p => snd p * combination L w (lst (fst p))) = dot v w.
  Proof.
    revert v w. induction L as [|x L IH]; intros [|a v] [|b w] N Hv Hw; try discriminate; [reflexivity|].
    injection Hv as Hv. injection Hw as Hw. cbn [map] in N. inversion N as [|? ? NI N']; subst.
    cbn [combine]. rewrite SL_cons. cbn [fst snd]. unfold dot. cbn [combine map lsum fst snd].
    fold (dot v w). rewrite <- (IH v w N' Hv Hw).
    assert (C : forall s, combination (x :: L) (b :: w) s = kd s (lst x) * b + combination L w s).
    { intros s. rewrite !comb_SL. cbn [combine]. rewrite SL_cons. reflexivity. }
    rewrite C, (comb_out L w (lst x) NI). unfold kd at 1. rewrite det_eqb_refl.
    assert (E : SL (combine L v) (fun p => snd p * combination (x :: L) (b :: w) (lst (fst p)))
      = SL (combine L v) (fun p => snd p * combination L w (lst (fst p)))).
    { apply SL_ext. intros p Ip. rewrite C. unfold kd. destruct (det_eqb (lst (fst p)) (lst x)) eqn:E; [|ring].
      apply det_eqb_eq in E. exfalso. apply NI. rewrite <- E. apply in_map. eapply in_comb. exact Ip. }
    rewrite E. cbn. ring.
  Qed.

  Variables (H : det -> det -> K) (m : nat) (L : list (det * det)).
  Hypothesis HL : forall x, In x L -> List.length (lst x) = m.
  Definition Hrows : list (list K) := map (fun x => map (fun y => H (lst x) (lst y)) L) L.
  Lemma combine_swap {A} (g : A -> K) l (w : list K) : List.length w = List.length l ->
    lsum (map (fun p => fst p * snd p) (combine (map g l) w)) = SL (combine l w) (fun q => g (fst q) * snd q).
  Proof.
    revert w. induction l as [|x l IH]; intros [|b w] E; try discriminate; [reflexivity|]. injection E as E.
    cbn [map combine lsum]. rewrite SL_cons, <- (IH w E). reflexivity.
  Qed.
  Lemma form_sandwich (v w : list K) : List.length v = List.length L -> List.length w = List.length L ->
    dot v (mat_vec Hrows w) = sandwich m H (combination L v) (combination L w).
  Proof.
    intros Hv Hw. unfold mat_vec, Hrows. rewrite map_map. rewrite (dot_SL v _ L Hv).
    unfold sandwich. change (SL (combine L v) (fun p => snd p * lsum (map (fun q => fst q * snd q)
        (combine (map (fun y => H (lst (fst p)) (lst y)) L) w)))
      = SL (all_dets m) (fun s => combination L v s * SL (all_dets m) (fun t => H s t * combination L w t))).
    rewrite (sum_comb m L v (fun s => SL (all_dets m) (fun t => H s t * combination L w t)) HL).
    apply SL_ext. intros p _. f_equal. rewrite (combine_swap _ L w Hw).
    rewrite (SL_ext K (all_dets m) _ (fun t => combination L w t * H (lst (fst p)) t)) by (intros; ring).
    rewrite (sum_comb m L w _ HL). apply SL_ext. intros q _. ring.
  Qed.
  Lemma form_inner (v w : list K) : NoDup (map lst L) -> List.length v = List.length L -> List.length w = List.length L ->
    dot v w = inner m (combination L v) (combination L w).
  Proof.
    intros N Hv Hw. rewrite <- (dot_comb L v w N Hv Hw). symmetry. exact (sum_comb m L v (combination L w) HL).
  Qed.
  Lemma dot_comm (u v : list K) : dot u v = dot v u.
  Proof.
    revert v. induction u as [|a u IH]; intros [|b v]; try reflexivity. unfold dot in *. cbn [combine map lsum fst snd].
    rewrite IH. ring.
  Qed.
  Lemma dot_scale (u v : list K) E : dot u (map (cmul E) v) = E * dot u v.
  Proof.
    revert v. induction u as [|a u IH]; intros [|b v]; try (unfold dot; cbn; ring). unfold dot in *. cbn [combine map lsum fst snd].
    rewrite IH. ring.
  Qed.
  Lemma sandwich_sym (phi psi : det -> K) : (forall s t, In s (all_dets m) -> In t (all_dets m) -> H s t = H t s \/ phi s = 0 \/ psi t = 0) ->
    sandwich m H phi psi = sandwich m (fun s t => H t s) phi psi.
  Proof.
    intros S. unfold sandwich. change (SL (all_dets m) (fun s => phi s * SL (all_dets m) (fun t => H s t * psi t))
      = SL (all_dets m) (fun s => phi s * SL (all_dets m) (fun t => H t s * psi t))).
    apply SL_ext. intros s Is. rewrite <- !SL_mul. apply SL_ext. intros t It.
    destruct (S s t Is It) as [->|[->| ->]]; ring.
  Qed.
  Lemma form_sym (v w : list K) : (forall x y, In x L -> In y L -> H (lst x) (lst y) = H (lst y) (lst x)) ->
    List.length v = List.length L -> List.length w = List.length L ->
    dot v (mat_vec Hrows w) = dot w (mat_vec Hrows v).
  Proof.
    intros S Hv Hw. unfold mat_vec, Hrows. rewrite !map_map. rewrite (dot_SL v _ L Hv), (dot_SL w _ L Hw).
    rewrite (SL_ext K (combine L v) _ (fun p => SL (combine L w) (fun q => snd p * (H (lst (fst p)) (lst (fst q)) * snd q)))).
    2: { intros p _. rewrite (combine_swap _ L w Hw), <- SL_mul. reflexivity. }
    rewrite SL_swap. apply SL_ext. intros q Iq. rewrite (combine_swap _ L v Hv), <- SL_mul. apply SL_ext. intros p Ip.
    rewrite (S (fst p) (fst q)) by (eapply in_comb; eassumption). ring.
  Qed.
End Var.

Lemma lst_inj n (L : list (det * det)) x y : (forall x, In x L -> List.length (fst x) = n) -> In x L -> In y L -> lst x = lst y -> x = y.
Proof.
  intros H Ix Iy E. unfold lst in E. apply (app_inv (fst x) (snd x) (fst y) (snd y)) in E as [E1 E2]; [destruct x, y; cbn in *; congruence|].
  rewrite (H x Ix), (H y Iy). reflexivity.
Qed.
Lemma nodup_lst n (L : list (det * det)) : (forall x, In x L -> List.length (fst x) = n) -> NoDup L -> NoDup (map lst L).
Proof.
  intros H. assert (X : forall l, incl l L -> NoDup l -> NoDup (map lst l)).
  { induction l as [|x l IH]; intros I N; [constructor|]. inversion N as [|? ? NI N']; subst. cbn [map]. constructor.
    - intros Hx. apply in_map_iff in Hx as (y & E & Iy). apply NI. assert (y = x); [|subst; exact Iy].
      apply (lst_inj n L); auto; apply I; [right; exact Iy|left; reflexivity].
    - apply IH; auto. intros y Iy. apply I. right. exact Iy. }
  apply X, incl_refl.
Qed.

Section Embed.
  Variable K : cring.
  Local Open Scope K_scope.
  Add Ring KrVarE : (c_th K).
  (** any function that vanishes outside a list without repetitions is a combination of it *)
  Lemma comb_tab L (psi : det -> K) s : NoDup (map lst L) -> (In s (map lst L) \/ psi s = 0) ->
    combination L (map (fun x => psi (lst x)) L) s = psi s.
  Proof.
    intros N [I|Z].
    - rewrite comb_SL. assert (Q : forall l, SL (combine l (map (fun x => psi (lst x)) l)) (fun p => kd s (lst (fst p)) * snd p)
        = SL (map lst l) (fun y => kd y s * psi y)).
      { induction l as [|x l IH]; [reflexivity|]. cbn [map combine]. rewrite !SL_cons, IH. cbn [fst snd]. rewrite (kd_sym K s (lst x)). reflexivity. }
      rewrite Q. apply delta_sum; assumption.
    - rewrite Z. rewrite comb_SL. apply SL_zero. intros p Ip. unfold kd.
      destruct (det_eqb s (lst (fst p))) eqn:E; [|ring]. apply det_eqb_eq in E.
      assert (snd p = 0); [|rewrite H; ring].
      assert (Q : forall l, In p (combine l (map (fun x => psi (lst x)) l)) -> snd p = psi (lst (fst p))).
      { induction l as [|x l IH]; [intros []|]. intros [<-|J]; [reflexivity|auto]. }
      rewrite (Q L Ip), <- E. exact Z.
  Qed.
  Lemma inner_ext m (f f' g g' : det -> K) : (forall s, List.length s = m -> f s = f' s) -> (forall s, List.length s = m -> g s = g' s) ->
    inner m f g = inner m f' g'.
  Proof.
    intros Hf Hg. unfold inner. change (SL (all_dets m) (fun s => f s * g s) = SL (all_dets m) (fun s => f' s * g' s)).
    apply SL_ext. intros s I. apply all_dets_in in I. rewrite Hf, Hg by exact I. reflexivity.
  Qed.
  Lemma sandwich_ext m H (f f' g g' : det -> K) : (forall s, List.length s = m -> f s = f' s) -> (forall s, List.length s = m -> g s = g' s) ->
    sandwich m H f g = sandwich m H f' g'.
  Proof.
    intros Hf Hg. unfold sandwich.
    change (SL (all_dets m) (fun s => f s * SL (all_dets m) (fun t => H s t * g t)) = SL (all_dets m) (fun s => f' s * SL (all_dets m) (fun t => H s t * g' t))).
    apply SL_ext. intros s I. apply all_dets_in in I. rewrite Hf by exact I. f_equal. apply SL_ext. intros t J. apply all_dets_in in J.
    rewrite Hg by exact J. reflexivity.
  Qed.
  Lemma comb_sector n na nb L (v : list K) : (forall x, In x L -> sector n na nb x) -> sector_state n na nb (combination L v).
  Proof.
    intros HS s Ls Nz. destruct (in_dec (list_eq_dec Bool.bool_dec) s (map lst L)) as [I|I].
    - apply in_map_iff in I as (x & <- & Ix). destruct (HS x Ix) as (A & B & C & D). unfold lst.
      rewrite firstn_app, skipn_app, A, Nat.sub_diag, firstn_all2, skipn_all2 by lia. cbn. rewrite app_nil_r. auto.
    - exfalso. apply Nz. apply comb_out. exact I.
  Qed.
End Embed.

Section Ci.
  Variable K : cring.
  Local Open Scope K_scope.
  Add Ring KrVarC : (c_th K).
  Variables (n na nb : nat) (ha hb Ia Ib Iab : tensor K) (c : K).
  Hypothesis HI : integrals_ok n ha hb Ia Ib Iab.
  Notation H := (hamiltonian n ha hb Ia Ib Iab c).
  Lemma ci_rows L : sector_basis n na nb L -> ci_matrix (map dpair L) ha hb Ia Ib Iab c = Some (Hrows K H L).
  Proof.
    intros [ND InS]. destruct HI as (A & B & C & D & E & F & G).
    exact (ci_matrix_ok K n na nb ha hb Ia Ib Iab A B C D E F G c L InS).
  Qed.
  Lemma sb_len L : sector_basis n na nb L -> forall x, In x L -> List.length (lst x) = (n + n)%nat.
  Proof. intros [_ S] x I. destruct (S x I) as (A & B & _). unfold lst. rewrite app_length. lia. Qed.
  Lemma sb_nd L : sector_basis n na nb L -> NoDup (map lst L).
  Proof. intros [N S]. apply (nodup_lst n); [|exact N]. intros x I. apply (S x I). Qed.
  Lemma quad L (v w : list K) : sector_basis n na nb L -> List.length v = List.length L -> List.length w = List.length L ->
    dot v (mat_vec (Hrows K H L) w) = sandwich (n + n) H (combination L v) (combination L w) /\
    dot v w = inner (n + n) (combination L v) (combination L w).
  Proof.
    intros S Hv Hw. split; [apply form_sandwich|apply form_inner]; auto using (sb_len L S), (sb_nd L S).
  Qed.
  Lemma in_split s : List.length s = (n + n)%nat -> lst (firstn n s, skipn n s) = s.
  Proof. intros _. unfold lst. cbn. apply firstn_skipn. Qed.
  Lemma state_complete L (psi : det -> K) : (forall x, sector n na nb x -> In x L) -> sector_state n na nb psi ->
    forall s, List.length s = (n + n)%nat -> ~ In s (map lst L) -> psi s <> 0 -> False.
  Proof.
    intros Cp S s Ls N Z. destruct (S s Ls Z) as [A B]. apply N. apply in_map_iff. exists (firstn n s, skipn n s).
    split; [apply in_split; exact Ls|]. apply Cp. repeat split; cbn; auto; [rewrite firstn_length; lia|rewrite skipn_length; lia].
  Qed.
  Lemma eig_len (M : list (list K)) v E : eigenvector M v E -> List.length v = List.length M.
  Proof. intros Q. assert (X := f_equal (@List.length K) Q). unfold mat_vec in X. rewrite !map_length in X. lia. Qed.
  Lemma rows_len L : List.length (Hrows K H L) = List.length L.
  Proof. apply map_length. Qed.
  Lemma rows_entry L (v : list K) : sector_basis n na nb L -> List.length v = List.length L ->
    mat_vec (Hrows K H L) v = map (fun x => lsum (map (fun t => H (lst x) t * combination L v t) (all_dets (n + n)))) L.
  Proof.
    intros S Hv. unfold mat_vec, Hrows. rewrite map_map. apply map_ext_in. intros x Ix.
    rewrite (combine_swap K (fun y => H (lst x) (lst y)) L v Hv).
    change (SL (combine L v) (fun q => H (lst x) (lst (fst q)) * snd q) = SL (all_dets (n + n)) (fun t => H (lst x) t * combination L v t)).
    rewrite (SL_ext K (all_dets _) _ (fun t => combination L v t * H (lst x) t)) by (intros; ring).
    rewrite (sum_comb K (n + n) L v _ (sb_len L S)). apply SL_ext. intros. ring.
  Qed.
  Lemma comb_entry L (v : list K) : sector_basis n na nb L -> List.length v = List.length L -> v = map (fun x => combination L v (lst x)) L.
  Proof.
    intros S. pose proof (sb_nd L S) as N. clear S. revert v N. induction L as [|x l IH]; intros [|a v] N Hv; try discriminate; [reflexivity|].
    injection Hv as Hv. cbn [map] in N. inversion N as [|? ? NI N']; subst.
    assert (C : forall s, combination (x :: l) (a :: v) s = kd s (lst x) * a + combination l v s).
    { intros s. rewrite !comb_SL. cbn [combine]. rewrite SL_cons. reflexivity. }
    cbn [map]. f_equal.
    - rewrite C, (comb_out K l v (lst x) NI). unfold kd. rewrite det_eqb_refl. ring.
    - rewrite (IH v N' Hv) at 1. apply map_ext_in. intros y Iy. rewrite C. unfold kd.
      destruct (det_eqb (lst y) (lst x)) eqn:E; [|ring]. apply det_eqb_eq in E. exfalso. apply NI. rewrite <- E. apply in_map. exact Iy.
  Qed.
  Lemma eigen_state L (v : list K) E : sector_basis n na nb L -> List.length v = List.length L ->
    (eigenvector (Hrows K H L) v E <-> forall x, In x L ->
       lsum (map (fun t => H (fst x ++ snd x) t * combination L v t) (all_dets (n + n))) = E * combination L v (fst x ++ snd x)).
  Proof.
    intros S Hv. unfold eigenvector. rewrite (rows_entry L v S Hv). replace (map (cmul E) v) with (map (fun x => E * combination L v (lst x)) L) by (rewrite <- (map_map (fun x => combination L v (lst x)) (cmul E)), <- (comb_entry L v S Hv); reflexivity).
    split.
    - intros Q x Ix. exact (proj1 map_ext_in_iff Q x Ix).
    - intros Q. apply map_ext_in. exact Q.
  Qed.
End Ci.

Section Real.
  Local Open Scope R_scope.
  Variables (n na nb : nat) (ha hb Ia Ib Iab : tensor RK) (c : RK).
  Notation H := (hamiltonian n ha hb Ia Ib Iab c).
  Lemma dot_pos (v : list RK) : 0 <= dot v v.
  Proof.
    induction v as [|a v IH]; [unfold dot; cbn; lra|]. unfold dot in *. cbn [combine map lsum fst snd]. cbn [cadd cmul RK].
    pose proof (Rle_0_sqr a). unfold Rsqr in *. change (0 <= a * a + dot v v). unfold dot. lra.
  Qed.
  Lemma dot_nonzero v : nonzero v -> 0 < dot v v.
  Proof.
    induction v as [|a v IH]; intros (x & I & N); [destruct I|].
    change (0 < a * a + dot v v). destruct I as [->|I].
    - pose proof (Rlt_0_sqr x N). unfold Rsqr in *. pose proof (dot_pos v). lra.
    - pose proof (Rle_0_sqr a). unfold Rsqr in *. pose proof (IH (ex_intro _ x (conj I N))). lra.
  Qed.
  Lemma above (v : list RK) (M : list (list RK)) (e E : R) : nonzero v -> eigenvector (K := RK) M v E -> e * dot v v <= dot v (mat_vec (K := RK) M v) -> e <= E.
  Proof.
    intros N Q B. rewrite Q in B. rewrite (dot_scale RK v v E) in B. cbn [cmul RK] in B. pose proof (dot_nonzero v N).
    apply (Rmult_le_reg_r (dot v v)); assumption.
  Qed.
  Hypothesis HI : integrals_ok n ha hb Ia Ib Iab.
  Lemma bound_form L e : sector_basis n na nb L -> energy_bound n na nb H e -> form_bound (List.length L) (mat_vec (K := RK) (Hrows RK H L)) e.
  Proof.
    intros S B v Hv. destruct (quad RK n na nb ha hb Ia Ib Iab c L v v S Hv Hv) as [-> ->]. apply B. apply comb_sector. apply S.
  Qed.
  Lemma sub_form L L' e : sector_basis n na nb L' -> NoDup L -> incl L L' ->
    form_bound (List.length L') (mat_vec (K := RK) (Hrows RK H L')) e -> form_bound (List.length L) (mat_vec (K := RK) (Hrows RK H L)) e.
  Proof.
    intros S' N I B v Hv. assert (S : sector_basis n na nb L) by (split; [exact N|intros x Ix; apply S', I, Ix]).
    destruct (quad RK n na nb ha hb Ia Ib Iab c L v v S Hv Hv) as [-> ->].
    set (v' := map (fun x => combination L v (lst x)) L').
    assert (E : forall s, combination L' v' s = combination L v s).
    { intros s. apply comb_tab; [apply (sb_nd n na nb _ S')|].
      destruct (in_dec (list_eq_dec Bool.bool_dec) s (map lst L')) as [J|J]; [left; exact J|right]. apply comb_out. intros J'. apply J.
      apply in_map_iff in J' as (x & <- & Ix). apply in_map, I, Ix. }
    assert (Lv' : List.length v' = List.length L') by apply map_length.
    pose proof (B v' Lv') as B'. destruct (quad RK n na nb ha hb Ia Ib Iab c L' v' v' S' Lv' Lv') as [Q1 Q2]. rewrite Q1, Q2 in B'.
    rewrite (inner_ext RK _ _ (combination L v) _ (combination L v)) in B' by (intros; apply E).
    rewrite (sandwich_ext RK _ _ _ (combination L v) _ (combination L v)) in B' by (intros; apply E). exact B'.
  Qed.
  Lemma form_energy L e : sector_basis n na nb L -> (forall x, sector n na nb x -> In x L) ->
    form_bound (List.length L) (mat_vec (K := RK) (Hrows RK H L)) e -> energy_bound n na nb H e.
  Proof.
    intros S Cp B psi Hp. set (v := map (fun x => psi (lst x)) L). assert (Hv : List.length v = List.length L) by apply map_length.
    assert (E : forall s, List.length s = (n + n)%nat -> psi s = combination L v s).
    { intros s Ls. symmetry. apply comb_tab; [apply (sb_nd n na nb _ S)|].
      destruct (in_dec (list_eq_dec Bool.bool_dec) s (map lst L)) as [J|J]; [left; exact J|right].
      destruct (Req_dec (psi s) 0) as [Z|Z]; [exact Z|]. destruct (state_complete RK n na nb L psi Cp Hp s Ls J Z). }
    rewrite (inner_ext RK _ _ (combination L v) _ (combination L v)) by (exact E).
    rewrite (sandwich_ext RK _ _ _ (combination L v) _ (combination L v)) by (exact E).
    destruct (quad RK n na nb ha hb Ia Ib Iab c L v v S Hv Hv) as [<- <-]. apply B. exact Hv.
  Qed.
  Lemma orth L (v w : list RK) E E' : sector_basis n na nb L -> symmetric_h n ha -> symmetric_h n hb -> symmetric_I n Ia -> symmetric_I n Ib -> symmetric_I n Iab ->
    eigenvector (K := RK) (Hrows RK H L) v E -> eigenvector (K := RK) (Hrows RK H L) w E' -> E <> E' -> dot v w = 0.
  Proof.
    intros S A1 A2 A3 A4 A5 Q Q' NE. pose proof (eig_len RK _ _ _ Q) as Lv. pose proof (eig_len RK _ _ _ Q') as Lw. rewrite rows_len in Lv, Lw.
    assert (Y : dot v (mat_vec (K := RK) (Hrows RK H L) w) = dot w (mat_vec (K := RK) (Hrows RK H L) v)).
    { apply form_sym; auto. intros x y _ _. unfold hamiltonian. apply H_spatial_sym; assumption. }
    rewrite Q, Q' in Y. rewrite !(dot_scale RK) in Y. rewrite (dot_comm RK w v) in Y. cbn [cmul RK] in Y.
    assert (Z0 : (E - E') * dot v w = 0) by lra. apply Rmult_integral in Z0 as [Z|Z]; [lra|exact Z].
  Qed.
  Lemma unit_energy L x : sector_basis n na nb L -> In x L -> forall e,
    form_bound (List.length L) (mat_vec (K := RK) (Hrows RK H L)) e -> e <= H (lst x) (lst x).
  Proof.
    intros S Ix e B. assert (S1 : sector_basis n na nb [x]).
    { split; [repeat constructor; intros []|intros y [<-|[]]; apply S, Ix]. }
    pose proof (sub_form [x] L e S (proj1 S1) ltac:(intros y [<-|[]]; exact Ix) B [1] eq_refl) as Q.
    unfold dot, mat_vec, Hrows in Q. cbn [map combine lsum fst snd] in Q. set (h := H (lst x) (lst x)) in *. clearbody h. cbn in Q. lra.
  Qed.
End Real.
