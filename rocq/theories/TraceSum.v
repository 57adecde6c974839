(** Traces of complete density matrices from the traces of their blocks. *)
From Coq Require Import List Bool Arith Lia Ring.
From Verif Require Import Scalar Tensor KFacts TraceSpec.
Import ListNotations.

Section Sum.
  Variable K : cring.
  Local Open Scope K_scope.
  Add Ring KrTrS : (c_th K).

  Lemma sumN_one n : sumN n (fun _ => 1 : K) = nK K n.
  Proof. induction n as [|n IH]; [reflexivity|]. cbn. rewrite IH. ring. Qed.
  Lemma sumN_sub n (f g : nat -> K) : sumN n (fun i => f i - g i) = sumN n f - sumN n g.
  Proof. induction n as [|n IH]; cbn; [ring|]. rewrite IH. ring. Qed.

  Lemma place_occ no i : (i < no)%nat -> is_virt no i = false /\ place no i = i.
  Proof. intros H. unfold is_virt, place. rewrite (proj2 (Nat.leb_gt no i)) by exact H. auto. Qed.
  Lemma place_virt no a : is_virt no (no + a) = true /\ place no (no + a) = a.
  Proof. unfold is_virt, place. rewrite (proj2 (Nat.leb_le no (no + a))) by lia. split; [reflexivity|lia]. Qed.
  Definition ext (no nv : nat) (v : bool) : nat := if v then nv else no.
  Lemma place_lt no nv p : (p < no + nv)%nat -> (place no p < ext no nv (is_virt no p))%nat.
  Proof. unfold is_virt, place, ext. destruct (Nat.leb_spec no p); lia. Qed.

  Lemma reference_sum no nv (f : nat -> K) p : (p < no + nv)%nat ->
    sumN (no + nv) (fun q => reference no p q * f q) = if is_virt no p then 0 else f p.
  Proof.
    intros Hp. rewrite <- (sumN_pick K (no + nv) p (fun q => if is_virt no p then 0 else f q) Hp).
    apply sumN_ext. intros q _. unfold reference, is_virt. rewrite Nat.ltb_antisym.
    destruct (Nat.eqb p q), (Nat.leb no p); cbn; ring.
  Qed.
  Lemma reference_sym no p q : reference (K := K) no p q = reference no q p.
  Proof.
    unfold reference. rewrite (Nat.eqb_sym q p). destruct (Nat.eqb_spec p q) as [->|]; reflexivity.
  Qed.
  Lemma reference_trace no nv : sumN (no + nv) (fun q => reference no q q : K) = nK K no.
  Proof.
    rewrite sumN_plus, <- sumN_one.
    rewrite (sumN_ext K nv _ (fun _ => 0)), sumN_0.
    - transitivity (sumN no (fun q => reference no q q : K)); [ring|]. apply sumN_ext. intros i Hi.
      unfold reference. rewrite Nat.eqb_refl, (proj2 (Nat.ltb_lt i no)) by exact Hi. reflexivity.
    - intros a _. unfold reference. rewrite (proj2 (Nat.ltb_ge _ _)) by lia. rewrite andb_false_r. reflexivity.
  Qed.

  Section One.
    Variables no nv : nat.
    Variable g : bool -> bool -> tensor K.
    Hypothesis Hg : sumN no (fun i => dat (g false false) [i; i]) + sumN nv (fun a => dat (g true true) [a; a]) = 0.
    Lemma corr_trace : sumN (no + nv) (fun p => all2 no g p p) = 0.
    Proof.
      rewrite sumN_plus, <- Hg. f_equal; apply sumN_ext; intros i Hi; unfold all2.
      - destruct (place_occ no i Hi) as [-> ->]. reflexivity.
      - destruct (place_virt no i) as [-> ->]. reflexivity.
    Qed.
    Lemma gamma_trace : sumN (no + nv) (fun p => gamma no (all2 no g) p p) = nK K no.
    Proof. unfold gamma. rewrite sumN_add, corr_trace, reference_trace. ring. Qed.
  End One.

  (** electrons of different kinds; the second index pair is traced *)
  Section Mixed.
    Variables no nv no' nv' : nat.
    Variables g g' : bool -> bool -> tensor K.
    Variable G : bool -> bool -> bool -> bool -> tensor K.
    Lemma mixed_second :
      sumN no' (fun i => dat (g' false false) [i; i]) + sumN nv' (fun a => dat (g' true true) [a; a]) = 0 ->
      (forall a b x y, (x < ext no nv a)%nat -> (y < ext no nv b)%nat ->
        sumN no' (fun k => dat (G a false b false) [x; k; y; k]) + sumN nv' (fun k => dat (G a true b true) [x; k; y; k]) = 0) ->
      forall p r, (p < no + nv)%nat -> (r < no + nv)%nat ->
      sumN (no' + nv') (fun q => Gamma_mixed no no' (all2 no g) (all2 no' g') (all4 no no' G) p q r q) =
      nK K no' * gamma no (all2 no g) p r.
    Proof.
      intros Hg HG p r Hp Hr. unfold Gamma_mixed.
      rewrite !sumN_add, !sumN_mul_l, !sumN_mul_r, (corr_trace no' nv' g' Hg), reference_trace.
      replace (sumN (no' + nv') (fun q => all4 no no' G p q r q)) with (0 : K); [unfold gamma; ring|].
      rewrite sumN_plus. rewrite <- (HG (is_virt no p) (is_virt no r) (place no p) (place no r)) by (apply place_lt; assumption).
      f_equal; apply sumN_ext; intros i Hi; unfold all4.
      - destruct (place_occ no' i Hi) as [-> ->]. reflexivity.
      - destruct (place_virt no' i) as [-> ->]. reflexivity.
    Qed.
    Lemma mixed_first :
      sumN no (fun i => dat (g false false) [i; i]) + sumN nv (fun a => dat (g true true) [a; a]) = 0 ->
      (forall a b x y, (x < ext no' nv' a)%nat -> (y < ext no' nv' b)%nat ->
        sumN no (fun k => dat (G false a false b) [k; x; k; y]) + sumN nv (fun k => dat (G true a true b) [k; x; k; y]) = 0) ->
      forall q s, (q < no' + nv')%nat -> (s < no' + nv')%nat ->
      sumN (no + nv) (fun p => Gamma_mixed no no' (all2 no g) (all2 no' g') (all4 no no' G) p q p s) =
      nK K no * gamma no' (all2 no' g') q s.
    Proof.
      intros Hg HG q s Hq Hs. unfold Gamma_mixed.
      rewrite !sumN_add, !sumN_mul_l, !sumN_mul_r, (corr_trace no nv g Hg), reference_trace.
      replace (sumN (no + nv) (fun p => all4 no no' G p q p s)) with (0 : K); [unfold gamma; ring|].
      rewrite sumN_plus. rewrite <- (HG (is_virt no' q) (is_virt no' s) (place no' q) (place no' s)) by (apply place_lt; assumption).
      f_equal; apply sumN_ext; intros i Hi; unfold all4.
      - destruct (place_occ no i Hi) as [-> ->]. reflexivity.
      - destruct (place_virt no i) as [-> ->]. reflexivity.
    Qed.
  End Mixed.

  (** electrons of the same kind *)
  Section Same.
    Variables no nv : nat.
    Variable g : bool -> bool -> tensor K.
    Variable G : bool -> bool -> bool -> bool -> tensor K.
    (** n_p + n_r - 1 *)
    Definition wt (a b : bool) : K := match a, b with true, true => - (1) | false, false => 1 | _, _ => 0 end.
    Lemma same_second :
      sumN no (fun i => dat (g false false) [i; i]) + sumN nv (fun a => dat (g true true) [a; a]) = 0 ->
      (forall a b x y, (x < ext no nv a)%nat -> (y < ext no nv b)%nat ->
        sumN no (fun k => dat (G a false b false) [x; k; y; k]) + sumN nv (fun k => dat (G a true b true) [x; k; y; k]) =
        wt a b * dat (g a b) [x; y]) ->
      forall p r, (p < no + nv)%nat -> (r < no + nv)%nat ->
      sumN (no + nv) (fun q => Gamma no (all2 no g) (all4 no no G) p q r q) = (nK K no - 1) * gamma no (all2 no g) p r.
    Proof.
      intros Hg HG p r Hp Hr. unfold Gamma.
      rewrite !sumN_add, !sumN_sub, !sumN_add, !sumN_mul_l, !sumN_mul_r, (corr_trace no nv g Hg), reference_trace.
      rewrite (sumN_ext K _ (fun q => reference no q r * all2 no g p q) (fun q => reference no r q * all2 no g p q))
        by (intros; rewrite reference_sym; reflexivity).
      rewrite (sumN_ext K _ (fun q => reference no q r * reference no p q) (fun q => reference no r q * reference no p q))
        by (intros; rewrite (reference_sym no i r); reflexivity).
      rewrite !reference_sum by assumption.
      replace (sumN (no + nv) (fun q => all4 no no G p q r q)) with (wt (is_virt no p) (is_virt no r) * all2 no g p r).
      - unfold gamma. assert (E : forall v, reference no p r = v -> (if is_virt no r then 0 else reference no p r : K) = v).
        { intros v <-. rewrite (reference_sym no p r). unfold reference, is_virt. rewrite Nat.ltb_antisym.
          destruct (Nat.leb no r); [|reflexivity]. rewrite andb_false_r. reflexivity. }
        rewrite (E _ eq_refl). unfold wt. destruct (is_virt no p), (is_virt no r); ring.
      - unfold all2 at 1. rewrite <- HG by (apply place_lt; assumption). rewrite sumN_plus.
        f_equal; apply sumN_ext; intros i Hi; unfold all4.
        + destruct (place_occ no i Hi) as [-> ->]. reflexivity.
        + destruct (place_virt no i) as [-> ->]. reflexivity.
    Qed.
    (** exchange of the kinds for a closed shell *)
    Lemma exchange_second :
      (forall a b x y, (x < ext no nv a)%nat -> (y < ext no nv b)%nat ->
        sumN no (fun k => dat (G a false false b) [x; k; k; y]) + sumN nv (fun k => dat (G a true true b) [x; k; k; y]) =
        - wt a b * dat (g a b) [x; y]) ->
      forall p r, (p < no + nv)%nat -> (r < no + nv)%nat ->
      sumN (no + nv) (fun q => Gamma_mixed no no (all2 no g) (all2 no g) (all4 no no G) p q q r) = gamma no (all2 no g) p r.
    Proof.
      intros HG p r Hp Hr. unfold Gamma_mixed.
      rewrite !sumN_add.
      rewrite (sumN_ext K _ (fun q => reference no q r * all2 no g p q) (fun q => reference no r q * all2 no g p q))
        by (intros; rewrite reference_sym; reflexivity).
      rewrite !reference_sum by assumption.
      replace (sumN (no + nv) (fun q => all4 no no G p q q r)) with (- wt (is_virt no p) (is_virt no r) * all2 no g p r).
      - unfold gamma. assert (E : forall v, reference no p r = v -> (if is_virt no p then 0 else reference no p r : K) = v).
        { intros v <-. unfold reference, is_virt. rewrite Nat.ltb_antisym.
          destruct (Nat.leb no p); [|reflexivity]. rewrite andb_false_r. reflexivity. }
        rewrite (E _ eq_refl). unfold wt. destruct (is_virt no p), (is_virt no r); ring.
      - unfold all2 at 1. rewrite <- HG by (apply place_lt; assumption). rewrite sumN_plus.
        f_equal; apply sumN_ext; intros i Hi; unfold all4.
        + destruct (place_occ no i Hi) as [-> ->]. reflexivity.
        + destruct (place_virt no i) as [-> ->]. reflexivity.
    Qed.
  End Same.
End Sum.
