(** gmakeCfromT computes the coefficients of exp(T)|ref> (C36, C37).  The lemmas
    g_..._ok, one for each loop nest, are generated by tools/gen_cfromt_proofs.py. *)
From Coq Require Import List Bool Arith ZArith Lia Factorial Sorted.
From Verif Require Import Scalar Tensor NpModel CIModel CISpec CIRep CIFacts CIStrings CIBases CILemmas CIFock CIMatrix CIVec
  CIExpSpec CIExp CICfromT CIAdds CIExpU.
Import ListNotations.
Local Open Scope list_scope.

(** [enumerate] and the later elements of it *)
Lemma combine_nth (l : list nat) (d : nat) k : combine (seq k (length l)) l = map (fun i => (i, nth (i - k) l d)) (seq k (length l)).
Proof.
  revert k. induction l as [|x l IH]; intros k; [reflexivity|]. cbn [length seq combine map]. f_equal.
  - rewrite Nat.sub_diag. reflexivity.
  - rewrite (IH (S k)). apply map_ext_in. intros i I. apply in_seq in I.
    replace (i - k) with (S (i - S k)) by lia. reflexivity.
Qed.
Lemma enumerate_nth (l : list nat) : enumerate l = map (fun i => (i, nth i l 0)) (seq 0 (length l)).
Proof.
  unfold enumerate. rewrite (combine_nth l 0 0). apply map_ext. intros i. rewrite Nat.sub_0_r. reflexivity.
Qed.
Lemma in_enumerate (l : list nat) i x : In (i, x) (enumerate l) -> i < length l /\ In x l.
Proof.
  rewrite enumerate_nth, in_map_iff. intros (j & E & I). injection E as <- <-. apply in_seq in I.
  split; [lia|]. apply nth_In. lia.
Qed.

Definition later (l : list (nat * nat)) (i : nat) : list (nat * nat) := filter (fun x => negb (Nat.leb (snd x) i)) l.
Lemma in_later l i x : In x (later l i) -> In x l.
Proof. unfold later. rewrite filter_In. tauto. Qed.

Lemma sorted_nth l i j : sorted l -> i < j < length l -> nth i l 0 < nth j l 0.
Proof.
  intros H. revert i j. induction H as [|x l S IH F]; intros i j L; [cbn in L; lia|].
  destruct j as [|j]; [lia|]. cbn [length] in L. rewrite Forall_forall in F. destruct i as [|i]; cbn [nth].
  - apply F, nth_In. lia.
  - apply IH. lia.
Qed.
Lemma filter_all {X} (f : X -> bool) l : (forall x, In x l -> f x = true) -> filter f l = l.
Proof. induction l as [|x l IH]; intros H; [reflexivity|]. cbn. rewrite H by (cbn; auto). f_equal. apply IH. intros; apply H; cbn; auto. Qed.
Lemma filter_none {X} (f : X -> bool) l : (forall x, In x l -> f x = false) -> filter f l = [].
Proof. induction l as [|x l IH]; intros H; [reflexivity|]. cbn. rewrite H by (cbn; auto). apply IH. intros; apply H; cbn; auto. Qed.
Lemma filter_map {X Y} (f : Y -> bool) (g : X -> Y) l : filter f (map g l) = map g (filter (fun x => f (g x)) l).
Proof. induction l as [|x l IH]; [reflexivity|]. cbn. destruct (f (g x)); cbn; rewrite IH; reflexivity. Qed.

Lemma later_nth l i : sorted l -> i < length l ->
  later (enumerate l) (nth i l 0) = map (fun j => (j, nth j l 0)) (seq (i + 1) (length l - (i + 1))).
Proof.
  intros S L. unfold later. rewrite enumerate_nth, filter_map. f_equal. cbn [snd].
  replace (length l) with (i + 1 + (length l - (i + 1))) at 1 by lia. rewrite seq_app, filter_app.
  rewrite filter_none, filter_all; [reflexivity| |].
  - intros j I. apply in_seq in I. pose proof (sorted_nth l i j S). destruct (Nat.leb_spec (nth j l 0) (nth i l 0)); [lia|reflexivity].
  - intros j I. apply in_seq in I. destruct (Nat.eq_dec j i) as [->|N]; [rewrite Nat.leb_refl; reflexivity|].
    pose proof (sorted_nth l j i S). destruct (Nat.leb_spec (nth j l 0) (nth i l 0)); [reflexivity|lia].
Qed.

Section AddsG.
  Variable K : cring.
  Local Open Scope K_scope.
  Context {A : Type}.
  Variable L : list A.

  Lemma adds_each2 l (F : nat -> nat -> A -> K) body : (forall a b, In (a, b) l -> adds K L (F a b) (body a b)) ->
    adds K L (fun J => SL l (fun x => F (fst x) (snd x) J)) (each l (fun '(a, b) => body a b)).
  Proof.
    intros H. apply (adds_each K L l (fun x => F (fst x) (snd x))). intros [a b] I. cbn [fst snd]. apply H, I.
  Qed.
  Lemma adds_later i l (F : nat -> nat -> A -> K) (body : nat -> nat -> list K -> option (list K)) :
    (forall a b, In (a, b) (later l i) -> adds K L (F a b) (body a b)) ->
    adds K L (fun J => SL (later l i) (fun x => F (fst x) (snd x) J))
      (each l (fun '(a, b) C => if Nat.leb b i then Some C else body a b C)).
  Proof.
    intros H. apply (adds_ext K L (fun J => SL l (fun x => if negb (Nat.leb (snd x) i) then F (fst x) (snd x) J else (0 : K)))).
    - intros J _. unfold later.
      rewrite (SL_filter K (fun x => negb (Nat.leb (snd x) i)) l (fun x => if negb (Nat.leb (snd x) i) then _ else _))
        by (intros x _ E; cbv beta in E |- *; rewrite E; reflexivity).
      apply SL_ext. intros x I. apply filter_In in I as [_ E]. rewrite E. reflexivity.
    - apply (adds_each2 l (fun a b J => if negb (Nat.leb b i) then F a b J else (0 : K))). intros a b I.
      destruct (Nat.leb b i) eqn:E; cbn [negb].
      + apply adds_none.
      + apply (adds_fun K L _ (body a b)); [reflexivity|]. apply H. unfold later. rewrite filter_In. cbn [snd]. rewrite E. auto.
  Qed.
End AddsG.

(** chains of excitations, the first acting first *)
Fixpoint gact (es : list (nat * nat)) (s : det) : option (bool * det) :=
  match es with
  | [] => Some (false, s)
  | (i, a) :: es' => match exc s i a with
                     | Some (g, t) => match gact es' t with Some (h, z) => Some (xorb h g, z) | None => None end
                     | None => None
                     end
  end.
Fixpoint gops (es : list (nat * nat)) : list op :=
  match es with [] => [] | (i, a) :: es' => gops es' ++ [Cre a; Ann i] end.

Section ChainG.
  Variable ref : det.
  Definition gvalid (e : nat * nat) : Prop := In (fst e) (occs ref) /\ In (snd e) (virs ref).

  Lemma gact_act es : forall s, length s = length ref -> Forall gvalid es -> act (gops es) s = gact es s.
  Proof.
    induction es as [|[i a] es IH]; intros s Ls F; [reflexivity|].
    inversion F as [|? ? [Vi Va] F']; subst. cbn [fst snd] in Vi, Va. apply in_occs in Vi. apply in_virs in Va as [Va Oa].
    assert (Nia : i <> a) by congruence.
    assert (Li : i < length ref) by (apply occd_lt; exact Vi).
    cbn [gops gact]. rewrite act_app, act_exc by lia.
    destruct (exc s i a) as [[g t]|] eqn:E; [|reflexivity]. cbn [bindop].
    rewrite IH by (auto; rewrite (exc_length _ _ _ _ _ E); auto). destruct (gact es t) as [[h z]|]; reflexivity.
  Qed.
  Lemma gact_level es : forall s p g z, Forall gvalid es -> excited p ref s ->
    gact es s = Some (g, z) -> excited (length es + p) ref z.
  Proof.
    induction es as [|[i a] es IH]; intros s p g z F Ex E; cbn [gact] in E.
    - injection E as <- <-. auto.
    - inversion F as [|? ? [Vi Va] F']; subst. cbn [fst snd] in Vi, Va. apply in_occs in Vi. apply in_virs in Va as [Va Oa].
      destruct (exc s i a) as [[g1 t]|] eqn:E1; [|discriminate]. destruct (gact es t) as [[h w]|] eqn:E2; [|discriminate].
      injection E as _ <-.
      assert (X : excited (S p) ref t).
      { apply (exc_level ref s i a g1 t p Ex); auto. apply occd_lt; exact Vi. }
      specialize (IH t (S p) h w F' X E2). cbn [length]. rewrite Nat.add_succ_r in IH. exact IH.
  Qed.
End ChainG.

Section G.
  Variable K : cring.
  Local Open Scope K_scope.
  Add Ring KrG : (c_th K).
  Variables (ref : det) (no nv m : nat).
  Hypothesis No : length (occs ref) = no.
  Hypothesis Nv : length (virs ref) = nv.
  Variable L : list det.
  Hypothesis InL : forall t, In t L <-> exists k, excited k ref t /\ k <= m.
  Variables T1 T2 : tensor K.
  Hypothesis S1 : shp T1 = [nv; no].
  Hypothesis S2 : shp T2 = [nv; nv; no; no].
  Variable inv : nat -> K.
  Hypothesis Inv : forall d, 0 < d -> nK K d * inv d = 1.
  Hypothesis Hd : hd_error L = Some ref.

  Notation Adds := (adds K L).
  Notation EO := (enumerate (occs ref)).
  Notation EV := (enumerate (virs ref)).
  Definition gbra (J : det) (es : list (nat * nat)) : K := braket J (gops es) ref.

  Lemma gInv1 : inv 1 = 1.
  Proof. pose proof (Inv 1 ltac:(lia)) as H. cbn [nK] in H. rewrite <- H. ring. Qed.

  Lemma gleaf es v body : Forall (gvalid ref) es -> length es <= m ->
    (forall C, body C = match gact es ref with
       | None => Some C
       | Some (g, z) => let? idx := index dstring_eq (dstr z) (map dstr L) in add_at K C idx (sgn g * v)
       end) ->
    Adds (fun J => v * gbra J es) body.
  Proof.
    intros V Le HB. apply (adds_fun K L _ _ body HB).
    assert (Act : act (gops es) ref = gact es ref) by (apply gact_act with (ref := ref); auto).
    apply (adds_step K dstr dstring_eq dstring_eq_iff dstr_inj L).
    - intros g z E. apply InL. exists (length es + 0)%nat. split; [|lia].
      apply (gact_level ref es ref 0 g z V); [apply excited0; reflexivity|exact E].
    - intros J g _ E. unfold gbra. rewrite (braket_some K _ _ _ g); [ring|]. congruence.
    - intros J _ N. unfold gbra. rewrite braket_other; [ring|]. intros g. rewrite Act. apply N.
  Qed.

  Definition gterms (c : nat) : list (K * list op) :=
    match c with
    | 0%nat => flat_map (fun x => map (fun y => (dat T1 [fst y; fst x], [Cre (snd y); Ann (snd x)])) EV) EO
    | 1%nat => flat_map (fun x => flat_map (fun x' => flat_map (fun y => map (fun y' =>
           (dat T2 [fst y; fst y'; fst x; fst x'], [Cre (snd y'); Ann (snd x'); Cre (snd y); Ann (snd x)]))
           (later EV (snd y))) EV) (later EO (snd x))) EO
    | _ => []
    end.
  Definition glev (c : nat) : nat := S c.

  Lemma EO_occ x : In x EO -> fst x < no /\ occd ref (snd x) = true.
  Proof. destruct x as [i p]. intros H. apply in_enumerate in H as [H1 H2]. apply in_occs in H2. cbn. rewrite <- No. auto. Qed.
  Lemma EV_vir x : In x EV -> fst x < nv /\ snd x < length ref /\ occd ref (snd x) = false.
  Proof. destruct x as [i p]. intros H. apply in_enumerate in H as [H1 H2]. apply in_virs in H2. cbn. rewrite <- Nv. tauto. Qed.

  Lemma gterms_good c t : In t (gterms c) -> Forall (good ref) (snd t) /\ length (snd t) = (2 * glev c)%nat.
  Proof.
    destruct c as [|[|c]]; cbn [gterms]; [| |intros []].
    - rewrite in_flat_map. intros (x & Hx & Ht). apply in_map_iff in Ht as (y & <- & Hy). cbn [snd].
      apply EO_occ in Hx. apply EV_vir in Hy. split; [|reflexivity].
      repeat (apply Forall_cons; [cbn [good]; tauto|]). apply Forall_nil.
    - rewrite in_flat_map. intros (x & Hx & Ht). apply in_flat_map in Ht as (x' & Hx' & Ht).
      apply in_flat_map in Ht as (y & Hy & Ht). apply in_map_iff in Ht as (y' & <- & Hy'). cbn [snd].
      apply in_later in Hx', Hy'. apply EO_occ in Hx, Hx'. apply EV_vir in Hy, Hy'. split; [|reflexivity].
      repeat (apply Forall_cons; [cbn [good]; tauto|]). apply Forall_nil.
  Qed.

  Lemma gt0 (f : K * list op -> K) : SL (gterms 0) f = SL EO (fun x => SL EV (fun y =>
    f (dat T1 [fst y; fst x], [Cre (snd y); Ann (snd x)]))).
  Proof. cbn [gterms]. rewrite SL_flat_map. apply SL_ext. intros i _. rewrite SL_map. reflexivity. Qed.
  Lemma gt1 (f : K * list op -> K) : SL (gterms 1) f = SL EO (fun x => SL (later EO (snd x)) (fun x' =>
    SL EV (fun y => SL (later EV (snd y)) (fun y' =>
      f (dat T2 [fst y; fst y'; fst x; fst x'], [Cre (snd y'); Ann (snd x'); Cre (snd y); Ann (snd x)]))))).
  Proof.
    cbn [gterms]; rewrite SL_flat_map; apply SL_ext; intros i _; rewrite SL_flat_map; apply SL_ext; intros j _;
    rewrite SL_flat_map; apply SL_ext; intros a _; rewrite SL_map; reflexivity.
  Qed.

  Definition gPJ (J : det) (w : list nat) : K := P K ref J gterms w.

  Ltac members := repeat match goal with
    | H : In _ (later _ _) |- _ => apply in_later in H
    | H : In (?i, ?x) EO |- _ => let H' := fresh H in pose proof (EO_occ _ H) as H'; cbn [fst snd] in H'; apply in_enumerate in H as [_ H]
    | H : In (?i, ?x) EV |- _ => let H' := fresh H in pose proof (EV_vir _ H) as H'; cbn [fst snd] in H'; apply in_enumerate in H as [_ H]
    end.
  Ltac gvalid_tac := repeat (apply Forall_cons; [split; cbn [fst snd]; assumption|]); apply Forall_nil.
  Ltac occ_bounds := repeat match goal with
    | H : _ /\ occd ref ?p = true |- _ => let H' := fresh "B" in destruct H as [H H']; apply occd_lt in H'
    | H : _ /\ _ /\ occd ref ?p = false |- _ => let H' := fresh "B" in destruct H as [H [H' _]]
    end.
  Ltac gbody_tac :=
    intros C; cbn [gact];
    repeat match goal with
    | E : exc ?s ?i ?a = _ |- context [exc ?s ?i ?a] => rewrite E; cbv iota beta
    | |- context [excite (dstr ?s) ?i ?a] => rewrite (excite_exc s i a) by lia; cbn [bindo]
    | |- context [exc ?s ?i ?a] =>
        let E := fresh "E" in destruct (exc s i a) as [[? ?]|] eqn:E;
        [pose proof (exc_length _ _ _ _ _ E)|]; cbv iota beta
    end; try reflexivity;
    match goal with |- context [index dstring_eq ?x ?l] => destruct (index dstring_eq x l); [|reflexivity] end;
    cbn [bindo];
    repeat (first [erewrite tget2 by (first [eassumption|lia])|erewrite tget4 by (first [eassumption|lia])]; cbn [bindo]);
    f_equal; rewrite ?zK_zsgn, ?sgn_xorb, ?gInv1; change (sgn (K:=K) false) with (1 : K); ring.
  Ltac peel := rewrite <- ?SL_mul; apply SL_ext; let i := fresh "i" in intros i _.
  Ltac done_tac := cbn [fst snd]; unfold gbra; cbn [gops app]; ring.

  Lemma g_T1_ok : 1 <= m -> Adds (fun J => inv 1 * gPJ J [0]%nat) (g_T1 K (occs ref) (virs ref) (map dstr L) (dstr ref) T1).
  Proof.
    intros Hm. unfold g_T1. eapply adds_ext; cycle 1.
    - apply adds_each2; intros oi i ?. apply adds_each2; intros va a ?. cbv beta. members.
      apply (gleaf [(i, a)] (inv 1 * dat T1 [va; oi])); [gvalid_tac|cbn; lia|occ_bounds; gbody_tac].
    - intros J _. cbv beta. unfold gPJ. rewrite P1. rewrite gt0. do 2 peel.
      done_tac.
  Qed.
  Lemma g_T2_ok : 2 <= m -> Adds (fun J => inv 1 * gPJ J [1]%nat) (g_T2 K (occs ref) (virs ref) (map dstr L) (dstr ref) T2).
  Proof.
    intros Hm. unfold g_T2. eapply adds_ext; cycle 1.
    - apply adds_each2; intros oi i ?. apply adds_later; intros oj j ?. apply adds_each2; intros va a ?. apply adds_later; intros vb b ?. cbv beta. members.
      apply (gleaf [(i, a); (j, b)] (inv 1 * dat T2 [va; vb; oi; oj])); [gvalid_tac|cbn; lia|occ_bounds; gbody_tac].
    - intros J _. cbv beta. unfold gPJ. rewrite P1. rewrite gt1. do 4 peel.
      done_tac.
  Qed.
  Lemma g_T1_T1_ok : 2 <= m -> Adds (fun J => inv 2 * gPJ J [0; 0]%nat) (g_T1_T1 K inv (occs ref) (virs ref) (map dstr L) (dstr ref) T1).
  Proof.
    intros Hm. unfold g_T1_T1. eapply adds_ext; cycle 1.
    - apply adds_each2; intros oi i ?. apply adds_each2; intros oj j ?. apply adds_each2; intros va a ?. apply adds_each2; intros vb b ?. cbv beta. members.
      apply (gleaf [(i, a); (j, b)] (inv 2 * dat T1 [va; oi] * dat T1 [vb; oj])); [gvalid_tac|cbn; lia|occ_bounds; gbody_tac].
    - intros J _. cbv beta. rewrite ord11. unfold gPJ. rewrite P2a with (lev := glev) by exact gterms_good. rewrite gt0. do 2 peel. rewrite gt0. do 2 peel.
      done_tac.
  Qed.
  Lemma g_T1_T2_ok : 3 <= m -> Adds (fun J => inv 1 * gPJ J [0; 1]%nat) (g_T1_T2 K (occs ref) (virs ref) (map dstr L) (dstr ref) T1 T2).
  Proof.
    intros Hm. unfold g_T1_T2. eapply adds_ext; cycle 1.
    - apply adds_each2; intros oi i ?. apply adds_each2; intros oj j ?. apply adds_later; intros ok k ?. apply adds_each2; intros va a ?. apply adds_each2; intros vb b ?. apply adds_later; intros vc c ?. cbv beta. members.
      apply (gleaf [(i, a); (j, b); (k, c)] (inv 1 * dat T1 [va; oi] * dat T2 [vb; vc; oj; ok])); [gvalid_tac|cbn; lia|occ_bounds; gbody_tac].
    - intros J _. cbv beta. rewrite ord12. unfold gPJ. rewrite P2a with (lev := glev) by exact gterms_good. rewrite gt0. do 2 peel. rewrite gt1. do 4 peel.
      done_tac.
  Qed.
  Lemma g_T1_T1_T1_ok : 3 <= m -> Adds (fun J => inv 6 * gPJ J [0; 0; 0]%nat) (g_T1_T1_T1 K inv (occs ref) (virs ref) (map dstr L) (dstr ref) T1).
  Proof.
    intros Hm. unfold g_T1_T1_T1. eapply adds_ext; cycle 1.
    - apply adds_each2; intros oi i ?. apply adds_each2; intros oj j ?. apply adds_each2; intros ok k ?. apply adds_each2; intros va a ?. apply adds_each2; intros vb b ?. apply adds_each2; intros vc c ?. cbv beta. members.
      apply (gleaf [(i, a); (j, b); (k, c)] (inv 6 * dat T1 [va; oi] * dat T1 [vb; oj] * dat T1 [vc; ok])); [gvalid_tac|cbn; lia|occ_bounds; gbody_tac].
    - intros J _. cbv beta. rewrite ord111. unfold gPJ. rewrite P3a with (lev := glev) by exact gterms_good. rewrite gt0. do 2 peel. rewrite gt0. do 2 peel. rewrite gt0. do 2 peel.
      done_tac.
  Qed.
  Lemma g_T2_T2_ok : 4 <= m -> Adds (fun J => inv 2 * gPJ J [1; 1]%nat) (g_T2_T2 K inv (occs ref) (virs ref) (map dstr L) (dstr ref) T2).
  Proof.
    intros Hm. unfold g_T2_T2. eapply adds_ext; cycle 1.
    - apply adds_each2; intros oi i ?. apply adds_later; intros oj j ?. apply adds_each2; intros ok k ?. apply adds_later; intros ol l ?. apply adds_each2; intros va a ?. apply adds_later; intros vb b ?. apply adds_each2; intros vc c ?. apply adds_later; intros vd d ?. cbv beta. members.
      apply (gleaf [(i, a); (j, b); (k, c); (l, d)] (inv 2 * dat T2 [va; vb; oi; oj] * dat T2 [vc; vd; ok; ol])); [gvalid_tac|cbn; lia|occ_bounds; gbody_tac].
    - intros J _. cbv beta. rewrite ord22. unfold gPJ. rewrite P2a with (lev := glev) by exact gterms_good. rewrite gt1. do 4 peel. rewrite gt1. do 4 peel.
      done_tac.
  Qed.
  Lemma g_T1_T1_T2_ok : 4 <= m -> Adds (fun J => inv 2 * gPJ J [0; 0; 1]%nat) (g_T1_T1_T2 K inv (occs ref) (virs ref) (map dstr L) (dstr ref) T1 T2).
  Proof.
    intros Hm. unfold g_T1_T1_T2. eapply adds_ext; cycle 1.
    - apply adds_each2; intros oi i ?. apply adds_each2; intros oj j ?. apply adds_each2; intros ok k ?. apply adds_later; intros ol l ?. apply adds_each2; intros va a ?. apply adds_each2; intros vb b ?. apply adds_each2; intros vc c ?. apply adds_later; intros vd d ?. cbv beta. members.
      apply (gleaf [(i, a); (j, b); (k, c); (l, d)] (inv 2 * dat T1 [va; oi] * dat T1 [vb; oj] * dat T2 [vc; vd; ok; ol])); [gvalid_tac|cbn; lia|occ_bounds; gbody_tac].
    - intros J _. cbv beta. rewrite ord112. unfold gPJ. rewrite P3a with (lev := glev) by exact gterms_good. rewrite gt0. do 2 peel. rewrite gt0. do 2 peel. rewrite gt1. do 4 peel.
      done_tac.
  Qed.
  Lemma g_T1_T1_T1_T1_ok : 4 <= m -> Adds (fun J => inv 24 * gPJ J [0; 0; 0; 0]%nat) (g_T1_T1_T1_T1 K inv (occs ref) (virs ref) (map dstr L) (dstr ref) T1).
  Proof.
    intros Hm. unfold g_T1_T1_T1_T1. eapply adds_ext; cycle 1.
    - apply adds_each2; intros oi i ?. apply adds_each2; intros oj j ?. apply adds_each2; intros ok k ?. apply adds_each2; intros ol l ?. apply adds_each2; intros va a ?. apply adds_each2; intros vb b ?. apply adds_each2; intros vc c ?. apply adds_each2; intros vd d ?. cbv beta. members.
      apply (gleaf [(i, a); (j, b); (k, c); (l, d)] (inv 24 * dat T1 [va; oi] * dat T1 [vb; oj] * dat T1 [vc; ok] * dat T1 [vd; ol])); [gvalid_tac|cbn; lia|occ_bounds; gbody_tac].
    - intros J _. cbv beta. rewrite ord1111. unfold gPJ. rewrite P4a with (lev := glev) by exact gterms_good. rewrite gt0. do 2 peel. rewrite gt0. do 2 peel. rewrite gt0. do 2 peel. rewrite gt0. do 2 peel.
      done_tac.
  Qed.

  Lemma gratio d c e : Nat.eqb (c * e) d && Nat.ltb 0 d = true -> inv d * nK K c = inv e.
  Proof. apply ratio0, Inv. Qed.

  Lemma gP_nil (J : det) : In J L -> inv 1 * P K ref J gterms [] = if dstring_eq (dstr J) (dstr ref) then 1 else 0.
  Proof.
    intros HJ. rewrite gInv1. unfold P, amp. cbn [prodw map lsum fst snd]. unfold braket. cbn [act].
    destruct (dstring_eq (dstr J) (dstr ref)) eqn:E.
    - apply dstring_eq_iff, dstr_inj in E. subst J. rewrite det_eqb_refl. cbn. ring.
    - destruct (det_eqb ref J) eqn:D; [|ring]. exfalso. apply det_eqb_eq in D. subst J.
      assert (X : dstring_eq (dstr ref) (dstr ref) = true) by (apply dstring_eq_iff; reflexivity). congruence.
  Qed.

  Lemma gadds_run_C (X : option (list K)) (G : det -> K) (H : nat -> det -> K) :
    (exists C, X = Some C /\ length C = length L /\ forall j J, nth_error L j = Some J ->
      (~ In J (firstn j L) -> nth j C 0 = G J) /\ (In J (firstn j L) -> nth j C 0 = 0)) ->
    (forall M (J : det), 4 <= M -> In J L -> G J = H M J) ->
    exists C, X = Some C /\ length C = length L /\ forall M, 4 <= M -> forall j J, nth_error L j = Some J ->
      (~ In J (firstn j L) -> nth j C 0 = H M J) /\ (In J (firstn j L) -> nth j C 0 = 0).
  Proof.
    intros (C & E & LC & N) HG. exists C. split; [exact E|]. split; [exact LC|]. intros M HM j J HJ.
    rewrite <- (HG M J HM) by (eapply nth_error_In; eauto). apply N, HJ.
  Qed.

  Definition gTt : list (K * list op) := Tall K [0; 1]%nat gterms.

  Lemma gexpand_J M (J : det) : In J L -> m <= M -> exp_amp inv M J gTt ref
    = sumN (S m) (fun k => inv (fact k) * SL (table [0; 1]%nat glev m k) (fun cu => nK K (fst cu) * gPJ J (snd cu))).
  Proof.
    intros HJ HM. apply InL in HJ as (d & (_ & _ & D) & Dm).
    apply (expand K ref J [0; 1]%nat gterms glev gterms_good) with (d := d); auto.
    intros c _. unfold glev. lia.
  Qed.

  Local Opaque g_T1 g_T2 g_T1_T1 g_T1_T2 g_T1_T1_T1 g_T2_T2 g_T1_T1_T2 g_T1_T1_T1_T1.
  Ltac head t := match t with ?f _ => head f | _ => t end.
  Ltac g_adds f := let h := head f in lazymatch h with
    | g_T1 => apply g_T1_ok
    | g_T2 => apply g_T2_ok
    | g_T1_T1 => apply g_T1_T1_ok
    | g_T1_T2 => apply g_T1_T2_ok
    | g_T1_T1_T1 => apply g_T1_T1_T1_ok
    | g_T2_T2 => apply g_T2_T2_ok
    | g_T1_T1_T2 => apply g_T1_T1_T2_ok
    | g_T1_T1_T1_T1 => apply g_T1_T1_T1_T1_ok
    end.
  Ltac all_adds := repeat lazymatch goal with
    | |- adds _ _ _ (fun C => bindo _ _) => apply adds_bind
    | |- adds _ _ _ (fun C => Some C) => apply adds_none
    | |- adds _ _ _ (@Some _) => apply adds_none
    | |- adds _ _ _ (fun C => ?f C) => g_adds f; lia
    | |- adds _ _ _ ?f => g_adds f; lia
    end.

  Ltac compare HJ M :=
    cbv beta; rewrite <- (gP_nil _ HJ); rewrite (gexpand_J M _ HJ) by lia;
    match goal with Em : m = _ |- _ => rewrite Em end; unfold sumN;
    repeat match goal with |- context [table ?c ?l ?x ?k] =>
      let t := eval vm_compute in (table c l x k) in
      replace (table c l x k) with t by (vm_compute; reflexivity) end;
    cbn [SL map lsum fst snd fact Nat.mul Nat.add]; unfold SL, gPJ; cbn [map lsum fst snd];
    replace (nK K 1) with (1 : K) by (cbn [nK]; ring);
    rewrite <- ?(gratio 2 2 1 eq_refl); rewrite <- ?(gratio 6 3 2 eq_refl); rewrite <- ?(gratio 24 6 4 eq_refl);
    rewrite <- ?(gratio 24 4 6 eq_refl); rewrite ?(nK_mul K 2 3 : nK K 6 = _);
    repeat match goal with |- context [P K ref ?b gterms ?w] => let x := fresh "x" in set (x := P K ref b gterms w); clearbody x end;
    repeat match goal with |- context [nK K ?d] => let x := fresh "c" in set (x := nK K d); clearbody x end;
    repeat match goal with |- context [inv ?d] => let x := fresh "i" in set (x := inv d); clearbody x end;
    ring.
  Ltac ztests := repeat match goal with
    | |- context [Z.leb ?a ?b] => let v := eval vm_compute in (Z.leb a b) in change (Z.leb a b) with v
    | |- context [Z.ltb ?a ?b] => let v := eval vm_compute in (Z.ltb a b) in change (Z.ltb a b) with v
    | |- context [Z.eqb ?a ?b] => let v := eval vm_compute in (Z.eqb a b) in change (Z.eqb a b) with v
    end; cbv iota.

  Hypothesis Len : length ref = (no + nv)%nat.
  Ltac run ND Bas M :=
    unfold gmakeCfromT; cbv zeta; ztests;
    rewrite Bas, indices_pos_occs, indices_pos_virs, (Dstring_dstr ref _ Len); cbn [bindo];
    etransitivity;
    [ apply (adds_run K dstr dstring_eq dstring_eq_iff dstr_inj L ref); [exact ND|exact Hd|]; cbv beta; all_adds
    | f_equal; apply map_ext_in; intros J HJ; compare HJ M ].
  Ltac run_first Bas :=
    unfold gmakeCfromT; cbv zeta; ztests;
    rewrite Bas, indices_pos_occs, indices_pos_virs, (Dstring_dstr ref _ Len); cbn [bindo];
    eapply gadds_run_C; [ apply (adds_run_first K dstr dstring_eq dstring_eq_iff dstr_inj L ref); [exact Hd|]; cbv beta; all_adds|];
    intros M J HM HJ; compare HJ M.

  Lemma gmake1 M : NoDup L -> m = 1%nat -> 1 <= M -> gcis_basis (no + nv) no true = Some (map dstr L) ->
    gmakeCfromT K inv no nv T1 T2 1 (Some (map b2z ref)) = Some (map (fun J => exp_amp inv M J gTt ref) L).
  Proof. intros ND Em HM Bas. run ND Bas M. Qed.
  Lemma gmake2 M : NoDup L -> m = 2%nat -> 2 <= M -> gcisd_basis (no + nv) no = Some (map dstr L) ->
    gmakeCfromT K inv no nv T1 T2 2 (Some (map b2z ref)) = Some (map (fun J => exp_amp inv M J gTt ref) L).
  Proof. intros ND Em HM Bas. run ND Bas M. Qed.
  Lemma gmake3 M : NoDup L -> m = 3%nat -> 3 <= M -> gcisdt_basis (no + nv) no = Some (map dstr L) ->
    gmakeCfromT K inv no nv T1 T2 3 (Some (map b2z ref)) = Some (map (fun J => exp_amp inv M J gTt ref) L).
  Proof. intros ND Em HM Bas. run ND Bas M. Qed.
  Lemma gmake4 M : NoDup L -> m = 4%nat -> 4 <= M -> gcisdtq_basis (no + nv) no = Some (map dstr L) ->
    gmakeCfromT K inv no nv T1 T2 4 (Some (map b2z ref)) = Some (map (fun J => exp_amp inv M J gTt ref) L).
  Proof. intros ND Em HM Bas. run ND Bas M. Qed.

  Lemma gmake4_first : m = 4%nat -> gcisdtq_basis (no + nv) no = Some (map dstr L) ->
    exists C, gmakeCfromT K inv no nv T1 T2 4 (Some (map b2z ref)) = Some C /\ length C = length L /\
    forall M, 4 <= M -> forall j J, nth_error L j = Some J ->
      (~ In J (firstn j L) -> nth j C 0 = exp_amp inv M J gTt ref) /\ (In J (firstn j L) -> nth j C 0 = 0).
  Proof. intros Em Bas. run_first Bas. Qed.

  (** the operators of the specification *)
  Notation t1 := (fun a i => dat T1 [a; i]).
  Notation t2 := (fun a b i j => dat T2 [a; b; i; j]).

  Lemma flat_map_map {X Y Z} (f : Y -> list Z) (g : X -> Y) l : flat_map f (map g l) = flat_map (fun x => f (g x)) l.
  Proof. induction l as [|x l IH]; [reflexivity|]. cbn. rewrite IH. reflexivity. Qed.

  Lemma gsame0 : Forall2 (opeq K) (gterms 0)
    (singles (length (occs ref)) (length (virs ref)) (fun i => nth i (occs ref) 0%nat) (fun a => nth a (virs ref) 0%nat) t1).
  Proof.
    cbn [gterms]. unfold singles. rewrite !enumerate_nth, flat_map_map. apply opeq_flat. intros i _.
    rewrite map_map. apply opeq_map. intros a _. split; reflexivity.
  Qed.
  Lemma gsame1 : Forall2 (opeq K) (gterms 1)
    (doubles (length (occs ref)) (length (virs ref)) (fun i => nth i (occs ref) 0%nat) (fun a => nth a (virs ref) 0%nat) t2).
  Proof.
    cbn [gterms]. unfold doubles, below. rewrite (flat_pairs _ _ (fun i => seq (i + 1) (length (occs ref) - (i + 1)))).
    rewrite (enumerate_nth (occs ref)) at 1. rewrite flat_map_map.
    apply opeq_flat. intros i Hi. apply in_seq in Hi. cbn [fst snd].
    rewrite later_nth, flat_map_map by (auto using sorted_occs; lia).
    apply opeq_flat. intros j Hj. rewrite map_pairs. cbn [fst snd].
    rewrite (enumerate_nth (virs ref)) at 1. rewrite flat_map_map. apply opeq_flat. intros a Ha. apply in_seq in Ha, Hj. cbn [fst snd].
    rewrite later_nth, map_map by (auto using sorted_virs; lia).
    apply opeq_map. intros b Hb. apply in_seq in Hb. cbn [fst snd].
    assert (OV : forall i a, i < length (occs ref) -> a < length (virs ref) -> nth a (virs ref) 0%nat <> nth i (occs ref) 0%nat).
    { intros x y Hx Hy E. assert (I1 := nth_In (occs ref) 0%nat Hx). assert (I2 := nth_In (virs ref) 0%nat Hy).
      rewrite E in I2. apply in_occs in I1. apply in_virs in I2. destruct I2. congruence. }
    split; cbn [fst snd]; [reflexivity|]. intros s. symmetry. apply pair_order; apply OV; lia.
  Qed.
  Lemma gsameT : Forall2 (opeq K) gTt (T_spin_orbitals (occs ref) (virs ref) t1 t2).
  Proof.
    unfold gTt, Tall, T_spin_orbitals. cbn [flat_map]. rewrite app_nil_r.
    apply Forall2_app; [apply gsame0|apply gsame1].
  Qed.
End G.

Lemma occs_virs_length s : length (occs s) + length (virs s) = length s.
Proof.
  unfold occs, virs. rewrite <- (seq_length (length s) 0) at 3. generalize (seq 0 (length s)). intros l.
  induction l as [|x l IH]; [reflexivity|]. cbn [filter]. destruct (occd s x); cbn [negb length]; lia.
Qed.

(** gcisdtq_basis when there is no quadruple excitation *)
Lemma collect_nil {X Y} (l : list X) (f : X -> option (list Y)) : (forall x, In x l -> f x = Some []) -> collect l f = Some [].
Proof.
  induction l as [|x l IH]; intros H; [reflexivity|]. cbn [collect]. rewrite H by (cbn; auto). cbn [bindo].
  rewrite IH by (intros; apply H; cbn; auto). reflexivity.
Qed.
Lemma g_q_small m N : N <= 2 * m -> N < 4 \/ 2 * m - N < 4 -> q_strings (2 * m) N (Some (map b2z (gref m N))) = Some [].
Proof.
  intros Le Few. unfold q_strings. cbn [get_occ]. rewrite indices_pos_occs, indices_pos_virs.
  rewrite (Dstring_dstr (gref m N) (2 * m)) by apply gref_length. cbn [bindo].
  assert (Half : N - Nat.div N 2 <= m) by (pose proof (Nat.div_mod N 2); pose proof (Nat.mod_upper_bound N 2); lia).
  assert (Ln : length (virs (gref m N)) = 2 * m - N).
  { pose proof (occs_virs_length (gref m N)). pose proof (gref_spec m N) as [G1 G2]. rewrite occs_length, G2, G1 in H by auto. lia. }
  apply collect_nil. intros i Hi. apply collect_nil. intros a Ha. apply collect_nil. intros j Hj.
  destruct (Z.leb_spec j i) as [|Lij]; [reflexivity|]. apply collect_nil. intros b Hb.
  destruct (Nat.leb_spec b a); [reflexivity|]. apply collect_nil. intros k Hk.
  destruct (Z.leb_spec (Z.of_nat k) j); [reflexivity|]. apply collect_nil. intros c Hc.
  destruct (Nat.leb_spec c b); [reflexivity|]. apply collect_nil. intros l Hl.
  destruct (Nat.leb_spec l k); [reflexivity|]. apply collect_nil. intros d Hd.
  destruct (Nat.leb_spec d c); [reflexivity|]. exfalso.
  destruct Few as [F|F].
  - assert (Hj1 : j = 1%Z).
    { apply in_map_iff in Hi as (x & <- & _). apply in_map_iff in Hj as (y & <- & _). destruct x, y; cbn in *; lia. }
    assert (One : forall p, In p (occs (gref m N)) -> 1 < p -> p = m).
    { intros p I Lp. apply in_occs in I. unfold gref, occd in I. pose proof (Nat.div_mod N 2). pose proof (Nat.mod_upper_bound N 2).
      destruct (Nat.lt_ge_cases p m) as [Lm|Lm].
      - rewrite app_nth1 in I by (rewrite aufbau_length; auto). fold (occd (aufbau m (N - N / 2)) p) in I.
        rewrite aufbau_occ in I. apply andb_true_iff in I as [I _]. apply Nat.ltb_lt in I. lia.
      - rewrite app_nth2, aufbau_length in I by (rewrite aufbau_length; auto). fold (occd (aufbau m (N / 2)) (p - m)) in I.
        rewrite aufbau_occ in I. apply andb_true_iff in I as [I _]. apply Nat.ltb_lt in I. lia. }
    assert (k = m) by (apply One; auto; lia). assert (l = m) by (apply One; auto; lia). lia.
  - assert (NDl : NoDup [a; b; c; d]).
    { repeat constructor; cbn; intuition lia. }
    apply NoDup_incl_length with (l' := virs (gref m N)) in NDl.
    + cbn in NDl. lia.
    + intros x [<-|[<-|[<-|[<-|[]]]]]; auto.
Qed.

Lemma gcisdtq_ok m N : N <= 2 * m -> N < 4 \/ 2 * m - N < 4 ->
  exists L, gcisdtq_basis (2 * m) N = Some (map dstr L) /\
  NoDup (map dstr L) /\ hd_error L = Some (gref m N) /\
  (forall t, In t L <-> exists k, excited k (gref m N) t /\ k <= 4).
Proof.
  intros Le Few. destruct (gcisdt_ok m N) as (L & E & ND & Hd & InL). exists L. split; [|split; [exact ND|split; [exact Hd|]]].
  - rewrite <- E. unfold gcisdtq_basis, gcisdt_basis. rewrite g_occ_gref, (g_q_small m N Le Few).
    destruct (Dstring _ _); [|reflexivity]. cbn [bindo]. destruct (s_strings _ _ _); [|reflexivity]. cbn [bindo].
    destruct (d_strings _ _ _); [|reflexivity]. cbn [bindo]. destruct (t_strings _ _ _); [|reflexivity]. cbn [bindo].
    rewrite app_nil_r. reflexivity.
  - intros t. rewrite InL. split; intros (k & X & Lk); exists k; (split; [exact X|]); [lia|].
    assert (k <> 4); [|lia]. intros ->. apply excited_bound in X.
    pose proof (gref_spec m N) as [G1 G2]. rewrite G1, G2 in X; [lia|].
    pose proof (Nat.div_mod N 2); pose proof (Nat.mod_upper_bound N 2); lia.
Qed.

Section FinalG.
  Variable K : cring.
  Local Open Scope K_scope.
  Variable inv : nat -> K.
  Hypothesis Inv : forall d, 0 < d -> nK K d * inv d = 1.
  Variables (h no nv : nat).
  Hypothesis Half : (no + nv = 2 * h)%nat.
  Variables T1 T2 : tensor K.
  Hypothesis S1 : shp T1 = [nv; no].
  Hypothesis S2 : shp T2 = [nv; nv; no; no].
  Notation t1 := (fun a i => dat T1 [a; i]).
  Notation t2 := (fun a b i j => dat T2 [a; b; i; j]).
  Notation ref := (gref h no).
  Notation T := (T_spin_orbitals (occs ref) (virs ref) t1 t2).

  Lemma ref_no : length (occs ref) = no /\ length (virs ref) = nv /\ length ref = (no + nv)%nat.
  Proof.
    pose proof (occs_virs_length ref) as X. pose proof (gref_spec h no) as [G1 G2]. rewrite occs_length in *.
    assert (nel ref = no) by (apply G2; pose proof (Nat.div_mod no 2); pose proof (Nat.mod_upper_bound no 2); lia). lia.
  Qed.
  Lemma gcoef_exp M J : exp_amp inv M J (gTt K ref T1 T2) ref = exp_amp inv M J T ref.
  Proof. apply opeq_exp. apply (gsameT K ref no nv); apply ref_no. Qed.

  Lemma G1 : exists L, gcis_basis (no + nv) no true = Some (map dstr L) /\
    forall M, 1 <= M -> gmakeCfromT K inv no nv T1 T2 1 (Some (map b2z ref)) = Some (map (fun J => exp_amp inv M J T ref) L).
  Proof.
    destruct (gcis_ok h no) as (L & E & ND & Hd & InL). rewrite <- Half in E. exists L. split; [exact E|]. intros M HM.
    apply NoDup_map_inv in ND. destruct ref_no as (R1 & R2 & R3).
    rewrite (gmake1 K ref no nv 1) with (M := M) (L := L); auto.
    f_equal. apply map_ext. intros J. apply gcoef_exp.
  Qed.
  Lemma G2 : exists L, gcisd_basis (no + nv) no = Some (map dstr L) /\
    forall M, 2 <= M -> gmakeCfromT K inv no nv T1 T2 2 (Some (map b2z ref)) = Some (map (fun J => exp_amp inv M J T ref) L).
  Proof.
    destruct (gcisd_ok h no) as (L & E & ND & Hd & InL). rewrite <- Half in E. exists L. split; [exact E|]. intros M HM.
    apply NoDup_map_inv in ND. destruct ref_no as (R1 & R2 & R3).
    rewrite (gmake2 K ref no nv 2) with (M := M) (L := L); auto.
    f_equal. apply map_ext. intros J. apply gcoef_exp.
  Qed.
  Lemma G3 : exists L, gcisdt_basis (no + nv) no = Some (map dstr L) /\
    forall M, 3 <= M -> gmakeCfromT K inv no nv T1 T2 3 (Some (map b2z ref)) = Some (map (fun J => exp_amp inv M J T ref) L).
  Proof.
    destruct (gcisdt_ok h no) as (L & E & ND & Hd & InL). rewrite <- Half in E. exists L. split; [exact E|]. intros M HM.
    apply NoDup_map_inv in ND. destruct ref_no as (R1 & R2 & R3).
    rewrite (gmake3 K ref no nv 3) with (M := M) (L := L); auto.
    f_equal. apply map_ext. intros J. apply gcoef_exp.
  Qed.
  Lemma G4 : (no < 4 \/ nv < 4)%nat -> exists L, gcisdtq_basis (no + nv) no = Some (map dstr L) /\
    forall M, 4 <= M -> gmakeCfromT K inv no nv T1 T2 4 (Some (map b2z ref)) = Some (map (fun J => exp_amp inv M J T ref) L).
  Proof.
    intros Few.
    destruct (gcisdtq_ok h no) as (L & E & ND & Hd & InL); try lia. rewrite <- Half in E. exists L. split; [exact E|]. intros M HM.
    apply NoDup_map_inv in ND. destruct ref_no as (R1 & R2 & R3).
    rewrite (gmake4 K ref no nv 4) with (M := M) (L := L); auto.
    f_equal. apply map_ext. intros J. apply gcoef_exp.
  Qed.
End FinalG.

Lemma gmakeC_raises K inv no nv (T1 T2 : tensor K) order occ :
  (order < 1)%Z \/ (4 < order)%Z \/ Nat.Odd (no + nv) -> gmakeCfromT K inv no nv T1 T2 order occ = None.
Proof.
  intros H. unfold gmakeCfromT.
  destruct (Z.ltb_spec order 1); [reflexivity|].
  destruct H as [H|[H|[k H]]]; [lia| |].
  - destruct (Z.eqb_spec order 1); [lia|]. destruct (Z.eqb_spec order 2); [lia|].
    destruct (Z.eqb_spec order 3); [lia|]. destruct (Z.eqb_spec order 4); [lia|]. reflexivity.
  - rewrite H. destruct (g_odd_raises k no true) as (E1 & E2 & E3 & E4). rewrite E1, E2, E3, E4.
    destruct (Z.eqb order 1), (Z.eqb order 2), (Z.eqb order 3), (Z.eqb order 4); reflexivity.
Qed.
Lemma gmakeC_default_raises K inv no nv (T1 T2 : tensor K) order :
  0 < no + nv -> gmakeCfromT K inv no nv T1 T2 order None = None.
Proof.
  intros H. unfold gmakeCfromT. destruct (Z.ltb order 1); [reflexivity|].
  match goal with |- bindo ?x _ = _ => destruct x; [|reflexivity] end. cbn [bindo].
  assert (E : Dstring (no + nv) (default_occ (Nat.div (no + nv) 2) no) = None); [|rewrite E; reflexivity].
  unfold Dstring. rewrite default_occ_aufbau, map_length, aufbau_length.
  destruct (Nat.eqb_spec (no + nv) (Nat.div (no + nv) 2)) as [E|]; [|reflexivity].
  exfalso. assert (Nat.div (no + nv) 2 < no + nv) by (apply Nat.div_lt; lia). lia.
Qed.

(** order 4 of makeCfromT is wrong: two alpha and two beta electrons in four orbitals *)
From Coq Require Import QArith Qcanon.
Local Open Scope nat_scope.

Definition qinv (d : nat) : QcK := (/ nK QcK d)%Qc.
Lemma qinv_ok d : 0 < d -> cmul (nK QcK d) (qinv d) = (c1 : QcK).
Proof.
  intros H. unfold qinv. apply Qcmult_inv_r.
  assert (E : forall k, nK QcK k = Q2Qc (inject_Z (Z.of_nat k))).
  { induction k as [|k IH]; [reflexivity|]. cbn [nK]. rewrite IH. apply Qc_is_canon. cbn [c1 cadd QcK this Qcplus].
    unfold Qcplus. cbn [this Q2Qc]. rewrite !Qred_correct.
    rewrite <- (inject_Z_plus 1). apply inject_Z_injective. lia. }
  rewrite E. intros X. apply (f_equal this) in X. cbn [this Q2Qc] in X.
  assert (Y : inject_Z (Z.of_nat d) == 0) by (rewrite <- (Qred_correct (inject_Z (Z.of_nat d))), X; reflexivity).
  unfold Qeq in Y. cbn in Y. lia.
Qed.

Lemma Qc_sub_id (x y : Qc) : (x - y = x)%Qc -> (y = 0)%Qc.
Proof. intros X. transitivity (x - (x - y))%Qc; [ring|]. rewrite X. ring. Qed.

Definition bad_T1 : tensor QcK := mkT [2; 2] (fun i => if Nat.eqb (nth 0 i 0) (nth 1 i 0) then c1 else c0).
Definition bad_T2 : tensor QcK := mkT [2; 2; 2; 2] (fun _ => c1).
Definition bad_J : udet := ([false; false; true; true], [false; false; true; true]).

Lemma C4_bad : exists L C j, ucisdtq_basis 4 2 2 = Some (map dpair L) /\
  makeCfromT QcK qinv 2 2 2 2 bad_T1 bad_T1 bad_T2 bad_T2 bad_T2 4 = Some C /\
  nth_error L j = Some bad_J /\
  forall M, 4 <= M -> nth j C c0 <> exp_amp qinv M (fst bad_J ++ snd bad_J)
    (T_spins 4 2 2 2 2 (fun a i => dat bad_T1 [a; i]) (fun a i => dat bad_T1 [a; i])
       (fun a b i j => dat bad_T2 [a; b; i; j]) (fun a b i j => dat bad_T2 [a; b; i; j]) (fun a b i j => dat bad_T2 [a; b; i; j]))
    (aufbau 4 2 ++ aufbau 4 2).
Proof.
  destruct (C4 QcK qinv qinv_ok 4 2 2 2 2 eq_refl eq_refl bad_T1 bad_T1 bad_T2 bad_T2 bad_T2
    eq_refl eq_refl eq_refl eq_refl eq_refl ltac:(lia) ltac:(lia)) as (L & E & H).
  exists L. rewrite (H 4 (le_n 4)).
  assert (I : In (dpair bad_J) (map dpair L)).
  { assert (X : match ucisdtq_basis 4 2 2 with Some b => existsb (upair_eq (dpair bad_J)) b | None => false end = true)
      by (vm_compute; reflexivity).
    rewrite E in X. apply existsb_exists in X as (y & Iy & Ey). apply upair_eq_iff in Ey. subst y. exact Iy. }
  apply in_map_iff in I as (x & Ex & Ix). apply dpair_inj in Ex. subst x.
  apply In_nth_error in Ix as (j & Hj). eexists _, j. split; [exact E|]. split; [reflexivity|]. split; [exact Hj|].
  intros M HM. pose proof (H M HM) as HM'. rewrite (H 4 (le_n 4)) in HM'.
  apply (f_equal (fun o => match o with Some c => c | None => [] end)) in HM'. cbv beta iota in HM'. rewrite HM'. clear HM' H.
  erewrite (nth_error_nth (map _ L)) by (rewrite nth_error_map, Hj; reflexivity).
  match goal with |- csub ?x (cmul ?i ?a) <> _ => assert (N : cmul i a <> (c0 : QcK)) end.
  { intros X. apply (f_equal this) in X. vm_compute in X. discriminate. }
  intros X. apply N. clear N. revert X.
  match goal with |- csub ?x ?y = ?x -> _ => generalize x, y end. intros x y X.
  exact (Qc_sub_id x y X).
Qed.
