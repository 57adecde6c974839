(** Loops that add to the entries of a CI vector (makeCfromT, gmakeCfromT). *)
From Coq Require Import List Bool Arith ZArith Lia.
From Verif Require Import Scalar Tensor NpModel CIModel CISpec CIRep CIFacts CIBases CIFock CIMatrix CIVec CIExp CICfromT.
Import ListNotations.
Local Open Scope list_scope.

Lemma nth_error_firstn_In {A} (l : list A) k j x : nth_error l k = Some x -> k < j -> In x (firstn j l).
Proof.
  revert k j. induction l as [|y l IH]; intros [|k] [|j] E H; try discriminate; try lia; cbn in *.
  - left. congruence.
  - right. apply (IH k j E). lia.
Qed.
Lemma NoDup_firstn {A} (l : list A) j x : NoDup l -> nth_error l j = Some x -> ~ In x (firstn j l).
Proof.
  revert j. induction l as [|y l IH]; intros [|j] N E; try discriminate; cbn in *; [tauto|].
  inversion N as [|? ? NI N']; subst. intros [->|I].
  - apply NI. eapply nth_error_In; eauto.
  - exact (IH j N' E I).
Qed.
(** list.index finds the first occurrence *)
Lemma index_first {A B} (rep : A -> B) (eqb : B -> B -> bool) (E : forall x y, eqb x y = true <-> x = y)
    (R : forall x y, rep x = rep y -> x = y) (l : list A) (z : A) : In z l ->
  exists k, index eqb (rep z) (map rep l) = Some k /\ nth_error l k = Some z /\ ~ In z (firstn k l).
Proof.
  induction l as [|y l IH]; intros I; [destruct I|]. cbn [map index]. destruct (eqb (rep y) (rep z)) eqn:Q.
  - apply E, R in Q. subst y. exists 0. repeat split; auto.
  - destruct I as [->|I]; [rewrite (proj2 (E _ _) eq_refl) in Q; discriminate|].
    destruct (IH I) as (k & -> & K1 & K2). exists (S k). split; [reflexivity|]. split; [exact K1|].
    cbn [firstn]. intros [->|X]; [rewrite (proj2 (E _ _) eq_refl) in Q; discriminate|auto].
Qed.
Lemma index_none {A B} (rep : A -> B) (eqb : B -> B -> bool) (E : forall x y, eqb x y = true <-> x = y)
    (R : forall x y, rep x = rep y -> x = y) (l : list A) (z : A) : ~ In z l -> index eqb (rep z) (map rep l) = None.
Proof.
  induction l as [|y l IH]; intros I; [reflexivity|]. cbn [map index]. destruct (eqb (rep y) (rep z)) eqn:Q.
  - apply E, R in Q. subst y. destruct I. cbn. auto.
  - rewrite IH; [reflexivity|]. intros X. apply I. cbn. auto.
Qed.

Section Adds.
  Variable K : cring.
  Local Open Scope K_scope.
  Add Ring KrA : (c_th K).
  Context {A B : Type}.
  Variables (rep : A -> B) (eqb : B -> B -> bool).
  Hypothesis eqb_eq : forall x y, eqb x y = true <-> x = y.
  Hypothesis rep_inj : forall x y, rep x = rep y -> x = y.
  Variable L : list A.

  (** f adds F J to the entry of the first occurrence of every J in L, and
      changes no other entry *)
  Definition adds (F : A -> K) (f : list K -> option (list K)) : Prop :=
    forall C, length C = length L ->
    exists C', f C = Some C' /\ length C' = length L /\
      forall j J, nth_error L j = Some J ->
        (~ In J (firstn j L) -> nth j C' 0 = nth j C 0 + F J) /\
        (In J (firstn j L) -> nth j C' 0 = nth j C 0).

  Lemma adds_ext F G f : (forall J, In J L -> G J = F J) -> adds F f -> adds G f.
  Proof.
    intros E H C HC. destruct (H C HC) as (C' & E1 & E2 & E3). exists C'. split; [exact E1|]. split; [exact E2|].
    intros j J HJ. destruct (E3 j J HJ) as [H1 H2]. split; [|exact H2].
    intros N. rewrite (H1 N), E; [reflexivity|]. eapply nth_error_In; eauto.
  Qed.
  Lemma adds_fun F f g : (forall C, g C = f C) -> adds F f -> adds F g.
  Proof. intros E H C HC. destruct (H C HC) as (C' & E1 & R). exists C'. rewrite E. auto. Qed.
  Lemma adds_none : adds (fun _ => 0) (fun C => Some C).
  Proof. intros C HC. exists C. split; [reflexivity|]. split; [exact HC|]. intros. split; intros; ring. Qed.
  Lemma adds_bind F G f g : adds F f -> adds G g -> adds (fun J => F J + G J) (fun C => let? C := f C in g C).
  Proof.
    intros Hf Hg C HC. destruct (Hf C HC) as (C1 & E1 & L1 & N1). destruct (Hg C1 L1) as (C2 & E2 & L2 & N2).
    exists C2. rewrite E1. cbn [bindo]. split; [exact E2|]. split; [exact L2|].
    intros j J HJ. destruct (N1 j J HJ) as [A1 A2], (N2 j J HJ) as [B1 B2].
    split; intros N; [rewrite (B1 N), (A1 N); ring|rewrite (B2 N), (A2 N); reflexivity].
  Qed.
  Lemma adds_each {X} (l : list X) (F : X -> A -> K) body : (forall x, In x l -> adds (F x) (body x)) ->
    adds (fun J => SL l (fun x => F x J)) (each l body).
  Proof.
    induction l as [|x l IH]; intros H.
    - apply adds_none.
    - apply (adds_fun _ (fun C => let? C := body x C in each l body C)); [reflexivity|].
      apply (adds_ext (fun J => F x J + SL l (fun x => F x J))); [reflexivity|].
      apply adds_bind; [apply H; cbn; auto|]. apply IH. intros; apply H; cbn; auto.
  Qed.

  Lemma adds_step (st : option (bool * A)) (v : K) (F : A -> K) :
    (forall g z, st = Some (g, z) -> In z L) ->
    (forall J g, In J L -> st = Some (g, J) -> F J = sgn g * v) ->
    (forall J, In J L -> (forall g, st <> Some (g, J)) -> F J = 0) ->
    adds F (fun C => match st with
                     | None => Some C
                     | Some (g, z) => let? idx := index eqb (rep z) (map rep L) in add_at K C idx (sgn g * v)
                     end).
  Proof.
    intros HI HS HN C HC. destruct st as [[g z]|].
    - destruct (index_first rep eqb eqb_eq rep_inj L z (HI g z eq_refl)) as (idx & Ei & Ez & Fz).
      rewrite Ei. cbn [bindo].
      assert (Lt : idx < length C) by (rewrite HC; apply nth_error_Some; congruence).
      destruct (add_at_ok K C idx (sgn g * v) Lt) as (C' & E1 & E2 & E3).
      exists C'. split; [exact E1|]. split; [congruence|]. intros j J HJ. rewrite E3.
      destruct (Nat.eqb_spec j idx) as [->|N].
      + assert (J = z) by congruence. subst J. split; [|tauto].
        intros _. f_equal. symmetry. apply HS; [eapply nth_error_In; eauto|reflexivity].
      + split; [|intros; ring]. intros Fj. f_equal. symmetry. apply HN; [eapply nth_error_In; eauto|].
        intros g' E. injection E as <- <-. destruct (Nat.lt_ge_cases j idx) as [Lj|Lj].
        * apply Fz. eapply nth_error_firstn_In; eauto.
        * apply Fj. apply (nth_error_firstn_In L idx j z); [exact Ez|lia].
    - exists C. split; [reflexivity|]. split; [exact HC|]. intros j J HJ. split; [|reflexivity].
      rewrite HN; [intros; ring|eapply nth_error_In; eauto|congruence].
  Qed.

  (** [C = numpy.zeros(nd); C[0] = 1.0] *)
  Lemma start_ok r : hd_error L = Some r -> exists C, start K (length (map rep L)) = Some C /\ length C = length L /\
    forall j, j < length L -> nth j C 0 = if Nat.eqb j 0 then 1 else 0.
  Proof.
    intros H. destruct L as [|x l] eqn:EL; [discriminate|]. rewrite map_length. cbn [length start].
    eexists. split; [reflexivity|]. unfold zeros. cbn [repeat upd]. split; [cbn; rewrite repeat_length; reflexivity|].
    intros [|j] _; cbn [nth Nat.eqb]; [reflexivity|]. apply zeros_nth.
  Qed.

  (** the entries of first occurrences, and of the others *)
  Lemma adds_run_first r F f : hd_error L = Some r -> adds F f ->
    exists C, (let? C := start K (length (map rep L)) in f C) = Some C /\ length C = length L /\
      forall j J, nth_error L j = Some J ->
        (~ In J (firstn j L) -> nth j C 0 = (if eqb (rep J) (rep r) then 1 else 0) + F J) /\
        (In J (firstn j L) -> nth j C 0 = 0).
  Proof.
    intros H Hf. destruct (start_ok r H) as (C & -> & LC & NC). cbn [bindo].
    destruct (Hf C LC) as (C' & -> & LC' & NC'). exists C'. split; [reflexivity|]. split; [exact LC'|].
    intros j J HJ. assert (Lj : j < length L) by (apply nth_error_Some; congruence).
    destruct (NC' j J HJ) as [N1 N2]. rewrite (NC j Lj) in N1, N2.
    assert (H0 : nth_error L 0 = Some r) by (destruct L; [discriminate|exact H]).
    split; intros N.
    - rewrite (N1 N). f_equal. destruct (Nat.eqb_spec j 0) as [->|J0].
      + assert (J = r) by congruence. subst J.
        destruct (eqb (rep r) (rep r)) eqn:E; [reflexivity|]. assert (X : eqb (rep r) (rep r) = true) by (apply eqb_eq; auto). congruence.
      + destruct (eqb (rep J) (rep r)) eqn:E; [|reflexivity]. exfalso. apply eqb_eq, rep_inj in E. subst J.
        apply N. apply (nth_error_firstn_In L 0 j r); [exact H0|lia].
    - rewrite (N2 N). destruct (Nat.eqb_spec j 0) as [->|J0]; [destruct N|reflexivity].
  Qed.

  Lemma adds_run r F f : NoDup L -> hd_error L = Some r -> adds F f ->
    (let? C := start K (length (map rep L)) in f C)
    = Some (map (fun J => (if eqb (rep J) (rep r) then 1 else 0) + F J) L).
  Proof.
    intros ND H Hf. destruct (adds_run_first r F f H Hf) as (C & -> & LC & NC).
    f_equal. apply nth_ext_K; [rewrite map_length; auto|].
    intros j Hj. rewrite LC in Hj. destruct (nth_error L j) as [J|] eqn:HJ.
    2:{ apply nth_error_None in HJ. lia. }
    erewrite (nth_error_nth (map _ L)) by (rewrite nth_error_map, HJ; reflexivity).
    apply (NC j J HJ). apply NoDup_firstn; auto.
  Qed.
End Adds.

Section Reads.
  Variable K : cring.
  Lemma tget2 (t : tensor K) n m i j : shp t = [n; m] -> i < n -> j < m -> tget K t [i; j] = Some (dat t [i; j]).
  Proof.
    intros S Hi Hj. unfold tget. rewrite S. cbn [in_rangeb].
    apply Nat.ltb_lt in Hi, Hj. rewrite Hi, Hj. reflexivity.
  Qed.
  Lemma tget4 (t : tensor K) n m o p i j k l : shp t = [n; m; o; p] -> i < n -> j < m -> k < o -> l < p ->
    tget K t [i; j; k; l] = Some (dat t [i; j; k; l]).
  Proof.
    intros S Hi Hj Hk Hl. unfold tget. rewrite S. cbn [in_rangeb].
    apply Nat.ltb_lt in Hi, Hj, Hk, Hl. rewrite Hi, Hj, Hk, Hl. reflexivity.
  Qed.
End Reads.
