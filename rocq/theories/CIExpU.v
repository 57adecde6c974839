(** makeCfromT computes the coefficients of exp(T)|ref> (C36).  The lemmas
    u_..._ok, one for each loop nest, are generated by tools/gen_cfromt_proofs.py. *)
From Coq Require Import List Bool Arith ZArith Lia Factorial.
From Verif Require Import Scalar Tensor NpModel CIModel CISpec CIRep CIFacts CIStrings CIBases CILemmas CIFock CIMatrix CIVec
  CIExpSpec CIExp CICfromT CIAdds.
Import ListNotations.
Local Open Scope list_scope.

Lemma in_range x lo hi : In x (range lo hi) -> lo <= x < hi.
Proof. unfold range. rewrite in_seq. lia. Qed.

Lemma aufbau_occ n k p : occd (aufbau n k) p = Nat.ltb p k && Nat.ltb p n.
Proof.
  unfold occd, aufbau. destruct (Nat.ltb_spec p n).
  - rewrite (nth_indep _ false (Nat.ltb 0 k)) by (rewrite map_length, seq_length; auto).
    rewrite (map_nth (fun i => Nat.ltb i k)), seq_nth, andb_true_r by auto. reflexivity.
  - rewrite nth_overflow by (rewrite map_length, seq_length; auto). rewrite andb_false_r. reflexivity.
Qed.

(** excitations of one spin: false is alpha *)
Definition exci := (bool * nat * nat)%type.
Definition uexc (x : udet) (e : exci) : option (bool * udet) :=
  let '(sp, i, a) := e in
  if sp then match exc (snd x) i a with Some (g, t) => Some (g, (fst x, t)) | None => None end
  else match exc (fst x) i a with Some (g, t) => Some (g, (t, snd x)) | None => None end.
Fixpoint uact (es : list exci) (x : udet) : option (bool * udet) :=
  match es with
  | [] => Some (false, x)
  | e :: es' => match uexc x e with
                | Some (g, y) => match uact es' y with Some (h, z) => Some (xorb h g, z) | None => None end
                | None => None
                end
  end.
Definition eop (n : nat) (e : exci) : list op :=
  let '(sp, i, a) := e in if sp then [Cre (n + a); Ann (n + i)] else [Cre a; Ann i].
Fixpoint uops (n : nat) (es : list exci) : list op :=
  match es with [] => [] | e :: es' => uops n es' ++ eop n e end.

Definition cnt (sp : bool) (es : list exci) : nat :=
  length (filter (fun e => Bool.eqb (fst (fst e)) sp) es).
Lemma cnt_sum es : cnt false es + cnt true es = length es.
Proof.
  induction es as [|[[[|] i] a] es IH]; [reflexivity| |]; unfold cnt in *; cbn [filter fst Bool.eqb length] in *; lia.
Qed.

Lemma app_inv {X} (a b c d : list X) : length a = length c -> a ++ b = c ++ d -> a = c /\ b = d.
Proof.
  revert c. induction a as [|x a IH]; intros [|y c] E D; try discriminate; [auto|].
  injection D as -> D. injection E as E. destruct (IH c E D). split; congruence.
Qed.

Lemma ndiff_app a b c d : length a = length c -> ndiff (a ++ b) (c ++ d) = ndiff a c + ndiff b d.
Proof.
  revert c. induction a as [|x a IH]; intros [|y c] E; try discriminate; [reflexivity|].
  injection E as E. cbn [app ndiff]. rewrite (IH c E). lia.
Qed.

Lemma exc_level ref s i a g t p : excited p ref s -> i < length ref -> a < length ref ->
  occd ref i = true -> occd ref a = false -> exc s i a = Some (g, t) -> excited (S p) ref t.
Proof.
  intros (L & N & D) Hi Hq Oi Oa E. assert (La : a < length s) by lia.
  split; [rewrite (exc_length _ _ _ _ _ E); auto|]. split; [rewrite (exc_nel _ _ _ _ _ La E); auto|].
  destruct (exc_occ _ _ _ _ _ E) as (Si & Sa & Nia & _). unfold exc in E. rewrite Si, Sa in E. injection E as _ <-.
  rewrite ndiff_put_out; rewrite ?put_length; auto.
  - rewrite ndiff_put_out; auto; try congruence; try lia. rewrite Oi. reflexivity.
  - rewrite occd_put. destruct (Nat.eqb_spec a i); [congruence|]. cbn [andb]. congruence.
  - rewrite Oa. reflexivity.
Qed.

Section Chain.
  Variables (n noa nob : nat).
  Notation A := (aufbau n noa). Notation B := (aufbau n nob).
  Hypothesis Ha : noa <= n.
  Hypothesis Hb : nob <= n.

  Definition valid (e : exci) : Prop :=
    let '(sp, i, a) := e in if sp then i < nob /\ nob <= a < n else i < noa /\ noa <= a < n.

  Lemma uexc_act (x : udet) e : length (fst x) = n -> length (snd x) = n -> valid e ->
    act (eop n e) (fst x ++ snd x) = match uexc x e with Some (g, z) => Some (g, fst z ++ snd z) | None => None end.
  Proof.
    destruct e as [[[|] i] a]; cbn [valid eop uexc]; intros La Lb V.
    - rewrite <- La at 1 2. change [Cre (length (fst x) + a); Ann (length (fst x) + i)]
        with (map (shift (length (fst x))) [Cre a; Ann i]).
      rewrite act_app_r, act_exc, flips_two by lia.
      destruct (exc (snd x) i a) as [[g t]|]; [|reflexivity]. rewrite xorb_false_l. reflexivity.
    - rewrite act_app_l by (repeat constructor; cbn; lia). rewrite act_exc by lia.
      destruct (exc (fst x) i a) as [[g t]|]; reflexivity.
  Qed.
  Lemma uexc_len (x : udet) e g z : uexc x e = Some (g, z) -> length (fst z) = length (fst x) /\ length (snd z) = length (snd x).
  Proof.
    destruct e as [[[|] i] a]; cbn [uexc]; intros E.
    - destruct (exc (snd x) i a) as [[g' t]|] eqn:F; [|discriminate]. injection E as <- <-. cbn.
      rewrite (exc_length _ _ _ _ _ F). auto.
    - destruct (exc (fst x) i a) as [[g' t]|] eqn:F; [|discriminate]. injection E as <- <-. cbn.
      rewrite (exc_length _ _ _ _ _ F). auto.
  Qed.
  Lemma uact_act es : forall x : udet, length (fst x) = n -> length (snd x) = n -> Forall valid es ->
    act (uops n es) (fst x ++ snd x) = match uact es x with Some (g, z) => Some (g, fst z ++ snd z) | None => None end.
  Proof.
    induction es as [|e es IH]; intros x La Lb F; [reflexivity|].
    inversion F as [|? ? V F']; subst. cbn [uops uact]. rewrite act_app, uexc_act by auto.
    destruct (uexc x e) as [[g y]|] eqn:E; [|reflexivity]. cbn [bindop].
    destruct (uexc_len _ _ _ _ E) as [L1 L2]. rewrite IH by (auto; congruence).
    destruct (uact es y) as [[h z]|]; reflexivity.
  Qed.
  Lemma uact_len es : forall (x : udet) g z, uact es x = Some (g, z) -> length (fst z) = length (fst x) /\ length (snd z) = length (snd x).
  Proof.
    induction es as [|e es IH]; intros x g z E; cbn [uact] in E.
    - injection E as <- <-. auto.
    - destruct (uexc x e) as [[g1 y]|] eqn:E1; [|discriminate]. destruct (uact es y) as [[h w]|] eqn:E2; [|discriminate].
      injection E as _ <-. destruct (IH _ _ _ E2), (uexc_len _ _ _ _ E1). split; congruence.
  Qed.

  Lemma uact_level es : forall (x : udet) p q g z, Forall valid es -> excited p A (fst x) -> excited q B (snd x) ->
    uact es x = Some (g, z) -> excited (cnt false es + p) A (fst z) /\ excited (cnt true es + q) B (snd z).
  Proof.
    induction es as [|e es IH]; intros x p q g z F Ea Eb E; cbn [uact] in E.
    - injection E as <- <-. auto.
    - inversion F as [|? ? V F']; subst.
      destruct (uexc x e) as [[g1 y]|] eqn:E1; [|discriminate]. destruct (uact es y) as [[h w]|] eqn:E2; [|discriminate].
      injection E as _ <-. destruct e as [[[|] i] a]; cbn [valid uexc] in V, E1; unfold cnt; cbn [filter fst Bool.eqb length];
        fold (cnt false es) (cnt true es).
      + destruct (exc (snd x) i a) as [[g2 t]|] eqn:E3; [|discriminate]. injection E1 as <- <-.
        assert (X : excited (S q) B t).
        { apply (exc_level B (snd x) i a g2 t q Eb); rewrite ?aufbau_length, ?aufbau_occ; try lia; [| |exact E3].
          - destruct (Nat.ltb_spec i nob), (Nat.ltb_spec i n); auto; lia.
          - destruct (Nat.ltb_spec a nob); auto; lia. }
        destruct (IH (fst x, t) p (S q) h w F' Ea X E2) as [R1 R2]. rewrite Nat.add_succ_r in *. auto.
      + destruct (exc (fst x) i a) as [[g2 t]|] eqn:E3; [|discriminate]. injection E1 as <- <-.
        assert (X : excited (S p) A t).
        { apply (exc_level A (fst x) i a g2 t p Ea); rewrite ?aufbau_length, ?aufbau_occ; try lia; [| |exact E3].
          - destruct (Nat.ltb_spec i noa), (Nat.ltb_spec i n); auto; lia.
          - destruct (Nat.ltb_spec a noa); auto; lia. }
        destruct (IH (t, snd x) (S p) q h w F' X Eb E2) as [R1 R2]. rewrite Nat.add_succ_r in *. auto.
  Qed.

End Chain.

Section Ratio.
  Variable K : cring.
  Local Open Scope K_scope.
  Add Ring KrR : (c_th K).
  Variable inv : nat -> K.
  Hypothesis Inv : forall d, 0 < d -> nK K d * inv d = 1.
  Lemma ratio0 d c e : Nat.eqb (c * e) d && Nat.ltb 0 d = true -> inv d * nK K c = inv e.
  Proof.
    rewrite andb_true_iff, Nat.eqb_eq, Nat.ltb_lt. intros [E D]. subst d.
    assert (X : nK K e * inv e = 1) by (apply Inv; destruct e; lia).
    pose proof (Inv _ D) as Y. rewrite nK_mul in Y.
    transitivity (inv (c * e)%nat * nK K c * (nK K e * inv e)); [rewrite X; ring|].
    transitivity (nK K c * nK K e * inv (c * e)%nat * inv e); [ring|]. rewrite Y. ring.
  Qed.

End Ratio.

Section U.
  Variable K : cring.
  Local Open Scope K_scope.
  Add Ring KrU : (c_th K).
  Variables (noa nva nob nvb n m : nat).
  Hypothesis Na : n = (noa + nva)%nat.
  Hypothesis Nb : n = (nob + nvb)%nat.
  Notation A := (aufbau n noa). Notation B := (aufbau n nob).
  Variable L : list udet.
  Hypothesis InL : forall x, In x L <-> u_space m A B x.
  Variables T1a T1b T2aa T2ab T2bb : tensor K.
  Hypothesis S1a : shp T1a = [nva; noa].
  Hypothesis S1b : shp T1b = [nvb; nob].
  Hypothesis S2aa : shp T2aa = [nva; nva; noa; noa].
  Hypothesis S2ab : shp T2ab = [nva; nvb; noa; nob].
  Hypothesis S2bb : shp T2bb = [nvb; nvb; nob; nob].
  Variable inv : nat -> K.
  Hypothesis Inv1 : inv 1 = 1.

  Notation Adds := (adds K L).
  Notation ref := (A ++ B).
  Definition ubra (J : udet) (es : list exci) : K := braket (fst J ++ snd J) (uops n es) ref.

  Lemma leaf es v body : Forall (valid n noa nob) es -> length es <= m ->
    (forall C, body C = match uact es (A, B) with
       | None => Some C
       | Some (g, z) => let? idx := index upair_eq (dpair z) (map dpair L) in add_at K C idx (sgn g * v)
       end) ->
    Adds (fun J => v * ubra J es) body.
  Proof.
    intros V Le HB. apply (adds_fun K L _ _ body HB).
    assert (Act : act (uops n es) (A ++ B) = match uact es (A, B) with Some (g, z) => Some (g, fst z ++ snd z) | None => None end).
    { apply (uact_act n noa nob ltac:(lia) ltac:(lia) es (A, B)); auto; apply aufbau_length. }
    pose proof (uact_len es (A, B)) as Ln.
    apply (adds_step K dpair upair_eq upair_eq_iff dpair_inj L).
    - intros g z E. apply InL. 
      destruct (uact_level n noa nob ltac:(lia) ltac:(lia) es (A, B) 0 0 g z V) as [Xa Xb]; auto; [apply excited0; reflexivity..|].
      exists (cnt false es + 0)%nat, (cnt true es + 0)%nat. split; [exact Xa|]. split; [exact Xb|].
      pose proof (cnt_sum es). lia.
    - intros J g _ E. rewrite E in Act. unfold ubra. rewrite (braket_some K _ _ _ g Act). ring.
    - intros J HJ N. unfold ubra. rewrite braket_other; [ring|]. intros g E. rewrite Act in E.
      destruct (uact es (A, B)) as [[h z]|] eqn:E1; [|discriminate]. injection E as -> D.
      destruct (Ln g z eq_refl) as [L1 _]. cbn [fst] in L1.
      apply InL in HJ as (ka & kb & (LJ & _) & _). apply (N g). f_equal. f_equal.
      assert (X : fst z = fst J /\ snd z = snd J) by (apply app_inv; [congruence|exact D]).
      destruct z, J; cbn in X; destruct X; congruence.
  Qed.

  Lemma sgn_xorb g h : sgn (K:=K) (xorb g h) = sgn g * sgn h.
  Proof. destruct g, h; cbn; ring. Qed.

  Definition terms (c : nat) : list (K * list op) :=
    match c with
    | 0%nat => flat_map (fun i => map (fun a => (dat T1a [a; i], eop n (false, i, a + noa)%nat)) (range 0 nva)) (range 0 noa)
    | 1%nat => flat_map (fun i => map (fun a => (dat T1b [a; i], eop n (true, i, a + nob)%nat)) (range 0 nvb)) (range 0 nob)
    | 2%nat => flat_map (fun i => flat_map (fun j => flat_map (fun a => map (fun b =>
           (dat T2aa [a; b; i; j], eop n (false, j, b + noa)%nat ++ eop n (false, i, a + noa)%nat))
           (range (a + 1) nva)) (range 0 nva)) (range (i + 1) noa)) (range 0 noa)
    | 3%nat => flat_map (fun i => flat_map (fun j => flat_map (fun a => map (fun b =>
           (dat T2ab [a; b; i; j], eop n (true, j, b + nob)%nat ++ eop n (false, i, a + noa)%nat))
           (range 0 nvb)) (range 0 nva)) (range 0 nob)) (range 0 noa)
    | 4%nat => flat_map (fun i => flat_map (fun j => flat_map (fun a => map (fun b =>
           (dat T2bb [a; b; i; j], eop n (true, j, b + nob)%nat ++ eop n (true, i, a + nob)%nat))
           (range (a + 1) nvb)) (range 0 nvb)) (range (i + 1) nob)) (range 0 nob)
    | _ => []
    end.
  Definition lev (c : nat) : nat := if Nat.leb c 1 then 1 else 2.

  Lemma terms_good c t : In t (terms c) -> Forall (good ref) (snd t) /\ length (snd t) = (2 * lev c)%nat.
  Proof.
    assert (Gd : forall e, valid n noa nob e -> Forall (good ref) (eop n e)).
    { intros [[[|] i] a] V; cbn [valid eop] in *; (constructor; [|constructor; [|constructor]]); cbn [good]; unfold occd.
      - rewrite app_nth2; rewrite aufbau_length; [|lia]. replace (n + a - n)%nat with a by lia.
        fold (occd (aufbau n nob) a). rewrite aufbau_occ. destruct (Nat.ltb_spec a nob); auto; lia.
      - rewrite app_nth2; rewrite aufbau_length; [|lia]. replace (n + i - n)%nat with i by lia.
        fold (occd (aufbau n nob) i). rewrite aufbau_occ. destruct (Nat.ltb_spec i nob), (Nat.ltb_spec i n); auto; lia.
      - rewrite app_nth1 by (rewrite aufbau_length; lia).
        fold (occd (aufbau n noa) a). rewrite aufbau_occ. destruct (Nat.ltb_spec a noa); auto; lia.
      - rewrite app_nth1 by (rewrite aufbau_length; lia).
        fold (occd (aufbau n noa) i). rewrite aufbau_occ. destruct (Nat.ltb_spec i noa), (Nat.ltb_spec i n); auto; lia. }
    destruct c as [|[|[|[|[|c]]]]]; cbn [terms]; [| | | | |intros []];
      repeat first [ rewrite in_flat_map; intros (? & ?Hx & Ht); revert Ht
                   | rewrite in_map_iff; intros (? & <- & ?Hx) ]; cbn [fst snd];
      repeat match goal with H : In _ (range _ _) |- _ => apply in_range in H end;
      (split; [ try (apply Forall_app; split); apply Gd; cbn [valid]; lia | reflexivity]).
  Qed.

  Lemma t0 (f : K * list op -> K) : SL (terms 0) f = SL (range 0 noa) (fun i => SL (range 0 nva) (fun a =>
    f (dat T1a [a; i], eop n (false, i, a + noa)%nat))).
  Proof. cbn [terms]. rewrite SL_flat_map. apply SL_ext. intros i _. rewrite SL_map. reflexivity. Qed.
  Lemma t1 (f : K * list op -> K) : SL (terms 1) f = SL (range 0 nob) (fun i => SL (range 0 nvb) (fun a =>
    f (dat T1b [a; i], eop n (true, i, a + nob)%nat))).
  Proof. cbn [terms]. rewrite SL_flat_map. apply SL_ext. intros i _. rewrite SL_map. reflexivity. Qed.
  Ltac t_tac := cbn [terms]; rewrite SL_flat_map; apply SL_ext; intros i _; rewrite SL_flat_map; apply SL_ext; intros j _;
    rewrite SL_flat_map; apply SL_ext; intros a _; rewrite SL_map; reflexivity.
  Lemma t2 (f : K * list op -> K) : SL (terms 2) f = SL (range 0 noa) (fun i => SL (range (i + 1) noa) (fun j =>
    SL (range 0 nva) (fun a => SL (range (a + 1) nva) (fun b =>
      f (dat T2aa [a; b; i; j], eop n (false, j, b + noa)%nat ++ eop n (false, i, a + noa)%nat))))).
  Proof. t_tac. Qed.
  Lemma t3 (f : K * list op -> K) : SL (terms 3) f = SL (range 0 noa) (fun i => SL (range 0 nob) (fun j =>
    SL (range 0 nva) (fun a => SL (range 0 nvb) (fun b =>
      f (dat T2ab [a; b; i; j], eop n (true, j, b + nob)%nat ++ eop n (false, i, a + noa)%nat))))).
  Proof. t_tac. Qed.
  Lemma t4 (f : K * list op -> K) : SL (terms 4) f = SL (range 0 nob) (fun i => SL (range (i + 1) nob) (fun j =>
    SL (range 0 nvb) (fun a => SL (range (a + 1) nvb) (fun b =>
      f (dat T2bb [a; b; i; j], eop n (true, j, b + nob)%nat ++ eop n (true, i, a + nob)%nat))))).
  Proof. t_tac. Qed.

  (** the amplitude of J in the product of the classes w *)
  Definition PJ (J : udet) (w : list nat) : K := P K ref (fst J ++ snd J) terms w.

  Ltac ranges := repeat match goal with H : In _ (range _ _) |- _ => apply in_range in H end.
  Ltac valid_tac := repeat (apply Forall_cons; [cbn [valid]; lia|]); apply Forall_nil.
  Ltac body_tac :=
    intros C; cbn [uact uexc fst snd];
    pose proof (aufbau_length n noa); pose proof (aufbau_length n nob);
    repeat match goal with
    | E : exc ?s ?i ?a = _ |- context [exc ?s ?i ?a] => rewrite E; cbv iota beta; cbn [fst snd]
    | |- context [excite (dstr ?s) ?i ?a] => rewrite (excite_exc s i a) by lia; cbn [bindo]
    | |- context [exc ?s ?i ?a] =>
        let E := fresh "E" in destruct (exc s i a) as [[? ?]|] eqn:E;
        [pose proof (exc_length _ _ _ _ _ E)|]; cbv iota beta; cbn [fst snd]
    end; try reflexivity;
    unfold dpair; cbn [fst snd];
    match goal with |- context [index upair_eq ?x ?l] => destruct (index upair_eq x l); [|reflexivity] end;
    cbn [bindo];
    repeat (first [erewrite tget2 by (first [eassumption|lia])|erewrite tget4 by (first [eassumption|lia])]; cbn [bindo]);
    f_equal; rewrite ?zK_zsgn, ?sgn_xorb, ?Inv1; change (sgn (K:=K) false) with (1 : K); ring.
  Ltac peel := rewrite <- ?SL_mul; apply SL_ext; let i := fresh "i" in intros i _.
  Ltac done_tac := cbn [fst snd]; unfold ubra; cbn [uops eop app]; ring.

  Lemma u_T1a_ok : 1 <= m -> Adds (fun J => inv 1 * PJ J [0]%nat) (u_T1a K noa nva (map dpair L) (dstr A) (dstr B) T1a).
  Proof.
    intros Hm. unfold u_T1a. eapply adds_ext; cycle 1.
    - apply adds_each; intros i ?. apply adds_each; intros a ?. cbv beta. ranges.
      apply (leaf [(false, i, a + noa)%nat] (inv 1 * dat T1a [a; i])); [valid_tac|cbn; lia|body_tac].
    - intros J _. cbv beta. unfold PJ. rewrite P1. rewrite t0. do 2 peel.
      done_tac.
  Qed.
  Lemma u_T1b_ok : 1 <= m -> Adds (fun J => inv 1 * PJ J [1]%nat) (u_T1b K nob nvb (map dpair L) (dstr A) (dstr B) T1b).
  Proof.
    intros Hm. unfold u_T1b. eapply adds_ext; cycle 1.
    - apply adds_each; intros i ?. apply adds_each; intros a ?. cbv beta. ranges.
      apply (leaf [(true, i, a + nob)%nat] (inv 1 * dat T1b [a; i])); [valid_tac|cbn; lia|body_tac].
    - intros J _. cbv beta. unfold PJ. rewrite P1. rewrite t1. do 2 peel.
      done_tac.
  Qed.
  Lemma u_T2aa_ok : 2 <= m -> Adds (fun J => inv 1 * PJ J [2]%nat) (u_T2aa K noa nva (map dpair L) (dstr A) (dstr B) T2aa).
  Proof.
    intros Hm. unfold u_T2aa. eapply adds_ext; cycle 1.
    - apply adds_each; intros i ?. apply adds_each; intros j ?. apply adds_each; intros a ?. apply adds_each; intros b ?. cbv beta. ranges.
      apply (leaf [(false, i, a + noa)%nat; (false, j, b + noa)%nat] (inv 1 * dat T2aa [a; b; i; j])); [valid_tac|cbn; lia|body_tac].
    - intros J _. cbv beta. unfold PJ. rewrite P1. rewrite t2. do 4 peel.
      done_tac.
  Qed.
  Lemma u_T2bb_ok : 2 <= m -> Adds (fun J => inv 1 * PJ J [4]%nat) (u_T2bb K nob nvb (map dpair L) (dstr A) (dstr B) T2bb).
  Proof.
    intros Hm. unfold u_T2bb. eapply adds_ext; cycle 1.
    - apply adds_each; intros i ?. apply adds_each; intros j ?. apply adds_each; intros a ?. apply adds_each; intros b ?. cbv beta. ranges.
      apply (leaf [(true, i, a + nob)%nat; (true, j, b + nob)%nat] (inv 1 * dat T2bb [a; b; i; j])); [valid_tac|cbn; lia|body_tac].
    - intros J _. cbv beta. unfold PJ. rewrite P1. rewrite t4. do 4 peel.
      done_tac.
  Qed.
  Lemma u_T2ab_ok : 2 <= m -> Adds (fun J => inv 1 * PJ J [3]%nat) (u_T2ab K noa nva nob nvb (map dpair L) (dstr A) (dstr B) T2ab).
  Proof.
    intros Hm. unfold u_T2ab. eapply adds_ext; cycle 1.
    - apply adds_each; intros i ?. apply adds_each; intros j ?. apply adds_each; intros a ?. apply adds_each; intros b ?. cbv beta. ranges.
      apply (leaf [(false, i, a + noa)%nat; (true, j, b + nob)%nat] (inv 1 * dat T2ab [a; b; i; j])); [valid_tac|cbn; lia|body_tac].
    - intros J _. cbv beta. unfold PJ. rewrite P1. rewrite t3. do 4 peel.
      done_tac.
  Qed.
  Lemma u_T1a_T1a_ok : 2 <= m -> Adds (fun J => inv 2 * PJ J [0; 0]%nat) (u_T1a_T1a K inv noa nva (map dpair L) (dstr A) (dstr B) T1a).
  Proof.
    intros Hm. unfold u_T1a_T1a. eapply adds_ext; cycle 1.
    - apply adds_each; intros i ?. apply adds_each; intros j ?. apply adds_each; intros a ?. apply adds_each; intros b ?. cbv beta. ranges.
      apply (leaf [(false, i, a + noa)%nat; (false, j, b + noa)%nat] (inv 2 * dat T1a [a; i] * dat T1a [b; j])); [valid_tac|cbn; lia|body_tac].
    - intros J _. cbv beta. rewrite ord11. unfold PJ. rewrite P2a with (lev := lev) by exact terms_good. rewrite t0. do 2 peel. rewrite t0. do 2 peel.
      done_tac.
  Qed.
  Lemma u_T1b_T1b_ok : 2 <= m -> Adds (fun J => inv 2 * PJ J [1; 1]%nat) (u_T1b_T1b K inv nob nvb (map dpair L) (dstr A) (dstr B) T1b).
  Proof.
    intros Hm. unfold u_T1b_T1b. eapply adds_ext; cycle 1.
    - apply adds_each; intros i ?. apply adds_each; intros j ?. apply adds_each; intros a ?. apply adds_each; intros b ?. cbv beta. ranges.
      apply (leaf [(true, i, a + nob)%nat; (true, j, b + nob)%nat] (inv 2 * dat T1b [a; i] * dat T1b [b; j])); [valid_tac|cbn; lia|body_tac].
    - intros J _. cbv beta. rewrite ord11. unfold PJ. rewrite P2a with (lev := lev) by exact terms_good. rewrite t1. do 2 peel. rewrite t1. do 2 peel.
      done_tac.
  Qed.
  Lemma u_T1a_T1b_ok : 2 <= m -> Adds (fun J => inv 1 * PJ J [0; 1]%nat) (u_T1a_T1b K noa nva nob nvb (map dpair L) (dstr A) (dstr B) T1a T1b).
  Proof.
    intros Hm. unfold u_T1a_T1b. eapply adds_ext; cycle 1.
    - apply adds_each; intros i ?. apply adds_each; intros j ?. apply adds_each; intros a ?. apply adds_each; intros b ?. cbv beta. ranges.
      apply (leaf [(false, i, a + noa)%nat; (true, j, b + nob)%nat] (inv 1 * dat T1a [a; i] * dat T1b [b; j])); [valid_tac|cbn; lia|body_tac].
    - intros J _. cbv beta. rewrite ord11. unfold PJ. rewrite P2a with (lev := lev) by exact terms_good. rewrite t0. do 2 peel. rewrite t1. do 2 peel.
      done_tac.
  Qed.
  Lemma u_T1a_T2aa_ok : 3 <= m -> Adds (fun J => inv 1 * PJ J [0; 2]%nat) (u_T1a_T2aa K noa nva (map dpair L) (dstr A) (dstr B) T1a T2aa).
  Proof.
    intros Hm. unfold u_T1a_T2aa. eapply adds_ext; cycle 1.
    - apply adds_each; intros i ?. apply adds_each; intros j ?. apply adds_each; intros k ?. apply adds_each; intros a ?. apply adds_each; intros b ?. apply adds_each; intros c ?. cbv beta. ranges.
      apply (leaf [(false, i, a + noa)%nat; (false, j, b + noa)%nat; (false, k, c + noa)%nat] (inv 1 * dat T1a [a; i] * dat T2aa [b; c; j; k])); [valid_tac|cbn; lia|body_tac].
    - intros J _. cbv beta. rewrite ord12. unfold PJ. rewrite P2a with (lev := lev) by exact terms_good. rewrite t0. do 2 peel. rewrite t2. do 4 peel.
      done_tac.
  Qed.
  Lemma u_T1a_T2ab_ok : 3 <= m -> Adds (fun J => inv 1 * PJ J [0; 3]%nat) (u_T1a_T2ab K noa nva nob nvb (map dpair L) (dstr A) (dstr B) T1a T2ab).
  Proof.
    intros Hm. unfold u_T1a_T2ab. eapply adds_ext; cycle 1.
    - apply adds_each; intros i ?. apply adds_each; intros j ?. apply adds_each; intros k ?. apply adds_each; intros a ?. apply adds_each; intros b ?. apply adds_each; intros c ?. cbv beta. ranges.
      apply (leaf [(false, i, a + noa)%nat; (false, j, b + noa)%nat; (true, k, c + nob)%nat] (inv 1 * dat T1a [a; i] * dat T2ab [b; c; j; k])); [valid_tac|cbn; lia|body_tac].
    - intros J _. cbv beta. rewrite ord12. unfold PJ. rewrite P2a with (lev := lev) by exact terms_good. rewrite t0. do 2 peel. rewrite t3. do 4 peel.
      done_tac.
  Qed.
  Lemma u_T1b_T2aa_ok : 3 <= m -> Adds (fun J => inv 1 * PJ J [1; 2]%nat) (u_T1b_T2aa K noa nva nob nvb (map dpair L) (dstr A) (dstr B) T1b T2aa).
  Proof.
    intros Hm. unfold u_T1b_T2aa. eapply adds_ext; cycle 1.
    - apply adds_each; intros i ?. apply adds_each; intros j ?. apply adds_each; intros k ?. apply adds_each; intros a ?. apply adds_each; intros b ?. apply adds_each; intros c ?. cbv beta. ranges.
      apply (leaf [(true, i, a + nob)%nat; (false, j, b + noa)%nat; (false, k, c + noa)%nat] (inv 1 * dat T1b [a; i] * dat T2aa [b; c; j; k])); [valid_tac|cbn; lia|body_tac].
    - intros J _. cbv beta. rewrite ord12. unfold PJ. rewrite P2a with (lev := lev) by exact terms_good. rewrite t1. do 2 peel. rewrite t2. do 4 peel.
      done_tac.
  Qed.
  Lemma u_T1a_T2bb_ok : 3 <= m -> Adds (fun J => inv 1 * PJ J [0; 4]%nat) (u_T1a_T2bb K noa nva nob nvb (map dpair L) (dstr A) (dstr B) T1a T2bb).
  Proof.
    intros Hm. unfold u_T1a_T2bb. eapply adds_ext; cycle 1.
    - apply adds_each; intros i ?. apply adds_each; intros j ?. apply adds_each; intros k ?. apply adds_each; intros a ?. apply adds_each; intros b ?. apply adds_each; intros c ?. cbv beta. ranges.
      apply (leaf [(false, i, a + noa)%nat; (true, j, b + nob)%nat; (true, k, c + nob)%nat] (inv 1 * dat T1a [a; i] * dat T2bb [b; c; j; k])); [valid_tac|cbn; lia|body_tac].
    - intros J _. cbv beta. rewrite ord12. unfold PJ. rewrite P2a with (lev := lev) by exact terms_good. rewrite t0. do 2 peel. rewrite t4. do 4 peel.
      done_tac.
  Qed.
  Lemma u_T1b_T2ab_ok : 3 <= m -> Adds (fun J => inv 1 * PJ J [1; 3]%nat) (u_T1b_T2ab K noa nva nob nvb (map dpair L) (dstr A) (dstr B) T1b T2ab).
  Proof.
    intros Hm. unfold u_T1b_T2ab. eapply adds_ext; cycle 1.
    - apply adds_each; intros i ?. apply adds_each; intros j ?. apply adds_each; intros k ?. apply adds_each; intros a ?. apply adds_each; intros b ?. apply adds_each; intros c ?. cbv beta. ranges.
      apply (leaf [(true, i, a + nob)%nat; (false, j, b + noa)%nat; (true, k, c + nob)%nat] (inv 1 * dat T1b [a; i] * dat T2ab [b; c; j; k])); [valid_tac|cbn; lia|body_tac].
    - intros J _. cbv beta. rewrite ord12. unfold PJ. rewrite P2a with (lev := lev) by exact terms_good. rewrite t1. do 2 peel. rewrite t3. do 4 peel.
      done_tac.
  Qed.
  Lemma u_T1b_T2bb_ok : 3 <= m -> Adds (fun J => inv 1 * PJ J [1; 4]%nat) (u_T1b_T2bb K nob nvb (map dpair L) (dstr A) (dstr B) T1b T2bb).
  Proof.
    intros Hm. unfold u_T1b_T2bb. eapply adds_ext; cycle 1.
    - apply adds_each; intros i ?. apply adds_each; intros j ?. apply adds_each; intros k ?. apply adds_each; intros a ?. apply adds_each; intros b ?. apply adds_each; intros c ?. cbv beta. ranges.
      apply (leaf [(true, i, a + nob)%nat; (true, j, b + nob)%nat; (true, k, c + nob)%nat] (inv 1 * dat T1b [a; i] * dat T2bb [b; c; j; k])); [valid_tac|cbn; lia|body_tac].
    - intros J _. cbv beta. rewrite ord12. unfold PJ. rewrite P2a with (lev := lev) by exact terms_good. rewrite t1. do 2 peel. rewrite t4. do 4 peel.
      done_tac.
  Qed.
  Lemma u_T1a_T1a_T1a_ok : 3 <= m -> Adds (fun J => inv 6 * PJ J [0; 0; 0]%nat) (u_T1a_T1a_T1a K inv noa nva (map dpair L) (dstr A) (dstr B) T1a).
  Proof.
    intros Hm. unfold u_T1a_T1a_T1a. eapply adds_ext; cycle 1.
    - apply adds_each; intros i ?. apply adds_each; intros j ?. apply adds_each; intros k ?. apply adds_each; intros a ?. apply adds_each; intros b ?. apply adds_each; intros c ?. cbv beta. ranges.
      apply (leaf [(false, i, a + noa)%nat; (false, j, b + noa)%nat; (false, k, c + noa)%nat] (inv 6 * dat T1a [a; i] * dat T1a [b; j] * dat T1a [c; k])); [valid_tac|cbn; lia|body_tac].
    - intros J _. cbv beta. rewrite ord111. unfold PJ. rewrite P3a with (lev := lev) by exact terms_good. rewrite t0. do 2 peel. rewrite t0. do 2 peel. rewrite t0. do 2 peel.
      done_tac.
  Qed.
  Lemma u_T1a_T1a_T1b_ok : 3 <= m -> Adds (fun J => inv 2 * PJ J [0; 0; 1]%nat) (u_T1a_T1a_T1b K inv noa nva nob nvb (map dpair L) (dstr A) (dstr B) T1a T1b).
  Proof.
    intros Hm. unfold u_T1a_T1a_T1b. eapply adds_ext; cycle 1.
    - apply adds_each; intros i ?. apply adds_each; intros j ?. apply adds_each; intros k ?. apply adds_each; intros a ?. apply adds_each; intros b ?. apply adds_each; intros c ?. cbv beta. ranges.
      apply (leaf [(false, i, a + noa)%nat; (false, j, b + noa)%nat; (true, k, c + nob)%nat] (inv 2 * dat T1a [a; i] * dat T1a [b; j] * dat T1b [c; k])); [valid_tac|cbn; lia|body_tac].
    - intros J _. cbv beta. rewrite ord111. unfold PJ. rewrite P3a with (lev := lev) by exact terms_good. rewrite t0. do 2 peel. rewrite t0. do 2 peel. rewrite t1. do 2 peel.
      done_tac.
  Qed.
  Lemma u_T1a_T1b_T1b_ok : 3 <= m -> Adds (fun J => inv 2 * PJ J [0; 1; 1]%nat) (u_T1a_T1b_T1b K inv noa nva nob nvb (map dpair L) (dstr A) (dstr B) T1a T1b).
  Proof.
    intros Hm. unfold u_T1a_T1b_T1b. eapply adds_ext; cycle 1.
    - apply adds_each; intros i ?. apply adds_each; intros j ?. apply adds_each; intros k ?. apply adds_each; intros a ?. apply adds_each; intros b ?. apply adds_each; intros c ?. cbv beta. ranges.
      apply (leaf [(false, i, a + noa)%nat; (true, j, b + nob)%nat; (true, k, c + nob)%nat] (inv 2 * dat T1a [a; i] * dat T1b [b; j] * dat T1b [c; k])); [valid_tac|cbn; lia|body_tac].
    - intros J _. cbv beta. rewrite ord111. unfold PJ. rewrite P3a with (lev := lev) by exact terms_good. rewrite t0. do 2 peel. rewrite t1. do 2 peel. rewrite t1. do 2 peel.
      done_tac.
  Qed.
  Lemma u_T1b_T1b_T1b_ok : 3 <= m -> Adds (fun J => inv 6 * PJ J [1; 1; 1]%nat) (u_T1b_T1b_T1b K inv nob nvb (map dpair L) (dstr A) (dstr B) T1b).
  Proof.
    intros Hm. unfold u_T1b_T1b_T1b. eapply adds_ext; cycle 1.
    - apply adds_each; intros i ?. apply adds_each; intros j ?. apply adds_each; intros k ?. apply adds_each; intros a ?. apply adds_each; intros b ?. apply adds_each; intros c ?. cbv beta. ranges.
      apply (leaf [(true, i, a + nob)%nat; (true, j, b + nob)%nat; (true, k, c + nob)%nat] (inv 6 * dat T1b [a; i] * dat T1b [b; j] * dat T1b [c; k])); [valid_tac|cbn; lia|body_tac].
    - intros J _. cbv beta. rewrite ord111. unfold PJ. rewrite P3a with (lev := lev) by exact terms_good. rewrite t1. do 2 peel. rewrite t1. do 2 peel. rewrite t1. do 2 peel.
      done_tac.
  Qed.
  Lemma u_T2aa_T2aa_ok : 4 <= m -> Adds (fun J => inv 2 * PJ J [2; 2]%nat) (u_T2aa_T2aa K inv noa nva (map dpair L) (dstr A) (dstr B) T2aa).
  Proof.
    intros Hm. unfold u_T2aa_T2aa. eapply adds_ext; cycle 1.
    - apply adds_each; intros i ?. apply adds_each; intros j ?. apply adds_each; intros k ?. apply adds_each; intros l ?. apply adds_each; intros a ?. apply adds_each; intros b ?. apply adds_each; intros c ?. apply adds_each; intros d ?. cbv beta. ranges.
      apply (leaf [(false, i, a + noa)%nat; (false, j, b + noa)%nat; (false, k, c + noa)%nat; (false, l, d + noa)%nat] (inv 2 * dat T2aa [a; b; i; j] * dat T2aa [c; d; k; l])); [valid_tac|cbn; lia|body_tac].
    - intros J _. cbv beta. rewrite ord22. unfold PJ. rewrite P2a with (lev := lev) by exact terms_good. rewrite t2. do 4 peel. rewrite t2. do 4 peel.
      done_tac.
  Qed.
  Lemma u_T2aa_T2ab_ok : 4 <= m -> Adds (fun J => inv 1 * PJ J [2; 3]%nat) (u_T2aa_T2ab K noa nva nob nvb (map dpair L) (dstr A) (dstr B) T2aa T2ab).
  Proof.
    intros Hm. unfold u_T2aa_T2ab. eapply adds_ext; cycle 1.
    - apply adds_each; intros i ?. apply adds_each; intros j ?. apply adds_each; intros k ?. apply adds_each; intros l ?. apply adds_each; intros a ?. apply adds_each; intros b ?. apply adds_each; intros c ?. apply adds_each; intros d ?. cbv beta. ranges.
      apply (leaf [(false, i, a + noa)%nat; (false, j, b + noa)%nat; (false, k, c + noa)%nat; (true, l, d + nob)%nat] (inv 1 * dat T2aa [a; b; i; j] * dat T2ab [c; d; k; l])); [valid_tac|cbn; lia|body_tac].
    - intros J _. cbv beta. rewrite ord22. unfold PJ. rewrite P2a with (lev := lev) by exact terms_good. rewrite t2. do 4 peel. rewrite t3. do 4 peel.
      done_tac.
  Qed.
  Lemma u_T2aa_T2bb_ok : 4 <= m -> Adds (fun J => inv 1 * PJ J [2; 4]%nat) (u_T2aa_T2bb K noa nva nob nvb (map dpair L) (dstr A) (dstr B) T2aa T2bb).
  Proof.
    intros Hm. unfold u_T2aa_T2bb. eapply adds_ext; cycle 1.
    - apply adds_each; intros i ?. apply adds_each; intros j ?. apply adds_each; intros k ?. apply adds_each; intros l ?. apply adds_each; intros a ?. apply adds_each; intros b ?. apply adds_each; intros c ?. apply adds_each; intros d ?. cbv beta. ranges.
      apply (leaf [(false, i, a + noa)%nat; (false, j, b + noa)%nat; (true, k, c + nob)%nat; (true, l, d + nob)%nat] (inv 1 * dat T2aa [a; b; i; j] * dat T2bb [c; d; k; l])); [valid_tac|cbn; lia|body_tac].
    - intros J _. cbv beta. rewrite ord22. unfold PJ. rewrite P2a with (lev := lev) by exact terms_good. rewrite t2. do 4 peel. rewrite t4. do 4 peel.
      done_tac.
  Qed.
  Lemma u_T2ab_T2ab_ok : 4 <= m -> Adds (fun J => inv 2 * PJ J [3; 3]%nat) (u_T2ab_T2ab K inv noa nva nob nvb (map dpair L) (dstr A) (dstr B) T2ab).
  Proof.
    intros Hm. unfold u_T2ab_T2ab. eapply adds_ext; cycle 1.
    - apply adds_each; intros i ?. apply adds_each; intros j ?. apply adds_each; intros k ?. apply adds_each; intros l ?. apply adds_each; intros a ?. apply adds_each; intros b ?. apply adds_each; intros c ?. apply adds_each; intros d ?. cbv beta. ranges.
      apply (leaf [(false, i, a + noa)%nat; (true, j, b + nob)%nat; (false, k, c + noa)%nat; (true, l, d + nob)%nat] (inv 2 * dat T2ab [a; b; i; j] * dat T2ab [c; d; k; l])); [valid_tac|cbn; lia|body_tac].
    - intros J _. cbv beta. rewrite ord22. unfold PJ. rewrite P2a with (lev := lev) by exact terms_good. rewrite t3. do 4 peel. rewrite t3. do 4 peel.
      done_tac.
  Qed.
  Lemma u_T2ab_T2bb_ok : 4 <= m -> Adds (fun J => inv 1 * PJ J [3; 4]%nat) (u_T2ab_T2bb K noa nva nob nvb (map dpair L) (dstr A) (dstr B) T2ab T2bb).
  Proof.
    intros Hm. unfold u_T2ab_T2bb. eapply adds_ext; cycle 1.
    - apply adds_each; intros i ?. apply adds_each; intros j ?. apply adds_each; intros k ?. apply adds_each; intros l ?. apply adds_each; intros a ?. apply adds_each; intros b ?. apply adds_each; intros c ?. apply adds_each; intros d ?. cbv beta. ranges.
      apply (leaf [(false, i, a + noa)%nat; (true, j, b + nob)%nat; (true, k, c + nob)%nat; (true, l, d + nob)%nat] (inv 1 * dat T2ab [a; b; i; j] * dat T2bb [c; d; k; l])); [valid_tac|cbn; lia|body_tac].
    - intros J _. cbv beta. rewrite ord22. unfold PJ. rewrite P2a with (lev := lev) by exact terms_good. rewrite t3. do 4 peel. rewrite t4. do 4 peel.
      done_tac.
  Qed.
  Lemma u_T2bb_T2bb_ok : 4 <= m -> Adds (fun J => inv 2 * PJ J [4; 4]%nat) (u_T2bb_T2bb K inv nob nvb (map dpair L) (dstr A) (dstr B) T2bb).
  Proof.
    intros Hm. unfold u_T2bb_T2bb. eapply adds_ext; cycle 1.
    - apply adds_each; intros i ?. apply adds_each; intros j ?. apply adds_each; intros k ?. apply adds_each; intros l ?. apply adds_each; intros a ?. apply adds_each; intros b ?. apply adds_each; intros c ?. apply adds_each; intros d ?. cbv beta. ranges.
      apply (leaf [(true, i, a + nob)%nat; (true, j, b + nob)%nat; (true, k, c + nob)%nat; (true, l, d + nob)%nat] (inv 2 * dat T2bb [a; b; i; j] * dat T2bb [c; d; k; l])); [valid_tac|cbn; lia|body_tac].
    - intros J _. cbv beta. rewrite ord22. unfold PJ. rewrite P2a with (lev := lev) by exact terms_good. rewrite t4. do 4 peel. rewrite t4. do 4 peel.
      done_tac.
  Qed.
  Lemma u_T1a_T1a_T2aa_ok : 4 <= m -> Adds (fun J => inv 2 * PJ J [0; 0; 2]%nat) (u_T1a_T1a_T2aa K inv noa nva (map dpair L) (dstr A) (dstr B) T1a T2aa).
  Proof.
    intros Hm. unfold u_T1a_T1a_T2aa. eapply adds_ext; cycle 1.
    - apply adds_each; intros i ?. apply adds_each; intros j ?. apply adds_each; intros k ?. apply adds_each; intros l ?. apply adds_each; intros a ?. apply adds_each; intros b ?. apply adds_each; intros c ?. apply adds_each; intros d ?. cbv beta. ranges.
      apply (leaf [(false, i, a + noa)%nat; (false, j, b + noa)%nat; (false, k, c + noa)%nat; (false, l, d + noa)%nat] (inv 2 * dat T1a [a; i] * dat T1a [b; j] * dat T2aa [c; d; k; l])); [valid_tac|cbn; lia|body_tac].
    - intros J _. cbv beta. rewrite ord112. unfold PJ. rewrite P3a with (lev := lev) by exact terms_good. rewrite t0. do 2 peel. rewrite t0. do 2 peel. rewrite t2. do 4 peel.
      done_tac.
  Qed.
  Lemma u_T1a_T1a_T2ab_ok : 4 <= m -> Adds (fun J => inv 2 * PJ J [0; 0; 3]%nat) (u_T1a_T1a_T2ab K inv noa nva nob nvb (map dpair L) (dstr A) (dstr B) T1a T2ab).
  Proof.
    intros Hm. unfold u_T1a_T1a_T2ab. eapply adds_ext; cycle 1.
    - apply adds_each; intros i ?. apply adds_each; intros j ?. apply adds_each; intros k ?. apply adds_each; intros l ?. apply adds_each; intros a ?. apply adds_each; intros b ?. apply adds_each; intros c ?. apply adds_each; intros d ?. cbv beta. ranges.
      apply (leaf [(false, i, a + noa)%nat; (false, j, b + noa)%nat; (false, k, c + noa)%nat; (true, l, d + nob)%nat] (inv 2 * dat T1a [a; i] * dat T1a [b; j] * dat T2ab [c; d; k; l])); [valid_tac|cbn; lia|body_tac].
    - intros J _. cbv beta. rewrite ord112. unfold PJ. rewrite P3a with (lev := lev) by exact terms_good. rewrite t0. do 2 peel. rewrite t0. do 2 peel. rewrite t3. do 4 peel.
      done_tac.
  Qed.
  Lemma u_T1a_T1b_T2aa_ok : 4 <= m -> Adds (fun J => inv 1 * PJ J [0; 1; 2]%nat) (u_T1a_T1b_T2aa K noa nva nob nvb (map dpair L) (dstr A) (dstr B) T1a T1b T2aa).
  Proof.
    intros Hm. unfold u_T1a_T1b_T2aa. eapply adds_ext; cycle 1.
    - apply adds_each; intros i ?. apply adds_each; intros j ?. apply adds_each; intros k ?. apply adds_each; intros l ?. apply adds_each; intros a ?. apply adds_each; intros b ?. apply adds_each; intros c ?. apply adds_each; intros d ?. cbv beta. ranges.
      apply (leaf [(false, i, a + noa)%nat; (true, j, b + nob)%nat; (false, k, c + noa)%nat; (false, l, d + noa)%nat] (inv 1 * dat T1a [a; i] * dat T1b [b; j] * dat T2aa [c; d; k; l])); [valid_tac|cbn; lia|body_tac].
    - intros J _. cbv beta. rewrite ord112. unfold PJ. rewrite P3a with (lev := lev) by exact terms_good. rewrite t0. do 2 peel. rewrite t1. do 2 peel. rewrite t2. do 4 peel.
      done_tac.
  Qed.
  Lemma u_T1a_T1a_T2bb_ok : 4 <= m -> Adds (fun J => inv 2 * PJ J [0; 0; 4]%nat) (u_T1a_T1a_T2bb K inv noa nva nob nvb (map dpair L) (dstr A) (dstr B) T1a T2bb).
  Proof.
    intros Hm. unfold u_T1a_T1a_T2bb. eapply adds_ext; cycle 1.
    - apply adds_each; intros i ?. apply adds_each; intros j ?. apply adds_each; intros k ?. apply adds_each; intros l ?. apply adds_each; intros a ?. apply adds_each; intros b ?. apply adds_each; intros c ?. apply adds_each; intros d ?. cbv beta. ranges.
      apply (leaf [(false, i, a + noa)%nat; (false, j, b + noa)%nat; (true, k, c + nob)%nat; (true, l, d + nob)%nat] (inv 2 * dat T1a [a; i] * dat T1a [b; j] * dat T2bb [c; d; k; l])); [valid_tac|cbn; lia|body_tac].
    - intros J _. cbv beta. rewrite ord112. unfold PJ. rewrite P3a with (lev := lev) by exact terms_good. rewrite t0. do 2 peel. rewrite t0. do 2 peel. rewrite t4. do 4 peel.
      done_tac.
  Qed.
  Lemma u_T1a_T1b_T2ab_ok : 4 <= m -> Adds (fun J => inv 1 * PJ J [0; 1; 3]%nat) (u_T1a_T1b_T2ab K noa nva nob nvb (map dpair L) (dstr A) (dstr B) T1a T1b T2ab).
  Proof.
    intros Hm. unfold u_T1a_T1b_T2ab. eapply adds_ext; cycle 1.
    - apply adds_each; intros i ?. apply adds_each; intros j ?. apply adds_each; intros k ?. apply adds_each; intros l ?. apply adds_each; intros a ?. apply adds_each; intros b ?. apply adds_each; intros c ?. apply adds_each; intros d ?. cbv beta. ranges.
      apply (leaf [(false, i, a + noa)%nat; (true, j, b + nob)%nat; (false, k, c + noa)%nat; (true, l, d + nob)%nat] (inv 1 * dat T1a [a; i] * dat T1b [b; j] * dat T2ab [c; d; k; l])); [valid_tac|cbn; lia|body_tac].
    - intros J _. cbv beta. rewrite ord112. unfold PJ. rewrite P3a with (lev := lev) by exact terms_good. rewrite t0. do 2 peel. rewrite t1. do 2 peel. rewrite t3. do 4 peel.
      done_tac.
  Qed.
  Lemma u_T1a_T1b_T2bb_ok : 4 <= m -> Adds (fun J => inv 1 * PJ J [0; 1; 4]%nat) (u_T1a_T1b_T2bb K noa nva nob nvb (map dpair L) (dstr A) (dstr B) T1a T1b T2bb).
  Proof.
    intros Hm. unfold u_T1a_T1b_T2bb. eapply adds_ext; cycle 1.
    - apply adds_each; intros i ?. apply adds_each; intros j ?. apply adds_each; intros k ?. apply adds_each; intros l ?. apply adds_each; intros a ?. apply adds_each; intros b ?. apply adds_each; intros c ?. apply adds_each; intros d ?. cbv beta. ranges.
      apply (leaf [(false, i, a + noa)%nat; (true, j, b + nob)%nat; (true, k, c + nob)%nat; (true, l, d + nob)%nat] (inv 1 * dat T1a [a; i] * dat T1b [b; j] * dat T2bb [c; d; k; l])); [valid_tac|cbn; lia|body_tac].
    - intros J _. cbv beta. rewrite ord112. unfold PJ. rewrite P3a with (lev := lev) by exact terms_good. rewrite t0. do 2 peel. rewrite t1. do 2 peel. rewrite t4. do 4 peel.
      done_tac.
  Qed.
  Lemma u_T1b_T1b_T2ab_ok : 4 <= m -> Adds (fun J => inv 2 * PJ J [1; 1; 3]%nat) (u_T1b_T1b_T2ab K inv noa nva nob nvb (map dpair L) (dstr A) (dstr B) T1b T2ab).
  Proof.
    intros Hm. unfold u_T1b_T1b_T2ab. eapply adds_ext; cycle 1.
    - apply adds_each; intros i ?. apply adds_each; intros j ?. apply adds_each; intros k ?. apply adds_each; intros l ?. apply adds_each; intros a ?. apply adds_each; intros b ?. apply adds_each; intros c ?. apply adds_each; intros d ?. cbv beta. ranges.
      apply (leaf [(true, i, a + nob)%nat; (true, j, b + nob)%nat; (false, k, c + noa)%nat; (true, l, d + nob)%nat] (inv 2 * dat T1b [a; i] * dat T1b [b; j] * dat T2ab [c; d; k; l])); [valid_tac|cbn; lia|body_tac].
    - intros J _. cbv beta. rewrite ord112. unfold PJ. rewrite P3a with (lev := lev) by exact terms_good. rewrite t1. do 2 peel. rewrite t1. do 2 peel. rewrite t3. do 4 peel.
      done_tac.
  Qed.
  Lemma u_T1b_T1b_T2bb_ok : 4 <= m -> Adds (fun J => inv 2 * PJ J [1; 1; 4]%nat) (u_T1b_T1b_T2bb K inv nob nvb (map dpair L) (dstr A) (dstr B) T1b T2bb).
  Proof.
    intros Hm. unfold u_T1b_T1b_T2bb. eapply adds_ext; cycle 1.
    - apply adds_each; intros i ?. apply adds_each; intros j ?. apply adds_each; intros k ?. apply adds_each; intros l ?. apply adds_each; intros a ?. apply adds_each; intros b ?. apply adds_each; intros c ?. apply adds_each; intros d ?. cbv beta. ranges.
      apply (leaf [(true, i, a + nob)%nat; (true, j, b + nob)%nat; (true, k, c + nob)%nat; (true, l, d + nob)%nat] (inv 2 * dat T1b [a; i] * dat T1b [b; j] * dat T2bb [c; d; k; l])); [valid_tac|cbn; lia|body_tac].
    - intros J _. cbv beta. rewrite ord112. unfold PJ. rewrite P3a with (lev := lev) by exact terms_good. rewrite t1. do 2 peel. rewrite t1. do 2 peel. rewrite t4. do 4 peel.
      done_tac.
  Qed.
  Lemma u_T1a_T1a_T1a_T1a_ok : 4 <= m -> Adds (fun J => inv 24 * PJ J [0; 0; 0; 0]%nat) (u_T1a_T1a_T1a_T1a K inv noa nva (map dpair L) (dstr A) (dstr B) T1a).
  Proof.
    intros Hm. unfold u_T1a_T1a_T1a_T1a. eapply adds_ext; cycle 1.
    - apply adds_each; intros i ?. apply adds_each; intros j ?. apply adds_each; intros k ?. apply adds_each; intros l ?. apply adds_each; intros a ?. apply adds_each; intros b ?. apply adds_each; intros c ?. apply adds_each; intros d ?. cbv beta. ranges.
      apply (leaf [(false, i, a + noa)%nat; (false, j, b + noa)%nat; (false, k, c + noa)%nat; (false, l, d + noa)%nat] (inv 24 * dat T1a [a; i] * dat T1a [b; j] * dat T1a [c; k] * dat T1a [d; l])); [valid_tac|cbn; lia|body_tac].
    - intros J _. cbv beta. rewrite ord1111. unfold PJ. rewrite P4a with (lev := lev) by exact terms_good. rewrite t0. do 2 peel. rewrite t0. do 2 peel. rewrite t0. do 2 peel. rewrite t0. do 2 peel.
      done_tac.
  Qed.
  Lemma u_T1a_T1a_T1a_T1b_ok : 4 <= m -> Adds (fun J => inv 6 * PJ J [0; 0; 0; 1]%nat) (u_T1a_T1a_T1a_T1b K inv noa nva nob nvb (map dpair L) (dstr A) (dstr B) T1a T1b).
  Proof.
    intros Hm. unfold u_T1a_T1a_T1a_T1b. eapply adds_ext; cycle 1.
    - apply adds_each; intros i ?. apply adds_each; intros j ?. apply adds_each; intros k ?. apply adds_each; intros l ?. apply adds_each; intros a ?. apply adds_each; intros b ?. apply adds_each; intros c ?. apply adds_each; intros d ?. cbv beta. ranges.
      apply (leaf [(false, i, a + noa)%nat; (false, j, b + noa)%nat; (false, k, c + noa)%nat; (true, l, d + nob)%nat] (inv 6 * dat T1a [a; i] * dat T1a [b; j] * dat T1a [c; k] * dat T1b [d; l])); [valid_tac|cbn; lia|body_tac].
    - intros J _. cbv beta. rewrite ord1111. unfold PJ. rewrite P4a with (lev := lev) by exact terms_good. rewrite t0. do 2 peel. rewrite t0. do 2 peel. rewrite t0. do 2 peel. rewrite t1. do 2 peel.
      done_tac.
  Qed.
  Lemma u_T1a_T1a_T1b_T1b_ok : 4 <= m -> Adds (fun J => inv 4 * PJ J [0; 0; 1; 1]%nat) (u_T1a_T1a_T1b_T1b K inv noa nva nob nvb (map dpair L) (dstr A) (dstr B) T1a T1b).
  Proof.
    intros Hm. unfold u_T1a_T1a_T1b_T1b. eapply adds_ext; cycle 1.
    - apply adds_each; intros i ?. apply adds_each; intros j ?. apply adds_each; intros k ?. apply adds_each; intros l ?. apply adds_each; intros a ?. apply adds_each; intros b ?. apply adds_each; intros c ?. apply adds_each; intros d ?. cbv beta. ranges.
      apply (leaf [(false, i, a + noa)%nat; (false, j, b + noa)%nat; (true, k, c + nob)%nat; (true, l, d + nob)%nat] (inv 4 * dat T1a [a; i] * dat T1a [b; j] * dat T1b [c; k] * dat T1b [d; l])); [valid_tac|cbn; lia|body_tac].
    - intros J _. cbv beta. rewrite ord1111. unfold PJ. rewrite P4a with (lev := lev) by exact terms_good. rewrite t0. do 2 peel. rewrite t0. do 2 peel. rewrite t1. do 2 peel. rewrite t1. do 2 peel.
      done_tac.
  Qed.
  Lemma u_T1a_T1b_T1b_T1b_ok : 4 <= m -> Adds (fun J => inv 6 * PJ J [0; 1; 1; 1]%nat) (u_T1a_T1b_T1b_T1b K inv noa nva nob nvb (map dpair L) (dstr A) (dstr B) T1a T1b).
  Proof.
    intros Hm. unfold u_T1a_T1b_T1b_T1b. eapply adds_ext; cycle 1.
    - apply adds_each; intros i ?. apply adds_each; intros j ?. apply adds_each; intros k ?. apply adds_each; intros l ?. apply adds_each; intros a ?. apply adds_each; intros b ?. apply adds_each; intros c ?. apply adds_each; intros d ?. cbv beta. ranges.
      apply (leaf [(false, i, a + noa)%nat; (true, j, b + nob)%nat; (true, k, c + nob)%nat; (true, l, d + nob)%nat] (inv 6 * dat T1a [a; i] * dat T1b [b; j] * dat T1b [c; k] * dat T1b [d; l])); [valid_tac|cbn; lia|body_tac].
    - intros J _. cbv beta. rewrite ord1111. unfold PJ. rewrite P4a with (lev := lev) by exact terms_good. rewrite t0. do 2 peel. rewrite t1. do 2 peel. rewrite t1. do 2 peel. rewrite t1. do 2 peel.
      done_tac.
  Qed.
  Lemma u_T1b_T1b_T1b_T1b_ok : 4 <= m -> Adds (fun J => inv 24 * PJ J [1; 1; 1; 1]%nat) (u_T1b_T1b_T1b_T1b K inv nob nvb (map dpair L) (dstr A) (dstr B) T1b).
  Proof.
    intros Hm. unfold u_T1b_T1b_T1b_T1b. eapply adds_ext; cycle 1.
    - apply adds_each; intros i ?. apply adds_each; intros j ?. apply adds_each; intros k ?. apply adds_each; intros l ?. apply adds_each; intros a ?. apply adds_each; intros b ?. apply adds_each; intros c ?. apply adds_each; intros d ?. cbv beta. ranges.
      apply (leaf [(true, i, a + nob)%nat; (true, j, b + nob)%nat; (true, k, c + nob)%nat; (true, l, d + nob)%nat] (inv 24 * dat T1b [a; i] * dat T1b [b; j] * dat T1b [c; k] * dat T1b [d; l])); [valid_tac|cbn; lia|body_tac].
    - intros J _. cbv beta. rewrite ord1111. unfold PJ. rewrite P4a with (lev := lev) by exact terms_good. rewrite t1. do 2 peel. rewrite t1. do 2 peel. rewrite t1. do 2 peel. rewrite t1. do 2 peel.
      done_tac.
  Qed.
  Hypothesis Inv : forall d, 0 < d -> nK K d * inv d = 1.
  Hypothesis Hd : hd_error L = Some (A, B).

  Lemma ratio d c e : Nat.eqb (c * e) d && Nat.ltb 0 d = true -> inv d * nK K c = inv e.
  Proof. apply ratio0, Inv. Qed.

  Lemma P_nil (J : udet) : In J L -> inv 1 * P K ref (fst J ++ snd J) terms [] = if upair_eq (dpair J) (dpair (A, B)) then 1 else 0.
  Proof.
    intros HJ. rewrite Inv1. unfold P, amp. cbn [prodw map lsum fst snd]. unfold braket. cbn [act].
    destruct (upair_eq (dpair J) (dpair (A, B))) eqn:E.
    - apply upair_eq_iff, dpair_inj in E. subst J. cbn [fst snd]. rewrite det_eqb_refl. cbn. ring.
    - destruct (det_eqb ref (fst J ++ snd J)) eqn:D; [|ring]. exfalso. apply det_eqb_eq in D.
      apply InL in HJ as (ka & kb & (LJ & _) & _). apply app_inv in D; [|congruence].
      assert (X : upair_eq (dpair J) (dpair (A, B)) = true); [|congruence].
      apply upair_eq_iff. f_equal. destruct J; cbn in D; destruct D; congruence.
  Qed.

  Lemma level_of (J : udet) : In J L -> exists d, ndiff ref (fst J ++ snd J) = (2 * d)%nat /\ d <= m.
  Proof.
    intros HJ. apply InL in HJ as (ka & kb & (La & _ & Da) & (Lb & _ & Db) & Le).
    exists (ka + kb)%nat. split; [|exact Le]. rewrite ndiff_app by congruence. lia.
  Qed.

  Lemma adds_run_C (X : option (list K)) (G : udet -> K) (H : nat -> udet -> K) :
    (exists C, X = Some C /\ length C = length L /\ forall j J, nth_error L j = Some J ->
      (~ In J (firstn j L) -> nth j C 0 = G J) /\ (In J (firstn j L) -> nth j C 0 = 0)) ->
    (forall M (J : udet), 4 <= M -> In J L -> G J = H M J) ->
    exists C, X = Some C /\ length C = length L /\ forall M, 4 <= M -> forall j J, nth_error L j = Some J ->
      (~ In J (firstn j L) -> nth j C 0 = H M J) /\ (In J (firstn j L) -> nth j C 0 = 0).
  Proof.
    intros (C & E & LC & N) HG. exists C. split; [exact E|]. split; [exact LC|]. intros M HM j J HJ.
    rewrite <- (HG M J HM) by (eapply nth_error_In; eauto). apply N, HJ.
  Qed.

  Definition Tt : list (K * list op) := Tall K [0; 1; 2; 3; 4]%nat terms.

  Lemma expand_J M (J : udet) : In J L -> m <= M -> exp_amp inv M (fst J ++ snd J) Tt ref
    = sumN (S m) (fun k => inv (fact k) * SL (table [0; 1; 2; 3; 4]%nat lev m k) (fun cu => nK K (fst cu) * PJ J (snd cu))).
  Proof.
    intros HJ HM. destruct (level_of J HJ) as (d & D & Dm).
    apply (expand K ref (fst J ++ snd J) [0; 1; 2; 3; 4]%nat terms lev terms_good) with (d := d); auto.
    intros c _. unfold lev. destruct (Nat.leb c 1); lia.
  Qed.

  Local Opaque
    u_T1a u_T1b u_T2aa u_T2bb u_T2ab u_T1a_T1a u_T1b_T1b u_T1a_T1b u_T1a_T2aa u_T1a_T2ab u_T1b_T2aa u_T1a_T2bb
    u_T1b_T2ab u_T1b_T2bb u_T1a_T1a_T1a u_T1a_T1a_T1b u_T1a_T1b_T1b u_T1b_T1b_T1b u_T2aa_T2aa u_T2aa_T2ab
    u_T2aa_T2bb u_T2ab_T2ab u_T2ab_T2bb u_T2bb_T2bb u_T1a_T1a_T2aa u_T1a_T1a_T2ab u_T1a_T1b_T2aa u_T1a_T1a_T2bb
    u_T1a_T1b_T2ab u_T1a_T1b_T2bb u_T1b_T1b_T2ab u_T1b_T1b_T2bb u_T1a_T1a_T1a_T1a u_T1a_T1a_T1a_T1b
    u_T1a_T1a_T1b_T1b u_T1a_T1b_T1b_T1b u_T1b_T1b_T1b_T1b.
  Ltac head t := match t with ?f _ => head f | _ => t end.
  Ltac u_adds f := let h := head f in lazymatch h with
    | u_T1a => apply u_T1a_ok
    | u_T1b => apply u_T1b_ok
    | u_T2aa => apply u_T2aa_ok
    | u_T2bb => apply u_T2bb_ok
    | u_T2ab => apply u_T2ab_ok
    | u_T1a_T1a => apply u_T1a_T1a_ok
    | u_T1b_T1b => apply u_T1b_T1b_ok
    | u_T1a_T1b => apply u_T1a_T1b_ok
    | u_T1a_T2aa => apply u_T1a_T2aa_ok
    | u_T1a_T2ab => apply u_T1a_T2ab_ok
    | u_T1b_T2aa => apply u_T1b_T2aa_ok
    | u_T1a_T2bb => apply u_T1a_T2bb_ok
    | u_T1b_T2ab => apply u_T1b_T2ab_ok
    | u_T1b_T2bb => apply u_T1b_T2bb_ok
    | u_T1a_T1a_T1a => apply u_T1a_T1a_T1a_ok
    | u_T1a_T1a_T1b => apply u_T1a_T1a_T1b_ok
    | u_T1a_T1b_T1b => apply u_T1a_T1b_T1b_ok
    | u_T1b_T1b_T1b => apply u_T1b_T1b_T1b_ok
    | u_T2aa_T2aa => apply u_T2aa_T2aa_ok
    | u_T2aa_T2ab => apply u_T2aa_T2ab_ok
    | u_T2aa_T2bb => apply u_T2aa_T2bb_ok
    | u_T2ab_T2ab => apply u_T2ab_T2ab_ok
    | u_T2ab_T2bb => apply u_T2ab_T2bb_ok
    | u_T2bb_T2bb => apply u_T2bb_T2bb_ok
    | u_T1a_T1a_T2aa => apply u_T1a_T1a_T2aa_ok
    | u_T1a_T1a_T2ab => apply u_T1a_T1a_T2ab_ok
    | u_T1a_T1b_T2aa => apply u_T1a_T1b_T2aa_ok
    | u_T1a_T1a_T2bb => apply u_T1a_T1a_T2bb_ok
    | u_T1a_T1b_T2ab => apply u_T1a_T1b_T2ab_ok
    | u_T1a_T1b_T2bb => apply u_T1a_T1b_T2bb_ok
    | u_T1b_T1b_T2ab => apply u_T1b_T1b_T2ab_ok
    | u_T1b_T1b_T2bb => apply u_T1b_T1b_T2bb_ok
    | u_T1a_T1a_T1a_T1a => apply u_T1a_T1a_T1a_T1a_ok
    | u_T1a_T1a_T1a_T1b => apply u_T1a_T1a_T1a_T1b_ok
    | u_T1a_T1a_T1b_T1b => apply u_T1a_T1a_T1b_T1b_ok
    | u_T1a_T1b_T1b_T1b => apply u_T1a_T1b_T1b_T1b_ok
    | u_T1b_T1b_T1b_T1b => apply u_T1b_T1b_T1b_T1b_ok
    end.
  Ltac all_adds := repeat lazymatch goal with
    | |- adds _ _ _ (fun C => bindo _ _) => apply adds_bind
    | |- adds _ _ _ (fun C => Some C) => apply adds_none
    | |- adds _ _ _ (@Some _) => apply adds_none
    | |- adds _ _ _ (fun C => ?f C) => u_adds f; lia
    | |- adds _ _ _ ?f => u_adds f; lia
    end.

  Ltac compare HJ M :=
    cbv beta; rewrite <- (P_nil _ HJ); rewrite (expand_J M _ HJ) by lia;
    match goal with Em : m = _ |- _ => rewrite Em end; unfold sumN;
    repeat match goal with |- context [table ?c ?l ?x ?k] =>
      let t := eval vm_compute in (table c l x k) in
      replace (table c l x k) with t by (vm_compute; reflexivity) end;
    cbn [SL map lsum fst snd fact Nat.mul Nat.add]; unfold SL, PJ; cbn [map lsum fst snd];
    replace (nK K 1) with (1 : K) by (cbn [nK]; ring);
    rewrite <- ?(ratio 2 2 1 eq_refl); rewrite <- ?(ratio 6 3 2 eq_refl); rewrite <- ?(ratio 24 6 4 eq_refl);
    rewrite <- ?(ratio 24 4 6 eq_refl); rewrite ?(nK_mul K 2 3 : nK K 6 = _);
    repeat match goal with |- context [P K ref ?b terms ?w] => let x := fresh "x" in set (x := P K ref b terms w); clearbody x end;
    repeat match goal with |- context [nK K ?d] => let x := fresh "c" in set (x := nK K d); clearbody x end;
    repeat match goal with |- context [inv ?d] => let x := fresh "i" in set (x := inv d); clearbody x end;
    ring.

  Ltac ztests := repeat match goal with
    | |- context [Z.leb ?a ?b] => let v := eval vm_compute in (Z.leb a b) in change (Z.leb a b) with v
    | |- context [Z.ltb ?a ?b] => let v := eval vm_compute in (Z.ltb a b) in change (Z.ltb a b) with v
    | |- context [Z.eqb ?a ?b] => let v := eval vm_compute in (Z.eqb a b) in change (Z.eqb a b) with v
    end; cbv iota.

  Ltac run ND Bas M :=
    unfold makeCfromT; cbv zeta; rewrite <- Na, <- Nb, Nat.eqb_refl; cbn [negb]; ztests;
    rewrite Bas, !Dstring_default; cbn [bindo];
    etransitivity;
    [ apply (adds_run K dpair upair_eq upair_eq_iff dpair_inj L (A, B)); [exact ND|exact Hd|]; cbv beta; all_adds
    | f_equal; apply map_ext_in; intros J HJ; compare HJ M ].
  Ltac run_first Bas :=
    unfold makeCfromT; cbv zeta; rewrite <- Na, <- Nb, Nat.eqb_refl; cbn [negb]; ztests;
    rewrite Bas, !Dstring_default; cbn [bindo];
    eapply adds_run_C; [ apply (adds_run_first K dpair upair_eq upair_eq_iff dpair_inj L (A, B)); [exact Hd|]; cbv beta; all_adds|];
    intros M J HM HJ; compare HJ M.

  Lemma make1 M : NoDup L -> m = 1%nat -> 1 <= M -> ucis_basis n noa nob true = Some (map dpair L) ->
    makeCfromT K inv noa nva nob nvb T1a T1b T2aa T2ab T2bb 1
    = Some (map (fun J : udet => exp_amp inv M (fst J ++ snd J) Tt ref) L).
  Proof. intros ND Em HM Bas. run ND Bas M. Qed.
  Lemma make2 M : NoDup L -> m = 2%nat -> 2 <= M -> ucisd_basis n noa nob = Some (map dpair L) ->
    makeCfromT K inv noa nva nob nvb T1a T1b T2aa T2ab T2bb 2
    = Some (map (fun J : udet => exp_amp inv M (fst J ++ snd J) Tt ref) L).
  Proof. intros ND Em HM Bas. run ND Bas M. Qed.
  Lemma make3 M : NoDup L -> m = 3%nat -> 3 <= M -> ucisdt_basis n noa nob = Some (map dpair L) ->
    makeCfromT K inv noa nva nob nvb T1a T1b T2aa T2ab T2bb 3
    = Some (map (fun J : udet => exp_amp inv M (fst J ++ snd J) Tt ref) L).
  Proof. intros ND Em HM Bas. run ND Bas M. Qed.
  Lemma make4 M : NoDup L -> m = 4%nat -> 4 <= M -> ucisdtq_basis n noa nob = Some (map dpair L) ->
    makeCfromT K inv noa nva nob nvb T1a T1b T2aa T2ab T2bb 4
    = Some (map (fun J : udet => exp_amp inv M (fst J ++ snd J) Tt ref - inv 2 * PJ J [1; 1; 2]%nat) L).
  Proof. intros ND Em HM Bas. run ND Bas M. Qed.

  Lemma make4_first : m = 4%nat -> ucisdtq_basis n noa nob = Some (map dpair L) ->
    exists C, makeCfromT K inv noa nva nob nvb T1a T1b T2aa T2ab T2bb 4 = Some C /\ length C = length L /\
    forall M, 4 <= M -> forall j (J : udet), nth_error L j = Some J ->
      (~ In J (firstn j L) -> nth j C 0 = exp_amp inv M (fst J ++ snd J) Tt ref - inv 2 * PJ J [1; 1; 2]%nat) /\
      (In J (firstn j L) -> nth j C 0 = 0).
  Proof. intros Em Bas. run_first Bas. Qed.

  (** the operators of the specification *)
  Notation t1a := (fun a i => dat T1a [a; i]).
  Notation t1b := (fun a i => dat T1b [a; i]).
  Notation t2aa := (fun a b i j => dat T2aa [a; b; i; j]).
  Notation t2ab := (fun a b i j => dat T2ab [a; b; i; j]).
  Notation t2bb := (fun a b i j => dat T2bb [a; b; i; j]).

  Lemma flat_pairs {X Y Z} (f : X * Y -> list Z) (l : list X) (r : X -> list Y) :
    flat_map f (flat_map (fun i => map (fun j => (i, j)) (r i)) l) = flat_map (fun i => flat_map (fun j => f (i, j)) (r i)) l.
  Proof.
    induction l as [|x l IH]; [reflexivity|]. cbn [flat_map]. rewrite flat_map_app, IH. f_equal.
    induction (r x) as [|y ys IH']; [reflexivity|]. cbn [map flat_map]. rewrite IH'. reflexivity.
  Qed.
  Lemma map_pairs {X Y Z} (f : X * Y -> Z) (l : list X) (r : X -> list Y) :
    map f (flat_map (fun i => map (fun j => (i, j)) (r i)) l) = flat_map (fun i => map (fun j => f (i, j)) (r i)) l.
  Proof.
    induction l as [|x l IH]; [reflexivity|]. cbn [flat_map]. rewrite map_app, IH, map_map. reflexivity.
  Qed.
  Lemma prod_pairs {X Y} (l : list X) (r : list Y) : list_prod l r = flat_map (fun i => map (fun j => (i, j)) r) l.
  Proof. induction l as [|x l IH]; [reflexivity|]. cbn. rewrite IH. reflexivity. Qed.
  Lemma range0 k : range 0 k = seq 0 k.
  Proof. unfold range. rewrite Nat.sub_0_r. reflexivity. Qed.

  Ltac pair_tac := cbn [fst snd eop app]; split; cbn [fst snd]; [reflexivity|]; intros s; symmetry; apply pair_order; lia.

  Lemma same0 : Forall2 (opeq K) (terms 0) (T_alpha1 noa nva t1a).
  Proof.
    cbn [terms]. unfold T_alpha1, singles. rewrite !range0. apply opeq_flat. intros i _. apply opeq_map. intros a _.
    split; reflexivity.
  Qed.
  Lemma same1 : Forall2 (opeq K) (terms 1) (T_beta1 n nob nvb t1b).
  Proof.
    cbn [terms]. unfold T_beta1, singles. rewrite !range0. apply opeq_flat. intros i _. apply opeq_map. intros a _.
    split; reflexivity.
  Qed.
  Lemma same2 : Forall2 (opeq K) (terms 2) (T_alpha2 noa nva t2aa).
  Proof.
    cbn [terms]. unfold T_alpha2, doubles, below. rewrite !range0, flat_pairs.
    apply opeq_flat. intros i Hi. apply opeq_flat. intros j Hj. rewrite map_pairs. apply opeq_flat. intros a Ha.
    apply opeq_map. intros b Hb. apply in_seq in Hi, Ha. apply in_range in Hj, Hb. pair_tac.
  Qed.
  Lemma same3 : Forall2 (opeq K) (terms 3) (T_mixed2 n noa nva nob nvb t2ab).
  Proof.
    cbn [terms]. unfold T_mixed2, mixed_doubles. rewrite !prod_pairs, !range0, flat_pairs.
    apply opeq_flat. intros i Hi. apply opeq_flat. intros j Hj. rewrite map_pairs. apply opeq_flat. intros a Ha.
    apply opeq_map. intros b Hb. apply in_seq in Hi, Ha, Hj, Hb. pair_tac.
  Qed.
  Lemma same4 : Forall2 (opeq K) (terms 4) (T_beta2 n nob nvb t2bb).
  Proof.
    cbn [terms]. unfold T_beta2, doubles, below. rewrite !range0, flat_pairs.
    apply opeq_flat. intros i Hi. apply opeq_flat. intros j Hj. rewrite map_pairs. apply opeq_flat. intros a Ha.
    apply opeq_map. intros b Hb. apply in_seq in Hi, Ha. apply in_range in Hj, Hb. pair_tac.
  Qed.
  Lemma sameT : Forall2 (opeq K) Tt (T_spins n noa nva nob nvb t1a t1b t2aa t2ab t2bb).
  Proof.
    unfold Tt, Tall, T_spins. cbn [flat_map]. rewrite app_nil_r.
    repeat apply Forall2_app; [apply same0|apply same1|apply same2|apply same3|apply same4].
  Qed.

  Lemma opmul_one X : Forall2 (opeq K) (opmul X [(1, [])]) X.
  Proof.
    unfold opmul. induction X as [|[x o] X IH]; [constructor|]. cbn [flat_map map app fst snd]. constructor; [|exact IH].
    split; cbn [fst snd]; [ring|]. intros s. rewrite app_nil_r. reflexivity.
  Qed.
  Lemma Forall2_trans_opeq X Y Z : Forall2 (opeq K) X Y -> Forall2 (opeq K) Y Z -> Forall2 (opeq K) X Z.
  Proof.
    intros H. revert Z. induction H as [|x y X Y [E1 E2] _ IH]; intros Z H'; [exact H'|].
    inversion H' as [|? z ? Z' [F1 F2] R]; subst. constructor; [|apply IH; exact R].
    split; [congruence|]. intros s. rewrite E2. apply F2.
  Qed.
  Lemma missing J : PJ J [1; 1; 2]%nat
    = amp (fst J ++ snd J) (opmul (T_beta1 n nob nvb t1b) (opmul (T_beta1 n nob nvb t1b) (T_alpha2 noa nva t2aa))) ref.
  Proof.
    unfold PJ, P. apply opeq_amp. cbn [prodw]. apply opeq_mul; [apply same1|]. apply opeq_mul; [apply same1|].
    eapply Forall2_trans_opeq; [apply opmul_one|apply same2].
  Qed.

  Lemma uact_twice (x : udet) (e1 e2 : exci) (es : list exci) : fst (fst e1) = true -> fst (fst e2) = true ->
    snd (fst e1) = snd (fst e2) \/ snd e1 = snd e2 -> snd e1 < length (snd x) -> uact (e1 :: e2 :: es) x = None.
  Proof.
    destruct e1 as [[s1 i] a], e2 as [[s2 j] b]; cbn [fst snd]. intros -> -> E Lt. cbn [uact uexc fst snd].
    destruct (exc (snd x) i a) as [[g t]|] eqn:X; [|reflexivity].
    assert (Y : exc t j b = None); [|cbn [fst snd]; rewrite Y; reflexivity].
    unfold exc in *. destruct (occd (snd x) i) eqn:Oi; [|discriminate]. destruct (occd (snd x) a) eqn:Oa; [discriminate|].
    cbn [andb negb] in X. injection X as _ <-. rewrite !occd_put, ?put_length.
    destruct E as [->|<-].
    - destruct (Nat.eqb_spec j a); [congruence|]. cbn [andb]. rewrite Nat.eqb_refl. cbn [andb].
      destruct (Nat.ltb_spec j (length (snd x))); [reflexivity|]. unfold occd in Oi. rewrite nth_overflow in Oi; [discriminate|lia].
    - rewrite Nat.eqb_refl. destruct (Nat.ltb_spec a (length (snd x))); [|lia]. cbn [andb]. rewrite andb_false_r. reflexivity.
  Qed.

  (** the missing product is zero unless each spin has two occupied and two virtual orbitals *)
  Lemma missing_zero J : noa < 2 \/ nva < 2 \/ nob < 2 \/ nvb < 2 -> PJ J [1; 1; 2]%nat = 0.
  Proof.
    intros Few. unfold PJ. rewrite P3a with (lev := lev) by exact terms_good.
    rewrite t1. apply SL_zero. intros i Hi. apply SL_zero. intros a Ha. rewrite t1.
    apply SL_zero. intros j Hj. apply SL_zero. intros b Hb. rewrite t2.
    apply SL_zero. intros k Hk. apply SL_zero. intros l Hl. apply SL_zero. intros c Hc. apply SL_zero. intros d Hd'.
    apply in_range in Hi, Ha, Hj, Hb, Hk, Hl, Hc, Hd'. cbn [fst snd].
    assert (X : act (uops n [(true, i, a + nob); (true, j, b + nob); (false, k, c + noa); (false, l, d + noa)]%nat) ref = None).
    { rewrite (uact_act n noa nob ltac:(lia) ltac:(lia) _ (A, B)); [|apply aufbau_length|apply aufbau_length|valid_tac].
      rewrite uact_twice; try reflexivity; cbn [fst snd]; [lia|]. rewrite aufbau_length. lia. }
    unfold braket. cbn [uops eop app] in X |- *. rewrite X. ring.
  Qed.
End U.

Section Final.
  Variable K : cring.
  Local Open Scope K_scope.
  Add Ring KrF : (c_th K).
  Variable inv : nat -> K.
  Hypothesis Inv : forall d, 0 < d -> nK K d * inv d = 1.
  Variables (n noa nva nob nvb : nat).
  Hypothesis Na : (noa + nva = n)%nat.
  Hypothesis Nb : (nob + nvb = n)%nat.
  Variables T1a T1b T2aa T2ab T2bb : tensor K.
  Hypothesis S1a : shp T1a = [nva; noa].
  Hypothesis S1b : shp T1b = [nvb; nob].
  Hypothesis S2aa : shp T2aa = [nva; nva; noa; noa].
  Hypothesis S2ab : shp T2ab = [nva; nvb; noa; nob].
  Hypothesis S2bb : shp T2bb = [nvb; nvb; nob; nob].
  Notation A := (aufbau n noa). Notation B := (aufbau n nob).
  Notation t1a := (fun a i => dat T1a [a; i]).
  Notation t1b := (fun a i => dat T1b [a; i]).
  Notation t2aa := (fun a b i j => dat T2aa [a; b; i; j]).
  Notation t2ab := (fun a b i j => dat T2ab [a; b; i; j]).
  Notation t2bb := (fun a b i j => dat T2bb [a; b; i; j]).
  Notation T := (T_spins n noa nva nob nvb t1a t1b t2aa t2ab t2bb).

  Lemma Inv1' : inv 1 = 1.
  Proof. pose proof (Inv 1 ltac:(lia)) as H. cbn [nK] in H. rewrite <- H. ring. Qed.

  Lemma coef_exp M J : exp_amp inv M J (Tt K noa nva nob nvb n T1a T1b T2aa T2ab T2bb) (A ++ B)
    = exp_amp inv M J T (A ++ B).
  Proof. apply opeq_exp, sameT; auto. Qed.

  Lemma C1 : exists L, ucis_basis n noa nob true = Some (map dpair L) /\
    forall M, 1 <= M -> makeCfromT K inv noa nva nob nvb T1a T1b T2aa T2ab T2bb 1
      = Some (map (fun J : udet => exp_amp inv M (fst J ++ snd J) T (A ++ B)) L).
  Proof.
    destruct (ucis_ok n noa nob) as (L & E & ND & Hd & InL). exists L. split; [exact E|]. intros M HM.
    apply NoDup_map_inv in ND.
    rewrite (make1 K noa nva nob nvb n 1) with (M := M) (L := L); auto using Inv1'.
    f_equal. apply map_ext. intros J. apply coef_exp.
  Qed.
  Lemma C2 : exists L, ucisd_basis n noa nob = Some (map dpair L) /\
    forall M, 2 <= M -> makeCfromT K inv noa nva nob nvb T1a T1b T2aa T2ab T2bb 2
      = Some (map (fun J : udet => exp_amp inv M (fst J ++ snd J) T (A ++ B)) L).
  Proof.
    destruct (ucisd_ok n noa nob) as (L & E & ND & Hd & InL). exists L. split; [exact E|]. intros M HM.
    apply NoDup_map_inv in ND.
    rewrite (make2 K noa nva nob nvb n 2) with (M := M) (L := L); auto using Inv1'.
    f_equal. apply map_ext. intros J. apply coef_exp.
  Qed.
  Lemma C3 : exists L, ucisdt_basis n noa nob = Some (map dpair L) /\
    forall M, 3 <= M -> makeCfromT K inv noa nva nob nvb T1a T1b T2aa T2ab T2bb 3
      = Some (map (fun J : udet => exp_amp inv M (fst J ++ snd J) T (A ++ B)) L).
  Proof.
    destruct (ucisdt_ok n noa nob) as (L & E & ND & Hd & InL). exists L. split; [exact E|]. intros M HM.
    apply NoDup_map_inv in ND.
    rewrite (make3 K noa nva nob nvb n 3) with (M := M) (L := L); auto using Inv1'.
    f_equal. apply map_ext. intros J. apply coef_exp.
  Qed.
  Lemma C4 : (noa < 4 \/ nva < 4)%nat -> (nob < 4 \/ nvb < 4)%nat ->
    exists L, ucisdtq_basis n noa nob = Some (map dpair L) /\
    forall M, 4 <= M -> makeCfromT K inv noa nva nob nvb T1a T1b T2aa T2ab T2bb 4
      = Some (map (fun J : udet => exp_amp inv M (fst J ++ snd J) T (A ++ B)
          - inv 2 * amp (fst J ++ snd J) (opmul (T_beta1 n nob nvb t1b)
              (opmul (T_beta1 n nob nvb t1b) (T_alpha2 noa nva t2aa))) (A ++ B)) L).
  Proof.
    intros Qa Qb.
    destruct (ucisdtq_ok n noa nob) as (L & E & ND & Hd & InL); try lia. exists L. split; [exact E|]. intros M HM.
    apply NoDup_map_inv in ND.
    rewrite (make4 K noa nva nob nvb n 4) with (M := M) (L := L); auto using Inv1'.
    f_equal. apply map_ext. intros J. rewrite coef_exp, missing with (m := 4%nat) (L := L); auto.
  Qed.
  Lemma C4_few : (noa < 4 \/ nva < 4)%nat -> (nob < 4 \/ nvb < 4)%nat ->
    (noa < 2 \/ nva < 2 \/ nob < 2 \/ nvb < 2)%nat ->
    exists L, ucisdtq_basis n noa nob = Some (map dpair L) /\
    forall M, 4 <= M -> makeCfromT K inv noa nva nob nvb T1a T1b T2aa T2ab T2bb 4
      = Some (map (fun J : udet => exp_amp inv M (fst J ++ snd J) T (A ++ B)) L).
  Proof.
    intros Qa Qb Few.
    destruct (ucisdtq_ok n noa nob) as (L & E & ND & Hd & InL); try lia. exists L. split; [exact E|]. intros M HM.
    apply NoDup_map_inv in ND.
    rewrite (make4 K noa nva nob nvb n 4) with (M := M) (L := L); auto using Inv1'.
    f_equal. apply map_ext. intros J. rewrite coef_exp, missing_zero; auto. ring.
  Qed.
End Final.

Lemma makeC_raises K inv noa nva nob nvb (T1a T1b T2aa T2ab T2bb : tensor K) order :
  noa + nva <> nob + nvb \/ (order < 1)%Z \/ (4 < order)%Z ->
  makeCfromT K inv noa nva nob nvb T1a T1b T2aa T2ab T2bb order = None.
Proof.
  intros H. unfold makeCfromT. destruct (Nat.eqb_spec (noa + nva) (nob + nvb)); [|reflexivity]. cbn [negb].
  destruct (Z.ltb_spec order 1); [reflexivity|].
  destruct (Z.eqb_spec order 1); [lia|]. destruct (Z.eqb_spec order 2); [lia|].
  destruct (Z.eqb_spec order 3); [lia|]. destruct (Z.eqb_spec order 4); [lia|]. reflexivity.
Qed.
