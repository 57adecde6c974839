(** Operators and the Hamiltonian on CI vectors (C34, C35). *)
From Coq Require Import List Bool Arith ZArith Lia.
From Verif Require Import Scalar Tensor NpModel CIModel CISpec CIRep CIFacts CIStrings CIBases CIFock CIMatrix.
Import ListNotations.
Local Open Scope list_scope.

Lemma skipn_cons {X} (l : list X) : forall i k rest, skipn i l = k :: rest ->
  nth_error l i = Some k /\ skipn (S i) l = rest.
Proof.
  induction l as [|y l IH]; intros [|i] k rest E; cbn in E; try discriminate.
  - injection E as -> ->. split; reflexivity.
  - apply IH in E. exact E.
Qed.

Section Vec.
  Variable K : cring.
  Local Open Scope K_scope.
  Add Ring KrV : (c_th K).

  Lemma add_at_ok (out : list K) idx x : idx < length out ->
    exists out', add_at K out idx x = Some out' /\ length out' = length out /\
    forall j, nth j out' 0 = nth j out 0 + (if Nat.eqb j idx then x else 0).
  Proof.
    intros L. unfold add_at. destruct (nth_error out idx) as [y|] eqn:E.
    2:{ apply nth_error_None in E. lia. }
    cbn [bindo]. eexists. split; [reflexivity|]. rewrite upd_length. split; [reflexivity|].
    intros j. rewrite nth_upd by auto. apply (nth_error_nth out idx 0) in E. 
    destruct (Nat.eqb_spec j idx) as [->|]; [rewrite E; reflexivity|ring].
  Qed.

  Lemma nth_ext_K (a b : list K) : length a = length b ->
    (forall j, j < length a -> nth j a 0 = nth j b 0) -> a = b.
  Proof. intros. apply (nth_ext _ _ 0 0); auto. Qed.

  Lemma zeros_nth m j : nth j (zeros K m) 0 = 0.
  Proof.
    unfold zeros. destruct (Nat.ltb_spec j m).
    - apply nth_repeat.
    - apply nth_overflow. rewrite repeat_length. lia.
  Qed.

  Section Gen.
    Context {A B : Type}.
    Variables (rep : A -> B) (eqb : B -> B -> bool).
    Hypothesis eqb_eq : forall x y, eqb x y = true <-> x = y.
    Hypothesis rep_inj : forall x y, rep x = rep y -> x = y.
    Variables (L : list A).
    Hypothesis ND : NoDup L.
    Variable step : A -> option (bool * A).
    Variable amp : A -> A -> K.
    Hypothesis amp_some : forall J k g, step k = Some (g, J) -> amp J k = sgn g.
    Hypothesis amp_other : forall J k, (forall g, step k <> Some (g, J)) -> amp J k = 0.

    Lemma nodup_rep : NoDup (map rep L).
    Proof. apply FinFun.Injective_map_NoDup; auto. Qed.

    Lemma try_add_ok (out : list K) g new x : length out = length L ->
      exists out', try_add K eqb (map rep L) (rep new) (zsgn g) x out = Some out' /\
      length out' = length out /\
      forall j J, nth_error L j = Some J ->
        (J = new -> nth j out' 0 = nth j out 0 + sgn g * x) /\
        (J <> new -> nth j out' 0 = nth j out 0).
    Proof.
      intros Lo. unfold try_add. pose proof (index_spec eqb eqb_eq (map rep L) (rep new) nodup_rep) as S.
      destruct (index eqb (rep new) (map rep L)) as [idx|].
      - assert (I : nth_error (map rep L) idx = Some (rep new)) by (apply S; reflexivity).
        assert (Li : idx < length out).
        { rewrite Lo, <- (map_length rep L). apply nth_error_Some. congruence. }
        destruct (add_at_ok out idx (zK (zsgn g) * x) Li) as (out' & E & Len & N).
        exists out'. split; [exact E|]. split; [exact Len|]. intros j J HJ. split.
        + intros ->. rewrite N. assert (j = idx) by (apply S; rewrite nth_error_map, HJ; reflexivity).
          apply Nat.eqb_eq in H. rewrite H, zK_zsgn. ring.
        + intros Ne. rewrite N. destruct (Nat.eqb_spec j idx) as [->|]; [|ring].
          exfalso. rewrite nth_error_map, HJ in I. cbn in I. injection I as I. apply rep_inj in I. auto.
      - exists out. split; [reflexivity|]. split; [reflexivity|]. intros j J HJ. split; [|auto].
        intros ->. exfalso. apply S. apply in_map. eapply nth_error_In; eauto.
    Qed.

    Lemma loop_vec_ok body :
      (forall ix x out k, nth_error L ix = Some k ->
        body ix x out = match step k with
                        | None => Some out
                        | Some (g, new) => try_add K eqb (map rep L) (rep new) (zsgn g) x out
                        end) ->
      forall vec ix pre out, L = pre ++ skipn ix L -> length vec = length (skipn ix L) -> length out = length L ->
      exists out', loop_vec K ix vec body out = Some out' /\ length out' = length L /\
        forall j J, nth_error L j = Some J ->
          nth j out' 0 = nth j out 0 + lsum (map (fun kx => amp J (fst kx) * snd kx) (combine (skipn ix L) vec)).
    Proof.
      intros HB. induction vec as [|x vec IH]; intros ix pre out P Lv Lo.
      - exists out. split; [reflexivity|]. split; [auto|]. intros.
        destruct (skipn ix L); [|discriminate]. cbn. ring.
      - destruct (skipn ix L) as [|k rest] eqn:Sk; [discriminate|]. injection Lv as Lv.
        destruct (skipn_cons _ _ _ _ Sk) as [Ei Sk'].
        cbn [loop_vec]. rewrite (HB ix x out k Ei).
        assert (Step : exists out1, match step k with
                        | None => Some out
                        | Some (g, new) => try_add K eqb (map rep L) (rep new) (zsgn g) x out
                        end = Some out1 /\ length out1 = length L /\
                 forall j J, nth_error L j = Some J -> nth j out1 0 = nth j out 0 + amp J k * x).
        { destruct (step k) as [[g new]|] eqn:E.
          - destruct (try_add_ok out g new x Lo) as (out1 & E1' & L1 & N1). exists out1.
            split; [exact E1'|]. split; [congruence|]. intros j J HJ. destruct (N1 j J HJ) as [Y N].
            assert (D : J = new \/ J <> new).
            { destruct (eqb (rep J) (rep new)) eqn:F.
              - left. apply rep_inj, eqb_eq, F.
              - right. intros ->. assert (eqb (rep new) (rep new) = true) by (apply eqb_eq; auto). congruence. }
            destruct D as [D|D].
            + rewrite Y by auto. subst J. rewrite (amp_some new k g E). reflexivity.
            + rewrite N by auto. rewrite (amp_other J k); [ring|]. intros g' E'. congruence.
          - exists out. split; [reflexivity|]. split; [exact Lo|]. intros j J HJ.
            rewrite (amp_other J k); [ring|]. intros g'. congruence. }
        destruct Step as (out1 & -> & L1 & N1). cbn [bindo].
        destruct (IH (S ix) (pre ++ [k]) out1) as (out' & E' & L' & N').
        { rewrite Sk', <- app_assoc. exact P. } { rewrite Sk'. exact Lv. } { exact L1. }
        exists out'. split; [exact E'|]. split; [exact L'|]. intros j J HJ.
        rewrite (N' j J HJ), (N1 j J HJ), Sk'. cbn [combine map lsum fst snd]. ring.
    Qed.

    Lemma on_vec_ok body vec :
      (forall ix x out k, nth_error L ix = Some k ->
        body ix x out = match step k with
                        | None => Some out
                        | Some (g, new) => try_add K eqb (map rep L) (rep new) (zsgn g) x out
                        end) ->
      length vec = length L ->
      loop_vec K 0 vec body (zeros K (length vec)) = Some (project amp L vec).
    Proof.
      intros HB Lv. destruct (loop_vec_ok body HB vec 0 [] (zeros K (length vec))) as (out & E & Lo & N).
      { reflexivity. } { exact Lv. } { unfold zeros. rewrite repeat_length. exact Lv. }
      rewrite E. f_equal. apply nth_ext_K; [unfold project; rewrite map_length; auto|].
      intros j Hj. rewrite Lo in Hj. destruct (nth_error L j) as [J|] eqn:HJ.
      2:{ apply nth_error_None in HJ. lia. }
      rewrite (N j J HJ), zeros_nth. unfold project.
      erewrite (nth_error_nth (map _ L)) by (rewrite nth_error_map, HJ; reflexivity).
      cbn [skipn]. ring.
    Qed.
  End Gen.

  (** *** Excitation operators *)
  Lemma some_inj {X} (a b : X) : Some a = Some b -> a = b.
  Proof. congruence. Qed.

  Lemma braket_some bra ops ket g : act ops ket = Some (g, bra) -> braket (K:=K) bra ops ket = sgn g.
  Proof. intros E. unfold braket. rewrite E, det_eqb_refl. reflexivity. Qed.
  Lemma braket_other bra ops ket : (forall g, act ops ket <> Some (g, bra)) -> braket (K:=K) bra ops ket = 0.
  Proof.
    intros E. unfold braket. destruct (act ops ket) as [[g t]|]; [|reflexivity].
    destruct (det_eqb t bra) eqn:D; [|reflexivity]. apply det_eqb_eq in D. subst. destruct (E g); reflexivity.
  Qed.

  Definition exc2 (s : det) (i a j b : nat) : option (bool * det) :=
    match exc s i a with
    | Some (g, t) => match exc t j b with Some (g', u) => Some (xorb g g', u) | None => None end
    | None => None
    end.
  Lemma act_exc2 s i a j b : i < length s -> a < length s -> j < length s -> b < length s -> i <> a -> j <> b ->
    act [Cre b; Ann j; Cre a; Ann i] s = exc2 s i a j b.
  Proof.
    intros Li La Lj Lb N1 N2. change [Cre b; Ann j; Cre a; Ann i] with ([Cre b; Ann j] ++ [Cre a; Ann i]).
    rewrite act_app, act_exc by auto. unfold exc2. destruct (exc s i a) as [[g t]|] eqn:E; [|reflexivity].
    cbn [bindop]. rewrite act_exc by (auto; rewrite (exc_length _ _ _ _ _ E); auto).
    destruct (exc t j b) as [[g' u]|]; [|reflexivity]. rewrite xorb_comm. reflexivity.
  Qed.

  Lemma zsgn_mul g h : (zsgn g * zsgn h)%Z = zsgn (xorb g h).
  Proof. destruct g, h; reflexivity. Qed.

  Section Single.
    Variables (n : nat) (L : list det).
    Hypothesis Len : forall s, In s L -> length s = n.
    Hypothesis ND : NoDup L.

    Lemma amp_gen (ops : list op) (step : det -> option (bool * det)) :
      (forall s, In s L -> act ops s = step s) ->
      (forall J k g, In k L -> step k = Some (g, J) -> braket (K:=K) J ops k = sgn g) /\
      (forall J k, In k L -> (forall g, step k <> Some (g, J)) -> braket (K:=K) J ops k = 0).
    Proof.
      intros E. split.
      - intros J k g I S. apply braket_some. rewrite E; auto.
      - intros J k I S. apply braket_other. rewrite E; auto.
    Qed.

    (** the same with the restriction to L folded into the step *)
    Lemma det_in_dec (k : det) : {In k L} + {~ In k L}.
    Proof. apply in_dec. decide equality. apply bool_dec. Defined.

    Lemma project_ext {A} (amp amp' : A -> A -> K) M vec :
      (forall J k, In J M -> In k M -> amp J k = amp' J k) -> project amp M vec = project amp' M vec.
    Proof.
      intros E. unfold project. apply map_ext_in. intros J HJ. f_equal. apply map_ext_in.
      intros [k x] HI. cbn. rewrite E; auto. eapply in_combine_l; eauto.
    Qed.

    Lemma s_on_vec_ok vec i a : i < n -> a < n -> i <> a -> length vec = length L ->
      s_on_vec K (map dstr L) vec i a = Some (project (fun J k => braket J [Cre a; Ann i] k) L vec).
    Proof.
      intros Hi Ha Nia Lv. unfold s_on_vec.
      rewrite (project_ext _ (fun J k => if Nat.eqb (length k) n then braket J [Cre a; Ann i] k else 0)).
      2:{ intros J k _ Hk. rewrite (Len k Hk), Nat.eqb_refl. reflexivity. }
      apply (on_vec_ok dstr dstring_eq dstring_eq_iff dstr_inj L ND
               (fun k => if Nat.eqb (length k) n then exc k i a else None)); auto.
      - intros J k g E. destruct (Nat.eqb_spec (length k) n); [|discriminate].
        apply braket_some. rewrite act_exc by (auto; lia). exact E.
      - intros J k E. destruct (Nat.eqb_spec (length k) n); [|reflexivity].
        apply braket_other. rewrite act_exc by (auto; lia). exact E.
      - intros ix x out k Ek. rewrite nth_error_map, Ek. cbn [option_map bindo].
        assert (Lk : length k = n) by (apply Len; eapply nth_error_In; eauto).
        rewrite excite_exc by lia. cbn [bindo]. rewrite Lk, Nat.eqb_refl.
        destruct (exc k i a) as [[g t]|]; reflexivity.
    Qed.

    Lemma d_on_vec_ok vec i j a b : i < n -> a < n -> j < n -> b < n -> i <> a -> j <> b -> length vec = length L ->
      d_on_vec K (map dstr L) vec i j a b
      = Some (project (fun J k => braket J [Cre b; Ann j; Cre a; Ann i] k) L vec).
    Proof.
      intros Hi Ha Hj Hb N1 N2 Lv. unfold d_on_vec.
      rewrite (project_ext _ (fun J k => if Nat.eqb (length k) n then braket J [Cre b; Ann j; Cre a; Ann i] k else 0)).
      2:{ intros J k _ Hk. rewrite (Len k Hk), Nat.eqb_refl. reflexivity. }
      apply (on_vec_ok dstr dstring_eq dstring_eq_iff dstr_inj L ND
               (fun k => if Nat.eqb (length k) n then exc2 k i a j b else None)); auto.
      - intros J k g E. destruct (Nat.eqb_spec (length k) n); [|discriminate].
        apply braket_some. rewrite act_exc2 by (auto; lia). exact E.
      - intros J k E. destruct (Nat.eqb_spec (length k) n); [|reflexivity].
        apply braket_other. rewrite act_exc2 by (auto; lia). exact E.
      - intros ix x out k Ek. rewrite nth_error_map, Ek. cbn [option_map bindo].
        assert (Lk : length k = n) by (apply Len; eapply nth_error_In; eauto).
        rewrite excite_exc by lia. cbn [bindo]. rewrite Lk, Nat.eqb_refl. unfold exc2.
        destruct (exc k i a) as [[g t]|] eqn:E; [|reflexivity].
        rewrite excite_exc by (rewrite (exc_length _ _ _ _ _ E); lia). cbn [bindo].
        destruct (exc t j b) as [[g' u]|]; [|reflexivity]. rewrite zsgn_mul. reflexivity.
    Qed.
  End Single.

  Section Pairs.
    Variables (n : nat) (L : list udet).
    Hypothesis Len : forall s, In s L -> length (fst s) = n /\ length (snd s) = n.
    Hypothesis ND : NoDup L.

    (** the amplitude of one determinant in an operator applied to another,
        on alpha ++ beta *)
    Definition pamp (ops : list op) (J k : udet) : K := braket (fst J ++ snd J) ops (fst k ++ snd k).

    Lemma pairs_gen body ops (step : udet -> option (bool * udet)) vec :
      (forall k : udet, length (fst k) = n -> length (snd k) = n ->
         act ops (fst k ++ snd k) = match step k with Some (g, J) => Some (g, fst J ++ snd J) | None => None end /\
         (forall g J, step k = Some (g, J) -> length (fst J) = n)) ->
      (forall ix x out k, nth_error L ix = Some k -> length (fst k) = n -> length (snd k) = n ->
        body ix x out = match step k with
                        | None => Some out
                        | Some (g, new) => try_add K upair_eq (map dpair L) (dpair new) (zsgn g) x out
                        end) ->
      length vec = length L ->
      loop_vec K 0 vec body (zeros K (length vec)) = Some (project (pamp ops) L vec).
    Proof.
      intros HA HB Lv.
      set (ok := fun k : udet => Nat.eqb (length (fst k)) n && Nat.eqb (length (snd k)) n).
      assert (OK : forall k, In k L -> ok k = true).
      { intros k I. destruct (Len k I) as [A B]. unfold ok. rewrite A, B, Nat.eqb_refl. reflexivity. }
      assert (OK' : forall k, ok k = true -> length (fst k) = n /\ length (snd k) = n).
      { intros k I. unfold ok in I. apply andb_true_iff in I as [A B]. apply Nat.eqb_eq in A, B. auto. }
      rewrite (project_ext _ (fun J k => if ok k && ok J then pamp ops J k else 0)).
      2:{ intros J k HJ Hk. rewrite (OK k Hk), (OK J HJ). reflexivity. }
      assert (Same : forall J J' : udet, length (fst J) = n -> length (fst J') = n ->
                     fst J ++ snd J = fst J' ++ snd J' -> J = J').
      { intros [a b] [a' b'] A A' E. cbn in *.
        assert (a = a').
        { apply (f_equal (firstn n)) in E. rewrite !firstn_app, !A, !A', !Nat.sub_diag, !firstn_O, !app_nil_r in E.
          rewrite !firstn_all2 in E by lia. exact E. }
        subst. apply app_inv_head in E. congruence. }
      assert (Step : forall k g J, In k L -> step k = Some (g, J) -> ok J = true \/ ~ In J L).
      { intros k g J _ _. destruct (ok J) eqn:E; [auto|]. right. intros I. rewrite (OK J I) in E. discriminate. }
      apply (on_vec_ok dpair upair_eq upair_eq_iff dpair_inj L ND
               (fun k => if ok k then match step k with Some (g, J) => if ok J then Some (g, J) else None | None => None end else None)); auto.
      - intros J k g E. destruct (ok k) eqn:Ok; [|discriminate]. destruct (OK' k Ok) as [A B].
        destruct (HA k A B) as [Act _].
        destruct (step k) as [[g' J']|]; [|discriminate]. destruct (ok J') eqn:OJ; [|discriminate].
        injection E as -> ->. rewrite OJ. cbn [andb]. apply braket_some. exact Act.
      - intros J k E. destruct (ok k) eqn:Ok; [|reflexivity]. destruct (ok J) eqn:OJ; [|reflexivity]. cbn [andb].
        destruct (OK' k Ok) as [A B]. destruct (HA k A B) as [Act Ln]. destruct (OK' J OJ) as [A' B'].
        apply braket_other. intros g X. apply (eq_trans (eq_sym X)) in Act. clear X.
        destruct (step k) as [[g' J']|]; [|discriminate]. injection Act as <- X. symmetry in X. specialize (Ln g J' eq_refl). apply Same in X; auto. subst J'.
        rewrite OJ in E. apply (E g). reflexivity.
      - intros ix x out k Ek. assert (I : In k L) by (eapply nth_error_In; eauto).
        destruct (Len k I) as [A B]. rewrite (HB ix x out k Ek A B), (OK k I).
        destruct (step k) as [[g J]|] eqn:E; [|reflexivity].
        destruct (Step k g J I E) as [-> | NI]; [reflexivity|].
        destruct (ok J); [reflexivity|].
        unfold try_add. pose proof (index_spec upair_eq upair_eq_iff (map dpair L) (dpair J)
           (nodup_rep dpair dpair_inj L ND)) as S.
        destruct (index upair_eq (dpair J) (map dpair L)) as [idx|]; [|reflexivity].
        exfalso. apply NI. assert (X : nth_error (map dpair L) idx = Some (dpair J)) by (apply S; auto).
        apply nth_error_In, in_map_iff in X. destruct X as (J' & EJ & HJ). apply dpair_inj in EJ. subst. exact HJ.
    Qed.

    Ltac start Ek := rewrite nth_error_map, Ek; cbn [option_map bindo dpair fst snd].

    Lemma act_alpha2 a b o1 o2 : op_index o1 < length a -> op_index o2 < length a ->
      act [o1; o2] (a ++ b) = match act [o1; o2] a with Some (g, t) => Some (g, t ++ b) | None => None end.
    Proof. intros. apply act_app_l. repeat constructor; auto. Qed.

    Lemma sa_on_vec_ok vec i a : i < n -> a < n -> i <> a -> length vec = length L ->
      sa_on_vec K (map dpair L) vec i a = Some (project (pamp [Cre a; Ann i]) L vec).
    Proof.
      intros Hi Ha N Lv. unfold sa_on_vec.
      apply pairs_gen with (step := fun k => match exc (fst k) i a with Some (g, t) => Some (g, (t, snd k)) | None => None end); auto.
      - intros k A B. split.
        + rewrite act_app_l by (repeat constructor; cbn; lia). rewrite act_exc by lia.
          destruct (exc (fst k) i a) as [[g t]|]; reflexivity.
        + intros g J E. destruct (exc (fst k) i a) as [[g' t]|] eqn:F; [|discriminate]. injection E as <- <-.
          cbn. rewrite (exc_length _ _ _ _ _ F). exact A.
      - intros ix x out k Ek A B. start Ek. rewrite excite_exc by lia. cbn [bindo].
        destruct (exc (fst k) i a) as [[g t]|]; reflexivity.
    Qed.
    Lemma sb_on_vec_ok vec i a : i < n -> a < n -> i <> a -> length vec = length L ->
      sb_on_vec K (map dpair L) vec i a = Some (project (pamp [Cre (n + a); Ann (n + i)]) L vec).
    Proof.
      intros Hi Ha N Lv. unfold sb_on_vec.
      apply pairs_gen with (step := fun k => match exc (snd k) i a with Some (g, t) => Some (g, (fst k, t)) | None => None end); auto.
      - intros k A B. split.
        + rewrite <- A. change [Cre (length (fst k) + a); Ann (length (fst k) + i)]
            with (map (shift (length (fst k))) [Cre a; Ann i]).
          rewrite act_app_r, act_exc, flips_two by lia.
          destruct (exc (snd k) i a) as [[g t]|]; [|reflexivity]. rewrite xorb_false_l. reflexivity.
        + intros g J E. destruct (exc (snd k) i a) as [[g' t]|] eqn:F; [|discriminate]. injection E as <- <-. exact A.
      - intros ix x out k Ek A B. start Ek. rewrite excite_exc by lia. cbn [bindo].
        destruct (exc (snd k) i a) as [[g t]|]; reflexivity.
    Qed.
    Lemma da_on_vec_ok vec i j a b : i < n -> a < n -> j < n -> b < n -> i <> a -> j <> b -> length vec = length L ->
      da_on_vec K (map dpair L) vec i j a b = Some (project (pamp [Cre b; Ann j; Cre a; Ann i]) L vec).
    Proof.
      intros Hi Ha Hj Hb N1 N2 Lv. unfold da_on_vec.
      apply pairs_gen with (step := fun k => match exc2 (fst k) i a j b with Some (g, t) => Some (g, (t, snd k)) | None => None end); auto.
      - intros k A B. split.
        + rewrite act_app_l by (repeat constructor; cbn; lia). rewrite act_exc2 by lia.
          destruct (exc2 (fst k) i a j b) as [[g t]|]; reflexivity.
        + intros g J E. unfold exc2 in E. destruct (exc (fst k) i a) as [[g' t]|] eqn:F; [|discriminate].
          destruct (exc t j b) as [[g'' u]|] eqn:G; [|discriminate]. injection E as <- <-.
          cbn. rewrite (exc_length _ _ _ _ _ G), (exc_length _ _ _ _ _ F). exact A.
      - intros ix x out k Ek A B. start Ek. rewrite excite_exc by lia. cbn [bindo]. unfold exc2.
        destruct (exc (fst k) i a) as [[g t]|] eqn:E; [|reflexivity].
        rewrite excite_exc by (rewrite (exc_length _ _ _ _ _ E); lia). cbn [bindo].
        destruct (exc t j b) as [[g' u]|]; [|reflexivity]. rewrite zsgn_mul. reflexivity.
    Qed.
    Lemma db_on_vec_ok vec i j a b : i < n -> a < n -> j < n -> b < n -> i <> a -> j <> b -> length vec = length L ->
      db_on_vec K (map dpair L) vec i j a b
      = Some (project (pamp [Cre (n + b); Ann (n + j); Cre (n + a); Ann (n + i)]) L vec).
    Proof.
      intros Hi Ha Hj Hb N1 N2 Lv. unfold db_on_vec.
      apply pairs_gen with (step := fun k => match exc2 (snd k) i a j b with Some (g, t) => Some (g, (fst k, t)) | None => None end); auto.
      - intros k A B. split.
        + rewrite <- A. change [Cre (length (fst k) + b); Ann (length (fst k) + j); Cre (length (fst k) + a); Ann (length (fst k) + i)]
            with (map (shift (length (fst k))) [Cre b; Ann j; Cre a; Ann i]).
          rewrite act_app_r, act_exc2, flips_four by lia.
          destruct (exc2 (snd k) i a j b) as [[g t]|]; [|reflexivity]. rewrite xorb_false_l. reflexivity.
        + intros g J E. destruct (exc2 (snd k) i a j b) as [[g' t]|] eqn:F; [|discriminate]. injection E as <- <-. exact A.
      - intros ix x out k Ek A B. start Ek. rewrite excite_exc by lia. cbn [bindo]. unfold exc2.
        destruct (exc (snd k) i a) as [[g t]|] eqn:E; [|reflexivity].
        rewrite excite_exc by (rewrite (exc_length _ _ _ _ _ E); lia). cbn [bindo].
        destruct (exc t j b) as [[g' u]|]; [|reflexivity]. rewrite zsgn_mul. reflexivity.
    Qed.
    Lemma sasb_on_vec_ok vec i j a b : i < n -> a < n -> j < n -> b < n -> i <> a -> j <> b -> length vec = length L ->
      sasb_on_vec K (map dpair L) vec i j a b
      = Some (project (pamp [Cre (n + b); Ann (n + j); Cre a; Ann i]) L vec).
    Proof.
      intros Hi Ha Hj Hb N1 N2 Lv. unfold sasb_on_vec.
      apply pairs_gen with (step := fun k => match exc (fst k) i a, exc (snd k) j b with
         Some (g, t), Some (h, u) => Some (xorb g h, (t, u)) | _, _ => None end); auto.
      - intros k A B. split.
        + change [Cre (n + b); Ann (n + j); Cre a; Ann i] with ([Cre (n + b); Ann (n + j)] ++ [Cre a; Ann i]).
          rewrite act_app, act_app_l by (repeat constructor; cbn; lia). rewrite act_exc by lia.
          destruct (exc (fst k) i a) as [[g t]|] eqn:E; [|reflexivity]. cbn [bindop].
          assert (Lt : length t = n) by (rewrite (exc_length _ _ _ _ _ E); exact A). rewrite <- Lt.
          change [Cre (length t + b); Ann (length t + j)] with (map (shift (length t)) [Cre b; Ann j]).
          rewrite act_app_r, act_exc, flips_two by lia.
          destruct (exc (snd k) j b) as [[h u]|]; [|reflexivity]. rewrite xorb_false_l, xorb_comm. reflexivity.
        + intros g J E. destruct (exc (fst k) i a) as [[g' t]|] eqn:F; [|discriminate].
          destruct (exc (snd k) j b) as [[h u]|]; [|discriminate]. injection E as <- <-.
          cbn. rewrite (exc_length _ _ _ _ _ F). exact A.
      - intros ix x out k Ek A B. start Ek. rewrite excite_exc by lia. cbn [bindo].
        destruct (exc (fst k) i a) as [[g t]|]; [|reflexivity].
        rewrite excite_exc by lia. cbn [bindo].
        destruct (exc (snd k) j b) as [[h u]|]; [|reflexivity]. rewrite zsgn_mul. reflexivity.
    Qed.
  End Pairs.

  (** *** Linearity of the projected operators *)
  Definition axpy (c : K) (u v : list K) : list K := map (fun xy => fst xy + c * snd xy) (combine u v).

  Lemma project_linear {A} (amp : A -> A -> K) L c u v : length u = length L -> length v = length L ->
    project amp L (axpy c u v) = axpy c (project amp L u) (project amp L v).
  Proof.
    intros Lu Lv. unfold project, axpy at 2.
    assert (Cm : forall (f g : A -> K) (M : list A), combine (map f M) (map g M) = map (fun x => (f x, g x)) M).
    { clear. intros f g M. induction M; cbn; congruence. }
    rewrite Cm, map_map. apply map_ext. intros J. cbn [fst snd].
    revert u v Lu Lv. induction L as [|k L' IH]; intros u v Lu Lv; destruct u, v; try discriminate.
    - cbn. ring.
    - injection Lu as Lu. injection Lv as Lv. cbn [combine axpy map lsum fst snd].
      fold (axpy c u v). rewrite IH by auto. ring.
  Qed.

  (** *** The Hamiltonian *)
  Lemma loop_inner {B} (basis : list B) (el : B -> option K) i (vec : list K) :
    forall (bs : list B) j (vs : list K) (M : B -> K) out,
      skipn j vec = vs -> length vs = length bs ->
      (forall k, In k bs -> el k = Some (M k)) -> i < length out ->
      exists out', loop_basis K j bs (fun j k out =>
         let? x := nth_error vec j in let? m := el k in add_at K out i (x * m)) out = Some out'
      /\ length out' = length out
      /\ forall p, nth p out' 0 = nth p out 0 + (if Nat.eqb p i then lsum (map (fun kx => M (fst kx) * snd kx) (combine bs vs)) else 0).
  Proof.
    clear basis. induction bs as [|k bs IH]; intros j vs M out Sk Ln HM Hi.
    - exists out. split; [reflexivity|]. split; [reflexivity|]. intros p. cbn. destruct (Nat.eqb p i); ring.
    - destruct vs as [|x vs]; [discriminate|]. injection Ln as Ln. cbn [loop_basis].
      destruct (skipn_cons _ _ _ _ Sk) as [Ej Sk'].
      rewrite Ej, (HM k (or_introl eq_refl)). cbn [bindo].
      destruct (add_at_ok out i (x * M k) Hi) as (o1 & -> & L1 & N1). cbn [bindo].
      destruct (IH (S j) vs M o1 Sk' Ln (fun k' I => HM k' (or_intror I)) ltac:(lia)) as (o2 & -> & L2 & N2).
      exists o2. split; [reflexivity|]. split; [lia|]. intros p. rewrite N2, N1. cbn [combine map lsum fst snd].
      destruct (Nat.eqb p i); ring.
  Qed.

  Lemma loop_outer {B} (basis : list B) (el : B -> B -> option K) (M : B -> B -> K) (vec : list K) :
    length vec = length basis ->
    (forall b k, In b basis -> In k basis -> el b k = Some (M b k)) ->
    forall (bs : list B) (ix : nat) out, (ix + length bs = length basis)%nat -> incl bs basis -> length out = length basis ->
    exists out', loop_basis K ix bs (fun i b out => loop_basis K 0 basis (fun j k out =>
         let? x := nth_error vec j in let? m := el b k in add_at K out i (x * m)) out) out = Some out'
    /\ length out' = length out
    /\ forall p, nth p out' 0 = nth p out 0 +
         match nth_error bs (p - ix)%nat with
         | Some b => if Nat.leb ix p then lsum (map (fun kx => M b (fst kx) * snd kx) (combine basis vec)) else 0
         | None => 0 end.
  Proof.
    intros Lv HM. induction bs as [|b bs IH]; intros ix out Ln Ic Lo.
    - exists out. split; [reflexivity|]. split; [reflexivity|]. intros p. rewrite (proj2 (nth_error_None _ _)) by (cbn; lia). ring.
    - cbn [loop_basis]. cbn in Ln.
      destruct (loop_inner basis (el b) ix vec basis 0 vec (M b) out eq_refl Lv
                 (fun k I => HM b k (Ic b (or_introl eq_refl)) I) ltac:(lia)) as (o1 & -> & L1 & N1).
      cbn [bindo].
      destruct (IH (S ix) o1 ltac:(lia) (fun x I => Ic x (or_intror I)) ltac:(lia)) as (o2 & -> & L2 & N2).
      exists o2. split; [reflexivity|]. split; [lia|]. intros p. rewrite N2, N1.
      destruct (Nat.eqb_spec p ix) as [->|Np].
      + rewrite Nat.sub_diag. cbn [nth_error]. rewrite Nat.leb_refl.
        replace (ix - S ix)%nat with (0)%nat by lia. 
        assert (Nat.leb (S ix) ix = false) as -> by (apply Nat.leb_gt; lia). destruct (nth_error bs 0); ring.
      + destruct (Nat.leb_spec ix p).
        * assert (Nat.leb (S ix) p = true) as -> by (apply Nat.leb_le; lia).
          replace (p - ix)%nat with ((S (p - S ix)))%nat by lia. cbn [nth_error]. ring.
        * assert (Nat.leb (S ix) p = false) as -> by (apply Nat.leb_gt; lia).
          destruct (nth_error bs (p - S ix)%nat), (nth_error (b :: bs) (p - ix)%nat); ring.
  Qed.

  Lemma loop_mat {B} (basis : list B) (el : B -> B -> option K) (M : B -> B -> K) (vec : list K) :
    length vec = length basis ->
    (forall b k, In b basis -> In k basis -> el b k = Some (M b k)) ->
    loop_basis K 0 basis (fun i b out => loop_basis K 0 basis (fun j k out =>
         let? x := nth_error vec j in let? m := el b k in add_at K out i (x * m)) out) (zeros K (length vec))
    = Some (project M basis vec).
  Proof.
    intros Lv HM. destruct (loop_outer basis el M vec Lv HM basis 0 (zeros K (length vec))) as (out & -> & Lo & N).
    { reflexivity. } { intros x; auto. } { unfold zeros. rewrite repeat_length. exact Lv. }
    f_equal. unfold zeros in Lo. rewrite repeat_length in Lo.
    apply nth_ext_K; [unfold project; rewrite map_length; lia|].
    intros p Hp. rewrite N, zeros_nth, Nat.sub_0_r. cbn [Nat.leb]. unfold project.
    destruct (nth_error basis p) as [b|] eqn:E.
    2:{ apply nth_error_None in E. lia. }
    erewrite (nth_error_nth (map _ basis)) by (rewrite nth_error_map, E; reflexivity). ring.
  Qed.

  Lemma project_map {A B} (f : A -> B) (M : B -> B -> K) L vec :
    project M (map f L) vec = project (fun J k => M (f J) (f k)) L vec.
  Proof.
    unfold project. rewrite map_map. apply map_ext. intros J. f_equal.
    revert vec. induction L as [|k L IH]; intros [|x vec]; cbn; auto. rewrite IH. reflexivity.
  Qed.

  Lemma loop_mat_rep {A B} (f : A -> B) (L : list A) (el : B -> B -> option K) (M : A -> A -> K) (vec : list K) :
    length vec = length L ->
    (forall b k, In b L -> In k L -> el (f b) (f k) = Some (M b k)) ->
    loop_basis K 0 (map f L) (fun i b out => loop_basis K 0 (map f L) (fun j k out =>
         let? x := nth_error vec j in let? m := el b k in add_at K out i (x * m)) out) (zeros K (length vec))
    = Some (project M L vec).
  Proof.
    intros Lv HM.
    rewrite (loop_mat (map f L) el (fun b k => match el b k with Some m => m | None => 0 end) vec).
    - f_equal. rewrite project_map. apply project_ext. intros J k HJ Hk. rewrite HM; auto.
    - rewrite map_length. exact Lv.
    - intros b k Hb Hk. apply in_map_iff in Hb as (b' & <- & Hb). apply in_map_iff in Hk as (k' & <- & Hk).
      rewrite (HM b' k' Hb Hk). reflexivity.
  Qed.

  Lemma H_on_vec_ok n na nb (L : list udet) vec ha hb Ia Ib Iab :
    shp ha = [n; n] -> shp hb = [n; n] -> shp Ia = [n; n; n; n] -> shp Ib = [n; n; n; n] -> shp Iab = [n; n; n; n] ->
    symV K n Ia -> symV K n Ib ->
    (forall s, In s L -> length (fst s) = n /\ length (snd s) = n /\ nel (fst s) = na /\ nel (snd s) = nb) ->
    length vec = length L ->
    H_on_vec K (map dpair L) vec ha hb Ia Ib Iab
    = Some (project (fun J k => H_spatial n 0 (el2 K ha) (el2 K hb) (el4 K Ia) (el4 K Ib) (el4 K Iab)
                                  (fst J ++ snd J) (fst k ++ snd k)) L vec).
  Proof.
    intros. unfold H_on_vec.
    apply (loop_mat_rep dpair L (fun b k => ci_matrixel K (fst b) (snd b) (fst k) (snd k) ha hb Ia Ib Iab 0)); auto.
    intros b k Hb Hk. destruct (H6 b Hb) as (A & B & C & D). destruct (H6 k Hk) as (A' & B' & C' & D').
    cbn [dpair fst snd]. apply (ci_matrixel_spec K n); try assumption.
    - exact (eq_trans C (eq_sym C')).
    - exact (eq_trans D (eq_sym D')).
  Qed.

  Lemma gH_on_vec_ok n N (L : list det) vec h V :
    shp h = [n; n] -> shp V = [n; n; n; n] -> symV K n V ->
    (forall s, In s L -> length s = n /\ nel s = N) ->
    (forall k b o1 o2 v1 v2, In k L -> In b L -> moved2 k b o1 o2 v1 v2 -> ~ (v2 < o1 \/ o2 < v1)) ->
    length vec = length L ->
    gH_on_vec K (map dstr L) vec h V
    = Some (project (fun J k => H_spin_orbital n 0 (el2 K h) (el4 K V) J k) L vec).
  Proof.
    intros Sh SV Sy HL HX Lv. unfold gH_on_vec.
    apply (loop_mat_rep dstr L (fun b k => gci_matrixel K b k h V 0)); auto.
    intros b k Hb Hk. destruct (HL b Hb) as (A & B). destruct (HL k Hk) as (A' & B').
    apply gci_right; auto; [congruence|]. intros. apply (HX k b); auto.
  Qed.
  Lemma gH_on_vec_any (basis : list dstring) vec h V (M : dstring -> dstring -> K) :
    length vec = length basis ->
    (forall b k, In b basis -> In k basis -> gci_matrixel K b k h V 0 = Some (M b k)) ->
    gH_on_vec K basis vec h V = Some (project M basis vec).
  Proof. intros Lv HM. apply (loop_mat basis (fun b k => gci_matrixel K b k h V 0)); auto. Qed.
  Lemma H_on_vec_any (basis : list upair) vec ha hb Ia Ib Iab (M : upair -> upair -> K) :
    length vec = length basis ->
    (forall b k, In b basis -> In k basis ->
       ci_matrixel K (fst b) (snd b) (fst k) (snd k) ha hb Ia Ib Iab 0 = Some (M b k)) ->
    H_on_vec K basis vec ha hb Ia Ib Iab = Some (project M basis vec).
  Proof.
    intros Lv HM. apply (loop_mat basis (fun b k => ci_matrixel K (fst b) (snd b) (fst k) (snd k) ha hb Ia Ib Iab 0)); auto.
  Qed.

  (** symmetric bilinear form *)
  Definition dot (u v : list K) : K := lsum (map (fun xy => fst xy * snd xy) (combine u v)).

  Lemma dot_project_sym {A} (M : A -> A -> K) L u v : length u = length L -> length v = length L ->
    (forall J k, In J L -> In k L -> M J k = M k J) ->
    dot u (project M L v) = dot v (project M L u).
  Proof.
    intros Lu Lv Sy. unfold dot, project.
    (* as double sums over lists of pairs *)
    assert (E : forall (w z : list K) (R : list A), length w = length R ->
      lsum (map (fun xy => fst xy * snd xy) (combine w (map (fun J => lsum (map (fun kx => M J (fst kx) * snd kx) (combine L z))) R)))
      = lsum (map (fun bx => lsum (map (fun kx => snd bx * (M (fst bx) (fst kx) * snd kx)) (combine L z))) (combine R w))).
    { assert (Sc : forall (c : K) (f : A * K -> K) (l : list (A * K)), c * lsum (map f l) = lsum (map (fun x => c * f x) l)).
      { clear. intros c f l. induction l; cbn; [ring|]. rewrite <- IHl. ring. }
      intros w z R. revert w. induction R as [|J R IH]; intros [|x w] Lw; try discriminate; [reflexivity|].
      injection Lw as Lw. cbn [map combine lsum fst snd]. rewrite IH by auto. rewrite Sc. reflexivity. }
    rewrite !E by auto.
    assert (Sw : forall (f : A * K -> A * K -> K) (l m : list (A * K)),
      lsum (map (fun x => lsum (map (fun y => f x y) m)) l) = lsum (map (fun y => lsum (map (fun x => f x y) l)) m)).
    { clear. intros f l m. induction l as [|x l IH]; cbn.
      - induction m; cbn; [reflexivity|]. rewrite <- IHm. ring.
      - rewrite IH. clear. induction m as [|y m IHm]; cbn; [ring|]. rewrite <- IHm. ring. }
    rewrite Sw. f_equal. apply map_ext_in. intros [J x] HJ. f_equal. apply map_ext_in. intros [k y] Hk. cbn [fst snd].
    rewrite (Sy J k) by (eapply in_combine_l; eauto). ring.
  Qed.
End Vec.
Arguments pamp {K}. Arguments axpy {K}. Arguments dot {K}.

Section More.
  Variable K : cring.
  Local Open Scope K_scope.

  Lemma ci_matrixel_sym n (ha hb Ia Ib Iab : tensor K) (c : K) (ba bb ka kb : det) :
    shp ha = [n; n] -> shp hb = [n; n] ->
    shp Ia = [n; n; n; n] -> shp Ib = [n; n; n; n] -> shp Iab = [n; n; n; n] ->
    symV K n Ia -> symV K n Ib ->
    (forall p q, p < n -> q < n -> dat ha [p; q] = dat ha [q; p]) ->
    (forall p q, p < n -> q < n -> dat hb [p; q] = dat hb [q; p]) ->
    (forall p q r s, p < n -> q < n -> r < n -> s < n -> dat Ia [p; q; r; s] = dat Ia [r; s; p; q]) ->
    (forall p q r s, p < n -> q < n -> r < n -> s < n -> dat Ib [p; q; r; s] = dat Ib [r; s; p; q]) ->
    (forall p q r s, p < n -> q < n -> r < n -> s < n -> dat Iab [p; q; r; s] = dat Iab [r; s; p; q]) ->
    length ba = n -> length bb = n -> length ka = n -> length kb = n -> nel ba = nel ka -> nel bb = nel kb ->
    ci_matrixel K (dstr ba) (dstr bb) (dstr ka) (dstr kb) ha hb Ia Ib Iab c
    = ci_matrixel K (dstr ka) (dstr kb) (dstr ba) (dstr bb) ha hb Ia Ib Iab c.
  Proof.
    intros. rewrite !(ci_matrixel_spec K n) by auto. f_equal. apply H_spatial_sym; auto.
  Qed.

  Lemma spin_on_vec_ok (n : nat) (L : list udet) (vec : list K) (i j a b : nat) :
    (forall s, In s L -> length (fst s) = n /\ length (snd s) = n) -> NoDup L -> length vec = length L ->
    i < n -> a < n -> j < n -> b < n -> i <> a -> j <> b ->
    let operator ops := project (fun J k => braket (fst J ++ snd J) ops (fst k ++ snd k)) L vec in
    sa_on_vec K (map dpair L) vec i a = Some (operator [Cre a; Ann i]) /\
    sb_on_vec K (map dpair L) vec i a = Some (operator [Cre (n + a); Ann (n + i)]) /\
    da_on_vec K (map dpair L) vec i j a b = Some (operator [Cre b; Ann j; Cre a; Ann i]) /\
    db_on_vec K (map dpair L) vec i j a b
      = Some (operator [Cre (n + b); Ann (n + j); Cre (n + a); Ann (n + i)]) /\
    sasb_on_vec K (map dpair L) vec i j a b = Some (operator [Cre (n + b); Ann (n + j); Cre a; Ann i]).
  Proof.
    intros Len ND Lv Hi Ha Hj Hb N1 N2 operator.
    split; [apply (sa_on_vec_ok K n L); auto|]. split; [apply (sb_on_vec_ok K n L); auto|].
    split; [apply (da_on_vec_ok K n L); auto|]. split; [apply (db_on_vec_ok K n L); auto|].
    apply (sasb_on_vec_ok K n L); auto.
  Qed.

  Lemma H_on_vec_lin_sym (n na nb : nat) (L : list udet) (u v : list K) (c : K) (ha hb Ia Ib Iab : tensor K) :
    shp ha = [n; n] -> shp hb = [n; n] ->
    shp Ia = [n; n; n; n] -> shp Ib = [n; n; n; n] -> shp Iab = [n; n; n; n] ->
    symV K n Ia -> symV K n Ib ->
    (forall s, In s L -> length (fst s) = n /\ length (snd s) = n /\ nel (fst s) = na /\ nel (snd s) = nb) ->
    length u = length L -> length v = length L ->
    exists Hu Hv,
      H_on_vec K (map dpair L) u ha hb Ia Ib Iab = Some Hu /\
      H_on_vec K (map dpair L) v ha hb Ia Ib Iab = Some Hv /\
      H_on_vec K (map dpair L) (axpy c u v) ha hb Ia Ib Iab = Some (axpy c Hu Hv) /\
      ((forall p q, p < n -> q < n -> dat ha [p; q] = dat ha [q; p]) ->
       (forall p q, p < n -> q < n -> dat hb [p; q] = dat hb [q; p]) ->
       (forall p q r s, p < n -> q < n -> r < n -> s < n -> dat Ia [p; q; r; s] = dat Ia [r; s; p; q]) ->
       (forall p q r s, p < n -> q < n -> r < n -> s < n -> dat Ib [p; q; r; s] = dat Ib [r; s; p; q]) ->
       (forall p q r s, p < n -> q < n -> r < n -> s < n -> dat Iab [p; q; r; s] = dat Iab [r; s; p; q]) ->
       dot u Hv = dot v Hu).
  Proof.
    intros Sa Sb SIa SIb SIab Ya Yb HL Lu Lv.
    do 2 eexists. split; [apply (H_on_vec_ok K n na nb); auto|]. split; [apply (H_on_vec_ok K n na nb); auto|].
    split.
    - rewrite (H_on_vec_ok K n na nb) by (auto; unfold axpy; rewrite map_length, combine_length, Lu, Lv, Nat.min_id; auto).
      f_equal. apply project_linear; auto.
    - intros. apply dot_project_sym; auto. intros J k HJ Hk. apply H_spatial_sym; auto.
  Qed.
End More.

(** *** Counterexamples *)
From Coq Require Import QArith Qcanon.
Local Open Scope nat_scope.

Lemma Qc_some_neq (a b : option Qc) : option_map this a <> option_map this b -> a <> b.
Proof. congruence. Qed.

Lemma pair_symmetry_needed : exists (h V W : tensor QcK) (bra ket occ : det),
  shp h = [3; 3] /\ shp V = [3; 3; 3; 3] /\ shp W = [3; 3; 3; 3] /\
  length bra = 3 /\ length ket = 3 /\ length occ = 3 /\ nel bra = nel ket /\
  (forall p q, dat h [p; q] = dat h [q; p]) /\
  (forall p q r s, dat V [p; q; r; s] = dat V [r; s; p; q]) /\
  (forall p q r s, dat W [p; q; r; s] = dat W [r; s; p; q]) /\
  ci_matrixel QcK (dstr bra) (dstr occ) (dstr ket) (dstr occ) h h V V W c0
  <> ci_matrixel QcK (dstr ket) (dstr occ) (dstr bra) (dstr occ) h h V V W c0.
Proof.
  (* <p q|r s> = (p - 2 q)(r - 2 s)-like weight: symmetric under (pq) <-> (rs) only *)
  exists (mkT (K:=QcK) [3; 3] (fun _ => 0%Qc)),
    (mkT (K:=QcK) [3; 3; 3; 3] (fun i => match i with
       | [p; q; r; s] => zK (K:=QcK) (Z.of_nat ((p + 3 * q + 1) * (r + 3 * s + 1))) | _ => 0%Qc end)),
    (mkT (K:=QcK) [3; 3; 3; 3] (fun _ => 0%Qc)),
    [true; false; true], [false; true; true], [false; false; false].
  do 8 (split; [reflexivity|]).
  split; [intros p q r s; cbn [dat]; do 2 f_equal; lia|]. split; [reflexivity|].
  apply Qc_some_neq. vm_compute. discriminate.
Qed.

Lemma gci_refuted :
  (exists (h V : tensor QcK) (bra ket : det),
    shp h = [4; 4] /\ shp V = [4; 4; 4; 4] /\
    (forall p q r s, dat V [p; q; r; s] = dat V [q; p; s; r]) /\
    length bra = 4 /\ length ket = 4 /\ nel bra = nel ket /\
    gci_matrixel QcK (dstr bra) (dstr ket) h V c0
    <> Some (H_spin_orbital 4 c0 (fun p q => dat h [p; q]) (fun p q r s => dat V [p; q; r; s]) bra ket)) /\
  (exists (h V : tensor QcK) (c : QcK) (bra : det),
    shp h = [4; 4] /\ shp V = [4; 4; 4; 4] /\
    (forall p q r s, dat V [p; q; r; s] = dat V [q; p; s; r]) /\ length bra = 4 /\
    gci_matrixel QcK (dstr bra) (dstr bra) h V c
    <> Some (H_spin_orbital 4 c (fun p q => dat h [p; q]) (fun p q r s => dat V [p; q; r; s]) bra bra)).
Proof.
  split.
  - exists (mkT (K:=QcK) [4; 4] (fun _ => 0%Qc)),
      (mkT (K:=QcK) [4; 4; 4; 4] (fun i => match i with
         | [p; q; r; s] => zK (K:=QcK) (Z.of_nat ((1 + p * r) * (1 + q * s))) | _ => 0%Qc end)),
      [false; false; true; true], [true; true; false; false].
    do 2 (split; [reflexivity|]).
    split; [intros p q r s; cbn [dat]; do 2 f_equal; lia|]. do 3 (split; [reflexivity|]).
    apply Qc_some_neq. vm_compute. discriminate.
  - exists (mkT (K:=QcK) [4; 4] (fun _ => 0%Qc)), (mkT (K:=QcK) [4; 4; 4; 4] (fun _ => 0%Qc)),
      1%Qc, [true; true; false; false].
    do 4 (split; [reflexivity|]).
    apply Qc_some_neq. vm_compute. discriminate.
Qed.
