(** Splitting sums over spin orbitals into sums over alpha and beta orbitals,
    on symbolic arrays: the slice of a spin-orbital array at a given spin
    pattern is again described by a symbolic array, over the spin blocks of
    the inputs. *)
From Coq Require Import List Bool Arith ZArith Lia Ring.
From Verif Require Import Scalar Tensor PySyntax PySem PySim Sym SymSound Norm CCProg CCSpec Engine
  NpModel SpinModel SpinSpec SpinFacts.
Import ListNotations.

(** For an input: its index classes, and for each spin pattern the block
    (sign, permutation, symbol) that it holds, [None] for zero. *)
Definition block : Type := option (bool * list nat * positive).
Definition sptab : Type := positive -> option (list cls * (list bool -> block)).

Definition ix_spin (sx sd : list bool) (i : ix) : bool :=
  match i with X n => nth n sx false | D n => nth n sd false end.

Definition spc (c : cls) (s : bool) : cls :=
  match c, s with
  | 1, false => 1 | 1, true => 3 | 2, false => 2 | 2, true => 4 | _, _ => 5
  end%positive.

Fixpoint spcs (cs : list cls) (ss : list bool) : list cls :=
  match cs, ss with c :: cs', s :: ss' => spc c s :: spcs cs' ss' | _, _ => [] end.

(** [None]: ill-typed; [Some None]: zero *)
Fixpoint split_facs (tb : sptab) (sh dm : list cls) (sx sd : list bool) (fs : list fac)
  : option (option (bool * list fac)) :=
  match fs with
  | [] => Some (Some (false, []))
  | (t, is) :: fs' =>
      match tb t with
      | None => None
      | Some (ty, f) =>
          if typed sh dm is ty then
            match f (map (ix_spin sx sd) is) with
            | None => Some None
            | Some (s, p, t') =>
                if forallb (fun k => Nat.ltb k (List.length is)) p then
                  match split_facs tb sh dm sx sd fs' with
                  | Some (Some (s', gs)) =>
                      Some (Some (xorb s s', (t', map (fun k => nth k is (X 0)) p) :: gs))
                  | r => r
                  end
                else None
            end
          else None
      end
  end.

Notation all_spins := spin_list.

Fixpoint gather {A} (l : list (option (list A))) : option (list A) :=
  match l with
  | [] => Some []
  | o :: l' => match o, gather l' with Some a, Some b => Some (a ++ b) | _, _ => None end
  end.

Definition split_one (tb : sptab) (sh : list cls) (sx : list bool) (m : mono) (sd : list bool)
  : option (list mono) :=
  match split_facs tb sh (m_dm m) sx sd (m_fs m) with
  | None => None
  | Some None => Some []
  | Some (Some (s, gs)) =>
      Some [Mono (if s then - m_z m else m_z m)%Z (m_k m) (spcs (m_dm m) sd) gs]
  end.

Definition split_mono (tb : sptab) (sh : list cls) (sx : list bool) (m : mono) : option (list mono) :=
  gather (map (split_one tb sh sx m) (all_spins (List.length (m_dm m)))).

Definition split_ms (tb : sptab) (sh : list cls) (sx : list bool) (ms : list mono)
  : option (list mono) := gather (map (split_mono tb sh sx) ms).

Definition split_arr (tb : sptab) (sx : list bool) (a : stens) : option stens :=
  if Nat.eqb (List.length sx) (List.length (s_sh a)) then
    match split_ms tb (s_sh a) sx (s_ms a) with
    | Some ms => Some (STens (spcs (s_sh a) sx) ms)
    | None => None
    end
  else None.

Section SplitSound.
  Variable K : cring.
  Local Open Scope K_scope.
  Add Ring Kr11 : (c_th K).
  Variable dimu : cls -> nat.
  Definition da (c : cls) : nat := dimu (spc c false).
  Definition db (c : cls) : nat := dimu (spc c true).
  Definition dso (c : cls) : nat := da c + db c.
  Variables rho_so rho_u : positive -> list nat -> K.
  Variable tb : sptab.

  Definition sptab_ok : Prop := forall t ty f, tb t = Some (ty, f) ->
    forall ss idx, List.length ss = List.length ty ->
      inrange (sels ss (map da ty) (map db ty)) idx ->
      rho_so t (ats (map da ty) ss idx) =
      match f ss with
      | Some (s, p, t') => sgn K s (rho_u t' (map (fun k => nth k idx 0%nat) p))
      | None => 0
      end.
  Hypothesis Htb : sptab_ok.

  Lemma sums_dso cs : sums (map da cs) (map db cs) = map dso cs.
  Proof. induction cs; simpl; auto. rewrite IHcs. reflexivity. Qed.

  Lemma sels_spcs cs : forall ss, List.length ss = List.length cs ->
    sels ss (map da cs) (map db cs) = map dimu (spcs cs ss).
  Proof.
    induction cs as [|c cs IH]; intros [|s ss]; simpl; try discriminate; auto.
    intros H. rewrite IH by auto. f_equal. destruct s; reflexivity.
  Qed.

  (** a sum over spin orbitals *)
  Lemma sumL_split cs : forall f : list nat -> K,
    sumL (map dso cs) f =
    lsum (map (fun sd => sumL (map dimu (spcs cs sd)) (fun ds => f (ats (map da cs) sd ds)))
              (all_spins (List.length cs))).
  Proof.
    induction cs as [|c cs IH]; intros f.
    - simpl. ring.
    - cbn [map sumL List.length all_spins]. unfold dso at 1. rewrite sumN_plus.
      rewrite map_app, lsum_app, !map_map. f_equal.
      + erewrite sumN_ext; [|intros; apply IH]. cbn [spcs map sumL ats].
        unfold at_spin. fold (da c). clear.
        induction (all_spins (List.length cs)) as [|sd l IHl]; simpl.
        * apply sumN_0.
        * rewrite sumN_add, IHl. reflexivity.
      + erewrite sumN_ext; [|intros; apply IH]. cbn [spcs map sumL ats].
        unfold at_spin. fold (db c). clear.
        induction (all_spins (List.length cs)) as [|sd l IHl]; simpl.
        * apply sumN_0.
        * rewrite sumN_add, IHl. reflexivity.
  Qed.

  Lemma all_spins_length n : forall sd, In sd (all_spins n) -> List.length sd = n.
  Proof.
    induction n as [|n IH]; simpl; intros sd H.
    - destruct H as [<-|[]]. reflexivity.
    - apply in_app_or in H. destruct H as [H|H]; apply in_map_iff in H;
        destruct H as (t & <- & Ht); simpl; auto.
  Qed.

  Lemma nth_ats n : forall na ss idx, (n < List.length na)%nat -> List.length ss = List.length na ->
    List.length idx = List.length na ->
    nth n (ats na ss idx) 0%nat = at_spin (nth n na 0%nat) (nth n ss false) (nth n idx 0%nat).
  Proof.
    induction n as [|n IH]; intros [|a na] [|s ss] [|i idx]; simpl; intros; try lia; auto.
    apply IH; lia.
  Qed.

  Lemma nth_spcs n : forall cs ss, (n < List.length cs)%nat -> List.length ss = List.length cs ->
    nth n (spcs cs ss) 1%positive = spc (nth n cs 1%positive) (nth n ss false).
  Proof.
    induction n as [|n IH]; intros [|a na] [|s ss]; simpl; intros; try lia; auto.
    apply IH; lia.
  Qed.
  Lemma spcs_length cs : forall ss, List.length ss = List.length cs ->
    List.length (spcs cs ss) = List.length cs.
  Proof. induction cs as [|c cs IH]; intros [|s ss]; simpl; try discriminate; auto. Qed.

  Section Mono.
    Variables (sh dm : list cls) (sx sd : list bool) (xs ds : list nat).
    Hypothesis Hsx : List.length sx = List.length sh.
    Hypothesis Hsd : List.length sd = List.length dm.
    Hypothesis Hx : inrange (map dimu (spcs sh sx)) xs.
    Hypothesis Hd : inrange (map dimu (spcs dm sd)) ds.
    Notation XS := (ats (map da sh) sx xs).
    Notation DS := (ats (map da dm) sd ds).

    Lemma Lx : List.length xs = List.length sh.
    Proof. rewrite (inrange_length _ _ Hx), map_length, spcs_length; auto. Qed.
    Lemma Ld : List.length ds = List.length dm.
    Proof. rewrite (inrange_length _ _ Hd), map_length, spcs_length; auto. Qed.

    Lemma look_split i c : ix_cls sh dm i = Some c ->
      look XS DS i = at_spin (da c) (ix_spin sx sd i) (look xs ds i) /\
      (look xs ds i < side_len (ix_spin sx sd i) (da c) (db c))%nat.
    Proof.
      pose proof Lx as HLx. pose proof Ld as HLd.
      destruct i as [n|n]; simpl; intros E.
      - assert (Hn : (n < List.length sh)%nat) by (apply nth_error_Some; congruence).
        rewrite nth_ats by (rewrite ?map_length; auto).
        rewrite (nth_map_lt _ _ _ _ 1%positive), (nth_error_nth _ _ _ E) by auto. split; auto.
        pose proof (inrange_nth _ _ n Hx) as H. rewrite map_length, spcs_length in H by auto.
        specialize (H Hn). rewrite (nth_map_lt _ _ _ _ 1%positive) in H by (rewrite spcs_length; auto).
        rewrite nth_spcs, (nth_error_nth _ _ _ E) in H by auto.
        destruct (nth n sx false); exact H.
      - assert (Hn : (n < List.length dm)%nat) by (apply nth_error_Some; congruence).
        rewrite nth_ats by (rewrite ?map_length; auto).
        rewrite (nth_map_lt _ _ _ _ 1%positive), (nth_error_nth _ _ _ E) by auto. split; auto.
        pose proof (inrange_nth _ _ n Hd) as H. rewrite map_length, spcs_length in H by auto.
        specialize (H Hn). rewrite (nth_map_lt _ _ _ _ 1%positive) in H by (rewrite spcs_length; auto).
        rewrite nth_spcs, (nth_error_nth _ _ _ E) in H by auto.
        destruct (nth n sd false); exact H.
    Qed.

    Lemma looks_split is : forall ty, typed sh dm is ty = true ->
      map (look XS DS) is = ats (map da ty) (map (ix_spin sx sd) is) (map (look xs ds) is) /\
      inrange (sels (map (ix_spin sx sd) is) (map da ty) (map db ty)) (map (look xs ds) is) /\
      List.length is = List.length ty.
    Proof.
      induction is as [|i is IH]; intros [|c ty]; simpl; try discriminate.
      - repeat split. constructor.
      - destruct (ix_cls sh dm i) as [c'|] eqn:E; [|discriminate].
        destruct (Pos.eqb_spec c c'); [subst c'|discriminate]. intros H.
        destruct (IH _ H) as (E1 & E2 & E3). destruct (look_split _ _ E) as (E4 & E5).
        rewrite E1, E4, E3. repeat split. constructor; auto.
    Qed.

    Lemma split_facs_sound fs : forall r, split_facs tb sh dm sx sd fs = Some r ->
      prodK (map (den_fac K rho_so XS DS) fs) =
      match r with
      | Some (s, gs) => sgn K s (prodK (map (den_fac K rho_u xs ds) gs))
      | None => 0
      end.
    Proof.
      induction fs as [|[t is] fs IH]; intros r; cbn [split_facs].
      - intros E. injection E as <-. reflexivity.
      - destruct (tb t) as [[ty f]|] eqn:Et; [|discriminate].
        destruct (typed sh dm is ty) eqn:Ety; [|discriminate].
        destruct (looks_split _ _ Ety) as (E1 & E2 & E3).
        assert (Ef : den_fac K rho_so XS DS (t, is) =
          match f (map (ix_spin sx sd) is) with
          | Some (s, p, t') => sgn K s (rho_u t' (map (fun k => nth k (map (look xs ds) is) 0%nat) p))
          | None => 0
          end).
        { unfold den_fac. cbn [fst snd]. rewrite E1. apply (Htb _ _ _ Et); auto.
          rewrite map_length. auto. }
        cbn [map prodK]. rewrite Ef.
        destruct (f (map (ix_spin sx sd) is)) as [[[s p] t']|].
        + destruct (forallb (fun k => Nat.ltb k (List.length is)) p) eqn:Ep; [|discriminate].
          assert (Eq : rho_u t' (map (fun k => nth k (map (look xs ds) is) 0%nat) p) =
                       den_fac K rho_u xs ds (t', map (fun k => nth k is (X 0)) p)).
          { unfold den_fac. cbn [fst snd]. rewrite map_map. f_equal. apply map_ext_in.
            intros k Hk. rewrite forallb_forall in Ep. specialize (Ep _ Hk).
            apply Nat.ltb_lt in Ep. rewrite (nth_map_lt _ _ _ _ (X 0)) by auto. reflexivity. }
          rewrite Eq.
          destruct (split_facs tb sh dm sx sd fs) as [[[s' gs]|]|]; try discriminate;
            intros E; injection E as <-; rewrite (IH _ eq_refl).
          * cbn [map prodK]. apply sgn_xorb.
          * ring.
        + intros E. injection E as <-. ring.
    Qed.
  End Mono.

  Lemma split_facs_ok sh dm sx sd fs : List.length sx = List.length sh ->
    List.length sd = List.length dm -> forall s gs,
    split_facs tb sh dm sx sd fs = Some (Some (s, gs)) ->
    Forall (fun p => Forall (ix_ok (List.length sh) (List.length dm)) (snd p)) fs ->
    Forall (fun p => Forall (ix_ok (List.length sh) (List.length dm)) (snd p)) gs.
  Proof.
    intros Hx Hd. induction fs as [|[t is] fs IH]; intros s gs; cbn [split_facs].
    - intros E. injection E as <- <-. auto.
    - destruct (tb t) as [[ty f]|]; [|discriminate].
      destruct (typed sh dm is ty); [|discriminate].
      destruct (f (map (ix_spin sx sd) is)) as [[[s1 p] t']|]; [|discriminate].
      destruct (forallb (fun k => Nat.ltb k (List.length is)) p) eqn:Ep; [|discriminate].
      destruct (split_facs tb sh dm sx sd fs) as [[[s' gs']|]|]; try discriminate.
      intros E HF. injection E as <- <-. inversion HF; subst. constructor.
      + cbn [snd] in *. rewrite Forall_map, Forall_forall. intros k Hk.
        rewrite forallb_forall in Ep. specialize (Ep _ Hk). apply Nat.ltb_lt in Ep.
        rewrite Forall_forall in H1. apply H1. apply nth_In. auto.
      + eapply IH; eauto.
  Qed.

  Lemma gather_den du xs (l : list (option (list mono))) (v : list K) r : gather l = Some r ->
    Forall2 (fun o x => forall ms, o = Some ms -> den K du rho_u xs ms = x) l v ->
    den K du rho_u xs r = lsum v.
  Proof.
    intros H HF. revert r H. induction HF as [|o x l v Ho HF IH]; simpl; intros r H.
    - injection H as <-. reflexivity.
    - destruct o as [a|]; [|discriminate]. destruct (gather l) as [b|]; [|discriminate].
      injection H as <-. rewrite den_app, (Ho _ eq_refl), (IH _ eq_refl). reflexivity.
  Qed.

  Lemma Forall2_map2 {A B C} (R : B -> C -> Prop) (f : A -> B) (g : A -> C) l :
    (forall a, In a l -> R (f a) (g a)) -> Forall2 R (map f l) (map g l).
  Proof. induction l; simpl; intros H; constructor; auto. Qed.

  Lemma split_mono_sound sh sx m ms xs : List.length sx = List.length sh ->
    inrange (map dimu (spcs sh sx)) xs -> split_mono tb sh sx m = Some ms ->
    den_mono K dso rho_so (ats (map da sh) sx xs) m = den K dimu rho_u xs ms.
  Proof.
    intros Hs Hx E. unfold split_mono in E. unfold den_mono. rewrite sumL_split.
    rewrite <- lsum_mul_l, map_map. symmetry. eapply gather_den; [exact E|].
    apply Forall2_map2. intros sd Hsd. apply all_spins_length in Hsd. intros r Er.
    unfold split_one in Er.
    destruct (split_facs tb sh (m_dm m) sx sd (m_fs m)) as [[[s gs]|]|] eqn:Ef; try discriminate;
      injection Er as <-.
    - unfold den. cbn [map lsum]. unfold den_mono. cbn [m_z m_k m_dm m_fs].
      rewrite (sumL_ext K _ (fun ds => prodK (map (den_fac K rho_so (ats (map da sh) sx xs)
                      (ats (map da (m_dm m)) sd ds)) (m_fs m)))
                 (fun ds => sgn K s (prodK (map (den_fac K rho_u xs ds) gs)))).
      2: { intros ds Hds. apply (split_facs_sound sh (m_dm m) sx sd xs ds Hs Hsd Hx Hds _ _ Ef). }
      destruct s; cbn [sgn]; [|ring]. rewrite dyad_opp.
      rewrite (sumL_ext K _ (fun ds => - prodK _) (fun ds => (- (1)) * prodK (map (den_fac K rho_u xs ds) gs))).
      2: { intros. ring. }
      rewrite sumL_mul_l. ring.
    - unfold den. cbn [map lsum].
      rewrite (sumL_ext K _ _ (fun _ => 0)).
      2: { intros ds Hds. apply (split_facs_sound sh (m_dm m) sx sd xs ds Hs Hsd Hx Hds _ _ Ef). }
      rewrite sumL_0. ring.
  Qed.

  Lemma gather_Forall {A} (P : A -> Prop) (l : list (option (list A))) : forall r, gather l = Some r ->
    (forall a, In (Some a) l -> Forall P a) -> Forall P r.
  Proof.
    induction l as [|o l IH]; simpl; intros r H HP.
    - injection H as <-. constructor.
    - destruct o as [a|]; [|discriminate]. destruct (gather l) as [b|]; [|discriminate].
      injection H as <-. apply Forall_app. split; auto.
  Qed.

  Lemma split_mono_ok sh sx m ms : List.length sx = List.length sh -> m_ok (List.length sh) m ->
    split_mono tb sh sx m = Some ms -> Forall (m_ok (List.length sh)) ms.
  Proof.
    intros Hs Hm E. eapply gather_Forall; [exact E|]. intros r Hr. apply in_map_iff in Hr.
    destruct Hr as (sd & E1 & Hsd). apply all_spins_length in Hsd. unfold split_one in E1.
    destruct (split_facs tb sh (m_dm m) sx sd (m_fs m)) as [[[s gs]|]|] eqn:Ef; try discriminate;
      injection E1 as <-; constructor; [|constructor].
    unfold m_ok. cbn [m_dm m_fs]. rewrite spcs_length by auto.
    eapply split_facs_ok; eauto.
  Qed.

  (** the slice of an array at spin pattern [sx] *)
  Definition slice_at (na nb : list nat) (sx : list bool) (t : tensor K) : tensor K :=
    mkT (sels sx na nb) (fun idx => dat t (ats na sx idx)).

  Theorem split_sound sx a b t : split_arr tb sx a = Some b -> Rarr K dso rho_so a t ->
    Rarr K dimu rho_u b (slice_at (map da (s_sh a)) (map db (s_sh a)) sx t).
  Proof.
    unfold split_arr. destruct (Nat.eqb_spec (List.length sx) (List.length (s_sh a))) as [Hs|];
      [|discriminate].
    destruct (split_ms tb (s_sh a) sx (s_ms a)) as [ms|] eqn:E; [|discriminate].
    intros Eb (H1 & H2 & H3). injection Eb as <-. unfold split_ms in E.
    split; [|split].
    - cbn [shp slice_at s_sh]. apply sels_spcs. auto.
    - cbn [s_sh s_ms]. rewrite spcs_length by auto. eapply gather_Forall; [exact E|].
      intros r Hr. apply in_map_iff in Hr. destruct Hr as (m & Em & Hm).
      rewrite Forall_forall in H2. eapply split_mono_ok; eauto.
    - cbn [shp slice_at s_sh s_ms dat]. intros idx Hi.
      pose proof Hi as Hi'. rewrite sels_spcs in Hi' by auto.
      rewrite H3.
      + symmetry. eapply gather_den; [exact E|]. unfold den. apply Forall2_map2.
        intros m Hm ms' Em. symmetry. eapply split_mono_sound; eauto.
      + rewrite H1, <- sums_dso. apply ats_range; rewrite ?map_length; auto.
  Qed.

  Theorem split_num_sound a ms k : split_ms tb [] [] a = Some ms -> Rnum K dso rho_so a k ->
    Rnum K dimu rho_u ms k.
  Proof.
    intros E (H2 & ->). unfold split_ms in E. split.
    - eapply gather_Forall; [exact E|]. intros r Hr. apply in_map_iff in Hr.
      destruct Hr as (m & Em & Hm). rewrite Forall_forall in H2.
      apply (split_mono_ok [] [] m r); auto.
    - symmetry. eapply gather_den; [exact E|]. unfold den. apply Forall2_map2.
      intros m Hm ms' Em. symmetry. eapply (split_mono_sound [] [] m ms' []); eauto. constructor.
  Qed.
End SplitSound.
