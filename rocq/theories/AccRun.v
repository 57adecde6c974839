(** One call of a function of the table in AccSpec: the run on T with factors against the
    run on zero without them. *)
From Coq Require Import List Bool Arith Ascii String ZArith Lia Ring.
From Verif Require Import Scalar Tensor PySyntax PySem PySim CCProg CCSpec CCShapes AccSpec RoundCC RoundRun RoundMain RoundPub Acc.
Import ListNotations.
Local Open Scope string_scope.

(** *** A number passed last *)
Section Num.
  Variable A : alg.
  Lemma load_args_num (xs : list (xval A)) x h :
    load_args A (xs ++ [XNum x])%list h = ((fst (load_args A xs h) ++ [VNum x])%list, snd (load_args A xs h)).
  Proof.
    revert h. induction xs as [|y xs IH]; intros h; cbn; [reflexivity|].
    destruct (load A y h) as [v h1]. rewrite IH. destruct (load_args A xs h1). reflexivity.
  Qed.
  Lemma load_args_length (xs : list (xval A)) h : List.length (fst (load_args A xs h)) = List.length xs.
  Proof.
    revert h. induction xs as [|y xs IH]; intros h; cbn; [reflexivity|].
    destruct (load A y h) as [v h1]. specialize (IH h1). destruct (load_args A xs h1). cbn in *. congruence.
  Qed.
  Lemma read_args_num (vs : list (val A)) x h :
    read_args A (vs ++ [VNum x])%list h = match read_args A vs h with Ok xs => Ok (xs ++ [XNum x])%list | Exn m => Exn m end.
  Proof.
    induction vs as [|v vs IH]; cbn; [reflexivity|]. destruct (read A v h) as [y|m]; cbn; [|reflexivity].
    rewrite IH. destruct (read_args A vs h); reflexivity.
  Qed.
  Lemma pycall_num prog f (xs : list (xval A)) x r out : pycall A prog f (xs ++ [XNum x])%list = Ok (r, out) ->
    exists out', out = (out' ++ [XNum x])%list.
  Proof.
    unfold pycall. rewrite load_args_num. destruct (run A prog 8 f _ _) as [[v h1]|m]; [|discriminate]. cbn.
    destruct (read A v h1) as [y|m]; cbn; [|discriminate]. rewrite read_args_num.
    destruct (read_args A (fst (load_args A xs (empty_heap A))) h1) as [o|m]; cbn; [|discriminate]. intros E. injection E as _ <-. eauto.
  Qed.
  Lemma bind_default ps : forall vs defs p z k, skipn (List.length vs) ps = [p] -> assoc p defs = Some (z, k) ->
    bind_params A ps (vs ++ [VNum (n_const A z k)])%list defs = bind_params A ps vs defs.
  Proof.
    induction ps as [|q ps IH]; intros vs defs p z k E D.
    - destruct vs; discriminate.
    - destruct vs as [|v vs]; cbn in E |- *.
      + injection E as -> ->. rewrite D. reflexivity.
      + rewrite (IH vs defs p z k E D). reflexivity.
  Qed.
End Num.

(** the parameter number k is the last one and its default is 1 *)
Definition last_default (f : string) (k : nat) : bool :=
  match assoc f cc_prog with
  | Some fd => match skipn k (fparams fd) with
      | [p] => match assoc p (fdefaults fd) with Some (z, k) => Z.eqb z 1 && Nat.eqb k 0 | None => false end
      | _ => false
      end
  | None => false
  end.
Lemma pycall_default A f (xs : list (xval A)) r out : last_default f (List.length xs) = true ->
  pycall A cc_prog f (xs ++ [XNum (n_const A 1 0)])%list = Ok (r, (out ++ [XNum (n_const A 1 0)])%list) ->
  pycall A cc_prog f xs = Ok (r, out).
Proof.
  unfold last_default. intros L. unfold pycall. rewrite load_args_num.
  pose proof (load_args_length A xs (empty_heap A)) as LL. destruct (load_args A xs (empty_heap A)) as [vs h]. cbn [fst snd] in *.
  assert (RE : forall us, run A cc_prog 8 f us h = rbind (of_opt "NameError: function" (assoc f cc_prog)) (fun fd =>
    rbind (bind_params A (fparams fd) us (fdefaults fd)) (fun en => exec A (run A cc_prog 7) (fbody fd) en h))) by reflexivity.
  rewrite !RE. clear RE. destruct (assoc f cc_prog) as [fd|]; [|discriminate]. cbn [of_opt rbind].
  destruct (skipn (List.length xs) (fparams fd)) as [|p [|]] eqn:Es; try discriminate.
  destruct (assoc p (fdefaults fd)) as [[z k]|] eqn:Ea; [|discriminate]. apply andb_prop in L as [L1 L2].
  apply Z.eqb_eq in L1. apply Nat.eqb_eq in L2. subst z k. rewrite <- LL in Es. rewrite (bind_default A _ vs _ p 1%Z 0%nat Es Ea).
  destruct (bind_params A (fparams fd) vs (fdefaults fd)) as [en|m]; cbn [rbind]; [|intros E; discriminate E].
  destruct (exec A (run A cc_prog 7) (fbody fd) en h) as [[v h1]|m]; cbn [rbind]; [|intros E; discriminate E].
  destruct (read A v h1) as [y|m]; cbn [rbind]; [|intros E; discriminate E]. rewrite read_args_num.
  destruct (read_args A vs h1) as [o|m]; cbn [rbind]; [|intros E; discriminate E]. intros E.
  injection E as -> E. apply app_inj_tail in E as [-> _]. reflexivity.
Qed.

Section Row.
  Variable K : cring.
  Local Open Scope K_scope.
  Add Ring Kr_accr : (c_th K).
  Variables h s t l fac : K.
  Variable n : space -> nat.
  Variable Ts : list (tensor K).

  Notation T_ := (fun k => nth k Ts (tzeros K [])).
  Notation c_ := (factor_of h s t l).

  Lemma fdeg_W w : c_ w = W K h s t l fac (0%nat, fdeg w).
  Proof. unfold W, weight. destruct w; cbn; ring. Qed.

  Definition pvs (args : list (shape * factor)) (vs : list (pyval K)) : list (xval (pair_alg K)) :=
    map (fun p => pv K (c_ (snd (fst p))) (snd p)) (combine args vs).

  Lemma targs_ok (args : list (shape * factor)) (vs : list (pyval K)) : Forall2 (fits n) vs (map fst args) ->
    Forall2 (Rp K h s t l fac T_ (XTup (scaled_args h s t l args vs)) (XTup vs) (pdim n)) (targs 0 args) (pvs args vs).
  Proof.
    intros F.
    assert (B1 : forall j v, nth_error (scaled_args h s t l args vs) j = Some v -> get (XTup (scaled_args h s t l args vs)) [j] = Some v) by (intros; assumption).
    assert (B2 : forall j v, nth_error vs j = Some v -> get (XTup vs) [j] = Some v) by (intros; assumption).
    set (r1 := XTup (scaled_args h s t l args vs)) in *. set (r2 := XTup vs) in *. clearbody r1 r2.
    cut (forall i, (forall j v, nth_error (scaled_args h s t l args vs) j = Some v -> get r1 [(i + j)%nat] = Some v) ->
      (forall j v, nth_error vs j = Some v -> get r2 [(i + j)%nat] = Some v) ->
      Forall2 (Rp K h s t l fac T_ r1 r2 (pdim n)) (targs i args) (pvs args vs)).
    { intros Q. apply Q; auto. }
    clear B1 B2. revert vs F. induction args as [|[sh w] args IH]; intros vs F i B1 B2; inversion F as [|v ? vs' ? F1 F2]; subst.
    - constructor.
    - cbn [targs pvs combine map fst snd]. constructor.
      + specialize (B1 0%nat _ eq_refl). specialize (B2 0%nat _ eq_refl). rewrite Nat.add_0_r in B1, B2. cbn [fst snd] in B1.
        apply (targ_ok K h s t l fac T_ r1 r2 (pdim n) n (pdim_cls n)); auto. apply fdeg_W.
      + apply IH; auto.
        * intros j x Hj. replace (S i + j)%nat with (i + S j)%nat by lia. apply B1. exact Hj.
        * intros j x Hj. replace (S i + j)%nat with (i + S j)%nat by lia. apply B2. exact Hj.
  Qed.

  Definition pT (T : tensor K) : xval (pair_alg K) := @XArr (pair_alg K) (T, zeros_like T).
  Lemma taccs_gen T' r1 r2 accs : forall sps Us i, arrs accs = Some sps -> Forall2 (fits n) (map arr Us) accs ->
    (forall j U, nth_error Us j = Some U -> T' (i + j)%nat = U) ->
    Forall2 (Rp K h s t l fac T' r1 r2 (pdim n)) (taccs i sps) (map pT Us).
  Proof.
    induction accs as [|a accs IH]; intros sps Us i E F B; destruct Us as [|U Us]; inversion F as [|? ? ? ? F1 F2]; subst.
    - injection E as <-. constructor.
    - destruct a as [|sp| |]; try discriminate. cbn in E. destruct (arrs accs) as [sps'|] eqn:E'; [|discriminate]. injection E as <-.
      cbn [taccs map]. constructor.
      + constructor. unfold Ra. cbn. inversion F1 as [|? ? Hs| |]; subst. rewrite map_map.
        assert (Hs' : shp U = map (fun x => pdim n (pcls x)) sp) by (rewrite Hs; apply map_ext; intros; symmetry; apply pdim_cls).
        split; [exact Hs'|]. split; [exact Hs'|]. split; [|exact Logic.I]. intros idx _.
        specialize (B 0%nat U eq_refl). rewrite Nat.add_0_r in B. rewrite B. auto.
      + apply IH; auto. intros j V Hj. replace (S i + j)%nat with (i + S j)%nat by lia. apply B. exact Hj.
  Qed.

  Lemma acc_out_ok T' r1 r2 e : forall sps Us i o o' out accs, acc_out i e sps o = Some o' -> arrs accs = Some sps ->
    Forall2 (fits n) (map arr Us) accs -> Forall2 (Rp K h s t l fac T' r1 r2 (pdim n)) o out ->
    (forall j U, nth_error Us j = Some U -> T' (i + j)%nat = U) ->
    exists (ps : list (tensor K * tensor K)) out', out = (map (@XArr (pair_alg K)) ps ++ out')%list /\
      Forall2 (Rp K h s t l fac T' r1 r2 (pdim n)) o' out' /\
      Forall2 (fun U p => shp (fst p) = shp U /\ shp (snd p) = shp U /\ teq (plus (W K h s t l fac e) U (snd p)) (fst p)) Us ps.
  Proof.
    induction sps as [|sp sps IH]; intros Us i o o' out accs E EA F H B.
    - destruct accs as [|a accs]; [|destruct a; try discriminate; cbn in EA; destruct (arrs accs); discriminate].
      destruct Us; [|inversion F]. cbn in E. injection E as <-. exists [], out. auto.
    - destruct accs as [|a accs]; [discriminate|]. destruct a as [|sp'| |]; try discriminate. cbn in EA.
      destruct (arrs accs) as [sps'|] eqn:EA'; [|discriminate]. injection EA as -> ->.
      destruct Us as [|U Us]; [inversion F|]. inversion F as [|? ? ? ? F1 F2]; subst.
      destruct o as [|x o]; [discriminate|]. destruct x as [|tt| |]; try discriminate. cbn in E.
      destruct (ta_tag tt) as [|j [x|]|] eqn:Et; try discriminate.
      destruct (psh_eqb (ta_sp tt) (map pcls sp)) eqn:E1; [|discriminate]. destruct (Nat.eqb j i) eqn:E2; [|discriminate].
      destruct (deg_eqb x e) eqn:E3; [|discriminate]. cbn in E. apply RoundMain.psh_eqb_eq in E1. apply Nat.eqb_eq in E2. apply deg_eqb_eq in E3. subst.
      inversion H as [|? w ? out1 H1 H2]; subst. inversion H1 as [|? p H3| |]; subst.
      destruct (IH Us (S i) o o' out1 accs E EA' F2 H2) as (ps & out' & -> & Q1 & Q2).
      { intros k V Hk. replace (S i + k)%nat with (i + S k)%nat by lia. apply B. exact Hk. }
      exists (p :: ps), out'. split; [reflexivity|]. split; [exact Q1|]. constructor; [|exact Q2].
      destruct H3 as (S1 & S2 & R & _). inversion F1 as [|? ? Hs| |]; subst.
      assert (SU : shp U = map (pdim n) (ta_sp tt)).
      { rewrite Hs, E1, map_map. apply map_ext. intros. symmetry. apply pdim_cls. }
      rewrite SU. split; [exact S1|]. split; [exact S2|]. split; cbn; [congruence|].
      intros idx Hi. rewrite SU in Hi. specialize (R idx Hi). rewrite Et in R. cbn in R. rewrite R.
      specialize (B 0%nat U eq_refl). rewrite Nat.add_0_r in B. rewrite B. reflexivity.
  Qed.

  Lemma untouched_all_ok T' r1 r2 xs : forall ys ws ws', untouched_all xs ys = true ->
    Forall2 (Rp K h s t l fac T' r1 r2 (pdim n)) xs ws -> Forall2 (Rp K h s t l fac T' r1 r2 (pdim n)) ys ws' ->
    exists x, ws' = (ws ++ [XNum x])%list.
  Proof.
    induction xs as [|x xs IH]; intros ys ws ws' U A B.
    - destruct ys as [|[]  [|]]; try discriminate. inversion A; subst. inversion B as [|? ? ? ? B1 B2]; subst. inversion B2; subst. inversion B1; subst. eexists. reflexivity.
    - destruct ys as [|y ys]; [discriminate|]. cbn in U. apply andb_prop in U as [U1 U2].
      inversion A as [|? w ? ws0 A1 A2]; subst. inversion B as [|? w' ? ws0' B1 B2]; subst.
      destruct (IH ys ws0 ws0' U2 A2 B2) as (z & ->). exists z. cbn. f_equal. symmetry. eapply untouched_ok; eauto.
  Qed.

  Notation Rf := (Rx (pair_alg K) (conc_alg K) (fun a b => fst a = b) (fun a b => fst a = b)).
  Notation Rs := (Rx (pair_alg K) (conc_alg K) (fun a b => snd a = b) (fun a b => snd a = b)).
  Lemma pv_fst c : forall v, Rf (pv K c v) (scaled c v).
  Proof.
    induction v as [x|a|xs H|xs H] using xval_ind'; cbn.
    - constructor; reflexivity.
    - constructor; reflexivity.
    - constructor. induction H; cbn; constructor; auto.
    - constructor. induction H; cbn; constructor; auto.
  Qed.
  Lemma pv_snd c : forall v, Rs (pv K c v) v.
  Proof.
    induction v as [x|a|xs H|xs H] using xval_ind'; cbn.
    - constructor; reflexivity.
    - constructor; reflexivity.
    - constructor. induction H; cbn; constructor; auto.
    - constructor. induction H; cbn; constructor; auto.
  Qed.
  (** the projections are functions *)
  Lemma Rf_fun : forall v w w', Rf v w -> Rf v w' -> w = w'.
  Proof.
    induction v as [x|a|xs H|xs H] using xval_ind'; intros w w' A B; inversion A as [| |? va A'|? va A']; inversion B as [| |? vb B'|? vb B']; subst; auto; f_equal.
    - clear A B. revert va vb A' B'. induction H; intros a b A B; inversion A; inversion B; subst; f_equal; eauto.
    - clear A B. revert va vb A' B'. induction H as [|x xs Hx H IH]; intros a b A B; inversion A as [|? p ? ? [P1 P2]]; inversion B as [|? q ? ? [Q1 Q2]]; subst; auto.
      f_equal; eauto. destruct p, q; cbn in *; subst; f_equal; eauto.
  Qed.
  Lemma Rs_fun : forall v w w', Rs v w -> Rs v w' -> w = w'.
  Proof.
    induction v as [x|a|xs H|xs H] using xval_ind'; intros w w' A B; inversion A as [| |? va A'|? va A']; inversion B as [| |? vb B'|? vb B']; subst; auto; f_equal.
    - clear A B. revert va vb A' B'. induction H; intros a b A B; inversion A; inversion B; subst; f_equal; eauto.
    - clear A B. revert va vb A' B'. induction H as [|x xs Hx H IH]; intros a b A B; inversion A as [|? p ? ? [P1 P2]]; inversion B as [|? q ? ? [Q1 Q2]]; subst; auto.
      f_equal; eauto. destruct p, q; cbn in *; subst; f_equal; eauto.
  Qed.
  Lemma F2_fun {A B} (R : A -> B -> Prop) : (forall v w w', R v w -> R v w' -> w = w') -> forall vs ws ws', Forall2 R vs ws -> Forall2 R vs ws' -> ws = ws'.
  Proof. intros HR vs ws ws' H. revert ws'. induction H; intros ws' B0; inversion B0; subst; f_equal; eauto. Qed.

  Lemma row_run f accs args d e vs : row_good e (f, accs, args, d) = true ->
    Forall2 (fits n) (map arr Ts) accs -> Forall2 (fits n) vs (map fst args) ->
    exists ps : list (tensor K * tensor K),
      pycall (conc_alg K) cc_prog f (map arr (map zeros_like Ts) ++ vs ++ [numv 1])%list =
        Ok (XTup [], (map arr (map snd ps) ++ vs ++ [numv 1])%list) /\
      pycall (conc_alg K) cc_prog f (map arr Ts ++ scaled_args h s t l args vs ++ [numv fac])%list =
        Ok (XTup [], (map arr (map fst ps) ++ scaled_args h s t l args vs ++ [numv fac])%list) /\
      Forall2 (fun U p => shp (fst p) = shp U /\ shp (snd p) = shp U /\ teq (plus (pow fac e * weight h s t l d) U (snd p)) (fst p)) Ts ps.
  Proof.
    unfold row_good. intros G FT Fv. destruct (arrs accs) as [sps|] eqn:EA; [|discriminate].
    destruct (pycall tag_alg cc_prog f _) as [[r o]|] eqn:EP; [|discriminate].
    destruct r as [| |[|]|]; try discriminate. destruct (acc_out 0 (e, d) sps o) as [o'|] eqn:EO; [|discriminate].
    set (r1 := XTup (scaled_args h s t l args vs)) in *. set (r2 := XTup vs : pyval K) in *.
    assert (B : forall j U, nth_error Ts j = Some U -> T_ (0 + j)%nat = U) by (intros; apply nth_error_nth; assumption).
    pose proof (taccs_gen T_ r1 r2 accs sps Ts 0%nat EA FT B) as A1.
    pose proof (targs_ok args vs Fv) as A2.
    assert (A3 : Rp K h s t l fac T_ r1 r2 (pdim n) tfac (@XNum (pair_alg K) (fac, 1))).
    { constructor. cbn. unfold W, weight. cbn. ring. }
    assert (AA : Forall2 (Rp K h s t l fac T_ r1 r2 (pdim n)) (taccs 0 sps ++ targs 0 args ++ [tfac])%list
      (map pT Ts ++ pvs args vs ++ [@XNum (pair_alg K) (fac, 1)])%list).
    { apply Forall2_app; [exact A1|]. apply Forall2_app; [exact A2|]. constructor; [exact A3|constructor]. }
    destruct (sim_tag K h s t l fac T_ r1 r2 (pdim n) cc_prog f _ _ _ _ AA EP) as (r' & out & P & Rr & Ro).
    inversion Rr as [| |? ? Rr'|]; subst. inversion Rr'; subst. clear Rr Rr'.
    destruct (acc_out_ok T_ r1 r2 (e, d) sps Ts 0%nat o o' out accs EO EA FT Ro B) as (ps & out' & -> & Q1 & Q2).
    destruct (untouched_all_ok T_ r1 r2 _ _ _ _ G A2 Q1) as (x & ->).
    rewrite app_assoc in P.
    destruct (pycall_num (pair_alg K) _ _ _ _ _ _ P) as (o1 & EX). rewrite app_assoc in EX. apply app_inj_tail in EX as [_ EX]. injection EX as ->.
    rewrite <- app_assoc in P. exists ps. split; [|split; [|exact Q2]].
    - assert (Xv : Forall2 Rs (pvs args vs) vs).
      { clear -Fv. unfold pvs. revert vs Fv. induction args as [|[sh w] args' IH]; intros vs F; inversion F; subst; cbn; constructor; auto. apply pv_snd. }
      assert (X : Forall2 Rs (map pT Ts ++ pvs args vs ++ [@XNum (pair_alg K) (fac, 1)])%list (map arr (map zeros_like Ts) ++ vs ++ [numv 1])%list).
      { apply Forall2_app; [clear; induction Ts; cbn; constructor; auto; constructor; reflexivity|].
        apply Forall2_app; [exact Xv|repeat constructor]. }
      destruct (sim_snd K cc_prog f _ _ _ _ X P) as (r3 & o3 & E3 & R3 & F3).
      etransitivity; [exact E3|]. inversion R3 as [| |? ? R3'|]; subst. inversion R3'; subst. do 2 f_equal.
      eapply (F2_fun Rs Rs_fun); [exact F3|].
      apply Forall2_app; [clear; induction ps; cbn; constructor; auto; constructor; reflexivity|].
      apply Forall2_app; [exact Xv|repeat constructor].
    - assert (Xv : Forall2 Rf (pvs args vs) (scaled_args h s t l args vs)).
      { unfold pvs, scaled_args. induction (combine args vs); cbn; constructor; auto. apply pv_fst. }
      assert (X : Forall2 Rf (map pT Ts ++ pvs args vs ++ [@XNum (pair_alg K) (fac, 1)])%list (map arr Ts ++ scaled_args h s t l args vs ++ [numv fac])%list).
      { apply Forall2_app; [clear; induction Ts; cbn; constructor; auto; constructor; reflexivity|].
        apply Forall2_app; [exact Xv|repeat constructor]. }
      destruct (sim_fst K cc_prog f _ _ _ _ X P) as (r3 & o3 & E3 & R3 & F3).
      etransitivity; [exact E3|]. inversion R3 as [| |? ? R3'|]; subst. inversion R3'; subst. do 2 f_equal.
      eapply (F2_fun Rf Rf_fun); [exact F3|].
      apply Forall2_app; [clear; induction ps; cbn; constructor; auto; constructor; reflexivity|].
      apply Forall2_app; [exact Xv|repeat constructor].
  Qed.
End Row.

(** *** A row of the table *)
Section One.
  Variable K : cring.
  Add Ring Kr_acc1 : (c_th K).
  Lemma dyad_one : dyad (K := K) 1 0 = c1.
  Proof. unfold dyad. cbn. ring. Qed.
  Lemma lam_weight (h s t l : K) : cmul c1 (weight h s t l (Deg 1 0 0 1)) = cmul h l.
  Proof. unfold weight. cbn. ring. Qed.
End One.
Lemma teq_refl {K : cring} (T : tensor K) : teq T T.
Proof. split; auto. Qed.
Lemma xeq_refl' {K : cring} : forall v : pyval K, xeq v v.
Proof.
  induction v as [x|a|xs H|xs H] using xval_ind'.
  - constructor.
  - constructor. apply teq_refl.
  - constructor. induction H; constructor; auto.
  - constructor. induction H; constructor; auto.
Qed.
Lemma F2_len {A B} (R : A -> B -> Prop) l l' : Forall2 R l l' -> List.length l = List.length l'.
Proof. induction 1; cbn; congruence. Qed.
Lemma F2_refl {A} (R : A -> A -> Prop) : (forall x, R x x) -> forall l, Forall2 R l l.
Proof. intros HR l. induction l; constructor; auto. Qed.

Lemma contribution (K : cring) (n : space -> nat) f accs args d e (Ts : list (tensor K)) vs :
  row_good e (f, accs, args, d) = true -> last_default f (List.length accs + List.length args) = true ->
  Forall2 (fits n) (map arr Ts) accs -> Forall2 (fits n) vs (map fst args) ->
  exists Zs, Forall2 (fun T Z => shp Z = shp T) Ts Zs /\
    updates f (map zeros_like Ts) vs Zs /\
    (forall fac h s t l, updates f Ts (scaled_args h s t l args vs ++ [numv fac])%list
       (pluses (cmul (pow fac e) (weight h s t l d)) Ts Zs)).
Proof.
  intros G D FT Fv.
  destruct (row_run K c1 c1 c1 c1 c1 n Ts f accs args d e vs G FT Fv) as (ps & P1 & _ & F1).
  exists (map snd ps). split; [|split].
  - clear -F1. induction F1 as [|T p Ts ps (H1 & H2 & H3) F IH]; cbn; constructor; auto.
  - exists (map snd ps), vs. split; [|split; [apply F2_refl, teq_refl|apply F2_refl, xeq_refl']].
    apply (pycall_default (conc_alg K)).
    + rewrite app_length, !map_length. rewrite <- D. f_equal. f_equal.
      * apply F2_len in FT. rewrite map_length in FT. exact FT.
      * apply F2_len in Fv. rewrite map_length in Fv. exact Fv.
    + cbn [conc_alg n_const]. rewrite dyad_one, <- !app_assoc. exact P1.
  - intros fac h s t l.
    destruct (row_run K h s t l fac n Ts f accs args d e vs G FT Fv) as (ps' & P1' & P2 & F2).
    assert (E : map snd ps = map snd ps').
    { rewrite P1 in P1'. injection P1' as P1'. rewrite !app_assoc in P1'. apply app_inj_tail in P1' as [P1' _]. apply app_inv_tail in P1'.
      revert P1'. generalize (map snd ps) (map snd ps'). clear. induction l as [|x l IH]; intros [|y l'] E; try discriminate; [reflexivity|].
      injection E as -> E. f_equal. auto. }
    rewrite E. exists (map fst ps'), (scaled_args h s t l args vs ++ [numv fac])%list.
    split; [exact P2|]. split; [|apply F2_refl, xeq_refl'].
    clear -F2. unfold pluses. induction F2 as [|T p Ts ps (H1 & H2 & H3) F IH]; cbn; constructor; auto.
Qed.

Lemma defaults_good : forallb (fun r => last_default (fst (fst (fst r))) (List.length (snd (fst (fst r))) + List.length (snd (fst r)))) contributions = true.
Proof. vm_compute. reflexivity. Qed.

Theorem contributions_scale (K : cring) (n : space -> nat) f accs args d (Ts : list (tensor K)) vs :
  In (f, accs, args, d) contributions ->
  Forall2 (fits n) (map arr Ts) accs -> Forall2 (fits n) vs (map fst args) ->
  exists Zs, Forall2 (fun T Z => shp Z = shp T) Ts Zs /\
    updates f (map zeros_like Ts) vs Zs /\
    (forall fac h s t l, updates f Ts (scaled_args h s t l args vs ++ [numv fac])%list
       (pluses (cmul fac (weight h s t l d)) Ts Zs)).
Proof.
  intros HI FT Fv. pose proof rows_good as G. rewrite forallb_forall in G. specialize (G _ HI).
  pose proof defaults_good as D. rewrite forallb_forall in D. specialize (D _ HI). cbn [fst snd] in D.
  destruct (contribution K n f accs args d 1 Ts vs G D FT Fv) as (Zs & H1 & H2 & H3). exists Zs. split; [exact H1|]. split; [exact H2|].
  intros fac h s t l. specialize (H3 fac h s t l). cbn [pow] in H3.
  replace (cmul fac (weight h s t l d)) with (cmul (cmul fac c1) (weight h s t l d)); [exact H3|].
  f_equal. generalize (c_th K). intros R. destruct R. rewrite Rmul_comm. apply Rmul_1_l.
Qed.

Definition lambda_stanton_row : string * list shape * list (shape * factor) * degree :=
  ("_Lambda_Stanton", [L1_; L2_], [H_ F_; H_ I_; Y_ L1_; Y_ L2_; N_ T1_; N_ T2_], Deg 1 0 0 1).
Lemma lambda_stanton_good : row_good 0 lambda_stanton_row = true.
Proof. vm_compute. reflexivity. Qed.

Theorem lambda_stanton_adds (K : cring) (n : space -> nat) (L1 L2 : tensor K) vs :
  let args := [H_ F_; H_ I_; Y_ L1_; Y_ L2_; N_ T1_; N_ T2_] in
  Forall2 (fits n) [arr L1; arr L2] [L1_; L2_] -> Forall2 (fits n) vs (map fst args) ->
  exists Z1 Z2, shp Z1 = shp L1 /\ shp Z2 = shp L2 /\
    updates "_Lambda_Stanton" [zeros_like L1; zeros_like L2] vs [Z1; Z2] /\
    (forall fac h s t l, updates "_Lambda_Stanton" [L1; L2] (scaled_args h s t l args vs ++ [numv fac])%list
       [plus (cmul h l) L1 Z1; plus (cmul h l) L2 Z2]).
Proof.
  intros args FT Fv.
  destruct (contribution K n "_Lambda_Stanton" [L1_; L2_] args (Deg 1 0 0 1) 0 [L1; L2] vs lambda_stanton_good eq_refl FT Fv) as (Zs & H1 & H2 & H3).
  inversion H1 as [|? Z1 ? Zs' S1 H1']; subst. inversion H1' as [|? Z2 ? Zs'' S2 H1'']; subst. inversion H1''; subst.
  exists Z1, Z2. split; [exact S1|]. split; [exact S2|]. split; [exact H2|].
  intros fac h s t l. specialize (H3 fac h s t l). cbn [pow] in H3. rewrite (lam_weight K h s t l) in H3. exact H3.
Qed.
