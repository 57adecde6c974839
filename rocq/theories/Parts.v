(** Contribution functions run symbolically: derivatives (C87) and sums. *)
From Coq Require Import List Bool Arith ZArith Lia Ring String.
From Verif Require Import Scalar Tensor PySyntax PySem PySim Sym SymSound Norm CCProg CCSpec Engine SOCtx Tools Dual CCSpin CCDeriv AccSpec PartsSpec.
Import ListNotations.
Local Open Scope string_scope.

Definition acc_chk (f : string) (sh : list cls) (args : list sval) : option stens :=
  match pycall sym_alg cc_prog f (sarr (s_zero sh) :: args) with
  | Ok (XTup [], XArr a :: out) => if list_eqb sval_eqb args out then Some a else None
  | _ => None
  end.
Lemma acc_sound (K : cring) dim rho f sh args a vs : acc_chk f sh args = Some a -> Forall2 (Rval K dim rho) args vs ->
  exists Z, updates f [tzeros K (map dim sh)] vs [Z] /\ Rarr K dim rho a Z.
Proof.
  unfold acc_chk. intros H Hv.
  destruct (pycall sym_alg cc_prog f _) as [[r out]|] eqn:E; [|discriminate].
  destruct r as [| |[|]|]; try discriminate. destruct out as [|[|b| |] out]; try discriminate.
  destruct (list_eqb sval_eqb args out) eqn:E1; [|discriminate]. injection H as ->.
  apply list_eqb_eq in E1; [|intros x y; apply sval_eqb_eq]. subst out.
  assert (Ha : Forall2 (Rval K dim rho) (sarr (s_zero sh) :: args) (arr (tzeros K (map dim sh)) :: vs)).
  { constructor; [apply R_zero|exact Hv]. }
  destruct (pycall_sound K dim rho _ _ _ _ _ _ Ha E) as (r' & out' & E2 & Hr & Ho).
  inversion Hr as [| |? ? Hr'|]; subst. inversion Hr'; subst.
  inversion Ho as [|? w ? vs' Hw Hvs]; subst. inversion Hw as [|? Z HZ| |]; subst.
  exists Z. split; [|exact HZ]. exists [Z], vs'. split; [exact E2|]. split.
  - constructor; [split; auto|constructor].
  - eapply Rval_fun_list; eauto.
Qed.

Definition s_in (i : input) : sval := match i with iF => sF | iI => sI | iT1 => sT1 | iT2 => sT2 | iL1 => sL1 | iL2 => sL2 end.
Definition T_cls (v : level) : list cls := match v with singles => [cV; cO] | doubles => [cV; cV; cO; cO] end.
Definition L_cls (v : level) : list cls := match v with singles => [cO; cV] | doubles => [cO; cO; cV; cV] end.
Definition L_sym (v : level) : stens := match v with singles => s_input 16 [cO; cV] | doubles => s_input 17 [cO; cO; cV; cV] end.
Definition dT_sym (v : level) : stens := match v with singles => s_input 19 [cV; cO] | doubles => s_input 20 [cV; cV; cO; cO] end.
Definition vTl (v : level) (t : positive) : option positive :=
  match v, t with singles, 14%positive => Some 19%positive | doubles, 15%positive => Some 20%positive | _, _ => None end.
Definition s_pair (v : level) (a b : stens) : list mono :=
  match v with singles => s_dot q2 a b | doubles => quart (s_dot q4 a b) end.
Definition part_lhs (v w : level) (s : stens) : list mono := s_pair w (L_sym w) (STens (s_sh s) (d_poly (vTl v) (s_ms s))).
Definition part_rhs (v : level) (z : stens) : list mono := s_pair v z (dT_sym v).

Definition part_run (r : string * list input * level * (string * list input * level)) : option (stens * stens) :=
  let '(g, gargs, v, (f, fargs, w)) := r in
  match acc_chk g (L_cls v) (map s_in gargs), acc_chk f (T_cls w) (map s_in fargs) with
  | Some z, Some s => if cls_list_eqb (s_sh z) (L_cls v) && cls_list_eqb (s_sh s) (T_cls w) then Some (z, s) else None
  | _, _ => None
  end.
Definition part_cert r : list cert :=
  match part_run r with Some (z, s) => find_neq d_tb (part_lhs (snd (fst r)) (snd (snd r)) s) (part_rhs (snd (fst r)) z) | None => [] end.
Definition part_chk r c : bool :=
  match part_run r with Some (z, s) => neq_chk d_tb (part_lhs (snd (fst r)) (snd (snd r)) s) (part_rhs (snd (fst r)) z) c | None => false end.
Definition part_certs := Eval vm_compute in map part_cert lambda_parts.
Lemma parts_ok : forallb (fun p => part_chk (fst p) (snd p)) (combine lambda_parts part_certs) = true.
Proof. vm_compute. reflexivity. Qed.

Lemma in_combine_len {A B} (l : list A) : forall (cs : list B) x, List.length cs = List.length l -> In x l ->
  exists c, In (x, c) (combine l cs).
Proof.
  induction l as [|a l IH]; intros [|c cs] x E H; try discriminate; [destruct H|].
  destruct H as [->|H]; simpl; [eauto|]. destruct (IH cs x) as (c' & Hc); auto. eauto.
Qed.

Section Derivatives.
  Variable K : cring.
  Local Open Scope K_scope.
  Variables no nv : nat.
  Variable x : inputs K.
  Variable v : level.
  Variable dT : tensor K.
  Hypothesis Hx : inputs_ok no nv x.
  Hypothesis Hd : direction_ok no nv v dT.
  Notation dim := (so_dim no nv).
  Notation DK := (DualK K).
  Let d1 := match v with singles => dT | doubles => tzeros K [nv; no] end.
  Let d2 := match v with singles => tzeros K [nv; nv; no; no] | doubles => dT end.
  Let exd (t : positive) : list nat -> K :=
    match t with 19 => dat d1 | 20 => dat d2 | _ => fun _ => c0 end%positive.
  Let rho := so_rho K (in_F x) (in_I x) (in_T1 x) (in_T2 x) (in_L1 x) (in_L2 x) c0 exd.
  Let y := moved x v dT.
  Let rhoD := so_rho DK (in_F y) (in_I y) (in_T1 y) (in_T2 y) (in_L1 y) (in_L2 y) c0 (fun t => rho_d K rho (vTl v) t).

  Lemma rhoD_eq1 t idx : rhoD t idx = rho_d K rho (vTl v) t idx.
  Proof.
    unfold rhoD, rho, y, d1, d2, exd, moved. clear Hd. destruct v;
      do 5 (destruct t as [t|t|]; try reflexivity).
  Qed.
  Lemma rho_sym1 : sym_ok K dim rho d_tb.
  Proof.
    destruct Hx as (HF & HI & H1 & H2 & HL1 & HL2). apply rho_sym; auto.
    clear - Hd. destruct v; [apply zeroT2_ok|exact Hd].
  Qed.
  Lemma given_R i : Rval K dim rho (s_in i) (given x i).
  Proof.
    destruct Hx as (HF & HI & H1 & H2 & HL1 & HL2). unfold rho. destruct i; simpl; auto with soctx.
  Qed.
  Lemma moved_R i : Rval DK dim rhoD (s_in i) (given y i).
  Proof.
    destruct Hx as (HF & HI & H1 & H2 & HL1 & HL2). unfold rhoD. unfold y in *.
    assert (X1 : t1_ok no nv (in_T1 (moved x v dT))) by (clear - H1 Hd; destruct v; exact H1).
    assert (X2 : shp (in_T2 (moved x v dT)) = [nv; nv; no; no]) by (clear - H2 Hd; destruct v; exact (proj1 H2)).
    destruct i; simpl given; simpl s_in.
    - apply R_F. simpl. auto with soctx.
    - apply R_I. simpl. auto with soctx.
    - apply R_T1. exact X1.
    - apply R_T2. exact X2.
    - apply R_L1. exact HL1.
    - apply R_L2. exact (proj1 HL2).
  Qed.
  Lemma givens (is : list input) : Forall2 (Rval K dim rho) (map s_in is) (map (given x) is).
  Proof. induction is; simpl; constructor; auto using given_R. Qed.
  Lemma moveds (is : list input) : Forall2 (Rval DK dim rhoD) (map s_in is) (map (given y) is).
  Proof. induction is; simpl; constructor; auto using moved_R. Qed.

  Lemma s_pair_sound w a b (t u : tensor K) : Rarr K dim rho a t -> Rarr K dim rho b u ->
    s_sh a = L_cls w -> s_sh b = T_cls w -> Rnum K dim rho (s_pair w a b) (pairing no nv w (dat t) (dat u)).
  Proof.
    destruct w; simpl; intros Ha Hb Ea Eb.
    - exact (dot2_sound K dim rho a b t u cO cV Ha Hb Ea Eb).
    - apply quart_sound. exact (dot4_sound K dim rho a b t u cO cO cV cV Ha Hb Ea Eb).
  Qed.
  Lemma L_sym_R w : Rarr K dim rho (L_sym w) (L_of x w).
  Proof.
    destruct Hx as (HF & HI & H1 & H2 & HL1 & HL2).
    destruct w; apply input_sound; auto. exact (proj1 HL2).
  Qed.
  Lemma dT_sym_R : Rarr K dim rho (dT_sym v) dT.
  Proof.
    assert (A : v = singles -> forall idx, rho 19%positive idx = dat dT idx).
    { intros E idx. unfold rho, exd, d1. cbn. rewrite E. reflexivity. }
    assert (B : v = doubles -> forall idx, rho 20%positive idx = dat dT idx).
    { intros E idx. unfold rho, exd, d2. cbn. rewrite E. reflexivity. }
    revert A B. generalize rho. clear - Hd. intros r A B.
    destruct v; apply input_sound; auto. exact (proj1 Hd).
  Qed.

  Lemma no_L_eq w : tzeros K (map dim (L_cls w)) = no_L K no nv w. Proof. destruct w; reflexivity. Qed.
  Lemma no_T_eq w : tzeros DK (map dim (T_cls w)) = no_T DK no nv w. Proof. destruct w; reflexivity. Qed.

  Theorem lambda_part g gargs f fargs w : In (g, gargs, v, (f, fargs, w)) lambda_parts ->
    exists Z S, updates g [no_L K no nv v] (map (given x) gargs) [Z] /\
      updates (K := DK) f [no_T DK no nv w] (map (given y) fargs) [S] /\
      pairing no nv w (dat (L_of x w)) (fun i => snd (dat S i)) = pairing no nv v (dat Z) (dat dT).
  Proof.
    intros Hi. pose proof parts_ok as HP.
    destruct (in_combine_len lambda_parts part_certs _ eq_refl Hi) as (c & Hc).
    rewrite forallb_forall in HP. specialize (HP _ Hc). revert HP. cbn [fst snd].
    unfold part_chk, part_run. cbn [fst snd].
    destruct (acc_chk g _ _) as [z|] eqn:Ez; [|discriminate].
    destruct (acc_chk f _ _) as [s|] eqn:Es; [|discriminate].
    destruct (cls_list_eqb (s_sh z) _) eqn:E1; [|discriminate].
    destruct (cls_list_eqb (s_sh s) _) eqn:E2; [|discriminate]. cbn [andb]. intros HP.
    apply cls_list_eqb_eq in E1, E2.
    destruct (acc_sound K dim rho _ _ _ _ _ Ez (givens gargs)) as (Z & HZ & RZ). rewrite no_L_eq in HZ.
    destruct (acc_sound DK dim rhoD _ _ _ _ _ Es (moveds fargs)) as (S & HS & RS). rewrite no_T_eq in HS.
    exists Z, S. split; [exact HZ|]. split; [exact HS|].
    apply (Rarr_rho_ext _ _ _ (rho_d K rho (vTl v)) _ _ rhoD_eq1) in RS. apply snd_arr in RS.
    eapply (neq_sound K dim rho d_tb _ _ c _ _ HP rho_sym1).
    - unfold part_lhs. exact (s_pair_sound w _ _ _ _ (L_sym_R w) RS ltac:(destruct w; reflexivity) E2).
    - unfold part_rhs. exact (s_pair_sound v _ _ _ _ RZ dT_sym_R E1 ltac:(destruct v; reflexivity)).
  Qed.
End Derivatives.

(** The contribution that is no derivative of a contribution: that of the energy. *)
Definition ls_ts_run := acc_chk "_LS_TS" [cO; cV] [sI; sT1].
Definition ls_ts := Eval vm_compute in match ls_ts_run with Some z => z | None => s_zero [] end.
Lemma ls_ts_eq : ls_ts_run = Some ls_ts. Proof. vm_compute. reflexivity. Qed.
Definition en_lhs := d_poly (vTl singles) (get_num (run_s "cc_energy" aE)).
Definition en_rhs := (s_dot q2 (s_input 2 [cO; cV]) (s_input 19 [cV; cO]) ++ s_dot q2 ls_ts (s_input 19 [cV; cO]))%list.
Definition en_cert := Eval vm_compute in find_neq d_tb en_lhs en_rhs.
Lemma en_ok : neq_chk d_tb en_lhs en_rhs en_cert = true.
Proof. vm_compute. reflexivity. Qed.

Section EnergyPart.
  Variable K : cring.
  Local Open Scope K_scope.
  Variables no nv : nat.
  Variable x : inputs K.
  Variable dT : tensor K.
  Hypothesis Hx : inputs_ok no nv x.
  Hypothesis Hd : t1_ok no nv dT.
  Theorem energy_part : exists Z e,
    updates "_LS_TS" [tzeros K [no; nv]] [py_two_e (in_I x); arr (in_T1 x)] [Z] /\
    returns (K := DualK K) "cc_energy" [arr (perturbed (in_T1 x) dT); arr (lift (in_T2 x)); arr (lift (ov (in_F x))); arr (lift (oovv (in_I x)))]
      (numv e) /\
    snd e = dot2 no nv (dat (ov (in_F x))) (dat dT) + dot2 no nv (dat Z) (dat dT).
  Proof.
    pose proof (given_R K no nv x singles dT Hx) as HR.
    pose proof (rho_sym1 K no nv x singles dT Hx Hd) as HT.
    pose proof (rhoD_eq1 K no nv x singles dT) as HE.
    pose proof (dT_sym_R K no nv x singles dT Hd) as Rd.
    set (rho := so_rho K _ _ _ _ _ _ _ _) in HR, HT, HE, Rd.
    set (rhoD := so_rho (DualK K) _ _ _ _ _ _ _ _) in HE.
    destruct Hx as (HF & HI & H1 & H2 & HL1 & HL2).
    pose proof en_ok as E2. pose proof ls_ts_eq as E. unfold ls_ts_run in E.
    destruct (acc_sound K (so_dim no nv) rho "_LS_TS" [cO; cV] [sI; sT1] ls_ts [py_two_e (in_I x); arr (in_T1 x)] E) as (Z & HZ & RZ).
    { constructor; [exact (HR iI)|]. constructor; [exact (HR iT1)|constructor]. }
    pose proof energy_ok as Hen. unfold energy_chk in Hen. apply andb_prop in Hen. destruct Hen as [E3 _].
    destruct (run_num_sound (DualK K) (so_dim no nv) rhoD _ _
      [arr (perturbed (in_T1 x) dT); arr (lift (in_T2 x)); arr (lift (ov (in_F x))); arr (lift (oovv (in_I x)))] E3)
      as (e & Re & Ne).
    { constructor; [apply R_inp; [exact H1|reflexivity]|].
      constructor; [apply R_inp; [exact (proj1 H2)|reflexivity]|].
      constructor; [apply R_inp; [exact (proj1 (proj2 HF))|reflexivity]|].
      constructor; [|constructor]. apply R_inp; [|reflexivity]. destruct HI as [(_ & _ & _ & _ & _ & HI & _) _]. exact HI. }
    exists Z, e. split; [exact HZ|]. split; [exact Re|].
    apply (Rnum_rho_ext _ _ _ (rho_d K rho (vTl singles)) _ _ HE) in Ne. apply snd_num in Ne.
    eapply (neq_sound K (so_dim no nv) rho d_tb _ _ _ _ _ E2 HT).
    - exact Ne.
    - unfold en_rhs. apply Rnum_add.
      + refine (dot2_sound K (so_dim no nv) rho (s_input 2 [cO; cV]) (s_input 19 [cV; cO]) _ _ cO cV _ Rd eq_refl eq_refl).
        apply input_sound; [exact (proj1 (proj2 HF))|reflexivity].
      + exact (dot2_sound K (so_dim no nv) rho ls_ts (s_input 19 [cV; cO]) _ _ cO cV RZ Rd eq_refl eq_refl).
  Qed.
End EnergyPart.
