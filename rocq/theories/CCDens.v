(** The reduced density matrices of CCSD against Fock space. *)
From Coq Require Import List Bool Arith ZArith Lia Ring String.
From Verif Require Import Scalar CISpec CIFacts CIFock CIMatrix CIVec CIExpSpec CIExp Tensor PySyntax PySem PySim Sym SymSound
  Norm CCProg CCSpec Engine Tools SOCtx CCEquiv CCDeriv CCFockSpec FockStates FockExp FockT WickSym FockH CCFock CCDensSpec.
Import ListNotations.
Local Open Scope string_scope.
Local Open Scope list_scope.

(** symbolic operators with external indices: creation?, class, index *)
Notation xop := (bool * cls * nat)%type.
Definition x_ann (o : xop) : bool := Bool.eqb (Pos.eqb (snd (fst o)) 1) (fst (fst o)).
Definition x_prod (w : list xop) : list xop := filter (fun o => negb (x_ann o)) w ++ filter x_ann w.
Fixpoint x_sign (w : list xop) : bool :=
  match w with
  | [] => false
  | o :: w' => xorb (x_ann o && Nat.odd (List.length (filter (fun x => negb (x_ann x)) w'))) (x_sign w')
  end.
Definition x_word (sh : list cls) : list xop :=
  match sh with
  | [p; q] => [(true, q, 1); (false, p, 0)]
  | [p; q; r; s] => [(true, r, 2); (true, s, 3); (false, q, 1); (false, p, 0)]
  | _ => []
  end%nat.
Definition v_cls (v : bool) : cls := if v then cV else cO.

(** c + Lambda; L1 is tensor 16, L2 tensor 17 *)
Definition lam (c : mono) : list st :=
  [(c, []);
   (Mono 1 0 [cO; cV] [(16%positive, [D 0; D 1])], [(true, cO, D 0); (false, cV, D 1)]);
   (Mono 1 2 [cO; cO; cV; cV] [(17%positive, [D 0; D 1; D 2; D 3])],
     [(true, cO, D 0); (true, cO, D 1); (false, cV, D 3); (false, cV, D 2)])].
Definition c_fac : mono := Mono 1 0 [] [(18%positive, [])].
Definition c_one : mono := Mono 1 0 [] [].

Definition sg_ms (s : bool) : list mono := [Mono (if s then -1 else 1) 0 [] []].
Definition rd (c : mono) (sh : list cls) : option (list mono) :=
  vevs sh (sts_mul (plain_ms (sg_ms (x_sign (x_word sh)))) (sts_mul (lam c) (tl_word (x_prod (x_word sh))))).

Section DensSound.
  Variable K : cring.
  Local Open Scope K_scope.
  Add Ring KrCD : (c_th K).
  Variables no nv : nat.
  Variable rho : positive -> list nat -> K.
  Notation dim := (wdim no nv).
  Notation dens := (den_sts K no nv rho).
  Notation ref := (aufbau (no + nv) no).
  Definition rl1 (i a : nat) : K := rho 16%positive [i; a].
  Definition rl2 (i j a b : nat) : K := rho 17%positive [i; j; a; b].

  Lemma lam_ok r c : m_ok r c -> Forall (st_ok r) (lam c).
  Proof.
    intros Hc. unfold lam. apply Forall_cons; [split; [exact Hc|constructor]|].
    repeat apply Forall_cons; try apply Forall_nil;
      (split; [unfold m_ok; cbn; repeat (constructor; cbn; try lia)|cbn; repeat (constructor; cbn; try lia)]).
  Qed.
  Lemma lam_sound c xs psi t :
    dens xs (lam c) psi t = eos (lambda_op no nv (den K dim rho xs [c]) rl1 rl2) psi t.
  Proof.
    unfold lam. rewrite !dens_cons, dens_nil.
    unfold lambda_op, eos. rewrite SL_cons, SL_app. cbn [fst snd eow].
    unfold den_st at 1. cbn [fst snd map eow]. unfold den. cbn [map lsum]. unfold den_mono.
    unfold den_st, conc, rl1, rl2. cbn [map fst snd m_z m_k m_dm m_fs].
    rewrite dyad10, dyad12. rewrite sumL_mul_r.
    match goal with |- ?A * (?B * ?P) + (1 * ?X + (quarter * ?Y + 0)) = _ + (?X' + ?Y') =>
      replace X' with X; [replace Y' with (quarter * Y); [unfold fprod|]|] end.
    - match goal with |- ?d * (?s * ?p) + (1 * ?x + (?q * ?y + 0)) = _ =>
        change (d * (s * p) + (1 * x + (q * y + 0)) = (d * s + 0) * p + (x + q * y)); generalize d s p x q y end.
      intros. ring.
    - rewrite SL_fm_seq. cbn [sumL wdim cO cV]. rewrite <- sumN_mul_l. apply sumN_ext. intros i _.
      rewrite SL_fm_seq, <- sumN_mul_l. apply sumN_ext. intros j _.
      rewrite SL_fm_seq, <- sumN_mul_l. apply sumN_ext. intros a _.
      rewrite SL_map_seq, <- sumN_mul_l. apply sumN_ext. intros b _.
      unfold fprod, den_fac. cbn [map prodK look nth mkop orb fst snd m_fs cO cV]. ring.
    - rewrite SL_fm_seq. cbn [sumL wdim cO cV]. apply sumN_ext. intros i _.
      rewrite SL_map_seq. apply sumN_ext. intros a _.
      unfold fprod, den_fac. cbn [map prodK look nth mkop orb fst snd m_fs cO cV]. ring.
  Qed.

  Lemma sg_den xs s : den K dim rho xs (sg_ms s) = csgn s.
  Proof.
    unfold sg_ms, den, den_mono. cbn [map lsum m_z m_k m_dm m_fs prodK sumL].
    destruct s; rewrite ?dyad10, ?dyadm10; cbn [CISpec.sgn]; ring.
  Qed.

  (** normal ordering of concrete and of symbolic operators *)
  Lemma w_op_ann xs o : w_in no nv xs o -> annihilates no (w_op no xs o) = x_ann o.
  Proof.
    destruct o as [[b c] j]. intros ([-> | ->] & _ & L); destruct b; cbn [w_op mkop orb annihilates cO cV wdim] in *;
      unfold x_ann; cbn [fst snd Pos.eqb Bool.eqb];
      first [apply Nat.ltb_lt; lia | apply Nat.ltb_ge; lia | apply Nat.leb_le; lia | apply Nat.leb_gt; lia].
  Qed.
  Lemma filter_w_op xs w (q : bool -> bool) : Forall (w_in no nv xs) w ->
    filter (fun o => q (annihilates no o)) (map (w_op no xs) w) = map (w_op no xs) (filter (fun o => q (x_ann o)) w).
  Proof.
    induction 1 as [|o w Ho Hw IH]; [reflexivity|]. cbn [map filter]. rewrite (w_op_ann xs o Ho).
    destruct (q (x_ann o)); cbn [map]; rewrite IH; reflexivity.
  Qed.
  Lemma nprod_w xs w : Forall (w_in no nv xs) w -> nprod no (map (w_op no xs) w) = map (w_op no xs) (x_prod w).
  Proof.
    intros H. unfold nprod, x_prod. rewrite map_app. f_equal.
    - exact (filter_w_op xs w negb H).
    - exact (filter_w_op xs w (fun b => b) H).
  Qed.
  Lemma nsign_w xs w : Forall (w_in no nv xs) w -> nsign no (map (w_op no xs) w) = x_sign w.
  Proof.
    induction 1 as [|o w Ho Hw IH]; [reflexivity|]. cbn [map nsign x_sign]. rewrite (w_op_ann xs o Ho), IH.
    rewrite (filter_w_op xs w negb Hw), map_length. reflexivity.
  Qed.
  Lemma x_prod_in (P : xop -> Prop) w : Forall P w -> Forall P (x_prod w).
  Proof.
    intros H. unfold x_prod. rewrite Forall_forall in *. intros o Ho. apply H.
    apply in_app_or in Ho as [Ho|Ho]; apply filter_In in Ho; tauto.
  Qed.

  Lemma rd_sound c sh xs ms : m_ok (List.length xs) c -> Forall (w_in no nv xs) (x_word sh) ->
    inrange (map dim sh) xs -> rd c sh = Some ms ->
    csgn (nsign no (map (w_op no xs) (x_word sh))) *
      eos (lambda_op no nv (den K dim rho xs [c]) rl1 rl2)
        (tildew K no nv (rt1 K rho) (rt2 K rho) (nprod no (map (w_op no xs) (x_word sh))) (kd ref)) ref
    = den K dim rho xs ms.
  Proof.
    intros Oc W Hx P. rewrite <- (vevs_sound K no nv rho sh xs _ _ Hx P).
    assert (W' : Forall (w_in no nv xs) (x_prod (x_word sh))) by (apply x_prod_in, W).
    assert (Ow : Forall (st_ok (List.length xs)) (tl_word (x_prod (x_word sh)))).
    { apply tl_word_ok. eapply Forall_impl; [|exact W']. intros [[b e] j]. unfold w_in. tauto. }
    rewrite den_sts_mul; [|apply plain_ok; repeat constructor|apply sts_mul_ok; [apply lam_ok, Oc|exact Ow]].
    rewrite dens_plain, sg_den, nsign_w, nprod_w by exact W. f_equal.
    rewrite den_sts_mul; [|apply lam_ok, Oc|exact Ow]. rewrite lam_sound.
    symmetry. apply eos_ext. intros u _. apply tl_word_sound, W'.
  Qed.
End DensSound.

(** the functions that return the density matrices and the spaces of their indices *)
Definition plain_blocks : list (string * list bool) :=
  [("ccsd_1rdm_ba", [true; true]); ("ccsd_1rdm_ji", [false; false]);
   ("ccsd_2rdm_cdab", [true; true; true; true]); ("ccsd_2rdm_ciab", [true; false; true; true]);
   ("ccsd_2rdm_bcai", [true; true; true; false]); ("ccsd_2rdm_bjai", [true; false; true; false]);
   ("ccsd_2rdm_jkai", [false; false; true; false]); ("ccsd_2rdm_kaij", [false; true; false; false]);
   ("ccsd_2rdm_klij", [false; false; false; false])].
Definition fac_blocks : list (string * list bool) :=
  [("ccsd_1rdm_ai", [true; false]); ("ccsd_2rdm_abij", [true; true; false; false])].

Definition sh_of (vs : list bool) : list cls := map v_cls vs.
Definition rd_chk (args : list sval) (c : mono) (fv : string * list bool) (cs : list cert) : bool :=
  let sh := sh_of (snd fv) in
  let s := get_arr (run_s (fst fv) args) in
  (Nat.eqb (List.length sh) 2 || Nat.eqb (List.length sh) 4) &&
  run_form FArr (fst fv) args && cls_list_eqb (s_sh s) sh && is_some (rd c sh) &&
  forallb (m_okb (List.length sh)) (got_ms (rd c sh)) &&
  check so_tb sh (diff (got_ms (rd c sh)) (s_ms s)) cs.
Definition rd_find (args : list sval) (c : mono) (fv : string * list bool) : list cert :=
  let sh := sh_of (snd fv) in
  find_certs so_tb sh (diff (got_ms (rd c sh)) (s_ms (get_arr (run_s (fst fv) args)))).
Fixpoint all_chk (args : list sval) (c : mono) (l : list (string * list bool)) (cs : list (list cert)) : bool :=
  match l, cs with
  | [], [] => true
  | fv :: l', x :: cs' => if rd_chk args c fv x then all_chk args c l' cs' else false
  | _, _ => false
  end.
Lemma all_chk_in args c l : forall cs, all_chk args c l cs = true -> forall fv, In fv l -> exists x, rd_chk args c fv x = true.
Proof.
  induction l as [|fv0 l IH]; intros [|x cs]; simpl; try discriminate; [tauto|].
  destruct (rd_chk args c fv0 x) eqn:E; [|discriminate]. intros H fv [<-|Hin]; eauto.
Qed.

Definition d1_cs := Eval vm_compute in map (rd_find aR c_fac) plain_blocks.
Definition d2_cs := Eval vm_compute in map (rd_find (aR ++ [sFac]) c_fac) fac_blocks.
Definition d3_cs := Eval vm_compute in map (rd_find aR c_one) fac_blocks.
Lemma d1_chk : all_chk aR c_fac plain_blocks d1_cs = true.
Proof. vm_compute. reflexivity. Qed.
Lemma d2_chk : all_chk (aR ++ [sFac]) c_fac fac_blocks d2_cs = true.
Proof. vm_compute. reflexivity. Qed.
Lemma d3_chk : all_chk aR c_one fac_blocks d3_cs = true.
Proof. vm_compute. reflexivity. Qed.
(** the two blocks without a function of their own are the Lambda amplitudes *)
Definition bare_ms1 : list mono := [Mono 1 0 [] [(16%positive, [X 0; X 1])]].
Definition bare_ms2 : list mono := [Mono 1 0 [] [(17%positive, [X 0; X 1; X 2; X 3])]].
Definition b1_cs := Eval vm_compute in find_certs so_tb [cO; cV] (diff (got_ms (rd c_fac [cO; cV])) bare_ms1).
Definition b2_cs := Eval vm_compute in find_certs so_tb [cO; cO; cV; cV] (diff (got_ms (rd c_fac [cO; cO; cV; cV])) bare_ms2).
Definition bare_chk (sh : list cls) (ms : list mono) (cs : list cert) : bool :=
  is_some (rd c_fac sh) && forallb (m_okb (List.length sh)) (got_ms (rd c_fac sh)) && check so_tb sh (diff (got_ms (rd c_fac sh)) ms) cs.
Lemma bare_chk1 : bare_chk [cO; cV] bare_ms1 b1_cs = true.
Proof. vm_compute. reflexivity. Qed.
Lemma bare_chk2 : bare_chk [cO; cO; cV; cV] bare_ms2 b2_cs = true.
Proof. vm_compute. reflexivity. Qed.

Opaque rd run_s run_form check.
Section Main.
  Variable K : cring.
  Local Open Scope K_scope.
  Add Ring KrCE : (c_th K).
  Variables no nv : nat.
  Variable inv : nat -> K.
  Variable M : nat.
  Hypothesis HI : inverts inv M.
  Hypothesis HM : (nv < M)%nat.
  Variables T1 T2 L1 L2 : tensor K.
  Hypothesis H1 : t1_ok no nv T1.
  Hypothesis H2 : t2_ok no nv T2.
  Notation ref := (aufbau (no + nv) no).
  Notation dim := (wdim no nv).

  Lemma cc_expect_eos c A : Forall (fun a : K * list op => Forall (fun o => (opi o < no + nv)%nat) (snd a)) A ->
    cc_expect inv M no nv c T1 T2 L1 L2 A
    = eos (lambda_op no nv c (fun i a => dat L1 [i; a]) (fun i j a b => dat L2 [i; j; a; b]))
        (fun u => SL A (fun a => fst a * tildew K no nv (fun a i => dat T1 [a; i]) (fun a b i j => dat T2 [a; b; i; j])
           (snd a) (kd ref) u)) ref.
  Proof.
    intros HA. destruct (t2_anti K no nv T2 H2) as [A1 A2].
    unfold cc_expect. rewrite amp_eos, eos_opmul. apply eos_ext. intros u Lu. rewrite ref_length in Lu.
    apply transformed_eos; auto.
  Qed.

  Lemma word_expect_eos c w : Forall (fun o => (opi o < no + nv)%nat) w ->
    word_expect inv M no nv c T1 T2 L1 L2 w
    = eos (lambda_op no nv c (fun i a => dat L1 [i; a]) (fun i j a b => dat L2 [i; j; a; b]))
        (tildew K no nv (fun a i => dat T1 [a; i]) (fun a b i j => dat T2 [a; b; i; j]) w (kd ref)) ref.
  Proof.
    intros Hw. unfold word_expect. rewrite cc_expect_eos by (constructor; [exact Hw|constructor]).
    apply eos_ext. intros u _. rewrite SL_cons. cbn [fst snd]. unfold SL. cbn [map lsum]. ring.
  Qed.

  Lemma v_dim v : dim (v_cls v) = extent no nv v.
  Proof. destruct v; reflexivity. Qed.
  Lemma v_orb v x : orb no (v_cls v) x = orbital no v x.
  Proof. destruct v; reflexivity. Qed.
  Lemma sh_dims vs : map dim (sh_of vs) = map (extent no nv) vs.
  Proof. unfold sh_of. rewrite map_map. apply map_ext. apply v_dim. Qed.

  Lemma x_word_in vs xs : (List.length vs = 2 \/ List.length vs = 4)%nat -> inrange (map (extent no nv) vs) xs ->
    Forall (w_in no nv xs) (x_word (sh_of vs)) /\ map (w_op no xs) (x_word (sh_of vs)) = rdm_word (orbitals no vs xs).
  Proof.
    assert (C : forall v, v_cls v = cO \/ v_cls v = cV) by (intros []; auto).
    intros [L|L] Hx.
    - destruct vs as [|v0 [|v1 [|]]]; try discriminate.
      inversion Hx as [|? x0 ? l0 X0 Hx0]; subst. inversion Hx0 as [|? x1 ? l1 X1 Hx1]; subst. inversion Hx1; subst.
      cbn [sh_of map x_word orbitals combine rdm_word w_op nth mkop fst snd]. rewrite !v_orb. split; [|reflexivity].
      repeat first [apply Forall_cons | apply Forall_nil]; cbn [w_in nth List.length]; rewrite v_dim;
        (split; [apply C|split; [lia|assumption]]).
    - destruct vs as [|v0 [|v1 [|v2 [|v3 [|]]]]]; try discriminate.
      inversion Hx as [|? x0 ? l0 X0 Hx0]; subst. inversion Hx0 as [|? x1 ? l1 X1 Hx1]; subst.
      inversion Hx1 as [|? x2 ? l2 X2 Hx2]; subst. inversion Hx2 as [|? x3 ? l3 X3 Hx3]; subst. inversion Hx3; subst.
      cbn [sh_of map x_word orbitals combine rdm_word w_op nth mkop fst snd]. rewrite !v_orb. split; [|reflexivity].
      repeat first [apply Forall_cons | apply Forall_nil]; cbn [w_in nth List.length]; rewrite v_dim;
        (split; [apply C|split; [lia|assumption]]).
  Qed.

  Lemma w_in_opi xs w : Forall (w_in no nv xs) w -> Forall (fun o => (opi o < no + nv)%nat) (map (w_op no xs) w).
  Proof.
    intros H. apply Forall_map. eapply Forall_impl; [|exact H]. intros [[b c] j] ([-> | ->] & _ & L); destruct b;
      cbn [w_op mkop orb cO cV opi wdim] in *; lia.
  Qed.

  Lemma rd_chk_sound (F : one_e K) (I : two_e K) fac c args vals f vs x :
    let rho := so_rho K F I T1 T2 L1 L2 fac (noex K) in
    sym_ok K (so_dim no nv) rho so_tb ->
    Forall2 (Rval K (so_dim no nv) rho) args vals ->
    (forall r, m_ok r c) -> rd_chk args c (f, vs) x = true ->
    exists P, returns f vals (arr P) /\ shp P = map (extent no nv) vs /\
      forall xs, inrange (map (extent no nv) vs) xs ->
        dat P xs = normal_expect inv M no nv (den K dim rho xs [c]) T1 T2 L1 L2 (rdm_word (orbitals no vs xs)).
  Proof.
    intros rho HS HA Oc C. unfold rd_chk in C. cbn [fst snd] in C.
    apply andb_prop in C as [C C6]. apply andb_prop in C as [C C5]. apply andb_prop in C as [C C4].
    apply andb_prop in C as [C C3]. apply andb_prop in C as [C1 C2].
    assert (L : (List.length vs = 2 \/ List.length vs = 4)%nat).
    { unfold sh_of in C1. rewrite map_length in C1. apply orb_prop in C1 as [C1|C1]; apply Nat.eqb_eq in C1; auto. }
    apply cls_list_eqb_eq in C3. apply is_some_got in C4. apply okb_all in C5.
    destruct (run_arr_sound K (so_dim no nv) rho _ _ _ C2 HA) as (P & HR & (Z & Mo & De)).
    rewrite C3 in Z, Mo. change (so_dim no nv) with dim in Z. rewrite sh_dims in Z.
    exists P. split; [exact HR|]. split; [exact Z|]. intros xs Hx.
    rewrite De by (rewrite Z; exact Hx).
    assert (Hx' : inrange (map dim (sh_of vs)) xs) by (rewrite sh_dims; exact Hx).
    destruct (x_word_in vs xs L Hx) as [W E].
    assert (Lx : List.length xs = List.length (sh_of vs)) by (apply Forall2_length in Hx'; rewrite map_length in Hx'; auto).
    transitivity (den K dim rho xs (got_ms (rd c (sh_of vs)))).
    - symmetry. apply den_diff. eapply check_sound; [exact C6|exact HS|apply diff_ok; [exact C5|exact Mo]|exact Hx'].
    - rewrite <- (rd_sound K no nv rho c (sh_of vs) xs _ (Oc _) W Hx' C4). rewrite E.
      unfold normal_expect. f_equal. symmetry. apply word_expect_eos.
      rewrite <- E, (nprod_w no nv) by exact W. apply w_in_opi, x_prod_in, W.
  Qed.

  Hypothesis HL1 : l1_ok no nv L1.
  Hypothesis HL2 : l2_ok no nv L2.
  Definition block_is (f : string) (vs : list bool) (vals : list _) (c : K) : Prop :=
    exists P, returns f vals (arr P) /\ shp P = map (extent no nv) vs /\
      forall xs, inrange (map (extent no nv) vs) xs ->
        dat P xs = normal_expect inv M no nv c T1 T2 L1 L2 (rdm_word (orbitals no vs xs)).

  Lemma plain_block f vs c : In (f, vs) plain_blocks -> block_is f vs [arr T1; arr T2; arr L1; arr L2] c.
  Proof.
    intros Hin. destruct (all_chk_in _ _ _ _ d1_chk _ Hin) as [x Hx].
    assert (Oc : forall r, m_ok r c_fac) by (intros r; repeat constructor).
    destruct (rd_chk_sound (zeroF K no nv) (zeroI K no nv) c c_fac aR [arr T1; arr T2; arr L1; arr L2] f vs x) as (P & HR & Z & D);
      [so_args|so_args|exact Oc|exact Hx|].
    exists P. split; [exact HR|]. split; [exact Z|]. intros xs Hi. rewrite D by exact Hi. f_equal.
    unfold den, den_mono, den_fac, c_fac. cbn [map lsum m_z m_k m_dm m_fs prodK sumL fst snd so_rho]. rewrite dyad10. ring.
  Qed.
  Lemma fac_block f vs c : In (f, vs) fac_blocks -> block_is f vs [arr T1; arr T2; arr L1; arr L2; numv c] c.
  Proof.
    intros Hin. destruct (all_chk_in _ _ _ _ d2_chk _ Hin) as [x Hx].
    assert (Oc : forall r, m_ok r c_fac) by (intros r; repeat constructor).
    destruct (rd_chk_sound (zeroF K no nv) (zeroI K no nv) c c_fac (aR ++ [sFac]) [arr T1; arr T2; arr L1; arr L2; numv c] f vs x) as (P & HR & Z & D);
      [so_args|so_args|exact Oc|exact Hx|].
    exists P. split; [exact HR|]. split; [exact Z|]. intros xs Hi. rewrite D by exact Hi. f_equal.
    unfold den, den_mono, den_fac, c_fac. cbn [map lsum m_z m_k m_dm m_fs prodK sumL fst snd so_rho]. rewrite dyad10. ring.
  Qed.
  Lemma one_block f vs : In (f, vs) fac_blocks -> block_is f vs [arr T1; arr T2; arr L1; arr L2] 1.
  Proof.
    intros Hin. destruct (all_chk_in _ _ _ _ d3_chk _ Hin) as [x Hx].
    assert (Oc : forall r, m_ok r c_one) by (intros r; repeat constructor).
    destruct (rd_chk_sound (zeroF K no nv) (zeroI K no nv) 0 c_one aR [arr T1; arr T2; arr L1; arr L2] f vs x) as (P & HR & Z & D);
      [so_args|so_args|exact Oc|exact Hx|].
    exists P. split; [exact HR|]. split; [exact Z|]. intros xs Hi. rewrite D by exact Hi. f_equal.
    unfold den, den_mono, den_fac, c_one. cbn [map lsum m_z m_k m_dm m_fs prodK sumL fst snd so_rho]. rewrite dyad10. ring.
  Qed.

  (** ** From normal ordered to full density matrices *)
  (** the optimized functions return the same *)
  Lemma block_xeq f g vs vals c : (exists r s, returns (K := K) f vals r /\ returns g vals s /\ xeq r s) ->
    block_is f vs vals c -> block_is g vs vals c.
  Proof.
    intros (r & s & A & B & E) (P & HR & Z & D). rewrite (returns_fun K _ _ _ _ A HR) in E.
    inversion E as [|? S [Y V]| |]; subst. exists S. split; [exact B|]. split; [congruence|].
    intros xs Hx. rewrite <- D by exact Hx. symmetry. apply V. rewrite Z. exact Hx.
  Qed.
  Definition opt_blocks (l : list (string * list bool)) : list (string * list bool) :=
    map (fun fv => (String.append (fst fv) "_opt", snd fv)) l.
  Lemma plain_in f vs : In (f, vs) plain_blocks -> In (f, String.append f "_opt") rdm_pairs.
  Proof. cbn [plain_blocks In]. intros H. repeat (destruct H as [H|H]; [injection H as <- _; cbn; tauto|]). destruct H. Qed.
  Lemma fac_in f vs : In (f, vs) fac_blocks -> In (f, String.append f "_opt") rdm_pairs /\ In (f, String.append f "_opt") rdm_fac_pairs.
  Proof. cbn [fac_blocks In]. intros H. repeat (destruct H as [H|H]; [injection H as <- _; cbn; tauto|]). destruct H. Qed.
  Lemma any_block f vs c : In (f, vs) (plain_blocks ++ opt_blocks plain_blocks) -> block_is f vs [arr T1; arr T2; arr L1; arr L2] c.
  Proof.
    intros H. apply in_app_or in H as [H|H]; [apply plain_block, H|].
    apply in_map_iff in H as ([f0 vs0] & E & H). cbn [fst snd] in E. injection E as <- <-.
    eapply block_xeq; [|apply plain_block, H]. apply (rdm_opt_plain K no nv T1 T2 L1 L2); auto. eapply plain_in, H.
  Qed.
  Lemma any_fac_block f vs c : In (f, vs) (fac_blocks ++ opt_blocks fac_blocks) ->
    block_is f vs [arr T1; arr T2; arr L1; arr L2; numv c] c /\ block_is f vs [arr T1; arr T2; arr L1; arr L2] 1.
  Proof.
    intros H. apply in_app_or in H as [H|H]; [split; [apply fac_block, H|apply one_block, H]|].
    apply in_map_iff in H as ([f0 vs0] & E & H). cbn [fst snd] in E. injection E as <- <-.
    destruct (fac_in _ _ H) as [I1 I2]. split.
    - eapply block_xeq; [|apply fac_block, H]. apply (rdm_fac_opt_plain K no nv T1 T2 L1 L2); auto.
    - eapply block_xeq; [|apply one_block, H]. apply (rdm_opt_plain K no nv T1 T2 L1 L2); auto.
  Qed.

  Lemma bare_sound (c : K) vs ms cs xs : (List.length vs = 2 \/ List.length vs = 4)%nat ->
    bare_chk (sh_of vs) ms cs = true -> Forall (m_ok (List.length (sh_of vs))) ms -> inrange (map (extent no nv) vs) xs ->
    normal_expect inv M no nv c T1 T2 L1 L2 (rdm_word (orbitals no vs xs))
    = den K dim (so_rho K (zeroF K no nv) (zeroI K no nv) T1 T2 L1 L2 c (noex K)) xs ms.
  Proof.
    assert (HS : sym_ok K (so_dim no nv) (so_rho K (zeroF K no nv) (zeroI K no nv) T1 T2 L1 L2 c (noex K)) so_tb) by so_args.
    intros L C Mo Hx. set (rho := so_rho K _ _ _ _ _ _ _ _) in *.
    unfold bare_chk in C. apply andb_prop in C as [C C6]. apply andb_prop in C as [C4 C5].
    apply is_some_got in C4. apply okb_all in C5.
    assert (Oc : forall r, m_ok r c_fac) by (intros r; repeat constructor).
    assert (Hx' : inrange (map dim (sh_of vs)) xs) by (rewrite sh_dims; exact Hx).
    destruct (x_word_in vs xs L Hx) as [W E].
    transitivity (den K dim rho xs (got_ms (rd c_fac (sh_of vs)))).
    - rewrite <- (rd_sound K no nv rho c_fac (sh_of vs) xs _ (Oc _) W Hx' C4). rewrite E.
      assert (Ec : den K dim rho xs [c_fac] = c).
      { unfold rho, den, den_mono, den_fac, c_fac. cbn [map lsum m_z m_k m_dm m_fs prodK sumL fst snd so_rho]. rewrite dyad10. ring. }
      rewrite Ec. unfold normal_expect. f_equal. apply word_expect_eos.
      rewrite <- E, (nprod_w no nv) by exact W. apply w_in_opi, x_prod_in, W.
    - apply den_diff. eapply check_sound; [exact C6|exact HS|apply diff_ok; [exact C5|exact Mo]|exact Hx'].
  Qed.
  Lemma bare_one (c : K) i a : (i < no)%nat -> (a < nv)%nat ->
    normal_expect inv M no nv c T1 T2 L1 L2 (rdm_word [i; no + a]%nat) = dat L1 [i; a].
  Proof.
    intros Li La.
    change [i; (no + a)%nat] with (orbitals no [false; true] [i; a]).
    rewrite (bare_sound c [false; true] bare_ms1 b1_cs [i; a] (or_introl eq_refl) bare_chk1).
    - unfold bare_ms1, den, den_mono, den_fac. cbn [map lsum m_z m_k m_dm m_fs prodK sumL fst snd so_rho look nth app]. rewrite dyad10. ring.
    - repeat constructor.
    - repeat constructor; auto.
  Qed.
  Lemma bare_two (c : K) i j a b : (i < no)%nat -> (j < no)%nat -> (a < nv)%nat -> (b < nv)%nat ->
    normal_expect inv M no nv c T1 T2 L1 L2 (rdm_word [i; j; no + a; no + b]%nat) = dat L2 [i; j; a; b].
  Proof.
    intros Li Lj La Lb.
    change [i; j; (no + a)%nat; (no + b)%nat] with (orbitals no [false; false; true; true] [i; j; a; b]).
    rewrite (bare_sound c [false; false; true; true] bare_ms2 b2_cs [i; j; a; b] (or_intror eq_refl) bare_chk2).
    - unfold bare_ms2, den, den_mono, den_fac. cbn [map lsum m_z m_k m_dm m_fs prodK sumL fst snd so_rho look nth app]. rewrite dyad10. ring.
    - repeat constructor.
    - repeat constructor; auto.
  Qed.

  Variable c : K.
  Notation W := (word_expect inv M no nv c T1 T2 L1 L2).
  Notation n := (no + nv)%nat.

  Lemma W_eos w : W w = eos (lambda_op no nv c (fun i a => dat L1 [i; a]) (fun i j a b => dat L2 [i; j; a; b]))
    (eos (opexp inv M (opscale (- (1)) (cluster no nv T1 T2))) (eow w (eos (opexp inv M (cluster no nv T1 T2)) (kd ref)))) ref.
  Proof.
    unfold word_expect, cc_expect. rewrite amp_eos, eos_opmul. apply eos_ext. intros u _.
    unfold transformed. rewrite eos_opmul. apply eos_ext. intros v _. rewrite eos_opmul.
    unfold eos at 1. rewrite SL_cons. cbn [fst snd]. unfold SL. cbn [map lsum]. ring.
  Qed.
  Lemma eos_lin (A : list (K * list op)) (f g h : state K) (x : K) t :
    (forall u, List.length u = List.length t -> f u = x * g u - h u) -> eos A f t = x * eos A g t - eos A h t.
  Proof.
    intros E. rewrite (eos_ext K A f (fun u => x * g u + - (1) * h u) t) by (intros u Lu; rewrite E by exact Lu; ring).
    unfold eos. rewrite <- SL_mul.
    transitivity (SL A (fun a => fst a * (x * eow (snd a) g t) + - (1) * (fst a * eow (snd a) h t))).
    - apply SL_ext. intros a _. rewrite eow_add, !eow_mul. ring.
    - rewrite SL_add, SL_mul. rewrite (SL_ext _ _ (fun a => fst a * (x * eow (snd a) g t)) (fun a => x * (fst a * eow (snd a) g t))) by (intros; ring).
      ring.
  Qed.
  Lemma W_swap u o1 o2 v : (opi o1 < n)%nat -> (opi o2 < n)%nat ->
    W (u ++ o1 :: o2 :: v) = ctr o1 o2 * W (u ++ v) - W (u ++ o2 :: o1 :: v).
  Proof.
    intros X1 X2. rewrite !W_eos. apply eos_lin. intros t Lt. apply eos_lin. intros t' Lt'.
    rewrite ref_length in Lt. rewrite !eow_app. cbn [eow].
    set (phi := eow v _).
    rewrite (eow_ext K u _ (fun z => ctr o1 o2 * phi z + - (1) * eo o2 (eo o1 phi) z)).
    - rewrite eow_add, !eow_mul. ring.
    - intros z Lz. rewrite eo_anti by lia. ring.
  Qed.

  Lemma rd_nil : rd c_fac [] = Some [c_fac].
  Proof. Transparent rd. vm_compute. reflexivity. Opaque rd. Qed.
  Lemma W_nil : W [] = c.
  Proof.
    rewrite word_expect_eos by constructor.
    pose proof (rd_sound K no nv (so_rho K (zeroF K no nv) (zeroI K no nv) T1 T2 L1 L2 c (noex K)) c_fac [] [] [c_fac]) as R.
    cbn [x_word map nsign nprod filter app List.length CISpec.sgn] in R.
    assert (E : den K dim (so_rho K (zeroF K no nv) (zeroI K no nv) T1 T2 L1 L2 c (noex K)) [] [c_fac] = c).
    { unfold den, den_mono, den_fac, c_fac. cbn [map lsum m_z m_k m_dm m_fs prodK sumL fst snd so_rho]. rewrite dyad10. ring. }
    rewrite E in R.
    assert (Oc : m_ok 0 c_fac) by repeat constructor.
    specialize (R Oc (Forall_nil _) (Forall2_nil _) rd_nil).
    transitivity (1 * W []); [rewrite word_expect_eos by constructor; ring|].
    rewrite word_expect_eos by constructor. exact R.
  Qed.

  Notation N := (normal_expect inv M no nv c T1 T2 L1 L2).
  (** 1 if p and q are the same occupied orbital *)
  Definition both_occ (p q : nat) : K := if Nat.eqb p q && Nat.ltb p no then 1 else 0.
  Definition dl (p q : nat) : K := if Nat.eqb p q then 1 else 0.
  Lemma ctr_ca p q : ctr (Cre p) (Ann q) = dl p q.
  Proof. unfold ctr, dl. cbn [opi opb xorb]. rewrite andb_true_r. reflexivity. Qed.
  Lemma ctr_ac p q : ctr (Ann q) (Cre p) = dl p q.
  Proof. unfold ctr, dl. cbn [opi opb xorb]. rewrite andb_true_r, Nat.eqb_sym. reflexivity. Qed.
  Lemma ctr_cc p q : ctr (Cre p) (Cre q) = 0 :> K.
  Proof. unfold ctr. cbn [opb xorb]. rewrite andb_false_r. reflexivity. Qed.
  Lemma ctr_aa p q : ctr (Ann p) (Ann q) = 0 :> K.
  Proof. unfold ctr. cbn [opb xorb]. rewrite andb_false_r. reflexivity. Qed.
  Lemma dl_ov p q : (p < no)%nat -> (no <= q)%nat -> dl p q = 0.
  Proof. intros. unfold dl. destruct (Nat.eqb_spec p q); [lia|reflexivity]. Qed.
  Lemma dl_vo p q : (no <= p)%nat -> (q < no)%nat -> dl p q = 0.
  Proof. intros. unfold dl. destruct (Nat.eqb_spec p q); [lia|reflexivity]. Qed.
  Lemma both_o p q : (p < no)%nat -> both_occ p q = dl p q.
  Proof. intros H. unfold both_occ, dl. apply Nat.ltb_lt in H. rewrite H, andb_true_r. reflexivity. Qed.
  Lemma both_v p q : (no <= p)%nat -> both_occ p q = 0.
  Proof. intros H. unfold both_occ. apply Nat.ltb_ge in H. rewrite H, andb_false_r. reflexivity. Qed.

  Lemma sw2 a b : (opi a < n)%nat -> (opi b < n)%nat -> W [a; b] = ctr a b * c - W [b; a].
  Proof. intros A B. pose proof (W_swap [] a b [] A B) as E. cbn [app] in E. rewrite W_nil in E. exact E. Qed.
  Lemma sw40 a b d e : (opi a < n)%nat -> (opi b < n)%nat -> W [a; b; d; e] = ctr a b * W [d; e] - W [b; a; d; e].
  Proof. exact (W_swap [] a b [d; e]). Qed.
  Lemma sw41 a b d e : (opi b < n)%nat -> (opi d < n)%nat -> W [a; b; d; e] = ctr b d * W [a; e] - W [a; d; b; e].
  Proof. exact (W_swap [a] b d [e]). Qed.
  Lemma sw42 a b d e : (opi d < n)%nat -> (opi e < n)%nat -> W [a; b; d; e] = ctr d e * W [a; b] - W [a; b; e; d].
  Proof. exact (W_swap [a; b] d e []). Qed.

  Ltac split_orb p :=
    let H := fresh "O" in
    destruct (Nat.lt_ge_cases p no) as [H|H];
    [pose proof (proj2 (Nat.ltb_lt p no) H); pose proof (proj2 (Nat.leb_gt no p) H)
    |pose proof (proj2 (Nat.ltb_ge p no) H); pose proof (proj2 (Nat.leb_le no p) H)].
  Ltac bools := repeat match goal with
    | H : Nat.ltb ?x no = _ |- context [Nat.ltb ?x no] => rewrite H
    | H : Nat.leb no ?x = _ |- context [Nat.leb no ?x] => rewrite H
    end.
  Ltac deltas := repeat match goal with
    | H : (?x < no)%nat |- context [both_occ ?x ?y] => rewrite (both_o x y H)
    | H : (no <= ?x)%nat |- context [both_occ ?x ?y] => rewrite (both_v x y H)
    end; repeat match goal with
    | Hx : (?x < no)%nat, Hy : (no <= ?y)%nat |- context [dl ?x ?y] => rewrite (dl_ov x y Hx Hy)
    | Hx : (no <= ?x)%nat, Hy : (?y < no)%nat |- context [dl ?x ?y] => rewrite (dl_vo x y Hx Hy)
    end.
  Ltac norm := unfold normal_expect, nprod; cbn [nsign annihilates filter app negb List.length Nat.odd Nat.even andb xorb CISpec.sgn]; bools;
    cbn [nsign annihilates filter app negb List.length Nat.odd Nat.even andb xorb CISpec.sgn];
    bools; cbn [nsign annihilates filter app negb List.length Nat.odd Nat.even andb xorb CISpec.sgn];
    bools; cbn [nsign annihilates filter app negb List.length Nat.odd Nat.even andb xorb CISpec.sgn];
    bools; cbn [nsign annihilates filter app negb List.length Nat.odd Nat.even andb xorb CISpec.sgn].

  Lemma full_one p q : (p < n)%nat -> (q < n)%nat ->
    W [Cre q; Ann p] = N [Cre q; Ann p] + both_occ q p * c.
  Proof.
    intros Lp Lq. split_orb p; split_orb q; norm; deltas; try ring.
    rewrite (sw2 (Cre q) (Ann p)) by auto. rewrite ctr_ca. ring.
  Qed.

  Ltac is_ann o := match o with
    | Cre ?x => match goal with H : (x < no)%nat |- _ => idtac end
    | Ann ?x => match goal with H : (no <= x)%nat |- _ => idtac end end.
  Ltac is_cre o := match o with
    | Cre ?x => match goal with H : (no <= x)%nat |- _ => idtac end
    | Ann ?x => match goal with H : (x < no)%nat |- _ => idtac end end.
  Ltac order4 := repeat match goal with
    | |- context [word_expect inv M no nv c T1 T2 L1 L2 [?a; ?b; ?d; ?e]] =>
        first [is_ann a; is_cre b; rewrite (sw40 a b d e) by auto
              |is_ann b; is_cre d; rewrite (sw41 a b d e) by auto
              |is_ann d; is_cre e; rewrite (sw42 a b d e) by auto]
    end.
  Ltac order2 := repeat match goal with
    | |- context [word_expect inv M no nv c T1 T2 L1 L2 [?a; ?b]] =>
        is_ann a; is_cre b; rewrite (sw2 a b) by auto
    end.
  Lemma full_two p q r s : (p < n)%nat -> (q < n)%nat -> (r < n)%nat -> (s < n)%nat ->
    W [Cre r; Cre s; Ann q; Ann p] = N [Cre r; Cre s; Ann q; Ann p]
      + (both_occ r p * N [Cre s; Ann q] + both_occ s q * N [Cre r; Ann p]
         - both_occ r q * N [Cre s; Ann p] - both_occ s p * N [Cre r; Ann q])
      + (both_occ r p * both_occ s q - both_occ r q * both_occ s p) * c.
  Proof.
    intros Lp Lq Lr Ls. split_orb p; split_orb q; split_orb r; split_orb s; norm; order4; order2;
      rewrite ?ctr_ca, ?ctr_ac, ?ctr_cc, ?ctr_aa; deltas; ring.
  Qed.
End Main.
