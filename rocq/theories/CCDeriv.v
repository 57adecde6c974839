(** Energy formula, linear parts, the Lambda equations as derivatives, and
    density matrices as derivatives with respect to the integrals. *)
From Coq Require Import List Bool Arith ZArith String Lia Ring.
From Verif Require Import Scalar Tensor PySyntax PySem PySim Sym SymSound Norm CCProg CCSpec
  Engine Tools Dual SOCtx CCEquiv.
Import ListNotations.
Local Open Scope string_scope.

(** *** C11: energy *)
Notation fov := (inp 2 [cO; cV]).
Notation ioovv := (inp 10 [cO; cO; cV; cV]).
Notation aE := [sT1; sT2; fov; ioovv].

(** sum_ia F_ia T1_ai; 1/4 sum I_ijab T2_abij; 1/2 sum I_ijab T1_ai T1_bj *)
Definition e_s1 : mono := Mono 1 0 [cO; cV] [(2, [D 0; D 1]); (14, [D 1; D 0])]%positive.
Definition e_d : mono :=
  Mono 1 2 [cO; cO; cV; cV] [(10, [D 0; D 1; D 2; D 3]); (15, [D 2; D 3; D 0; D 1])]%positive.
Definition e_s2 : mono :=
  Mono 1 1 [cO; cO; cV; cV]
    [(10, [D 0; D 1; D 2; D 3]); (14, [D 2; D 0]); (14, [D 3; D 1])]%positive.

Definition no_tb : table := map (fun e => (fst e, (fst (snd e), []))) so_tb.
Definition c11_c1 := Eval vm_compute in find_neq no_tb (get_num (run_s "cc_energy" aE)) [e_s1; e_d; e_s2].
Definition c11_c2 := Eval vm_compute in find_neq no_tb (get_num (run_s "mp2_energy" aE)) [e_s1; e_d].
Definition energy_chk : bool :=
  run_form FNum "cc_energy" aE && neq_chk no_tb (get_num (run_s "cc_energy" aE)) [e_s1; e_d; e_s2] c11_c1.
Definition mp2_chk : bool :=
  run_form FNum "mp2_energy" aE && neq_chk no_tb (get_num (run_s "mp2_energy" aE)) [e_s1; e_d] c11_c2.
Lemma energy_ok : energy_chk = true. Proof. vm_compute. reflexivity. Qed.
Lemma mp2_ok : mp2_chk = true. Proof. vm_compute. reflexivity. Qed.

Section Energy.
  Variable K : cring.
  Local Open Scope K_scope.
  Add Ring KrF : (c_th K).
  Variables no nv : nat.
  Variables T1 T2 f g : tensor K.
  Hypothesis H1 : shp T1 = [nv; no].
  Hypothesis H2 : shp T2 = [nv; nv; no; no].
  Hypothesis Hf : shp f = [no; nv].
  Hypothesis Hg : shp g = [no; no; nv; nv].

  Let F := OneE K (tzeros K [no; no]) f (tzeros K [nv; no]) (tzeros K [nv; nv]).
  Let I := TwoE K (tzeros K [nv; nv; nv; nv]) (tzeros K [nv; nv; nv; no]) (tzeros K [nv; no; nv; nv])
      (tzeros K [nv; nv; no; no]) (tzeros K [nv; no; nv; no]) g
      (tzeros K [nv; no; no; no]) (tzeros K [no; no; no; nv]) (tzeros K [no; no; no; no]).
  Let rho := rho_t K F I T1 T2 no nv.

  Lemma energy_args : Forall2 (Rval K (so_dim no nv) rho) aE [arr T1; arr T2; arr f; arr g].
  Proof.
    repeat apply Forall2_cons; try apply Forall2_nil; apply R_inp;
      (reflexivity || assumption).
  Qed.
  Lemma no_tb_ok : sym_ok K (so_dim no nv) rho no_tb.
  Proof. unfold sym_ok, no_tb, so_tb. simpl. repeat constructor. Qed.

  Definition s1_sum : K := sumN no (fun i => sumN nv (fun a => dat f [i; a] * dat T1 [a; i])).
  Definition d_sum : K :=
    sumN no (fun i => sumN no (fun j => sumN nv (fun a => sumN nv (fun b =>
      dat g [i; j; a; b] * dat T2 [a; b; i; j])))).
  Definition s2_sum : K :=
    sumN no (fun i => sumN no (fun j => sumN nv (fun a => sumN nv (fun b =>
      dat g [i; j; a; b] * (dat T1 [a; i] * dat T1 [b; j]))))).

  Ltac sums := repeat (apply sumN_ext; intros ? _); ring.

  Lemma den_s1 : den_mono K (so_dim no nv) rho [] e_s1 = s1_sum.
  Proof.
    unfold den_mono, e_s1, den_fac. simpl. unfold dyad. simpl. unfold s1_sum.
    transitivity (1 * sumN no (fun i => sumN nv (fun a => dat f [i; a] * dat T1 [a; i]))); [|ring].
    replace (1 * 1 : K) with (1 : K) by ring. f_equal. sums.
  Qed.
  Lemma den_dd : den_mono K (so_dim no nv) rho [] e_d = quarter * d_sum.
  Proof.
    unfold den_mono, e_d, den_fac. simpl. unfold dyad, quarter, d_sum. simpl.
    transitivity (chalf * chalf * sumN no (fun i => sumN no (fun j => sumN nv (fun a => sumN nv (fun b =>
      dat g [i; j; a; b] * dat T2 [a; b; i; j]))))); [|ring].
    replace (1 * (chalf * (chalf * 1)) : K) with (chalf * chalf : K) by ring. f_equal. sums.
  Qed.
  Lemma den_s2 : den_mono K (so_dim no nv) rho [] e_s2 = chalf * s2_sum.
  Proof.
    unfold den_mono, e_s2, den_fac. simpl. unfold dyad, s2_sum. simpl.
    replace (1 * (chalf * 1) : K) with (chalf : K) by ring. f_equal. sums.
  Qed.

  Lemma e_ok : Forall (m_ok 0) [e_s1; e_d; e_s2].
  Proof. unfold m_ok. repeat constructor. Qed.

  Lemma cc_energy_formula :
    returns "cc_energy" [arr T1; arr T2; arr f; arr g]
      (numv (s1_sum + quarter * d_sum + chalf * s2_sum)).
  Proof.
    pose proof energy_ok as H. unfold energy_chk in H. apply andb_prop in H. destruct H as [E1 E2].
    destruct (run_num_sound K _ _ _ _ _ E1 energy_args) as (x & R & N).
    replace (s1_sum + quarter * d_sum + chalf * s2_sum) with x; [exact R|].
    apply (neq_sound K _ _ _ _ _ _ _ _ E2 no_tb_ok N).
    split; [exact e_ok|]. unfold den. cbn [map lsum]. rewrite den_s1, den_dd, den_s2. ring.
  Qed.
  Lemma mp2_energy_formula :
    returns "mp2_energy" [arr T1; arr T2; arr f; arr g] (numv (s1_sum + quarter * d_sum)).
  Proof.
    pose proof mp2_ok as H. unfold mp2_chk in H. apply andb_prop in H. destruct H as [E1 E2].
    destruct (run_num_sound K _ _ _ _ _ E1 energy_args) as (x & R & N).
    replace (s1_sum + quarter * d_sum) with x; [exact R|].
    apply (neq_sound K _ _ _ _ _ _ _ _ E2 no_tb_ok N).
    split; [unfold m_ok; repeat constructor|].
    unfold den. cbn [map lsum]. rewrite den_s1, den_dd. ring.
  Qed.
End Energy.

(** *** Contractions as explicit sums *)
Definition q2 : list nat := [1; 0].
Definition q4 : list nat := [2; 3; 0; 1].

Lemma dot2_sound (K : cring) dim rho a b (t u : tensor K) x y :
  Rarr K dim rho a t -> Rarr K dim rho b u -> s_sh a = [x; y] -> s_sh b = [y; x] ->
  Rnum K dim rho (s_dot q2 a b) (dot2 (dim x) (dim y) (dat t) (dat u)).
Proof.
  intros Ha Hb Ea Eb.
  pose proof (s_dot_sound K dim rho q2 a b t u Ha Hb) as H. rewrite Ea, Eb in H.
  specialize (H eq_refl). assert (Hs : shp t = [dim x; dim y]) by (rewrite (proj1 Ha), Ea; reflexivity).
  rewrite Hs in H. apply H. repeat constructor.
Qed.
Lemma dot4_sound (K : cring) dim rho a b (t u : tensor K) x y z w :
  Rarr K dim rho a t -> Rarr K dim rho b u -> s_sh a = [x; y; z; w] -> s_sh b = [z; w; x; y] ->
  Rnum K dim rho (s_dot q4 a b) (dot4 (dim x) (dim y) (dim z) (dim w) (dat t) (dat u)).
Proof.
  intros Ha Hb Ea Eb.
  pose proof (s_dot_sound K dim rho q4 a b t u Ha Hb) as H. rewrite Ea, Eb in H.
  specialize (H eq_refl).
  assert (Hs : shp t = [dim x; dim y; dim z; dim w]) by (rewrite (proj1 Ha), Ea; reflexivity).
  rewrite Hs in H. apply H. repeat constructor.
Qed.

Definition quart (a : list mono) := ms_mul [Mono 1 2 [] []] a.
Definition halved (a : list mono) := ms_mul [Mono 1 1 [] []] a.
Lemma quart_sound (K : cring) dim rho a x : Rnum K dim rho a x ->
  Rnum K dim rho (quart a) (cmul quarter x).
Proof.
  intros H. apply (Rnum_scale K dim rho 1 2) in H. unfold quart.
  replace (cmul quarter x) with (cmul (dyad 1 2) x); [exact H|]. f_equal.
  unfold dyad, quarter. simpl.
  pose proof (c_th K) as [? ? ? Hm1 Hmc Hma ? ?]. rewrite Hm1. f_equal. rewrite (Hmc chalf), Hm1. reflexivity.
Qed.
Lemma halved_sound (K : cring) dim rho a x : Rnum K dim rho a x ->
  Rnum K dim rho (halved a) (cmul chalf x).
Proof.
  intros H. apply (Rnum_scale K dim rho 1 1) in H. unfold halved.
  replace (cmul chalf x) with (cmul (dyad 1 1) x); [exact H|]. f_equal.
  unfold dyad. simpl.
  pose proof (c_th K) as [? ? ? Hm1 Hmc Hma ? ?]. rewrite Hm1. rewrite (Hmc chalf), Hm1. reflexivity.
Qed.

Lemma inp_R (K : cring) dim rho t sh u : Rval K dim rho (inp t sh) (arr u) ->
  Rarr K dim rho (s_input t sh) u.
Proof. intros H. inversion H; subst. assumption. Qed.

(** *** C19 *)
Notation ai_ t sh := (s_input t sh).
Definition lag : list mono :=
  get_num (run_s "cc_energy" aE) ++
  s_dot q2 (ai_ 16 [cO; cV]) (get_arr (item 0 (run_s "ccsd_simple" aT))) ++
  quart (s_dot q4 (ai_ 17 [cO; cO; cV; cV]) (get_arr (item 1 (run_s "ccsd_simple" aT)))).
Definition rd (f : string) : stens := get_arr (run_s f aR).
Definition contraction : list mono :=
  (s_dot q2 (ai_ 16 [cO; cV]) (ai_ 3 [cV; cO]) ++
   s_dot q2 (rd "ccsd_1rdm_ba") (ai_ 4 [cV; cV]) ++
   s_dot q2 (rd "ccsd_1rdm_ji") (ai_ 1 [cO; cO]) ++
   s_dot q2 (rd "ccsd_1rdm_ai") (ai_ 2 [cO; cV])) ++
  quart (s_dot q4 (ai_ 17 [cO; cO; cV; cV]) (ai_ 8 [cV; cV; cO; cO]) ++
         s_dot q4 (rd "ccsd_2rdm_cdab") (ai_ 5 [cV; cV; cV; cV]) ++
         s_dot q4 (rd "ccsd_2rdm_klij") (ai_ 13 [cO; cO; cO; cO]) ++
         s_dot q4 (rd "ccsd_2rdm_abij") (ai_ 10 [cO; cO; cV; cV])) ++
  halved (s_dot q4 (rd "ccsd_2rdm_ciab") (ai_ 6 [cV; cV; cV; cO]) ++
          s_dot q4 (rd "ccsd_2rdm_bcai") (ai_ 7 [cV; cO; cV; cV]) ++
          s_dot q4 (rd "ccsd_2rdm_jkai") (ai_ 11 [cV; cO; cO; cO]) ++
          s_dot q4 (rd "ccsd_2rdm_kaij") (ai_ 12 [cO; cO; cO; cV])) ++
  s_dot q4 (rd "ccsd_2rdm_bjai") (ai_ 9 [cV; cO; cV; cO]).
Definition rd_list : list (string * list cls) :=
  [("ccsd_1rdm_ba", [cV; cV]); ("ccsd_1rdm_ji", [cO; cO]); ("ccsd_1rdm_ai", [cV; cO]);
   ("ccsd_2rdm_cdab", [cV; cV; cV; cV]); ("ccsd_2rdm_klij", [cO; cO; cO; cO]);
   ("ccsd_2rdm_abij", [cV; cV; cO; cO]); ("ccsd_2rdm_ciab", [cV; cO; cV; cV]);
   ("ccsd_2rdm_bcai", [cV; cV; cV; cO]); ("ccsd_2rdm_jkai", [cO; cO; cV; cO]);
   ("ccsd_2rdm_kaij", [cO; cV; cO; cO]); ("ccsd_2rdm_bjai", [cV; cO; cV; cO])].
Definition rd_chk (e : string * list cls) : bool :=
  run_form FArr (fst e) aR && cls_list_eqb (s_sh (rd (fst e))) (snd e).
Lemma rd_ok : forallb rd_chk rd_list = true. Proof. vm_compute. reflexivity. Qed.
Definition ccsd_shape_chk : bool :=
  run_form (FTup [FArr; FArr]) "ccsd_simple" aT &&
  cls_list_eqb (s_sh (get_arr (item 0 (run_s "ccsd_simple" aT)))) [cV; cO] &&
  cls_list_eqb (s_sh (get_arr (item 1 (run_s "ccsd_simple" aT)))) [cV; cV; cO; cO].
Lemma ccsd_shape_ok : ccsd_shape_chk = true. Proof. vm_compute. reflexivity. Qed.
Definition c19_c := Eval vm_compute in find_neq so_tb lag contraction.
Lemma c19_chk : neq_chk so_tb lag contraction c19_c = true.
Proof. vm_compute. reflexivity. Qed.

Section Rdm.
  Variable K : cring.
  Local Open Scope K_scope.
  Variables no nv : nat.
  Variable F : one_e K.
  Variable I : two_e K.
  Variables T1 T2 L1 L2 : tensor K.
  Hypothesis HF : one_e_ok no nv F.
  Hypothesis HI : two_e_ok no nv I.
  Hypothesis H1 : t1_ok no nv T1.
  Hypothesis H2 : t2_ok no nv T2.
  Hypothesis HL1 : l1_ok no nv L1.
  Hypothesis HL2 : l2_ok no nv L2.
  Let rho := rho_l K F I T1 T2 L1 L2.
  Notation dim := (so_dim no nv).

  Lemma rdm_run f sh : In (f, sh) rd_list ->
    exists P, returns (K := K) f [arr T1; arr T2; arr L1; arr L2] (arr P) /\
      Rarr K dim rho (rd f) P /\ s_sh (rd f) = sh.
  Proof.
    intros Hin. pose proof (proj1 (forallb_forall _ _) rd_ok _ Hin) as H.
    unfold rd_chk in H. apply andb_prop in H. destruct H as [E1 E2].
    destruct (run_arr_sound K dim rho _ _ [arr T1; arr T2; arr L1; arr L2] E1) as (P & R & A).
    { unfold rho; so_args. }
    exists P. split; auto. split; auto. apply cls_list_eqb_eq in E2. exact E2.
  Qed.

  Lemma rdm_lagrangian :
    exists e S1 S2 Pba Pji Pai Pcdab Pklij Pabij Pciab Pbcai Pjkai Pkaij Pbjai,
    returns (K := K) "cc_energy" [arr T1; arr T2; arr (ov F); arr (oovv I)] (numv e) /\
    returns (K := K) "ccsd_simple" [py_one_e F; py_two_e I; arr T1; arr T2] (tup [arr S1; arr S2]) /\
    Forall (fun fP => returns (K := K) (fst fP) [arr T1; arr T2; arr L1; arr L2] (arr (snd fP)))
      [("ccsd_1rdm_ba", Pba); ("ccsd_1rdm_ji", Pji); ("ccsd_1rdm_ai", Pai);
       ("ccsd_2rdm_cdab", Pcdab); ("ccsd_2rdm_klij", Pklij); ("ccsd_2rdm_abij", Pabij);
       ("ccsd_2rdm_ciab", Pciab); ("ccsd_2rdm_bcai", Pbcai); ("ccsd_2rdm_jkai", Pjkai);
       ("ccsd_2rdm_kaij", Pkaij); ("ccsd_2rdm_bjai", Pbjai)] /\
    e + (dot2 no nv (dat L1) (dat S1) + quarter * dot4 no no nv nv (dat L2) (dat S2)) =
    (dot2 no nv (dat L1) (dat (vo F)) + (dot2 nv nv (dat Pba) (dat (vv F)) +
     (dot2 no no (dat Pji) (dat (oo F)) + dot2 nv no (dat Pai) (dat (ov F))))) +
    (quarter * (dot4 no no nv nv (dat L2) (dat (vvoo I)) + (dot4 nv nv nv nv (dat Pcdab) (dat (vvvv I)) +
       (dot4 no no no no (dat Pklij) (dat (oooo I)) + dot4 nv nv no no (dat Pabij) (dat (oovv I))))) +
    (chalf * (dot4 nv no nv nv (dat Pciab) (dat (vvvo I)) + (dot4 nv nv nv no (dat Pbcai) (dat (vovv I)) +
       (dot4 no no nv no (dat Pjkai) (dat (vooo I)) + dot4 no nv no no (dat Pkaij) (dat (ooov I))))) +
    dot4 nv no nv no (dat Pbjai) (dat (vovo I)))).
  Proof.
    pose proof energy_ok as HE. unfold energy_chk in HE. apply andb_prop in HE. destruct HE as [E1 _].
    destruct (run_num_sound K dim rho _ _ [arr T1; arr T2; arr (ov F); arr (oovv I)] E1) as (e & Re & Ne).
    { unfold rho; so_args. }
    pose proof ccsd_shape_ok as HS. unfold ccsd_shape_chk in HS.
    apply andb_prop in HS. destruct HS as [HS S4]. apply andb_prop in HS. destruct HS as [E2 S3].
    apply cls_list_eqb_eq in S3, S4.
    destruct (run_pair_sound K dim rho _ _ [py_one_e F; py_two_e I; arr T1; arr T2] E2)
      as (S1 & S2 & Rs & A1 & A2). { unfold rho; so_args. }
    destruct (rdm_run "ccsd_1rdm_ba" [cV; cV]) as (Pba & R1 & B1 & C1); [simpl; tauto|].
    destruct (rdm_run "ccsd_1rdm_ji" [cO; cO]) as (Pji & R2 & B2 & C2); [simpl; tauto|].
    destruct (rdm_run "ccsd_1rdm_ai" [cV; cO]) as (Pai & R3 & B3 & C3); [simpl; tauto|].
    destruct (rdm_run "ccsd_2rdm_cdab" [cV; cV; cV; cV]) as (Pcdab & R4 & B4 & C4); [simpl; tauto|].
    destruct (rdm_run "ccsd_2rdm_klij" [cO; cO; cO; cO]) as (Pklij & R5 & B5 & C5); [simpl; tauto|].
    destruct (rdm_run "ccsd_2rdm_abij" [cV; cV; cO; cO]) as (Pabij & R6 & B6 & C6); [simpl; tauto|].
    destruct (rdm_run "ccsd_2rdm_ciab" [cV; cO; cV; cV]) as (Pciab & R7 & B7 & C7); [simpl; tauto|].
    destruct (rdm_run "ccsd_2rdm_bcai" [cV; cV; cV; cO]) as (Pbcai & R8 & B8 & C8); [simpl; tauto|].
    destruct (rdm_run "ccsd_2rdm_jkai" [cO; cO; cV; cO]) as (Pjkai & R9 & B9 & C9); [simpl; tauto|].
    destruct (rdm_run "ccsd_2rdm_kaij" [cO; cV; cO; cO]) as (Pkaij & R10 & B10 & C10); [simpl; tauto|].
    destruct (rdm_run "ccsd_2rdm_bjai" [cV; cO; cV; cO]) as (Pbjai & R11 & B11 & C11); [simpl; tauto|].
    exists e, S1, S2, Pba, Pji, Pai, Pcdab, Pklij, Pabij, Pciab, Pbcai, Pjkai, Pkaij, Pbjai.
    split; [exact Re|]. split; [exact Rs|]. split; [repeat (constructor; [assumption|]); constructor|].
    destruct HF as (F1 & F2 & F3 & F4).
    destruct HI as ((I1 & I2 & I3 & I4 & I5 & I6 & I7 & I8 & I9) & _).
    assert (HR : forall t sh u, shp u = map dim sh -> (forall idx, rho t idx = dat u idx) ->
      Rarr K dim rho (s_input t sh) u).
    { intros t sh u Hu Hr. apply input_sound; auto. }
    eapply (neq_sound K dim rho so_tb lag contraction _ _ _ c19_chk).
    - unfold rho; so_args.
    - unfold lag. apply Rnum_add; [exact Ne|]. apply Rnum_add.
      + eapply (dot2_sound K dim rho _ _ _ _ cO cV); [apply HR; [exact HL1|reflexivity]|exact A1|reflexivity|exact S3].
      + apply quart_sound.
        eapply (dot4_sound K dim rho _ _ _ _ cO cO cV cV);
          [apply HR; [exact (proj1 HL2)|reflexivity]|exact A2|reflexivity|exact S4].
    - unfold contraction.
      assert (HX : forall a b (t u : tensor K) x y, Rarr K dim rho a t -> Rarr K dim rho b u ->
         s_sh a = [x; y] -> s_sh b = [y; x] ->
         Rnum K dim rho (s_dot q2 a b) (dot2 (dim x) (dim y) (dat t) (dat u))).
      { intros. eapply dot2_sound; eauto. }
      assert (HY : forall a b (t u : tensor K) x y z w, Rarr K dim rho a t -> Rarr K dim rho b u ->
         s_sh a = [x; y; z; w] -> s_sh b = [z; w; x; y] ->
         Rnum K dim rho (s_dot q4 a b) (dot4 (dim x) (dim y) (dim z) (dim w) (dat t) (dat u))).
      { intros. eapply dot4_sound; eauto. }
      apply Rnum_add; [|apply Rnum_add; [apply quart_sound|apply Rnum_add; [apply halved_sound|]]].
      + apply Rnum_add; [|apply Rnum_add; [|apply Rnum_add]].
        * eapply (HX _ _ _ _ cO cV); [apply HR; [exact HL1|reflexivity]|apply HR; [exact F3|reflexivity]|reflexivity|reflexivity].
        * eapply (HX _ _ _ _ cV cV); [exact B1|apply HR; [exact F4|reflexivity]|exact C1|reflexivity].
        * eapply (HX _ _ _ _ cO cO); [exact B2|apply HR; [exact F1|reflexivity]|exact C2|reflexivity].
        * eapply (HX _ _ _ _ cV cO); [exact B3|apply HR; [exact F2|reflexivity]|exact C3|reflexivity].
      + apply Rnum_add; [|apply Rnum_add; [|apply Rnum_add]].
        * eapply (HY _ _ _ _ cO cO cV cV); [apply HR; [exact (proj1 HL2)|reflexivity]|apply HR; [exact I4|reflexivity]|reflexivity|reflexivity].
        * eapply (HY _ _ _ _ cV cV cV cV); [exact B4|apply HR; [exact I1|reflexivity]|exact C4|reflexivity].
        * eapply (HY _ _ _ _ cO cO cO cO); [exact B5|apply HR; [exact I9|reflexivity]|exact C5|reflexivity].
        * eapply (HY _ _ _ _ cV cV cO cO); [exact B6|apply HR; [exact I6|reflexivity]|exact C6|reflexivity].
      + apply Rnum_add; [|apply Rnum_add; [|apply Rnum_add]].
        * eapply (HY _ _ _ _ cV cO cV cV); [exact B7|apply HR; [exact I2|reflexivity]|exact C7|reflexivity].
        * eapply (HY _ _ _ _ cV cV cV cO); [exact B8|apply HR; [exact I3|reflexivity]|exact C8|reflexivity].
        * eapply (HY _ _ _ _ cO cO cV cO); [exact B9|apply HR; [exact I7|reflexivity]|exact C9|reflexivity].
        * eapply (HY _ _ _ _ cO cV cO cO); [exact B10|apply HR; [exact I8|reflexivity]|exact C10|reflexivity].
      + eapply (HY _ _ _ _ cV cO cV cO); [exact B11|apply HR; [exact I5|reflexivity]|exact C11|reflexivity].
  Qed.
End Rdm.

(** *** Inputs over the dual numbers *)
Section DualInputsOk.
  Variable K : cring.
  Local Open Scope K_scope.
  Add Ring KrG : (c_th K).

  Lemma lift_one_e_ok no nv (F : one_e K) : one_e_ok no nv F -> one_e_ok no nv (lift_one_e F).
  Proof. intros (H1 & H2 & H3 & H4). repeat split; assumption. Qed.
  Lemma lift_lead (t : tensor K) : antisym_lead t -> antisym_lead (lift t).
  Proof.
    intros H i j k l Hi. apply injective_projections; cbn; [apply H; exact Hi|ring].
  Qed.
  Lemma lift_tail (t : tensor K) : antisym_tail t -> antisym_tail (lift t).
  Proof.
    intros H i j k l Hi. apply injective_projections; cbn; [apply H; exact Hi|ring].
  Qed.
  Lemma lift_two_e_ok no nv (I : two_e K) : two_e_ok no nv I -> two_e_ok no nv (lift_two_e I).
  Proof.
    intros [(S1 & S2 & S3 & S4 & S5 & S6 & S7 & S8 & S9)
            ([A1 B1] & A2 & A3 & [A4 B4] & [A6 B6] & A7 & A8 & [A9 B9])].
    split; [repeat split; assumption|].
    repeat split; try (apply lift_lead; assumption); apply lift_tail; assumption.
  Qed.
  Lemma perturbed_t2_ok no nv (T dT : tensor K) : t2_ok no nv T -> t2_ok no nv dT ->
    t2_ok no nv (perturbed T dT).
  Proof.
    intros (S & A & B) (S' & A' & B'). split; [exact S|]. split.
    - intros i j k l Hi. apply injective_projections; cbn; [apply A; exact Hi|].
      apply A'. rewrite S'. rewrite <- S. exact Hi.
    - intros i j k l Hi. apply injective_projections; cbn; [apply B; exact Hi|].
      apply B'. rewrite S'. rewrite <- S. exact Hi.
  Qed.
  Lemma infinitesimal_t2_ok no nv (T : tensor K) : t2_ok no nv T -> t2_ok no nv (infinitesimal T).
  Proof.
    intros (S & A & B). split; [exact S|]. split; intros i j k l Hi;
      apply injective_projections; cbn; try ring; [apply A|apply B]; exact Hi.
  Qed.
End DualInputsOk.
#[export] Hint Resolve lift_one_e_ok lift_two_e_ok perturbed_t2_ok infinitesimal_t2_ok : soctx.

(** *** C14 *)
Definition vT (t : positive) : option positive :=
  match t with 14 => Some 19 | 15 => Some 20 | _ => None end%positive.
Definition d_arr (a : stens) : stens := STens (s_sh a) (d_poly vT (s_ms a)).
Definition dlag : list mono :=
  d_poly vT (get_num (run_s "cc_energy" aE)) ++
  s_dot q2 (ai_ 16 [cO; cV]) (d_arr (get_arr (item 0 (run_s "ccsd_simple" aT)))) ++
  quart (s_dot q4 (ai_ 17 [cO; cO; cV; cV]) (d_arr (get_arr (item 1 (run_s "ccsd_simple" aT))))).
Definition lamcon : list mono :=
  s_dot q2 (get_arr (item 0 (run_s "ccsd_lambda_simple" aL))) (ai_ 19 [cV; cO]) ++
  quart (s_dot q4 (get_arr (item 1 (run_s "ccsd_lambda_simple" aL))) (ai_ 20 [cV; cV; cO; cO])).
Definition d_tb : table :=
  (so_tb ++ [(19%positive, ([cV; cO], [])); (20%positive, ([cV; cV; cO; cO], both 20))])%list.
Definition lam_shape_chk : bool :=
  run_form (FTup [FArr; FArr]) "ccsd_lambda_simple" aL &&
  cls_list_eqb (s_sh (get_arr (item 0 (run_s "ccsd_lambda_simple" aL)))) [cO; cV] &&
  cls_list_eqb (s_sh (get_arr (item 1 (run_s "ccsd_lambda_simple" aL)))) [cO; cO; cV; cV].
Lemma lam_shape_ok : lam_shape_chk = true. Proof. vm_compute. reflexivity. Qed.
Definition c14_c := Eval vm_compute in find_neq d_tb dlag lamcon.
Lemma c14_chk : neq_chk d_tb dlag lamcon c14_c = true.
Proof. vm_compute. reflexivity. Qed.

Section LambdaDeriv.
  Variable K : cring.
  Local Open Scope K_scope.
  Variables no nv : nat.
  Variable F : one_e K.
  Variable I : two_e K.
  Variables T1 T2 L1 L2 dT1 dT2 : tensor K.
  Hypothesis HF : one_e_ok no nv F.
  Hypothesis HI : two_e_ok no nv I.
  Hypothesis H1 : t1_ok no nv T1.
  Hypothesis H2 : t2_ok no nv T2.
  Hypothesis HL1 : l1_ok no nv L1.
  Hypothesis HL2 : l2_ok no nv L2.
  Hypothesis Hd1 : t1_ok no nv dT1.
  Hypothesis Hd2 : t2_ok no nv dT2.
  Notation dim := (so_dim no nv).
  Let exd (t : positive) : list nat -> K :=
    match t with 19 => dat dT1 | 20 => dat dT2 | _ => fun _ => c0 end%positive.
  Let rho := so_rho K F I T1 T2 L1 L2 c0 exd.
  Notation DK := (DualK K).
  Let rhoD := so_rho DK (lift_one_e F) (lift_two_e I) (perturbed T1 dT1) (perturbed T2 dT2)
    (lift L1) (lift L2) c0 (fun t => rho_d K rho vT t).

  Lemma rhoD_eq t idx : rhoD t idx = rho_d K rho vT t idx.
  Proof.
    unfold rhoD. do 5 (destruct t as [t|t|]; try reflexivity).
  Qed.

  Lemma rho_sym : sym_ok K dim rho d_tb.
  Proof.
    apply Forall_app. split.
    - apply so_sym; assumption.
    - destruct Hd2 as (S & A & B). repeat constructor.
      + pose proof (entry_both K dim rho dT2 20 cV cO (fun _ => eq_refl) S A B) as H.
        inversion H; subst. assumption.
      + pose proof (entry_both K dim rho dT2 20 cV cO (fun _ => eq_refl) S A B) as H.
        inversion H as [|? ? ? H']; subst. inversion H'; subst. assumption.
      + pose proof (entry_both K dim rho dT2 20 cV cO (fun _ => eq_refl) S A B) as H.
        inversion H as [|? ? ? H']; subst. inversion H' as [|? ? ? H'']; subst.
        inversion H''; subst. assumption.
  Qed.

  Lemma lambda_is_derivative :
    exists e S1 S2 M1 M2,
    returns (K := DK) "cc_energy"
      [arr (perturbed T1 dT1); arr (perturbed T2 dT2); arr (lift (ov F)); arr (lift (oovv I))]
      (numv e) /\
    returns (K := DK) "ccsd_simple"
      [py_one_e (lift_one_e F); py_two_e (lift_two_e I); arr (perturbed T1 dT1);
       arr (perturbed T2 dT2)] (tup [arr S1; arr S2]) /\
    returns (K := K) "ccsd_lambda_simple"
      [py_one_e F; py_two_e I; arr L1; arr L2; arr T1; arr T2] (tup [arr M1; arr M2]) /\
    snd e + (dot2 no nv (dat L1) (fun i => snd (dat S1 i)) +
             quarter * dot4 no no nv nv (dat L2) (fun i => snd (dat S2 i))) =
    dot2 no nv (dat M1) (dat dT1) + quarter * dot4 no no nv nv (dat M2) (dat dT2).
  Proof.
    pose proof energy_ok as HE. unfold energy_chk in HE. apply andb_prop in HE. destruct HE as [E1 _].
    assert (X1 : one_e_ok no nv (lift_one_e F)) by auto with soctx.
    assert (X2 : two_e_ok no nv (lift_two_e I)) by auto with soctx.
    assert (X3 : t1_ok no nv (perturbed T1 dT1)) by exact H1.
    assert (X4 : t2_ok no nv (perturbed T2 dT2)) by auto with soctx.
    destruct (run_num_sound DK dim rhoD _ _
      [arr (perturbed T1 dT1); arr (perturbed T2 dT2); arr (ov (lift_one_e F)); arr (oovv (lift_two_e I))] E1)
      as (e & Re & Ne). { unfold rhoD; so_args. }
    pose proof ccsd_shape_ok as HS. unfold ccsd_shape_chk in HS.
    apply andb_prop in HS. destruct HS as [HS S4]. apply andb_prop in HS. destruct HS as [E2 S3].
    apply cls_list_eqb_eq in S3, S4.
    destruct (run_pair_sound DK dim rhoD _ _ [py_one_e (lift_one_e F); py_two_e (lift_two_e I);
      arr (perturbed T1 dT1); arr (perturbed T2 dT2)] E2)
      as (S1 & S2 & Rs & A1 & A2). { unfold rhoD; so_args. }
    pose proof lam_shape_ok as HM. unfold lam_shape_chk in HM.
    apply andb_prop in HM. destruct HM as [HM M4]. apply andb_prop in HM. destruct HM as [E3 M3].
    apply cls_list_eqb_eq in M3, M4.
    destruct (run_pair_sound K dim rho _ _ [py_one_e F; py_two_e I; arr L1; arr L2; arr T1; arr T2] E3)
      as (M1 & M2 & Rm & B1 & B2). { unfold rho; so_args. }
    exists e, S1, S2, M1, M2. split; [exact Re|]. split; [exact Rs|]. split; [exact Rm|].
    apply (Rnum_rho_ext _ _ _ (rho_d K rho vT) _ _ rhoD_eq) in Ne. apply snd_num in Ne.
    apply (Rarr_rho_ext _ _ _ (rho_d K rho vT) _ _ rhoD_eq) in A1. apply snd_arr in A1.
    apply (Rarr_rho_ext _ _ _ (rho_d K rho vT) _ _ rhoD_eq) in A2. apply snd_arr in A2.
    assert (HR : forall t sh u, shp u = map dim sh -> (forall idx, rho t idx = dat u idx) ->
      Rarr K dim rho (s_input t sh) u).
    { intros t sh u Hu Hr. apply input_sound; auto. }
    eapply (neq_sound K dim rho d_tb dlag lamcon _ _ _ c14_chk rho_sym).
    - unfold dlag. apply Rnum_add; [exact Ne|]. apply Rnum_add.
      + exact (dot2_sound K dim rho _ (d_arr (get_arr (item 0 (run_s "ccsd_simple" aT)))) _ _ cO cV
          (HR 16%positive [cO; cV] L1 HL1 (fun _ => eq_refl)) A1 eq_refl S3).
      + apply quart_sound.
        exact (dot4_sound K dim rho _ (d_arr (get_arr (item 1 (run_s "ccsd_simple" aT)))) _ _ cO cO cV cV
          (HR 17%positive [cO; cO; cV; cV] L2 (proj1 HL2) (fun _ => eq_refl)) A2 eq_refl S4).
    - unfold lamcon. apply Rnum_add.
      + exact (dot2_sound K dim rho _ _ _ _ cO cV B1 (HR 19%positive [cV; cO] dT1 Hd1 (fun _ => eq_refl)) M3 eq_refl).
      + apply quart_sound.
        exact (dot4_sound K dim rho _ _ _ _ cO cO cV cV B2
          (HR 20%positive [cV; cV; cO; cO] dT2 (proj1 Hd2) (fun _ => eq_refl)) M4 eq_refl).
  Qed.
End LambdaDeriv.

(** *** C04 *)
Definition isT (t : positive) : bool := match t with 14 | 15 => true | _ => false end%positive.
Definition low_arr (a : stens) : stens := STens (s_sh a) (low isT (s_ms a)).
Definition c04_s (k : nat) := low_arr (get_arr (item k (run_s "ccsd_simple" aT))).
Definition c04_l (k : nat) := get_arr (item k (run_s "lccsd_simple" aT)).
Definition c04_d := low_arr (get_arr (run_s "ccd_simple" aD)).
Definition c04_ld := get_arr (run_s "lccd_simple" aD).
Definition c04_c0 := Eval vm_compute in find_aeq so_tb (c04_s 0) (c04_l 0).
Definition c04_c1 := Eval vm_compute in find_aeq so_tb (c04_s 1) (c04_l 1).
Definition c04_c2 := Eval vm_compute in find_aeq so_tb c04_d c04_ld.
Definition c04_all : bool :=
  run_form (FTup [FArr; FArr]) "ccsd_simple" aT && run_form (FTup [FArr; FArr]) "lccsd_simple" aT &&
  run_form FArr "ccd_simple" aD && run_form FArr "lccd_simple" aD.
Lemma c04_ok : c04_all = true. Proof. vm_compute. reflexivity. Qed.
Lemma c04_ok0 : aeq_chk so_tb (c04_s 0) (c04_l 0) c04_c0 = true. Proof. vm_compute. reflexivity. Qed.
Lemma c04_ok1 : aeq_chk so_tb (c04_s 1) (c04_l 1) c04_c1 = true. Proof. vm_compute. reflexivity. Qed.
Lemma c04_ok2 : aeq_chk so_tb c04_d c04_ld c04_c2 = true. Proof. vm_compute. reflexivity. Qed.

Section Linear.
  Variable K : cring.
  Local Open Scope K_scope.
  Variables no nv : nat.
  Variable F : one_e K.
  Variable I : two_e K.
  Variables T1 T2 : tensor K.
  Hypothesis HF : one_e_ok no nv F.
  Hypothesis HI : two_e_ok no nv I.
  Hypothesis H1 : t1_ok no nv T1.
  Hypothesis H2 : t2_ok no nv T2.
  Notation dim := (so_dim no nv).
  Notation DK := (DualK K).
  Let rho := rho_t K F I T1 T2 no nv.
  Let rhoD := so_rho DK (lift_one_e F) (lift_two_e I) (infinitesimal T1) (infinitesimal T2)
    (lift (tzeros K [no; nv])) (lift (tzeros K [no; no; nv; nv])) c0
    (fun t => rho_e K rho isT t).
  Lemma rhoE_eq t idx : rhoD t idx = rho_e K rho isT t idx.
  Proof. unfold rhoD. do 5 (destruct t as [t|t|]; try reflexivity). Qed.

  (** constant plus first-order part of an array over the dual numbers *)
  Definition lin_parts (t : tensor DK) : tensor K :=
    mkT (shp t) (fun i => fst (dat t i) + snd (dat t i)).

  Lemma ccsd_linear_part : exists S1 S2 R1 R2,
    returns (K := DK) "ccsd_simple"
      [py_one_e (lift_one_e F); py_two_e (lift_two_e I); arr (infinitesimal T1);
       arr (infinitesimal T2)] (tup [arr S1; arr S2]) /\
    returns (K := K) "lccsd_simple" [py_one_e F; py_two_e I; arr T1; arr T2] (tup [arr R1; arr R2]) /\
    teq (lin_parts S1) R1 /\ teq (lin_parts S2) R2.
  Proof.
    pose proof c04_ok as H. unfold c04_all in H. apply andb_prop in H. destruct H as [H _].
    apply andb_prop in H. destruct H as [H _]. apply andb_prop in H. destruct H as [E1 E2].
    assert (X1 : one_e_ok no nv (lift_one_e F)) by auto with soctx.
    assert (X2 : two_e_ok no nv (lift_two_e I)) by auto with soctx.
    assert (X3 : t1_ok no nv (infinitesimal T1)) by exact H1.
    assert (X4 : t2_ok no nv (infinitesimal T2)) by auto with soctx.
    destruct (run_pair_sound DK dim rhoD _ _ [py_one_e (lift_one_e F); py_two_e (lift_two_e I);
      arr (infinitesimal T1); arr (infinitesimal T2)] E1)
      as (S1 & S2 & Rs & A1 & A2). { unfold rhoD; so_args. }
    destruct (run_pair_sound K dim rho _ _ [py_one_e F; py_two_e I; arr T1; arr T2] E2)
      as (R1 & R2 & Rr & B1 & B2). { unfold rho; so_args. }
    exists S1, S2, R1, R2. split; auto. split; auto.
    apply (Rarr_rho_ext _ _ _ (rho_e K rho isT) _ _ rhoE_eq) in A1. apply parts_arr in A1.
    apply (Rarr_rho_ext _ _ _ (rho_e K rho isT) _ _ rhoE_eq) in A2. apply parts_arr in A2.
    assert (HS : sym_ok K dim rho so_tb) by (unfold rho; so_args).
    split.
    - exact (aeq_sound K dim rho so_tb _ _ _ _ _ c04_ok0 HS A1 B1).
    - exact (aeq_sound K dim rho so_tb _ _ _ _ _ c04_ok1 HS A2 B2).
  Qed.

  Lemma ccd_linear_part : exists S2 R2,
    returns (K := DK) "ccd_simple"
      [py_one_e (lift_one_e F); py_two_e (lift_two_e I); arr (infinitesimal T2)] (arr S2) /\
    returns (K := K) "lccd_simple" [py_one_e F; py_two_e I; arr T2] (arr R2) /\
    teq (lin_parts S2) R2.
  Proof.
    pose proof c04_ok as H. unfold c04_all in H. apply andb_prop in H. destruct H as [H E2].
    apply andb_prop in H. destruct H as [H E1]. clear H.
    assert (X1 : one_e_ok no nv (lift_one_e F)) by auto with soctx.
    assert (X2 : two_e_ok no nv (lift_two_e I)) by auto with soctx.
    assert (X4 : t2_ok no nv (infinitesimal T2)) by auto with soctx.
    destruct (run_arr_sound DK dim rhoD _ _ [py_one_e (lift_one_e F); py_two_e (lift_two_e I);
      arr (infinitesimal T2)] E1) as (S2 & Rs & A2). { unfold rhoD; so_args. }
    destruct (run_arr_sound K dim rho _ _ [py_one_e F; py_two_e I; arr T2] E2)
      as (R2 & Rr & B2). { unfold rho; so_args. }
    exists S2, R2. split; auto. split; auto.
    apply (Rarr_rho_ext _ _ _ (rho_e K rho isT) _ _ rhoE_eq) in A2. apply parts_arr in A2.
    assert (HS : sym_ok K dim rho so_tb) by (unfold rho; so_args).
    exact (aeq_sound K dim rho so_tb _ _ _ _ _ c04_ok2 HS A2 B2).
  Qed.
End Linear.
