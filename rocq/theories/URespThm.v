(** The change of energy and residuals of unrestricted coupled cluster theory:
    what the symbolic identities say about the program. *)
From Coq Require Import List Bool Arith ZArith Lia Ring String.
From Verif Require Import Scalar Tensor PySyntax PySem PySim Sym SymSound Norm CCProg CCSpec Engine Tools Dual SOCtx
  NpModel SpinModel SpinSpec UCtx SpinOut CCSpin CCDeriv CCRest RespSpec URespSpec UResp.
Import ListNotations.
Local Open Scope string_scope. Local Open Scope list_scope.

Definition tangent_part {K : cring} (t : tensor (DualK K)) : tensor K := mkT (shp t) (fun i => snd (dat t i)).

Ltac sv := first
  [ apply Rx_arr; apply input_sound; [first [assumption | cbn; assumption]|intros; reflexivity]
  | apply Rx_tup; repeat apply Forall2_cons; try apply Forall2_nil; sv
  | apply Rx_obj; repeat (constructor; [split; [reflexivity|sv]|]); constructor ].
Ltac svs := repeat apply Forall2_cons; try apply Forall2_nil; sv.

Section Sound.
  Variable K : cring.
  Local Open Scope K_scope.
  Variables noa nva nob nvb : nat.
  Variables Fa dFa Fb dFb : one_e K.
  Variables Ia dIa Ib dIb : two_e K.
  Variables J dJ : two_e_full K.
  Variables T1a T1b T2aa T2ab T2bb dT1a dT1b dT2aa dT2ab dT2bb L1a L1b L2aa L2ab L2bb : tensor K.
  Hypothesis HH : u_ham_ok noa nva nob nvb Fa Fb Ia Ib J.
  Hypothesis HT : u_amps_ok noa nva nob nvb T1a T1b T2aa T2ab T2bb.
  Hypothesis HL : u_lams_ok noa nva nob nvb L1a L1b L2aa L2ab L2bb.
  Notation DK := (DualK K).
  Notation dim := (u_dim noa nva nob nvb).

  Let rho1 := u_rho K Fa Fb Ia Ib J T1a T1b T2aa T2ab T2bb L1a L1b L2aa L2ab L2bb c0.

  Definition amp_list (a b aa ab bb : tensor K) (i j : nat) : tensor K :=
    match i, j with 0, 0 => a | 0, _ => b | _, 0 => aa | _, 1 => ab | _, _ => bb end%nat.
  (** related in all five blocks *)
  Definition Ramps (rho : positive -> list nat -> K) (s : nat -> nat -> stens) (a b aa ab bb : tensor K) (shs : list (list cls)) : Prop :=
    Rarr K dim rho (s 0 0)%nat a /\ Rarr K dim rho (s 0 1)%nat b /\
    Rarr K dim rho (s 1 0)%nat aa /\ Rarr K dim rho (s 1 1)%nat ab /\ Rarr K dim rho (s 1 2)%nat bb /\
    shs5 s = shs.
  Definition t_shs : list (list cls) := [[va; oa]; [vb; ob]; [va; va; oa; oa]; [va; vb; oa; ob]; [vb; vb; ob; ob]].
  Definition l_shs : list (list cls) := [[oa; va]; [ob; vb]; [oa; oa; va; va]; [oa; ob; va; vb]; [ob; ob; vb; vb]].

  Lemma upair_sound rho l r a b aa ab bb a' b' aa' ab' bb' :
    Ramps rho l a b aa ab bb l_shs -> Ramps rho r a' b' aa' ab' bb' t_shs ->
    Rnum K dim rho (s_upair l r) (u_pairing noa nva nob nvb a b aa ab bb a' b' aa' ab' bb').
  Proof.
    intros (A1 & A2 & A3 & A4 & A5 & E) (B1 & B2 & B3 & B4 & B5 & E').
    unfold l_shs in E. injection E as E1 E2 E3 E4 E5. unfold t_shs in E'. injection E' as E1' E2' E3' E4' E5'.
    unfold s_upair, u_pairing. repeat first [apply Rnum_add | apply quart_sound];
      [eapply dot2_at | eapply dot2_at | eapply dot4_at | eapply dot4_at | eapply dot4_at];
      try eassumption; reflexivity.
  Qed.

  (** the density matrices *)
  Definition rdm_input : list (pyval K) := [arr T1a; arr T1b; arr T2aa; arr T2ab; arr T2bb; arr L1a; arr L1b; arr L2aa; arr L2ab; arr L2bb].
  Definition Rrdm (rho : positive -> list nat -> K) (P : string -> nat -> tensor K) : Prop :=
    forall e, In e u_rd_list -> forall k, (k < List.length (snd e))%nat ->
      Rarr K dim rho (ublk (fst e) k) (P (fst e) k) /\ s_sh (ublk (fst e) k) = nth k (snd e) [].

  Lemma rdm_exists rho : Forall2 (Rval K dim rho) suR rdm_input ->
    exists P : string -> nat -> tensor K,
      (forall f n, In (f, n) u_density_functions -> returns f rdm_input (tup (map (fun k => arr (P f k)) (seq 0 n)))) /\ Rrdm rho P.
  Proof.
    intros HA.
    destruct (named_choice (fun _ => tzeros K []) (fun (e : string * list (list cls)) (P : nat -> tensor K) =>
      returns (fst e) rdm_input (tup (map (fun k => arr (P k)) (seq 0 (List.length (snd e))))) /\
      forall k, (k < List.length (snd e))%nat -> Rarr K dim rho (ublk (fst e) k) (P k) /\ s_sh (ublk (fst e) k) = nth k (snd e) []) u_rd_list)
      as (P & HP).
    - cbn. repeat constructor; cbn; intuition discriminate.
    - intros e He. pose proof (proj1 (forallb_forall _ _) u_rd_ok _ He) as H. unfold u_rd_chk in H.
      apply andb_prop in H. destruct H as [H1 H2]. rewrite forallb_forall in H2.
      destruct (run_arrs_sound K dim rho _ _ _ _ H1 HA) as (ts & R & Hl & Hk). rewrite seq_length in *.
      exists (fun k => nth k ts (tzeros K [])). split.
      + rewrite <- Hl. replace (map (fun k => arr (nth k ts (tzeros K []))) (seq 0 (List.length ts))) with (map arr ts); [exact R|].
        clear. rewrite <- (map_map (fun k => nth k ts (tzeros K [])) arr). f_equal. symmetry.
        induction ts as [|t ts IH]; [reflexivity|]. cbn. f_equal. rewrite <- seq_shift, map_map. exact IH.
      + intros k Hlt. split; [apply Hk; exact Hlt|]. apply cls_list_eqb_eq. apply H2. apply in_seq. lia.
    - exists P. split.
      + intros f n Hin. unfold u_density_functions in Hin.
        repeat (destruct Hin as [E|Hin]; [injection E as <- <-; 
          match goal with |- returns ?f _ _ =>
            match eval cbv in (find (fun e => String.eqb (fst e) f) u_rd_list) with
            | Some ?e => refine (proj1 (HP e _)); cbn; tauto end end|]). contradiction.
      + intros e He. exact (proj2 (HP e He)).
  Qed.

  (** contraction with any Hamiltonian stored at the numbers [h t] *)
  Section Con.
    Variable rho : positive -> list nat -> K.
    Variable h : positive -> positive.
    Variables fa fb : one_e K.
    Variables ia ib : two_e K.
    Variable j : two_e_full K.
    Variables x1a x1b x2aa x2ab x2bb : tensor K.
    Variable P : string -> nat -> tensor K.
    Hypothesis HP : Rrdm rho P.
    Hypothesis Hh : u_ham_ok noa nva nob nvb fa fb ia ib j.
    Hypothesis Hrl : forall t, (86 <= t <= 90)%positive -> rho t = rho1 t.
    Hypothesis Hrh : forall t, (31 <= t <= 76)%positive -> rho (h t) = u_rho K fa fb ia ib j x1a x1b x2aa x2ab x2bb L1a L1b L2aa L2ab L2bb c0 t.

    Lemma Rin t sh u : (86 <= t <= 90)%positive -> shp u = map dim sh -> rho1 t = dat u -> Rarr K dim rho (s_input t sh) u.
    Proof. intros Ht Hs E. apply input_sound; [exact Hs|]. intros idx _. rewrite (Hrl t Ht), E. reflexivity. Qed.
    Lemma Rhi t sh u : (31 <= t <= 76)%positive -> shp u = map dim sh ->
      u_rho K fa fb ia ib j x1a x1b x2aa x2ab x2bb L1a L1b L2aa L2ab L2bb c0 t = dat u -> Rarr K dim rho (hi h t sh) u.
    Proof. intros Ht Hs E. apply input_sound; [exact Hs|]. intros idx _. rewrite (Hrh t Ht), E. reflexivity. Qed.
    Lemma Rblk f shs : In (f, shs) u_rd_list -> forall k, (k < List.length shs)%nat ->
      Rarr K dim rho (ublk f k) (P f k) /\ s_sh (ublk f k) = nth k shs [].
    Proof. intros H. exact (HP _ H). Qed.

    Ltac blk_with f k tac := match eval cbv in (find (fun e => String.eqb (fst e) f) u_rd_list) with
      | Some (_, ?shs) => let H := constr:(Rblk f shs ltac:(cbn; tauto) k ltac:(cbn; lia)) in tac H end.
    Ltac ra := lazymatch goal with
      | |- Rarr _ _ _ (s_input _ _) _ => apply Rin; [split; vm_compute; discriminate | first [assumption | cbn; assumption] | reflexivity]
      | |- Rarr _ _ _ (hi _ _ _) _ => apply Rhi; [split; vm_compute; discriminate | first [assumption | cbn; assumption] | reflexivity]
      | |- Rarr _ _ _ (ublk ?f ?k) _ => blk_with f k ltac:(fun H => exact (proj1 H))
      | |- Rarr _ _ _ (s_neg _) _ => apply S_aneg; ra
      | |- Rarr _ _ _ (s_swap _ _) _ => apply swap_sound; [first [left; reflexivity | right; left; reflexivity | right; right; reflexivity] | | ra]
      end.
    Ltac sa := lazymatch goal with
      | |- s_sh (s_input _ _) = _ => reflexivity
      | |- s_sh (hi _ _ _) = _ => reflexivity
      | |- s_sh (ublk ?f ?k) = _ => blk_with f k ltac:(fun H => exact (proj2 H))
      | |- s_sh (s_neg ?a) = _ => change (s_sh (s_neg a)) with (s_sh a); sa
      | |- s_sh (s_swap _ _) = _ => erewrite swap_sh; [reflexivity | sa | reflexivity]
      end.
    Ltac sl := lazymatch goal with |- List.length (s_sh (ublk ?f ?k)) = 4%nat =>
      blk_with f k ltac:(fun H => rewrite (proj2 H); reflexivity) end.
    Opaque ublk run_s s_dot s_input.

    Lemma con_sound : Rnum K dim rho (u_con h) (u_contraction noa nva nob nvb L1a L1b L2aa L2ab L2bb P fa fb ia ib j).
    Proof.
      destruct HL as (V1 & V2 & (V3 & _) & V4 & (V5 & _)).
      destruct Hh as ((F1 & F2 & F3 & F4) & (G1 & G2 & G3 & G4) &
        [(S1 & S2 & S3 & S4 & S5 & S6 & S7 & S8 & S9) _] & [(S1' & S2' & S3' & S4' & S5' & S6' & S7' & S8' & S9') _] &
        (J1 & J2 & J3 & J4 & J5 & J6 & J7 & J8 & J9 & J10 & J11 & J12 & J13 & J14 & J15 & J16)).
      unfold u_con, u_same, u_mixed, u_contraction, contraction, mixed_contraction. cbn [append].
      repeat first [apply Rnum_add | apply quart_sound | apply halved_sound];
        lazymatch goal with
        | |- Rnum _ _ _ (s_dot q2 _ _) _ => eapply dot2_at; [ra|ra|sa|sa|reflexivity]
        | |- Rnum _ _ _ (s_dot q4 _ _) _ => eapply dot4_at; [ra; try sl|ra; try sl|sa|sa|reflexivity]
        end.
    Qed.
  End Con.

  Hypothesis HdH : u_ham_ok noa nva nob nvb dFa dFb dIa dIb dJ.
  Hypothesis HdT : u_amps_ok noa nva nob nvb dT1a dT1b dT2aa dT2ab dT2bb.
  Let rho1d := u_rho K dFa dFb dIa dIb dJ dT1a dT1b dT2aa dT2ab dT2bb L1a L1b L2aa L2ab L2bb c0.
  Let rho := rho2 rho1 rho1d.
  Let rhoD := rho_d K rho uN.

  Lemma u_rho_sym : sym_ok K dim rho u_tb2.
  Proof. apply rho2_sym; [reflexivity| |]; apply u_sym; assumption. Qed.

  Lemma run_five (K' : cring) (r : positive -> list nat -> K') f args vs : run_form f_amps f args = true -> Forall2 (Rval K' dim r) args vs ->
    exists a b aa ab bb, returns f vs (tup [tup [arr a; arr b]; tup [arr aa; arr ab; arr bb]]) /\
      Rarr K' dim r (u_amp f args 0 0) a /\ Rarr K' dim r (u_amp f args 0 1) b /\
      Rarr K' dim r (u_amp f args 1 0) aa /\ Rarr K' dim r (u_amp f args 1 1) ab /\ Rarr K' dim r (u_amp f args 1 2) bb.
  Proof.
    intros H HA. destruct (run_amps_sound K' dim r _ _ _ H HA) as (a & b & aa & ab & bb & R & A1 & A2).
    exists a, b, aa, ab, bb. split; [exact R|]. unfold amps_of in A1, A2. cbn [fst snd] in A1, A2.
    apply F2_2 in A1. apply F2_3 in A2. unfold u_amp. tauto.
  Qed.

  Definition u_energy_input (K' : cring) (a b aa ab bb : tensor K') (Fa Fb : one_e K') (Ia Ib : two_e K') (J : two_e_full K') : list (pyval K') :=
    [tup [arr a; arr b]; tup [arr aa; arr ab; arr bb]; arr (ov Fa); arr (ov Fb); arr (oovv Ia); arr (oovv Ib); arr (foovv J)].

  Theorem u_change :
    exists (e : DK) R1a R1b R2aa R2ab R2bb M1a M1b M2aa M2ab M2bb P,
    returns (K := DK) "ucc_energy"
      [tup [arr (perturbed T1a dT1a); arr (perturbed T1b dT1b)];
       tup [arr (perturbed T2aa dT2aa); arr (perturbed T2ab dT2ab); arr (perturbed T2bb dT2bb)];
       arr (perturbed (ov Fa) (ov dFa)); arr (perturbed (ov Fb) (ov dFb)); arr (perturbed (oovv Ia) (oovv dIa));
       arr (perturbed (oovv Ib) (oovv dIb)); arr (perturbed (foovv J) (foovv dJ))] (numv e) /\
    returns (K := DK) "uccsd_stanton"
      [py_one_e (perturbed_one_e Fa dFa); py_one_e (perturbed_one_e Fb dFb); py_two_e (perturbed_two_e Ia dIa);
       py_two_e (perturbed_two_e Ib dIb); py_two_e_full (perturbed_two_e_full J dJ);
       tup [arr (perturbed T1a dT1a); arr (perturbed T1b dT1b)];
       tup [arr (perturbed T2aa dT2aa); arr (perturbed T2ab dT2ab); arr (perturbed T2bb dT2bb)]]
      (tup [tup [arr R1a; arr R1b]; tup [arr R2aa; arr R2ab; arr R2bb]]) /\
    returns (K := K) "uccsd_lambda_opt"
      [py_one_e Fa; py_one_e Fb; py_two_e Ia; py_two_e Ib; py_two_e_full J;
       tup [arr L1a; arr L1b]; tup [arr L2aa; arr L2ab; arr L2bb]; tup [arr T1a; arr T1b]; tup [arr T2aa; arr T2ab; arr T2bb]]
      (tup [tup [arr M1a; arr M1b]; tup [arr M2aa; arr M2ab; arr M2bb]]) /\
    (forall f n, In (f, n) u_density_functions -> returns (K := K) f rdm_input (tup (map (fun k => arr (P f k)) (seq 0 n)))) /\
    snd e + u_pairing noa nva nob nvb L1a L1b L2aa L2ab L2bb (tangent_part R1a) (tangent_part R1b)
        (tangent_part R2aa) (tangent_part R2ab) (tangent_part R2bb) =
    u_contraction noa nva nob nvb L1a L1b L2aa L2ab L2bb P dFa dFb dIa dIb dJ +
    u_pairing noa nva nob nvb M1a M1b M2aa M2ab M2bb dT1a dT1b dT2aa dT2ab dT2bb.
  Proof.
    destruct HH as ((F1 & F2 & F3 & F4) & (G1 & G2 & G3 & G4) &
      [(S1 & S2 & S3 & S4 & S5 & S6 & S7 & S8 & S9) _] & [(S1' & S2' & S3' & S4' & S5' & S6' & S7' & S8' & S9') _] &
      (J1 & J2 & J3 & J4 & J5 & J6 & J7 & J8 & J9 & J10 & J11 & J12 & J13 & J14 & J15 & J16)).
    destruct HT as (U1 & U2 & (U3 & _) & U4 & (U5 & _)). destruct HL as (V1 & V2 & (V3 & _) & V4 & (V5 & _)).
    destruct HdT as (W1 & W2 & (W3 & _) & W4 & (W5 & _)).
    pose proof u_runs as HR. apply andb_prop in HR. destruct HR as [HR X3]. apply andb_prop in HR. destruct HR as [X1 X2].
    destruct (run_num_sound DK dim rhoD "ucc_energy" suE 
      [tup [arr (perturbed T1a dT1a); arr (perturbed T1b dT1b)];
       tup [arr (perturbed T2aa dT2aa); arr (perturbed T2ab dT2ab); arr (perturbed T2bb dT2bb)];
       arr (perturbed (ov Fa) (ov dFa)); arr (perturbed (ov Fb) (ov dFb)); arr (perturbed (oovv Ia) (oovv dIa));
       arr (perturbed (oovv Ib) (oovv dIb)); arr (perturbed (foovv J) (foovv dJ))] X1) as (e & Re & Ne). { svs. }
    destruct (run_five DK rhoD "uccsd_stanton" u_res
      [py_one_e (perturbed_one_e Fa dFa); py_one_e (perturbed_one_e Fb dFb); py_two_e (perturbed_two_e Ia dIa);
       py_two_e (perturbed_two_e Ib dIb); py_two_e_full (perturbed_two_e_full J dJ);
       tup [arr (perturbed T1a dT1a); arr (perturbed T1b dT1b)];
       tup [arr (perturbed T2aa dT2aa); arr (perturbed T2ab dT2ab); arr (perturbed T2bb dT2bb)]] X2)
      as (R1a & R1b & R2aa & R2ab & R2bb & Rs & A1 & A2 & A3 & A4 & A5). { unfold u_res; cbn [app]; svs. }
    destruct (run_five K rho "uccsd_lambda_opt" u_lar
      [py_one_e Fa; py_one_e Fb; py_two_e Ia; py_two_e Ib; py_two_e_full J;
       tup [arr L1a; arr L1b]; tup [arr L2aa; arr L2ab; arr L2bb]; tup [arr T1a; arr T1b]; tup [arr T2aa; arr T2ab; arr T2bb]] X3)
      as (M1a & M1b & M2aa & M2ab & M2bb & Rm & B1 & B2 & B3 & B4 & B5). { unfold u_lar; cbn [app]; svs. }
    destruct (rdm_exists rho) as (P & RP & HP). { unfold rdm_input; svs. }
    exists e, R1a, R1b, R2aa, R2ab, R2bb, M1a, M1b, M2aa, M2ab, M2bb, P.
    split; [exact Re|]. split; [exact Rs|]. split; [exact Rm|]. split; [exact RP|].
    apply snd_num in Ne. apply snd_arr in A1, A2, A3, A4, A5.
    eapply (neq_sound K dim rho u_tb2 u_dlag u_drhs _ _ _ u_chk1 u_rho_sym).
    - apply Rnum_add; [exact Ne|]. apply upair_sound.
      + do 5 (split; [apply input_sound; [first [assumption | cbn; assumption]|intros; reflexivity]|]). reflexivity.
      + split; [exact A1|]. split; [exact A2|]. split; [exact A3|]. split; [exact A4|]. split; [exact A5|]. rewrite shs5_d. exact u_res_shs.
    - apply Rnum_add.
      + apply con_sound with (x1a := dT1a) (x1b := dT1b) (x2aa := dT2aa) (x2ab := dT2ab) (x2bb := dT2bb); [exact HP|exact HdH| |].
        * intros t Ht. apply rho2_small. unfold small. apply Pos.leb_le. lia.
        * intros t Ht. apply rho2_sh.
      + apply upair_sound.
        * split; [exact B1|]. split; [exact B2|]. split; [exact B3|]. split; [exact B4|]. split; [exact B5|]. exact u_lar_shs.
        * do 5 (split; [apply input_sound; [first [assumption | cbn; assumption]|intros; reflexivity]|]). reflexivity.
  Qed.

  (** the value of the Lagrangian *)
  Theorem u_lagrangian :
    exists (e : K) R1a R1b R2aa R2ab R2bb P,
    returns "ucc_energy" [tup [arr T1a; arr T1b]; tup [arr T2aa; arr T2ab; arr T2bb]; arr (ov Fa); arr (ov Fb); arr (oovv Ia); arr (oovv Ib); arr (foovv J)] (numv e) /\
    returns "uccsd_stanton"
      [py_one_e Fa; py_one_e Fb; py_two_e Ia; py_two_e Ib; py_two_e_full J; tup [arr T1a; arr T1b]; tup [arr T2aa; arr T2ab; arr T2bb]]
      (tup [tup [arr R1a; arr R1b]; tup [arr R2aa; arr R2ab; arr R2bb]]) /\
    (forall f n, In (f, n) u_density_functions -> returns f rdm_input (tup (map (fun k => arr (P f k)) (seq 0 n)))) /\
    e + u_pairing noa nva nob nvb L1a L1b L2aa L2ab L2bb R1a R1b R2aa R2ab R2bb =
    u_contraction noa nva nob nvb L1a L1b L2aa L2ab L2bb P Fa Fb Ia Ib J.
  Proof.
    assert (Hsy : sym_ok K dim rho1 u_tb) by (apply u_sym; assumption).
    pose proof HH as HH'.
    destruct HH as ((F1 & F2 & F3 & F4) & (G1 & G2 & G3 & G4) &
      [(S1 & S2 & S3 & S4 & S5 & S6 & S7 & S8 & S9) _] & [(S1' & S2' & S3' & S4' & S5' & S6' & S7' & S8' & S9') _] &
      (J1 & J2 & J3 & J4 & J5 & J6 & J7 & J8 & J9 & J10 & J11 & J12 & J13 & J14 & J15 & J16)).
    destruct HT as (U1 & U2 & (U3 & _) & U4 & (U5 & _)). destruct HL as (V1 & V2 & (V3 & _) & V4 & (V5 & _)).
    pose proof u_runs as HR. apply andb_prop in HR. destruct HR as [HR _]. apply andb_prop in HR. destruct HR as [X1 X2].
    destruct (run_num_sound K dim rho1 "ucc_energy" suE
      [tup [arr T1a; arr T1b]; tup [arr T2aa; arr T2ab; arr T2bb]; arr (ov Fa); arr (ov Fb); arr (oovv Ia); arr (oovv Ib); arr (foovv J)] X1)
      as (e & Re & Ne). { svs. }
    destruct (run_five K rho1 "uccsd_stanton" u_res
      [py_one_e Fa; py_one_e Fb; py_two_e Ia; py_two_e Ib; py_two_e_full J; tup [arr T1a; arr T1b]; tup [arr T2aa; arr T2ab; arr T2bb]] X2)
      as (R1a & R1b & R2aa & R2ab & R2bb & Rs & A1 & A2 & A3 & A4 & A5). { unfold u_res; cbn [app]; svs. }
    destruct (rdm_exists rho1) as (P & RP & HP). { unfold rdm_input; svs. }
    exists e, R1a, R1b, R2aa, R2ab, R2bb, P.
    split; [exact Re|]. split; [exact Rs|]. split; [exact RP|].
    eapply (neq_sound K dim rho1 u_tb u_lag (u_con (fun t => t)) _ _ _ u_chk2 Hsy).
    - apply Rnum_add; [exact Ne|]. apply upair_sound.
      + do 5 (split; [apply input_sound; [first [assumption | cbn; assumption]|intros; reflexivity]|]). reflexivity.
      + split; [exact A1|]. split; [exact A2|]. split; [exact A3|]. split; [exact A4|]. split; [exact A5|]. exact u_res_shs.
    - apply con_sound with (x1a := T1a) (x1b := T1b) (x2aa := T2aa) (x2ab := T2ab) (x2bb := T2bb); [exact HP|exact HH'| |]; intros; reflexivity.
  Qed.
End Sound.
