(** The change of energy and residuals of closed-shell coupled cluster theory:
    what the symbolic identities say about the program. *)
From Coq Require Import List Bool Arith ZArith Lia Ring String.
From Verif Require Import Scalar Tensor PySyntax PySem PySim Sym SymSound Norm CCProg CCSpec Engine Tools Dual SOCtx
  NpModel SpinModel SpinSpec SpinOut CCSpin CCDeriv CCRest RCtx RespSpec URespSpec UResp URespThm RResp.
Import ListNotations.
Local Open Scope string_scope. Local Open Scope list_scope.

Section Scale.
  Variable K : cring.
  Local Open Scope K_scope.
  Add Ring Kr_rrs : (c_th K).
  Variable dim : cls -> nat.
  Variable rho : positive -> list nat -> K.
  Lemma dbl_sound a x : Rnum K dim rho a x -> Rnum K dim rho (s_dbl a) (twice x).
  Proof.
    intros H. apply (Rnum_scale K dim rho 2 0) in H. unfold s_dbl, twice.
    replace ((1 + 1) * x) with (dyad 2 0 * x); [exact H|]. unfold dyad. simpl. ring.
  Qed.
  Lemma sub_sound a b x y : Rnum K dim rho a x -> Rnum K dim rho b y -> Rnum K dim rho (a ++ s_ngt b) (x - y).
  Proof.
    intros Ha Hb. apply (Rnum_scale K dim rho (-1) 0) in Hb. unfold s_ngt.
    replace (x - y) with (x + dyad (-1) 0 * y); [apply Rnum_add; assumption|]. unfold dyad. simpl. ring.
  Qed.
  Lemma closed4_sound a b c (t u w : tensor K) x y z v m n k l :
    Rarr K dim rho a t -> Rarr K dim rho b u -> Rarr K dim rho c w ->
    s_sh a = [x; y; z; v] -> s_sh b = [z; v; x; y] -> s_sh c = [z; v; y; x] -> [m; n; k; l] = map dim [x; y; z; v] ->
    Rnum K dim rho (s_closed4 a b c) (closed4 m n k l t u w).
  Proof.
    intros A B C Ea Eb Ec E. unfold s_closed4, closed4. apply sub_sound.
    - apply dbl_sound. eapply dot4_at; eauto.
    - eapply dot4_at; eauto.
      + apply swap_sound; [right; left; reflexivity|rewrite Ec; reflexivity|exact C].
      + erewrite swap_sh; [|exact Ec|reflexivity]. reflexivity.
  Qed.
End Scale.

Section Sound.
  Variable K : cring.
  Local Open Scope K_scope.
  Variables no nv : nat.
  Variables F dF : one_e K.
  Variables J dJ : two_e_full K.
  Variables T1 T2 dT1 dT2 L1 L2 : tensor K.
  Hypothesis HF : one_e_ok no nv F.
  Hypothesis HJ : two_e_full_ok no nv no nv J.
  Hypothesis PJ : pair_sym_full J.
  Hypothesis H1 : shp T1 = [nv; no].
  Hypothesis H2 : shp T2 = [nv; nv; no; no].
  Hypothesis P2 : pair_sym T2.
  Hypothesis H3 : shp L1 = [no; nv].
  Hypothesis H4 : shp L2 = [no; no; nv; nv].
  Hypothesis P4 : pair_sym L2.
  Notation DK := (DualK K).
  Notation dim := (so_dim no nv).
  Let rho1 := r_rho K no nv F J T1 T2 L1 L2 c0.

  Lemma rpair_sound rho l1 l2 r1 r2 (a b c d : tensor K) :
    Rarr K dim rho l1 a -> Rarr K dim rho l2 b -> Rarr K dim rho r1 c -> Rarr K dim rho r2 d ->
    [s_sh l1; s_sh l2] = [[cO; cV]; [cO; cO; cV; cV]] -> [s_sh r1; s_sh r2] = [[cV; cO]; [cV; cV; cO; cO]] ->
    Rnum K dim rho (s_rpair l1 l2 r1 r2) (r_pairing no nv a b c d).
  Proof.
    intros A B C D E E'. injection E as E1 E2. injection E' as E1' E2'.
    unfold s_rpair, r_pairing. apply Rnum_add.
    - apply dbl_sound. eapply dot2_at; eauto.
    - eapply closed4_sound; eauto.
  Qed.

  Definition r_rdm_input : list (pyval K) := [arr T1; arr T2; arr L1; arr L2].
  Definition Rrrdm (rho : positive -> list nat -> K) (P : string -> tensor K) : Prop :=
    forall e, In e r_rd_list -> Rarr K dim rho (rblk (fst e)) (P (fst e)) /\ s_sh (rblk (fst e)) = snd e.
  Lemma r_rdm_exists rho : Forall2 (Rval K dim rho) srR r_rdm_input ->
    exists P : string -> tensor K,
      (forall f, In f r_density_functions -> returns f r_rdm_input (arr (P f))) /\ Rrrdm rho P.
  Proof.
    intros HA.
    destruct (named_choice (tzeros K []) (fun (e : string * list cls) (P : tensor K) =>
      returns (fst e) r_rdm_input (arr P) /\ Rarr K dim rho (rblk (fst e)) P /\ s_sh (rblk (fst e)) = snd e) r_rd_list)
      as (P & HP).
    - cbn. repeat constructor; cbn; intuition discriminate.
    - intros e He. pose proof (proj1 (forallb_forall _ _) r_rd_ok _ He) as H. unfold r_rd_chk in H.
      apply andb_prop in H. destruct H as [X1 X2]. apply cls_list_eqb_eq in X2.
      destruct (run_arr_sound K dim rho _ _ _ X1 HA) as (t & R & A). exists t. auto.
    - exists P. split.
      + intros f Hin. unfold r_density_functions in Hin.
        repeat (destruct Hin as [<-|Hin]; [
          match goal with |- returns ?f _ _ =>
            match eval cbv in (find (fun e => String.eqb (fst e) f) r_rd_list) with
            | Some ?e => refine (proj1 (HP e _)); cbn; tauto end end|]). contradiction.
      + intros e He. exact (proj2 (HP e He)).
  Qed.

  Section Con.
    Variable rho : positive -> list nat -> K.
    Variable h : positive -> positive.
    Variable f : one_e K.
    Variable j : two_e_full K.
    Variables x1 x2 : tensor K.
    Variable P : string -> tensor K.
    Hypothesis HP : Rrrdm rho P.
    Hypothesis Hf : one_e_ok no nv f.
    Hypothesis Hj : two_e_full_ok no nv no nv j.
    Let rhoh := r_rho K no nv f j x1 x2 L1 L2 c0.
    Hypothesis Hrl : forall t, (16 <= t <= 17)%positive -> rho t = rho1 t.
    Hypothesis Hrh : forall t, (t <= 4 \/ 61 <= t <= 76)%positive -> rho (h t) = rhoh t.

    Lemma r_Rin t sh u : (16 <= t <= 17)%positive -> shp u = map dim sh -> rho1 t = dat u -> Rarr K dim rho (s_input t sh) u.
    Proof. intros Ht Hs E. apply input_sound; [exact Hs|]. intros idx _. rewrite (Hrl t Ht), E. reflexivity. Qed.
    Lemma r_Rhi t sh u : (t <= 4 \/ 61 <= t <= 76)%positive -> shp u = map dim sh -> rhoh t = dat u -> Rarr K dim rho (r_hi h t sh) u.
    Proof. intros Ht Hs E. apply input_sound; [exact Hs|]. intros idx _. rewrite (Hrh t Ht), E. reflexivity. Qed.
    Lemma r_Rblk g sh : In (g, sh) r_rd_list -> Rarr K dim rho (rblk g) (P g) /\ s_sh (rblk g) = sh.
    Proof. intros H. exact (HP _ H). Qed.

    Ltac blk_with g tac := match eval cbv in (find (fun e => String.eqb (fst e) g) r_rd_list) with
      | Some (_, ?sh) => let H := constr:(r_Rblk g sh ltac:(cbn; tauto)) in tac H end.
    Ltac ra := lazymatch goal with
      | |- Rarr _ _ _ (s_input _ _) _ => apply r_Rin; [lia | first [assumption | cbn; assumption] | reflexivity]
      | |- Rarr _ _ _ (r_hi _ _ _) _ => apply r_Rhi; [lia | first [assumption | cbn; assumption] | reflexivity]
      | |- Rarr _ _ _ (rblk ?g) _ => blk_with g ltac:(fun H => exact (proj1 H))
      end.
    Ltac sa := lazymatch goal with
      | |- s_sh (s_input _ _) = _ => reflexivity
      | |- s_sh (r_hi _ _ _) = _ => reflexivity
      | |- s_sh (rblk ?g) = _ => blk_with g ltac:(fun H => exact (proj2 H))
      end.
    Opaque rblk run_s s_dot s_input s_closed4 closed4.

    Lemma r_con_sound : Rnum K dim rho (r_con h) (r_contraction no nv L1 L2 P f j).
    Proof.
      destruct Hf as (F1 & F2 & F3 & F4).
      destruct Hj as (J1 & J2 & J3 & J4 & J5 & J6 & J7 & J8 & J9 & J10 & J11 & J12 & J13 & J14 & J15 & J16).
      unfold r_con, r_contraction.
      repeat first [apply Rnum_add | apply dbl_sound];
        lazymatch goal with
        | |- Rnum _ _ _ (s_dot q2 _ _) _ => eapply dot2_at; [ra|ra|sa|sa|reflexivity]
        | |- Rnum _ _ _ (s_closed4 _ _ _) _ => eapply closed4_sound; [ra|ra|ra|sa|sa|sa|reflexivity]
        end.
    Qed.
  End Con.

  Lemma r_lagrangian :
    exists (e : K) R1 R2 P,
    returns "rcc_energy" [arr T1; arr T2; arr (ov F); arr (foovv J)] (numv e) /\
    returns "rccsd_stanton" [py_one_e F; py_two_e_full J; arr T1; arr T2] (tup [arr R1; arr R2]) /\
    (forall f, In f r_density_functions -> returns f r_rdm_input (arr (P f))) /\
    e + r_pairing no nv L1 L2 R1 R2 = r_contraction no nv L1 L2 P F J.
  Proof.
    assert (Hsy : sym_ok K dim rho1 r_tb) by (apply r_sym; assumption).
    pose proof HF as HF'. pose proof HJ as HJ'. destruct HF as (F1 & F2 & F3 & F4).
    destruct HJ as (J1 & J2 & J3 & J4 & J5 & J6 & J7 & J8 & J9 & J10 & J11 & J12 & J13 & J14 & J15 & J16).
    pose proof r_runs as HR. apply andb_prop in HR. destruct HR as [HR _]. apply andb_prop in HR. destruct HR as [X1 X2].
    destruct (run_num_sound K dim rho1 "rcc_energy" srE [arr T1; arr T2; arr (ov F); arr (foovv J)] X1) as (e & Re & Ne). { svs. }
    destruct (run_pair_sound K dim rho1 "rccsd_stanton" r_res [py_one_e F; py_two_e_full J; arr T1; arr T2] X2)
      as (R1 & R2 & Rs & A1 & A2). { unfold r_res; svs. }
    destruct (r_rdm_exists rho1) as (P & RP & HP). { unfold r_rdm_input; svs. }
    exists e, R1, R2, P. split; [exact Re|]. split; [exact Rs|]. split; [exact RP|].
    eapply (neq_sound K dim rho1 r_tb r_lag (r_con (fun t => t)) _ _ _ r_chk2 Hsy).
    - apply Rnum_add; [exact Ne|]. apply rpair_sound; [| |exact A1|exact A2|reflexivity|exact r_res_shs];
        (apply input_sound; [assumption|intros; reflexivity]).
    - apply r_con_sound with (x1 := T1) (x2 := T2); [exact HP|exact HF'|exact HJ'| |]; intros; reflexivity.
  Qed.

  Hypothesis HdF : one_e_ok no nv dF.
  Hypothesis HdJ : two_e_full_ok no nv no nv dJ.
  Hypothesis PdJ : pair_sym_full dJ.
  Hypothesis Hd1 : shp dT1 = [nv; no].
  Hypothesis Hd2 : shp dT2 = [nv; nv; no; no].
  Hypothesis Pd2 : pair_sym dT2.
  Let rho1d := r_rho K no nv dF dJ dT1 dT2 L1 L2 c0.
  Let rho := rho2 rho1 rho1d.
  Let rhoD := rho_d K rho rN.

  Lemma r_change :
    exists (e : DK) R1 R2 M1 M2 P,
    returns (K := DK) "rcc_energy" [arr (perturbed T1 dT1); arr (perturbed T2 dT2); arr (perturbed (ov F) (ov dF)); arr (perturbed (foovv J) (foovv dJ))] (numv e) /\
    returns (K := DK) "rccsd_stanton" [py_one_e (perturbed_one_e F dF); py_two_e_full (perturbed_two_e_full J dJ);
      arr (perturbed T1 dT1); arr (perturbed T2 dT2)] (tup [arr R1; arr R2]) /\
    returns (K := K) "rccsd_lambda_opt" [py_one_e F; py_two_e_full J; arr L1; arr L2; arr T1; arr T2] (tup [arr M1; arr M2]) /\
    (forall f, In f r_density_functions -> returns (K := K) f r_rdm_input (arr (P f))) /\
    snd e + r_pairing no nv L1 L2 (tangent_part R1) (tangent_part R2) =
    r_contraction no nv L1 L2 P dF dJ + r_pairing no nv M1 M2 dT1 dT2.
  Proof.
    assert (Hsy : sym_ok K dim rho r_tb2) by (apply rho2_sym; [reflexivity| |]; apply r_sym; assumption).
    destruct HF as (F1 & F2 & F3 & F4).
    destruct HJ as (J1 & J2 & J3 & J4 & J5 & J6 & J7 & J8 & J9 & J10 & J11 & J12 & J13 & J14 & J15 & J16).
    pose proof r_runs as HR. apply andb_prop in HR. destruct HR as [HR X3]. apply andb_prop in HR. destruct HR as [X1 X2].
    destruct (run_num_sound DK dim rhoD "rcc_energy" srE [arr (perturbed T1 dT1); arr (perturbed T2 dT2); arr (perturbed (ov F) (ov dF)); arr (perturbed (foovv J) (foovv dJ))] X1) as (e & Re & Ne). { svs. }
    destruct (run_pair_sound DK dim rhoD "rccsd_stanton" r_res [py_one_e (perturbed_one_e F dF); py_two_e_full (perturbed_two_e_full J dJ);
      arr (perturbed T1 dT1); arr (perturbed T2 dT2)] X2)
      as (R1 & R2 & Rs & A1 & A2). { unfold r_res; svs. }
    destruct (run_pair_sound K dim rho "rccsd_lambda_opt" r_lar [py_one_e F; py_two_e_full J; arr L1; arr L2; arr T1; arr T2] X3)
      as (M1 & M2 & Rm & B1 & B2). { unfold r_lar; svs. }
    destruct (r_rdm_exists rho) as (P & RP & HP). { unfold r_rdm_input; svs. }
    exists e, R1, R2, M1, M2, P. split; [exact Re|]. split; [exact Rs|]. split; [exact Rm|]. split; [exact RP|].
    apply snd_num in Ne. apply snd_arr in A1, A2.
    eapply (neq_sound K dim rho r_tb2 r_dlag r_drhs _ _ _ r_chk1 Hsy).
    - apply Rnum_add; [exact Ne|]. apply rpair_sound; [| |exact A1|exact A2|reflexivity|exact r_d_shs];
        (apply input_sound; [assumption|intros; reflexivity]).
    - apply Rnum_add.
      + apply r_con_sound with (x1 := dT1) (x2 := dT2); [exact HP|exact HdF|exact HdJ| |].
        * intros t Ht. apply rho2_small. unfold small. apply Pos.leb_le. lia.
        * intros t Ht. apply rho2_sh.
      + apply rpair_sound; [exact B1|exact B2| | |exact r_lar_shs|reflexivity];
          (apply input_sound; [assumption|intros; reflexivity]).
  Qed.
End Sound.
