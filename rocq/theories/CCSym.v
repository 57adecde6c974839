(** Antisymmetry of the returned arrays. *)
From Coq Require Import List Bool Arith ZArith String.
From Verif Require Import Scalar Tensor PySyntax PySem PySim Sym SymSound Norm CCProg CCSpec
  Engine Tools SOCtx CCEquiv.
Import ListNotations.
Local Open Scope string_scope.

Definition shT1 : list cls := [cV; cO].
Definition shT2 : list cls := [cV; cV; cO; cO].
Definition shL1 : list cls := [cO; cV].
Definition shL2 : list cls := [cO; cO; cV; cV].

(** pair of arrays, the second antisymmetric *)
Definition pair_chk (args : list sval) (s1 s2 : list cls) (e : string * list cert * list cert) : bool :=
  let '(f, c1, c2) := e in
  run_form (FTup [FArr; FArr]) f args &&
  cls_list_eqb (s_sh (get_arr (item 0 (run_s f args)))) s1 &&
  anti4_chk so_tb s2 (get_arr (item 1 (run_s f args))) c1 c2.
Definition pair_find (args : list sval) (f : string) : string * list cert * list cert :=
  let a := get_arr (item 1 (run_s f args)) in
  (f, find_anti so_tb p_lead a, find_anti so_tb p_tail a).
(** single antisymmetric array *)
Definition one_chk (args : list sval) (s2 : list cls) (e : string * list cert * list cert) : bool :=
  let '(f, c1, c2) := e in
  run_form FArr f args && anti4_chk so_tb s2 (get_arr (run_s f args)) c1 c2.
Definition one_find (args : list sval) (f : string) : string * list cert * list cert :=
  let a := get_arr (run_s f args) in
  (f, find_anti so_tb p_lead a, find_anti so_tb p_tail a).

Lemma in_certs {A} (chk : string * A * A -> bool) l f :
  forallb chk l = true -> In f (map (fun e => fst (fst e)) l) -> exists c1 c2, chk (f, c1, c2) = true.
Proof.
  intros H Hin. apply in_map_iff in Hin. destruct Hin as ([[g c1] c2] & <- & Hg).
  simpl. exists c1, c2. exact (proj1 (forallb_forall _ _) H _ Hg).
Qed.

Section PairSound.
  Variable K : cring.
  Variable dim : cls -> nat.
  Variable rho : positive -> list nat -> K.
  Hypothesis Hs : sym_ok K dim rho so_tb.
  Lemma pair_sound args vs s1 s2 e : pair_chk args s1 s2 e = true -> Forall2 (Rval K dim rho) args vs ->
    exists S1 S2, returns (fst (fst e)) vs (tup [arr S1; arr S2]) /\ shp S1 = map dim s1 /\
      (shp S2 = map dim s2 /\ antisym_lead S2 /\ antisym_tail S2).
  Proof.
    destruct e as [[f c1] c2]. unfold pair_chk. intros H Hv. apply andb_prop in H.
    destruct H as [H E3]. apply andb_prop in H. destruct H as [E1 E2].
    destruct (run_pair_sound K dim rho f args vs E1 Hv) as (S1 & S2 & R1 & A1 & A2).
    exists S1, S2. split; auto. split.
    - apply cls_list_eqb_eq in E2. rewrite <- E2. apply A1.
    - eapply anti4_sound; eauto.
  Qed.
  Lemma one_sound args vs s2 e : one_chk args s2 e = true -> Forall2 (Rval K dim rho) args vs ->
    exists S2, returns (fst (fst e)) vs (arr S2) /\
      (shp S2 = map dim s2 /\ antisym_lead S2 /\ antisym_tail S2).
  Proof.
    destruct e as [[f c1] c2]. unfold one_chk. intros H Hv. apply andb_prop in H.
    destruct H as [E1 E3].
    destruct (run_arr_sound K dim rho f args vs E1 Hv) as (S2 & R1 & A1).
    exists S2. split; auto. eapply anti4_sound; eauto.
  Qed.
End PairSound.

(** *** C05 *)
Definition ccsd_funs : list string := ["ccsd_simple"; "ccsd_stanton"; "lccsd_simple"].
Definition ccd_funs : list string := ["ccd_simple"; "ccd_stanton"; "lccd_simple"].
Definition c05_a := Eval vm_compute in map (pair_find aT) ccsd_funs.
Definition c05_b := Eval vm_compute in map (one_find aD) ccd_funs.
Definition c05_c := Eval vm_compute in one_find [sI; sT2] "ccd_ladder_simple".
Lemma c05_chka : forallb (pair_chk aT shT1 shT2) c05_a = true.
Proof. vm_compute. reflexivity. Qed.
Lemma c05_chkb : forallb (one_chk aD shT2) c05_b = true.
Proof. vm_compute. reflexivity. Qed.
Lemma c05_chkc : one_chk [sI; sT2] shT2 c05_c = true.
Proof. vm_compute. reflexivity. Qed.

Lemma ccsd_antisym (K : cring) no nv F I T1 T2 f : In f ccsd_funs ->
  one_e_ok no nv F -> two_e_ok no nv I -> t1_ok no nv T1 -> t2_ok no nv T2 ->
  exists S1 S2, returns (K := K) f [py_one_e F; py_two_e I; arr T1; arr T2] (tup [arr S1; arr S2]) /\
    t1_ok no nv S1 /\ t2_ok no nv S2.
Proof.
  intros Hf HF HI H1 H2. destruct (in_certs _ c05_a f c05_chka Hf) as (c1 & c2 & Hc).
  eapply (pair_sound K (so_dim no nv) (rho_t K F I T1 T2 no nv)) in Hc; [exact Hc| |]; so_args.
Qed.
Lemma ccd_antisym (K : cring) no nv F I T2 f : In f ccd_funs ->
  one_e_ok no nv F -> two_e_ok no nv I -> t2_ok no nv T2 ->
  exists S2, returns (K := K) f [py_one_e F; py_two_e I; arr T2] (arr S2) /\ t2_ok no nv S2.
Proof.
  intros Hf HF HI H2. destruct (in_certs _ c05_b f c05_chkb Hf) as (c1 & c2 & Hc).
  eapply (one_sound K (so_dim no nv) (rho_t K F I (tzeros K [nv; no]) T2 no nv)) in Hc;
    [exact Hc| |]; so_args.
Qed.
Lemma ladder_antisym (K : cring) no nv I T2 :
  two_e_ok no nv I -> t2_ok no nv T2 ->
  exists S2, returns (K := K) "ccd_ladder_simple" [py_two_e I; arr T2] (arr S2) /\ t2_ok no nv S2.
Proof.
  intros HI H2.
  eapply (one_sound K (so_dim no nv) (rho_t K (zeroF K no nv) I (tzeros K [nv; no]) T2 no nv) _ _ _ _ _ c05_chkc);
    so_args.
  Unshelve. so_args.
Qed.

(** *** C15 *)
Definition lambda_funs : list string := ["ccsd_lambda_simple"; "ccsd_lambda_opt"; "ccsd_lambda_stanton"].
Definition c15_a := Eval vm_compute in map (pair_find aL) lambda_funs.
Definition c15_b := Eval vm_compute in one_find [sF; sI; sL2; sT2] "ccd_lambda_simple".
Definition c15_c := Eval vm_compute in pair_find (aL ++ [lam_int]) "ccsd_lambda_opt_int".
Lemma c15_chka : forallb (pair_chk aL shL1 shL2) c15_a = true.
Proof. vm_compute. reflexivity. Qed.
Lemma c15_chkb : one_chk [sF; sI; sL2; sT2] shL2 c15_b = true.
Proof. vm_compute. reflexivity. Qed.
Lemma c15_chkc : pair_chk (aL ++ [lam_int]) shL1 shL2 c15_c = true.
Proof. vm_compute. reflexivity. Qed.

Lemma lambda_antisym (K : cring) no nv F I L1 L2 T1 T2 f : In f lambda_funs ->
  one_e_ok no nv F -> two_e_ok no nv I -> l1_ok no nv L1 -> l2_ok no nv L2 ->
  t1_ok no nv T1 -> t2_ok no nv T2 ->
  exists M1 M2, returns (K := K) f [py_one_e F; py_two_e I; arr L1; arr L2; arr T1; arr T2]
      (tup [arr M1; arr M2]) /\ l1_ok no nv M1 /\ l2_ok no nv M2.
Proof.
  intros Hf HF HI HL1 HL2 H1 H2. destruct (in_certs _ c15_a f c15_chka Hf) as (c1 & c2 & Hc).
  eapply (pair_sound K (so_dim no nv) (rho_l K F I T1 T2 L1 L2)) in Hc; [exact Hc| |]; so_args.
Qed.
Lemma ccd_lambda_antisym (K : cring) no nv F I L2 T2 :
  one_e_ok no nv F -> two_e_ok no nv I -> l2_ok no nv L2 -> t2_ok no nv T2 ->
  exists M2, returns (K := K) "ccd_lambda_simple" [py_one_e F; py_two_e I; arr L2; arr T2]
      (arr M2) /\ l2_ok no nv M2.
Proof.
  intros HF HI HL2 H2.
  eapply (one_sound K (so_dim no nv) (rho_l K F I (tzeros K [nv; no]) T2 (tzeros K [no; nv]) L2)
    _ _ _ _ _ c15_chkb); so_args.
  Unshelve. so_args.
Qed.
Lemma lambda_int_antisym (K : cring) no nv F I L1 L2 T1 T2 :
  one_e_ok no nv F -> two_e_ok no nv I -> l1_ok no nv L1 -> l2_ok no nv L2 ->
  t1_ok no nv T1 -> t2_ok no nv T2 ->
  exists int M1 M2,
    returns (K := K) "lambda_int" [py_one_e F; py_two_e I; arr T1; arr T2] int /\
    returns "ccsd_lambda_opt_int" [py_one_e F; py_two_e I; arr L1; arr L2; arr T1; arr T2; int]
      (tup [arr M1; arr M2]) /\ l1_ok no nv M1 /\ l2_ok no nv M2.
Proof.
  intros HF HI HL1 HL2 H1 H2.
  set (rho := rho_l K F I T1 T2 L1 L2).
  destruct (run_sound K (so_dim no nv) rho _ _ _ [py_one_e F; py_two_e I; arr T1; arr T2]
    lam_int_run) as (int & Ri & Vi).
  { unfold rho; so_args. }
  exists int. destruct (pair_sound K (so_dim no nv) rho ltac:(unfold rho; so_args) (aL ++ [lam_int])
    ([py_one_e F; py_two_e I; arr L1; arr L2; arr T1; arr T2] ++ [int]) _ _ _ c15_chkc)
    as (M1 & M2 & HH).
  { apply Forall2_app; [|constructor; [exact Vi|constructor]]. unfold rho; so_args. }
  exists M1, M2. split; auto.
Qed.

(** *** C20 *)
Definition rdm_lead : list (string * list cls) :=
  [("ccsd_2rdm_cdab", [cV; cV; cV; cV]); ("ccsd_2rdm_klij", [cO; cO; cO; cO]);
   ("ccsd_2rdm_abij", [cV; cV; cO; cO]); ("ccsd_2rdm_bcai", [cV; cV; cV; cO]);
   ("ccsd_2rdm_jkai", [cO; cO; cV; cO])].
Definition rdm_tail : list (string * list cls) :=
  [("ccsd_2rdm_cdab", [cV; cV; cV; cV]); ("ccsd_2rdm_klij", [cO; cO; cO; cO]);
   ("ccsd_2rdm_abij", [cV; cV; cO; cO]); ("ccsd_2rdm_ciab", [cV; cO; cV; cV]);
   ("ccsd_2rdm_kaij", [cO; cV; cO; cO])].
Definition sh_chk (p : list nat) (e : string * list cls) (c : list cert) : bool :=
  run_form FArr (fst e) aR &&
  cls_list_eqb (s_sh (get_arr (run_s (fst e) aR))) (snd e) &&
  Nat.eqb (List.length (snd e)) 4 &&
  anti_chk so_tb p (get_arr (run_s (fst e) aR)) c.
Definition c20_l := Eval vm_compute in
  map (fun e => find_anti so_tb p_lead (get_arr (run_s (fst e) aR))) rdm_lead.
Definition c20_t := Eval vm_compute in
  map (fun e => find_anti so_tb p_tail (get_arr (run_s (fst e) aR))) rdm_tail.
Fixpoint all_chk {A C} (chk : A -> C -> bool) (l : list A) (cs : list C) : bool :=
  match l, cs with
  | [], [] => true
  | a :: l', c :: cs' => if chk a c then all_chk chk l' cs' else false
  | _, _ => false
  end.
Lemma all_chk_in {A C} (chk : A -> C -> bool) l : forall cs, all_chk chk l cs = true ->
  forall a, In a l -> exists c, chk a c = true.
Proof.
  induction l as [|a0 l IH]; intros [|c cs]; simpl; try discriminate; [tauto|].
  destruct (chk a0 c) eqn:E; [|discriminate]. intros H a [<-|Hin]; eauto.
Qed.
Lemma c20_lchk : all_chk (sh_chk p_lead) rdm_lead c20_l = true.
Proof. vm_compute. reflexivity. Qed.
Lemma c20_tchk : all_chk (sh_chk p_tail) rdm_tail c20_t = true.
Proof. vm_compute. reflexivity. Qed.

Lemma rdm_lead_antisym (K : cring) no nv T1 T2 L1 L2 f :
  In f (map fst rdm_lead) ->
  t1_ok no nv T1 -> t2_ok no nv T2 -> l1_ok no nv L1 -> l2_ok no nv L2 ->
  exists P, returns (K := K) f [arr T1; arr T2; arr L1; arr L2] (arr P) /\ antisym_lead P.
Proof.
  intros Hin H1 H2 HL1 HL2. apply in_map_iff in Hin. destruct Hin as (e & <- & Hin).
  destruct (all_chk_in _ _ _ c20_lchk _ Hin) as [c Hc]. unfold sh_chk in Hc.
  repeat (apply andb_prop in Hc; destruct Hc as [Hc ?]).
  set (rho := rho_l K (zeroF K no nv) (zeroI K no nv) T1 T2 L1 L2).
  destruct (run_arr_sound K (so_dim no nv) rho _ _ [arr T1; arr T2; arr L1; arr L2] Hc)
    as (P & R & A). { unfold rho; so_args. }
  exists P. split; auto. apply Nat.eqb_eq in H0. apply cls_list_eqb_eq in H3.
  eapply (anti_lead_sound K (so_dim no nv) rho so_tb); eauto.
  - unfold rho; so_args.
  - rewrite H3. auto.
Qed.
Lemma rdm_tail_antisym (K : cring) no nv T1 T2 L1 L2 f :
  In f (map fst rdm_tail) ->
  t1_ok no nv T1 -> t2_ok no nv T2 -> l1_ok no nv L1 -> l2_ok no nv L2 ->
  exists P, returns (K := K) f [arr T1; arr T2; arr L1; arr L2] (arr P) /\ antisym_tail P.
Proof.
  intros Hin H1 H2 HL1 HL2. apply in_map_iff in Hin. destruct Hin as (e & <- & Hin).
  destruct (all_chk_in _ _ _ c20_tchk _ Hin) as [c Hc]. unfold sh_chk in Hc.
  repeat (apply andb_prop in Hc; destruct Hc as [Hc ?]).
  set (rho := rho_l K (zeroF K no nv) (zeroI K no nv) T1 T2 L1 L2).
  destruct (run_arr_sound K (so_dim no nv) rho _ _ [arr T1; arr T2; arr L1; arr L2] Hc)
    as (P & R & A). { unfold rho; so_args. }
  exists P. split; auto. apply Nat.eqb_eq in H0. apply cls_list_eqb_eq in H3.
  eapply (anti_tail_sound K (so_dim no nv) rho so_tb); eauto.
  - unfold rho; so_args.
  - rewrite H3. auto.
Qed.
