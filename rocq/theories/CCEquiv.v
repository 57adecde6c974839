(** Equalities between implementations, spin-orbital functions. *)
From Coq Require Import List Bool Arith ZArith String.
From Verif Require Import Scalar Tensor PySyntax PySem PySim Sym SymSound Norm CCProg CCSpec
  Engine Tools SOCtx.
Import ListNotations.
Local Open Scope string_scope.

Notation rho_t K F I T1 T2 no nv :=
  (so_rho K F I T1 T2 (tzeros K [no; nv]) (tzeros K [no; no; nv; nv]) c0 (noex K)).
Notation rho_l K F I T1 T2 L1 L2 := (so_rho K F I T1 T2 L1 L2 c0 (noex K)).

Notation aT := [sF; sI; sT1; sT2].
Notation aD := [sF; sI; sT2].
Notation aL := [sF; sI; sL1; sL2; sT1; sT2].
Notation aR := [sT1; sT2; sL1; sL2].
Definition zT1 : sval := sarr (s_zero [cV; cO]).
Definition zL1 : sval := sarr (s_zero [cO; cV]).

(** *** C01 *)
Definition c01_cs := Eval vm_compute in find_agree so_tb "ccsd_simple" "ccsd_stanton" aT aT.
Lemma c01_chk : agree_chk so_tb "ccsd_simple" "ccsd_stanton" aT aT c01_cs = true.
Proof. vm_compute. reflexivity. Qed.

Lemma ccsd_stanton_simple (K : cring) no nv F I T1 T2 :
  one_e_ok no nv F -> two_e_ok no nv I -> t1_ok no nv T1 -> t2_ok no nv T2 ->
  exists r s,
    returns (K := K) "ccsd_simple" [py_one_e F; py_two_e I; arr T1; arr T2] r /\
    returns "ccsd_stanton" [py_one_e F; py_two_e I; arr T1; arr T2] s /\ xeq r s.
Proof.
  intros HF HI H1 H2.
  eapply (agree_sound K (so_dim no nv) (rho_t K F I T1 T2 no nv) _ _ _ _ _ _ _ _
    c01_chk); so_args.
Qed.

(** *** C02 *)
Definition c02_cs := Eval vm_compute in find_agree so_tb "ccd_simple" "ccd_stanton" aD aD.
Lemma c02_chk : agree_chk so_tb "ccd_simple" "ccd_stanton" aD aD c02_cs = true.
Proof. vm_compute. reflexivity. Qed.

Lemma ccd_stanton_simple (K : cring) no nv F I T2 :
  one_e_ok no nv F -> two_e_ok no nv I -> t2_ok no nv T2 ->
  exists r s,
    returns (K := K) "ccd_simple" [py_one_e F; py_two_e I; arr T2] r /\
    returns "ccd_stanton" [py_one_e F; py_two_e I; arr T2] s /\ xeq r s.
Proof.
  intros HF HI H2.
  eapply (agree_sound K (so_dim no nv) (rho_t K F I (tzeros K [nv; no]) T2 no nv) _ _ _ _ _ _ _ _
    c02_chk); so_args.
Qed.

(** *** C03 *)
Definition c03_chk (f g : string) (c : list cert) : bool :=
  run_form (FTup [FArr; FArr]) f [sF; sI; zT1; sT2] && run_form FArr g aD &&
  aeq_chk so_tb (get_arr (item 1 (run_s f [sF; sI; zT1; sT2]))) (get_arr (run_s g aD)) c.
Definition c03_find (f g : string) :=
  find_aeq so_tb (get_arr (item 1 (run_s f [sF; sI; zT1; sT2]))) (get_arr (run_s g aD)).
Definition c03_c1 := Eval vm_compute in c03_find "ccsd_simple" "ccd_simple".
Definition c03_c2 := Eval vm_compute in c03_find "ccsd_stanton" "ccd_stanton".
Lemma c03_chk1 : c03_chk "ccsd_simple" "ccd_simple" c03_c1 = true.
Proof. vm_compute. reflexivity. Qed.
Lemma c03_chk2 : c03_chk "ccsd_stanton" "ccd_stanton" c03_c2 = true.
Proof. vm_compute. reflexivity. Qed.

Lemma c03_sound (K : cring) no nv F I T2 f g c : c03_chk f g c = true ->
  one_e_ok no nv F -> two_e_ok no nv I -> t2_ok no nv T2 ->
  exists S1 S2 D,
    returns (K := K) f [py_one_e F; py_two_e I; arr (tzeros K [nv; no]); arr T2]
      (tup [arr S1; arr S2]) /\
    returns g [py_one_e F; py_two_e I; arr T2] (arr D) /\ teq S2 D.
Proof.
  unfold c03_chk. intros H HF HI H2. apply andb_prop in H. destruct H as [H E3].
  apply andb_prop in H. destruct H as [E1 E2].
  set (rho := rho_t K F I (tzeros K [nv; no]) T2 no nv).
  destruct (run_pair_sound K (so_dim no nv) rho f [sF; sI; zT1; sT2]
    [py_one_e F; py_two_e I; arr (tzeros K [nv; no]); arr T2] E1) as (S1 & S2 & R1 & _ & A1).
  { unfold rho. repeat apply Forall2_cons; try apply Forall2_nil; eauto with soctx.
    exact (R_zero K (so_dim no nv) _ [cV; cO]). }
  destruct (run_arr_sound K (so_dim no nv) rho g aD
    [py_one_e F; py_two_e I; arr T2] E2) as (D & R2 & A2).
  { unfold rho. so_args. }
  exists S1, S2, D. split; auto. split; auto.
  eapply aeq_sound; eauto. unfold rho. so_args.
Qed.

Lemma ccd_ccsd_zero_singles (K : cring) no nv F I T2 :
  one_e_ok no nv F -> two_e_ok no nv I -> t2_ok no nv T2 ->
  (exists S1 S2 D,
    returns (K := K) "ccsd_simple" [py_one_e F; py_two_e I; arr (tzeros K [nv; no]); arr T2]
      (tup [arr S1; arr S2]) /\
    returns "ccd_simple" [py_one_e F; py_two_e I; arr T2] (arr D) /\ teq S2 D) /\
  (exists S1 S2 D,
    returns (K := K) "ccsd_stanton" [py_one_e F; py_two_e I; arr (tzeros K [nv; no]); arr T2]
      (tup [arr S1; arr S2]) /\
    returns "ccd_stanton" [py_one_e F; py_two_e I; arr T2] (arr D) /\ teq S2 D).
Proof.
  intros HF HI H2. split.
  - exact (c03_sound K no nv F I T2 _ _ _ c03_chk1 HF HI H2).
  - exact (c03_sound K no nv F I T2 _ _ _ c03_chk2 HF HI H2).
Qed.

(** *** C12 *)
Definition lam_int : sval := run_s "lambda_int" aT.
Lemma lam_int_run : run_chk "lambda_int" aT = Some lam_int.
Proof.
  unfold lam_int, run_s. destruct (run_chk "lambda_int" aT) eqn:E; [reflexivity|].
  exfalso. revert E. vm_compute. discriminate.
Qed.
Definition c12_cs1 := Eval vm_compute in
  find_agree so_tb "ccsd_lambda_simple" "ccsd_lambda_opt" aL aL.
Definition c12_cs2 := Eval vm_compute in
  find_agree so_tb "ccsd_lambda_simple" "ccsd_lambda_stanton" aL aL.
Definition c12_cs3 := Eval vm_compute in
  find_agree so_tb "ccsd_lambda_simple" "ccsd_lambda_opt_int" aL (aL ++ [lam_int]).
Lemma c12_chk1 : agree_chk so_tb "ccsd_lambda_simple" "ccsd_lambda_opt" aL aL c12_cs1 = true.
Proof. vm_compute. reflexivity. Qed.
Lemma c12_chk2 : agree_chk so_tb "ccsd_lambda_simple" "ccsd_lambda_stanton" aL aL c12_cs2 = true.
Proof. vm_compute. reflexivity. Qed.
Lemma c12_chk3 : agree_chk so_tb "ccsd_lambda_simple" "ccsd_lambda_opt_int" aL (aL ++ [lam_int])
  c12_cs3 = true.
Proof. vm_compute. reflexivity. Qed.

Lemma returns_fun (K : cring) f args (r s : pyval K) : returns f args r -> returns f args s -> r = s.
Proof. intros (a & E1 & _) (b & E2 & _). rewrite E1 in E2. injection E2. auto. Qed.

Lemma lambda_agree (K : cring) no nv F I L1 L2 T1 T2 :
  one_e_ok no nv F -> two_e_ok no nv I -> l1_ok no nv L1 -> l2_ok no nv L2 ->
  t1_ok no nv T1 -> t2_ok no nv T2 ->
  let args := [py_one_e F; py_two_e I; arr L1; arr L2; arr T1; arr T2] in
  exists r r1 r2 r3 int,
    returns (K := K) "ccsd_lambda_simple" args r /\
    returns "ccsd_lambda_opt" args r1 /\
    returns "ccsd_lambda_stanton" args r2 /\
    returns "lambda_int" [py_one_e F; py_two_e I; arr T1; arr T2] int /\
    returns "ccsd_lambda_opt_int" (args ++ [int]) r3 /\
    xeq r r1 /\ xeq r r2 /\ xeq r r3.
Proof.
  intros HF HI HL1 HL2 H1 H2 args.
  set (rho := rho_l K F I T1 T2 L1 L2).
  assert (HA : Forall2 (Rval K (so_dim no nv) rho) aL args) by (unfold rho, args; so_args).
  assert (HS : sym_ok K (so_dim no nv) rho so_tb) by (unfold rho; so_args).
  destruct (run_sound K (so_dim no nv) rho _ _ _ [py_one_e F; py_two_e I; arr T1; arr T2]
    lam_int_run) as (int & Ri & Vi).
  { unfold rho; so_args. }
  destruct (agree_sound _ _ _ _ _ _ _ _ _ _ _ c12_chk1 HS HA HA) as (r & r1 & A1 & A2 & A3).
  destruct (agree_sound _ _ _ _ _ _ _ _ _ _ _ c12_chk2 HS HA HA) as (r' & r2 & B1 & B2 & B3).
  destruct (agree_sound _ _ _ _ _ _ _ _ _ _ (args ++ [int]) c12_chk3 HS HA)
    as (r'' & r3 & C1 & C2 & C3).
  { apply Forall2_app; auto. }
  rewrite (returns_fun _ _ _ _ _ B1 A1) in B3. rewrite (returns_fun _ _ _ _ _ C1 A1) in C3.
  exists r, r1, r2, r3, int. auto 10.
Qed.

(** *** C13 *)
Definition c13_chk (c : list cert) : bool :=
  run_form (FTup [FArr; FArr]) "ccsd_lambda_simple" [sF; sI; zL1; sL2; zT1; sT2] &&
  run_form FArr "ccd_lambda_simple" [sF; sI; sL2; sT2] &&
  aeq_chk so_tb (get_arr (item 1 (run_s "ccsd_lambda_simple" [sF; sI; zL1; sL2; zT1; sT2])))
    (get_arr (run_s "ccd_lambda_simple" [sF; sI; sL2; sT2])) c.
Definition c13_c := Eval vm_compute in
  find_aeq so_tb (get_arr (item 1 (run_s "ccsd_lambda_simple" [sF; sI; zL1; sL2; zT1; sT2])))
    (get_arr (run_s "ccd_lambda_simple" [sF; sI; sL2; sT2])).
Lemma c13_ok : c13_chk c13_c = true.
Proof. vm_compute. reflexivity. Qed.

Lemma ccd_lambda_zero_singles (K : cring) no nv F I L2 T2 :
  one_e_ok no nv F -> two_e_ok no nv I -> l2_ok no nv L2 -> t2_ok no nv T2 ->
  exists M1 M2 D,
    returns (K := K) "ccsd_lambda_simple"
      [py_one_e F; py_two_e I; arr (tzeros K [no; nv]); arr L2; arr (tzeros K [nv; no]); arr T2]
      (tup [arr M1; arr M2]) /\
    returns "ccd_lambda_simple" [py_one_e F; py_two_e I; arr L2; arr T2] (arr D) /\ teq M2 D.
Proof.
  intros HF HI HL H2. pose proof c13_ok as H. unfold c13_chk in H.
  apply andb_prop in H. destruct H as [H E3]. apply andb_prop in H. destruct H as [E1 E2].
  set (rho := rho_l K F I (tzeros K [nv; no]) T2 (tzeros K [no; nv]) L2).
  destruct (run_pair_sound K (so_dim no nv) rho _ _
    [py_one_e F; py_two_e I; arr (tzeros K [no; nv]); arr L2; arr (tzeros K [nv; no]); arr T2] E1)
    as (S1 & S2 & R1 & _ & A1).
  { unfold rho. repeat apply Forall2_cons; try apply Forall2_nil; eauto with soctx.
    - exact (R_zero K (so_dim no nv) _ [cO; cV]).
    - exact (R_zero K (so_dim no nv) _ [cV; cO]). }
  destruct (run_arr_sound K (so_dim no nv) rho _ _
    [py_one_e F; py_two_e I; arr L2; arr T2] E2) as (D & R2 & A2).
  { unfold rho. so_args. }
  exists S1, S2, D. split; auto. split; auto.
  eapply aeq_sound; eauto. unfold rho. so_args.
Qed.

(** *** C18 *)
Definition rdm_pairs : list (string * string) :=
  [("ccsd_1rdm_ba", "ccsd_1rdm_ba_opt"); ("ccsd_1rdm_ji", "ccsd_1rdm_ji_opt");
   ("ccsd_1rdm_ai", "ccsd_1rdm_ai_opt"); ("ccsd_2rdm_cdab", "ccsd_2rdm_cdab_opt");
   ("ccsd_2rdm_ciab", "ccsd_2rdm_ciab_opt"); ("ccsd_2rdm_bcai", "ccsd_2rdm_bcai_opt");
   ("ccsd_2rdm_bjai", "ccsd_2rdm_bjai_opt"); ("ccsd_2rdm_abij", "ccsd_2rdm_abij_opt");
   ("ccsd_2rdm_jkai", "ccsd_2rdm_jkai_opt"); ("ccsd_2rdm_kaij", "ccsd_2rdm_kaij_opt");
   ("ccsd_2rdm_klij", "ccsd_2rdm_klij_opt")].
Definition rdm_fac_pairs : list (string * string) :=
  [("ccsd_1rdm_ai", "ccsd_1rdm_ai_opt"); ("ccsd_2rdm_abij", "ccsd_2rdm_abij_opt")].

Fixpoint pairs_chk (args : list sval) (l : list (string * string)) (cs : list (list (list cert))) : bool :=
  match l, cs with
  | [], [] => true
  | (f, g) :: l', c :: cs' => if agree_chk so_tb f g args args c then pairs_chk args l' cs' else false
  | _, _ => false
  end.
Lemma pairs_sound args l : forall cs, pairs_chk args l cs = true ->
  forall f g, In (f, g) l -> exists c, agree_chk so_tb f g args args c = true.
Proof.
  induction l as [|[f0 g0] l IH]; intros [|c cs]; simpl; try discriminate; [tauto|].
  destruct (agree_chk so_tb f0 g0 args args c) eqn:E; [|discriminate].
  intros H f g [E1|Hin]; [injection E1 as <- <-; eauto|eauto].
Qed.
Definition c18_cs := Eval vm_compute in map (fun p => find_agree so_tb (fst p) (snd p) aR aR) rdm_pairs.
Definition c18_fcs := Eval vm_compute in
  map (fun p => find_agree so_tb (fst p) (snd p) (aR ++ [sFac]) (aR ++ [sFac])) rdm_fac_pairs.
Lemma c18_chk : pairs_chk aR rdm_pairs c18_cs = true.
Proof. vm_compute. reflexivity. Qed.
Lemma c18_fchk : pairs_chk (aR ++ [sFac]) rdm_fac_pairs c18_fcs = true.
Proof. vm_compute. reflexivity. Qed.

Lemma rdm_opt_plain (K : cring) no nv T1 T2 L1 L2 f g :
  In (f, g) rdm_pairs ->
  t1_ok no nv T1 -> t2_ok no nv T2 -> l1_ok no nv L1 -> l2_ok no nv L2 ->
  exists r s,
    returns (K := K) f [arr T1; arr T2; arr L1; arr L2] r /\
    returns g [arr T1; arr T2; arr L1; arr L2] s /\ xeq r s.
Proof.
  intros Hin H1 H2 HL1 HL2. destruct (pairs_sound _ _ _ c18_chk _ _ Hin) as [c Hc].
  eapply (agree_sound K (so_dim no nv) (rho_l K (zeroF K no nv) (zeroI K no nv) T1 T2 L1 L2)
    _ _ _ _ _ _ _ _ Hc); so_args.
Qed.

Lemma rdm_fac_opt_plain (K : cring) no nv T1 T2 L1 L2 tfac f g :
  In (f, g) rdm_fac_pairs ->
  t1_ok no nv T1 -> t2_ok no nv T2 -> l1_ok no nv L1 -> l2_ok no nv L2 ->
  exists r s,
    returns (K := K) f [arr T1; arr T2; arr L1; arr L2; numv tfac] r /\
    returns g [arr T1; arr T2; arr L1; arr L2; numv tfac] s /\ xeq r s.
Proof.
  intros Hin H1 H2 HL1 HL2. destruct (pairs_sound _ _ _ c18_fchk _ _ Hin) as [c Hc].
  eapply (agree_sound K (so_dim no nv)
    (so_rho K (zeroF K no nv) (zeroI K no nv) T1 T2 L1 L2 tfac (noex K)) _ _ _ _ _ _ _ _ Hc); so_args.
Qed.
