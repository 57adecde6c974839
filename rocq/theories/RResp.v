(** Closed-shell coupled cluster: the change of energy and residuals under any
    change of integrals and amplitudes, from density matrices and Lambda. *)
From Coq Require Import List Bool Arith ZArith Lia Ring String.
From Verif Require Import Scalar Tensor PySyntax PySem PySim Sym SymSound Norm CCProg CCSpec Engine Tools Dual SOCtx
  NpModel SpinModel SpinSpec SpinOut CCSpin CCDeriv CCRest RCtx RespSpec URespSpec UResp.
Import ListNotations.
Local Open Scope string_scope. Local Open Scope list_scope.

Definition s_dbl (a : list mono) := ms_mul [Mono 2 0 [] []] a.
Definition s_ngt (a : list mono) := ms_mul [Mono (-1) 0 [] []] a.
(** sum of A (2 B - C with its last indices exchanged) *)
Definition s_closed4 (a b c : stens) : list mono := s_dbl (s_dot q4 a b) ++ s_ngt (s_dot q4 a (s_swap p_tail c)).

Notation srR := [sT1; sT2; sL1; sL2].
Definition srE : list sval := [sT1; sT2; inp 2 [cO; cV]; inp 71 [cO; cO; cV; cV]].
Definition r_res : list sval := [sF; sIr; sT1; sT2].
Definition r_lar : list sval := [sF; sIr; sL1; sL2; sT1; sT2].
Definition rN (t : positive) : option positive :=
  if (Pos.leb t 4) || (Pos.leb 14 t && Pos.leb t 15) || (Pos.leb 61 t && Pos.leb t 76) then Some (sh_id t) else None.
Definition r_d (a : stens) : stens := STens (s_sh a) (d_poly rN (s_ms a)).
Definition r_amp (f : string) (args : list sval) (i : nat) : stens := get_arr (item i (run_s f args)).
Definition rblk (f : string) : stens := get_arr (run_s f srR).

Definition s_rpair (l1 l2 r1 r2 : stens) : list mono := s_dbl (s_dot q2 l1 r1) ++ s_closed4 l2 r2 r2.

Section Contraction.
  Variable h : positive -> positive.
  Definition r_hi (t : positive) sh := s_input (h t) sh.
  Definition r_con : list mono :=
    s_dbl (s_dot q2 (s_input 16 [cO; cV]) (r_hi 3 [cV; cO]) ++ (s_dot q2 (rblk "rccsd_1rdm_ba") (r_hi 4 [cV; cV]) ++
     (s_dot q2 (rblk "rccsd_1rdm_ji") (r_hi 1 [cO; cO]) ++ s_dot q2 (rblk "rccsd_1rdm_ai") (r_hi 2 [cO; cV])))) ++
    ((s_closed4 (s_input 17 [cO; cO; cV; cV]) (r_hi 66 [cV; cV; cO; cO]) (r_hi 66 [cV; cV; cO; cO]) ++
     (s_closed4 (rblk "rccsd_2rdm_cdab") (r_hi 61 [cV; cV; cV; cV]) (r_hi 61 [cV; cV; cV; cV]) ++
     (s_closed4 (rblk "rccsd_2rdm_klij") (r_hi 76 [cO; cO; cO; cO]) (r_hi 76 [cO; cO; cO; cO]) ++
      s_closed4 (rblk "rccsd_2rdm_abij") (r_hi 71 [cO; cO; cV; cV]) (r_hi 71 [cO; cO; cV; cV])))) ++
    s_dbl (s_closed4 (rblk "rccsd_2rdm_ciab") (r_hi 62 [cV; cV; cV; cO]) (r_hi 63 [cV; cV; cO; cV]) ++
     (s_closed4 (rblk "rccsd_2rdm_bcai") (r_hi 64 [cV; cO; cV; cV]) (r_hi 64 [cV; cO; cV; cV]) ++
     (s_closed4 (rblk "rccsd_2rdm_jkai") (r_hi 75 [cV; cO; cO; cO]) (r_hi 75 [cV; cO; cO; cO]) ++
     (s_closed4 (rblk "rccsd_2rdm_kaij") (r_hi 72 [cO; cO; cO; cV]) (r_hi 73 [cO; cO; cV; cO]) ++
     (s_closed4 (rblk "rccsd_2rdm_bjai") (r_hi 67 [cV; cO; cV; cO]) (r_hi 68 [cV; cO; cO; cV]) ++
      s_closed4 (rblk "rccsd_2rdm_bjia") (r_hi 69 [cO; cV; cV; cO]) (r_hi 70 [cO; cV; cO; cV]))))))).
End Contraction.

Definition r_dlag : list mono :=
  d_poly rN (get_num (run_s "rcc_energy" srE)) ++
  s_rpair (s_input 16 [cO; cV]) (s_input 17 [cO; cO; cV; cV]) (r_d (r_amp "rccsd_stanton" r_res 0)) (r_d (r_amp "rccsd_stanton" r_res 1)).
Definition r_drhs : list mono :=
  r_con sh_id ++ s_rpair (r_amp "rccsd_lambda_opt" r_lar 0) (r_amp "rccsd_lambda_opt" r_lar 1) (s_input (sh_id 14) [cV; cO]) (s_input (sh_id 15) [cV; cV; cO; cO]).
Definition r_lag : list mono :=
  get_num (run_s "rcc_energy" srE) ++
  s_rpair (s_input 16 [cO; cV]) (s_input 17 [cO; cO; cV; cV]) (r_amp "rccsd_stanton" r_res 0) (r_amp "rccsd_stanton" r_res 1).
Definition r_tb2 : table := r_tb ++ sh_tb r_tb.
Definition r_c1 := Eval vm_compute in find_neq r_tb2 r_dlag r_drhs.
Lemma r_chk1 : neq_chk r_tb2 r_dlag r_drhs r_c1 = true.
Proof. vm_compute. reflexivity. Qed.
Definition r_c2 := Eval vm_compute in find_neq r_tb r_lag (r_con (fun t => t)).
Lemma r_chk2 : neq_chk r_tb r_lag (r_con (fun t => t)) r_c2 = true.
Proof. vm_compute. reflexivity. Qed.

Definition r_rd_list : list (string * list cls) :=
  [("rccsd_1rdm_ba", [cV; cV]); ("rccsd_1rdm_ji", [cO; cO]); ("rccsd_1rdm_ai", [cV; cO]);
   ("rccsd_2rdm_cdab", [cV; cV; cV; cV]); ("rccsd_2rdm_klij", [cO; cO; cO; cO]); ("rccsd_2rdm_abij", [cV; cV; cO; cO]);
   ("rccsd_2rdm_ciab", [cV; cO; cV; cV]); ("rccsd_2rdm_bcai", [cV; cV; cV; cO]); ("rccsd_2rdm_jkai", [cO; cO; cV; cO]);
   ("rccsd_2rdm_kaij", [cO; cV; cO; cO]); ("rccsd_2rdm_bjai", [cV; cO; cV; cO]); ("rccsd_2rdm_bjia", [cV; cO; cO; cV])].
Definition r_rd_chk (e : string * list cls) : bool := run_form FArr (fst e) srR && cls_list_eqb (s_sh (rblk (fst e))) (snd e).
Lemma r_rd_ok : forallb r_rd_chk r_rd_list = true. Proof. vm_compute. reflexivity. Qed.
Lemma r_runs : run_form FNum "rcc_energy" srE && run_form (FTup [FArr; FArr]) "rccsd_stanton" r_res && run_form (FTup [FArr; FArr]) "rccsd_lambda_opt" r_lar = true.
Proof. vm_compute. reflexivity. Qed.
Definition shs2 (s : nat -> stens) : list (list cls) := [s_sh (s 0); s_sh (s 1)].
Lemma r_res_shs : shs2 (r_amp "rccsd_stanton" r_res) = [[cV; cO]; [cV; cV; cO; cO]]. Proof. vm_compute. reflexivity. Qed.
Lemma r_lar_shs : shs2 (r_amp "rccsd_lambda_opt" r_lar) = [[cO; cV]; [cO; cO; cV; cV]]. Proof. vm_compute. reflexivity. Qed.
Lemma r_d_shs : [s_sh (r_d (r_amp "rccsd_stanton" r_res 0)); s_sh (r_d (r_amp "rccsd_stanton" r_res 1))] = [[cV; cO]; [cV; cV; cO; cO]].
Proof. vm_compute. reflexivity. Qed.
