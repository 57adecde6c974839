(** Unrestricted coupled cluster: the change of energy and residuals under any
    change of integrals and amplitudes, from density matrices and Lambda. *)
From Coq Require Import List Bool Arith ZArith Lia Ring String.
From Verif Require Import Scalar Tensor PySyntax PySem PySim Sym SymSound Norm CCProg CCSpec Engine Tools Dual SOCtx
  NpModel SpinModel SpinSpec UCtx SpinOut CCSpin CCDeriv CCRest RespSpec URespSpec.
Import ListNotations.
Local Open Scope string_scope. Local Open Scope list_scope.

(** *** Inputs and their changes: number t and t + 100 *)
Definition sh_id (t : positive) : positive := (t + 100)%positive.
Definition sh_tb (tb : table) : table :=
  map (fun e => (sh_id (fst e), (fst (snd e), map (fun a => (fst (fst a), snd (fst a), sh_id (snd a))) (snd (snd e))))) tb.
Definition small (t : positive) : bool := Pos.leb t 100.
Definition tb_small (tb : table) : bool := forallb (fun e => small (fst e) && forallb (fun a => small (snd a)) (snd (snd e))) tb.
Definition rho2 {K : cring} (r1 r2 : positive -> list nat -> K) (t : positive) : list nat -> K :=
  if small t then r1 t else r2 (t - 100)%positive.

Lemma rho2_small (K : cring) (r1 r2 : positive -> list nat -> K) t : small t = true -> rho2 r1 r2 t = r1 t.
Proof. intros H. unfold rho2. rewrite H. reflexivity. Qed.
Lemma rho2_sh (K : cring) (r1 r2 : positive -> list nat -> K) t : rho2 r1 r2 (sh_id t) = r2 t.
Proof.
  unfold rho2, small, sh_id. destruct (Pos.leb_spec (t + 100) 100); [lia|]. f_equal. lia.
Qed.
Lemma rho2_sym (K : cring) dim (r1 r2 : positive -> list nat -> K) tb : tb_small tb = true ->
  sym_ok K dim r1 tb -> sym_ok K dim r2 tb -> sym_ok K dim (rho2 r1 r2) (tb ++ sh_tb tb).
Proof.
  intros Hs H1 H2. unfold sym_ok in *. apply Forall_app. split; apply Forall_forall; rewrite Forall_forall in H1, H2.
  - intros e He. unfold tb_small in Hs. rewrite forallb_forall in Hs. specialize (Hs e He).
    apply andb_prop in Hs. destruct Hs as [Ht Ha]. rewrite forallb_forall in Ha.
    specialize (H1 e He). destruct e as [t [ty al]]. unfold entry_ok in *. cbn [fst snd] in *.
    apply Forall_forall. rewrite Forall_forall in H1. intros a Hin. specialize (H1 a Hin). specialize (Ha a Hin). destruct a as [[s p] u]. cbn [fst snd] in *.
    intros idx Hi. rewrite !rho2_small by assumption. apply H1. exact Hi.
  - intros e He. unfold sh_tb in He. apply in_map_iff in He. destruct He as (e' & <- & He).
    specialize (H2 e' He). destruct e' as [t [ty al]]. cbn [fst snd] in *. apply Forall_map. eapply Forall_impl; [|exact H2].
    intros [[s p] u] Ha. cbn -[rho2 sh_id nth map sgn]. intros idx Hi. rewrite !rho2_sh. apply Ha. exact Hi.
Qed.

(** *** Contractions at known sizes *)
Lemma dot2_at (K : cring) dim rho a b (t u : tensor K) x y m n :
  Rarr K dim rho a t -> Rarr K dim rho b u -> s_sh a = [x; y] -> s_sh b = [y; x] -> [m; n] = map dim [x; y] ->
  Rnum K dim rho (s_dot q2 a b) (dot2 m n (dat t) (dat u)).
Proof. intros A B Ea Eb E. injection E as -> ->. eapply dot2_sound; eauto. Qed.
Lemma dot4_at (K : cring) dim rho a b (t u : tensor K) x y z w m n k l :
  Rarr K dim rho a t -> Rarr K dim rho b u -> s_sh a = [x; y; z; w] -> s_sh b = [z; w; x; y] -> [m; n; k; l] = map dim [x; y; z; w] ->
  Rnum K dim rho (s_dot q4 a b) (dot4 m n k l (dat t) (dat u)).
Proof. intros A B Ea Eb E. injection E as -> -> -> ->. eapply dot4_sound; eauto. Qed.
Lemma swap_sh p a x y z w : s_sh a = [x; y; z; w] -> is_perm p 4 = true ->
  s_sh (s_swap p a) = map (fun k => nth k [x; y; z; w] 1%positive) p.
Proof. intros E Hp. unfold s_swap, s_trans. rewrite E. cbn [List.length]. rewrite Hp. reflexivity. Qed.

(** choice over a finite list of names *)
Lemma named_choice {A B : Type} (d : B) (Q : string * A -> B -> Prop) (l : list (string * A)) :
  NoDup (map fst l) -> (forall e, In e l -> exists b, Q e b) ->
  exists P : string -> B, forall e, In e l -> Q e (P (fst e)).
Proof.
  induction l as [|e l IH]; intros Hn H; [exists (fun _ => d); contradiction|].
  inversion Hn as [|? ? Hx Hn']; subst. destruct (H e (or_introl eq_refl)) as (b & Hb).
  destruct (IH Hn' (fun e' He => H e' (or_intror He))) as (P & HP).
  exists (fun f => if string_dec f (fst e) then b else P f). intros e' [<-|He].
  - destruct (string_dec (fst e) (fst e)); [assumption|contradiction].
  - destruct (string_dec (fst e') (fst e)) as [E|]; [|apply HP; exact He].
    exfalso. apply Hx. rewrite <- E. apply in_map. exact He.
Qed.

(** *** Symbolic runs *)
Notation suR := [sT1a; sT1b; sT2aa; sT2ab; sT2bb; sL1a; sL1b; sL2aa; sL2ab; sL2bb].
Definition suE : list sval := [XTup [sT1a; sT1b]; XTup [sT2aa; sT2ab; sT2bb]; inp 32 [oa; va]; inp 36 [ob; vb]; inp 46 [oa; oa; va; va]; inp 56 [ob; ob; vb; vb]; inp 71 [oa; ob; va; vb]].
Definition u_res : list sval := suH ++ suT.
Definition u_lar : list sval := suH ++ suL ++ suT.
Definition uN (t : positive) : option positive := if Pos.leb 31 t && Pos.leb t 85 then Some (sh_id t) else None.
Definition u_d (a : stens) : stens := STens (s_sh a) (d_poly uN (s_ms a)).
Definition u_amp (f : string) (args : list sval) (i j : nat) : stens := get_arr (item j (item i (run_s f args))).
Definition ublk (f : string) (k : nat) : stens := get_arr (item k (run_s f suR)).

(** <L, R> *)
Definition s_upair (l : nat -> nat -> stens) (r : nat -> nat -> stens) : list mono :=
  (s_dot q2 (l 0 0) (r 0 0) ++ s_dot q2 (l 0 1) (r 0 1)) ++
  (quart (s_dot q4 (l 1 0) (r 1 0)) ++ (quart (s_dot q4 (l 1 2) (r 1 2)) ++ s_dot q4 (l 1 1) (r 1 1))).
Definition s_uL (i j : nat) : stens :=
  match i, j with
  | 0, 0 => s_input 86%positive [oa; va] | 0, _ => s_input 87%positive [ob; vb]
  | _, 0 => s_input 88%positive [oa; oa; va; va] | _, 1 => s_input 89%positive [oa; ob; va; vb] | _, _ => s_input 90%positive [ob; ob; vb; vb]
  end.
Definition s_udT (i j : nat) : stens :=
  match i, j with
  | 0, 0 => s_input (sh_id 81) [va; oa] | 0, _ => s_input (sh_id 82) [vb; ob]
  | _, 0 => s_input (sh_id 83) [va; va; oa; oa] | _, 1 => s_input (sh_id 84) [va; vb; oa; ob] | _, _ => s_input (sh_id 85) [vb; vb; ob; ob]
  end.

Section Contraction.
  Variable h : positive -> positive.
  Definition hi (t : positive) sh := s_input (h t) sh.
  Definition u_same (k : nat) (o v : cls) (L1 L2 : positive) (f i : positive -> positive) : list mono :=
    (s_dot q2 (s_input L1 [o; v]) (hi (f 3%positive) [v; o]) ++ (s_dot q2 (ublk "uccsd_1rdm_ba" k) (hi (f 4%positive) [v; v]) ++
     (s_dot q2 (ublk "uccsd_1rdm_ji" k) (hi (f 1%positive) [o; o]) ++ s_dot q2 (ublk "uccsd_1rdm_ai" k) (hi (f 2%positive) [o; v])))) ++
    (quart (s_dot q4 (s_input L2 [o; o; v; v]) (hi (i 4%positive) [v; v; o; o]) ++
           (s_dot q4 (ublk "uccsd_2rdm_cdab" k) (hi (i 1%positive) [v; v; v; v]) ++
           (s_dot q4 (ublk "uccsd_2rdm_klij" k) (hi (i 9%positive) [o; o; o; o]) ++
           s_dot q4 (ublk "uccsd_2rdm_abij" k) (hi (i 6%positive) [o; o; v; v])))) ++
    (halved (s_dot q4 (ublk "uccsd_2rdm_ciab" k) (hi (i 2%positive) [v; v; v; o]) ++
            (s_dot q4 (ublk "uccsd_2rdm_bcai" k) (hi (i 3%positive) [v; o; v; v]) ++
            (s_dot q4 (ublk "uccsd_2rdm_jkai" k) (hi (i 7%positive) [v; o; o; o]) ++
            s_dot q4 (ublk "uccsd_2rdm_kaij" k) (hi (i 8%positive) [o; o; o; v])))) ++
    s_dot q4 (ublk "uccsd_2rdm_bjai" k) (hi (i 5%positive) [v; o; v; o]))).
  Definition u_mixed : list mono :=
    s_dot q4 (s_input 89%positive [oa; ob; va; vb]) (hi 66%positive [va; vb; oa; ob]) ++
    (s_dot q4 (ublk "uccsd_2rdm_cdab" 2) (hi 61%positive [va; vb; va; vb]) ++
    (s_dot q4 (ublk "uccsd_2rdm_klij" 2) (hi 76%positive [oa; ob; oa; ob]) ++
    (s_dot q4 (ublk "uccsd_2rdm_abij" 2) (hi 71%positive [oa; ob; va; vb]) ++
    (s_dot q4 (ublk "uccsd_2rdm_ciab" 2) (hi 62%positive [va; vb; va; ob]) ++
    (s_dot q4 (s_swap p_both (ublk "uccsd_2rdm_ciab" 3)) (hi 63%positive [va; vb; oa; vb]) ++
    (s_dot q4 (ublk "uccsd_2rdm_bcai" 2) (hi 64%positive [va; ob; va; vb]) ++
    (s_dot q4 (s_swap p_both (ublk "uccsd_2rdm_bcai" 3)) (hi 65%positive [oa; vb; va; vb]) ++
    (s_dot q4 (ublk "uccsd_2rdm_jkai" 2) (hi 75%positive [va; ob; oa; ob]) ++
    (s_dot q4 (s_swap p_both (ublk "uccsd_2rdm_jkai" 3)) (hi 74%positive [oa; vb; oa; ob]) ++
    (s_dot q4 (ublk "uccsd_2rdm_kaij" 2) (hi 72%positive [oa; ob; oa; vb]) ++
    (s_dot q4 (s_swap p_both (ublk "uccsd_2rdm_kaij" 3)) (hi 73%positive [oa; ob; va; ob]) ++
    (s_dot q4 (ublk "uccsd_2rdm_bjai" 2) (hi 67%positive [va; ob; va; ob]) ++
    (s_dot q4 (s_swap p_both (ublk "uccsd_2rdm_bjai" 5)) (hi 70%positive [oa; vb; oa; vb]) ++
    (s_dot q4 (s_neg (s_swap p_tail (ublk "uccsd_2rdm_bjai" 3))) (hi 69%positive [oa; vb; va; ob]) ++
    s_dot q4 (s_neg (s_swap p_lead (ublk "uccsd_2rdm_bjai" 4))) (hi 68%positive [va; ob; oa; vb]))))))))))))))).
  Definition u_con : list mono :=
    u_same 0 oa va 86 88 (fun k => (30 + k)%positive) (fun k => (40 + k)%positive) ++
    (u_same 1 ob vb 87 90 (fun k => (34 + k)%positive) (fun k => (50 + k)%positive) ++ u_mixed).
End Contraction.

Definition u_dlag : list mono :=
  d_poly uN (get_num (run_s "ucc_energy" suE)) ++ s_upair s_uL (fun i j => u_d (u_amp "uccsd_stanton" u_res i j)).
Definition u_drhs : list mono := u_con sh_id ++ s_upair (u_amp "uccsd_lambda_opt" u_lar) s_udT.
Definition u_lag : list mono :=
  get_num (run_s "ucc_energy" suE) ++ s_upair s_uL (u_amp "uccsd_stanton" u_res).

Definition u_tb2 : table := u_tb ++ sh_tb u_tb.
Definition u_c1 := Eval vm_compute in find_neq u_tb2 u_dlag u_drhs.
Lemma u_chk1 : neq_chk u_tb2 u_dlag u_drhs u_c1 = true.
Proof. vm_compute. reflexivity. Qed.
Definition u_c2 := Eval vm_compute in find_neq u_tb u_lag (u_con (fun t => t)).
Lemma u_chk2 : neq_chk u_tb u_lag (u_con (fun t => t)) u_c2 = true.
Proof. vm_compute. reflexivity. Qed.

(** *** Shapes of the results *)
Definition u_rd_list : list (string * list (list cls)) :=
  [("uccsd_1rdm_ba", [[va; va]; [vb; vb]]); ("uccsd_1rdm_ji", [[oa; oa]; [ob; ob]]); ("uccsd_1rdm_ai", [[va; oa]; [vb; ob]]);
   ("uccsd_2rdm_cdab", [[va; va; va; va]; [vb; vb; vb; vb]; [va; vb; va; vb]]);
   ("uccsd_2rdm_klij", [[oa; oa; oa; oa]; [ob; ob; ob; ob]; [oa; ob; oa; ob]]);
   ("uccsd_2rdm_abij", [[va; va; oa; oa]; [vb; vb; ob; ob]; [va; vb; oa; ob]]);
   ("uccsd_2rdm_ciab", [[va; oa; va; va]; [vb; ob; vb; vb]; [va; ob; va; vb]; [vb; oa; vb; va]]);
   ("uccsd_2rdm_bcai", [[va; va; va; oa]; [vb; vb; vb; ob]; [va; vb; va; ob]; [vb; va; vb; oa]]);
   ("uccsd_2rdm_jkai", [[oa; oa; va; oa]; [ob; ob; vb; ob]; [oa; ob; va; ob]; [ob; oa; vb; oa]]);
   ("uccsd_2rdm_kaij", [[oa; va; oa; oa]; [ob; vb; ob; ob]; [oa; vb; oa; ob]; [ob; va; ob; oa]]);
   ("uccsd_2rdm_bjai", [[va; oa; va; oa]; [vb; ob; vb; ob]; [va; ob; va; ob]; [va; ob; vb; oa]; [vb; oa; va; ob]; [vb; oa; vb; oa]])].
Definition u_rd_chk (e : string * list (list cls)) : bool :=
  run_form (FTup (map (fun _ => FArr) (seq 0 (List.length (snd e))))) (fst e) suR &&
  forallb (fun k => cls_list_eqb (s_sh (ublk (fst e) k)) (nth k (snd e) [])) (seq 0 (List.length (snd e))).
Lemma u_rd_ok : forallb u_rd_chk u_rd_list = true. Proof. vm_compute. reflexivity. Qed.
Lemma u_runs : run_form FNum "ucc_energy" suE && run_form f_amps "uccsd_stanton" u_res && run_form f_amps "uccsd_lambda_opt" u_lar = true.
Proof. vm_compute. reflexivity. Qed.
Definition shs5 (s : nat -> nat -> stens) : list (list cls) := [s_sh (s 0 0); s_sh (s 0 1); s_sh (s 1 0); s_sh (s 1 1); s_sh (s 1 2)].
Lemma shs5_d s : shs5 (fun i j => u_d (s i j)) = shs5 s. Proof. reflexivity. Qed.
Lemma u_res_shs : shs5 (u_amp "uccsd_stanton" u_res) = [[va; oa]; [vb; ob]; [va; va; oa; oa]; [va; vb; oa; ob]; [vb; vb; ob; ob]].
Proof. vm_compute. reflexivity. Qed.
Lemma u_lar_shs : shs5 (u_amp "uccsd_lambda_opt" u_lar) = [[oa; va]; [ob; vb]; [oa; oa; va; va]; [oa; ob; va; vb]; [ob; ob; vb; vb]].
Proof. vm_compute. reflexivity. Qed.
