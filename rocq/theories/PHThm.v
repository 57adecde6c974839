(** Exchange of electrons and holes: the functions. *)
From Coq Require Import List Bool Arith ZArith String Lia Ring.
From Verif Require Import Scalar Tensor PySyntax PySem PySim Sym SymSound Norm CCProg CCSpec
  Engine Tools SOCtx NpModel SpinModel SpinSpec UCtx RCtx SpinOut CCSpin CCRest CCEquiv PHSpec PH.
Import ListNotations.
Local Open Scope string_scope.

(** check a table, one list of certificates per row *)
Definition tab_chk {X} (chk : X -> list (list cert) -> bool) (l : list X) (cs : list (list (list cert))) : bool :=
  Nat.eqb (List.length l) (List.length cs) && forallb (fun xc => chk (fst xc) (snd xc)) (combine l cs).
Lemma tab_sound {X} chk (l : list X) cs x : tab_chk chk l cs = true -> In x l -> exists c, chk x c = true.
Proof.
  unfold tab_chk. intros H Hin. apply andb_prop in H. destruct H as (H1 & H2). apply Nat.eqb_eq in H1.
  revert cs H1 H2 Hin. induction l as [|y l IH]; intros [|c cs] H1 H2 Hin; try discriminate; [destruct Hin|].
  cbn in H2. apply andb_prop in H2. destruct H2 as (A & B). destruct Hin as [->|Hin]; [eauto|].
  apply (IH cs); auto.
Qed.

(** *** Spin orbitals *)
Definition hF := pF 1 cO cV. Definition hI := pI 5 cO cV.
Definition hT1 := ph_i H1 14 [cV; cO]. Definition hT2 := ph_i H2 15 [cV; cV; cO; cO].
Definition hL1 := ph_i H1 16 [cO; cV]. Definition hL2 := ph_i H2 17 [cO; cO; cV; cV].

Definition same (f : string) := (f, f).
Definition chk2 tb a b (fg : string * string) cs := hole_chk tb (FTup [FArr; FArr]) two_goals (fst fg) (snd fg) a b cs.
Definition find2 tb a b (fg : string * string) := hole_find tb two_goals (fst fg) (snd fg) a b.
Definition chk1 tb a b (e : string * string * hkind) cs :=
  hole_chk tb FArr (one_goal (snd e)) (fst (fst e)) (snd (fst e)) a b cs.
Definition find1 tb a b (e : string * string * hkind) :=
  hole_find tb (one_goal (snd e)) (fst (fst e)) (snd (fst e)) a b.

Definition so_sd := ["lccsd_simple"; "ccsd_simple"; "ccsd_stanton"].
Definition so_d := ["lccd_simple"; "ccd_simple"; "ccd_stanton"].
Definition so_i := ["ccd_ladder_simple"; "ccd_ring_simple"].
Definition so_l := ["ccsd_lambda_simple"; "ccsd_lambda_opt"; "ccsd_lambda_stanton"].
Definition d_row (f : string) := (f, f, H2).
Definition a_sd := [sF; sI; sT1; sT2]. Definition b_sd := [hF; hI; hT1; hT2].
Definition a_d := [sF; sI; sT2]. Definition b_d := [hF; hI; hT2].
Definition a_i := [sI; sT2]. Definition b_i := [hI; hT2].
Definition a_l := [sF; sI; sL1; sL2; sT1; sT2]. Definition b_l := [hF; hI; hL1; hL2; hT1; hT2].
Definition a_dl := [sF; sI; sL2; sT2]. Definition b_dl := [hF; hI; hL2; hT2].
Definition a_r := [sT1; sT2; sL1; sL2]. Definition b_r := [hT1; hT2; hL1; hL2].
Definition a_rf := [sT1; sT2; sL1; sL2; sFac]. Definition b_rf := [hT1; hT2; hL1; hL2; sFac].
Definition a_e := [sT1; sT2; inp 2 [cO; cV]; inp 10 [cO; cO; cV; cV]].
Definition b_e := [hT1; hT2; ph_i H1 2 [cO; cV]; ph_i H2 10 [cO; cO; cV; cV]].

Definition cs_sd := Eval vm_compute in map (find2 so_tb a_sd b_sd) (map same so_sd).
Definition cs_d := Eval vm_compute in map (find1 so_tb a_d b_d) (map d_row so_d).
Definition cs_i := Eval vm_compute in map (find1 so_tb a_i b_i) (map d_row so_i).
Definition cs_l := Eval vm_compute in map (find2 so_tb a_l b_l) (map same so_l).
Definition cs_dl := Eval vm_compute in map (find1 so_tb a_dl b_dl) [d_row "ccd_lambda_simple"].
Definition cs_r := Eval vm_compute in map (find1 so_tb a_r b_r) so_rdm2.
Definition cs_rf := Eval vm_compute in map (find1 so_tb a_rf b_rf) so_rdmf.
Definition cs_e := Eval vm_compute in
  map (fun f => [find_neq so_tb (get_num (run_s f a_e)) (get_num (run_s f b_e))]) ["cc_energy"; "mp2_energy"].
Definition chk_e tb a b (f : string) (cs : list (list cert)) := match cs with [c] => num_chk tb a b f f c | _ => false end.

Lemma ok_sd : tab_chk (chk2 so_tb a_sd b_sd) (map same so_sd) cs_sd = true.
Proof. vm_compute. reflexivity. Qed.
Lemma ok_d : tab_chk (chk1 so_tb a_d b_d) (map d_row so_d) cs_d = true.
Proof. vm_compute. reflexivity. Qed.
Lemma ok_i : tab_chk (chk1 so_tb a_i b_i) (map d_row so_i) cs_i = true.
Proof. vm_compute. reflexivity. Qed.
Lemma ok_l : tab_chk (chk2 so_tb a_l b_l) (map same so_l) cs_l = true.
Proof. vm_compute. reflexivity. Qed.
Lemma ok_dl : tab_chk (chk1 so_tb a_dl b_dl) [d_row "ccd_lambda_simple"] cs_dl = true.
Proof. vm_compute. reflexivity. Qed.
Lemma ok_r : tab_chk (chk1 so_tb a_r b_r) so_rdm2 cs_r = true.
Proof. vm_compute. reflexivity. Qed.
Lemma ok_rf : tab_chk (chk1 so_tb a_rf b_rf) so_rdmf cs_rf = true.
Proof. vm_compute. reflexivity. Qed.
Lemma ok_e : tab_chk (chk_e so_tb a_e b_e) ["cc_energy"; "mp2_energy"] cs_e = true.
Proof. vm_compute. reflexivity. Qed.

(** *** Two spins *)
Definition hFa := pF 31 oa va. Definition hFb := pF 35 ob vb.
Definition hIa := pI 41 oa va. Definition hIb := pI 51 ob vb. Definition hIab := pJ oa va ob vb.
Definition hT1a := ph_i H1 81 [va; oa]. Definition hT1b := ph_i H1 82 [vb; ob].
Definition hT2aa := ph_i H2 83 [va; va; oa; oa]. Definition hT2ab := ph_i H2 84 [va; vb; oa; ob].
Definition hT2bb := ph_i H2 85 [vb; vb; ob; ob].
Definition hL1a := ph_i H1 86 [oa; va]. Definition hL1b := ph_i H1 87 [ob; vb].
Definition hL2aa := ph_i H2 88 [oa; oa; va; va]. Definition hL2ab := ph_i H2 89 [oa; ob; va; vb].
Definition hL2bb := ph_i H2 90 [ob; ob; vb; vb].
Definition ua_t := [sFa; sFb; sIa; sIb; sIab; XTup [sT1a; sT1b]; XTup [sT2aa; sT2ab; sT2bb]].
Definition ub_t := [hFa; hFb; hIa; hIb; hIab; XTup [hT1a; hT1b]; XTup [hT2aa; hT2ab; hT2bb]].
Definition ua_l := [sFa; sFb; sIa; sIb; sIab; XTup [sL1a; sL1b]; XTup [sL2aa; sL2ab; sL2bb];
  XTup [sT1a; sT1b]; XTup [sT2aa; sT2ab; sT2bb]].
Definition ub_l := [hFa; hFb; hIa; hIb; hIab; XTup [hL1a; hL1b]; XTup [hL2aa; hL2ab; hL2bb];
  XTup [hT1a; hT1b]; XTup [hT2aa; hT2ab; hT2bb]].
Definition ua_r := [sT1a; sT1b; sT2aa; sT2ab; sT2bb; sL1a; sL1b; sL2aa; sL2ab; sL2bb].
Definition ub_r := [hT1a; hT1b; hT2aa; hT2ab; hT2bb; hL1a; hL1b; hL2aa; hL2ab; hL2bb].
Definition ua_e := [XTup [sT1a; sT1b]; XTup [sT2aa; sT2ab; sT2bb]; inp 32 [oa; va]; inp 36 [ob; vb];
  inp 46 [oa; oa; va; va]; inp 56 [ob; ob; vb; vb]; inp 71 [oa; ob; va; vb]].
Definition ub_e := [XTup [hT1a; hT1b]; XTup [hT2aa; hT2ab; hT2bb]; ph_i H1 32 [oa; va]; ph_i H1 36 [ob; vb];
  ph_i H2 46 [oa; oa; va; va]; ph_i H2 56 [ob; ob; vb; vb]; ph_i H2 71 [oa; ob; va; vb]].

Definition chk_b tb a b (e : string * string * list (nat * hkind)) cs :=
  forallb (fun jk => Nat.ltb (fst jk) (List.length (snd e))) (snd e) &&
  hole_chk tb (FTup (map (fun _ : nat => FArr) (seq 0 (List.length (snd e))))) (blk_goals (snd e)) (fst (fst e)) (snd (fst e)) a b cs.
Definition find_b tb a b (e : string * string * list (nat * hkind)) :=
  hole_find tb (blk_goals (snd e)) (fst (fst e)) (snd (fst e)) a b.
Definition cs_ut := Eval vm_compute in hole_find u_tb amp_goals' "uccsd_stanton" "uccsd_stanton" ua_t ub_t.
Definition cs_ul := Eval vm_compute in hole_find u_tb amp_goals' "uccsd_lambda_opt" "uccsd_lambda_opt" ua_l ub_l.
Definition cs_ur := Eval vm_compute in map (find_b u_tb ua_r ub_r) u_rdm.
Definition cs_ue := Eval vm_compute in
  map (fun f => [find_neq u_tb (get_num (run_s f ua_e)) (get_num (run_s f ub_e))]) ["ucc_energy"; "ump2_energy"].
Lemma ok_ut : hole_chk u_tb f_amps amp_goals' "uccsd_stanton" "uccsd_stanton" ua_t ub_t cs_ut = true.
Proof. vm_compute. reflexivity. Qed.
Lemma ok_ul : hole_chk u_tb f_amps amp_goals' "uccsd_lambda_opt" "uccsd_lambda_opt" ua_l ub_l cs_ul = true.
Proof. vm_compute. reflexivity. Qed.
Lemma ok_ur : tab_chk (chk_b u_tb ua_r ub_r) u_rdm cs_ur = true.
Proof. vm_compute. reflexivity. Qed.
Lemma ok_ue : tab_chk (chk_e u_tb ua_e ub_e) ["ucc_energy"; "ump2_energy"] cs_ue = true.
Proof. vm_compute. reflexivity. Qed.

(** *** Closed shells *)
Definition hIr := pJ cO cV cO cV.
Definition ra_t := [sF; sIr; sT1; sT2]. Definition rb_t := [hF; hIr; hT1; hT2].
Definition ra_l := [sF; sIr; sL1; sL2; sT1; sT2]. Definition rb_l := [hF; hIr; hL1; hL2; hT1; hT2].
Definition ra_e := [sT1; sT2; inp 2 [cO; cV]; inp 71 [cO; cO; cV; cV]].
Definition rb_e := [hT1; hT2; ph_i H1 2 [cO; cV]; ph_i H2 71 [cO; cO; cV; cV]].
Definition cs_rt := Eval vm_compute in hole_find r_tb two_goals "rccsd_stanton" "rccsd_stanton" ra_t rb_t.
Definition cs_rl := Eval vm_compute in hole_find r_tb two_goals "rccsd_lambda_opt" "rccsd_lambda_opt" ra_l rb_l.
Definition cs_rr := Eval vm_compute in map (find1 r_tb a_r b_r) r_rdm.
Definition cs_re := Eval vm_compute in
  map (fun f => [find_neq r_tb (get_num (run_s f ra_e)) (get_num (run_s f rb_e))]) ["rcc_energy"].
Lemma ok_rt : hole_chk r_tb (FTup [FArr; FArr]) two_goals "rccsd_stanton" "rccsd_stanton" ra_t rb_t cs_rt = true.
Proof. vm_compute. reflexivity. Qed.
Lemma ok_rl : hole_chk r_tb (FTup [FArr; FArr]) two_goals "rccsd_lambda_opt" "rccsd_lambda_opt" ra_l rb_l cs_rl = true.
Proof. vm_compute. reflexivity. Qed.
Lemma ok_rr : tab_chk (chk1 r_tb a_r b_r) r_rdm cs_rr = true.
Proof. vm_compute. reflexivity. Qed.
Lemma ok_re : tab_chk (chk_e r_tb ra_e rb_e) ["rcc_energy"] cs_re = true.
Proof. vm_compute. reflexivity. Qed.

Section Rows.
  Variables (tb : table) (a b : list sval).
  Lemma row2 l cs f : tab_chk (chk2 tb a b) (map same l) cs = true -> In f l ->
    exists c, hole_chk tb (FTup [FArr; FArr]) two_goals f f a b c = true.
  Proof. intros H Hf. apply (in_map same) in Hf. destruct (tab_sound _ _ _ _ H Hf) as (c & Hc). exists c. exact Hc. Qed.
  Lemma row1 l cs f : tab_chk (chk1 tb a b) (map d_row l) cs = true -> In f l ->
    exists c, hole_chk tb FArr (one_goal H2) f f a b c = true.
  Proof. intros H Hf. apply (in_map d_row) in Hf. destruct (tab_sound _ _ _ _ H Hf) as (c & Hc). exists c. exact Hc. Qed.
  Lemma row_r l cs f g k : tab_chk (chk1 tb a b) l cs = true -> In (f, g, k) l ->
    exists c, hole_chk tb FArr (one_goal k) f g a b c = true.
  Proof. intros H Hf. destruct (tab_sound _ _ _ _ H Hf) as (c & Hc). exists c. exact Hc. Qed.
  Lemma row_e l cs f : tab_chk (chk_e tb a b) l cs = true -> In f l -> exists c, num_chk tb a b f f c = true.
  Proof.
    intros H Hf. destruct (tab_sound _ _ _ _ H Hf) as (c & Hc). destruct c as [|c [|]]; try discriminate.
    exists c. exact Hc.
  Qed.
  Lemma row_b l cs f g m : tab_chk (chk_b tb a b) l cs = true -> In (f, g, m) l ->
    Forall (fun jk => fst jk < List.length m) m /\
    exists c, hole_chk tb (FTup (map (fun _ : nat => FArr) (seq 0 (List.length m)))) (blk_goals m) f g a b c = true.
  Proof.
    intros H Hf. destruct (tab_sound _ _ _ _ H Hf) as (c & Hc). unfold chk_b in Hc. apply andb_prop in Hc.
    destruct Hc as (Hl & Hc). cbn [fst snd] in Hl, Hc. split; [|exists c; exact Hc].
    apply Forall_forall. rewrite forallb_forall in Hl. intros x Hx. apply Nat.ltb_lt. apply Hl. exact Hx.
  Qed.
End Rows.

Ltac f2 := repeat first [apply Forall2_nil | apply Forall2_cons]; try assumption.

Section SO.
  Variable K : cring.
  Variables no nv : nat.
  Variables F F' : one_e K.
  Variables I I' : two_e K.
  Variables T1 T2 L1 L2 T1' T2' L1' L2' : tensor K.
  Variable tfac : K.
  Hypothesis HF : one_e_ok no nv F.
  Hypothesis HI : two_e_ok no nv I.
  Hypothesis HT1 : t1_ok no nv T1.
  Hypothesis HT2 : t2_ok no nv T2.
  Hypothesis HL1 : l1_ok no nv L1.
  Hypothesis HL2 : l2_ok no nv L2.
  Notation rho := (so_rho K F I T1 T2 L1 L2 tfac (noex K)).
  Notation R := (Rval K (so_dim no nv) rho).
  Let Htb : sym_ok K (so_dim no nv) rho so_tb.
  Proof. apply so_sym; assumption. Qed.
  Let A_F : R sF (py_one_e F). Proof. apply R_F; assumption. Qed.
  Let A_I : R sI (py_two_e I). Proof. apply R_I, HI. Qed.
  Let A_T1 : R sT1 (arr T1). Proof. apply R_T1; assumption. Qed.
  Let A_T2 : R sT2 (arr T2). Proof. apply R_T2, HT2. Qed.
  Let A_L1 : R sL1 (arr L1). Proof. apply R_L1; assumption. Qed.
  Let A_L2 : R sL2 (arr L2). Proof. apply R_L2, HL2. Qed.
  Let A_fac : R sFac (numv tfac). Proof. apply R_fac. Qed.
  Let A_ov : R (inp 2 [cO; cV]) (arr (ov F)). Proof. apply R_ov; assumption. Qed.
  Let A_oovv : R (inp 10 [cO; cO; cV; cV]) (arr (oovv I)). Proof. apply R_oovv, HI. Qed.
  Let B_F : holes_F F F' -> R hF (py_one_e F'). Proof. apply R_pF. exact A_F. Qed.
  Let B_I : holes_I I I' -> R hI (py_two_e I'). Proof. apply R_pI. exact A_I. Qed.
  Let B_T1 : holes H1 T1 T1' -> R hT1 (arr T1'). Proof. apply R_ph; [reflexivity|exact A_T1]. Qed.
  Let B_T2 : holes H2 T2 T2' -> R hT2 (arr T2'). Proof. apply R_ph; [reflexivity|exact A_T2]. Qed.
  Let B_L1 : holes H1 L1 L1' -> R hL1 (arr L1'). Proof. apply R_ph; [reflexivity|exact A_L1]. Qed.
  Let B_L2 : holes H2 L2 L2' -> R hL2 (arr L2'). Proof. apply R_ph; [reflexivity|exact A_L2]. Qed.

  Lemma ph_sd f : In f so_sd -> holes_F F F' -> holes_I I I' -> holes H1 T1 T1' -> holes H2 T2 T2' ->
    exists r s r' s', returns f [py_one_e F; py_two_e I; arr T1; arr T2] (tup [arr r; arr s]) /\
      returns f [py_one_e F'; py_two_e I'; arr T1'; arr T2'] (tup [arr r'; arr s']) /\
      holes H1 r r' /\ holes H2 s s'.
  Proof.
    intros Hf HA HB HC HD. destruct (row2 _ _ _ _ _ _ ok_sd Hf) as (c & Hc).
    refine (hole_pair K _ _ so_tb Htb _ _ _ _ _ _ f f c Hc); [unfold a_sd|unfold b_sd]; f2; auto.
  Qed.
  Lemma ph_d f : In f so_d -> holes_F F F' -> holes_I I I' -> holes H2 T2 T2' ->
    exists s s', returns f [py_one_e F; py_two_e I; arr T2] (arr s) /\
      returns f [py_one_e F'; py_two_e I'; arr T2'] (arr s') /\ holes H2 s s'.
  Proof.
    intros Hf HA HB HD. destruct (row1 _ _ _ _ _ _ ok_d Hf) as (c & Hc).
    refine (hole_arr K _ _ so_tb Htb _ _ _ _ _ _ H2 f f c Hc); [unfold a_d|unfold b_d]; f2; auto.
  Qed.
  Lemma ph_int f : In f so_i -> holes_I I I' -> holes H2 T2 T2' ->
    exists s s', returns f [py_two_e I; arr T2] (arr s) /\
      returns f [py_two_e I'; arr T2'] (arr s') /\ holes H2 s s'.
  Proof.
    intros Hf HB HD. destruct (row1 _ _ _ _ _ _ ok_i Hf) as (c & Hc).
    refine (hole_arr K _ _ so_tb Htb _ _ _ _ _ _ H2 f f c Hc); [unfold a_i|unfold b_i]; f2; auto.
  Qed.
  Lemma ph_lam f : In f so_l -> holes_F F F' -> holes_I I I' -> holes H1 L1 L1' -> holes H2 L2 L2' ->
    holes H1 T1 T1' -> holes H2 T2 T2' ->
    exists r s r' s', returns f [py_one_e F; py_two_e I; arr L1; arr L2; arr T1; arr T2] (tup [arr r; arr s]) /\
      returns f [py_one_e F'; py_two_e I'; arr L1'; arr L2'; arr T1'; arr T2'] (tup [arr r'; arr s']) /\
      holes H1 r r' /\ holes H2 s s'.
  Proof.
    intros Hf HA HB HE HG HC HD. destruct (row2 _ _ _ _ _ _ ok_l Hf) as (c & Hc).
    refine (hole_pair K _ _ so_tb Htb _ _ _ _ _ _ f f c Hc); [unfold a_l|unfold b_l]; f2; auto.
  Qed.
  Lemma ph_dlam : holes_F F F' -> holes_I I I' -> holes H2 L2 L2' -> holes H2 T2 T2' ->
    exists s s', returns "ccd_lambda_simple" [py_one_e F; py_two_e I; arr L2; arr T2] (arr s) /\
      returns "ccd_lambda_simple" [py_one_e F'; py_two_e I'; arr L2'; arr T2'] (arr s') /\ holes H2 s s'.
  Proof.
    intros HA HB HG HD.
    destruct (row_r _ _ _ _ _ "ccd_lambda_simple" "ccd_lambda_simple" H2 ok_dl (or_introl eq_refl)) as (c & Hc).
    refine (hole_arr K _ _ so_tb Htb _ _ _ _ _ _ H2 _ _ c Hc); [unfold a_dl|unfold b_dl]; f2; auto.
  Qed.
  Lemma ph_e f : In f ["cc_energy"; "mp2_energy"] -> holes_F F F' -> holes_I I I' ->
    holes H1 T1 T1' -> holes H2 T2 T2' ->
    exists e, returns f [arr T1; arr T2; arr (ov F); arr (oovv I)] (numv e) /\
      returns f [arr T1'; arr T2'; arr (ov F'); arr (oovv I')] (numv e).
  Proof.
    intros Hf (_ & HA & _) (_ & _ & _ & _ & _ & HB & _) HC HD. destruct (row_e _ _ _ _ _ _ ok_e Hf) as (c & Hc).
    refine (hole_num K _ _ so_tb Htb _ _ _ _ _ _ f f c Hc); [unfold a_e|unfold b_e]; f2; auto.
    - eapply R_ph; [reflexivity|exact A_ov|exact HA].
    - eapply R_ph; [reflexivity|exact A_oovv|exact HB].
  Qed.
  Lemma ph_rdm f g k : In (f, g, k) so_rdm2 -> holes H1 T1 T1' -> holes H2 T2 T2' ->
    holes H1 L1 L1' -> holes H2 L2 L2' ->
    exists r r', returns f [arr T1; arr T2; arr L1; arr L2] (arr r) /\
      returns g [arr T1'; arr T2'; arr L1'; arr L2'] (arr r') /\ holes k r r'.
  Proof.
    intros Hf HC HD HE HG. destruct (row_r _ _ _ _ _ _ _ _ ok_r Hf) as (c & Hc).
    refine (hole_arr K _ _ so_tb Htb _ _ _ _ _ _ k f g c Hc); [unfold a_r|unfold b_r]; f2; auto.
  Qed.
  Lemma ph_rdmf f g k : In (f, g, k) so_rdmf -> holes H1 T1 T1' -> holes H2 T2 T2' ->
    holes H1 L1 L1' -> holes H2 L2 L2' ->
    exists r r', returns f [arr T1; arr T2; arr L1; arr L2; numv tfac] (arr r) /\
      returns g [arr T1'; arr T2'; arr L1'; arr L2'; numv tfac] (arr r') /\ holes k r r'.
  Proof.
    intros Hf HC HD HE HG. destruct (row_r _ _ _ _ _ _ _ _ ok_rf Hf) as (c & Hc).
    refine (hole_arr K _ _ so_tb Htb _ _ _ _ _ _ k f g c Hc); [unfold a_rf|unfold b_rf]; f2; auto.
  Qed.
End SO.

Section U.
  Variable K : cring.
  Variables noa nva nob nvb : nat.
  Variables Fa Fb Fa' Fb' : one_e K.
  Variables Ia Ib Ia' Ib' : two_e K.
  Variables J J' : two_e_full K.
  Variables T1a T1b T2aa T2ab T2bb L1a L1b L2aa L2ab L2bb : tensor K.
  Variables T1a' T1b' T2aa' T2ab' T2bb' L1a' L1b' L2aa' L2ab' L2bb' : tensor K.
  Hypothesis HH : u_ham_ok noa nva nob nvb Fa Fb Ia Ib J.
  Hypothesis HT : u_amps_ok noa nva nob nvb T1a T1b T2aa T2ab T2bb.
  Hypothesis HL : u_lams_ok noa nva nob nvb L1a L1b L2aa L2ab L2bb.
  Notation dim := (u_dim noa nva nob nvb).
  Notation rho := (u_rho K Fa Fb Ia Ib J T1a T1b T2aa T2ab T2bb L1a L1b L2aa L2ab L2bb c0).
  Notation R := (Rval K dim rho).
  Let Htb : sym_ok K dim rho u_tb.
  Proof. apply u_sym; assumption. Qed.

  Let AH := uR_ham K _ _ _ _ _ _ _ _ _ T1a T1b T2aa T2ab T2bb L1a L1b L2aa L2ab L2bb c0 HH.
  Let AT := uR_amps K _ _ _ _ Fa Fb Ia Ib J _ _ _ _ _ L1a L1b L2aa L2ab L2bb c0 HT.
  Let AL := uR_lams K _ _ _ _ Fa Fb Ia Ib J T1a T1b T2aa T2ab T2bb _ _ _ _ _ c0 HL.
  Let AB := uR_blocks K _ _ _ _ _ _ _ _ _ T1a T1b T2aa T2ab T2bb L1a L1b L2aa L2ab L2bb c0 HH.
  Let BH : holes_uH Fa Fb Ia Ib J Fa' Fb' Ia' Ib' J' -> R hFa (py_one_e Fa') /\ R hFb (py_one_e Fb') /\ R hIa (py_two_e Ia') /\
    R hIb (py_two_e Ib') /\ R hIab (py_two_e_full J').
  Proof.
    destruct AH as (A1 & A2 & A3 & A4 & A5). intros (B1 & B2 & B3 & B4 & B5).
    split; [apply (R_pF K _ _ _ _ _ _ _ A1 B1)|]. split; [apply (R_pF K _ _ _ _ _ _ _ A2 B2)|].
    split; [apply (R_pI K _ _ _ _ _ _ _ A3 B3)|]. split; [apply (R_pI K _ _ _ _ _ _ _ A4 B4)|].
    apply (R_pJ K _ _ _ _ _ _ _ _ A5 B5).
  Qed.
  Let BT : holes_amps T1a T1b T2aa T2ab T2bb T1a' T1b' T2aa' T2ab' T2bb' -> R hT1a (arr T1a') /\ R hT1b (arr T1b') /\ R hT2aa (arr T2aa') /\
    R hT2ab (arr T2ab') /\ R hT2bb (arr T2bb').
  Proof.
    destruct AT as (A1 & A2 & A3 & A4 & A5). intros (B1 & B2 & B3 & B4 & B5).
    repeat match goal with |- _ /\ _ => split end; (eapply R_ph; [reflexivity|eassumption|eassumption]).
  Qed.
  Let BL : holes_amps L1a L1b L2aa L2ab L2bb L1a' L1b' L2aa' L2ab' L2bb' -> R hL1a (arr L1a') /\ R hL1b (arr L1b') /\ R hL2aa (arr L2aa') /\
    R hL2ab (arr L2ab') /\ R hL2bb (arr L2bb').
  Proof.
    destruct AL as (A1 & A2 & A3 & A4 & A5). intros (B1 & B2 & B3 & B4 & B5).
    repeat match goal with |- _ /\ _ => split end; (eapply R_ph; [reflexivity|eassumption|eassumption]).
  Qed.
  Ltac g2 := repeat first [apply Forall2_nil | apply Forall2_cons | apply Rx_tup]; try assumption.
  Lemma ph_ut : holes_uH Fa Fb Ia Ib J Fa' Fb' Ia' Ib' J' -> holes_amps T1a T1b T2aa T2ab T2bb T1a' T1b' T2aa' T2ab' T2bb' ->
    exists ta tb aa ab bb ta' tb' aa' ab' bb',
      returns "uccsd_stanton" [py_one_e Fa; py_one_e Fb; py_two_e Ia; py_two_e Ib; py_two_e_full J;
          tup [arr T1a; arr T1b]; tup [arr T2aa; arr T2ab; arr T2bb]]
        (tup [tup [arr ta; arr tb]; tup [arr aa; arr ab; arr bb]]) /\
      returns "uccsd_stanton" [py_one_e Fa'; py_one_e Fb'; py_two_e Ia'; py_two_e Ib'; py_two_e_full J';
          tup [arr T1a'; arr T1b']; tup [arr T2aa'; arr T2ab'; arr T2bb']]
        (tup [tup [arr ta'; arr tb']; tup [arr aa'; arr ab'; arr bb']]) /\
      holes_amps ta tb aa ab bb ta' tb' aa' ab' bb'.
  Proof.
    intros XH XT. destruct (BH XH) as (? & ? & ? & ? & ?), (BT XT) as (? & ? & ? & ? & ?),
      AH as (? & ? & ? & ? & ?), AT as (? & ? & ? & ? & ?).
    refine (hole_amps K _ _ u_tb Htb _ _ _ _ _ _ _ _ _ ok_ut); [unfold ua_t|unfold ub_t]; g2.
  Qed.
  Lemma ph_ul : holes_uH Fa Fb Ia Ib J Fa' Fb' Ia' Ib' J' -> holes_amps L1a L1b L2aa L2ab L2bb L1a' L1b' L2aa' L2ab' L2bb' -> holes_amps T1a T1b T2aa T2ab T2bb T1a' T1b' T2aa' T2ab' T2bb' ->
    exists ta tb aa ab bb ta' tb' aa' ab' bb',
      returns "uccsd_lambda_opt" [py_one_e Fa; py_one_e Fb; py_two_e Ia; py_two_e Ib; py_two_e_full J;
          tup [arr L1a; arr L1b]; tup [arr L2aa; arr L2ab; arr L2bb];
          tup [arr T1a; arr T1b]; tup [arr T2aa; arr T2ab; arr T2bb]]
        (tup [tup [arr ta; arr tb]; tup [arr aa; arr ab; arr bb]]) /\
      returns "uccsd_lambda_opt" [py_one_e Fa'; py_one_e Fb'; py_two_e Ia'; py_two_e Ib'; py_two_e_full J';
          tup [arr L1a'; arr L1b']; tup [arr L2aa'; arr L2ab'; arr L2bb'];
          tup [arr T1a'; arr T1b']; tup [arr T2aa'; arr T2ab'; arr T2bb']]
        (tup [tup [arr ta'; arr tb']; tup [arr aa'; arr ab'; arr bb']]) /\
      holes_amps ta tb aa ab bb ta' tb' aa' ab' bb'.
  Proof.
    intros XH XL XT. destruct (BH XH) as (? & ? & ? & ? & ?), (BT XT) as (? & ? & ? & ? & ?),
      (BL XL) as (? & ? & ? & ? & ?),
      AH as (? & ? & ? & ? & ?), AT as (? & ? & ? & ? & ?), AL as (? & ? & ? & ? & ?).
    refine (hole_amps K _ _ u_tb Htb _ _ _ _ _ _ _ _ _ ok_ul); [unfold ua_l|unfold ub_l]; g2.
  Qed.
  Lemma ph_ue f : In f ["ucc_energy"; "ump2_energy"] -> holes_uH Fa Fb Ia Ib J Fa' Fb' Ia' Ib' J' -> holes_amps T1a T1b T2aa T2ab T2bb T1a' T1b' T2aa' T2ab' T2bb' ->
    exists e, returns f [tup [arr T1a; arr T1b]; tup [arr T2aa; arr T2ab; arr T2bb]; arr (ov Fa); arr (ov Fb);
        arr (oovv Ia); arr (oovv Ib); arr (foovv J)] (numv e) /\
      returns f [tup [arr T1a'; arr T1b']; tup [arr T2aa'; arr T2ab'; arr T2bb']; arr (ov Fa'); arr (ov Fb');
        arr (oovv Ia'); arr (oovv Ib'); arr (foovv J')] (numv e).
  Proof.
    intros Hf XH XT. assert (X5 : holes H2 (foovv J) (foovv J')) by apply XH. destruct (row_e _ _ _ _ _ _ ok_ue Hf) as (c & Hc).
    destruct (BT XT) as (? & ? & ? & ? & ?), AT as (? & ? & ? & ? & ?), AB as (G1 & G2 & G3 & G4 & G5).
    destruct XH as ((_ & X1 & _) & (_ & X2 & _) & (_ & _ & _ & _ & _ & X3 & _) & (_ & _ & _ & _ & _ & X4 & _) & _).
    refine (hole_num K _ _ u_tb Htb _ _ _ _ _ _ f f c Hc); [unfold ua_e|unfold ub_e]; g2;
      (eapply R_ph; [reflexivity|eassumption|eassumption]).
  Qed.
  Lemma ph_ur f g l : In (f, g, l) u_rdm -> holes_amps T1a T1b T2aa T2ab T2bb T1a' T1b' T2aa' T2ab' T2bb' -> holes_amps L1a L1b L2aa L2ab L2bb L1a' L1b' L2aa' L2ab' L2bb' ->
    exists us us',
      returns f [arr T1a; arr T1b; arr T2aa; arr T2ab; arr T2bb; arr L1a; arr L1b; arr L2aa; arr L2ab; arr L2bb]
        (tup (map arr us)) /\
      returns g [arr T1a'; arr T1b'; arr T2aa'; arr T2ab'; arr T2bb'; arr L1a'; arr L1b'; arr L2aa'; arr L2ab';
        arr L2bb'] (tup (map arr us')) /\
      List.length us = List.length l /\ List.length us' = List.length l /\
      forall j k, nth_error l j = Some k -> holes (snd k) (pick us (fst k)) (pick us' j).
  Proof.
    intros Hf XT XL. destruct (row_b _ _ _ _ _ _ _ _ ok_ur Hf) as (Hl & c & Hc).
    destruct (BT XT) as (? & ? & ? & ? & ?), AT as (? & ? & ? & ? & ?), (BL XL) as (? & ? & ? & ? & ?),
      AL as (? & ? & ? & ? & ?).
    destruct (hole_blocks K dim rho u_tb Htb ua_r ub_r
      [arr T1a; arr T1b; arr T2aa; arr T2ab; arr T2bb; arr L1a; arr L1b; arr L2aa; arr L2ab; arr L2bb]
      [arr T1a'; arr T1b'; arr T2aa'; arr T2ab'; arr T2bb'; arr L1a'; arr L1b'; arr L2aa'; arr L2ab'; arr L2bb']
      ltac:(unfold ua_r; g2) ltac:(unfold ub_r; g2) l (seq 0 (List.length l)) f g c (seq_length _ _))
      as (us & us' & R1 & R2 & N1 & N2 & Q).
    - exact Hl.
    - exact Hc.
    - exists us, us'. do 4 (split; [assumption|]). intros j k Hk.
      pose proof (nth_error_Some l j) as Z. rewrite Hk in Z.
      specialize (Q j (proj1 Z ltac:(discriminate))). rewrite (nth_error_nth _ _ (0, PHSpec.H1) Hk) in Q. exact Q.
  Qed.
End U.

Section Rest.
  Variable K : cring.
  Variables no nv : nat.
  Variables F F' : one_e K.
  Variables J J' : two_e_full K.
  Variables T1 T2 L1 L2 T1' T2' L1' L2' : tensor K.
  Hypothesis HF : one_e_ok no nv F.
  Hypothesis HJ : two_e_full_ok no nv no nv J.
  Hypothesis PJ : pair_sym_full J.
  Hypothesis HT1 : shp T1 = [nv; no].
  Hypothesis HT2 : shp T2 = [nv; nv; no; no].
  Hypothesis P2 : pair_sym T2.
  Hypothesis HL1 : shp L1 = [no; nv].
  Hypothesis HL2 : shp L2 = [no; no; nv; nv].
  Hypothesis P4 : pair_sym L2.
  Notation dim := (so_dim no nv).
  Notation rho := (r_rho K no nv F J T1 T2 L1 L2 c0).
  Notation R := (Rval K dim rho).
  Let Htb : sym_ok K dim rho r_tb.
  Proof. apply r_sym; assumption. Qed.
  Let A_F : R sF (py_one_e F). Proof. apply rR_F; assumption. Qed.
  Let A_J : R sIr (py_two_e_full J). Proof. apply rR_J; assumption. Qed.
  Let A_T1 : R sT1 (arr T1). Proof. apply rR_T1; assumption. Qed.
  Let A_T2 : R sT2 (arr T2). Proof. apply rR_T2; assumption. Qed.
  Let A_L1 : R sL1 (arr L1). Proof. apply rR_L1; assumption. Qed.
  Let A_L2 : R sL2 (arr L2). Proof. apply rR_L2; assumption. Qed.
  Let A_ov : R (inp 2 [cO; cV]) (arr (ov F)). Proof. apply rR_ov; assumption. Qed.
  Let A_oovv : R (inp 71 [cO; cO; cV; cV]) (arr (foovv J)). Proof. apply rR_oovv; assumption. Qed.
  Let B_F : holes_F F F' -> R hF (py_one_e F'). Proof. apply R_pF. exact A_F. Qed.
  Let B_J : holes_J J J' -> R hIr (py_two_e_full J'). Proof. apply R_pJ. exact A_J. Qed.
  Let B_T1 : holes H1 T1 T1' -> R hT1 (arr T1'). Proof. apply R_ph; [reflexivity|exact A_T1]. Qed.
  Let B_T2 : holes H2 T2 T2' -> R hT2 (arr T2'). Proof. apply R_ph; [reflexivity|exact A_T2]. Qed.
  Let B_L1 : holes H1 L1 L1' -> R hL1 (arr L1'). Proof. apply R_ph; [reflexivity|exact A_L1]. Qed.
  Let B_L2 : holes H2 L2 L2' -> R hL2 (arr L2'). Proof. apply R_ph; [reflexivity|exact A_L2]. Qed.

  Lemma ph_rt : holes_F F F' -> holes_J J J' -> holes H1 T1 T1' -> holes H2 T2 T2' ->
    exists r s r' s', returns "rccsd_stanton" [py_one_e F; py_two_e_full J; arr T1; arr T2] (tup [arr r; arr s]) /\
      returns "rccsd_stanton" [py_one_e F'; py_two_e_full J'; arr T1'; arr T2'] (tup [arr r'; arr s']) /\
      holes H1 r r' /\ holes H2 s s'.
  Proof.
    intros HA HB HC HD.
    refine (hole_pair K _ _ r_tb Htb _ _ _ _ _ _ _ _ _ ok_rt); [unfold ra_t|unfold rb_t]; f2; auto.
  Qed.
  Lemma ph_rl : holes_F F F' -> holes_J J J' -> holes H1 L1 L1' -> holes H2 L2 L2' ->
    holes H1 T1 T1' -> holes H2 T2 T2' ->
    exists r s r' s', returns "rccsd_lambda_opt" [py_one_e F; py_two_e_full J; arr L1; arr L2; arr T1; arr T2]
        (tup [arr r; arr s]) /\
      returns "rccsd_lambda_opt" [py_one_e F'; py_two_e_full J'; arr L1'; arr L2'; arr T1'; arr T2']
        (tup [arr r'; arr s']) /\
      holes H1 r r' /\ holes H2 s s'.
  Proof.
    intros HA HB HE HG HC HD.
    refine (hole_pair K _ _ r_tb Htb _ _ _ _ _ _ _ _ _ ok_rl); [unfold ra_l|unfold rb_l]; f2; auto.
  Qed.
  Lemma ph_re : holes_F F F' -> holes_J J J' -> holes H1 T1 T1' -> holes H2 T2 T2' ->
    exists e, returns "rcc_energy" [arr T1; arr T2; arr (ov F); arr (foovv J)] (numv e) /\
      returns "rcc_energy" [arr T1'; arr T2'; arr (ov F'); arr (foovv J')] (numv e).
  Proof.
    intros (_ & HA & _) HB HC HD. assert (HB' : holes H2 (foovv J) (foovv J')) by apply HB.
    destruct (row_e _ _ _ _ _ "rcc_energy" ok_re (or_introl eq_refl)) as (c & Hc).
    refine (hole_num K _ _ r_tb Htb _ _ _ _ _ _ _ _ c Hc); [unfold ra_e|unfold rb_e]; f2; auto.
    - eapply R_ph; [reflexivity|exact A_ov|exact HA].
    - eapply R_ph; [reflexivity|exact A_oovv|exact HB'].
  Qed.
  Lemma ph_rr f g k : In (f, g, k) r_rdm -> holes H1 T1 T1' -> holes H2 T2 T2' ->
    holes H1 L1 L1' -> holes H2 L2 L2' ->
    exists r r', returns f [arr T1; arr T2; arr L1; arr L2] (arr r) /\
      returns g [arr T1'; arr T2'; arr L1'; arr L2'] (arr r') /\ holes k r r'.
  Proof.
    intros Hf HC HD HE HG. destruct (row_r _ _ _ _ _ _ _ _ ok_rr Hf) as (c & Hc).
    refine (hole_arr K _ _ r_tb Htb _ _ _ _ _ _ k f g c Hc); [unfold a_r|unfold b_r]; f2; auto.
  Qed.
End Rest.

(** *** The exchanged arguments exist, and are again arguments, for nv
    occupied and no virtual orbitals *)
Section Exist.
  Variable K : cring.
  Local Open Scope K_scope.
  Add Ring KrPX : (c_th K).
  Definition xF (F : one_e K) : one_e K :=
    OneE K (top K H1 (vv F)) (top K H1 (ov F)) (top K H1 (vo F)) (top K H1 (oo F)).
  Definition xI (I : two_e K) : two_e K :=
    TwoE K (top K H2 (oooo I)) (top K H2r (vooo I)) (top K H2 (ooov I)) (top K H2 (vvoo I)) (top K H2r (vovo I))
      (top K H2 (oovv I)) (top K H2r (vvvo I)) (top K H2 (vovv I)) (top K H2 (vvvv I)).
  Definition xJ (J : two_e_full K) : two_e_full K :=
    TwoEF K (top K H2 (foooo J)) (top K H2 (fovoo J)) (top K H2 (fvooo J)) (top K H2 (fooov J)) (top K H2 (foovo J))
      (top K H2 (fvvoo J)) (top K H2 (fovov J)) (top K H2 (fvoov J)) (top K H2 (fovvo J)) (top K H2 (fvovo J))
      (top K H2 (foovv J)) (top K H2 (fvovv J)) (top K H2 (fovvv J)) (top K H2 (fvvvo J)) (top K H2 (fvvov J))
      (top K H2 (fvvvv J)).

  Lemma top_ok k (t : tensor K) : List.length (shp t) = hrank k -> holes k t (top K k t).
  Proof. intros L. apply top_holes; [exact L|]. split; [reflexivity|]. auto. Qed.
  Lemma lead_top (t : tensor K) a b c : shp t = [a; b; c; c] -> antisym_tail t -> antisym_lead (top K H2 t).
  Proof.
    intros S A i j k l R. cbn [top shp dat] in *. rewrite S in R. apply in4 in R.
    rewrite (A k l i j); [reflexivity|]. rewrite S. apply in4. tauto.
  Qed.
  Lemma tail_top (t : tensor K) a b c : shp t = [a; a; b; c] -> antisym_lead t -> antisym_tail (top K H2 t).
  Proof.
    intros S A i j k l R. cbn [top shp dat] in *. rewrite S in R. apply in4 in R.
    rewrite (A k l i j); [reflexivity|]. rewrite S. apply in4. tauto.
  Qed.
  Lemma leadr_top (t : tensor K) a b c : shp t = [a; b; c; c] -> antisym_tail t -> antisym_lead (top K H2r t).
  Proof.
    intros S A i j k l R. cbn [top shp dat] in *. rewrite S in R. apply in4 in R.
    rewrite (A l k j i); [reflexivity|]. rewrite S. apply in4. tauto.
  Qed.
  Lemma tailr_top (t : tensor K) a b c : shp t = [a; a; b; c] -> antisym_lead t -> antisym_tail (top K H2r t).
  Proof.
    intros S A i j k l R. cbn [top shp dat] in *. rewrite S in R. apply in4 in R.
    rewrite (A l k j i); [reflexivity|]. rewrite S. apply in4. tauto.
  Qed.

  Ltac tk := apply top_ok; match goal with H : shp ?t = _ |- List.length (shp ?t) = _ => rewrite H; reflexivity end.
  Ltac ts := cbn [top shp]; match goal with H : shp ?t = _ |- context [shp ?t] => rewrite H; reflexivity end.

  Lemma xF_ok no nv F : one_e_ok no nv F -> holes_F F (xF F) /\ one_e_ok nv no (xF F).
  Proof.
    intros (S1 & S2 & S3 & S4). unfold holes_F, one_e_ok, xF. cbn [oo ov vo vv].
    repeat match goal with |- _ /\ _ => split end; (tk || ts).
  Qed.
  Lemma xI_ok no nv I : two_e_ok no nv I -> holes_I I (xI I) /\ two_e_ok nv no (xI I).
  Proof.
    intros [(S1 & S2 & S3 & S4 & S5 & S6 & S7 & S8 & S9)
            ([A1 B1] & A2 & A3 & [A4 B4] & [A6 B6] & A7 & A8 & [A9 B9])].
    unfold holes_I, two_e_ok, two_e_shape, two_e_antisym, xI.
    cbn [vvvv vvvo vovv vvoo vovo oovv vooo ooov oooo].
    repeat match goal with |- _ /\ _ => split end;
      first [tk | ts | eapply lead_top; eassumption | eapply tail_top; eassumption
            | eapply leadr_top; eassumption | eapply tailr_top; eassumption].
  Qed.
  Lemma xJ_ok noa nva nob nvb J : two_e_full_ok noa nva nob nvb J ->
    holes_J J (xJ J) /\ two_e_full_ok nva noa nvb nob (xJ J).
  Proof.
    intros (S1 & S2 & S3 & S4 & S5 & S6 & S7 & S8 & S9 & S10 & S11 & S12 & S13 & S14 & S15 & S16).
    unfold holes_J, two_e_full_ok, xJ.
    cbn [fvvvv fvvvo fvvov fvovv fovvv fvvoo fvovo fvoov fovvo fovov foovv fooov foovo fovoo fvooo foooo].
    repeat match goal with |- _ /\ _ => split end; (tk || ts).
  Qed.
  Lemma xpair (t u : tensor K) a b c d : shp t = [a; b; c; d] -> shp u = [b; a; d; c] ->
    teq t (swap_both u) -> teq (top K H2 t) (swap_both (top K H2 u)).
  Proof.
    intros S Su (_ & D).
    split; cbn [top shp]; rewrite S; [cbn; rewrite Su; reflexivity|].
    intros idx Hi. destruct (idx4 _ _ _ _ _ Hi) as (r & s & p & q & ->). apply in4 in Hi.
    change (dat t [p; q; r; s] = dat u [q; p; s; r]). rewrite D; [reflexivity|]. rewrite S. apply in4. tauto.
  Qed.
  Lemma xflip (t u : tensor K) a b c d : shp t = [a; b; c; d] -> shp u = [b; a; d; c] ->
    teq t (swap_both u) -> teq u (swap_both t).
  Proof.
    intros S Su (_ & D).
    split; [cbn; rewrite S, Su; reflexivity|]. rewrite Su.
    intros idx Hi. destruct (idx4 _ _ _ _ _ Hi) as (r & s & p & q & ->). apply in4 in Hi.
    change (dat u [r; s; p; q] = dat t [s; r; q; p]). rewrite D; [reflexivity|]. rewrite S. apply in4. tauto.
  Qed.
  Lemma xJ_pair no nv J : two_e_full_ok no nv no nv J -> pair_sym_full J -> pair_sym_full (xJ J).
  Proof.
    intros (S1 & S2 & S3 & S4 & S5 & S6 & S7 & S8 & S9 & S10 & S11 & S12 & S13 & S14 & S15 & S16)
      (Q1 & Q2 & Q3 & Q4 & Q5 & Q6 & Q7 & Q8 & Q9 & Q10).
    unfold pair_sym_full, pair_sym, xJ in *.
    cbn [fvvvv fvvvo fvvov fvovv fovvv fvvoo fvovo fvoov fovvo fovov foovv fooov foovo fovoo fvooo foooo].
    repeat match goal with |- _ /\ _ => split end;
      first [eapply xpair; [eassumption|eassumption|eassumption]
            | eapply xpair; [eassumption|eassumption|eapply xflip; eassumption]].
  Qed.
End Exist.
