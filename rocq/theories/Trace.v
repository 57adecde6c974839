(** Partial traces of symbolic arrays, and the traces of the density matrices
    of the coupled cluster functions. *)
From Coq Require Import List Bool Arith ZArith Lia Ring String.
From Verif Require Import Scalar Tensor PySyntax PySem PySim Sym SymSound Norm CCProg CCSpec Engine Tools SOCtx
  NpModel SpinModel SpinSpec UCtx SpinOut CCSpin CCDeriv CCRest RCtx URespSpec UResp RResp.
Import ListNotations.
Local Open Scope string_scope. Local Open Scope list_scope.

(** the array with axes [osh] whose entry at idx is the sum over s, with axes
    [sc], of the entry of [a] at the positions [q] of idx ++ s *)
Definition s_tr (q : list nat) (osh sc : list cls) (a : stens) : stens :=
  STens osh (map (fun m => m_close (List.length osh) sc (m_ren q m)) (s_ms a)).
Definition s_plus (a b : stens) : stens := STens (s_sh a) (s_ms a ++ s_ms b).

Section TrSound.
  Variable K : cring.
  Local Open Scope K_scope.
  Variable dim : positive -> nat.
  Variable rho : positive -> list nat -> K.
  Notation RA := (Rarr K dim rho).

  Lemma s_tr_sound q osh sc a t : RA a t ->
    map (fun k => nth k (osh ++ sc) 1%positive) q = s_sh a ->
    Forall (fun k => (k < List.length (osh ++ sc))%nat) q ->
    RA (s_tr q osh sc a)
      (mkT (map dim osh) (fun idx => sumL (map dim sc) (fun s => dat t (map (fun k => nth k (idx ++ s) 0%nat) q)))).
  Proof.
    intros (Ht & Oa & Da) Hq Hlt.
    assert (Hlq : List.length q = @List.length cls (s_sh a)) by (rewrite <- Hq, map_length; reflexivity).
    assert (O' : Forall (m_ok (List.length osh + List.length sc)) (map (m_ren q) (s_ms a))).
    { rewrite Forall_map. eapply Forall_impl; [|exact Oa]. intros m Hm.
      apply m_ren_ok; [rewrite Hlq; exact Hm|]. rewrite <- app_length. exact Hlt. }
    split; [reflexivity|]. split.
    - unfold s_tr. cbn. rewrite Forall_map. rewrite Forall_map in O'. eapply Forall_impl; [|exact O'].
      intros m Hm. apply m_close_ok. exact Hm.
    - cbn [shp dat]. intros idx Hi. unfold s_tr, den. cbn [s_ms]. rewrite map_map.
      assert (Li : List.length idx = List.length osh).
      { apply inrange_length in Hi. rewrite map_length in Hi. exact Hi. }
      transitivity (lsum (map (fun m => sumL (map dim sc) (fun s => den_mono K dim rho (idx ++ s) (m_ren q m))) (s_ms a))).
      + rewrite <- sumL_lsum. apply sumL_ext. intros s Hs.
        assert (Hr : inrange (map dim (osh ++ sc)) (idx ++ s)).
        { rewrite map_app. unfold inrange. apply Forall2_app; assumption. }
        rewrite Da.
        * unfold den. f_equal. apply map_ext_in. intros m Hm.
          rewrite (den_ren K dim rho q (idx ++ s) m); [reflexivity|].
          rewrite Forall_forall in Oa. rewrite Hlq. auto.
        * rewrite Ht, <- Hq, map_map. clear - Hlt Hr.
          unfold inrange. induction Hlt as [|k q Hk Hq IH]; simpl; constructor; auto.
          pose proof (inrange_nth _ _ k Hr) as H. rewrite map_length in H. specialize (H Hk).
          rewrite (nth_map_lt dim _ _ 0%nat 1%positive Hk) in H. exact H.
      + f_equal. apply map_ext_in. intros m Hm. rewrite Forall_map, Forall_forall in O'.
        replace (@List.length cls osh) with (List.length idx) by exact Li. symmetry. apply den_close. rewrite Li. exact (O' m Hm).
  Qed.

  Lemma s_plus_sound a b t u : RA a t -> RA b u -> s_sh a = s_sh b ->
    RA (s_plus a b) (mkT (shp t) (fun i => dat t i + dat u i)).
  Proof.
    intros (Ht & Oa & Da) (Hu & Ob & Db) E. split; [exact Ht|]. split.
    - cbn. apply Forall_app. split; [exact Oa|]. rewrite E. exact Ob.
    - cbn [shp dat s_plus s_ms]. intros idx Hi. rewrite den_app, <- Da, <- Db; auto.
      rewrite Hu, <- E, <- Ht. exact Hi.
  Qed.

  (** blocks labelled by the occupied (false) or virtual (true) kind of the
      summed index and of two free indices *)
  Section Blocks.
    Variable tb : table.
    Variables cf cs : bool -> cls.
    Variable pat : list nat.
    Variables (sX : bool -> bool -> bool -> stens) (X : bool -> bool -> bool -> tensor K).
    Variables (sY : bool -> bool -> stens) (Y : bool -> bool -> tensor K).
    Definition s_trace (a b : bool) : stens :=
      s_plus (s_tr pat [cf a; cf b] [cs false] (sX false a b)) (s_tr pat [cf a; cf b] [cs true] (sX true a b)).
    Definition pairs4 : list (bool * bool) := [(false, false); (false, true); (true, false); (true, true)].
    Definition trace_find : list (list cert) := map (fun p => find_aeq tb (s_trace (fst p) (snd p)) (sY (fst p) (snd p))) pairs4.
    Definition trace_chk (cc : list (list cert)) : bool :=
      forallb (fun pc => aeq_chk tb (s_trace (fst (fst pc)) (snd (fst pc))) (sY (fst (fst pc)) (snd (fst pc))) (snd pc)) (combine pairs4 cc)
      && Nat.eqb (List.length cc) 4.

    Lemma trace_sound cc : trace_chk cc = true -> sym_ok K dim rho tb ->
      Forall (fun k => (k < 3)%nat) pat ->
      (forall v a b, RA (sX v a b) (X v a b)) ->
      (forall v a b, map (fun k => nth k [cf a; cf b; cs v] 1%positive) pat = s_sh (sX v a b)) ->
      (forall a b, RA (sY a b) (Y a b)) ->
      forall a b x y, (x < dim (cf a))%nat -> (y < dim (cf b))%nat ->
      sumN (dim (cs false)) (fun k => dat (X false a b) (map (fun i => nth i [x; y; k] 0%nat) pat)) +
      sumN (dim (cs true)) (fun k => dat (X true a b) (map (fun i => nth i [x; y; k] 0%nat) pat)) = dat (Y a b) [x; y].
    Proof.
      intros C Hsy Hp HX HsX HY a b x y Hx Hy. apply andb_prop in C. destruct C as [C L].
      assert (E : exists c, aeq_chk tb (s_trace a b) (sY a b) c = true).
      { destruct cc as [|c1 [|c2 [|c3 [|c4 [|]]]]]; try discriminate L. cbn [combine pairs4 forallb fst snd] in C.
        repeat (apply andb_prop in C; destruct C as [?C C]). destruct a, b; eexists; eassumption. }
      destruct E as (c & E).
      assert (Z : RA (s_trace a b) (mkT [dim (cf a); dim (cf b)]
        (fun idx => sumL [dim (cs false)] (fun s => dat (X false a b) (map (fun k => nth k (idx ++ s) 0%nat) pat)) +
                    sumL [dim (cs true)] (fun s => dat (X true a b) (map (fun k => nth k (idx ++ s) 0%nat) pat))))).
      { unfold s_trace. refine (s_plus_sound _ _ _ _ (s_tr_sound pat [cf a; cf b] [cs false] _ _ (HX false a b) (HsX false a b) Hp)
          (s_tr_sound pat [cf a; cf b] [cs true] _ _ (HX true a b) (HsX true a b) Hp) eq_refl). }
      destruct (aeq_sound K dim rho tb _ _ _ _ _ E Hsy Z (HY a b)) as [_ T].
      specialize (T [x; y]). cbn in T. apply T. repeat constructor; assumption.
    Qed.
  End Blocks.
End TrSound.

(** *** General spin orbitals *)
Definition cg (v : bool) : cls := if v then cV else cO.
Definition same4 (r : string -> stens) (L : stens) (p q s t : bool) : stens :=
  match p, q, s, t with
  | true, true, true, true => r "ccsd_2rdm_cdab" | false, false, false, false => r "ccsd_2rdm_klij"
  | true, true, false, false => r "ccsd_2rdm_abij" | false, false, true, true => L
  | true, false, true, true => r "ccsd_2rdm_ciab" | false, true, true, true => s_neg (s_swap p_lead (r "ccsd_2rdm_ciab"))
  | true, true, true, false => r "ccsd_2rdm_bcai" | true, true, false, true => s_neg (s_swap p_tail (r "ccsd_2rdm_bcai"))
  | false, false, true, false => r "ccsd_2rdm_jkai" | false, false, false, true => s_neg (s_swap p_tail (r "ccsd_2rdm_jkai"))
  | false, true, false, false => r "ccsd_2rdm_kaij" | true, false, false, false => s_neg (s_swap p_lead (r "ccsd_2rdm_kaij"))
  | true, false, true, false => r "ccsd_2rdm_bjai" | false, true, false, true => s_swap p_both (r "ccsd_2rdm_bjai")
  | true, false, false, true => s_neg (s_swap p_tail (r "ccsd_2rdm_bjai"))
  | false, true, true, false => s_neg (s_swap p_lead (r "ccsd_2rdm_bjai"))
  end.
Definition same2 (r : string -> stens) (L : stens) (p q : bool) : stens :=
  match p, q with
  | true, true => r "ccsd_1rdm_ba" | false, false => r "ccsd_1rdm_ji" | true, false => r "ccsd_1rdm_ai" | false, true => L end.
(** (n_p + n_r - 1) g_pr *)
Definition rhs2 (c : bool -> cls) (g : bool -> bool -> stens) (p q : bool) : stens :=
  match p, q with true, true => s_neg (g true true) | false, false => g false false | _, _ => s_zero [c p; c q] end.
Definition zero2 (c : bool -> cls) (p q : bool) : stens := s_zero [c p; c q].
Definition g4 := same4 rd (s_input 17 [cO; cO; cV; cV]).
Definition g2 := same2 rd (s_input 16 [cO; cV]).
(** positions of the free indices 0, 1 and of the summed index 2: p q r q,
    q p q r and p q q r *)
Definition pq : list nat := [0; 2; 1; 2].
Definition qp : list nat := [2; 0; 2; 1].
Definition px : list nat := [0; 2; 2; 1].
(** the sum over all orbitals of the diagonal *)
Definition s_tr1 (c : bool -> cls) (g : bool -> bool -> stens) : list mono :=
  s_ms (s_tr [0; 0] [] [c false] (g false false)) ++ s_ms (s_tr [0; 0] [] [c true] (g true true)).
Definition g_cc := Eval vm_compute in trace_find so_tb cg cg pq (fun v a b => g4 a v b v) (rhs2 cg g2).
Lemma g_chk : trace_chk so_tb cg cg pq (fun v a b => g4 a v b v) (rhs2 cg g2) g_cc = true.
Proof. vm_compute. reflexivity. Qed.
Definition g_c1 := Eval vm_compute in find_neq so_tb (s_tr1 cg g2) [].
Lemma g_chk1 : neq_chk so_tb (s_tr1 cg g2) [] g_c1 = true. Proof. vm_compute. reflexivity. Qed.

(** *** Two spins *)
Definition cua (v : bool) : cls := if v then va else oa.
Definition cub (v : bool) : cls := if v then vb else ob.
Definition u4a := same4 (fun f => ublk (append "u" f) 0) (s_input 88 [oa; oa; va; va]).
Definition u4b := same4 (fun f => ublk (append "u" f) 1) (s_input 90 [ob; ob; vb; vb]).
Definition u2a := same2 (fun f => ublk (append "u" f) 0) (s_input 86 [oa; va]).
Definition u2b := same2 (fun f => ublk (append "u" f) 1) (s_input 87 [ob; vb]).
Definition u4m (p q s t : bool) : stens :=
  match p, q, s, t with
  | false, false, true, true => s_input 89 [oa; ob; va; vb]
  | true, true, true, true => ublk "uccsd_2rdm_cdab" 2
  | false, false, false, false => ublk "uccsd_2rdm_klij" 2
  | true, true, false, false => ublk "uccsd_2rdm_abij" 2
  | true, false, true, true => ublk "uccsd_2rdm_ciab" 2
  | false, true, true, true => s_swap p_both (ublk "uccsd_2rdm_ciab" 3)
  | true, true, true, false => ublk "uccsd_2rdm_bcai" 2
  | true, true, false, true => s_swap p_both (ublk "uccsd_2rdm_bcai" 3)
  | false, false, true, false => ublk "uccsd_2rdm_jkai" 2
  | false, false, false, true => s_swap p_both (ublk "uccsd_2rdm_jkai" 3)
  | false, true, false, false => ublk "uccsd_2rdm_kaij" 2
  | true, false, false, false => s_swap p_both (ublk "uccsd_2rdm_kaij" 3)
  | true, false, true, false => ublk "uccsd_2rdm_bjai" 2
  | false, true, false, true => s_swap p_both (ublk "uccsd_2rdm_bjai" 5)
  | true, false, false, true => s_neg (s_swap p_tail (ublk "uccsd_2rdm_bjai" 3))
  | false, true, true, false => s_neg (s_swap p_lead (ublk "uccsd_2rdm_bjai" 4))
  end.
Definition ua_cc := Eval vm_compute in trace_find u_tb cua cua pq (fun v a b => u4a a v b v) (rhs2 cua u2a).
Lemma ua_chk : trace_chk u_tb cua cua pq (fun v a b => u4a a v b v) (rhs2 cua u2a) ua_cc = true.
Proof. vm_compute. reflexivity. Qed.
Definition ub_cc := Eval vm_compute in trace_find u_tb cub cub pq (fun v a b => u4b a v b v) (rhs2 cub u2b).
Lemma ub_chk : trace_chk u_tb cub cub pq (fun v a b => u4b a v b v) (rhs2 cub u2b) ub_cc = true.
Proof. vm_compute. reflexivity. Qed.
Definition um_cc := Eval vm_compute in trace_find u_tb cua cub pq (fun v a b => u4m a v b v) (zero2 cua).
Lemma um_chk : trace_chk u_tb cua cub pq (fun v a b => u4m a v b v) (zero2 cua) um_cc = true.
Proof. vm_compute. reflexivity. Qed.
Definition un_cc := Eval vm_compute in trace_find u_tb cub cua qp (fun v a b => u4m v a v b) (zero2 cub).
Lemma un_chk : trace_chk u_tb cub cua qp (fun v a b => u4m v a v b) (zero2 cub) un_cc = true.
Proof. vm_compute. reflexivity. Qed.
Definition ua_c1 := Eval vm_compute in find_neq u_tb (s_tr1 cua u2a) [].
Lemma ua_chk1 : neq_chk u_tb (s_tr1 cua u2a) [] ua_c1 = true. Proof. vm_compute. reflexivity. Qed.
Definition ub_c1 := Eval vm_compute in find_neq u_tb (s_tr1 cub u2b) [].
Lemma ub_chk1 : neq_chk u_tb (s_tr1 cub u2b) [] ub_c1 = true. Proof. vm_compute. reflexivity. Qed.

(** *** Closed shells *)
Definition r2 := same2 (fun f => rblk (append "r" f)) (s_input 16 [cO; cV]).
Definition r4 (p q s t : bool) : stens :=
  match p, q, s, t with
  | false, false, true, true => s_input 17 [cO; cO; cV; cV]
  | true, true, true, true => rblk "rccsd_2rdm_cdab"
  | false, false, false, false => rblk "rccsd_2rdm_klij"
  | true, true, false, false => rblk "rccsd_2rdm_abij"
  | true, false, true, true => rblk "rccsd_2rdm_ciab"
  | false, true, true, true => s_swap p_both (rblk "rccsd_2rdm_ciab")
  | true, true, true, false => rblk "rccsd_2rdm_bcai"
  | true, true, false, true => s_swap p_both (rblk "rccsd_2rdm_bcai")
  | false, false, true, false => rblk "rccsd_2rdm_jkai"
  | false, false, false, true => s_swap p_both (rblk "rccsd_2rdm_jkai")
  | false, true, false, false => rblk "rccsd_2rdm_kaij"
  | true, false, false, false => s_swap p_both (rblk "rccsd_2rdm_kaij")
  | true, false, true, false => rblk "rccsd_2rdm_bjai"
  | false, true, false, true => s_swap p_both (rblk "rccsd_2rdm_bjai")
  | true, false, false, true => rblk "rccsd_2rdm_bjia"
  | false, true, true, false => s_swap p_both (rblk "rccsd_2rdm_bjia")
  end.
Definition rm_cc := Eval vm_compute in trace_find r_tb cg cg pq (fun v a b => r4 a v b v) (zero2 cg).
Lemma rm_chk : trace_chk r_tb cg cg pq (fun v a b => r4 a v b v) (zero2 cg) rm_cc = true.
Proof. vm_compute. reflexivity. Qed.
Definition rn_cc := Eval vm_compute in trace_find r_tb cg cg qp (fun v a b => r4 v a v b) (zero2 cg).
Lemma rn_chk : trace_chk r_tb cg cg qp (fun v a b => r4 v a v b) (zero2 cg) rn_cc = true.
Proof. vm_compute. reflexivity. Qed.
(** (1 - n_p - n_r) g_pr *)
Definition rhsx (c : bool -> cls) (g : bool -> bool -> stens) (p q : bool) : stens :=
  match p, q with true, true => g true true | false, false => s_neg (g false false) | _, _ => s_zero [c p; c q] end.
Definition rx_cc := Eval vm_compute in trace_find r_tb cg cg px (fun v a b => r4 a v v b) (rhsx cg r2).
Lemma rx_chk : trace_chk r_tb cg cg px (fun v a b => r4 a v v b) (rhsx cg r2) rx_cc = true.
Proof. vm_compute. reflexivity. Qed.
Definition r_c1 := Eval vm_compute in find_neq r_tb (s_tr1 cg r2) [].
Lemma r_chk1 : neq_chk r_tb (s_tr1 cg r2) [] r_c1 = true. Proof. vm_compute. reflexivity. Qed.
