(** Traces of the density matrices: what the symbolic identities of Trace.v say
    about the program. *)
From Coq Require Import List Bool Arith ZArith Lia Ring String.
From Verif Require Import Scalar Tensor PySyntax PySem PySim Sym SymSound Norm CCProg CCSpec Engine Tools Dual SOCtx
  NpModel SpinModel SpinSpec UCtx SpinOut CCSpin CCDeriv CCRest RCtx RespSpec URespSpec UResp RResp URespThm RRespThm
  CCExamples TraceSpec TraceSum Trace.
Import ListNotations.
Local Open Scope string_scope. Local Open Scope list_scope.
Opaque ublk rblk rd run_s s_input.

Definition kcls (c : bool -> cls) (x : cls) : cls := if Pos.eqb x cV then c true else c false.

Section Gen.
  Variable K : cring.
  Local Open Scope K_scope.
  Add Ring KrTrT : (c_th K).
  Variable dim : positive -> nat.
  Variable rho : positive -> list nat -> K.
  Variable tb : table.
  Hypothesis Hsy : sym_ok K dim rho tb.
  Notation RA := (Rarr K dim rho).

  Lemma zero2_sound c a b : RA (zero2 c a b) (tzeros K [dim (c a); dim (c b)]).
  Proof. split; [reflexivity|]. split; [constructor|]. reflexivity. Qed.

  Lemma tr1_sound c (sg : bool -> bool -> stens) g cc : neq_chk tb (s_tr1 c sg) [] cc = true ->
    (forall v, RA (sg v v) (g v v) /\ s_sh (sg v v) = [c v; c v]) ->
    sumN (dim (c false)) (fun i => dat (g false false) [i; i]) + sumN (dim (c true)) (fun i => dat (g true true) [i; i]) = 0.
  Proof.
    intros C H. eapply (neq_sound K dim rho tb (s_tr1 c sg) [] cc); [exact C|exact Hsy| |split; [constructor|reflexivity]].
    unfold s_tr1. apply Rnum_add.
    - destruct (H false) as [R S]. pose proof (s_tr_sound K dim rho [0; 0]%nat [] [c false] _ _ R (eq_sym S)) as (_ & O & D).
      { repeat constructor. } split; [exact O|]. exact (D [] (Forall2_nil _)).
    - destruct (H true) as [R S]. pose proof (s_tr_sound K dim rho [0; 0]%nat [] [c true] _ _ R (eq_sym S)) as (_ & O & D).
      { repeat constructor. } split; [exact O|]. exact (D [] (Forall2_nil _)).
  Qed.

  Section Same.
    Variable c : bool -> cls.
    Variable r : string -> stens.
    Variables sL1 sL2 : stens.
    Variable P : string -> tensor K.
    Variables L1 L2 : tensor K.
    Hypothesis HP : forall e, In e rd_list -> RA (r (fst e)) (P (fst e)) /\ s_sh (r (fst e)) = map (kcls c) (snd e).
    Hypothesis HL1 : RA sL1 L1 /\ s_sh sL1 = [c false; c true].
    Hypothesis HL2 : RA sL2 L2 /\ s_sh sL2 = [c false; c false; c true; c true].

    Lemma same2_sound p q : RA (same2 r sL1 p q) (one_blocks P L1 p q) /\ s_sh (same2 r sL1 p q) = [c p; c q].
    Proof.
      destruct p, q; cbn [same2 one_blocks]; [| | exact HL1 |];
        match goal with |- RA (r ?f) _ /\ _ =>
          match eval cbv in (find (fun e => String.eqb (fst e) f) rd_list) with
          | Some ?e => exact (HP e ltac:(cbn; tauto)) end end.
    Qed.
    Lemma neg_pair a t sh : RA a t /\ s_sh a = sh -> RA (s_neg a) (tneg t) /\ s_sh (s_neg a) = sh.
    Proof. intros [H E]. split; [apply S_aneg; exact H|exact E]. Qed.
    Lemma swap_pair p a t x y z w : p = p_both \/ p = p_tail \/ p = p_lead -> RA a t /\ s_sh a = [x; y; z; w] ->
      RA (s_swap p a) (swap p t) /\ s_sh (s_swap p a) = map (fun k => nth k [x; y; z; w] 1%positive) p.
    Proof.
      intros Hp [H E]. split; [apply swap_sound; [exact Hp|rewrite E; reflexivity|exact H]|].
      apply swap_sh; [exact E|]. destruct Hp as [->|[->| ->]]; reflexivity.
    Qed.
    Lemma same4_sound p q s t : RA (same4 r sL2 p q s t) (two_blocks P L2 p q s t) /\ s_sh (same4 r sL2 p q s t) = [c p; c q; c s; c t].
    Proof.
      assert (B : forall f sh, In (f, sh) rd_list -> RA (r f) (P f) /\ s_sh (r f) = map (kcls c) sh) by (intros f sh H; exact (HP _ H)).
      destruct p, q, s, t; cbn [same4 two_blocks];
        repeat match goal with |- RA (s_neg _) _ /\ _ => apply neg_pair end;
        try exact HL2;
        first [ match goal with |- RA (r ?f) _ /\ _ =>
                  match eval cbv in (find (fun e => String.eqb (fst e) f) rd_list) with
                  | Some (_, ?sh) => exact (B f sh ltac:(cbn; tauto)) end end
              | match goal with |- RA (s_swap ?pp (r ?f)) _ /\ _ =>
                  match eval cbv in (find (fun e => String.eqb (fst e) f) rd_list) with
                  | Some (_, ?sh) => 
                    let H := fresh in pose proof (B f sh ltac:(cbn; tauto)) as H;
                    refine (swap_pair pp _ _ _ _ _ _ _ H); first [left; reflexivity | right; left; reflexivity | right; right; reflexivity] end end ].
    Qed.

    Lemma scaled (k : K) a t x y (b : stens) : RA a t /\ s_sh a = [x; y] -> s_sh b = [x; y] -> Forall (m_ok 2) (s_ms b) ->
      (forall idx, inrange (shp t) idx -> den K dim rho idx (s_ms b) = k * dat t idx) ->
      RA b (mkT [dim x; dim y] (fun i => k * dat t i)).
    Proof.
      intros [(U & V & W) S] Sb Ob D. split; [rewrite Sb; reflexivity|]. split; [rewrite Sb; exact Ob|].
      intros idx Hi. cbn in *. symmetry. apply D. rewrite U, S. exact Hi.
    Qed.
    Lemma rhs2_sound a b : RA (rhs2 c (same2 r sL1) a b) (mkT [dim (c a); dim (c b)] (fun i => wt K a b * dat (one_blocks P L1 a b) i)).
    Proof.
      pose proof (same2_sound a b) as H. unfold rhs2, wt.
      destruct a, b; apply (scaled _ _ _ _ _ _ H); try reflexivity; try constructor;
        destruct H as [R S].
      - exact S.
      - apply S_aneg in R. destruct R as (U & V & W). change (s_sh (s_neg (same2 r sL1 true true))) with (s_sh (same2 r sL1 true true)) in V.
        rewrite S in V. exact V.
      - intros idx Hi. apply S_aneg in R. destruct R as (U & V & W). rewrite <- W by exact Hi. cbn. ring.
      - intros idx Hi. cbn. ring.
      - intros idx Hi. cbn. ring.
      - exact S.
      - destruct R as (U & V & W). rewrite S in V. exact V.
      - intros idx Hi. destruct R as (U & V & W). rewrite <- W by exact Hi. ring.
    Qed.

    Lemma same_traces no nv cc1 cc : dim (c false) = no -> dim (c true) = nv ->
      neq_chk tb (s_tr1 c (same2 r sL1)) [] cc1 = true ->
      trace_chk tb c c pq (fun v a b => same4 r sL2 a v b v) (rhs2 c (same2 r sL1)) cc = true ->
      (sumN no (fun i => dat (one_blocks P L1 false false) [i; i]) + sumN nv (fun i => dat (one_blocks P L1 true true) [i; i]) = 0) /\
      forall p s, (p < no + nv)%nat -> (s < no + nv)%nat ->
      sumN (no + nv) (fun q => Gamma no (all2 no (one_blocks P L1)) (all4 no no (two_blocks P L2)) p q s q) =
      (nK K no - 1) * gamma no (all2 no (one_blocks P L1)) p s.
    Proof.
      intros Do Dv C1 C2.
      assert (T : sumN no (fun i => dat (one_blocks P L1 false false) [i; i]) + sumN nv (fun i => dat (one_blocks P L1 true true) [i; i]) = 0).
      { rewrite <- Do, <- Dv. exact (tr1_sound c (same2 r sL1) (one_blocks P L1) cc1 C1 (fun v => same2_sound v v)). }
      split; [exact T|]. apply same_second; [exact T|]. intros a b x y Hx Hy.
      assert (E : forall v, ext no nv v = dim (c v)) by (intros [|]; cbn; auto). rewrite E in Hx, Hy.
      pose proof (trace_sound K dim rho tb c c pq (fun v a b => same4 r sL2 a v b v) (fun v a b => two_blocks P L2 a v b v)
        (rhs2 c (same2 r sL1)) (fun a b => mkT [dim (c a); dim (c b)] (fun i => wt K a b * dat (one_blocks P L1 a b) i)) cc C2 Hsy) as TS.
      specialize (TS ltac:(repeat constructor) (fun v a b => proj1 (same4_sound a v b v)) (fun v a b => eq_sym (proj2 (same4_sound a v b v)))
        rhs2_sound a b x y Hx Hy).
      cbn [dat pq map nth] in TS. rewrite Do, Dv in TS. exact TS.
    Qed.
  End Same.

  Lemma rhsx_sound c (sg : bool -> bool -> stens) g : (forall p q, RA (sg p q) (g p q) /\ s_sh (sg p q) = [c p; c q]) ->
    forall a b, RA (rhsx c sg a b) (mkT [dim (c a); dim (c b)] (fun i => - wt K a b * dat (g a b) i)).
  Proof.
    intros B2 a b. pose proof (B2 a b) as H. unfold rhsx, wt.
    destruct a, b; apply (scaled _ _ _ _ _ _ H); try reflexivity; try constructor; destruct H as [R S].
    - exact S.
    - destruct R as (U & V & W). rewrite S in V. exact V.
    - intros idx Hi. destruct R as (U & V & W). rewrite <- W by exact Hi. ring.
    - intros idx Hi. cbn. ring.
    - intros idx Hi. cbn. ring.
    - exact S.
    - apply S_aneg in R. destruct R as (U & V & W). change (s_sh (s_neg (sg false false))) with (s_sh (sg false false)) in V. rewrite S in V. exact V.
    - intros idx Hi. apply S_aneg in R. destruct R as (U & V & W). rewrite <- W by exact Hi. cbn. ring.
  Qed.

  Section Mixed.
    Variables c c' : bool -> cls.
    Variable sG : bool -> bool -> bool -> bool -> stens.
    Variable G : bool -> bool -> bool -> bool -> tensor K.
    Hypothesis HG : forall p q s t, RA (sG p q s t) (G p q s t) /\ s_sh (sG p q s t) = [c p; c' q; c s; c' t].
    Variables no nv no' nv' : nat.
    Hypothesis E : forall v, ext no nv v = dim (c v).
    Hypothesis E' : forall v, ext no' nv' v = dim (c' v).
    Lemma mixed_pq cc : trace_chk tb c c' pq (fun v a b => sG a v b v) (zero2 c) cc = true ->
      forall a b x y, (x < ext no nv a)%nat -> (y < ext no nv b)%nat ->
        sumN no' (fun k => dat (G a false b false) [x; k; y; k]) + sumN nv' (fun k => dat (G a true b true) [x; k; y; k]) = 0.
    Proof.
      intros C a b x y Hx Hy. rewrite E in Hx, Hy.
      pose proof (trace_sound K dim rho tb c c' pq (fun v a b => sG a v b v) (fun v a b => G a v b v)
        (zero2 c) _ cc C Hsy ltac:(repeat constructor) (fun v a b => proj1 (HG a v b v)) (fun v a b => eq_sym (proj2 (HG a v b v)))
        (zero2_sound c) a b x y Hx Hy) as TS. rewrite <- !E' in TS. exact TS.
    Qed.
    Lemma mixed_qp cc : trace_chk tb c' c qp (fun v a b => sG v a v b) (zero2 c') cc = true ->
      forall a b x y, (x < ext no' nv' a)%nat -> (y < ext no' nv' b)%nat ->
        sumN no (fun k => dat (G false a false b) [k; x; k; y]) + sumN nv (fun k => dat (G true a true b) [k; x; k; y]) = 0.
    Proof.
      intros C a b x y Hx Hy. rewrite E' in Hx, Hy.
      pose proof (trace_sound K dim rho tb c' c qp (fun v a b => sG v a v b) (fun v a b => G v a v b)
        (zero2 c') _ cc C Hsy ltac:(repeat constructor) (fun v a b => proj1 (HG v a v b)) (fun v a b => eq_sym (proj2 (HG v a v b)))
        (zero2_sound c') a b x y Hx Hy) as TS. rewrite <- !E in TS. exact TS.
    Qed.
  End Mixed.
End Gen.

Section Traces.
  Variable K : cring.
  Local Open Scope K_scope.
  Add Ring KrTrU : (c_th K).

  Theorem g_traces no nv (T1 T2 L1 L2 : tensor K) :
    t1_ok no nv T1 -> t2_ok no nv T2 -> l1_ok no nv L1 -> l2_ok no nv L2 ->
    exists P, (forall f, In f density_functions -> returns f [arr T1; arr T2; arr L1; arr L2] (arr (P f))) /\
    let g := all2 no (one_blocks P L1) in
    sumN (no + nv) (fun p => gamma no g p p) = nK K no /\
    forall p r, (p < no + nv)%nat -> (r < no + nv)%nat ->
      sumN (no + nv) (fun q => Gamma no g (all4 no no (two_blocks P L2)) p q r q) = (nK K no - 1) * gamma no g p r.
  Proof.
    intros H1 H2 H3 H4.
    set (rho := so_rho K (zeroF K no nv) (zeroI K no nv) T1 T2 L1 L2 c0 (noex K)).
    assert (Hsy : sym_ok K (so_dim no nv) rho so_tb) by (unfold rho; so_args).
    destruct (named_choice (tzeros K []) (fun (e : string * list cls) (P : tensor K) =>
      returns (fst e) [arr T1; arr T2; arr L1; arr L2] (arr P) /\ Rarr K (so_dim no nv) rho (rd (fst e)) P /\ s_sh (rd (fst e)) = snd e) rd_list)
      as (P & HP).
    { cbn. repeat constructor; cbn; intuition discriminate. }
    { intros [f sh] He. destruct (rdm_run K no nv (zeroF K no nv) (zeroI K no nv) T1 T2 L1 L2 H1 H2 H3 H4 f sh He) as (P & A). exists P. exact A. }
    exists P. split.
    - intros f Hin. unfold density_functions in Hin.
      repeat (destruct Hin as [<-|Hin]; [
        match goal with |- returns ?f _ _ =>
          match eval cbv in (find (fun e => String.eqb (fst e) f) rd_list) with
          | Some ?e => exact (proj1 (HP e ltac:(cbn; tauto))) end end|]). contradiction.
    - assert (BB : forall e, In e rd_list -> Rarr K (so_dim no nv) rho (rd (fst e)) (P (fst e)) /\ s_sh (rd (fst e)) = map (kcls cg) (snd e)).
      { intros e He. destruct (HP e He) as (_ & R & S). split; [exact R|]. rewrite S.
        unfold rd_list in He. repeat (destruct He as [<-|He]; [reflexivity|]). contradiction. }
      assert (I1 : Rarr K (so_dim no nv) rho (s_input 16 [cO; cV]) L1 /\ s_sh (s_input 16 [cO; cV]) = [cg false; cg true]).
      { split; [|reflexivity]. apply input_sound; [exact H3|reflexivity]. }
      assert (I2 : Rarr K (so_dim no nv) rho (s_input 17 [cO; cO; cV; cV]) L2 /\ s_sh (s_input 17 [cO; cO; cV; cV]) = [cg false; cg false; cg true; cg true]).
      { split; [|reflexivity]. apply input_sound; [exact (proj1 H4)|reflexivity]. }
      destruct (same_traces K (so_dim no nv) rho so_tb Hsy cg rd _ _ P L1 L2 BB I1 I2 no nv g_c1 g_cc eq_refl eq_refl g_chk1 g_chk) as [A B].
      split; [apply gamma_trace; exact A|exact B].
  Qed.

  Theorem u_traces noa nva nob nvb (T1a T1b T2aa T2ab T2bb L1a L1b L2aa L2ab L2bb : tensor K) :
    u_amps_ok noa nva nob nvb T1a T1b T2aa T2ab T2bb -> u_lams_ok noa nva nob nvb L1a L1b L2aa L2ab L2bb ->
    exists P, (forall f k, In (f, k) u_density_functions -> returns f
      [arr T1a; arr T1b; arr T2aa; arr T2ab; arr T2bb; arr L1a; arr L1b; arr L2aa; arr L2ab; arr L2bb]
      (tup (map (fun i => arr (P f i)) (seq 0 k)))) /\
    let Pa f := P (append "u" f) 0%nat in let Pb f := P (append "u" f) 1%nat in
    let ga := all2 noa (one_blocks Pa L1a) in let gb := all2 nob (one_blocks Pb L1b) in
    let Gm := Gamma_mixed noa nob ga gb (all4 noa nob (mixed_blocks P L2ab)) in
    sumN (noa + nva) (fun p => gamma noa ga p p) = nK K noa /\
    sumN (nob + nvb) (fun p => gamma nob gb p p) = nK K nob /\
    (forall p r, (p < noa + nva)%nat -> (r < noa + nva)%nat ->
      sumN (noa + nva) (fun q => Gamma noa ga (all4 noa noa (two_blocks Pa L2aa)) p q r q) = (nK K noa - 1) * gamma noa ga p r /\
      sumN (nob + nvb) (fun q => Gm p q r q) = nK K nob * gamma noa ga p r) /\
    (forall q s, (q < nob + nvb)%nat -> (s < nob + nvb)%nat ->
      sumN (nob + nvb) (fun p => Gamma nob gb (all4 nob nob (two_blocks Pb L2bb)) q p s p) = (nK K nob - 1) * gamma nob gb q s /\
      sumN (noa + nva) (fun p => Gm p q p s) = nK K noa * gamma nob gb q s).
  Proof.
    intros HT HL.
    pose proof (fun A => u_sym K noa nva nob nvb (zeroF K noa nva) (zeroF K nob nvb) (zeroI K noa nva) (zeroI K nob nvb) (zeroJ K noa nva nob nvb)
      T1a T1b T2aa T2ab T2bb L1a L1b L2aa L2ab L2bb c0 A HT HL) as Hsy.
    specialize (Hsy (zero_ham K noa nva nob nvb)).
    match type of Hsy with sym_ok _ _ ?x _ => set (rho := x) in Hsy end.
    destruct HT as (U1 & U2 & U3 & U4 & U5). destruct HL as (V1 & V2 & V3 & V4 & V5).
    destruct (rdm_exists K noa nva nob nvb T1a T1b T2aa T2ab T2bb L1a L1b L2aa L2ab L2bb rho) as (P & RP & HP).
    { unfold rdm_input. destruct U3 as (U3 & _), U5 as (U5 & _), V3 as (V3 & _), V5 as (V5 & _). svs. }
    exists P. split; [exact RP|]. intros Pa Pb ga gb Gm.
    assert (B : forall f shs, In (f, shs) u_rd_list -> forall k, (k < List.length shs)%nat ->
      Rarr K (u_dim noa nva nob nvb) rho (ublk f k) (P f k) /\ s_sh (ublk f k) = nth k shs []) by (intros f shs H; exact (HP _ H)).
    Ltac ub B := match goal with |- Rarr _ _ _ (ublk ?f ?k) _ /\ _ =>
      match eval cbv in (find (fun e => String.eqb (fst e) f) u_rd_list) with
      | Some (_, ?shs) => exact (B f shs ltac:(cbn; tauto) k ltac:(cbn; lia)) end end.
    assert (Ba : forall e, In e rd_list -> Rarr K (u_dim noa nva nob nvb) rho (ublk (append "u" (fst e)) 0) (Pa (fst e)) /\
      s_sh (ublk (append "u" (fst e)) 0) = map (kcls cua) (snd e)).
    { intros e He. unfold rd_list in He. repeat (destruct He as [<-|He]; [cbn [fst append]; unfold Pa; cbn [append]; ub B|]). contradiction. }
    assert (Bb : forall e, In e rd_list -> Rarr K (u_dim noa nva nob nvb) rho (ublk (append "u" (fst e)) 1) (Pb (fst e)) /\
      s_sh (ublk (append "u" (fst e)) 1) = map (kcls cub) (snd e)).
    { intros e He. unfold rd_list in He. repeat (destruct He as [<-|He]; [cbn [fst append]; unfold Pb; cbn [append]; ub B|]). contradiction. }
    assert (I1a : Rarr K (u_dim noa nva nob nvb) rho (s_input 86 [oa; va]) L1a /\ s_sh (s_input 86 [oa; va]) = [cua false; cua true]).
    { split; [|reflexivity]. apply input_sound; [exact V1|reflexivity]. }
    assert (I2a : Rarr K (u_dim noa nva nob nvb) rho (s_input 88 [oa; oa; va; va]) L2aa /\ s_sh (s_input 88 [oa; oa; va; va]) = [cua false; cua false; cua true; cua true]).
    { split; [|reflexivity]. apply input_sound; [exact (proj1 V3)|reflexivity]. }
    destruct (same_traces K _ rho u_tb Hsy cua _ _ _ Pa L1a L2aa Ba I1a I2a noa nva ua_c1 ua_cc eq_refl eq_refl ua_chk1 ua_chk) as [Ta Da].
    assert (I1b : Rarr K (u_dim noa nva nob nvb) rho (s_input 87 [ob; vb]) L1b /\ s_sh (s_input 87 [ob; vb]) = [cub false; cub true]).
    { split; [|reflexivity]. apply input_sound; [exact V2|reflexivity]. }
    assert (I2b : Rarr K (u_dim noa nva nob nvb) rho (s_input 90 [ob; ob; vb; vb]) L2bb /\ s_sh (s_input 90 [ob; ob; vb; vb]) = [cub false; cub false; cub true; cub true]).
    { split; [|reflexivity]. apply input_sound; [exact (proj1 V5)|reflexivity]. }
    destruct (same_traces K _ rho u_tb Hsy cub _ _ _ Pb L1b L2bb Bb I1b I2b nob nvb ub_c1 ub_cc eq_refl eq_refl ub_chk1 ub_chk) as [Tb Db].
    assert (HG : forall p q s t, Rarr K (u_dim noa nva nob nvb) rho (u4m p q s t) (mixed_blocks P L2ab p q s t) /\
      s_sh (u4m p q s t) = [cua p; cub q; cua s; cub t]).
    { destruct p, q, s, t; cbn [u4m mixed_blocks cua cub];
        repeat match goal with |- Rarr _ _ _ (s_neg _) _ /\ _ => apply neg_pair end;
        first [ ub B
              | match goal with |- Rarr _ _ _ (s_input _ _) _ /\ _ => split; [apply input_sound; [exact V4|reflexivity]|reflexivity] end
              | match goal with |- Rarr _ _ _ (s_swap ?pp (ublk ?f ?k)) _ /\ _ =>
                  match eval cbv in (find (fun e => String.eqb (fst e) f) u_rd_list) with
                  | Some (_, ?shs) => 
                    let H := fresh in pose proof (B f shs ltac:(cbn; tauto) k ltac:(cbn; lia)) as H; cbn [nth] in H;
                    refine (swap_pair K _ rho pp _ _ _ _ _ _ _ H); first [left; reflexivity | right; left; reflexivity | right; right; reflexivity] end end ]. }
    split; [apply gamma_trace; exact Ta|]. split; [apply gamma_trace; exact Tb|]. split.
    - intros p r Hp Hr. split; [exact (Da p r Hp Hr)|]. apply (mixed_second K noa nva nob nvb); [exact Tb| |exact Hp|exact Hr].
      apply (mixed_pq K _ rho u_tb Hsy cua cub u4m _ HG noa nva nob nvb) with (cc := um_cc); [intros [|]; reflexivity|intros [|]; reflexivity|exact um_chk].
    - intros q s Hq Hs. split; [exact (Db q s Hq Hs)|]. apply (mixed_first K noa nva nob nvb); [exact Ta| |exact Hq|exact Hs].
      apply (mixed_qp K _ rho u_tb Hsy cua cub u4m _ HG noa nva nob nvb) with (cc := un_cc); [intros [|]; reflexivity|intros [|]; reflexivity|exact un_chk].
  Qed.

  Theorem r_traces no nv (T1 T2 L1 L2 : tensor K) :
    shp T1 = [nv; no] -> shp T2 = [nv; nv; no; no] -> pair_sym T2 -> shp L1 = [no; nv] -> shp L2 = [no; no; nv; nv] -> pair_sym L2 ->
    exists P, (forall f, In f r_density_functions -> returns f [arr T1; arr T2; arr L1; arr L2] (arr (P f))) /\
    let g := all2 no (one_blocks (fun f => P (append "r" f)) L1) in
    let Gm := Gamma_mixed no no g g (all4 no no (closed_blocks P L2)) in
    sumN (no + nv) (fun p => gamma no g p p) = nK K no /\
    forall p r, (p < no + nv)%nat -> (r < no + nv)%nat ->
      sumN (no + nv) (fun q => Gm p q r q) = nK K no * gamma no g p r /\
      sumN (no + nv) (fun q => Gm q p q r) = nK K no * gamma no g p r /\
      sumN (no + nv) (fun q => Gm p q q r) = gamma no g p r.
  Proof.
    intros H1 H2 P2 H3 H4 P4. destruct (zeroR_ok K no nv) as [ZJ ZP].
    pose proof (r_sym K no nv (zeroF K no nv) (zeroR K no nv) T1 T2 L1 L2 c0) as Hsy.
    assert (Hs : sym_ok K (so_dim no nv) (r_rho K no nv (zeroF K no nv) (zeroR K no nv) T1 T2 L1 L2 c0) r_tb) by (apply Hsy; auto).
    clear Hsy. match type of Hs with sym_ok _ _ ?x _ => set (rho := x) in Hs end.
    destruct (r_rdm_exists K no nv T1 T2 L1 L2 rho) as (P & RP & HP).
    { unfold r_rdm_input. svs. }
    exists P. split; [exact RP|]. intros g Gm.
    assert (B : forall f sh, In (f, sh) r_rd_list ->
      Rarr K (so_dim no nv) rho (rblk f) (P f) /\ s_sh (rblk f) = sh) by (intros f sh H; exact (HP _ H)).
    Ltac rb B := match goal with |- Rarr _ _ _ (rblk ?f) _ /\ _ =>
      match eval cbv in (find (fun e => String.eqb (fst e) f) r_rd_list) with
      | Some (_, ?sh) => exact (B f sh ltac:(cbn; tauto)) end end.
    assert (B2 : forall p q, Rarr K (so_dim no nv) rho (r2 p q) (one_blocks (fun f => P (append "r" f)) L1 p q) /\ s_sh (r2 p q) = [cg p; cg q]).
    { destruct p, q; cbn [r2 same2 one_blocks append cg]; first [rb B | match goal with |- Rarr _ _ _ (s_input _ _) _ /\ _ => split; [apply input_sound; [exact H3|reflexivity]|reflexivity] end]. }
    assert (HG : forall p q s t, Rarr K (so_dim no nv) rho (r4 p q s t) (closed_blocks P L2 p q s t) /\
      s_sh (r4 p q s t) = [cg p; cg q; cg s; cg t]).
    { destruct p, q, s, t; cbn [r4 closed_blocks cg];
        first [ rb B
              | match goal with |- Rarr _ _ _ (s_input _ _) _ /\ _ => split; [apply input_sound; [exact H4|reflexivity]|reflexivity] end
              | match goal with |- Rarr _ _ _ (s_swap ?pp (rblk ?f)) _ /\ _ =>
                  match eval cbv in (find (fun e => String.eqb (fst e) f) r_rd_list) with
                  | Some (_, ?sh) => 
                    let H := fresh in pose proof (B f sh ltac:(cbn; tauto)) as H;
                    refine (swap_pair K _ rho pp _ _ _ _ _ _ _ H); first [left; reflexivity | right; left; reflexivity | right; right; reflexivity] end end ]. }
    pose proof (tr1_sound K _ rho r_tb Hs cg r2 _ r_c1 r_chk1 (fun v => B2 v v)) as T.
    change (so_dim no nv (cg false)) with no in T. change (so_dim no nv (cg true)) with nv in T.
    assert (E : forall v, ext no nv v = so_dim no nv (cg v)) by (intros [|]; reflexivity).
    split; [apply gamma_trace; exact T|]. intros p r Hp Hr. split; [|split].
    - apply (mixed_second K no nv no nv); [exact T| |exact Hp|exact Hr].
      apply (mixed_pq K _ rho r_tb Hs cg cg r4 _ HG no nv no nv E E) with (cc := rm_cc). exact rm_chk.
    - apply (mixed_first K no nv no nv); [exact T| |exact Hp|exact Hr].
      apply (mixed_qp K _ rho r_tb Hs cg cg r4 _ HG no nv no nv E E) with (cc := rn_cc). exact rn_chk.
    - apply (exchange_second K no nv); [|exact Hp|exact Hr]. intros a b x y Hx Hy. rewrite E in Hx, Hy.
      assert (HY : forall a b, Rarr K (so_dim no nv) rho (rhsx cg r2 a b)
        (mkT [so_dim no nv (cg a); so_dim no nv (cg b)] (fun i => - wt K a b * dat (one_blocks (fun f => P (append "r" f)) L1 a b) i))).
      { exact (rhsx_sound K _ rho cg r2 _ B2). }
      exact (trace_sound K _ rho r_tb cg cg px (fun v a b => r4 a v v b) (fun v a b => closed_blocks P L2 a v v b)
        (rhsx cg r2) _ rx_cc rx_chk Hs ltac:(repeat constructor) (fun v a b => proj1 (HG a v v b)) (fun v a b => eq_sym (proj2 (HG a v v b)))
        HY a b x y Hx Hy).
  Qed.
End Traces.
