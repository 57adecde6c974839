(** Restricted functions against unrestricted functions on closed-shell
    inputs. *)
From Coq Require Import List Bool Arith ZArith Lia Ring String.
From Verif Require Import Scalar Tensor PySyntax PySem PySim Sym SymSound Norm CCProg CCSpec Engine
  Tools SOCtx NpModel SpinModel SpinSpec SpinOut CCSpin RCtx.
Import ListNotations.
Local Open Scope string_scope.

Definition p_both : list nat := [1; 0; 3; 2].
Definition s_swap (p : list nat) (a : stens) : stens :=
  match s_trans p a with Some b => b | None => s_zero [] end.
Definition s_minus (a b : stens) : stens :=
  match s_add a (s_neg b) with Some c => c | None => s_zero [] end.

Section SwapSound.
  Variable K : cring.
  Local Open Scope K_scope.
  Add Ring Kr17 : (c_th K).
  Variable dim : cls -> nat.
  Variable rho : positive -> list nat -> K.
  Notation RA := (Rarr K dim rho).

  Lemma swap_sound p a t : p = p_both \/ p = p_tail \/ p = p_lead ->
    List.length (s_sh a) = 4%nat -> RA a t -> RA (s_swap p a) (swap p t).
  Proof.
    intros Hp Hl HR.
    assert (Ep : is_perm p (List.length (s_sh a)) = true).
    { rewrite Hl. destruct Hp as [->|[->| ->]]; reflexivity. }
    unfold s_swap. destruct (s_trans p a) as [b|] eqn:E.
    - destruct (S_atrans K dim rho p a t b HR E) as (t' & Et & HR').
      assert (Hlt : List.length (shp t) = 4%nat) by (destruct HR as (-> & _); rewrite map_length; auto).
      unfold ttrans in Et. rewrite Hlt in Et.
      assert (t' = swap p t) as <-; [|exact HR'].
      destruct Hp as [->|[->| ->]]; injection Et as <-; reflexivity.
    - unfold s_trans in E. rewrite Ep in E. discriminate.
  Qed.
  Lemma minus_sound a b t u : cls_list_eqb (s_sh a) (s_sh b) = true -> RA a t -> RA b u ->
    RA (s_minus a b) (tminus t u).
  Proof.
    intros E Ha Hb. unfold s_minus. pose proof (S_aneg K dim rho _ _ Hb) as Hn.
    destruct (s_add a (s_neg b)) as [c|] eqn:Es.
    - destruct (S_aadd K dim rho _ _ _ _ _ Ha Hn Es) as (c' & Ec & Hc).
      unfold tadd in Ec. destruct (shape_eqb _ _); [|discriminate]. injection Ec as <-.
      destruct Hc as (X1 & X2 & X3). split; [exact X1|]. split; [exact X2|].
      intros idx Hi. rewrite <- X3 by exact Hi. cbn. ring.
    - unfold s_add in Es. cbn in Es. rewrite E in Es. discriminate.
  Qed.
End SwapSound.

(** equations between symbolic arrays, checked *)
Fixpoint all_chk (tb : table) (gs : list (stens * stens)) (cs : list (list cert)) : bool :=
  match gs, cs with
  | [], [] => true
  | (a, b) :: gs', c :: cs' => aeq_chk tb a b c && all_chk tb gs' cs'
  | _, _ => false
  end.
Definition all_find (tb : table) (gs : list (stens * stens)) : list (list cert) :=
  map (fun p => find_aeq tb (fst p) (snd p)) gs.
Lemma all_sound (K : cring) dim rho tb : sym_ok K dim rho tb ->
  forall gs cs, all_chk tb gs cs = true ->
    Forall (fun p => forall t u, Rarr K dim rho (fst p) t -> Rarr K dim rho (snd p) u -> teq t u) gs.
Proof.
  intros Ht. induction gs as [|[a b] gs IH]; intros [|c cs]; cbn [all_chk]; try discriminate;
    intros H; constructor.
  - apply andb_prop in H. destruct H as [H _]. intros t u. eapply aeq_sound; eauto.
  - apply andb_prop in H. destruct H as [_ H]. eauto.
Qed.

(** *** C09, C17: amplitudes *)
Definition amp_goals (r u : sval) : list (stens * stens) :=
  let s1 := get_arr (item 0 r) in let s2 := get_arr (item 1 r) in
  let an := s_minus s2 (s_swap p_tail s2) in
  [(get_arr (item 0 (item 0 u)), s1); (get_arr (item 1 (item 0 u)), s1);
   (get_arr (item 0 (item 1 u)), an); (get_arr (item 1 (item 1 u)), s2);
   (get_arr (item 2 (item 1 u)), an); (s2, s_swap p_both s2)].
Definition ramp_chk (f g : string) (a b : list sval) (sh : list cls) (cs : list (list cert)) : bool :=
  run_form (FTup [FArr; FArr]) f a && run_form f_amps g b &&
  cls_list_eqb (s_sh (get_arr (item 1 (run_s f a)))) sh &&
  match sh with [_; _; c; d] => Pos.eqb c d | _ => false end &&
  all_chk r_tb (amp_goals (run_s f a) (run_s g b)) cs.
Definition ramp_find (f g : string) (a b : list sval) := all_find r_tb (amp_goals (run_s f a) (run_s g b)).

Section Amps.
  Variable K : cring.
  Local Open Scope K_scope.
  Variable dim : cls -> nat.
  Variable rho : positive -> list nat -> K.

  Lemma goals_sound r u (S1 S2 ta tb aa ab bb : tensor K) a b c :
    s_sh (get_arr (item 1 r)) = [a; b; c; c] ->
    Rarr K dim rho (get_arr (item 0 r)) S1 -> Rarr K dim rho (get_arr (item 1 r)) S2 ->
    Forall2 (Rarr K dim rho) (fst (amps_of u)) [ta; tb] ->
    Forall2 (Rarr K dim rho) (snd (amps_of u)) [aa; ab; bb] ->
    Forall (fun p => forall t u, Rarr K dim rho (fst p) t -> Rarr K dim rho (snd p) u -> teq t u)
      (amp_goals r u) ->
    teq ta S1 /\ teq tb S1 /\ teq aa (tminus S2 (swap_ket S2)) /\ teq ab S2 /\
    teq bb (tminus S2 (swap_ket S2)) /\ pair_sym S2.
  Proof.
    unfold amp_goals, amps_of. cbn [fst snd]. intros Hs R1 R2 B1 B2 HG.
    apply F2_2 in B1. destruct B1 as (B1 & B1'). apply F2_3 in B2. destruct B2 as (B2 & B2' & B2'').
    assert (Hl : List.length (s_sh (get_arr (item 1 r))) = 4%nat) by (rewrite Hs; reflexivity).
    assert (HA : Rarr K dim rho (s_minus (get_arr (item 1 r)) (s_swap p_tail (get_arr (item 1 r))))
      (tminus S2 (swap_ket S2))).
    { apply minus_sound; [|exact R2|apply swap_sound; auto].
      unfold s_swap, s_trans. rewrite Hl. cbn [is_perm p_tail]. rewrite Hs. cbn.
      rewrite !Pos.eqb_refl. reflexivity. }
    repeat match goal with H : Forall _ (_ :: _) |- _ => inversion_clear H end.
    cbn [fst snd] in *.
    assert (HB := swap_sound K dim rho p_both _ _ (or_introl eq_refl) Hl R2).
    unfold pair_sym, swap_both. repeat match goal with |- _ /\ _ => split end; eauto.
  Qed.

  Lemma ramp_sound f g a b sh cs vs ws :
    ramp_chk f g a b sh cs = true -> sym_ok K dim rho r_tb ->
    Forall2 (Rval K dim rho) a vs -> Forall2 (Rval K dim rho) b ws ->
    exists S1 S2 ta tb aa ab bb,
      returns f vs (tup [arr S1; arr S2]) /\
      returns g ws (tup [tup [arr ta; arr tb]; tup [arr aa; arr ab; arr bb]]) /\
      teq ta S1 /\ teq tb S1 /\ teq aa (tminus S2 (swap_ket S2)) /\ teq ab S2 /\
      teq bb (tminus S2 (swap_ket S2)) /\ pair_sym S2.
  Proof.
    unfold ramp_chk. intros H Htb Ha Hb. repeat (apply andb_prop in H; destruct H as [H ?]).
    destruct (run_pair_sound K dim rho _ _ _ H Ha) as (S1 & S2 & R1 & A1 & A2).
    destruct (run_amps_sound K dim rho _ _ _ H3 Hb) as (ta & tb & aa & ab & bb & R2 & B1 & B2).
    exists S1, S2, ta, tb, aa, ab, bb. split; [exact R1|]. split; [exact R2|].
    apply cls_list_eqb_eq in H2.
    destruct sh as [|c1 [|c2 [|c3 [|c4 [|]]]]]; try discriminate. apply Pos.eqb_eq in H1. subst c4.
    pose proof (all_sound K dim rho r_tb Htb _ _ H0) as HG.
    exact (goals_sound _ _ _ _ _ _ _ _ _ _ _ _ H2 A1 A2 B1 B2 HG).
  Qed.
End Amps.

Notation sTr := [sT1; sT2].
Definition c9r := [sF; sIr; sT1; sT2].
Definition c9u := (suHr ++ suTr)%list.
Definition c9_cs := Eval vm_compute in ramp_find "rccsd_stanton" "uccsd_stanton" c9r c9u.
Lemma c9_chk : ramp_chk "rccsd_stanton" "uccsd_stanton" c9r c9u [cV; cV; cO; cO] c9_cs = true.
Proof. vm_compute. reflexivity. Qed.
Definition c17r := [sF; sIr; sL1; sL2; sT1; sT2].
Definition c17u := (suHr ++ suLr ++ suTr)%list.
Definition c17_cs := Eval vm_compute in ramp_find "rccsd_lambda_opt" "uccsd_lambda_opt" c17r c17u.
Lemma c17_chk : ramp_chk "rccsd_lambda_opt" "uccsd_lambda_opt" c17r c17u [cO; cO; cV; cV] c17_cs = true.
Proof. vm_compute. reflexivity. Qed.

Ltac r_get := unfold c9r, c9u, c17r, c17u; cbn [app]; repeat match goal with
  | |- Forall2 _ [] [] => constructor
  | |- Forall2 _ (_ :: _) (_ :: _) => constructor
  | |- Rval _ _ _ (XTup _) _ => apply Rx_tup
  end; first [apply rR_F; assumption | apply rR_J; assumption | apply rR_Ja; assumption |
    apply rR_T2a; assumption | apply rR_L2a; assumption |
    apply rR_T1; assumption | apply rR_T2; assumption | apply rR_L1; assumption |
    apply rR_L2; assumption | apply rR_fac | apply rR_ov; assumption | apply rR_oovv; assumption |
    apply rR_oovva; assumption].

Section Zero.
  Variable K : cring.
  Lemma zero_pair a b : pair_sym (tzeros K [a; a; b; b]).
  Proof. split; [reflexivity|]. intros. reflexivity. Qed.
  Definition zeroR no nv := zeroJ K no nv no nv.
  Lemma zeroR_ok no nv : two_e_full_ok no nv no nv (zeroR no nv) /\ pair_sym_full (zeroR no nv).
  Proof. repeat split. Qed.
End Zero.

Section C09.
  Variable K : cring.
  Variables no nv : nat.

  Lemma c09 (F : one_e K) (I : two_e_full K) (T1 T2 : tensor K) :
    one_e_ok no nv F -> two_e_full_ok no nv no nv I -> pair_sym_full I ->
    shp T1 = [nv; no] -> shp T2 = [nv; nv; no; no] -> pair_sym T2 ->
    exists S1 S2 ta tb aa ab bb,
      returns "rccsd_stanton" [py_one_e F; py_two_e_full I; arr T1; arr T2]
        (tup [arr S1; arr S2]) /\
      returns "uccsd_stanton"
        [py_one_e F; py_one_e F; py_two_e (anti_of I); py_two_e (anti_of I); py_two_e_full I;
         tup [arr T1; arr T1];
         tup [arr (tminus T2 (swap_ket T2)); arr T2; arr (tminus T2 (swap_ket T2))]]
        (tup [tup [arr ta; arr tb]; tup [arr aa; arr ab; arr bb]]) /\
      teq ta S1 /\ teq tb S1 /\ teq aa (tminus S2 (swap_ket S2)) /\ teq ab S2 /\
      teq bb (tminus S2 (swap_ket S2)) /\ pair_sym S2.
  Proof.
    intros HF HJ PJ H1 H2 P2.
    eapply (ramp_sound K (so_dim no nv)
      (r_rho K no nv F I T1 T2 (tzeros K [no; nv]) (tzeros K [no; no; nv; nv]) c0) _ _ _ _ _ _ _ _ c9_chk).
    - apply r_sym; auto. apply zero_pair.
    - r_get.
    - r_get.
  Qed.

  Lemma c17 (F : one_e K) (I : two_e_full K) (T1 T2 L1 L2 : tensor K) :
    one_e_ok no nv F -> two_e_full_ok no nv no nv I -> pair_sym_full I ->
    shp T1 = [nv; no] -> shp T2 = [nv; nv; no; no] -> pair_sym T2 ->
    shp L1 = [no; nv] -> shp L2 = [no; no; nv; nv] -> pair_sym L2 ->
    exists S1 S2 la lb aa ab bb,
      returns "rccsd_lambda_opt" [py_one_e F; py_two_e_full I; arr L1; arr L2; arr T1; arr T2]
        (tup [arr S1; arr S2]) /\
      returns "uccsd_lambda_opt"
        [py_one_e F; py_one_e F; py_two_e (anti_of I); py_two_e (anti_of I); py_two_e_full I;
         tup [arr L1; arr L1];
         tup [arr (tminus L2 (swap_ket L2)); arr L2; arr (tminus L2 (swap_ket L2))];
         tup [arr T1; arr T1];
         tup [arr (tminus T2 (swap_ket T2)); arr T2; arr (tminus T2 (swap_ket T2))]]
        (tup [tup [arr la; arr lb]; tup [arr aa; arr ab; arr bb]]) /\
      teq la S1 /\ teq lb S1 /\ teq aa (tminus S2 (swap_ket S2)) /\ teq ab S2 /\
      teq bb (tminus S2 (swap_ket S2)) /\ pair_sym S2.
  Proof.
    intros HF HJ PJ H1 H2 P2 H3 H4 P4.
    eapply (ramp_sound K (so_dim no nv) (r_rho K no nv F I T1 T2 L1 L2 c0) _ _ _ _ _ _ _ _ c17_chk).
    - apply r_sym; auto.
    - r_get.
    - r_get.
  Qed.
End C09.

(** *** C10: energies *)
Definition c10r := [sT1; sT2; inp 2 [cO; cV]; inp 71 [cO; cO; cV; cV]].
Definition c10u := (suTr ++ [inp 2 [cO; cV]; inp 2 [cO; cV]; anti 71 71 [cO; cO; cV; cV];
  anti 71 71 [cO; cO; cV; cV]; inp 71 [cO; cO; cV; cV]])%list.
Definition num_chk (f g : string) (a b : list sval) (c : list cert) : bool :=
  run_form FNum f a && run_form FNum g b &&
  neq_chk r_tb (get_num (run_s f a)) (get_num (run_s g b)) c.
Definition c10_cs := Eval vm_compute in
  find_neq r_tb (get_num (run_s "rcc_energy" c10r)) (get_num (run_s "ucc_energy" c10u)).
Lemma c10_chk : num_chk "rcc_energy" "ucc_energy" c10r c10u c10_cs = true.
Proof. vm_compute. reflexivity. Qed.

Lemma num_sound (K : cring) dim rho f g a b c vs ws : num_chk f g a b c = true ->
  sym_ok K dim rho r_tb -> Forall2 (Rval K dim rho) a vs -> Forall2 (Rval K dim rho) b ws ->
  exists e, returns f vs (numv e) /\ returns g ws (numv e).
Proof.
  unfold num_chk. intros H Htb Ha Hb. apply andb_prop in H. destruct H as [H H0].
  apply andb_prop in H. destruct H as [H H1].
  destruct (run_num_sound K dim rho _ _ _ H Ha) as (x & R1 & X1).
  destruct (run_num_sound K dim rho _ _ _ H1 Hb) as (y & R2 & X2).
  exists x. split; auto. replace x with y; auto. symmetry. eapply neq_sound; eauto.
Qed.

Lemma c10r_ok (K : cring) no nv (F : one_e K) (I : two_e_full K) (T1 T2 : tensor K) :
  one_e_ok no nv F -> two_e_full_ok no nv no nv I -> pair_sym_full I ->
  shp T1 = [nv; no] -> shp T2 = [nv; nv; no; no] -> pair_sym T2 ->
  exists e, returns "rcc_energy" [arr T1; arr T2; arr (ov F); arr (foovv I)] (numv e) /\
    returns "ucc_energy"
      [tup [arr T1; arr T1];
       tup [arr (tminus T2 (swap_ket T2)); arr T2; arr (tminus T2 (swap_ket T2))];
       arr (ov F); arr (ov F); arr (oovv (anti_of I)); arr (oovv (anti_of I)); arr (foovv I)]
      (numv e).
Proof.
  intros HF HJ PJ H1 H2 P2.
  eapply (num_sound K (so_dim no nv)
    (r_rho K no nv F I T1 T2 (tzeros K [no; nv]) (tzeros K [no; no; nv; nv]) c0) _ _ _ _ _ _ _ c10_chk).
  - apply r_sym; auto. apply zero_pair.
  - unfold c10r, c10u; r_get.
  - unfold c10r, c10u; r_get.
Qed.

(** *** C22: density matrices *)
(** how the blocks of the unrestricted function come from the restricted ones *)
Inductive how : Type := HOne | HKet3 | HKet4 | HBra4.
Definition s_how (h : how) (r : stens) : list stens :=
  match h with
  | HOne => [r; r]
  | HKet3 => let k := s_minus r (s_swap p_tail r) in [k; k; r]
  | HKet4 => let k := s_minus r (s_swap p_tail r) in [k; k; r; r]
  | HBra4 => let k := s_minus r (s_swap p_lead r) in [k; k; r; r]
  end.
Definition t_how {K : cring} (h : how) (r : tensor K) : list (tensor K) :=
  match h with
  | HOne => [r; r]
  | HKet3 => let k := tminus r (swap_ket r) in [k; k; r]
  | HKet4 => let k := tminus r (swap_ket r) in [k; k; r; r]
  | HBra4 => let k := tminus r (swap_bra r) in [k; k; r; r]
  end.
Definition how_ok (h : how) (sh : list cls) : bool :=
  match h, sh with
  | HOne, _ => true
  | (HKet3 | HKet4), [_; _; c; d] => Pos.eqb c d
  | HBra4, [a; b; _; _] => Pos.eqb a b
  | _, _ => false
  end.
Definition how_len (h : how) : nat := match h with HOne => 2 | HKet3 => 3 | _ => 4 end.

Definition rR (fac : bool) : list sval :=
  ([sT1; sT2; sL1; sL2] ++ (if fac then [sFac] else []))%list.
Definition ruR (fac : bool) : list sval :=
  ([sT1; sT1; sT2anti; sT2; sT2anti; sL1; sL1; sL2anti; sL2; sL2anti] ++
   (if fac then [sFac] else []))%list.
Definition rrdm_goals (h : how) (r u : sval) : list (stens * stens) :=
  combine (arrs_of (how_len h) u) (s_how h (get_arr r)).
Definition rrdm_chk (f g : string) (fac : bool) (h : how) (cs : list (list cert)) : bool :=
  run_form FArr f (rR fac) && run_form (FTup (map (fun _ => FArr) (seq 0 (how_len h)))) g (ruR fac) &&
  how_ok h (s_sh (get_arr (run_s f (rR fac)))) &&
  all_chk r_tb (rrdm_goals h (run_s f (rR fac)) (run_s g (ruR fac))) cs.
Definition rrdm_list : list (string * string * bool * how) :=
  [("rccsd_1rdm_ba", "uccsd_1rdm_ba", false, HOne);
   ("rccsd_1rdm_ji", "uccsd_1rdm_ji", false, HOne);
   ("rccsd_1rdm_ai", "uccsd_1rdm_ai", false, HOne);
   ("rccsd_1rdm_ai", "uccsd_1rdm_ai", true, HOne);
   ("rccsd_2rdm_ciab", "uccsd_2rdm_ciab", false, HKet4);
   ("rccsd_2rdm_jkai", "uccsd_2rdm_jkai", false, HBra4);
   ("rccsd_2rdm_cdab", "uccsd_2rdm_cdab", false, HKet3);
   ("rccsd_2rdm_klij", "uccsd_2rdm_klij", false, HKet3);
   ("rccsd_2rdm_bcai", "uccsd_2rdm_bcai", false, HBra4);
   ("rccsd_2rdm_kaij", "uccsd_2rdm_kaij", false, HKet4);
   ("rccsd_2rdm_abij", "uccsd_2rdm_abij", false, HKet3)].
Definition rrdm_certs := Eval vm_compute in
  map (fun e => let '(f, g, fac, h) := e in
    all_find r_tb (rrdm_goals h (run_s f (rR fac)) (run_s g (ruR fac)))) rrdm_list.
Fixpoint rrdm_all (l : list (string * string * bool * how)) (cs : list (list (list cert))) : bool :=
  match l, cs with
  | [], [] => true
  | (f, g, fac, h) :: l', c :: cs' => rrdm_chk f g fac h c && rrdm_all l' cs'
  | _, _ => false
  end.
Lemma rrdm_all_ok : rrdm_all rrdm_list rrdm_certs = true.
Proof. vm_compute. reflexivity. Qed.
Lemma rrdm_all_in l : forall cs, rrdm_all l cs = true ->
  forall f g fac h, In (f, g, fac, h) l -> exists c, rrdm_chk f g fac h c = true.
Proof.
  induction l as [|[[[f g] fac] h] l IH]; intros [|c cs]; cbn [rrdm_all]; try discriminate;
    intros H f' g' fac' h' [].
  - injection H0 as <- <- <- <-. apply andb_prop in H. destruct H. eauto.
  - apply andb_prop in H. destruct H as [_ H]. eauto.
Qed.

Lemma F_combine {A B} (P : A * B -> Prop) (Q : A -> B -> Prop) l m :
  (forall a b, P (a, b) -> Q a b) -> Forall P (combine l m) ->
  List.length l = List.length m -> Forall2 Q l m.
Proof.
  intros HPQ. revert m. induction l as [|a l IH]; intros [|b m] H E; try discriminate; constructor.
  - inversion H; subst. auto.
  - inversion H; subst. apply IH; auto.
Qed.
Lemma F2_chain {A B} (R : A -> B -> Prop) (E : B -> B -> Prop) (la lb : list A) :
  Forall2 (fun a b => forall t u, R a t -> R b u -> E t u) la lb ->
  forall ts us, Forall2 R la ts -> Forall2 R lb us -> Forall2 E ts us.
Proof.
  induction 1 as [|a b la lb H HF IH]; intros ts us Ht Hu; inversion Ht; inversion Hu; subst;
    constructor; auto.
Qed.

Section RRdm.
  Variable K : cring.
  Variables no nv : nat.
  Variables T1 T2 L1 L2 : tensor K.
  Variable tfac : K.
  Hypothesis H1 : shp T1 = [nv; no].
  Hypothesis H2 : shp T2 = [nv; nv; no; no].
  Hypothesis P2 : pair_sym T2.
  Hypothesis H3 : shp L1 = [no; nv].
  Hypothesis H4 : shp L2 = [no; no; nv; nv].
  Hypothesis P4 : pair_sym L2.
  Notation dim := (so_dim no nv).
  Definition rrho := r_rho K no nv (zeroF K no nv) (zeroR K no nv) T1 T2 L1 L2 tfac.
  Lemma rrho_sym : sym_ok K dim rrho r_tb.
  Proof. destruct (zeroR_ok K no nv). apply r_sym; auto. Qed.

  Definition rargs (fac : bool) : list (pyval K) :=
    ([arr T1; arr T2; arr L1; arr L2] ++ (if fac then [numv tfac] else []))%list.
  Definition ruargs (fac : bool) : list (pyval K) :=
    ([arr T1; arr T1; arr (tminus T2 (swap_ket T2)); arr T2; arr (tminus T2 (swap_ket T2));
      arr L1; arr L1; arr (tminus L2 (swap_ket L2)); arr L2; arr (tminus L2 (swap_ket L2))] ++
     (if fac then [numv tfac] else []))%list.
  Lemma rargs_ok fac : Forall2 (Rval K dim rrho) (rR fac) (rargs fac).
  Proof. unfold rR, rargs. destruct fac; unfold rrho; r_get. Qed.
  Lemma ruargs_ok fac : Forall2 (Rval K dim rrho) (ruR fac) (ruargs fac).
  Proof. unfold ruR, ruargs. destruct fac; unfold rrho; r_get. Qed.

  Lemma how_sound h r t : how_ok h (s_sh r) = true -> Rarr K dim rrho r t ->
    Forall2 (Rarr K dim rrho) (s_how h r) (t_how h t).
  Proof.
    intros Hh HR. destruct h; cbn [s_how t_how how_ok] in *.
    - repeat (apply Forall2_cons; [assumption|]); apply Forall2_nil.
    - destruct (s_sh r) as [|a [|b [|c [|d [|]]]]] eqn:E; try discriminate.
      apply Pos.eqb_eq in Hh. subst d.
      assert (HA : Rarr K dim rrho (s_minus r (s_swap p_tail r)) (tminus t (swap_ket t))).
      { apply minus_sound; [|exact HR|apply swap_sound; auto; rewrite E; reflexivity].
        unfold s_swap, s_trans. rewrite E. cbn. rewrite !Pos.eqb_refl. reflexivity. }
      repeat (apply Forall2_cons; [assumption|]); apply Forall2_nil.
    - destruct (s_sh r) as [|a [|b [|c [|d [|]]]]] eqn:E; try discriminate.
      apply Pos.eqb_eq in Hh. subst d.
      assert (HA : Rarr K dim rrho (s_minus r (s_swap p_tail r)) (tminus t (swap_ket t))).
      { apply minus_sound; [|exact HR|apply swap_sound; auto; rewrite E; reflexivity].
        unfold s_swap, s_trans. rewrite E. cbn. rewrite !Pos.eqb_refl. reflexivity. }
      repeat (apply Forall2_cons; [assumption|]); apply Forall2_nil.
    - destruct (s_sh r) as [|a [|b [|c [|d [|]]]]] eqn:E; try discriminate.
      apply Pos.eqb_eq in Hh. subst b.
      assert (HA : Rarr K dim rrho (s_minus r (s_swap p_lead r)) (tminus t (swap_bra t))).
      { apply minus_sound; [|exact HR|apply swap_sound; auto; rewrite E; reflexivity].
        unfold s_swap, s_trans. rewrite E. cbn. rewrite !Pos.eqb_refl. reflexivity. }
      repeat (apply Forall2_cons; [assumption|]); apply Forall2_nil.
  Qed.

  Lemma rrdm_sound f g fac h cs : rrdm_chk f g fac h cs = true ->
    exists r us, returns f (rargs fac) (arr r) /\ returns g (ruargs fac) (tup (map arr us)) /\
      Forall2 teq us (t_how h r).
  Proof.
    unfold rrdm_chk. intros H. repeat (apply andb_prop in H; destruct H as [H ?]).
    destruct (run_arr_sound K dim rrho f (rR fac) (rargs fac) H (rargs_ok fac)) as (r & R1 & A1).
    destruct (run_arrs_sound K dim rrho (seq 0 (how_len h)) g (ruR fac) (ruargs fac) H6
      (ruargs_ok fac)) as (us & R2 & Hl & A2).
    exists r, us. split; [exact R1|]. split; [exact R2|].
    rewrite seq_length in Hl, A2.
    pose proof (all_sound K dim rrho r_tb rrho_sym _ _ H0) as HG.
    pose proof (how_sound h _ _ H5 A1) as HH.
    assert (HU : Forall2 (Rarr K dim rrho) (arrs_of (how_len h) (run_s g (ruR fac))) us).
    { unfold arrs_of. rewrite <- Hl. apply F2_seq with (d := tzeros K []). intros k Hk. apply A2.
      rewrite <- Hl. exact Hk. }
    eapply F2_chain; [|exact HU|exact HH].
    eapply F_combine; [|exact HG|].
    - intros a b X t u. apply X.
    - unfold arrs_of. rewrite map_length, seq_length.
      destruct h; reflexivity.
  Qed.

  Lemma rrdm_use f g fac h : In (f, g, fac, h) rrdm_list ->
    exists r us, returns f (rargs fac) (arr r) /\ returns g (ruargs fac) (tup (map arr us)) /\
      Forall2 teq us (t_how h r).
  Proof.
    intros H. destruct (rrdm_all_in _ _ rrdm_all_ok _ _ _ _ H) as (cs & Hc).
    eapply rrdm_sound; eauto.
  Qed.
End RRdm.

(** bjai: the unrestricted function returns six blocks, two restricted
    functions return the abab and (with the other sign) abba parts *)
Definition bj_goals (r r' u : sval) : list (stens * stens) :=
  let a := get_arr r in let b := s_swap p_tail (get_arr r') in
  combine (arrs_of 6 u) [s_minus a b; s_minus a b; a; s_neg b; s_neg b; a].
Definition bj_chk (cs : list (list cert)) : bool :=
  run_form FArr "rccsd_2rdm_bjai" (rR false) && run_form FArr "rccsd_2rdm_bjia" (rR false) &&
  run_form (FTup (map (fun _ => FArr) (seq 0 6))) "uccsd_2rdm_bjai" (ruR false) &&
  cls_list_eqb (s_sh (get_arr (run_s "rccsd_2rdm_bjai" (rR false)))) [cV; cO; cV; cO] &&
  cls_list_eqb (s_sh (get_arr (run_s "rccsd_2rdm_bjia" (rR false)))) [cV; cO; cO; cV] &&
  all_chk r_tb (bj_goals (run_s "rccsd_2rdm_bjai" (rR false)) (run_s "rccsd_2rdm_bjia" (rR false))
    (run_s "uccsd_2rdm_bjai" (ruR false))) cs.
Definition bj_cs := Eval vm_compute in
  all_find r_tb (bj_goals (run_s "rccsd_2rdm_bjai" (rR false)) (run_s "rccsd_2rdm_bjia" (rR false))
    (run_s "uccsd_2rdm_bjai" (ruR false))).
Lemma bj_ok : bj_chk bj_cs = true.
Proof. vm_compute. reflexivity. Qed.

Lemma bj_sound (K : cring) no nv (T1 T2 L1 L2 : tensor K) :
  shp T1 = [nv; no] -> shp T2 = [nv; nv; no; no] -> pair_sym T2 ->
  shp L1 = [no; nv] -> shp L2 = [no; no; nv; nv] -> pair_sym L2 ->
  exists r r' us,
    returns "rccsd_2rdm_bjai" [arr T1; arr T2; arr L1; arr L2] (arr r) /\
    returns "rccsd_2rdm_bjia" [arr T1; arr T2; arr L1; arr L2] (arr r') /\
    returns "uccsd_2rdm_bjai" (ruargs K T1 T2 L1 L2 c0 false) (tup (map arr us)) /\
    Forall2 teq us [tminus r (swap_ket r'); tminus r (swap_ket r'); r;
                    tneg (swap_ket r'); tneg (swap_ket r'); r].
Proof.
  intros H1 H2 P2 H3 H4 P4. pose proof bj_ok as H. unfold bj_chk in H. revert H.
  generalize bj_cs. intros cs H. repeat (apply andb_prop in H; destruct H as [H ?]).
  set (rh := rrho K no nv T1 T2 L1 L2 c0).
  pose proof (rargs_ok K no nv T1 T2 L1 L2 c0 H1 H2 H3 H4 false) as HA.
  pose proof (ruargs_ok K no nv T1 T2 L1 L2 c0 H1 H2 H3 H4 false) as HU.
  destruct (run_arr_sound K (so_dim no nv) rh _ _ _ H HA) as (r & R1 & A1).
  destruct (run_arr_sound K (so_dim no nv) rh _ _ _ H8 HA) as (r' & R2 & A2).
  destruct (run_arrs_sound K (so_dim no nv) rh (seq 0 6) _ _ _ H7 HU) as (us & R3 & Hl & A3).
  exists r, r', us. split; [exact R1|]. split; [exact R2|]. split; [exact R3|].
  rewrite seq_length in Hl, A3.
  assert (HG := all_sound K (so_dim no nv) rh r_tb (rrho_sym K no nv T1 T2 L1 L2 c0 H2 P2 H4 P4) _ _ H0).
  apply cls_list_eqb_eq in H5, H6. clear H0 H H7 H8 R1 R2 R3.
  unfold bj_goals in HG. revert A1 A2 A3 HG H5 H6.
  generalize (run_s "rccsd_2rdm_bjai" (rR false)) (run_s "rccsd_2rdm_bjia" (rR false))
    (run_s "uccsd_2rdm_bjai" (ruR false)). intros v v' u A1 A2 A3 HG E' E.
  assert (B2 : Rarr K (so_dim no nv) rh (s_swap p_tail (get_arr v')) (swap_ket r')).
  { apply swap_sound; auto. rewrite E'. reflexivity. }
  assert (B3 : Rarr K (so_dim no nv) rh (s_minus (get_arr v) (s_swap p_tail (get_arr v')))
    (tminus r (swap_ket r'))).
  { apply minus_sound; auto. unfold s_swap, s_trans. rewrite E', E. reflexivity. }
  pose proof (S_aneg K (so_dim no nv) rh _ _ B2) as B4.
  eapply (F2_chain (Rarr K (so_dim no nv) rh)).
  - eapply F_combine; [|exact HG|reflexivity]. intros a b X t w. apply X.
  - unfold arrs_of. rewrite <- Hl. apply F2_seq with (d := tzeros K []). intros k Hk. apply A3.
    rewrite <- Hl. exact Hk.
  - repeat (apply Forall2_cons; [assumption|]); apply Forall2_nil.
Qed.
