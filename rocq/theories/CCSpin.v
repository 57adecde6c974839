(** Unrestricted functions against spin-orbital functions. *)
From Coq Require Import List Bool Arith ZArith Lia Ring String.
From Verif Require Import Scalar Tensor PySyntax PySem PySim Sym SymSound Norm CCProg CCSpec Engine
  Tools SOCtx NpModel SpinModel SpinSpec SpinFacts SpinSplit UCtx SpinOut.
Import ListNotations.
Local Open Scope string_scope.

Notation suH := [sFa; sFb; sIa; sIb; sIab].
Notation suT := [XTup [sT1a; sT1b]; XTup [sT2aa; sT2ab; sT2bb]].
Notation suL := [XTup [sL1a; sL1b]; XTup [sL2aa; sL2ab; sL2bb]].

(** the two checks for a pair of functions that return amplitudes *)
Definition amp_chk (f g : string) (a b : list sval) (pt : pat) (c1 c2 : list (list cert)) : bool :=
  run_form (FTup [FArr; FArr]) f a && run_form f_amps g b &&
  outs_chk (get_arr (item 0 (run_s f a))) (fst (amps_of (run_s g b))) pat2 c1 &&
  outs_chk (get_arr (item 1 (run_s f a))) (snd (amps_of (run_s g b))) pt c2.
Definition amp_find1 (f g : string) a b :=
  outs_find (get_arr (item 0 (run_s f a))) (fst (amps_of (run_s g b))) pat2.
Definition amp_find2 (f g : string) a b pt :=
  outs_find (get_arr (item 1 (run_s f a))) (snd (amps_of (run_s g b))) pt.
(** classes of the two results *)
Definition amp_cls (f : string) a : list cls * list cls :=
  (s_sh (get_arr (item 0 (run_s f a))), s_sh (get_arr (item 1 (run_s f a)))).

Section Main.
  Variable K : cring.
  Local Open Scope K_scope.
  Add Ring Kr14 : (c_th K).
  Variables noa nva nob nvb : nat.
  Notation udim := (u_dim noa nva nob nvb).
  Notation sdim := (so_dim (noa + nob) (nva + nvb)).

  Lemma amp_sound f g a b pt c1 c2 rho_so rho_u vs ws :
    amp_chk f g a b pt c1 c2 = true ->
    sptab_ok K udim rho_so rho_u so_sp -> sym_ok K udim rho_u u_tb ->
    Forall2 (Rval K sdim rho_so) a vs -> Forall2 (Rval K udim rho_u) b ws ->
    exists S1 S2 ta tb aa ab bb,
      returns f vs (tup [arr S1; arr S2]) /\
      returns g ws (tup [tup [arr ta; arr tb]; tup [arr aa; arr ab; arr bb]]) /\
      Forall2 (Rarr K udim rho_u) (fst (amps_of (run_s g b))) [ta; tb] /\
      Forall2 (Rarr K udim rho_u) (snd (amps_of (run_s g b))) [aa; ab; bb] /\
      holds (map (da udim) (fst (amp_cls f a))) (map (db udim) (fst (amp_cls f a))) S1
        (pat_t [ta; tb] pat2) /\
      holds (map (da udim) (snd (amp_cls f a))) (map (db udim) (snd (amp_cls f a))) S2
        (pat_t [aa; ab; bb] pt).
  Proof.
    unfold amp_chk. intros H Hsp Htb Ha Hb. repeat (apply andb_prop in H; destruct H as [H ?]).
    destruct (run_pair_sound K sdim rho_so _ _ _ H Ha) as (S1 & S2 & R1 & A1 & A2).
    destruct (run_amps_sound K udim rho_u _ _ _ H2 Hb) as (ta & tb & aa & ab & bb & R2 & B1 & B2).
    exists S1, S2, ta, tb, aa, ab, bb. split; [exact R1|]. split; [exact R2|].
    split; [exact B1|]. split; [exact B2|]. split.
    - eapply out_sound; eauto. eapply Rarr_dim_ext; [|exact A1].
      intros c. symmetry. apply dso_so_dim.
    - eapply out_sound; eauto. eapply Rarr_dim_ext; [|exact A2].
      intros c. symmetry. apply dso_so_dim.
  Qed.

  Lemma spin_list_ext (b c : list bool -> option (tensor K)) n :
    Forall (fun ss => b ss = c ss) (spin_list n) ->
    forall ss, List.length ss = n -> b ss = c ss.
  Proof. intros H ss Hs. exact (spin_cases _ _ H ss Hs). Qed.
  Lemma pat2_spin2 (a b : tensor K) ss : List.length ss = 2%nat ->
    pat_t [a; b] pat2 ss = spin2 a b ss.
  Proof. apply (spin_list_ext _ _ 2). repeat constructor. Qed.
  Lemma pat_amp_spin4 (aa ab bb : tensor K) ss : List.length ss = 4%nat ->
    pat_t [aa; ab; bb] pat_amp ss = spin4_anti aa ab bb ss.
  Proof. apply (spin_list_ext _ _ 4). repeat constructor. Qed.

  Lemma zero_lams : u_lams_ok noa nva nob nvb (tzeros K [noa; nva]) (tzeros K [nob; nvb])
    (tzeros K [noa; noa; nva; nva]) (tzeros K [noa; nob; nva; nvb]) (tzeros K [nob; nob; nvb; nvb]).
  Proof. repeat split; try apply zeros_lead; apply zeros_tail. Qed.

  Lemma make_ham Fa Fb Ia Ib (Iab : two_e_full K) : u_ham_ok noa nva nob nvb Fa Fb Ia Ib Iab ->
    exists F I, spin_ham K noa nva nob nvb Fa Fb Ia Ib Iab F I /\
      one_e_ok (noa + nob) (nva + nvb) F /\ two_e_shape (noa + nob) (nva + nvb) I.
  Proof.
    intros (HFa & HFb & [HIa _] & [HIb _] & HJ).
    destruct (F_to_spin_holds K _ _ _ _ _ _ HFa HFb) as (F & EF & (X1 & _) & (X2 & _) & (X3 & _) & (X4 & _)).
    destruct (int_to_spin2_holds K _ _ _ _ _ _ _ HIa HIb HJ) as (I & EI & (Y1 & _) & (Y2 & _) &
      (Y3 & _) & (Y4 & _) & (Y5 & _) & (Y6 & _) & (Y7 & _) & (Y8 & _) & (Y9 & _)).
    exists F, I. split; [split; auto|]. split; repeat split; assumption.
  Qed.
  Lemma make_amps (T1a T1b T2aa T2ab T2bb : tensor K) :
    u_amps_ok noa nva nob nvb T1a T1b T2aa T2ab T2bb ->
    exists T1 T2, spin_amps K noa nva nob nvb T1a T1b T2aa T2ab T2bb T1 T2 /\
      shp T1 = [nva + nvb; noa + nob]%nat /\
      shp T2 = [nva + nvb; nva + nvb; noa + nob; noa + nob]%nat.
  Proof.
    intros (H1 & H2 & (H3 & _) & H4 & (H5 & _)).
    destruct (T1_to_spin_holds K _ _ _ _ _ _ H1 H2) as (T1 & E1 & (X1 & _)).
    destruct (T2_to_spin_holds K _ _ _ _ _ _ _ H3 H4 H5) as (T2 & E2 & (X2 & _)).
    exists T1, T2. split; [split; auto|]. auto.
  Qed.
  Lemma make_lams (T1a T1b T2aa T2ab T2bb : tensor K) :
    u_lams_ok noa nva nob nvb T1a T1b T2aa T2ab T2bb ->
    exists T1 T2, spin_lams K noa nva nob nvb T1a T1b T2aa T2ab T2bb T1 T2 /\
      shp T1 = [noa + nob; nva + nvb]%nat /\
      shp T2 = [noa + nob; noa + nob; nva + nvb; nva + nvb]%nat.
  Proof.
    intros (H1 & H2 & (H3 & _) & H4 & (H5 & _)).
    destruct (T1_to_spin_holds K _ _ _ _ _ _ H1 H2) as (T1 & E1 & (X1 & _)).
    destruct (T2_to_spin_holds K _ _ _ _ _ _ _ H3 H4 H5) as (T2 & E2 & (X2 & _)).
    exists T1, T2. split; [split; auto|]. auto.
  Qed.

  (** results described block by block are what T1_to_spin and T2_to_spin build *)
  Lemma built1 (S ta tb : tensor K) oa' va' ob' vb' :
    shp ta = [va'; oa'] -> shp tb = [vb'; ob'] ->
    holds [va'; oa'] [vb'; ob'] S (pat_t [ta; tb] pat2) ->
    exists S', T1_to_spin ta tb oa' va' ob' vb' = Some S' /\ teq S S'.
  Proof.
    intros H1 H2 H. destruct (T1_to_spin_holds K _ _ _ _ _ _ H1 H2) as (S' & E & H').
    exists S'. split; auto. eapply holds_teq; [exact H|exact H'|].
    intros ss idx Hs _. rewrite pat2_spin2 by exact Hs. reflexivity.
  Qed.
  Lemma built2 (S aa ab bb : tensor K) oa' va' ob' vb' :
    shp aa = [va'; va'; oa'; oa'] -> shp ab = [va'; vb'; oa'; ob'] -> shp bb = [vb'; vb'; ob'; ob'] ->
    holds [va'; va'; oa'; oa'] [vb'; vb'; ob'; ob'] S (pat_t [aa; ab; bb] pat_amp) ->
    exists S', T2_to_spin aa ab bb oa' va' ob' vb' = Some S' /\ teq S S'.
  Proof.
    intros H1 H2 H3 H. destruct (T2_to_spin_holds K _ _ _ _ _ _ _ H1 H2 H3) as (S' & E & H').
    exists S'. split; auto. eapply holds_teq; [exact H|exact H'|].
    intros ss idx Hs _. rewrite pat_amp_spin4 by exact Hs. reflexivity.
  Qed.

  Lemma cls5 (x : sval) c1 c2 c3 c4 c5 :
    (map s_sh (fst (amps_of x)), map s_sh (snd (amps_of x))) = ([c1; c2], [c3; c4; c5]) ->
    s_sh (get_arr (item 0 (item 0 x))) = c1 /\ s_sh (get_arr (item 1 (item 0 x))) = c2 /\
    s_sh (get_arr (item 0 (item 1 x))) = c3 /\ s_sh (get_arr (item 1 (item 1 x))) = c4 /\
    s_sh (get_arr (item 2 (item 1 x))) = c5.
  Proof. intros H. injection H. auto. Qed.

  Lemma F2_2 {A B} (P : A -> B -> Prop) a b x y : Forall2 P [a; b] [x; y] -> P a x /\ P b y.
  Proof. intros H. inversion H; subst. inversion H5; subst. auto. Qed.
  Lemma F2_3 {A B} (P : A -> B -> Prop) a b c x y z : Forall2 P [a; b; c] [x; y; z] ->
    P a x /\ P b y /\ P c z.
  Proof. intros H. inversion H; subst. inversion H5; subst. inversion H7; subst. auto. Qed.
End Main.

Lemma Rarr_shp (K : cring) dim (rho : positive -> list nat -> K) a t sh :
  Rarr K dim rho a t -> s_sh a = sh -> shp t = map dim sh.
Proof. intros [H _] <-. exact H. Qed.

Ltac u_get := cbn [app]; repeat match goal with
  | |- Forall2 _ [] [] => constructor
  | |- Forall2 _ (_ :: _) (_ :: _) => constructor
  | |- Rval _ _ _ (XTup _) _ => apply Rx_tup
  end; try assumption; try (apply uR_fac).

(** *** C08 *)
Definition aT : list sval := [sF; sI; sT1; sT2].
Definition c08_c1 := Eval vm_compute in amp_find1 "ccsd_stanton" "uccsd_stanton" aT (suH ++ suT).
Definition c08_c2 := Eval vm_compute in
  amp_find2 "ccsd_stanton" "uccsd_stanton" aT (suH ++ suT) pat_amp.
Lemma c08_chk : amp_chk "ccsd_stanton" "uccsd_stanton" aT (suH ++ suT) pat_amp c08_c1 c08_c2 = true.
Proof. vm_compute. reflexivity. Qed.
Lemma c08_cls : amp_cls "ccsd_stanton" aT = ([cV; cO], [cV; cV; cO; cO]).
Proof. vm_compute. reflexivity. Qed.
Lemma c08_ucls : (map s_sh (fst (amps_of (run_s "uccsd_stanton" (suH ++ suT)))),
    map s_sh (snd (amps_of (run_s "uccsd_stanton" (suH ++ suT))))) =
  ([[va; oa]; [vb; ob]], [[va; va; oa; oa]; [va; vb; oa; ob]; [vb; vb; ob; ob]]).
Proof. vm_compute. reflexivity. Qed.

Lemma uccsd_spin_shapes (K : cring) noa nva nob nvb Fa Fb Ia Ib (Iab : two_e_full K)
    T1a T1b T2aa T2ab T2bb :
  u_ham_ok noa nva nob nvb Fa Fb Ia Ib Iab ->
  u_amps_ok noa nva nob nvb T1a T1b T2aa T2ab T2bb ->
  exists F I T1 T2 S1 S2 ta tb aa ab bb S1' S2',
    F_to_spin Fa Fb noa nva nob nvb = Some F /\
    int_to_spin2 Ia Ib Iab noa nva nob nvb = Some I /\
    T1_to_spin T1a T1b noa nva nob nvb = Some T1 /\
    T2_to_spin T2aa T2ab T2bb noa nva nob nvb = Some T2 /\
    returns "ccsd_stanton" [py_one_e F; py_two_e I; arr T1; arr T2] (tup [arr S1; arr S2]) /\
    returns "uccsd_stanton" [py_one_e Fa; py_one_e Fb; py_two_e Ia; py_two_e Ib; py_two_e_full Iab;
        tup [arr T1a; arr T1b]; tup [arr T2aa; arr T2ab; arr T2bb]]
      (tup [tup [arr ta; arr tb]; tup [arr aa; arr ab; arr bb]]) /\
    T1_to_spin ta tb noa nva nob nvb = Some S1' /\ teq S1 S1' /\
    T2_to_spin aa ab bb noa nva nob nvb = Some S2' /\ teq S2 S2' /\
    shp ta = [nva; noa] /\ shp tb = [nvb; nob] /\ shp aa = [nva; nva; noa; noa] /\
    shp ab = [nva; nvb; noa; nob] /\ shp bb = [nvb; nvb; nob; nob].
Proof.
  intros HH HT. pose proof (zero_lams K noa nva nob nvb) as HL.
  destruct (make_ham K _ _ _ _ _ _ _ _ _ HH) as (F & I & HFI & HF & HI).
  destruct (make_amps K _ _ _ _ _ _ _ _ _ HT) as (T1 & T2 & HTT & H1 & H2).
  destruct (make_lams K _ _ _ _ _ _ _ _ _ HL) as (L1 & L2 & HLL & _).
  pose proof (so_sp_ok K _ _ _ _ _ _ _ _ _ _ _ _ _ _ _ _ _ _ _ c0 _ _ _ _ _ _
    HH HT HL HFI HTT HLL) as Hsp.
  pose proof (u_sym K _ _ _ _ _ _ _ _ _ _ _ _ _ _ _ _ _ _ _ c0 HH HT HL) as Htb.
  edestruct (amp_sound K noa nva nob nvb _ _ _ _ _ _ _ _ _
     [py_one_e F; py_two_e I; arr T1; arr T2]
     [py_one_e Fa; py_one_e Fb; py_two_e Ia; py_two_e Ib; py_two_e_full Iab;
        tup [arr T1a; arr T1b]; tup [arr T2aa; arr T2ab; arr T2bb]] c08_chk Hsp Htb)
    as (S1 & S2 & ta & tb & aa & ab & bb & R1 & R2 & B1 & B2 & G1 & G2).
  { unfold aT. so_args. }
  { destruct (uR_ham K _ _ _ _ _ _ _ _ _ T1a T1b T2aa T2ab T2bb (tzeros K [noa; nva])
      (tzeros K [nob; nvb]) (tzeros K [noa; noa; nva; nva]) (tzeros K [noa; nob; nva; nvb])
      (tzeros K [nob; nob; nvb; nvb]) c0 HH) as (? & ? & ? & ? & ?).
    destruct (uR_amps K _ _ _ _ Fa Fb Ia Ib Iab _ _ _ _ _ (tzeros K [noa; nva])
      (tzeros K [nob; nvb]) (tzeros K [noa; noa; nva; nva]) (tzeros K [noa; nob; nva; nvb])
      (tzeros K [nob; nob; nvb; nvb]) c0 HT) as (? & ? & ? & ? & ?).
    u_get. }
  rewrite c08_cls in G1, G2. cbn [fst snd] in G1, G2.
  destruct (cls5 _ _ _ _ _ _ c08_ucls) as (C1 & C2 & C3 & C4 & C5).
  apply F2_2 in B1. destruct B1 as (B1 & B1'). apply F2_3 in B2. destruct B2 as (B2 & B2' & B2'').
  destruct (built1 K S1 ta tb noa nva nob nvb (Rarr_shp _ _ _ _ _ _ B1 C1)
    (Rarr_shp _ _ _ _ _ _ B1' C2) G1) as (S1' & E1 & Q1).
  destruct (built2 K S2 aa ab bb noa nva nob nvb (Rarr_shp _ _ _ _ _ _ B2 C3)
    (Rarr_shp _ _ _ _ _ _ B2' C4) (Rarr_shp _ _ _ _ _ _ B2'' C5) G2) as (S2' & E2 & Q2).
  destruct HFI, HTT.
  exists F, I, T1, T2, S1, S2, ta, tb, aa, ab, bb, S1', S2'.
  pose proof (Rarr_shp _ _ _ _ _ _ B1 C1). pose proof (Rarr_shp _ _ _ _ _ _ B1' C2).
  pose proof (Rarr_shp _ _ _ _ _ _ B2 C3). pose proof (Rarr_shp _ _ _ _ _ _ B2' C4).
  pose proof (Rarr_shp _ _ _ _ _ _ B2'' C5). auto 20.
Qed.

Lemma uccsd_is_spin_orbital (K : cring) noa nva nob nvb Fa Fb Ia Ib (Iab : two_e_full K)
    T1a T1b T2aa T2ab T2bb :
  u_ham_ok noa nva nob nvb Fa Fb Ia Ib Iab ->
  u_amps_ok noa nva nob nvb T1a T1b T2aa T2ab T2bb ->
  exists F I T1 T2 S1 S2 ta tb aa ab bb S1' S2',
    F_to_spin Fa Fb noa nva nob nvb = Some F /\
    int_to_spin2 Ia Ib Iab noa nva nob nvb = Some I /\
    T1_to_spin T1a T1b noa nva nob nvb = Some T1 /\
    T2_to_spin T2aa T2ab T2bb noa nva nob nvb = Some T2 /\
    returns "ccsd_stanton" [py_one_e F; py_two_e I; arr T1; arr T2] (tup [arr S1; arr S2]) /\
    returns "uccsd_stanton" [py_one_e Fa; py_one_e Fb; py_two_e Ia; py_two_e Ib; py_two_e_full Iab;
        tup [arr T1a; arr T1b]; tup [arr T2aa; arr T2ab; arr T2bb]]
      (tup [tup [arr ta; arr tb]; tup [arr aa; arr ab; arr bb]]) /\
    T1_to_spin ta tb noa nva nob nvb = Some S1' /\ teq S1 S1' /\
    T2_to_spin aa ab bb noa nva nob nvb = Some S2' /\ teq S2 S2'.
Proof.
  intros HH HT. destruct (uccsd_spin_shapes K _ _ _ _ _ _ _ _ _ _ _ _ _ _ HH HT)
    as (F & I & T1 & T2 & S1 & S2 & ta & tb & aa & ab & bb & S1' & S2' & ? & ? & ? & ? & ? & ? & ? & ? & ? & ? & _).
  exists F, I, T1, T2, S1, S2, ta, tb, aa, ab, bb, S1', S2'. auto 15.
Qed.

(** *** C10 *)
Definition aE : list sval := [sT1; sT2; inp 2 [cO; cV]; inp 10 [cO; cO; cV; cV]].
Definition uE : list sval := (suT ++ [inp 32 [oa; va]; inp 36 [ob; vb]; inp 46 [oa; oa; va; va];
  inp 56 [ob; ob; vb; vb]; inp 71 [oa; ob; va; vb]])%list.
Definition en_split (f : string) : list mono :=
  match split_ms so_sp [] [] (get_num (run_s f aE)) with Some m => m | None => [m_one] end.
Definition en_chk (f g : string) (c : list cert) : bool :=
  run_form FNum f aE && run_form FNum g uE &&
  match split_ms so_sp [] [] (get_num (run_s f aE)) with
  | Some m => neq_chk u_tb m (get_num (run_s g uE)) c
  | None => false
  end.
Definition en_find (f g : string) := find_neq u_tb (en_split f) (get_num (run_s g uE)).
Definition c10_c1 := Eval vm_compute in en_find "cc_energy" "ucc_energy".
Definition c10_c2 := Eval vm_compute in en_find "mp2_energy" "ump2_energy".
Lemma c10_chk1 : en_chk "cc_energy" "ucc_energy" c10_c1 = true.
Proof. vm_compute. reflexivity. Qed.
Lemma c10_chk2 : en_chk "mp2_energy" "ump2_energy" c10_c2 = true.
Proof. vm_compute. reflexivity. Qed.

Lemma en_sound (K : cring) noa nva nob nvb Fa Fb Ia Ib (Iab : two_e_full K) T1a T1b T2aa T2ab T2bb
    F I T1 T2 f g c : en_chk f g c = true ->
  u_ham_ok noa nva nob nvb Fa Fb Ia Ib Iab ->
  u_amps_ok noa nva nob nvb T1a T1b T2aa T2ab T2bb ->
  F_to_spin Fa Fb noa nva nob nvb = Some F ->
  int_to_spin2 Ia Ib Iab noa nva nob nvb = Some I ->
  T1_to_spin T1a T1b noa nva nob nvb = Some T1 ->
  T2_to_spin T2aa T2ab T2bb noa nva nob nvb = Some T2 ->
  exists E,
    returns f [arr T1; arr T2; arr (ov F); arr (oovv I)] (numv E) /\
    returns g [tup [arr T1a; arr T1b]; tup [arr T2aa; arr T2ab; arr T2bb];
      arr (ov Fa); arr (ov Fb); arr (oovv Ia); arr (oovv Ib); arr (foovv Iab)] (numv E).
Proof.
  unfold en_chk. intros H HH HT EF EI ET1 ET2. repeat (apply andb_prop in H; destruct H as [H ?]).
  pose proof (zero_lams K noa nva nob nvb) as HL.
  destruct (make_ham K _ _ _ _ _ _ _ _ _ HH) as (F' & I' & HFI & HF & HI).
  assert (F' = F) by (destruct HFI; congruence). assert (I' = I) by (destruct HFI; congruence).
  destruct (make_amps K _ _ _ _ _ _ _ _ _ HT) as (T1' & T2' & HTT & Hs1 & Hs2).
  assert (T1' = T1) by (destruct HTT; congruence). assert (T2' = T2) by (destruct HTT; congruence).
  subst F' I' T1' T2'.
  destruct (make_lams K _ _ _ _ _ _ _ _ _ HL) as (L1 & L2 & HLL & _).
  pose proof (so_sp_ok K _ _ _ _ _ _ _ _ _ _ _ _ _ _ _ _ _ _ _ c0 _ _ _ _ _ _
    HH HT HL HFI HTT HLL) as Hsp.
  pose proof (u_sym K _ _ _ _ _ _ _ _ _ _ _ _ _ _ _ _ _ _ _ c0 HH HT HL) as Htb.
  destruct (run_num_sound K (so_dim (noa + nob) (nva + nvb))
    (so_rho K F I T1 T2 L1 L2 c0 (noex K)) f aE
    [arr T1; arr T2; arr (ov F); arr (oovv I)] H) as (x & R1 & A1).
  { unfold aE. so_args. }
  destruct (run_num_sound K (u_dim noa nva nob nvb) (u_rho K Fa Fb Ia Ib Iab T1a T1b T2aa T2ab T2bb
    (tzeros K [noa; nva]) (tzeros K [nob; nvb]) (tzeros K [noa; noa; nva; nva])
    (tzeros K [noa; nob; nva; nvb]) (tzeros K [nob; nob; nvb; nvb]) c0) g uE
    [tup [arr T1a; arr T1b]; tup [arr T2aa; arr T2ab; arr T2bb];
      arr (ov Fa); arr (ov Fb); arr (oovv Ia); arr (oovv Ib); arr (foovv Iab)] H1) as (y & R2 & A2).
  { unfold uE. destruct (uR_blocks K _ _ _ _ _ _ _ _ _ T1a T1b T2aa T2ab T2bb (tzeros K [noa; nva])
      (tzeros K [nob; nvb]) (tzeros K [noa; noa; nva; nva]) (tzeros K [noa; nob; nva; nvb])
      (tzeros K [nob; nob; nvb; nvb]) c0 HH) as (? & ? & ? & ? & ?).
    destruct (uR_amps K _ _ _ _ Fa Fb Ia Ib Iab _ _ _ _ _ (tzeros K [noa; nva])
      (tzeros K [nob; nvb]) (tzeros K [noa; noa; nva; nva]) (tzeros K [noa; nob; nva; nvb])
      (tzeros K [nob; nob; nvb; nvb]) c0 HT) as (? & ? & ? & ? & ?).
    u_get. }
  destruct (split_ms so_sp [] [] (get_num (run_s f aE))) as [m|] eqn:Es; [|discriminate].
  apply (Rnum_dim_ext K _ (dso (u_dim noa nva nob nvb))) in A1;
    [|intros cc; symmetry; apply dso_so_dim].
  pose proof (split_num_sound K _ _ _ so_sp Hsp _ _ _ Es A1) as A1'.
  pose proof (neq_sound K _ _ _ _ _ _ _ _ H0 Htb A1' A2) as ->.
  exists y. auto.
Qed.

(** *** C16 *)
Definition aL : list sval := [sF; sI; sL1; sL2; sT1; sT2].
Definition c16_c1 := Eval vm_compute in
  amp_find1 "ccsd_lambda_opt" "uccsd_lambda_opt" aL (suH ++ suL ++ suT).
Definition c16_c2 := Eval vm_compute in
  amp_find2 "ccsd_lambda_opt" "uccsd_lambda_opt" aL (suH ++ suL ++ suT) pat_amp.
Lemma c16_chk : amp_chk "ccsd_lambda_opt" "uccsd_lambda_opt" aL (suH ++ suL ++ suT) pat_amp
  c16_c1 c16_c2 = true.
Proof. vm_compute. reflexivity. Qed.
Lemma c16_cls : amp_cls "ccsd_lambda_opt" aL = ([cO; cV], [cO; cO; cV; cV]).
Proof. vm_compute. reflexivity. Qed.
Lemma c16_ucls : (map s_sh (fst (amps_of (run_s "uccsd_lambda_opt" (suH ++ suL ++ suT)))),
    map s_sh (snd (amps_of (run_s "uccsd_lambda_opt" (suH ++ suL ++ suT))))) =
  ([[oa; va]; [ob; vb]], [[oa; oa; va; va]; [oa; ob; va; vb]; [ob; ob; vb; vb]]).
Proof. vm_compute. reflexivity. Qed.

Lemma ulambda_spin_shapes (K : cring) noa nva nob nvb Fa Fb Ia Ib (Iab : two_e_full K)
    L1a L1b L2aa L2ab L2bb T1a T1b T2aa T2ab T2bb :
  u_ham_ok noa nva nob nvb Fa Fb Ia Ib Iab ->
  u_lams_ok noa nva nob nvb L1a L1b L2aa L2ab L2bb ->
  u_amps_ok noa nva nob nvb T1a T1b T2aa T2ab T2bb ->
  exists F I L1 L2 T1 T2 S1 S2 la lb laa lab lbb S1' S2',
    F_to_spin Fa Fb noa nva nob nvb = Some F /\
    int_to_spin2 Ia Ib Iab noa nva nob nvb = Some I /\
    T1_to_spin L1a L1b nva noa nvb nob = Some L1 /\
    T2_to_spin L2aa L2ab L2bb nva noa nvb nob = Some L2 /\
    T1_to_spin T1a T1b noa nva nob nvb = Some T1 /\
    T2_to_spin T2aa T2ab T2bb noa nva nob nvb = Some T2 /\
    returns "ccsd_lambda_opt" [py_one_e F; py_two_e I; arr L1; arr L2; arr T1; arr T2]
      (tup [arr S1; arr S2]) /\
    returns "uccsd_lambda_opt" [py_one_e Fa; py_one_e Fb; py_two_e Ia; py_two_e Ib;
        py_two_e_full Iab; tup [arr L1a; arr L1b]; tup [arr L2aa; arr L2ab; arr L2bb];
        tup [arr T1a; arr T1b]; tup [arr T2aa; arr T2ab; arr T2bb]]
      (tup [tup [arr la; arr lb]; tup [arr laa; arr lab; arr lbb]]) /\
    T1_to_spin la lb nva noa nvb nob = Some S1' /\ teq S1 S1' /\
    T2_to_spin laa lab lbb nva noa nvb nob = Some S2' /\ teq S2 S2' /\
    shp la = [noa; nva] /\ shp lb = [nob; nvb] /\ shp laa = [noa; noa; nva; nva] /\
    shp lab = [noa; nob; nva; nvb] /\ shp lbb = [nob; nob; nvb; nvb].
Proof.
  intros HH HL HT.
  destruct (make_ham K _ _ _ _ _ _ _ _ _ HH) as (F & I & HFI & HF & HI).
  destruct (make_amps K _ _ _ _ _ _ _ _ _ HT) as (T1 & T2 & HTT & H1 & H2).
  destruct (make_lams K _ _ _ _ _ _ _ _ _ HL) as (L1 & L2 & HLL & H3 & H4).
  pose proof (so_sp_ok K _ _ _ _ _ _ _ _ _ _ _ _ _ _ _ _ _ _ _ c0 _ _ _ _ _ _
    HH HT HL HFI HTT HLL) as Hsp.
  pose proof (u_sym K _ _ _ _ _ _ _ _ _ _ _ _ _ _ _ _ _ _ _ c0 HH HT HL) as Htb.
  edestruct (amp_sound K noa nva nob nvb _ _ _ _ _ _ _ _ _
     [py_one_e F; py_two_e I; arr L1; arr L2; arr T1; arr T2]
     [py_one_e Fa; py_one_e Fb; py_two_e Ia; py_two_e Ib;
        py_two_e_full Iab; tup [arr L1a; arr L1b]; tup [arr L2aa; arr L2ab; arr L2bb];
        tup [arr T1a; arr T1b]; tup [arr T2aa; arr T2ab; arr T2bb]] c16_chk Hsp Htb)
    as (S1 & S2 & ta & tb & aa & ab & bb & R1 & R2 & B1 & B2 & G1 & G2).
  { unfold aL. so_args. }
  { destruct (uR_ham K _ _ _ _ _ _ _ _ _ T1a T1b T2aa T2ab T2bb L1a L1b L2aa L2ab L2bb c0 HH)
      as (? & ? & ? & ? & ?).
    destruct (uR_amps K _ _ _ _ Fa Fb Ia Ib Iab _ _ _ _ _ L1a L1b L2aa L2ab L2bb c0 HT)
      as (? & ? & ? & ? & ?).
    destruct (uR_lams K _ _ _ _ Fa Fb Ia Ib Iab T1a T1b T2aa T2ab T2bb _ _ _ _ _ c0 HL)
      as (? & ? & ? & ? & ?).
    u_get. }
  rewrite c16_cls in G1, G2. cbn [fst snd] in G1, G2.
  destruct (cls5 _ _ _ _ _ _ c16_ucls) as (C1 & C2 & C3 & C4 & C5).
  apply F2_2 in B1. destruct B1 as (B1 & B1'). apply F2_3 in B2. destruct B2 as (B2 & B2' & B2'').
  destruct (built1 K S1 ta tb nva noa nvb nob (Rarr_shp _ _ _ _ _ _ B1 C1)
    (Rarr_shp _ _ _ _ _ _ B1' C2) G1) as (S1' & E1 & Q1).
  destruct (built2 K S2 aa ab bb nva noa nvb nob (Rarr_shp _ _ _ _ _ _ B2 C3)
    (Rarr_shp _ _ _ _ _ _ B2' C4) (Rarr_shp _ _ _ _ _ _ B2'' C5) G2) as (S2' & E2 & Q2).
  destruct HFI, HTT, HLL.
  exists F, I, L1, L2, T1, T2, S1, S2, ta, tb, aa, ab, bb, S1', S2'.
  pose proof (Rarr_shp _ _ _ _ _ _ B1 C1). pose proof (Rarr_shp _ _ _ _ _ _ B1' C2).
  pose proof (Rarr_shp _ _ _ _ _ _ B2 C3). pose proof (Rarr_shp _ _ _ _ _ _ B2' C4).
  pose proof (Rarr_shp _ _ _ _ _ _ B2'' C5). auto 20.
Qed.

Lemma ulambda_is_spin_orbital (K : cring) noa nva nob nvb Fa Fb Ia Ib (Iab : two_e_full K)
    L1a L1b L2aa L2ab L2bb T1a T1b T2aa T2ab T2bb :
  u_ham_ok noa nva nob nvb Fa Fb Ia Ib Iab ->
  u_lams_ok noa nva nob nvb L1a L1b L2aa L2ab L2bb ->
  u_amps_ok noa nva nob nvb T1a T1b T2aa T2ab T2bb ->
  exists F I L1 L2 T1 T2 S1 S2 la lb laa lab lbb S1' S2',
    F_to_spin Fa Fb noa nva nob nvb = Some F /\
    int_to_spin2 Ia Ib Iab noa nva nob nvb = Some I /\
    T1_to_spin L1a L1b nva noa nvb nob = Some L1 /\
    T2_to_spin L2aa L2ab L2bb nva noa nvb nob = Some L2 /\
    T1_to_spin T1a T1b noa nva nob nvb = Some T1 /\
    T2_to_spin T2aa T2ab T2bb noa nva nob nvb = Some T2 /\
    returns "ccsd_lambda_opt" [py_one_e F; py_two_e I; arr L1; arr L2; arr T1; arr T2]
      (tup [arr S1; arr S2]) /\
    returns "uccsd_lambda_opt" [py_one_e Fa; py_one_e Fb; py_two_e Ia; py_two_e Ib;
        py_two_e_full Iab; tup [arr L1a; arr L1b]; tup [arr L2aa; arr L2ab; arr L2bb];
        tup [arr T1a; arr T1b]; tup [arr T2aa; arr T2ab; arr T2bb]]
      (tup [tup [arr la; arr lb]; tup [arr laa; arr lab; arr lbb]]) /\
    T1_to_spin la lb nva noa nvb nob = Some S1' /\ teq S1 S1' /\
    T2_to_spin laa lab lbb nva noa nvb nob = Some S2' /\ teq S2 S2'.
Proof.
  intros HH HL HT. destruct (ulambda_spin_shapes K _ _ _ _ _ _ _ _ _ _ _ _ _ _ _ _ _ _ _ HH HL HT)
    as (F & I & L1 & L2 & T1 & T2 & S1 & S2 & la & lb & laa & lab & lbb & S1' & S2' & ? & ? & ? & ? & ? & ? & ? & ? & ? & ? & ? & ? & _).
  exists F, I, L1, L2, T1, T2, S1, S2, la, lb, laa, lab, lbb, S1', S2'. auto 15.
Qed.

(** *** C21 *)
Definition aR (fac : bool) : list sval :=
  ([sT1; sT2; sL1; sL2] ++ (if fac then [sFac] else []))%list.
Definition uR (fac : bool) : list sval :=
  ([sT1a; sT1b; sT2aa; sT2ab; sT2bb; sL1a; sL1b; sL2aa; sL2ab; sL2bb] ++
   (if fac then [suFac] else []))%list.
Definition arrs_of (n : nat) (v : sval) : list stens :=
  map (fun k => get_arr (item k v)) (seq 0 n).
Definition rdm_chk (f g : string) (fac : bool) (n : nat) (pt : pat) (cs : list (list cert)) : bool :=
  run_form FArr f (aR fac) && run_form (FTup (map (fun _ => FArr) (seq 0 n))) g (uR fac) &&
  outs_chk (get_arr (run_s f (aR fac))) (arrs_of n (run_s g (uR fac))) pt cs.
Definition rdm_find (f g : string) (fac : bool) (n : nat) (pt : pat) :=
  outs_find (get_arr (run_s f (aR fac))) (arrs_of n (run_s g (uR fac))) pt.
(** functions, whether the factor is passed, number of blocks, pattern *)
Definition rdm_list : list (string * string * bool * nat * pat) :=
  [("ccsd_1rdm_ba", "uccsd_1rdm_ba", false, 2, pat2);
   ("ccsd_1rdm_ji", "uccsd_1rdm_ji", false, 2, pat2);
   ("ccsd_1rdm_ai", "uccsd_1rdm_ai", false, 2, pat2);
   ("ccsd_1rdm_ai", "uccsd_1rdm_ai", true, 2, pat2);
   ("ccsd_2rdm_ciab", "uccsd_2rdm_ciab", false, 4, pat4k);
   ("ccsd_2rdm_jkai", "uccsd_2rdm_jkai", false, 4, pat4b);
   ("ccsd_2rdm_cdab", "uccsd_2rdm_cdab", false, 3, pat3);
   ("ccsd_2rdm_bjai", "uccsd_2rdm_bjai", false, 6, pat6);
   ("ccsd_2rdm_klij", "uccsd_2rdm_klij", false, 3, pat3);
   ("ccsd_2rdm_bcai", "uccsd_2rdm_bcai", false, 4, pat4b);
   ("ccsd_2rdm_kaij", "uccsd_2rdm_kaij", false, 4, pat4k);
   ("ccsd_2rdm_abij", "uccsd_2rdm_abij", false, 3, pat3);
   ("ccsd_2rdm_abij", "uccsd_2rdm_abij", true, 3, pat3)].
Definition rdm_certs := Eval vm_compute in
  map (fun e => let '(f, g, fac, n, pt) := e in rdm_find f g fac n pt) rdm_list.
Definition rdm_cls_list := Eval vm_compute in
  map (fun e => let '(f, g, fac, n, pt) := e in s_sh (get_arr (run_s f (aR fac)))) rdm_list.
Fixpoint rdm_all (l : list (string * string * bool * nat * pat)) (cs : list (list (list cert)))
  (shs : list (list cls)) : bool :=
  match l, cs, shs with
  | [], [], [] => true
  | (f, g, fac, n, pt) :: l', c :: cs', sh :: shs' =>
      rdm_chk f g fac n pt c && cls_list_eqb (s_sh (get_arr (run_s f (aR fac)))) sh &&
      rdm_all l' cs' shs'
  | _, _, _ => false
  end.
Lemma rdm_all_ok : rdm_all rdm_list rdm_certs rdm_cls_list = true.
Proof. vm_compute. reflexivity. Qed.
Lemma rdm_all_nth l : forall cs shs, rdm_all l cs shs = true ->
  forall k f g fac n pt c sh, nth_error l k = Some (f, g, fac, n, pt) ->
    nth_error cs k = Some c -> nth_error shs k = Some sh ->
    rdm_chk f g fac n pt c = true /\ s_sh (get_arr (run_s f (aR fac))) = sh.
Proof.
  induction l as [|[[[[f g] fac] n] pt] l IH]; intros [|c cs] [|sh shs]; cbn [rdm_all];
    try discriminate; intros H [|k]; cbn [nth_error]; try discriminate.
  - intros * [= <- <- <- <- <-] [= <-] [= <-]. apply andb_prop in H. destruct H as [H _].
    apply andb_prop in H. destruct H as [H1 H2]. split; auto. apply cls_list_eqb_eq. auto.
  - apply andb_prop in H. destruct H as [_ H]. eapply IH; eauto.
Qed.

Section Rdm.
  Variable K : cring.
  Variables noa nva nob nvb : nat.
  Variables T1a T1b T2aa T2ab T2bb L1a L1b L2aa L2ab L2bb T1 T2 L1 L2 : tensor K.
  Variable tfac : K.
  Hypothesis HT : u_amps_ok noa nva nob nvb T1a T1b T2aa T2ab T2bb.
  Hypothesis HL : u_lams_ok noa nva nob nvb L1a L1b L2aa L2ab L2bb.
  Hypothesis HTT : spin_amps K noa nva nob nvb T1a T1b T2aa T2ab T2bb T1 T2.
  Hypothesis HLL : spin_lams K noa nva nob nvb L1a L1b L2aa L2ab L2bb L1 L2.
  Notation udim := (u_dim noa nva nob nvb).
  Notation sdim := (so_dim (noa + nob) (nva + nvb)).

  Definition zeroJ : two_e_full K :=
    TwoEF K (tzeros K [nva; nvb; nva; nvb]) (tzeros K [nva; nvb; nva; nob])
      (tzeros K [nva; nvb; noa; nvb]) (tzeros K [nva; nob; nva; nvb])
      (tzeros K [noa; nvb; nva; nvb]) (tzeros K [nva; nvb; noa; nob])
      (tzeros K [nva; nob; nva; nob]) (tzeros K [nva; nob; noa; nvb])
      (tzeros K [noa; nvb; nva; nob]) (tzeros K [noa; nvb; noa; nvb])
      (tzeros K [noa; nob; nva; nvb]) (tzeros K [noa; nob; noa; nvb])
      (tzeros K [noa; nob; nva; nob]) (tzeros K [noa; nvb; noa; nob])
      (tzeros K [nva; nob; noa; nob]) (tzeros K [noa; nob; noa; nob]).
  Lemma zero_ham : u_ham_ok noa nva nob nvb (zeroF K noa nva) (zeroF K nob nvb)
    (zeroI K noa nva) (zeroI K nob nvb) zeroJ.
  Proof.
    split; [apply zeroF_ok|]. split; [apply zeroF_ok|]. split; [apply zeroI_ok|].
    split; [apply zeroI_ok|]. repeat split.
  Qed.

  Lemma F2_seq {A B} (P : A -> B -> Prop) (f : nat -> A) (l : list B) d :
    (forall k, (k < List.length l)%nat -> P (f k) (nth k l d)) ->
    Forall2 P (map f (seq 0 (List.length l))) l.
  Proof.
    revert f. induction l as [|x l IH]; intros f H; [constructor|].
    cbn [List.length seq map]. constructor; [apply (H 0); simpl; lia|].
    rewrite <- seq_shift, map_map. apply IH. intros k Hk. apply (H (S k)). simpl. lia.
  Qed.

  Lemma rdm_sound f g fac n pt cs : rdm_chk f g fac n pt cs = true ->
    exists S us,
      returns f ([arr T1; arr T2; arr L1; arr L2] ++ (if fac then [numv tfac] else []))%list (arr S) /\
      returns g ([arr T1a; arr T1b; arr T2aa; arr T2ab; arr T2bb; arr L1a; arr L1b; arr L2aa;
        arr L2ab; arr L2bb] ++ (if fac then [numv tfac] else []))%list (tup (map arr us)) /\
      List.length us = n /\
      holds (map (da udim) (s_sh (get_arr (run_s f (aR fac)))))
        (map (db udim) (s_sh (get_arr (run_s f (aR fac))))) S (pat_t us pt).
  Proof.
    unfold rdm_chk. intros H. repeat (apply andb_prop in H; destruct H as [H ?]).
    pose proof zero_ham as HH.
    destruct (make_ham K _ _ _ _ _ _ _ _ _ HH) as (F & I & HFI & HF & HI).
    destruct (make_amps K _ _ _ _ _ _ _ _ _ HT) as (T1' & T2' & HTT' & Hs1 & Hs2).
    assert (T1' = T1) by (destruct HTT, HTT'; congruence).
    assert (T2' = T2) by (destruct HTT, HTT'; congruence).
    destruct (make_lams K _ _ _ _ _ _ _ _ _ HL) as (L1' & L2' & HLL' & Hs3 & Hs4).
    assert (L1' = L1) by (destruct HLL, HLL'; congruence).
    assert (L2' = L2) by (destruct HLL, HLL'; congruence).
    subst T1' T2' L1' L2'.
    pose proof (so_sp_ok K _ _ _ _ _ _ _ _ _ _ _ _ _ _ _ _ _ _ _ tfac _ _ _ _ _ _
      HH HT HL HFI HTT HLL) as Hsp.
    pose proof (u_sym K _ _ _ _ _ _ _ _ _ _ _ _ _ _ _ _ _ _ _ tfac HH HT HL) as Htb.
    destruct (run_arr_sound K sdim (so_rho K F I T1 T2 L1 L2 tfac (noex K)) f (aR fac)
      ([arr T1; arr T2; arr L1; arr L2] ++ (if fac then [numv tfac] else []))%list H)
      as (S & R1 & A1).
    { unfold aR. destruct fac; cbn [app]; so_args. }
    match type of Htb with sym_ok _ _ ?r _ =>
    destruct (run_arrs_sound K udim r (seq 0 n) g (uR fac)
      ([arr T1a; arr T1b; arr T2aa; arr T2ab; arr T2bb; arr L1a; arr L1b; arr L2aa;
        arr L2ab; arr L2bb] ++ (if fac then [numv tfac] else []))%list H1) as (us & R2 & Hlen & A2)
    end.
    { destruct (uR_amps K _ _ _ _ (zeroF K noa nva) (zeroF K nob nvb) (zeroI K noa nva)
        (zeroI K nob nvb) zeroJ _ _ _ _ _ L1a L1b L2aa L2ab L2bb tfac HT) as (? & ? & ? & ? & ?).
      destruct (uR_lams K _ _ _ _ (zeroF K noa nva) (zeroF K nob nvb) (zeroI K noa nva)
        (zeroI K nob nvb) zeroJ T1a T1b T2aa T2ab T2bb _ _ _ _ _ tfac HL) as (? & ? & ? & ? & ?).
      unfold uR. destruct fac; u_get. }
    rewrite seq_length in Hlen, A2.
    exists S, us. split; [exact R1|]. split; [exact R2|]. split; [exact Hlen|].
    eapply out_sound; [exact Hsp|exact Htb|exact H0| |].
    - eapply Rarr_dim_ext; [|exact A1]. intros c. symmetry. apply dso_so_dim.
    - unfold arrs_of. rewrite <- Hlen. apply F2_seq with (d := tzeros K []).
      intros k Hk. apply A2. rewrite <- Hlen. exact Hk.
  Qed.

  Lemma rdm_use k f g fac n pt cs sh b : nth_error rdm_list k = Some (f, g, fac, n, pt) ->
    nth_error rdm_certs k = Some cs -> nth_error rdm_cls_list k = Some sh ->
    (forall us ss, List.length ss = List.length sh -> pat_t (K := K) us pt ss = b us ss) ->
    exists S us,
      returns f ([arr T1; arr T2; arr L1; arr L2] ++ (if fac then [numv tfac] else []))%list (arr S) /\
      returns g ([arr T1a; arr T1b; arr T2aa; arr T2ab; arr T2bb; arr L1a; arr L1b; arr L2aa;
        arr L2ab; arr L2bb] ++ (if fac then [numv tfac] else []))%list (tup (map arr us)) /\
      List.length us = n /\
      holds (map (da udim) sh) (map (db udim) sh) S (b us).
  Proof.
    intros E1 E2 E3 Hb. destruct (rdm_all_nth _ _ _ rdm_all_ok _ _ _ _ _ _ _ _ E1 E2 E3) as [Hc Hs].
    destruct (rdm_sound _ _ _ _ _ _ Hc) as (S & us & R1 & R2 & Hl & Hh). rewrite Hs in Hh.
    exists S, us. split; [exact R1|]. split; [exact R2|]. split; [exact Hl|].
    eapply holds_ext; [exact Hh|]. intros ss idx Hss _. rewrite map_length in Hss.
    rewrite Hb by exact Hss. reflexivity.
  Qed.

  Definition rdm_claim (f g : string) (args uargs : list (pyval K)) (n : nat) (na nb : list nat)
    (b : list (tensor K) -> list bool -> option (tensor K)) : Prop :=
    exists S us, returns f args (arr S) /\ returns g uargs (tup (map arr us)) /\
      List.length us = n /\ holds na nb S (b us).
End Rdm.

Ltac rdm_tac k := eapply (rdm_use _ _ _ _ _ _ _ _ _ _ _ _ _ _ _ _ _ _ _ _ _ _ _ _ k);
  [reflexivity|reflexivity|reflexivity|
   let us := fresh in intros us; apply spin_list_ext; repeat constructor].
