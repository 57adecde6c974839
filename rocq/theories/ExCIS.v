(** The singles of lccsd_simple for amplitudes without doubles. *)
From Coq Require Import List Bool Arith ZArith Lia Ring String.
From Verif Require Import Scalar CISpec CIRep CIFacts CIStrings CILemmas CIFock CIMatrix CIVec CIExpSpec CIExp Tensor PySyntax PySem PySim Sym SymSound
  Norm CCProg CCSpec Engine Tools SOCtx CCEquiv CCDeriv CCFockSpec FockStates FockExp FockT FockSchr WickSym FockH CCFock CCLinSpec FockLin CCLeft
  PTSpec FockPT FockPT2 CISDSpec FockCISD.
Import ListNotations.
Local Open Scope string_scope.
Local Open Scope list_scope.

Definition aZ : list sval := firstn 3 aT ++ [sarr (s_zero [cV; cV; cO; cO])].
(** F_ai + sum_b F_ab t_bi - sum_j F_ji t_aj - sum_bj I_ajbi t_bj *)
Definition m_cis : list mono :=
  [Mono 1 0 [] [(fid cV cO, [X 0; X 1])];
   Mono 1 0 [cV] [(fid cV cV, [X 0; D 0]); (14%positive, [D 0; X 1])];
   Mono (-1) 0 [cO] [(fid cO cO, [D 0; X 1]); (14%positive, [X 0; D 0])];
   Mono (-1) 0 [cV; cO] [(snd (fst (blk cV cO cV cO)), [X 0; D 1; D 0; X 1]); (14%positive, [D 0; D 1])]].
Definition cz : stens := get_arr (item 0 (run_s "lccsd_simple" aZ)).
Definition cz_cs := Eval vm_compute in find_certs so_tb sh1 (diff (s_ms cz) m_cis).
Definition cz_chk : bool :=
  run_form (FTup [FArr; FArr]) "lccsd_simple" aZ && cls_list_eqb (s_sh cz) sh1 &&
  forallb (m_okb 2) (diff (s_ms cz) m_cis) && check so_tb sh1 (diff (s_ms cz) m_cis) cz_cs.
Lemma cz_chk_true : cz_chk = true.
Proof. vm_compute. reflexivity. Qed.
Lemma cz_parts : run_form (FTup [FArr; FArr]) "lccsd_simple" aZ = true /\ s_sh cz = sh1 /\
  Forall (m_ok 2) (diff (s_ms cz) m_cis) /\ check so_tb sh1 (diff (s_ms cz) m_cis) cz_cs = true.
Proof.
  pose proof cz_chk_true as C. unfold cz_chk in C.
  apply andb_prop in C as [C D4]. apply andb_prop in C as [C D3]. apply andb_prop in C as [D1 D2].
  exact (conj D1 (conj (cls_list_eqb_eq _ _ D2) (conj (okb_all _ _ D3) D4))).
Qed.

Section CISFormula.
  Variable K : cring.
  Local Open Scope K_scope.
  Add Ring KrEC : (c_th K).
  Variables no nv : nat.
  Variable h : nat -> nat -> K.
  Variable g : nat -> nat -> nat -> nat -> K.
  Variable F : one_e K.
  Variable I : two_e K.
  Hypothesis AG : antisym_ints (no + nv) g.
  Hypothesis BF : blocks1 no nv (fock no h g) F.
  Hypothesis BI : blocks2 no nv g I.
  Variables T1 T2 : tensor K.
  Hypothesis H1 : t1_ok no nv T1.
  Hypothesis H2 : t2_ok no nv T2.
  Hypothesis Z2 : forall a b i j, (a < nv)%nat -> (b < nv)%nat -> (i < no)%nat -> (j < no)%nat -> dat T2 [a; b; i; j] = 0.
  Notation rho := (rho_t K F I T1 T2 no nv).
  Notation f := (fock no h g).

  Lemma args_Z : Forall2 (Rval K (so_dim no nv) rho) aZ [py_one_e F; py_two_e I; arr T1; arr T2].
  Proof.
    pose proof (args_T' K no nv h g F I AG BF BI T1 T2 H1 H2) as A.
    inversion A as [|? ? ? ? A1 A']; subst. inversion A' as [|? ? ? ? A2 A'']; subst. inversion A'' as [|? ? ? ? A3 _]; subst.
    constructor; [exact A1|]. constructor; [exact A2|]. constructor; [exact A3|]. constructor; [|constructor].
    constructor. split; [exact (proj1 H2)|]. split; [constructor|].
    intros idx Hi. rewrite (proj1 H2) in Hi.
    inversion Hi as [|? ? ? ? La Hi1]; subst. inversion Hi1 as [|? ? ? ? Lb Hi2]; subst.
    inversion Hi2 as [|? ? ? ? Li Hi3]; subst. inversion Hi3 as [|? ? ? ? Lj Hi4]; subst. inversion Hi4; subst.
    rewrite Z2 by assumption. reflexivity.
  Qed.

  Lemma cis_formula R1 R2 : returns "lccsd_simple" [py_one_e F; py_two_e I; arr T1; arr T2] (tup [arr R1; arr R2]) ->
    forall a i, (a < nv)%nat -> (i < no)%nat ->
      dat R1 [a; i] - dat (vo F) [a; i]
      = sumN nv (fun b => f (no + a)%nat (no + b)%nat * dat T1 [b; i]) - sumN no (fun j => f j i * dat T1 [a; j])
        - sumN nv (fun b => sumN no (fun j => g (no + a)%nat j (no + b)%nat i * dat T1 [b; j])).
  Proof.
    intros HR a i La Li. destruct cz_parts as (P1 & P2 & P3 & P4).
    destruct (run_pair_sound K (so_dim no nv) rho _ _ _ P1 args_Z) as (R1' & R2' & HR' & (Zs & Ms & Ds) & _).
    pose proof (returns_fun K _ _ _ _ HR HR') as Q. injection Q as <- <-. fold cz in Zs, Ms, Ds. rewrite P2 in Zs.
    assert (Hx : inrange (map (so_dim no nv) sh1) [a; i]) by (repeat constructor; auto).
    rewrite Ds by (rewrite Zs; exact Hx).
    assert (E : den K (so_dim no nv) rho [a; i] (s_ms cz) = den K (so_dim no nv) rho [a; i] m_cis).
    { apply den_diff. eapply check_sound; [exact P4|eapply sym_all'; eauto|exact P3|exact Hx]. }
    rewrite E. clear E.
    destruct BF as (_ & B1 & B2 & B3 & B4). destruct BI as (_ & _ & _ & _ & [_ G5] & _).
    unfold m_cis, den, den_mono, den_fac. cbn [map lsum m_z m_k m_dm m_fs prodK sumL fst snd so_rho look nth fid blk cO cV so_dim app].
    rewrite dyad10, dyadm10.
    rewrite (sumN_ext K nv (fun b => f (no + a)%nat (no + b)%nat * dat T1 [b; i]) (fun b => dat (vv F) [a; b] * dat T1 [b; i]))
      by (intros b Lb; rewrite B4 by assumption; reflexivity).
    rewrite (sumN_ext K no (fun j => f j i * dat T1 [a; j]) (fun j => dat (oo F) [j; i] * dat T1 [a; j]))
      by (intros j Lj; rewrite B1 by assumption; reflexivity).
    rewrite (sumN_ext K nv (fun b => sumN no (fun j => g (no + a)%nat j (no + b)%nat i * dat T1 [b; j])) (fun b => sumN no (fun j => dat (vovo I) [a; j; b; i] * dat T1 [b; j])))
      by (intros b Lb; apply sumN_ext; intros j Lj; rewrite G5 by assumption; reflexivity).
    rewrite (sumN_ext K nv _ (fun b => dat (vv F) [a; b] * dat T1 [b; i])) by (intros b _; ring).
    rewrite (sumN_ext K no (fun k => dat (oo F) [k; i] * (dat T1 [a; k] * 1)) (fun j => dat (oo F) [j; i] * dat T1 [a; j])) by (intros b _; ring).
    rewrite (sumN_ext K nv (fun k => sumN no (fun k0 => dat (vovo I) [a; k0; k; i] * (dat T1 [k; k0] * 1))) (fun b => sumN no (fun j => dat (vovo I) [a; j; b; i] * dat T1 [b; j])))
      by (intros b _; apply sumN_ext; intros j _; ring).
    ring.
  Qed.
End CISFormula.
