(** Second order perturbation theory over spatial orbitals and two spins. *)
From Coq Require Import List Bool Arith ZArith Lia Ring String.
From Verif Require Import Scalar Tensor PySyntax PySem CCProg CISpec CIRep CIFacts CIStrings CIFock CIMatrix CILemmas CIVec CIExpSpec CIExp
  CCSpec CCFockSpec FockStates FockExp FockT FockH FockSchr FockPerm NpModel SpinModel SpinSpec SpinFacts SpinRound CCEquiv CCSym CCFock CCSchr
  UtilsModel UtilsSpec UtilsFacts CCLinSpec FockLin CCSpin UFockSpec UFock UFockOps UCCSchr CIExpU CCCI PTSpec FockPT FockPT2 UExamples ExTransfer UPTSpec.
Import ListNotations.
Local Open Scope list_scope.

Section Energies.
  Variable K : cring.
  Local Open Scope K_scope.
  Add Ring KrUPa : (c_th K).
  Lemma en_ext m (e f : nat -> K) t : (forall p, (p < m)%nat -> e p = f p) -> en K m e t = en K m f t.
  Proof. intros E. apply sumN_ext. intros p Lp. rewrite E by exact Lp. reflexivity. Qed.
  Lemma en_app a b e A B : List.length A = a -> List.length B = b ->
    en K (a + b) e (A ++ B) = en K a e A + en K b (fun q => e (a + q)%nat) B.
  Proof.
    intros <- <-. unfold en. rewrite sumN_plus. f_equal; apply sumN_ext; intros p Lp.
    - rewrite occd_l by exact Lp. reflexivity.
    - rewrite occd_r. reflexivity.
  Qed.
  Lemma en_mix a b c d e f t : List.length t = (a + b + c + d)%nat ->
    (forall p, (p < a)%nat -> e p = f p) -> (forall p, (p < b)%nat -> e (a + p)%nat = f (a + c + p)%nat) ->
    (forall p, (p < c)%nat -> e (a + b + p)%nat = f (a + p)%nat) -> (forall p, (p < d)%nat -> e (a + b + c + p)%nat = f (a + b + c + p)%nat) ->
    en K (a + b + c + d) e t = en K (a + b + c + d) f (mix a b c t).
  Proof.
    intros L Ea Eb Ec Ed. destruct (blocks4 _ _ _ _ _ L) as (u & v & w & x & -> & Lu & Lv & Lw & Lx).
    rewrite mix_app by auto.
    replace (a + b + c + d)%nat with (a + (b + (c + d)))%nat at 1 by lia.
    replace (a + b + c + d)%nat with (a + (c + (b + d)))%nat by lia.
    rewrite !en_app by (rewrite ?app_length; lia).
    rewrite (en_ext a e f) by exact Ea.
    rewrite (en_ext b _ (fun q => f (a + (c + q))%nat)) by (intros p Lp; rewrite Eb by exact Lp; f_equal; lia).
    rewrite (en_ext c _ (fun q => f (a + q)%nat)) by (intros p Lp; replace (a + (b + p))%nat with (a + b + p)%nat by lia; rewrite Ec by exact Lp; f_equal; lia).
    rewrite (en_ext d _ (fun q => f (a + (c + (b + q)))%nat)).
    - ring.
    - intros p Lp. replace (a + (b + (c + p)))%nat with (a + b + c + p)%nat by lia. rewrite Ed by exact Lp. f_equal; lia.
  Qed.
End Energies.

(** *** States without determinants with z alpha electrons *)
Section Off.
  Variable K : cring.
  Local Open Scope K_scope.
  Add Ring KrUPb : (c_th K).
  Variable n : nat.
  Notation opsum := (list (K * list op)).
  Definition aoff (z : Z) (psi : state K) : Prop :=
    forall t, List.length t = (n + n)%nat -> Z.of_nat (nel (firstn n t)) = z -> psi t = 0.
  Lemma aoff_eo o z psi : aoff z psi -> aoff (z + acharge n [o]) (eo o psi).
  Proof.
    intros H t L N. unfold eo. destruct (_ && _) eqn:C; [|reflexivity].
    apply andb_true_iff in C as [C1 C2]. apply Nat.ltb_lt in C1. apply eqb_prop in C2.
    rewrite H; [ring|rewrite put_length; auto|].
    rewrite firstn_put. destruct (Nat.ltb_spec (opi o) n) as [Lo|Lo].
    - assert (Lf : (opi o < List.length (firstn n t))%nat) by (rewrite firstn_length; lia).
      pose proof (nel_put (opi o) (negb (opb o)) (firstn n t) Lf) as P.
      assert (Oc : occd (firstn n t) (opi o) = occd t (opi o)).
      { rewrite <- (firstn_skipn n t) at 2. rewrite occd_l by exact Lf. reflexivity. }
      rewrite Oc, C2 in P. destruct o as [p|p]; cbn [opi opb negb acharge] in *; apply Nat.ltb_lt in Lo; rewrite Lo in N; lia.
    - destruct o as [p|p]; cbn [opi opb negb acharge] in *; apply Nat.ltb_ge in Lo; rewrite Lo in N; lia.
  Qed.
  Lemma aoff_eow w z psi : aoff z psi -> aoff (z + acharge n w) (eow w psi).
  Proof.
    intros H. induction w as [|o w IH]; cbn [eow].
    - intros t L N. apply H; auto. cbn [acharge] in N. lia.
    - intros t L N. apply (aoff_eo o (z + acharge n w) _ IH t L). rewrite N.
      change (o :: w) with ([o] ++ w). rewrite acharge_app. lia.
  Qed.
  Lemma aoff_eos A z psi : aneutral K n A -> aoff z psi -> aoff z (eos A psi).
  Proof.
    intros HA H t L N. unfold eos. apply SL_zero. intros x Hx. unfold aneutral in HA. rewrite Forall_forall in HA.
    rewrite (aoff_eow (snd x) z psi H t L); [ring|]. rewrite (HA x Hx). lia.
  Qed.
End Off.

Section UPT.
  Variable K : cring.
  Local Open Scope K_scope.
  Add Ring KrUPc : (c_th K).
  Notation opsum := (list (K * list op)).
  Variables n noa nva nob nvb : nat.
  Variables ha hb : nat -> nat -> K.
  Variables Ia Ib Iab : nat -> nat -> nat -> nat -> K.
  Variables Fa Fb : one_e K.
  Variables Iaa Ibb : two_e K.
  Variable J : two_e_full K.
  Hypothesis HU : u_hamiltonian n noa nva nob nvb ha hb Ia Ib Iab Fa Fb Iaa Ibb J.
  Variables eoa eva eob evb : tensor K.
  Hypothesis Soa : shp eoa = [noa].
  Hypothesis Sva : shp eva = [nva].
  Hypothesis Sob : shp eob = [nob].
  Hypothesis Svb : shp evb = [nvb].
  Variables Da Db Daa Dab Dbb : tensor K.
  Hypothesis HDa : D1 eva eoa = Some Da.
  Hypothesis HDb : D1 evb eob = Some Db.
  Hypothesis HDaa : D2 eva eoa = Some Daa.
  Hypothesis HDab : D2u eva evb eoa eob = Some Dab.
  Hypothesis HDbb : D2 evb eob = Some Dbb.
  Variables T1a T1b T2aa T2ab T2bb : tensor K.
  Hypothesis S1a : shp T1a = [nva; noa].
  Hypothesis S1b : shp T1b = [nvb; nob].
  Hypothesis S2aa : shp T2aa = [nva; nva; noa; noa].
  Hypothesis S2ab : shp T2ab = [nva; nvb; noa; nob].
  Hypothesis S2bb : shp T2bb = [nvb; nvb; nob; nob].
  Hypothesis Ua : forall a i, (a < nva)%nat -> (i < noa)%nat -> exists x, x * dat Da [a; i] = 1.
  Hypothesis Ub : forall a i, (a < nvb)%nat -> (i < nob)%nat -> exists x, x * dat Db [a; i] = 1.
  Hypothesis Uaa : forall a b i j, (a < nva)%nat -> (b < nva)%nat -> (i < noa)%nat -> (j < noa)%nat -> exists x, x * dat Daa [a; b; i; j] = 1.
  Hypothesis Uab : forall a b i j, (a < nva)%nat -> (b < nvb)%nat -> (i < noa)%nat -> (j < nob)%nat -> exists x, x * dat Dab [a; b; i; j] = 1.
  Hypothesis Ubb : forall a b i j, (a < nvb)%nat -> (b < nvb)%nat -> (i < nob)%nat -> (j < nob)%nat -> exists x, x * dat Dbb [a; b; i; j] = 1.
  Hypothesis Qa : forall a i, (a < nva)%nat -> (i < noa)%nat -> dat T1a [a; i] * dat Da [a; i] = - dat (vo Fa) [a; i].
  Hypothesis Qb : forall a i, (a < nvb)%nat -> (i < nob)%nat -> dat T1b [a; i] * dat Db [a; i] = - dat (vo Fb) [a; i].
  Hypothesis Qaa : forall a b i j, (a < nva)%nat -> (b < nva)%nat -> (i < noa)%nat -> (j < noa)%nat ->
    dat T2aa [a; b; i; j] * dat Daa [a; b; i; j] = - dat (vvoo Iaa) [a; b; i; j].
  Hypothesis Qab : forall a b i j, (a < nva)%nat -> (b < nvb)%nat -> (i < noa)%nat -> (j < nob)%nat ->
    dat T2ab [a; b; i; j] * dat Dab [a; b; i; j] = - dat (fvvoo J) [a; b; i; j].
  Hypothesis Qbb : forall a b i j, (a < nvb)%nat -> (b < nvb)%nat -> (i < nob)%nat -> (j < nob)%nat ->
    dat T2bb [a; b; i; j] * dat Dbb [a; b; i; j] = - dat (vvoo Ibb) [a; b; i; j].
  Notation no := (noa + nob)%nat.
  Notation nv := (nva + nvb)%nat.
  Notation HS := (H_spatial_op n ha hb Ia Ib Iab).
  Notation A0 := (aufbau n noa).
  Notation B0 := (aufbau n nob).
  Notation refS := (A0 ++ B0).
  Notation ref := (aufbau (no + nv) no).
  Notation hc := (hC K n noa nva nob ha hb).
  Notation gc := (gC K n noa nva nob Ia Ib Iab).
  Notation H := (H_op (no + nv) hc gc).
  Notation M0 := (S (nva + nvb)).
  Notation HM0 := (Nat.lt_succ_diag_r (nva + nvb)).
  Notation mixs := (mix noa nva nob).
  Notation sg := (UCCSchr.sg K noa nva nob).
  Notation Up := (U K noa nob nva).
  Notation TS := (u_cluster n noa nva nob nvb T1a T1b T2aa T2ab T2bb).
  Notation ea := (orbital_energy noa eoa eva).
  Notation eb := (orbital_energy nob eob evb).
  Notation eS := (two_spins n ea eb).
  Notation H0 := (diagonal (n + n) eS).
  Notation V := (minus HS H0).
  Notation E0 := (sumN noa (fun i => dat eoa [i]) + sumN nob (fun i => dat eob [i])).

  Lemma Na_ : (noa + nva = n)%nat. Proof. exact (proj1 HU). Qed.
  Lemma Nb_ : (nob + nvb = n)%nat. Proof. exact (proj1 (proj2 HU)). Qed.
  Lemma anti_ok m (I0 : nat -> nat -> nat -> nat -> K) k : pair_symmetric n I0 -> (m + k = n)%nat -> antisym_ints (m + k) (anti I0).
  Proof.
    intros P N p q r s Lp Lq Lr Ls. unfold anti. split; [|ring].
    rewrite (P q p r s), (P q p s r) by lia. ring.
  Qed.

  Lemma amps : u_amps_ok noa nva nob nvb T1a T1b T2aa T2ab T2bb.
  Proof.
    pose proof HU as (Na & Nb & PA & PB & _ & _ & BIa & BIb & _).
    split; [exact S1a|]. split; [exact S1b|]. split; [|split; [exact S2ab|]].
    - exact (pt_t2_ok K noa nva (anti Ia) Iaa (anti_ok noa Ia nva PA Na) BIa eoa eva Daa T2aa Soa Sva HDaa S2aa Uaa Qaa).
    - exact (pt_t2_ok K nob nvb (anti Ib) Ibb (anti_ok nob Ib nvb PB Nb) BIb eob evb Dbb T2bb Sob Svb HDbb S2bb Ubb Qbb).
  Qed.

  (** *** Over spin orbitals *)
  Definition eoS : tensor K := mkT [no] (fun ix => match ix with [p] => cat noa eoa eob p | _ => 0 end).
  Definition evS : tensor K := mkT [nv] (fun ix => match ix with [p] => cat nva eva evb p | _ => 0 end).
  Variables F : one_e K.
  Variable I : two_e K.
  Variables T1 T2 : tensor K.
  Hypothesis EF : F_to_spin Fa Fb noa nva nob nvb = Some F.
  Hypothesis EI : int_to_spin2 Iaa Ibb J noa nva nob nvb = Some I.
  Hypothesis ET1 : T1_to_spin T1a T1b noa nva nob nvb = Some T1.
  Hypothesis ET2 : T2_to_spin T2aa T2ab T2bb noa nva nob nvb = Some T2.
  Notation T := (cluster no nv T1 T2).
  Notation epsS := (FockPT2.eps K no eoS evS).

  Lemma so_F : blocks1 no nv (fock no hc gc) F.
  Proof. pose proof HU as (Na & Nb & PA & PB & BFa & BFb & _). exact (F_blocks K n noa nva nob nvb Na Nb ha hb Ia Ib Iab Fa Fb BFa BFb F EF). Qed.
  Lemma so_I : blocks2 no nv gc I.
  Proof. pose proof HU as (Na & Nb & _ & _ & _ & _ & BIa & BIb & BJ). exact (I_blocks K n noa nva nob nvb Na Nb Ia Ib Iab Iaa Ibb J BIa BIb BJ I EI). Qed.
  Lemma so_A : antisym_ints (no + nv) gc.
  Proof. pose proof HU as (Na & Nb & PA & PB & _). exact (anti_gC K n noa nva nob nvb Na Nb Ia Ib Iab PA PB). Qed.
  Lemma so_T2 : t2_ok no nv T2.
  Proof.
    pose proof amps as (_ & _ & O3 & O4 & O5).
    pose proof (T2_to_spin_ok K T2aa T2ab T2bb noa nva nob nvb O3 O4 O5) as (T2'' & X2 & OT2 & _). rewrite ET2 in X2. injection X2 as <-. exact OT2.
  Qed.

  Variables DS1 DS2 : tensor K.
  Hypothesis HD1 : D1 evS eoS = Some DS1.
  Hypothesis HD2 : D2 evS eoS = Some DS2.

  Lemma so_Q1 a i : (a < nv)%nat -> (i < no)%nat -> dat T1 [a; i] * dat DS1 [a; i] = - dat (vo F) [a; i].
  Proof.
    intros La Li. rewrite (da_val K no nv eoS evS DS1 eq_refl eq_refl HD1 a i La Li). cbn [eoS evS dat].
    pose proof HU as (_ & _ & _ & _ & (Oa & _) & (Ob & _) & _).
    destruct (F_to_spin_holds K Fa Fb noa nva nob nvb Oa Ob) as (F' & EF' & H1 & H2 & H3 & H4). rewrite EF in EF'. injection EF' as <-.
    destruct (T1_to_spin_holds K T1a T1b noa nva nob nvb S1a S1b) as (x & Ex & HT). rewrite ET1 in Ex. injection Ex as <-.
    destruct (at_split _ _ _ La) as (s1 & a' & -> & La'). destruct (at_split _ _ _ Li) as (s2 & i' & -> & Li').
    rewrite (cat_at _ _ _ _ _ _ _ La'), (cat_at _ _ _ _ _ _ _ Li').
    rewrite (entry2 K _ _ _ _ _ _ s1 s2 a' i' HT La' Li').
    first [rewrite (entry2 K _ _ _ _ _ _ s1 s2 a' i' H1 La' Li') | rewrite (entry2 K _ _ _ _ _ _ s1 s2 a' i' H2 La' Li')
      | rewrite (entry2 K _ _ _ _ _ _ s1 s2 a' i' H3 La' Li') | rewrite (entry2 K _ _ _ _ _ _ s1 s2 a' i' H4 La' Li')].
    destruct s1, s2; cbn [side_len] in *; cbn [spin2].
    - rewrite <- Qb by assumption. rewrite (da_val K nob nvb eob evb Db Sob Svb HDb a' i') by assumption. reflexivity.
    - ring.
    - ring.
    - rewrite <- Qa by assumption. rewrite (da_val K noa nva eoa eva Da Soa Sva HDa a' i') by assumption. reflexivity.
  Qed.
  Lemma dab_val a b i j : (a < nva)%nat -> (b < nvb)%nat -> (i < noa)%nat -> (j < nob)%nat ->
    dat Dab [a; b; i; j] = dat eva [a] + dat evb [b] - dat eoa [i] - dat eob [j].
  Proof.
    intros La Lb Li Lj. destruct (D2u_spec K eva evb eoa eob _ _ _ _ Sva Svb Soa Sob) as (D & HD & _ & E). rewrite HDab in HD. injection HD as <-. auto.
  Qed.
  Lemma so_Q2 a b i j : (a < nv)%nat -> (b < nv)%nat -> (i < no)%nat -> (j < no)%nat ->
    dat T2 [a; b; i; j] * dat DS2 [a; b; i; j] = - dat (vvoo I) [a; b; i; j].
  Proof.
    intros La Lb Li Lj. rewrite (db_val K no nv eoS evS DS2 eq_refl eq_refl HD2 a b i j La Lb Li Lj). cbn [eoS evS dat].
    pose proof so_I as (_ & _ & _ & (_ & BI) & _). rewrite BI by assumption. rewrite !Nat.add_0_l.
    pose proof HU as (Na & Nb & _ & _ & _ & _ & (_ & _ & _ & (_ & Ba) & _) & (_ & _ & _ & (_ & Bb) & _) & (_ & _ & _ & _ & _ & (_ & Bc) & _)).
    cbn [Nat.add] in Ba, Bb, Bc.
    destruct (T2_to_spin_holds K T2aa T2ab T2bb noa nva nob nvb S2aa S2ab S2bb) as (x & Ex & HT). rewrite ET2 in Ex. injection Ex as <-.
    destruct (at_split _ _ _ La) as (s1 & a' & -> & La'). destruct (at_split _ _ _ Lb) as (s2 & b' & -> & Lb').
    destruct (at_split _ _ _ Li) as (s3 & i' & -> & Li'). destruct (at_split _ _ _ Lj) as (s4 & j' & -> & Lj').
    rewrite (cat_at _ _ _ _ _ _ _ La'), (cat_at _ _ _ _ _ _ _ Lb'), (cat_at _ _ _ _ _ _ _ Li'), (cat_at _ _ _ _ _ _ _ Lj').
    rewrite (entry4 K _ _ _ _ _ _ _ _ _ _ s1 s2 s3 s4 a' b' i' j' HT) by assumption.
    pose proof (gC_at K n noa nva nob nvb Na Nb Ia Ib Iab true true false false s1 s2 s3 s4 a' b' i' j' La' Lb' Li' Lj') as G.
    change (cst noa nob true) with no in G. change (cst noa nob false) with 0%nat in G.
    change (sz noa nva nob nvb true false) with nva in G. change (sz noa nva nob nvb false false) with noa in G.
    rewrite !Nat.add_0_l in G. rewrite G. clear G.
    destruct s1, s2, s3, s4; cbn [side_len fst_of] in *; cbn [spin4_anti spin4 tneg swap_both swap_ket swap_bra swap map nth dat shp]; try ring;
      rewrite ?Nat.add_0_l.
    - rewrite <- (Bb a' b' i' j'), <- Qbb by assumption. rewrite (db_val K nob nvb eob evb Dbb Sob Svb HDbb a' b' i' j') by assumption. reflexivity.
    - rewrite <- (Bc b' a' j' i'), <- Qab by assumption. rewrite dab_val by assumption. ring.
    - transitivity (- (dat T2ab [b'; a'; i'; j'] * dat Dab [b'; a'; i'; j'])).
      + rewrite dab_val by assumption. ring.
      + rewrite Qab, (Bc b' a' i' j') by assumption. ring.
    - transitivity (- (dat T2ab [a'; b'; j'; i'] * dat Dab [a'; b'; j'; i'])).
      + rewrite dab_val by assumption. ring.
      + rewrite Qab, (Bc a' b' j' i') by assumption. ring.
    - rewrite <- (Bc a' b' i' j'), <- Qab by assumption. rewrite dab_val by assumption. ring.
    - rewrite <- (Ba a' b' i' j'), <- Qaa by assumption. rewrite (db_val K noa nva eoa eva Daa Soa Sva HDaa a' b' i' j') by assumption. reflexivity.
  Qed.

  Lemma E0_so : sumN no (fun i => dat eoS [i]) = E0.
  Proof.
    rewrite sumN_plus. cbn [eoS dat]. f_equal; apply sumN_ext; intros i Li; unfold cat.
    - replace (Nat.ltb i noa) with true by (symmetry; apply Nat.ltb_lt; exact Li). reflexivity.
    - replace (Nat.ltb (noa + i) noa) with false by (symmetry; apply Nat.ltb_ge; lia). do 2 f_equal. f_equal. lia.
  Qed.
  Lemma en_so t : List.length t = (n + n)%nat -> en K (n + n) eS t = en K (no + nv) epsS (mixs t).
  Proof.
    intros L. pose proof Na_ as Na. pose proof Nb_ as Nb.
    replace (n + n)%nat with (noa + nva + nob + nvb)%nat in L |- * by lia. replace (no + nv)%nat with (noa + nva + nob + nvb)%nat by lia.
    apply en_mix; [exact L| | | |]; intros p Lp; unfold two_spins, orbital_energy, FockPT2.eps; cbn [eoS evS dat]; unfold cat;
      repeat match goal with
      | |- context[Nat.ltb ?x ?y] => destruct (Nat.ltb_spec x y); try lia
      end; do 2 f_equal; lia.
  Qed.

  Lemma T_state t : List.length t = (n + n)%nat -> eos TS (kd refS) t = sg t * eos T (kd ref) (mixs t).
  Proof.
    intros L. rewrite <- !amp_eos. apply (amp_B K n noa nva nob nvb ha hb Ia Ib Iab Fa Fb Iaa Ibb J HU); [|exact L].
    exact (acts_T K n noa nva nob nvb ha hb Ia Ib Iab Fa Fb Iaa Ibb J HU T1a T1b T2aa T2ab T2bb amps M0 HM0 T1 T2 ET1 ET2).
  Qed.
  Lemma H_state t : List.length t = (n + n)%nat -> eos HS (kd refS) t = sg t * eos H (kd ref) (mixs t).
  Proof.
    intros L. rewrite <- !amp_eos. apply (amp_B K n noa nva nob nvb ha hb Ia Ib Iab Fa Fb Iaa Ibb J HU); [|exact L].
    exact (acts_H K n noa nva nob nvb ha hb Ia Ib Iab Fa Fb Iaa Ibb J HU M0 HM0).
  Qed.
  Lemma mix_not t : List.length t = (n + n)%nat -> t <> refS -> mixs t <> ref.
  Proof.
    intros L N E. apply N. pose proof Na_ as Na. pose proof Nb_ as Nb. pose proof (refS_len n noa nob) as LR.
    destruct (mix_refS K n noa nva nob nvb ha hb Ia Ib Iab Fa Fb Iaa Ibb J HU) as [MR _]. rewrite <- MR in E.
    rewrite <- (mix_mix noa nva nob nvb t), E by lia. apply (mix_mix noa nva nob nvb). lia.
  Qed.
  Lemma equation t : List.length t = (n + n)%nat -> t <> refS -> (en K (n + n) eS t - E0) * eos TS (kd refS) t = - eos HS (kd refS) t.
  Proof.
    intros L N. rewrite (T_state t L), (H_state t L), (en_so t L), <- E0_so.
    pose proof (mix_len K n noa nva nob nvb ha hb Ia Ib Iab Fa Fb Iaa Ibb J HU M0 HM0 t L) as Lm.
    pose proof (pt_equation_of K no nv hc gc F I so_A so_F so_I eoS evS DS1 DS2 T1 T2 eq_refl eq_refl HD1 HD2 so_Q1 so_Q2 (mixs t) so_T2 Lm (mix_not t L N)) as Q.
    transitivity (sg t * ((en K (no + nv) epsS (mixs t) - sumN no (fun i => dat eoS [i])) * eos T (kd ref) (mixs t))); [ring|].
    rewrite Q. ring.
  Qed.
  Lemma TS_ref : eos TS (kd refS) refS = 0.
  Proof.
    rewrite (T_state refS (refS_len n noa nob)). destruct (mix_refS K n noa nva nob nvb ha hb Ia Ib Iab Fa Fb Iaa Ibb J HU) as [MR _].
    rewrite MR, T_ref. ring.
  Qed.
  Lemma en_refS : en K (n + n) eS refS = E0.
  Proof.
    rewrite (en_so refS (refS_len n noa nob)). destruct (mix_refS K n noa nva nob nvb ha hb Ia Ib Iab Fa Fb Iaa Ibb J HU) as [MR _].
    rewrite MR, <- E0_so. apply en_ref.
  Qed.
  Lemma refS_nel : nel refS = no.
  Proof. pose proof Na_ as Na. pose proof Nb_ as Nb. rewrite nel_app, !nel_aufbau by lia. reflexivity. Qed.
  Lemma TS_nel t : List.length t = (n + n)%nat -> nel t <> no -> eos TS (kd refS) t = 0.
  Proof.
    intros L N. rewrite (T_state t L).
    pose proof (mix_len K n noa nva nob nvb ha hb Ia Ib Iab Fa Fb Iaa Ibb J HU M0 HM0 t L) as Lm.
    pose proof (mix_nel K n noa nva nob nvb ha hb Ia Ib Iab Fa Fb Iaa Ibb J HU M0 HM0 t L) as Nm.
    rewrite (T_far K no nv) by (auto; left; lia). ring.
  Qed.
  Lemma eos_VS psi t : List.length t = (n + n)%nat -> eos V psi t = eos HS psi t - en K (n + n) eS t * psi t.
  Proof. intros L. unfold minus. rewrite eos_app, eos_opscale, diagonal_eos by auto. ring. Qed.
  Lemma kdS t : t <> refS -> kd refS t = 0 :> K.
  Proof. intros N. unfold kd. destruct (det_eqb refS t) eqn:E; [|reflexivity]. apply det_eqb_eq in E. congruence. Qed.
  Lemma kdSS : kd refS refS = 1 :> K.
  Proof. unfold kd. rewrite det_eqb_refl. reflexivity. Qed.

  Lemma u_eigenstate : eigenstate (n + n) refS H0 E0.
  Proof.
    intros t L. rewrite !amp_eos, FockPT2.eos_one, diagonal_eos by auto. unfold kd. destruct (det_eqb refS t) eqn:E; [|ring].
    apply det_eqb_eq in E. subst t. rewrite en_refS. reflexivity.
  Qed.
  Lemma u_first_order : first_order (n + n) refS H0 V E0 (amp refS V refS) TS.
  Proof.
    pose proof (refS_len n noa nob) as Lr.
    split; [rewrite amp_eos; apply TS_ref|]. split.
    - intros t L N. rewrite refS_nel in N. rewrite amp_eos. apply TS_nel; auto.
    - intros t L. rewrite !amp_eos, FockPT2.eos_one, eos_opmul, diagonal_eos, !eos_VS by auto.
      destruct (list_eq_dec bool_dec t refS) as [->|NR].
      + rewrite TS_ref, kdSS, en_refS. ring.
      + rewrite (kdS t NR). transitivity ((en K (n + n) eS t - E0) * eos TS (kd refS) t); [ring|].
        rewrite equation by auto. ring.
  Qed.

  (** *** Denominators *)
  Lemma en_split A B : List.length A = n -> List.length B = n -> en K (n + n) eS (A ++ B) = en K n ea A + en K n eb B.
  Proof.
    intros LA LB. rewrite en_app by assumption. f_equal; apply en_ext; intros p Lp; unfold two_spins.
    - replace (Nat.ltb p n) with true by (symmetry; apply Nat.ltb_lt; exact Lp). reflexivity.
    - replace (Nat.ltb (n + p) n) with false by (symmetry; apply Nat.ltb_ge; lia). f_equal. lia.
  Qed.
  Lemma en_excited m k eo_ ev D1' D2' A kk : (m + k = n)%nat -> shp eo_ = [m] -> shp ev = [k] -> D1 ev eo_ = Some D1' -> D2 ev eo_ = Some D2' ->
    excited kk (aufbau n m) A -> (kk <= 2)%nat ->
    (kk = 0%nat /\ en K n (orbital_energy m eo_ ev) A = sumN m (fun i => dat eo_ [i])) \/
    (kk = 1%nat /\ exists a i, (a < k)%nat /\ (i < m)%nat /\
       en K n (orbital_energy m eo_ ev) A = sumN m (fun i => dat eo_ [i]) + dat D1' [a; i]) \/
    (kk = 2%nat /\ exists a b i j, (a < k)%nat /\ (b < k)%nat /\ (i < m)%nat /\ (j < m)%nat /\
       en K n (orbital_energy m eo_ ev) A = sumN m (fun i => dat eo_ [i]) + dat D2' [a; b; i; j]).
  Proof.
    intros N So Sv HD1' HD2' X Lk. rewrite <- N in X |- *. destruct kk as [|[|[|kk]]]; [left|right; left|right; right|lia]; (split; [reflexivity|]).
    - destruct X as (L & _ & D). assert (Z : aufbau (m + k) m = A) by (apply ndiff_zero; [symmetry; exact L|lia]). rewrite <- Z. apply (en_ref K m k eo_ ev).
    - destruct (single_word m k A X) as (a & i & s & La & Li & E). exists a, i. split; [exact La|]. split; [exact Li|].
      exact (en_single K m k eo_ ev D1' So Sv HD1' a i s A La Li E).
    - destruct (double_word m k A X) as (a & b & i & j & s & La & Lb & Li & Lj & E). exists a, b, i, j. do 4 (split; [assumption|]).
      exact (en_double K m k eo_ ev D2' So Sv HD2' a b i j s A La Lb Li Lj E).
  Qed.
  Lemma invertible t ka kb : List.length t = (n + n)%nat -> excited ka A0 (firstn n t) -> excited kb B0 (skipn n t) ->
    (1 <= ka + kb <= 2)%nat -> exists x, x * (en K (n + n) eS t - E0) = 1.
  Proof.
    intros L Xa Xb Lk. pose proof (proj1 Xa) as La. pose proof (proj1 Xb) as Lb. rewrite aufbau_length in La, Lb.
    rewrite <- (firstn_skipn n t), en_split by assumption.
    destruct (en_excited noa nva eoa eva Da Daa _ ka Na_ Soa Sva HDa HDaa Xa ltac:(lia))
      as [[-> Ea]|[[-> (a & i & Ha & Hi & Ea)]|[-> (a & b & i & j & Ha & Hb & Hi & Hj & Ea)]]]; rewrite Ea;
    destruct (en_excited nob nvb eob evb Db Dbb _ kb Nb_ Sob Svb HDb HDbb Xb ltac:(lia))
      as [[-> Eb]|[[-> (a' & i' & Ha' & Hi' & Eb)]|[-> (a' & b' & i' & j' & Ha' & Hb' & Hi' & Hj' & Eb)]]]; rewrite Eb; try lia.
    - destruct (Ub a' i' Ha' Hi') as (x & Hx). exists x. rewrite <- Hx. ring.
    - destruct (Ubb a' b' i' j' Ha' Hb' Hi' Hj') as (x & Hx). exists x. rewrite <- Hx. ring.
    - destruct (Ua a i Ha Hi) as (x & Hx). exists x. rewrite <- Hx. ring.
    - destruct (Uab a a' i i' Ha Ha' Hi Hi') as (x & Hx). exists x. rewrite <- Hx, dab_val by assumption.
      rewrite (da_val K noa nva eoa eva Da Soa Sva HDa a i) by assumption. rewrite (da_val K nob nvb eob evb Db Sob Svb HDb a' i') by assumption. ring.
    - destruct (Uaa a b i j Ha Hb Hi Hj) as (x & Hx). exists x. rewrite <- Hx. ring.
  Qed.

  Lemma u_energy2 : exists e,
    returns (K := K) "ump2_energy" [tup [arr T1a; arr T1b]; tup [arr T2aa; arr T2ab; arr T2bb];
      arr (ov Fa); arr (ov Fb); arr (oovv Iaa); arr (oovv Ibb); arr (foovv J)] (numv e) /\
    forall Psi, first_order (n + n) refS H0 V E0 (amp refS V refS) Psi -> amp refS (opmul V Psi) refS = e.
  Proof.
    pose proof HU as (Na & Nb & _). pose proof (refS_len n noa nob) as LR.
    pose proof (ham_ok K n noa nva nob nvb ha hb Ia Ib Iab Fa Fb Iaa Ibb J HU) as HH.
    destruct (en_sound K _ _ _ _ _ _ _ _ _ _ _ _ _ _ _ _ _ _ _ _ _ c10_chk2 HH amps EF EI ET1 ET2) as (e & He & HeU).
    exists e. split; [exact HeU|]. intros Psi (P0 & P1 & P2).
    destruct (mix_refS K n noa nva nob nvb ha hb Ia Ib Iab Fa Fb Iaa Ibb J HU) as [MR SR].
    pose proof (T1_to_spin_ok K T1a T1b noa nva nob nvb S1a S1b) as (T1'' & X1 & OT1 & _). rewrite ET1 in X1. injection X1 as <-.
    destruct (mp2_linear K no nv hc gc F I so_A so_F so_I T1 T2 OT1 so_T2) as (e' & He' & Q).
    pose proof (returns_fun K _ _ _ _ He He') as X. injection X as <-.
    rewrite !amp_eos, linearised_eos, T_ref in Q.
    assert (Q' : eos HS (eos TS (kd refS)) refS = e).
    { pose proof (acts_T K n noa nva nob nvb ha hb Ia Ib Iab Fa Fb Iaa Ibb J HU T1a T1b T2aa T2ab T2bb amps M0 HM0 T1 T2 ET1 ET2) as AT.
      pose proof (amp_HB K n noa nva nob nvb ha hb Ia Ib Iab Fa Fb Iaa Ibb J HU T TS AT refS LR) as R.
      rewrite !amp_eos, !eos_opmul, MR, SR in R. rewrite R.
      transitivity (eos H (kd ref) ref + (eos H (eos T (kd ref)) ref - 0) - eos H (kd ref) ref); [ring|]. rewrite Q. ring. }
    pose (d := fun t => eos Psi (kd refS) t + - (1) * eos TS (kd refS) t).
    pose (d1 := fun t => if Nat.eqb (nel (firstn n t)) noa then d t else 0).
    pose (d2 := fun t => if Nat.eqb (nel (firstn n t)) noa then 0 else d t).
    assert (Ed : forall t, d t = d1 t + 1 * d2 t) by (intros t; unfold d1, d2; destruct (Nat.eqb _ _); ring).
    assert (Z2 : eos HS d2 refS = 0).
    { assert (O : aoff K n (Z.of_nat noa) d2).
      { intros t _ Et. unfold d2. replace (Nat.eqb (nel (firstn n t)) noa) with true by (symmetry; apply Nat.eqb_eq; lia). reflexivity. }
      apply (aoff_eos K n HS (Z.of_nat noa) d2 (aneutral_H K n ha hb Ia Ib Iab) O refS LR).
      rewrite firstn_app, aufbau_length, Nat.sub_diag, firstn_O, app_nil_r.
      rewrite firstn_all2 by (rewrite aufbau_length; lia). rewrite nel_aufbau by lia. reflexivity. }
    assert (Zd : forall t, List.length t = (n + n)%nat -> (vlev no (mixs t) <= 2)%nat -> d1 t = 0).
    { intros t L W. unfold d1. destruct (Nat.eqb_spec (nel (firstn n t)) noa) as [Ea|Ea]; [|reflexivity].
      pose proof (mix_len K n noa nva nob nvb ha hb Ia Ib Iab Fa Fb Iaa Ibb J HU M0 HM0 t L) as Lm.
      pose proof (mix_nel K n noa nva nob nvb ha hb Ia Ib Iab Fa Fb Iaa Ibb J HU M0 HM0 t L) as Nm. unfold d.
      destruct (Nat.eq_dec (nel t) no) as [En|En].
      - assert (X : excited (vlev no (mixs t)) ref (mixs t)) by (apply (vlev_excited no nv); [exact Lm|lia]).
        apply (excited_mix K n noa nva nob nvb ha hb Ia Ib Iab Fa Fb Iaa Ibb J HU M0 HM0) in X; [|exact L].
        destruct (level2 n noa nob _ _ t eq_refl eq_refl ltac:(lia) ltac:(lia) L Ea En) as (ka & kb & Xa & Xb & Lv & _).
        destruct X as (_ & _ & D).
        destruct (list_eq_dec bool_dec t refS) as [->|NR]; [rewrite TS_ref; rewrite amp_eos in P0; rewrite P0; ring|].
        assert (ka + kb <> 0)%nat.
        { intros Z. apply NR. symmetry. apply ndiff_zero; [rewrite LR; auto|lia]. }
        destruct (invertible t ka kb L Xa Xb ltac:(lia)) as (x & Hx).
        assert (Y : eos Psi (kd refS) t = eos TS (kd refS) t); [|rewrite Y; ring].
        apply (cancel_r K _ _ _ x Hx).
        specialize (P2 t L). rewrite !amp_eos, FockPT2.eos_one, eos_opmul, diagonal_eos, !eos_VS in P2 by auto. rewrite (kdS t NR) in P2.
        transitivity (en K (n + n) eS t * eos Psi (kd refS) t - E0 * eos Psi (kd refS) t); [ring|]. rewrite P2.
        transitivity (- eos HS (kd refS) t); [ring|]. rewrite <- (equation t L NR). ring.
      - rewrite TS_nel by auto. specialize (P1 t L). rewrite refS_nel, amp_eos in P1. rewrite P1 by exact En. ring. }
    pose (phi := fun u => sg (mix noa nob nva u) * d1 (mix noa nob nva u)).
    assert (Z1 : eos HS d1 refS = 0).
    { pose proof (acts_H K n noa nva nob nvb ha hb Ia Ib Iab Fa Fb Iaa Ibb J HU M0 HM0) as AH.
      transitivity (eos HS (Up phi) refS).
      { apply eos_ext. intros t Lt. rewrite LR in Lt. unfold U, phi. rewrite (mix_mix noa nva nob nvb t) by lia.
        unfold UCCSchr.sg. destruct (FockPerm.eps noa nva nob t); cbn [CISpec.sgn]; ring. }
      rewrite <- (U_eos K noa nob nva nvb H HS phi refS AH) by lia. unfold U. rewrite MR.
      assert (VM : vmin K no nv 3 phi).
      { intros u Lu W. unfold phi. rewrite Zd; [ring| |].
        - rewrite (mix_length noa nob nva nvb) by lia. lia.
        - rewrite (mix_mix noa nob nva nvb) by lia. lia. }
      rewrite (vmin_eos K no nv H 2 1 _ (H_nann K no nv hc gc) VM ref); [ring|apply aufbau_length|rewrite vlev_aufbau; lia]. }
    assert (Z : eos HS d refS = 0).
    { transitivity (eos HS (fun t => d1 t + 1 * d2 t) refS); [apply eos_ext; intros t _; apply Ed|].
      rewrite eos_add, eos_mul, Z1, Z2. ring. }
    rewrite amp_eos, eos_opmul, eos_VS by exact LR. rewrite amp_eos in P0. rewrite P0.
    unfold d in Z. rewrite eos_add, eos_mul, Q' in Z.
    transitivity (eos HS (eos Psi (kd refS)) refS + - (1) * e + e); [ring|]. rewrite Z. ring.
  Qed.
End UPT.

Lemma in2 a i m k : (a < m)%nat -> (i < k)%nat -> Forall2 lt [a; i] [m; k].
Proof. intros. repeat constructor; assumption. Qed.
Lemma in4 a b i j m k m' k' : (a < m)%nat -> (b < k)%nat -> (i < m')%nat -> (j < k')%nat -> Forall2 lt [a; b; i; j] [m; k; m'; k'].
Proof. intros. repeat constructor; assumption. Qed.

(** The two results, with the inputs over spin orbitals eliminated. *)
Section Wrap.
  Variable K : cring.
  Local Open Scope K_scope.
  Variables n noa nva nob nvb : nat.
  Variables ha hb : nat -> nat -> K.
  Variables Ia Ib Iab : nat -> nat -> nat -> nat -> K.
  Variables Fa Fb : one_e K.
  Variables Iaa Ibb : two_e K.
  Variable J : two_e_full K.
  Variables eoa eva eob evb : tensor K.
  Variables Da Db Daa Dab Dbb T1a T1b T2aa T2ab T2bb : tensor K.
  Notation refS := (aufbau n noa ++ aufbau n nob).
  Notation H0 := (diagonal (n + n) (two_spins n (orbital_energy noa eoa eva) (orbital_energy nob eob evb))).
  Notation V := (minus (H_spatial_op n ha hb Ia Ib Iab) H0).
  Notation E0 := (sumN noa (fun i => dat eoa [i]) + sumN nob (fun i => dat eob [i])).

  Theorem u_pt : u_hamiltonian n noa nva nob nvb ha hb Ia Ib Iab Fa Fb Iaa Ibb J ->
    shp eoa = [noa] -> shp eva = [nva] -> shp eob = [nob] -> shp evb = [nvb] ->
    D1 eva eoa = Some Da -> D1 evb eob = Some Db -> D2 eva eoa = Some Daa -> D2u eva evb eoa eob = Some Dab -> D2 evb eob = Some Dbb ->
    quotient [nva; noa] (vo Fa) Da T1a -> quotient [nvb; nob] (vo Fb) Db T1b ->
    quotient [nva; nva; noa; noa] (vvoo Iaa) Daa T2aa -> quotient [nva; nvb; noa; nob] (fvvoo J) Dab T2ab ->
    quotient [nvb; nvb; nob; nob] (vvoo Ibb) Dbb T2bb ->
    eigenstate (n + n) refS H0 E0 /\
    first_order (n + n) refS H0 V E0 (amp refS V refS) (u_cluster n noa nva nob nvb T1a T1b T2aa T2ab T2bb) /\
    exists e,
      returns (K := K) "ump2_energy" [tup [arr T1a; arr T1b]; tup [arr T2aa; arr T2ab; arr T2bb];
        arr (ov Fa); arr (ov Fb); arr (oovv Iaa); arr (oovv Ibb); arr (foovv J)] (numv e) /\
      forall Psi, first_order (n + n) refS H0 V E0 (amp refS V refS) Psi -> amp refS (opmul V Psi) refS = e.
  Proof.
    intros HU Soa Sva Sob Svb HDa HDb HDaa HDab HDbb (S1a & Ga) (S1b & Gb) (S2aa & Gaa) (S2ab & Gab) (S2bb & Gbb).
    assert (Ua := fun a i La Li => proj1 (Ga [a; i] (in2 a i _ _ La Li))).
    assert (Qa := fun a i La Li => proj2 (Ga [a; i] (in2 a i _ _ La Li))).
    assert (Ub := fun a i La Li => proj1 (Gb [a; i] (in2 a i _ _ La Li))).
    assert (Qb := fun a i La Li => proj2 (Gb [a; i] (in2 a i _ _ La Li))).
    assert (Uaa := fun a b i j La Lb Li Lj => proj1 (Gaa [a; b; i; j] (in4 a b i j _ _ _ _ La Lb Li Lj))).
    assert (Qaa := fun a b i j La Lb Li Lj => proj2 (Gaa [a; b; i; j] (in4 a b i j _ _ _ _ La Lb Li Lj))).
    assert (Uab := fun a b i j La Lb Li Lj => proj1 (Gab [a; b; i; j] (in4 a b i j _ _ _ _ La Lb Li Lj))).
    assert (Qab := fun a b i j La Lb Li Lj => proj2 (Gab [a; b; i; j] (in4 a b i j _ _ _ _ La Lb Li Lj))).
    assert (Ubb := fun a b i j La Lb Li Lj => proj1 (Gbb [a; b; i; j] (in4 a b i j _ _ _ _ La Lb Li Lj))).
    assert (Qbb := fun a b i j La Lb Li Lj => proj2 (Gbb [a; b; i; j] (in4 a b i j _ _ _ _ La Lb Li Lj))).
    split; [exact (u_eigenstate K n noa nva nob nvb ha hb Ia Ib Iab Fa Fb Iaa Ibb J HU eoa eva eob evb)|].
    pose proof (ham_ok K n noa nva nob nvb ha hb Ia Ib Iab Fa Fb Iaa Ibb J HU) as HH.
    pose proof (amps K n noa nva nob nvb ha hb Ia Ib Iab Fa Fb Iaa Ibb J HU eoa eva eob evb Soa Sva Sob Svb Daa Dbb HDaa HDbb
      T1a T1b T2aa T2ab T2bb S1a S1b S2aa S2ab S2bb Uaa Ubb Qaa Qbb) as HT.
    destruct (uccsd_spin_shapes K _ _ _ _ _ _ _ _ _ _ _ _ _ _ HH HT)
      as (F & I & T1 & T2 & _ & _ & _ & _ & _ & _ & _ & _ & _ & EF & EI & ET1 & ET2 & _).
    destruct (D1_spec K (evS K nva nvb eva evb) (eoS K noa nob eoa eob) _ _ eq_refl eq_refl) as (DS1 & HD1 & _).
    destruct (D2_spec K (evS K nva nvb eva evb) (eoS K noa nob eoa eob) _ _ eq_refl eq_refl) as (DS2 & HD2 & _).
    split.
    - exact (u_first_order K n noa nva nob nvb ha hb Ia Ib Iab Fa Fb Iaa Ibb J HU eoa eva eob evb Soa Sva Sob Svb
        Da Db Daa Dab Dbb HDa HDb HDaa HDab HDbb T1a T1b T2aa T2ab T2bb S1a S1b S2aa S2ab S2bb
        Uaa Ubb Qa Qb Qaa Qab Qbb F I T1 T2 EF EI ET1 ET2 DS1 DS2 HD1 HD2).
    - exact (u_energy2 K n noa nva nob nvb ha hb Ia Ib Iab Fa Fb Iaa Ibb J HU eoa eva eob evb Soa Sva Sob Svb
        Da Db Daa Dab Dbb HDa HDb HDaa HDab HDbb T1a T1b T2aa T2ab T2bb S1a S1b S2aa S2ab S2bb
        Ua Ub Uaa Uab Ubb Qa Qb Qaa Qab Qbb F I T1 T2 EF EI ET1 ET2 DS1 DS2 HD1 HD2).
  Qed.
End Wrap.
