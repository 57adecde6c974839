(** The unrestricted CCSD equations and the Schroedinger equation over spatial
    orbitals. *)
From Coq Require Import List Bool Arith ZArith Lia Ring String Factorial.
From Verif Require Import Scalar Tensor PySyntax PySem CCProg CISpec CIFacts CIStrings CIFock CIMatrix CILemmas CIVec CIExpSpec CIExp
  CCSpec CCFockSpec FockStates FockExp FockT FockH FockSchr FockPerm NpModel SpinModel SpinSpec SpinFacts SpinRound CCEquiv CCSym CCFock CCSchr
  CCSpin UFockSpec UFock UFockOps.
Import ListNotations.
Local Open Scope list_scope.

Section Transfer.
  Variable K : cring.
  Local Open Scope K_scope.
  Add Ring KrTR : (c_th K).
  Variables a b c d : nat.
  Notation N := (a + b + c + d)%nat.
  Notation opsum := (list (K * list op)).
  Notation rel := (relabel K a b c).
  Notation Up := (U K a b c).

  (** B acts on the new order as A does on the old one *)
  Definition acts_as (A B : opsum) : Prop :=
    in_N K a b c d A /\ forall psi t, List.length t = N -> eos (rel A) psi t = eos B psi t.

  Lemma U_ext psi phi t : (forall u, List.length u = List.length t -> psi u = phi u) -> List.length t = N -> Up psi t = Up phi t.
  Proof.
    intros E L. unfold U. rewrite E; [reflexivity|]. rewrite (mix_length a c b d) by lia. lia.
  Qed.
  Lemma U_eos A B psi t : acts_as A B -> List.length t = N -> Up (eos A psi) t = eos B (Up psi) t.
  Proof. intros [IA EA] L. rewrite <- (eos_U K a b c d A psi t IA L). apply EA, L. Qed.
  Lemma U_pow A B k psi t : acts_as A B -> List.length t = N -> Up (eos (opow A k) psi) t = eos (opow B k) (Up psi) t.
  Proof.
    intros H. revert t. induction k as [|k IH]; intros t L.
    - rewrite eos_pow0. apply U_ext; [|exact L]. intros u _. apply eos_pow0.
    - rewrite eos_powS. rewrite (U_ext _ (eos A (eos (opow A k) psi))) by (auto; intros u _; apply eos_powS).
      rewrite (U_eos A B _ t H L). apply eos_ext. intros u Lu. apply IH. lia.
  Qed.
  Lemma U_exp inv M A B psi t : acts_as A B -> List.length t = N -> Up (eos (opexp inv M A) psi) t = eos (opexp inv M B) (Up psi) t.
  Proof.
    intros H L. rewrite eos_exp. unfold U at 1. rewrite eos_exp, <- sumN_mul_l. apply sumN_ext. intros k _.
    rewrite <- (U_pow A B k psi t H L). unfold U. ring.
  Qed.
End Transfer.

(** *** Number of alpha electrons *)
Section Alpha.
  Variable K : cring.
  Local Open Scope K_scope.
  Add Ring KrAl : (c_th K).
  Variable n : nat.
  Notation opsum := (list (K * list op)).

  Fixpoint acharge (w : list op) : Z :=
    match w with
    | [] => 0
    | Cre p :: w' => (if Nat.ltb p n then 1 else 0) + acharge w'
    | Ann p :: w' => acharge w' - (if Nat.ltb p n then 1 else 0)
    end%Z.
  Lemma acharge_app v w : (acharge (v ++ w) = acharge v + acharge w)%Z.
  Proof. induction v as [|[p|p] v IH]; cbn [app acharge]; lia. Qed.
  Definition aneutral (A : opsum) : Prop := Forall (fun x => acharge (snd x) = 0%Z) A.
  Definition afix (z : Z) (psi : state K) : Prop :=
    forall t, List.length t = (n + n)%nat -> Z.of_nat (nel (firstn n t)) <> z -> psi t = 0.

  Lemma firstn_put m p v s : firstn m (put p v s) = if Nat.ltb p m then put p v (firstn m s) else firstn m s.
  Proof.
    revert p s. induction m as [|m IH]; intros p s; [destruct (Nat.ltb_spec p 0); [lia|reflexivity]|].
    destruct s as [|x s]; [destruct p; cbn; match goal with |- context[if ?y then _ else _] => destruct y | _ => idtac end; reflexivity|].
    destruct p as [|p]; [reflexivity|]. cbn [put firstn]. rewrite IH.
    change (Nat.ltb (S p) (S m)) with (Nat.ltb p m). destruct (Nat.ltb p m); reflexivity.
  Qed.
  Lemma afix_eo o z psi : afix z psi -> afix (z + acharge [o]) (eo o psi).
  Proof.
    intros H t L N. unfold eo. destruct (_ && _) eqn:C; [|reflexivity].
    apply andb_true_iff in C as [C1 C2]. apply Nat.ltb_lt in C1. apply eqb_prop in C2.
    rewrite H; [ring|rewrite put_length; auto|].
    rewrite firstn_put. destruct (Nat.ltb_spec (opi o) n) as [Lo|Lo].
    - assert (Lf : (opi o < List.length (firstn n t))%nat) by (rewrite firstn_length; lia).
      pose proof (nel_put (opi o) (negb (opb o)) (firstn n t) Lf) as P.
      assert (Oc : occd (firstn n t) (opi o) = occd t (opi o)).
      { rewrite <- (firstn_skipn n t) at 2. rewrite occd_l by exact Lf. reflexivity. }
      rewrite Oc, C2 in P. destruct o as [p|p]; cbn [opi opb negb acharge] in *; apply Nat.ltb_lt in Lo; rewrite Lo in N; lia.
    - destruct o as [p|p]; cbn [opi opb negb acharge] in *; apply Nat.ltb_ge in Lo; rewrite Lo in N; lia.
  Qed.
  Lemma afix_eow w z psi : afix z psi -> afix (z + acharge w) (eow w psi).
  Proof.
    intros H. induction w as [|o w IH]; cbn [eow].
    - intros t L N. apply H; auto. cbn [acharge] in N. lia.
    - intros t L N. apply (afix_eo o (z + acharge w) _ IH t L). intros E. apply N. rewrite E.
      change (o :: w) with ([o] ++ w). rewrite acharge_app. lia.
  Qed.
  Lemma afix_eos A z psi : aneutral A -> afix z psi -> afix z (eos A psi).
  Proof.
    intros HA H t L N. unfold eos. apply SL_zero. intros x Hx. unfold aneutral in HA. rewrite Forall_forall in HA.
    rewrite (afix_eow (snd x) z psi H t L); [ring|]. rewrite (HA x Hx). lia.
  Qed.
  Lemma aneutral_exp inv M A : aneutral A -> aneutral (opexp inv M A).
  Proof.
    intros HA. apply Forall_forall. intros x Hx. apply in_flat_map in Hx as (k & _ & Hx).
    apply in_map_iff in Hx as (y & <- & Hy). cbn [snd]. revert y Hy. apply Forall_forall.
    induction k as [|k IH]; cbn [opow]; [repeat constructor|].
    apply Forall_forall. intros x Hx. unfold opmul in Hx. apply in_flat_map in Hx as (u & Hu & Hx).
    apply in_map_iff in Hx as (v & <- & Hv). cbn [snd]. rewrite acharge_app.
    unfold aneutral in *. rewrite Forall_forall in HA, IH. rewrite (HA u Hu), (IH v Hv). reflexivity.
  Qed.

  Ltac seqs := repeat match goal with
    | H : In _ (seq _ _) |- _ => apply in_seq in H
    | H : In _ (below _) |- _ => unfold below in H
    | H : In (_, _) (list_prod _ _) |- _ => apply in_prod_iff in H as [? ?]
    | x : (nat * nat)%type |- _ => destruct x
    | H : In _ (flat_map _ _) |- _ => apply in_flat_map in H as (? & ? & ?)
    | H : In _ (map _ _) |- _ => apply in_map_iff in H as (? & ? & ?); subst
    | H : (_, _) = (_, _) |- _ => injection H as ? ?; subst
    end.
  Ltac words := cbn [snd fst acharge];
    repeat match goal with |- context[Nat.ltb ?x ?y] => destruct (Nat.ltb_spec x y); try lia end; try lia.
  Lemma aneutral_H ha hb Ia Ib Iab : aneutral (H_spatial_op n ha hb Ia Ib Iab).
  Proof.
    unfold H_spatial_op, aneutral. rewrite !Forall_app. unfold one_body, two_body.
    repeat split; apply Forall_forall; intros x Hx; seqs; words.
  Qed.
  Lemma aneutral_T noa nva nob nvb t1a t1b t2aa t2ab t2bb : (noa + nva)%nat = n -> (nob + nvb)%nat = n ->
    aneutral (T_spins n noa nva nob nvb t1a t1b t2aa t2ab t2bb).
  Proof.
    intros Na Nb. unfold T_spins, aneutral. rewrite !Forall_app.
    unfold T_alpha1, T_beta1, T_alpha2, T_mixed2, T_beta2, singles, doubles, mixed_doubles.
    repeat split; apply Forall_forall; intros x Hx; seqs; words.
  Qed.
End Alpha.

(** *** The unrestricted equations *)
Lemma ndiff_levels no nv n t : (no + nv)%nat = n -> List.length t = n -> nel t = no -> exists k, ndiff (aufbau n no) t = (2 * k)%nat.
Proof. intros <- L N. exists (vlev no t). exact (proj2 (proj2 (vlev_excited no nv t L N))). Qed.
Section UCCSchr.
  Variable K : cring.
  Local Open Scope K_scope.
  Add Ring KrUC : (c_th K).
  Variables n noa nva nob nvb : nat.
  Variables ha hb : nat -> nat -> K.
  Variables Ia Ib Iab : nat -> nat -> nat -> nat -> K.
  Variables Fa Fb : one_e K.
  Variables Iaa Ibb : two_e K.
  Variable J : two_e_full K.
  Hypothesis HU : u_hamiltonian n noa nva nob nvb ha hb Ia Ib Iab Fa Fb Iaa Ibb J.
  Variables T1a T1b T2aa T2ab T2bb : tensor K.
  Hypothesis HT : u_amps_ok noa nva nob nvb T1a T1b T2aa T2ab T2bb.
  Variable inv : nat -> K.
  Variable M : nat.
  Hypothesis HI : inverts inv M.
  Hypothesis HM : (nva + nvb < M)%nat.
  Notation no := (noa + nob)%nat.
  Notation nv := (nva + nvb)%nat.
  Notation HS := (H_spatial_op n ha hb Ia Ib Iab).
  Notation TS := (u_cluster n noa nva nob nvb T1a T1b T2aa T2ab T2bb).
  Notation XS := (opexp inv M TS).
  Notation A0 := (aufbau n noa).
  Notation B0 := (aufbau n nob).
  Notation refS := (A0 ++ B0).
  Notation ref := (aufbau (no + nv) no).
  Notation hc := (hC K n noa nva nob ha hb).
  Notation gc := (gC K n noa nva nob Ia Ib Iab).
  Notation H := (H_op (no + nv) hc gc).
  Notation Up := (U K noa nob nva).
  Notation mixs := (mix noa nva nob).

  Lemma Na : (noa + nva)%nat = n. Proof. exact (proj1 HU). Qed.
  Lemma Nb : (nob + nvb)%nat = n. Proof. exact (proj1 (proj2 HU)). Qed.
  Lemma NN : (noa + nob + nva + nvb = n + n)%nat.
  Proof. pose proof Na as HNa. pose proof Nb as HNb. lia. Qed.

  Lemma ham_ok : u_ham_ok noa nva nob nvb Fa Fb Iaa Ibb J.
  Proof.
    destruct HU as (_ & _ & PA & PB & BFa & BFb & BIa & BIb & BJ).
    assert (AA : antisym_ints (noa + nva) (anti Ia)).
    { intros p q r s Lp Lq Lr Ls. rewrite Na in *. unfold anti. rewrite (PA q p r s), (PA q p s r) by assumption. split; ring. }
    assert (AB : antisym_ints (nob + nvb) (anti Ib)).
    { intros p q r s Lp Lq Lr Ls. rewrite Nb in *. unfold anti. rewrite (PB q p r s), (PB q p s r) by assumption. split; ring. }
    split; [exact (proj1 BFa)|]. split; [exact (proj1 BFb)|].
    split; [exact (blocks_I_ok K noa nva (anti Ia) Iaa AA BIa)|]. split; [exact (blocks_I_ok K nob nvb (anti Ib) Ibb AB BIb)|].
    destruct BJ as (J1 & J2 & J3 & J4 & J5 & J6 & J7 & J8 & J9 & J10 & J11 & J12 & J13 & J14 & J15 & J16).
    exact (conj (proj1 J1) (conj (proj1 J2) (conj (proj1 J3) (conj (proj1 J4) (conj (proj1 J5) (conj (proj1 J6) (conj (proj1 J7) (conj (proj1 J8) (conj (proj1 J9) (conj (proj1 J10) (conj (proj1 J11) (conj (proj1 J12) (conj (proj1 J13) (conj (proj1 J14) (conj (proj1 J15) (proj1 J16)))))))))))))))).
  Qed.

  Lemma ref_blocks : ref = repeat true noa ++ repeat true nob ++ repeat false nva ++ repeat false nvb.
  Proof. rewrite aufbau_split, !repeat_app, <- app_assoc. reflexivity. Qed.
  Lemma refS_blocks : refS = repeat true noa ++ repeat false nva ++ repeat true nob ++ repeat false nvb.
  Proof. rewrite <- Na at 1. rewrite <- Nb. rewrite !aufbau_split, <- app_assoc. reflexivity. Qed.
  Lemma U_ref t : List.length t = (n + n)%nat -> Up (kd ref) t = kd refS t.
  Proof.
    intros L. pose proof NN as HNN. rewrite (U_kd K noa nob nva nvb) by (rewrite ?aufbau_length; lia).
    rewrite ref_blocks, refS_blocks, mix_app, eps_app by (rewrite repeat_length; reflexivity).
    unfold par at 2. rewrite nel_repeat_false, andb_false_r. cbn [CISpec.sgn]. ring.
  Qed.

  Lemma acts_H : acts_as K noa nob nva nvb H HS.
  Proof.
    split.
    - pose proof (H_in K no nv hc gc) as Q. revert Q. apply Forall_impl. intros x. apply Forall_impl. intros o Ho. lia.
    - intros psi t L. apply (eos_H K n noa nva nob nvb Na Nb). rewrite L. exact NN.
  Qed.

  Variables T1 T2 : tensor K.
  Hypothesis E1 : T1_to_spin T1a T1b noa nva nob nvb = Some T1.
  Hypothesis E2 : T2_to_spin T2aa T2ab T2bb noa nva nob nvb = Some T2.
  Notation T := (cluster no nv T1 T2).
  Notation X := (opexp inv M T).

  Lemma acts_T : acts_as K noa nob nva nvb T TS.
  Proof.
    split.
    - apply Forall_forall. intros x Hx. unfold cluster, T_op in Hx. apply in_app_or in Hx as [Hx|Hx].
      + apply in_flat_map in Hx as (a & Ha & Hx). apply in_map_iff in Hx as (i & <- & Hi). apply in_seq in Ha, Hi.
        repeat first [apply Forall_cons | apply Forall_nil]; cbn [opi]; lia.
      + apply in_flat_map in Hx as (a & Ha & Hx). apply in_flat_map in Hx as (b & Hb & Hx). apply in_flat_map in Hx as (i & Hi & Hx).
        apply in_map_iff in Hx as (j & <- & Hj). apply in_seq in Ha, Hb, Hi, Hj.
        repeat first [apply Forall_cons | apply Forall_nil]; cbn [opi]; lia.
    - intros psi t L. apply (eos_Tu K n noa nva nob nvb Na Nb T1a T1b T2aa T2ab T2bb T1 T2 HT E1 E2). rewrite L. exact NN.
  Qed.

  Definition sg (t : det) : K := CISpec.sgn (eps noa nva nob t).
  Lemma amp_X t : List.length t = (n + n)%nat -> amp t XS refS = sg t * amp (mixs t) X ref.
  Proof.
    intros L. pose proof NN as HNN. rewrite !amp_eos. change (sg t * eos X (kd ref) (mixs t)) with (Up (eos X (kd ref)) t).
    rewrite (U_exp K noa nob nva nvb inv M T TS _ t acts_T) by lia. apply eos_ext. intros u Lu. symmetry. apply U_ref. lia.
  Qed.
  Lemma amp_HX t : List.length t = (n + n)%nat -> amp t (opmul HS XS) refS = sg t * amp (mixs t) (opmul H X) ref.
  Proof.
    intros L. pose proof NN as HNN. rewrite !amp_eos.
    change (sg t * eos (opmul H X) (kd ref) (mixs t)) with (Up (eos (opmul H X) (kd ref)) t).
    rewrite (U_ext K noa nob nva nvb _ (eos H (eos X (kd ref))) t) by (try lia; intros u _; apply eos_opmul).
    rewrite (U_eos K noa nob nva nvb H HS _ t acts_H) by lia. rewrite eos_opmul. apply eos_ext. intros u Lu.
    rewrite (U_exp K noa nob nva nvb inv M T TS _ u acts_T) by lia. apply eos_ext. intros w Lw. symmetry. apply U_ref. lia.
  Qed.
  Lemma amp_H t : List.length t = (n + n)%nat -> amp t HS refS = sg t * amp (mixs t) H ref.
  Proof.
    intros L. pose proof NN as HNN. rewrite !amp_eos. change (sg t * eos H (kd ref) (mixs t)) with (Up (eos H (kd ref)) t).
    rewrite (U_eos K noa nob nva nvb H HS _ t acts_H) by lia. apply eos_ext. intros u Lu. symmetry. apply U_ref. lia.
  Qed.
  Lemma mix_refS : mixs refS = ref /\ sg refS = 1.
  Proof.
    rewrite refS_blocks. unfold sg. rewrite mix_app, eps_app by (rewrite repeat_length; reflexivity).
    unfold par at 1. rewrite nel_repeat_false, ref_blocks. split; reflexivity.
  Qed.
  Lemma refS_len : List.length refS = (n + n)%nat.
  Proof. rewrite app_length, !aufbau_length. reflexivity. Qed.

  Lemma sg_cancel t (x y z : K) : sg t * x = z * (sg t * y) <-> x = z * y.
  Proof.
    unfold sg. destruct (eps noa nva nob t); cbn [CISpec.sgn]; split; intros E.
    - transitivity (- (- (1) * x)); [ring|]. rewrite E. ring.
    - rewrite E. ring.
    - transitivity (1 * x); [ring|]. rewrite E. ring.
    - rewrite E. ring.
  Qed.

  Lemma eq_iff E t : List.length t = (n + n)%nat ->
    amp t (opmul HS XS) refS = E * amp t XS refS <-> amp (mixs t) (opmul H X) ref = E * amp (mixs t) X ref.
  Proof. intros L. rewrite (amp_X t L), (amp_HX t L). apply sg_cancel. Qed.

  (** excitation levels *)
  Lemma mix_nel t : List.length t = (n + n)%nat -> nel (mixs t) = nel t.
  Proof.
    intros L. pose proof NN as HNN. destruct (blocks4 noa nva nob nvb t ltac:(lia)) as (u & v & w & x & -> & Lu & Lv & Lw & Lx).
    rewrite mix_app by auto. rewrite !nel_app. lia.
  Qed.
  Lemma mix_ndiff t : List.length t = (n + n)%nat -> ndiff ref (mixs t) = ndiff refS t.
  Proof.
    intros L. pose proof NN as HNN. destruct (blocks4 noa nva nob nvb t ltac:(lia)) as (u & v & w & x & -> & Lu & Lv & Lw & Lx).
    rewrite mix_app by auto. rewrite ref_blocks, refS_blocks.
    rewrite !ndiff_app by (rewrite repeat_length; auto). lia.
  Qed.
  Lemma mix_len t : List.length t = (n + n)%nat -> List.length (mixs t) = (no + nv)%nat.
  Proof. intros L. pose proof NN as HNN. rewrite (mix_length noa nva nob nvb) by lia. lia. Qed.
  Lemma excited_mix k t : List.length t = (n + n)%nat -> (excited k refS t <-> excited k ref (mixs t)).
  Proof.
    intros L. unfold excited. rewrite (mix_nel t L), (mix_ndiff t L), (mix_len t L), L, refS_len, aufbau_length.
    pose proof Na as HNa. pose proof Nb as HNb.
    rewrite nel_app, !nel_aufbau by lia. split; intros (P1 & P2 & P3); repeat split; auto.
  Qed.

  Lemma afix_ref : afix K n (Z.of_nat noa) (kd refS).
  Proof.
    intros t L Nq. unfold kd. destruct (det_eqb refS t) eqn:E; [|reflexivity]. apply det_eqb_eq in E. subst t. exfalso. apply Nq.
    rewrite firstn_app, aufbau_length, Nat.sub_diag, firstn_all2 by (rewrite aufbau_length; lia). cbn [firstn].
    rewrite app_nil_r, nel_aufbau; [reflexivity|]. pose proof Na as HNa. lia.
  Qed.
  Lemma afix_X : afix K n (Z.of_nat noa) (eos XS (kd refS)).
  Proof. apply afix_eos; [|exact afix_ref]. apply aneutral_exp. apply aneutral_T; [exact Na|exact Nb]. Qed.
  Lemma off_space E t : List.length t = (n + n)%nat -> nel (firstn n t) <> noa -> amp t (opmul HS XS) refS = E * amp t XS refS.
  Proof.
    intros L D. rewrite !amp_eos, eos_opmul.
    rewrite (afix_eos K n HS (Z.of_nat noa) _ (aneutral_H K n ha hb Ia Ib Iab) afix_X t L) by lia.
    rewrite (afix_X t L) by lia. ring.
  Qed.

  (** a determinant excited k times with noa alpha electrons is in the space of at most k excitations *)
  Lemma excited_u k t : excited k refS t -> nel (firstn n t) = noa ->
    u_space k A0 B0 (firstn n t, skipn n t) /\ t = firstn n t ++ skipn n t.
  Proof.
    intros (L & Ne & D) Ea. rewrite refS_len in L. pose proof Na as HNa. pose proof Nb as HNb.
    assert (Lf : List.length (firstn n t) = n) by (rewrite firstn_length; lia).
    assert (Ls : List.length (skipn n t) = n) by (rewrite skipn_length; lia).
    split; [|symmetry; apply firstn_skipn]. rewrite <- (firstn_skipn n t) in Ne, D.
    rewrite !nel_app, !nel_aufbau in Ne by lia. rewrite ndiff_app in D by (rewrite aufbau_length; lia).
    assert (Eb : nel (skipn n t) = nob) by lia.
    destruct (ndiff_levels noa nva n (firstn n t) Na Lf Ea) as (ka & Da).
    destruct (ndiff_levels nob nvb n (skipn n t) Nb Ls Eb) as (kb & Db).
    exists ka, kb. cbn [fst snd]. unfold excited. rewrite !aufbau_length, !nel_aufbau by lia. repeat split; auto. lia.
  Qed.
End UCCSchr.

Section Solved.
  Variable K : cring.
  Local Open Scope K_scope.
  Add Ring KrSo : (c_th K).
  Lemma opp_zero (x : K) : - x = 0 <-> x = 0.
  Proof. split; intros E; [transitivity (- (- x)); [ring|rewrite E; ring]|rewrite E; ring]. Qed.

  Lemma solved_spin noa nva nob nvb (S1 S2 ta tb aa ab bb S1' S2' : tensor K) :
    T1_to_spin ta tb noa nva nob nvb = Some S1' -> teq S1 S1' -> T2_to_spin aa ab bb noa nva nob nvb = Some S2' -> teq S2 S2' ->
    shp ta = [nva; noa] -> shp tb = [nvb; nob] -> shp aa = [nva; nva; noa; noa] ->
    shp ab = [nva; nvb; noa; nob] -> shp bb = [nvb; nvb; nob; nob] ->
    ((forall a i, (a < nva + nvb)%nat -> (i < noa + nob)%nat -> dat S1 [a; i] = 0) /\
     (forall a b i j, (a < nva + nvb)%nat -> (b < nva + nvb)%nat -> (i < noa + nob)%nat -> (j < noa + nob)%nat -> dat S2 [a; b; i; j] = 0)
     <-> u_solved noa nva nob nvb ta tb aa ab bb).
  Proof.
    intros E1 Q1 E2 Q2 Pa Pb Paa Pab Pbb.
    destruct (T1_to_spin_holds K ta tb noa nva nob nvb Pa Pb) as (x & Ex & H1). rewrite E1 in Ex. injection Ex as <-.
    destruct (T2_to_spin_holds K aa ab bb noa nva nob nvb Paa Pab Pbb) as (x & Ex & H2). rewrite E2 in Ex. injection Ex as <-.
    assert (X1 : forall s1 s2 a i, (a < side_len s1 nva nvb)%nat -> (i < side_len s2 noa nob)%nat ->
      dat S1 [at_spin nva s1 a; at_spin noa s2 i] = match spin2 ta tb [s1; s2] with Some u => dat u [a; i] | None => 0 end).
    { intros s1 s2 a i La Li. rewrite <- (entry2 K _ _ _ _ _ _ s1 s2 a i H1 La Li). apply (proj2 Q1). rewrite (proj1 Q1), (proj1 H1).
      cbn [sums]. repeat constructor; unfold at_spin, side_len in *; destruct s1, s2; lia. }
    assert (X2 : forall s1 s2 s3 s4 a b i j, (a < side_len s1 nva nvb)%nat -> (b < side_len s2 nva nvb)%nat -> (i < side_len s3 noa nob)%nat -> (j < side_len s4 noa nob)%nat ->
      dat S2 [at_spin nva s1 a; at_spin nva s2 b; at_spin noa s3 i; at_spin noa s4 j]
      = match spin4_anti aa ab bb [s1; s2; s3; s4] with Some u => dat u [a; b; i; j] | None => 0 end).
    { intros s1 s2 s3 s4 a b i j La Lb Li Lj. rewrite <- (entry4 K _ _ _ _ _ _ _ _ _ _ s1 s2 s3 s4 a b i j H2 La Lb Li Lj). apply (proj2 Q2).
      rewrite (proj1 Q2), (proj1 H2). cbn [sums]. repeat constructor; unfold at_spin, side_len in *; destruct s1, s2, s3, s4; lia. }
    assert (B : forall x y s i, (i < side_len s x y)%nat -> (at_spin x s i < x + y)%nat).
    { intros x y s i. unfold side_len, at_spin. destruct s; lia. }
    split.
    - intros [Z1 Z2]. split; [|split; [|split; [|split]]].
      + intros a i La Li. pose proof (X1 false false a i La Li) as X. cbn [spin2] in X. rewrite <- X. apply Z1; apply B; assumption.
      + intros a i La Li. pose proof (X1 true true a i La Li) as X. cbn [spin2] in X. rewrite <- X. apply Z1; apply B; assumption.
      + intros a b i j La Lb Li Lj. pose proof (X2 false false false false a b i j La Lb Li Lj) as X. cbn [spin4_anti spin4] in X.
        rewrite <- X. apply Z2; apply B; assumption.
      + intros a b i j La Lb Li Lj. pose proof (X2 false true false true a b i j La Lb Li Lj) as X. cbn [spin4_anti spin4] in X.
        rewrite <- X. apply Z2; apply B; assumption.
      + intros a b i j La Lb Li Lj. pose proof (X2 true true true true a b i j La Lb Li Lj) as X. cbn [spin4_anti spin4] in X.
        rewrite <- X. apply Z2; apply B; assumption.
    - intros (Z1 & Z2 & Z3 & Z4 & Z5). split.
      + intros a i La Li. destruct (at_split _ _ _ La) as (s1 & a' & -> & La'). destruct (at_split _ _ _ Li) as (s2 & i' & -> & Li').
        rewrite X1 by assumption. destruct s1, s2; cbn [spin2]; auto.
      + intros a b i j La Lb Li Lj. destruct (at_split _ _ _ La) as (s1 & a' & -> & La'). destruct (at_split _ _ _ Lb) as (s2 & b' & -> & Lb').
        destruct (at_split _ _ _ Li) as (s3 & i' & -> & Li'). destruct (at_split _ _ _ Lj) as (s4 & j' & -> & Lj').
        rewrite X2 by assumption.
        destruct s1, s2, s3, s4; cbn [spin4_anti spin4]; try reflexivity;
          cbn [tneg swap_both swap_ket swap_bra swap map nth dat shp]; try (apply (proj2 (opp_zero _))); auto.
  Qed.
End Solved.

Section UMain.
  Variable K : cring.
  Local Open Scope K_scope.
  Add Ring KrUM : (c_th K).
  Variables n noa nva nob nvb : nat.
  Variables ha hb : nat -> nat -> K.
  Variables Ia Ib Iab : nat -> nat -> nat -> nat -> K.
  Variables Fa Fb : one_e K.
  Variables Iaa Ibb : two_e K.
  Variable J : two_e_full K.
  Hypothesis HU : u_hamiltonian n noa nva nob nvb ha hb Ia Ib Iab Fa Fb Iaa Ibb J.
  Variables T1a T1b T2aa T2ab T2bb : tensor K.
  Hypothesis HT : u_amps_ok noa nva nob nvb T1a T1b T2aa T2ab T2bb.
  Variable inv : nat -> K.
  Variable M : nat.
  Hypothesis HI : inverts inv M.
  Hypothesis HM : (nva + nvb < M)%nat.
  Notation HS := (H_spatial_op n ha hb Ia Ib Iab).
  Notation XS := (opexp inv M (u_cluster n noa nva nob nvb T1a T1b T2aa T2ab T2bb)).
  Notation A0 := (aufbau n noa).
  Notation B0 := (aufbau n nob).
  Notation refS := (A0 ++ B0).

  Lemma u_schroedinger : exists e ta tb aa ab bb,
    returns (K := K) "ucc_energy" [tup [arr T1a; arr T1b]; tup [arr T2aa; arr T2ab; arr T2bb];
      arr (ov Fa); arr (ov Fb); arr (oovv Iaa); arr (oovv Ibb); arr (foovv J)] (numv e) /\
    returns (K := K) "uccsd_stanton" [py_one_e Fa; py_one_e Fb; py_two_e Iaa; py_two_e Ibb; py_two_e_full J;
        tup [arr T1a; arr T1b]; tup [arr T2aa; arr T2ab; arr T2bb]]
      (tup [tup [arr ta; arr tb]; tup [arr aa; arr ab; arr bb]]) /\
    amp refS XS refS = 1 /\ amp refS (opmul HS XS) refS = amp refS HS refS + e /\
    (u_solved noa nva nob nvb ta tb aa ab bb <->
     forall x, u_space 2 A0 B0 x ->
       amp (fst x ++ snd x) (opmul HS XS) refS = (amp refS HS refS + e) * amp (fst x ++ snd x) XS refS) /\
    ((Nat.min noa nva + Nat.min nob nvb <= 2)%nat -> u_solved noa nva nob nvb ta tb aa ab bb ->
     forall t, List.length t = (n + n)%nat ->
       amp t (opmul HS XS) refS = (amp refS HS refS + e) * amp t XS refS).
  Proof.
    assert (HH : u_ham_ok noa nva nob nvb Fa Fb Iaa Ibb J) by (eapply ham_ok; eassumption).
    pose proof (Na K n noa nva nob nvb ha hb Ia Ib Iab Fa Fb Iaa Ibb J HU) as Na.
    pose proof (Nb K n noa nva nob nvb ha hb Ia Ib Iab Fa Fb Iaa Ibb J HU) as Nb.
    destruct (uccsd_spin_shapes K _ _ _ _ _ _ _ _ _ _ _ _ _ _ HH HT)
      as (F & I & T1 & T2 & S1 & S2 & ta & tb & aa & ab & bb & S1' & S2' & EF & EI & E1 & E2 & RS & RU & Q1 & Q1' & Q2 & Q2' & P1 & P2 & P3 & P4 & P5).
    pose proof HU as (_ & _ & PA & PB & BFa & BFb & BIa & BIb & BJ).
    pose proof (F_blocks K n noa nva nob nvb Na Nb ha hb Ia Ib Iab Fa Fb BFa BFb F EF) as BF.
    pose proof (I_blocks K n noa nva nob nvb Na Nb Ia Ib Iab Iaa Ibb J BIa BIb BJ I EI) as BI.
    pose proof (anti_gC K n noa nva nob nvb Na Nb Ia Ib Iab PA PB) as AG.
    pose proof HT as (O1 & O2 & O3 & O4 & O5).
    pose proof (T1_to_spin_ok K T1a T1b noa nva nob nvb O1 O2) as (T1'' & X1 & OT1 & _). rewrite E1 in X1. injection X1 as <-.
    pose proof (T2_to_spin_ok K T2aa T2ab T2bb noa nva nob nvb O3 O4 O5) as (T2'' & X2 & OT2 & _). rewrite E2 in X2. injection X2 as <-.
    destruct (schroedinger K _ _ _ _ F I AG BF BI inv M HI HM T1 T2 OT1 OT2 "ccsd_stanton"%string (or_intror eq_refl))
      as (e & R1 & R2 & He & HR & _ & _ & N1 & Q & _).
    pose proof (returns_fun K _ _ _ _ RS HR) as X. injection X as <- <-.
    destruct (energy_sum K _ _ _ _ F I AG BF BI inv M HI HM T1 T2 OT1 OT2) as (e' & He' & EE).
    pose proof (returns_fun K _ _ _ _ He He') as X. injection X as <-.
    destruct (en_sound K _ _ _ _ _ _ _ _ _ _ _ _ _ _ _ _ _ _ _ _ _ c10_chk1 HH HT EF EI E1 E2) as (e' & He'' & HeU).
    pose proof (returns_fun K _ _ _ _ He He'') as X. injection X as <-.
    exists e, ta, tb, aa, ab, bb. split; [exact HeU|]. split; [exact RU|].
    destruct (mix_refS K n noa nva nob nvb ha hb Ia Ib Iab Fa Fb Iaa Ibb J HU) as [MR SR].
    pose proof (refS_len n noa nob) as LR.
    assert (E0 : amp refS HS refS = amp (aufbau (noa + nob + (nva + nvb)) (noa + nob)) (H_op (noa + nob + (nva + nvb)) (hC K n noa nva nob ha hb) (gC K n noa nva nob Ia Ib Iab)) (aufbau (noa + nob + (nva + nvb)) (noa + nob))).
    { rewrite (amp_H K n noa nva nob nvb ha hb Ia Ib Iab Fa Fb Iaa Ibb J HU M HM) by exact LR. rewrite MR, SR. ring. }
    split; [|split].
    { rewrite (amp_X K n noa nva nob nvb ha hb Ia Ib Iab Fa Fb Iaa Ibb J HU T1a T1b T2aa T2ab T2bb HT inv M HM T1 T2 E1 E2) by exact LR.
      rewrite MR, SR, N1. ring. }
    { rewrite (amp_HX K n noa nva nob nvb ha hb Ia Ib Iab Fa Fb Iaa Ibb J HU T1a T1b T2aa T2ab T2bb HT inv M HM T1 T2 E1 E2) by exact LR.
      rewrite MR, SR, EE, E0. ring. }
    rewrite (solved_spin K noa nva nob nvb S1 S2 ta tb aa ab bb S1' S2' Q1 Q1' Q2 Q2' P1 P2 P3 P4 P5) in Q.
    rewrite <- E0 in Q.
    pose proof (eq_iff K n noa nva nob nvb ha hb Ia Ib Iab Fa Fb Iaa Ibb J HU T1a T1b T2aa T2ab T2bb HT inv M HM T1 T2 E1 E2 (amp refS HS refS + e)) as EQ.
    pose proof (excited_mix K n noa nva nob nvb ha hb Ia Ib Iab Fa Fb Iaa Ibb J HU M HM) as EM.
    pose proof (off_space K n noa nva nob nvb ha hb Ia Ib Iab Fa Fb Iaa Ibb J HU T1a T1b T2aa T2ab T2bb inv M HM (amp refS HS refS + e)) as OFF.
    assert (INV : forall t, List.length t = (noa + nob + (nva + nvb))%nat -> exists u, List.length u = (n + n)%nat /\ t = mix noa nva nob u).
    { intros t L. exists (mix noa nob nva t). rewrite (mix_length noa nob nva nvb) by lia. split; [lia|].
      symmetry. apply (mix_mix noa nob nva nvb). lia. }
    assert (IFF : u_solved noa nva nob nvb ta tb aa ab bb <->
      forall x, u_space 2 A0 B0 x -> amp (fst x ++ snd x) (opmul HS XS) refS = (amp refS HS refS + e) * amp (fst x ++ snd x) XS refS).
    { rewrite Q. split.
      - intros S [x y] (ka & kb & (L1 & N1' & D1) & (L2 & N2' & D2) & Lk). cbn [fst snd] in *. rewrite aufbau_length in L1, L2.
        assert (L : List.length (x ++ y) = (n + n)%nat) by (rewrite app_length; lia).
        apply EQ; [exact L|]. apply (S (ka + kb)%nat); [exact Lk|]. apply EM; [exact L|].
        split; [rewrite L, LR; reflexivity|]. split; [rewrite !nel_app; lia|]. rewrite ndiff_app by (rewrite aufbau_length; auto). lia.
      - intros S k t Lk Xk. pose proof (proj1 Xk) as Lt. rewrite aufbau_length in Lt. destruct (INV t Lt) as (u & Lu & ->).
        apply EM in Xk; [|exact Lu]. apply EQ; [exact Lu|].
        destruct (Nat.eq_dec (nel (firstn n u)) noa) as [Ea|Ea]; [|apply OFF; assumption].
        destruct (excited_u K n noa nva nob nvb ha hb Ia Ib Iab Fa Fb Iaa Ibb J HU M HM k u Xk Ea) as [(ka & kb & Xa & Xb & Lab) Eu].
        rewrite Eu. apply (S (firstn n u, skipn n u)). exists ka, kb. split; [exact Xa|]. split; [exact Xb|]. lia. }
    split; [exact IFF|]. intros Small Z t L.
    destruct (Nat.eq_dec (nel (firstn n t)) noa) as [Ea|Ea]; [|apply OFF; assumption].
    destruct (Nat.eq_dec (nel (skipn n t)) nob) as [Eb|Eb].
    - assert (Lf : List.length (firstn n t) = n) by (rewrite firstn_length; lia).
      assert (Ls : List.length (skipn n t) = n) by (rewrite skipn_length; lia).
      destruct (ndiff_levels noa nva n (firstn n t) Na Lf Ea) as (ka & Da).
      destruct (ndiff_levels nob nvb n (skipn n t) Nb Ls Eb) as (kb & Db).
      assert (Xa : excited ka A0 (firstn n t)).
      { unfold excited. rewrite aufbau_length, nel_aufbau by lia. auto. }
      assert (Xb : excited kb B0 (skipn n t)).
      { unfold excited. rewrite aufbau_length, nel_aufbau by lia. auto. }
      destruct (excited_bound _ _ _ Xa) as [B1 B2]. destruct (excited_bound _ _ _ Xb) as [B3 B4].
      rewrite aufbau_length in B2, B4. rewrite nel_aufbau in B1, B2, B3, B4 by lia.
      rewrite <- (firstn_skipn n t). apply (proj1 IFF Z (firstn n t, skipn n t)). exists ka, kb. repeat split; try apply Xa; try apply Xb. lia.
    - assert (Nn : nel t <> (noa + nob)%nat) by (rewrite <- (firstn_skipn n t), nel_app; lia).
      apply EQ; [exact L|]. pose proof (mix_len K n noa nva nob nvb ha hb Ia Ib Iab Fa Fb Iaa Ibb J HU M HM t L) as Lm.
      pose proof (mix_nel K n noa nva nob nvb ha hb Ia Ib Iab Fa Fb Iaa Ibb J HU M HM t L) as Nm.
      rewrite !amp_eos, eos_opmul.
      assert (NX : nfix K (noa + nob) (nva + nvb) (Z.of_nat (noa + nob)) (eos (opexp inv M (cluster (noa + nob) (nva + nvb) T1 T2)) (kd (aufbau (noa + nob + (nva + nvb)) (noa + nob))))).
      { apply nfix_eos; [|apply nfix_ref]. apply neutral_exp, neutral_T. }
      rewrite (nfix_eos K (noa + nob) (nva + nvb) _ _ _ (neutral_H K (noa + nob) (nva + nvb) _ _) NX (mix noa nva nob t) Lm) by lia.
      rewrite (NX (mix noa nva nob t) Lm) by lia. ring.
  Qed.
End UMain.
