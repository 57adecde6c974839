(** The coupled cluster functions and the CI functions on the same Hamiltonian:
    H_on_vec applied to the coefficients of makeCfromT. *)
From Coq Require Import List Bool Arith ZArith Lia Ring String Factorial.
From Verif Require Import Scalar Tensor PySyntax PySem CCProg CIModel CICfromT CIRep CISpec CIFacts CIStrings CIBases CIFock CIMatrix CILemmas CIVec CIExpSpec CIExp CIExpU
  CCSpec CCFockSpec FockStates FockExp FockT FockH FockSchr FockPerm CCSchr SpinSpec UFockSpec UFock UFockOps UCCSchr.
Import ListNotations.
Local Open Scope list_scope.

(** *** One row of an operator of at most two bodies *)
Section Row.
  Variable K : cring.
  Local Open Scope K_scope.
  Add Ring KrRow : (c_th K).
  Notation opsum := (list (K * list op)).

  Lemma eow_at n w s : List.length s = (n + n)%nat ->
    (forall psi : state K, eow w psi s = 0) \/
    exists g s', List.length s' = (n + n)%nat /\ (ndiff s' s <= List.length w)%nat /\
      (Z.of_nat (nel (firstn n s')) + acharge n w = Z.of_nat (nel (firstn n s)))%Z /\
      (Z.of_nat (nel s') + charge w = Z.of_nat (nel s))%Z /\
      forall psi : state K, eow w psi s = sgn g * psi s'.
  Proof.
    revert s. induction w as [|o w IH]; intros s L.
    - right. exists false, s. rewrite ndiff_refl. cbn. repeat split; try lia. intros psi. ring.
    - destruct (Nat.ltb (opi o) (List.length s) && Bool.eqb (occd s (opi o)) (opb o)) eqn:C.
      2: { left. intros psi. cbn [eow]. unfold eo. rewrite C. reflexivity. }
      pose proof C as C'. apply andb_true_iff in C' as [C1 C2]. apply Nat.ltb_lt in C1. apply eqb_prop in C2.
      set (u := put (opi o) (negb (opb o)) s).
      assert (Lu : List.length u = (n + n)%nat) by (unfold u; rewrite put_length; exact L).
      destruct (IH u Lu) as [Z|(g & s' & L' & D & A & N & E)].
      { left. intros psi. cbn [eow]. unfold eo. rewrite C. fold u. rewrite Z. ring. }
      right. exists (xorb (odd_below (opi o) s) g), s'.
      assert (Du : (ndiff u s <= 1)%nat).
      { unfold u. rewrite ndiff_sym. rewrite ndiff_put by exact C1. match goal with |- ((if ?y then _ else _) <= _)%nat => destruct y end; lia. }
      assert (Nu : (Z.of_nat (nel s) = Z.of_nat (nel u) + charge [o])%Z).
      { pose proof (nel_put (opi o) (negb (opb o)) s C1) as P. fold u in P. rewrite C2 in P.
        destruct o as [p|p]; cbn [opi opb negb charge] in *; lia. }
      assert (Au : (Z.of_nat (nel (firstn n s)) = Z.of_nat (nel (firstn n u)) + acharge n [o])%Z).
      { unfold u. rewrite firstn_put. destruct (Nat.ltb_spec (opi o) n) as [Lo|Lo].
        - assert (Lf : (opi o < List.length (firstn n s))%nat) by (rewrite firstn_length; lia).
          pose proof (nel_put (opi o) (negb (opb o)) (firstn n s) Lf) as P.
          assert (Oc : occd (firstn n s) (opi o) = occd s (opi o)).
          { rewrite <- (firstn_skipn n s) at 2. rewrite occd_l by exact Lf. reflexivity. }
          rewrite Oc, C2 in P. apply Nat.ltb_lt in Lo. destruct o as [p|p]; cbn [opi opb negb acharge] in *; rewrite Lo; lia.
        - apply Nat.ltb_ge in Lo. destruct o as [p|p]; cbn [opi opb negb acharge] in *; rewrite Lo; lia. }
      split; [exact L'|]. split; [pose proof (ndiff_triangle s' u s ltac:(lia) ltac:(lia)); cbn [List.length]; lia|].
      change (o :: w) with ([o] ++ w). rewrite acharge_app, charge_app.
      split; [lia|]. split; [lia|].
      intros psi. cbn [app eow]. unfold eo. rewrite C. fold u. rewrite E, <- sgn_sgn. ring.
  Qed.

  Definition short (A : opsum) : Prop := Forall (fun x => (List.length (snd x) <= 4)%nat) A.

  Lemma delta_sum (L : list det) x (f : det -> K) : NoDup L -> In x L -> SL L (fun y => kd y x * f y) = f x.
  Proof.
    induction L as [|y L IH]; intros ND I; [destruct I|]. rewrite SL_cons. inversion ND as [|? ? NI ND']; subst.
    destruct I as [->|I].
    - unfold kd at 1. rewrite det_eqb_refl. rewrite (SL_zero K L); [ring|]. intros z Iz. unfold kd.
      destruct (det_eqb z x) eqn:E; [|ring]. apply det_eqb_eq in E. subst. contradiction.
    - rewrite IH by assumption. unfold kd at 1. destruct (det_eqb y x) eqn:E; [|ring]. apply det_eqb_eq in E. subst. contradiction.
  Qed.

  Lemma row_sum n (A : opsum) (L : list det) psi s : short A -> aneutral K n A -> neutral K A -> NoDup L ->
    List.length s = (n + n)%nat ->
    (forall s', List.length s' = (n + n)%nat -> (ndiff s' s <= 4)%nat -> nel (firstn n s') = nel (firstn n s) -> nel s' = nel s -> In s' L) ->
    eos A psi s = SL L (fun x => amp s A x * psi x).
  Proof.
    intros Sh Au Ne ND Ls Cl.
    rewrite (SL_ext K L _ (fun x => SL A (fun a => fst a * (eow (snd a) (kd x) s * psi x)))).
    2: { intros x _. rewrite amp_eos. unfold eos. rewrite <- SL_mul_r. apply SL_ext. intros a _. ring. }
    rewrite SL_swap. unfold eos. apply SL_ext. intros a Ia. rewrite SL_mul. f_equal.
    unfold short, aneutral, neutral in *. rewrite Forall_forall in Sh, Au, Ne.
    destruct (eow_at n (snd a) s Ls) as [Z|(g & s' & L' & D & Ca & Cn & E)].
    - rewrite Z. symmetry. apply SL_zero. intros x _. rewrite Z. ring.
    - rewrite E. rewrite (Au a Ia) in Ca. rewrite (Ne a Ia) in Cn. pose proof (Sh a Ia) as S4. cbv beta in S4.
      rewrite (SL_ext K L _ (fun x => sgn g * (kd x s' * psi x))) by (intros x _; rewrite E; ring).
      rewrite SL_mul, delta_sum; [reflexivity|exact ND|]. apply Cl; auto; lia.
  Qed.

  Lemma short_H n ha hb Ia Ib Iab : short (H_spatial_op (K := K) n ha hb Ia Ib Iab).
  Proof.
    unfold H_spatial_op, short. rewrite !Forall_app. unfold one_body, two_body.
    repeat split; apply Forall_forall; intros x Hx;
      repeat match goal with
      | H : In _ (flat_map _ _) |- _ => apply in_flat_map in H as (? & ? & ?)
      | H : In _ (map _ _) |- _ => apply in_map_iff in H as (? & ? & ?); subst end; cbn; lia.
  Qed.
  Lemma neutral_HS n ha hb Ia Ib Iab : neutral K (H_spatial_op (K := K) n ha hb Ia Ib Iab).
  Proof.
    unfold H_spatial_op, neutral. rewrite !Forall_app. unfold one_body, two_body.
    repeat split; apply Forall_forall; intros x Hx;
      repeat match goal with
      | H : In _ (flat_map _ _) |- _ => apply in_flat_map in H as (? & ? & ?)
      | H : In _ (map _ _) |- _ => apply in_map_iff in H as (? & ? & ?); subst end; cbn; lia.
  Qed.

  (** the operator and its matrix elements *)
  Lemma amp_app s (A B : opsum) x : amp s (A ++ B) x = amp s A x + amp s B x.
  Proof. unfold amp. rewrite map_app. apply lsum_app. Qed.
  Lemma amp_one n x h s t : amp s (one_body (K := K) n x h) t = sumN n (fun p => sumN n (fun q => h p q * braket s [Cre (x p); Ann (x q)] t)).
  Proof.
    change (amp s (one_body n x h) t) with (SL (one_body n x h) (fun a => fst a * braket s (snd a) t)).
    unfold one_body. rewrite SL_fm_seq. apply sumN_ext. intros p _. rewrite SL_map_seq. reflexivity.
  Qed.
  Lemma amp_two n x y g s t : amp s (two_body (K := K) n x y g) t = sumN n (fun p => sumN n (fun q => sumN n (fun r => sumN n (fun u =>
    g p q r u * braket s [Cre (x p); Cre (y q); Ann (y u); Ann (x r)] t)))).
  Proof.
    change (amp s (two_body n x y g) t) with (SL (two_body n x y g) (fun a => fst a * braket s (snd a) t)).
    unfold two_body. rewrite SL_fm_seq. apply sumN_ext. intros p _. rewrite SL_fm_seq. apply sumN_ext. intros q _.
    rewrite SL_fm_seq. apply sumN_ext. intros r _. rewrite SL_map_seq. reflexivity.
  Qed.
  Lemma half_out n (f : nat -> nat -> nat -> nat -> K) (b : nat -> nat -> nat -> nat -> K) :
    sumN n (fun p => sumN n (fun q => sumN n (fun r => sumN n (fun u => chalf * f p q r u * b p q r u))))
    = chalf * sumN n (fun p => sumN n (fun q => sumN n (fun r => sumN n (fun u => f p q r u * b p q r u)))).
  Proof.
    rewrite <- sumN_mul_l. apply sumN_ext. intros p _. rewrite <- sumN_mul_l. apply sumN_ext. intros q _.
    rewrite <- sumN_mul_l. apply sumN_ext. intros r _. rewrite <- sumN_mul_l. apply sumN_ext. intros u _. ring.
  Qed.
  Lemma H_spatial_amp n ha hb Ia Ib Iab s t :
    H_spatial (K := K) n 0 ha hb Ia Ib Iab s t = amp s (H_spatial_op n ha hb Ia Ib Iab) t.
  Proof.
    unfold H_spatial, H_spatial_op. cbv zeta. rewrite !amp_app, !amp_one, !amp_two, !half_out. ring.
  Qed.
  Lemma exp_amp_amp inv M s T t : exp_amp (K := K) inv M s T t = amp s (opexp inv M T) t.
  Proof.
    rewrite amp_eos, eos_exp. unfold exp_amp. apply sumN_ext. intros k _. rewrite amp_eos. reflexivity.
  Qed.
End Row.

(** *** The CI functions on the coupled cluster coefficients *)
Lemma level2 n no nv A B t : A = aufbau n no -> B = aufbau n nv -> (no <= n)%nat -> (nv <= n)%nat ->
  List.length t = (n + n)%nat -> nel (firstn n t) = no -> nel t = (no + nv)%nat ->
  exists ka kb, excited ka A (firstn n t) /\ excited kb B (skipn n t) /\ (2 * (ka + kb) = ndiff (A ++ B) t)%nat /\
    (ka <= Nat.min no (n - no))%nat /\ (kb <= Nat.min nv (n - nv))%nat.
Proof.
  intros -> -> La Lb L Ea En.
  assert (Lf : List.length (firstn n t) = n) by (rewrite firstn_length; lia).
  assert (Ls : List.length (skipn n t) = n) by (rewrite skipn_length; lia).
  assert (Eb : nel (skipn n t) = nv).
  { rewrite <- (firstn_skipn n t), nel_app in En. lia. }
  destruct (ndiff_levels no (n - no) n (firstn n t) ltac:(lia) Lf Ea) as (ka & Da).
  destruct (ndiff_levels nv (n - nv) n (skipn n t) ltac:(lia) Ls Eb) as (kb & Db).
  assert (Xa : excited ka (aufbau n no) (firstn n t)).
  { unfold excited. rewrite aufbau_length, nel_aufbau by lia. auto. }
  assert (Xb : excited kb (aufbau n nv) (skipn n t)).
  { unfold excited. rewrite aufbau_length, nel_aufbau by lia. auto. }
  exists ka, kb. split; [exact Xa|]. split; [exact Xb|].
  destruct (excited_bound _ _ _ Xa) as [B1 B2]. destruct (excited_bound _ _ _ Xb) as [B3 B4].
  rewrite aufbau_length in B2, B4. rewrite nel_aufbau in B1, B2, B3, B4 by lia.
  split; [|lia]. rewrite <- (firstn_skipn n t) at 1. rewrite ndiff_app by (rewrite aufbau_length; lia). lia.
Qed.

Section CCCI.
  Variable K : cring.
  Local Open Scope K_scope.
  Add Ring KrCC : (c_th K).
  Variables n noa nva nob nvb : nat.
  Variables ha hb Ia Ib Iab : tensor K.
  Hypothesis Pha : shp ha = [n; n].
  Hypothesis Phb : shp hb = [n; n].
  Hypothesis PIa : shp Ia = [n; n; n; n].
  Hypothesis PIb : shp Ib = [n; n; n; n].
  Hypothesis PIab : shp Iab = [n; n; n; n].
  Variables Fa Fb : one_e K.
  Variables Iaa Ibb : two_e K.
  Variable J : two_e_full K.
  Notation ha_ := (fun p q => dat ha [p; q]).
  Notation hb_ := (fun p q => dat hb [p; q]).
  Notation Ia_ := (fun p q r s => dat Ia [p; q; r; s]).
  Notation Ib_ := (fun p q r s => dat Ib [p; q; r; s]).
  Notation Iab_ := (fun p q r s => dat Iab [p; q; r; s]).
  Hypothesis HU : u_hamiltonian n noa nva nob nvb ha_ hb_ Ia_ Ib_ Iab_ Fa Fb Iaa Ibb J.
  Variables T1a T1b T2aa T2ab T2bb : tensor K.
  Hypothesis HT : u_amps_ok noa nva nob nvb T1a T1b T2aa T2ab T2bb.
  Variable inv : nat -> K.
  Hypothesis Inv : forall d, (0 < d)%nat -> nK K d * inv d = 1.
  Notation HS := (H_spatial_op n ha_ hb_ Ia_ Ib_ Iab_).
  Notation TS := (u_cluster n noa nva nob nvb T1a T1b T2aa T2ab T2bb).
  Notation A0 := (aufbau n noa).
  Notation B0 := (aufbau n nob).
  Notation refS := (A0 ++ B0).

  (** the basis of order m *)
  Variable m : nat.
  Variable L : list (det * det).
  Variable C : list K.
  Hypothesis ND : NoDup L.
  Hypothesis InL : forall x, In x L <-> u_space m A0 B0 x.
  Hypothesis HdL : hd_error L = Some (A0, B0).
  Hypothesis HC : forall M, (m <= M)%nat -> C = map (fun x : det * det => exp_amp inv M (fst x ++ snd x) TS refS) L.
  Definition Mx : nat := (m + S (nva + nvb))%nat.
  Notation XS := (opexp inv Mx TS).
  Notation nmax := (Nat.min noa nva + Nat.min nob nvb)%nat.
  Definition lst (x : det * det) : det := fst x ++ snd x.

  Lemma NaL : (noa + nva = n)%nat. Proof. exact (proj1 HU). Qed.
  Lemma NbL : (nob + nvb = n)%nat. Proof. exact (proj1 (proj2 HU)). Qed.
  Lemma in_space x : In x L -> List.length (fst x) = n /\ List.length (snd x) = n /\ nel (fst x) = noa /\ nel (snd x) = nob.
  Proof.
    intros I. apply InL in I as (ka & kb & (E1 & E2 & _) & (E3 & E4 & _) & _). pose proof NaL. pose proof NbL.
    rewrite aufbau_length in E1, E3. rewrite nel_aufbau in E2, E4 by lia. auto.
  Qed.
  Lemma ND' : NoDup (map lst L).
  Proof.
    assert (X : forall l, incl l L -> NoDup l -> NoDup (map lst l)).
    { induction l as [|x l IH]; intros I N; [constructor|]. inversion N as [|? ? NI N']; subst. cbn [map]. constructor.
      - intros Hx. apply in_map_iff in Hx as (y & E & Iy). apply NI. assert (y = x); [|subst; exact Iy].
        destruct (in_space x (I x (or_introl eq_refl))) as (L1 & _). destruct (in_space y (I y (or_intror Iy))) as (L2 & _).
        unfold lst in E. apply (app_inv (fst y) (snd y) (fst x) (snd x) ltac:(lia)) in E as [E1 E2]. destruct x, y; cbn in *; congruence.
      - apply IH; auto. intros y Iy. apply I. right. exact Iy. }
    apply X; [apply incl_refl|exact ND].
  Qed.

  Definition closed_row (x : det * det) : Prop := (exists k, u_space k A0 B0 x /\ (k + 2 <= m)%nat) \/ (nmax <= m)%nat.

  Lemma row x : In x L -> closed_row x ->
    lsum (map (fun y => H_spatial n 0 ha_ hb_ Ia_ Ib_ Iab_ (lst x) (lst (fst y)) * snd y) (combine L C)) = amp (lst x) (opmul HS XS) refS.
  Proof.
    intros Ix Cl. pose proof NaL as Na. pose proof NbL as Nb. destruct (in_space x Ix) as (L1 & L2 & N1 & N2).
    assert (Lx : List.length (lst x) = (n + n)%nat) by (unfold lst; rewrite app_length; lia).
    assert (Fx : firstn n (lst x) = fst x).
    { unfold lst. rewrite firstn_app, L1, Nat.sub_diag. cbn [firstn]. rewrite app_nil_r, <- L1 at 1. apply firstn_all. }
    assert (Nx : nel (lst x) = (noa + nob)%nat) by (unfold lst; rewrite nel_app; lia).
    rewrite amp_eos, eos_opmul.
    rewrite (row_sum K n HS (map lst L) _ (lst x) (short_H K _ _ _ _ _ _) (aneutral_H K n _ _ _ _ _) (neutral_HS K _ _ _ _ _ _) ND' Lx).
    - rewrite SL_map. rewrite (HC Mx) by (unfold Mx; lia).
      assert (X : forall (f : det * det -> K) l, combine l (map f l) = map (fun y => (y, f y)) l).
      { intros f l. induction l as [|y l IH]; [reflexivity|]. cbn. rewrite IH. reflexivity. }
      rewrite X, map_map. unfold SL. f_equal. apply map_ext. intros y. cbn [fst snd].
      rewrite H_spatial_amp, exp_amp_amp, (amp_eos K (fst y ++ snd y)). reflexivity.
    - intros s' Ls' D Ea En. rewrite Fx, N1 in Ea. rewrite Nx in En.
      destruct (level2 n noa nob _ _ s' eq_refl eq_refl ltac:(lia) ltac:(lia) Ls' Ea En) as (ka & kb & Xa & Xb & Lv & B1 & B2).
      apply in_map_iff. exists (firstn n s', skipn n s'). split; [unfold lst; cbn [fst snd]; apply firstn_skipn|].
      apply InL. exists ka, kb. cbn [fst snd]. split; [exact Xa|]. split; [exact Xb|].
      destruct Cl as [(k & (ja & jb & Ja & Jb & Lj) & Lk)|Sm].
      + assert (Dx : ndiff refS (lst x) = (2 * (ja + jb))%nat).
        { unfold lst. rewrite ndiff_app by (rewrite aufbau_length; lia). destruct Ja as (_ & _ & ->). destruct Jb as (_ & _ & ->). lia. }
        pose proof (ndiff_triangle refS (lst x) s' ltac:(rewrite app_length, !aufbau_length; lia) ltac:(lia)) as Tr.
        rewrite (ndiff_sym (lst x) s') in Tr. lia.
      + replace (n - noa)%nat with nva in B1 by lia. replace (n - nob)%nat with nvb in B2 by lia. lia.
  Qed.

  Lemma C_at j x : nth_error L j = Some x -> nth j C 0 = amp (lst x) XS refS.
  Proof.
    intros E. rewrite (HC Mx) by (unfold Mx; lia). rewrite <- exp_amp_amp.
    apply nth_error_nth. rewrite nth_error_map, E. reflexivity.
  Qed.

  Lemma Hc_ok : exists Hc, H_on_vec K (map dpair L) C ha hb Ia Ib Iab = Some Hc /\ List.length Hc = List.length L /\
    forall j x, nth_error L j = Some x -> closed_row x -> nth j Hc 0 = amp (lst x) (opmul HS XS) refS.
  Proof.
    pose proof HU as (_ & _ & SA & SB & _).
    eexists. split; [|split].
    - apply (H_on_vec_ok K n noa nob L C ha hb Ia Ib Iab Pha Phb PIa PIb PIab SA SB in_space).
      rewrite (HC m (le_n m)). apply map_length.
    - unfold project. apply map_length.
    - intros j x E Cl. rewrite <- (row x (nth_error_In _ _ E) Cl). unfold project.
      apply nth_error_nth. exact (map_nth_error _ _ _ E).
  Qed.

  Notation solved := (u_solved noa nva nob nvb).
  Lemma cc_ci : exists e ta tb aa ab bb Hc,
    returns (K := K) "ucc_energy" [tup [arr T1a; arr T1b]; tup [arr T2aa; arr T2ab; arr T2bb];
      arr (ov Fa); arr (ov Fb); arr (oovv Iaa); arr (oovv Ibb); arr (foovv J)] (numv e) /\
    returns (K := K) "uccsd_stanton" [py_one_e Fa; py_one_e Fb; py_two_e Iaa; py_two_e Ibb; py_two_e_full J;
        tup [arr T1a; arr T1b]; tup [arr T2aa; arr T2ab; arr T2bb]]
      (tup [tup [arr ta; arr tb]; tup [arr aa; arr ab; arr bb]]) /\
    H_on_vec K (map dpair L) C ha hb Ia Ib Iab = Some Hc /\ List.length Hc = List.length L /\ List.length C = List.length L /\
    nth 0 C 0 = 1 /\
    let E := H_spatial n 0 ha_ hb_ Ia_ Ib_ Iab_ refS refS + e in
    ((2 <= m)%nat -> nth 0 Hc 0 = E) /\
    (solved ta tb aa ab bb -> forall j x, nth_error L j = Some x -> u_space 2 A0 B0 x -> closed_row x ->
       nth j Hc 0 = E * nth j C 0) /\
    ((2 <= m)%nat -> (4 <= m \/ nmax <= m)%nat ->
      (forall j x, nth_error L j = Some x -> u_space 2 A0 B0 x -> nth j Hc 0 = E * nth j C 0) -> solved ta tb aa ab bb) /\
    (m = 2%nat -> (nmax <= 2)%nat -> (Hc = map (fun c => E * c) C <-> solved ta tb aa ab bb)).
  Proof.
    destruct (u_schroedinger K n noa nva nob nvb _ _ _ _ _ Fa Fb Iaa Ibb J HU T1a T1b T2aa T2ab T2bb HT inv Mx)
      as (e & ta & tb & aa & ab & bb & He & HR & N1 & EE & IFF & _).
    { intros k _. apply Inv. apply lt_O_fact. }
    { unfold Mx. lia. }
    destruct Hc_ok as (Hc & EH & LH & RH).
    assert (LC : List.length C = List.length L) by (rewrite (HC m (le_n m)); apply map_length).
    exists e, ta, tb, aa, ab, bb, Hc. do 5 (split; [assumption|]).
    assert (E0 : nth_error L 0 = Some (A0, B0)) by (destruct L; [discriminate HdL|exact HdL]).
    split; [rewrite (C_at 0 _ E0); exact N1|]. cbv zeta. rewrite H_spatial_amp.
    set (E := amp refS HS refS + e) in *.
    assert (U0 : u_space 0 A0 B0 (A0, B0)).
    { exists 0%nat, 0%nat. cbn [fst snd]. unfold excited. rewrite !ndiff_refl. auto. }
    assert (Sub : (2 <= m)%nat -> forall x, u_space 2 A0 B0 x -> In x L).
    { intros Lm x (ka & kb & Xa & Xb & Lk). apply InL. exists ka, kb. repeat split; try apply Xa; try apply Xb. lia. }
    assert (F2 : forall (P : Prop), P \/ ~ P -> True) by auto. clear F2.
    split; [|split; [|split]].
    - intros Lm. rewrite (RH 0%nat _ E0); [exact EE|]. left. exists 0%nat. split; [exact U0|lia].
    - intros Sv j x Ej U2 Cl. rewrite (RH j x Ej Cl), (C_at j x Ej). apply (proj1 IFF Sv). exact U2.
    - intros Lm Cl Rows. apply IFF. intros x U2. destruct (In_nth_error _ _ (Sub Lm x U2)) as (j & Ej).
      pose proof (Rows j x Ej U2) as R. rewrite (C_at j x Ej) in R. rewrite (RH j x Ej) in R; [exact R|].
      destruct Cl as [Cl|Cl]; [left; exists 2%nat; split; [exact U2|lia]|right; exact Cl].
    - intros Em Sm. split.
      + intros Eq. apply IFF. intros x U2. destruct (In_nth_error _ _ (Sub ltac:(lia) x U2)) as (j & Ej).
        change (fst x ++ snd x) with (lst x).
        rewrite <- (C_at j x Ej), <- (RH j x Ej) by (right; lia). rewrite Eq.
        rewrite (nth_indep _ 0 (E * 0)) by (rewrite map_length, LC; apply nth_error_Some; congruence).
        rewrite (map_nth (fun c => E * c)). reflexivity.
      + intros Sv. apply (nth_ext _ _ 0 (E * 0)); [rewrite map_length; congruence|]. intros j Lj.
        rewrite (map_nth (fun c => E * c)). rewrite LH in Lj. destruct (nth_error L j) as [x|] eqn:Ej; [|apply nth_error_None in Ej; lia].
        rewrite (RH j x Ej) by (right; lia). rewrite (C_at j x Ej). apply (proj1 IFF Sv).
        rewrite Em in InL. apply InL. exact (nth_error_In _ _ Ej).
  Qed.
End CCCI.

Section Orders.
  Variable K : cring.
  Variable inv : nat -> K.
  Hypothesis Inv : forall d, (0 < d)%nat -> cmul (nK K d) (inv d) = c1.
  Variables n noa nva nob nvb : nat.
  Hypothesis Na : (noa + nva)%nat = n.
  Hypothesis Nb : (nob + nvb)%nat = n.
  Variables T1a T1b T2aa T2ab T2bb : tensor K.
  Hypothesis HT : u_amps_ok noa nva nob nvb T1a T1b T2aa T2ab T2bb.

  Definition order_facts (m : nat) (b : list (dstring * dstring)) : Prop :=
    exists L C, b = map dpair L /\ NoDup L /\ hd_error L = Some (aufbau n noa, aufbau n nob) /\
      (forall x, In x L <-> u_space m (aufbau n noa) (aufbau n nob) x) /\
      makeCfromT K inv noa nva nob nvb T1a T1b T2aa T2ab T2bb (Z.of_nat m) = Some C /\
      forall M, (m <= M)%nat -> C = map (fun x : det * det => exp_amp inv M (fst x ++ snd x)
        (u_cluster n noa nva nob nvb T1a T1b T2aa T2ab T2bb) (aufbau n noa ++ aufbau n nob)) L.

  Lemma from_order m (b : list (dstring * dstring)) (basis : option (list (dstring * dstring))) L L' :
    basis = Some b -> basis = Some (map dpair L) -> NoDup (map dpair L) ->
    hd_error L = Some (aufbau n noa, aufbau n nob) ->
    (forall x, In x L <-> u_space m (aufbau n noa) (aufbau n nob) x) ->
    basis = Some (map dpair L') ->
    (forall M, (m <= M)%nat -> makeCfromT K inv noa nva nob nvb T1a T1b T2aa T2ab T2bb (Z.of_nat m)
      = Some (map (fun x : det * det => exp_amp inv M (fst x ++ snd x)
        (u_cluster n noa nva nob nvb T1a T1b T2aa T2ab T2bb) (aufbau n noa ++ aufbau n nob)) L')) ->
    order_facts m b.
  Proof.
    intros Eb E ND Hd InL E' HC.
    assert (X : L' = L).
    { rewrite E in E'. injection E' as E'. symmetry. revert E'. clear. revert L'. induction L as [|x l IH]; intros [|y l'] E; try discriminate; [reflexivity|].
      cbn [map] in E. f_equal; [apply dpair_inj; exact (f_equal (hd (dpair x)) E)|apply IH; exact (f_equal (@tl _) E)]. }
    subst L'. exists L. eexists. split; [congruence|]. split; [apply NoDup_map_inv in ND; exact ND|]. split; [exact Hd|]. split; [exact InL|].
    split; [exact (HC m (le_n m))|]. intros M HM. pose proof (HC m (le_n m)) as X. rewrite (HC M HM) in X. injection X as X. symmetry. exact X.
  Qed.

  Lemma order2 b : ucisd_basis n noa nob = Some b -> order_facts 2 b.
  Proof.
    intros E. pose proof HT as (P1 & P2 & (P3 & _) & P4 & (P5 & _)).
    destruct (ucisd_ok n noa nob) as (L & E1 & ND & Hd & InL).
    destruct (C2 K inv Inv n noa nva nob nvb Na Nb T1a T1b T2aa T2ab T2bb P1 P2 P3 P4 P5) as (L' & E2 & HC).
    exact (from_order 2 b _ L L' E E1 ND Hd InL E2 HC).
  Qed.
  Lemma order3 b : ucisdt_basis n noa nob = Some b -> order_facts 3 b.
  Proof.
    intros E. pose proof HT as (P1 & P2 & (P3 & _) & P4 & (P5 & _)).
    destruct (ucisdt_ok n noa nob) as (L & E1 & ND & Hd & InL).
    destruct (C3 K inv Inv n noa nva nob nvb Na Nb T1a T1b T2aa T2ab T2bb P1 P2 P3 P4 P5) as (L' & E2 & HC).
    exact (from_order 3 b _ L L' E E1 ND Hd InL E2 HC).
  Qed.
  Lemma order4 b : (noa < 4 \/ nva < 4)%nat -> (nob < 4 \/ nvb < 4)%nat -> (noa < 2 \/ nva < 2 \/ nob < 2 \/ nvb < 2)%nat ->
    ucisdtq_basis n noa nob = Some b -> order_facts 4 b.
  Proof.
    intros Qa Qb Few E. pose proof HT as (P1 & P2 & (P3 & _) & P4 & (P5 & _)).
    destruct (ucisdtq_ok n noa nob) as (L & E1 & ND & Hd & InL); try lia.
    destruct (C4_few K inv Inv n noa nva nob nvb Na Nb T1a T1b T2aa T2ab T2bb P1 P2 P3 P4 P5 Qa Qb Few) as (L' & E2 & HC).
    exact (from_order 4 b _ L L' E E1 ND Hd InL E2 HC).
  Qed.
End Orders.
