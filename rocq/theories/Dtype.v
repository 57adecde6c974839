(** Assigning complex values to real arrays. *)
From Coq Require Import List Bool Arith ZArith Lia.
From Verif Require Import Scalar Tensor PySyntax PySem CCProg CCSpec NpModel SpinModel IntegralsModel CIModel ExModel DtypeModel DtypeSpec.
Import ListNotations.
Local Open Scope list_scope.

Section Dtype.
  Variable R : cring.
  Add Ring Rr : (c_th R).
  Notation C := (CplxK R).
  Notation T := (tensor C).
  Notation rs := (real_store (R := R)).

  Lemma both_refl {A} (x : option A) : both (fun a b => a = b) x x.
  Proof. now destruct x. Qed.
  Lemma both_bind {A B A' B'} (P : A -> B -> Prop) (Q : A' -> B' -> Prop) x y f g :
    both P x y -> (forall a b, P a b -> both Q (f a) (g b)) -> both Q (bindo x f) (bindo y g).
  Proof. destruct x, y; cbn; try tauto; auto. Qed.
  Lemma both_same {A A' B'} (Q : A' -> B' -> Prop) (x : option A) f g :
    (forall a, x = Some a -> both Q (f a) (g a)) -> both Q (bindo x f) (bindo x g).
  Proof. destruct x; cbn; auto. Qed.
  Lemma re_idem (z : C) : re (re z) = re z. Proof. reflexivity. Qed.

  Lemma zeros_rel sh : real_part_of (R := R) (tzeros C sh) (tzeros C sh).
  Proof. split; reflexivity. Qed.
  Lemma put_rel ss u (t t' : T) : real_part_of t t' -> both real_part_of (put C rs ss u t) (tset ss u t').
  Proof.
    intros (S & D). unfold put, tset. rewrite S. cbn [real_store shp]. destruct (_ && _); cbn; [|trivial].
    split; [reflexivity|]. intros ix. cbn [dat]. destruct (sl_in ss (shp t') ix); [reflexivity|apply D].
  Qed.
  Lemma trans_rel p (t t' : T) : real_part_of t t' -> both real_part_of (ttrans p t) (ttrans p t').
  Proof.
    intros (S & D). unfold ttrans. rewrite S. destruct is_perm; cbn; [|trivial]. split; [reflexivity|]. intros ix. apply D.
  Qed.
  Lemma sub_rel (s s' t t' : T) : real_part_of s s' -> real_part_of t t' -> both real_part_of (tsub s t) (tsub s' t').
  Proof.
    intros (S & D) (S' & D'). unfold tsub, tadd. cbn [tneg shp]. rewrite S, S'. destruct shape_eqb; cbn; [|trivial].
    split; [reflexivity|]. intros ix. cbn [dat tneg]. rewrite D, D'. apply injective_projections; cbn; ring.
  Qed.

  Ltac step := first
    [ apply zeros_rel | assumption | reflexivity | exact I
    | apply put_rel; step
    | apply trans_rel; step
    | apply sub_rel; step
    | match goal with
      | |- both _ (bindo (put _ _ _ _ _) _) _ => eapply both_bind; [apply put_rel; step|intros ? ? ?; step]
      | |- both _ (bindo ?x _) (bindo ?x _) => apply both_same; intros ? _; step
      | |- both _ (Some _) (Some _) => cbn [both]; step
      | |- both _ (if ?b then _ else _) (if ?b then _ else _) => destruct b; step
      | |- both _ (bindo _ _) (bindo _ _) => eapply both_bind; [step|intros ? ? ?; step]
      end ].

  Lemma T1_rel (Ta Tb : T) a b c d : both real_part_of (T1_to_spin_w C rs Ta Tb a b c d) (T1_to_spin Ta Tb a b c d).
  Proof. unfold T1_to_spin_w, T1_to_spin. cbv zeta. step. Qed.
  Lemma T2_rel (Taa Tab Tbb : T) a b c d : both real_part_of (T2_to_spin_w C rs Taa Tab Tbb a b c d) (T2_to_spin Taa Tab Tbb a b c d).
  Proof. unfold T2_to_spin_w, T2_to_spin. cbv zeta. step. Qed.
  Lemma D2_rel (Taa Tab Tbb : T) a b c d : both real_part_of (D2_to_spin_w C rs Taa Tab Tbb a b c d) (D2_to_spin Taa Tab Tbb a b c d).
  Proof. unfold D2_to_spin_w, D2_to_spin. cbv zeta. step. Qed.
  Lemma F_rel (Fa Fb : one_e C) a b c d : both real_part_of1 (F_to_spin_w C rs Fa Fb a b c d) (F_to_spin Fa Fb a b c d).
  Proof.
    unfold F_to_spin_w, F_to_spin. cbv zeta.
    do 8 (eapply both_bind; [step|intros ? ? ?]). cbn. repeat split; cbn [oo ov vo vv]; try apply H0; try apply H2; try apply H4; try apply H6.
  Qed.
  Lemma block_rel (u1 u2 u3 u4 u5 u6 : T) a b c d e f g h :
    both real_part_of (int_to_spin_block_w C rs u1 u2 u3 u4 u5 u6 a b c d e f g h) (int_to_spin_block u1 u2 u3 u4 u5 u6 a b c d e f g h).
  Proof. unfold int_to_spin_block_w, int_to_spin_block. cbv zeta. step. Qed.
  Lemma raw_rel (u1 u2 u3 u4 u5 u6 u7 u8 : T) a b c d e f g h :
    both real_part_of (raw_block_w C rs u1 u2 u3 u4 u5 u6 u7 u8 a b c d e f g h) (raw_block u1 u2 u3 u4 u5 u6 u7 u8 a b c d e f g h).
  Proof. unfold raw_block_w, raw_block. do 7 (apply both_same; intros ? _). apply block_rel. Qed.
  Lemma anti_rel (u1 u2 u3 u4 u5 u6 : T) a b c d e f g h :
    both real_part_of (anti_block_w C rs u1 u2 u3 u4 u5 u6 a b c d e f g h) (anti_block u1 u2 u3 u4 u5 u6 a b c d e f g h).
  Proof. unfold anti_block_w, anti_block. do 3 (apply both_same; intros ? _). apply block_rel. Qed.
  Lemma int_rel (Ia Ib Iab : two_e_full C) a b c d : both real_part_of2 (int_to_spin_w C rs Ia Ib Iab a b c d) (int_to_spin Ia Ib Iab a b c d).
  Proof.
    unfold int_to_spin_w, int_to_spin. do 9 (eapply both_bind; [apply raw_rel|intros ? ? ?]). cbn. repeat split; cbn; apply H || apply H0 || apply H1 || apply H2 || apply H3 || apply H4 || apply H5 || apply H6 || apply H7.
  Qed.
  Lemma int2_rel (Ia Ib : two_e C) (Iab : two_e_full C) a b c d : both real_part_of2 (int_to_spin2_w C rs Ia Ib Iab a b c d) (int_to_spin2 Ia Ib Iab a b c d).
  Proof.
    unfold int_to_spin2_w, int_to_spin2. do 9 (eapply both_bind; [apply anti_rel|intros ? ? ?]). cbn. repeat split; cbn; apply H || apply H0 || apply H1 || apply H2 || apply H3 || apply H4 || apply H5 || apply H6 || apply H7.
  Qed.
  Lemma chemu_rel m (o1 o2 o3 o4 p1 p2 p3 p4 : T) anti :
    both real_part_of (get_chemu_w C rs m o1 o2 o3 o4 p1 p2 p3 p4 anti) (get_chemu C m o1 o2 o3 o4 p1 p2 p3 p4 anti).
  Proof. unfold get_chemu_w, get_chemu. cbv zeta. step. Qed.
  Lemma chemu_all_rel m (oa ob : T) anti : both real_part_of (get_chemu_all_w C rs m oa ob anti) (get_chemu_all C m oa ob anti).
  Proof. unfold get_chemu_all_w, get_chemu_all. cbv zeta. step. Qed.
  Lemma physu_all_rel m (oa ob : T) anti : both real_part_of (get_physu_all_w C rs m oa ob anti) (get_physu_all C m oa ob anti).
  Proof. unfold get_physu_all_w, get_physu_all. eapply both_bind; [apply chemu_all_rel|intros ? ? ?; apply trans_rel; assumption]. Qed.
  Lemma antiu_rel m (o1 o2 o3 o4 p1 p2 p3 p4 : T) :
    both real_part_of (get_phys_antiu_w C rs m o1 o2 o3 o4 p1 p2 p3 p4) (get_phys_antiu C m o1 o2 o3 o4 p1 p2 p3 p4).
  Proof. unfold get_phys_antiu_w, get_phys_antiu. eapply both_bind; [apply chemu_rel|intros ? ? ?; apply trans_rel; assumption]. Qed.

  (** with the identity the functions are those of the other files *)
  Lemma id_defs :
    F_to_spin_w C (fun t => t) = F_to_spin /\ T1_to_spin_w C (fun t => t) = T1_to_spin /\ T2_to_spin_w C (fun t => t) = T2_to_spin /\
    D2_to_spin_w C (fun t => t) = D2_to_spin /\ int_to_spin_w C (fun t => t) = int_to_spin /\ int_to_spin2_w C (fun t => t) = int_to_spin2 /\
    get_chemu_w C (fun t => t) = get_chemu C /\ get_chemu_all_w C (fun t => t) = get_chemu_all C /\
    get_physu_all_w C (fun t => t) = get_physu_all C /\ get_phys_antiu_w C (fun t => t) = get_phys_antiu C.
  Proof. repeat split. Qed.

  (** *** vectors *)
  Notation r1 := (re_store (R := R)).
  Definition relv (x y : list C) : Prop := x = map re y.
  Lemma upd_map i (z : C) l : upd i (re z) (map re l) = map re (upd i z l).
  Proof. revert i. induction l as [|y l IH]; intros [|i]; cbn; [..|rewrite IH]; reflexivity. Qed.
  Lemma zeros_relv n : relv (zeros C n) (zeros C n).
  Proof. unfold relv, zeros. induction n as [|n IH]; [reflexivity|]. exact (f_equal (cons c0) IH). Qed.
  Lemma add_relv x y idx z : relv x y -> both relv (add_at_w C r1 x idx z) (add_at C y idx z).
  Proof.
    intros ->. unfold add_at_w, add_at. rewrite nth_error_map. destruct (nth_error y idx) as [w|]; cbn; [|trivial].
    unfold relv. rewrite <- upd_map. reflexivity.
  Qed.
  Lemma try_relv {A} eqb (basis : list A) new s z x y : relv x y -> both relv (try_add_w C r1 eqb basis new s z x) (try_add C eqb basis new s z y).
  Proof. intros H. unfold try_add_w, try_add. destruct index; [apply add_relv; exact H|exact H]. Qed.
  Lemma loop_relv vec f g : (forall ix z x y, relv x y -> both relv (f ix z x) (g ix z y)) ->
    forall ix x y, relv x y -> both relv (loop_vec C ix vec f x) (loop_vec C ix vec g y).
  Proof.
    intros H. induction vec as [|z vec IH]; intros ix x y Hxy; cbn; [exact Hxy|]. eapply both_bind; [apply H, Hxy|]. intros; apply IH; assumption.
  Qed.
  Lemma loopb_relv {A} (basis : list A) f g : (forall ix z x y, relv x y -> both relv (f ix z x) (g ix z y)) ->
    forall ix x y, relv x y -> both relv (loop_basis C ix basis f x) (loop_basis C ix basis g y).
  Proof.
    intros H. induction basis as [|z vec IH]; intros ix x y Hxy; cbn; [exact Hxy|]. eapply both_bind; [apply H, Hxy|]. intros; apply IH; assumption.
  Qed.
  Ltac vstep := apply loop_relv; [|apply zeros_relv]; intros ? ? ? ? ?;
    repeat first [ apply try_relv; assumption | apply both_same; intros ? _ | assumption
      | match goal with
        | |- both relv (match ?r with Some _ => _ | None => _ end) _ => destruct r
        | p : (_ * _)%type |- _ => destruct p
        | p : upair |- _ => destruct p
        end ].
  Lemma s_relv basis vec i a : both relv (s_on_vec_w C r1 basis vec i a) (s_on_vec C basis vec i a).
  Proof. unfold s_on_vec_w, s_on_vec. vstep. Qed.
  Lemma sa_relv basis vec i a : both relv (sa_on_vec_w C r1 basis vec i a) (sa_on_vec C basis vec i a).
  Proof. unfold sa_on_vec_w, sa_on_vec. vstep. Qed.
  Lemma sb_relv basis vec i a : both relv (sb_on_vec_w C r1 basis vec i a) (sb_on_vec C basis vec i a).
  Proof. unfold sb_on_vec_w, sb_on_vec. vstep. Qed.
  Lemma d_relv basis vec i j a b : both relv (d_on_vec_w C r1 basis vec i j a b) (d_on_vec C basis vec i j a b).
  Proof. unfold d_on_vec_w, d_on_vec. vstep. Qed.
  Lemma da_relv basis vec i j a b : both relv (da_on_vec_w C r1 basis vec i j a b) (da_on_vec C basis vec i j a b).
  Proof. unfold da_on_vec_w, da_on_vec. vstep. Qed.
  Lemma db_relv basis vec i j a b : both relv (db_on_vec_w C r1 basis vec i j a b) (db_on_vec C basis vec i j a b).
  Proof. unfold db_on_vec_w, db_on_vec. vstep. Qed.
  Lemma sasb_relv basis vec i j a b : both relv (sasb_on_vec_w C r1 basis vec i j a b) (sasb_on_vec C basis vec i j a b).
  Proof. unfold sasb_on_vec_w, sasb_on_vec. vstep. Qed.
  Lemma H_relv basis vec ha hb Ia Ib Iab : both relv (H_on_vec_w C r1 basis vec ha hb Ia Ib Iab) (H_on_vec C basis vec ha hb Ia Ib Iab).
  Proof.
    unfold H_on_vec_w, H_on_vec. apply loopb_relv; [|apply zeros_relv]. intros. apply loopb_relv; [|assumption]. intros.
    do 2 (apply both_same; intros ? _). apply add_relv. assumption.
  Qed.
  Lemma gH_relv basis vec h I : both relv (gH_on_vec_w C r1 basis vec h I) (gH_on_vec C basis vec h I).
  Proof.
    unfold gH_on_vec_w, gH_on_vec. apply loopb_relv; [|apply zeros_relv]. intros. apply loopb_relv; [|assumption]. intros.
    do 2 (apply both_same; intros ? _). apply add_relv. assumption.
  Qed.
  Lemma matrix_rel basis (ha hb Ia Ib Iab : T) (c : C) :
    both (fun M N => M = map (map re) N) (ci_matrix_w C r1 basis ha hb Ia Ib Iab c) (ci_matrix basis ha hb Ia Ib Iab c).
  Proof.
    unfold ci_matrix_w, ci_matrix.
    assert (X : forall (A B : Type) (Q : A -> B -> Prop) (f : upair -> option A) g l, (forall x, both Q (f x) (g x)) -> both (Forall2 Q) (omap f l) (omap g l)).
    { intros A B Q f g l H. induction l as [|x l IH]; cbn; [constructor|]. specialize (H x). destruct (f x), (g x); cbn in H; try contradiction; [|trivial].
      destruct (omap f l), (omap g l); cbn in *; try contradiction; [|trivial]. constructor; assumption. }
    assert (Y : forall (x y : list C), Forall2 (fun a b => a = re b) x y -> x = map re y).
    { intros x y H. induction H; cbn; [reflexivity|]. subst. reflexivity. }
    assert (Z : forall (x y : list (list C)), Forall2 (fun a b => a = map re b) x y -> x = map (map re) y).
    { intros x y H. induction H; cbn; [reflexivity|]. subst. reflexivity. }
    assert (M : forall (A B : Type) (P Q : A -> B -> Prop) x y, (forall a b, P a b -> Q a b) -> both P x y -> both Q x y)
      by (intros A B P Q x y H; destruct x, y; cbn; auto).
    apply (M _ _ _ _ _ _ Z). apply X. intros b. apply (M _ _ _ _ _ _ Y). apply X. intros k.
    destruct (ci_matrixel C _ _ _ _ _ _ _ _ _ _); [reflexivity|exact I].
  Qed.

  (** *** real input *)
  Lemma real_same (x y : T) : real_part_of x y -> real_entries y -> same_entries x y.
  Proof. intros (S & D) E. split; [exact S|]. intros ix. rewrite D. specialize (E ix). destruct (dat y ix) as [a b]. cbn in *. subst. reflexivity. Qed.
  Definition yields (x : option T) : Prop := match x with Some t => real_entries t | None => True end.
  Lemma yields_bind {A} (x : option A) f : (forall a, x = Some a -> yields (f a)) -> yields (bindo x f).
  Proof. destruct x; cbn; auto. Qed.
  Lemma yields_bindr (x : option T) f : yields x -> (forall a, real_entries a -> yields (f a)) -> yields (bindo x f).
  Proof. destruct x; cbn; auto. Qed.
  Lemma zeros_real sh : real_entries (tzeros C sh). Proof. intros ix. reflexivity. Qed.
  Lemma set_real ss (u t : T) : real_entries u -> real_entries t -> yields (tset ss u t).
  Proof. intros Hu Ht. unfold tset. destruct (_ && _); [|exact I]. intros ix. cbn [dat]. destruct sl_in; [apply Hu|apply Ht]. Qed.
  Lemma trans_real p (t : T) : real_entries t -> yields (ttrans p t).
  Proof. intros H. unfold ttrans. destruct is_perm; [|exact I]. intros ix. apply H. Qed.
  Lemma neg_real (t : T) : real_entries t -> real_entries (tneg t).
  Proof. intros H ix. change (- snd (dat t ix) = 0)%K. rewrite H. ring. Qed.
  Lemma sub_real (s t : T) : real_entries s -> real_entries t -> yields (tsub s t).
  Proof.
    intros Hs Ht. unfold tsub, tadd. destruct shape_eqb; [|exact I]. intros ix. change (snd (dat s ix) + - snd (dat t ix) = 0)%K.
    rewrite Hs, Ht. ring.
  Qed.
  Lemma same_of (x y : option T) : both real_part_of x y -> yields y -> both same_entries x y.
  Proof. destruct x, y; cbn; auto. apply real_same. Qed.
  Ltac rstep := repeat first
    [ assumption | exact I | apply zeros_real | apply neg_real
    | apply yields_bindr; [|intros ? ?]
    | apply set_real | apply trans_real | apply sub_real
    | match goal with |- yields (Some _) => cbn [yields] end ].
  Lemma T1_real (Ta Tb : T) a b c d : real_entries Ta -> real_entries Tb -> yields (T1_to_spin Ta Tb a b c d).
  Proof. intros. unfold T1_to_spin. cbv zeta. rstep. Qed.
  Lemma T2_real (Taa Tab Tbb : T) a b c d : real_entries Taa -> real_entries Tab -> real_entries Tbb -> yields (T2_to_spin Taa Tab Tbb a b c d).
  Proof. intros. unfold T2_to_spin. cbv zeta. rstep. Qed.
  Lemma D2_real (Taa Tab Tbb : T) a b c d : real_entries Taa -> real_entries Tab -> real_entries Tbb -> yields (D2_to_spin Taa Tab Tbb a b c d).
  Proof. intros. unfold D2_to_spin. cbv zeta. rstep. Qed.
  Lemma block_real (u1 u2 u3 u4 u5 u6 : T) a b c d e f g h :
    real_entries u1 -> real_entries u2 -> real_entries u3 -> real_entries u4 -> real_entries u5 -> real_entries u6 ->
    yields (int_to_spin_block u1 u2 u3 u4 u5 u6 a b c d e f g h).
  Proof. intros. unfold int_to_spin_block. cbv zeta. rstep. Qed.

  (** *** back to spatial orbitals *)
  Lemma slice_rel ss (t t' : T) : real_part_of t t' -> both real_part_of (tslice ss t) (tslice ss t').
  Proof. intros (S & D). unfold tslice. rewrite S. destruct Nat.eqb; cbn; [|trivial]. split; [reflexivity|]. intros ix. apply D. Qed.
  Lemma back_re (x y z : T) : real_part_of x y -> teq y z -> shp x = shp z /\ forall ix, inrange (shp z) ix -> dat x ix = re (dat z ix).
  Proof. intros (S & D) (S' & D'). split; [congruence|]. intros ix I. rewrite D, D' by (rewrite S'; exact I). reflexivity. Qed.
End Dtype.
