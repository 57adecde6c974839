(** Symbolic evaluation of expectation values of operator products with
    summed tensor coefficients: contractions, then elimination of the
    Kronecker deltas, giving the polynomials of Sym.v. *)
From Coq Require Import List Bool Arith ZArith Lia Ring.
From Verif Require Import Scalar CISpec CIFacts CIFock CIMatrix CIVec CIExpSpec CIExp Tensor PySyntax PySem PySim Sym SymSound
  CCSpec CCFockSpec FockStates FockExp FockT.
Import ListNotations.
Local Open Scope list_scope.

(** creation?, class of the orbital, index *)
Definition sop : Type := (bool * positive * ix)%type.
(** a polynomial term times a product of operators *)
Definition st : Type := (mono * list sop)%type.

Definition map_sop (f : ix -> ix) (o : sop) : sop := (fst o, f (snd o)).
Definition st_mul (a b : st) : st :=
  (m_mul (fst a) (fst b), snd a ++ map (map_sop (shift_d (List.length (m_dm (fst a))))) (snd b)).
Definition sts_mul (a b : list st) : list st := flat_map (fun x => map (st_mul x) b) a.
Definition st_close (r : nat) (sc : list cls) (s : st) : st :=
  (m_close r sc (fst s), map (map_sop (close_x r (List.length sc))) (snd s)).

(** class 1 is occupied, class 2 virtual: does the operator annihilate the reference? *)
Definition s_qann (o : sop) : bool := Bool.eqb (Pos.eqb (snd (fst o)) 1) (fst (fst o)).
Definition s_ctr (o y : sop) : bool :=
  Pos.eqb (snd (fst o)) (snd (fst y)) && xorb (fst (fst o)) (fst (fst y)).

(** complete contractions: sign and pairs of contracted indices *)
Fixpoint wickS (fuel : nat) (w : list sop) : list (bool * list (ix * ix)) :=
  match fuel, w with
  | _, [] => [(false, [])]
  | O, _ => []
  | S f, o :: w' =>
      if s_qann o then
        flat_map (fun p : bool * sop * list sop =>
          if s_ctr o (snd (fst p))
          then map (fun q : bool * list (ix * ix) =>
                 (xorb (fst (fst p)) (fst q), (snd o, snd (snd (fst p))) :: snd q)) (wickS f (snd p))
          else []) (picks w')
      else []
  end.

(** replace the summed index n by v (which comes before n) *)
Definition sub_ix (n : nat) (v i : ix) : ix :=
  match i with
  | X x => X x
  | D k => if Nat.eqb k n then v else if Nat.ltb n k then D (k - 1) else D k
  end.
Definition sub_mono (n : nat) (v : ix) (m : mono) : mono :=
  Mono (m_z m) (m_k m) (firstn n (m_dm m) ++ skipn (S n) (m_dm m)) (map_ix (sub_ix n v) (m_fs m)).
Definition sub_pairs (n : nat) (v : ix) (dl : list (ix * ix)) : list (ix * ix) :=
  map (fun p => (sub_ix n v (fst p), sub_ix n v (snd p))) dl.

Definition ix_cls' (sh dm : list cls) (i : ix) : option cls :=
  match i with X n => nth_error sh n | D n => nth_error dm n end.

(** which summed index to replace by which *)
Definition choose (a b : ix) : option (nat * ix) :=
  match a, b with
  | D n, D k => if Nat.ltb n k then Some (k, D n) else if Nat.ltb k n then Some (n, D k) else None
  | D n, X x => Some (n, X x)
  | X x, D n => Some (n, X x)
  | X _, X _ => None
  end.
Definition same_cls (sh dm : list cls) (a b : ix) : bool :=
  match ix_cls' sh dm a, ix_cls' sh dm b with Some c, Some d => Pos.eqb c d | _, _ => false end.

Fixpoint elim (fuel : nat) (sh : list cls) (m : mono) (dl : list (ix * ix)) : option mono :=
  match fuel, dl with
  | _, [] => Some m
  | O, _ => None
  | S f, (a, b) :: dl' =>
      if same_cls sh (m_dm m) a b then
        match choose a b with
        | Some (n, v) => elim f sh (sub_mono n v m) (sub_pairs n v dl')
        | None => match a, b with
                  | D _, D _ => elim f sh m dl'
                  | _, _ => None
                  end
        end
      else None
  end.

Definition sop_typed (sh dm : list cls) (o : sop) : bool :=
  match ix_cls' sh dm (snd o) with
  | Some c => Pos.eqb c (snd (fst o)) && (Pos.eqb c 1 || Pos.eqb c 2)
  | None => false
  end.

Fixpoint all_some {A} (l : list (option A)) : option (list A) :=
  match l with
  | [] => Some []
  | Some a :: l' => match all_some l' with Some r => Some (a :: r) | None => None end
  | None :: _ => None
  end.

Definition m_sign (s : bool) (m : mono) : mono := if s then m_neg m else m.

(** the expectation value of one term *)
Definition vevS (sh : list cls) (s : st) : option (list mono) :=
  if forallb (sop_typed sh (m_dm (fst s))) (snd s) then
    all_some (map (fun q : bool * list (ix * ix) =>
      elim (List.length (snd q)) sh (m_sign (fst q) (fst s)) (snd q)) (wickS (List.length (snd s)) (snd s)))
  else None.
Definition vevs (sh : list cls) (l : list st) : option (list mono) :=
  option_map (@concat mono) (all_some (map (vevS sh) l)).

Definition ix_okb (r d : nat) (i : ix) : bool :=
  match i with X n => Nat.ltb n r | D n => Nat.ltb n d end.
Definition m_okb (r : nat) (m : mono) : bool :=
  forallb (fun p => forallb (ix_okb r (List.length (m_dm m))) (snd p)) (m_fs m).

Lemma m_okb_ok r m : m_okb r m = true -> m_ok r m.
Proof.
  unfold m_okb, m_ok. intros H. rewrite forallb_forall in H. apply Forall_forall. intros p Hp.
  specialize (H p Hp). rewrite forallb_forall in H. apply Forall_forall. intros i Hi. specialize (H i Hi).
  destruct i; cbn in *; apply Nat.ltb_lt; auto.
Qed.

Section WickSound.
  Variable K : cring.
  Local Open Scope K_scope.
  Add Ring KrWS : (c_th K).
  Variables no nv : nat.
  Variable rho : positive -> list nat -> K.

  Definition wdim (c : cls) : nat := match c with 1%positive => no | 2%positive => nv | _ => 0 end.
  Definition orb (c : cls) (i : nat) : nat := match c with 2%positive => (no + i)%nat | _ => i end.
  Definition mkop (b : bool) (p : nat) : op := if b then Cre p else Ann p.
  Definition conc (xs ds : list nat) (o : sop) : op := mkop (fst (fst o)) (orb (snd (fst o)) (look xs ds (snd o))).

  Definition fprod (xs ds : list nat) (m : mono) : K := prodK (map (den_fac K rho xs ds) (m_fs m)).
  Definition den_st (xs : list nat) (s : st) (psi : state K) : state K := fun t =>
    dyad (m_z (fst s)) (m_k (fst s)) *
    sumL (map wdim (m_dm (fst s))) (fun ds => fprod xs ds (fst s) * eow (map (conc xs ds) (snd s)) psi t).
  Definition den_sts (xs : list nat) (l : list st) (psi : state K) : state K := fun t =>
    SL l (fun s => den_st xs s psi t).

  Definition st_ok (r : nat) (s : st) : Prop :=
    m_ok r (fst s) /\ Forall (fun o => ix_ok r (List.length (m_dm (fst s))) (snd o)) (snd s).

  Lemma sumL_SL ns (f : list nat -> K) : sumL ns f = SL (allidx ns) f.
  Proof. apply sumL_allidx. Qed.

  Lemma eow_sumL w ns (f : list nat -> state K) t :
    eow w (fun u => sumL ns (fun ds => f ds u)) t = sumL ns (fun ds => eow w (f ds) t).
  Proof.
    rewrite sumL_SL, <- eow_SL. apply eow_ext. intros u _. apply sumL_SL.
  Qed.

  Lemma den_st_ext xs s psi phi t : (forall u, List.length u = List.length t -> psi u = phi u) ->
    den_st xs s psi t = den_st xs s phi t.
  Proof.
    intros E. unfold den_st. f_equal. apply sumL_ext. intros ds _. f_equal. apply eow_ext, E.
  Qed.
  Lemma den_st_SL {A} xs s (l : list A) (f : A -> state K) t :
    den_st xs s (fun u => SL l (fun x => f x u)) t = SL l (fun x => den_st xs s (f x) t).
  Proof.
    unfold den_st. rewrite SL_mul. f_equal. rewrite sumL_SL.
    transitivity (SL (allidx (map wdim (m_dm (fst s)))) (fun ds => SL l (fun x =>
      fprod xs ds (fst s) * eow (map (conc xs ds) (snd s)) (f x) t))).
    - apply SL_ext. intros ds _. rewrite eow_SL, SL_mul. reflexivity.
    - rewrite SL_swap. apply SL_ext. intros x _. symmetry. apply sumL_SL.
  Qed.

  Lemma den_st_mul xs a b psi t : st_ok (List.length xs) a -> st_ok (List.length xs) b ->
    den_st xs (st_mul a b) psi t = den_st xs a (den_st xs b psi) t.
  Proof.
    intros [Ha Wa] [Hb Wb]. unfold st_mul. unfold den_st at 1 2. cbn [fst snd m_mul m_z m_k m_dm].
    rewrite dyad_mul, map_app, sumL_app.
    transitivity (dyad (m_z (fst a)) (m_k (fst a)) *
      sumL (map wdim (m_dm (fst a))) (fun d1 => dyad (m_z (fst b)) (m_k (fst b)) *
        sumL (map wdim (m_dm (fst b))) (fun d2 => fprod xs d1 (fst a) * (fprod xs d2 (fst b) *
           eow (map (conc xs d1) (snd a) ++ map (conc xs d2) (snd b)) psi t)))).
    - rewrite sumL_mul_l.
      match goal with |- ?x * ?y * ?A = ?x * (?y * ?B) => replace A with B; [ring|] end.
      apply sumL_len. intros d1 L1. apply sumL_len. intros d2 L2. rewrite map_length in L1, L2.
      assert (E1 : fprod xs (d1 ++ d2) (m_mul (fst a) (fst b)) = fprod xs d1 (fst a) * fprod xs d2 (fst b)).
      { unfold fprod, m_mul. cbn [m_fs]. rewrite map_app, prodK_app. f_equal; f_equal.
        - apply map_ext_in. intros [q is] Hin. unfold den_fac. cbn [fst snd]. f_equal.
          apply map_ext_in. intros i Hi. pose proof (m_ok_in _ _ _ _ Ha Hin Hi) as Hok.
          destruct i; cbn in *; auto. rewrite app_nth1 by lia. auto.
        - apply den_mono_map_ix. intros q i Hq Hi. destruct i; cbn; auto.
          rewrite app_nth2 by lia. f_equal. lia. }
      rewrite E1.
      assert (E2 : map (conc xs (d1 ++ d2)) (snd a ++ map (map_sop (shift_d (List.length (m_dm (fst a))))) (snd b))
                   = map (conc xs d1) (snd a) ++ map (conc xs d2) (snd b)).
      { rewrite map_app, map_map. f_equal.
        - apply map_ext_in. intros o Ho. rewrite Forall_forall in Wa. specialize (Wa o Ho).
          unfold conc. do 2 f_equal. destruct (snd o); cbn in *; auto. rewrite app_nth1 by lia. auto.
        - apply map_ext_in. intros o Ho. unfold conc, map_sop. cbn [fst snd]. do 2 f_equal.
          destruct (snd o); cbn; auto. rewrite app_nth2 by lia. f_equal. lia. }
      rewrite E2. ring.
    - f_equal. apply sumL_ext. intros d1 _. unfold den_st.
      rewrite eow_mul, eow_sumL.
      rewrite sumL_mul_l.
      match goal with |- ?x * (?y * ?A) = ?y * (?x * ?B) => replace A with B; [ring|] end.
      apply sumL_ext. intros d2 _. rewrite eow_mul, eow_app. ring.
  Qed.

  Lemma den_sts_mul xs a b psi t : Forall (st_ok (List.length xs)) a -> Forall (st_ok (List.length xs)) b ->
    den_sts xs (sts_mul a b) psi t = den_sts xs a (den_sts xs b psi) t.
  Proof.
    intros Ha Hb. unfold den_sts at 1 2, sts_mul. rewrite SL_flat_map. apply SL_ext. intros x Hx.
    rewrite SL_map. rewrite Forall_forall in Ha, Hb.
    unfold den_sts. rewrite (den_st_SL xs x b (fun y => den_st xs y psi)). apply SL_ext. intros y Hy.
    apply den_st_mul; auto.
  Qed.

  Lemma st_mul_ok r a b : st_ok r a -> st_ok r b -> st_ok r (st_mul a b).
  Proof.
    intros [Ha Wa] [Hb Wb]. split; [apply m_mul_ok; auto|]. unfold st_mul. cbn [fst snd m_mul m_dm].
    apply Forall_app. split.
    - eapply Forall_impl; [|exact Wa]. intros [q [k|k]]; cbn; auto. rewrite app_length. lia.
    - apply Forall_map. eapply Forall_impl; [|exact Wb]. intros [q [k|k]]; cbn; auto. rewrite app_length. lia.
  Qed.
  Lemma sts_mul_ok r a b : Forall (st_ok r) a -> Forall (st_ok r) b -> Forall (st_ok r) (sts_mul a b).
  Proof.
    intros Ha Hb. apply Forall_forall. intros s Hs. apply in_flat_map in Hs as (x & Hx & Hs).
    apply in_map_iff in Hs as (y & <- & Hy). rewrite Forall_forall in Ha, Hb. apply st_mul_ok; auto.
  Qed.

  Lemma den_st_close xs sc s psi t : st_ok (List.length xs + List.length sc) s ->
    den_st xs (st_close (List.length xs) sc s) psi t = sumL (map wdim sc) (fun ys => den_st (xs ++ ys) s psi t).
  Proof.
    intros [Hm Hw]. unfold den_st, st_close. cbn [fst snd m_close m_z m_k m_dm]. rewrite map_app, sumL_app, <- sumL_mul_l.
    apply sumL_len. intros ys Ly. f_equal. apply sumL_len. intros ds Ld. rewrite map_length in Ly, Ld. f_equal.
    - unfold fprod. cbn [m_close m_fs]. f_equal. apply den_mono_map_ix. intros q i Hq Hi.
      pose proof (m_ok_in _ _ _ _ Hm Hq Hi) as Hok. destruct i as [k|k]; simpl in *.
      + destruct (Nat.ltb_spec k (List.length xs)); simpl.
        * rewrite app_nth1; auto.
        * rewrite app_nth1 by lia. rewrite app_nth2 by lia. auto.
      + rewrite app_nth2 by lia. f_equal. lia.
    - f_equal. rewrite map_map. apply map_ext_in. intros o Ho. rewrite Forall_forall in Hw. specialize (Hw o Ho).
      unfold conc, map_sop. cbn [fst snd]. do 2 f_equal. destruct (snd o) as [k|k]; simpl in *.
      + destruct (Nat.ltb_spec k (List.length xs)); simpl.
        * rewrite app_nth1; auto.
        * rewrite app_nth1 by lia. rewrite app_nth2 by lia. auto.
      + rewrite app_nth2 by lia. f_equal. lia.
  Qed.

  Lemma st_close_ok r sc s : st_ok (r + List.length sc) s -> st_ok r (st_close r sc s).
  Proof.
    intros [Hm Hw]. split; [apply m_close_ok; auto|]. unfold st_close. cbn [fst snd m_close m_dm].
    apply Forall_map. eapply Forall_impl; [|exact Hw]. intros [q [k|k]]; simpl; [|rewrite app_length; lia].
    destruct (Nat.ltb_spec k r); simpl; [auto|rewrite app_length; lia].
  Qed.

  (** *** Contractions *)
  Notation ref := (aufbau (no + nv) no).
  Lemma ref_length : List.length ref = (no + nv)%nat.
  Proof. unfold aufbau. rewrite map_length, seq_length. reflexivity. Qed.
  Lemma ref_occ p : (p < no + nv)%nat -> occd ref p = Nat.ltb p no.
  Proof.
    intros L. unfold occd, aufbau. rewrite (nth_map_lt _ _ _ _ 0%nat) by (rewrite seq_length; auto).
    rewrite seq_nth by auto. reflexivity.
  Qed.

  Definition dpair (xs ds : list nat) (p : ix * ix) : K := delta (look xs ds (fst p)) (look xs ds (snd p)).
  Definition den_pairs (xs ds : list nat) (q : bool * list (ix * ix)) : K :=
    sgn (fst q) * prodK (map (dpair xs ds) (snd q)).

  Definition s_in (xs ds : list nat) (o : sop) : Prop :=
    ((snd (fst o) = 1%positive) \/ (snd (fst o) = 2%positive)) /\ (look xs ds (snd o) < wdim (snd (fst o)))%nat.

  Lemma conc_lt xs ds o : s_in xs ds o -> (opi (conc xs ds o) < no + nv)%nat.
  Proof.
    destruct o as [[b c] i]. unfold s_in, conc, mkop. cbn [fst snd]. intros [[-> | ->] L]; cbn in *; destruct b; cbn; lia.
  Qed.
  Lemma conc_opb xs ds o : opb (conc xs ds o) = fst (fst o).
  Proof. destruct o as [[[|] c] i]; reflexivity. Qed.
  Lemma conc_opi xs ds o : opi (conc xs ds o) = orb (snd (fst o)) (look xs ds (snd o)).
  Proof. destruct o as [[[|] c] i]; reflexivity. Qed.

  Lemma s_qann_ok xs ds o : s_in xs ds o -> qann ref (conc xs ds o) = s_qann o.
  Proof.
    intros H. unfold qann, s_qann. rewrite ref_occ by (apply conc_lt, H). rewrite conc_opb, conc_opi. f_equal.
    destruct H as [[E|E] L]; rewrite E in *; cbn [orb wdim Pos.eqb] in *.
    - apply Nat.ltb_lt. auto.
    - apply Nat.ltb_ge. lia.
  Qed.

  Lemma s_ctr_ok xs ds o y : s_in xs ds o -> s_in xs ds y ->
    ctr (conc xs ds o) (conc xs ds y)
    = if s_ctr o y then delta (look xs ds (snd o)) (look xs ds (snd y)) else 0 :> K.
  Proof.
    intros Ho Hy. unfold ctr, s_ctr, delta. rewrite !conc_opb, !conc_opi.
    destruct Ho as [[E|E] L], Hy as [[E'|E'] L']; rewrite E, E' in *; cbn [orb wdim Pos.eqb andb] in *;
      destruct (xorb (fst (fst o)) (fst (fst y))); rewrite ?andb_true_r, ?andb_false_r; auto.
    - destruct (Nat.eqb_spec (look xs ds (snd o)) (no + look xs ds (snd y))); [lia|reflexivity].
    - destruct (Nat.eqb_spec (no + look xs ds (snd o)) (look xs ds (snd y))); [lia|reflexivity].
    - destruct (Nat.eqb_spec (no + look xs ds (snd o)) (no + look xs ds (snd y))),
        (Nat.eqb_spec (look xs ds (snd o)) (look xs ds (snd y))); try lia; reflexivity.
  Qed.

  Lemma picks_map {A B} (f : A -> B) w :
    picks (map f w) = map (fun p => (fst (fst p), f (snd (fst p)), map f (snd p))) (picks w).
  Proof.
    induction w as [|x w IH]; [reflexivity|]. cbn [map picks]. rewrite IH, !map_map. reflexivity.
  Qed.

  Lemma wickS_sound xs ds fuel : forall w, (List.length w <= fuel)%nat -> Forall (s_in xs ds) w ->
    vev ref (map (conc xs ds) w) = SL (wickS fuel w) (den_pairs xs ds).
  Proof.
    induction fuel as [|f IH]; intros w L H.
    - destruct w; [|cbn in L; lia]. cbn [map wickS]. rewrite vev_nil. unfold SL, den_pairs. cbn. ring.
    - destruct w as [|o w]; [cbn [map wickS]; rewrite vev_nil; unfold SL, den_pairs; cbn; ring|].
      inversion H as [|? ? Ho Hw]; subst. cbn [map wickS].
      rewrite vev_cons.
      + rewrite (s_qann_ok xs ds o Ho). destruct (s_qann o); [|reflexivity].
        rewrite picks_map, SL_map, SL_flat_map. apply SL_ext. intros [[s y] r] Hp. cbn [fst snd].
        apply picks_in in Hp as (Hy & Hr & Lr). rewrite Forall_forall in Hw.
        rewrite s_ctr_ok by auto. destruct (s_ctr o y).
        * rewrite SL_map. rewrite IH.
          -- rewrite <- SL_mul. apply SL_ext. intros q _. unfold den_pairs. cbn [fst snd map prodK].
             rewrite <- sgn_sgn. unfold dpair at 2. cbn [fst snd]. ring.
          -- cbn in L. lia.
          -- apply Forall_forall. intros z Hz. apply Hw, Hr, Hz.
        * unfold SL. cbn. ring.
      + rewrite ref_length. apply conc_lt, Ho.
      + rewrite ref_length. apply Forall_map. eapply Forall_impl; [|exact Hw]. intros z. apply conc_lt.
  Qed.

  (** *** Elimination of deltas *)
  Lemma sumL_elim d1 c d2 (v : list nat -> nat) (f : list nat -> K) :
    (forall l, inrange d1 l -> (v l < c)%nat) ->
    sumL (d1 ++ c :: d2) (fun ds => delta (nth (List.length d1) ds 0%nat) (v (firstn (List.length d1) ds)) * f ds)
    = sumL (d1 ++ d2) (fun es => f (firstn (List.length d1) es ++ v (firstn (List.length d1) es) :: skipn (List.length d1) es)).
  Proof.
    intros Hv. rewrite !sumL_app. apply sumL_ext. intros l Hl.
    assert (Ll : List.length l = List.length d1) by (apply Forall2_length in Hl; auto).
    cbn [sumL].
    rewrite (sumN_ext K c _ (fun x => delta x (v l) * sumL d2 (fun l' => f (l ++ x :: l')))).
    - rewrite sumN_delta by (apply Hv, Hl). apply sumL_ext. intros l' _.
      rewrite <- Ll, firstn_app, Nat.sub_diag, firstn_all, skipn_app, Nat.sub_diag, skipn_all. cbn [firstn skipn app].
      rewrite app_nil_r. reflexivity.
    - intros x Hx. rewrite <- sumL_mul_l. apply sumL_ext. intros l' _.
      rewrite <- Ll, firstn_app, Nat.sub_diag, firstn_all. cbn [firstn]. rewrite app_nil_r.
      rewrite app_nth2, Nat.sub_diag by lia. reflexivity.
  Qed.

  Lemma look_sub xs n v es i : (n <= List.length es)%nat ->
    look xs (firstn n es ++ look xs (firstn n es) v :: skipn n es) i
    = match i with
      | D k => if Nat.eqb k n then look xs (firstn n es) v
               else look xs es (sub_ix n v i)
      | X _ => look xs es (sub_ix n v i) end.
  Proof.
    intros L. destruct i as [x|k]; [reflexivity|]. cbn [look sub_ix].
    assert (Lf : List.length (firstn n es) = n) by (rewrite firstn_length; lia).
    destruct (Nat.eqb_spec k n) as [->|N].
    - rewrite app_nth2, Lf, Nat.sub_diag by lia. reflexivity.
    - destruct (Nat.ltb_spec n k).
      + rewrite app_nth2 by lia. rewrite Lf. replace (k - n)%nat with (S (k - 1 - n)) by lia. cbn [nth look].
        rewrite <- (firstn_skipn n es) at 2. rewrite app_nth2, Lf by lia. reflexivity.
      + rewrite app_nth1 by lia. cbn [look]. rewrite <- (firstn_skipn n es) at 2. rewrite app_nth1 by lia. reflexivity.
  Qed.

  (** v refers to externals or to summed indices before n *)
  Definition before (n : nat) (v : ix) : Prop := match v with X _ => True | D k => (k < n)%nat end.
  Lemma look_before xs n v es : before n v -> look xs (firstn n es) v = look xs es v.
  Proof.
    destruct v as [x|k]; cbn; auto. intros L. destruct (Nat.le_gt_cases (List.length es) n) as [H|H].
    - rewrite firstn_all2 by auto. reflexivity.
    - rewrite <- (firstn_skipn n es) at 2. rewrite app_nth1; auto. rewrite firstn_length. lia.
  Qed.
  Lemma look_sub' xs n v es i : (n <= List.length es)%nat -> before n v ->
    look xs (firstn n es ++ look xs (firstn n es) v :: skipn n es) i = look xs es (sub_ix n v i).
  Proof.
    intros L B. rewrite look_sub by auto. destruct i as [x|k]; [reflexivity|]. cbn [sub_ix].
    destruct (Nat.eqb_spec k n); auto. rewrite look_before; auto.
  Qed.

  Definition den_md (xs : list nat) (m : mono) (dl : list (ix * ix)) : K :=
    dyad (m_z m) (m_k m) * sumL (map wdim (m_dm m)) (fun ds => fprod xs ds m * prodK (map (dpair xs ds) dl)).

  Lemma choose_ok a b n v : choose a b = Some (n, v) ->
    ((a = D n /\ b = v) \/ (b = D n /\ a = v)) /\ before n v.
  Proof.
    destruct a as [x|k], b as [y|l]; cbn [choose]; try discriminate.
    - intros [= <- <-]. cbn. auto.
    - intros [= <- <-]. cbn. auto.
    - destruct (Nat.ltb_spec k l); [intros [= <- <-]; cbn; auto|].
      destruct (Nat.ltb_spec l k); [intros [= <- <-]; cbn; auto|discriminate].
  Qed.

  Lemma ix_cls_lt sh dm xs ds i c : inrange (map wdim sh) xs -> inrange (map wdim dm) ds ->
    ix_cls' sh dm i = Some c -> (look xs ds i < wdim c)%nat.
  Proof.
    intros Hx Hd E. destruct i as [k|k]; cbn in *.
    - assert (Hn : (k < List.length sh)%nat) by (apply nth_error_Some; congruence).
      pose proof (inrange_nth _ _ k Hx) as HH. rewrite map_length in HH. specialize (HH Hn).
      rewrite (nth_map_lt _ _ _ _ c) in HH by auto. rewrite (nth_error_nth _ _ c E) in HH. auto.
    - assert (Hn : (k < List.length dm)%nat) by (apply nth_error_Some; congruence).
      pose proof (inrange_nth _ _ k Hd) as HH. rewrite map_length in HH. specialize (HH Hn).
      rewrite (nth_map_lt _ _ _ _ c) in HH by auto. rewrite (nth_error_nth _ _ c E) in HH. auto.
  Qed.

  Lemma sub_md sh xs m n v dl a b c : inrange (map wdim sh) xs -> before n v ->
    ((a = D n /\ b = v) \/ (b = D n /\ a = v)) ->
    ix_cls' sh (m_dm m) (D n) = Some c -> ix_cls' sh (m_dm m) v = Some c ->
    den_md xs m ((a, b) :: dl) = den_md xs (sub_mono n v m) (sub_pairs n v dl).
  Proof.
    intros Hx B AB Cn Cv. unfold den_md, sub_mono. cbn [m_z m_k m_dm]. f_equal. cbn in Cn.
    apply nth_error_split in Cn as (l1 & l2 & El & Ll).
    assert (Ef : firstn n (m_dm m) = l1).
    { rewrite El, <- Ll, firstn_app, Nat.sub_diag, firstn_all. cbn. apply app_nil_r. }
    assert (Es : skipn (S n) (m_dm m) = l2).
    { rewrite El, <- Ll, skipn_app, skipn_all2 by lia. replace (S (List.length l1) - List.length l1)%nat with 1%nat by lia. reflexivity. }
    rewrite Ef, Es, El, !map_app. cbn [map].
    set (d1 := map wdim l1). set (d2 := map wdim l2).
    assert (Ld : List.length d1 = n) by (unfold d1; rewrite map_length; auto).
    transitivity (sumL (d1 ++ wdim c :: d2) (fun ds => delta (nth (List.length d1) ds 0%nat) (look xs (firstn (List.length d1) ds) v)
       * (fprod xs ds m * prodK (map (dpair xs ds) dl)))).
    - apply sumL_ext. intros ds _. cbn [map prodK]. rewrite Ld, look_before by auto.
      assert (E : dpair xs ds (a, b) = delta (nth n ds 0%nat) (look xs ds v)).
      { unfold dpair. cbn [fst snd]. destruct AB as [[-> ->]|[-> ->]]; cbn [look]; auto. apply delta_sym. }
      rewrite E. ring.
    - rewrite (sumL_elim d1 (wdim c) d2 (fun l => look xs l v) (fun ds => fprod xs ds m * prodK (map (dpair xs ds) dl))).
      + apply sumL_ext. intros es Hes. rewrite Ld.
        assert (Le : (n <= List.length es)%nat).
        { apply Forall2_length in Hes. rewrite app_length in Hes. lia. }
        f_equal.
        * unfold fprod. cbn [m_fs]. f_equal. symmetry. apply den_mono_map_ix. intros q i _ _.
          symmetry. apply look_sub'; auto.
        * f_equal. unfold sub_pairs. rewrite map_map. apply map_ext. intros p. unfold dpair. cbn [fst snd].
          rewrite !look_sub' by auto. reflexivity.
      + intros l Hl. apply (ix_cls_lt sh l1 xs l v c); auto.
        destruct v as [x|k]; cbn in *; auto. rewrite El in Cv. rewrite nth_error_app1 in Cv by lia. auto.
  Qed.

  Lemma elim_sound sh xs fuel : inrange (map wdim sh) xs -> forall m dl m',
    elim fuel sh m dl = Some m' -> den_md xs m dl = den_mono K wdim rho xs m'.
  Proof.
    intros Hx. induction fuel as [|f IH]; intros m dl m' H.
    - destruct dl as [|p dl]; [|discriminate]. cbn in H. injection H as <-.
      unfold den_md, den_mono. f_equal. apply sumL_ext. intros. cbn. unfold fprod. ring.
    - destruct dl as [|[a b] dl]; cbn [elim] in H.
      + injection H as <-. unfold den_md, den_mono. f_equal. apply sumL_ext. intros. cbn. unfold fprod. ring.
      + unfold same_cls in H. destruct (ix_cls' sh (m_dm m) a) as [ca|] eqn:Ca; [|discriminate].
        destruct (ix_cls' sh (m_dm m) b) as [cb|] eqn:Cb; [|discriminate].
        destruct (Pos.eqb_spec ca cb); [subst cb|discriminate].
        destruct (choose a b) as [[n v]|] eqn:E.
        * apply choose_ok in E as [AB B]. rewrite <- (IH _ _ _ H).
          apply (sub_md sh xs m n v dl a b ca); auto; destruct AB as [[-> ->]|[-> ->]]; auto.
        * destruct a as [x|k], b as [y|l]; try discriminate. cbn [choose] in E.
          destruct (Nat.ltb_spec k l); [discriminate|]. destruct (Nat.ltb_spec l k); [discriminate|].
          assert (k = l) by lia. subst l. rewrite <- (IH _ _ _ H). unfold den_md. f_equal. apply sumL_ext. intros ds _.
          cbn [map prodK]. unfold dpair at 1. cbn [fst snd]. unfold delta. rewrite Nat.eqb_refl. ring.
  Qed.

  Lemma all_some_in {A} (l : list (option A)) r : all_some l = Some r -> l = map Some r.
  Proof.
    revert r. induction l as [|[a|] l IH]; intros r; cbn; try discriminate.
    - intros [= <-]. reflexivity.
    - destruct (all_some l) as [r'|]; [|discriminate]. intros [= <-]. cbn. f_equal. auto.
  Qed.

  Lemma all_some_SL {A B} (f : A -> option B) (g : A -> K) (h : B -> K) l r :
    all_some (map f l) = Some r -> (forall a b, In a l -> f a = Some b -> g a = h b) -> SL l g = SL r h.
  Proof.
    revert r. induction l as [|a l IH]; intros r H E; cbn in H.
    - injection H as <-. reflexivity.
    - destruct (f a) as [b|] eqn:F; [|discriminate]. destruct (all_some (map f l)) as [r'|]; [|discriminate].
      injection H as <-. rewrite !SL_cons. f_equal; [apply E; cbn; auto|]. apply IH; auto. intros; apply E; cbn; auto.
  Qed.

  Lemma vevS_sound sh xs s ms : inrange (map wdim sh) xs -> vevS sh s = Some ms ->
    den_st xs s (kd ref) ref = den K wdim rho xs ms.
  Proof.
    intros Hx. unfold vevS. destruct (forallb _ _) eqn:Ty; [|discriminate]. intros H.
    assert (Hin : forall ds, inrange (map wdim (m_dm (fst s))) ds -> Forall (s_in xs ds) (snd s)).
    { intros ds Hd. apply Forall_forall. intros o Ho. rewrite forallb_forall in Ty. specialize (Ty o Ho).
      unfold sop_typed in Ty. destruct (ix_cls' sh (m_dm (fst s)) (snd o)) as [c|] eqn:C; [|discriminate].
      apply andb_true_iff in Ty as [E1 E2]. apply Pos.eqb_eq in E1. apply orb_true_iff in E2.
      split; [|rewrite <- E1; eapply ix_cls_lt; eauto].
      rewrite <- E1. destruct E2 as [E2|E2]; apply Pos.eqb_eq in E2; auto. }
    unfold den_st.
    transitivity (SL (wickS (List.length (snd s)) (snd s)) (fun q => den_md xs (m_sign (fst q) (fst s)) (snd q))).
    - transitivity (SL (wickS (List.length (snd s)) (snd s)) (fun q => dyad (m_z (fst s)) (m_k (fst s)) *
        sumL (map wdim (m_dm (fst s))) (fun ds => fprod xs ds (fst s) * den_pairs xs ds q))).
      + rewrite SL_mul. f_equal. unfold SL. rewrite <- sumL_lsum. apply sumL_ext. intros ds Hd.
        fold (vev (K := K) ref (map (conc xs ds) (snd s))).
        rewrite (wickS_sound xs ds _ (snd s) (le_n _) (Hin ds Hd)). rewrite <- SL_mul. reflexivity.
      + apply SL_ext. intros [g dl] _. unfold den_md, den_pairs, m_sign. cbn [fst snd]. destruct g; cbn [sgn].
        * cbn [m_neg m_z m_k m_dm]. rewrite dyad_opp.
          transitivity (dyad (m_z (fst s)) (m_k (fst s)) * (- (1) * sumL (map wdim (m_dm (fst s)))
             (fun ds => fprod xs ds (fst s) * prodK (map (dpair xs ds) dl)))).
          -- f_equal. rewrite <- sumL_mul_l. apply sumL_ext. intros. ring.
          -- unfold fprod. cbn [m_neg m_fs]. ring.
        * f_equal. apply sumL_ext. intros. ring.
    - unfold den. apply (all_some_SL _ _ _ _ _ H). intros q m' _ E. eapply elim_sound; eauto.
  Qed.

  Lemma vevs_sound sh xs l ms : inrange (map wdim sh) xs -> vevs sh l = Some ms ->
    den_sts xs l (kd ref) ref = den K wdim rho xs ms.
  Proof.
    intros Hx. unfold vevs. destruct (all_some (map (vevS sh) l)) as [r|] eqn:E; [|discriminate]. cbn. intros [= <-].
    unfold den_sts. transitivity (SL r (fun ms => den K wdim rho xs ms)).
    - apply (all_some_SL _ _ _ _ _ E). intros s m _ Hs. eapply vevS_sound; eauto.
    - clear E. induction r as [|ms r IH]; [reflexivity|]. rewrite SL_cons, IH. cbn [concat]. rewrite den_app. reflexivity.
  Qed.
End WickSound.
