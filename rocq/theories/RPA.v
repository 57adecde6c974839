(** Ring and ladder coupled cluster doubles as the random phase approximation. *)
From Coq Require Import List Bool Arith ZArith Lia Ring String.
From Verif Require Import Scalar Tensor PySyntax PySem PySim Sym SymSound
  Norm CCProg CCSpec Engine Tools SOCtx CCEquiv CCDeriv CISpec CCFockSpec CCFock WickSym FockH RPASpec UtilsModel UtilsSpec FockPT2.
Import ListNotations.
Local Open Scope string_scope.
Local Open Scope list_scope.

Definition aRL : list sval := [sI; sT2].
Definition m_ring : list mono :=
  [Mono 1 0 [] [(8%positive, [X 0; X 1; X 2; X 3])];
   Mono (-1) 0 [cV; cO] [(9%positive, [X 1; D 1; D 0; X 3]); (15%positive, [X 0; D 0; X 2; D 1])];
   Mono (-1) 0 [cV; cO] [(9%positive, [X 0; D 1; D 0; X 2]); (15%positive, [X 1; D 0; X 3; D 1])];
   Mono 1 0 [cV; cO; cV; cO] [(10%positive, [D 1; D 3; D 0; D 2]); (15%positive, [X 0; D 0; X 2; D 1]); (15%positive, [D 2; X 1; D 3; X 3])]].
Definition m_ladder : list mono :=
  [Mono 1 0 [] [(8%positive, [X 0; X 1; X 2; X 3])];
   Mono 1 1 [cV; cV] [(5%positive, [X 0; X 1; D 0; D 1]); (15%positive, [D 0; D 1; X 2; X 3])];
   Mono 1 1 [cO; cO] [(15%positive, [X 0; X 1; D 0; D 1]); (13%positive, [D 0; D 1; X 2; X 3])];
   Mono 1 2 [cO; cO; cV; cV] [(15%positive, [X 0; X 1; D 0; D 1]); (10%positive, [D 0; D 1; D 2; D 3]); (15%positive, [D 2; D 3; X 2; X 3])]].
Definition ring_res : stens := get_arr (run_s "ccd_ring_simple" aRL).
Definition ladder_res : stens := get_arr (run_s "ccd_ladder_simple" aRL).
Definition ring_cs := Eval vm_compute in find_certs no_tb sh2 (diff (s_ms ring_res) m_ring).
Definition ladder_cs := Eval vm_compute in find_certs no_tb sh2 (diff (s_ms ladder_res) m_ladder).
Definition rpa_chk : bool :=
  run_form FArr "ccd_ring_simple" aRL && run_form FArr "ccd_ladder_simple" aRL &&
  cls_list_eqb (s_sh ring_res) sh2 && cls_list_eqb (s_sh ladder_res) sh2 &&
  forallb (m_okb 4) m_ring && forallb (m_okb 4) m_ladder &&
  check no_tb sh2 (diff (s_ms ring_res) m_ring) ring_cs && check no_tb sh2 (diff (s_ms ladder_res) m_ladder) ladder_cs.
Lemma rpa_chk_true : rpa_chk = true.
Proof. vm_compute. reflexivity. Qed.

Lemma rpa_parts :
  run_form FArr "ccd_ring_simple" aRL = true /\ run_form FArr "ccd_ladder_simple" aRL = true /\
  s_sh ring_res = sh2 /\ s_sh ladder_res = sh2 /\ Forall (m_ok 4) m_ring /\ Forall (m_ok 4) m_ladder /\
  check no_tb sh2 (diff (s_ms ring_res) m_ring) ring_cs = true /\ check no_tb sh2 (diff (s_ms ladder_res) m_ladder) ladder_cs = true.
Proof.
  pose proof rpa_chk_true as C. unfold rpa_chk in C.
  apply andb_prop in C as [C D8]. apply andb_prop in C as [C D7]. apply andb_prop in C as [C D6]. apply andb_prop in C as [C D5].
  apply andb_prop in C as [C D4]. apply andb_prop in C as [C D3]. apply andb_prop in C as [D1 D2].
  exact (conj D1 (conj D2 (conj (cls_list_eqb_eq _ _ D3) (conj (cls_list_eqb_eq _ _ D4) (conj (okb_all _ _ D5) (conj (okb_all _ _ D6) (conj D7 D8))))))).
Qed.

Section Formulas.
  Variable K : cring.
  Local Open Scope K_scope.
  Add Ring KrRP : (c_th K).
  Variables no nv : nat.
  Variable I : two_e K.
  Variable T2 : tensor K.
  Hypothesis SI : two_e_shape no nv I.
  Hypothesis S2 : shp T2 = [nv; nv; no; no].
  Let F := OneE K (tzeros K [no; no]) (tzeros K [no; nv]) (tzeros K [nv; no]) (tzeros K [nv; nv]).
  Let rho := rho_t K F I (tzeros K [nv; no]) T2 no nv.
  Notation T a b i j := (dat T2 [a; b; i; j]).

  Lemma rl_args : Forall2 (Rval K (so_dim no nv) rho) aRL [py_two_e I; arr T2].
  Proof.
    constructor; [|constructor; [|constructor]].
    - destruct SI as (A1 & A2 & A3 & A4 & A5 & A6 & A7 & A8 & A9). apply Rx_obj.
      repeat (constructor; [split; [reflexivity|apply R_inp; [assumption|reflexivity]]|]). constructor.
    - apply R_inp; [assumption|reflexivity].
  Qed.
  Lemma no_tb_ok' : sym_ok K (so_dim no nv) rho no_tb.
  Proof. unfold sym_ok, no_tb, so_tb. simpl. repeat constructor. Qed.

  Lemma ring_formula : exists R,
    returns "ccd_ring_simple" [py_two_e I; arr T2] (arr R) /\ shp R = [nv; nv; no; no] /\
    forall a b i j, (a < nv)%nat -> (b < nv)%nat -> (i < no)%nat -> (j < no)%nat ->
      dat R [a; b; i; j] = dat (vvoo I) [a; b; i; j]
        - sum_ph no nv (fun c k => dat (vovo I) [b; k; c; j] * T a c i k)
        - sum_ph no nv (fun c k => dat (vovo I) [a; k; c; i] * T b c j k)
        + sum_ph no nv (fun c k => T a c i k * sum_ph no nv (fun d l => dat (oovv I) [k; l; c; d] * T d b l j)).
  Proof.
    destruct rpa_parts as (E1 & _ & Sh & _ & O1 & _ & C1 & _).
    destruct (run_arr_sound K _ _ _ _ _ E1 rl_args) as (R & HR & (Z & M & D)). fold ring_res in *. rewrite Sh in Z, M.
    exists R. split; [exact HR|]. split; [exact Z|]. intros a b i j La Lb Li Lj.
    assert (Hx : inrange (map (so_dim no nv) sh2) [a; b; i; j]) by (repeat constructor; auto).
    rewrite D by (rewrite Z; exact Hx).
    transitivity (den K (so_dim no nv) rho [a; b; i; j] m_ring).
    - apply den_diff. eapply check_sound; [exact C1|exact no_tb_ok'|apply diff_ok; [exact M|exact O1]|exact Hx].
    - unfold m_ring, den, den_mono, den_fac, sum_ph. cbn [map lsum m_z m_k m_dm m_fs prodK sumL fst snd so_rho look nth rho so_dim cO cV F].
      rewrite dyad10, dyadm10.
      assert (E : forall x x' y y' z z' w w' : K, x = x' -> y = y' -> z = z' -> w = w' ->
        1 * (x * 1) + (- (1) * y + (- (1) * z + (1 * w + 0))) = x' - y' - z' + w') by (intros; subst; ring).
      apply E; [reflexivity| | |].
      + apply sumN_ext; intros c _; apply sumN_ext; intros k _. ring.
      + apply sumN_ext; intros c _; apply sumN_ext; intros k _. ring.
      + apply sumN_ext; intros c _; apply sumN_ext; intros k _. rewrite <- sumN_mul_l.
        apply sumN_ext; intros d _. rewrite <- sumN_mul_l. apply sumN_ext; intros l _. ring.
  Qed.
  Lemma ladder_formula : exists R,
    returns "ccd_ladder_simple" [py_two_e I; arr T2] (arr R) /\ shp R = [nv; nv; no; no] /\
    forall a b i j, (a < nv)%nat -> (b < nv)%nat -> (i < no)%nat -> (j < no)%nat ->
      dat R [a; b; i; j] = dat (vvoo I) [a; b; i; j]
        + sum_vv nv (fun c d => dat (vvvv I) [a; b; c; d] * T c d i j)
        + sum_oo no (fun k l => T a b k l * dat (oooo I) [k; l; i; j])
        + sum_oo no (fun k l => T a b k l * sum_vv nv (fun c d => dat (oovv I) [k; l; c; d] * T c d i j)).
  Proof.
    destruct rpa_parts as (_ & E1 & _ & Sh & _ & O1 & _ & C1).
    destruct (run_arr_sound K _ _ _ _ _ E1 rl_args) as (R & HR & (Z & M & D)). fold ladder_res in *. rewrite Sh in Z, M.
    exists R. split; [exact HR|]. split; [exact Z|]. intros a b i j La Lb Li Lj.
    assert (Hx : inrange (map (so_dim no nv) sh2) [a; b; i; j]) by (repeat constructor; auto).
    rewrite D by (rewrite Z; exact Hx).
    transitivity (den K (so_dim no nv) rho [a; b; i; j] m_ladder).
    - apply den_diff. eapply check_sound; [exact C1|exact no_tb_ok'|apply diff_ok; [exact M|exact O1]|exact Hx].
    - unfold m_ladder, den, den_mono, den_fac, sum_vv, sum_oo. cbn [map lsum m_z m_k m_dm m_fs prodK sumL fst snd so_rho look nth rho so_dim cO cV F].
      rewrite dyad10, dyad11, dyad12. unfold quarter.
      assert (E : forall x x' y y' z z' w w' : K, x = x' -> y = y' -> z = z' -> chalf * w = w' ->
        1 * (x * 1) + (chalf * y + (chalf * z + (chalf * chalf * w + 0))) = x' + chalf * y' + chalf * z' + chalf * w')
        by (intros; subst; ring).
      apply E; [reflexivity| | |].
      + apply sumN_ext; intros c _; apply sumN_ext; intros d _. ring.
      + apply sumN_ext; intros c _; apply sumN_ext; intros k _. ring.
      + rewrite <- sumN_mul_l. apply sumN_ext; intros k _. rewrite <- sumN_mul_l. apply sumN_ext; intros l _.
        rewrite <- !sumN_mul_l. apply sumN_ext; intros c _. rewrite <- !sumN_mul_l.
        apply sumN_ext; intros d _. ring.
  Qed.
End Formulas.

Section Sums.
  Variable K : cring.
  Local Open Scope K_scope.
  Add Ring KrRQ : (c_th K).
  Variables no nv : nat.
  Notation S := (sum_ph (K := K) no nv).
  Lemma ph_ext f g : (forall c k, (c < nv)%nat -> (k < no)%nat -> f c k = g c k) -> S f = S g.
  Proof. intros H. apply sumN_ext. intros c Lc. apply sumN_ext. intros k Lk. auto. Qed.
  Lemma ph_add f g : S (fun c k => f c k + g c k) = S f + S g.
  Proof. unfold sum_ph. rewrite <- sumN_add. apply sumN_ext. intros c _. apply sumN_add. Qed.
  Lemma ph_mul x f : S (fun c k => x * f c k) = x * S f.
  Proof. unfold sum_ph. rewrite <- sumN_mul_l. apply sumN_ext. intros c _. apply sumN_mul_l. Qed.
  Lemma ph_opp f : S (fun c k => - f c k) = - S f.
  Proof. transitivity (S (fun c k => - (1) * f c k)); [apply ph_ext; intros; ring|]. rewrite ph_mul. ring. Qed.
  Lemma kron_sym p q : kron p q = kron q p :> K.
  Proof. unfold kron. rewrite Nat.eqb_sym. reflexivity. Qed.
  Lemma kron_sum n q (f : nat -> K) : (q < n)%nat -> sumN n (fun p => kron p q * f p) = f q.
  Proof. exact (CIMatrix.sumN_delta K n q f). Qed.
  Lemma ph_kron a i f : (a < nv)%nat -> (i < no)%nat -> S (fun c k => kron c a * kron k i * f c k) = f a i.
  Proof.
    intros La Li. unfold sum_ph. transitivity (sumN nv (fun c => kron c a * f c i)); [|apply (kron_sum nv a (fun c => f c i) La)].
    apply sumN_ext. intros c _. transitivity (kron c a * sumN no (fun k => kron k i * f c k)).
    - rewrite <- sumN_mul_l. apply sumN_ext. intros k _. ring.
    - rewrite kron_sum by auto. reflexivity.
  Qed.
  Lemma oo_ext (f g : nat -> nat -> K) : (forall c k, (c < no)%nat -> (k < no)%nat -> f c k = g c k) -> sum_oo no f = sum_oo no g.
  Proof. intros H. unfold sum_oo. f_equal. apply sumN_ext. intros c Lc. apply sumN_ext. intros k Lk. auto. Qed.
  Lemma oo_add (f g : nat -> nat -> K) : sum_oo no (fun c k => f c k + g c k) = sum_oo no f + sum_oo no g.
  Proof.
    unfold sum_oo. transitivity (chalf * (sumN no (fun k => sumN no (fun l => f k l)) + sumN no (fun k => sumN no (fun l => g k l)))); [|ring].
    f_equal. rewrite <- sumN_add. apply sumN_ext. intros c _. apply sumN_add.
  Qed.
  Lemma oo_opp (f : nat -> nat -> K) : sum_oo no (fun c k => - f c k) = - sum_oo no f.
  Proof.
    unfold sum_oo. transitivity (chalf * (- (1) * sumN no (fun k => sumN no (fun l => f k l)))); [|ring].
    f_equal. rewrite <- sumN_mul_l. apply sumN_ext. intros c _. rewrite <- sumN_mul_l. apply sumN_ext. intros; ring.
  Qed.
  Lemma oo_pair i j (f : nat -> nat -> K) : (i < no)%nat -> (j < no)%nat -> f j i = - f i j ->
    sum_oo no (fun k l => f k l * pair_one k l i j) = f i j.
  Proof.
    intros Li Lj A. unfold sum_oo, pair_one.
    assert (P : forall p q, (p < no)%nat -> (q < no)%nat ->
      sumN no (fun k => sumN no (fun l => kron k p * kron l q * f k l)) = f p q).
    { intros p q Lp Lq. transitivity (sumN no (fun k => kron k p * f k q)); [|apply (kron_sum no p (fun k => f k q) Lp)].
      apply sumN_ext. intros k _. transitivity (kron k p * sumN no (fun l => kron l q * f k l)).
      - rewrite <- sumN_mul_l. apply sumN_ext. intros; ring.
      - rewrite kron_sum by auto. reflexivity. }
    transitivity (chalf * (f i j + - (1) * f j i)); [|rewrite A; transitivity ((chalf + chalf) * f i j); [ring|rewrite (c_half K); ring]].
    f_equal. rewrite <- (P i j Li Lj), <- (P j i Lj Li) at 1. rewrite <- sumN_mul_l, <- sumN_add. apply sumN_ext. intros k _.
    rewrite <- sumN_mul_l, <- sumN_add. apply sumN_ext. intros l _. ring.
  Qed.
End Sums.

Section Main.
  Variable K : cring.
  Local Open Scope K_scope.
  Add Ring KrRR : (c_th K).
  Variables no nv : nat.
  Variable g : nat -> nat -> nat -> nat -> K.
  Variable I : two_e K.
  Hypothesis AG : antisym_ints (no + nv) g.
  Hypothesis BI : blocks2 no nv g I.
  Variable T2 : tensor K.
  Hypothesis S2 : shp T2 = [nv; nv; no; no].
  Notation T a b i j := (dat T2 [a; b; i; j]).
  Variables eo_ ev Db : tensor K.
  Hypothesis So : shp eo_ = [no].
  Hypothesis Sv : shp ev = [nv].
  Hypothesis HDb : UtilsModel.D2 ev eo_ = Some Db.
  Notation e := (eps K no eo_ ev).
  Lemma blocks_shape : two_e_shape no nv I.
  Proof. exact (proj1 (blocks_I_ok K no nv g I AG BI)). Qed.

  Lemma db_e a b i j : (a < nv)%nat -> (b < nv)%nat -> (i < no)%nat -> (j < no)%nat ->
    dat Db [a; b; i; j] = e (no + a)%nat + e (no + b)%nat - e i - e j.
  Proof.
    intros La Lb Li Lj. rewrite (db_val K no nv eo_ ev Db So Sv HDb a b i j La Lb Li Lj).
    rewrite !eps_v, !eps_o by auto. reflexivity.
  Qed.

  Section Ring.
  Hypothesis PS : forall a b i j, (a < nv)%nat -> (b < nv)%nat -> (i < no)%nat -> (j < no)%nat -> T a b i j = T b a j i.
  Notation t := (fun a i b j => T a b i j).

  Lemma rpa_A_sum a i (f : nat -> nat -> K) : (a < nv)%nat -> (i < no)%nat ->
    sum_ph no nv (fun c k => rpa_A no e g a i c k * f c k)
    = (e (no + a)%nat - e i) * f a i + sum_ph no nv (fun c k => g (no + a)%nat k i (no + c)%nat * f c k).
  Proof.
    intros La Li. rewrite <- (ph_kron K no nv a i (fun c k => (e (no + a)%nat - e i) * f c k) La Li), <- ph_add.
    apply ph_ext. intros c k _ _. unfold rpa_A. rewrite (kron_sym K a c), (kron_sym K i k). ring.
  Qed.
  Definition ring_W (a i b j : nat) : K :=
    - sum_ph no nv (fun c k => rpa_B' no g a i c k * T c b k j) - rpa_A no e g b j a i.

  Lemma ring_rpa : exists R,
    returns "ccd_ring_simple" [py_two_e I; arr T2] (arr R) /\ shp R = [nv; nv; no; no] /\
    ((forall a b i j, (a < nv)%nat -> (b < nv)%nat -> (i < no)%nat -> (j < no)%nat ->
        dat Db [a; b; i; j] * T a b i j + dat R [a; b; i; j] = 0)
     <-> exists W, rpa_solution no nv e g t W).
  Proof.
    destruct (ring_formula K no nv I T2 blocks_shape S2) as (R & HR & Z & D).
    exists R. split; [exact HR|]. split; [exact Z|].
    destruct BI as (_ & _ & _ & [_ VV] & [_ VO] & [_ OV] & _).
    assert (Q : forall a i b j, (a < nv)%nat -> (i < no)%nat -> (b < nv)%nat -> (j < no)%nat ->
      sum_ph no nv (fun c k => rpa_A no e g a i c k * t c k b j) + rpa_B no g a i b j
      - sum_ph no nv (fun c k => t a i c k * ring_W c k b j)
      = dat Db [a; b; i; j] * T a b i j + dat R [a; b; i; j]).
    { intros a i b j La Li Lb Lj. rewrite (rpa_A_sum a i) by auto.
      assert (QW : sum_ph no nv (fun c k => t a i c k * ring_W c k b j)
        = - sum_ph no nv (fun c k => T a c i k * sum_ph no nv (fun d l => dat (oovv I) [k; l; c; d] * T d b l j))
          - ((e (no + b)%nat - e j) * T a b i j + sum_ph no nv (fun c k => g (no + b)%nat k j (no + c)%nat * T a c i k))).
      { rewrite <- (rpa_A_sum b j (fun c k => T a c i k)) by auto.
        transitivity (- sum_ph no nv (fun c k => T a c i k * sum_ph no nv (fun d l => dat (oovv I) [k; l; c; d] * T d b l j))
          + - sum_ph no nv (fun c k => rpa_A no e g b j c k * T a c i k)); [|ring].
        rewrite <- !ph_opp, <- ph_add. apply ph_ext. intros c k Lc Lk. unfold ring_W.
        rewrite (ph_ext K no nv (fun d l => rpa_B' no g c k d l * T d b l j) (fun d l => dat (oovv I) [k; l; c; d] * T d b l j)); [ring|].
        intros d l Ld Ll. rewrite OV by auto. reflexivity. }
      rewrite QW, D, db_e, VV by auto. unfold rpa_B. cbn [Nat.add].
      assert (Q1 : sum_ph no nv (fun c k => g (no + a)%nat k i (no + c)%nat * T c b k j)
        = - sum_ph no nv (fun c k => dat (vovo I) [a; k; c; i] * T b c j k)).
      { rewrite <- ph_opp. apply ph_ext. intros c k Lc Lk. rewrite VO, (PS b c j k) by auto. cbn [Nat.add].
        rewrite (proj2 (AG (no + a)%nat k i (no + c)%nat ltac:(lia) ltac:(lia) ltac:(lia) ltac:(lia))). ring. }
      assert (Q2 : sum_ph no nv (fun c k => g (no + b)%nat k j (no + c)%nat * T a c i k)
        = - sum_ph no nv (fun c k => dat (vovo I) [b; k; c; j] * T a c i k)).
      { rewrite <- ph_opp. apply ph_ext. intros c k Lc Lk. rewrite VO by auto. cbn [Nat.add].
        rewrite (proj2 (AG (no + b)%nat k j (no + c)%nat ltac:(lia) ltac:(lia) ltac:(lia) ltac:(lia))). ring. }
      rewrite Q1, Q2. ring. }
    split.
    - intros C. exists ring_W. intros a i b j La Li Lb Lj. split; [|reflexivity].
      specialize (Q a i b j La Li Lb Lj). rewrite C in Q by auto.
      match type of Q with ?x - ?y = 0 => transitivity (x - y + y); [ring|rewrite Q; ring] end.
    - intros (W & HW) a b i j La Lb Li Lj. rewrite <- (Q a i b j) by auto.
      destruct (HW a i b j La Li Lb Lj) as [U _]. rewrite U.
      rewrite (ph_ext K no nv (fun c k => t a i c k * W c k b j) (fun c k => t a i c k * ring_W c k b j)); [ring|].
      intros c k Lc Lk. f_equal. symmetry. exact (proj2 (HW c k b j Lc Lk Lb Lj)).
  Qed.

  Lemma ring_energy fov W : shp fov = [no; nv] -> rpa_solution no nv e g t W -> exists ec,
    returns "cc_energy" [arr (tzeros K [nv; no]); arr T2; arr fov; arr (oovv I)] (numv ec) /\
    (1 + 1) * (1 + 1) * ec = - sum_ph no nv (fun a i => W a i a i) - sum_ph no nv (fun a i => rpa_A no e g a i a i).
  Proof.
    intros Sf HW. destruct blocks_shape as (_ & _ & _ & _ & _ & SO & _).
    eexists. split; [exact (cc_energy_formula K no nv (tzeros K [nv; no]) T2 fov (oovv I) eq_refl S2 Sf SO)|].
    destruct BI as (_ & _ & _ & [_ VV] & [_ VO] & [_ OV] & _).
    assert (Z1 : s1_sum K no nv (tzeros K [nv; no]) fov = 0).
    { unfold s1_sum. rewrite <- (sumN_0 K no). apply sumN_ext. intros i _. rewrite <- (sumN_0 K nv). apply sumN_ext. intros a _. cbn. ring. }
    assert (Z2 : s2_sum K no nv (tzeros K [nv; no]) (oovv I) = 0).
    { unfold s2_sum. rewrite <- (sumN_0 K no). apply sumN_ext. intros i _. rewrite <- (sumN_0 K no). apply sumN_ext. intros j _.
      rewrite <- (sumN_0 K nv). apply sumN_ext. intros a _. rewrite <- (sumN_0 K nv). apply sumN_ext. intros b _. cbn. ring. }
    rewrite Z1, Z2. unfold quarter.
    transitivity ((chalf + chalf) * (chalf + chalf) * d_sum K no nv T2 (oovv I)); [ring|]. rewrite (c_half K).
    rewrite (ph_ext K no nv (fun a i => W a i a i) (fun a i => - sum_ph no nv (fun c k => dat (oovv I) [i; k; a; c] * T c a k i) + - rpa_A no e g a i a i)).
    - rewrite ph_add, !ph_opp.
      transitivity (sum_ph no nv (fun a i => sum_ph no nv (fun c k => dat (oovv I) [i; k; a; c] * T c a k i))); [|ring].
      transitivity (d_sum K no nv T2 (oovv I)); [ring|]. unfold d_sum, sum_ph.
      rewrite (sumN_swap K nv no). apply sumN_ext. intros i Li.
      transitivity (sumN nv (fun a => sumN no (fun j => sumN nv (fun b => dat (oovv I) [i; j; a; b] * T a b i j)))).
      + apply sumN_swap.
      + apply sumN_ext. intros a La. rewrite sumN_swap. apply sumN_ext. intros c Lc. apply sumN_ext. intros k Lk.
        rewrite (PS a c i k) by auto. reflexivity.
    - intros a i La Li. destruct (HW a i a i La Li La Li) as [_ <-].
      rewrite (ph_ext K no nv (fun c k => rpa_B' no g a i c k * t c k a i) (fun c k => dat (oovv I) [i; k; a; c] * T c a k i)); [ring|].
      intros c k Lc Lk. rewrite OV by auto. reflexivity.
  Qed.
  End Ring.

  Section Ladder.
  Hypothesis AT : forall a b i j, (a < nv)%nat -> (b < nv)%nat -> (i < no)%nat -> (j < no)%nat -> T a b i j = - T a b j i.
  Notation t := (fun a b i j => T a b i j).
  Definition ladder_W (k l i j : nat) : K :=
    - sum_vv nv (fun c d => g k l (no + c)%nat (no + d)%nat * T c d i j)
        + (e k + e l) * pair_one k l i j
        - sum_oo no (fun m n => g k l m n * pair_one m n i j).
  Lemma vv_ext (f h : nat -> nat -> K) : (forall c k, (c < nv)%nat -> (k < nv)%nat -> f c k = h c k) -> sum_vv nv f = sum_vv nv h.
  Proof. intros H. unfold sum_vv. f_equal. apply sumN_ext. intros c Lc. apply sumN_ext. intros k Lk. auto. Qed.

  Lemma ladder_rpa : exists R,
    returns "ccd_ladder_simple" [py_two_e I; arr T2] (arr R) /\ shp R = [nv; nv; no; no] /\
    ((forall a b i j, (a < nv)%nat -> (b < nv)%nat -> (i < no)%nat -> (j < no)%nat ->
        dat Db [a; b; i; j] * T a b i j + dat R [a; b; i; j] = 0)
     <-> exists W, pprpa_solution no nv e g t W).
  Proof.
    destruct (ladder_formula K no nv I T2 blocks_shape S2) as (R & HR & Z & D).
    exists R. split; [exact HR|]. split; [exact Z|].
    destruct BI as ([_ V4] & _ & _ & [_ VV] & _ & [_ OV] & _ & _ & [_ O4]).
    assert (Q : forall a b i j, (a < nv)%nat -> (b < nv)%nat -> (i < no)%nat -> (j < no)%nat ->
      (e (no + a)%nat + e (no + b)%nat) * t a b i j
        + sum_vv nv (fun c d => g (no + a)%nat (no + b)%nat (no + c)%nat (no + d)%nat * t c d i j)
        + sum_oo no (fun k l => g (no + a)%nat (no + b)%nat k l * pair_one k l i j)
      - sum_oo no (fun k l => t a b k l * ladder_W k l i j)
      = dat Db [a; b; i; j] * T a b i j + dat R [a; b; i; j]).
    { intros a b i j La Lb Li Lj.
      assert (QW : sum_oo no (fun k l => t a b k l * ladder_W k l i j)
        = - sum_oo no (fun k l => T a b k l * sum_vv nv (fun c d => dat (oovv I) [k; l; c; d] * T c d i j))
          + (e i + e j) * T a b i j - sum_oo no (fun k l => T a b k l * dat (oooo I) [k; l; i; j])).
      { transitivity (- sum_oo no (fun k l => T a b k l * sum_vv nv (fun c d => dat (oovv I) [k; l; c; d] * T c d i j))
          + (sum_oo no (fun k l => (e k + e l) * T a b k l * pair_one k l i j)
             + - sum_oo no (fun k l => T a b k l * dat (oooo I) [k; l; i; j]))).
        - rewrite <- !oo_opp, <- !oo_add. apply oo_ext. intros k l Lk Ll. unfold ladder_W.
          rewrite (oo_pair K no i j (fun m n => g k l m n)); auto.
          + rewrite O4 by auto. cbn [Nat.add].
            rewrite (vv_ext (fun c d => g k l (no + c)%nat (no + d)%nat * T c d i j) (fun c d => dat (oovv I) [k; l; c; d] * T c d i j)); [ring|].
            intros c d Lc Ld. rewrite OV by auto. reflexivity.
          + apply (AG k l j i); lia.
        - rewrite (oo_pair K no i j (fun k l => (e k + e l) * T a b k l)); auto; [ring|].
          rewrite (AT a b j i) by auto. ring. }
      rewrite QW, D, db_e, VV by auto. cbn [Nat.add].
      rewrite (oo_pair K no i j (fun k l => g (no + a)%nat (no + b)%nat k l)); auto; [|apply (AG (no + a)%nat (no + b)%nat j i); lia].
      rewrite (vv_ext (fun c d => g (no + a)%nat (no + b)%nat (no + c)%nat (no + d)%nat * t c d i j) (fun c d => dat (vvvv I) [a; b; c; d] * T c d i j)); [ring|].
      intros c d Lc Ld. rewrite V4 by auto. reflexivity. }
    split.
    - intros C. exists ladder_W. split; [|reflexivity]. intros a b i j La Lb Li Lj.
      specialize (Q a b i j La Lb Li Lj). rewrite C in Q by auto.
      match type of Q with ?x - ?y = 0 => transitivity (x - y + y); [ring|rewrite Q; ring] end.
    - intros (W & U & HW) a b i j La Lb Li Lj. rewrite <- (Q a b i j) by auto. rewrite U by auto.
      rewrite (oo_ext K no (fun k l => t a b k l * W k l i j) (fun k l => t a b k l * ladder_W k l i j)); [ring|].
      intros k l Lk Ll. f_equal. symmetry. exact (HW k l i j Lk Ll Li Lj).
  Qed.

  Lemma ladder_energy fov W : shp fov = [no; nv] -> pprpa_solution no nv e g t W -> exists ec,
    returns "cc_energy" [arr (tzeros K [nv; no]); arr T2; arr fov; arr (oovv I)] (numv ec) /\
    ec = sum_oo no (fun k l => (e k + e l) * pair_one k l k l - g k l k l) - sum_oo no (fun k l => W k l k l).
  Proof.
    intros Sf [_ HW]. destruct blocks_shape as (_ & _ & _ & _ & _ & SO & _).
    eexists. split; [exact (cc_energy_formula K no nv (tzeros K [nv; no]) T2 fov (oovv I) eq_refl S2 Sf SO)|].
    destruct BI as (_ & _ & _ & [_ VV] & [_ VO] & [_ OV] & _).
    assert (Z1 : s1_sum K no nv (tzeros K [nv; no]) fov = 0).
    { unfold s1_sum. rewrite <- (sumN_0 K no). apply sumN_ext. intros i _. rewrite <- (sumN_0 K nv). apply sumN_ext. intros a _. cbn. ring. }
    assert (Z2 : s2_sum K no nv (tzeros K [nv; no]) (oovv I) = 0).
    { unfold s2_sum. rewrite <- (sumN_0 K no). apply sumN_ext. intros i _. rewrite <- (sumN_0 K no). apply sumN_ext. intros j _.
      rewrite <- (sumN_0 K nv). apply sumN_ext. intros a _. rewrite <- (sumN_0 K nv). apply sumN_ext. intros b _. cbn. ring. }
    rewrite Z1, Z2. unfold quarter.
    transitivity (sum_oo no (fun k l => sum_vv nv (fun c d => dat (oovv I) [k; l; c; d] * T c d k l))).
    - unfold sum_oo, sum_vv, d_sum. transitivity (chalf * (chalf * sumN no (fun i => sumN no (fun j => sumN nv (fun a => sumN nv (fun b =>
        dat (oovv I) [i; j; a; b] * T a b i j)))))); [ring|]. f_equal.
      rewrite <- sumN_mul_l. apply sumN_ext. intros i _. rewrite <- sumN_mul_l. reflexivity.
    - transitivity (sum_oo no (fun k l => (e k + e l) * pair_one k l k l - g k l k l) + - sum_oo no (fun k l => W k l k l)); [|ring].
      rewrite <- oo_opp, <- oo_add. apply oo_ext. intros k l Lk Ll. rewrite <- (HW k l k l Lk Ll Lk Ll).
      rewrite (oo_pair K no k l (fun m n => g k l m n)); auto; [|apply (AG k l l k); lia].
      rewrite (vv_ext (fun c d => dat (oovv I) [k; l; c; d] * T c d k l) (fun c d => g k l (no + c)%nat (no + d)%nat * t c d k l)); [ring|].
      intros c d Lc Ld. rewrite OV by auto. reflexivity.
  Qed.
  End Ladder.
End Main.
