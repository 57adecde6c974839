(** Rounding errors of the coupled cluster functions: the bound for every call, and
    closed forms for the number of roundings. *)
From Coq Require Import List Bool Arith Ascii String ZArith Reals Lia Lra.
From Verif Require Import Scalar Tensor PySyntax PySem PySim SymSound RoundSpec RoundCC RoundRun.
Import ListNotations.

Section Main.
  Variable K : cring.
  Variable nrm : K -> R.
  Variable u : R.
  Variables (add mul : K -> K -> K) (ein : einsum_fun K).
  Hypothesis HN : is_norm K nrm.
  Hypothesis HA : is_arithmetic K nrm u add mul ein.
  Notation FL := (fl_alg K add mul ein).
  Notation MG := (mag_alg K nrm).
  Notation EX := (conc_alg K).
  Notation ER := (err_alg K nrm).
  Notation v_within := (v_within K nrm u add mul ein).
  Notation l_within := (l_within K nrm u add mul ein).
  Notation RE := (Rx EX ER (RnE K) (RaE K)).
  Notation RF := (Rx ER FL (RnF K nrm u) (RaF K nrm u)).
  Notation RM := (Rx ER MG (RnM K) (RaM K)).
  Notation RD := (Rx ER depth_alg (RnD K) (RaD K)).

  Scheme v_ind2 := Induction for RoundSpec.v_within Sort Prop
    with l_ind2 := Induction for RoundSpec.l_within Sort Prop.
  Combined Scheme vl_ind from v_ind2, l_ind2.

  Lemma to_err : (forall x v m d, v_within x v m d -> exists e, RE v e /\ RF e x /\ RM e m /\ RD e d) /\
    (forall x v m d, l_within x v m d -> exists e, Forall2 RE v e /\ Forall2 RF e x /\ Forall2 RM e m /\ Forall2 RD e d).
  Proof.
    apply (vl_ind K nrm u add mul ein
      (fun x v m d _ => exists e, RE v e /\ RF e x /\ RM e m /\ RD e d)
      (fun x v m d _ => exists e, Forall2 RE v e /\ Forall2 RF e x /\ Forall2 RM e m /\ Forall2 RD e d)).
    - intros x v m d W. exists (@XNum ER (v, m, d)). repeat split; constructor; auto; try reflexivity.
    - intros x v m d W. exists (@XArr ER (v, m, d)). pose proof W as (W1 & W2 & W3 & W4).
      repeat split; constructor; auto; try reflexivity. repeat split; auto.
    - intros x v m d W (e & A & B & C & D). exists (XTup e). repeat split; constructor; auto.
    - intros ns x v m d W (e & A & B & C & D) HL. exists (XObj (combine ns e)).
      assert (G : forall A1 A2 (R : xval A1 -> xval A2 -> Prop) l l', Forall2 R l l' -> forall ns : list string,
        Forall2 (fun p q => fst p = fst q /\ R (snd p) (snd q)) (combine ns l) (combine ns l')).
      { clear. induction 1; intros [|n ns]; cbn; constructor; auto. }
      repeat split; constructor; apply G; auto.
    - exists []. repeat split; constructor.
    - intros x v m d xs vs ms ds W (e & A & B & C & D) Ws (es & As & Bs & Cs & Ds). exists (e :: es). repeat split; constructor; auto.
  Qed.

  Lemma from_err : forall e v x m d, RE v e -> RF e x -> RM e m -> RD e d -> v_within x v m d.
  Proof.
    assert (L : forall es, Forall (fun e => forall v x m d, RE v e -> RF e x -> RM e m -> RD e d -> v_within x v m d) es ->
      forall vs xs ms ds, Forall2 RE vs es -> Forall2 RF es xs -> Forall2 RM es ms -> Forall2 RD es ds -> l_within xs vs ms ds).
    { induction 1 as [|e es He H IH]; intros vs xs ms ds A B C D; inversion A; inversion B; inversion C; inversion D; subst; constructor; auto. }
    induction e as [n|t|es H|fs H] using xval_ind'; intros v x m d A B C D;
      inversion A as [? ? A1|? ? A1|? ? A1|? ? A1]; inversion B as [? ? B1|? ? B1|? ? B1|? ? B1]; inversion C as [? ? C1|? ? C1|? ? C1|? ? C1];
      inversion D as [? ? D1|? ? D1|? ? D1|? ? D1]; subst.
    - rewrite <- A1, <- C1, <- D1. constructor. exact B1.
    - destruct A1 as (A1 & _). rewrite <- A1, <- C1, <- D1. constructor. exact B1.
    - constructor. eapply L; eauto.
    - assert (X : forall A (l : list (string * xval A)), l = combine (map fst l) (map snd l)).
      { clear. induction l as [|[a b] l IH]; cbn; congruence. }
      assert (Y : forall Z1 Z2 (R : xval Z1 -> xval Z2 -> Prop) (l : list (string * xval Z1)) (l' : list (string * xval Z2)), Forall2 (fun p q => fst p = fst q /\ R (snd p) (snd q)) l l' ->
        map fst l = map fst l' /\ Forall2 R (map snd l) (map snd l')).
      { clear. induction 1 as [|p q l l' [E1 E2] H [IH1 IH2]]; cbn; [auto|]. split; [congruence|constructor; auto]. }
      match goal with A : Forall2 _ fs0 fs |- _ => apply Y in A as [A1 A2] end. apply Y in B1 as [B1 B2], C1 as [C1 C2], D1 as [D1 D2].
      rewrite (X _ fs0), (X _ fs'0), (X _ fs'1), (X _ fs'2). rewrite <- C1, <- D1, <- B1, A1.
      constructor.
      + eapply L; [|exact A2|exact B2|exact C2|exact D2]. rewrite Forall_map. exact H.
      + rewrite map_length. pose proof (f_equal (@List.length _) B1) as E. rewrite !map_length in E. rewrite map_length. exact E.
  Qed.

  Theorem rounding_bound prog f xs vs ms ds r out : l_within xs vs ms ds ->
    pycall EX prog f vs = Ok (r, out) ->
    exists rf of rm om rd od,
      pycall FL prog f xs = Ok (rf, of) /\ pycall MG prog f ms = Ok (rm, om) /\ pycall depth_alg prog f ds = Ok (rd, od) /\
      v_within rf r rm rd /\ l_within of out om od.
  Proof.
    intros W H. destruct (proj2 to_err _ _ _ _ W) as (es & A & B & C & D).
    destruct (sim_exact K nrm _ _ _ _ _ _ A H) as (re & oe & He & A1 & A2).
    destruct (sim_fl K nrm u add mul ein HN HA _ _ _ _ _ _ B He) as (rf & of & Hf & B1 & B2).
    destruct (sim_mag K nrm _ _ _ _ _ _ C He) as (rm & om & Hm & C1 & C2).
    destruct (sim_depth K nrm _ _ _ _ _ _ D He) as (rd & od & Hd & D1 & D2).
    exists rf, of, rm, om, rd, od. repeat split; auto.
    - eapply from_err; eauto.
    - clear -A2 B2 C2 D2. revert out of om od A2 B2 C2 D2.
      induction oe as [|e oe IH]; intros; inversion A2; inversion B2; inversion C2; inversion D2; subst; constructor.
      + eapply from_err; eauto.
      + eapply IH; eauto.
  Qed.
End Main.

(** *** Polynomial bounds for the number of roundings: (c, e) stands for c n^e *)
Definition pbound : Type := (nat * nat)%type.
Definition parr : Type := (list positive * pbound)%type.
Fixpoint psh_eqb (a b : list positive) : bool :=
  match a, b with
  | [], [] => true
  | x :: a', y :: b' => Pos.eqb x y && psh_eqb a' b'
  | _, _ => false
  end.
Definition p_add (a b : pbound) : pbound := (S (Nat.max (fst a) (fst b)), Nat.max (snd a) (snd b)).
Definition p_mul (a b : pbound) : pbound := (S (fst a + fst b), Nat.max (snd a) (snd b)).
Definition p_einsum (ins : list letters) (out : letters) (ts : list parr) : option (pbound + parr) :=
  match bind_all Pos.eqb ins (map fst ts) [] with
  | None => None
  | Some env =>
      match dims_of out env, dims_of (summed_letters out env) env with
      | Some od, Some sd =>
          if nodup_ascii out then
            let b := (list_sum (map (fun t => fst (snd t)) ts) + S (List.length ins - 2),
                      fold_right Nat.max (List.length sd) (map (fun t => snd (snd t)) ts)) in
            Some (match out with [] => inl b | _ => inr (od, b) end)
          else None
      | _, _ => None
      end
  end.
Definition poly_alg : alg :=
  Alg parr pbound (fun _ _ => (0, 0)) p_add p_mul (fun a => a)
    (fun a b => if psh_eqb (fst a) (fst b) then Some (fst a, p_add (snd a) (snd b)) else None)
    (fun a => a) (fun k a => (fst a, p_mul k (snd a)))
    (fun p a => if is_perm p (List.length (fst a)) then Some (map (fun k => nth k (fst a) 1%positive) p, snd a) else None)
    p_einsum.

Lemma psh_eqb_eq a b : psh_eqb a b = true -> a = b.
Proof.
  revert b. induction a as [|x a IH]; intros [|y b]; cbn; try discriminate; auto.
  intros H. apply andb_prop in H as [H1 H2]. apply Pos.eqb_eq in H1. f_equal; auto.
Qed.

Section Poly.
  Variable dim : positive -> nat.
  Variable n : nat.
  Hypothesis N1 : 1 <= n.
  Hypothesis Hdim : forall c, dim c <= n.
  Definition pval (b : pbound) : nat := fst b * n ^ snd b.
  Definition RnP (b : pbound) (d : nat) : Prop := d <= pval b.
  Definition RaP (a : parr) (d : list nat * nat) : Prop := fst d = map dim (fst a) /\ snd d <= pval (snd a).

  Lemma npow e e' : e <= e' -> n ^ e <= n ^ e'.
  Proof. intros. apply Nat.pow_le_mono_r; lia. Qed.
  Lemma npow1 e : 1 <= n ^ e.
  Proof. change 1 with (n ^ 0). apply npow. lia. Qed.
  Lemma pval_up c e e' : e <= e' -> c * n ^ e <= c * n ^ e'.
  Proof. intros. apply Nat.mul_le_mono_l, npow. lia. Qed.
  Lemma p_add_ok a b d d' : d <= pval a -> d' <= pval b -> S (Nat.max d d') <= pval (p_add a b).
  Proof.
    unfold pval, p_add. cbn [fst snd]. intros A B. set (E := Nat.max (snd a) (snd b)).
    pose proof (pval_up (fst a) (snd a) E ltac:(lia)). pose proof (pval_up (fst b) (snd b) E ltac:(lia)). pose proof (npow1 E).
    assert (fst a * n ^ E <= Nat.max (fst a) (fst b) * n ^ E) by (apply Nat.mul_le_mono_r; lia).
    assert (fst b * n ^ E <= Nat.max (fst a) (fst b) * n ^ E) by (apply Nat.mul_le_mono_r; lia). lia.
  Qed.
  Lemma p_mul_ok a b d d' : d <= pval a -> d' <= pval b -> S (d + d') <= pval (p_mul a b).
  Proof.
    unfold pval, p_mul. cbn [fst snd]. intros A B. set (E := Nat.max (snd a) (snd b)).
    pose proof (pval_up (fst a) (snd a) E ltac:(lia)). pose proof (pval_up (fst b) (snd b) E ltac:(lia)). pose proof (npow1 E). nia.
  Qed.
  Lemma prod_le sd : fold_right Nat.mul 1 (map dim sd) <= n ^ List.length sd.
  Proof. induction sd as [|c sd IH]; cbn; [lia|]. pose proof (Hdim c). nia. Qed.

  Lemma perm_lt p r k : is_perm p r = true -> In k p -> k < r.
  Proof.
    unfold is_perm. intros H Hin. apply andb_prop in H as [E1 E2]. apply Nat.eqb_eq in E1.
    assert (Hincl : incl (seq 0 r) p).
    { intros j Hj. rewrite forallb_forall in E2. specialize (E2 j Hj).
      apply existsb_exists in E2 as (y & Hy & Ey). apply Nat.eqb_eq in Ey. subst. auto. }
    apply NoDup_length_incl in Hincl; [|apply seq_NoDup|rewrite seq_length; lia].
    specialize (Hincl _ Hin). apply in_seq in Hincl. lia.
  Qed.

  Lemma sim_poly prog f args args' r out : Forall2 (Rx poly_alg depth_alg RnP RaP) args args' ->
    pycall poly_alg prog f args = Ok (r, out) ->
    exists r' out', pycall depth_alg prog f args' = Ok (r', out') /\ Rx poly_alg depth_alg RnP RaP r r' /\ Forall2 (Rx poly_alg depth_alg RnP RaP) out out'.
  Proof.
    apply pycall_sim; unfold RnP, RaP.
    - intros z k. cbn. lia.
    - intros a a' b b' A B. apply p_add_ok; auto.
    - intros a a' b b' A B. apply p_mul_ok; auto.
    - intros a a' A. exact A.
    - intros a a' b b' c (A1 & A2) (B1 & B2) H. cbn in H |- *.
      destruct (psh_eqb (fst a) (fst b)) eqn:E; [|discriminate]. injection H as <-. apply psh_eqb_eq in E.
      rewrite A1, B1, E, shape_eqb_refl. eexists. split; [reflexivity|]. cbn [fst snd]. split; [congruence|]. apply p_add_ok; auto.
    - intros a a' A. exact A.
    - intros k k' a a' Hk (A1 & A2). cbn. split; [exact A1|]. apply p_mul_ok; auto.
    - intros p a a' c (A1 & A2) H. cbn in H |- *. unfold d_trans. rewrite A1, map_length.
      destruct (is_perm p (List.length (fst a))) eqn:E; [|discriminate]. injection H as <-.
      eexists. split; [reflexivity|]. cbn [fst snd]. split; [|exact A2].
      rewrite map_map. apply map_ext_in. intros k Hk. apply nth_map_lt. eapply perm_lt; eauto.
    - intros ins o ts ts' s H E. cbn -[p_einsum d_einsum] in E |- *. unfold p_einsum in E. unfold d_einsum.
      destruct (bind_all Pos.eqb ins (map fst ts) []) as [env|] eqn:Eb; [|discriminate].
      assert (X1 : map fst ts' = map (map dim) (map fst ts)) by (clear E Eb; induction H as [|a b ts ts' (Hs & _) H IH]; cbn; congruence).
      assert (Hfd : forall x y, Pos.eqb x y = true -> Nat.eqb (dim x) (dim y) = true).
      { intros x y Hxy. apply Pos.eqb_eq in Hxy. subst. apply Nat.eqb_refl. }
      pose proof (bind_all_map dim Pos.eqb Nat.eqb Hfd _ _ _ _ Eb) as Eb'. cbn [map] in Eb'.
      rewrite X1, Eb', summed_map, !dims_of_map.
      destruct (dims_of o env) as [od|]; [|discriminate].
      destruct (dims_of (summed_letters o env) env) as [sd|]; [|discriminate].
      destruct (nodup_ascii o); [|discriminate]. cbn [option_map] in *. cbv zeta in *.
      set (d := list_sum (map snd ts') + _). set (b := (_, _)) in E.
      assert (W : d <= pval b).
      { unfold d, b, pval. cbn [fst snd]. set (e := fold_right Nat.max (List.length sd) (map (fun t => snd (snd t)) ts)).
        assert (P1 : list_sum (map snd ts') <= list_sum (map (fun t => fst (snd t)) ts) * n ^ e /\ List.length sd <= e).
        { unfold e. clear -H N1. induction H as [|a a' ts ts' (_ & Ha) H [IH1 IH2]]; [cbn; lia|].
          cbn [map fold_right]. unfold list_sum in *. cbn [fold_right map].
          set (E0 := fold_right Nat.max _ _) in *. set (E1 := Nat.max (snd (snd a)) E0).
          pose proof (pval_up (fst (snd a)) (snd (snd a)) E1 ltac:(lia)) as Q1.
          pose proof (pval_up (fold_right Nat.add 0 (map (fun t : parr => fst (snd t)) ts)) E0 E1 ltac:(lia)) as Q2.
          unfold pval in Ha. split; [|unfold E1; lia]. rewrite Nat.mul_add_distr_r.
          apply Nat.add_le_mono; [exact (Nat.le_trans _ _ _ Ha Q1)|exact (Nat.le_trans _ _ _ IH1 Q2)]. }
        destruct P1 as [P1 P2]. pose proof (prod_le sd). pose proof (npow _ _ P2). pose proof (npow1 e).
        rewrite Nat.mul_add_distr_r. cbn [Nat.mul]. 
        assert (List.length ins - 2 <= (List.length ins - 2) * n ^ e) by nia. lia. }
      destruct o as [|c o]; injection E as <-; eexists; (split; [reflexivity|]); cbn; [exact W|]. split; [reflexivity|exact W].
  Qed.
End Poly.
