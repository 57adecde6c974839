(** Rounding errors of the public coupled cluster functions: the table. *)
From Coq Require Import List Bool Arith Ascii String ZArith Reals Lia Lra.
From Verif Require Import Scalar Tensor PySyntax PySem PySim SymSound CCProg CCSpec CCShapes Public RoundSpec RoundTable RoundCC RoundRun RoundMain.
Import ListNotations.

Definition pcls (s : space) : positive := match s with so => 1 | sv => 2 | sO => 3 | sV => 4 end.
Fixpoint parg (s : shape) : xval poly_alg :=
  match s with
  | SNum => @XNum poly_alg (0, 0)
  | SArr l => @XArr poly_alg (map pcls l, (0, 0))
  | STup l => XTup (map parg l)
  | SObj l => XObj (map (fun p => (fst p, parg (snd p))) l)
  end.
Definition ple (c e : nat) (b : pbound) : bool := Nat.leb (fst b) c && Nat.leb (snd b) e.
Fixpoint xple (c e : nat) (x : xval poly_alg) : bool :=
  match x with
  | XNum b => ple c e b
  | XArr t => ple c e (snd t)
  | XTup l => forallb (xple c e) l
  | XObj l => forallb (fun p => xple c e (snd p)) l
  end.
Definition row_ok (r : string * nat * nat) (p : string * list shape * shape) : bool :=
  let '(f, c, e) := r in let '(g, argshapes, _) := p in
  if String.eqb f g then
    match pycall poly_alg cc_prog f (map parg argshapes) with Ok (x, _) => xple c e x | _ => false end
  else true.
Lemma rows_ok : forallb (fun r => forallb (row_ok r) public_functions) rounding_table = true.
Proof. vm_compute. reflexivity. Qed.

Section Shapes.
  Variable K : cring.
  Variable nrm : K -> R.
  Variable u : R.
  Variables (add mul : K -> K -> K) (ein : einsum_fun K).
  Hypothesis HN : is_norm K nrm.
  Hypothesis HA : is_arithmetic K nrm u add mul ein.
  Notation FL := (fl_alg K add mul ein).
  Notation MG := (mag_alg K nrm).

  Lemma U0' : (0 <= u)%R. Proof. apply HA. Qed.

  (** arguments taken as exact *)
  Lemma v_within_given : forall v : pyval K,
    v_within K nrm u add mul ein (as_given K add mul ein v) v (magnitudes K nrm v) (unrounded K v).
  Proof.
    assert (L : forall vs, Forall (fun v => v_within K nrm u add mul ein (as_given K add mul ein v) v (magnitudes K nrm v) (unrounded K v)) vs ->
      l_within K nrm u add mul ein (map (as_given K add mul ein) vs) vs (map (magnitudes K nrm) vs) (map (unrounded K) vs)).
    { induction 1; cbn; constructor; auto. }
    induction v as [x|t|vs H|fs H] using xval_ind'; cbn.
    - constructor. apply within_exact; auto using U0'.
    - constructor. split; [|split; [|split]]; cbn; auto. intros. apply within_exact; auto using U0'.
    - constructor. apply L. exact H.
    - assert (X : forall A (h : pyval K -> xval A), map (fun p => (fst p, h (snd p))) fs = combine (map fst fs) (map h (map snd fs))).
      { clear. intros A h. induction fs as [|[a b] l IH]; cbn; congruence. }
      assert (Y : fs = combine (map fst fs) (map snd fs)) by (clear; induction fs as [|[a b] l IH]; cbn; congruence).
      change (v_within K nrm u add mul ein (XObj (map (fun p => (fst p, as_given K add mul ein (snd p))) fs)) (XObj fs)
        (XObj (map (fun p => (fst p, magnitudes K nrm (snd p))) fs)) (XObj (map (fun p => (fst p, unrounded K (snd p))) fs))).
      rewrite !X. rewrite Y at 3. constructor; [|rewrite !map_length; reflexivity]. apply L. rewrite Forall_map. exact H.
  Qed.
  Lemma l_within_given (vs : list (pyval K)) :
    l_within K nrm u add mul ein (map (as_given K add mul ein) vs) vs (map (magnitudes K nrm) vs) (map (unrounded K) vs).
  Proof. induction vs; cbn; constructor; auto using v_within_given. Qed.

  (** polynomial bounds of the arguments *)
  Variable n : space -> nat.
  Variable N : nat.
  Hypothesis HN1 : 1 <= N.
  Hypothesis Hn : forall s, n s <= N.
  Definition pdim (c : positive) : nat := match c with 1 => n so | 2 => n sv | 3 => n sO | 4 => n sV | _ => 0%nat end%positive.
  Lemma pdim_le c : pdim c <= N.
  Proof. unfold pdim. repeat (destruct c; cbn; auto; try lia). Qed.
  Lemma pdim_cls s : pdim (pcls s) = n s.
  Proof. destruct s; reflexivity. Qed.

  Fixpoint shape_ind' (P : shape -> Prop) (H1 : P SNum) (H2 : forall l, P (SArr l)) (H3 : forall l, Forall P l -> P (STup l))
    (H4 : forall l, Forall (fun p => P (snd p)) l -> P (SObj l)) (s : shape) : P s :=
    match s with
    | SNum => H1 | SArr l => H2 l
    | STup l => H3 l ((fix go l : Forall P l := match l with [] => Forall_nil _ | x :: l' => Forall_cons _ (shape_ind' P H1 H2 H3 H4 x) (go l') end) l)
    | SObj l => H4 l ((fix go l : Forall (fun p => P (snd p)) l := match l with [] => Forall_nil _ | x :: l' => Forall_cons _ (shape_ind' P H1 H2 H3 H4 (snd x)) (go l') end) l)
    end.

  Notation RP := (Rx poly_alg depth_alg (RnP N) (RaP pdim N)).
  Lemma parg_ok : forall s (v : pyval K), fits n v s -> RP (parg s) (unrounded K v).
  Proof.
    induction s as [|l|l H|l H] using shape_ind'; intros v F; inversion F as [x|t l' E|vs l' E|vs l' E]; subst; cbn.
    - constructor. unfold RnP. lia.
    - constructor. split; cbn; [|lia]. rewrite E, map_map. apply map_ext. intros s. symmetry. apply pdim_cls.
    - constructor. clear F. revert vs E. induction H as [|s l Hs H IH]; intros vs E; inversion E; subst; cbn; constructor; auto.
    - constructor. clear F. revert vs E. induction H as [|[a s] l Hs H IH]; intros vs E; inversion E as [|[a' v] ? ? ? [E1 E2]]; subst; cbn; constructor; auto.
      cbn in *. split; auto.
  Qed.
  Lemma pargs_ok ss (vs : list (pyval K)) : Forall2 (fits n) vs ss -> Forall2 RP (map parg ss) (map (unrounded K) vs).
  Proof. induction 1; cbn; constructor; auto using parg_ok. Qed.

  Lemma ple_ok c e b : ple c e b = true -> pval N b <= c * N ^ e.
  Proof.
    unfold ple, pval. intros H. apply andb_prop in H as [A B]. apply Nat.leb_le in A, B.
    pose proof (npow N HN1 _ _ B). nia.
  Qed.

  Scheme v_ind3 := Induction for RoundSpec.v_within Sort Prop
    with l_ind3 := Induction for RoundSpec.l_within Sort Prop.
  Combined Scheme vl_ind3 from v_ind3, l_ind3.

  Lemma within_le x v m d D : within K nrm u x v m d -> (d <= D)%nat -> (dist K nrm x v <= ((1 + u) ^ D - 1) * m)%R.
  Proof. intros W L. exact (proj2 (within_mono K nrm u HN U0' _ _ _ _ _ L W)). Qed.

  Lemma to_error c e : (forall x v m d, v_within K nrm u add mul ein x v m d -> forall p, RP p d -> xple c e p = true ->
      error_le K nrm u add mul ein (c * N ^ e) x v m) /\
    (forall x v m d, l_within K nrm u add mul ein x v m d -> forall ps, Forall2 RP ps d -> forallb (xple c e) ps = true ->
      errors_le K nrm u add mul ein (c * N ^ e) x v m).
  Proof.
    apply (vl_ind3 K nrm u add mul ein
      (fun x v m d _ => forall p, RP p d -> xple c e p = true -> error_le K nrm u add mul ein (c * N ^ e) x v m)
      (fun x v m d _ => forall ps, Forall2 RP ps d -> forallb (xple c e) ps = true -> errors_le K nrm u add mul ein (c * N ^ e) x v m)).
    - intros x v m d W p P H. inversion P as [? ? Q| | |]; subst. constructor. eapply within_le; [exact W|].
      cbn in H. apply ple_ok in H. unfold RnP in Q. lia.
    - intros x v m d (W1 & W2 & W3 & W4) p P H. inversion P as [|? ? Q| |]; subst. constructor; auto.
      intros idx Hi. eapply within_le; [apply W4, Hi|]. cbn in H. apply ple_ok in H. destruct Q as [_ Q]. lia.
    - intros x v m d W IH p P H. inversion P; subst. constructor. eapply IH; eauto.
    - intros ns x v m d W IH HL p P H. inversion P as [| | |fs fs' Q]; subst. constructor; auto.
      apply (IH (map snd fs)).
      + assert (LD : List.length ns = List.length d).
        { rewrite HL. clear -W. induction W; cbn; auto. }
        clear -Q LD. revert ns d LD Q. induction fs as [|f fs IH]; intros [|s ns] [|d0 d] LD Q; try discriminate; cbn in Q;
          inversion Q as [|a b l l' [E1 E2] Q']; subst; constructor; [exact E2|]. eapply IH; [|exact Q']. injection LD as LD. exact LD.
      + cbn in H. clear -H. induction fs as [|f fs IH]; [reflexivity|]. cbn in *. apply andb_prop in H as [A B]. rewrite A. auto.
    - constructor.
    - intros x v m d xs vs ms ds W IH Ws IHs ps P H. inversion P; subst. cbn in H. apply andb_prop in H as [A B]. constructor; eauto.
  Qed.

  Theorem public_rounding f argshapes resshape c e (args : list (pyval K)) :
    In (f, argshapes, resshape) public_functions -> In (f, c, e) rounding_table -> Forall2 (fits n) args argshapes ->
    exists r rf of rm om, returns (K := K) f args r /\
      pycall FL cc_prog f (map (as_given K add mul ein) args) = Ok (rf, of) /\
      pycall MG cc_prog f (map (magnitudes K nrm) args) = Ok (rm, om) /\
      error_le K nrm u add mul ein (c * N ^ e) rf r rm.
  Proof.
    intros Hp Ht Hf. destruct (public_ok K n f argshapes resshape args Hp Hf) as (r & Hr & _).
    pose proof Hr as (out & Ho & _).
    destruct (rounding_bound K nrm u add mul ein HN HA cc_prog f _ _ _ _ _ _ (l_within_given args) Ho)
      as (rf & of & rm & om & rd & od & E1 & E2 & E3 & W & _).
    pose proof rows_ok as R. rewrite forallb_forall in R. specialize (R _ Ht). rewrite forallb_forall in R. specialize (R _ Hp).
    cbn -[pycall] in R. rewrite String.eqb_refl in R.
    destruct (pycall poly_alg cc_prog f (map parg argshapes)) as [[x o]|] eqn:EP; [|discriminate].
    destruct (sim_poly pdim N HN1 pdim_le cc_prog f _ _ _ _ (pargs_ok _ _ Hf) EP) as (rd' & od' & E3' & X & _).
    rewrite E3 in E3'. injection E3' as <- <-.
    exists r, rf, of, rm, om. repeat split; auto. eapply (proj1 (to_error c e)); eauto.
  Qed.
End Shapes.
