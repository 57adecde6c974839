(** Exchange of alpha and beta: the symbolic result of the call with exchanged
    arguments is the exchanged symbolic result. *)
From Coq Require Import List Bool Arith ZArith Lia Ring String.
From Verif Require Import Scalar Tensor PySyntax PySem PySim Sym SymSound Norm CCProg CCSpec Engine
  CCShapes Public CovSpec Cov.
Import ListNotations.

Definition s_turn (a : stens) : stens :=
  match s_trans [1; 0; 3; 2] a with Some b => b | None => a end.

(** symmetry of the same-spin doubles *)
Fixpoint flip_tab (l : list shape) (a : positive) : table :=
  match l with
  | [] => []
  | s :: l' =>
      match s with
      | STup [SArr x; SArr y; SArr z] =>
          [(a, (map cl x, [(false, [1; 0; 3; 2]%nat, a)])); (Pos.succ (Pos.succ a), (map cl z, [(false, [1; 0; 3; 2]%nat, Pos.succ (Pos.succ a))]))]
      | _ => []
      end ++ flip_tab l' (snd (inst s a))
  end.

Definition flip_run (f : string) (ap : list (nat * plan)) (rp : plan) (a : list shape) : option sval * option sval :=
  let s := fst (insts a 1) in
  (option_map (rearrange (A:=sym_alg) s_turn rp) (run_chk f s), run_chk f (rearrange_args (A:=sym_alg) s_turn ap s)).

Definition all_rank4 (l : list shape) : bool :=
  forallb (fun s => match s with
    | STup [SArr x; SArr y; SArr z] => Nat.eqb (List.length x) 4 && Nat.eqb (List.length z) 4
    | _ => true end) l.

Definition flip_chk (f : string) (ap : list (nat * plan)) (rp : plan) (b : bool) (a : list shape) : bool :=
  let tb := if b then flip_tab a 1 else [] in
  all_rank4 a &&
  match flip_run f ap rp a with
  | (Some x, Some y) => eqx_chk tb x y (find_eqx tb (Some x) (Some y))
  | _ => false
  end.

Section FlipSound.
  Variable K : cring.
  Variable n : space -> nat.
  Notation dim := (sp_dim n).
  Variable rho : positive -> list nat -> K.
  Notation R := (Rval K dim rho).

  Lemma turn_sound a t : Rarr K dim rho a t -> Rarr K dim rho (s_turn a) (turn_array t).
  Proof.
    intros H. unfold s_turn. destruct (s_trans [1; 0; 3; 2] a) as [b|] eqn:E.
    - destruct (S_atrans K dim rho _ _ _ _ H E) as (u & Eu & (S1 & S2 & S3)).
      destruct H as (H1 & H2 & H3). unfold ttrans in Eu.
      destruct (is_perm [1; 0; 3; 2] (List.length (shp t))) eqn:EP; [|discriminate]. injection Eu as <-.
      apply andb_prop in EP as (L & _). apply Nat.eqb_eq in L. cbn [List.length] in L.
      cbn [shp dat] in *. unfold turn_array. destruct (shp t) as [|p [|q [|r [|s [|]]]]]; simpl in L; try discriminate. simpl in S1, S3.
      split; [exact S1|]. split; [exact S2|]. cbn [shp dat]. intros idx Hi. rewrite <- S3 by exact Hi.
      apply Forall2_length in Hi. destruct idx as [|i [|j [|k [|l [|]]]]]; simpl in Hi; try discriminate. reflexivity.
    - destruct H as (H1 & H2 & H3).
      assert (L : List.length (shp t) <> 4).
      { intros L. rewrite H1, map_length in L. unfold s_trans in E. rewrite L in E. discriminate. }
      assert (NS : forall X (l : list X), List.length l <> 4 -> swap_axes l = l).
      { intros X l Hl. unfold swap_axes. destruct l as [|? [|? [|? [|? [|]]]]]; try reflexivity. simpl in Hl. congruence. }
      unfold turn_array. split; [cbn [shp]; rewrite NS by exact L; exact H1|]. split; [exact H2|]. cbn [shp dat].
      rewrite NS by exact L. intros idx Hi. rewrite NS; [apply H3, Hi|]. apply Forall2_length in Hi. lia.
  Qed.

  Lemma turn_arr_sound v w : R v w -> R (turn_arr (A:=sym_alg) s_turn v) (turn_arr (A:=conc_alg K) turn_array w).
  Proof.
    intros H. inversion H; subst; simpl; try exact H. apply Rx_arr. apply turn_sound. assumption.
  Qed.

  Lemma field_sound fs gs x : Forall2 (fun p q => fst p = fst q /\ R (snd p) (snd q)) fs gs -> R (field fs x) (field (A:=conc_alg K) gs x).
  Proof.
    intros H. unfold field. induction H as [|[y v] [z w] fs gs (E & H1) H2 IH]; simpl.
    - apply Rx_tup. constructor.
    - cbn [fst snd] in *. subst z. destruct (String.eqb x y); [exact H1|exact IH].
  Qed.

  Lemma turn_value_sound v w : R v w -> R (turn_value (A:=sym_alg) s_turn v) (turn_value (A:=conc_alg K) turn_array w).
  Proof.
    intros H. inversion H; subst; try (apply turn_arr_sound; exact H). simpl. apply Rx_obj.
    assert (G : forall l m, Forall2 (fun p q : string * _ => fst p = fst q /\ R (snd p) (snd q)) l m ->
      Forall2 (fun p q => fst p = fst q /\ R (snd p) (snd q))
        (map (fun p => (fst p, turn_arr (A:=sym_alg) s_turn (field fs (swap_name (fst p))))) l)
        (map (fun p => (fst p, turn_arr (A:=conc_alg K) turn_array (field (A:=conc_alg K) fs' (swap_name (fst p))))) m)).
    { induction 1 as [|[y v] [z w] l m (E & H1) H2 IH]; simpl; constructor; auto. cbn [fst snd] in *. subst z. split; [reflexivity|].
      apply turn_arr_sound, field_sound. assumption. }
    apply G. assumption.
  Qed.

  Lemma nth_sound vs ws k : Forall2 R vs ws -> R (nth k vs (XTup [])) (nth k ws (XTup [])).
  Proof.
    intros H. revert k. induction H as [|v w vs ws H1 H2 IH]; intros [|k]; simpl; auto; apply Rx_tup; constructor.
  Qed.

  Lemma rearrange_sound : forall p v w, R v w -> R (rearrange (A:=sym_alg) s_turn p v) (rearrange (A:=conc_alg K) turn_array p w).
  Proof.
    fix go 1. intros [| |l] v w H; cbn [rearrange].
    - exact H.
    - apply turn_value_sound, H.
    - inversion H as [| |vs ws F|]; subst; try exact H. apply Rx_tup. clear H.
      induction l as [|[k p] l IH]; cbn [map fst snd]; constructor; [|exact IH]. apply go. apply nth_sound, F.
  Qed.

  Lemma rearrange_args_sound l vs ws : Forall2 R vs ws ->
    Forall2 R (rearrange_args (A:=sym_alg) s_turn l vs) (rearrange_args (A:=conc_alg K) turn_array l ws).
  Proof.
    intros H. unfold rearrange_args. induction l as [|[k p] l IH]; cbn [map fst snd]; constructor; [|exact IH].
    apply rearrange_sound, nth_sound, H.
  Qed.

  Lemma entry_ok l a v : List.length l = 4 -> R (fst (inst (SArr l) a)) v -> pair_symmetric v ->
    Forall (fun al => let '(s, q, t') := al in forall idx, inrange (map dim (map cl l)) idx ->
      rho a idx = Norm.sgn K s (rho t' (map (fun k => nth k idx 0%nat) q))) [(false, [1; 0; 3; 2]%nat, a)].
  Proof.
    intros L H S. apply sym_arr in H as (t & -> & HS & HE). constructor; [|constructor]. intros idx Hi. cbn [Norm.sgn].
    rewrite map_sp_dim in Hi. unfold pair_symmetric, arr in S. destruct S as (S1 & S2). cbn [shp dat turn_array] in S1, S2.
    rewrite HE by exact Hi. rewrite S1, HS in S2.
    destruct l as [|p [|q [|r [|s [|]]]]]; simpl in L; try discriminate.
    inversion Hi as [|i ? ? ? A1 Hi1]; subst. inversion Hi1 as [|j ? ? ? A2 Hi2]; subst. inversion Hi2 as [|k ? ? ? A3 Hi3]; subst.
    inversion Hi3 as [|m ? ? ? A4 Hi4]; subst. inversion Hi4; subst.
    assert (N : n q = n p /\ n s = n r). { rewrite HS in S1. cbn in S1. injection S1. auto. }
    destruct N as (N1 & N2). cbn [map nth]. rewrite HE.
    - symmetry. apply (S2 [i; j; k; m]). repeat constructor; assumption.
    - repeat constructor; lia.
  Qed.

  Lemma flip_tab_ok l : forall a vs, all_rank4 l = true -> Forall2 R (fst (insts l a)) vs ->
    (forall x y z, In (XTup [x; y; z]) vs -> pair_symmetric x /\ pair_symmetric z) ->
    sym_ok K dim rho (flip_tab l a).
  Proof.
    induction l as [|s l IH]; intros a vs HR F HS; [constructor|].
    rewrite insts_cons in F. cbn [fst] in F. inversion F as [|? v ? vs' F1 F2]; subst.
    cbn [all_rank4 forallb] in HR. apply andb_prop in HR as (R1 & R2).
    cbn [flip_tab]. apply Forall_app. split; [|eapply IH; eauto; intros; apply (HS _ y); right; assumption].
    destruct s as [|?|[|[|x|?|?] [|[|y|?|?] [|[|z|?|?] [|]]]]|?]; try constructor.
    - apply andb_prop in R1 as (L1 & L3). apply Nat.eqb_eq in L1, L3.
      rewrite inst_tup in F1. cbn [fst] in F1. inversion F1 as [| |? ws G|]; subst.
      inversion G as [|? u1 ? us1 G1 G2]; subst. inversion G2 as [|? u2 ? us2 G3 G4]; subst. inversion G4 as [|? u3 ? us3 G5 G6]; subst. inversion G6; subst.
      destruct (HS u1 u2 u3 (or_introl eq_refl)) as (P1 & P3). apply (entry_ok x a u1); auto.
    - constructor; [|constructor]. apply andb_prop in R1 as (L1 & L3). apply Nat.eqb_eq in L1, L3.
      rewrite inst_tup in F1. cbn [fst] in F1. inversion F1 as [| |? ws G|]; subst.
      inversion G as [|? u1 ? us1 G1 G2]; subst. inversion G2 as [|? u2 ? us2 G3 G4]; subst. inversion G4 as [|? u3 ? us3 G5 G6]; subst. inversion G6; subst.
      destruct (HS u1 u2 u3 (or_introl eq_refl)) as (P1 & P3). apply (entry_ok z _ u3); auto.
  Qed.
End FlipSound.

Theorem flip_sound (K : cring) (n : space -> nat) f ap rp b a (vs : list (pyval K)) :
  flip_chk f ap rp b a = true -> Forall2 (fits n) vs a ->
  (b = true -> forall x y z, In (XTup [x; y; z]) vs -> pair_symmetric x /\ pair_symmetric z) ->
  exists v w, returns f vs v /\ returns f (rearrange_args (A:=conc_alg K) turn_array ap vs) w /\
    xeq (rearrange (A:=conc_alg K) turn_array rp v) w.
Proof.
  unfold flip_chk. intros H F HS. apply andb_prop in H as (H4 & H).
  assert (G : Forall (inst_good K n) a) by (apply Forall_forall; intros; apply inst_ok).
  destruct (insts_good K n _ G vs 1%positive F) as (_ & g & Hg). specialize (Hg g ltac:(intros t _ _ idx; reflexivity)).
  unfold flip_run in H. destruct (run_chk f (fst (insts a 1))) as [x|] eqn:E1; [|discriminate].
  destruct (run_chk f (rearrange_args (A:=sym_alg) s_turn ap (fst (insts a 1)))) as [y|] eqn:E2; [|discriminate]. cbn [option_map] in H.
  destruct (run_sound K _ _ _ _ _ _ E1 Hg) as (v & Rv & V).
  destruct (run_sound K _ _ _ _ _ _ E2 (rearrange_args_sound K n g ap _ _ Hg)) as (w & Rw & W).
  exists v, w. split; [exact Rv|]. split; [exact Rw|].
  eapply eqx_sound; [|exact H|apply rearrange_sound; exact V|exact W].
  destruct b; [|constructor]. eapply flip_tab_ok; eauto.
Qed.
