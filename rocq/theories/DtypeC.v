(** makeCfromT and gmakeCfromT keep the real part of the coefficients.  Generated
    by tools/gen_dtype_cfromt.py. *)
From Coq Require Import List Bool Arith ZArith.
From Verif Require Import Scalar Tensor NpModel CIModel CICfromT DtypeModel DtypeCfromT DtypeSpec Dtype.
Import ListNotations.

Section C.
  Variable R : cring.
  Notation C := (CplxK R).
  Notation r1 := (re_store (R := R)).
  Notation relv := (relv R).
  Lemma each_relv {A} (l : list A) f g : (forall z x y, relv x y -> both relv (f z x) (g z y)) ->
    forall x y, relv x y -> both relv (each l f x) (each l g y).
  Proof.
    intros H. induction l as [|z l IH]; intros x y Hxy; cbn; [exact Hxy|].
    eapply both_bind; [apply H, Hxy|]. intros; apply IH; assumption.
  Qed.
  Ltac cstep := repeat first
    [ assumption
    | apply add_relv; assumption
    | apply each_relv; [intros ? ? ? ?|assumption]
    | apply both_same; intros ? _
    | match goal with
      | |- both _ (match ?r with Some _ => _ | None => _ end) _ => destruct r
      | |- both _ (if ?b then _ else _) _ => destruct b
      | p : (_ * _)%type |- _ => destruct p
      end ].
  Variable inv : nat -> C.
  Lemma rel_u_T1a noa nva basis refa refb T1a x y : relv x y ->
    both relv (u_T1a_w C r1 noa nva basis refa refb T1a x) (u_T1a C noa nva basis refa refb T1a y).
  Proof. intros H. unfold u_T1a_w, u_T1a. cstep. Qed.
  Lemma rel_u_T1b nob nvb basis refa refb T1b x y : relv x y ->
    both relv (u_T1b_w C r1 nob nvb basis refa refb T1b x) (u_T1b C nob nvb basis refa refb T1b y).
  Proof. intros H. unfold u_T1b_w, u_T1b. cstep. Qed.
  Lemma rel_u_T2aa noa nva basis refa refb T2aa x y : relv x y ->
    both relv (u_T2aa_w C r1 noa nva basis refa refb T2aa x) (u_T2aa C noa nva basis refa refb T2aa y).
  Proof. intros H. unfold u_T2aa_w, u_T2aa. cstep. Qed.
  Lemma rel_u_T2bb nob nvb basis refa refb T2bb x y : relv x y ->
    both relv (u_T2bb_w C r1 nob nvb basis refa refb T2bb x) (u_T2bb C nob nvb basis refa refb T2bb y).
  Proof. intros H. unfold u_T2bb_w, u_T2bb. cstep. Qed.
  Lemma rel_u_T2ab noa nva nob nvb basis refa refb T2ab x y : relv x y ->
    both relv (u_T2ab_w C r1 noa nva nob nvb basis refa refb T2ab x) (u_T2ab C noa nva nob nvb basis refa refb T2ab y).
  Proof. intros H. unfold u_T2ab_w, u_T2ab. cstep. Qed.
  Lemma rel_u_T1a_T1a noa nva basis refa refb T1a x y : relv x y ->
    both relv (u_T1a_T1a_w C r1 inv noa nva basis refa refb T1a x) (u_T1a_T1a C inv noa nva basis refa refb T1a y).
  Proof. intros H. unfold u_T1a_T1a_w, u_T1a_T1a. cstep. Qed.
  Lemma rel_u_T1b_T1b nob nvb basis refa refb T1b x y : relv x y ->
    both relv (u_T1b_T1b_w C r1 inv nob nvb basis refa refb T1b x) (u_T1b_T1b C inv nob nvb basis refa refb T1b y).
  Proof. intros H. unfold u_T1b_T1b_w, u_T1b_T1b. cstep. Qed.
  Lemma rel_u_T1a_T1b noa nva nob nvb basis refa refb T1a T1b x y : relv x y ->
    both relv (u_T1a_T1b_w C r1 noa nva nob nvb basis refa refb T1a T1b x) (u_T1a_T1b C noa nva nob nvb basis refa refb T1a T1b y).
  Proof. intros H. unfold u_T1a_T1b_w, u_T1a_T1b. cstep. Qed.
  Lemma rel_u_T1a_T2aa noa nva basis refa refb T1a T2aa x y : relv x y ->
    both relv (u_T1a_T2aa_w C r1 noa nva basis refa refb T1a T2aa x) (u_T1a_T2aa C noa nva basis refa refb T1a T2aa y).
  Proof. intros H. unfold u_T1a_T2aa_w, u_T1a_T2aa. cstep. Qed.
  Lemma rel_u_T1a_T2ab noa nva nob nvb basis refa refb T1a T2ab x y : relv x y ->
    both relv (u_T1a_T2ab_w C r1 noa nva nob nvb basis refa refb T1a T2ab x) (u_T1a_T2ab C noa nva nob nvb basis refa refb T1a T2ab y).
  Proof. intros H. unfold u_T1a_T2ab_w, u_T1a_T2ab. cstep. Qed.
  Lemma rel_u_T1b_T2aa noa nva nob nvb basis refa refb T1b T2aa x y : relv x y ->
    both relv (u_T1b_T2aa_w C r1 noa nva nob nvb basis refa refb T1b T2aa x) (u_T1b_T2aa C noa nva nob nvb basis refa refb T1b T2aa y).
  Proof. intros H. unfold u_T1b_T2aa_w, u_T1b_T2aa. cstep. Qed.
  Lemma rel_u_T1a_T2bb noa nva nob nvb basis refa refb T1a T2bb x y : relv x y ->
    both relv (u_T1a_T2bb_w C r1 noa nva nob nvb basis refa refb T1a T2bb x) (u_T1a_T2bb C noa nva nob nvb basis refa refb T1a T2bb y).
  Proof. intros H. unfold u_T1a_T2bb_w, u_T1a_T2bb. cstep. Qed.
  Lemma rel_u_T1b_T2ab noa nva nob nvb basis refa refb T1b T2ab x y : relv x y ->
    both relv (u_T1b_T2ab_w C r1 noa nva nob nvb basis refa refb T1b T2ab x) (u_T1b_T2ab C noa nva nob nvb basis refa refb T1b T2ab y).
  Proof. intros H. unfold u_T1b_T2ab_w, u_T1b_T2ab. cstep. Qed.
  Lemma rel_u_T1b_T2bb nob nvb basis refa refb T1b T2bb x y : relv x y ->
    both relv (u_T1b_T2bb_w C r1 nob nvb basis refa refb T1b T2bb x) (u_T1b_T2bb C nob nvb basis refa refb T1b T2bb y).
  Proof. intros H. unfold u_T1b_T2bb_w, u_T1b_T2bb. cstep. Qed.
  Lemma rel_u_T1a_T1a_T1a noa nva basis refa refb T1a x y : relv x y ->
    both relv (u_T1a_T1a_T1a_w C r1 inv noa nva basis refa refb T1a x) (u_T1a_T1a_T1a C inv noa nva basis refa refb T1a y).
  Proof. intros H. unfold u_T1a_T1a_T1a_w, u_T1a_T1a_T1a. cstep. Qed.
  Lemma rel_u_T1a_T1a_T1b noa nva nob nvb basis refa refb T1a T1b x y : relv x y ->
    both relv (u_T1a_T1a_T1b_w C r1 inv noa nva nob nvb basis refa refb T1a T1b x) (u_T1a_T1a_T1b C inv noa nva nob nvb basis refa refb T1a T1b y).
  Proof. intros H. unfold u_T1a_T1a_T1b_w, u_T1a_T1a_T1b. cstep. Qed.
  Lemma rel_u_T1a_T1b_T1b noa nva nob nvb basis refa refb T1a T1b x y : relv x y ->
    both relv (u_T1a_T1b_T1b_w C r1 inv noa nva nob nvb basis refa refb T1a T1b x) (u_T1a_T1b_T1b C inv noa nva nob nvb basis refa refb T1a T1b y).
  Proof. intros H. unfold u_T1a_T1b_T1b_w, u_T1a_T1b_T1b. cstep. Qed.
  Lemma rel_u_T1b_T1b_T1b nob nvb basis refa refb T1b x y : relv x y ->
    both relv (u_T1b_T1b_T1b_w C r1 inv nob nvb basis refa refb T1b x) (u_T1b_T1b_T1b C inv nob nvb basis refa refb T1b y).
  Proof. intros H. unfold u_T1b_T1b_T1b_w, u_T1b_T1b_T1b. cstep. Qed.
  Lemma rel_u_T2aa_T2aa noa nva basis refa refb T2aa x y : relv x y ->
    both relv (u_T2aa_T2aa_w C r1 inv noa nva basis refa refb T2aa x) (u_T2aa_T2aa C inv noa nva basis refa refb T2aa y).
  Proof. intros H. unfold u_T2aa_T2aa_w, u_T2aa_T2aa. cstep. Qed.
  Lemma rel_u_T2aa_T2ab noa nva nob nvb basis refa refb T2aa T2ab x y : relv x y ->
    both relv (u_T2aa_T2ab_w C r1 noa nva nob nvb basis refa refb T2aa T2ab x) (u_T2aa_T2ab C noa nva nob nvb basis refa refb T2aa T2ab y).
  Proof. intros H. unfold u_T2aa_T2ab_w, u_T2aa_T2ab. cstep. Qed.
  Lemma rel_u_T2aa_T2bb noa nva nob nvb basis refa refb T2aa T2bb x y : relv x y ->
    both relv (u_T2aa_T2bb_w C r1 noa nva nob nvb basis refa refb T2aa T2bb x) (u_T2aa_T2bb C noa nva nob nvb basis refa refb T2aa T2bb y).
  Proof. intros H. unfold u_T2aa_T2bb_w, u_T2aa_T2bb. cstep. Qed.
  Lemma rel_u_T2ab_T2ab noa nva nob nvb basis refa refb T2ab x y : relv x y ->
    both relv (u_T2ab_T2ab_w C r1 inv noa nva nob nvb basis refa refb T2ab x) (u_T2ab_T2ab C inv noa nva nob nvb basis refa refb T2ab y).
  Proof. intros H. unfold u_T2ab_T2ab_w, u_T2ab_T2ab. cstep. Qed.
  Lemma rel_u_T2ab_T2bb noa nva nob nvb basis refa refb T2ab T2bb x y : relv x y ->
    both relv (u_T2ab_T2bb_w C r1 noa nva nob nvb basis refa refb T2ab T2bb x) (u_T2ab_T2bb C noa nva nob nvb basis refa refb T2ab T2bb y).
  Proof. intros H. unfold u_T2ab_T2bb_w, u_T2ab_T2bb. cstep. Qed.
  Lemma rel_u_T2bb_T2bb nob nvb basis refa refb T2bb x y : relv x y ->
    both relv (u_T2bb_T2bb_w C r1 inv nob nvb basis refa refb T2bb x) (u_T2bb_T2bb C inv nob nvb basis refa refb T2bb y).
  Proof. intros H. unfold u_T2bb_T2bb_w, u_T2bb_T2bb. cstep. Qed.
  Lemma rel_u_T1a_T1a_T2aa noa nva basis refa refb T1a T2aa x y : relv x y ->
    both relv (u_T1a_T1a_T2aa_w C r1 inv noa nva basis refa refb T1a T2aa x) (u_T1a_T1a_T2aa C inv noa nva basis refa refb T1a T2aa y).
  Proof. intros H. unfold u_T1a_T1a_T2aa_w, u_T1a_T1a_T2aa. cstep. Qed.
  Lemma rel_u_T1a_T1a_T2ab noa nva nob nvb basis refa refb T1a T2ab x y : relv x y ->
    both relv (u_T1a_T1a_T2ab_w C r1 inv noa nva nob nvb basis refa refb T1a T2ab x) (u_T1a_T1a_T2ab C inv noa nva nob nvb basis refa refb T1a T2ab y).
  Proof. intros H. unfold u_T1a_T1a_T2ab_w, u_T1a_T1a_T2ab. cstep. Qed.
  Lemma rel_u_T1a_T1b_T2aa noa nva nob nvb basis refa refb T1a T1b T2aa x y : relv x y ->
    both relv (u_T1a_T1b_T2aa_w C r1 noa nva nob nvb basis refa refb T1a T1b T2aa x) (u_T1a_T1b_T2aa C noa nva nob nvb basis refa refb T1a T1b T2aa y).
  Proof. intros H. unfold u_T1a_T1b_T2aa_w, u_T1a_T1b_T2aa. cstep. Qed.
  Lemma rel_u_T1a_T1a_T2bb noa nva nob nvb basis refa refb T1a T2bb x y : relv x y ->
    both relv (u_T1a_T1a_T2bb_w C r1 inv noa nva nob nvb basis refa refb T1a T2bb x) (u_T1a_T1a_T2bb C inv noa nva nob nvb basis refa refb T1a T2bb y).
  Proof. intros H. unfold u_T1a_T1a_T2bb_w, u_T1a_T1a_T2bb. cstep. Qed.
  Lemma rel_u_T1a_T1b_T2ab noa nva nob nvb basis refa refb T1a T1b T2ab x y : relv x y ->
    both relv (u_T1a_T1b_T2ab_w C r1 noa nva nob nvb basis refa refb T1a T1b T2ab x) (u_T1a_T1b_T2ab C noa nva nob nvb basis refa refb T1a T1b T2ab y).
  Proof. intros H. unfold u_T1a_T1b_T2ab_w, u_T1a_T1b_T2ab. cstep. Qed.
  Lemma rel_u_T1a_T1b_T2bb noa nva nob nvb basis refa refb T1a T1b T2bb x y : relv x y ->
    both relv (u_T1a_T1b_T2bb_w C r1 noa nva nob nvb basis refa refb T1a T1b T2bb x) (u_T1a_T1b_T2bb C noa nva nob nvb basis refa refb T1a T1b T2bb y).
  Proof. intros H. unfold u_T1a_T1b_T2bb_w, u_T1a_T1b_T2bb. cstep. Qed.
  Lemma rel_u_T1b_T1b_T2ab noa nva nob nvb basis refa refb T1b T2ab x y : relv x y ->
    both relv (u_T1b_T1b_T2ab_w C r1 inv noa nva nob nvb basis refa refb T1b T2ab x) (u_T1b_T1b_T2ab C inv noa nva nob nvb basis refa refb T1b T2ab y).
  Proof. intros H. unfold u_T1b_T1b_T2ab_w, u_T1b_T1b_T2ab. cstep. Qed.
  Lemma rel_u_T1b_T1b_T2bb nob nvb basis refa refb T1b T2bb x y : relv x y ->
    both relv (u_T1b_T1b_T2bb_w C r1 inv nob nvb basis refa refb T1b T2bb x) (u_T1b_T1b_T2bb C inv nob nvb basis refa refb T1b T2bb y).
  Proof. intros H. unfold u_T1b_T1b_T2bb_w, u_T1b_T1b_T2bb. cstep. Qed.
  Lemma rel_u_T1a_T1a_T1a_T1a noa nva basis refa refb T1a x y : relv x y ->
    both relv (u_T1a_T1a_T1a_T1a_w C r1 inv noa nva basis refa refb T1a x) (u_T1a_T1a_T1a_T1a C inv noa nva basis refa refb T1a y).
  Proof. intros H. unfold u_T1a_T1a_T1a_T1a_w, u_T1a_T1a_T1a_T1a. cstep. Qed.
  Lemma rel_u_T1a_T1a_T1a_T1b noa nva nob nvb basis refa refb T1a T1b x y : relv x y ->
    both relv (u_T1a_T1a_T1a_T1b_w C r1 inv noa nva nob nvb basis refa refb T1a T1b x) (u_T1a_T1a_T1a_T1b C inv noa nva nob nvb basis refa refb T1a T1b y).
  Proof. intros H. unfold u_T1a_T1a_T1a_T1b_w, u_T1a_T1a_T1a_T1b. cstep. Qed.
  Lemma rel_u_T1a_T1a_T1b_T1b noa nva nob nvb basis refa refb T1a T1b x y : relv x y ->
    both relv (u_T1a_T1a_T1b_T1b_w C r1 inv noa nva nob nvb basis refa refb T1a T1b x) (u_T1a_T1a_T1b_T1b C inv noa nva nob nvb basis refa refb T1a T1b y).
  Proof. intros H. unfold u_T1a_T1a_T1b_T1b_w, u_T1a_T1a_T1b_T1b. cstep. Qed.
  Lemma rel_u_T1a_T1b_T1b_T1b noa nva nob nvb basis refa refb T1a T1b x y : relv x y ->
    both relv (u_T1a_T1b_T1b_T1b_w C r1 inv noa nva nob nvb basis refa refb T1a T1b x) (u_T1a_T1b_T1b_T1b C inv noa nva nob nvb basis refa refb T1a T1b y).
  Proof. intros H. unfold u_T1a_T1b_T1b_T1b_w, u_T1a_T1b_T1b_T1b. cstep. Qed.
  Lemma rel_u_T1b_T1b_T1b_T1b nob nvb basis refa refb T1b x y : relv x y ->
    both relv (u_T1b_T1b_T1b_T1b_w C r1 inv nob nvb basis refa refb T1b x) (u_T1b_T1b_T1b_T1b C inv nob nvb basis refa refb T1b y).
  Proof. intros H. unfold u_T1b_T1b_T1b_T1b_w, u_T1b_T1b_T1b_T1b. cstep. Qed.
  Lemma rel_g_T1 iocc ivir basis ref T1 x y : relv x y ->
    both relv (g_T1_w C r1 iocc ivir basis ref T1 x) (g_T1 C iocc ivir basis ref T1 y).
  Proof. intros H. unfold g_T1_w, g_T1. cstep. Qed.
  Lemma rel_g_T2 iocc ivir basis ref T2 x y : relv x y ->
    both relv (g_T2_w C r1 iocc ivir basis ref T2 x) (g_T2 C iocc ivir basis ref T2 y).
  Proof. intros H. unfold g_T2_w, g_T2. cstep. Qed.
  Lemma rel_g_T1_T1 iocc ivir basis ref T1 x y : relv x y ->
    both relv (g_T1_T1_w C r1 inv iocc ivir basis ref T1 x) (g_T1_T1 C inv iocc ivir basis ref T1 y).
  Proof. intros H. unfold g_T1_T1_w, g_T1_T1. cstep. Qed.
  Lemma rel_g_T1_T2 iocc ivir basis ref T1 T2 x y : relv x y ->
    both relv (g_T1_T2_w C r1 iocc ivir basis ref T1 T2 x) (g_T1_T2 C iocc ivir basis ref T1 T2 y).
  Proof. intros H. unfold g_T1_T2_w, g_T1_T2. cstep. Qed.
  Lemma rel_g_T1_T1_T1 iocc ivir basis ref T1 x y : relv x y ->
    both relv (g_T1_T1_T1_w C r1 inv iocc ivir basis ref T1 x) (g_T1_T1_T1 C inv iocc ivir basis ref T1 y).
  Proof. intros H. unfold g_T1_T1_T1_w, g_T1_T1_T1. cstep. Qed.
  Lemma rel_g_T2_T2 iocc ivir basis ref T2 x y : relv x y ->
    both relv (g_T2_T2_w C r1 inv iocc ivir basis ref T2 x) (g_T2_T2 C inv iocc ivir basis ref T2 y).
  Proof. intros H. unfold g_T2_T2_w, g_T2_T2. cstep. Qed.
  Lemma rel_g_T1_T1_T2 iocc ivir basis ref T1 T2 x y : relv x y ->
    both relv (g_T1_T1_T2_w C r1 inv iocc ivir basis ref T1 T2 x) (g_T1_T1_T2 C inv iocc ivir basis ref T1 T2 y).
  Proof. intros H. unfold g_T1_T1_T2_w, g_T1_T1_T2. cstep. Qed.
  Lemma rel_g_T1_T1_T1_T1 iocc ivir basis ref T1 x y : relv x y ->
    both relv (g_T1_T1_T1_T1_w C r1 inv iocc ivir basis ref T1 x) (g_T1_T1_T1_T1 C inv iocc ivir basis ref T1 y).
  Proof. intros H. unfold g_T1_T1_T1_T1_w, g_T1_T1_T1_T1. cstep. Qed.

  Lemma start_relv nd : both relv (start_w C r1 nd) (start C nd).
  Proof. destruct nd; [exact I|]. cbn. exact (f_equal (cons c1) (zeros_relv R nd)). Qed.
  Ltac headof t := match t with ?f _ => headof f | _ => t end.
  Ltac hd n k := lazymatch goal with |- both _ (bindo ?t _) _ => let h := headof t in constr_eq h n; k tt end.
  Ltac mstep := repeat first
    [ assumption
    | hd start_w ltac:(fun _ => eapply both_bind; [apply start_relv|intros ? ? ?])
    | apply both_same; intros ? _
    | match goal with
      | |- both _ (if ?b then _ else _) _ => destruct b
      | |- both _ None None => exact I
      | |- both _ (Some _) (Some _) => cbn [both]
      end
    | hd u_T1a_w ltac:(fun _ => eapply both_bind; [apply rel_u_T1a; assumption|intros ? ? ?])
    | hd u_T1b_w ltac:(fun _ => eapply both_bind; [apply rel_u_T1b; assumption|intros ? ? ?])
    | hd u_T2aa_w ltac:(fun _ => eapply both_bind; [apply rel_u_T2aa; assumption|intros ? ? ?])
    | hd u_T2bb_w ltac:(fun _ => eapply both_bind; [apply rel_u_T2bb; assumption|intros ? ? ?])
    | hd u_T2ab_w ltac:(fun _ => eapply both_bind; [apply rel_u_T2ab; assumption|intros ? ? ?])
    | hd u_T1a_T1a_w ltac:(fun _ => eapply both_bind; [apply rel_u_T1a_T1a; assumption|intros ? ? ?])
    | hd u_T1b_T1b_w ltac:(fun _ => eapply both_bind; [apply rel_u_T1b_T1b; assumption|intros ? ? ?])
    | hd u_T1a_T1b_w ltac:(fun _ => eapply both_bind; [apply rel_u_T1a_T1b; assumption|intros ? ? ?])
    | hd u_T1a_T2aa_w ltac:(fun _ => eapply both_bind; [apply rel_u_T1a_T2aa; assumption|intros ? ? ?])
    | hd u_T1a_T2ab_w ltac:(fun _ => eapply both_bind; [apply rel_u_T1a_T2ab; assumption|intros ? ? ?])
    | hd u_T1b_T2aa_w ltac:(fun _ => eapply both_bind; [apply rel_u_T1b_T2aa; assumption|intros ? ? ?])
    | hd u_T1a_T2bb_w ltac:(fun _ => eapply both_bind; [apply rel_u_T1a_T2bb; assumption|intros ? ? ?])
    | hd u_T1b_T2ab_w ltac:(fun _ => eapply both_bind; [apply rel_u_T1b_T2ab; assumption|intros ? ? ?])
    | hd u_T1b_T2bb_w ltac:(fun _ => eapply both_bind; [apply rel_u_T1b_T2bb; assumption|intros ? ? ?])
    | hd u_T1a_T1a_T1a_w ltac:(fun _ => eapply both_bind; [apply rel_u_T1a_T1a_T1a; assumption|intros ? ? ?])
    | hd u_T1a_T1a_T1b_w ltac:(fun _ => eapply both_bind; [apply rel_u_T1a_T1a_T1b; assumption|intros ? ? ?])
    | hd u_T1a_T1b_T1b_w ltac:(fun _ => eapply both_bind; [apply rel_u_T1a_T1b_T1b; assumption|intros ? ? ?])
    | hd u_T1b_T1b_T1b_w ltac:(fun _ => eapply both_bind; [apply rel_u_T1b_T1b_T1b; assumption|intros ? ? ?])
    | hd u_T2aa_T2aa_w ltac:(fun _ => eapply both_bind; [apply rel_u_T2aa_T2aa; assumption|intros ? ? ?])
    | hd u_T2aa_T2ab_w ltac:(fun _ => eapply both_bind; [apply rel_u_T2aa_T2ab; assumption|intros ? ? ?])
    | hd u_T2aa_T2bb_w ltac:(fun _ => eapply both_bind; [apply rel_u_T2aa_T2bb; assumption|intros ? ? ?])
    | hd u_T2ab_T2ab_w ltac:(fun _ => eapply both_bind; [apply rel_u_T2ab_T2ab; assumption|intros ? ? ?])
    | hd u_T2ab_T2bb_w ltac:(fun _ => eapply both_bind; [apply rel_u_T2ab_T2bb; assumption|intros ? ? ?])
    | hd u_T2bb_T2bb_w ltac:(fun _ => eapply both_bind; [apply rel_u_T2bb_T2bb; assumption|intros ? ? ?])
    | hd u_T1a_T1a_T2aa_w ltac:(fun _ => eapply both_bind; [apply rel_u_T1a_T1a_T2aa; assumption|intros ? ? ?])
    | hd u_T1a_T1a_T2ab_w ltac:(fun _ => eapply both_bind; [apply rel_u_T1a_T1a_T2ab; assumption|intros ? ? ?])
    | hd u_T1a_T1b_T2aa_w ltac:(fun _ => eapply both_bind; [apply rel_u_T1a_T1b_T2aa; assumption|intros ? ? ?])
    | hd u_T1a_T1a_T2bb_w ltac:(fun _ => eapply both_bind; [apply rel_u_T1a_T1a_T2bb; assumption|intros ? ? ?])
    | hd u_T1a_T1b_T2ab_w ltac:(fun _ => eapply both_bind; [apply rel_u_T1a_T1b_T2ab; assumption|intros ? ? ?])
    | hd u_T1a_T1b_T2bb_w ltac:(fun _ => eapply both_bind; [apply rel_u_T1a_T1b_T2bb; assumption|intros ? ? ?])
    | hd u_T1b_T1b_T2ab_w ltac:(fun _ => eapply both_bind; [apply rel_u_T1b_T1b_T2ab; assumption|intros ? ? ?])
    | hd u_T1b_T1b_T2bb_w ltac:(fun _ => eapply both_bind; [apply rel_u_T1b_T1b_T2bb; assumption|intros ? ? ?])
    | hd u_T1a_T1a_T1a_T1a_w ltac:(fun _ => eapply both_bind; [apply rel_u_T1a_T1a_T1a_T1a; assumption|intros ? ? ?])
    | hd u_T1a_T1a_T1a_T1b_w ltac:(fun _ => eapply both_bind; [apply rel_u_T1a_T1a_T1a_T1b; assumption|intros ? ? ?])
    | hd u_T1a_T1a_T1b_T1b_w ltac:(fun _ => eapply both_bind; [apply rel_u_T1a_T1a_T1b_T1b; assumption|intros ? ? ?])
    | hd u_T1a_T1b_T1b_T1b_w ltac:(fun _ => eapply both_bind; [apply rel_u_T1a_T1b_T1b_T1b; assumption|intros ? ? ?])
    | hd u_T1b_T1b_T1b_T1b_w ltac:(fun _ => eapply both_bind; [apply rel_u_T1b_T1b_T1b_T1b; assumption|intros ? ? ?])
    | hd g_T1_w ltac:(fun _ => eapply both_bind; [apply rel_g_T1; assumption|intros ? ? ?])
    | hd g_T2_w ltac:(fun _ => eapply both_bind; [apply rel_g_T2; assumption|intros ? ? ?])
    | hd g_T1_T1_w ltac:(fun _ => eapply both_bind; [apply rel_g_T1_T1; assumption|intros ? ? ?])
    | hd g_T1_T2_w ltac:(fun _ => eapply both_bind; [apply rel_g_T1_T2; assumption|intros ? ? ?])
    | hd g_T1_T1_T1_w ltac:(fun _ => eapply both_bind; [apply rel_g_T1_T1_T1; assumption|intros ? ? ?])
    | hd g_T2_T2_w ltac:(fun _ => eapply both_bind; [apply rel_g_T2_T2; assumption|intros ? ? ?])
    | hd g_T1_T1_T2_w ltac:(fun _ => eapply both_bind; [apply rel_g_T1_T1_T2; assumption|intros ? ? ?])
    | hd g_T1_T1_T1_T1_w ltac:(fun _ => eapply both_bind; [apply rel_g_T1_T1_T1_T1; assumption|intros ? ? ?])
    | match goal with |- both _ (bindo (if _ then _ else _) _) _ => eapply (both_bind relv); [|intros ? ? ?] end ].
  Lemma rel_gmakeCfromT no nv T1 T2 order occ : both relv (gmakeCfromT_w C r1 inv no nv T1 T2 order occ) (gmakeCfromT C inv no nv T1 T2 order occ).
  Proof. unfold gmakeCfromT_w, gmakeCfromT. cbv zeta. mstep. Qed.
  Lemma rel_makeCfromT noa nva nob nvb T1a T1b T2aa T2ab T2bb order :
    both relv (makeCfromT_w C r1 inv noa nva nob nvb T1a T1b T2aa T2ab T2bb order) (makeCfromT C inv noa nva nob nvb T1a T1b T2aa T2ab T2bb order).
  Proof. unfold makeCfromT_w, makeCfromT. cbv zeta. mstep. Qed.
End C.
