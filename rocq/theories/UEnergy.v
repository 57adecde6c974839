(** The energies of unrestricted and restricted amplitudes as explicit sums. *)
From Coq Require Import List Bool Arith ZArith String Lia Ring.
From Verif Require Import Scalar Tensor PySyntax PySem PySim Sym SymSound Norm CCProg CCSpec Engine Tools SOCtx UCtx.
Import ListNotations.
Local Open Scope string_scope.

Definition xU : list sval := [XTup [inp 1 [va; oa]; inp 2 [vb; ob]]; XTup [inp 3 [va; va; oa; oa]; inp 4 [va; vb; oa; ob]; inp 5 [vb; vb; ob; ob]];
  inp 6 [oa; va]; inp 7 [ob; vb]; inp 8 [oa; oa; va; va]; inp 9 [ob; ob; vb; vb]; inp 10 [oa; ob; va; vb]].
Definition x_s1a : mono := Mono 1 0 [oa; va] [(6, [D 0; D 1]); (1, [D 1; D 0])]%positive.
Definition x_s1b : mono := Mono 1 0 [ob; vb] [(7, [D 0; D 1]); (2, [D 1; D 0])]%positive.
Definition x_daa : mono := Mono 1 2 [oa; oa; va; va] [(8, [D 0; D 1; D 2; D 3]); (3, [D 2; D 3; D 0; D 1])]%positive.
Definition x_dbb : mono := Mono 1 2 [ob; ob; vb; vb] [(9, [D 0; D 1; D 2; D 3]); (5, [D 2; D 3; D 0; D 1])]%positive.
Definition x_dab : mono := Mono 1 0 [oa; ob; va; vb] [(10, [D 0; D 1; D 2; D 3]); (4, [D 2; D 3; D 0; D 1])]%positive.
Definition x_saa : mono := Mono 1 1 [oa; oa; va; va] [(8, [D 0; D 1; D 2; D 3]); (1, [D 2; D 0]); (1, [D 3; D 1])]%positive.
Definition x_sbb : mono := Mono 1 1 [ob; ob; vb; vb] [(9, [D 0; D 1; D 2; D 3]); (2, [D 2; D 0]); (2, [D 3; D 1])]%positive.
Definition x_sab : mono := Mono 1 0 [oa; ob; va; vb] [(10, [D 0; D 1; D 2; D 3]); (1, [D 2; D 0]); (2, [D 3; D 1])]%positive.
Definition x_mp2 := [x_s1a; x_s1b; x_daa; x_dbb; x_dab].
Definition x_cc := (x_mp2 ++ [x_saa; x_sbb; x_sab])%list.
Definition x_c1 := Eval vm_compute in find_neq [] (get_num (run_s "ump2_energy" xU)) x_mp2.
Definition x_c2 := Eval vm_compute in find_neq [] (get_num (run_s "ucc_energy" xU)) x_cc.
Lemma x_chk1 : run_form FNum "ump2_energy" xU && neq_chk [] (get_num (run_s "ump2_energy" xU)) x_mp2 x_c1 = true.
Proof. vm_compute. reflexivity. Qed.
Lemma x_chk2 : run_form FNum "ucc_energy" xU && neq_chk [] (get_num (run_s "ucc_energy" xU)) x_cc x_c2 = true.
Proof. vm_compute. reflexivity. Qed.

Definition xR : list sval := [inp 1 [va; oa]; inp 3 [va; va; oa; oa]; inp 6 [oa; va]; inp 8 [oa; oa; va; va]].
Definition y_s : mono := Mono 2 0 [oa; va] [(6, [D 0; D 1]); (1, [D 1; D 0])]%positive.
Definition y_d : mono := Mono 2 0 [oa; oa; va; va] [(8, [D 0; D 1; D 2; D 3]); (3, [D 2; D 3; D 0; D 1])]%positive.
Definition y_x : mono := Mono (-1) 0 [oa; oa; va; va] [(8, [D 0; D 1; D 2; D 3]); (3, [D 3; D 2; D 0; D 1])]%positive.
Definition y_d1 : mono := Mono 2 0 [oa; oa; va; va] [(8, [D 0; D 1; D 2; D 3]); (1, [D 2; D 0]); (1, [D 3; D 1])]%positive.
Definition y_x1 : mono := Mono (-1) 0 [oa; oa; va; va] [(8, [D 0; D 1; D 2; D 3]); (1, [D 3; D 0]); (1, [D 2; D 1])]%positive.
Definition y_cc := [y_s; y_d; y_x; y_d1; y_x1].
Definition y_c := Eval vm_compute in find_neq [] (get_num (run_s "rcc_energy" xR)) y_cc.
Lemma y_chk : run_form FNum "rcc_energy" xR && neq_chk [] (get_num (run_s "rcc_energy" xR)) y_cc y_c = true.
Proof. vm_compute. reflexivity. Qed.

Section UEnergy.
  Variable K : cring.
  Local Open Scope K_scope.
  Add Ring KrUE : (c_th K).
  Definition four (n1 n2 n3 n4 : nat) (f : nat -> nat -> nat -> nat -> K) : K :=
    sumN n1 (fun i => sumN n2 (fun j => sumN n3 (fun a => sumN n4 (fun b => f i j a b)))).
  Definition two (n1 n2 : nat) (f : nat -> nat -> K) : K := sumN n1 (fun i => sumN n2 (fun a => f i a)).
  Variables noa nva nob nvb : nat.
  Variables T1a T1b T2aa T2ab T2bb fa fb ga gb gab : tensor K.
  Hypothesis H1 : shp T1a = [nva; noa].
  Hypothesis H2 : shp T1b = [nvb; nob].
  Hypothesis H3 : shp T2aa = [nva; nva; noa; noa].
  Hypothesis H4 : shp T2ab = [nva; nvb; noa; nob].
  Hypothesis H5 : shp T2bb = [nvb; nvb; nob; nob].
  Hypothesis H6 : shp fa = [noa; nva].
  Hypothesis H7 : shp fb = [nob; nvb].
  Hypothesis H8 : shp ga = [noa; noa; nva; nva].
  Hypothesis H9 : shp gb = [nob; nob; nvb; nvb].
  Hypothesis H10 : shp gab = [noa; nob; nva; nvb].
  Let rho (p : positive) : list nat -> K :=
    match p with 1 => dat T1a | 2 => dat T1b | 3 => dat T2aa | 4 => dat T2ab | 5 => dat T2bb
    | 6 => dat fa | 7 => dat fb | 8 => dat ga | 9 => dat gb | 10 => dat gab | _ => fun _ => c0 end%positive.
  Notation dim := (u_dim noa nva nob nvb).

  Lemma xU_args : Forall2 (Rval K dim rho) xU
    [tup [arr T1a; arr T1b]; tup [arr T2aa; arr T2ab; arr T2bb]; arr fa; arr fb; arr ga; arr gb; arr gab].
  Proof.
    repeat apply Forall2_cons; try apply Forall2_nil; first [apply Rx_arr; apply input_sound; (reflexivity || assumption) | apply Rx_tup];
      repeat apply Forall2_cons; try apply Forall2_nil; apply Rx_arr; apply input_sound; (reflexivity || assumption).
  Qed.
  Lemma xR_args : Forall2 (Rval K dim rho) xR [arr T1a; arr T2aa; arr fa; arr ga].
  Proof. repeat apply Forall2_cons; try apply Forall2_nil; apply Rx_arr; apply input_sound; (reflexivity || assumption). Qed.
  Lemma tb0 : sym_ok K dim rho [].
  Proof. constructor. Qed.

  Definition mp2_sum : K :=
    two noa nva (fun i a => dat fa [i; a] * dat T1a [a; i]) + two nob nvb (fun i a => dat fb [i; a] * dat T1b [a; i])
    + quarter * four noa noa nva nva (fun i j a b => dat ga [i; j; a; b] * dat T2aa [a; b; i; j])
    + quarter * four nob nob nvb nvb (fun i j a b => dat gb [i; j; a; b] * dat T2bb [a; b; i; j])
    + four noa nob nva nvb (fun i j a b => dat gab [i; j; a; b] * dat T2ab [a; b; i; j]).
  Definition pair_sum : K :=
    chalf * four noa noa nva nva (fun i j a b => dat ga [i; j; a; b] * (dat T1a [a; i] * dat T1a [b; j]))
    + chalf * four nob nob nvb nvb (fun i j a b => dat gb [i; j; a; b] * (dat T1b [a; i] * dat T1b [b; j]))
    + four noa nob nva nvb (fun i j a b => dat gab [i; j; a; b] * (dat T1a [a; i] * dat T1b [b; j])).

  Ltac mono x := unfold den_mono, x, den_fac; simpl; unfold dyad, four, two, quarter; simpl;
    match goal with |- _ * ?s = _ * ?t => replace s with t by (repeat (apply sumN_ext; intros ? _); ring); ring end.
  Notation dm := (den_mono K dim rho []).
  Lemma m1 : dm x_s1a = 1 * two noa nva (fun i a => dat fa [i; a] * dat T1a [a; i]). Proof. mono x_s1a. Qed.
  Lemma m2 : dm x_s1b = 1 * two nob nvb (fun i a => dat fb [i; a] * dat T1b [a; i]). Proof. mono x_s1b. Qed.
  Lemma m3 : dm x_daa = quarter * four noa noa nva nva (fun i j a b => dat ga [i; j; a; b] * dat T2aa [a; b; i; j]). Proof. mono x_daa. Qed.
  Lemma m4 : dm x_dbb = quarter * four nob nob nvb nvb (fun i j a b => dat gb [i; j; a; b] * dat T2bb [a; b; i; j]). Proof. mono x_dbb. Qed.
  Lemma m5 : dm x_dab = 1 * four noa nob nva nvb (fun i j a b => dat gab [i; j; a; b] * dat T2ab [a; b; i; j]). Proof. mono x_dab. Qed.
  Lemma m6 : dm x_saa = chalf * four noa noa nva nva (fun i j a b => dat ga [i; j; a; b] * (dat T1a [a; i] * dat T1a [b; j])). Proof. mono x_saa. Qed.
  Lemma m7 : dm x_sbb = chalf * four nob nob nvb nvb (fun i j a b => dat gb [i; j; a; b] * (dat T1b [a; i] * dat T1b [b; j])). Proof. mono x_sbb. Qed.
  Lemma m8 : dm x_sab = 1 * four noa nob nva nvb (fun i j a b => dat gab [i; j; a; b] * (dat T1a [a; i] * dat T1b [b; j])). Proof. mono x_sab. Qed.
  Lemma r1 : dm y_s = (1 + 1) * two noa nva (fun i a => dat fa [i; a] * dat T1a [a; i]). Proof. mono y_s. Qed.
  Lemma r2 : dm y_d = (1 + 1) * four noa noa nva nva (fun i j a b => dat ga [i; j; a; b] * dat T2aa [a; b; i; j]). Proof. mono y_d. Qed.
  Lemma r3 : dm y_x = - (1) * four noa noa nva nva (fun i j a b => dat ga [i; j; a; b] * dat T2aa [b; a; i; j]). Proof. mono y_x. Qed.
  Lemma r4 : dm y_d1 = (1 + 1) * four noa noa nva nva (fun i j a b => dat ga [i; j; a; b] * (dat T1a [a; i] * dat T1a [b; j])). Proof. mono y_d1. Qed.
  Lemma r5 : dm y_x1 = - (1) * four noa noa nva nva (fun i j a b => dat ga [i; j; a; b] * (dat T1a [b; i] * dat T1a [a; j])). Proof. mono y_x1. Qed.

  Lemma ump2_formula : returns "ump2_energy"
    [tup [arr T1a; arr T1b]; tup [arr T2aa; arr T2ab; arr T2bb]; arr fa; arr fb; arr ga; arr gb; arr gab] (numv mp2_sum).
  Proof.
    pose proof x_chk1 as H. apply andb_prop in H. destruct H as [E1 E2].
    destruct (run_num_sound K _ _ _ _ _ E1 xU_args) as (x & R & N).
    replace mp2_sum with x; [exact R|]. apply (neq_sound K _ _ _ _ _ _ _ _ E2 tb0 N).
    split; [unfold m_ok, x_mp2; repeat constructor|].
    unfold den, x_mp2. cbn [map lsum]. rewrite m1, m2, m3, m4, m5. unfold mp2_sum. ring.
  Qed.
  Lemma ucc_formula : returns "ucc_energy"
    [tup [arr T1a; arr T1b]; tup [arr T2aa; arr T2ab; arr T2bb]; arr fa; arr fb; arr ga; arr gb; arr gab] (numv (mp2_sum + pair_sum)).
  Proof.
    pose proof x_chk2 as H. apply andb_prop in H. destruct H as [E1 E2].
    destruct (run_num_sound K _ _ _ _ _ E1 xU_args) as (x & R & N).
    replace (mp2_sum + pair_sum) with x; [exact R|]. apply (neq_sound K _ _ _ _ _ _ _ _ E2 tb0 N).
    split; [unfold m_ok, x_cc, x_mp2; repeat constructor|].
    unfold den, x_cc, x_mp2. cbn [map lsum app]. rewrite m1, m2, m3, m4, m5, m6, m7, m8. unfold mp2_sum, pair_sum. ring.
  Qed.
  (** 2 f_ia t_ai + (2 g_ijab - g_ijba) (t_abij + t_ai t_bj) *)
  Definition r_sum : K :=
    (1 + 1) * two noa nva (fun i a => dat fa [i; a] * dat T1a [a; i])
    + four noa noa nva nva (fun i j a b => ((1 + 1) * dat ga [i; j; a; b] - dat ga [i; j; b; a]) * (dat T2aa [a; b; i; j] + dat T1a [a; i] * dat T1a [b; j])).
  Lemma four_add a b c d f g : four a b c d (fun i j k l => f i j k l + g i j k l) = four a b c d f + four a b c d g.
  Proof.
    unfold four. rewrite <- sumN_add. apply sumN_ext. intros i _. rewrite <- sumN_add. apply sumN_ext. intros j _.
    rewrite <- sumN_add. apply sumN_ext. intros k _. rewrite <- sumN_add. reflexivity.
  Qed.
  Lemma four_mul a b c d x f : four a b c d (fun i j k l => x * f i j k l) = x * four a b c d f.
  Proof. unfold four. rewrite <- sumN_mul_l. apply sumN_ext. intros i _. rewrite <- sumN_mul_l. apply sumN_ext. intros j _.
    rewrite <- sumN_mul_l. apply sumN_ext. intros k _. rewrite <- sumN_mul_l. reflexivity.
  Qed.
  Lemma four_swap a b c f : four a b c c f = four a b c c (fun i j k l => f i j l k).
  Proof. unfold four. apply sumN_ext. intros i _. apply sumN_ext. intros j _. apply sumN_swap. Qed.
  Lemma four_ext a b c d f g : (forall i j k l, (i < a)%nat -> (j < b)%nat -> (k < c)%nat -> (l < d)%nat -> f i j k l = g i j k l) ->
    four a b c d f = four a b c d g.
  Proof.
    intros E. unfold four. apply sumN_ext. intros i Li. apply sumN_ext. intros j Lj. apply sumN_ext. intros k Lk. apply sumN_ext. intros l Ll.
    apply E; assumption.
  Qed.
  Lemma rcc_formula : returns "rcc_energy" [arr T1a; arr T2aa; arr fa; arr ga] (numv r_sum).
  Proof.
    pose proof y_chk as H. apply andb_prop in H. destruct H as [E1 E2].
    destruct (run_num_sound K _ _ _ _ _ E1 xR_args) as (x & R & N).
    replace r_sum with x; [exact R|]. apply (neq_sound K _ _ _ _ _ _ _ _ E2 tb0 N).
    split; [unfold m_ok, y_cc; repeat constructor|].
    unfold den, y_cc. cbn [map lsum]. rewrite r1, r2, r3, r4, r5. unfold r_sum.
    rewrite (four_swap noa noa nva (fun i j a b => dat ga [i; j; a; b] * dat T2aa [b; a; i; j])).
    rewrite (four_swap noa noa nva (fun i j a b => dat ga [i; j; a; b] * (dat T1a [b; i] * dat T1a [a; j]))).
    transitivity ((1 + 1) * two noa nva (fun i a => dat fa [i; a] * dat T1a [a; i]) +
      (four noa noa nva nva (fun i j a b => (1 + 1) * (dat ga [i; j; a; b] * dat T2aa [a; b; i; j])) +
       (four noa noa nva nva (fun i j a b => - (1) * (dat ga [i; j; b; a] * dat T2aa [a; b; i; j])) +
       (four noa noa nva nva (fun i j a b => (1 + 1) * (dat ga [i; j; a; b] * (dat T1a [a; i] * dat T1a [b; j]))) +
        four noa noa nva nva (fun i j a b => - (1) * (dat ga [i; j; b; a] * (dat T1a [a; i] * dat T1a [b; j])))))));
      [rewrite <- !four_add; f_equal; apply four_ext; intros; ring|].
    rewrite !four_mul. ring.
  Qed.
End UEnergy.
