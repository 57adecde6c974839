(** C87: the contribution functions of the Lambda equations are derivatives of those of the
    amplitude equations, one by one, and the public functions are their sums.
    Vocabulary: AccSpec.v, PartsSpec.v. *)
From Coq Require Import List String Ascii Bool ZArith QArith Qcanon.
From Verif Require Import Scalar Tensor PySyntax PySem CCProg CCSpec CCShapes CCExamples AccSpec PartsSpec Parts PartsSum.
Import ListNotations.
Local Open Scope string_scope.

(** C87: for a row (g, wrt v; f, by w) of the table: with Z what g adds to zero and S what
    f adds to zero when T1 (or T2) is T + e dT over the dual numbers, the e-part of
    <L, S> is <Z, dT>. *)
Theorem C87_lambda_parts (K : cring) no nv (x : inputs K) g gargs v f fargs w dT :
  In (g, gargs, v, (f, fargs, w)) lambda_parts -> inputs_ok no nv x -> direction_ok no nv v dT ->
  exists Z S, updates g [no_L K no nv v] (map (given x) gargs) [Z] /\
    updates (K := DualK K) f [no_T (DualK K) no nv w] (map (given (moved x v dT)) fargs) [S] /\
    pairing no nv w (dat (L_of x w)) (fun i => snd (dat S i)) = pairing no nv v (dat Z) (dat dT).
Proof. intros Hi Hx Hd. exact (lambda_part K no nv x v dT Hx Hd g gargs f fargs w Hi). Qed.
Print Assumptions C87_lambda_parts.

(** C87: _LS_TS together with the block F_ov is the derivative of the energy with respect
    to T1. *)
Theorem C87_energy_part (K : cring) no nv (x : inputs K) dT : inputs_ok no nv x -> t1_ok no nv dT -> exists Z e,
  updates "_LS_TS" [tzeros K [no; nv]] [py_two_e (in_I x); arr (in_T1 x)] [Z] /\
  returns (K := DualK K) "cc_energy"
    [arr (perturbed (in_T1 x) dT); arr (lift (in_T2 x)); arr (lift (ov (in_F x))); arr (lift (oovv (in_I x)))] (numv e) /\
  snd e = cadd (dot2 no nv (dat (ov (in_F x))) (dat dT)) (dot2 no nv (dat Z) (dat dT)).
Proof. exact (energy_part K no nv x dT). Qed.
Print Assumptions C87_energy_part.

(** The table has every function whose name starts with _LS_ or _LD_, but _LS_TS. *)
Theorem C87_table_complete name fd : In (name, fd) cc_prog -> prefix "_LS_" name || prefix "_LD_" name = true ->
  name = "_LS_TS" \/ exists args v r, In (name, args, v, r) lambda_parts.
Proof.
  assert (H : forallb (fun p => if prefix "_LS_" (fst p) || prefix "_LD_" (fst p)
      then String.eqb (fst p) "_LS_TS" || existsb (fun r => String.eqb (fst p) (fst (fst (fst r)))) lambda_parts
      else true) cc_prog = true) by (vm_compute; reflexivity).
  rewrite forallb_forall in H. intros Hp HN. specialize (H _ Hp). cbn [fst] in H. rewrite HN in H. apply orb_prop in H as [H|H].
  - left. apply String.eqb_eq in H. exact H.
  - right. apply existsb_exists in H as ([[[g args] v] r] & Hr & E). cbn [fst] in E. apply String.eqb_eq in E. rewrite E. eauto.
Qed.
Print Assumptions C87_table_complete.

(** C87: a public function of the table is the sum of a block of the Hamiltonian and its
    contributions: with the Hamiltonian multiplied by h, T1 by s, T2 by t and Lambda by
    l, each array it returns is h B + sum of h^.. s^.. t^.. l^.. Z, where Z is what each
    contribution adds to zero and the exponents are those of the table of C86. *)
Theorem C87_sums_of_parts (K : cring) no nv (x : inputs K) f args outs : In (f, args, outs) made_of -> inputs_ok no nv x ->
  exists parts, Forall2 (parts_values x) outs parts /\
  forall h s t l, exists Rs, returns f (map (given (scaled_inputs h s t l x)) args) (result Rs) /\
    Forall2 (fun q R => sum_of_parts h s t l (block x (fst (fst q))) (snd (fst q)) (snd q) R) (combine outs parts) Rs.
Proof. exact (sums_of_parts K no nv x f args outs). Qed.
Print Assumptions C87_sums_of_parts.

(** Inputs over the rationals with two occupied and three virtual orbitals; a
    contribution that no public function calls is not zero on them. *)
Definition x23 : inputs QcK :=
  Inputs (sampleF QcK 2 3) (sampleI QcK 2 3) (sampleT1 QcK 2 3) (sampleT2 QcK 2 3) (sampleL1 QcK 2 3) (sampleL2 QcK 2 3).
Definition added (f : string) (T : tensor QcK) (args : list (pyval QcK)) (idx : list nat) : option Q :=
  match pycall (conc_alg QcK) cc_prog f (arr T :: args) with
  | Ok (_, XArr t :: _) => Some (this (dat (t : tensor QcK) idx))
  | _ => None
  end.
Example C87_example :
  inputs_ok 2 3 x23 /\ direction_ok 2 3 singles (in_T1 x23) /\ direction_ok 2 3 doubles (in_T2 x23) /\
  added "_LD_LDTD_ladder" (no_L QcK 2 3 doubles) [given x23 iI; given x23 iL2; given x23 iT2] [0; 1; 0; 1]%nat = Some 1200%Q.
Proof.
  destruct (sample_ok QcK 2 3) as (H1 & H2 & H3 & H4 & H5 & H6).
  split; [repeat (split; [assumption|]); assumption|]. split; [assumption|]. split; [assumption|]. vm_compute. reflexivity.
Qed.
