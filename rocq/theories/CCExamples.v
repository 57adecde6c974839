(** Concrete non-trivial inputs meeting the hypotheses of the statements. *)
From Coq Require Import List Bool Arith ZArith String QArith Qcanon Ring.
From Verif Require Import Scalar Tensor PySyntax PySem CCProg CCSpec.
Import ListNotations.
Local Open Scope string_scope.

Section Samples.
  Variable K : cring.
  Local Open Scope K_scope.
  Add Ring Kr8 : (c_th K).

  (** an array filled by a formula *)
  Definition fill2 (a b : nat) (f : nat -> nat -> Z) : tensor K :=
    mkT [a; b] (fun idx => match idx with [i; j] => zK (f i j) | _ => 0 end).
  Definition fill4 (a b c d : nat) (f : nat -> nat -> nat -> nat -> Z) : tensor K :=
    mkT [a; b; c; d] (fun idx => match idx with [i; j; k; l] => zK (f i j k l) | _ => 0 end).

  Definition poly (i j k l : nat) : Z :=
    (let i := Z.of_nat i in let j := Z.of_nat j in let k := Z.of_nat k in let l := Z.of_nat l in
    1 + i + 2 * j * j + i * j * 3 + k * 5 + l * l * 7 + i * k * 2 + j * l * 4 + i * i * l)%Z.
  Definition a_lead (i j k l : nat) : Z := (poly i j k l - poly j i k l)%Z.
  Definition a_tail (i j k l : nat) : Z := (poly i j k l - poly i j l k)%Z.
  Definition a_both (i j k l : nat) : Z :=
    (poly i j k l - poly j i k l - (poly i j l k - poly j i l k))%Z.

  Lemma fill4_lead a b c d f : (forall i j k l, f i j k l = (- f j i k l)%Z) ->
    antisym_lead (fill4 a b c d f).
  Proof. intros H i j k l _. simpl. rewrite H, zK_opp. reflexivity. Qed.
  Lemma fill4_tail a b c d f : (forall i j k l, f i j k l = (- f i j l k)%Z) ->
    antisym_tail (fill4 a b c d f).
  Proof. intros H i j k l _. simpl. rewrite H, zK_opp. reflexivity. Qed.

  Definition sampleF (no nv : nat) : one_e K :=
    let f i j := poly i j 1 0 in
    OneE K (fill2 no no f) (fill2 no nv f) (fill2 nv no f) (fill2 nv nv f).
  Definition sampleI (no nv : nat) : two_e K :=
    TwoE K (fill4 nv nv nv nv a_both) (fill4 nv nv nv no a_lead) (fill4 nv no nv nv a_tail)
      (fill4 nv nv no no a_both) (fill4 nv no nv no poly) (fill4 no no nv nv a_both)
      (fill4 nv no no no a_tail) (fill4 no no no nv a_lead) (fill4 no no no no a_both).
  Definition sampleT1 (no nv : nat) : tensor K := fill2 nv no (fun i j => poly i j 2 1).
  Definition sampleT2 (no nv : nat) : tensor K := fill4 nv nv no no a_both.
  Definition sampleL1 (no nv : nat) : tensor K := fill2 no nv (fun i j => poly j i 3 1).
  Definition sampleL2 (no nv : nat) : tensor K := fill4 no no nv nv a_both.

  Ltac samp := repeat split; try (apply fill4_lead || apply fill4_tail); intros;
    unfold a_lead, a_tail, a_both; ring.

  (** The hypotheses hold of these inputs for all sizes. *)
  Lemma sample_ok no nv :
    one_e_ok no nv (sampleF no nv) /\ two_e_ok no nv (sampleI no nv) /\
    t1_ok no nv (sampleT1 no nv) /\ t2_ok no nv (sampleT2 no nv) /\
    l1_ok no nv (sampleL1 no nv) /\ l2_ok no nv (sampleL2 no nv).
  Proof. samp. Qed.
End Samples.

(** A rational entry of a result, for the examples. *)
Definition entry (r : pyval QcK) (k : nat) (idx : list nat) : option Q :=
  match r with
  | XNum n => Some (this n)
  | XArr t => Some (this (dat t idx))
  | XTup l => match nth_error l k with Some (XArr t) => Some (this (dat t idx)) | _ => None end
  | _ => None
  end.

Definition sample_entry (f : string) (args : list (pyval QcK)) (k : nat) (idx : list nat)
  : option Q :=
  match pycall (conc_alg QcK) cc_prog f args with
  | Ok (r, _) => entry r k idx
  | Exn _ => None
  end.
