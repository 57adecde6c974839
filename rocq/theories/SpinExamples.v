(** Concrete unrestricted and closed-shell inputs meeting the hypotheses of
    the statements about spin. *)
From Coq Require Import List Bool Arith ZArith String QArith Qcanon Ring.
From Verif Require Import Scalar Tensor PySyntax PySem CCProg CCSpec CCExamples NpModel SpinModel
  SpinSpec SymSound.
Import ListNotations.
Local Open Scope string_scope.

Section Samples.
  Variable K : cring.
  Local Open Scope K_scope.

  (** alpha-beta integrals and doubles, without symmetry *)
  Definition sampleJ (noa nva nob nvb : nat) : two_e_full K :=
    TwoEF K (fill4 K nva nvb nva nvb poly) (fill4 K nva nvb nva nob poly)
      (fill4 K nva nvb noa nvb poly) (fill4 K nva nob nva nvb poly)
      (fill4 K noa nvb nva nvb poly) (fill4 K nva nvb noa nob poly)
      (fill4 K nva nob nva nob poly) (fill4 K nva nob noa nvb poly)
      (fill4 K noa nvb nva nob poly) (fill4 K noa nvb noa nvb poly)
      (fill4 K noa nob nva nvb poly) (fill4 K noa nob noa nvb poly)
      (fill4 K noa nob nva nob poly) (fill4 K noa nvb noa nob poly)
      (fill4 K nva nob noa nob poly) (fill4 K noa nob noa nob poly).
  Definition sampleT2ab (noa nva nob nvb : nat) : tensor K := fill4 K nva nvb noa nob poly.
  Definition sampleL2ab (noa nva nob nvb : nat) : tensor K := fill4 K noa nob nva nvb poly.

  (** the hypotheses hold of these inputs for all sizes *)
  Lemma u_sample_ok noa nva nob nvb :
    u_ham_ok noa nva nob nvb (sampleF K noa nva) (sampleF K nob nvb) (sampleI K noa nva)
      (sampleI K nob nvb) (sampleJ noa nva nob nvb) /\
    u_amps_ok noa nva nob nvb (sampleT1 K noa nva) (sampleT1 K nob nvb) (sampleT2 K noa nva)
      (sampleT2ab noa nva nob nvb) (sampleT2 K nob nvb) /\
    u_lams_ok noa nva nob nvb (sampleL1 K noa nva) (sampleL1 K nob nvb) (sampleL2 K noa nva)
      (sampleL2ab noa nva nob nvb) (sampleL2 K nob nvb).
  Proof.
    destruct (sample_ok K noa nva) as (A1 & A2 & A3 & A4 & A5 & A6).
    destruct (sample_ok K nob nvb) as (B1 & B2 & B3 & B4 & B5 & B6).
    split; [|split]; repeat (split; try assumption); reflexivity.
  Qed.

  (** closed shell: integrals and doubles symmetric under exchange of the two
      particles *)
  Definition psym (i j k l : nat) : Z := (poly i j k l + poly j i l k)%Z.
  Definition sampleR (no nv : nat) : two_e_full K :=
    let b n m k l := fill4 K n m k l psym in
    TwoEF K (b nv nv nv nv) (b nv nv nv no) (b nv nv no nv) (b nv no nv nv) (b no nv nv nv)
      (b nv nv no no) (b nv no nv no) (b nv no no nv) (b no nv nv no) (b no nv no nv)
      (b no no nv nv) (b no no no nv) (b no no nv no) (b no nv no no) (b nv no no no)
      (b no no no no).
  Definition sampleT2r (no nv : nat) : tensor K := fill4 K nv nv no no psym.
  Definition sampleL2r (no nv : nat) : tensor K := fill4 K no no nv nv psym.

  Lemma psym_swap a b c d : teq (fill4 K a b c d psym) (swap_both (fill4 K b a d c psym)).
  Proof.
    split; [reflexivity|]. intros idx H. apply inrange_length in H. cbn in H.
    destruct idx as [|i [|j [|k [|l [|]]]]]; try discriminate.
    cbn. f_equal. unfold psym. ring.
  Qed.
  Lemma r_sample_ok no nv :
    two_e_full_ok no nv no nv (sampleR no nv) /\ pair_sym_full (sampleR no nv) /\
    (shp (sampleT2r no nv) = [nv; nv; no; no] /\ pair_sym (sampleT2r no nv)) /\
    (shp (sampleL2r no nv) = [no; no; nv; nv] /\ pair_sym (sampleL2r no nv)).
  Proof.
    split; [repeat split|]. split; [|split; (split; [reflexivity|apply psym_swap])].
    unfold pair_sym_full, pair_sym.
    repeat match goal with |- _ /\ _ => split end; apply psym_swap.
  Qed.
End Samples.
