(** Conversions to spatial pieces lose what does not conserve spin. *)
From Coq Require Import List Bool Arith ZArith QArith Qcanon Lia Ring.
From Verif Require Import Scalar Tensor PySyntax PySem CCProg CCSpec CCExamples NpModel SpinModel
  SpinSpec SpinRound.
Import ListNotations.
Local Open Scope nat_scope.

(** one occupied orbital of each spin, two virtual alpha orbitals *)
Definition bad_T2 : tensor QcK := fill4 QcK 2 2 2 2 (fun a b i j =>
  ((Z.of_nat a - Z.of_nat b) * (Z.of_nat i - Z.of_nat j))%Z).
Lemma T2_not_retract : exists (t : tensor QcK) noa nva nob nvb, t2_ok (noa + nob) (nva + nvb) t /\
  forall aa ab bb t', T2_to_spatial t noa nva nob nvb = Some (aa, ab, bb) ->
    T2_to_spin aa ab bb noa nva nob nvb = Some t' -> ~ teq t' t.
Proof.
  exists bad_T2, 1, 2, 1, 0. split.
  - split; [reflexivity|]. split; [apply fill4_lead|apply fill4_tail]; intros; ring.
  - intros aa ab bb t' E1 E2 [_ H]. injection E1 as <- <- <-. injection E2 as <-.
    pose proof (f_equal this (H [0; 1; 0; 1] ltac:(repeat constructor))) as X.
    vm_compute in X. discriminate X.
Qed.

Definition bad_T1 : tensor QcK := fill2 QcK 1 2 (fun a i => Z.of_nat i).
Lemma T1_not_retract : exists (t : tensor QcK) noa nva nob nvb, shp t = [nva + nvb; noa + nob] /\
  forall a b t', T1_to_spatial t noa nva nob nvb = Some (a, b) ->
    T1_to_spin a b noa nva nob nvb = Some t' -> ~ teq t' t.
Proof.
  exists bad_T1, 1, 1, 1, 0. split; [reflexivity|].
  intros a b t' E1 E2 [_ H]. injection E1 as <- <-. injection E2 as <-.
    pose proof (f_equal this (H [0; 1] ltac:(repeat constructor))) as X.
    vm_compute in X. discriminate X.
Qed.
