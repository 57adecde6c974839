(** Specification: sizes of and distances between arguments and results, and
    the iteration that solves the amplitude equations. *)
From Coq Require Import List String Reals.
From Verif Require Import Scalar Tensor PySyntax PySem CCProg CCSpec CCShapes CovSpec RoundSpec UtilsModel.
Import ListNotations.
Local Open Scope R_scope.

(** all numbers and array entries of a value of shape [s] are at most [B] in
    absolute value *)
Definition bounded_array (n : space -> nat) (B : R) (l : list space) (t : tensor RK) : Prop :=
  shp t = map n l /\ forall idx, inrange (map n l) idx -> Rabs (dat t idx) <= B.
Definition bounded (n : space -> nat) (B : R) (s : shape) (v : pyval RK) : Prop :=
  related (K1 := RK) (K2 := RK) (fun x _ => Rabs x <= B) (fun l t _ => bounded_array n B l t) s v v.
Definition bounded_args (n : space -> nat) (B : R) (a : list shape) (vs : list (pyval RK)) : Prop :=
  related_args (fun s v _ => bounded n B s v) a vs vs.

(** the numbers and array entries of two values of shape [s] differ by at most [d] *)
Definition near_array (n : space -> nat) (d : R) (l : list space) (t u : tensor RK) : Prop :=
  shp t = map n l /\ shp u = map n l /\ forall idx, inrange (map n l) idx -> Rabs (dat t idx - dat u idx) <= d.
Definition near (n : space -> nat) (d : R) : shape -> pyval RK -> pyval RK -> Prop :=
  related (K1 := RK) (K2 := RK) (fun x y => Rabs (x - y) <= d) (near_array n d).
Definition near_args (n : space -> nat) (d : R) : list shape -> list (pyval RK) -> list (pyval RK) -> Prop :=
  related_args (near n d).

(** one pass of the usual solver: every amplitude minus its residual over its
    orbital energy denominator; [D1], [D2] are those of utils.py *)
Definition divided_step (t r d t' : tensor RK) : Prop :=
  shp t' = shp t /\ forall idx, inrange (shp t) idx -> dat t' idx = dat t idx - dat r idx / dat d idx.
Definition update (f : string) (F : one_e RK) (I : two_e RK) (eo ev : tensor RK) (T1 T2 T1' T2' : tensor RK) : Prop :=
  exists d1 d2 r s, D1 ev eo = Some d1 /\ D2 ev eo = Some d2 /\
    returns f [py_one_e F; py_two_e I; arr T1; arr T2] (tup [arr r; arr s]) /\
    divided_step T1 r d1 T1' /\ divided_step T2 s d2 T2'.
(** the history of the solver that starts from zero amplitudes *)
Definition iterates (no nv : nat) (f : string) (F : one_e RK) (I : two_e RK) (eo ev : tensor RK) (t1 t2 : nat -> tensor RK) : Prop :=
  t1 0%nat = tzeros RK [nv; no] /\ t2 0%nat = tzeros RK [nv; nv; no; no] /\
  forall k, update f F I eo ev (t1 k) (t2 k) (t1 (S k)) (t2 (S k)).
(** the amplitudes solve the equations: the residuals are zero *)
Definition solves (f : string) (F : one_e RK) (I : two_e RK) (T1 T2 : tensor RK) : Prop :=
  exists r s, returns f [py_one_e F; py_two_e I; arr T1; arr T2] (tup [arr r; arr s]) /\
    (forall idx, inrange (shp r) idx -> dat r idx = 0) /\ (forall idx, inrange (shp s) idx -> dat s idx = 0).
Definition at_most (B : R) (t : tensor RK) : Prop := forall idx, inrange (shp t) idx -> Rabs (dat t idx) <= B.
Definition differ (d : R) (t u : tensor RK) : Prop :=
  shp t = shp u /\ forall idx, inrange (shp t) idx -> Rabs (dat t idx - dat u idx) <= d.
(** the largest entry of the Fock matrix without orbital energies, and of the integrals *)
Definition at_most_F (B : R) (F : one_e RK) : Prop :=
  at_most B (oo F) /\ at_most B (ov F) /\ at_most B (vo F) /\ at_most B (vv F).
Definition at_most_I (B : R) (I : two_e RK) : Prop :=
  at_most B (vvvv I) /\ at_most B (vvvo I) /\ at_most B (vovv I) /\ at_most B (vvoo I) /\ at_most B (vovo I) /\
  at_most B (oovv I) /\ at_most B (vooo I) /\ at_most B (ooov I) /\ at_most B (oooo I).

(** the same for Lambda, whose arrays have the occupied indices first: [t] are
    the amplitudes, which stay as they are *)
Definition from_virtual (idx : list nat) : list nat :=
  match idx with [i; a] => [a; i] | [i; j; a; b] => [a; b; i; j] | _ => idx end.
Definition divided_step_l (t r d t' : tensor RK) : Prop :=
  shp t' = shp t /\ forall idx, inrange (shp t) idx -> dat t' idx = dat t idx - dat r idx / dat d (from_virtual idx).
Definition update_l (f : string) (F : one_e RK) (I : two_e RK) (eo ev T1 T2 : tensor RK) (L1 L2 L1' L2' : tensor RK) : Prop :=
  exists d1 d2 r s, D1 ev eo = Some d1 /\ D2 ev eo = Some d2 /\
    returns f [py_one_e F; py_two_e I; arr L1; arr L2; arr T1; arr T2] (tup [arr r; arr s]) /\
    divided_step_l L1 r d1 L1' /\ divided_step_l L2 s d2 L2'.
Definition iterates_l (no nv : nat) (f : string) (F : one_e RK) (I : two_e RK) (eo ev T1 T2 : tensor RK) (l1 l2 : nat -> tensor RK) : Prop :=
  l1 0%nat = tzeros RK [no; nv] /\ l2 0%nat = tzeros RK [no; no; nv; nv] /\
  forall k, update_l f F I eo ev T1 T2 (l1 k) (l2 k) (l1 (S k)) (l2 (S k)).
Definition solves_l (f : string) (F : one_e RK) (I : two_e RK) (T1 T2 L1 L2 : tensor RK) : Prop :=
  exists r s, returns f [py_one_e F; py_two_e I; arr L1; arr L2; arr T1; arr T2] (tup [arr r; arr s]) /\
    (forall idx, inrange (shp r) idx -> dat r idx = 0) /\ (forall idx, inrange (shp s) idx -> dat s idx = 0).

(** doubles only *)
Definition update_d (f : string) (F : one_e RK) (I : two_e RK) (eo ev : tensor RK) (T2 T2' : tensor RK) : Prop :=
  exists d2 s, D2 ev eo = Some d2 /\ returns f [py_one_e F; py_two_e I; arr T2] (arr s) /\ divided_step T2 s d2 T2'.
Definition iterates_d (no nv : nat) (f : string) (F : one_e RK) (I : two_e RK) (eo ev : tensor RK) (t2 : nat -> tensor RK) : Prop :=
  t2 0%nat = tzeros RK [nv; nv; no; no] /\ forall k, update_d f F I eo ev (t2 k) (t2 (S k)).
Definition solves_d (f : string) (F : one_e RK) (I : two_e RK) (T2 : tensor RK) : Prop :=
  exists s, returns f [py_one_e F; py_two_e I; arr T2] (arr s) /\ (forall idx, inrange (shp s) idx -> dat s idx = 0).

(** closed shells: integrals without antisymmetry *)
Definition update_r (f : string) (F : one_e RK) (J : two_e_full RK) (eo ev : tensor RK) (T1 T2 T1' T2' : tensor RK) : Prop :=
  exists d1 d2 r s, D1 ev eo = Some d1 /\ D2 ev eo = Some d2 /\
    returns f [py_one_e F; py_two_e_full J; arr T1; arr T2] (tup [arr r; arr s]) /\
    divided_step T1 r d1 T1' /\ divided_step T2 s d2 T2'.
Definition iterates_r (no nv : nat) (f : string) (F : one_e RK) (J : two_e_full RK) (eo ev : tensor RK) (t1 t2 : nat -> tensor RK) : Prop :=
  t1 0%nat = tzeros RK [nv; no] /\ t2 0%nat = tzeros RK [nv; nv; no; no] /\
  forall k, update_r f F J eo ev (t1 k) (t2 k) (t1 (S k)) (t2 (S k)).
Definition solves_r (f : string) (F : one_e RK) (J : two_e_full RK) (T1 T2 : tensor RK) : Prop :=
  exists r s, returns f [py_one_e F; py_two_e_full J; arr T1; arr T2] (tup [arr r; arr s]) /\
    (forall idx, inrange (shp r) idx -> dat r idx = 0) /\ (forall idx, inrange (shp s) idx -> dat s idx = 0).
Definition at_most_J (B : R) (J : two_e_full RK) : Prop :=
  at_most B (fvvvv J) /\ at_most B (fvvvo J) /\ at_most B (fvvov J) /\ at_most B (fvovv J) /\ at_most B (fovvv J) /\
  at_most B (fvvoo J) /\ at_most B (fvovo J) /\ at_most B (fvoov J) /\ at_most B (fovvo J) /\ at_most B (fovov J) /\
  at_most B (foovv J) /\ at_most B (fooov J) /\ at_most B (foovo J) /\ at_most B (fovoo J) /\ at_most B (fvooo J) /\ at_most B (foooo J).
(** Lambda for closed shells *)
Definition update_rl (f : string) (F : one_e RK) (J : two_e_full RK) (eo ev T1 T2 : tensor RK) (L1 L2 L1' L2' : tensor RK) : Prop :=
  exists d1 d2 r s, D1 ev eo = Some d1 /\ D2 ev eo = Some d2 /\
    returns f [py_one_e F; py_two_e_full J; arr L1; arr L2; arr T1; arr T2] (tup [arr r; arr s]) /\
    divided_step_l L1 r d1 L1' /\ divided_step_l L2 s d2 L2'.
Definition iterates_rl (no nv : nat) (f : string) (F : one_e RK) (J : two_e_full RK) (eo ev T1 T2 : tensor RK) (l1 l2 : nat -> tensor RK) : Prop :=
  l1 0%nat = tzeros RK [no; nv] /\ l2 0%nat = tzeros RK [no; no; nv; nv] /\
  forall k, update_rl f F J eo ev T1 T2 (l1 k) (l2 k) (l1 (S k)) (l2 (S k)).
Definition solves_rl (f : string) (F : one_e RK) (J : two_e_full RK) (T1 T2 L1 L2 : tensor RK) : Prop :=
  exists r s, returns f [py_one_e F; py_two_e_full J; arr L1; arr L2; arr T1; arr T2] (tup [arr r; arr s]) /\
    (forall idx, inrange (shp r) idx -> dat r idx = 0) /\ (forall idx, inrange (shp s) idx -> dat s idx = 0).

(** unrestricted: alpha and beta singles, three blocks of doubles *)
Inductive ublock : Type := Ua | Ub | Uaa | Uab | Ubb.
Definition py_u (t : ublock -> tensor RK) : list (pyval RK) :=
  [tup [arr (t Ua); arr (t Ub)]; tup [arr (t Uaa); arr (t Uab); arr (t Ubb)]].
Definition py_uham (Fa Fb : one_e RK) (Ia Ib : two_e RK) (J : two_e_full RK) : list (pyval RK) :=
  [py_one_e Fa; py_one_e Fb; py_two_e Ia; py_two_e Ib; py_two_e_full J].
Definition ushape (noa nva nob nvb : nat) (b : ublock) : list nat :=
  match b with
  | Ua => [nva; noa] | Ub => [nvb; nob] | Uaa => [nva; nva; noa; noa] | Uab => [nva; nvb; noa; nob] | Ubb => [nvb; nvb; nob; nob]
  end.
Definition ushape_l (noa nva nob nvb : nat) (b : ublock) : list nat :=
  match b with
  | Ua => [noa; nva] | Ub => [nob; nvb] | Uaa => [noa; noa; nva; nva] | Uab => [noa; nob; nva; nvb] | Ubb => [nob; nob; nvb; nvb]
  end.
Definition udenominators (eoa eva eob evb : tensor RK) (D : ublock -> tensor RK) : Prop :=
  D1 eva eoa = Some (D Ua) /\ D1 evb eob = Some (D Ub) /\ D2 eva eoa = Some (D Uaa) /\
  D2u eva evb eoa eob = Some (D Uab) /\ D2 evb eob = Some (D Ubb).
Definition u_ok (noa nva nob nvb : nat) (t : ublock -> tensor RK) : Prop :=
  t1_ok noa nva (t Ua) /\ t1_ok nob nvb (t Ub) /\ t2_ok noa nva (t Uaa) /\ shp (t Uab) = [nva; nvb; noa; nob] /\ t2_ok nob nvb (t Ubb).
Definition u_ok_l (noa nva nob nvb : nat) (t : ublock -> tensor RK) : Prop :=
  l1_ok noa nva (t Ua) /\ l1_ok nob nvb (t Ub) /\ l2_ok noa nva (t Uaa) /\ shp (t Uab) = [noa; nob; nva; nvb] /\ l2_ok nob nvb (t Ubb).
(** [H] the Hamiltonian, [A] the arguments after the amplitudes *)
Definition iterates_u (noa nva nob nvb : nat) (f : string) (H : list (pyval RK)) (eoa eva eob evb : tensor RK)
    (t : nat -> ublock -> tensor RK) : Prop :=
  (forall b, t 0%nat b = tzeros RK (ushape noa nva nob nvb b)) /\
  forall k, exists D r, udenominators eoa eva eob evb D /\ returns f (H ++ py_u (t k))%list (tup (py_u r)) /\
    forall b, divided_step (t k b) (r b) (D b) (t (S k) b).
Definition solves_u (f : string) (H : list (pyval RK)) (t : ublock -> tensor RK) : Prop :=
  exists r, returns f (H ++ py_u t)%list (tup (py_u r)) /\ forall b idx, inrange (shp (r b)) idx -> dat (r b) idx = 0.
Definition iterates_ul (noa nva nob nvb : nat) (f : string) (H A : list (pyval RK)) (eoa eva eob evb : tensor RK)
    (t : nat -> ublock -> tensor RK) : Prop :=
  (forall b, t 0%nat b = tzeros RK (ushape_l noa nva nob nvb b)) /\
  forall k, exists D r, udenominators eoa eva eob evb D /\ returns f (H ++ py_u (t k) ++ A)%list (tup (py_u r)) /\
    forall b, divided_step_l (t k b) (r b) (D b) (t (S k) b).
Definition solves_ul (f : string) (H A : list (pyval RK)) (t : ublock -> tensor RK) : Prop :=
  exists r, returns f (H ++ py_u t ++ A)%list (tup (py_u r)) /\ forall b idx, inrange (shp (r b)) idx -> dat (r b) idx = 0.
(** all blocks of the Hamiltonian below a bound *)
Definition u_small (h : R) (Fa Fb : one_e RK) (Ia Ib : two_e RK) (J : two_e_full RK) : Prop :=
  at_most_F h Fa /\ at_most_F h Fb /\ at_most_I h Ia /\ at_most_I h Ib /\ at_most_J h J.
