(** Vocabulary for C87: how the underscored contribution functions of the Lambda equations
    belong to those of the amplitude equations, and how the public functions are made up of
    them.  Specification only. *)
From Coq Require Import List String ZArith.
From Verif Require Import Scalar Tensor PySyntax PySem CCProg CCSpec AccSpec.
Import ListNotations.
Local Open Scope string_scope.

(** The inputs of a spin-orbital calculation, and picking one of them as an argument. *)
Record inputs (K : cring) : Type := Inputs {
  in_F : one_e K; in_I : two_e K; in_T1 : tensor K; in_T2 : tensor K; in_L1 : tensor K; in_L2 : tensor K }.
Arguments Inputs {K}. Arguments in_F {K}. Arguments in_I {K}. Arguments in_T1 {K}. Arguments in_T2 {K}.
Arguments in_L1 {K}. Arguments in_L2 {K}.
Inductive input : Type := iF | iI | iT1 | iT2 | iL1 | iL2.
Definition given {K : cring} (x : inputs K) (i : input) : pyval K :=
  match i with
  | iF => py_one_e (in_F x) | iI => py_two_e (in_I x)
  | iT1 => arr (in_T1 x) | iT2 => arr (in_T2 x) | iL1 => arr (in_L1 x) | iL2 => arr (in_L2 x)
  end.
Definition inputs_ok {K : cring} (no nv : nat) (x : inputs K) : Prop :=
  one_e_ok no nv (in_F x) /\ two_e_ok no nv (in_I x) /\ t1_ok no nv (in_T1 x) /\ t2_ok no nv (in_T2 x) /\
  l1_ok no nv (in_L1 x) /\ l2_ok no nv (in_L2 x).

(** Singles or doubles. *)
Inductive level : Type := singles | doubles.

(** Arrays of zeros: amplitudes and Lambda amplitudes. *)
Definition no_T (K : cring) (no nv : nat) (v : level) : tensor K :=
  match v with singles => tzeros K [nv; no] | doubles => tzeros K [nv; nv; no; no] end.
Definition no_L (K : cring) (no nv : nat) (v : level) : tensor K :=
  match v with singles => tzeros K [no; nv] | doubles => tzeros K [no; no; nv; nv] end.

(** sum_ia L_ia X_ai, and 1/4 sum_ijab L_ijab X_abij *)
Definition pairing {K : cring} (no nv : nat) (v : level) (L X : list nat -> K) : K :=
  match v with singles => dot2 no nv L X | doubles => cmul quarter (dot4 no no nv nv L X) end.

(** A direction in which T1 or T2 is moved. *)
Definition direction_ok {K : cring} (no nv : nat) (v : level) (dT : tensor K) : Prop :=
  match v with singles => t1_ok no nv dT | doubles => t2_ok no nv dT end.
Definition L_of {K : cring} (x : inputs K) (v : level) : tensor K :=
  match v with singles => in_L1 x | doubles => in_L2 x end.

(** The inputs over the dual numbers, T1 (or T2) moved into the direction dT. *)
Definition moved {K : cring} (x : inputs K) (v : level) (dT : tensor K) : inputs (DualK K) :=
  Inputs (lift_one_e (in_F x)) (lift_two_e (in_I x))
    (match v with singles => perturbed (in_T1 x) dT | doubles => lift (in_T1 x) end)
    (match v with singles => lift (in_T2 x) | doubles => perturbed (in_T2 x) dT end)
    (lift (in_L1 x)) (lift (in_L2 x)).

(** g is the derivative, with respect to T1 or T2, of L1 or L2 paired with f:
    (g, its arguments, T1 or T2, f, its arguments, L1 or L2) *)
Definition lambda_parts : list (string * list input * level * (string * list input * level)) :=
  [ ("_LS_LS", [iF; iI; iL1], singles, ("_S_S", [iF; iI; iT1], singles));
    ("_LS_LSTS", [iF; iI; iL1; iT1], singles, ("_S_SS", [iF; iI; iT1], singles));
    ("_LS_LSTD", [iI; iL1; iT2], singles, ("_S_SD", [iF; iI; iT1; iT2], singles));
    ("_LS_LSTSS", [iI; iL1; iT1], singles, ("_S_SSS", [iF; iI; iT1], singles));
    ("_LS_LD", [iF; iI; iL2], singles, ("_D_S", [iF; iI; iT1], doubles));
    ("_LS_LDTS", [iF; iI; iL2; iT1], singles, ("_D_SS", [iF; iI; iT1], doubles));
    ("_LS_LDTD", [iF; iI; iL2; iT2], singles, ("_D_SD", [iF; iI; iT1; iT2], doubles));
    ("_LS_LDTSS", [iF; iI; iL2; iT1], singles, ("_D_SSS", [iF; iI; iT1], doubles));
    ("_LS_LDTSD", [iI; iL2; iT1; iT2], singles, ("_D_SSD", [iF; iI; iT1; iT2], doubles));
    ("_LS_LDTSSS", [iI; iL2; iT1], singles, ("_D_SSSS", [iF; iI; iT1], doubles));
    ("_LD_LS", [iF; iI; iL1], doubles, ("_S_D", [iF; iI; iT2], singles));
    ("_LD_LSTS", [iF; iI; iL1; iT1], doubles, ("_S_SD", [iF; iI; iT1; iT2], singles));
    ("_LD_LD", [iF; iI; iL2], doubles, ("_D_D", [iF; iI; iT2], doubles));
    ("_LD_LD_ladder", [iI; iL2], doubles, ("_D_D_ladder", [iI; iT2], doubles));
    ("_LD_LDTS", [iF; iI; iL2; iT1], doubles, ("_D_SD", [iF; iI; iT1; iT2], doubles));
    ("_LD_LDTD", [iI; iL2; iT2], doubles, ("_D_DD", [iF; iI; iT2], doubles));
    ("_LD_LDTD_ladder", [iI; iL2; iT2], doubles, ("_D_DD_ladder", [iI; iT2], doubles));
    ("_LD_LDTSS", [iF; iI; iL2; iT1], doubles, ("_D_SSD", [iF; iI; iT1; iT2], doubles)) ].

(** A public function, its arguments, and for each array it returns the block of the
    Hamiltonian it starts from and the contributions it adds. *)
Definition start : Type := (input * string)%type.
Definition block {K : cring} (x : inputs K) (b : start) : tensor K :=
  match b with
  | (iF, "vo") => vo (in_F x) | (iF, "ov") => ov (in_F x)
  | (iI, "vvoo") => vvoo (in_I x) | (iI, "oovv") => oovv (in_I x)
  | _ => tzeros K []
  end.
Definition S_parts : list (string * list input) :=
  [("_S_S", [iF; iI; iT1]); ("_S_D", [iF; iI; iT2]); ("_S_SS", [iF; iI; iT1]); ("_S_SD", [iF; iI; iT1; iT2]);
   ("_S_SSS", [iF; iI; iT1])].
Definition D_parts : list (string * list input) :=
  [("_D_S", [iF; iI; iT1]); ("_D_D", [iF; iI; iT2]); ("_D_SS", [iF; iI; iT1]); ("_D_SD", [iF; iI; iT1; iT2]);
   ("_D_DD", [iF; iI; iT2]); ("_D_SSS", [iF; iI; iT1]); ("_D_SSD", [iF; iI; iT1; iT2]); ("_D_SSSS", [iF; iI; iT1])].
Definition LS_parts : list (string * list input) :=
  [("_LS_TS", [iI; iT1]); ("_LS_LS", [iF; iI; iL1]); ("_LS_LSTS", [iF; iI; iL1; iT1]); ("_LS_LSTD", [iI; iL1; iT2]);
   ("_LS_LSTSS", [iI; iL1; iT1]); ("_LS_LD", [iF; iI; iL2]); ("_LS_LDTS", [iF; iI; iL2; iT1]); ("_LS_LDTD", [iF; iI; iL2; iT2]);
   ("_LS_LDTSS", [iF; iI; iL2; iT1]); ("_LS_LDTSD", [iI; iL2; iT1; iT2]); ("_LS_LDTSSS", [iI; iL2; iT1])].
Definition LD_parts : list (string * list input) :=
  [("_LD_LS", [iF; iI; iL1]); ("_LD_LSTS", [iF; iI; iL1; iT1]); ("_LD_LD", [iF; iI; iL2]); ("_LD_LDTS", [iF; iI; iL2; iT1]);
   ("_LD_LDTD", [iI; iL2; iT2]); ("_LD_LDTSS", [iF; iI; iL2; iT1])].
Definition made_of : list (string * list input * list (start * list (string * list input))) :=
  [ ("lccd_simple", [iF; iI; iT2], [((iI, "vvoo"), [("_D_D", [iF; iI; iT2])])]);
    ("lccsd_simple", [iF; iI; iT1; iT2],
       [((iF, "vo"), [("_S_S", [iF; iI; iT1]); ("_S_D", [iF; iI; iT2])]);
        ((iI, "vvoo"), [("_D_S", [iF; iI; iT1]); ("_D_D", [iF; iI; iT2])])]);
    ("ccd_simple", [iF; iI; iT2], [((iI, "vvoo"), [("_D_D", [iF; iI; iT2]); ("_D_DD", [iF; iI; iT2])])]);
    ("ccd_ladder_simple", [iI; iT2], [((iI, "vvoo"), [("_D_D_ladder", [iI; iT2]); ("_D_DD_ladder", [iI; iT2])])]);
    ("ccd_ring_simple", [iI; iT2], [((iI, "vvoo"), [("_D_D_ring", [iI; iT2]); ("_D_DD_ring", [iI; iT2])])]);
    ("ccsd_simple", [iF; iI; iT1; iT2], [((iF, "vo"), S_parts); ((iI, "vvoo"), D_parts)]);
    ("ccd_lambda_simple", [iF; iI; iL2; iT2], [((iI, "oovv"), [("_LD_LD", [iF; iI; iL2]); ("_LD_LDTD", [iI; iL2; iT2])])]);
    ("ccsd_lambda_simple", [iF; iI; iL1; iL2; iT1; iT2], [((iF, "ov"), LS_parts); ((iI, "oovv"), LD_parts)]) ].

(** One array is returned as it is, several as a tuple. *)
Definition result {K : cring} (Rs : list (tensor K)) : pyval K :=
  match Rs with [R] => arr R | _ => tup (map arr Rs) end.

(** The Hamiltonian multiplied by h, T1 by s, T2 by t, L1 and L2 by l. *)
Definition times {K : cring} (c : K) (T : tensor K) : tensor K := mkT (shp T) (fun i => cmul c (dat T i)).
Definition scaled_inputs {K : cring} (h s t l : K) (x : inputs K) : inputs K :=
  let F := in_F x in let I := in_I x in
  Inputs (OneE K (times h (oo F)) (times h (ov F)) (times h (vo F)) (times h (vv F)))
    (TwoE K (times h (vvvv I)) (times h (vvvo I)) (times h (vovv I)) (times h (vvoo I)) (times h (vovo I))
       (times h (oovv I)) (times h (vooo I)) (times h (ooov I)) (times h (oooo I)))
    (times s (in_T1 x)) (times t (in_T2 x)) (times l (in_L1 x)) (times l (in_L2 x)).

(** The degree of a contribution in the table of AccSpec. *)
Definition degree_of (g : string) : degree :=
  match find (fun r => String.eqb (fst (fst (fst r))) g) contributions with
  | Some r => snd r
  | None => Deg 0 0 0 0
  end.

(** R = h B + sum of h^a s^b t^c l^d Z over the contributions [ps], whose values are [Zs] *)
Definition sum_of_parts {K : cring} (h s t l : K) (B : tensor K) (ps : list (string * list input)) (Zs : list (tensor K))
    (R : tensor K) : Prop :=
  shp R = shp B /\
  forall idx, inrange (shp R) idx -> dat R idx =
    cadd (cmul h (dat B idx)) (lsum (map (fun q => cmul (weight h s t l (degree_of (fst (fst q)))) (dat (snd q) idx)) (combine ps Zs))).

(** The values of the contributions to one result, each added to zeros. *)
Definition parts_values {K : cring} (x : inputs K) (o : start * list (string * list input)) (Zs : list (tensor K)) : Prop :=
  Forall2 (fun p Z => updates (fst p) [zeros_like (block x (fst o))] (map (given x) (snd p)) [Z]) (snd o) Zs.
