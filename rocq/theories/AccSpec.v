(** Vocabulary for C86: the functions of cc_equations.py whose names start with an
    underscore.  Each adds fac times a contribution to the arrays passed first.
    Specification only. *)
From Coq Require Import List String ZArith.
From Verif Require Import Scalar Tensor PySyntax PySem CCProg CCSpec CCShapes.
Import ListNotations.
Local Open Scope string_scope.

Section AccSpec.
  Context {K : cring}.
  Local Open Scope K_scope.

  (** A value with every number and every array entry multiplied by [c]. *)
  Fixpoint scaled (c : K) (v : pyval K) : pyval K :=
    match v with
    | XNum x => numv (c * x)
    | XArr t => arr (mkT (shp t) (fun i => c * dat t i))
    | XTup vs => XTup (map (scaled c) vs)
    | XObj fs => XObj (map (fun p => (fst p, scaled c (snd p))) fs)
    end.

  (** T + c Z *)
  Definition plus (c : K) (T Z : tensor K) : tensor K := mkT (shp T) (fun i => dat T i + c * dat Z i).
  Definition zeros_like (T : tensor K) : tensor K := mkT (shp T) (fun _ => 0).
  Fixpoint pow (x : K) (n : nat) : K := match n with O => 1 | S m => x * pow x m end.

  (** The call f(Ts..., vs...) returns None; afterwards the arrays passed first hold
      [Us], and all other arguments are as before. *)
  Definition updates (f : string) (Ts : list (tensor K)) (vs : list (pyval K)) (Us : list (tensor K)) : Prop :=
    exists Us' vs', pycall (conc_alg K) cc_prog f (map arr Ts ++ vs)%list = Ok (XTup [], (map arr Us' ++ vs')%list) /\
      Forall2 teq Us Us' /\ Forall2 xeq vs vs'.
End AccSpec.

(** By which factor an argument is multiplied: the Hamiltonian by h, single amplitudes
    by s, double amplitudes by t, Lambda amplitudes by l, other arguments not. *)
Inductive factor : Type := by_1 | by_h | by_s | by_t | by_l.
Definition factor_of {K : cring} (h s t l : K) (w : factor) : K :=
  match w with by_1 => c1 | by_h => h | by_s => s | by_t => t | by_l => l end.

(** each argument multiplied by its factor; T_k + c Z_k for every k *)
Definition scaled_args {K : cring} (h s t l : K) (args : list (shape * factor)) (vs : list (pyval K)) : list (pyval K) :=
  map (fun p => scaled (factor_of h s t l (snd (fst p))) (snd p)) (combine args vs).
Definition pluses {K : cring} (c : K) (Ts Zs : list (tensor K)) : list (tensor K) :=
  map (fun p => plus c (fst p) (snd p)) (combine Ts Zs).

(** Degree of a contribution in the Hamiltonian, in T1, T2 and Lambda. *)
Record degree : Type := Deg { deg_h : nat; deg_s : nat; deg_t : nat; deg_l : nat }.
Definition weight {K : cring} (h s t l : K) (d : degree) : K :=
  (cmul (cmul (pow h (deg_h d)) (pow s (deg_s d))) (cmul (pow t (deg_t d)) (pow l (deg_l d)))).

(** function, arrays that are updated, other arguments (without fac) with the factor
    by which each is multiplied, degree.  The functions that hold several terms of
    the amplitude equations at once ([_Stanton] and the like) are listed with the
    amplitudes not multiplied. *)
Definition H_ (s : shape) := (s, by_h).
Definition S_ (s : shape) := (s, by_s).
Definition D_ (s : shape) := (s, by_t).
Definition Y_ (s : shape) := (s, by_l).
Definition N_ (s : shape) := (s, by_1).
Definition contributions : list (string * list shape * list (shape * factor) * degree) :=
  [ ("_S_S", [T1_], [H_ F_; H_ I_; S_ T1_], Deg 1 1 0 0);
    ("_S_D", [T1_], [H_ F_; H_ I_; D_ T2_], Deg 1 0 1 0);
    ("_S_SS", [T1_], [H_ F_; H_ I_; S_ T1_], Deg 1 2 0 0);
    ("_S_SD", [T1_], [H_ F_; H_ I_; S_ T1_; D_ T2_], Deg 1 1 1 0);
    ("_S_SSS", [T1_], [H_ F_; H_ I_; S_ T1_], Deg 1 3 0 0);
    ("_D_S", [T2_], [H_ F_; H_ I_; S_ T1_], Deg 1 1 0 0);
    ("_D_D", [T2_], [H_ F_; H_ I_; D_ T2_], Deg 1 0 1 0);
    ("_D_D_ladder", [T2_], [H_ I_; D_ T2_], Deg 1 0 1 0);
    ("_D_D_ring", [T2_], [H_ I_; D_ T2_], Deg 1 0 1 0);
    ("_D_SS", [T2_], [H_ F_; H_ I_; S_ T1_], Deg 1 2 0 0);
    ("_D_SD", [T2_], [H_ F_; H_ I_; S_ T1_; D_ T2_], Deg 1 1 1 0);
    ("_D_DD", [T2_], [H_ F_; H_ I_; D_ T2_], Deg 1 0 2 0);
    ("_D_DD_ladder", [T2_], [H_ I_; D_ T2_], Deg 1 0 2 0);
    ("_D_DD_ring", [T2_], [H_ I_; D_ T2_], Deg 1 0 2 0);
    ("_D_SSS", [T2_], [H_ F_; H_ I_; S_ T1_], Deg 1 3 0 0);
    ("_D_SSD", [T2_], [H_ F_; H_ I_; S_ T1_; D_ T2_], Deg 1 2 1 0);
    ("_D_SSSS", [T2_], [H_ F_; H_ I_; S_ T1_], Deg 1 4 0 0);
    ("_LS_TS", [L1_], [H_ I_; S_ T1_], Deg 1 1 0 0);
    ("_u_LS_TS", [L1_; L1b_], [H_ I_; H_ Ib_; H_ Iab_; S_ T1_; S_ T1b_], Deg 1 1 0 0);
    ("_r_LS_TS", [L1_], [H_ Ir_; S_ T1_], Deg 1 1 0 0);
    ("_LS_LS", [L1_], [H_ F_; H_ I_; Y_ L1_], Deg 1 0 0 1);
    ("_LS_LSTS", [L1_], [H_ F_; H_ I_; Y_ L1_; S_ T1_], Deg 1 1 0 1);
    ("_LS_LSTD", [L1_], [H_ I_; Y_ L1_; D_ T2_], Deg 1 0 1 1);
    ("_LS_LSTSS", [L1_], [H_ I_; Y_ L1_; S_ T1_], Deg 1 2 0 1);
    ("_LS_LD", [L1_], [H_ F_; H_ I_; Y_ L2_], Deg 1 0 0 1);
    ("_LS_LDTS", [L1_], [H_ F_; H_ I_; Y_ L2_; S_ T1_], Deg 1 1 0 1);
    ("_LS_LDTD", [L1_], [H_ F_; H_ I_; Y_ L2_; D_ T2_], Deg 1 0 1 1);
    ("_LS_LDTSS", [L1_], [H_ F_; H_ I_; Y_ L2_; S_ T1_], Deg 1 2 0 1);
    ("_LS_LDTSD", [L1_], [H_ I_; Y_ L2_; S_ T1_; D_ T2_], Deg 1 1 1 1);
    ("_LS_LDTSSS", [L1_], [H_ I_; Y_ L2_; S_ T1_], Deg 1 3 0 1);
    ("_LD_LS", [L2_], [H_ F_; H_ I_; Y_ L1_], Deg 1 0 0 1);
    ("_LD_LSTS", [L2_], [H_ F_; H_ I_; Y_ L1_; S_ T1_], Deg 1 1 0 1);
    ("_LD_LD", [L2_], [H_ F_; H_ I_; Y_ L2_], Deg 1 0 0 1);
    ("_LD_LD_ladder", [L2_], [H_ I_; Y_ L2_], Deg 1 0 0 1);
    ("_LD_LDTS", [L2_], [H_ F_; H_ I_; Y_ L2_; S_ T1_], Deg 1 1 0 1);
    ("_LD_LDTD", [L2_], [H_ I_; Y_ L2_; D_ T2_], Deg 1 0 1 1);
    ("_LD_LDTD_ladder", [L2_], [H_ I_; Y_ L2_; D_ T2_], Deg 1 0 1 1);
    ("_LD_LDTSS", [L2_], [H_ F_; H_ I_; Y_ L2_; S_ T1_], Deg 1 2 0 1);
    ("_Stanton", [T1_; T2_], [H_ F_; H_ I_; N_ T1_; N_ T2_], Deg 1 0 0 0);
    ("_Stanton_ccd", [T2_], [H_ F_; H_ I_; N_ T2_], Deg 1 0 0 0);
    ("_u_Stanton", [T1_; T1b_; T2_; T2ab_; T2bb_], [H_ F_; H_ Fb_; H_ I_; H_ Ib_; H_ Iab_; N_ uT1; N_ uT2], Deg 1 0 0 0);
    ("_r_Stanton", [T1_; T2_], [H_ F_; H_ Ir_; N_ T1_; N_ T2_], Deg 1 0 0 0);
    ("_Lambda_opt", [L1_; L2_], [H_ F_; H_ I_; Y_ L1_; Y_ L2_; N_ T1_; N_ T2_], Deg 1 0 0 1);
    ("_Lambda_opt_int", [L1_; L2_], [H_ F_; H_ I_; Y_ L1_; Y_ L2_; N_ T1_; N_ T2_; H_ int_], Deg 1 0 0 1);
    ("_uccsd_Lambda_opt", [L1_; L1b_; L2_; L2ab_; L2bb_],
       [H_ F_; H_ Fb_; H_ I_; H_ Ib_; H_ Iab_; Y_ uL1; Y_ uL2; N_ uT1; N_ uT2], Deg 1 0 0 1);
    ("_rccsd_Lambda_opt", [L1_; L2_], [H_ F_; H_ Ir_; Y_ L1_; Y_ L2_; N_ T1_; N_ T2_], Deg 1 0 0 1) ].
