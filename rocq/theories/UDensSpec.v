(** Specification vocabulary for density matrices and Lambda equations of
    unrestricted coupled cluster theory over spatial orbitals: n alpha orbitals
    0 .. n-1 and n beta orbitals n .. 2n-1, the first noa and nob of them occupied
    in the reference determinant.  Spins: false alpha, true beta.  No reference
    to the program. *)
From Coq Require Import List Bool Arith.
From Verif Require Import Scalar Tensor CISpec CIExpSpec CCSpec CCFockSpec CCDensSpec UFockSpec.
Import ListNotations.

Definition u_occupied (n noa nob p : nat) : bool :=
  if Nat.ltb p n then Nat.ltb p noa else Nat.ltb (p - n) nob.
(** does the operator annihilate the reference? *)
Definition u_annihilates (n noa nob : nat) (o : op) : bool :=
  match o with Cre p => u_occupied n noa nob p | Ann p => negb (u_occupied n noa nob p) end.
(** normal ordering: the operators that annihilate the reference go to the right *)
Definition u_nprod (n noa nob : nat) (w : list op) : list op :=
  filter (fun o => negb (u_annihilates n noa nob o)) w ++ filter (u_annihilates n noa nob) w.
Fixpoint u_nsign (n noa nob : nat) (w : list op) : bool :=
  match w with
  | [] => false
  | o :: w' => xorb (u_annihilates n noa nob o && Nat.odd (length (filter (fun x => negb (u_annihilates n noa nob x)) w')))
      (u_nsign n noa nob w')
  end.

(** the orbitals of a block: v = true virtual, s = true beta *)
Definition u_extent (noa nva nob nvb : nat) (v s : bool) : nat :=
  match v, s with false, false => noa | true, false => nva | false, true => nob | true, true => nvb end.
Definition u_orbital (n noa nob : nat) (v s : bool) (x : nat) : nat :=
  match v, s with false, false => x | true, false => noa + x | false, true => n + x | true, true => n + (nob + x) end.
Fixpoint u_extents (noa nva nob nvb : nat) (vs ss : list bool) : list nat :=
  match vs, ss with v :: vs', s :: ss' => u_extent noa nva nob nvb v s :: u_extents noa nva nob nvb vs' ss' | _, _ => [] end.
Fixpoint u_orbitals (n noa nob : nat) (vs ss : list bool) (xs : list nat) : list nat :=
  match vs, ss, xs with
  | v :: vs', s :: ss', x :: xs' => u_orbital n noa nob v s x :: u_orbitals n noa nob vs' ss' xs'
  | _, _, _ => []
  end.

Section UDens.
  Variable K : cring.
  Local Open Scope K_scope.
  Notation opsum := (list (K * list op)).

  (** sum l_ia o+_i v_a and x sum l_ijab o+_i o'+_j v'_b v_a *)
  Definition down1 (no nv : nat) (o v : nat -> nat) (l : nat -> nat -> K) : opsum :=
    flat_map (fun i => map (fun a => (l i a, [Cre (o i); Ann (v a)])) (seq 0 nv)) (seq 0 no).
  Definition down2 (no no' nv nv' : nat) (o o' v v' : nat -> nat) (x : K) (l : nat -> nat -> nat -> nat -> K) : opsum :=
    flat_map (fun i => flat_map (fun j => flat_map (fun a => map (fun b =>
      (x * l i j a b, [Cre (o i); Cre (o' j); Ann (v' b); Ann (v a)])) (seq 0 nv')) (seq 0 nv))
      (seq 0 no')) (seq 0 no).

  (** c + Lambda *)
  Definition u_lambda (n noa nva nob nvb : nat) (c : K) (L1a L1b L2aa L2ab L2bb : tensor K) : opsum :=
    let oa i := i in let va a := (noa + a)%nat in let ob i := (n + i)%nat in let vb a := (n + (nob + a))%nat in
    (c, []) ::
    down1 noa nva oa va (fun i a => dat L1a [i; a]) ++
    down1 nob nvb ob vb (fun i a => dat L1b [i; a]) ++
    down2 noa noa nva nva oa oa va va quarter (fun i j a b => dat L2aa [i; j; a; b]) ++
    down2 nob nob nvb nvb ob ob vb vb quarter (fun i j a b => dat L2bb [i; j; a; b]) ++
    down2 noa nob nva nvb oa ob va vb 1 (fun i j a b => dat L2ab [i; j; a; b]).

  (** <0| (c + Lambda) exp(-T) A exp(T) |0> and <0| (c + Lambda) [exp(-T) A exp(T), B] |0> *)
  Definition u_expect (inv : nat -> K) (M n noa nva nob nvb : nat) (c : K)
      (T1a T1b T2aa T2ab T2bb L1a L1b L2aa L2ab L2bb : tensor K) (A : opsum) : K :=
    let ref := aufbau n noa ++ aufbau n nob in
    amp ref (opmul (u_lambda n noa nva nob nvb c L1a L1b L2aa L2ab L2bb)
      (transformed inv M (u_cluster n noa nva nob nvb T1a T1b T2aa T2ab T2bb) A)) ref.
  Definition u_commutator (inv : nat -> K) (M n noa nva nob nvb : nat) (c : K)
      (T1a T1b T2aa T2ab T2bb L1a L1b L2aa L2ab L2bb : tensor K) (A B : opsum) : K :=
    let ref := aufbau n noa ++ aufbau n nob in
    amp ref (opmul (u_lambda n noa nva nob nvb c L1a L1b L2aa L2ab L2bb)
      (commutator (transformed inv M (u_cluster n noa nva nob nvb T1a T1b T2aa T2ab T2bb) A) B)) ref.

  (** the expectation value of the normal ordered product w *)
  Definition u_normal_expect inv M n noa nva nob nvb c T1a T1b T2aa T2ab T2bb L1a L1b L2aa L2ab L2bb (w : list op) : K :=
    sgn (u_nsign n noa nob w) *
    u_expect inv M n noa nva nob nvb c T1a T1b T2aa T2ab T2bb L1a L1b L2aa L2ab L2bb [(1, u_nprod n noa nob w)].

  (** all entries of the residuals of the Lambda equations vanish *)
  Definition u_lambda_solved (noa nva nob nvb : nat) (Ma Mb Maa Mab Mbb : tensor K) : Prop :=
    (forall i a, (i < noa)%nat -> (a < nva)%nat -> dat Ma [i; a] = 0) /\
    (forall i a, (i < nob)%nat -> (a < nvb)%nat -> dat Mb [i; a] = 0) /\
    (forall i j a b, (i < noa)%nat -> (j < noa)%nat -> (a < nva)%nat -> (b < nva)%nat -> dat Maa [i; j; a; b] = 0) /\
    (forall i j a b, (i < noa)%nat -> (j < nob)%nat -> (a < nva)%nat -> (b < nvb)%nat -> dat Mab [i; j; a; b] = 0) /\
    (forall i j a b, (i < nob)%nat -> (j < nob)%nat -> (a < nvb)%nat -> (b < nvb)%nat -> dat Mbb [i; j; a; b] = 0).
End UDens.
Arguments u_lambda_solved {K}.
Arguments down1 {K}. Arguments down2 {K}. Arguments u_lambda {K}. Arguments u_expect {K}. Arguments u_commutator {K}.
Arguments u_normal_expect {K}.
