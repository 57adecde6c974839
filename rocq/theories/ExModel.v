(** Model of the calculations in /repo/examples that use ci_utils.py: the matrix of
    the Hamiltonian in a basis of determinants.  Not modelled: the mean field
    calculation of pyscf that gives ha, hb, I and const, and numpy.linalg.eigh
    (only its defining relation, in ExSpec.v). *)
From Coq Require Import List.
From Verif Require Import Scalar Tensor CIModel.
Import ListNotations.

(** [let? x := ...] over a list *)
Fixpoint omap {A B} (f : A -> option B) (l : list A) : option (list B) :=
  match l with
  | [] => Some []
  | a :: l' => match f a, omap f l' with Some b, Some bs => Some (b :: bs) | _, _ => None end
  end.

Section Ex.
  Variable K : cring.

  (** examples/cis.py:41-50, cis_H2.py:37-47, cisd.py:31-37, cisd_Be.py:30-36: the loops
        [H = zeros((nd, nd)); for i, b in enumerate(basis): for j, k in enumerate(basis):
           H[i, j] = ci_matrixel(b[0], b[1], k[0], k[1], ha, hb, I, I, I, const)]
      for integrals that may depend on the spin.  The array H is the list of its
      rows; every entry is assigned exactly once, so the zeros do not matter. *)
  Definition ci_matrix (basis : list upair) (ha hb Ia Ib Iab : tensor K) (const : K) : option (list (list K)) :=
    omap (fun b : upair => omap (fun k : upair =>
      ci_matrixel K (fst b) (snd b) (fst k) (snd k) ha hb Ia Ib Iab const) basis) basis.

  (** examples/cis.py:39-50, cis_H2.py:36-47: [basis = ucis_basis(nmo, na, nb, gs=False)] *)
  Definition cis_example (nmo na nb : nat) (ha hb I : tensor K) (const : K) : option (list (list K)) :=
    match ucis_basis nmo na nb false with
    | Some basis => ci_matrix basis ha hb I I I const
    | None => None
    end.

  (** examples/cisd.py:30-37, cisd_Be.py:29-36: [basis = ucisd_basis(nmo, na, nb)] *)
  Definition cisd_example (nmo na nb : nat) (ha hb I : tensor K) (const : K) : option (list (list K)) :=
    match ucisd_basis nmo na nb with
    | Some basis => ci_matrix basis ha hb I I I const
    | None => None
    end.
End Ex.
Arguments ci_matrix {K}. Arguments cis_example {K}. Arguments cisd_example {K}.
