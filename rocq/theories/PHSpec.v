(** Specification: the exchange of electrons and holes.
    Writing b_p = a_p^dagger, an electron in orbital p becomes a hole and the
    occupied orbitals change places with the virtual ones.  In normal order
      {a_p^+ a_q}           = - {b_q^+ b_p}
      {a_p^+ a_q^+ a_s a_r} =   {b_r^+ b_s^+ b_q b_p},
    so that one-particle quantities are transposed and change their sign, and
    bra and ket of two-particle quantities are exchanged. *)
From Coq Require Import List String.
From Verif Require Import Scalar Tensor CCSpec NpModel SpinModel SpinSpec.
Import ListNotations.
Local Open Scope string_scope.

(** kinds of arrays: one particle; two particles; two particles, where the
    two particles are also exchanged, <pq|rs> = <qp|sr>, because the exchanged
    array is stored with its indices in that order *)
Inductive hkind := H1 | H2 | H2r.

Section Holes.
  Context {K : cring}.
  Local Open Scope K_scope.

  (** [t'] is [t] after the exchange *)
  Definition holes (k : hkind) (t t' : tensor K) : Prop :=
    match k with
    | H1 => exists a b, shp t = [a; b] /\ shp t' = [b; a] /\
        forall p q, (p < a)%nat -> (q < b)%nat -> dat t' [q; p] = - dat t [p; q]
    | H2 => exists a b c d, shp t = [a; b; c; d] /\ shp t' = [c; d; a; b] /\
        forall p q r s, (p < a)%nat -> (q < b)%nat -> (r < c)%nat -> (s < d)%nat ->
          dat t' [r; s; p; q] = dat t [p; q; r; s]
    | H2r => exists a b c d, shp t = [a; b; c; d] /\ shp t' = [d; c; b; a] /\
        forall p q r s, (p < a)%nat -> (q < b)%nat -> (r < c)%nat -> (s < d)%nat ->
          dat t' [s; r; q; p] = dat t [p; q; r; s]
    end.

  (** the Fock matrix: occupied and virtual change places *)
  Definition holes_F (F F' : one_e K) : Prop :=
    holes H1 (oo F) (vv F') /\ holes H1 (ov F) (ov F') /\ holes H1 (vo F) (vo F') /\
    holes H1 (vv F) (oo F').

  (** the nine blocks of antisymmetrised integrals: the exchange takes vovo to
      ovov and vvvo to ovoo, which are stored as vovo and vooo *)
  Definition holes_I (I I' : two_e K) : Prop :=
    holes H2 (vvvv I) (oooo I') /\ holes H2r (vvvo I) (vooo I') /\ holes H2 (vovv I) (ooov I') /\
    holes H2 (vvoo I) (vvoo I') /\ holes H2r (vovo I) (vovo I') /\ holes H2 (oovv I) (oovv I') /\
    holes H2r (vooo I) (vvvo I') /\ holes H2 (ooov I) (vovv I') /\ holes H2 (oooo I) (vvvv I').

  (** all sixteen blocks *)
  Definition holes_J (J J' : two_e_full K) : Prop :=
    holes H2 (fvvvv J) (foooo J') /\ holes H2 (fvvvo J) (fovoo J') /\
    holes H2 (fvvov J) (fvooo J') /\ holes H2 (fvovv J) (fooov J') /\
    holes H2 (fovvv J) (foovo J') /\ holes H2 (fvvoo J) (fvvoo J') /\
    holes H2 (fvovo J) (fovov J') /\ holes H2 (fvoov J) (fvoov J') /\
    holes H2 (fovvo J) (fovvo J') /\ holes H2 (fovov J) (fvovo J') /\
    holes H2 (foovv J) (foovv J') /\ holes H2 (fooov J) (fvovv J') /\
    holes H2 (foovo J) (fovvv J') /\ holes H2 (fovoo J) (fvvvo J') /\
    holes H2 (fvooo J) (fvvov J') /\ holes H2 (foooo J) (fvvvv J').

  (** unrestricted: both Fock matrices, the integrals of either spin and the
      mixed ones; amplitudes (alpha, beta), (alpha-alpha, alpha-beta, beta-beta) *)
  Definition holes_uH (Fa Fb : one_e K) (Ia Ib : two_e K) (J : two_e_full K)
    (Fa' Fb' : one_e K) (Ia' Ib' : two_e K) (J' : two_e_full K) : Prop :=
    holes_F Fa Fa' /\ holes_F Fb Fb' /\ holes_I Ia Ia' /\ holes_I Ib Ib' /\ holes_J J J'.
  Definition holes_amps (ta tb aa ab bb ta' tb' aa' ab' bb' : tensor K) : Prop :=
    holes H1 ta ta' /\ holes H1 tb tb' /\ holes H2 aa aa' /\ holes H2 ab ab' /\ holes H2 bb bb'.
End Holes.

(** *** Density matrices
    (f, g, k): the exchange takes what [f] returns to what [g] returns, by [k].
    The letters of a name are the indices of the block, a b c d virtual and
    i j k l occupied: the exchange takes ba to ji, cdab to klij, and so on. *)
Definition so_rdm : list (string * string * hkind) :=
  [("ccsd_1rdm_ba", "ccsd_1rdm_ji", H1); ("ccsd_1rdm_ji", "ccsd_1rdm_ba", H1);
   ("ccsd_1rdm_ai", "ccsd_1rdm_ai", H1);
   ("ccsd_2rdm_cdab", "ccsd_2rdm_klij", H2); ("ccsd_2rdm_klij", "ccsd_2rdm_cdab", H2);
   ("ccsd_2rdm_abij", "ccsd_2rdm_abij", H2); ("ccsd_2rdm_bjai", "ccsd_2rdm_bjai", H2r);
   ("ccsd_2rdm_jkai", "ccsd_2rdm_ciab", H2r); ("ccsd_2rdm_ciab", "ccsd_2rdm_jkai", H2r);
   ("ccsd_2rdm_kaij", "ccsd_2rdm_bcai", H2); ("ccsd_2rdm_bcai", "ccsd_2rdm_kaij", H2)].
(** the functions of the same names with suffix _opt *)
Definition opt (e : string * string * hkind) := ((fst (fst e)) ++ "_opt", (snd (fst e)) ++ "_opt", snd e).
Definition so_rdm2 := (so_rdm ++ map opt so_rdm)%list.
(** the two with a fifth argument, the factor tfac *)
Definition so_rdmf : list (string * string * hkind) :=
  [("ccsd_1rdm_ai", "ccsd_1rdm_ai", H1); ("ccsd_2rdm_abij", "ccsd_2rdm_abij", H2);
   ("ccsd_1rdm_ai_opt", "ccsd_1rdm_ai_opt", H1); ("ccsd_2rdm_abij_opt", "ccsd_2rdm_abij_opt", H2)].

(** unrestricted functions return tuples: the entry (k, h) at position j says
    that array j of the exchanged tuple comes from array k by h.  In bjai the
    arrays 2 and 5, in jkai and ciab the arrays 2 and 3 change places: they
    differ by which of the two particles has spin alpha. *)
Definition u_rdm : list (string * string * list (nat * hkind)) :=
  [("uccsd_1rdm_ba", "uccsd_1rdm_ji", [(0, H1); (1, H1)]);
   ("uccsd_1rdm_ji", "uccsd_1rdm_ba", [(0, H1); (1, H1)]);
   ("uccsd_1rdm_ai", "uccsd_1rdm_ai", [(0, H1); (1, H1)]);
   ("uccsd_2rdm_cdab", "uccsd_2rdm_klij", [(0, H2); (1, H2); (2, H2)]);
   ("uccsd_2rdm_klij", "uccsd_2rdm_cdab", [(0, H2); (1, H2); (2, H2)]);
   ("uccsd_2rdm_abij", "uccsd_2rdm_abij", [(0, H2); (1, H2); (2, H2)]);
   ("uccsd_2rdm_bjai", "uccsd_2rdm_bjai",
      [(0, H2r); (1, H2r); (5, H2r); (3, H2r); (4, H2r); (2, H2r)]);
   ("uccsd_2rdm_jkai", "uccsd_2rdm_ciab", [(0, H2r); (1, H2r); (3, H2r); (2, H2r)]);
   ("uccsd_2rdm_ciab", "uccsd_2rdm_jkai", [(0, H2r); (1, H2r); (3, H2r); (2, H2r)]);
   ("uccsd_2rdm_kaij", "uccsd_2rdm_bcai", [(0, H2); (1, H2); (2, H2); (3, H2)]);
   ("uccsd_2rdm_bcai", "uccsd_2rdm_kaij", [(0, H2); (1, H2); (2, H2); (3, H2)])].

Definition r_rdm : list (string * string * hkind) :=
  [("rccsd_1rdm_ba", "rccsd_1rdm_ji", H1); ("rccsd_1rdm_ji", "rccsd_1rdm_ba", H1);
   ("rccsd_1rdm_ai", "rccsd_1rdm_ai", H1);
   ("rccsd_2rdm_cdab", "rccsd_2rdm_klij", H2); ("rccsd_2rdm_klij", "rccsd_2rdm_cdab", H2);
   ("rccsd_2rdm_abij", "rccsd_2rdm_abij", H2); ("rccsd_2rdm_bjai", "rccsd_2rdm_bjai", H2r);
   ("rccsd_2rdm_bjia", "rccsd_2rdm_bjia", H2);
   ("rccsd_2rdm_jkai", "rccsd_2rdm_ciab", H2r); ("rccsd_2rdm_ciab", "rccsd_2rdm_jkai", H2r);
   ("rccsd_2rdm_kaij", "rccsd_2rdm_bcai", H2); ("rccsd_2rdm_bcai", "rccsd_2rdm_kaij", H2)].

