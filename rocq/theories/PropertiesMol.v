(** From the integrals of a molecule to coupled cluster theory: final statements.
    Vocabulary: MolSpec.v and IntegralsSpec.v (integrals over molecular orbitals),
    CCFockSpec.v, UFockSpec.v, RFockSpec.v (Hamiltonians and the arguments of the
    coupled cluster functions), CISpec.v, CIExpSpec.v, CCSpec.v.  The model of
    integrals.py is IntegralsModel.v, in which PySCF's integral transformation is
    represented by its contract; that of ov_blocks.py is UtilsModel.v. *)
From Coq Require Import List String ZArith QArith Qcanon Lia.
From Verif Require Import Scalar Tensor PySyntax PySem CCProg CISpec CIExpSpec CCSpec CCFockSpec SpinSpec CCExamples CCFock CCSchr.
From Verif Require Import UFockSpec RFockSpec IntegralsModel IntegralsSpec UtilsModel MolSpec MolCC FockRef PropertiesCCSchr PropertiesCCFock.
From Verif Require PropertiesIntegrals.
Import ListNotations.
Local Open Scope string_scope.

(** C83: for a mean field with the occupation numbers occa, occb (in any order)
    and orbitals moa, mob, the object eri_blocks(mf) is the argument I of the
    coupled cluster functions for the integrals <pq||rs> over the spin orbitals
    in the order occupied alpha, occupied beta, virtual alpha, virtual beta. *)
Theorem C83_eri_blocks (K : cring) (m : mol K) mf occa occb moa mob :
  exchangeable m -> coeffs m moa (List.length occa) -> coeffs m mob (List.length occb) ->
  mf = Uscf K occa occb moa mob \/ (mf = Rscf K occa moa /\ occb = occa /\ mob = moa) ->
  let no := List.length (so_positions false occa occb) in
  let nv := List.length (so_positions true occa occb) in
  let x := ordered_so occa occb moa mob in
  let g := fun p q r s => phys_anti m (x p) (x q) (x r) (x s) in
  exists B I, eri_blocks K m mf 0 = Some B /\ eri_object B I /\
    antisym_ints (no + nv) g /\ blocks2 no nv g I.
Proof.
  intros X Ha Hb [-> | (-> & -> & ->)].
  - exact (eri_u K m X occa occb moa mob Ha Hb).
  - exact (eri_r K m X occa moa Ha).
Qed.
Print Assumptions C83_eri_blocks.

(** C83: with that object and the Fock matrix of the determinant |0> of the
    occupied orbitals, the residuals of ccsd_simple and ccsd_stanton vanish if and
    only if exp(T)|0> satisfies the projected Schroedinger equation of the
    molecule's electrons, H = sum <p|h|q> a+_p a_q + 1/4 sum <pq||rs> a+_p a+_q a_s a_r,
    with the energy of |0> plus cc_energy; the energy of |0> is
    sum <i|h|i> + 1/2 sum <ij||ij>. *)
Theorem C83_molecular_ccsd (K : cring) (m : mol K) mf occa occb moa mob hc F inv M T1 T2 f :
  exchangeable m -> coeffs m moa (List.length occa) -> coeffs m mob (List.length occb) ->
  mf = Uscf K occa occb moa mob \/ (mf = Rscf K occa moa /\ occb = occa /\ mob = moa) ->
  let no := List.length (so_positions false occa occb) in
  let nv := List.length (so_positions true occa occb) in
  let x := ordered_so occa occb moa mob in
  let h := fun p q => so_core m hc (x p) (x q) in
  let g := fun p q r s => phys_anti m (x p) (x q) (x r) (x s) in
  blocks1 no nv (fock no h g) F ->
  inverts inv M -> (nv < M)%nat -> t1_ok no nv T1 -> t2_ok no nv T2 ->
  f = "ccsd_simple" \/ f = "ccsd_stanton" ->
  let ref := aufbau (no + nv) no in
  let H := H_op (no + nv) h g in
  let Psi := opexp inv M (cluster no nv T1 T2) in
  let E0 := (sumN no (fun i => h i i) + chalf * sumN no (fun i => sumN no (fun j => g i j i j)))%K in
  exists B I e R1 R2,
    eri_blocks K m mf 0 = Some B /\ eri_object B I /\
    returns (K := K) "cc_energy" [arr T1; arr T2; arr (ov F); arr (oovv I)] (numv e) /\
    returns (K := K) f [py_one_e F; py_two_e I; arr T1; arr T2] (tup [arr R1; arr R2]) /\
    amp ref Psi ref = c1 /\ amp ref H ref = E0 /\
    (solved K no nv R1 R2 <->
     forall k t, (k <= 2)%nat -> excited k ref t ->
       amp t (opmul H Psi) ref = ((E0 + e) * amp t Psi ref)%K).
Proof.
  intros X Ha Hb Hmf no nv x h g BF HI HM H1 H2 Hf ref H Psi E0.
  destruct (C83_eri_blocks K m mf occa occb moa mob X Ha Hb Hmf) as (B & I & EB & OB & AG & BI).
  destruct (C54_projected_schroedinger_equation K no nv h g F I inv M T1 T2 f AG BF BI HI HM H1 H2 Hf)
    as (e & R1 & R2 & He & HR & N & Q).
  exists B, I, e, R1, R2. repeat (split; [assumption|]).
  rewrite <- (ref_hf K no nv h g F I AG BF BI : amp ref H ref = E0). split; [reflexivity|exact Q].
Qed.
Print Assumptions C83_molecular_ccsd.

(** C83: for orbitals moa, mob with the occupied ones first, get_phys followed by
    make_two_e_blocks and make_two_e_blocks_full gives the arguments of the
    unrestricted functions (C58, C65 - C67) for the molecule's Hamiltonian ... *)
Theorem C83_unrestricted (K : cring) (m : mol K) n noa nva nob nvb moa mob hc Fa Fb :
  exchangeable m -> coeffs m moa n -> coeffs m mob n -> (noa + nva = n)%nat -> (nob + nvb = n)%nat ->
  let ha p q := core m hc (column moa p) (column moa q) in
  let hb p q := core m hc (column mob p) (column mob q) in
  let Ia := space_ints m moa moa in let Ib := space_ints m mob mob in let Iab := space_ints m moa mob in
  blocks1 noa nva (fock_alpha noa nob ha Ia Iab) Fa -> blocks1 nob nvb (fock_beta noa nob hb Ib Iab) Fb ->
  exists xa xb xab ba bb bab Iaa Ibb J,
    get_phys K m moa moa moa moa true = Some xa /\ make_two_e_blocks xa noa nva noa nva noa nva noa nva = Some ba /\
    get_phys K m mob mob mob mob true = Some xb /\ make_two_e_blocks xb nob nvb nob nvb nob nvb nob nvb = Some bb /\
    get_phys K m moa mob moa mob false = Some xab /\
    make_two_e_blocks_full xab noa nva nob nvb noa nva nob nvb = Some bab /\
    blocks_object ba Iaa /\ blocks_object bb Ibb /\ full_object bab J /\
    u_hamiltonian n noa nva nob nvb ha hb Ia Ib Iab Fa Fb Iaa Ibb J.
Proof.
  intros X Ha Hb Na Nb ha hb Ia Ib Iab BFa BFb.
  destruct (nine_args K m moa n noa nva Ha Na) as (xa & ba & Iaa & E1 & E2 & E3 & E4).
  destruct (nine_args K m mob n nob nvb Hb Nb) as (xb & bb & Ibb & G1 & G2 & G3 & G4).
  destruct (full_args K m moa mob n n noa nva nob nvb Ha Hb Na Nb) as (xab & bab & J & L1 & L2 & L3 & L4).
  exists xa, xb, xab, ba, bb, bab, Iaa, Ibb, J. repeat (split; [assumption|]).
  exact (conj (space_pair K m X moa n) (conj (space_pair K m X mob n) (conj BFa (conj BFb (conj E4 (conj G4 L4)))))).
Qed.
Print Assumptions C83_unrestricted.

(** ... and, with equal orbitals for both spins, those of the restricted functions
    (C63, C68 - C70). *)
Theorem C83_restricted (K : cring) (m : mol K) n no nv mo hc F :
  exchangeable m -> coeffs m mo n -> (no + nv = n)%nat ->
  let h p q := core m hc (column mo p) (column mo q) in
  let I := space_ints m mo mo in
  blocks1 no nv (r_fock no h I) F ->
  exists x b J,
    get_phys K m mo mo mo mo false = Some x /\ make_two_e_blocks_full x no nv no nv no nv no nv = Some b /\
    full_object b J /\ r_hamiltonian n no nv h I F J.
Proof.
  intros X Ha Na h I BF.
  destruct (full_args K m mo mo n n no nv no nv Ha Ha Na Na) as (x & b & J & L1 & L2 & L3 & L4).
  exists x, b, J. repeat (split; [assumption|]).
  exact (conj (space_pair K m X mo n) (conj BF L4)).
Qed.
Print Assumptions C83_restricted.

(** A molecule with two atomic orbitals, one electron of each spin, the alpha
    electron in the second alpha orbital: the hypotheses hold, and a residual
    computed from its integrals is not zero. *)
Definition fock_blocks {K : cring} (no nv : nat) (f : nat -> nat -> K) : one_e K :=
  let b n1 n2 s1 s2 := mkT [n1; n2] (fun idx => match idx with [p; q] => f (s1 + p)%nat (s2 + q)%nat | _ => c0 end) in
  OneE K (b no no 0%nat 0%nat) (b no nv 0%nat no) (b nv no no 0%nat) (b nv nv no no).
Lemma fock_blocks_ok (K : cring) no nv (f : nat -> nat -> K) : blocks1 no nv f (fock_blocks no nv f).
Proof. repeat split. Qed.
Definition ex_hc (mu nu : nat) : QcK := zK (Z.of_nat (mu + nu + mu * nu)).
Definition ex_I : option (two_e QcK) :=
  match eri_blocks QcK PropertiesIntegrals.ex_mol
          (Uscf QcK [0; 1]%Z [1; 0]%Z (PropertiesIntegrals.ex_mo 1) (PropertiesIntegrals.ex_mo (-2))) 0%nat with
  | Some (EriB _ (Some a) (Some b) (Some c) (Some d) (Some e) (Some f) (Some g) (Some h) (Some i)) =>
      Some (TwoE QcK a b c d e f g h i)
  | _ => None
  end.
Example C83_example :
  let m := PropertiesIntegrals.ex_mol in
  let moa := PropertiesIntegrals.ex_mo 1 in let mob := PropertiesIntegrals.ex_mo (-2) in
  let occa := [0; 1]%Z in let occb := [1; 0]%Z in
  let x := ordered_so occa occb moa mob in
  let h := fun p q => so_core m ex_hc (x p) (x q) in
  let g := fun p q r s => phys_anti m (x p) (x q) (x r) (x s) in
  let F := fock_blocks 2 2 (fock 2 h g) in
  exchangeable m /\ coeffs m moa 2 /\ coeffs m mob 2 /\
  List.length (so_positions false occa occb) = 2%nat /\ List.length (so_positions true occa occb) = 2%nat /\
  map fst (map x [0; 1; 2; 3]%nat) = [false; true; false; true] /\
  blocks1 2 2 (fock 2 h g) F /\ inverts q_inv 4 /\
  t1_ok 2 2 (sampleT1 QcK 2 2) /\ t2_ok 2 2 (sampleT2 QcK 2 2) /\
  match ex_I with
  | Some J => sample_entry "ccsd_simple" [py_one_e F; py_two_e J; arr (tzeros QcK [2; 2]%nat); arr (tzeros QcK [2; 2; 2; 2]%nat)] 1 [0; 1; 0; 1]%nat
              = Some (559 # 6)%Q
  | None => False
  end.
Proof.
  destruct PropertiesIntegrals.ex_mol_ok as (A & B & C). destruct (sample_ok QcK 2 2) as (_ & _ & H3 & H4 & _).
  split; [exact A|]. split; [exact B|]. split; [exact C|]. split; [reflexivity|]. split; [reflexivity|]. split; [reflexivity|].
  split; [apply fock_blocks_ok|]. split; [exact (proj1 C50_example)|]. split; [exact H3|]. split; [exact H4|].
  vm_compute. reflexivity.
Qed.
(** The arguments of C83_unrestricted and C83_restricted exist for every molecule. *)
Example C83_arguments (K : cring) noa nob nva nvb no nv (ha hb : nat -> nat -> K) Ia Ib Iab :
  (exists Fa, blocks1 noa nva (fock_alpha noa nob ha Ia Iab) Fa) /\
  (exists Fb, blocks1 nob nvb (fock_beta noa nob hb Ib Iab) Fb) /\
  (exists F, blocks1 no nv (r_fock no ha Ia) F) /\
  exchangeable PropertiesIntegrals.ex_mol.
Proof.
  split; [eexists; apply fock_blocks_ok|]. split; [eexists; apply fock_blocks_ok|]. split; [eexists; apply fock_blocks_ok|].
  exact (proj1 PropertiesIntegrals.ex_mol_ok).
Qed.
