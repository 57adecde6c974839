(** Specification vocabulary for statements that compare runs of one function
    on related arguments: a change of the orbitals within the occupied and
    within the virtual space, two systems without interaction, a change of the
    unit of energy, a map between the scalars.  No reference to the program. *)
From Coq Require Import List Bool Arith String.
From Verif Require Import Scalar Tensor PySyntax PySem CCProg CCSpec CCShapes.
Import ListNotations.

(** Two values of shape [s] whose numbers are related by [N] and whose arrays
    are related by [A] (which is told the orbital spaces of the axes). *)
Section Related.
  Variables K1 K2 : cring.
  Variable N : K1 -> K2 -> Prop.
  Variable A : list space -> tensor K1 -> tensor K2 -> Prop.
  Fixpoint related (s : shape) (v : pyval K1) (w : pyval K2) {struct s} : Prop :=
    match s, v, w with
    | SNum, XNum x, XNum y => N x y
    | SArr l, XArr t, XArr u => A l t u
    | STup l, XTup vs, XTup ws =>
        (fix go (l : list shape) (vs : list (pyval K1)) (ws : list (pyval K2)) {struct l} : Prop :=
           match l, vs, ws with
           | [], [], [] => True
           | s :: l', v :: vs', w :: ws' => related s v w /\ go l' vs' ws'
           | _, _, _ => False
           end) l vs ws
    | SObj l, XObj vs, XObj ws =>
        (fix go (l : list (string * shape)) (vs : list (string * pyval K1)) (ws : list (string * pyval K2)) {struct l} : Prop :=
           match l, vs, ws with
           | [], [], [] => True
           | (x, s) :: l', (y, v) :: vs', (z, w) :: ws' => (x = y /\ x = z /\ related s v w) /\ go l' vs' ws'
           | _, _, _ => False
           end) l vs ws
    | _, _, _ => False
    end.
End Related.
Arguments related {K1 K2} N A s v w.

(** The same for three values over one ring. *)
Section Related3.
  Variable K : cring.
  Variable N : K -> K -> K -> Prop.
  Variable A : list space -> tensor K -> tensor K -> tensor K -> Prop.
  Fixpoint related3 (s : shape) (u v w : pyval K) {struct s} : Prop :=
    match s, u, v, w with
    | SNum, XNum x, XNum y, XNum z => N x y z
    | SArr l, XArr a, XArr b, XArr c => A l a b c
    | STup l, XTup us, XTup vs, XTup ws =>
        (fix go (l : list shape) (us vs ws : list (pyval K)) {struct l} : Prop :=
           match l, us, vs, ws with
           | [], [], [], [] => True
           | s :: l', u :: us', v :: vs', w :: ws' => related3 s u v w /\ go l' us' vs' ws'
           | _, _, _, _ => False
           end) l us vs ws
    | SObj l, XObj us, XObj vs, XObj ws =>
        (fix go (l : list (string * shape)) (us vs ws : list (string * pyval K)) {struct l} : Prop :=
           match l, us, vs, ws with
           | [], [], [], [] => True
           | (x, s) :: l', (x1, u) :: us', (x2, v) :: vs', (x3, w) :: ws' =>
               (x = x1 /\ x = x2 /\ x = x3 /\ related3 s u v w) /\ go l' us' vs' ws'
           | _, _, _, _ => False
           end) l us vs ws
    | _, _, _, _ => False
    end.
End Related3.
Arguments related3 {K} N A s u v w.

(** argument lists *)
Fixpoint related_args {K1 K2 : cring} (R : shape -> pyval K1 -> pyval K2 -> Prop)
    (l : list shape) (vs : list (pyval K1)) (ws : list (pyval K2)) : Prop :=
  match l, vs, ws with
  | [], [], [] => True
  | s :: l', v :: vs', w :: ws' => R s v w /\ related_args R l' vs' ws'
  | _, _, _ => False
  end.
Fixpoint related_args3 {K : cring} (R : shape -> pyval K -> pyval K -> pyval K -> Prop)
    (l : list shape) (us vs ws : list (pyval K)) : Prop :=
  match l, us, vs, ws with
  | [], [], [], [] => True
  | s :: l', u :: us', v :: vs', w :: ws' => R s u v w /\ related_args3 R l' us' vs' ws'
  | _, _, _, _ => False
  end.

Section Spec.
  Variable K : cring.
  Local Open Scope K_scope.

  (** *** Change of orbitals

      New orbitals phi'_i = sum_j phi_j U_ji in every orbital space, V the
      inverse of U. *)
  Definition inverse_of (n : space -> nat) (U V : space -> nat -> nat -> K) : Prop :=
    forall s i j, (i < n s)%nat -> (j < n s)%nat ->
      sumN (n s) (fun p => U s i p * V s p j) = (if Nat.eqb i j then 1 else 0).

  (** product over the axes: V_ij for the first [k] axes (creation side),
      U_ji for the others (annihilation side) *)
  Fixpoint mix (U V : space -> nat -> nat -> K) (k : nat) (l : list space) (idx jdx : list nat) : K :=
    match l, idx, jdx with
    | s :: l', i :: idx', j :: jdx' =>
        match k with
        | O => U s j i * mix U V O l' idx' jdx'
        | S k' => V s i j * mix U V k' l' idx' jdx'
        end
    | _, _, _ => 1
    end.

  (** [u] is the array [t] in the new orbitals *)
  Definition rotated_array (n : space -> nat) (U V : space -> nat -> nat -> K)
      (l : list space) (t u : tensor K) : Prop :=
    shp t = map n l /\ shp u = map n l /\
    forall idx, inrange (map n l) idx ->
      dat u idx = sumL (map n l) (fun jdx => mix U V (Nat.div2 (List.length l)) l idx jdx * dat t jdx).

  Definition rotated (n : space -> nat) (U V : space -> nat -> nat -> K) : shape -> pyval K -> pyval K -> Prop :=
    related eq (rotated_array n U V).

  (** *** Two systems without interaction

      The orbitals of every space of the combined system are those of the
      first system followed by those of the second. *)
  Definition both (nA nB : space -> nat) (s : space) : nat := (nA s + nB s)%nat.
  Definition shifted (nA : space -> nat) (l : list space) (idx : list nat) : list nat :=
    map (fun p => (nA (fst p) + snd p)%nat) (combine l idx).
  Definition dsum_array (nA nB : space -> nat) (l : list space) (a b t : tensor K) : Prop :=
    shp a = map nA l /\ shp b = map nB l /\ shp t = map (both nA nB) l /\
    (forall idx, inrange (map nA l) idx -> dat t idx = dat a idx) /\
    (forall idx, inrange (map nB l) idx -> dat t (shifted nA l idx) = dat b idx) /\
    (forall idx, inrange (map (both nA nB) l) idx ->
       ~ Forall2 (fun i s => i < nA s)%nat idx l -> ~ Forall2 (fun i s => nA s <= i)%nat idx l ->
       dat t idx = 0).
  (** arguments: the arrays are direct sums, a number is passed to all three
      calls; results: the arrays are direct sums, the numbers add up *)
  Definition noninteracting (nA nB : space -> nat) : shape -> pyval K -> pyval K -> pyval K -> Prop :=
    related3 (fun x y z => x = z /\ y = z) (dsum_array nA nB).
  Definition additive (nA nB : space -> nat) : shape -> pyval K -> pyval K -> pyval K -> Prop :=
    related3 (fun x y z => x + y = z) (dsum_array nA nB).

  (** *** Linear combinations

      [w] is [c] times [u] plus [d] times [v]. *)
  Definition combined_array (n : space -> nat) (c d : K) (l : list space) (a b t : tensor K) : Prop :=
    shp a = map n l /\ shp b = map n l /\ shp t = map n l /\
    forall idx, inrange (map n l) idx -> dat t idx = c * dat a idx + d * dat b idx.
  Definition combined (n : space -> nat) (c d : K) : shape -> pyval K -> pyval K -> pyval K -> Prop :=
    related3 (fun x y z => z = c * x + d * y) (combined_array n c d).
  (** three values that agree *)
  Definition same_array (n : space -> nat) (l : list space) (a b t : tensor K) : Prop :=
    shp a = map n l /\ shp b = map n l /\ shp t = map n l /\
    forall idx, inrange (map n l) idx -> dat a idx = dat t idx /\ dat b idx = dat t idx.
  Definition same (n : space -> nat) : shape -> pyval K -> pyval K -> pyval K -> Prop :=
    related3 (fun x y z => x = z /\ y = z) (same_array n).
  (** the marked arguments are combined, the others agree *)
  Fixpoint combined_args (n : space -> nat) (c d : K) (hs : list bool) (l : list shape)
      (us vs ws : list (pyval K)) : Prop :=
    match hs, l, us, vs, ws with
    | [], [], [], [], [] => True
    | h :: hs', s :: l', u :: us', v :: vs', w :: ws' =>
        (if h then combined n c d s u v w else same n s u v w) /\ combined_args n c d hs' l' us' vs' ws'
    | _, _, _, _, _ => False
    end.
End Spec.
Arguments inverse_of {K} n U V.
Arguments mix {K} U V k l idx jdx.
Arguments rotated_array {K} n U V l t u.
Arguments rotated {K} n U V s v w.
Arguments dsum_array {K} nA nB l a b t.
Arguments noninteracting {K} nA nB s u v w.
Arguments additive {K} nA nB s u v w.
Arguments combined_array {K} n c d l a b t.
Arguments combined {K} n c d s u v w.
Arguments same_array {K} n l a b t.
Arguments same {K} n s u v w.
Arguments combined_args {K} n c d hs l us vs ws.

(** *** Maps between scalars that respect the arithmetic, for example complex
    conjugation or the embedding of the rational into the real numbers *)
Definition ring_map {K1 K2 : cring} (h : K1 -> K2) : Prop :=
  h c1 = c1 /\ (forall x y, h (cadd x y) = cadd (h x) (h y)) /\ (forall x y, h (cmul x y) = cmul (h x) (h y)).
Definition mapped_array {K1 K2 : cring} (n : space -> nat) (h : K1 -> K2) (l : list space)
    (t : tensor K1) (u : tensor K2) : Prop :=
  shp t = map n l /\ shp u = map n l /\ forall idx, inrange (map n l) idx -> dat u idx = h (dat t idx).
Definition mapped {K1 K2 : cring} (n : space -> nat) (h : K1 -> K2) : shape -> pyval K1 -> pyval K2 -> Prop :=
  related (fun x y => y = h x) (mapped_array n h).

(** *** Exchange of alpha and beta spin *)

(** the two electrons of a four-index array exchanged: t[q, p, s, r] for t[p, q, r, s] *)
Definition swap_axes {A} (l : list A) : list A :=
  match l with [p; q; r; s] => [q; p; s; r] | _ => l end.
Definition turn_array {K : cring} (t : tensor K) : tensor K :=
  mkT (swap_axes (shp t)) (fun idx => dat t (swap_axes idx)).
Definition pair_symmetric {K : cring} (v : pyval K) : Prop :=
  match v with XArr t => teq (turn_array t) t | _ => False end.
(** block names: "vovv" becomes "ovvv" *)
Definition swap_name (s : string) : string :=
  string_of_list_ascii (swap_axes (list_ascii_of_string s)).

(** A value with alpha and beta exchanged: unchanged; with the electrons of
    every array exchanged; or a tuple whose components are components of the
    original tuple. *)
Inductive plan : Type := Keep | Turn | Parts (l : list (nat * plan)).

Section Rearrange.
  Context {A : alg} (tr : PySem.arr A -> PySem.arr A).
  Definition turn_arr (v : xval A) : xval A := match v with XArr t => @XArr A (tr t) | _ => v end.
  Definition field (fs : list (string * xval A)) (x : string) : xval A :=
    match find (fun p => String.eqb x (fst p)) fs with Some p => snd p | None => @XTup A [] end.
  Definition turn_value (v : xval A) : xval A :=
    match v with
    | XObj fs => @XObj A (map (fun p => (fst p, turn_arr (field fs (swap_name (fst p))))) fs)
    | _ => turn_arr v
    end.
  Fixpoint rearrange (p : plan) (v : xval A) {struct p} : xval A :=
    match p with
    | Keep => v
    | Turn => turn_value v
    | Parts l =>
        match v with
        | XTup vs => @XTup A (map (fun q => rearrange (snd q) (nth (fst q) vs (@XTup A []))) l)
        | _ => v
        end
    end.
  Definition rearrange_args (l : list (nat * plan)) (vs : list (xval A)) : list (xval A) :=
    map (fun q => rearrange (snd q) (nth (fst q) vs (@XTup A []))) l.
End Rearrange.

Section Plans.
  Local Open Scope string_scope.
  (** (alpha, beta); (alpha-alpha, alpha-beta, beta-beta); and the orders in
      which the density functions return their blocks *)
  Definition two := Parts [(1, Keep); (0, Keep)].
  Definition three := Parts [(2, Keep); (1, Turn); (0, Keep)].
  Definition aa_bb_ab := Parts [(1, Keep); (0, Keep); (2, Turn)].
  Definition aa_bb_ab_ba := Parts [(1, Keep); (0, Keep); (3, Keep); (2, Keep)].
  Definition six_blocks := Parts [(1, Keep); (0, Keep); (5, Keep); (4, Keep); (3, Keep); (2, Keep)].
  Definition ham_plan := [(1, Keep); (0, Keep); (3, Keep); (2, Keep); (4, Turn)].
  Definition dens_plan :=
    [(1, Keep); (0, Keep); (4, Keep); (3, Turn); (2, Keep); (6, Keep); (5, Keep); (9, Keep); (8, Turn); (7, Keep)].
  Definition energy_plan :=
    [(0, two); (1, three); (3, Keep); (2, Keep); (5, Keep); (4, Keep); (6, Turn)].
  (** function, arguments, result; [true] if the same-spin doubles must be
      symmetric under exchange of the two electrons *)
  Definition spin_flips : list (string * list (nat * plan) * plan * bool) :=
    [ ("uccsd_stanton", (ham_plan ++ [(5, two); (6, three)])%list, Parts [(0, two); (1, three)], true);
      ("uccsd_lambda_opt", (ham_plan ++ [(5, two); (6, three); (7, two); (8, three)])%list,
         Parts [(0, two); (1, three)], true);
      ("uccsd_1rdm_ba", dens_plan, two, false);
      ("uccsd_1rdm_ji", dens_plan, two, false);
      ("uccsd_1rdm_ai", dens_plan, two, false);
      ("uccsd_1rdm_ai", (dens_plan ++ [(10, Keep)])%list, two, false);
      ("uccsd_2rdm_ciab", dens_plan, aa_bb_ab_ba, false);
      ("uccsd_2rdm_jkai", dens_plan, aa_bb_ab_ba, false);
      ("uccsd_2rdm_bcai", dens_plan, aa_bb_ab_ba, false);
      ("uccsd_2rdm_kaij", dens_plan, aa_bb_ab_ba, false);
      ("uccsd_2rdm_cdab", dens_plan, aa_bb_ab, false);
      ("uccsd_2rdm_klij", dens_plan, aa_bb_ab, false);
      ("uccsd_2rdm_abij", dens_plan, aa_bb_ab, false);
      ("uccsd_2rdm_abij", (dens_plan ++ [(10, Keep)])%list, aa_bb_ab, false);
      ("uccsd_2rdm_bjai", dens_plan, six_blocks, false);
      ("ucc_energy", energy_plan, Keep, false);
      ("ump2_energy", energy_plan, Keep, false) ].
End Plans.

(** a value all of whose numbers and array entries are zero *)
Fixpoint vanishes {K : cring} (v : pyval K) {struct v} : Prop :=
  match v with
  | XNum x => x = c0
  | XArr t => forall idx, inrange (shp t) idx -> dat t idx = c0
  | XTup vs => (fix go (vs : list (pyval K)) : Prop :=
      match vs with [] => True | v :: vs' => vanishes v /\ go vs' end) vs
  | XObj fs => (fix go (fs : list (string * pyval K)) : Prop :=
      match fs with [] => True | (_, v) :: fs' => vanishes v /\ go fs' end) fs
  end.

(** *** Lists of functions *)
Section Lists.
  Local Open Scope string_scope.
  (** these take or return partly summed intermediates *)
  Definition intermediate_functions : list string := ["lambda_int"; "ccsd_lambda_opt_int"].
  (** these contain products of quantities of the two systems: the Lambda
      equations with singles and the two-particle densities with an
      unconnected part *)
  Definition unlinked_functions : list string :=
    ["ccsd_lambda_opt"; "ccsd_lambda_opt_int"; "ccsd_lambda_stanton"; "ccsd_lambda_simple";
     "uccsd_lambda_opt"; "rccsd_lambda_opt";
     "ccsd_2rdm_bcai"; "ccsd_2rdm_bjai"; "ccsd_2rdm_abij"; "ccsd_2rdm_kaij";
     "ccsd_2rdm_bcai_opt"; "ccsd_2rdm_bjai_opt"; "ccsd_2rdm_abij_opt"; "ccsd_2rdm_kaij_opt";
     "uccsd_2rdm_bcai"; "uccsd_2rdm_bjai"; "uccsd_2rdm_abij"; "uccsd_2rdm_kaij";
     "rccsd_2rdm_bcai"; "rccsd_2rdm_bjai"; "rccsd_2rdm_bjia"; "rccsd_2rdm_abij"; "rccsd_2rdm_kaij"].

  Local Notation h := true (only parsing).
  Local Notation x := false (only parsing).
  (** [h]: an argument that is (part of) the Hamiltonian *)
  Definition hamiltonian_arguments : list (string * list bool) :=
    [ ("lccd_simple", [h; h; x]); ("lccsd_simple", [h; h; x; x]); ("ccd_simple", [h; h; x]);
      ("ccd_ladder_simple", [h; x]); ("ccd_ring_simple", [h; x]);
      ("ccsd_simple", [h; h; x; x]); ("ccsd_stanton", [h; h; x; x]);
      ("uccsd_stanton", [h; h; h; h; h; x; x]); ("rccsd_stanton", [h; h; x; x]); ("ccd_stanton", [h; h; x]);
      ("ccd_lambda_simple", [h; h; x; x]); ("ccsd_lambda_opt", [h; h; x; x; x; x]);
      ("lambda_int", [h; h; x; x]); ("ccsd_lambda_opt_int", [h; h; x; x; x; x; h]);
      ("ccsd_lambda_stanton", [h; h; x; x; x; x]); ("ccsd_lambda_simple", [h; h; x; x; x; x]);
      ("uccsd_lambda_opt", [h; h; h; h; h; x; x; x; x]); ("rccsd_lambda_opt", [h; h; x; x; x; x]);
      ("cc_energy_d", [x; h]); ("cc_energy_s1", [x; h]); ("cc_energy_s2", [x; h]); ("cc_energy_s2_a", [x; x; h]);
      ("cc_energy", [x; x; h; h]); ("mp2_energy", [x; x; h; h]); ("rcc_energy", [x; x; h; h]);
      ("ucc_energy", [x; x; h; h; h; h; h]); ("ump2_energy", [x; x; h; h; h; h; h]) ].
  (** [h]: a Lambda argument; the functions of Lambda without a term free of Lambda *)
  Definition rdm_marks := [x; x; h; h].
  Definition urdm_marks := [x; x; x; x; x; h; h; h; h; h].
  Definition lambda_linear : list (string * list bool) :=
    map (fun f => (f, rdm_marks))
      ["ccsd_1rdm_ba"; "ccsd_1rdm_ji"; "ccsd_2rdm_cdab"; "ccsd_2rdm_ciab"; "ccsd_2rdm_bcai"; "ccsd_2rdm_bjai";
       "ccsd_2rdm_jkai"; "ccsd_2rdm_kaij"; "ccsd_2rdm_klij"; "ccsd_1rdm_ba_opt"; "ccsd_1rdm_ji_opt";
       "ccsd_2rdm_ciab_opt"; "ccsd_2rdm_jkai_opt"; "ccsd_2rdm_cdab_opt"; "ccsd_2rdm_bcai_opt";
       "ccsd_2rdm_bjai_opt"; "ccsd_2rdm_kaij_opt"; "ccsd_2rdm_klij_opt"; "rccsd_1rdm_ba"; "rccsd_1rdm_ji";
       "rccsd_2rdm_ciab"; "rccsd_2rdm_jkai"; "rccsd_2rdm_cdab"; "rccsd_2rdm_bjai"; "rccsd_2rdm_bjia";
       "rccsd_2rdm_klij"; "rccsd_2rdm_bcai"; "rccsd_2rdm_kaij"] ++
    map (fun f => (f, urdm_marks))
      ["uccsd_1rdm_ba"; "uccsd_1rdm_ji"; "uccsd_2rdm_ciab"; "uccsd_2rdm_jkai"; "uccsd_2rdm_cdab";
       "uccsd_2rdm_bjai"; "uccsd_2rdm_klij"; "uccsd_2rdm_bcai"; "uccsd_2rdm_kaij"].
  (** the functions of Lambda with such a term *)
  Definition lambda_affine : list (string * list bool) :=
    [ ("ccd_lambda_simple", [x; x; h; x]); ("ccsd_lambda_opt", [x; x; h; h; x; x]);
      ("ccsd_lambda_opt_int", [x; x; h; h; x; x; x]); ("ccsd_lambda_stanton", [x; x; h; h; x; x]);
      ("ccsd_lambda_simple", [x; x; h; h; x; x]); ("uccsd_lambda_opt", [x; x; x; x; x; h; h; x; x]);
      ("rccsd_lambda_opt", [x; x; h; h; x; x]);
      ("ccsd_1rdm_ai", rdm_marks); ("ccsd_1rdm_ai", (rdm_marks ++ [x])%list);
      ("ccsd_1rdm_ai_opt", rdm_marks); ("ccsd_1rdm_ai_opt", (rdm_marks ++ [x])%list);
      ("ccsd_2rdm_abij", rdm_marks); ("ccsd_2rdm_abij", (rdm_marks ++ [x])%list);
      ("ccsd_2rdm_abij_opt", rdm_marks); ("ccsd_2rdm_abij_opt", (rdm_marks ++ [x])%list);
      ("rccsd_1rdm_ai", rdm_marks); ("rccsd_1rdm_ai", (rdm_marks ++ [x])%list); ("rccsd_2rdm_abij", rdm_marks);
      ("uccsd_1rdm_ai", urdm_marks); ("uccsd_1rdm_ai", (urdm_marks ++ [x])%list);
      ("uccsd_2rdm_abij", urdm_marks); ("uccsd_2rdm_abij", (urdm_marks ++ [x])%list) ].
  (** [h]: an amplitude argument of a linearised method *)
  Definition amplitude_affine : list (string * list bool) :=
    [ ("lccd_simple", [x; x; h]); ("lccsd_simple", [x; x; h; h]) ].
End Lists.
