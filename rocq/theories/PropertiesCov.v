(** How the public functions of cc_equations.py and cc_energy.py respond to a
    change of their arguments: final statements.  The vocabulary is CCShapes.v
    (functions, shapes of arguments and results) and CovSpec.v. *)
From Coq Require Import List Bool Arith String ZArith QArith Qcanon Lia Ring.
From Verif Require Import Scalar Tensor PySyntax PySem CCProg CCSpec CCExamples CCShapes SpinSpec SpinExamples
  CCEquiv CovSpec Lin CovThm.
Import ListNotations.
Local Open Scope nat_scope.

(** membership in a table *)
Ltac find_in := match goal with |- In _ ?l => let l' := eval hnf in l in change l with l'; repeat first [left; reflexivity | right] end.

(** C71: new occupied and new virtual orbitals.  Every public function that
    does not pass intermediates around, called with the arguments written in
    new orbitals (any invertible matrix per orbital space), returns the old
    result written in the new orbitals. *)
Theorem C71_orbital_change (K : cring) (n : space -> nat) (U V : space -> nat -> nat -> K) f a r vs ws :
  inverse_of n U V -> In (f, a, r) public_functions -> ~ In f intermediate_functions ->
  related_args (rotated n U V) a vs ws ->
  exists v w, returns f vs v /\ returns f ws w /\ rotated n U V r v w.
Proof. exact (rot_thm K n U V f a r vs ws). Qed.
Print Assumptions C71_orbital_change.

(** energies do not depend on the choice of orbitals *)
Theorem C71_energy_invariant (K : cring) (n : space -> nat) (U V : space -> nat -> nat -> K) f a vs ws e :
  inverse_of n U V -> In (f, a, SNum) public_functions ->
  related_args (rotated n U V) a vs ws ->
  returns f vs (numv e) -> returns f ws (numv e).
Proof.
  intros UV Hf HR He.
  assert (NI : ~ In f intermediate_functions).
  { intros Hi. assert (Z : forallb (fun e => let '(g, _, s) := e in
      match s with SNum => negb (existsb (String.eqb g) intermediate_functions) | _ => true end) public_functions = true) by (vm_compute; reflexivity).
    rewrite forallb_forall in Z. specialize (Z _ Hf). cbn beta iota in Z. apply negb_true_iff in Z.
    assert (Y : existsb (String.eqb f) intermediate_functions = true) by (apply existsb_exists; exists f; split; [exact Hi|apply String.eqb_refl]).
    congruence. }
  destruct (rot_thm K n U V f a SNum vs ws UV Hf NI HR) as (v & w & Rv & Rw & H).
  rewrite <- (returns_fun _ _ _ _ _ He Rv) in H. destruct w as [y| | |]; try contradiction. cbn in H. subst y. exact Rw.
Qed.
Print Assumptions C71_energy_invariant.

(** amplitudes that solve the equations still do in the new orbitals *)
Theorem C71_solutions (K : cring) (n : space -> nat) (U V : space -> nat -> nat -> K) f a r vs ws v :
  inverse_of n U V -> In (f, a, r) public_functions -> ~ In f intermediate_functions ->
  related_args (rotated n U V) a vs ws -> returns f vs v -> vanishes v ->
  exists w, returns f ws w /\ vanishes w.
Proof.
  intros UV Hf NI HR Hv Z. destruct (rot_thm K n U V f a r vs ws UV Hf NI HR) as (v' & w & Rv & Rw & H).
  rewrite <- (returns_fun _ _ _ _ _ Hv Rv) in H. exists w. split; [exact Rw|]. eapply rotated_vanishes; eauto.
Qed.
Print Assumptions C71_solutions.

(** all arguments can be written in new orbitals *)
Theorem C71_arguments_exist (K : cring) (n : space -> nat) (U V : space -> nat -> nat -> K) a vs :
  Forall2 (fits n) vs a -> exists ws, related_args (rotated n U V) a vs ws.
Proof. exact (rotated_args_exist n U V a vs). Qed.
Print Assumptions C71_arguments_exist.

(** two occupied and two virtual orbitals, a shear of both *)
Definition ex_n (s : space) : nat := 2.
Definition exU (s : space) (i j : nat) : QcK :=
  match i, j with 0, 0 => Q2Qc 1 | 0, 1 => Q2Qc 3 | 1, 1 => Q2Qc 1 | _, _ => Q2Qc 0 end.
Definition exV (s : space) (i j : nat) : QcK :=
  match i, j with 0, 0 => Q2Qc 1 | 0, 1 => Q2Qc (-3) | 1, 1 => Q2Qc 1 | _, _ => Q2Qc 0 end.
Definition ex_args : list (pyval QcK) :=
  [arr (sampleT1 QcK 2 2); arr (sampleT2 QcK 2 2); arr (ov (sampleF QcK 2 2)); arr (oovv (sampleI QcK 2 2))].
Definition ex_args' : list (pyval QcK) :=
  [arr (rotate ex_n exU exV [sv; so] (sampleT1 QcK 2 2)); arr (rotate ex_n exU exV [sv; sv; so; so] (sampleT2 QcK 2 2));
   arr (rotate ex_n exU exV [so; sv] (ov (sampleF QcK 2 2))); arr (rotate ex_n exU exV [so; so; sv; sv] (oovv (sampleI QcK 2 2)))].
Definition ex_number (f : string) (args : list (pyval QcK)) : option Q :=
  match pycall (conc_alg QcK) cc_prog f args with Ok (XNum q, _) => Some (this q) | _ => None end.
Example C71_example :
  inverse_of ex_n exU exV /\
  related_args (rotated ex_n exU exV) [T1_; T2_; SArr [so; sv]; SArr [so; so; sv; sv]] ex_args ex_args' /\
  In ("cc_energy"%string, [T1_; T2_; SArr [so; sv]; SArr [so; so; sv; sv]], SNum) public_functions /\
  ex_number "cc_energy" ex_args = Some 1093%Q /\
  ex_number "cc_energy" ex_args' = Some 1093%Q /\
  this (dat (rotate ex_n exU exV [sv; so] (sampleT1 QcK 2 2)) [0; 1]) <> this (dat (sampleT1 QcK 2 2) [0; 1]).
Proof.
  split; [|split].
  - intros s i j Hi Hj. unfold ex_n in *. destruct i as [|[|]], j as [|[|]]; try lia; vm_compute; reflexivity.
  - repeat split; intros; reflexivity.
  - split; [find_in|]. split; [vm_compute; reflexivity|]. split; [vm_compute; reflexivity|].
    vm_compute. discriminate.
Qed.

(** C72: two systems without interaction.  Energies add up; residuals and
    densities (without an unconnected part) are direct sums. *)
Theorem C72_size_consistency (K : cring) (nA nB : space -> nat) f a r (us vs ws : list (pyval K)) :
  In (f, a, r) public_functions -> ~ In f unlinked_functions ->
  related_args3 (noninteracting nA nB) a us vs ws ->
  exists u v w, returns f us u /\ returns f vs v /\ returns f ws w /\ additive nA nB r u v w.
Proof. exact (size_thm K nA nB f a r us vs ws). Qed.
Print Assumptions C72_size_consistency.

Theorem C72_energies_add (K : cring) (nA nB : space -> nat) f a (us vs ws : list (pyval K)) x y :
  In (f, a, SNum) public_functions -> related_args3 (noninteracting nA nB) a us vs ws ->
  returns f us (numv x) -> returns f vs (numv y) -> returns f ws (numv (cadd x y)).
Proof.
  intros Hf HR Hx Hy.
  assert (NI : ~ In f unlinked_functions).
  { intros Hi. assert (Z : forallb (fun e => let '(g, _, s) := e in
      match s with SNum => negb (existsb (String.eqb g) unlinked_functions) | _ => true end) public_functions = true) by (vm_compute; reflexivity).
    rewrite forallb_forall in Z. specialize (Z _ Hf). cbn beta iota in Z. apply negb_true_iff in Z.
    assert (Y : existsb (String.eqb f) unlinked_functions = true) by (apply existsb_exists; exists f; split; [exact Hi|apply String.eqb_refl]).
    congruence. }
  destruct (size_thm K nA nB f a SNum us vs ws Hf NI HR) as (u & v & w & Ru & Rv & Rw & H).
  rewrite <- (returns_fun _ _ _ _ _ Hx Ru), <- (returns_fun _ _ _ _ _ Hy Rv) in H.
  destruct w as [z| | |]; try contradiction. cbn in H. rewrite H. exact Rw.
Qed.
Print Assumptions C72_energies_add.

(** solutions for the two systems together solve the equations of the whole *)
Theorem C72_solutions (K : cring) (nA nB : space -> nat) f a r (us vs ws : list (pyval K)) u v :
  In (f, a, r) public_functions -> ~ In f unlinked_functions ->
  related_args3 (noninteracting nA nB) a us vs ws ->
  returns f us u -> returns f vs v -> vanishes u -> vanishes v ->
  exists w, returns f ws w /\ vanishes w.
Proof.
  intros Hf NI HR Hu Hv Zu Zv. destruct (size_thm K nA nB f a r us vs ws Hf NI HR) as (u' & v' & w & Ru & Rv & Rw & H).
  rewrite <- (returns_fun _ _ _ _ _ Hu Ru), <- (returns_fun _ _ _ _ _ Hv Rv) in H.
  exists w. split; [exact Rw|]. eapply additive_vanishes; eauto.
Qed.
Print Assumptions C72_solutions.

Definition ex_A (s : space) : nat := 1.
Definition ex_B (s : space) : nat := match s with so | sO => 1 | _ => 2 end.
Definition ex_whole : list (pyval QcK) :=
  [arr (dsum QcK ex_A ex_B [sv; so] (sampleT1 QcK 1 1) (sampleT1 QcK 1 2)); arr (dsum QcK ex_A ex_B [so; sv] (ov (sampleF QcK 1 1)) (ov (sampleF QcK 1 2)))].
Example C72_example :
  related_args3 (noninteracting ex_A ex_B) [T1_; SArr [so; sv]]
    [arr (sampleT1 QcK 1 1); arr (ov (sampleF QcK 1 1))] [arr (sampleT1 QcK 1 2); arr (ov (sampleF QcK 1 2))] ex_whole /\
  In ("cc_energy_s1"%string, [T1_; SArr [so; sv]], SNum) public_functions /\
  ex_number "cc_energy_s1" [arr (sampleT1 QcK 1 1); arr (ov (sampleF QcK 1 1))] = Some 108%Q /\
  ex_number "cc_energy_s1" [arr (sampleT1 QcK 1 2); arr (ov (sampleF QcK 1 2))] = Some 300%Q /\
  ex_number "cc_energy_s1" ex_whole = Some 408%Q.
Proof.
  split; [|split; [|split; [|split]]].
  - split; [|split; [|exact I]]; apply dsum_ok; try reflexivity; discriminate.
  - find_in.
  - vm_compute. reflexivity.
  - vm_compute. reflexivity.
  - vm_compute. reflexivity.
Qed.

(** C73: residuals, Lambda residuals and energies are linear in the
    Hamiltonian (so a change of the unit of energy scales them). *)
Theorem C73_linear_in_hamiltonian (K : cring) n (c d : K) f hs a r us vs ws :
  In (f, hs) hamiltonian_arguments -> In (f, a, r) public_functions ->
  combined_args n c d hs a us vs ws ->
  exists u v w, returns f us u /\ returns f vs v /\ returns f ws w /\ combined n c d r u v w.
Proof. exact (lin_thm K hamiltonian_arguments n c d f hs a r us vs ws ham_all). Qed.
Print Assumptions C73_linear_in_hamiltonian.

Definition ex_comb (c d : QcK) (t u : tensor QcK) : tensor QcK :=
  mkT (shp t) (fun idx => (c * dat t idx + d * dat u idx)%K).
Definition ex_H : list (pyval QcK) := [arr (sampleT1 QcK 2 2); arr (ov (sampleF QcK 2 2))].
Definition ex_H' : list (pyval QcK) := [arr (sampleT1 QcK 2 2); arr (sampleL1 QcK 2 2)].
Definition ex_H'' : list (pyval QcK) :=
  [arr (sampleT1 QcK 2 2); arr (ex_comb (Q2Qc 2) (Q2Qc (-1)) (ov (sampleF QcK 2 2)) (sampleL1 QcK 2 2))].
Example C73_example :
  In ("cc_energy_s1"%string, [false; true]) hamiltonian_arguments /\
  combined_args ex_n (Q2Qc 2 : QcK) (Q2Qc (-1) : QcK) [false; true] [T1_; SArr [so; sv]] ex_H ex_H' ex_H'' /\
  ex_number "cc_energy_s1" ex_H = Some 978%Q /\
  ex_number "cc_energy_s1" ex_H' = Some 3174%Q /\
  ex_number "cc_energy_s1" ex_H'' = Some (-1218)%Q.
Proof.
  split; [find_in|]. split.
  - repeat split; intros; reflexivity.
  - repeat split; vm_compute; reflexivity.
Qed.

(** C74: alpha and beta exchanged in the arguments of an unrestricted
    function (occupations may differ): alpha and beta are exchanged in the
    result. *)
Theorem C74_spin_flip (K : cring) n f ap rp b a r (vs : list (pyval K)) :
  In (f, ap, rp, b) spin_flips -> In (f, a, r) public_functions -> List.length ap = List.length a ->
  Forall2 (fits n) vs a ->
  (b = true -> forall x y z, In (XTup [x; y; z]) vs -> pair_symmetric x /\ pair_symmetric z) ->
  exists v w, returns f vs v /\ returns f (rearrange_args (A:=conc_alg K) turn_array ap vs) w /\
    xeq (rearrange (A:=conc_alg K) turn_array rp v) w.
Proof. exact (flip_thm K n f ap rp b a r vs). Qed.
Print Assumptions C74_spin_flip.

Notation fFa := (sampleF QcK 1 2). Notation fFb := (sampleF QcK 2 1).
Notation fIa := (sampleI QcK 1 2). Notation fIb := (sampleI QcK 2 1).
Notation fJ := (sampleJ QcK 1 2 2 1).
Definition ex_spin (s : space) : nat := match s with so | sV => 1 | sv | sO => 2 end.
Definition ex_u : list (pyval QcK) :=
  [py_one_e fFa; py_one_e fFb; py_two_e fIa; py_two_e fIb; py_two_e_full fJ;
   tup [arr (sampleT1 QcK 1 2); arr (sampleT1 QcK 2 1)];
   tup [arr (sampleT2 QcK 1 2); arr (sampleT2ab QcK 1 2 2 1); arr (sampleT2 QcK 2 1)]].
Definition ex_entry2 (f : string) (args : list (pyval QcK)) (k j : nat) (idx : list nat) : option Q :=
  match pycall (conc_alg QcK) cc_prog f args with
  | Ok (XTup l, _) => match nth_error l k with Some r => entry r j idx | None => None end
  | _ => None
  end.
Lemma ex_pair a b : pair_symmetric (arr (sampleT2 QcK a b)).
Proof.
  split; [reflexivity|]. intros idx H. apply SymSound.inrange_length in H. cbn in H.
  destruct idx as [|i [|j [|k [|l [|]]]]]; try discriminate. cbn. f_equal. unfold a_both. ring.
Qed.
Example C74_example :
  In ("uccsd_stanton"%string, (ham_plan ++ [(5, two); (6, three)])%list, Parts [(0, two); (1, three)], true) spin_flips /\
  In ("uccsd_stanton"%string, [F_; Fb_; I_; Ib_; Iab_; uT1; uT2], STup [uT1; uT2]) public_functions /\
  Forall2 (fits ex_spin) ex_u [F_; Fb_; I_; Ib_; Iab_; uT1; uT2] /\
  (forall x y z, In (XTup [x; y; z]) ex_u -> pair_symmetric x /\ pair_symmetric z) /\
  ex_entry2 "uccsd_stanton" ex_u 1 1 [1; 0; 0; 1] = Some 5203742%Q /\
  ex_entry2 "uccsd_stanton" (rearrange_args (A:=conc_alg QcK) turn_array (ham_plan ++ [(5, two); (6, three)])%list ex_u)
    1 1 [0; 1; 1; 0] = Some 5203742%Q.
Proof.
  split; [find_in|]. split; [find_in|]. split; [|split; [|split]].
  - repeat (constructor; try reflexivity).
  - intros x y z H. unfold ex_u in H. cbn [In] in H.
    repeat (destruct H as [H|H]; [try discriminate H|]); try contradiction.
    unfold tup in H. injection H as <- <- <-. split; apply ex_pair.
  - vm_compute. reflexivity.
  - vm_compute. reflexivity.
Qed.

(** C75: a map of the scalars that respects the arithmetic commutes with every
    public function. *)
Theorem C75_scalar_map (K1 K2 : cring) (h : K1 -> K2) n f a r vs ws :
  ring_map h -> In (f, a, r) public_functions -> related_args (mapped n h) a vs ws ->
  exists v w, returns f vs v /\ returns f ws w /\ mapped n h r v w.
Proof. exact (map_thm K1 K2 h n f a r vs ws). Qed.
Print Assumptions C75_scalar_map.

(** real arguments give real results *)
Theorem C75_fixed_scalars (K : cring) (h : K -> K) n f a r vs v :
  ring_map h -> In (f, a, r) public_functions -> related_args (mapped n h) a vs vs ->
  returns f vs v -> mapped n h r v v.
Proof.
  intros Hh Hf HR Hv. destruct (map_thm K K h n f a r vs vs Hh Hf HR) as (v1 & v2 & R1 & R2 & H).
  rewrite <- (returns_fun _ _ _ _ _ Hv R1), <- (returns_fun _ _ _ _ _ Hv R2) in H. exact H.
Qed.
Print Assumptions C75_fixed_scalars.

Section Maps.
  Variable K : cring.
  Add Ring Kr_pc : (c_th K).
  Definition conj (x : CplxK K) : CplxK K := (fst x, copp (snd x)).
  Lemma conj_map : ring_map conj.
  Proof.
    split; [|split].
    - unfold conj. simpl. f_equal. ring.
    - intros [a b] [c d]. unfold conj. simpl. f_equal. ring.
    - intros [a b] [c d]. unfold conj. simpl. unfold cplx_mul. simpl. f_equal; ring.
  Qed.
  (** the value of a number with a derivative *)
  Definition value (x : DualK K) : K := fst x.
  Lemma value_map : ring_map value.
  Proof.
    split; [reflexivity|split].
    - intros [a b] [c d]. reflexivity.
    - intros [a b] [c d]. reflexivity.
  Qed.
  Definition of_real (x : K) : CplxK K := (x, c0).
  Lemma of_real_map : ring_map of_real.
  Proof.
    split; [reflexivity|split].
    - intros a c. unfold of_real. simpl. f_equal. ring.
    - intros a c. unfold of_real. simpl. unfold cplx_mul. simpl. f_equal; ring.
  Qed.
End Maps.

Definition ex_z : tensor (CplxK QcK) := mkT [1; 1]%nat (fun _ => (Q2Qc 2, Q2Qc 3) : CplxK QcK).
Definition ex_zc : tensor (CplxK QcK) := mkT [1; 1]%nat (fun _ => (Q2Qc 2, Q2Qc (-3)) : CplxK QcK).
Definition ex_w : tensor (CplxK QcK) := mkT [1; 1]%nat (fun _ => (Q2Qc 1, Q2Qc 1) : CplxK QcK).
Definition ex_wc : tensor (CplxK QcK) := mkT [1; 1]%nat (fun _ => (Q2Qc 1, Q2Qc (-1)) : CplxK QcK).
Example C75_example :
  ring_map (conj QcK) /\ ring_map (value QcK) /\ ring_map (of_real QcK) /\
  related_args (mapped ex_A (conj QcK)) [T1_; SArr [so; sv]] [arr ex_z; arr ex_w] [arr ex_zc; arr ex_wc] /\
  match pycall (conc_alg (CplxK QcK)) cc_prog "cc_energy_s1" [arr ex_z; arr ex_w] with
  | Ok (XNum e, _) => (this (fst e), this (snd e)) = ((-1)%Q, 5%Q) | _ => False end.
Proof.
  split; [apply conj_map|]. split; [apply value_map|]. split; [apply of_real_map|]. split.
  - repeat split; intros; unfold conj; simpl; f_equal; apply Qc_is_canon; reflexivity.
  - vm_compute. reflexivity.
Qed.

(** C76: the densities without a reference part are linear in Lambda, *)
Theorem C76_linear_in_lambda (K : cring) n (c d : K) f hs a r us vs ws :
  In (f, hs) lambda_linear -> In (f, a, r) public_functions ->
  combined_args n c d hs a us vs ws ->
  exists u v w, returns f us u /\ returns f vs v /\ returns f ws w /\ combined n c d r u v w.
Proof. exact (lin_thm K lambda_linear n c d f hs a r us vs ws lam_lin_all). Qed.
Print Assumptions C76_linear_in_lambda.

(** the Lambda residuals and the other densities are affine in Lambda, *)
Theorem C76_affine_in_lambda (K : cring) n (c d : K) f hs a r us vs ws :
  (c + d)%K = c1 -> In (f, hs) lambda_affine -> In (f, a, r) public_functions ->
  combined_args n c d hs a us vs ws ->
  exists u v w, returns f us u /\ returns f vs v /\ returns f ws w /\ combined n c d r u v w.
Proof. intros H. exact (aff_thm K lambda_affine n c d f hs a r us vs ws H lam_aff_all). Qed.
Print Assumptions C76_affine_in_lambda.

(** and the residuals of the linearised methods are affine in the amplitudes. *)
Theorem C76_linearised_affine_in_amplitudes (K : cring) n (c d : K) f hs a r us vs ws :
  (c + d)%K = c1 -> In (f, hs) amplitude_affine -> In (f, a, r) public_functions ->
  combined_args n c d hs a us vs ws ->
  exists u v w, returns f us u /\ returns f vs v /\ returns f ws w /\ combined n c d r u v w.
Proof. intros H. exact (aff_thm K amplitude_affine n c d f hs a r us vs ws H amp_aff_all). Qed.
Print Assumptions C76_linearised_affine_in_amplitudes.

Definition ex_dens (l1 l2 : tensor QcK) : list (pyval QcK) :=
  [arr (sampleT1 QcK 2 2); arr (sampleT2 QcK 2 2); arr l1; arr l2].
Definition ex_lin (t : tensor QcK) : list (pyval QcK) :=
  [py_one_e (sampleF QcK 2 2); py_two_e (sampleI QcK 2 2); arr t].
Definition ex_t' : tensor QcK := mkT [2; 2; 2; 2] (fun idx => (dat (oovv (sampleI QcK 2 2)) idx + (Q2Qc 1 : QcK))%K).
Example C76_example :
  In ("ccsd_1rdm_ba"%string, [false; false; true; true]) lambda_linear /\
  combined_args ex_n (Q2Qc 2 : QcK) (Q2Qc (-1) : QcK) [false; false; true; true] [T1_; T2_; L1_; L2_]
    (ex_dens (sampleL1 QcK 2 2) (sampleL2 QcK 2 2)) (ex_dens (ov (sampleF QcK 2 2)) (oovv (sampleI QcK 2 2)))
    (ex_dens (ex_comb (Q2Qc 2) (Q2Qc (-1)) (sampleL1 QcK 2 2) (ov (sampleF QcK 2 2)))
       (ex_comb (Q2Qc 2) (Q2Qc (-1)) (sampleL2 QcK 2 2) (oovv (sampleI QcK 2 2)))) /\
  In ("lccd_simple"%string, [false; false; true]) amplitude_affine /\
  combined_args ex_n (Q2Qc 3 : QcK) (Q2Qc (-2) : QcK) [false; false; true] [F_; I_; T2_]
    (ex_lin (sampleT2 QcK 2 2)) (ex_lin ex_t') (ex_lin (ex_comb (Q2Qc 3) (Q2Qc (-2)) (sampleT2 QcK 2 2) ex_t')) /\
  (Q2Qc 3 + Q2Qc (-2))%Qc = Q2Qc 1 /\
  (sample_entry "lccd_simple" (ex_lin (sampleT2 QcK 2 2)) 0 [0; 1; 0; 1],
   sample_entry "lccd_simple" (ex_lin ex_t') 0 [0; 1; 0; 1],
   sample_entry "lccd_simple" (ex_lin (ex_comb (Q2Qc 3) (Q2Qc (-2)) (sampleT2 QcK 2 2) ex_t')) 0 [0; 1; 0; 1]) =
  (Some (-195)%Q, Some (-197)%Q, Some (-191)%Q).
Proof.
  split; [find_in|]. split; [repeat split; intros; reflexivity|].
  split; [find_in|]. split; [repeat split; intros; reflexivity|].
  split; [apply Qc_is_canon; reflexivity|]. vm_compute. reflexivity.
Qed.
