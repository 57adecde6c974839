(** Properties of ci_utils.py: final statements.  The model is CIModel.v
    ([None] = exception; CIHeap.v for the arrays the string methods write), the
    vocabulary is CISpec.v, CIQuadSpec.v and CIRep.v. *)
From Coq Require Import List Bool Arith ZArith Permutation.
From Verif Require Import Scalar Tensor NpModel CIModel CISpec CIQuadSpec CIRep CIHeap CIBases CILemmas CIQuads.
Import ListNotations.

(** C23: excite(i, a) is the operator a+_a a_i with its Jordan-Wigner sign. *)
Theorem C23_excite_is_operator (s : det) (i a : nat) :
  i < length s -> a < length s -> i <> a ->
  excite (dstr s) i a
  = Some (match act [Cre a; Ann i] s with
          | Some (g, t) => Some (zsgn g, dstr t)
          | None => None
          end).
Proof. exact (excite_op s i a). Qed.
Print Assumptions C23_excite_is_operator.

(** It returns (None, None) exactly when i is not occupied or a not empty. *)
Theorem C23_excite_none (s : det) (i a : nat) :
  i < length s -> a < length s ->
  (excite (dstr s) i a = Some None <-> occd s i = false \/ occd s a = true).
Proof. exact (excite_none s i a). Qed.
Print Assumptions C23_excite_none.

Theorem C23_excite_result (s : det) (i a : nat) sg e :
  i < length s -> a < length s -> excite (dstr s) i a = Some (Some (sg, e)) ->
  exists t, e = dstr t /\ (sg = 1%Z \/ sg = (-1)%Z) /\ length t = length s /\ nel t = nel s /\
    occd t i = false /\ occd t a = true /\ (forall p, p <> i -> p <> a -> occd t p = occd s p) /\
    excite (dstr t) a i = Some (Some (sg, dstr s)) /\ diff (dstr s) (dstr t) = 2%Z.
Proof. exact (excite_some s i a sg e). Qed.
Print Assumptions C23_excite_result.

(** The method on a heap of arrays computes what the method on values
    computes, leaves every existing array as it was (in particular that of the
    string it is called on) and puts its result in another array. *)
Theorem C23_excite_pure (h : heap) (o : hobj) (d : dstring) (i a : nat) :
  dval h o = Some d -> length (d_occ d) = d_n d ->
  match excite d i a with
  | None => h_excite h o i a = None
  | Some None => h_excite h o i a = Some (None, h)
  | Some (Some (sg, e)) => exists o' h', h_excite h o i a = Some (Some (sg, o'), h') /\
      dval h' o' = Some e /\ preserved h h' /\ o_ref o' <> o_ref o
  end.
Proof. exact (h_excite_ok h o d i a). Qed.
Print Assumptions C23_excite_pure.

Example C23_example :
  excite (dstr [true; true; false; true; false]) 0 4
  = Some (Some (1%Z, dstr [false; true; false; true; true])) /\
  excite (dstr [true; true; false; true; false]) 3 2
  = Some (Some (1%Z, dstr [true; true; true; false; false])) /\
  excite (dstr [true; true; false; true; false]) 0 2
  = Some (Some ((-1)%Z, dstr [false; true; true; true; false])) /\
  excite (dstr [true; true; false; true; false]) 0 1 = Some None /\
  h_excite [[7%Z]; [1%Z; 0%Z]] (mkO 2 1) 0 1
  = Some (Some (1%Z, mkO 2 2), [[7%Z]; [1%Z; 0%Z]; [0%Z; 1%Z]]).
Proof. vm_compute. repeat split. Qed.

(** C24: diff is a metric on the strings of a given length. *)
Theorem C24_diff_metric (s t u : det) :
  length s = length t -> length t = length u ->
  diff (dstr s) (dstr t) = Z.of_nat (ndiff s t) /\
  diff (dstr s) (dstr t) = diff (dstr t) (dstr s) /\
  (diff (dstr s) (dstr t) = 0%Z <-> s = t) /\
  (diff (dstr s) (dstr u) <= diff (dstr s) (dstr t) + diff (dstr t) (dstr u))%Z /\
  (nel s = nel t -> Z.even (diff (dstr s) (dstr t)) = true).
Proof. exact (diff_metric s t u). Qed.
Print Assumptions C24_diff_metric.

Theorem C24_excite_distance (s : det) (i a : nat) sg e :
  i < length s -> a < length s -> excite (dstr s) i a = Some (Some (sg, e)) ->
  diff (dstr s) e = 2%Z /\ level (dstr s) e = 2%Z.
Proof.
  intros Li La H. destruct (excite_some s i a sg e Li La H) as (t & -> & _ & _ & _ & _ & _ & _ & _ & D).
  split; exact D.
Qed.
Print Assumptions C24_excite_distance.

Example C24_example :
  diff (dstr [true; true; false]) (dstr [false; true; true]) = 2%Z /\
  diff (dstr [true; true; false]) (dstr [false; false; false]) = 2%Z.
Proof. vm_compute. split; reflexivity. Qed.

(** C25: vibrational ladder operators. *)
Theorem C25_raize (v : list nat) (p : nat) : p < length v ->
  exists w, raize (pvec v) p = Some (pvec w) /\ length w = length v /\ total w = S (total v) /\
    nth p w 0 = S (nth p v 0) /\ (forall q, q <> p -> nth q w 0 = nth q v 0) /\
    lower (pvec w) p = Some (Some (pvec v)).
Proof. exact (raize_spec v p). Qed.
Print Assumptions C25_raize.

Theorem C25_lower (v : list nat) (p : nat) : p < length v ->
  (lower (pvec v) p = Some None <-> nth p v 0 = 0) /\
  (forall r, lower (pvec v) p = Some (Some r) -> exists w, r = pvec w /\ length w = length v /\
     S (total w) = total v /\ S (nth p w 0) = nth p v 0 /\
     (forall q, q <> p -> nth q w 0 = nth q v 0) /\
     raize (pvec w) p = Some (pvec v)).
Proof. exact (lower_spec v p). Qed.
Print Assumptions C25_lower.

Theorem C25_raize_pure (h : heap) (o : hobj) (s : pstring) (p : nat) :
  pval h o = Some s -> length (p_occ s) = p_n s ->
  match raize s p with
  | None => h_raize h o p = None
  | Some e => exists o' h', h_raize h o p = Some (o', h') /\
      pval h' o' = Some e /\ preserved h h' /\ o_ref o' <> o_ref o
  end.
Proof. exact (h_raize_ok h o s p). Qed.
Print Assumptions C25_raize_pure.

Theorem C25_lower_pure (h : heap) (o : hobj) (s : pstring) (p : nat) :
  pval h o = Some s -> length (p_occ s) = p_n s ->
  match lower s p with
  | None => h_lower h o p = None
  | Some None => exists h', h_lower h o p = Some (None, h') /\ preserved h h'
  | Some (Some e) => exists o' h', h_lower h o p = Some (Some o', h') /\
      pval h' o' = Some e /\ preserved h h' /\ o_ref o' <> o_ref o
  end.
Proof. exact (h_lower_ok h o s p). Qed.
Print Assumptions C25_lower_pure.

Example C25_example :
  raize (pvec [0; 2; 1]) 1 = Some (pvec [0; 3; 1]) /\ lower (pvec [0; 2; 1]) 1 = Some (Some (pvec [0; 1; 1])) /\
  lower (pvec [0; 2; 1]) 0 = Some None /\
  h_lower [[0%Z; 2%Z]] (mkO 2 0) 1 = Some (Some (mkO 2 1), [[0%Z; 2%Z]; [0%Z; 1%Z]]).
Proof. vm_compute. repeat split. Qed.

(** C26: for any reference s, the lists of strings contain each k-fold
    excitation of s exactly once.  [nocc] is ignored when [occ] is given. *)
Theorem C26_s_strings (s : det) (nocc : nat) : exists l,
  s_strings (length s) nocc (Some (map b2z s)) = Some (map dstr l) /\ NoDup (map dstr l) /\
  (forall t, In t l <-> excited 1 s t) /\
  length l = binom (nel s) 1 * binom (length s - nel s) 1.
Proof. exact (CIStrings.s_enumerates s nocc). Qed.
Print Assumptions C26_s_strings.

Theorem C26_d_strings (s : det) (nocc : nat) : exists l,
  d_strings (length s) nocc (Some (map b2z s)) = Some (map dstr l) /\ NoDup (map dstr l) /\
  (forall t, In t l <-> excited 2 s t) /\
  length l = binom (nel s) 2 * binom (length s - nel s) 2.
Proof. exact (CIStrings.d_enumerates s nocc). Qed.
Print Assumptions C26_d_strings.

Theorem C26_t_strings (s : det) (nocc : nat) : exists l,
  t_strings (length s) nocc (Some (map b2z s)) = Some (map dstr l) /\ NoDup (map dstr l) /\
  (forall t, In t l <-> excited 3 s t) /\
  length l = binom (nel s) 3 * binom (length s - nel s) 3.
Proof. exact (CIStrings.t_enumerates s nocc). Qed.
Print Assumptions C26_t_strings.

(** Without [occ] the reference has the first nocc orbitals occupied. *)
Theorem C26_default_reference (n nocc : nat) :
  s_strings n nocc None = s_strings n nocc (Some (map b2z (aufbau n nocc))) /\
  d_strings n nocc None = d_strings n nocc (Some (map b2z (aufbau n nocc))) /\
  t_strings n nocc None = t_strings n nocc (Some (map b2z (aufbau n nocc))).
Proof.
  exact (conj (CIStrings.s_strings_default n nocc) (conj (CIStrings.d_strings_default n nocc)
    (CIStrings.t_strings_default n nocc))).
Qed.
Print Assumptions C26_default_reference.

Example C26_example :
  s_strings 4 0 (Some (map b2z [false; true; true; false]))
  = Some (map dstr [[true; false; true; false]; [false; false; true; true];
                    [true; true; false; false]; [false; true; false; true]]) /\
  (exists l, t_strings 6 3 None = Some l /\ length l = 1) /\
  (exists l, d_strings 6 3 None = Some l /\ length l = 9).
Proof.
  split; [vm_compute; reflexivity|].
  split; eexists; (split; [vm_compute; reflexivity|reflexivity]).
Qed.

(** C27: the CI bases. *)
Theorem C27_ucis_basis (n na nb : nat) : exists L,
  ucis_basis n na nb true = Some (map dpair L) /\
  NoDup (map dpair L) /\ hd_error L = Some (aufbau n na, aufbau n nb) /\
  (forall x, In x L <-> u_space 1 (aufbau n na) (aufbau n nb) x).
Proof. exact (ucis_ok n na nb). Qed.
Print Assumptions C27_ucis_basis.

Theorem C27_ucis_basis_without_reference (n na nb : nat) : exists L,
  ucis_basis n na nb true = Some (map dpair ((aufbau n na, aufbau n nb) :: L)) /\
  ucis_basis n na nb false = Some (map dpair L).
Proof. exact (ucis_no_ref n na nb). Qed.
Print Assumptions C27_ucis_basis_without_reference.

Theorem C27_ucisd_basis (n na nb : nat) : exists L,
  ucisd_basis n na nb = Some (map dpair L) /\
  NoDup (map dpair L) /\ hd_error L = Some (aufbau n na, aufbau n nb) /\
  (forall x, In x L <-> u_space 2 (aufbau n na) (aufbau n nb) x).
Proof. exact (ucisd_ok n na nb). Qed.
Print Assumptions C27_ucisd_basis.

Theorem C27_ucisdt_basis (n na nb : nat) : exists L,
  ucisdt_basis n na nb = Some (map dpair L) /\
  NoDup (map dpair L) /\ hd_error L = Some (aufbau n na, aufbau n nb) /\
  (forall x, In x L <-> u_space 3 (aufbau n na) (aufbau n nb) x).
Proof. exact (ucisdt_ok n na nb). Qed.
Print Assumptions C27_ucisdt_basis.

(** ucisdtq_basis is right when neither spin has a quadruple excitation. *)
Theorem C27_ucisdtq_basis (n na nb : nat) :
  na <= n -> nb <= n -> na < 4 \/ n - na < 4 -> nb < 4 \/ n - nb < 4 ->
  exists L, ucisdtq_basis n na nb = Some (map dpair L) /\
  NoDup (map dpair L) /\ hd_error L = Some (aufbau n na, aufbau n nb) /\
  (forall x, In x L <-> u_space 4 (aufbau n na) (aufbau n nb) x).
Proof. exact (ucisdtq_ok n na nb). Qed.
Print Assumptions C27_ucisdtq_basis.

Theorem C27_gcis_basis (m N : nat) : exists L,
  gcis_basis (2 * m) N true = Some (map dstr L) /\
  NoDup (map dstr L) /\ hd_error L = Some (gref m N) /\
  (forall t, In t L <-> exists k, excited k (gref m N) t /\ k <= 1).
Proof. exact (gcis_ok m N). Qed.
Print Assumptions C27_gcis_basis.

Theorem C27_gcis_basis_without_reference (m N : nat) : exists L,
  gcis_basis (2 * m) N true = Some (map dstr (gref m N :: L)) /\
  gcis_basis (2 * m) N false = Some (map dstr L).
Proof. exact (gcis_no_ref m N). Qed.
Print Assumptions C27_gcis_basis_without_reference.

Theorem C27_gcisd_basis (m N : nat) : exists L,
  gcisd_basis (2 * m) N = Some (map dstr L) /\
  NoDup (map dstr L) /\ hd_error L = Some (gref m N) /\
  (forall t, In t L <-> exists k, excited k (gref m N) t /\ k <= 2).
Proof. exact (gcisd_ok m N). Qed.
Print Assumptions C27_gcisd_basis.

Theorem C27_gcisdt_basis (m N : nat) : exists L,
  gcisdt_basis (2 * m) N = Some (map dstr L) /\
  NoDup (map dstr L) /\ hd_error L = Some (gref m N) /\
  (forall t, In t L <-> exists k, excited k (gref m N) t /\ k <= 3).
Proof. exact (gcisdt_ok m N). Qed.
Print Assumptions C27_gcisdt_basis.

(** The reference of the g-bases holds N electrons if the orbitals suffice. *)
Theorem C27_g_reference (m N : nat) :
  length (gref m N) = 2 * m /\ (N - Nat.div N 2 <= m -> nel (gref m N) = N).
Proof. exact (gref_spec m N). Qed.
Print Assumptions C27_g_reference.

(** An odd number of spin orbitals is rejected. *)
Theorem C27_odd_raises (m N : nat) (gs : bool) :
  gcis_basis (2 * m + 1) N gs = None /\ gcisd_basis (2 * m + 1) N = None /\
  gcisdt_basis (2 * m + 1) N = None /\ gcisdtq_basis (2 * m + 1) N = None.
Proof. exact (g_odd_raises m N gs). Qed.
Print Assumptions C27_odd_raises.

(** [basis.index] of a member of a duplicate-free basis is its only position. *)
Theorem C27_index (basis : list upair) (x : upair) :
  NoDup basis -> In x basis ->
  exists k, index upair_eq x basis = Some k /\ forall j, nth_error basis j = Some x <-> j = k.
Proof. exact (index_unique upair_eq upair_eq_iff basis x). Qed.
Print Assumptions C27_index.

Theorem C27_gindex (basis : list dstring) (x : dstring) :
  NoDup basis -> In x basis ->
  exists k, index dstring_eq x basis = Some k /\ forall j, nth_error basis j = Some x <-> j = k.
Proof. exact (index_unique dstring_eq CIFacts.dstring_eq_iff basis x). Qed.
Print Assumptions C27_gindex.

Example C27_example :
  (exists l, ucisd_basis 4 2 1 = Some l /\ length l = 1 + 4 + 3 + 1 + 0 + 12) /\
  (exists l, gcisdt_basis 6 3 = Some l /\ length l = 1 + 9 + 9 + 1) /\
  gcis_basis 4 3 false
  = Some (map dstr [[false; true; true; true]; [true; false; true; true]; [true; true; false; true]]).
Proof.
  split; [eexists; split; vm_compute; reflexivity|].
  split; [eexists; split; vm_compute; reflexivity|]. vm_compute. reflexivity.
Qed.

(** C28: q_strings.  It is right only when there is no quadruple excitation;
    otherwise its list has duplicates, and with five or more electrons
    quadruple excitations are missing. *)
Theorem C28_q_strings_right (n nocc : nat) : nocc <= n -> nocc < 4 \/ n - nocc < 4 ->
  q_strings n nocc None = Some [] /\ (forall t, ~ excited 4 (aufbau n nocc) t).
Proof. exact (q_right n nocc). Qed.
Print Assumptions C28_q_strings_right.

Theorem C28_q_strings_refuted (n nocc : nat) : 4 <= nocc -> 4 <= n - nocc ->
  exists l, q_strings n nocc None = Some (map dstr l) /\
  ~ NoDup l /\ (5 <= nocc -> exists t, excited 4 (aufbau n nocc) t /\ ~ In t l).
Proof. exact (q_wrong n nocc). Qed.
Print Assumptions C28_q_strings_refuted.

Theorem C28_ucisdtq_basis_refuted (n na nb : nat) :
  na <= n -> nb <= n -> 4 <= na -> 4 <= n - na ->
  exists L, ucisdtq_basis n na nb = Some L /\ ~ NoDup L.
Proof. exact (ucisdtq_dup n na nb). Qed.
Print Assumptions C28_ucisdtq_basis_refuted.

(** What the list is, exactly: of the quadruple excitations it holds those that
    empty orbitals 0 and 1, each nocc*(n-nocc) times, and nothing else.  No call
    raises. *)
Theorem C28_q_strings_exact (n nocc : nat) : nocc <= n ->
  exists l, q_strings n nocc None = Some (map dstr l) /\ q_list_of (aufbau n nocc) l.
Proof. exact (q_exact n nocc). Qed.
Print Assumptions C28_q_strings_exact.

(** gcisdtq_basis is gcisdt_basis followed by that list *)
Theorem C28_gcisdtq_basis (m N : nat) : N <= 2 * m ->
  exists L l, gcisdtq_basis (2 * m) N = Some (map dstr (L ++ l)) /\
  NoDup L /\ hd_error L = Some (gref m N) /\
  (forall t, In t L <-> exists k, excited k (gref m N) t /\ k <= 3) /\ q_list_of (gref m N) l.
Proof. exact (gcisdtq_exact m N). Qed.
Print Assumptions C28_gcisdtq_basis.

(** ucisdtq_basis has every pair with up to four excitations, at most three of
    one spin, once, and those lists for either spin *)
Theorem C28_ucisdtq_basis (n na nb : nat) : na <= n -> nb <= n ->
  exists L L0 la lb, ucisdtq_basis n na nb = Some (map dpair L) /\
  Permutation L (L0 ++ map (fun a => (a, aufbau n nb)) la ++ map (fun b => (aufbau n na, b)) lb) /\
  NoDup L0 /\ hd_error L = Some (aufbau n na, aufbau n nb) /\
  (forall x, In x L0 <-> exists ka kb, excited ka (aufbau n na) (fst x) /\ excited kb (aufbau n nb) (snd x) /\
     ka + kb <= 4 /\ ka <= 3 /\ kb <= 3) /\
  q_list_of (aufbau n na) la /\ q_list_of (aufbau n nb) lb.
Proof. exact (ucisdtq_exact n na nb). Qed.
Print Assumptions C28_ucisdtq_basis.

Example C28_example :
  exists l, q_strings 8 4 None = Some l /\ length l = 16 /\
    binom 4 4 * binom (8 - 4) 4 = 1.
Proof. eexists. split; [vm_compute; reflexivity|]. split; reflexivity. Qed.

(** five electrons in nine orbitals: three of the five quadruple excitations,
    twenty times each *)
Example C28_example_five :
  exists l, q_strings 9 5 None = Some l /\ length l = 3 * (5 * 4) /\ binom 5 4 * binom 4 4 = 5.
Proof. eexists. split; [vm_compute; reflexivity|]. split; reflexivity. Qed.

(** C29: vibrational CI bases. *)
Theorem C29_vcis_basis (m : nat) : exists L, vcis_basis m = Some (map pvec L) /\ NoDup L /\
  hd_error L = Some (repeat 0 m) /\ (forall v, In v L <-> length v = m /\ total v <= 1).
Proof. exact (CIVib.vcis_ok m). Qed.
Print Assumptions C29_vcis_basis.

Theorem C29_vcisd_basis (m : nat) : exists L, vcisd_basis m = Some (map pvec L) /\ NoDup L /\
  hd_error L = Some (repeat 0 m) /\ (forall v, In v L <-> length v = m /\ total v <= 2).
Proof. exact (CIVib.vcisd_ok m). Qed.
Print Assumptions C29_vcisd_basis.

Example C29_example : vcisd_basis 2
  = Some (map pvec [[0; 0]; [1; 0]; [0; 1]; [2; 0]; [1; 1]; [0; 2]]).
Proof. vm_compute. reflexivity. Qed.
