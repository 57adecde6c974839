(** Fermion operators and the order of the orbitals: exchanging two
    neighbouring blocks of orbitals relabels the operators and multiplies the
    determinants by signs. *)
From Coq Require Import List Bool Arith ZArith Lia Ring Factorial.
From Verif Require Import Scalar CISpec CIFacts CIFock CIMatrix CIVec CIExpSpec CIExp Tensor CCSpec CCFockSpec FockStates FockExp FockT
  FockSchr.
Import ListNotations.
Local Open Scope list_scope.

Definition par (s : det) : bool := Nat.odd (nel s).

Lemma par_cons b s : par (b :: s) = xorb b (par s).
Proof. unfold par. cbn [nel]. destruct b; [|cbn; destruct (Nat.odd (nel s)); reflexivity]. cbn [Nat.add].
  rewrite Nat.odd_succ, <- Nat.negb_odd. destruct (Nat.odd (nel s)); reflexivity. Qed.
Lemma odd_below_l p l r : p < length l -> odd_below p (l ++ r) = odd_below p l.
Proof. revert p. induction l as [|b l IH]; intros p L; [cbn in L; lia|]. destruct p as [|p]; [reflexivity|].
  cbn [app odd_below]. rewrite IH; [reflexivity|cbn in L; lia]. Qed.
Lemma odd_below_r p l r : odd_below (length l + p) (l ++ r) = xorb (par l) (odd_below p r).
Proof. induction l as [|b l IH]; [cbn; destruct (odd_below p r); reflexivity|].
  cbn [length Nat.add app odd_below]. rewrite IH, par_cons. destruct b, (par l), (odd_below p r); reflexivity. Qed.
Lemma occd_l p l r : p < length l -> occd (l ++ r) p = occd l p.
Proof. intros L. unfold occd. apply app_nth1. exact L. Qed.
Lemma occd_r p l r : occd (l ++ r) (length l + p) = occd r p.
Proof. unfold occd. rewrite app_nth2 by lia. f_equal. lia. Qed.
Lemma put_l p b l r : p < length l -> put p b (l ++ r) = put p b l ++ r.
Proof. revert p. induction l as [|x l IH]; intros p L; [cbn in L; lia|]. destruct p as [|p]; [reflexivity|].
  cbn [app put]. rewrite IH; [reflexivity|cbn in L; lia]. Qed.
Lemma put_r p b l r : put (length l + p) b (l ++ r) = l ++ put p b r.
Proof. induction l as [|x l IH]; [reflexivity|]. cbn [length Nat.add app put]. rewrite IH. reflexivity. Qed.
Lemma par_put p b s : p < length s -> occd s p = negb b -> par (put p b s) = negb (par s).
Proof. revert p. induction s as [|x s IH]; intros p L O; [cbn in L; lia|]. destruct p as [|p]; cbn [put]; rewrite !par_cons.
  - cbn in O. subst x. destruct b, (par s); reflexivity.
  - rewrite IH; [destruct x, (par s); reflexivity|cbn in L; lia|exact O]. Qed.

(** blocks of a, b, c orbitals and the rest: the second and the third exchanged *)
Definition mix (a b c : nat) (s : det) : det :=
  firstn a s ++ firstn c (skipn (a + b) s) ++ firstn b (skipn a s) ++ skipn (a + b + c) s.
Definition eps (a b c : nat) (s : det) : bool := par (firstn b (skipn a s)) && par (firstn c (skipn (a + b) s)).
(** the orbital x of the old order in the new order *)
Definition pix (a b c x : nat) : nat :=
  if Nat.ltb x a then x else if Nat.ltb x (a + b) then x + c else if Nat.ltb x (a + b + c) then x - b else x.
Definition pio (a b c : nat) (o : op) : op :=
  match o with Cre p => Cre (pix a b c p) | Ann p => Ann (pix a b c p) end.

Lemma skip_skip (k m : nat) (s : det) : skipn k (skipn m s) = skipn (m + k) s.
Proof. revert s. induction m as [|m IH]; intros s; [reflexivity|]. destruct s as [|x s]; [destruct k; reflexivity|]. apply IH. Qed.
Lemma blocks4 a b c d (s : det) : length s = a + b + c + d ->
  exists u v w x, s = u ++ v ++ w ++ x /\ length u = a /\ length v = b /\ length w = c /\ length x = d.
Proof.
  intros L. exists (firstn a s), (firstn b (skipn a s)), (firstn c (skipn (a + b) s)), (skipn (a + b + c) s).
  rewrite !firstn_length, !skipn_length. split; [|lia].
  rewrite <- (firstn_skipn a s) at 1. f_equal. rewrite <- (firstn_skipn b (skipn a s)) at 1. f_equal.
  rewrite skip_skip, <- (firstn_skipn c (skipn (a + b) s)) at 1. rewrite skip_skip. reflexivity.
Qed.
Lemma cuts (u v w x : det) :
  firstn (length u) (u ++ v ++ w ++ x) = u /\ firstn (length v) (skipn (length u) (u ++ v ++ w ++ x)) = v /\
  firstn (length w) (skipn (length u + length v) (u ++ v ++ w ++ x)) = w /\
  skipn (length u + length v + length w) (u ++ v ++ w ++ x) = x.
Proof.
  assert (A : forall (l r : det), firstn (length l) (l ++ r) = l).
  { intros l r. rewrite firstn_app, Nat.sub_diag, firstn_all. cbn. apply app_nil_r. }
  assert (B : forall (l r : det) k, skipn (length l + k) (l ++ r) = skipn k r).
  { intros l r k. rewrite skipn_app, skipn_all2 by lia. cbn. f_equal. lia. }
  split; [apply A|]. split; [|split].
  - rewrite <- (Nat.add_0_r (length u)), B. cbn [skipn]. apply A.
  - rewrite B, <- (Nat.add_0_r (length v)), B. cbn [skipn]. apply A.
  - rewrite <- Nat.add_assoc, B, B, <- (Nat.add_0_r (length w)), B. reflexivity.
Qed.
Lemma mix_app (u v w x : det) a b c : a = length u -> b = length v -> c = length w -> mix a b c (u ++ v ++ w ++ x) = u ++ w ++ v ++ x.
Proof. intros -> -> ->. destruct (cuts u v w x) as (A & B & C & D). unfold mix. rewrite A, B, C, D. reflexivity. Qed.
Lemma eps_app (u v w x : det) a b c : a = length u -> b = length v -> c = length w -> eps a b c (u ++ v ++ w ++ x) = par v && par w.
Proof. intros -> -> ->. destruct (cuts u v w x) as (A & B & C & D). unfold eps. rewrite B, C. reflexivity. Qed.
Lemma mix_length a b c d s : length s = a + b + c + d -> length (mix a b c s) = a + b + c + d.
Proof. intros L. destruct (blocks4 _ _ _ _ _ L) as (u & v & w & x & -> & <- & <- & <- & <-).
  rewrite mix_app by reflexivity. rewrite !app_length. lia. Qed.
Lemma mix_mix a b c d s : length s = a + b + c + d -> mix a c b (mix a b c s) = s.
Proof. intros L. destruct (blocks4 _ _ _ _ _ L) as (u & v & w & x & -> & <- & <- & <- & <-).
  rewrite mix_app by reflexivity. apply mix_app; reflexivity. Qed.
Lemma eps_mix a b c d s : length s = a + b + c + d -> eps a c b (mix a b c s) = eps a b c s.
Proof. intros L. destruct (blocks4 _ _ _ _ _ L) as (u & v & w & x & -> & <- & <- & <- & <-).
  rewrite mix_app, !eps_app by reflexivity. apply andb_comm. Qed.
Lemma pix_lt a b c d x : x < a + b + c + d -> pix a b c x < a + b + c + d.
Proof. intros L. unfold pix. destruct (Nat.ltb_spec x a); [lia|]. destruct (Nat.ltb_spec x (a + b)); [lia|].
  destruct (Nat.ltb_spec x (a + b + c)); lia. Qed.

Section FockPerm.
  Variable K : cring.
  Local Open Scope K_scope.
  Add Ring KrFP : (c_th K).
  Variables a b c d : nat.
  Notation N := (a + b + c + d)%nat.
  Notation opsum := (list (K * list op)).

  (** the state psi of the old order in the new order *)
  Definition U (psi : state K) : state K := fun t => sgn (eps a c b t) * psi (mix a c b t).
  Definition relabel (A : opsum) : opsum := map (fun t => (fst t, map (pio a b c) (snd t))) A.

  Lemma opi_pio o : opi (pio a b c o) = pix a b c (opi o).
  Proof. destruct o; reflexivity. Qed.
  Lemma opb_pio o : opb (pio a b c o) = opb o.
  Proof. destruct o; reflexivity. Qed.

  Lemma eo_U o psi t : (opi o < N)%nat -> List.length t = N -> eo (pio a b c o) (U psi) t = U (eo o psi) t.
  Proof.
    intros Lo Lt. assert (Lt' : List.length t = (a + c + b + d)%nat) by lia.
    destruct (blocks4 _ _ _ _ _ Lt') as (u & w & v & x & -> & La & Lc & Lb & Ld).
    unfold eo. rewrite opi_pio, opb_pio. unfold U at 2. rewrite mix_app by auto. rewrite eps_app by auto.
    set (p := opi o) in *. set (bo := opb o). unfold U.
    assert (Y : forall (g g' h h' : bool) (y y' : K), y = y' -> xorb g h = xorb g' h' -> sgn g * (sgn h * y) = sgn g' * (sgn h' * y')).
    { intros g g' h h' y y' -> E. transitivity (sgn (xorb g h) * y'); [rewrite <- (sgn_sgn K g h); ring|].
      rewrite E, <- (sgn_sgn K g' h'). ring. }
    rewrite !app_length. unfold pix.
    destruct (Nat.ltb_spec p a) as [C1|C1]; [|destruct (Nat.ltb_spec p (a + b)) as [C2|C2];
      [|destruct (Nat.ltb_spec p (a + b + c)) as [C3|C3]]].
    - assert (Lp : (p < List.length u)%nat) by lia.
      rewrite !odd_below_l, !occd_l, !put_l by exact Lp.
      destruct (Nat.ltb_spec p (List.length u + (List.length w + (List.length v + List.length x)))); [|lia].
      destruct (Nat.ltb_spec p (List.length u + (List.length v + (List.length w + List.length x)))); [|lia].
      cbn [andb]. destruct (Bool.eqb (occd u p) bo); [|ring].
      rewrite mix_app by (rewrite ?put_length; auto). rewrite eps_app by (rewrite ?put_length; auto).
      apply Y; [reflexivity|]. apply xorb_comm.
    - remember (p - a)%nat as q eqn:Eq. assert (Lq : (q < List.length v)%nat) by lia.
      replace (p + c)%nat with (List.length u + (List.length w + q))%nat by lia.
      replace p with (List.length u + q)%nat by lia.
      rewrite !odd_below_r, !occd_r, !put_r, !odd_below_l, !occd_l, !put_l by exact Lq.
      destruct (Nat.ltb_spec (List.length u + (List.length w + q)) (List.length u + (List.length w + (List.length v + List.length x)))); [|lia].
      destruct (Nat.ltb_spec (List.length u + q) (List.length u + (List.length v + (List.length w + List.length x)))); [|lia].
      cbn [andb]. destruct (Bool.eqb (occd v q) bo) eqn:O; [|ring]. apply eqb_prop in O.
      rewrite mix_app by (rewrite ?put_length; auto). rewrite eps_app by (rewrite ?put_length; auto).
      rewrite par_put by (auto; rewrite O, negb_involutive; reflexivity).
      apply Y; [reflexivity|]. destruct (par u), (par v), (par w), (odd_below q v); reflexivity.
    - remember (p - a - b)%nat as q eqn:Eq. assert (Lq : (q < List.length w)%nat) by lia.
      replace (p - b)%nat with (List.length u + q)%nat by lia.
      replace p with (List.length u + (List.length v + q))%nat by lia.
      rewrite !odd_below_r, !occd_r, !put_r, !odd_below_l, !occd_l, !put_l by exact Lq.
      destruct (Nat.ltb_spec (List.length u + q) (List.length u + (List.length w + (List.length v + List.length x)))); [|lia].
      destruct (Nat.ltb_spec (List.length u + (List.length v + q)) (List.length u + (List.length v + (List.length w + List.length x)))); [|lia].
      cbn [andb]. destruct (Bool.eqb (occd w q) bo) eqn:O; [|ring]. apply eqb_prop in O.
      rewrite mix_app by (rewrite ?put_length; auto). rewrite eps_app by (rewrite ?put_length; auto).
      rewrite par_put by (auto; rewrite O, negb_involutive; reflexivity).
      apply Y; [reflexivity|]. destruct (par u), (par v), (par w), (odd_below q w); reflexivity.
    - remember (p - a - b - c)%nat as q eqn:Eq. assert (Lq : (q < List.length x)%nat) by lia.
      replace p with (List.length u + (List.length w + (List.length v + q)))%nat by lia.
      rewrite !odd_below_r, !occd_r, !put_r.
      replace (List.length w + (List.length v + q))%nat with (List.length v + (List.length w + q))%nat by lia.
      rewrite !odd_below_r, !occd_r, !put_r.
      destruct (Nat.ltb_spec (List.length u + (List.length v + (List.length w + q))) (List.length u + (List.length w + (List.length v + List.length x)))); [|lia].
      destruct (Nat.ltb_spec (List.length u + (List.length v + (List.length w + q))) (List.length u + (List.length v + (List.length w + List.length x)))); [|lia].
      cbn [andb]. destruct (Bool.eqb (occd x q) bo); [|ring].
      rewrite mix_app by (rewrite ?put_length; auto). rewrite eps_app by (rewrite ?put_length; auto).
      apply Y; [reflexivity|]. destruct (par u), (par v), (par w), (odd_below q x); reflexivity.
  Qed.

  Lemma eow_U w psi : Forall (fun o => (opi o < N)%nat) w -> forall t, List.length t = N ->
    eow (map (pio a b c) w) (U psi) t = U (eow w psi) t.
  Proof.
    induction w as [|o w IH]; intros F t Lt; [reflexivity|]. inversion F; subst. cbn [map eow].
    rewrite (eo_ext K _ _ (U (eow w psi))) by (intros u Lu; apply IH; [assumption|lia]). apply eo_U; assumption.
  Qed.
  Definition in_N (A : opsum) : Prop := Forall (fun t => Forall (fun o => (opi o < N)%nat) (snd t)) A.
  Lemma eos_U A psi t : in_N A -> List.length t = N -> eos (relabel A) (U psi) t = U (eos A psi) t.
  Proof.
    intros F Lt. unfold eos, relabel. induction A as [|x A IH].
    - unfold U. cbn. ring.
    - inversion F; subst. cbn [map]. unfold SL in *. cbn [map lsum]. rewrite IH by assumption. cbn [fst snd].
      rewrite eow_U by assumption. unfold U. cbn [map lsum]. ring.
  Qed.
  Lemma relabel_app A B : relabel (A ++ B) = relabel A ++ relabel B.
  Proof. apply map_app. Qed.
  Lemma U_kd s t : List.length s = N -> List.length t = N -> U (kd s) t = sgn (eps a b c s) * kd (mix a b c s) t.
  Proof.
    intros Ls Lt. unfold U, kd.
    assert (E : det_eqb s (mix a c b t) = det_eqb (mix a b c s) t).
    { apply eq_true_iff_eq. rewrite !det_eqb_eq. split; intros Q.
      - subst s. apply mix_mix with (d := d). lia.
      - subst t. symmetry. apply mix_mix with (d := d). lia. }
    rewrite E. destruct (det_eqb (mix a b c s) t) eqn:D; [|ring]. apply det_eqb_eq in D. subst t.
    rewrite (eps_mix a b c d) by assumption. reflexivity.
  Qed.
End FockPerm.
