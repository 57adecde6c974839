(** The string methods of ci_utils.py over a heap of arrays: which arrays they
    write.  A string object holds a reference to its occupation array;
    [numpy.asarray] of an array returns that same array, [.copy()] allocates.
    CIModel.v has the same methods on immutable values; the lemmas below
    connect the two. *)
From Coq Require Import List Bool Arith ZArith Lia.
From Verif Require Import Scalar Tensor NpModel CIModel CISpec CIRep CIFacts.
Import ListNotations.
Local Open Scope Z_scope.

Definition heap := list (list Z).
(** a Dstring or Pstring object *)
Record hobj : Type := mkO { o_n : nat; o_ref : nat }.

(** [x[i]] *)
Definition load (h : heap) (r i : nat) : option Z := let? l := nth_error h r in nth_error l i.
(** [x[i] = v] *)
Definition store (h : heap) (r i : nat) (v : Z) : option heap :=
  let? l := nth_error h r in let? l' := setz l i v in Some (upd r l' h).
(** [x.copy()] *)
Definition copy (h : heap) (r : nat) : option (nat * heap) :=
  let? l := nth_error h r in Some (List.length h, (h ++ [l])%list).
(** Dstring.__init__ and Pstring.__init__ on an array, ci_utils.py:5-8, 38-41 *)
Definition h_init (h : heap) (n r : nat) : option hobj :=
  let? l := nth_error h r in
  if Nat.eqb n (List.length l) then Some (mkO n r) else None.
(** [otemp = x[i:j]; 1 if otemp.sum() % 2 == 0 else -1] *)
Definition h_sign (h : heap) (r i j : nat) : option Z :=
  let? l := nth_error h r in Some (parity_sign (slicez l i j)).

(** Dstring.excite, ci_utils.py:10-31 *)
Definition h_excite (h : heap) (o : hobj) (i a : nat) : option (option (Z * hobj) * heap) :=
  let? x := load h (o_ref o) i in
  if negb (Z.eqb x 1) then Some (None, h) else
  let? y := load h (o_ref o) a in
  if negb (Z.eqb y 0) then Some (None, h) else
  if Nat.eqb i a then
    let? e := h_init h (o_n o) (o_ref o) in Some (Some (1, e), h)
  else if Nat.ltb i a then
    let? (occnew, h) := copy h (o_ref o) in
    let? h := store h occnew i 0 in
    let? h := store h occnew a 1 in
    let? sign := h_sign h (o_ref o) (i + 1) a in
    let? e := h_init h (o_n o) occnew in Some (Some (sign, e), h)
  else
    let? (occnew, h) := copy h (o_ref o) in
    let? h := store h occnew i 0 in
    let? h := store h occnew a 1 in
    let? sign := h_sign h (o_ref o) (a + 1) i in
    let? e := h_init h (o_n o) occnew in Some (Some (sign, e), h).

(** Pstring.raize, ci_utils.py:43-46 *)
Definition h_raize (h : heap) (o : hobj) (p : nat) : option (hobj * heap) :=
  let? (occnew, h) := copy h (o_ref o) in
  let? x := load h occnew p in
  let? h := store h occnew p (x + 1) in
  let? e := h_init h (o_n o) occnew in Some (e, h).

(** Pstring.lower, ci_utils.py:48-54 *)
Definition h_lower (h : heap) (o : hobj) (p : nat) : option (option hobj * heap) :=
  let? (occnew, h) := copy h (o_ref o) in
  let? x := load h occnew p in
  if Z.eqb x 0 then Some (None, h) else
  let? x := load h occnew p in
  let? h := store h occnew p (x - 1) in
  let? e := h_init h (o_n o) occnew in Some (Some e, h).

(** every array that existed before is unchanged *)
Definition preserved (h h' : heap) : Prop :=
  forall r l, nth_error h r = Some l -> nth_error h' r = Some l.

Lemma preserved_refl h : preserved h h. Proof. intros r l H. exact H. Qed.
Lemma preserved_app h l : preserved h (h ++ l).
Proof.
  intros r x H. rewrite nth_error_app1; auto. apply nth_error_Some. congruence.
Qed.

Lemma nth_error_new (h : heap) l : nth_error (h ++ [l]) (List.length h) = Some l.
Proof. rewrite nth_error_app2, Nat.sub_diag by lia. reflexivity. Qed.

Lemma upd_new (h : heap) l l' : upd (List.length h) l' (h ++ [l]) = (h ++ [l'])%list.
Proof. induction h as [|x h IH]; [reflexivity|]. cbn. rewrite IH. reflexivity. Qed.

Lemma store_new (h : heap) l i v : (i < List.length l)%nat ->
  store (h ++ [l]) (List.length h) i v = Some (h ++ [upd i v l])%list.
Proof.
  intros L. unfold store. rewrite nth_error_new. cbn [bindo]. unfold setz.
  apply Nat.ltb_lt in L. rewrite L. cbn [bindo]. rewrite upd_new. reflexivity.
Qed.

Lemma getz_lt (l : list Z) i x : getz l i = Some x -> (i < List.length l)%nat.
Proof. intros H. apply nth_error_Some. unfold getz in H. congruence. Qed.

(** the value of an object in a heap *)
Definition dval (h : heap) (o : hobj) : option dstring :=
  let? l := nth_error h (o_ref o) in Some (mkD (o_n o) l).
Definition pval (h : heap) (o : hobj) : option pstring :=
  let? l := nth_error h (o_ref o) in Some (mkP (o_n o) l).

Lemma init_new (h : heap) n l : n = List.length l -> h_init (h ++ [l]) n (List.length h) = Some (mkO n (List.length h)).
Proof. intros ->. unfold h_init. rewrite nth_error_new. cbn [bindo]. rewrite Nat.eqb_refl. reflexivity. Qed.

Lemma Dstring_eq n l : n = List.length l -> Dstring n l = Some (mkD n l).
Proof. intros ->. unfold Dstring. rewrite Nat.eqb_refl. reflexivity. Qed.

Lemma h_excite_ok (h : heap) (o : hobj) (d : dstring) i a :
  dval h o = Some d -> List.length (d_occ d) = d_n d ->
  match excite d i a with
  | None => h_excite h o i a = None
  | Some None => h_excite h o i a = Some (None, h)
  | Some (Some (sg, e)) => exists o' h', h_excite h o i a = Some (Some (sg, o'), h') /\
      dval h' o' = Some e /\ preserved h h' /\ (o_ref o' <> o_ref o)%nat
  end.
Proof.
  unfold dval. destruct (nth_error h (o_ref o)) as [l|] eqn:E; [|discriminate].
  cbn [bindo]. intros [= <-]. cbn [d_occ d_n]. intros Ln.
  assert (Hr : (o_ref o < List.length h)%nat) by (apply nth_error_Some; congruence).
  unfold excite, h_excite, load. rewrite E. cbn [bindo d_occ d_n]. unfold getz.
  destruct (nth_error l i) as [x|] eqn:Ei; [cbn [bindo]|reflexivity].
  destruct (Z.eqb x 1) eqn:Ex; cbn [negb]; [|reflexivity].
  destruct (nth_error l a) as [y|] eqn:Ea; [cbn [bindo]|reflexivity].
  destruct (Z.eqb y 0) eqn:Ey; cbn [negb]; [|reflexivity].
  assert (Li : (i < List.length l)%nat) by (apply nth_error_Some; congruence).
  assert (La : (a < List.length l)%nat) by (apply nth_error_Some; congruence).
  destruct (Nat.eqb_spec i a) as [->|N].
  { rewrite Ei in Ea. injection Ea as ->. apply Z.eqb_eq in Ex. apply Z.eqb_eq in Ey. lia. }
  assert (S1 : setz l i 0 = Some (upd i 0 l)) by (unfold setz; apply Nat.ltb_lt in Li; rewrite Li; auto).
  assert (S2 : setz (upd i 0 l) a 1 = Some (upd a 1 (upd i 0 l)))
    by (unfold setz; rewrite upd_length; apply Nat.ltb_lt in La; rewrite La; auto).
  assert (D : Dstring (o_n o) (upd a 1 (upd i 0 l)) = Some (mkD (o_n o) (upd a 1 (upd i 0 l))))
    by (apply Dstring_eq; rewrite !upd_length; auto).
  rewrite S1. cbn [bindo]. rewrite S2. cbn [bindo]. rewrite D. cbn [bindo].
  unfold copy. rewrite E. cbn [bindo].
  rewrite store_new by auto. cbn [bindo]. rewrite store_new by (rewrite upd_length; auto). cbn [bindo].
  rewrite init_new by (rewrite !upd_length; auto).
  unfold h_sign. rewrite (nth_error_app1 _ _ Hr), E. cbn [bindo].
  destruct (Nat.ltb i a).
  all: eexists _, _; split; [reflexivity|]; cbn [o_n o_ref bindo];
    rewrite nth_error_new; split; [reflexivity|]; split; [apply preserved_app|lia].
Qed.

Lemma h_raize_ok (h : heap) (o : hobj) (s : pstring) p :
  pval h o = Some s -> List.length (p_occ s) = p_n s ->
  match raize s p with
  | None => h_raize h o p = None
  | Some e => exists o' h', h_raize h o p = Some (o', h') /\
      pval h' o' = Some e /\ preserved h h' /\ (o_ref o' <> o_ref o)%nat
  end.
Proof.
  unfold pval. destruct (nth_error h (o_ref o)) as [l|] eqn:E; [|discriminate].
  cbn [bindo]. intros [= <-]. cbn [p_occ p_n]. intros Ln.
  assert (Hr : (o_ref o < List.length h)%nat) by (apply nth_error_Some; congruence).
  unfold raize, h_raize, copy, load, getz. rewrite E. cbn [bindo p_occ p_n].
  rewrite nth_error_new. cbn [bindo].
  destruct (nth_error l p) as [x|] eqn:Ep; [cbn [bindo]|reflexivity].
  assert (Lp : (p < List.length l)%nat) by (apply nth_error_Some; congruence).
  rewrite store_new by auto. cbn [bindo]. rewrite init_new by (rewrite upd_length; auto). cbn [bindo].
  unfold setz, Pstring. apply Nat.ltb_lt in Lp. rewrite Lp. cbn [bindo].
  rewrite upd_length, Ln, Nat.eqb_refl.
  eexists _, _; split; [reflexivity|]; cbn [o_n o_ref bindo];
    rewrite nth_error_new; split; [reflexivity|]; split; [apply preserved_app|lia].
Qed.

Lemma h_lower_ok (h : heap) (o : hobj) (s : pstring) p :
  pval h o = Some s -> List.length (p_occ s) = p_n s ->
  match lower s p with
  | None => h_lower h o p = None
  | Some None => exists h', h_lower h o p = Some (None, h') /\ preserved h h'
  | Some (Some e) => exists o' h', h_lower h o p = Some (Some o', h') /\
      pval h' o' = Some e /\ preserved h h' /\ (o_ref o' <> o_ref o)%nat
  end.
Proof.
  unfold pval. destruct (nth_error h (o_ref o)) as [l|] eqn:E; [|discriminate].
  cbn [bindo]. intros [= <-]. cbn [p_occ p_n]. intros Ln.
  assert (Hr : (o_ref o < List.length h)%nat) by (apply nth_error_Some; congruence).
  unfold lower, h_lower, copy, load, getz. rewrite E. cbn [bindo p_occ p_n].
  rewrite nth_error_new. cbn [bindo].
  destruct (nth_error l p) as [x|] eqn:Ep; [cbn [bindo]|reflexivity].
  assert (Lp : (p < List.length l)%nat) by (apply nth_error_Some; congruence).
  destruct (Z.eqb x 0). { eexists. split; [reflexivity|apply preserved_app]. }
  rewrite store_new by auto. cbn [bindo]. rewrite init_new by (rewrite upd_length; auto). cbn [bindo].
  unfold setz, Pstring. apply Nat.ltb_lt in Lp. rewrite Lp. cbn [bindo].
  rewrite upd_length, Ln, Nat.eqb_refl. cbn [bindo].
  eexists _, _; split; [reflexivity|]; cbn [o_n o_ref bindo];
    rewrite nth_error_new; split; [reflexivity|]; split; [apply preserved_app|lia].
Qed.
