(** The checks, run on every public function, and consequences. *)
From Coq Require Import List Bool Arith ZArith Lia Ring String.
From Verif Require Import Scalar Tensor PySyntax PySem PySim Sym SymSound Norm CCProg CCSpec Engine
  CCShapes Public CCEquiv CovSpec Cov Rot Size Lin Flip.
Import ListNotations.

Definition mem_str (f : string) (l : list string) : bool := existsb (String.eqb f) l.
Lemma mem_str_false f l : ~ In f l -> mem_str f l = false.
Proof.
  intros H. unfold mem_str. destruct (existsb (String.eqb f) l) eqn:E; [|reflexivity].
  apply existsb_exists in E as (y & Hy & E). apply String.eqb_eq in E. subst. contradiction.
Qed.

Definition rot_all_chk : bool := forallb (fun e => let '(f, a, r) := e in
  mem_str f intermediate_functions || cov_chk rot_chk f (map (pair tt) a) r) public_functions.
Lemma rot_all : rot_all_chk = true.
Proof. vm_cast_no_check (eq_refl true). Qed.

Definition size_all_chk : bool := forallb (fun e => let '(f, a, r) := e in
  mem_str f unlinked_functions || (no_rank0 r && cov_chk size_chk f (map (pair tt) a) r)) public_functions.
Lemma size_all : size_all_chk = true.
Proof. vm_cast_no_check (eq_refl true). Qed.

Definition map_all_chk : bool := forallb (fun e => let '(f, a, r) := e in cov_chk map_chk f (map (pair tt) a) r) public_functions.
Lemma map_all : map_all_chk = true.
Proof. vm_cast_no_check (eq_refl true). Qed.

(** for every entry of a list of marks and every function of this name with
    as many arguments *)
Definition marks_chk (P : ltab -> list cls -> mono -> bool) (tab : list (string * list bool)) : bool :=
  forallb (fun e => let '(f, hs) := e in
    forallb (fun q => let '(g, a, r) := q in
      negb (String.eqb f g && Nat.eqb (List.length hs) (List.length a)) || cov_chk P f (combine hs a) r) public_functions) tab.
Lemma ham_all : marks_chk lin_chk hamiltonian_arguments = true.
Proof. vm_cast_no_check (eq_refl true). Qed.
Lemma lam_lin_all : marks_chk lin_chk lambda_linear = true.
Proof. vm_cast_no_check (eq_refl true). Qed.
Lemma lam_aff_all : marks_chk aff_chk lambda_affine = true.
Proof. vm_cast_no_check (eq_refl true). Qed.
Lemma amp_aff_all : marks_chk aff_chk amplitude_affine = true.
Proof. vm_cast_no_check (eq_refl true). Qed.

Definition flip_all_chk : bool := forallb (fun e => let '(f, ap, rp, b) := e in
    forallb (fun q => let '(g, a, r) := q in
      negb (String.eqb f g && Nat.eqb (List.length ap) (List.length a)) || flip_chk f ap rp b a) public_functions) spin_flips.
Lemma flip_all : flip_all_chk = true.
Proof. vm_cast_no_check (eq_refl true). Qed.

Theorem rot_thm (K : cring) n (U V : space -> nat -> nat -> K) f a r vs ws :
  inverse_of n U V -> In (f, a, r) public_functions -> ~ In f intermediate_functions ->
  related_args (rotated n U V) a vs ws ->
  exists v w, returns f vs v /\ returns f ws w /\ rotated n U V r v w.
Proof.
  intros UV Hf Hi HR. apply (rot_sound K n U V f a r vs ws UV); auto.
  pose proof rot_all as H. unfold rot_all_chk in H. rewrite forallb_forall in H. specialize (H _ Hf). cbn beta iota in H.
  rewrite (mem_str_false _ _ Hi) in H. exact H.
Qed.

Theorem size_thm (K : cring) nA nB f a r (us vs ws : list (pyval K)) :
  In (f, a, r) public_functions -> ~ In f unlinked_functions ->
  related_args3 (noninteracting nA nB) a us vs ws ->
  exists u v w, returns f us u /\ returns f vs v /\ returns f ws w /\ additive nA nB r u v w.
Proof.
  intros Hf Hi HR.
  pose proof size_all as H. unfold size_all_chk in H. rewrite forallb_forall in H. specialize (H _ Hf). cbn beta iota in H.
  rewrite (mem_str_false _ _ Hi) in H. apply andb_prop in H as (H1 & H2). apply (size_sound K nA nB f a r us vs ws); auto.
Qed.

Theorem map_thm (K1 K2 : cring) (h : K1 -> K2) n f a r vs ws :
  ring_map h -> In (f, a, r) public_functions -> related_args (mapped n h) a vs ws ->
  exists v w, returns f vs v /\ returns f ws w /\ mapped n h r v w.
Proof.
  intros Hh Hf HR. apply (map_sound K1 K2 h n f a r vs ws Hh); auto.
  pose proof map_all as H. unfold map_all_chk in H. rewrite forallb_forall in H. exact (H _ Hf).
Qed.

Lemma combined_length {K : cring} n (c d : K) hs : forall l us vs ws, combined_args n c d hs l us vs ws -> List.length hs = List.length l.
Proof.
  induction hs as [|b hs IH]; intros [|s l] [|u us] [|v vs] [|w ws] H; try contradiction; [reflexivity|].
  destruct H as (_ & H). simpl. f_equal. eapply IH; eauto.
Qed.

Lemma marks_in P tab f hs a r : marks_chk P tab = true -> In (f, hs) tab -> In (f, a, r) public_functions ->
  List.length hs = List.length a -> cov_chk P f (combine hs a) r = true.
Proof.
  unfold marks_chk. intros H Ht Hf L. rewrite forallb_forall in H. specialize (H _ Ht). cbn beta iota in H.
  rewrite forallb_forall in H. specialize (H _ Hf). cbn beta iota in H.
  rewrite String.eqb_refl, (proj2 (Nat.eqb_eq _ _) L) in H. exact H.
Qed.

Theorem lin_thm (K : cring) tab n (c d : K) f hs a r us vs ws :
  marks_chk lin_chk tab = true -> In (f, hs) tab -> In (f, a, r) public_functions ->
  combined_args n c d hs a us vs ws ->
  exists u v w, returns f us u /\ returns f vs v /\ returns f ws w /\ combined n c d r u v w.
Proof.
  intros HT Ht Hf HR. apply (lin_sound K n c d hs f a r us vs ws); auto.
  eapply marks_in; eauto. eapply combined_length; eauto.
Qed.

Theorem aff_thm (K : cring) tab n (c d : K) f hs a r us vs ws : cadd c d = c1 ->
  marks_chk aff_chk tab = true -> In (f, hs) tab -> In (f, a, r) public_functions ->
  combined_args n c d hs a us vs ws ->
  exists u v w, returns f us u /\ returns f vs v /\ returns f ws w /\ combined n c d r u v w.
Proof.
  intros CD HT Ht Hf HR. apply (aff_sound K n c d hs f a r us vs ws); auto.
  eapply marks_in; eauto. eapply combined_length; eauto.
Qed.

Theorem flip_thm (K : cring) n f ap rp b a r (vs : list (pyval K)) :
  In (f, ap, rp, b) spin_flips -> In (f, a, r) public_functions -> List.length ap = List.length a ->
  Forall2 (fits n) vs a ->
  (b = true -> forall x y z, In (XTup [x; y; z]) vs -> pair_symmetric x /\ pair_symmetric z) ->
  exists v w, returns f vs v /\ returns f (rearrange_args (A:=conc_alg K) turn_array ap vs) w /\
    xeq (rearrange (A:=conc_alg K) turn_array rp v) w.
Proof.
  intros Ht Hf L F HS. apply (flip_sound K n f ap rp b a vs); auto.
  pose proof flip_all as H. unfold flip_all_chk in H. rewrite forallb_forall in H. specialize (H _ Ht). cbn beta iota in H.
  rewrite forallb_forall in H. specialize (H _ Hf). cbn beta iota in H.
  rewrite String.eqb_refl, (proj2 (Nat.eqb_eq _ _) L) in H. exact H.
Qed.

(** *** Consequences *)

Lemma related_vanishes {K1 K2 : cring} (N : K1 -> K2 -> Prop) (A : list space -> tensor K1 -> tensor K2 -> Prop) s :
  (forall y, N c0 y -> y = c0) ->
  (forall l t u, A l t u -> (forall idx, inrange (shp t) idx -> dat t idx = c0) -> forall idx, inrange (shp u) idx -> dat u idx = c0) ->
  forall v w, related N A s v w -> vanishes v -> vanishes w.
Proof.
  intros HN HA. induction s as [|l|l IH|l IH] using shape_ind'; intros [p|p|ps|ps] [q|q|qs|qs] H Z; cbn [related vanishes] in *; try contradiction.
  - subst p. apply HN, H.
  - exact (HA _ _ _ H Z).
  - revert ps qs H Z. induction IH as [|s l Hs Hl IHl]; intros [|p ps] [|q qs] H Z; try contradiction; [exact I|].
    destruct H as (H1 & H2), Z as (Z1 & Z2). split; [exact (Hs _ _ H1 Z1)|exact (IHl _ _ H2 Z2)].
  - revert ps qs H Z. induction IH as [|[y s] l Hs Hl IHl]; intros [|[? p] ps] [|[? q] qs] H Z; try contradiction; [exact I|].
    destruct H as ((_ & _ & H1) & H2), Z as (Z1 & Z2). cbn [snd] in *. split; [exact (Hs _ _ H1 Z1)|exact (IHl _ _ H2 Z2)].
Qed.

Lemma rotated_vanishes {K : cring} n (U V : space -> nat -> nat -> K) s v w : rotated n U V s v w -> vanishes v -> vanishes w.
Proof.
  apply related_vanishes; [auto|]. intros l t u (S1 & S2 & E) Z idx Hi. rewrite S2 in Hi. rewrite E by exact Hi.
  rewrite (sumL_ext _ _ _ (fun _ => c0)); [apply sumL_0|]. intros jdx Hj. rewrite Z by (rewrite S1; exact Hj).
  destruct K as [car z o ad mu su op hf th hh]. cbn in *. rewrite (Rmul_comm th). apply (ARmul_0_l (Rth_ARth (Eqsth _) (Eq_ext _ _ _) th)).
Qed.

Lemma related3_vanishes {K : cring} (N : K -> K -> K -> Prop) (A : list space -> tensor K -> tensor K -> tensor K -> Prop) s :
  (forall z, N c0 c0 z -> z = c0) ->
  (forall l t u w, A l t u w -> (forall idx, inrange (shp t) idx -> dat t idx = c0) -> (forall idx, inrange (shp u) idx -> dat u idx = c0) ->
     forall idx, inrange (shp w) idx -> dat w idx = c0) ->
  forall u v w, related3 N A s u v w -> vanishes u -> vanishes v -> vanishes w.
Proof.
  intros HN HA. induction s as [|l|l IH|l IH] using shape_ind'; intros [p|p|ps|ps] [q|q|qs|qs] [t|t|ts|ts] H Y Z; cbn [related3 vanishes] in *; try contradiction.
  - subst p q. apply HN, H.
  - exact (HA _ _ _ _ H Y Z).
  - revert ps qs ts H Y Z. induction IH as [|s l Hs Hl IHl]; intros [|p ps] [|q qs] [|t ts] H Y Z; try contradiction; [exact I|].
    destruct H as (H1 & H2), Z as (Z1 & Z2), Y as (Y1 & Y2). split; [eapply Hs|eapply IHl]; eauto.
  - revert ps qs ts H Y Z. induction IH as [|[y s] l Hs Hl IHl]; intros [|[? p] ps] [|[? q] qs] [|[? t] ts] H Y Z; try contradiction; [exact I|].
    destruct H as ((_ & _ & _ & H1) & H2), Z as (Z1 & Z2), Y as (Y1 & Y2). cbn [snd] in *. split; [eapply Hs|eapply IHl]; eauto.
Qed.

Section Dec.
  Variables nA : space -> nat.
  Lemma all_lt_dec l : forall idx, {Forall2 (fun i s => i < nA s)%nat idx l} + {~ Forall2 (fun i s => i < nA s)%nat idx l}.
  Proof.
    induction l as [|s l IH]; intros [|i idx]; try (right; intros F; inversion F; fail); [left; constructor|].
    destruct (lt_dec i (nA s)); [|right; intros F; inversion F; contradiction].
    destruct (IH idx); [left; constructor; auto|right; intros F; inversion F; contradiction].
  Qed.
  Lemma all_le_dec l : forall idx, {Forall2 (fun i s => nA s <= i)%nat idx l} + {~ Forall2 (fun i s => nA s <= i)%nat idx l}.
  Proof.
    induction l as [|s l IH]; intros [|i idx]; try (right; intros F; inversion F; fail); [left; constructor|].
    destruct (le_dec (nA s) i); [|right; intros F; inversion F; contradiction].
    destruct (IH idx); [left; constructor; auto|right; intros F; inversion F; contradiction].
  Qed.
  Definition unshift (l : list space) (idx : list nat) : list nat := map (fun p => (snd p - nA (fst p))%nat) (combine l idx).
  Lemma shift_unshift l : forall idx, Forall2 (fun i s => nA s <= i)%nat idx l -> shifted nA l (unshift l idx) = idx.
  Proof.
    induction l as [|s l IH]; intros idx F; inversion F; subst; [reflexivity|].
    unfold shifted, unshift. cbn [combine map fst snd]. f_equal; [lia|]. apply IH. auto.
  Qed.
  Lemma unshift_shift l : forall idx, List.length idx = List.length l -> unshift l (shifted nA l idx) = idx.
  Proof.
    induction l as [|s l IH]; intros [|i idx] L; simpl in L; try discriminate; [reflexivity|].
    unfold shifted, unshift. cbn [combine map fst snd]. f_equal; [lia|]. apply IH. lia.
  Qed.
  Lemma unshift_range nB l : forall idx, inrange (map (both nA nB) l) idx -> Forall2 (fun i s => nA s <= i)%nat idx l -> inrange (map nB l) (unshift l idx).
  Proof.
    induction l as [|s l IH]; intros idx F G; inversion G; subst; [constructor|]. inversion F; subst.
    unfold unshift. cbn [combine map fst snd]. constructor; [unfold both in *; lia|]. apply IH; auto.
  Qed.
End Dec.

Lemma additive_vanishes {K : cring} nA nB s (u v w : pyval K) : additive nA nB s u v w -> vanishes u -> vanishes v -> vanishes w.
Proof.
  apply related3_vanishes.
  - intros z <-. destruct K as [car o1 o ad mu su op hf th hh]. cbn in *. apply (Radd_0_l th).
  - intros l t u' w' (S1 & S2 & S3 & EA & EB & E0) ZA ZB idx Hi. rewrite S3 in Hi.
    destruct (all_lt_dec nA l idx) as [FA|FA].
    + assert (R : inrange (map nA l) idx) by (clear - FA; induction FA; constructor; auto).
      rewrite EA by exact R. apply ZA. rewrite S1. exact R.
    + destruct (all_le_dec nA l idx) as [FB|FB].
      * rewrite <- (shift_unshift nA l idx FB). pose proof (unshift_range nA nB l idx Hi FB) as R.
        rewrite EB by exact R. apply ZB. rewrite S2. exact R.
      * apply E0; auto.
Qed.

(** *** Related arguments exist *)

Section VMap.
  Variable K : cring.
  Variable g : list space -> tensor K -> tensor K.
  Fixpoint vmap (s : shape) (v : pyval K) {struct s} : pyval K :=
    match s, v with
    | SArr l, XArr t => arr (g l t)
    | STup l, XTup vs => XTup ((fix go (l : list shape) (vs : list (pyval K)) {struct l} : list (pyval K) :=
        match l, vs with s :: l', v :: vs' => vmap s v :: go l' vs' | _, _ => [] end) l vs)
    | SObj l, XObj vs => XObj ((fix go (l : list (string * shape)) (vs : list (string * pyval K)) {struct l} : list (string * pyval K) :=
        match l, vs with (y, s) :: l', (_, v) :: vs' => (y, vmap s v) :: go l' vs' | _, _ => [] end) l vs)
    | _, _ => v
    end.
  Variable n : space -> nat.
  Variable A : list space -> tensor K -> tensor K -> Prop.
  Hypothesis HA : forall l t, shp t = map n l -> A l t (g l t).
  Lemma vmap_related s : forall v, fits n v s -> related eq A s v (vmap s v).
  Proof.
    induction s as [|l|l IH|l IH] using shape_ind'; intros v F; inversion F as [|? ? F1|? ? F1|? ? F1]; subst; cbn [vmap related].
    - reflexivity.
    - apply HA. assumption.
    - clear F. revert vs F1. induction IH as [|s l Hs Hl IHl]; intros vs F1; inversion F1 as [|? ? ? ? F2 F3]; subst; [exact I|]. split; [exact (Hs _ F2)|exact (IHl _ F3)].
    - clear F. revert vs F1. induction IH as [|[y s] l Hs Hl IHl]; intros vs F1; inversion F1 as [|[z v] ? ? ? (E & F2) F3]; subst; [exact I|].
      cbn [fst snd] in *. subst z. split; [repeat (split; [reflexivity|]); exact (Hs _ F2)|exact (IHl _ F3)].
  Qed.
  Lemma vmap_args l : forall vs, Forall2 (fits n) vs l -> exists ws, related_args (related eq A) l vs ws.
  Proof.
    induction l as [|s l IH]; intros vs F; inversion F; subst; [exists []; exact I|].
    destruct (IH _ H3) as (ws & H). exists (vmap s x :: ws). split; [apply vmap_related; auto|exact H].
  Qed.
End VMap.

Definition rotate {K : cring} n (U V : space -> nat -> nat -> K) (l : list space) (t : tensor K) : tensor K :=
  mkT (map n l) (fun idx => sumL (map n l) (fun jdx => cmul (mix U V (Nat.div2 (List.length l)) l idx jdx) (dat t jdx))).

Lemma rotate_ok {K : cring} n (U V : space -> nat -> nat -> K) l t : shp t = map n l -> rotated_array n U V l t (rotate n U V l t).
Proof. intros H. split; [exact H|]. split; [reflexivity|]. intros idx Hi. reflexivity. Qed.

Lemma rotated_args_exist {K : cring} n (U V : space -> nat -> nat -> K) a vs : Forall2 (fits n) vs a ->
  exists ws, related_args (rotated n U V) a vs ws.
Proof. apply (vmap_args K (rotate n U V) n (rotated_array n U V)). intros. apply rotate_ok. auto. Qed.

Section VMap3.
  Variable K : cring.
  Variables nA nB : space -> nat.
  Fixpoint allb (p : nat -> space -> bool) (idx : list nat) (l : list space) : bool :=
    match idx, l with
    | [], [] => true
    | i :: idx', s :: l' => p i s && allb p idx' l'
    | _, _ => false
    end.
  Lemma allb_spec p P : (forall i s, reflect (P i s) (p i s)) -> forall idx l, reflect (Forall2 P idx l) (allb p idx l).
  Proof.
    intros H. induction idx as [|i idx IH]; intros [|s l]; cbn [allb]; try (constructor; constructor); try (constructor; intros F; inversion F).
    destruct (H i s) as [Q|Q]; cbn [andb]; [|constructor; intros F; inversion F; contradiction].
    destruct (IH l) as [R|R]; constructor; [constructor; assumption|intros F; inversion F; contradiction].
  Qed.
  Definition all_ltb idx l := allb (fun i s => i <? nA s) idx l.
  Definition all_leb idx l := allb (fun i s => nA s <=? i) idx l.
  Definition all_ltb_spec idx l : reflect (Forall2 (fun i s => i < nA s) idx l) (all_ltb idx l) :=
    allb_spec _ _ (fun i s => Nat.ltb_spec0 i (nA s)) idx l.
  Definition all_leb_spec idx l : reflect (Forall2 (fun i s => nA s <= i) idx l) (all_leb idx l) :=
    allb_spec _ _ (fun i s => Nat.leb_spec0 (nA s) i) idx l.
  Definition dsum (l : list space) (a b : tensor K) : tensor K :=
    mkT (map (both nA nB) l) (fun idx =>
      if all_ltb idx l then dat a idx else if all_leb idx l then dat b (unshift nA l idx) else c0).
  (** (an array without axes cannot be a direct sum of two) *)
  Lemma dsum_ok l a b : l <> [] -> shp a = map nA l -> shp b = map nB l -> dsum_array nA nB l a b (dsum l a b).
  Proof.
    intros Hl SA SB. split; [exact SA|]. split; [exact SB|]. split; [reflexivity|]. cbn [dat dsum].
    split; [|split].
    - intros idx Hi. destruct (all_ltb_spec idx l) as [F|F]; [reflexivity|]. exfalso. apply F.
      clear - Hi. unfold inrange in Hi. revert idx Hi. induction l; intros idx Hi; inversion Hi; subst; constructor; auto.
    - intros idx Hi. destruct (all_ltb_spec (shifted nA l idx) l) as [F|F].
      + exfalso. destruct l as [|s l]; [congruence|]. inversion Hi; subst. unfold shifted in F. cbn [combine map fst snd] in F. inversion F; subst. lia.
      + destruct (all_leb_spec (shifted nA l idx) l) as [G|G].
        * rewrite unshift_shift; [reflexivity|]. apply Forall2_length in Hi. rewrite map_length in Hi. exact Hi.
        * exfalso. apply G. clear - Hi. unfold inrange in Hi. revert idx Hi. induction l; intros idx Hi; inversion Hi; subst; [constructor|].
          unfold shifted. cbn [combine map fst snd]. constructor; [lia|]. apply IHl. auto.
    - intros idx Hi FA FB. destruct (all_ltb_spec idx l); [contradiction|]. destruct (all_leb_spec idx l); [contradiction|]. reflexivity.
  Qed.
End VMap3.
