(** The symbolic arrays of Sym.v denote what the concrete run computes:
    for every ring, every choice of dimensions and every value of the input
    tensors. *)
From Coq Require Import List Bool Arith Ascii String ZArith Lia Ring.
From Verif Require Import Scalar Tensor PySyntax PySem PySim Sym.
Import ListNotations.

(** *** Facts about letters *)

Lemma mem_ascii_In a l : mem_ascii a l = true <-> In a l.
Proof.
  induction l as [|b l IH]; simpl; [split; [discriminate|tauto]|].
  destruct (Ascii.eqb_spec a b) as [->|H].
  - tauto.
  - rewrite IH. split; [auto|]. intros [E|E]; [congruence|auto].
Qed.

Lemma index_of_lt a l : In a l -> index_of a l < List.length l.
Proof.
  induction l as [|b l IH]; simpl; [tauto|].
  destruct (Ascii.eqb_spec a b) as [->|H]; [lia|].
  intros [E|E]; [congruence|]. specialize (IH E). lia.
Qed.

Lemma dims_of_app {D} (l1 l2 : letters) (env : list (ascii * D)) d1 d2 :
  dims_of l1 env = Some d1 -> dims_of l2 env = Some d2 ->
  dims_of (l1 ++ l2) env = Some (d1 ++ d2).
Proof.
  revert d1. induction l1 as [|a l1 IH]; simpl; intros d1.
  - intros [= <-]. auto.
  - destruct (lookup_letter a env); [|discriminate].
    destruct (dims_of l1 env); [|discriminate]. intros [= <-] H.
    rewrite (IH _ eq_refl H). reflexivity.
Qed.

Lemma dims_of_length {D} (l : letters) (env : list (ascii * D)) ds :
  dims_of l env = Some ds -> List.length ds = List.length l.
Proof.
  revert ds. induction l as [|a l IH]; simpl; intros ds.
  - intros [= <-]. auto.
  - destruct (lookup_letter a env); [|discriminate].
    destruct (dims_of l env); [|discriminate]. intros [= <-]. simpl. auto.
Qed.

Lemma dims_of_nth {D} (d0 : D) (l : letters) (env : list (ascii * D)) ds a :
  dims_of l env = Some ds -> In a l -> lookup_letter a env = Some (nth (index_of a l) ds d0).
Proof.
  revert ds. induction l as [|b l IH]; simpl; intros ds; [tauto|].
  destruct (lookup_letter b env) eqn:E; [|discriminate].
  destruct (dims_of l env) eqn:E1; [|discriminate]. intros [= <-].
  destruct (Ascii.eqb_spec a b) as [->|H]; simpl; auto.
  intros [E2|E2]; [congruence|]. auto.
Qed.

Lemma lookup_In {D} a (env : list (ascii * D)) d :
  lookup_letter a env = Some d -> In a (map fst env).
Proof.
  induction env as [|[b e] env IH]; simpl; [discriminate|].
  destruct (Ascii.eqb_spec a b) as [->|H]; auto.
Qed.

Lemma bound_ordered {D} a out (env : list (ascii * D)) d :
  lookup_letter a env = Some d -> In a (out ++ summed_letters out env).
Proof.
  intros H. apply lookup_In in H. apply in_or_app.
  destruct (mem_ascii a out) eqn:E.
  - left. apply mem_ascii_In. auto.
  - right. apply filter_In. rewrite E. auto.
Qed.

Lemma Forall2_impl' {A B} (R S : A -> B -> Prop) la lb :
  (forall a b, R a b -> S a b) -> Forall2 R la lb -> Forall2 S la lb.
Proof. intros H. induction 1; constructor; auto. Qed.

Lemma Forall2_length {A B} (R : A -> B -> Prop) la lb :
  Forall2 R la lb -> List.length la = List.length lb.
Proof. induction 1; simpl; auto. Qed.

(** *** Binding letters *)

Lemma lookup_app {D} a (e1 e2 : list (ascii * D)) d :
  lookup_letter a e1 = Some d -> lookup_letter a (e1 ++ e2) = Some d.
Proof.
  induction e1 as [|[b e] e1 IH]; simpl; [discriminate|].
  destruct (Ascii.eqb a b); auto.
Qed.

Lemma lookup_app_none {D} a (e1 e2 : list (ascii * D)) :
  lookup_letter a e1 = None -> lookup_letter a (e1 ++ e2) = lookup_letter a e2.
Proof.
  induction e1 as [|[b e] e1 IH]; simpl; [auto|].
  destruct (Ascii.eqb a b); [discriminate|auto].
Qed.

Section BindFacts.
  Context {D : Type} (eqD : D -> D -> bool) (eqD_ok : forall x y, eqD x y = true -> x = y).

  Lemma bind_one_spec ls : forall sh env env', bind_one eqD ls sh env = Some env' ->
    (forall a d, lookup_letter a env = Some d -> lookup_letter a env' = Some d) /\
    Forall2 (fun a d => lookup_letter a env' = Some d) ls sh.
  Proof.
    induction ls as [|a ls IH]; intros [|d sh] env env'; simpl; try discriminate.
    - intros [= <-]. auto.
    - destruct (lookup_letter a env) as [d'|] eqn:E.
      + destruct (eqD d' d) eqn:E1; [|discriminate]. apply eqD_ok in E1. subst d'.
        intros H. destruct (IH _ _ _ H) as [H1 H2]. split; auto.
      + intros H. destruct (IH _ _ _ H) as [H1 H2]. split.
        * intros b e Hb. apply H1. apply lookup_app. auto.
        * constructor; auto. apply H1. rewrite lookup_app_none by auto.
          simpl. rewrite Ascii.eqb_refl. reflexivity.
  Qed.

  Lemma bind_all_spec ins : forall shs env env', bind_all eqD ins shs env = Some env' ->
    (forall a d, lookup_letter a env = Some d -> lookup_letter a env' = Some d) /\
    Forall2 (Forall2 (fun a d => lookup_letter a env' = Some d)) ins shs.
  Proof.
    induction ins as [|ls ins IH]; intros [|sh shs] env env'; simpl; try discriminate.
    - intros [= <-]. auto.
    - destruct (bind_one eqD ls sh env) as [env1|] eqn:E; [|discriminate].
      destruct (bind_one_spec _ _ _ _ E) as [H1 H2].
      intros H. destruct (IH _ _ _ H) as [H3 H4]. split; auto.
      constructor; auto. eapply Forall2_impl'; [|exact H2]. simpl. auto.
  Qed.
End BindFacts.

Lemma lookup_map {D E} (f : D -> E) a (env : list (ascii * D)) :
  lookup_letter a (map (fun p => (fst p, f (snd p))) env) = option_map f (lookup_letter a env).
Proof.
  induction env as [|[b d] env IH]; simpl; auto. destruct (Ascii.eqb a b); auto.
Qed.

Lemma dims_of_map {D E} (f : D -> E) l (env : list (ascii * D)) :
  dims_of l (map (fun p => (fst p, f (snd p))) env) = option_map (map f) (dims_of l env).
Proof.
  induction l as [|a l IH]; simpl; auto. rewrite lookup_map, IH.
  destruct (lookup_letter a env), (dims_of l env); auto.
Qed.

Lemma summed_map {D E} (f : D -> E) out (env : list (ascii * D)) :
  summed_letters out (map (fun p => (fst p, f (snd p))) env) = summed_letters out env.
Proof. unfold summed_letters. rewrite map_map. reflexivity. Qed.

Section BindMap.
  Context {D E : Type} (f : D -> E) (eqD : D -> D -> bool) (eqE : E -> E -> bool).
  Hypothesis Hf : forall x y, eqD x y = true -> eqE (f x) (f y) = true.

  Lemma bind_one_map ls : forall sh env env', bind_one eqD ls sh env = Some env' ->
    bind_one eqE ls (map f sh) (map (fun p => (fst p, f (snd p))) env)
    = Some (map (fun p => (fst p, f (snd p))) env').
  Proof.
    induction ls as [|a ls IH]; intros [|d sh] env env'; simpl; try discriminate.
    - intros [= <-]. auto.
    - rewrite lookup_map. destruct (lookup_letter a env) as [d'|]; simpl.
      + destruct (eqD d' d) eqn:E1; [|discriminate]. rewrite (Hf _ _ E1). apply IH.
      + intros H. rewrite <- (IH _ _ _ H), map_app. reflexivity.
  Qed.

  Lemma bind_all_map ins : forall shs env env', bind_all eqD ins shs env = Some env' ->
    bind_all eqE ins (map (map f) shs) (map (fun p => (fst p, f (snd p))) env)
    = Some (map (fun p => (fst p, f (snd p))) env').
  Proof.
    induction ins as [|ls ins IH]; intros [|sh shs] env env'; simpl; try discriminate.
    - intros [= <-]. auto.
    - destruct (bind_one eqD ls sh env) as [env1|] eqn:E1; [|discriminate].
      rewrite (bind_one_map _ _ _ _ E1). apply IH.
  Qed.
End BindMap.

Lemma inrange_length sh idx : inrange sh idx -> List.length idx = List.length sh.
Proof. intros H. apply Forall2_length in H. auto. Qed.

Lemma inrange_nth sh idx k : inrange sh idx -> k < List.length sh -> nth k idx 0 < nth k sh 0.
Proof.
  intros H. revert k. induction H as [|i n idx sh Hi H IH]; simpl; intros k Hk; [lia|].
  destruct k; auto. apply IH. lia.
Qed.

Lemma inrange_app s1 s2 i1 i2 : inrange s1 i1 -> inrange s2 i2 -> inrange (s1 ++ s2) (i1 ++ i2).
Proof. intros. apply Forall2_app; auto. Qed.

Lemma shape_eqb_refl s : shape_eqb s s = true.
Proof. induction s; simpl; auto. rewrite Nat.eqb_refl. auto. Qed.

Lemma shape_eqb_eq s t : shape_eqb s t = true -> s = t.
Proof.
  revert t. induction s as [|x s IH]; intros [|y t]; simpl; try discriminate; auto.
  intros H. apply andb_prop in H. destruct H as [H1 H2].
  apply Nat.eqb_eq in H1. f_equal; auto.
Qed.

Lemma cls_list_eqb_eq s t : cls_list_eqb s t = true -> s = t.
Proof.
  revert t. induction s as [|x s IH]; intros [|y t]; simpl; try discriminate; auto.
  destruct (Pos.eqb_spec x y); [|discriminate]. intros H. f_equal; auto.
Qed.

(** *** Transposition *)

Lemma find_nat_spec n l : existsb (Nat.eqb n) l = true ->
  find_nat n l < List.length l /\ nth (find_nat n l) l 0 = n.
Proof.
  induction l as [|m l IH]; simpl; [discriminate|].
  destruct (Nat.eqb_spec n m) as [->|H]; simpl; [intros; split; [lia|auto]|].
  intros E. destruct (IH E). split; [lia|auto].
Qed.

Lemma is_perm_spec p r : is_perm p r = true ->
  List.length p = r /\ forall k, k < r -> find_nat k p < r /\ nth (find_nat k p) p 0 = k.
Proof.
  unfold is_perm. intros H. apply andb_prop in H. destruct H as [H1 H2].
  apply Nat.eqb_eq in H1. split; auto. intros k Hk.
  rewrite forallb_forall in H2. specialize (H2 k (proj2 (in_seq _ _ _) (conj (Nat.le_0_l _) Hk))).
  apply find_nat_spec in H2. rewrite H1 in H2. auto.
Qed.

Lemma Forall2_nth_intro {A B} (R : A -> B -> Prop) (da : A) (db : B) la lb :
  List.length la = List.length lb ->
  (forall k, k < List.length la -> R (nth k la da) (nth k lb db)) -> Forall2 R la lb.
Proof.
  revert lb. induction la as [|a la IH]; intros [|b lb]; simpl; try discriminate; auto.
  intros [= H] HR. constructor.
  - apply (HR 0). lia.
  - apply IH; auto. intros k Hk. apply (HR (S k)). lia.
Qed.

Lemma nth_map_lt {A B} (f : A -> B) l n d d' : n < List.length l ->
  nth n (map f l) d = f (nth n l d').
Proof. intros H. rewrite (nth_indep _ d (f d')) by (rewrite map_length; auto). apply map_nth. Qed.

Lemma inrange_untrans p sh idx : is_perm p (List.length sh) = true ->
  inrange (map (fun k => nth k sh 0) p) idx -> inrange sh (untrans p (List.length sh) idx).
Proof.
  intros Hp Hi. destruct (is_perm_spec _ _ Hp) as [Hl Hk].
  apply Forall2_nth_intro with (da := 0) (db := 0).
  - unfold untrans. rewrite map_length, seq_length. reflexivity.
  - unfold untrans. rewrite map_length, seq_length. intros k Hk'.
    rewrite (nth_map_lt _ _ _ _ 0) by (rewrite seq_length; auto).
    rewrite seq_nth by auto. simpl. destruct (Hk k Hk') as [Hk1 Hk2].
    pose proof (inrange_nth _ _ (find_nat k p) Hi) as H.
    rewrite map_length, Hl in H. specialize (H Hk1).
    rewrite (nth_map_lt _ _ _ _ 0) in H by lia. rewrite Hk2 in H. auto.
Qed.

Section Sound.
  Variable K : cring.
  Local Open Scope K_scope.
  Add Ring Kr : (c_th K).

  (** dimensions of the classes and values of the input tensors *)
  Variable dim : cls -> nat.
  Variable rho : positive -> list nat -> K.

  Definition look (xs ds : list nat) (i : ix) : nat :=
    match i with X n => nth n xs 0%nat | D n => nth n ds 0%nat end.

  Definition den_fac (xs ds : list nat) (f : positive * list ix) : K :=
    rho (fst f) (map (look xs ds) (snd f)).

  Definition den_mono (xs : list nat) (m : mono) : K :=
    dyad (m_z m) (m_k m) *
    sumL (map dim (m_dm m)) (fun ds => prodK (map (den_fac xs ds) (m_fs m))).

  Definition den (xs : list nat) (ms : list mono) : K := lsum (map (den_mono xs) ms).

  Definition ix_ok (r d : nat) (i : ix) : Prop :=
    match i with X n => n < r | D n => n < d end.

  Definition m_ok (r : nat) (m : mono) : Prop :=
    Forall (fun p => Forall (ix_ok r (List.length (m_dm m))) (snd p)) (m_fs m).

  Definition Rnum (ms : list mono) (k : K) : Prop := Forall (m_ok 0) ms /\ k = den [] ms.

  Definition Rarr (sa : stens) (t : tensor K) : Prop :=
    shp t = map dim (s_sh sa) /\
    Forall (m_ok (List.length (s_sh sa))) (s_ms sa) /\
    forall idx, inrange (shp t) idx -> dat t idx = den idx (s_ms sa).

  Lemma den_app xs a b : den xs (a ++ b) = den xs a + den xs b.
  Proof. unfold den. rewrite map_app, lsum_app. reflexivity. Qed.

  Lemma den_mono_ext xs ys m : m_ok (List.length xs) m ->
    (forall n, (n < List.length xs)%nat -> nth n xs 0%nat = nth n ys 0%nat) ->
    den_mono xs m = den_mono ys m.
  Proof.
    intros Hm H. unfold den_mono. f_equal. apply sumL_ext. intros ds Hds.
    f_equal. apply map_ext_in. intros [t is] Hin. unfold den_fac. simpl. f_equal.
    apply map_ext_in. intros i Hi. unfold m_ok in Hm. rewrite Forall_forall in Hm.
    specialize (Hm _ Hin). simpl in Hm. rewrite Forall_forall in Hm. specialize (Hm _ Hi).
    destruct i; simpl in *; auto.
  Qed.

  Lemma den_mono_closed xs m : m_ok 0 m -> den_mono xs m = den_mono [] m.
  Proof.
    intros H. symmetry. apply den_mono_ext; simpl; auto. intros n Hn. lia.
  Qed.

  Lemma m_ok_weaken r s m : (r <= s)%nat -> m_ok r m -> m_ok s m.
  Proof.
    intros H. unfold m_ok. apply Forall_impl. intros p. apply Forall_impl.
    intros [n|n]; simpl; lia.
  Qed.

  Lemma m_ok_map r r' dm dm' f fs z k z' k' :
    (forall i, ix_ok r (List.length dm) i -> ix_ok r' (List.length dm') (f i)) ->
    m_ok r (Mono z k dm fs) -> m_ok r' (Mono z' k' dm' (map_ix f fs)).
  Proof.
    intros Hf H. unfold m_ok in *. simpl in *. unfold map_ix.
    rewrite Forall_map. eapply Forall_impl; [|exact H]. simpl. intros [t is]. simpl.
    rewrite Forall_map. apply Forall_impl. auto.
  Qed.

  Lemma den_mono_map_ix xs ds ys es f fs :
    (forall p i, In p fs -> In i (snd p) -> look xs ds (f i) = look ys es i) ->
    map (den_fac xs ds) (map_ix f fs) = map (den_fac ys es) fs.
  Proof.
    intros H. unfold map_ix. rewrite map_map. apply map_ext_in. intros [t is] Hin.
    unfold den_fac. simpl. f_equal. rewrite map_map. apply map_ext_in. intros i Hi.
    eapply H; eauto.
  Qed.

  Lemma m_ok_in r m p i : m_ok r m -> In p (m_fs m) -> In i (snd p) ->
    ix_ok r (List.length (m_dm m)) i.
  Proof.
    unfold m_ok. rewrite Forall_forall. intros H Hp Hi. specialize (H _ Hp). simpl in H.
    rewrite Forall_forall in H. auto.
  Qed.

  Lemma m_ren_ok p r m : m_ok (List.length p) m -> Forall (fun k => (k < r)%nat) p ->
    m_ok r (m_ren p m).
  Proof.
    intros H Hp. destruct m as [z k dm fs]. unfold m_ren. simpl.
    eapply m_ok_map; [|exact H]. intros [n|n]; simpl; auto. intros Hn.
    rewrite Forall_forall in Hp. apply Hp. apply nth_In. auto.
  Qed.

  Lemma den_ren p xs m : m_ok (List.length p) m ->
    den_mono xs (m_ren p m) = den_mono (map (fun k => nth k xs 0%nat) p) m.
  Proof.
    intros H. unfold den_mono. f_equal. apply sumL_ext. intros ds Hds. simpl. f_equal.
    apply den_mono_map_ix. intros q i Hq Hi. pose proof (m_ok_in _ _ _ _ H Hq Hi) as Hok.
    destruct i; simpl in *; auto. rewrite (nth_map_lt _ _ _ _ 0%nat); auto.
  Qed.

  Lemma m_mul_ok r a b : m_ok r a -> m_ok r b -> m_ok r (m_mul a b).
  Proof.
    intros Ha Hb. destruct a as [z k dm fs], b as [z' k' dm' fs'].
    unfold m_mul, m_ok. simpl. apply Forall_app. split.
    - unfold m_ok in Ha. simpl in Ha. eapply Forall_impl; [|exact Ha]. intros p.
      apply Forall_impl. intros [n|n]; simpl; auto. rewrite app_length. lia.
    - apply (m_ok_map r r dm' (dm ++ dm') _ _ z' k' z' k'); auto.
      intros [n|n]; simpl; auto. rewrite app_length. lia.
  Qed.

  Lemma sumL_len ns (f g : list nat -> K) :
    (forall ds, List.length ds = List.length ns -> f ds = g ds) -> sumL ns f = sumL ns g.
  Proof.
    intros H. apply sumL_ext. intros ds Hds. apply H. apply Forall2_length in Hds. auto.
  Qed.

  Lemma den_mul r xs a b : m_ok r a -> m_ok r b ->
    den_mono xs (m_mul a b) = den_mono xs a * den_mono xs b.
  Proof.
    intros Ha Hb. unfold den_mono, m_mul. simpl. rewrite dyad_mul, map_app, sumL_app.
    transitivity (dyad (m_z a) (m_k a) * dyad (m_z b) (m_k b) *
      (sumL (map dim (m_dm a)) (fun ds => prodK (map (den_fac xs ds) (m_fs a))) *
       sumL (map dim (m_dm b)) (fun ds => prodK (map (den_fac xs ds) (m_fs b))))); [|ring].
    f_equal. rewrite sumL_prod. apply sumL_len. intros d1 H1. apply sumL_len. intros d2 H2.
    rewrite map_length in H1, H2.
    rewrite map_app, prodK_app. f_equal; f_equal.
    - apply map_ext_in. intros [t is] Hin. unfold den_fac. simpl. f_equal.
      apply map_ext_in. intros i Hi. pose proof (m_ok_in _ _ _ _ Ha Hin Hi) as Hok.
      destruct i; simpl in *; auto. rewrite app_nth1 by lia. auto.
    - apply den_mono_map_ix. intros q i Hq Hi. destruct i; simpl; auto.
      rewrite app_nth2 by lia. f_equal. lia.
  Qed.

  Lemma den_neg xs m : den_mono xs (m_neg m) = - den_mono xs m.
  Proof. unfold den_mono, m_neg. simpl. rewrite dyad_opp. ring. Qed.

  Lemma m_close_ok r sc m : m_ok (r + List.length sc) m -> m_ok r (m_close r sc m).
  Proof.
    intros H. destruct m as [z k dm fs]. unfold m_close. simpl.
    eapply m_ok_map; [|exact H]. intros [n|n]; simpl; rewrite ?app_length; [|lia].
    destruct (Nat.ltb_spec n r); simpl; rewrite ?app_length; lia.
  Qed.

  Lemma den_close xs sc m : m_ok (List.length xs + List.length sc) m ->
    den_mono xs (m_close (List.length xs) sc m) =
    sumL (map dim sc) (fun s => den_mono (xs ++ s) m).
  Proof.
    intros H. unfold den_mono, m_close. simpl. rewrite map_app, sumL_app.
    rewrite <- sumL_mul_l. apply sumL_len. intros s Hs. f_equal.
    apply sumL_len. intros ds Hds. f_equal. rewrite map_length in Hs, Hds.
    apply den_mono_map_ix. intros q i Hq Hi. pose proof (m_ok_in _ _ _ _ H Hq Hi) as Hok.
    destruct i as [n|n]; simpl in *.
    - destruct (Nat.ltb_spec n (List.length xs)); simpl.
      + rewrite app_nth1; auto.
      + rewrite app_nth1 by lia. rewrite app_nth2 by lia. auto.
    - rewrite app_nth2 by lia. f_equal. lia.
  Qed.

  Lemma ms_mul_ok r a b : Forall (m_ok r) a -> Forall (m_ok r) b -> Forall (m_ok r) (ms_mul a b).
  Proof.
    intros Ha Hb. unfold ms_mul. rewrite Forall_forall. intros m Hm.
    apply in_flat_map in Hm. destruct Hm as (x & Hx & Hm). apply in_map_iff in Hm.
    destruct Hm as (y & <- & Hy). rewrite Forall_forall in Ha, Hb. apply m_mul_ok; auto.
  Qed.

  Lemma den_ms_mul r xs a b : Forall (m_ok r) a -> Forall (m_ok r) b ->
    den xs (ms_mul a b) = den xs a * den xs b.
  Proof.
    intros Ha Hb. induction Ha as [|x a Hx Ha IH].
    - unfold den. simpl. ring.
    - change (ms_mul (x :: a) b) with (map (m_mul x) b ++ ms_mul a b).
      rewrite den_app, IH. unfold den at 4. simpl. fold (den xs a).
      replace (den xs (map (m_mul x) b)) with (den_mono xs x * den xs b); [ring|].
      clear - Hx Hb. induction Hb as [|y b Hy Hb IH]; unfold den in *; simpl.
      + ring.
      + rewrite <- IH, (den_mul r) by auto. ring.
  Qed.

  Lemma den_ms_neg xs a : den xs (map m_neg a) = - den xs a.
  Proof.
    induction a as [|x a IH]; unfold den in *; simpl; [ring|]. rewrite IH, den_neg. ring.
  Qed.

  Lemma neg_ok r a : Forall (m_ok r) a -> Forall (m_ok r) (map m_neg a).
  Proof. intros H. rewrite Forall_map. eapply Forall_impl; [|exact H]. auto. Qed.

  Lemma den_closed xs ms : Forall (m_ok 0) ms -> den xs ms = den [] ms.
  Proof.
    intros H. unfold den. f_equal. apply map_ext_in. intros m Hm.
    rewrite Forall_forall in H. apply den_mono_closed. auto.
  Qed.

  Lemma ms_ok_weaken r s ms : (r <= s)%nat -> Forall (m_ok r) ms -> Forall (m_ok s) ms.
  Proof. intros H. apply Forall_impl. intros m. apply m_ok_weaken. auto. Qed.

  (** *** The operations are related *)

  Lemma S_const z k : Rnum [Mono z k [] []] (dyad z k).
  Proof.
    split.
    - repeat constructor.
    - unfold den, den_mono. simpl. ring.
  Qed.

  Lemma S_nadd a a' b b' : Rnum a a' -> Rnum b b' -> Rnum (a ++ b) (a' + b').
  Proof.
    intros [Ha ->] [Hb ->]. split; [apply Forall_app; auto|]. rewrite den_app. reflexivity.
  Qed.

  Lemma S_nmul a a' b b' : Rnum a a' -> Rnum b b' -> Rnum (ms_mul a b) (a' * b').
  Proof.
    intros [Ha ->] [Hb ->]. split; [apply ms_mul_ok; auto|].
    rewrite (den_ms_mul 0); auto.
  Qed.

  Lemma S_nneg a a' : Rnum a a' -> Rnum (map m_neg a) (- a').
  Proof. intros [Ha ->]. split; [apply neg_ok; auto|]. rewrite den_ms_neg. reflexivity. Qed.

  Lemma S_aadd a a' b b' c : Rarr a a' -> Rarr b b' -> s_add a b = Some c ->
    exists c', tadd a' b' = Some c' /\ Rarr c c'.
  Proof.
    intros (Hs & Hok & Hd) (Hs' & Hok' & Hd'). unfold s_add, tadd.
    destruct (cls_list_eqb (s_sh a) (s_sh b)) eqn:E; [|discriminate].
    apply cls_list_eqb_eq in E. intros [= <-].
    rewrite Hs, Hs', <- E, shape_eqb_refl. eexists. split; [reflexivity|].
    split; [|split]; simpl; auto.
    - apply Forall_app. rewrite <- E in Hok'. auto.
    - intros idx Hi. rewrite den_app, Hd, Hd'; auto.
      + rewrite Hs', <- E. auto.
      + rewrite Hs. auto.
  Qed.

  Lemma S_aneg a a' : Rarr a a' -> Rarr (s_neg a) (tneg a').
  Proof.
    intros (Hs & Hok & Hd). split; [|split]; simpl; auto.
    - apply neg_ok. auto.
    - intros idx Hi. rewrite den_ms_neg, Hd; auto.
  Qed.

  Lemma S_ascale k k' a a' : Rnum k k' -> Rarr a a' -> Rarr (s_scale k a) (tscale k' a').
  Proof.
    intros [Hk ->] (Hs & Hok & Hd). split; [|split]; simpl; auto.
    - apply ms_mul_ok; auto. apply (ms_ok_weaken 0); auto. lia.
    - intros idx Hi. rewrite Hd by auto.
      rewrite (den_ms_mul (List.length (s_sh a))); auto.
      + rewrite (den_closed idx k); auto.
      + apply (ms_ok_weaken 0); auto. lia.
  Qed.

  Lemma S_atrans p a a' c : Rarr a a' -> s_trans p a = Some c ->
    exists c', ttrans p a' = Some c' /\ Rarr c c'.
  Proof.
    intros (Hs & Hok & Hd). unfold s_trans, ttrans.
    rewrite Hs, map_length.
    destruct (is_perm p (List.length (s_sh a))) eqn:E; [|discriminate]. intros [= <-].
    destruct (is_perm_spec _ _ E) as [Hl Hk].
    eexists. split; [reflexivity|].
    assert (Hsh : map (fun k => nth k (map dim (s_sh a)) 0%nat) p =
                  map dim (map (fun k => nth k (s_sh a) 1%positive) p)).
    { rewrite map_map. apply map_ext_in. intros k Hin. apply nth_map_lt.
      unfold is_perm in E. apply andb_prop in E. destruct E as [E1 E2].
      assert (Hincl : incl (seq 0 (List.length (s_sh a))) p).
      { intros j Hj. rewrite forallb_forall in E2. specialize (E2 j Hj).
        apply existsb_exists in E2. destruct E2 as (y & Hy & Ey). apply Nat.eqb_eq in Ey.
        subst. auto. }
      apply NoDup_length_incl in Hincl; [|apply seq_NoDup|rewrite seq_length; lia].
      specialize (Hincl _ Hin). apply in_seq in Hincl. lia. }
    split; [|split]; simpl.
    - exact Hsh.
    - rewrite Forall_map. eapply Forall_impl; [|exact Hok]. intros m Hm.
      apply m_ren_ok.
      + rewrite map_length, seq_length. auto.
      + rewrite map_length, Hl. rewrite Forall_map. rewrite Forall_forall. intros k Hin.
        apply in_seq in Hin. apply Hk. lia.
    - intros idx Hi. rewrite Hd.
      + unfold den. rewrite map_map. f_equal. apply map_ext_in. intros m Hm.
        rewrite den_ren.
        * unfold untrans. rewrite map_map. reflexivity.
        * rewrite map_length, seq_length. rewrite Forall_forall in Hok. auto.
      + rewrite Hs. rewrite <- (map_length dim (s_sh a)).
        apply inrange_untrans; auto. rewrite map_length. auto.
  Qed.

  Lemma fold_mul_ok r ops : Forall (Forall (m_ok r)) ops ->
    Forall (m_ok r) (fold_right ms_mul [m_one] ops).
  Proof.
    induction 1; simpl.
    - repeat constructor.
    - apply ms_mul_ok; auto.
  Qed.

  Lemma fold_mul_den r xs ops : Forall (Forall (m_ok r)) ops ->
    den xs (fold_right ms_mul [m_one] ops) = prodK (map (den xs) ops).
  Proof.
    induction 1 as [|o ops Ho Hops IH]; simpl.
    - unfold den, den_mono, m_one. simpl. unfold dyad. simpl. ring.
    - rewrite (den_ms_mul r); auto. + rewrite IH. auto. + apply fold_mul_ok. auto.
  Qed.

  Lemma Forall2_combine_in {A B} (R : A -> B -> Prop) la lb :
    Forall2 R la lb -> forall a b, In (a, b) (combine la lb) -> R a b.
  Proof.
    induction 1; simpl; [tauto|]. intros a b [E|E]; [injection E as <- <-; auto|auto].
  Qed.

  Lemma S_einsum ins out ts ts' r : Forall2 Rarr ts ts' ->
    s_einsum ins out ts = Some r ->
    exists r', conc_einsum K ins out ts' = Some r' /\
      match r, r' with
      | inl a, inl a' => Rnum a a'
      | inr a, inr a' => Rarr a a'
      | _, _ => False
      end.
  Proof.
    intros Hts. unfold s_einsum, conc_einsum, einsum.
    destruct (bind_all Pos.eqb ins (map s_sh ts) []) as [env|] eqn:Eb; [|discriminate].
    assert (Hshs : map shp ts' = map (map dim) (map s_sh ts)).
    { clear - Hts. induction Hts as [|a t ts ts' Ha Hts IH]; simpl; auto.
      destruct Ha as [-> _]. f_equal. auto. }
    rewrite Hshs.
    assert (Hfd : forall x y, Pos.eqb x y = true -> Nat.eqb (dim x) (dim y) = true).
    { intros x y H. apply Pos.eqb_eq in H. subst. apply Nat.eqb_refl. }
    pose proof (bind_all_map dim Pos.eqb Nat.eqb Hfd _ _ _ _ Eb) as Eb'. simpl in Eb'.
    rewrite Eb'. clear Hfd. rewrite summed_map, !dims_of_map.
    set (sm := summed_letters out env).
    destruct (dims_of out env) as [od|] eqn:Eo; [|discriminate].
    destruct (dims_of sm env) as [sd|] eqn:Es; [|discriminate].
    rewrite (Eo : @dims_of cls out env = Some od).
    change (@summed_letters cls out env) with sm.
    rewrite (Es : @dims_of cls sm env = Some sd).
    destruct (nodup_ascii out); [|discriminate]. cbn [option_map].
    set (ops := map (fun lt => map (m_ren (map (fun a => index_of a (out ++ sm)) (fst lt)))
                      (s_ms (snd lt))) (combine ins ts)).
    assert (HB : forall x y, Pos.eqb x y = true -> x = y) by (intros x y; apply Pos.eqb_eq).
    destruct (bind_all_spec Pos.eqb HB _ _ _ _ Eb) as [_ Hbound]. clear HB.
    pose proof (dims_of_app _ _ _ _ _ Eo Es) as Eord.
    pose proof (dims_of_length _ _ _ Eo : @List.length cls od = List.length out) as Lo.
    pose proof (dims_of_length _ _ _ Es : @List.length cls sd = List.length sm) as Ls.
    assert (Hlen : forall ls t, In (ls, t) (combine ins ts) ->
              List.length ls = List.length (s_sh t) /\
              Forall2 (fun a d => lookup_letter a env = Some d) ls (s_sh t)).
    { intros ls t Hin. assert (Hin' : In (ls, s_sh t) (combine ins (map s_sh ts))).
      { clear - Hin. revert ts Hin. induction ins as [|i ins IH]; intros [|u ts]; simpl; auto.
        intros [E|E]; [injection E as <- <-; auto|auto]. }
      pose proof (Forall2_combine_in _ _ _ Hbound _ _ Hin') as H. split; auto.
      apply Forall2_length in H. auto. }
    assert (Hops : Forall (Forall (m_ok (List.length (out ++ sm)))) ops).
    { unfold ops. rewrite Forall_map. rewrite Forall_forall. intros [ls t] Hin. simpl.
      destruct (Hlen _ _ Hin) as [HL HF]. rewrite Forall_map. rewrite Forall_forall.
      intros m Hm. apply m_ren_ok.
      - rewrite map_length, HL. apply in_combine_r in Hin.
        clear - Hts Hin Hm. induction Hts as [|a t' ts ts' Ha Hts IH]; [destruct Hin|].
        destruct Hin as [<-|Hin]; auto. destruct Ha as (_ & Hok & _).
        rewrite Forall_forall in Hok. auto.
      - rewrite Forall_map. rewrite Forall_forall. intros a Ha. apply index_of_lt.
        clear - HF Ha. fold sm.
        induction HF as [|b d ls sh Hb HF IH]; [destruct Ha|].
        destruct Ha as [<-|Ha]; auto. eapply bound_ordered. eauto. }
    assert (Hval : forall idx, inrange (map dim od) idx ->
      sumL (map dim sd) (fun s => prodK (map (fun lt => dat (snd lt)
         (map (fun a => nth (index_of a (out ++ sm)) (idx ++ s) 0%nat) (fst lt)))
         (combine ins ts'))) =
      den idx (map (m_close (List.length out) sd) (fold_right ms_mul [m_one] ops))).
    { intros idx Hidx.
      assert (Lidx : List.length idx = List.length out).
      { apply inrange_length in Hidx. rewrite map_length in Hidx. etransitivity; [exact Hidx|exact Lo]. }
      unfold den at 1. rewrite map_map.
      transitivity (lsum (map (fun m => sumL (map dim sd) (fun s => den_mono (idx ++ s) m))
                         (fold_right ms_mul [m_one] ops))).
      2:{ f_equal. apply map_ext_in. intros m Hm. rewrite <- Lidx. rewrite den_close; auto.
          pose proof (fold_mul_ok _ _ Hops) as H. rewrite Forall_forall in H.
          specialize (H _ Hm). rewrite app_length in H. rewrite Lidx, Ls. auto. }
      rewrite <- sumL_lsum. apply sumL_ext. intros s Hs.
      match goal with |- _ = ?R =>
        change R with (den (idx ++ s) (fold_right ms_mul [m_one] ops)) end.
      rewrite (fold_mul_den _ _ _ Hops). f_equal. unfold ops. rewrite map_map.
      assert (Hr : inrange (map dim (od ++ sd)) (idx ++ s)).
      { rewrite map_app. apply inrange_app; auto. }
      clear Hops ops Hshs Eb Eb' Hs Hidx.
      revert ts ts' Hts Hbound Hlen. induction ins as [|ls ins IH]; intros ts ts' Hts Hbound Hlen;
        simpl; auto.
      destruct Hts as [|t t' ts ts' Ht Hts]; simpl; auto. inversion Hbound; subst. f_equal.
      - destruct (Hlen ls t (or_introl eq_refl)) as [HL HF].
        destruct Ht as (Hsh & Hok & Hd). rewrite Hd.
        + unfold den. rewrite map_map. f_equal. apply map_ext_in. intros m Hm.
          rewrite den_ren.
          * rewrite map_map. reflexivity.
          * rewrite map_length, HL. rewrite Forall_forall in Hok. auto.
        + rewrite Hsh. clear - HF Hr Eord. induction HF as [|a d ls sh Ha HF IH]; simpl.
          * constructor.
          * constructor; auto.
            pose proof (bound_ordered _ out _ _ Ha) as Hin. fold sm in Hin.
            pose proof (dims_of_nth 1%positive _ _ _ _ Eord Hin) as Hd.
            rewrite Ha in Hd. injection Hd as ->.
            pose proof (inrange_nth _ _ (index_of a (out ++ sm)) Hr) as H.
            rewrite map_length in H. pose proof (dims_of_length _ _ _ Eord : @List.length cls (od ++ sd) = _) as HL.
            rewrite HL in H. specialize (H (index_of_lt _ _ Hin)).
            erewrite (nth_map_lt dim) in H; [exact H|]. rewrite HL. apply index_of_lt. auto.
      - apply IH; auto. intros ls0 t0 Hin. apply Hlen. right. auto. }
    assert (Hcl : Forall (m_ok (List.length out))
                    (map (m_close (List.length out) sd) (fold_right ms_mul [m_one] ops))).
    { rewrite Forall_map. eapply Forall_impl; [|apply (fold_mul_ok _ _ Hops)].
      intros m Hm. apply m_close_ok. rewrite app_length in Hm. rewrite Ls. auto. }
    destruct out as [|o out0].
    - intros [= <-]. eexists. split; [reflexivity|]. simpl in Hcl. split; auto.
      simpl. simpl in Eo. injection Eo as <-. apply (Hval []). constructor.
    - intros [= <-]. eexists. split; [reflexivity|]. split; [|split]; simpl; auto.
      rewrite Lo. exact Hcl.
  Qed.

  Notation Rxv := (Rx sym_alg (conc_alg K) Rnum Rarr).

  (** What the symbolic run computes, the concrete run computes. *)
  Theorem pycall_sound prog f args args' r out :
    Forall2 Rxv args args' -> pycall sym_alg prog f args = Ok (r, out) ->
    exists r' out', pycall (conc_alg K) prog f args' = Ok (r', out') /\
      Rxv r r' /\ Forall2 Rxv out out'.
  Proof.
    apply pycall_sim.
    - exact S_const.
    - exact S_nadd.
    - exact S_nmul.
    - exact S_nneg.
    - exact S_aadd.
    - exact S_aneg.
    - exact S_ascale.
    - exact S_atrans.
    - intros ins o ts ts' s. exact (S_einsum ins o ts ts' s).
  Qed.

  Lemma input_sound tid sh t : shp t = map dim sh ->
    (forall idx, inrange (shp t) idx -> rho tid idx = dat t idx) -> Rarr (s_input tid sh) t.
  Proof.
    intros Hs Hd. split; [|split]; simpl; auto.
    - repeat constructor. unfold m_ok. simpl. rewrite Forall_map.
      rewrite Forall_forall. intros k Hk. apply in_seq in Hk. simpl. lia.
    - intros idx Hi. unfold den, den_mono. simpl. unfold den_fac. simpl.
      rewrite <- Hd by auto.
      replace (map (look idx []) (map X (seq 0 (List.length sh)))) with idx.
      + unfold dyad. simpl. ring.
      + rewrite map_map. simpl. apply inrange_length in Hi. rewrite Hs, map_length in Hi.
        rewrite <- Hi. clear. induction idx as [|a idx IH]; simpl; auto.
        f_equal. rewrite <- seq_shift, map_map. exact IH.
  Qed.
End Sound.
