(** Checking that a symbolic polynomial is zero.

    Each term comes with a certificate: a renumbering of its summed indices.
    The checker renames, brings every factor to the preferred one of the forms
    given by the tensor symmetries, sorts the factors and adds up the
    coefficients of equal terms.  The certificates are found by [find_certs],
    which is not trusted. *)
From Coq Require Import List Bool Arith ZArith Lia Ring FMapPositive Permutation.
From Verif Require Import Scalar Tensor PySyntax PySem PySim Sym SymSound.
Import ListNotations.

(** [(s, p, t')] as a symmetry of tensor [t]:
    t[idx] = (-1)^s t'[idx_p0, idx_p1, ...]. *)
Definition alt : Type := (bool * list nat * positive)%type.
Definition tinfo : Type := (list cls * list alt)%type.
Definition table := list (positive * tinfo).
Definition tmap := PositiveMap.t tinfo.

Definition mk_map (l : table) : tmap :=
  fold_right (fun p m => PositiveMap.add (fst p) (snd p) m) (PositiveMap.empty _) l.

Definition fac : Type := (positive * list ix)%type.

Definition cmp_ix (a b : ix) : comparison :=
  match a, b with
  | X n, X m => Nat.compare n m
  | X _, D _ => Lt
  | D _, X _ => Gt
  | D n, D m => Nat.compare n m
  end.

Fixpoint cmp_list {A} (c : A -> A -> comparison) (a b : list A) : comparison :=
  match a, b with
  | [], [] => Eq
  | [], _ => Lt
  | _, [] => Gt
  | x :: a', y :: b' => match c x y with Eq => cmp_list c a' b' | r => r end
  end.

Definition cmp_fac (a b : fac) : comparison :=
  match Pos.compare (fst a) (fst b) with
  | Eq => cmp_list cmp_ix (snd a) (snd b)
  | r => r
  end.

Definition key : Type := (list cls * list fac)%type.

Definition cmp_key (a b : key) : comparison :=
  match cmp_list cmp_fac (snd a) (snd b) with
  | Eq => cmp_list Pos.compare (fst a) (fst b)
  | r => r
  end.

(** class of an index, given the classes of externals and dummies *)
Definition ix_cls (sh dm : list cls) (i : ix) : option cls :=
  match i with X n => nth_error sh n | D n => nth_error dm n end.

Fixpoint typed (sh dm : list cls) (is : list ix) (ty : list cls) : bool :=
  match is, ty with
  | [], [] => true
  | i :: is', c :: ty' =>
      match ix_cls sh dm i with
      | Some c' => if Pos.eqb c c' then typed sh dm is' ty' else false
      | None => false
      end
  | _, _ => false
  end.

Definition apply_alt (is : list ix) (a : alt) : bool * fac :=
  let '(s, p, t) := a in (s, (t, map (fun k => nth k is (X 0)) p)).

Definition better (a b : bool * fac) : bool * fac :=
  match cmp_fac (snd a) (snd b) with Gt => b | _ => a end.

(** the preferred form of a factor, with its sign *)
Definition fac_norm (tm : tmap) (sh dm : list cls) (f : fac) : option (bool * fac) :=
  match PositiveMap.find (fst f) tm with
  | None => Some (false, f)
  | Some (ty, alts) =>
      if typed sh dm (snd f) ty
      then Some (fold_left (fun b a => better b (apply_alt (snd f) a)) alts (false, f))
      else None
  end.

Fixpoint facs_norm (tm : tmap) (sh dm : list cls) (fs : list fac) : option (bool * list fac) :=
  match fs with
  | [] => Some (false, [])
  | f :: fs' =>
      match fac_norm tm sh dm f, facs_norm tm sh dm fs' with
      | Some (s, g), Some (s', gs) => Some (xorb s s', g :: gs)
      | _, _ => None
      end
  end.

Fixpoint ins_fac (f : fac) (l : list fac) : list fac :=
  match l with
  | [] => [f]
  | g :: l' => match cmp_fac f g with Gt => g :: ins_fac f l' | _ => f :: l end
  end.

Definition sort_fac (l : list fac) : list fac := fold_right ins_fac [] l.

Definition ren_d (p : list nat) (i : ix) : ix :=
  match i with X n => X n | D n => D (nth n p 0) end.

Definition perm_dm (p : list nat) (dm : list cls) : list cls :=
  map (fun k => nth (find_nat k p) dm 1%positive) (seq 0 (List.length dm)).

(** normal form of the body of a term under renumbering [p]: sign and key *)
Definition body_norm (tm : tmap) (sh : list cls) (p : list nat) (m : mono)
  : option (bool * key) :=
  if is_perm p (List.length (m_dm m)) then
    let dm := perm_dm p (m_dm m) in
    match facs_norm tm sh dm (map_ix (ren_d p) (m_fs m)) with
    | Some (s, gs) => Some (s, (dm, sort_fac gs))
    | None => None
    end
  else None.

(** sums of terms with distinct keys *)
Inductive tree : Type :=
| Leaf
| Node (l : tree) (k : key) (z : Z) (e : nat) (r : tree).

Definition dy_add (z : Z) (e : nat) (w : Z) (d : nat) : Z * nat :=
  if Nat.leb e d then ((z * 2 ^ Z.of_nat (d - e) + w)%Z, d)
  else ((w * 2 ^ Z.of_nat (e - d) + z)%Z, e).

Fixpoint insert (k : key) (z : Z) (e : nat) (t : tree) : tree :=
  match t with
  | Leaf => Node Leaf k z e Leaf
  | Node l k' w d r =>
      match cmp_key k k' with
      | Lt => Node (insert k z e l) k' w d r
      | Gt => Node l k' w d (insert k z e r)
      | Eq => let (y, c) := dy_add z e w d in Node l k' y c r
      end
  end.

Fixpoint all_zero (t : tree) : bool :=
  match t with
  | Leaf => true
  | Node l _ z _ r => Z.eqb z 0 && (all_zero l && all_zero r)
  end.

Inductive cert : Type :=
| CRen (p : list nat)
| CZero (p q : list nat).

Fixpoint collect (tm : tmap) (sh : list cls) (ms : list mono) (cs : list cert) (t : tree)
  : option tree :=
  match ms, cs with
  | [], [] => Some t
  | m :: ms', CRen p :: cs' =>
      match body_norm tm sh p m with
      | Some (s, k) =>
          collect tm sh ms' cs' (insert k (if s then - m_z m else m_z m)%Z (m_k m) t)
      | None => None
      end
  | m :: ms', CZero p q :: cs' =>
      match body_norm tm sh p m, body_norm tm sh q m with
      | Some (s, k), Some (s', k') =>
          match cmp_key k k' with
          | Eq => if xorb s s' then collect tm sh ms' cs' t else None
          | _ => None
          end
      | _, _ => None
      end
  | _, _ => None
  end.

(** [check tb sh ms cs]: the polynomial [ms] with externals of classes [sh]
    is zero. *)
Definition wf_tb (tb : table) : bool :=
  forallb (fun p => let '(_, (ty, alts)) := p in
    forallb (fun a => let '(_, q, _) := a in
      forallb (fun k => Nat.ltb k (List.length ty)) q) alts) tb.

Definition check (tb : table) (sh : list cls) (ms : list mono) (cs : list cert) : bool :=
  wf_tb tb &&
  match collect (mk_map tb) sh ms cs Leaf with
  | Some t => all_zero t
  | None => false
  end.

(** *** Finding certificates (not trusted) *)

Fixpoint insert_all {A} (a : A) (l : list A) : list (list A) :=
  match l with
  | [] => [[a]]
  | b :: l' => (a :: l) :: map (cons b) (insert_all a l')
  end.

Fixpoint perms {A} (l : list A) : list (list A) :=
  match l with
  | [] => [[]]
  | a :: l' => flat_map (insert_all a) (perms l')
  end.

Fixpoint pos_add (c : cls) (l : list cls) : list cls :=
  match l with
  | [] => [c]
  | d :: l' => match Pos.compare c d with
               | Lt => c :: l | Eq => l | Gt => d :: pos_add c l' end
  end.

Definition orders (dm : list cls) : list (list nat) :=
  let cs := fold_right pos_add [] dm in
  let pos c := filter (fun n => Pos.eqb (nth n dm 1%positive) c) (seq 0 (List.length dm)) in
  fold_right (fun c acc => flat_map (fun h => map (fun t => h ++ t) acc) (perms (pos c)))
             [[]] cs.

Definition find_cert (tm : tmap) (sh : list cls) (m : mono) : cert :=
  let d := List.length (m_dm m) in
  let step best ord :=
    let p := map (fun n => find_nat n ord) (seq 0 d) in
    match body_norm tm sh p m with
    | None => best
    | Some (s, k) =>
        match best with
        | None => Some (p, s, k, None)
        | Some (p', s', k', z) =>
            match cmp_key k k' with
            | Lt => Some (p, s, k, None)
            | Gt => best
            | Eq => if xorb s s' then Some (p', s', k', Some p) else best
            end
        end
    end in
  match fold_left step (orders (m_dm m)) None with
  | None => CRen []
  | Some (p, _, _, None) => CRen p
  | Some (p, _, _, Some q) => CZero p q
  end.

Definition find_certs (tb : table) (sh : list cls) (ms : list mono) : list cert :=
  let tm := mk_map tb in map (find_cert tm sh) ms.

(** What is left over, for inspection. *)
Fixpoint leftovers (t : tree) : list (Z * nat * key) :=
  match t with
  | Leaf => []
  | Node l k z e r =>
      leftovers l ++ (if Z.eqb z 0 then [] else [(z, e, k)]) ++ leftovers r
  end.
Definition residue (tb : table) (sh : list cls) (ms : list mono) : option (list (Z * nat * key)) :=
  option_map leftovers (collect (mk_map tb) sh ms (find_certs tb sh ms) Leaf).

(** *** Soundness of the checker *)

Lemma cmp_list_eq {A} (c : A -> A -> comparison) :
  (forall x y, c x y = Eq -> x = y) -> forall a b, cmp_list c a b = Eq -> a = b.
Proof.
  intros Hc. induction a as [|x a IH]; intros [|y b]; simpl; try discriminate; auto.
  destruct (c x y) eqn:E; try discriminate. intros H. f_equal; auto.
Qed.

Lemma cmp_ix_eq a b : cmp_ix a b = Eq -> a = b.
Proof.
  destruct a, b; simpl; try discriminate; intros H; apply Nat.compare_eq_iff in H; congruence.
Qed.

Lemma cmp_fac_eq a b : cmp_fac a b = Eq -> a = b.
Proof.
  destruct a as [t is], b as [t' is']. unfold cmp_fac. simpl.
  destruct (Pos.compare t t') eqn:E; try discriminate.
  apply Pos.compare_eq in E. intros H. apply cmp_list_eq in H; [congruence|apply cmp_ix_eq].
Qed.

Lemma cmp_key_eq a b : cmp_key a b = Eq -> a = b.
Proof.
  destruct a as [d f], b as [d' f']. unfold cmp_key. simpl.
  destruct (cmp_list cmp_fac f f') eqn:E; try discriminate.
  apply cmp_list_eq in E; [|apply cmp_fac_eq]. intros H.
  apply cmp_list_eq in H; [congruence|]. intros x y. apply Pos.compare_eq.
Qed.

Lemma find_mk_map l t i : PositiveMap.find t (mk_map l) = Some i -> In (t, i) l.
Proof.
  induction l as [|[t' i'] l IH]; simpl.
  - rewrite PositiveMap.gempty. discriminate.
  - destruct (Pos.eq_dec t' t) as [<-|H].
    + rewrite PositiveMap.gss. intros [= <-]. auto.
    + rewrite PositiveMap.gso by auto. auto.
Qed.

Lemma better_cases a b : better a b = a \/ better a b = b.
Proof. unfold better. destruct (cmp_fac (snd a) (snd b)); auto. Qed.

Lemma ins_fac_perm f l : Permutation (ins_fac f l) (f :: l).
Proof.
  induction l as [|g l IH]; simpl; auto.
  destruct (cmp_fac f g); auto. rewrite IH. constructor.
Qed.

Lemma sort_fac_perm l : Permutation (sort_fac l) l.
Proof. induction l; simpl; auto. rewrite ins_fac_perm. auto. Qed.

Lemma is_perm_inv p r : is_perm p r = true ->
  NoDup p /\ forall n, n < r -> nth n p 0 < r /\ find_nat (nth n p 0) p = n.
Proof.
  intros H. destruct (is_perm_spec _ _ H) as [Hl Hk].
  unfold is_perm in H. apply andb_prop in H. destruct H as [H1 H2].
  assert (Hincl : incl (seq 0 r) p).
  { intros j Hj. rewrite forallb_forall in H2. specialize (H2 j Hj).
    apply existsb_exists in H2. destruct H2 as (y & Hy & Ey). apply Nat.eqb_eq in Ey.
    subst. auto. }
  assert (Hnd : NoDup p).
  { apply (NoDup_incl_NoDup (seq_NoDup r 0)); auto. rewrite seq_length. lia. }
  split; auto. intros n Hn.
  assert (Hlt : nth n p 0 < r).
  { apply NoDup_length_incl in Hincl; [|apply seq_NoDup|rewrite seq_length; lia].
    assert (Hin : In (nth n p 0) p) by (apply nth_In; lia).
    specialize (Hincl _ Hin). apply in_seq in Hincl. lia. }
  split; auto. destruct (Hk _ Hlt) as [H3 H4].
  apply (proj1 (NoDup_nth p 0) Hnd); lia.
Qed.

Section NormSound.
  Variable K : cring.
  Local Open Scope K_scope.
  Add Ring Kr3 : (c_th K).
  Variable dim : cls -> nat.
  Variable rho : positive -> list nat -> K.

  Definition sgn (s : bool) (x : K) : K := if s then - x else x.

  (** the table states true symmetries of the tensors *)
  Definition sym_ok (tb : table) : Prop :=
    Forall (fun p => let '(t, (ty, alts)) := p in
      Forall (fun a => let '(s, q, t') := a in
        forall idx, inrange (map dim ty) idx ->
          rho t idx = sgn s (rho t' (map (fun k => nth k idx 0%nat) q))) alts) tb.

  Lemma sgn_xorb a b (x y : K) : sgn a x * sgn b y = sgn (xorb a b) (x * y).
  Proof. destruct a, b; simpl; ring. Qed.

  Lemma sgn_inv a (x y : K) : x = sgn a y -> y = sgn a x.
  Proof. intros ->. destruct a; simpl; ring. Qed.

  Definition den_key (xs : list nat) (k : key) : K :=
    sumL (map dim (fst k)) (fun ds => prodK (map (den_fac K rho xs ds) (snd k))).

  Fixpoint den_tree (xs : list nat) (t : tree) : K :=
    match t with
    | Leaf => 0
    | Node l k z e r => den_tree xs l + (dyad z e * den_key xs k + den_tree xs r)
    end.

  Lemma dy_add_sound z e w d y c : dy_add z e w d = (y, c) ->
    dyad y c = dyad z e + dyad w d :> K.
  Proof.
    unfold dy_add. destruct (Nat.leb_spec e d); intros [= <- <-].
    - apply dyad_add. auto.
    - rewrite dyad_add by lia. ring.
  Qed.

  Lemma insert_sound xs k z e t :
    den_tree xs (insert k z e t) = dyad z e * den_key xs k + den_tree xs t.
  Proof.
    induction t as [|l IHl k' w d r IHr]; simpl; [ring|].
    destruct (cmp_key k k') eqn:E; simpl.
    - apply cmp_key_eq in E. subst k'. destruct (dy_add z e w d) as [y c] eqn:Ed. simpl.
      rewrite (dy_add_sound _ _ _ _ _ _ Ed). ring.
    - rewrite IHl. ring.
    - rewrite IHr. ring.
  Qed.

  Lemma all_zero_sound xs t : all_zero t = true -> den_tree xs t = 0.
  Proof.
    induction t as [|l IHl k z e r IHr]; simpl; auto. intros H.
    apply andb_prop in H. destruct H as [H1 H]. apply andb_prop in H. destruct H as [H2 H3].
    apply Z.eqb_eq in H1. subst z. rewrite IHl, IHr by auto. rewrite dyad_0. ring.
  Qed.

  Lemma typed_sound sh dm xs ds is : forall ty,
    inrange (map dim sh) xs -> inrange (map dim dm) ds ->
    typed sh dm is ty = true ->
    inrange (map dim ty) (map (look xs ds) is).
  Proof.
    induction is as [|i is IH]; intros [|c ty] Hx Hd; simpl; try discriminate.
    - constructor.
    - destruct (ix_cls sh dm i) as [c'|] eqn:E; [|discriminate].
      destruct (Pos.eqb_spec c c'); [subst c'|discriminate]. intros H.
      constructor; [|apply IH; auto].
      destruct i as [n|n]; simpl in *.
      + assert (Hn : (n < List.length sh)%nat) by (apply nth_error_Some; congruence).
        pose proof (inrange_nth _ _ n Hx) as HH. rewrite map_length in HH. specialize (HH Hn).
        rewrite (nth_map_lt _ _ _ _ c) in HH by auto.
        rewrite (nth_error_nth _ _ c E) in HH. auto.
      + assert (Hn : (n < List.length dm)%nat) by (apply nth_error_Some; congruence).
        pose proof (inrange_nth _ _ n Hd) as HH. rewrite map_length in HH. specialize (HH Hn).
        rewrite (nth_map_lt _ _ _ _ c) in HH by auto.
        rewrite (nth_error_nth _ _ c E) in HH. auto.
  Qed.

  Variable tb : table.
  Hypothesis Htb : sym_ok tb.
  Hypothesis Hwf : wf_tb tb = true.

  Lemma typed_length sh dm is : forall ty, typed sh dm is ty = true ->
    List.length is = List.length ty.
  Proof.
    induction is as [|i is IH]; intros [|c ty]; simpl; try discriminate; auto.
    destruct (ix_cls sh dm i) as [c'|]; [|discriminate].
    destruct (Pos.eqb c c'); [|discriminate]. auto.
  Qed.

  Lemma fac_norm_sound sh dm xs ds f s g :
    inrange (map dim sh) xs -> inrange (map dim dm) ds ->
    fac_norm (mk_map tb) sh dm f = Some (s, g) ->
    den_fac K rho xs ds f = sgn s (den_fac K rho xs ds g).
  Proof.
    intros Hx Hd. unfold fac_norm.
    destruct (PositiveMap.find (fst f) (mk_map tb)) as [[ty alts]|] eqn:E.
    - apply find_mk_map in E. unfold sym_ok in Htb. rewrite Forall_forall in Htb.
      pose proof (Htb _ E) as Ha. simpl in Ha.
      unfold wf_tb in Hwf. rewrite forallb_forall in Hwf. pose proof (Hwf _ E) as Hw.
      simpl in Hw. rewrite forallb_forall in Hw.
      destruct (typed sh dm (snd f) ty) eqn:Et; [|discriminate].
      pose proof (typed_sound _ _ _ _ _ _ Hx Hd Et) as Hr. intros H. injection H as H.
      assert (G : forall l b, incl l alts ->
                den_fac K rho xs ds f = sgn (fst b) (den_fac K rho xs ds (snd b)) ->
                let c := fold_left (fun b a => better b (apply_alt (snd f) a)) l b in
                den_fac K rho xs ds f = sgn (fst c) (den_fac K rho xs ds (snd c))).
      { induction l as [|a l IH]; simpl; intros b Hl Hb; auto.
        apply IH; [intros y Hy; apply Hl; simpl; auto|].
        destruct (better_cases b (apply_alt (snd f) a)) as [-> | ->]; auto.
        destruct a as [[sa q] t']. simpl.
        assert (Hin : In (sa, q, t') alts) by (apply Hl; simpl; auto).
        rewrite Forall_forall in Ha. pose proof (Ha _ Hin) as Haa. simpl in Haa.
        pose proof (Hw _ Hin) as Hq. simpl in Hq. rewrite forallb_forall in Hq.
        unfold den_fac at 1. rewrite (Haa _ Hr). unfold den_fac. simpl. f_equal. f_equal.
        rewrite map_map. apply map_ext_in. intros k Hk.
        specialize (Hq _ Hk). apply Nat.ltb_lt in Hq.
        rewrite <- (typed_length _ _ _ _ Et) in Hq.
        apply nth_map_lt. auto. }
      specialize (G alts (false, f) (incl_refl _) eq_refl). simpl in G.
      rewrite H in G. exact G.
    - intros [= <- <-]. reflexivity.
  Qed.

  Lemma facs_norm_sound sh dm xs ds fs : forall s gs,
    inrange (map dim sh) xs -> inrange (map dim dm) ds ->
    facs_norm (mk_map tb) sh dm fs = Some (s, gs) ->
    prodK (map (den_fac K rho xs ds) fs) = sgn s (prodK (map (den_fac K rho xs ds) gs)).
  Proof.
    induction fs as [|f fs IH]; intros s gs Hx Hd; simpl.
    - intros [= <- <-]. reflexivity.
    - destruct (fac_norm (mk_map tb) sh dm f) as [[s1 g]|] eqn:E1; [|discriminate].
      destruct (facs_norm (mk_map tb) sh dm fs) as [[s2 gs2]|]; [|discriminate].
      intros [= <- <-]. rewrite (fac_norm_sound _ _ _ _ _ _ _ Hx Hd E1).
      rewrite (IH _ _ Hx Hd eq_refl). rewrite sgn_xorb. reflexivity.
  Qed.

  Lemma body_norm_sound sh p m xs s k : inrange (map dim sh) xs ->
    m_ok (List.length sh) m ->
    body_norm (mk_map tb) sh p m = Some (s, k) ->
    sumL (map dim (m_dm m)) (fun ds => prodK (map (den_fac K rho xs ds) (m_fs m)))
    = sgn s (den_key xs k).
  Proof.
    intros Hx Hm. unfold body_norm.
    destruct (is_perm p (List.length (m_dm m))) eqn:Ep; [|discriminate].
    destruct (facs_norm (mk_map tb) sh (perm_dm p (m_dm m)) (map_ix (ren_d p) (m_fs m)))
      as [[s' gs]|] eqn:Ef; [|discriminate].
    intros [= <- <-].
    set (d := List.length (m_dm m)) in *.
    destruct (is_perm_spec _ _ Ep) as [Lp Hk]. destruct (is_perm_inv _ _ Ep) as [Np Hn].
    set (dm' := perm_dm p (m_dm m)) in *.
    assert (Ldm : List.length dm' = d).
    { unfold dm', perm_dm. rewrite map_length, seq_length. reflexivity. }
    assert (Ndm : forall n, (n < d)%nat ->
              nth (nth n p 0%nat) dm' 1%positive = nth n (m_dm m) 1%positive).
    { intros n Hlt. unfold dm', perm_dm. destruct (Hn _ Hlt) as [H1 H2].
      rewrite (nth_map_lt _ _ _ _ 0%nat) by (rewrite seq_length; auto).
      rewrite seq_nth by auto. simpl. rewrite H2. auto. }
    assert (Ndm' : forall k, (k < d)%nat ->
              nth k dm' 1%positive = nth (find_nat k p) (m_dm m) 1%positive).
    { intros k Hlt. unfold dm', perm_dm.
      rewrite (nth_map_lt _ _ _ _ 0%nat) by (rewrite seq_length; auto).
      rewrite seq_nth by auto. auto. }
    rewrite (sumL_reindex K (map dim (m_dm m)) (map dim dm')
      (fun l => map (fun n => nth (nth n p 0%nat) l 0%nat) (seq 0 d))
      (fun l => map (fun k => nth (find_nat k p) l 0%nat) (seq 0 d))).
    - unfold den_key. simpl fst. simpl snd.
      transitivity (sumL (map dim dm') (fun ds => sgn s' (prodK (map (den_fac K rho xs ds) gs)))).
      + apply sumL_ext. intros ds Hds.
        rewrite <- (facs_norm_sound _ _ _ _ _ _ _ Hx Hds Ef). f_equal. symmetry.
        apply den_mono_map_ix. intros q i Hq Hi. pose proof (m_ok_in _ _ _ _ Hm Hq Hi) as Hok.
        destruct i as [n|n]; simpl in *; auto.
        rewrite (nth_map_lt _ _ _ _ 0%nat) by (rewrite seq_length; auto).
        rewrite seq_nth by auto. auto.
      + destruct s'; simpl.
        * transitivity (sumL (map dim dm')
              (fun ds => copp (c1 : K) * prodK (map (den_fac K rho xs ds) gs))).
          -- apply sumL_ext. intros. ring.
          -- rewrite sumL_mul_l.
             match goal with |- _ * ?A = - ?B => replace A with B; [ring|] end.
             apply sumL_ext. intros. apply prodK_perm. apply Permutation_map.
             apply sort_fac_perm.
        * apply sumL_ext. intros. apply prodK_perm. apply Permutation_map.
          symmetry. apply sort_fac_perm.
    - intros l Hl. apply Forall2_nth_intro with (da := 0%nat) (db := 0%nat).
      + rewrite !map_length, seq_length. auto.
      + rewrite map_length, seq_length. intros n Hlt. destruct (Hn _ Hlt) as [H1 H2].
        rewrite (nth_map_lt _ _ _ _ 0%nat) by (rewrite seq_length; auto).
        rewrite seq_nth by auto. simpl.
        pose proof (inrange_nth _ _ (nth n p 0%nat) Hl) as HH.
        rewrite map_length, Ldm in HH. specialize (HH H1).
        rewrite (nth_map_lt dim dm' _ _ 1%positive) in HH by (rewrite Ldm; auto).
        rewrite Ndm in HH by auto.
        rewrite (nth_map_lt dim (m_dm m) _ _ 1%positive) by auto. auto.
    - intros l Hl. apply Forall2_nth_intro with (da := 0%nat) (db := 0%nat).
      + rewrite !map_length, seq_length. auto.
      + rewrite map_length, seq_length. intros k Hlt. destruct (Hk _ Hlt) as [H1 H2].
        rewrite (nth_map_lt _ _ _ _ 0%nat) by (rewrite seq_length; auto).
        rewrite seq_nth by auto. simpl.
        pose proof (inrange_nth _ _ (find_nat k p) Hl) as HH.
        rewrite map_length in HH. specialize (HH H1).
        rewrite (nth_map_lt dim (m_dm m) _ _ 1%positive) in HH by auto.
        rewrite (nth_map_lt dim dm' _ _ 1%positive) by (rewrite Ldm; auto).
        rewrite Ndm' by auto. auto.
    - intros l Hl. apply Forall2_length in Hl. rewrite map_length, Ldm in Hl.
      apply nth_ext with (d := 0%nat) (d' := 0%nat).
      + rewrite map_length, seq_length. auto.
      + rewrite map_length, seq_length. intros k Hlt. destruct (Hk _ Hlt) as [H1 H2].
        rewrite (nth_map_lt _ _ _ _ 0%nat) by (rewrite seq_length; auto).
        rewrite seq_nth by auto. simpl.
        rewrite (nth_map_lt _ _ _ _ 0%nat) by (rewrite seq_length; auto).
        rewrite seq_nth by auto. simpl. rewrite H2. auto.
    - intros l Hl. apply Forall2_length in Hl. rewrite map_length in Hl. fold d in Hl.
      apply nth_ext with (d := 0%nat) (d' := 0%nat).
      + rewrite map_length, seq_length. auto.
      + rewrite map_length, seq_length. intros n Hlt. destruct (Hn _ Hlt) as [H1 H2].
        rewrite (nth_map_lt _ _ _ _ 0%nat) by (rewrite seq_length; auto).
        rewrite seq_nth by auto. simpl.
        rewrite (nth_map_lt _ _ _ _ 0%nat) by (rewrite seq_length; auto).
        rewrite seq_nth by auto. simpl. rewrite H2. auto.
  Qed.

  Lemma collect_sound sh xs ms : inrange (map dim sh) xs ->
    forall cs t t', Forall (m_ok (List.length sh)) ms ->
    collect (mk_map tb) sh ms cs t = Some t' ->
    den_tree xs t' = den K dim rho xs ms + den_tree xs t.
  Proof.
    intros Hx. induction ms as [|m ms IH]; intros [|c cs] t t' Hm; simpl; try discriminate.
    - intros [= <-]. unfold den. simpl. ring.
    - inversion Hm as [|? ? Hm1 Hm2]; subst. change (den K dim rho xs (m :: ms)) with
        (den_mono K dim rho xs m + den K dim rho xs ms).
      destruct c as [p|p q].
      + destruct (body_norm (mk_map tb) sh p m) as [[s k]|] eqn:E; [|discriminate].
        intros H. rewrite (IH _ _ _ Hm2 H), insert_sound.
        unfold den_mono. rewrite (body_norm_sound _ _ _ _ _ _ Hx Hm1 E).
        destruct s; simpl; rewrite ?dyad_opp; ring.
      + destruct (body_norm (mk_map tb) sh p m) as [[s k]|] eqn:E; [|discriminate].
        destruct (body_norm (mk_map tb) sh q m) as [[s' k']|] eqn:E'; [|discriminate].
        destruct (cmp_key k k') eqn:Ek; try discriminate. apply cmp_key_eq in Ek. subst k'.
        destruct (xorb s s') eqn:Es; [|discriminate].
        intros H. rewrite (IH _ _ _ Hm2 H).
        assert (Hz : den_mono K dim rho xs m = 0).
        { unfold den_mono. pose proof (body_norm_sound _ _ _ _ _ _ Hx Hm1 E) as H1.
          pose proof (body_norm_sound _ _ _ _ _ _ Hx Hm1 E') as H2.
          assert (Hk0 : den_key xs k = 0).
          { apply self_opp_zero. destruct s, s'; try discriminate; simpl in *.
            - rewrite H1 in H2. rewrite <- H2 at 2. ring.
            - rewrite H1 in H2. rewrite H2 at 1. ring. }
          rewrite H1, Hk0. destruct s; simpl; ring. }
        rewrite Hz. ring.
  Qed.
End NormSound.

Theorem check_sound (K : cring) dim rho tb sh ms cs xs :
  check tb sh ms cs = true -> sym_ok K dim rho tb ->
  Forall (m_ok (List.length sh)) ms -> inrange (map dim sh) xs ->
  den K dim rho xs ms = c0.
Proof.
  unfold check. intros H Hs Hm Hx. apply andb_prop in H. destruct H as [Hw H].
  destruct (collect (mk_map tb) sh ms cs Leaf) as [t|] eqn:E; [|discriminate].
  pose proof (collect_sound K dim rho tb Hs Hw sh xs ms Hx cs _ _ Hm E) as Hd.
  rewrite (all_zero_sound K dim rho xs t H) in Hd. simpl in Hd.
  rewrite (Radd_comm (c_th K)), (Radd_0_l (c_th K)) in Hd. auto.
Qed.
