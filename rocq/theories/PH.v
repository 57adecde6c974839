(** Exchange of electrons and holes: symbolic execution. *)
From Coq Require Import List Bool Arith ZArith String Lia Ring.
From Verif Require Import Scalar Tensor PySyntax PySem PySim Sym SymSound Norm CCProg CCSpec
  Engine Tools SOCtx NpModel SpinModel SpinSpec UCtx RCtx SpinOut CCSpin CCRest PHSpec.
Import ListNotations.
Local Open Scope string_scope.

Definition hrank (k : hkind) : nat := match k with H1 => 2 | _ => 4 end.
Definition hperm (k : hkind) : list nat :=
  match k with H1 => [1; 0] | H2 => [2; 3; 0; 1] | H2r => [3; 2; 1; 0] end.
Definition hneg (k : hkind) : bool := match k with H1 => true | _ => false end.
Definition ph_s (k : hkind) (a : stens) : stens :=
  match s_trans (hperm k) a with Some b => if hneg k then s_neg b else b | None => a end.

Section Sound.
  Variable K : cring.
  Local Open Scope K_scope.
  Add Ring KrPH : (c_th K).
  Notation T := (tensor K).

  Definition top (k : hkind) (t : T) : T :=
    match k with
    | H1 => mkT (match shp t with [a; b] => [b; a] | l => l end)
              (fun idx => match idx with [q; p] => - dat t [p; q] | _ => dat t idx end)
    | H2 => mkT (match shp t with [a; b; c; d] => [c; d; a; b] | l => l end)
              (fun idx => match idx with [r; s; p; q] => dat t [p; q; r; s] | _ => dat t idx end)
    | H2r => mkT (match shp t with [a; b; c; d] => [d; c; b; a] | l => l end)
              (fun idx => match idx with [s; r; q; p] => dat t [p; q; r; s] | _ => dat t idx end)
    end.

  Lemma in2 a b p q : inrange [a; b] [p; q] <-> (p < a)%nat /\ (q < b)%nat.
  Proof.
    split.
    - intros H. inversion H as [|? ? ? ? H1' H2']; subst. inversion H2'; subst. auto.
    - intros (? & ?). repeat constructor; assumption.
  Qed.
  Lemma in4 a b c d p q r s : inrange [a; b; c; d] [p; q; r; s] <->
    (p < a)%nat /\ (q < b)%nat /\ (r < c)%nat /\ (s < d)%nat.
  Proof.
    split.
    - intros H. inversion H as [|? ? ? ? A1 B1]; subst. inversion B1 as [|? ? ? ? A2 B2]; subst.
      inversion B2 as [|? ? ? ? A3 B3]; subst. inversion B3; subst. auto.
    - intros (? & ? & ? & ?). repeat constructor; assumption.
  Qed.

  Lemma holes_top k t t' : holes k t t' -> teq (top k t) t'.
  Proof.
    destruct k; cbn [holes].
    - intros (a & b & S & S' & H). split; cbn [top shp dat]; rewrite S; [rewrite S'; reflexivity|].
      intros idx Hi. destruct (idx2 _ _ _ Hi) as (q & p & ->). apply in2 in Hi. destruct Hi.
      rewrite H by assumption. reflexivity.
    - intros (a & b & c & d & S & S' & H). split; cbn [top shp dat]; rewrite S; [rewrite S'; reflexivity|].
      intros idx Hi. destruct (idx4 _ _ _ _ _ Hi) as (r & s & p & q & ->). apply in4 in Hi.
      destruct Hi as (? & ? & ? & ?). rewrite H by assumption. reflexivity.
    - intros (a & b & c & d & S & S' & H). split; cbn [top shp dat]; rewrite S; [rewrite S'; reflexivity|].
      intros idx Hi. destruct (idx4 _ _ _ _ _ Hi) as (s & r & q & p & ->). apply in4 in Hi.
      destruct Hi as (? & ? & ? & ?). rewrite H by assumption. reflexivity.
  Qed.

  Lemma top_holes k t t' : List.length (shp t) = hrank k -> teq (top k t) t' -> holes k t t'.
  Proof.
    intros L (S & D). destruct k; cbn [hrank] in L; cbn [top shp dat] in S, D.
    - destruct (shp t) as [|a [|b [|]]] eqn:E; try discriminate.
      exists a, b. split; [exact E|]. split; [symmetry; exact S|].
      intros p q Hp Hq. rewrite <- D; [reflexivity|]. apply in2. auto.
    - destruct (shp t) as [|a [|b [|c [|d [|]]]]] eqn:E; try discriminate.
      exists a, b, c, d. split; [exact E|]. split; [symmetry; exact S|].
      intros p q r s Hp Hq Hr Hs. rewrite <- D; [reflexivity|]. apply in4. auto.
    - destruct (shp t) as [|a [|b [|c [|d [|]]]]] eqn:E; try discriminate.
      exists a, b, c, d. split; [exact E|]. split; [symmetry; exact S|].
      intros p q r s Hp Hq Hr Hs. rewrite <- D; [reflexivity|]. apply in4. auto.
  Qed.

  Variable dim : cls -> nat.
  Variable rho : positive -> list nat -> K.
  Notation RA := (Rarr K dim rho).
  Notation R := (Rval K dim rho).

  Lemma RA_teq a t u : teq t u -> RA a t -> RA a u.
  Proof.
    intros (S & D) (H1 & H2 & H3). split; [rewrite <- S; exact H1|]. split; [exact H2|].
    intros idx Hi. rewrite <- S in Hi. rewrite <- D by exact Hi. apply H3. exact Hi.
  Qed.

  Lemma ph_sound k a t : List.length (s_sh a) = hrank k -> RA a t -> RA (ph_s k a) (top k t).
  Proof.
    intros L H. unfold ph_s.
    assert (Lt : List.length (shp t) = hrank k) by (destruct H as (-> & _); rewrite map_length; exact L).
    destruct (s_trans (hperm k) a) as [b|] eqn:E.
    - destruct (S_atrans K dim rho _ _ _ _ H E) as (u & Eu & HR).
      assert (Q : teq (if hneg k then tneg u else u) (top k t)).
      { unfold ttrans in Eu. rewrite Lt in Eu. destruct k; cbn [hrank hperm hneg] in *;
          cbn [is_perm forallb existsb seq Nat.eqb andb orb List.length] in Eu; injection Eu as <-.
        - destruct (shp t) as [|x [|y [|]]] eqn:Es; try discriminate.
          split; cbn [shp tneg top dat map nth]; [rewrite Es; reflexivity|].
          intros idx Hi. destruct (idx2 _ _ _ Hi) as (q & p & ->). reflexivity.
        - destruct (shp t) as [|x [|y [|z [|w [|]]]]] eqn:Es; try discriminate.
          split; cbn [shp top dat map nth]; [rewrite Es; reflexivity|].
          intros idx Hi. destruct (idx4 _ _ _ _ _ Hi) as (r & s & p & q & ->). reflexivity.
        - destruct (shp t) as [|x [|y [|z [|w [|]]]]] eqn:Es; try discriminate.
          split; cbn [shp top dat map nth]; [rewrite Es; reflexivity|].
          intros idx Hi. destruct (idx4 _ _ _ _ _ Hi) as (r & s & p & q & ->). reflexivity. }
      apply (RA_teq _ _ _ Q). destruct (hneg k); [apply S_aneg|]; exact HR.
    - exfalso. unfold s_trans in E. rewrite L in E. destruct k; discriminate.
  Qed.

  Lemma R_ph k i sh t t' : List.length sh = hrank k -> R (inp i sh) (arr t) -> holes k t t' ->
    R (sarr (ph_s k (s_input i sh))) (arr t').
  Proof.
    intros L H Hh. inversion H as [|a b HA| |]; subst. apply Rx_arr.
    apply (RA_teq _ (top k t)); [apply holes_top; exact Hh|]. apply ph_sound; [exact L|exact HA].
  Qed.

  (** *** Results *)
  Definition hgoal : Type := hkind * stens * stens.
  Definition hpair (g : hgoal) : stens * stens := (ph_s (fst (fst g)) (snd (fst g)), snd g).
  Definition hrank_ok (g : hgoal) : bool := Nat.eqb (List.length (s_sh (snd (fst g)))) (hrank (fst (fst g))).
  Lemma goals_sound tb l cs : sym_ok K dim rho tb ->
    forallb hrank_ok l = true -> all_chk tb (map hpair l) cs = true ->
    Forall (fun g => forall t t', RA (snd (fst g)) t -> RA (snd g) t' -> holes (fst (fst g)) t t') l.
  Proof.
    intros Htb Hr Hc. pose proof (all_sound K dim rho tb Htb _ _ Hc) as H. rewrite Forall_map in H.
    rewrite Forall_forall in H |- *. rewrite forallb_forall in Hr. intros ((k & a) & b) Hin t t' Ha Hb.
    specialize (H _ Hin). specialize (Hr _ Hin). unfold hrank_ok, hpair in *. cbn [fst snd] in *.
    apply Nat.eqb_eq in Hr. apply top_holes.
    - destruct Ha as (-> & _). rewrite map_length. exact Hr.
    - apply H; [apply ph_sound; assumption|exact Hb].
  Qed.
End Sound.

(** *** Checks for results of each form *)
Definition one_goal (k : hkind) (x y : sval) : list hgoal := [(k, get_arr x, get_arr y)].
Definition two_goals (x y : sval) : list hgoal :=
  [(H1, get_arr (item 0 x), get_arr (item 0 y)); (H2, get_arr (item 1 x), get_arr (item 1 y))].
Definition amp_goals' (x y : sval) : list hgoal :=
  [(H1, get_arr (item 0 (item 0 x)), get_arr (item 0 (item 0 y)));
   (H1, get_arr (item 1 (item 0 x)), get_arr (item 1 (item 0 y)));
   (H2, get_arr (item 0 (item 1 x)), get_arr (item 0 (item 1 y)));
   (H2, get_arr (item 1 (item 1 x)), get_arr (item 1 (item 1 y)));
   (H2, get_arr (item 2 (item 1 x)), get_arr (item 2 (item 1 y)))].
(** block [j] of the result for holes from block [k] of the result for electrons *)
Definition blk_goals (l : list (nat * hkind)) (x y : sval) : list hgoal :=
  map (fun jk => (snd (snd jk), get_arr (item (fst (snd jk)) x), get_arr (item (fst jk) y)))
    (combine (seq 0 (List.length l)) l).

Definition hole_chk (tb : table) (fm : form) (gs : sval -> sval -> list hgoal) (f g : string) (a b : list sval)
    (cs : list (list cert)) : bool :=
  run_form fm f a && run_form fm g b && forallb hrank_ok (gs (run_s f a) (run_s g b)) &&
  all_chk tb (map hpair (gs (run_s f a) (run_s g b))) cs.
Definition hole_find (tb : table) (gs : sval -> sval -> list hgoal) (f g : string) (a b : list sval) :=
  all_find tb (map hpair (gs (run_s f a) (run_s g b))).

Section Forms.
  Variable K : cring.
  Variable dim : cls -> nat.
  Variable rho : positive -> list nat -> K.
  Notation R := (Rval K dim rho).
  Variable tb : table.
  Hypothesis Htb : sym_ok K dim rho tb.
  Variables a b : list sval.
  Variables vs ws : list (pyval K).
  Hypothesis HA : Forall2 R a vs.
  Hypothesis HB : Forall2 R b ws.

  Lemma hole_arr k f g cs : hole_chk tb FArr (one_goal k) f g a b cs = true ->
    exists r r', returns f vs (arr r) /\ returns g ws (arr r') /\ holes k r r'.
  Proof.
    unfold hole_chk. intros H. apply andb_prop in H. destruct H as (H & C3). apply andb_prop in H.
    destruct H as (H & C2). apply andb_prop in H. destruct H as (C0 & C1).
    destruct (run_arr_sound K dim rho _ _ _ C0 HA) as (r & R1 & A1).
    destruct (run_arr_sound K dim rho _ _ _ C1 HB) as (r' & R2 & A2).
    exists r, r'. split; [exact R1|]. split; [exact R2|].
    pose proof (goals_sound K dim rho tb _ _ Htb C2 C3) as G. unfold one_goal in G.
    inversion G as [|? ? G1 _]; subst. cbn [fst snd] in G1. apply G1; assumption.
  Qed.

  Lemma hole_pair f g cs : hole_chk tb (FTup [FArr; FArr]) two_goals f g a b cs = true ->
    exists r s r' s', returns f vs (tup [arr r; arr s]) /\ returns g ws (tup [arr r'; arr s']) /\
      holes H1 r r' /\ holes H2 s s'.
  Proof.
    unfold hole_chk. intros H. apply andb_prop in H. destruct H as (H & C3). apply andb_prop in H.
    destruct H as (H & C2). apply andb_prop in H. destruct H as (C0 & C1).
    destruct (run_pair_sound K dim rho _ _ _ C0 HA) as (r & s & R1 & A1 & A2).
    destruct (run_pair_sound K dim rho _ _ _ C1 HB) as (r' & s' & R2 & B1 & B2).
    exists r, s, r', s'. split; [exact R1|]. split; [exact R2|].
    pose proof (goals_sound K dim rho tb _ _ Htb C2 C3) as G. unfold two_goals in G.
    inversion G as [|? ? G1 G']; subst. inversion G' as [|? ? G2 _]; subst. cbn [fst snd] in G1, G2. auto.
  Qed.

  Lemma hole_amps f g cs : hole_chk tb f_amps amp_goals' f g a b cs = true ->
    exists ta tb aa ab bb ta' tb' aa' ab' bb',
      returns f vs (tup [tup [arr ta; arr tb]; tup [arr aa; arr ab; arr bb]]) /\
      returns g ws (tup [tup [arr ta'; arr tb']; tup [arr aa'; arr ab'; arr bb']]) /\
      holes H1 ta ta' /\ holes H1 tb tb' /\ holes H2 aa aa' /\ holes H2 ab ab' /\ holes H2 bb bb'.
  Proof.
    unfold hole_chk. intros H. apply andb_prop in H. destruct H as (H & C3). apply andb_prop in H.
    destruct H as (H & C2). apply andb_prop in H. destruct H as (C0 & C1).
    destruct (run_amps_sound K dim rho _ _ _ C0 HA) as (ta & tb' & aa & ab & bb & R1 & A1 & A2).
    destruct (run_amps_sound K dim rho _ _ _ C1 HB) as (ua & ub & xaa & xab & xbb & R2 & B1 & B2).
    exists ta, tb', aa, ab, bb, ua, ub, xaa, xab, xbb. split; [exact R1|]. split; [exact R2|].
    pose proof (goals_sound K dim rho tb _ _ Htb C2 C3) as G. unfold amp_goals', amps_of in *.
    cbn [fst snd] in *. apply F2_2 in A1, B1. apply F2_3 in A2, B2.
    destruct A1 as (A1 & A1'), B1 as (B1 & B1'), A2 as (A2 & A2' & A2''), B2 as (B2 & B2' & B2'').
    repeat match goal with H : Forall _ (_ :: _) |- _ => inversion_clear H end. cbn [fst snd] in *.
    repeat match goal with |- _ /\ _ => split end; auto.
  Qed.

  Lemma hole_blocks (l : list (nat * hkind)) (m : list nat) f g cs : List.length m = List.length l -> Forall (fun jk => fst jk < List.length l) l ->
    hole_chk tb (FTup (map (fun _ => FArr) m)) (blk_goals l) f g a b cs = true ->
    exists us us', returns f vs (tup (map arr us)) /\ returns g ws (tup (map arr us')) /\
      List.length us = List.length l /\ List.length us' = List.length l /\
      forall j, j < List.length l ->
        holes (snd (nth j l (0, H1))) (pick us (fst (nth j l (0, H1)))) (pick us' j).
  Proof.
    unfold hole_chk. intros Lm Hl H. apply andb_prop in H. destruct H as (H & C3). apply andb_prop in H.
    destruct H as (H & C2). apply andb_prop in H. destruct H as (C0 & C1).
    destruct (run_arrs_sound K dim rho m _ _ _ C0 HA) as (us & R1 & L1 & A1).
    destruct (run_arrs_sound K dim rho m _ _ _ C1 HB) as (us' & R2 & L2 & A2).
    exists us, us'. rewrite Lm in *. split; [exact R1|]. split; [exact R2|]. split; [exact L1|].
    split; [exact L2|]. intros j Hj.
    pose proof (goals_sound K dim rho tb _ _ Htb C2 C3) as G. unfold blk_goals in G.
    rewrite Forall_map, Forall_forall in G.
    specialize (G (j, nth j l (0, H1))). cbn [fst snd] in G. apply G.
    - assert (E : nth j (combine (seq 0 (List.length l)) l) (0, (0, H1)) = (j, nth j l (0, H1))).
      { rewrite combine_nth by apply seq_length. rewrite seq_nth by exact Hj. reflexivity. }
      rewrite <- E. apply nth_In. rewrite combine_length, seq_length. lia.
    - apply A1. rewrite Forall_forall in Hl. apply Hl. apply nth_In. exact Hj.
    - apply A2. exact Hj.
  Qed.

  Definition num_chk (f g : string) (c : list cert) : bool :=
    run_form FNum f a && run_form FNum g b && neq_chk tb (get_num (run_s f a)) (get_num (run_s g b)) c.
  Lemma hole_num f g c : num_chk f g c = true ->
    exists e, returns f vs (numv e) /\ returns g ws (numv e).
  Proof.
    unfold num_chk. intros H. apply andb_prop in H. destruct H as (H & C2). apply andb_prop in H. destruct H as (C0 & C1).
    destruct (run_num_sound K dim rho _ _ _ C0 HA) as (e & R1 & A1).
    destruct (run_num_sound K dim rho _ _ _ C1 HB) as (e' & R2 & A2).
    exists e. rewrite (neq_sound K dim rho tb _ _ _ _ _ C2 Htb A1 A2) at 2. auto.
  Qed.
End Forms.

(** *** Arguments *)
Definition ph_i (k : hkind) (t : positive) (sh : list cls) : sval := sarr (ph_s k (s_input t sh)).
(** Fock matrix with inputs t, t+1, t+2, t+3; nine blocks from t on; sixteen blocks *)
Definition pF (t : positive) (o v : cls) : sval :=
  XObj [("oo", ph_i H1 (3 + t) [v; v]); ("ov", ph_i H1 (1 + t) [o; v]); ("vo", ph_i H1 (2 + t) [v; o]);
        ("vv", ph_i H1 t [o; o])].
Definition pI (t : positive) (o v : cls) : sval :=
  XObj [("vvvv", ph_i H2 (8 + t) [o; o; o; o]); ("vvvo", ph_i H2r (6 + t) [v; o; o; o]);
        ("vovv", ph_i H2 (7 + t) [o; o; o; v]); ("vvoo", ph_i H2 (3 + t) [v; v; o; o]);
        ("vovo", ph_i H2r (4 + t) [v; o; v; o]); ("oovv", ph_i H2 (5 + t) [o; o; v; v]);
        ("vooo", ph_i H2r (1 + t) [v; v; v; o]); ("ooov", ph_i H2 (2 + t) [v; o; v; v]);
        ("oooo", ph_i H2 t [v; v; v; v])].
Definition pJ (o v p w : cls) : sval :=
  XObj [("vvvv", ph_i H2 76 [o; p; o; p]); ("vvvo", ph_i H2 74 [o; w; o; p]);
        ("vvov", ph_i H2 75 [v; p; o; p]); ("vovv", ph_i H2 72 [o; p; o; w]);
        ("ovvv", ph_i H2 73 [o; p; v; p]); ("vvoo", ph_i H2 66 [v; w; o; p]);
        ("vovo", ph_i H2 70 [o; w; o; w]); ("voov", ph_i H2 68 [v; p; o; w]);
        ("ovvo", ph_i H2 69 [o; w; v; p]); ("ovov", ph_i H2 67 [v; p; v; p]);
        ("oovv", ph_i H2 71 [o; p; v; w]); ("ooov", ph_i H2 64 [v; p; v; w]);
        ("oovo", ph_i H2 65 [o; w; v; w]); ("ovoo", ph_i H2 62 [v; w; v; p]);
        ("vooo", ph_i H2 63 [v; w; o; w]); ("oooo", ph_i H2 61 [v; w; v; w])].

Section Args.
  Variable K : cring.
  Variable dim : cls -> nat.
  Variable rho : positive -> list nat -> K.
  Notation R := (Rval K dim rho).

  Lemma R_pF t o v (F F' : one_e K) :
    R (XObj [("oo", inp t [o; o]); ("ov", inp (1 + t) [o; v]); ("vo", inp (2 + t) [v; o]);
      ("vv", inp (3 + t) [v; v])]) (py_one_e F) -> holes_F F F' -> R (pF t o v) (py_one_e F').
  Proof.
    intros H (A1 & A2 & A3 & A4). inversion H as [| | |fs gs HF]; subst. clear H.
    repeat match goal with H : Forall2 _ (_ :: _) (_ :: _) |- _ => inversion_clear H end.
    repeat match goal with H : _ /\ _ |- _ => destruct H end. cbn [fst snd] in *.
    apply Rx_obj.
    repeat (constructor; [split; [reflexivity|cbn [snd]; eapply R_ph; [reflexivity|eassumption|eassumption]]|]).
    constructor.
  Qed.
  Lemma R_pI t o v (I I' : two_e K) :
    R (XObj [("vvvv", inp t [v; v; v; v]); ("vvvo", inp (1 + t) [v; v; v; o]);
        ("vovv", inp (2 + t) [v; o; v; v]); ("vvoo", inp (3 + t) [v; v; o; o]);
        ("vovo", inp (4 + t) [v; o; v; o]); ("oovv", inp (5 + t) [o; o; v; v]);
        ("vooo", inp (6 + t) [v; o; o; o]); ("ooov", inp (7 + t) [o; o; o; v]);
        ("oooo", inp (8 + t) [o; o; o; o])]) (py_two_e I) -> holes_I I I' -> R (pI t o v) (py_two_e I').
  Proof.
    intros H (A1 & A2 & A3 & A4 & A5 & A6 & A7 & A8 & A9). inversion H as [| | |fs gs HF]; subst. clear H.
    repeat match goal with H : Forall2 _ (_ :: _) (_ :: _) |- _ => inversion_clear H end.
    repeat match goal with H : _ /\ _ |- _ => destruct H end. cbn [fst snd] in *.
    apply Rx_obj.
    repeat (constructor; [split; [reflexivity|cbn [snd]; eapply R_ph; [reflexivity|eassumption|eassumption]]|]).
    constructor.
  Qed.
  Lemma R_pJ o v p w (J J' : two_e_full K) :
    R (XObj [("vvvv", inp 61 [v; w; v; w]); ("vvvo", inp 62 [v; w; v; p]);
        ("vvov", inp 63 [v; w; o; w]); ("vovv", inp 64 [v; p; v; w]);
        ("ovvv", inp 65 [o; w; v; w]); ("vvoo", inp 66 [v; w; o; p]);
        ("vovo", inp 67 [v; p; v; p]); ("voov", inp 68 [v; p; o; w]);
        ("ovvo", inp 69 [o; w; v; p]); ("ovov", inp 70 [o; w; o; w]);
        ("oovv", inp 71 [o; p; v; w]); ("ooov", inp 72 [o; p; o; w]);
        ("oovo", inp 73 [o; p; v; p]); ("ovoo", inp 74 [o; w; o; p]);
        ("vooo", inp 75 [v; p; o; p]); ("oooo", inp 76 [o; p; o; p])]) (py_two_e_full J) ->
    holes_J J J' -> R (pJ o v p w) (py_two_e_full J').
  Proof.
    intros H (A1 & A2 & A3 & A4 & A5 & A6 & A7 & A8 & A9 & A10 & A11 & A12 & A13 & A14 & A15 & A16).
    inversion H as [| | |fs gs HF]; subst. clear H.
    repeat match goal with H : Forall2 _ (_ :: _) (_ :: _) |- _ => inversion_clear H end.
    repeat match goal with H : _ /\ _ |- _ => destruct H end. cbn [fst snd] in *.
    apply Rx_obj.
    repeat (constructor; [split; [reflexivity|cbn [snd]; eapply R_ph; [reflexivity|eassumption|eassumption]]|]).
    constructor.
  Qed.
End Args.
