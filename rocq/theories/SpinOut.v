(** Comparing spin-orbital results with unrestricted ones, block by block. *)
From Coq Require Import List Bool Arith ZArith Lia Ring String.
From Verif Require Import Scalar Tensor PySyntax PySem PySim Sym SymSound Norm CCProg CCSpec Engine
  Tools SOCtx NpModel SpinModel SpinSpec SpinFacts SpinSplit UCtx.
Import ListNotations.
Local Open Scope string_scope.

(** how a block is obtained from a returned array *)
Inductive sop : Type := Sid | Sboth | Snket | Snbra.
Definition sop_s (o : sop) (u : stens) : option stens :=
  match o with
  | Sid => Some u
  | Sboth => s_trans [1; 0; 3; 2] u
  | Snket => option_map s_neg (s_trans [0; 1; 3; 2] u)
  | Snbra => option_map s_neg (s_trans [1; 0; 2; 3] u)
  end.
Definition sop_t {K : cring} (o : sop) (u : tensor K) : tensor K :=
  match o with
  | Sid => u
  | Sboth => swap_both u
  | Snket => tneg (swap_ket u)
  | Snbra => tneg (swap_bra u)
  end.

(** blocks as numbers into a list of returned arrays *)
Definition pat : Type := list bool -> option (sop * nat).
Definition pat2 : pat := fun ss =>
  match ss with [false; false] => Some (Sid, 0) | [true; true] => Some (Sid, 1) | _ => None end.
Definition pat4 (aaaa bbbb abab baba abba baab : sop * nat) : pat := fun ss =>
  match ss with
  | [false; false; false; false] => Some aaaa
  | [true; true; true; true] => Some bbbb
  | [false; true; false; true] => Some abab
  | [true; false; true; false] => Some baba
  | [false; true; true; false] => Some abba
  | [true; false; false; true] => Some baab
  | _ => None
  end.
(** returned: aaaa, abab, bbbb *)
Definition pat_amp : pat := pat4 (Sid, 0) (Sid, 2) (Sid, 1) (Sboth, 1) (Snket, 1) (Snbra, 1).
(** returned: aaaa, bbbb, abab *)
Definition pat3 : pat := pat4 (Sid, 0) (Sid, 1) (Sid, 2) (Sboth, 2) (Snket, 2) (Snbra, 2).
(** returned: aaaa, bbbb, abab, baba; the other two by exchange of the last or
    the first pair *)
Definition pat4k : pat := pat4 (Sid, 0) (Sid, 1) (Sid, 2) (Sid, 3) (Snket, 2) (Snket, 3).
Definition pat4b : pat := pat4 (Sid, 0) (Sid, 1) (Sid, 2) (Sid, 3) (Snbra, 3) (Snbra, 2).
(** returned: aaaa, bbbb, abab, abba, baab, baba *)
Definition pat6 : pat := pat4 (Sid, 0) (Sid, 1) (Sid, 2) (Sid, 5) (Sid, 3) (Sid, 4).

Definition out1 (S : stens) (us : list stens) (p : pat) (ss : list bool)
  : option (stens * stens) :=
  match split_arr so_sp ss S with
  | None => None
  | Some b =>
      match p ss with
      | None => Some (b, STens (s_sh b) [])
      | Some (o, k) =>
          match nth_error us k with
          | Some u => match sop_s o u with Some u' => Some (b, u') | None => None end
          | None => None
          end
      end
  end.
Fixpoint out_chk (S : stens) (us : list stens) (p : pat) (l : list (list bool))
  (cs : list (list cert)) : bool :=
  match l, cs with
  | [], [] => true
  | ss :: l', c :: cs' =>
      match out1 S us p ss with
      | Some (a, b) => if aeq_chk u_tb a b c then out_chk S us p l' cs' else false
      | None => false
      end
  | _, _ => false
  end.
Definition out_find (S : stens) (us : list stens) (p : pat) (l : list (list bool))
  : list (list cert) :=
  map (fun ss => match out1 S us p ss with Some (a, b) => find_aeq u_tb a b | None => [] end) l.
Definition outs_chk (S : stens) (us : list stens) (p : pat) cs : bool :=
  out_chk S us p (spin_list (List.length (s_sh S))) cs.
Definition outs_find (S : stens) (us : list stens) (p : pat) :=
  out_find S us p (spin_list (List.length (s_sh S))).

Section Out.
  Variable K : cring.
  Local Open Scope K_scope.
  Add Ring Kr13 : (c_th K).
  Variable dim : cls -> nat.
  Variables rho_so rho_u : positive -> list nat -> K.
  Hypothesis Hsp : sptab_ok K dim rho_so rho_u so_sp.
  Hypothesis Htb : sym_ok K dim rho_u u_tb.

  Lemma perm4 p (u v : stens) : s_trans p u = Some v -> List.length p = 4%nat ->
    exists a b c d, s_sh u = [a; b; c; d].
  Proof.
    unfold s_trans. destruct (is_perm p (List.length (s_sh u))) eqn:E; [|discriminate].
    intros _ Hl. apply andb_prop in E. destruct E as [E _]. apply Nat.eqb_eq in E.
    rewrite Hl in E. destruct (s_sh u) as [|a [|b [|c [|d [|]]]]]; try discriminate. eauto 6.
  Qed.

  Lemma sop_sound o u u' (v : tensor K) : sop_s o u = Some u' -> Rarr K dim rho_u u v ->
    Rarr K dim rho_u u' (sop_t o v).
  Proof.
    destruct o; cbn [sop_s sop_t].
    - intros [= <-]. auto.
    - intros E H. destruct (perm4 _ _ _ E eq_refl) as (a & b & c & d & Es).
      destruct (S_atrans K dim rho_u _ _ _ _ H E) as (t & Et & Ht).
      pose proof H as [Hs _]. rewrite Es in Hs. rewrite (ttrans_both K _ _ _ _ _ Hs) in Et.
      injection Et as <-. exact Ht.
    - destruct (s_trans [0; 1; 3; 2]%nat u) as [w|] eqn:E; [|discriminate]. intros [= <-] H.
      destruct (perm4 _ _ _ E eq_refl) as (a & b & c & d & Es).
      destruct (S_atrans K dim rho_u _ _ _ _ H E) as (t & Et & Ht).
      pose proof H as [Hs _]. rewrite Es in Hs. rewrite (ttrans_ket K _ _ _ _ _ Hs) in Et.
      injection Et as <-. apply S_aneg. exact Ht.
    - destruct (s_trans [1; 0; 2; 3]%nat u) as [w|] eqn:E; [|discriminate]. intros [= <-] H.
      destruct (perm4 _ _ _ E eq_refl) as (a & b & c & d & Es).
      destruct (S_atrans K dim rho_u _ _ _ _ H E) as (t & Et & Ht).
      pose proof H as [Hs _]. rewrite Es in Hs. rewrite (ttrans_bra K _ _ _ _ _ Hs) in Et.
      injection Et as <-. apply S_aneg. exact Ht.
  Qed.

  Definition pat_t (us : list (tensor K)) (p : pat) (ss : list bool) : option (tensor K) :=
    match p ss with
    | Some (o, k) => Some (sop_t o (nth k us (tzeros K [])))
    | None => None
    end.

  Lemma nth_error_F2 {A B} (P : A -> B -> Prop) l m k a d : Forall2 P l m ->
    nth_error l k = Some a -> P a (nth k m d).
  Proof.
    intros H. revert k. induction H; intros [|k]; simpl; try discriminate; auto.
    intros [= <-]. auto.
  Qed.

  Lemma out1_sound S t us vs p ss a b c : out1 S us p ss = Some (a, b) ->
    aeq_chk u_tb a b c = true -> List.length ss = List.length (s_sh S) ->
    Rarr K (dso dim) rho_so S t -> Forall2 (Rarr K dim rho_u) us vs ->
    forall idx, inrange (sels ss (map (da dim) (s_sh S)) (map (db dim) (s_sh S))) idx ->
      dat t (ats (map (da dim) (s_sh S)) ss idx) =
      match pat_t vs p ss with Some u => dat u idx | None => 0 end.
  Proof.
    unfold out1. destruct (split_arr so_sp ss S) as [b0|] eqn:E; [|discriminate].
    intros E1 Hc Hl HS HU idx Hi.
    pose proof (split_sound K dim rho_so rho_u so_sp Hsp ss S b0 t E HS) as Hb.
    unfold pat_t. destruct (p ss) as [[o k]|] eqn:Ep.
    - destruct (nth_error us k) as [u|] eqn:Eu; [|discriminate].
      destruct (sop_s o u) as [u'|] eqn:Eo; [|discriminate]. injection E1 as <- <-.
      pose proof (nth_error_F2 _ _ _ _ _ (tzeros K []) HU Eu) as Hu.
      pose proof (sop_sound _ _ _ _ Eo Hu) as Hu'.
      destruct (aeq_sound K dim rho_u u_tb _ _ _ _ _ Hc Htb Hb Hu') as [_ HT].
      apply (HT idx Hi).
    - injection E1 as <- <-.
      assert (HZ : Rarr K dim rho_u (STens (s_sh b0) []) (tzeros K (map dim (s_sh b0)))).
      { split; [reflexivity|]. split; [constructor|]. reflexivity. }
      destruct (aeq_sound K dim rho_u u_tb _ _ _ _ _ Hc Htb Hb HZ) as [_ HT].
      apply (HT idx Hi).
  Qed.

  Lemma out_sound S t us vs p cs : outs_chk S us p cs = true ->
    Rarr K (dso dim) rho_so S t -> Forall2 (Rarr K dim rho_u) us vs ->
    holds (map (da dim) (s_sh S)) (map (db dim) (s_sh S)) t (pat_t vs p).
  Proof.
    intros H HS HU. split; [|split].
    - destruct HS as [-> _]. symmetry. apply sums_dso.
    - rewrite !map_length. reflexivity.
    - intros ss idx Hs Hi. rewrite map_length in Hs.
      assert (HF : Forall (fun ss => exists a b c, out1 S us p ss = Some (a, b) /\
        aeq_chk u_tb a b c = true) (spin_list (List.length (s_sh S)))).
      { unfold outs_chk in H. revert cs H. generalize (spin_list (List.length (s_sh S))).
        intros l. induction l as [|x l IH]; intros [|c cs]; cbn [out_chk]; try discriminate;
          [constructor|].
        destruct (out1 S us p x) as [[a b]|] eqn:E; [|discriminate].
        destruct (aeq_chk u_tb a b c) eqn:E2; [|discriminate]. intros H. constructor; eauto 6. }
      destruct (spin_cases _ _ HF ss Hs) as (a & b & c & E1 & E2).
      eapply out1_sound; eauto.
  Qed.
End Out.
Arguments pat_t {K}.

(** *** Forms of results *)
Definition f_amps : form := FTup [FTup [FArr; FArr]; FTup [FArr; FArr; FArr]].
Definition amps_of (v : sval) : list stens * list stens :=
  ([get_arr (item 0 (item 0 v)); get_arr (item 1 (item 0 v))],
   [get_arr (item 0 (item 1 v)); get_arr (item 1 (item 1 v)); get_arr (item 2 (item 1 v))]).
Section Forms.
  Variable K : cring.
  Variable dim : cls -> nat.
  Variable rho : positive -> list nat -> K.
  Notation Rv := (Rval K dim rho).

  Lemma run_amps_sound f args vs : run_form f_amps f args = true -> Forall2 Rv args vs ->
    exists a b aa ab bb,
      returns f vs (tup [tup [arr a; arr b]; tup [arr aa; arr ab; arr bb]]) /\
      Forall2 (Rarr K dim rho) (fst (amps_of (run_s f args))) [a; b] /\
      Forall2 (Rarr K dim rho) (snd (amps_of (run_s f args))) [aa; ab; bb].
  Proof.
    intros H Hv. destruct (run_tup_sound K dim rho _ _ _ _ H Hv) as (ws & Hr & HL & Hf & Hk).
    destruct ws as [|w0 [|w1 [|]]]; try discriminate.
    pose proof (Hk 0%nat ltac:(simpl; lia)) as H0. pose proof (Hk 1%nat ltac:(simpl; lia)) as H1.
    cbn [nth] in H0, H1.
    inversion Hf as [|? ? ? ? Hf0 Hf']; subst. inversion Hf' as [|? ? ? ? Hf1 _]; subst.
    destruct (Rv_tup K dim rho _ _ _ Hf0 H0) as (ws & -> & Hg & Hg2 & Hg3).
    destruct ws as [|x0 [|x1 [|]]]; try discriminate.
    pose proof (Hg3 0%nat ltac:(simpl; lia)) as X0. pose proof (Hg3 1%nat ltac:(simpl; lia)) as X1.
    cbn [nth] in X0, X1.
    inversion Hg as [|? ? ? ? Hg0 Hg']; subst. inversion Hg' as [|? ? ? ? Hg1 _]; subst.
    destruct (Rv_tup K dim rho _ _ _ Hf1 H1) as (ws & -> & Hh & Hh2 & Hh3).
    destruct ws as [|y0 [|y1 [|y2 [|]]]]; try discriminate.
    pose proof (Hh3 0%nat ltac:(simpl; lia)) as Y0. pose proof (Hh3 1%nat ltac:(simpl; lia)) as Y1.
    pose proof (Hh3 2%nat ltac:(simpl; lia)) as Y2. cbn [nth] in Y0, Y1, Y2.
    inversion Hh as [|? ? ? ? Hh0 Hh']; subst. inversion Hh' as [|? ? ? ? Hh1 Hh'']; subst.
    inversion Hh'' as [|? ? ? ? Hh2' _]; subst.
    destruct (Rv_arr K dim rho _ _ Hg0 X0) as (a & -> & Ha).
    destruct (Rv_arr K dim rho _ _ Hg1 X1) as (b & -> & Hb).
    destruct (Rv_arr K dim rho _ _ Hh0 Y0) as (aa & -> & Haa).
    destruct (Rv_arr K dim rho _ _ Hh1 Y1) as (ab & -> & Hab).
    destruct (Rv_arr K dim rho _ _ Hh2' Y2) as (bb & -> & Hbb).
    exists a, b, aa, ab, bb. split; [exact Hr|].
    split; repeat (constructor; auto).
  Qed.
End Forms.
