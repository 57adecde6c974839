(** Change of the Fock matrix: symbolic execution with a Hamiltonian that has
    only the blocks that are added, and linearity in the Hamiltonian. *)
From Coq Require Import List Bool Arith ZArith String Lia Ring.
From Verif Require Import Scalar Tensor PySyntax PySem PySim Sym SymSound Norm CCProg CCSpec
  Engine Tools SOCtx NpModel SpinModel SpinSpec UCtx RCtx SpinOut CCSpin CCRest CCEquiv
  UtilsModel UtilsFacts CCShapes CovSpec CovThm USym ShiftSpec PHThm.
Import ListNotations.
Local Open Scope string_scope.

Definition z0 (sh : list cls) : sval := sarr (s_zero sh).
Definition zI (o v : cls) : sval :=
  XObj [("vvvv", z0 [v; v; v; v]); ("vvvo", z0 [v; v; v; o]);
        ("vovv", z0 [v; o; v; v]); ("vvoo", z0 [v; v; o; o]);
        ("vovo", z0 [v; o; v; o]); ("oovv", z0 [o; o; v; v]);
        ("vooo", z0 [v; o; o; o]); ("ooov", z0 [o; o; o; v]);
        ("oooo", z0 [o; o; o; o])].
Definition zJ (o v p w : cls) : sval :=
  XObj [("vvvv", z0 [v; w; v; w]); ("vvvo", z0 [v; w; v; p]);
        ("vvov", z0 [v; w; o; w]); ("vovv", z0 [v; p; v; w]);
        ("ovvv", z0 [o; w; v; w]); ("vvoo", z0 [v; w; o; p]);
        ("vovo", z0 [v; p; v; p]); ("voov", z0 [v; p; o; w]);
        ("ovvo", z0 [o; w; v; p]); ("ovov", z0 [o; w; o; w]);
        ("oovv", z0 [o; p; v; w]); ("ooov", z0 [o; p; o; w]);
        ("oovo", z0 [o; p; v; p]); ("ovoo", z0 [o; w; o; p]);
        ("vooo", z0 [v; p; o; p]); ("oooo", z0 [o; p; o; p])].
Definition dF (t : positive) (o v : cls) : sval :=
  XObj [("oo", inp t [o; o]); ("ov", z0 [o; v]); ("vo", z0 [v; o]); ("vv", inp (3 + t) [v; v])].

(** [h], [g]: symbols of the matrices, [t]: symbol of the amplitudes *)
Definition cm1 (h t : positive) (o v : cls) : stens :=
  STens [v; o] [Mono 1 0 [v] [(3 + h, [X 0; D 0]); (t, [D 0; X 1])];
                Mono (-1) 0 [o] [(t, [X 0; D 0]); (h, [D 0; X 1])]]%positive.
Definition cm2 (h g t : positive) (o v p w : cls) : stens :=
  STens [v; w; o; p]
   [Mono 1 0 [v] [(3 + h, [X 0; D 0]); (t, [D 0; X 1; X 2; X 3])];
    Mono 1 0 [w] [(3 + g, [X 1; D 0]); (t, [X 0; D 0; X 2; X 3])];
    Mono (-1) 0 [o] [(t, [X 0; X 1; D 0; X 3]); (h, [D 0; X 2])];
    Mono (-1) 0 [p] [(t, [X 0; X 1; X 2; D 0]); (g, [D 0; X 3])]]%positive.
Definition cl1 (h t : positive) (o v : cls) : stens :=
  STens [o; v] [Mono 1 0 [v] [(t, [X 0; D 0]); (3 + h, [D 0; X 1])];
                Mono (-1) 0 [o] [(h, [X 0; D 0]); (t, [D 0; X 1])]]%positive.
Definition cl2 (h g t : positive) (o v p w : cls) : stens :=
  STens [o; p; v; w]
   [Mono 1 0 [v] [(t, [X 0; X 1; D 0; X 3]); (3 + h, [D 0; X 2])];
    Mono 1 0 [w] [(t, [X 0; X 1; X 2; D 0]); (3 + g, [D 0; X 3])];
    Mono (-1) 0 [o] [(h, [X 0; D 0]); (t, [D 0; X 1; X 2; X 3])];
    Mono (-1) 0 [p] [(g, [X 1; D 0]); (t, [X 0; D 0; X 2; X 3])]]%positive.

Section Den.
  Variable K : cring.
  Local Open Scope K_scope.
  Add Ring KrSh : (c_th K).
  Variable dim : cls -> nat.
  Variable rho : positive -> list nat -> K.
  Notation RA := (Rarr K dim rho).
  Variables (h g t : positive) (o v p w : cls) (hoo hvv goo gvv u : tensor K).
  Hypothesis Eh : forall idx, rho h idx = dat hoo idx.
  Hypothesis Eh3 : forall idx, rho (3 + h)%positive idx = dat hvv idx.
  Hypothesis Eg : forall idx, rho g idx = dat goo idx.
  Hypothesis Eg3 : forall idx, rho (3 + g)%positive idx = dat gvv idx.
  Hypothesis Et : forall idx, rho t idx = dat u idx.

  Lemma den1 xs z c f1 is1 f2 is2 (A B : tensor K) :
    (forall idx, rho f1 idx = dat A idx) -> (forall idx, rho f2 idx = dat B idx) ->
    den_mono K dim rho xs (Mono z 0 [c] [(f1, is1); (f2, is2)]) =
    dyad z 0 * sumN (dim c) (fun d => dat A (map (look xs [d]) is1) * dat B (map (look xs [d]) is2)).
  Proof.
    intros EA EB. unfold den_mono, den_fac. cbn [m_z m_k m_dm m_fs map sumL fst snd]. f_equal.
    apply sumN_ext. intros i _. cbn [prodK fold_right]. rewrite EA, EB. ring.
  Qed.
  Lemma dy1 : dyad (K := K) 1 0 = 1. Proof. unfold dyad. cbn. ring. Qed.
  Lemma dym1 : dyad (K := K) (-1) 0 = - (1). Proof. unfold dyad. cbn. ring. Qed.

  Ltac okm := repeat (constructor; [repeat (constructor; [repeat (constructor; [cbn; lia|]); constructor|]); constructor|]); constructor.
  Ltac go := split; [reflexivity|]; split; [okm|]; intros idx Hi.
  Ltac fin := unfold den; cbn [map s_ms cm1 cm2 cl1 cl2 lsum fold_right];
    repeat (erewrite den1 by eassumption); rewrite ?dy1, ?dym1;
    cbn [comm1 comm2 lcomm1 lcomm2 dat map look nth]; ring.

  Lemma R_cm1 : RA (cm1 h t o v) (comm1 (dim o) (dim v) hoo hvv u).
  Proof. go. destruct (idx2 _ _ _ Hi) as (a & i & ->). fin. Qed.
  Lemma R_cm2 : RA (cm2 h g t o v p w) (comm2 (dim o) (dim v) (dim p) (dim w) hoo hvv goo gvv u).
  Proof. go. destruct (idx4 _ _ _ _ _ Hi) as (a & b & i & j & ->). fin. Qed.
  Lemma R_cl1 : RA (cl1 h t o v) (lcomm1 (dim o) (dim v) hoo hvv u).
  Proof. go. destruct (idx2 _ _ _ Hi) as (a & i & ->). fin. Qed.
  Lemma R_cl2 : RA (cl2 h g t o v p w) (lcomm2 (dim o) (dim v) (dim p) (dim w) hoo hvv goo gvv u).
  Proof. go. destruct (idx4 _ _ _ _ _ Hi) as (a & b & i & j & ->). fin. Qed.
End Den.

Definition shift_chk (tb : table) (fm : form) (f : string) (a : list sval) (get : sval -> list stens)
    (specs : list stens) (cs : list (list cert)) : bool :=
  run_form fm f a && Nat.eqb (List.length (get (run_s f a))) (List.length specs) &&
  all_chk tb (combine (get (run_s f a)) specs) cs.
Definition shift_find tb f a (get : sval -> list stens) (specs : list stens) :=
  all_find tb (combine (get (run_s f a)) specs).
Definition get1 (x : sval) := [get_arr x].
Definition get2 (x : sval) := [get_arr (item 0 x); get_arr (item 1 x)].
Definition get5 (x : sval) := [get_arr (item 0 (item 0 x)); get_arr (item 1 (item 0 x));
  get_arr (item 0 (item 1 x)); get_arr (item 1 (item 1 x)); get_arr (item 2 (item 1 x))].

(** *** Tables *)
Definition D_so := dF 1 cO cV. Definition I_so := zI cO cV.
Definition C1 := cm1 1 14 cO cV. Definition C2 := cm2 1 1 15 cO cV cO cV.
Definition E1 := cl1 1 16 cO cV. Definition E2 := cl2 1 1 17 cO cV cO cV.
Definition x_sd := [D_so; I_so; sT1; sT2]. Definition x_d := [D_so; I_so; sT2].
Definition x_l := [D_so; I_so; sL1; sL2; sT1; sT2]. Definition x_dl := [D_so; I_so; sL2; sT2].
Definition sc_sd := Eval vm_compute in map (fun f => shift_find so_tb f x_sd get2 [C1; C2]) so_sd.
Definition sc_d := Eval vm_compute in map (fun f => shift_find so_tb f x_d get1 [C2]) so_d.
Definition sc_l := Eval vm_compute in map (fun f => shift_find so_tb f x_l get2 [E1; E2]) so_l.
Definition sc_dl := Eval vm_compute in map (fun f => shift_find so_tb f x_dl get1 [E2]) ["ccd_lambda_simple"].
Lemma sok_sd : tab_chk (fun f cs => shift_chk so_tb (FTup [FArr; FArr]) f x_sd get2 [C1; C2] cs) so_sd sc_sd = true. Proof. vm_compute. reflexivity. Qed.
Lemma sok_d : tab_chk (fun f cs => shift_chk so_tb FArr f x_d get1 [C2] cs) so_d sc_d = true. Proof. vm_compute. reflexivity. Qed.
Lemma sok_l : tab_chk (fun f cs => shift_chk so_tb (FTup [FArr; FArr]) f x_l get2 [E1; E2] cs) so_l sc_l = true. Proof. vm_compute. reflexivity. Qed.
Lemma sok_dl : tab_chk (fun f cs => shift_chk so_tb FArr f x_dl get1 [E2] cs) ["ccd_lambda_simple"] sc_dl = true. Proof. vm_compute. reflexivity. Qed.

Definition Da := dF 31 oa va. Definition Db := dF 35 ob vb.
Definition UT := [cm1 31 81 oa va; cm1 35 82 ob vb; cm2 31 31 83 oa va oa va; cm2 31 35 84 oa va ob vb;
  cm2 35 35 85 ob vb ob vb].
Definition UL := [cl1 31 86 oa va; cl1 35 87 ob vb; cl2 31 31 88 oa va oa va; cl2 31 35 89 oa va ob vb;
  cl2 35 35 90 ob vb ob vb].
Definition x_ut := [Da; Db; zI oa va; zI ob vb; zJ oa va ob vb; XTup [sT1a; sT1b]; XTup [sT2aa; sT2ab; sT2bb]].
Definition x_ul := [Da; Db; zI oa va; zI ob vb; zJ oa va ob vb; XTup [sL1a; sL1b]; XTup [sL2aa; sL2ab; sL2bb];
  XTup [sT1a; sT1b]; XTup [sT2aa; sT2ab; sT2bb]].
Definition sc_ut := Eval vm_compute in shift_find u_tb "uccsd_stanton" x_ut get5 UT.
Definition sc_ul := Eval vm_compute in shift_find u_tb "uccsd_lambda_opt" x_ul get5 UL.
Lemma sok_ut : shift_chk u_tb f_amps "uccsd_stanton" x_ut get5 UT sc_ut = true. Proof. vm_compute. reflexivity. Qed.
Lemma sok_ul : shift_chk u_tb f_amps "uccsd_lambda_opt" x_ul get5 UL sc_ul = true. Proof. vm_compute. reflexivity. Qed.

Definition x_rt := [D_so; zJ cO cV cO cV; sT1; sT2].
Definition x_rl := [D_so; zJ cO cV cO cV; sL1; sL2; sT1; sT2].
Definition sc_rt := Eval vm_compute in shift_find r_tb "rccsd_stanton" x_rt get2 [C1; C2].
Definition sc_rl := Eval vm_compute in shift_find r_tb "rccsd_lambda_opt" x_rl get2 [E1; E2].
Lemma sok_rt : shift_chk r_tb (FTup [FArr; FArr]) "rccsd_stanton" x_rt get2 [C1; C2] sc_rt = true.
Proof. vm_compute. reflexivity. Qed.
Lemma sok_rl : shift_chk r_tb (FTup [FArr; FArr]) "rccsd_lambda_opt" x_rl get2 [E1; E2] sc_rl = true.
Proof. vm_compute. reflexivity. Qed.

(** *** From checks to results *)
Section Forms.
  Variable K : cring.
  Variable dim : cls -> nat.
  Variable rho : positive -> list nat -> K.
  Notation R := (Rval K dim rho).
  Notation RA := (Rarr K dim rho).
  Variable tb : table.
  Hypothesis Htb : sym_ok K dim rho tb.
  Variable a : list sval.
  Variable vs : list (pyval K).
  Hypothesis HA : Forall2 R a vs.

  Lemma shift_split fm f get specs cs : shift_chk tb fm f a get specs cs = true ->
    run_form fm f a = true /\
    Forall (fun p => forall t u, RA (fst p) t -> RA (snd p) u -> teq t u) (combine (get (run_s f a)) specs).
  Proof.
    unfold shift_chk. intros H. apply andb_prop in H. destruct H as (H & C). apply andb_prop in H. destruct H as (H & _).
    split; [exact H|]. exact (all_sound K dim rho tb Htb _ _ C).
  Qed.
  Lemma shift_arr f c1 cs u1 : shift_chk tb FArr f a get1 [c1] cs = true -> RA c1 u1 ->
    exists r, returns f vs (arr r) /\ teq r u1.
  Proof.
    intros H U1. destruct (shift_split _ _ _ _ _ H) as (C0 & G).
    destruct (run_arr_sound K dim rho _ _ _ C0 HA) as (r & R1 & A1). exists r. split; [exact R1|].
    cbn [get1 combine] in G. inversion_clear G as [|? ? G1 _]. apply G1; assumption.
  Qed.
  Lemma shift_pair f c1 c2 cs u1 u2 : shift_chk tb (FTup [FArr; FArr]) f a get2 [c1; c2] cs = true ->
    RA c1 u1 -> RA c2 u2 ->
    exists r s, returns f vs (tup [arr r; arr s]) /\ teq r u1 /\ teq s u2.
  Proof.
    intros H U1 U2. destruct (shift_split _ _ _ _ _ H) as (C0 & G).
    destruct (run_pair_sound K dim rho _ _ _ C0 HA) as (r & s & R1 & A1 & A2). exists r, s. split; [exact R1|].
    cbn [get2 combine] in G. inversion_clear G as [|? ? G1 G']. inversion_clear G' as [|? ? G2 _].
    split; [apply G1|apply G2]; assumption.
  Qed.
  Lemma shift_amps f c1 c2 c3 c4 c5 cs u1 u2 u3 u4 u5 :
    shift_chk tb f_amps f a get5 [c1; c2; c3; c4; c5] cs = true ->
    RA c1 u1 -> RA c2 u2 -> RA c3 u3 -> RA c4 u4 -> RA c5 u5 ->
    exists ta tb aa ab bb, returns f vs (tup [tup [arr ta; arr tb]; tup [arr aa; arr ab; arr bb]]) /\
      teq ta u1 /\ teq tb u2 /\ teq aa u3 /\ teq ab u4 /\ teq bb u5.
  Proof.
    intros H U1 U2 U3 U4 U5. destruct (shift_split _ _ _ _ _ H) as (C0 & G).
    destruct (run_amps_sound K dim rho _ _ _ C0 HA) as (ta & tb' & aa & ab & bb & R1 & A1 & A2).
    exists ta, tb', aa, ab, bb. split; [exact R1|].
    unfold amps_of in *. cbn [fst snd] in A1, A2. apply F2_2 in A1. apply F2_3 in A2.
    destruct A1 as (A1 & A1'), A2 as (A2 & A2' & A2''). cbn [get5 combine] in G.
    repeat match goal with H : Forall _ (_ :: _) |- _ => inversion_clear H end. cbn [fst snd] in *.
    repeat match goal with |- _ /\ _ => split end; auto.
  Qed.
End Forms.

(** *** Linearity *)
Fixpoint pos_of (f : string) (l : list string) : nat :=
  match l with [] => 0 | g :: l' => if String.eqb f g then 0 else S (pos_of f l') end.
Ltac in_list := match goal with
  | |- In (?f, _, _) public_functions =>
      let k := eval vm_compute in (pos_of f (map (fun e => fst (fst e)) public_functions)) in
      exact (nth_error_In public_functions k eq_refl)
  | |- In (?f, _) hamiltonian_arguments =>
      let k := eval vm_compute in (pos_of f (map fst hamiltonian_arguments)) in
      exact (nth_error_In hamiltonian_arguments k eq_refl)
  end.
Section Lin.
  Variable K : cring.
  Local Open Scope K_scope.
  Add Ring KrSl : (c_th K).
  Variable n : space -> nat.

  Lemma comb_plus l (a b t : tensor K) : combined_array n 1 1 l a b t -> plus a b t.
  Proof.
    intros (S1 & S2 & S3 & H). split; [congruence|]. split; [congruence|]. intros idx Hi. rewrite S1 in Hi.
    rewrite H by exact Hi. ring.
  Qed.
  Lemma plus_comb l (a b t : tensor K) : shp a = map n l -> plus a b t -> combined_array n 1 1 l a b t.
  Proof.
    intros S (S1 & S2 & H). split; [exact S|]. split; [congruence|]. split; [congruence|]. intros idx Hi.
    rewrite <- S in Hi. rewrite H by exact Hi. ring.
  Qed.
  Lemma plus_teq (a b b' t : tensor K) : plus a b t -> teq b b' -> plus a b' t.
  Proof.
    intros (S1 & S2 & H) (E1 & E2). split; [congruence|]. split; [exact S2|]. intros idx Hi.
    rewrite H by exact Hi. rewrite E2; [reflexivity|]. rewrite S1. exact Hi.
  Qed.
  Lemma comb_zero l (a : tensor K) : shp a = map n l -> combined_array n 1 1 l a (tzeros K (map n l)) a.
  Proof. intros S. split; [exact S|]. split; [reflexivity|]. split; [exact S|]. intros idx Hi. cbn. ring. Qed.
  Lemma comb_teq l (a t : tensor K) : shp a = map n l -> teq a t -> combined_array n 1 1 l a (tzeros K (map n l)) t.
  Proof.
    intros S (E1 & E2). split; [exact S|]. split; [reflexivity|]. split; [congruence|]. intros idx Hi.
    rewrite <- S in Hi. rewrite <- E2 by exact Hi. cbn. ring.
  Qed.
  Lemma same_refl l (a : tensor K) : shp a = map n l -> same_array n l a a a.
  Proof. intros S. split; [exact S|]. split; [exact S|]. split; [exact S|]. auto. Qed.

  Lemma lin_arr f hs a l us vs ws : In (f, hs) hamiltonian_arguments -> In (f, a, SArr l) public_functions ->
    combined_args n 1 1 hs a us vs ws ->
    exists r r0 r' : tensor K, returns f us (arr r) /\ returns f vs (arr r0) /\ returns f ws (arr r') /\ plus r r0 r'.
  Proof.
    intros H1 H2 H3. destruct (lin_thm K hamiltonian_arguments n 1 1 f hs a _ us vs ws ham_all H1 H2 H3)
      as (u & v & w & R1 & R2 & R3 & C).
    destruct u as [|u| |]; try contradiction. destruct v as [|v| |]; try contradiction.
    destruct w as [|w| |]; try contradiction. exists u, v, w. do 3 (split; [assumption|]).
    eapply comb_plus. exact C.
  Qed.
  Lemma lin_inv2 l m (u v w : pyval K) : combined n 1 1 (STup [SArr l; SArr m]) u v w ->
    exists r s r0 s0 r' s' : tensor K, u = tup [arr r; arr s] /\ v = tup [arr r0; arr s0] /\ w = tup [arr r'; arr s'] /\
      plus r r0 r' /\ plus s s0 s'.
  Proof.
    intros C. destruct u as [| |us'|]; try contradiction. destruct v as [| |vs'|]; try contradiction.
    destruct w as [| |ws'|]; try contradiction. cbn in C.
    destruct us' as [|[|r| |] us']; try contradiction; destruct vs' as [|[|r0| |] vs']; try contradiction;
      destruct ws' as [|[|r'| |] ws']; try (destruct C; contradiction); try contradiction.
    destruct C as (C1 & C).
    destruct us' as [|[|s| |] us']; try contradiction; destruct vs' as [|[|s0| |] vs']; try contradiction;
      destruct ws' as [|[|s'| |] ws']; try (destruct C; contradiction); try contradiction.
    destruct C as (C2 & C). destruct us', vs', ws'; try contradiction.
    exists r, s, r0, s0, r', s'. do 3 (split; [reflexivity|]).
    split; eapply comb_plus; eassumption.
  Qed.
  Lemma lin_pair f hs a l m us vs ws : In (f, hs) hamiltonian_arguments ->
    In (f, a, STup [SArr l; SArr m]) public_functions -> combined_args n 1 1 hs a us vs ws ->
    exists r s r0 s0 r' s' : tensor K, returns f us (tup [arr r; arr s]) /\ returns f vs (tup [arr r0; arr s0]) /\
      returns f ws (tup [arr r'; arr s']) /\ plus r r0 r' /\ plus s s0 s'.
  Proof.
    intros H1 H2 H3. destruct (lin_thm K hamiltonian_arguments n 1 1 f hs a _ us vs ws ham_all H1 H2 H3)
      as (u & v & w & R1 & R2 & R3 & C).
    apply lin_inv2 in C. destruct C as (r & s & r0 & s0 & r' & s' & -> & -> & -> & C). exists r, s, r0, s0, r', s'. auto.
  Qed.
  Lemma lin_inv3 l m o (u v w : pyval K) : combined n 1 1 (STup [SArr l; SArr m; SArr o]) u v w ->
    exists r s q r0 s0 q0 r' s' q' : tensor K, u = tup [arr r; arr s; arr q] /\ v = tup [arr r0; arr s0; arr q0] /\
      w = tup [arr r'; arr s'; arr q'] /\ plus r r0 r' /\ plus s s0 s' /\ plus q q0 q'.
  Proof.
    intros C. destruct u as [| |us'|]; try contradiction. destruct v as [| |vs'|]; try contradiction.
    destruct w as [| |ws'|]; try contradiction. cbn in C.
    destruct us' as [|x us']; try contradiction; destruct vs' as [|y vs']; try contradiction;
      destruct ws' as [|z ws']; try contradiction. destruct C as (C1 & C).
    destruct (lin_inv2 m o (XTup us') (XTup vs') (XTup ws') C) as (s & q & s0 & q0 & s' & q' & E1 & E2 & E3 & P1 & P2).
    injection E1 as ->. injection E2 as ->. injection E3 as ->.
    destruct x as [|r| |]; try contradiction. destruct y as [|r0| |]; try contradiction. destruct z as [|r'| |]; try contradiction.
    exists r, s, q, r0, s0, q0, r', s', q'. do 3 (split; [reflexivity|]). split; [eapply comb_plus; exact C1|]. auto.
  Qed.
  Lemma lin_amps f hs a l m o p q us vs ws : In (f, hs) hamiltonian_arguments ->
    In (f, a, STup [STup [SArr l; SArr m]; STup [SArr o; SArr p; SArr q]]) public_functions -> combined_args n 1 1 hs a us vs ws ->
    exists ra rb raa rab rbb ya yb yaa yab ybb ra' rb' raa' rab' rbb' : tensor K,
      returns f us (tup [tup [arr ra; arr rb]; tup [arr raa; arr rab; arr rbb]]) /\
      returns f vs (tup [tup [arr ya; arr yb]; tup [arr yaa; arr yab; arr ybb]]) /\
      returns f ws (tup [tup [arr ra'; arr rb']; tup [arr raa'; arr rab'; arr rbb']]) /\
      plus ra ya ra' /\ plus rb yb rb' /\ plus raa yaa raa' /\ plus rab yab rab' /\ plus rbb ybb rbb'.
  Proof.
    intros H1 H2 H3. destruct (lin_thm K hamiltonian_arguments n 1 1 f hs a _ us vs ws ham_all H1 H2 H3)
      as (u & v & w & R1 & R2 & R3 & C).
    destruct u as [| |us'|]; try contradiction. destruct v as [| |vs'|]; try contradiction.
    destruct w as [| |ws'|]; try contradiction.
    destruct us' as [|u1 us'], vs' as [|v1 vs'], ws' as [|w1 ws']; try contradiction.
    destruct C as (A & C).
    destruct us' as [|u2 us'], vs' as [|v2 vs'], ws' as [|w2 ws']; try contradiction.
    destruct C as (B & C). destruct us', vs', ws'; try contradiction.
    apply lin_inv2 in A. apply lin_inv3 in B.
    destruct A as (ra & rb & ya & yb & ra' & rb' & -> & -> & -> & A1 & A2).
    destruct B as (raa & rab & rbb & yaa & yab & ybb & raa' & rab' & rbb' & -> & -> & -> & B1 & B2 & B3).
    exists ra, rb, raa, rab, rbb, ya, yb, yaa, yab, ybb, ra', rb', raa', rab', rbb'. do 3 (split; [assumption|]). auto.
  Qed.
End Lin.

Definition hF {K : cring} (no nv : nat) (hoo hvv : tensor K) : one_e K :=
  OneE K hoo (tzeros K [no; nv]) (tzeros K [nv; no]) hvv.

Section Comb.
  Variable K : cring.
  Local Open Scope K_scope.
  Add Ring KrSc : (c_th K).
  Variable n : space -> nat.
  Lemma comb_F o v (F F' : one_e K) hoo hvv : one_e_ok (n o) (n v) F -> fock_plus F hoo hvv F' ->
    combined n 1 1 (fock o v) (py_one_e F) (py_one_e (hF (n o) (n v) hoo hvv)) (py_one_e F').
  Proof.
    intros (S1 & S2 & S3 & S4) (P1 & P2 & P3 & P4). cbn.
    assert (A1 : combined_array n 1 1 [o; o] (oo F) hoo (oo F')) by (apply plus_comb; assumption).
    assert (A2 : combined_array n 1 1 [v; v] (vv F) hvv (vv F')) by (apply plus_comb; assumption).
    assert (A3 := comb_teq K n [o; v] _ _ S2 P3). assert (A4 := comb_teq K n [v; o] _ _ S3 P4).
    repeat match goal with |- combined_array _ _ _ _ _ _ _ => assumption | |- True => exact Logic.I | |- _ = _ => reflexivity | |- _ /\ _ => split end.
  Qed.
  Lemma comb_I o v (I : two_e K) : two_e_shape (n o) (n v) I ->
    combined n 1 1 (eri9 o v) (py_two_e I) (py_two_e (zeroI K (n o) (n v))) (py_two_e I).
  Proof.
    intros (S1 & S2 & S3 & S4 & S5 & S6 & S7 & S8 & S9).
    cbn. repeat match goal with
      | |- combined_array _ _ _ ?l _ _ _ => apply (comb_zero K n l); assumption
      | |- True => exact Logic.I | |- _ = _ => reflexivity | |- _ /\ _ => split end.
  Qed.
  Lemma comb_J o v p w (J : two_e_full K) : two_e_full_ok (n o) (n v) (n p) (n w) J ->
    combined n 1 1 (eri16 o v p w) (py_two_e_full J) (py_two_e_full (zeroJ K (n o) (n v) (n p) (n w))) (py_two_e_full J).
  Proof.
    intros (J1 & J2 & J3 & J4 & J5 & J6 & J7 & J8 & J9 & J10 & J11 & J12 & J13 & J14 & J15 & J16).
    cbn. repeat match goal with
      | |- combined_array _ _ _ ?l _ _ _ => apply (comb_zero K n l); assumption
      | |- True => exact Logic.I | |- _ = _ => reflexivity | |- _ /\ _ => split end.
  Qed.
  Lemma R_dF dim rho h o v (hoo hvv : tensor K) : shp hoo = map dim [o; o] -> shp hvv = map dim [v; v] ->
    (forall idx, rho h idx = dat hoo idx) -> (forall idx, rho (3 + h)%positive idx = dat hvv idx) ->
    Rval K dim rho (dF h o v) (py_one_e (hF (dim o) (dim v) hoo hvv)).
  Proof.
    intros S1 S2 E1 E2. apply Rx_obj. constructor.
    { split; [reflexivity|]. apply Rx_arr. apply input_sound; auto. }
    constructor. { split; [reflexivity|]. exact (R_zero K dim rho [o; v]). }
    constructor. { split; [reflexivity|]. exact (R_zero K dim rho [v; o]). }
    constructor. { split; [reflexivity|]. apply Rx_arr. apply input_sound; auto. }
    constructor.
  Qed.
  Lemma R_zI dim rho o v : Rval K dim rho (zI o v) (py_two_e (zeroI K (dim o) (dim v))).
  Proof.
    apply Rx_obj. repeat (constructor; [split; [reflexivity|match goal with
      |- context [z0 ?l] => exact (R_zero K dim rho l) end]|]). constructor.
  Qed.
  Lemma R_zJ dim rho o v p w : Rval K dim rho (zJ o v p w) (py_two_e_full (zeroJ K (dim o) (dim v) (dim p) (dim w))).
  Proof.
    apply Rx_obj. repeat (constructor; [split; [reflexivity|match goal with
      |- context [z0 ?l] => exact (R_zero K dim rho l) end]|]). constructor.
  Qed.
End Comb.

Section SO.
  Variable K : cring.
  Local Open Scope K_scope.
  Add Ring KrSso : (c_th K).
  Variables no nv : nat.
  Variables (F F' : one_e K) (I : two_e K) (hoo hvv T1 T2 L1 L2 : tensor K).
  Notation dim := (so_dim no nv).
  Notation n := (usp no nv 0 0).
  Hypothesis OF : one_e_ok no nv F.
  Hypothesis OI : two_e_ok no nv I.
  Hypothesis PF : fock_plus F hoo hvv F'.
  Definition hrho := so_rho K (hF no nv hoo hvv) (zeroI K no nv) T1 T2 L1 L2 1 (noex K).
  Notation R := (Rval K dim hrho).

  Lemma hoo_shp : shp hoo = [no; no].
  Proof. destruct PF as ((S & _) & _). destruct OF as (E & _). congruence. Qed.
  Lemma hvv_shp : shp hvv = [nv; nv].
  Proof. destruct PF as (_ & (S & _) & _). destruct OF as (_ & _ & _ & E). congruence. Qed.
  Lemma R_D : R D_so (py_one_e (hF no nv hoo hvv)).
  Proof. apply (R_dF K dim hrho 1 cO cV); auto using hoo_shp, hvv_shp. Qed.
  Lemma R_I0 : R I_so (py_two_e (zeroI K no nv)).
  Proof. exact (R_zI K dim hrho cO cV). Qed.
  Lemma hsym : t2_ok no nv T2 -> l2_ok no nv L2 -> sym_ok K dim hrho so_tb.
  Proof. intros. apply so_sym; auto using zeroI_ok. Qed.
  Lemma RC1 : Rarr K dim hrho C1 (comm1 no nv hoo hvv T1).
  Proof. apply (R_cm1 K dim hrho 1 14 cO cV); reflexivity. Qed.
  Lemma RC2 : Rarr K dim hrho C2 (comm2 no nv no nv hoo hvv hoo hvv T2).
  Proof. apply (R_cm2 K dim hrho 1 1 15 cO cV cO cV); reflexivity. Qed.
  Lemma RE1 : Rarr K dim hrho E1 (lcomm1 no nv hoo hvv L1).
  Proof. apply (R_cl1 K dim hrho 1 16 cO cV); reflexivity. Qed.
  Lemma RE2 : Rarr K dim hrho E2 (lcomm2 no nv no nv hoo hvv hoo hvv L2).
  Proof. apply (R_cl2 K dim hrho 1 1 17 cO cV cO cV); reflexivity. Qed.

  Lemma same_so l (t : tensor K) : shp t = map n l -> CovSpec.same n (SArr l) (arr t) (arr t) (arr t).
  Proof. apply same_refl. Qed.
  Lemma comb_args_F (l : list shape) (us : list (pyval K)) hs :
    combined_args n 1 1 hs l us us us ->
    combined_args n 1 1 (true :: true :: hs) (F_ :: I_ :: l) (py_one_e F :: py_two_e I :: us)
      (py_one_e (hF no nv hoo hvv) :: py_two_e (zeroI K no nv) :: us) (py_one_e F' :: py_two_e I :: us).
  Proof.
    intros H. split; [exact (comb_F K n so sv F F' hoo hvv OF PF)|].
    split; [exact (comb_I K n so sv I (proj1 OI))|exact H].
  Qed.

  Lemma shift_sd f : In f so_sd -> t1_ok no nv T1 -> t2_ok no nv T2 -> l1_ok no nv L1 -> l2_ok no nv L2 ->
    exists r s r' s' : tensor K, returns f [py_one_e F; py_two_e I; arr T1; arr T2] (tup [arr r; arr s]) /\
      returns f [py_one_e F'; py_two_e I; arr T1; arr T2] (tup [arr r'; arr s']) /\
      plus r (comm1 no nv hoo hvv T1) r' /\ plus s (comm2 no nv no nv hoo hvv hoo hvv T2) s'.
  Proof.
    intros Hf H1 H2 H3 H4. destruct (tab_sound _ _ _ f sok_sd Hf) as (cs & C0). cbv beta in C0.
    assert (HA : Forall2 R x_sd [py_one_e (hF no nv hoo hvv); py_two_e (zeroI K no nv); arr T1; arr T2]).
    { repeat (constructor; [first [exact R_D|exact R_I0|apply R_T1; exact H1|apply R_T2; exact (proj1 H2)]|]). constructor. }
    destruct (shift_pair K dim hrho so_tb (hsym H2 H4) _ _ HA _ _ _ _ _ _ C0 RC1 RC2) as (r0 & s0 & Q0 & Q1 & Q2).
    destruct (lin_pair K n f [true; true; false; false] [F_; I_; T1_; T2_] [sv; so] [sv; sv; so; so]
      [py_one_e F; py_two_e I; arr T1; arr T2] [py_one_e (hF no nv hoo hvv); py_two_e (zeroI K no nv); arr T1; arr T2]
      [py_one_e F'; py_two_e I; arr T1; arr T2]) as (r & s & r1 & s1 & r' & s' & P1 & P2 & P3 & P4 & P5).
    { clear C0; destruct Hf as [<-|[<-|[<-|[]]]]; in_list. }
    { clear C0; destruct Hf as [<-|[<-|[<-|[]]]]; in_list. }
    { apply comb_args_F. split; [exact (same_so [sv; so] T1 H1)|]. split; [exact (same_so [sv; sv; so; so] T2 (proj1 H2))|]. exact Logic.I. }
    pose proof (returns_fun _ _ _ _ _ P2 Q0) as E. injection E as -> ->.
    exists r, s, r', s'. split; [exact P1|]. split; [exact P3|].
    split; eapply plus_teq; eassumption.
  Qed.
  Lemma shift_d f : In f so_d -> t1_ok no nv T1 -> t2_ok no nv T2 -> l1_ok no nv L1 -> l2_ok no nv L2 ->
    exists r r' : tensor K, returns f [py_one_e F; py_two_e I; arr T2] (arr r) /\
      returns f [py_one_e F'; py_two_e I; arr T2] (arr r') /\
      plus r (comm2 no nv no nv hoo hvv hoo hvv T2) r'.
  Proof.
    intros Hf H1 H2 H3 H4. destruct (tab_sound _ _ _ f sok_d Hf) as (cs & C0). cbv beta in C0.
    assert (HA : Forall2 R x_d [py_one_e (hF no nv hoo hvv); py_two_e (zeroI K no nv); arr T2]).
    { repeat (constructor; [first [exact R_D|exact R_I0|apply R_T2; exact (proj1 H2)]|]). constructor. }
    destruct (shift_arr K dim hrho so_tb (hsym H2 H4) _ _ HA _ _ _ _ C0 RC2) as (r0 & Q0 & Q1).
    destruct (lin_arr K n f [true; true; false] [F_; I_; T2_] [sv; sv; so; so]
      [py_one_e F; py_two_e I; arr T2] [py_one_e (hF no nv hoo hvv); py_two_e (zeroI K no nv); arr T2]
      [py_one_e F'; py_two_e I; arr T2]) as (r & r1 & r' & P1 & P2 & P3 & P4).
    { clear C0; destruct Hf as [<-|[<-|[<-|[]]]]; in_list. }
    { clear C0; destruct Hf as [<-|[<-|[<-|[]]]]; in_list. }
    { apply comb_args_F. split; [exact (same_so [sv; sv; so; so] T2 (proj1 H2))|]. exact Logic.I. }
    pose proof (returns_fun _ _ _ _ _ P2 Q0) as E. injection E as ->.
    exists r, r'. split; [exact P1|]. split; [exact P3|].
    eapply plus_teq; eassumption.
  Qed.
  Lemma shift_l f : In f so_l -> t1_ok no nv T1 -> t2_ok no nv T2 -> l1_ok no nv L1 -> l2_ok no nv L2 ->
    exists r s r' s' : tensor K, returns f [py_one_e F; py_two_e I; arr L1; arr L2; arr T1; arr T2] (tup [arr r; arr s]) /\
      returns f [py_one_e F'; py_two_e I; arr L1; arr L2; arr T1; arr T2] (tup [arr r'; arr s']) /\
      plus r (lcomm1 no nv hoo hvv L1) r' /\ plus s (lcomm2 no nv no nv hoo hvv hoo hvv L2) s'.
  Proof.
    intros Hf H1 H2 H3 H4. destruct (tab_sound _ _ _ f sok_l Hf) as (cs & C0). cbv beta in C0.
    assert (HA : Forall2 R x_l [py_one_e (hF no nv hoo hvv); py_two_e (zeroI K no nv); arr L1; arr L2; arr T1; arr T2]).
    { repeat (constructor; [first [exact R_D|exact R_I0|apply R_L1; exact H3|apply R_L2; exact (proj1 H4)|apply R_T1; exact H1|apply R_T2; exact (proj1 H2)]|]). constructor. }
    destruct (shift_pair K dim hrho so_tb (hsym H2 H4) _ _ HA _ _ _ _ _ _ C0 RE1 RE2) as (r0 & s0 & Q0 & Q1 & Q2).
    destruct (lin_pair K n f [true; true; false; false; false; false] [F_; I_; L1_; L2_; T1_; T2_] [so; sv] [so; so; sv; sv]
      [py_one_e F; py_two_e I; arr L1; arr L2; arr T1; arr T2] [py_one_e (hF no nv hoo hvv); py_two_e (zeroI K no nv); arr L1; arr L2; arr T1; arr T2]
      [py_one_e F'; py_two_e I; arr L1; arr L2; arr T1; arr T2]) as (r & s & r1 & s1 & r' & s' & P1 & P2 & P3 & P4 & P5).
    { clear C0; destruct Hf as [<-|[<-|[<-|[]]]]; in_list. }
    { clear C0; destruct Hf as [<-|[<-|[<-|[]]]]; in_list. }
    { apply comb_args_F. split; [exact (same_so [so; sv] L1 H3)|]. split; [exact (same_so [so; so; sv; sv] L2 (proj1 H4))|]. split; [exact (same_so [sv; so] T1 H1)|]. split; [exact (same_so [sv; sv; so; so] T2 (proj1 H2))|]. exact Logic.I. }
    pose proof (returns_fun _ _ _ _ _ P2 Q0) as E. injection E as -> ->.
    exists r, s, r', s'. split; [exact P1|]. split; [exact P3|].
    split; eapply plus_teq; eassumption.
  Qed.
  Lemma shift_dl f : In f ["ccd_lambda_simple"] -> t1_ok no nv T1 -> t2_ok no nv T2 -> l1_ok no nv L1 -> l2_ok no nv L2 ->
    exists r r' : tensor K, returns f [py_one_e F; py_two_e I; arr L2; arr T2] (arr r) /\
      returns f [py_one_e F'; py_two_e I; arr L2; arr T2] (arr r') /\
      plus r (lcomm2 no nv no nv hoo hvv hoo hvv L2) r'.
  Proof.
    intros Hf H1 H2 H3 H4. destruct (tab_sound _ _ _ f sok_dl Hf) as (cs & C0). cbv beta in C0.
    assert (HA : Forall2 R x_dl [py_one_e (hF no nv hoo hvv); py_two_e (zeroI K no nv); arr L2; arr T2]).
    { repeat (constructor; [first [exact R_D|exact R_I0|apply R_L2; exact (proj1 H4)|apply R_T2; exact (proj1 H2)]|]). constructor. }
    destruct (shift_arr K dim hrho so_tb (hsym H2 H4) _ _ HA _ _ _ _ C0 RE2) as (r0 & Q0 & Q1).
    destruct (lin_arr K n f [true; true; false; false] [F_; I_; L2_; T2_] [so; so; sv; sv]
      [py_one_e F; py_two_e I; arr L2; arr T2] [py_one_e (hF no nv hoo hvv); py_two_e (zeroI K no nv); arr L2; arr T2]
      [py_one_e F'; py_two_e I; arr L2; arr T2]) as (r & r1 & r' & P1 & P2 & P3 & P4).
    { clear C0; destruct Hf as [<-|[]]; in_list. }
    { clear C0; destruct Hf as [<-|[]]; in_list. }
    { apply comb_args_F. split; [exact (same_so [so; so; sv; sv] L2 (proj1 H4))|]. split; [exact (same_so [sv; sv; so; so] T2 (proj1 H2))|]. exact Logic.I. }
    pose proof (returns_fun _ _ _ _ _ P2 Q0) as E. injection E as ->.
    exists r, r'. split; [exact P1|]. split; [exact P3|].
    eapply plus_teq; eassumption.
  Qed.
End SO.

Section U.
  Variable K : cring.
  Local Open Scope K_scope.
  Add Ring KrSu : (c_th K).
  Variables noa nva nob nvb : nat.
  Variables (Fa Fa' Fb Fb' : one_e K) (Ia Ib : two_e K) (J : two_e_full K).
  Variables (ha ga hb gb T1a T1b T2aa T2ab T2bb L1a L1b L2aa L2ab L2bb : tensor K).
  Notation dim := (u_dim noa nva nob nvb).
  Notation n := (usp noa nva nob nvb).
  Hypothesis HH : u_ham_ok noa nva nob nvb Fa Fb Ia Ib J.
  Hypothesis PA : fock_plus Fa ha ga Fa'.
  Hypothesis PB : fock_plus Fb hb gb Fb'.
  Hypothesis HT : u_amps_ok noa nva nob nvb T1a T1b T2aa T2ab T2bb.
  Hypothesis HL : u_lams_ok noa nva nob nvb L1a L1b L2aa L2ab L2bb.
  Definition hurho := u_rho K (hF noa nva ha ga) (hF nob nvb hb gb) (zeroI K noa nva) (zeroI K nob nvb)
    (zeroJ K noa nva nob nvb) T1a T1b T2aa T2ab T2bb L1a L1b L2aa L2ab L2bb 1.
  Notation R := (Rval K dim hurho).

  Lemma fock_shp no nv (F F' : one_e K) h g : one_e_ok no nv F -> fock_plus F h g F' -> shp h = [no; no] /\ shp g = [nv; nv].
  Proof. intros (E1 & _ & _ & E2) ((S1 & _) & (S2 & _) & _). split; congruence. Qed.
  Lemma h_ham : u_ham_ok noa nva nob nvb (hF noa nva ha ga) (hF nob nvb hb gb) (zeroI K noa nva) (zeroI K nob nvb)
    (zeroJ K noa nva nob nvb).
  Proof.
    destruct HH as (H1 & H2 & _). destruct (fock_shp _ _ _ _ _ _ H1 PA), (fock_shp _ _ _ _ _ _ H2 PB).
    destruct (zero_ham K noa nva nob nvb) as (_ & _ & Z). split; [repeat split; assumption|].
    split; [repeat split; assumption|exact Z].
  Qed.
  Lemma husym : sym_ok K dim hurho u_tb.
  Proof. apply u_sym; auto using h_ham. Qed.
  Notation H0 := [py_one_e (hF noa nva ha ga); py_one_e (hF nob nvb hb gb); py_two_e (zeroI K noa nva);
    py_two_e (zeroI K nob nvb); py_two_e_full (zeroJ K noa nva nob nvb)].
  Notation H1 := [py_one_e Fa; py_one_e Fb; py_two_e Ia; py_two_e Ib; py_two_e_full J].
  Notation H2 := [py_one_e Fa'; py_one_e Fb'; py_two_e Ia; py_two_e Ib; py_two_e_full J].
  Notation TT := [tup [arr T1a; arr T1b]; tup [arr T2aa; arr T2ab; arr T2bb]].
  Notation LL := [tup [arr L1a; arr L1b]; tup [arr L2aa; arr L2ab; arr L2bb]].
  Lemma RH0 : Forall2 R [Da; Db; zI oa va; zI ob vb; zJ oa va ob vb] H0.
  Proof.
    destruct HH as (H1 & H2 & _). destruct (fock_shp _ _ _ _ _ _ H1 PA), (fock_shp _ _ _ _ _ _ H2 PB).
    constructor; [apply (R_dF K dim hurho 31 oa va); auto|]. constructor; [apply (R_dF K dim hurho 35 ob vb); auto|].
    constructor; [exact (R_zI K dim hurho oa va)|]. constructor; [exact (R_zI K dim hurho ob vb)|].
    constructor; [exact (R_zJ K dim hurho oa va ob vb)|constructor].
  Qed.
  Lemma RTT : Forall2 R [XTup [sT1a; sT1b]; XTup [sT2aa; sT2ab; sT2bb]] TT.
  Proof.
    destruct (uR_amps K noa nva nob nvb (hF noa nva ha ga) (hF nob nvb hb gb) (zeroI K noa nva) (zeroI K nob nvb)
      (zeroJ K noa nva nob nvb) T1a T1b T2aa T2ab T2bb L1a L1b L2aa L2ab L2bb 1 HT) as (A1 & A2 & A3 & A4 & A5).
    constructor; [apply Rx_tup; repeat (constructor; [eassumption|]); constructor|].
    constructor; [apply Rx_tup; repeat (constructor; [eassumption|]); constructor|constructor].
  Qed.
  Lemma RLL : Forall2 R [XTup [sL1a; sL1b]; XTup [sL2aa; sL2ab; sL2bb]] LL.
  Proof.
    destruct (uR_lams K noa nva nob nvb (hF noa nva ha ga) (hF nob nvb hb gb) (zeroI K noa nva) (zeroI K nob nvb)
      (zeroJ K noa nva nob nvb) T1a T1b T2aa T2ab T2bb L1a L1b L2aa L2ab L2bb 1 HL) as (A1 & A2 & A3 & A4 & A5).
    constructor; [apply Rx_tup; repeat (constructor; [eassumption|]); constructor|].
    constructor; [apply Rx_tup; repeat (constructor; [eassumption|]); constructor|constructor].
  Qed.
  Ltac arrs := repeat match goal with
      | |- same_array _ ?l _ _ _ => apply (same_refl K n l); assumption
      | |- True => exact Logic.I | |- _ /\ _ => split end.
  Lemma same_T : CovSpec.same n uT1 (tup [arr T1a; arr T1b]) (tup [arr T1a; arr T1b]) (tup [arr T1a; arr T1b]) /\
    CovSpec.same n uT2 (tup [arr T2aa; arr T2ab; arr T2bb]) (tup [arr T2aa; arr T2ab; arr T2bb]) (tup [arr T2aa; arr T2ab; arr T2bb]).
  Proof. destruct HT as (A1 & A2 & (A3 & _) & A4 & (A5 & _)). cbn. arrs. Qed.
  Lemma same_L : CovSpec.same n uL1 (tup [arr L1a; arr L1b]) (tup [arr L1a; arr L1b]) (tup [arr L1a; arr L1b]) /\
    CovSpec.same n uL2 (tup [arr L2aa; arr L2ab; arr L2bb]) (tup [arr L2aa; arr L2ab; arr L2bb]) (tup [arr L2aa; arr L2ab; arr L2bb]).
  Proof. destruct HL as (A1 & A2 & (A3 & _) & A4 & (A5 & _)). cbn. arrs. Qed.
  Lemma comb_args_U (l : list shape) (us : list (pyval K)) hs : combined_args n 1 1 hs l us us us ->
    combined_args n 1 1 (true :: true :: true :: true :: true :: hs) (F_ :: Fb_ :: I_ :: Ib_ :: Iab_ :: l) (H1 ++ us) (H0 ++ us) (H2 ++ us).
  Proof.
    intros H. destruct HH as (A1 & A2 & A3 & A4 & A5). cbn [app].
    split; [exact (comb_F K n so sv Fa Fa' ha ga A1 PA)|]. split; [exact (comb_F K n sO sV Fb Fb' hb gb A2 PB)|].
    split; [exact (comb_I K n so sv Ia (proj1 A3))|]. split; [exact (comb_I K n sO sV Ib (proj1 A4))|].
    split; [exact (comb_J K n so sv sO sV J A5)|exact H].
  Qed.

  Lemma shift_ut : exists ra rb raa rab rbb ra' rb' raa' rab' rbb' : tensor K,
    returns "uccsd_stanton" (H1 ++ TT) (tup [tup [arr ra; arr rb]; tup [arr raa; arr rab; arr rbb]]) /\
    returns "uccsd_stanton" (H2 ++ TT) (tup [tup [arr ra'; arr rb']; tup [arr raa'; arr rab'; arr rbb']]) /\
    plus ra (comm1 noa nva ha ga T1a) ra' /\ plus rb (comm1 nob nvb hb gb T1b) rb' /\
    plus raa (comm2 noa nva noa nva ha ga ha ga T2aa) raa' /\ plus rab (comm2 noa nva nob nvb ha ga hb gb T2ab) rab' /\
    plus rbb (comm2 nob nvb nob nvb hb gb hb gb T2bb) rbb'.
  Proof.
    assert (HA : Forall2 R x_ut (H0 ++ TT)) by exact (Forall2_app RH0 RTT).
    destruct (shift_amps K dim hurho u_tb husym _ _ HA _ _ _ _ _ _ _ _ _ _ _ _ sok_ut
      (R_cm1 K dim hurho 31 81 oa va ha ga T1a ltac:(reflexivity) ltac:(reflexivity) ltac:(reflexivity))
      (R_cm1 K dim hurho 35 82 ob vb hb gb T1b ltac:(reflexivity) ltac:(reflexivity) ltac:(reflexivity))
      (R_cm2 K dim hurho 31 31 83 oa va oa va ha ga ha ga T2aa ltac:(reflexivity) ltac:(reflexivity) ltac:(reflexivity) ltac:(reflexivity) ltac:(reflexivity))
      (R_cm2 K dim hurho 31 35 84 oa va ob vb ha ga hb gb T2ab ltac:(reflexivity) ltac:(reflexivity) ltac:(reflexivity) ltac:(reflexivity) ltac:(reflexivity))
      (R_cm2 K dim hurho 35 35 85 ob vb ob vb hb gb hb gb T2bb ltac:(reflexivity) ltac:(reflexivity) ltac:(reflexivity) ltac:(reflexivity) ltac:(reflexivity)))
      as (za & zb & zaa & zab & zbb & Q0 & Q1 & Q2 & Q3 & Q4 & Q5).
    destruct (lin_amps K n "uccsd_stanton" [true; true; true; true; true; false; false]
      [F_; Fb_; I_; Ib_; Iab_; uT1; uT2] [sv; so] [sV; sO] [sv; sv; so; so] [sv; sV; so; sO] [sV; sV; sO; sO] (H1 ++ TT) (H0 ++ TT) (H2 ++ TT))
      as (ra & rb & raa & rab & rbb & ya & yb & yaa & yab & ybb & ra' & rb' & raa' & rab' & rbb' & P1 & P2 & P3 & P4 & P5 & P6 & P7 & P8).
    { in_list. } { in_list. }
    { apply comb_args_U. destruct same_T. split; [assumption|]. split; [assumption|exact Logic.I]. }
    pose proof (returns_fun _ _ _ _ _ P2 Q0) as E. injection E as -> -> -> -> ->.
    exists ra, rb, raa, rab, rbb, ra', rb', raa', rab', rbb'. split; [exact P1|]. split; [exact P3|].
    do 4 (split; [eapply plus_teq; eassumption|]). eapply plus_teq; eassumption.
  Qed.
  Lemma shift_ul : exists ra rb raa rab rbb ra' rb' raa' rab' rbb' : tensor K,
    returns "uccsd_lambda_opt" (H1 ++ LL ++ TT) (tup [tup [arr ra; arr rb]; tup [arr raa; arr rab; arr rbb]]) /\
    returns "uccsd_lambda_opt" (H2 ++ LL ++ TT) (tup [tup [arr ra'; arr rb']; tup [arr raa'; arr rab'; arr rbb']]) /\
    plus ra (lcomm1 noa nva ha ga L1a) ra' /\ plus rb (lcomm1 nob nvb hb gb L1b) rb' /\
    plus raa (lcomm2 noa nva noa nva ha ga ha ga L2aa) raa' /\ plus rab (lcomm2 noa nva nob nvb ha ga hb gb L2ab) rab' /\
    plus rbb (lcomm2 nob nvb nob nvb hb gb hb gb L2bb) rbb'.
  Proof.
    assert (HA : Forall2 R x_ul (H0 ++ LL ++ TT)) by exact (Forall2_app RH0 (Forall2_app RLL RTT)).
    destruct (shift_amps K dim hurho u_tb husym _ _ HA _ _ _ _ _ _ _ _ _ _ _ _ sok_ul
      (R_cl1 K dim hurho 31 86 oa va ha ga L1a ltac:(reflexivity) ltac:(reflexivity) ltac:(reflexivity))
      (R_cl1 K dim hurho 35 87 ob vb hb gb L1b ltac:(reflexivity) ltac:(reflexivity) ltac:(reflexivity))
      (R_cl2 K dim hurho 31 31 88 oa va oa va ha ga ha ga L2aa ltac:(reflexivity) ltac:(reflexivity) ltac:(reflexivity) ltac:(reflexivity) ltac:(reflexivity))
      (R_cl2 K dim hurho 31 35 89 oa va ob vb ha ga hb gb L2ab ltac:(reflexivity) ltac:(reflexivity) ltac:(reflexivity) ltac:(reflexivity) ltac:(reflexivity))
      (R_cl2 K dim hurho 35 35 90 ob vb ob vb hb gb hb gb L2bb ltac:(reflexivity) ltac:(reflexivity) ltac:(reflexivity) ltac:(reflexivity) ltac:(reflexivity)))
      as (za & zb & zaa & zab & zbb & Q0 & Q1 & Q2 & Q3 & Q4 & Q5).
    destruct (lin_amps K n "uccsd_lambda_opt" [true; true; true; true; true; false; false; false; false]
      [F_; Fb_; I_; Ib_; Iab_; uL1; uL2; uT1; uT2] [so; sv] [sO; sV] [so; so; sv; sv] [so; sO; sv; sV] [sO; sO; sV; sV] (H1 ++ LL ++ TT) (H0 ++ LL ++ TT) (H2 ++ LL ++ TT))
      as (ra & rb & raa & rab & rbb & ya & yb & yaa & yab & ybb & ra' & rb' & raa' & rab' & rbb' & P1 & P2 & P3 & P4 & P5 & P6 & P7 & P8).
    { in_list. } { in_list. }
    { apply comb_args_U. destruct same_T, same_L. do 4 (split; [assumption|]). exact Logic.I. }
    pose proof (returns_fun _ _ _ _ _ P2 Q0) as E. injection E as -> -> -> -> ->.
    exists ra, rb, raa, rab, rbb, ra', rb', raa', rab', rbb'. split; [exact P1|]. split; [exact P3|].
    do 4 (split; [eapply plus_teq; eassumption|]). eapply plus_teq; eassumption.
  Qed.
End U.

Section Re.
  Variable K : cring.
  Local Open Scope K_scope.
  Add Ring KrSr : (c_th K).
  Variables no nv : nat.
  Variables (F F' : one_e K) (J : two_e_full K) (hoo hvv T1 T2 L1 L2 : tensor K).
  Notation dim := (so_dim no nv).
  Notation n := (usp no nv 0 0).
  Hypothesis OF : one_e_ok no nv F.
  Hypothesis OJ : two_e_full_ok no nv no nv J.
  Hypothesis PF : fock_plus F hoo hvv F'.
  Hypothesis O1 : t1_ok no nv T1.
  Hypothesis O2 : shp T2 = [nv; nv; no; no] /\ pair_sym T2.
  Hypothesis O3 : l1_ok no nv L1.
  Hypothesis O4 : shp L2 = [no; no; nv; nv] /\ pair_sym L2.
  Notation R0 := (zeroJ K no nv no nv).
  Definition hrrho := r_rho K no nv (hF no nv hoo hvv) R0 T1 T2 L1 L2 1.
  Notation R := (Rval K dim hrrho).
  Lemma hF_ok : one_e_ok no nv (hF no nv hoo hvv).
  Proof. destruct (fock_shp _ _ _ _ _ _ _ OF PF). repeat split; assumption. Qed.
  Lemma hrsym : sym_ok K dim hrrho r_tb.
  Proof. destruct (zeroR_ok K no nv). apply r_sym; auto; tauto. Qed.
  Lemma RrD : R D_so (py_one_e (hF no nv hoo hvv)).
  Proof. destruct (fock_shp _ _ _ _ _ _ _ OF PF). apply (R_dF K dim hrrho 1 cO cV); auto. Qed.
  Lemma RrJ : R (zJ cO cV cO cV) (py_two_e_full R0).
  Proof. exact (R_zJ K dim hrrho cO cV cO cV). Qed.
  Lemma comb_args_R (l : list shape) (us : list (pyval K)) hs :
    combined_args n 1 1 hs l us us us ->
    combined_args n 1 1 (true :: true :: hs) (F_ :: Ir_ :: l) (py_one_e F :: py_two_e_full J :: us)
      (py_one_e (hF no nv hoo hvv) :: py_two_e_full R0 :: us) (py_one_e F' :: py_two_e_full J :: us).
  Proof.
    intros H. split; [exact (comb_F K n so sv F F' hoo hvv OF PF)|].
    split; [exact (comb_J K n so sv so sv J OJ)|exact H].
  Qed.
  Lemma shift_rt : exists r s r' s' : tensor K,
    returns "rccsd_stanton" [py_one_e F; py_two_e_full J; arr T1; arr T2] (tup [arr r; arr s]) /\
    returns "rccsd_stanton" [py_one_e F'; py_two_e_full J; arr T1; arr T2] (tup [arr r'; arr s']) /\
    plus r (comm1 no nv hoo hvv T1) r' /\ plus s (comm2 no nv no nv hoo hvv hoo hvv T2) s'.
  Proof.
    destruct O2 as (S2 & _), O4 as (S4 & _).
    assert (HA : Forall2 R x_rt [py_one_e (hF no nv hoo hvv); py_two_e_full R0; arr T1; arr T2]).
    { repeat (constructor; [first [exact RrD|exact RrJ|apply rR_T1; assumption|apply rR_T2; assumption]|]). constructor. }
    destruct (shift_pair K dim hrrho r_tb hrsym _ _ HA _ _ _ _ _ _ sok_rt
      (R_cm1 K dim hrrho 1 14 cO cV hoo hvv T1 ltac:(reflexivity) ltac:(reflexivity) ltac:(reflexivity))
      (R_cm2 K dim hrrho 1 1 15 cO cV cO cV hoo hvv hoo hvv T2 ltac:(reflexivity) ltac:(reflexivity) ltac:(reflexivity) ltac:(reflexivity) ltac:(reflexivity)))
      as (r0 & s0 & Q0 & Q1 & Q2).
    destruct (lin_pair K n "rccsd_stanton" [true; true; false; false] [F_; Ir_; T1_; T2_] [sv; so] [sv; sv; so; so]
      [py_one_e F; py_two_e_full J; arr T1; arr T2] [py_one_e (hF no nv hoo hvv); py_two_e_full R0; arr T1; arr T2]
      [py_one_e F'; py_two_e_full J; arr T1; arr T2]) as (r & s & r1 & s1 & r' & s' & P1 & P2 & P3 & P4 & P5).
    { in_list. } { in_list. }
    { apply comb_args_R. split; [exact (same_refl K n [sv; so] T1 O1)|].
      split; [exact (same_refl K n [sv; sv; so; so] T2 S2)|exact Logic.I]. }
    pose proof (returns_fun _ _ _ _ _ P2 Q0) as E. injection E as -> ->.
    exists r, s, r', s'. split; [exact P1|]. split; [exact P3|]. split; eapply plus_teq; eassumption.
  Qed.
  Lemma shift_rl : exists r s r' s' : tensor K,
    returns "rccsd_lambda_opt" [py_one_e F; py_two_e_full J; arr L1; arr L2; arr T1; arr T2] (tup [arr r; arr s]) /\
    returns "rccsd_lambda_opt" [py_one_e F'; py_two_e_full J; arr L1; arr L2; arr T1; arr T2] (tup [arr r'; arr s']) /\
    plus r (lcomm1 no nv hoo hvv L1) r' /\ plus s (lcomm2 no nv no nv hoo hvv hoo hvv L2) s'.
  Proof.
    destruct O2 as (S2 & _), O4 as (S4 & _).
    assert (HA : Forall2 R x_rl [py_one_e (hF no nv hoo hvv); py_two_e_full R0; arr L1; arr L2; arr T1; arr T2]).
    { repeat (constructor; [first [exact RrD|exact RrJ|apply rR_T1; assumption|apply rR_T2; assumption|apply rR_L1; assumption|apply rR_L2; assumption]|]). constructor. }
    destruct (shift_pair K dim hrrho r_tb hrsym _ _ HA _ _ _ _ _ _ sok_rl
      (R_cl1 K dim hrrho 1 16 cO cV hoo hvv L1 ltac:(reflexivity) ltac:(reflexivity) ltac:(reflexivity))
      (R_cl2 K dim hrrho 1 1 17 cO cV cO cV hoo hvv hoo hvv L2 ltac:(reflexivity) ltac:(reflexivity) ltac:(reflexivity) ltac:(reflexivity) ltac:(reflexivity)))
      as (r0 & s0 & Q0 & Q1 & Q2).
    destruct (lin_pair K n "rccsd_lambda_opt" [true; true; false; false; false; false] [F_; Ir_; L1_; L2_; T1_; T2_] [so; sv] [so; so; sv; sv]
      [py_one_e F; py_two_e_full J; arr L1; arr L2; arr T1; arr T2] [py_one_e (hF no nv hoo hvv); py_two_e_full R0; arr L1; arr L2; arr T1; arr T2]
      [py_one_e F'; py_two_e_full J; arr L1; arr L2; arr T1; arr T2]) as (r & s & r1 & s1 & r' & s' & P1 & P2 & P3 & P4 & P5).
    { in_list. } { in_list. }
    { apply comb_args_R. split; [exact (same_refl K n [so; sv] L1 O3)|]. split; [exact (same_refl K n [so; so; sv; sv] L2 S4)|].
      split; [exact (same_refl K n [sv; so] T1 O1)|].
      split; [exact (same_refl K n [sv; sv; so; so] T2 S2)|exact Logic.I]. }
    pose proof (returns_fun _ _ _ _ _ P2 Q0) as E. injection E as -> ->.
    exists r, s, r', s'. split; [exact P1|]. split; [exact P3|]. split; eapply plus_teq; eassumption.
  Qed.
End Re.

(** *** Diagonal changes *)
Section Diag.
  Variable K : cring.
  Local Open Scope K_scope.
  Add Ring KrSd : (c_th K).
  Lemma sum_pick n a x (f : nat -> K) : (a < n)%nat -> sumN n (fun b => (if Nat.eqb a b then x else 0) * f b) = x * f a.
  Proof.
    induction n as [|n IH]; intros L; [lia|]. cbn [sumN]. destruct (Nat.eq_dec a n) as [->|N].
    - rewrite Nat.eqb_refl. rewrite (sumN_ext _ n _ (fun _ => 0)), sumN_0; [ring|].
      intros i Hi. replace (Nat.eqb n i) with false by (symmetry; apply Nat.eqb_neq; lia). ring.
    - rewrite IH by lia. replace (Nat.eqb a n) with false by (symmetry; apply Nat.eqb_neq; lia). ring.
  Qed.
  Lemma sum_pl n a (e : nat -> K) (f : nat -> K) : (a < n)%nat -> sumN n (fun b => (if Nat.eqb a b then e a else 0) * f b) = e a * f a.
  Proof. apply sum_pick. Qed.
  Lemma sum_pr n a (e : nat -> K) (f : nat -> K) : (a < n)%nat -> sumN n (fun b => f b * (if Nat.eqb b a then e b else 0)) = e a * f a.
  Proof.
    intros L. rewrite <- (sum_pick n a (e a) f L). apply sumN_ext. intros b _. rewrite Nat.eqb_sym.
    destruct (Nat.eqb_spec a b); [subst|]; ring.
  Qed.
  Lemma sum_pl2 n a (e : nat -> K) (f : nat -> K) : (a < n)%nat -> sumN n (fun b => (if Nat.eqb b a then e b else 0) * f b) = e a * f a.
  Proof. intros L. rewrite <- (sum_pr n a e f L). apply sumN_ext. intros. ring. Qed.
  Lemma sum_pr2 n a (e : nat -> K) (f : nat -> K) : (a < n)%nat -> sumN n (fun b => f b * (if Nat.eqb a b then e a else 0)) = e a * f a.
  Proof. intros L. rewrite <- (sum_pl n a e f L). apply sumN_ext. intros. ring. Qed.
  Lemma in2 a b i j : inrange [a; b] [i; j] -> (i < a /\ j < b)%nat.
  Proof. intros H. inversion_clear H as [|? ? ? ? A H']. inversion_clear H' as [|? ? ? ? B _]. auto. Qed.
  Lemma in4' a b c d i j k l : inrange [a; b; c; d] [i; j; k; l] -> (i < a /\ j < b /\ k < c /\ l < d)%nat.
  Proof.
    intros H. inversion_clear H as [|? ? ? ? A H']. inversion_clear H' as [|? ? ? ? B H'']. inversion_clear H'' as [|? ? ? ? C H3].
    inversion_clear H3 as [|? ? ? ? D _]. auto.
  Qed.
  Variables (no nv mo mv : nat) (eo ev fo fv : tensor K).
  Hypothesis So : shp eo = [no]. Hypothesis Sv : shp ev = [nv].
  Hypothesis Uo : shp fo = [mo]. Hypothesis Uv : shp fv = [mv].
  Notation e1 e := (fun i => dat e [i]).

  Lemma diag1 (t : tensor K) : shp t = [nv; no] ->
    exists D, D1 ev eo = Some D /\ teq (comm1 no nv (diag no eo) (diag nv ev) t) (times D t).
  Proof.
    intros St. destruct (D1_spec K ev eo nv no Sv So) as (D & HD & _ & V). exists D. split; [exact HD|].
    split; [symmetry; exact St|]. intros idx Hi. destruct (idx2 _ _ _ Hi) as (a & i & ->). apply in2 in Hi. destruct Hi as (La & Li).
    cbn [comm1 times diag dat]. rewrite V by assumption.
    rewrite (sum_pl nv a (e1 ev) (fun b => dat t [b; i]) La), (sum_pr no i (e1 eo) (fun j => dat t [a; j]) Li). ring.
  Qed.
  Lemma diag2u (t : tensor K) : shp t = [nv; mv; no; mo] ->
    exists D, D2u ev fv eo fo = Some D /\
      teq (comm2 no nv mo mv (diag no eo) (diag nv ev) (diag mo fo) (diag mv fv) t) (times D t).
  Proof.
    intros St. destruct (D2u_spec K ev fv eo fo nv mv no mo Sv Uv So Uo) as (D & HD & _ & V). exists D. split; [exact HD|].
    split; [symmetry; exact St|]. intros idx Hi. destruct (idx4 _ _ _ _ _ Hi) as (a & b & i & j & ->).
    apply in4' in Hi. destruct Hi as (La & Lb & Li & Lj).
    cbn [comm2 times diag dat]. rewrite V by assumption.
    rewrite (sum_pl nv a (e1 ev) (fun c => dat t [c; b; i; j]) La), (sum_pl mv b (e1 fv) (fun c => dat t [a; c; i; j]) Lb),
      (sum_pr no i (e1 eo) (fun k => dat t [a; b; k; j]) Li), (sum_pr mo j (e1 fo) (fun k => dat t [a; b; i; k]) Lj). ring.
  Qed.
  Lemma diag2 (t : tensor K) : shp t = [nv; nv; no; no] ->
    exists D, D2 ev eo = Some D /\
      teq (comm2 no nv no nv (diag no eo) (diag nv ev) (diag no eo) (diag nv ev) t) (times D t).
  Proof.
    intros St. destruct (D2_spec K ev eo nv no Sv So) as (D & HD & _ & V & _). exists D. split; [exact HD|].
    split; [symmetry; exact St|]. intros idx Hi. destruct (idx4 _ _ _ _ _ Hi) as (a & b & i & j & ->).
    apply in4' in Hi. destruct Hi as (La & Lb & Li & Lj).
    cbn [comm2 times diag dat]. rewrite V by assumption.
    rewrite (sum_pl nv a (e1 ev) (fun c => dat t [c; b; i; j]) La), (sum_pl nv b (e1 ev) (fun c => dat t [a; c; i; j]) Lb),
      (sum_pr no i (e1 eo) (fun k => dat t [a; b; k; j]) Li), (sum_pr no j (e1 eo) (fun k => dat t [a; b; i; k]) Lj). ring.
  Qed.
  Lemma diagl1 (l : tensor K) : shp l = [no; nv] ->
    exists D, D1 ev eo = Some D /\ teq (lcomm1 no nv (diag no eo) (diag nv ev) l) (times_l D l).
  Proof.
    intros St. destruct (D1_spec K ev eo nv no Sv So) as (D & HD & _ & V). exists D. split; [exact HD|].
    split; [symmetry; exact St|]. intros idx Hi. destruct (idx2 _ _ _ Hi) as (i & a & ->). apply in2 in Hi. destruct Hi as (Li & La).
    cbn [lcomm1 times_l diag dat]. rewrite V by assumption.
    rewrite (sum_pr nv a (e1 ev) (fun b => dat l [i; b]) La), (sum_pl no i (e1 eo) (fun j => dat l [j; a]) Li). ring.
  Qed.
  Lemma diagl2u (l : tensor K) : shp l = [no; mo; nv; mv] ->
    exists D, D2u ev fv eo fo = Some D /\
      teq (lcomm2 no nv mo mv (diag no eo) (diag nv ev) (diag mo fo) (diag mv fv) l) (times_l D l).
  Proof.
    intros St. destruct (D2u_spec K ev fv eo fo nv mv no mo Sv Uv So Uo) as (D & HD & _ & V). exists D. split; [exact HD|].
    split; [symmetry; exact St|]. intros idx Hi. destruct (idx4 _ _ _ _ _ Hi) as (i & j & a & b & ->).
    apply in4' in Hi. destruct Hi as (Li & Lj & La & Lb).
    cbn [lcomm2 times_l diag dat]. rewrite V by assumption.
    rewrite (sum_pr nv a (e1 ev) (fun c => dat l [i; j; c; b]) La), (sum_pr mv b (e1 fv) (fun c => dat l [i; j; a; c]) Lb),
      (sum_pl no i (e1 eo) (fun k => dat l [k; j; a; b]) Li), (sum_pl mo j (e1 fo) (fun k => dat l [i; k; a; b]) Lj). ring.
  Qed.
  Lemma diagl2 (l : tensor K) : shp l = [no; no; nv; nv] ->
    exists D, D2 ev eo = Some D /\
      teq (lcomm2 no nv no nv (diag no eo) (diag nv ev) (diag no eo) (diag nv ev) l) (times_l D l).
  Proof.
    intros St. destruct (D2_spec K ev eo nv no Sv So) as (D & HD & _ & V & _). exists D. split; [exact HD|].
    split; [symmetry; exact St|]. intros idx Hi. destruct (idx4 _ _ _ _ _ Hi) as (i & j & a & b & ->).
    apply in4' in Hi. destruct Hi as (Li & Lj & La & Lb).
    cbn [lcomm2 times_l diag dat]. rewrite V by assumption.
    rewrite (sum_pr nv a (e1 ev) (fun c => dat l [i; j; c; b]) La), (sum_pr nv b (e1 ev) (fun c => dat l [i; j; a; c]) Lb),
      (sum_pl no i (e1 eo) (fun k => dat l [k; j; a; b]) Li), (sum_pl no j (e1 eo) (fun k => dat l [i; k; a; b]) Lj). ring.
  Qed.
  Lemma raise (r u u' r' : tensor K) : plus r u r' -> teq u u' -> raised r u' r'.
  Proof.
    intros P E. pose proof (plus_teq K _ _ _ _ P E) as Q. split; [exact Q|]. destruct Q as (S1 & S2 & V). split; intros H idx Hi.
    - specialize (V idx Hi). rewrite <- S2 in Hi. rewrite (H idx Hi) in V.
      transitivity (dat r idx + dat u' idx - dat r idx); [ring|]. rewrite <- V. ring.
    - rewrite S2 in Hi. rewrite (V idx Hi), (H idx Hi). ring.
  Qed.
End Diag.

(** *** Changed Fock matrices exist *)
Section Exist.
  Variable K : cring.
  Local Open Scope K_scope.
  Definition taddp (t u : tensor K) : tensor K := mkT (shp t) (fun idx => dat t idx + dat u idx).
  Definition addF (F : one_e K) (hoo hvv : tensor K) : one_e K :=
    OneE K (taddp (oo F) hoo) (ov F) (vo F) (taddp (vv F) hvv).
  Lemma addF_ok no nv (F : one_e K) hoo hvv : one_e_ok no nv F -> shp hoo = [no; no] -> shp hvv = [nv; nv] ->
    fock_plus F hoo hvv (addF F hoo hvv) /\ one_e_ok no nv (addF F hoo hvv).
  Proof.
    intros (S1 & S2 & S3 & S4) Ho Hv. split; [|repeat split; assumption].
    split; [split; [congruence|split; [reflexivity|reflexivity]]|]. split; [split; [congruence|split; [reflexivity|reflexivity]]|].
    split; split; auto.
  Qed.
End Exist.
