(** The public functions as sums of contributions (C87). *)
From Coq Require Import List Bool Arith ZArith Lia Ring String.
From Verif Require Import Scalar Tensor PySyntax PySem PySim Sym SymSound Norm CCProg CCSpec Engine SOCtx Tools AccSpec PartsSpec Parts.
Import ListNotations.
Local Open Scope string_scope.

Definition mon (t : positive) : list mono := [Mono 1 0 [] [(t, [])]].
Definition s_scaled (k : list mono) (v : sval) : sval :=
  match v with
  | XArr a => sarr (s_scale k a)
  | XObj fs => XObj (map (fun p : string * sval => (fst p, match snd p with XArr a => sarr (s_scale k a) | w => w end)) fs)
  | w => w
  end.
Definition s_sc (i : input) : sval :=
  s_scaled (mon (match i with iF | iI => 21 | iT1 => 22 | iT2 => 23 | iL1 | iL2 => 24 end)%positive) (s_in i).
Fixpoint mpow (t : positive) (n : nat) : list mono := match n with O => [Mono 1 0 [] []] | S m => ms_mul (mon t) (mpow t m) end.
Definition mweight (d : degree) : list mono :=
  ms_mul (ms_mul (mpow 21 (deg_h d)) (mpow 22 (deg_s d))) (ms_mul (mpow 23 (deg_t d)) (mpow 24 (deg_l d))).
Definition s_block (b : start) : option (positive * list cls) :=
  match b with
  | (iF, "vo") => Some (3%positive, [cV; cO]) | (iF, "ov") => Some (2%positive, [cO; cV])
  | (iI, "vvoo") => Some (8%positive, [cV; cV; cO; cO]) | (iI, "oovv") => Some (10%positive, [cO; cO; cV; cV])
  | _ => None
  end.
Fixpoint s_parts (sh : list cls) (ps : list (string * list input)) : option (list stens) :=
  match ps with
  | [] => Some []
  | p :: ps' => match acc_chk (fst p) sh (map s_in (snd p)), s_parts sh ps' with
      | Some z, Some zs => if cls_list_eqb (s_sh z) sh then Some (z :: zs) else None
      | _, _ => None
      end
  end.
Fixpoint s_sum (ps : list (string * list input)) (zs : list stens) : list mono :=
  match ps, zs with
  | p :: ps', z :: zs' => (ms_mul (mweight (degree_of (fst p))) (s_ms z) ++ s_sum ps' zs')%list
  | _, _ => []
  end.
Definition s_out (o : start * list (string * list input)) : option stens :=
  match s_block (fst o) with
  | Some (t, sh) => match s_parts sh (snd o) with
      | Some zs => Some (STens sh (ms_mul (mon 21) (s_ms (s_input t sh)) ++ s_sum (snd o) zs)%list)
      | None => None
      end
  | None => None
  end.
Fixpoint s_arrs (vs : list sval) : option (list stens) :=
  match vs with
  | [] => Some []
  | XArr a :: vs' => match s_arrs vs' with Some l => Some (a :: l) | None => None end
  | _ => None
  end.
Definition s_res (v : sval) : option (list stens) :=
  match v with
  | XArr a => Some [a]
  | XTup vs => if (List.length vs =? 1)%nat then None else s_arrs vs
  | _ => None
  end.
Fixpoint outs_chk (outs : list (start * list (string * list input))) (al : list stens) (cs : list (list cert)) : bool :=
  match outs, al, cs with
  | [], [], [] => true
  | o :: outs', a :: al', c :: cs' => match s_out o with Some b => aeq_chk so_tb a b c && outs_chk outs' al' cs' | None => false end
  | _, _, _ => false
  end.
Fixpoint outs_find (outs : list (start * list (string * list input))) (al : list stens) : list (list cert) :=
  match outs, al with
  | o :: outs', a :: al' => (match s_out o with Some b => find_aeq so_tb a b | None => [] end) :: outs_find outs' al'
  | _, _ => []
  end.
Definition row_res (r : string * list input * list (start * list (string * list input))) : option (list stens) :=
  match run_chk (fst (fst r)) (map s_sc (snd (fst r))) with Some v => s_res v | None => None end.
Definition row_chk r cs := match row_res r with Some al => outs_chk (snd r) al cs | None => false end.
Definition row_find r := match row_res r with Some al => outs_find (snd r) al | None => [] end.
Definition row_certs := Eval vm_compute in map row_find made_of.
Lemma rows_ok : forallb (fun p => row_chk (fst p) (snd p)) (combine made_of row_certs) = true.
Proof. vm_compute. reflexivity. Qed.

Lemma cls_list_eqb_refl a : cls_list_eqb a a = true.
Proof. induction a; simpl; auto. rewrite Pos.eqb_refl. exact IHa. Qed.

(** A call has one outcome. *)
Lemma updates_det (K : cring) f Ts vs (Z Z' : tensor K) : updates f Ts vs [Z] -> updates f Ts vs [Z'] -> teq Z Z'.
Proof.
  intros (U & w & E & H & _) (U' & w' & E' & H' & _). rewrite E in E'. injection E' as E'.
  inversion H as [|? u ? ? Hu Hn]; subst. inversion Hn; subst. inversion H' as [|? u' ? ? Hu' Hn']; subst. inversion Hn'; subst.
  simpl in E'. injection E' as -> _. destruct Hu as [S1 D1], Hu' as [S2 D2]. split; [congruence|].
  intros idx Hi. rewrite D1 by exact Hi. symmetry. apply D2. rewrite S2, <- S1. exact Hi.
Qed.

Section Sums.
  Variable K : cring.
  Local Open Scope K_scope.
  Add Ring KrPS : (c_th K).
  Variables no nv : nat.
  Variable x : inputs K.
  Hypothesis Hx : inputs_ok no nv x.
  Variables h s t l : K.
  Notation dim := (so_dim no nv).
  Let exs (u : positive) : list nat -> K :=
    match u with 21 => fun _ => h | 22 => fun _ => s | 23 => fun _ => t | 24 => fun _ => l | _ => fun _ => c0 end%positive.
  Let rho := so_rho K (in_F x) (in_I x) (in_T1 x) (in_T2 x) (in_L1 x) (in_L2 x) c0 exs.
  Let y := scaled_inputs h s t l x.

  Lemma mon_R u c : (forall idx, rho u idx = c) -> Rnum K dim rho (mon u) c.
  Proof.
    intros H. split; [repeat constructor|]. unfold den, den_mono, den_fac. simpl. rewrite H. unfold dyad. simpl. ring.
  Qed.
  Lemma sum_given i : Rval K dim rho (s_in i) (given x i).
  Proof. destruct Hx as (HF & HI & H1 & H2 & HL1 & HL2). unfold rho. destruct i; simpl; auto with soctx. Qed.
  Lemma sum_givens (is : list input) : Forall2 (Rval K dim rho) (map s_in is) (map (given x) is).
  Proof. induction is; simpl; constructor; auto using sum_given. Qed.
  Lemma times_R u c a T : (forall idx, rho u idx = c) -> shp T = map dim a -> (forall idx, rho u idx = c) ->
    forall q, (forall idx, rho q idx = dat T idx) -> Rval K dim rho (sarr (s_scale (mon u) (s_input q a))) (arr (times c T)).
  Proof.
    intros Hc HT _ q Hq. apply Rx_arr. apply (S_ascale K dim rho (mon u) c (s_input q a) T).
    - apply mon_R. exact Hc.
    - apply input_sound; auto.
  Qed.
  Lemma scaled_R i : Rval K dim rho (s_sc i) (given y i).
  Proof.
    destruct Hx as (HF & HI & H1 & H2 & HL1 & HL2). destruct i.
    - destruct HF as (F1 & F2 & F3 & F4). apply Rx_obj.
      repeat (constructor; [split; [reflexivity|apply times_R; first [assumption|reflexivity]]|]). constructor.
    - destruct HI as [(I1 & I2 & I3 & I4 & I5 & I6 & I7 & I8 & I9) _]. apply Rx_obj.
      repeat (constructor; [split; [reflexivity|apply times_R; first [assumption|reflexivity]]|]). constructor.
    - apply times_R; first [exact H1|reflexivity].
    - apply times_R; first [exact (proj1 H2)|reflexivity].
    - apply times_R; first [exact HL1|reflexivity].
    - apply times_R; first [exact (proj1 HL2)|reflexivity].
  Qed.
  Lemma scaleds (is : list input) : Forall2 (Rval K dim rho) (map s_sc is) (map (given y) is).
  Proof. induction is; simpl; constructor; auto using scaled_R. Qed.

  Lemma mpow_R u c n : (forall idx, rho u idx = c) -> Rnum K dim rho (mpow u n) (pow c n).
  Proof.
    intros H. induction n as [|n IH]; simpl.
    - replace (c1 (c := K)) with (dyad (K := K) 1 0); [apply S_const|]. unfold dyad. simpl. ring.
    - apply (S_nmul K dim rho (mon u) c); [apply mon_R; exact H|exact IH].
  Qed.
  Lemma mweight_R d : Rnum K dim rho (mweight d) (weight h s t l d).
  Proof. unfold mweight, weight. repeat apply S_nmul; apply mpow_R; reflexivity. Qed.

  Lemma parts_R sh ps : forall zs, s_parts sh ps = Some zs ->
    exists Zs, Forall2 (fun p Z => updates (fst p) [tzeros K (map dim sh)] (map (given x) (snd p)) [Z]) ps Zs /\
      Forall2 (Rarr K dim rho) zs Zs /\ Forall (fun z => s_sh z = sh) zs.
  Proof.
    induction ps as [|p ps IH]; simpl; intros zs H.
    - injection H as <-. exists []. repeat constructor.
    - destruct (acc_chk _ _ _) as [z|] eqn:E; [|discriminate].
      destruct (s_parts sh ps) as [zs'|]; [|discriminate].
      destruct (cls_list_eqb (s_sh z) sh) eqn:E1; [|discriminate]. injection H as <-.
      apply cls_list_eqb_eq in E1. destruct (IH _ eq_refl) as (Zs & A & B & C).
      destruct (acc_sound K dim rho _ _ _ _ _ E (sum_givens (snd p))) as (Z & HZ & RZ).
      exists (Z :: Zs). repeat split; constructor; auto.
  Qed.
  Lemma sum_R sh ps : forall zs Zs, Forall2 (Rarr K dim rho) zs Zs -> Forall (fun z => s_sh z = sh) zs ->
    Rarr K dim rho (STens sh (s_sum ps zs))
      (mkT (map dim sh) (fun idx => lsum (map (fun q => weight h s t l (degree_of (fst (fst q))) * dat (snd q) idx) (combine ps Zs)))).
  Proof.
    induction ps as [|p ps IH]; intros zs Zs HZ HS.
    - split; [reflexivity|split; [constructor|intros; reflexivity]].
    - destruct HZ as [|z Z zs Zs Hz HZ].
      + split; [reflexivity|split; [constructor|intros; reflexivity]].
      + inversion HS as [|? ? S1 S2]; subst. cbn [s_sum combine map lsum].
        pose proof (S_ascale K dim rho _ _ _ _ (mweight_R (degree_of (fst p))) Hz) as Ha.
        specialize (IH zs Zs HZ S2).
        destruct (S_aadd K dim rho _ _ _ _ (STens (s_sh z) (ms_mul (mweight (degree_of (fst p))) (s_ms z) ++ s_sum ps zs)%list) Ha IH)
          as (c & Ec & Rc). { unfold s_add. simpl. rewrite cls_list_eqb_refl. reflexivity. }
        destruct Rc as (Sc & Oc & Dc). split; [reflexivity|]. split; [exact Oc|].
        intros idx Hi. rewrite <- Dc by (rewrite Sc; exact Hi).
        unfold tadd in Ec. destruct (shape_eqb _ _); [|discriminate]. injection Ec as <-. reflexivity.
  Qed.

  Lemma block_R b u sh : s_block b = Some (u, sh) -> shp (block x b) = map dim sh /\ (forall idx, rho u idx = dat (block x b) idx).
  Proof.
    destruct Hx as ((F1 & F2 & F3 & F4) & [(I1 & I2 & I3 & I4 & I5 & I6 & I7 & I8 & I9) _] & _).
    unfold s_block. intros H.
    destruct b as [[] n]; try discriminate;
      repeat (match type of H with match ?n with _ => _ end = _ => destruct n end; try discriminate);
      repeat (match type of H with (if ?n then _ else _) = _ => destruct n end; try discriminate);
      injection H as <- <-; (split; [assumption|reflexivity]).
  Qed.
  Lemma out_R o b : s_out o = Some b -> exists Zs, parts_values x o Zs /\ Forall (fun Z => shp Z = shp (block x (fst o))) Zs /\
    Rarr K dim rho b (mkT (shp (block x (fst o))) (fun idx =>
      h * dat (block x (fst o)) idx + lsum (map (fun q => weight h s t l (degree_of (fst (fst q))) * dat (snd q) idx) (combine (snd o) Zs)))).
  Proof.
    unfold s_out. destruct (s_block (fst o)) as [[u sh]|] eqn:E; [|discriminate].
    destruct (s_parts sh (snd o)) as [zs|] eqn:E1; [|discriminate]. intros H. injection H as <-.
    destruct (block_R _ _ _ E) as [Sb Db]. destruct (parts_R _ _ _ E1) as (Zs & A & B & C).
    exists Zs. split. { unfold parts_values, zeros_like. rewrite Sb. exact A. }
    split. { rewrite Sb. clear - B C. induction B as [|z Z zs Zs Hz HZ IH]; [constructor|].
      inversion C as [|? ? C1 C2]; subst. constructor; auto. exact (proj1 Hz). }
    pose proof (sum_R sh (snd o) zs Zs B C) as HS.
    assert (Ha : Rarr K dim rho (s_scale (mon 21) (s_input u sh)) (tscale h (block x (fst o)))).
    { apply S_ascale; [apply mon_R; reflexivity|apply input_sound; auto]. }
    destruct (S_aadd K dim rho _ _ _ _ (STens sh (ms_mul (mon 21) (s_ms (s_input u sh)) ++ s_sum (snd o) zs)%list) Ha HS)
      as (c & Ec & Sc & Oc & Dc). { unfold s_add. simpl. rewrite cls_list_eqb_refl. reflexivity. }
    split; [exact Sb|]. split; [exact Oc|]. intros idx Hi. rewrite <- Dc by (rewrite Sc; cbn [s_sh]; rewrite <- Sb; exact Hi).
    unfold tadd in Ec. destruct (shape_eqb _ _); [|discriminate]. injection Ec as <-. reflexivity.
  Qed.

  Lemma lsum_parts B ps idx : inrange (shp B) idx -> forall Zs Zs', Forall (fun Z => shp Z = shp B) Zs ->
    Forall2 (fun p Z => updates (fst p) [zeros_like B] (map (given x) (snd p)) [Z]) ps Zs ->
    Forall2 (fun p Z => updates (fst p) [zeros_like B] (map (given x) (snd p)) [Z]) ps Zs' ->
    lsum (map (fun q => weight h s t l (degree_of (fst (fst q))) * dat (snd q) idx) (combine ps Zs)) =
    lsum (map (fun q => weight h s t l (degree_of (fst (fst q))) * dat (snd q) idx) (combine ps Zs')).
  Proof.
    intros Hi. induction ps as [|p ps IH]; intros Zs Zs' HS H H'; [reflexivity|].
    inversion H as [|? Z ? Zr HZ HZr]; subst. inversion H' as [|? Z' ? Zr' HZ' HZr']; subst.
    inversion HS as [|? ? S1 S2]; subst.
    cbn [combine map lsum fst snd]. rewrite (IH _ _ S2 HZr HZr').
    destruct (updates_det _ _ _ _ _ _ HZ HZ') as [_ D]. rewrite (D idx); [reflexivity|]. rewrite S1. exact Hi.
  Qed.
  Lemma out_sum o b a c R Zs : s_out o = Some b -> aeq_chk so_tb a b c = true -> Rarr K dim rho a R -> parts_values x o Zs ->
    sum_of_parts h s t l (block x (fst o)) (snd o) Zs R.
  Proof.
    intros E Hc HR HZ. destruct (out_R _ _ E) as (Zs' & HZ' & S' & RB).
    assert (Hs : sym_ok K dim rho so_tb).
    { destruct Hx as (HF & HI & H1 & H2 & HL1 & HL2). apply so_sym; assumption. }
    destruct (aeq_sound K dim rho so_tb a b c _ _ Hc Hs HR RB) as [SR DR]. split; [exact SR|].
    intros idx Hi. rewrite (DR _ Hi). cbn [dat]. f_equal. rewrite SR in Hi. eapply lsum_parts; eauto.
  Qed.
  Lemma outs_sum outs : forall al cs Rs parts, outs_chk outs al cs = true -> Forall2 (Rarr K dim rho) al Rs ->
    Forall2 (parts_values x) outs parts ->
    Forall2 (fun q R => sum_of_parts h s t l (block x (fst (fst q))) (snd (fst q)) (snd q) R) (combine outs parts) Rs.
  Proof.
    induction outs as [|o outs IH]; intros [|a al] [|c cs] Rs parts H HR HP; try discriminate.
    - inversion HR; subst. constructor.
    - simpl in H. destruct (s_out o) as [b|] eqn:E; [|discriminate]. apply andb_prop in H. destruct H as [Hc H].
      inversion HR as [|? R ? Rr R1 R2]; subst. inversion HP as [|? Zs ? pr P1 P2]; subst.
      simpl. constructor; [|eapply IH; eauto]. eapply out_sum; eauto.
  Qed.
  Lemma outs_values outs : forall al cs, outs_chk outs al cs = true -> exists parts, Forall2 (parts_values x) outs parts.
  Proof.
    induction outs as [|o outs IH]; intros [|a al] [|c cs] H; try discriminate; [exists []; constructor|].
    simpl in H. destruct (s_out o) as [b|] eqn:E; [|discriminate]. apply andb_prop in H. destruct H as [_ H].
    destruct (out_R _ _ E) as (Zs & HZ & _). destruct (IH _ _ H) as (ps & Hp). exists (Zs :: ps). constructor; auto.
  Qed.
  Lemma arrs_R vs : forall al ws, s_arrs vs = Some al -> Forall2 (Rval K dim rho) vs ws ->
    exists Rs, ws = map arr Rs /\ Forall2 (Rarr K dim rho) al Rs.
  Proof.
    induction vs as [|v vs IH]; simpl; intros al ws H HW.
    - injection H as <-. inversion HW; subst. exists []. split; [reflexivity|constructor].
    - destruct v as [|a| |]; try discriminate. destruct (s_arrs vs) as [al'|]; [|discriminate]. injection H as <-.
      inversion HW as [|? w ? ws' W1 W2]; subst. inversion W1 as [|? R HR| |]; subst.
      destruct (IH _ _ eq_refl W2) as (Rs & -> & HRs). exists (R :: Rs). split; [reflexivity|constructor; auto].
  Qed.
  Lemma res_R v al w : s_res v = Some al -> Rval K dim rho v w -> exists Rs, w = result Rs /\ Forall2 (Rarr K dim rho) al Rs.
  Proof.
    destruct v as [|a|vs|]; simpl; try discriminate; intros H HW; inversion HW; subst.
    - injection H as <-. eexists [_]. split; [reflexivity|]. constructor; [eassumption|constructor].
    - destruct (Nat.eqb_spec (List.length vs) 1) as [|N]; [discriminate|].
      assert (HV : Forall2 (Rval K dim rho) vs vs') by assumption. assert (HL : List.length vs = List.length vs') by (clear - HV; induction HV; simpl; congruence).
      destruct (arrs_R _ _ _ H HV) as (Rs & -> & HRs).
      exists Rs. split; [|exact HRs]. rewrite map_length in HL.
      destruct Rs as [|R1 [|R2 Rs]]; try reflexivity. simpl in HL. contradiction.
  Qed.
  Lemma row_returns f args outs cs : row_chk (f, args, outs) cs = true -> forall parts, Forall2 (parts_values x) outs parts ->
    exists Rs, returns f (map (given y) args) (result Rs) /\
    Forall2 (fun q R => sum_of_parts h s t l (block x (fst (fst q))) (snd (fst q)) (snd q) R) (combine outs parts) Rs.
  Proof.
    unfold row_chk, row_res. cbn [fst snd]. destruct (run_chk f (map s_sc args)) as [v|] eqn:E; [|discriminate].
    destruct (s_res v) as [al|] eqn:E1; [|discriminate]. intros H parts HP.
    destruct (run_sound K dim rho _ _ _ _ E (scaleds args)) as (w & Hr & HR).
    destruct (res_R _ _ _ E1 HR) as (Rs & -> & HRs). exists Rs. split; [exact Hr|]. eapply outs_sum; eauto.
  Qed.
  Lemma row_values f args outs cs : row_chk (f, args, outs) cs = true -> exists parts, Forall2 (parts_values x) outs parts.
  Proof.
    unfold row_chk. destruct (row_res _) as [al|]; [|discriminate]. apply outs_values.
  Qed.
End Sums.

Theorem sums_of_parts (K : cring) no nv (x : inputs K) f args outs : In (f, args, outs) made_of -> inputs_ok no nv x ->
  exists parts, Forall2 (parts_values x) outs parts /\
  forall h s t l, exists Rs, returns f (map (given (scaled_inputs h s t l x)) args) (result Rs) /\
    Forall2 (fun q R => sum_of_parts h s t l (block x (fst (fst q))) (snd (fst q)) (snd q) R) (combine outs parts) Rs.
Proof.
  intros Hi Hx. destruct (in_combine_len made_of row_certs _ eq_refl Hi) as (cs & Hc).
  pose proof rows_ok as HP. rewrite forallb_forall in HP. specialize (HP _ Hc). cbn [fst snd] in HP.
  destruct (row_values K no nv x Hx c1 c1 c1 c1 _ _ _ _ HP) as (parts & HV). exists parts. split; [exact HV|].
  intros h s t l. exact (row_returns K no nv x Hx h s t l _ _ _ _ HP _ HV).
Qed.
