(** Unrestricted inputs: symbolic counterparts of the alpha, beta and
    alpha-beta blocks, and how the blocks make up the spin-orbital arrays. *)
From Coq Require Import List Bool Arith ZArith Lia Ring String.
From Verif Require Import Scalar Tensor PySyntax PySem PySim Sym SymSound Norm CCProg CCSpec Engine
  Tools SOCtx NpModel SpinModel SpinSpec SpinFacts SpinSplit.
Import ListNotations.
Local Open Scope string_scope.

Definition oa : cls := 1%positive.
Definition va : cls := 2%positive.
Definition ob : cls := 3%positive.
Definition vb : cls := 4%positive.

Definition u_dim (noa nva nob nvb : nat) (c : cls) : nat :=
  match c with 1%positive => noa | 2%positive => nva | 3%positive => nob | 4%positive => nvb
  | _ => 0 end.

Definition sFa : sval :=
  XObj [("oo", inp 31 [oa; oa]); ("ov", inp 32 [oa; va]); ("vo", inp 33 [va; oa]);
        ("vv", inp 34 [va; va])].
Definition sFb : sval :=
  XObj [("oo", inp 35 [ob; ob]); ("ov", inp 36 [ob; vb]); ("vo", inp 37 [vb; ob]);
        ("vv", inp 38 [vb; vb])].
Definition sIa : sval :=
  XObj [("vvvv", inp 41 [va; va; va; va]); ("vvvo", inp 42 [va; va; va; oa]);
        ("vovv", inp 43 [va; oa; va; va]); ("vvoo", inp 44 [va; va; oa; oa]);
        ("vovo", inp 45 [va; oa; va; oa]); ("oovv", inp 46 [oa; oa; va; va]);
        ("vooo", inp 47 [va; oa; oa; oa]); ("ooov", inp 48 [oa; oa; oa; va]);
        ("oooo", inp 49 [oa; oa; oa; oa])].
Definition sIb : sval :=
  XObj [("vvvv", inp 51 [vb; vb; vb; vb]); ("vvvo", inp 52 [vb; vb; vb; ob]);
        ("vovv", inp 53 [vb; ob; vb; vb]); ("vvoo", inp 54 [vb; vb; ob; ob]);
        ("vovo", inp 55 [vb; ob; vb; ob]); ("oovv", inp 56 [ob; ob; vb; vb]);
        ("vooo", inp 57 [vb; ob; ob; ob]); ("ooov", inp 58 [ob; ob; ob; vb]);
        ("oooo", inp 59 [ob; ob; ob; ob])].
Definition sIab : sval :=
  XObj [("vvvv", inp 61 [va; vb; va; vb]); ("vvvo", inp 62 [va; vb; va; ob]);
        ("vvov", inp 63 [va; vb; oa; vb]); ("vovv", inp 64 [va; ob; va; vb]);
        ("ovvv", inp 65 [oa; vb; va; vb]); ("vvoo", inp 66 [va; vb; oa; ob]);
        ("vovo", inp 67 [va; ob; va; ob]); ("voov", inp 68 [va; ob; oa; vb]);
        ("ovvo", inp 69 [oa; vb; va; ob]); ("ovov", inp 70 [oa; vb; oa; vb]);
        ("oovv", inp 71 [oa; ob; va; vb]); ("ooov", inp 72 [oa; ob; oa; vb]);
        ("oovo", inp 73 [oa; ob; va; ob]); ("ovoo", inp 74 [oa; vb; oa; ob]);
        ("vooo", inp 75 [va; ob; oa; ob]); ("oooo", inp 76 [oa; ob; oa; ob])].
Definition sT1a : sval := inp 81 [va; oa].
Definition sT1b : sval := inp 82 [vb; ob].
Definition sT2aa : sval := inp 83 [va; va; oa; oa].
Definition sT2ab : sval := inp 84 [va; vb; oa; ob].
Definition sT2bb : sval := inp 85 [vb; vb; ob; ob].
Definition sL1a : sval := inp 86 [oa; va].
Definition sL1b : sval := inp 87 [ob; vb].
Definition sL2aa : sval := inp 88 [oa; oa; va; va].
Definition sL2ab : sval := inp 89 [oa; ob; va; vb].
Definition sL2bb : sval := inp 90 [ob; ob; vb; vb].
Definition suFac : sval := @XNum sym_alg [Mono 1 0 [] [(91%positive, [])]].

Definition u_tb : table :=
  [(41, ([va; va; va; va], both 41)); (42, ([va; va; va; oa], lead 42));
   (43, ([va; oa; va; va], tail 43)); (44, ([va; va; oa; oa], both 44));
   (46, ([oa; oa; va; va], both 46)); (47, ([va; oa; oa; oa], tail 47));
   (48, ([oa; oa; oa; va], lead 48)); (49, ([oa; oa; oa; oa], both 49));
   (51, ([vb; vb; vb; vb], both 51)); (52, ([vb; vb; vb; ob], lead 52));
   (53, ([vb; ob; vb; vb], tail 53)); (54, ([vb; vb; ob; ob], both 54));
   (56, ([ob; ob; vb; vb], both 56)); (57, ([vb; ob; ob; ob], tail 57));
   (58, ([ob; ob; ob; vb], lead 58)); (59, ([ob; ob; ob; ob], both 59));
   (83, ([va; va; oa; oa], both 83)); (85, ([vb; vb; ob; ob], both 85));
   (88, ([oa; oa; va; va], both 88)); (90, ([ob; ob; vb; vb], both 90))]%positive.

(** blocks of a rank-2 and a rank-4 array *)
Definition blk2 (a b : positive) (ss : list bool) : block :=
  match ss with
  | [false; false] => Some (false, [0; 1], a)
  | [true; true] => Some (false, [0; 1], b)
  | _ => None
  end.
Definition blk4 (a b ab ba x y : positive) (ss : list bool) : block :=
  match ss with
  | [false; false; false; false] => Some (false, [0; 1; 2; 3], a)
  | [true; true; true; true] => Some (false, [0; 1; 2; 3], b)
  | [false; true; false; true] => Some (false, [0; 1; 2; 3], ab)
  | [true; false; true; false] => Some (false, [1; 0; 3; 2], ba)
  | [false; true; true; false] => Some (true, [0; 1; 3; 2], x)
  | [true; false; false; true] => Some (true, [1; 0; 2; 3], y)
  | _ => None
  end.

Definition so_sp : sptab := fun t =>
  match t with
  | 1 => Some ([cO; cO], blk2 31 35) | 2 => Some ([cO; cV], blk2 32 36)
  | 3 => Some ([cV; cO], blk2 33 37) | 4 => Some ([cV; cV], blk2 34 38)
  | 5 => Some ([cV; cV; cV; cV], blk4 41 51 61 61 61 61)
  | 6 => Some ([cV; cV; cV; cO], blk4 42 52 62 63 63 62)
  | 7 => Some ([cV; cO; cV; cV], blk4 43 53 64 65 64 65)
  | 8 => Some ([cV; cV; cO; cO], blk4 44 54 66 66 66 66)
  | 9 => Some ([cV; cO; cV; cO], blk4 45 55 67 70 68 69)
  | 10 => Some ([cO; cO; cV; cV], blk4 46 56 71 71 71 71)
  | 11 => Some ([cV; cO; cO; cO], blk4 47 57 75 74 75 74)
  | 12 => Some ([cO; cO; cO; cV], blk4 48 58 72 73 73 72)
  | 13 => Some ([cO; cO; cO; cO], blk4 49 59 76 76 76 76)
  | 14 => Some ([cV; cO], blk2 81 82)
  | 15 => Some ([cV; cV; cO; cO], blk4 83 85 84 84 84 84)
  | 16 => Some ([cO; cV], blk2 86 87)
  | 17 => Some ([cO; cO; cV; cV], blk4 88 90 89 89 89 89)
  | 18 => Some ([], fun _ => Some (false, [], 91))
  | _ => None
  end%positive.

(** Relations do not depend on how the sizes are written. *)
Lemma den_dim_ext (K : cring) dim dim' (rho : positive -> list nat -> K) xs ms :
  (forall c, dim c = dim' c) -> den K dim rho xs ms = den K dim' rho xs ms.
Proof.
  intros E. unfold den. f_equal. apply map_ext. intros m. unfold den_mono.
  rewrite (map_ext _ _ E). reflexivity.
Qed.
Lemma Rarr_dim_ext (K : cring) dim dim' (rho : positive -> list nat -> K) a t :
  (forall c, dim c = dim' c) -> Rarr K dim rho a t -> Rarr K dim' rho a t.
Proof.
  intros E (H1 & H2 & H3). split; [|split]; auto.
  - rewrite H1. apply map_ext. exact E.
  - intros idx Hi. rewrite H3 by auto. apply den_dim_ext. exact E.
Qed.
Lemma Rnum_dim_ext (K : cring) dim dim' (rho : positive -> list nat -> K) a t :
  (forall c, dim c = dim' c) -> Rnum K dim rho a t -> Rnum K dim' rho a t.
Proof. intros E (H1 & H2). split; auto. rewrite H2. apply den_dim_ext. exact E. Qed.

Section UCtx.
  Variable K : cring.
  Local Open Scope K_scope.
  Add Ring Kr12 : (c_th K).
  Variables noa nva nob nvb : nat.
  Variables Fa Fb : one_e K.
  Variables Ia Ib : two_e K.
  Variable J : two_e_full K.
  Variables T1a T1b T2aa T2ab T2bb L1a L1b L2aa L2ab L2bb : tensor K.
  Variable tfac : K.

  Definition u_rho (t : positive) : list nat -> K :=
    match t with
    | 31 => dat (oo Fa) | 32 => dat (ov Fa) | 33 => dat (vo Fa) | 34 => dat (vv Fa)
    | 35 => dat (oo Fb) | 36 => dat (ov Fb) | 37 => dat (vo Fb) | 38 => dat (vv Fb)
    | 41 => dat (vvvv Ia) | 42 => dat (vvvo Ia) | 43 => dat (vovv Ia) | 44 => dat (vvoo Ia)
    | 45 => dat (vovo Ia) | 46 => dat (oovv Ia) | 47 => dat (vooo Ia) | 48 => dat (ooov Ia)
    | 49 => dat (oooo Ia)
    | 51 => dat (vvvv Ib) | 52 => dat (vvvo Ib) | 53 => dat (vovv Ib) | 54 => dat (vvoo Ib)
    | 55 => dat (vovo Ib) | 56 => dat (oovv Ib) | 57 => dat (vooo Ib) | 58 => dat (ooov Ib)
    | 59 => dat (oooo Ib)
    | 61 => dat (fvvvv J) | 62 => dat (fvvvo J) | 63 => dat (fvvov J) | 64 => dat (fvovv J)
    | 65 => dat (fovvv J) | 66 => dat (fvvoo J) | 67 => dat (fvovo J) | 68 => dat (fvoov J)
    | 69 => dat (fovvo J) | 70 => dat (fovov J) | 71 => dat (foovv J) | 72 => dat (fooov J)
    | 73 => dat (foovo J) | 74 => dat (fovoo J) | 75 => dat (fvooo J) | 76 => dat (foooo J)
    | 81 => dat T1a | 82 => dat T1b | 83 => dat T2aa | 84 => dat T2ab | 85 => dat T2bb
    | 86 => dat L1a | 87 => dat L1b | 88 => dat L2aa | 89 => dat L2ab | 90 => dat L2bb
    | 91 => fun _ => tfac
    | _ => fun _ => c0
    end%positive.

  Notation dim := (u_dim noa nva nob nvb).
  Notation R := (Rval K dim u_rho).

  Lemma u_sym : u_ham_ok noa nva nob nvb Fa Fb Ia Ib J ->
    u_amps_ok noa nva nob nvb T1a T1b T2aa T2ab T2bb ->
    u_lams_ok noa nva nob nvb L1a L1b L2aa L2ab L2bb ->
    sym_ok K dim u_rho u_tb.
  Proof.
    intros (_ & _ & [(S1 & S2 & S3 & S4 & S5 & S6 & S7 & S8 & S9)
                     ([A1 B1] & A2 & A3 & [A4 B4] & [A6 B6] & A7 & A8 & [A9 B9])] &
            [(S1' & S2' & S3' & S4' & S5' & S6' & S7' & S8' & S9')
             ([A1' B1'] & A2' & A3' & [A4' B4'] & [A6' B6'] & A7' & A8' & [A9' B9'])] & _)
           (_ & _ & (P1 & P2 & P3) & _ & (Q1 & Q2 & Q3))
           (_ & _ & (V1 & V2 & V3) & _ & (W1 & W2 & W3)).
    unfold u_tb, sym_ok.
    repeat match goal with
    | |- Forall _ (_ :: _) => constructor
    | |- Forall _ [] => constructor
    | |- Forall _ (both _) =>
        eapply entry_both; [intros; reflexivity|simpl; eassumption|assumption|assumption]
    | |- Forall _ (lead _) => eapply entry_lead; [intros; reflexivity|simpl; eassumption|assumption]
    | |- Forall _ (tail _) => eapply entry_tail; [intros; reflexivity|simpl; eassumption|assumption]
    end.
  Qed.

  Lemma uR_inp t sh u : shp u = map dim sh -> (forall idx, u_rho t idx = dat u idx) ->
    R (inp t sh) (arr u).
  Proof. intros Hs Hr. apply Rx_arr. apply input_sound; auto. Qed.

  Lemma uR_ham : u_ham_ok noa nva nob nvb Fa Fb Ia Ib J ->
    R sFa (py_one_e Fa) /\ R sFb (py_one_e Fb) /\ R sIa (py_two_e Ia) /\ R sIb (py_two_e Ib) /\
    R sIab (py_two_e_full J).
  Proof.
    intros ((F1 & F2 & F3 & F4) & (G1 & G2 & G3 & G4) &
      [(S1 & S2 & S3 & S4 & S5 & S6 & S7 & S8 & S9) _] &
      [(S1' & S2' & S3' & S4' & S5' & S6' & S7' & S8' & S9') _] &
      (J1 & J2 & J3 & J4 & J5 & J6 & J7 & J8 & J9 & J10 & J11 & J12 & J13 & J14 & J15 & J16)).
    repeat split; apply Rx_obj;
      repeat (constructor; [split; [reflexivity|apply uR_inp; [assumption|reflexivity]]|]);
      constructor.
  Qed.

  (** single blocks *)
  Lemma uR_blocks : u_ham_ok noa nva nob nvb Fa Fb Ia Ib J ->
    R (inp 32 [oa; va]) (arr (ov Fa)) /\ R (inp 36 [ob; vb]) (arr (ov Fb)) /\
    R (inp 46 [oa; oa; va; va]) (arr (oovv Ia)) /\ R (inp 56 [ob; ob; vb; vb]) (arr (oovv Ib)) /\
    R (inp 71 [oa; ob; va; vb]) (arr (foovv J)).
  Proof.
    intros ((F1 & F2 & F3 & F4) & (G1 & G2 & G3 & G4) &
      [(S1 & S2 & S3 & S4 & S5 & S6 & S7 & S8 & S9) _] &
      [(S1' & S2' & S3' & S4' & S5' & S6' & S7' & S8' & S9') _] &
      (J1 & J2 & J3 & J4 & J5 & J6 & J7 & J8 & J9 & J10 & J11 & J12 & J13 & J14 & J15 & J16)).
    repeat split; (apply uR_inp; [assumption|reflexivity]).
  Qed.

  Lemma uR_amps : u_amps_ok noa nva nob nvb T1a T1b T2aa T2ab T2bb ->
    R sT1a (arr T1a) /\ R sT1b (arr T1b) /\ R sT2aa (arr T2aa) /\ R sT2ab (arr T2ab) /\
    R sT2bb (arr T2bb).
  Proof.
    intros (H1 & H2 & (H3 & _) & H4 & (H5 & _)).
    repeat split; (apply uR_inp; [assumption|reflexivity]).
  Qed.
  Lemma uR_lams : u_lams_ok noa nva nob nvb L1a L1b L2aa L2ab L2bb ->
    R sL1a (arr L1a) /\ R sL1b (arr L1b) /\ R sL2aa (arr L2aa) /\ R sL2ab (arr L2ab) /\
    R sL2bb (arr L2bb).
  Proof.
    intros (H1 & H2 & (H3 & _) & H4 & (H5 & _)).
    repeat split; (apply uR_inp; [assumption|reflexivity]).
  Qed.
  Lemma uR_fac : R suFac (numv tfac).
  Proof.
    apply Rx_num. split; [repeat constructor|].
    unfold den, den_mono, den_fac. simpl. unfold dyad. simpl. ring.
  Qed.

  (** *** The spin-orbital arrays *)
  Variable F : one_e K.
  Variable I : two_e K.
  Variables T1 T2 L1 L2 : tensor K.

  Definition spin_ham : Prop :=
    F_to_spin Fa Fb noa nva nob nvb = Some F /\
    int_to_spin2 Ia Ib J noa nva nob nvb = Some I.
  Definition spin_amps : Prop :=
    T1_to_spin T1a T1b noa nva nob nvb = Some T1 /\
    T2_to_spin T2aa T2ab T2bb noa nva nob nvb = Some T2.
  (** Lambda amplitudes have the occupied indices first *)
  Definition spin_lams : Prop :=
    T1_to_spin L1a L1b nva noa nvb nob = Some L1 /\
    T2_to_spin L2aa L2ab L2bb nva noa nvb nob = Some L2.

  Lemma idx_len2 (na nb : list nat) ss idx : List.length ss = 2%nat -> List.length na = 2%nat ->
    List.length nb = 2%nat -> inrange (sels ss na nb) idx -> exists i j, idx = [i; j].
  Proof.
    destruct ss as [|s1 [|s2 [|]]]; try discriminate.
    destruct na as [|a1 [|a2 [|]]]; try discriminate.
    destruct nb as [|b1 [|b2 [|]]]; try discriminate. intros _ _ _ H.
    apply idx2 in H. exact H.
  Qed.
  Lemma idx_len4 (na nb : list nat) ss idx : List.length ss = 4%nat -> List.length na = 4%nat ->
    List.length nb = 4%nat -> inrange (sels ss na nb) idx -> exists i j k l, idx = [i; j; k; l].
  Proof.
    destruct ss as [|s1 [|s2 [|s3 [|s4 [|]]]]]; try discriminate.
    destruct na as [|a1 [|a2 [|a3 [|a4 [|]]]]]; try discriminate.
    destruct nb as [|b1 [|b2 [|b3 [|b4 [|]]]]]; try discriminate. intros _ _ _ H.
    apply idx4 in H. exact H.
  Qed.

  Definition blk_val (b : block) (idx : list nat) : K :=
    match b with
    | Some (s, p, t') => sgn K s (u_rho t' (map (fun k => nth k idx 0%nat) p))
    | None => 0
    end.

  Lemma blk2_ok na nb (t A B : tensor K) a b :
    holds na nb t (spin2 A B) -> List.length na = 2%nat -> List.length nb = 2%nat ->
    u_rho a = dat A -> u_rho b = dat B ->
    forall ss idx, List.length ss = 2%nat -> inrange (sels ss na nb) idx ->
      dat t (ats na ss idx) = blk_val (blk2 a b ss) idx.
  Proof.
    intros (_ & _ & H) Hna Hnb Ea Eb ss idx Hs Hi. rewrite H by (auto; congruence).
    destruct (idx_len2 _ _ _ _ Hs Hna Hnb Hi) as (i & j & ->).
    destruct ss as [|[] [|[] [|]]]; try discriminate; cbn; rewrite ?Ea, ?Eb; reflexivity.
  Qed.

  Lemma blk4_ok na nb (t A B ab ba x y : tensor K) a b p q r s :
    holds na nb t (spin4 A B ab (swap_both ba) (tneg (swap_ket x)) (tneg (swap_bra y))) ->
    List.length na = 4%nat -> List.length nb = 4%nat ->
    u_rho a = dat A -> u_rho b = dat B -> u_rho p = dat ab -> u_rho q = dat ba ->
    u_rho r = dat x -> u_rho s = dat y ->
    forall ss idx, List.length ss = 4%nat -> inrange (sels ss na nb) idx ->
      dat t (ats na ss idx) = blk_val (blk4 a b p q r s ss) idx.
  Proof.
    intros (_ & _ & H) Hna Hnb Ea Eb Ep Eq Er Es ss idx Hs Hi. rewrite H by (auto; congruence).
    destruct (idx_len4 _ _ _ _ Hs Hna Hnb Hi) as (i & j & k & l & ->).
    destruct ss as [|[] [|[] [|[] [|[] [|]]]]]; try discriminate;
      cbn; rewrite ?Ea, ?Eb, ?Ep, ?Eq, ?Er, ?Es; reflexivity.
  Qed.

  Lemma so_sp_ok : u_ham_ok noa nva nob nvb Fa Fb Ia Ib J ->
    u_amps_ok noa nva nob nvb T1a T1b T2aa T2ab T2bb ->
    u_lams_ok noa nva nob nvb L1a L1b L2aa L2ab L2bb ->
    spin_ham -> spin_amps -> spin_lams ->
    sptab_ok K dim (so_rho K F I T1 T2 L1 L2 tfac (noex K)) u_rho so_sp.
  Proof.
    intros HH HT HL (EF & EI) (ET1 & ET2) (EL1 & EL2).
    destruct HH as (HFa & HFb & [HIa _] & [HIb _] & HJ).
    destruct HT as (A1 & B1 & (A2 & _) & C2 & (B2 & _)).
    destruct HL as (A3 & B3 & (A4 & _) & C4 & (B4 & _)).
    destruct (F_to_spin_holds K _ _ _ _ _ _ HFa HFb) as (F' & EF' & HF1 & HF2 & HF3 & HF4).
    rewrite EF in EF'. injection EF' as <-.
    destruct (int_to_spin2_holds K _ _ _ _ _ _ _ HIa HIb HJ) as
      (I' & EI' & H5 & H6 & H7 & H8 & H9 & H10 & H11 & H12 & H13).
    rewrite EI in EI'. injection EI' as <-.
    destruct (T1_to_spin_holds K _ _ _ _ _ _ A1 B1) as (t & E & H14).
    rewrite ET1 in E. injection E as <-.
    destruct (T2_to_spin_holds K _ _ _ _ _ _ _ A2 C2 B2) as (t & E & H15).
    rewrite ET2 in E. injection E as <-.
    destruct (T1_to_spin_holds K _ _ _ _ _ _ A3 B3) as (t & E & H16).
    rewrite EL1 in E. injection E as <-.
    destruct (T2_to_spin_holds K _ _ _ _ _ _ _ A4 C4 B4) as (t & E & H17).
    rewrite EL2 in E. injection E as <-.
    intros t ty f E.
    repeat (destruct t as [t|t|]; try discriminate E);
      injection E as <- <-; intros ss idx Hs Hi;
      try match goal with
      | H : holds _ _ _ _ |- _ = match blk2 ?a ?b ss with _ => _ end =>
          exact (blk2_ok _ _ _ _ _ a b H eq_refl eq_refl eq_refl eq_refl ss idx Hs Hi)
      | H : holds _ _ _ _ |- _ = match blk4 ?a ?b ?p ?q ?r ?s ss with _ => _ end =>
          exact (blk4_ok _ _ _ _ _ _ _ _ _ a b p q r s H eq_refl eq_refl eq_refl eq_refl eq_refl
            eq_refl eq_refl eq_refl ss idx Hs Hi)
      end.
    destruct ss; [|discriminate]. reflexivity.
  Qed.
End UCtx.

Lemma dso_so_dim noa nva nob nvb c :
  dso (u_dim noa nva nob nvb) c = so_dim (noa + nob) (nva + nvb) c.
Proof. destruct c as [[c|c|]|[c|c|]|]; reflexivity. Qed.
