(** ci_matrixel and gci_matrixel against the specification (C30 - C33). *)
From Coq Require Import Ascii String List Bool Arith ZArith Lia.
From Verif Require Import Scalar Tensor NpModel CIModel CISpec CIRep CIFacts CIStrings CIFock.
Import ListNotations.
Local Open Scope list_scope.

(** *** Strings of alpha and beta orbitals *)
Lemma occd_app_l a b p : p < length a -> occd (a ++ b) p = occd a p.
Proof. intros L. unfold occd. apply app_nth1; auto. Qed.
Lemma occd_app_r a b p : occd (a ++ b) (length a + p) = occd b p.
Proof. unfold occd. rewrite app_nth2 by lia. f_equal. lia. Qed.
Lemma put_app_l a b p x : p < length a -> put p x (a ++ b) = put p x a ++ b.
Proof. revert p. induction a as [|y a IH]; intros [|p] L; cbn in *; try lia; auto. rewrite IH by lia. auto. Qed.
Lemma put_app_r a b p x : put (length a + p) x (a ++ b) = a ++ put p x b.
Proof. induction a as [|y a IH]; cbn; auto. rewrite IH. auto. Qed.
Lemma odd_below_app_l a b p : p <= length a -> odd_below p (a ++ b) = odd_below p a.
Proof.
  revert p. induction a as [|y a IH]; intros [|p] L; cbn in *; try lia; auto.
  rewrite IH by lia. auto.
Qed.
Lemma odd_below_app_r a b p : odd_below (length a + p) (a ++ b) = xorb (odd_below (length a) a) (odd_below p b).
Proof.
  induction a as [|y a IH]; cbn; [destruct (odd_below p b); reflexivity|]. rewrite IH.
  destruct y, (odd_below (length a) a), (odd_below p b); reflexivity.
Qed.
Lemma det_eqb_app a b c d : length a = length c -> det_eqb (a ++ b) (c ++ d) = det_eqb a c && det_eqb b d.
Proof.
  revert c. induction a as [|x a IH]; intros [|y c] L; try discriminate; cbn; auto.
  injection L as L. rewrite IH by auto. apply andb_assoc.
Qed.

Definition bindop (x : option (bool * det)) (f : det -> option (bool * det)) : option (bool * det) :=
  match x with
  | Some (g, s) => match f s with Some (h, t) => Some (xorb h g, t) | None => None end
  | None => None
  end.
Lemma act_cons o ops s : act (o :: ops) s = bindop (act ops s) (act1 o).
Proof. reflexivity. Qed.
Lemma act_app ops1 ops2 s : act (ops1 ++ ops2) s = bindop (act ops2 s) (act ops1).
Proof.
  induction ops1 as [|o ops1 IH].
  - cbn [app]. destruct (act ops2 s) as [[g t]|]; cbn; [|reflexivity]. destruct g; reflexivity.
  - cbn [app]. rewrite act_cons, IH. destruct (act ops2 s) as [[g t]|]; cbn; [|reflexivity].
    destruct (act ops1 t) as [[h u]|]; cbn; [|reflexivity].
    destruct (act1 o u) as [[h' w]|]; [|reflexivity]. destruct h', h, g; reflexivity.
Qed.
Lemma act1_length o s g t : act1 o s = Some (g, t) -> length t = length s.
Proof.
  destruct o as [p|p]; cbn [act1]; [destruct (Nat.ltb p (length s) && negb (occd s p))|destruct (occd s p)];
    intros E; inversion E; apply put_length.
Qed.
Lemma act_length ops : forall s g t, act ops s = Some (g, t) -> length t = length s.
Proof.
  induction ops as [|o ops IH]; intros s g t E; [inversion E; reflexivity|].
  rewrite act_cons in E. destruct (act ops s) as [[h u]|] eqn:F; [|discriminate]. cbn in E.
  destruct (act1 o u) as [[h' w]|] eqn:G; [|discriminate]. inversion E; subst.
  rewrite (act1_length _ _ _ _ G). eauto.
Qed.

Definition op_index (o : op) : nat := match o with Cre p => p | Ann p => p end.
Definition shift (n : nat) (o : op) : op := match o with Cre p => Cre (n + p) | Ann p => Ann (n + p) end.

Lemma act1_app_l o a b : op_index o < length a ->
  act1 o (a ++ b) = match act1 o a with Some (g, t) => Some (g, t ++ b) | None => None end.
Proof.
  destruct o as [p|p]; cbn [op_index act1]; intros L.
  - rewrite occd_app_l, odd_below_app_l, put_app_l by lia. rewrite app_length.
    assert (Nat.ltb p (length a + length b) = true) as -> by (apply Nat.ltb_lt; lia).
    assert (Nat.ltb p (length a) = true) as -> by (apply Nat.ltb_lt; lia).
    cbn [andb]. destruct (occd a p); reflexivity.
  - rewrite occd_app_l, odd_below_app_l, put_app_l by lia. destruct (occd a p); reflexivity.
Qed.
Lemma act1_app_r o a b :
  act1 (shift (length a) o) (a ++ b)
  = match act1 o b with Some (g, t) => Some (xorb (odd_below (length a) a) g, a ++ t) | None => None end.
Proof.
  destruct o as [p|p]; cbn [shift act1].
  - rewrite occd_app_r, odd_below_app_r, put_app_r, app_length.
    assert (Nat.ltb (length a + p) (length a + length b) = Nat.ltb p (length b)) as ->.
    { destruct (Nat.ltb_spec p (length b)), (Nat.ltb_spec (length a + p) (length a + length b)); auto; lia. }
    destruct (_ && _); reflexivity.
  - rewrite occd_app_r, odd_below_app_r, put_app_r. destruct (occd b p); reflexivity.
Qed.

Lemma act_app_l ops : forall a b, Forall (fun o => op_index o < length a) ops ->
  act ops (a ++ b) = match act ops a with Some (g, t) => Some (g, t ++ b) | None => None end.
Proof.
  induction ops as [|o ops IH]; intros a b F; [reflexivity|]. inversion F; subst.
  rewrite !act_cons, IH by auto. destruct (act ops a) as [[g t]|] eqn:E; [|reflexivity]. cbn [bindop].
  rewrite act1_app_l by (rewrite (act_length _ _ _ _ E); auto).
  destruct (act1 o t) as [[g' u]|]; reflexivity.
Qed.
Fixpoint flips (a : det) (ops : list op) : bool :=
  match ops with [] => false | _ :: ops' => xorb (odd_below (length a) a) (flips a ops') end.
Lemma act_app_r ops : forall a b,
  act (map (shift (length a)) ops) (a ++ b)
  = match act ops b with Some (g, t) => Some (xorb (flips a ops) g, a ++ t) | None => None end.
Proof.
  induction ops as [|o ops IH]; intros a b; [reflexivity|].
  cbn [map flips]. rewrite !act_cons, IH. destruct (act ops b) as [[g t]|]; [|reflexivity]. cbn [bindop].
  rewrite act1_app_r. destruct (act1 o t) as [[g' u]|]; [|reflexivity].
  do 2 f_equal. destruct (odd_below (length a) a), g', (flips a ops), g; reflexivity.
Qed.

Section Factor.
  Variable K : cring.
  Local Open Scope K_scope.
  Add Ring KrM : (c_th K).
  Variables ba bb ka kb : det.
  Hypothesis La : length ba = length ka.

  Lemma braket_alpha ops : Forall (fun o => op_index o < length ka) ops ->
    braket (K:=K) (ba ++ bb) ops (ka ++ kb) = braket ba ops ka * same bb kb.
  Proof.
    intros F. unfold braket, same. rewrite act_app_l by auto.
    destruct (act ops ka) as [[g t]|] eqn:E; [|ring].
    rewrite det_eqb_app by (rewrite (act_length _ _ _ _ E); auto).
    destruct (det_eqb t ba), (det_eqb kb bb); cbn [andb]; ring.
  Qed.
  Lemma braket_beta ops : flips ka ops = false ->
    braket (K:=K) (ba ++ bb) (map (shift (length ka)) ops) (ka ++ kb) = same ba ka * braket bb ops kb.
  Proof.
    intros F. unfold braket, same. rewrite act_app_r, F.
    destruct (act ops kb) as [[g t]|] eqn:E; [|ring].
    rewrite det_eqb_app, xorb_false_l by auto.
    destruct (det_eqb t bb), (det_eqb ka ba); cbn [andb]; ring.
  Qed.
  Lemma flips_two o1 o2 : flips ka [o1; o2] = false.
  Proof. cbn. destruct (odd_below (length ka) ka); reflexivity. Qed.
  Lemma flips_four o1 o2 o3 o4 : flips ka [o1; o2; o3; o4] = false.
  Proof. cbn. destruct (odd_below (length ka) ka); reflexivity. Qed.

  Lemma braket_mixed p q r s : p < length ka -> r < length ka ->
    braket (K:=K) (ba ++ bb) [Cre p; Cre (length ka + q); Ann (length ka + s); Ann r] (ka ++ kb)
    = E1 ba ka p r * E1 bb kb q s.
  Proof.
    intros Lp Lr. unfold E1, braket.
    change [Cre p; Cre (length ka + q); Ann (length ka + s); Ann r]
      with ([Cre p] ++ (map (shift (length ka)) [Cre q; Ann s] ++ [Ann r])).
    change [Cre p; Ann r] with ([Cre p] ++ [Ann r]).
    rewrite !act_app. rewrite (act_app_l [Ann r]) by (repeat constructor; auto).
    destruct (act [Ann r] ka) as [[g a1]|] eqn:E; [|cbn [bindop]; ring].
    assert (L1 := act_length _ _ _ _ E). cbn [bindop]. rewrite <- L1, act_app_r.
    destruct (act [Cre q; Ann s] kb) as [[h b1]|] eqn:F.
    - cbn [bindop]. rewrite act_app_l by (repeat constructor; cbn; lia).
      destruct (act [Cre p] a1) as [[k a2]|] eqn:G; [|ring].
      rewrite det_eqb_app by (rewrite (act_length _ _ _ _ G); lia).
      destruct (det_eqb a2 ba), (det_eqb b1 bb); cbn [andb]; try ring.
      rewrite <- sgn_xorb. f_equal. cbn [flips]. destruct (odd_below (length a1) a1), k, h, g; reflexivity.
    - cbn [bindop]. destruct (act [Cre p] a1) as [[k a2]|]; [|ring]. destruct (det_eqb a2 ba); ring.
  Qed.
End Factor.

(** *** Sums over Kronecker deltas *)
Section Sums.
  Variable K : cring.
  Local Open Scope K_scope.
  Add Ring KrS : (c_th K).

  Lemma sumN_delta n v (f : nat -> K) : v < n -> sumN n (fun i => delta i v * f i) = f v.
  Proof.
    induction n as [|n IH]; intros L; [lia|]. cbn [sumN].
    destruct (Nat.eq_dec v n) as [->|N].
    - rewrite (sumN_ext _ n _ (fun _ => 0)), sumN_0.
      + unfold delta. rewrite Nat.eqb_refl. ring.
      + intros i Hi. unfold delta. destruct (Nat.eqb_spec i n); [lia|]. ring.
    - rewrite IH by lia. unfold delta. destruct (Nat.eqb_spec n v); [lia|]. ring.
  Qed.
  Lemma delta_sym p q : delta p q = delta q p :> K.
  Proof. unfold delta. rewrite Nat.eqb_sym. reflexivity. Qed.
  Lemma sumN_delta' n v (f : nat -> K) : v < n -> sumN n (fun i => delta v i * f i) = f v.
  Proof.
    intros L. rewrite <- (sumN_delta n v f L). apply sumN_ext. intros. rewrite delta_sym. reflexivity.
  Qed.

  Definition S4 (n : nat) (F : nat -> nat -> nat -> nat -> K) : K :=
    sumN n (fun p => sumN n (fun q => sumN n (fun r => sumN n (fun s => F p q r s)))).
  Lemma S4_ext n F G : (forall p q r s, p < n -> q < n -> r < n -> s < n -> F p q r s = G p q r s) ->
    S4 n F = S4 n G.
  Proof. intros E. unfold S4. do 4 (apply sumN_ext; intros). auto. Qed.
  Lemma S4_add n F G : S4 n (fun p q r s => F p q r s + G p q r s) = S4 n F + S4 n G.
  Proof.
    unfold S4. rewrite <- sumN_add. apply sumN_ext; intros. rewrite <- sumN_add. apply sumN_ext; intros.
    rewrite <- sumN_add. apply sumN_ext; intros. rewrite <- sumN_add. reflexivity.
  Qed.
  Lemma S4_mul n c F : S4 n (fun p q r s => c * F p q r s) = c * S4 n F.
  Proof.
    unfold S4. rewrite <- sumN_mul_l. apply sumN_ext; intros. rewrite <- sumN_mul_l. apply sumN_ext; intros.
    rewrite <- sumN_mul_l. apply sumN_ext; intros. rewrite <- sumN_mul_l. reflexivity.
  Qed.
  Lemma S4_sub n F G : S4 n (fun p q r s => F p q r s - G p q r s) = S4 n F - S4 n G.
  Proof.
    transitivity (S4 n F + (- (1)) * S4 n G); [|ring]. rewrite <- S4_mul, <- S4_add.
    apply S4_ext. intros. ring.
  Qed.
  Lemma S4_0 n : S4 n (fun _ _ _ _ => 0) = 0.
  Proof. transitivity (0 * S4 n (fun _ _ _ _ => 0)); [|ring]. rewrite <- S4_mul. apply S4_ext. intros. ring. Qed.
  Lemma S4_swap_creators n F : S4 n F = S4 n (fun p q r s => F q p r s).
  Proof. unfold S4. apply sumN_swap. Qed.
  Lemma S4_swap_annihilators n F : S4 n F = S4 n (fun p q r s => F p q s r).
  Proof. unfold S4. do 2 (apply sumN_ext; intros). apply sumN_swap. Qed.

  Lemma S4_direct n F : S4 n (fun p q r s => delta p r * delta q s * F p q r s)
    = sumN n (fun p => sumN n (fun q => F p q p q)).
  Proof.
    unfold S4. apply sumN_ext; intros p Hp. apply sumN_ext; intros q Hq.
    rewrite <- (sumN_delta' n p (fun r => F p q r q) Hp). apply sumN_ext; intros r Hr.
    rewrite <- (sumN_delta' n q (fun s => F p q r s) Hq), <- sumN_mul_l. apply sumN_ext; intros. ring.
  Qed.
  Lemma S4_exchange n F : S4 n (fun p q r s => delta p s * delta q r * F p q r s)
    = sumN n (fun p => sumN n (fun q => F p q q p)).
  Proof. rewrite S4_swap_annihilators. apply (S4_direct n (fun p q r s => F p q s r)). Qed.

  Lemma S4_one n v o F : v < n -> o < n ->
    S4 n (fun p q r s => delta p v * delta r o * (delta q s * F p q r s)) = sumN n (fun q => F v q o q).
  Proof.
    intros Hv Ho. unfold S4.
    rewrite <- (sumN_delta n v (fun p => sumN n (fun q => F p q o q)) Hv). apply sumN_ext; intros p Hp.
    rewrite <- sumN_mul_l. apply sumN_ext; intros q Hq.
    rewrite <- (sumN_delta n o (fun r => F p q r q) Ho), <- sumN_mul_l. apply sumN_ext; intros r Hr.
    rewrite <- (sumN_delta' n q (fun s => F p q r s) Hq), <- !sumN_mul_l. apply sumN_ext; intros. ring.
  Qed.
  Lemma S4_point n v1 v2 o1 o2 F : v1 < n -> v2 < n -> o1 < n -> o2 < n ->
    S4 n (fun p q r s => delta p v1 * delta q v2 * (delta r o1 * delta s o2) * F p q r s) = F v1 v2 o1 o2.
  Proof.
    intros H1 H2 H3 H4. unfold S4.
    rewrite <- (sumN_delta n v1 (fun p => F p v2 o1 o2) H1). apply sumN_ext; intros p Hp.
    rewrite <- (sumN_delta n v2 (fun q => F p q o1 o2) H2), <- sumN_mul_l. apply sumN_ext; intros q Hq.
    rewrite <- (sumN_delta n o1 (fun r => F p q r o2) H3), <- !sumN_mul_l. apply sumN_ext; intros r Hr.
    rewrite <- (sumN_delta n o2 (fun s => F p q r s) H4), <- !sumN_mul_l. apply sumN_ext; intros. ring.
  Qed.
End Sums.
Arguments S4 {K}.

(** *** One spin: one- and two-body parts *)
Section OneSpin.
  Variable K : cring.
  Local Open Scope K_scope.
  Add Ring KrO : (c_th K).
  Variable n : nat.
  Variable h : nat -> nat -> K.
  Variable V : nat -> nat -> nat -> nat -> K.
  Hypothesis sym : forall p q r s, p < n -> q < n -> r < n -> s < n -> V p q r s = V q p s r.

  Definition one_body bra ket : K := sumN n (fun p => sumN n (fun q => h p q * E1 bra ket p q)).
  Definition two_body bra ket : K := S4 n (fun p q r s => V p q r s * E2 bra ket p q r s).

  Lemma one_body_diag s : length s = n -> one_body s s = sumN n (fun p => h p p * occK s p).
  Proof.
    intros L. unfold one_body. apply sumN_ext; intros p Hp.
    rewrite <- (sumN_delta' K n p (fun q => h p q * occK s p) Hp). apply sumN_ext; intros q Hq.
    rewrite E1_diag by lia. ring.
  Qed.
  Lemma one_body_single ket o v : length ket = n -> o < n -> v < n -> occd ket o = true -> occd ket v = false ->
    one_body (ex1 ket o v) ket = sgn (between ket o v) * h v o.
  Proof.
    intros L Ho Hv Oo Ov. unfold one_body.
    transitivity (sumN n (fun p => delta p v * sumN n (fun q => delta q o * (h p q * sgn (between ket o v))))).
    - apply sumN_ext; intros p Hp. rewrite <- sumN_mul_l. apply sumN_ext; intros q Hq.
      rewrite E1_single by (auto; lia). ring.
    - rewrite sumN_delta, sumN_delta by auto. ring.
  Qed.
  Lemma one_body_zero bra ket : length bra = length ket -> length ket = n -> 2 < ndiff ket bra -> one_body bra ket = 0.
  Proof.
    intros L1 L D. unfold one_body. rewrite (sumN_ext _ n _ (fun _ => 0)), sumN_0; [reflexivity|].
    intros p Hp. rewrite (sumN_ext _ n _ (fun _ => 0)), sumN_0; [reflexivity|].
    intros q Hq. rewrite E1_zero by (auto; lia). ring.
  Qed.

  Lemma two_body_diag s : length s = n ->
    two_body s s = sumN n (fun p => sumN n (fun q => V p q p q * (occK s p * occK s q)))
                 - sumN n (fun p => sumN n (fun q => V p q q p * (occK s p * occK s q))).
  Proof.
    intros L. unfold two_body.
    rewrite <- (S4_direct K n (fun p q r t => V p q r t * (occK s p * occK s q))).
    rewrite <- (S4_exchange K n (fun p q r t => V p q r t * (occK s p * occK s q))).
    rewrite <- S4_sub. apply S4_ext. intros p q r t Hp Hq Hr Ht. rewrite E2_diag by lia. ring.
  Qed.
  Lemma two_body_single ket o v : length ket = n -> o < n -> v < n -> occd ket o = true -> occd ket v = false ->
    chalf * two_body (ex1 ket o v) ket
    = sgn (between ket o v) *
      (sumN n (fun q => V v q o q * occK ket q) - sumN n (fun q => V v q q o * occK ket q)).
  Proof.
    intros L Ho Hv Oo Ov.
    transitivity (chalf * (sgn (between ket o v) *
      (S4 n (fun p q r s => delta p v * delta r o * (delta q s * (V p q r s * coreK ket o q)))
       - S4 n (fun p q r s => delta p v * delta s o * (delta q r * (V p q r s * coreK ket o q)))
       - S4 n (fun p q r s => delta q v * delta r o * (delta p s * (V p q r s * coreK ket o p)))
       + S4 n (fun p q r s => delta q v * delta s o * (delta p r * (V p q r s * coreK ket o p)))))).
    { f_equal. unfold two_body. rewrite <- !S4_sub, <- S4_add, <- S4_mul. apply S4_ext.
      intros p q r s Hp Hq Hr Hs. rewrite E2_single by (auto; lia). ring. }
    rewrite (S4_one K n v o (fun p q r s => V p q r s * coreK ket o q)) by auto.
    rewrite (S4_swap_annihilators K n (fun p q r s => delta p v * delta s o * _)).
    rewrite (S4_one K n v o (fun p q r s => V p q s r * coreK ket o q)) by auto.
    rewrite (S4_swap_creators K n (fun p q r s => delta q v * delta r o * _)).
    rewrite (S4_one K n v o (fun p q r s => V q p r s * coreK ket o q)) by auto.
    rewrite (S4_swap_creators K n (fun p q r s => delta q v * delta s o * _)).
    rewrite (S4_swap_annihilators K n (fun p q r s => delta p v * delta s o * _)).
    rewrite (S4_one K n v o (fun p q r s => V q p s r * coreK ket o q)) by auto.
    assert (X : sumN n (fun q => V q v o q * coreK ket o q) = sumN n (fun q => V v q q o * coreK ket o q))
      by (apply sumN_ext; intros q Hq; rewrite sym by auto; reflexivity).
    assert (Y : sumN n (fun q => V q v q o * coreK ket o q) = sumN n (fun q => V v q o q * coreK ket o q))
      by (apply sumN_ext; intros q Hq; rewrite sym by auto; reflexivity).
    rewrite X, Y.
    assert (W : sumN n (fun q => V v q o q * coreK ket o q) - sumN n (fun q => V v q q o * coreK ket o q)
             = sumN n (fun q => V v q o q * occK ket q) - sumN n (fun q => V v q q o * occK ket q)).
    { assert (Z : forall a b : K, a - b = a + - b) by (intros; ring).
      rewrite !Z, <- !sumN_opp, <- !sumN_add. apply sumN_ext. intros q Hq. unfold coreK.
      destruct (Nat.eqb_spec q o) as [->|]; ring. }
    rewrite <- W. set (A := sumN n _). set (B := sumN n _).
    transitivity ((chalf + chalf) * (sgn (between ket o v) * (A - B))); [ring|]. rewrite (c_half K). ring.
  Qed.
  Lemma two_body_double ket o1 o2 v1 v2 : length ket = n ->
    o1 < o2 -> v1 < v2 -> o2 < n -> v2 < n ->
    occd ket o1 = true -> occd ket o2 = true -> occd ket v1 = false -> occd ket v2 = false ->
    chalf * two_body (put v1 true (put v2 true (c2 ket o1 o2))) ket
    = sgn (sig2 (c2 ket o1 o2) o1 o2 v1 v2) * (V v1 v2 o1 o2 - V v1 v2 o2 o1).
  Proof.
    intros L Lo Lv Lo2 Lv2 O1 O2 V1 V2. assert (o1 < n) by lia. assert (v1 < n) by lia.
    transitivity (chalf * (sgn (sig2 (c2 ket o1 o2) o1 o2 v1 v2) *
      (S4 n (fun p q r s => delta p v1 * delta q v2 * (delta r o1 * delta s o2) * V p q r s)
       - S4 n (fun p q r s => delta p v1 * delta q v2 * (delta r o2 * delta s o1) * V p q r s)
       - S4 n (fun p q r s => delta p v2 * delta q v1 * (delta r o1 * delta s o2) * V p q r s)
       + S4 n (fun p q r s => delta p v2 * delta q v1 * (delta r o2 * delta s o1) * V p q r s)))).
    { f_equal. unfold two_body. rewrite <- !S4_sub, <- S4_add, <- S4_mul. apply S4_ext.
      intros p q r s Hp Hq Hr Hs. rewrite E2_double by (auto; lia). ring. }
    rewrite !(S4_point K n) by auto. rewrite (sym v2 v1), (sym v2 v1) by auto.
    set (A := V v1 v2 o1 o2). set (B := V v1 v2 o2 o1).
    transitivity ((chalf + chalf) * (sgn (sig2 (c2 ket o1 o2) o1 o2 v1 v2) * (A - B))); [ring|].
    rewrite (c_half K). ring.
  Qed.
  Lemma two_body_zero bra ket : length bra = length ket -> length ket = n -> 4 < ndiff ket bra -> two_body bra ket = 0.
  Proof.
    intros L1 L D. unfold two_body. rewrite <- (S4_0 K n) at 1. apply S4_ext.
    intros p q r s Hp Hq Hr Hs. rewrite E2_zero by (auto; lia). ring.
  Qed.
End OneSpin.

(** *** The Hamiltonian on a pair of strings *)
Section Pair.
  Variable K : cring.
  Local Open Scope K_scope.
  Add Ring KrP : (c_th K).

  Definition mixed (n : nat) (V : nat -> nat -> nat -> nat -> K) ba bb ka kb : K :=
    S4 n (fun p q r s => V p q r s * (E1 ba ka p r * E1 bb kb q s)).

  Lemma H_spatial_factor n c ha hb Ia Ib Iab ba bb ka kb :
    length ba = n -> length ka = n -> length bb = n -> length kb = n ->
    H_spatial n c ha hb Ia Ib Iab (ba ++ bb) (ka ++ kb)
    = c * (same ba ka * same bb kb)
      + one_body K n ha ba ka * same bb kb + same ba ka * one_body K n hb bb kb
      + chalf * two_body K n Ia ba ka * same bb kb + same ba ka * (chalf * two_body K n Ib bb kb)
      + mixed n Iab ba bb ka kb.
  Proof.
    intros L1 L2 L3 L4. unfold H_spatial, one_body, two_body, mixed.
    rewrite (braket_alpha K ba bb ka kb) by (auto; congruence). rewrite braket_nil.
    f_equal; [f_equal; [f_equal; [f_equal; [f_equal|]|]|]|].
    - rewrite <- sumN_mul_r. apply sumN_ext; intros p Hp. rewrite <- sumN_mul_r. apply sumN_ext; intros q Hq.
      rewrite braket_alpha by (try congruence; repeat constructor; cbn; lia). unfold E1. ring.
    - rewrite <- sumN_mul_l. apply sumN_ext; intros p Hp. rewrite <- sumN_mul_l. apply sumN_ext; intros q Hq.
      rewrite <- L2. change [Cre (length ka + p); Ann (length ka + q)] with (map (shift (length ka)) [Cre p; Ann q]).
      rewrite braket_beta by (try congruence; apply flips_two). unfold E1. ring.
    - transitivity (chalf * (S4 n (fun p q r s => Ia p q r s * E2 ba ka p q r s) * same bb kb)); [|ring]. f_equal.
      transitivity (same bb kb * S4 n (fun p q r s => Ia p q r s * E2 ba ka p q r s)); [|ring].
      rewrite <- S4_mul. unfold S4. do 4 (apply sumN_ext; intros).
      rewrite braket_alpha by (try congruence; repeat constructor; cbn; lia). unfold E2. ring.
    - transitivity (chalf * (same ba ka * S4 n (fun p q r s => Ib p q r s * E2 bb kb p q r s))); [|ring]. f_equal.
      rewrite <- S4_mul. unfold S4. do 4 (apply sumN_ext; intros).
      rewrite <- L2. 
      change [Cre (length ka + i); Cre (length ka + i0); Ann (length ka + i2); Ann (length ka + i1)]
        with (map (shift (length ka)) [Cre i; Cre i0; Ann i2; Ann i1]).
      rewrite braket_beta by (try congruence; apply flips_four). unfold E2. ring.
    - unfold S4. do 4 (apply sumN_ext; intros). rewrite <- L2.
      rewrite braket_mixed by (congruence || lia). reflexivity.
  Qed.

  Section Mixed.
    Variables (n : nat) (V : nat -> nat -> nat -> nat -> K).
    Lemma mixed_diag a b : length a = n -> length b = n ->
      mixed n V a b a b = sumN n (fun p => sumN n (fun q => V p q p q * occK a p * occK b q)).
    Proof.
      intros La Lb. unfold mixed. rewrite <- (S4_direct K n (fun p q r s => V p q r s * occK a p * occK b q)).
      apply S4_ext. intros. rewrite !E1_diag by lia. ring.
    Qed.
    Lemma mixed_a ka kb o v : length ka = n -> length kb = n -> o < n -> v < n ->
      occd ka o = true -> occd ka v = false ->
      mixed n V (ex1 ka o v) kb ka kb
      = sgn (between ka o v) * sumN n (fun q => V v q o q * occK kb q).
    Proof.
      intros La Lb Ho Hv Oo Ov. unfold mixed.
      rewrite <- (S4_one K n v o (fun p q r s => V p q r s * occK kb q)) by auto. rewrite <- S4_mul.
      apply S4_ext. intros. rewrite E1_single, E1_diag by (auto; lia). ring.
    Qed.
    Lemma mixed_b ka kb o v : length ka = n -> length kb = n -> o < n -> v < n ->
      occd kb o = true -> occd kb v = false ->
      mixed n V ka (ex1 kb o v) ka kb
      = sgn (between kb o v) * sumN n (fun q => V q v q o * occK ka q).
    Proof.
      intros La Lb Ho Hv Oo Ov. unfold mixed.
      rewrite <- (S4_one K n v o (fun p q r s => V q p s r * occK ka q)) by auto. rewrite <- S4_mul.
      rewrite S4_swap_creators, S4_swap_annihilators.
      apply S4_ext. intros. rewrite E1_single, E1_diag by (auto; lia). ring_simplify.
      unfold delta. destruct (Nat.eqb_spec q s); subst; ring.
    Qed.
    Lemma mixed_ab ka kb oa va ob vb : length ka = n -> length kb = n ->
      oa < n -> va < n -> ob < n -> vb < n ->
      occd ka oa = true -> occd ka va = false -> occd kb ob = true -> occd kb vb = false ->
      mixed n V (ex1 ka oa va) (ex1 kb ob vb) ka kb
      = sgn (between ka oa va) * sgn (between kb ob vb) * V va vb oa ob.
    Proof.
      intros La Lb Hoa Hva Hob Hvb A1 A2 B1 B2. unfold mixed.
      rewrite <- (S4_point K n va vb oa ob V) by auto. rewrite <- S4_mul.
      apply S4_ext. intros. rewrite !E1_single by (auto; lia). ring.
    Qed.
    Lemma mixed_zero ba bb ka kb : length ba = n -> length ka = n -> length bb = n -> length kb = n ->
      2 < ndiff ka ba \/ 2 < ndiff kb bb -> mixed n V ba bb ka kb = 0.
    Proof.
      intros L1 L2 L3 L4 D. unfold mixed. rewrite <- (S4_0 K n) at 1. apply S4_ext.
      intros. destruct D as [D|D].
      - rewrite (E1_zero K ba ka) by (auto; lia). ring.
      - rewrite (E1_zero K bb kb) by (auto; lia). ring.
    Qed.
  End Mixed.
End Pair.
Arguments mixed {K}.

(** *** The model: indices, signs, contractions *)
Lemma nonzero_cons x l : nonzero (x :: l) = (if Z.eqb x 0 then [] else [0]) ++ map S (nonzero l).
Proof.
  unfold nonzero. cbn [Datatypes.length seq combine filter snd].
  assert (E : forall (l : list Z) a, map fst (filter (fun ix => negb (Z.eqb (snd ix) 0)) (combine (seq (S a) (length l)) l))
     = map S (map fst (filter (fun ix => negb (Z.eqb (snd ix) 0)) (combine (seq a (length l)) l)))).
  { clear. induction l as [|y l IH]; intros a; [reflexivity|]. cbn [length seq combine filter snd].
    destruct (negb (Z.eqb y 0)); cbn [map fst]; rewrite IH; reflexivity. }
  destruct (Z.eqb x 0); cbn [negb map fst]; rewrite E; reflexivity.
Qed.

Lemma removed_nonzero b : forall k, length b = length k ->
  nonzero (neg_part (occ_diff (dstr b) (dstr k))) = removed k b.
Proof.
  unfold occ_diff, dstr. cbn [d_occ].
  induction b as [|x b IH]; intros [|y k] L; try discriminate; [reflexivity|].
  injection L as L. cbn [map combine fst snd neg_part]. unfold neg_part in *. cbn [map].
  rewrite nonzero_cons, IH by auto.
  unfold removed. cbn [length seq filter]. rewrite (filter_seq_shift _ 0). cbn [occd nth].
  destruct x, y; reflexivity.
Qed.
Lemma added_nonzero b : forall k, length b = length k ->
  nonzero (pos_part (occ_diff (dstr b) (dstr k))) = added k b.
Proof.
  unfold occ_diff, dstr. cbn [d_occ].
  induction b as [|x b IH]; intros [|y k] L; try discriminate; [reflexivity|].
  injection L as L. cbn [map combine fst snd pos_part]. unfold pos_part in *. cbn [map].
  rewrite nonzero_cons, IH by auto.
  unfold added. cbn [length seq filter]. rewrite (filter_seq_shift _ 0). cbn [occd nth].
  destruct x, y; reflexivity.
Qed.

Lemma fsign_between b o v : o < length b -> v < length b -> o <> v ->
  fsign (d_occ (dstr b)) (Nat.min o v) (Nat.max o v) = zsgn (between b o v).
Proof.
  intros Lo Lv N. unfold fsign. cbn [d_occ dstr]. rewrite map_slice, parity_sign_b2z.
  rewrite odd_slice by lia. unfold between. rewrite Nat.add_1_r. reflexivity.
Qed.

Lemma between_ends b o v : occd b o = false -> occd b v = true ->
  between b o v = xorb (xorb (odd_below o b) (odd_below v b)) (Nat.ltb v o).
Proof.
  intros Oo Ov. assert (N : o <> v) by (intros ->; congruence). unfold between.
  destruct (Nat.ltb_spec v o).
  - rewrite Nat.min_r, Nat.max_l by lia. rewrite odd_below_S, Ov.
    destruct (odd_below o b), (odd_below v b); reflexivity.
  - rewrite Nat.min_l, Nat.max_r by lia. rewrite odd_below_S, Oo.
    destruct (odd_below o b), (odd_below v b); reflexivity.
Qed.

Lemma between_ex1 k o v : o < length k -> v < length k -> occd k o = true -> occd k v = false ->
  between (ex1 k o v) o v = between k o v.
Proof.
  intros Lo Lv Oo Ov. assert (E : exc k o v = Some (between k o v, ex1 k o v)).
  { unfold exc. rewrite Oo, Ov. reflexivity. }
  assert (F := exc_back _ _ _ _ _ Lo Lv E). unfold exc in F.
  destruct (_ && _); [|discriminate]. injection F as F _. rewrite <- F.
  unfold between. rewrite Nat.min_comm, Nat.max_comm. reflexivity.
Qed.

Lemma between_double k o1 o2 v1 v2 : o1 < o2 -> v1 < v2 -> o2 < length k -> v2 < length k ->
  occd k o1 = true -> occd k o2 = true -> occd k v1 = false -> occd k v2 = false ->
  let c := c2 k o1 o2 in let b := put v1 true (put v2 true c) in
  xorb (between b o1 v1) (between b o2 v2)
  = xorb (sig2 c o1 o2 v1 v2) (Nat.ltb v2 o1 || Nat.ltb o2 v1).
Proof.
  intros Lo Lv Lo2 Lv2 O1 O2 V1 V2 c b.
  assert (Cv1 : occd c v1 = false).
  { unfold c. rewrite occd_c2, V1 by lia. destruct (_ || _); reflexivity. }
  assert (Cv2 : occd c v2 = false).
  { unfold c. rewrite occd_c2, V2 by lia. destruct (_ || _); reflexivity. }
  assert (Lc : length c = length k) by apply c2_length.
  assert (P : forall x, odd_below x b = xorb (odd_below x c) (xorb (Nat.ltb v1 x) (Nat.ltb v2 x))).
  { intros x. unfold b. rewrite !odd_below_put, put_length, Lc, occd_put, Lc.
    assert (Nat.ltb v1 (length k) = true) as -> by (apply Nat.ltb_lt; lia).
    assert (Nat.ltb v2 (length k) = true) as -> by (apply Nat.ltb_lt; lia).
    destruct (Nat.eqb_spec v1 v2); [lia|]. cbn [andb]. rewrite Cv1, Cv2, !andb_true_r.
    destruct (Nat.ltb v1 x), (Nat.ltb v2 x), (odd_below x c); reflexivity. }
  assert (B : forall x, occd b x = if Nat.eqb x v1 then true else if Nat.eqb x v2 then true else occd c x).
  { intros x. unfold b. rewrite !occd_put, put_length, Lc.
    assert (Nat.ltb v1 (length k) = true) as -> by (apply Nat.ltb_lt; lia).
    assert (Nat.ltb v2 (length k) = true) as -> by (apply Nat.ltb_lt; lia).
    rewrite !andb_true_r. reflexivity. }
  assert (N : o1 <> v1 /\ o1 <> v2 /\ o2 <> v1 /\ o2 <> v2) by (repeat split; intros ->; congruence).
  destruct N as (N1 & N2 & N3 & N4).
  rewrite (between_ends b o1 v1), (between_ends b o2 v2).
  - rewrite !P. rewrite !Nat.ltb_irrefl. unfold sig2.
    assert (Nat.ltb v2 v1 = false) as -> by (apply Nat.ltb_ge; lia).
    assert (Nat.ltb v1 v2 = true) as -> by (apply Nat.ltb_lt; lia).
    rewrite (ltb_flip v1 o2) by auto.
    destruct (Nat.ltb_spec v2 o1), (Nat.ltb_spec v1 o2); try lia; cbn [orb];
    destruct (Nat.ltb v1 o1), (Nat.ltb v2 o2), (odd_below o1 c), (odd_below o2 c), (odd_below v1 c), (odd_below v2 c); reflexivity.
  - rewrite B. destruct (Nat.eqb_spec o2 v1); [congruence|]. destruct (Nat.eqb_spec o2 v2); [congruence|].
    unfold c. rewrite occd_c2, Nat.eqb_refl, orb_true_r by lia. reflexivity.
  - rewrite B, Nat.eqb_refl. destruct (Nat.eqb v2 v1); reflexivity.
  - rewrite B. destruct (Nat.eqb_spec o1 v1); [congruence|]. destruct (Nat.eqb_spec o1 v2); [congruence|].
    unfold c. rewrite occd_c2, Nat.eqb_refl by lia. reflexivity.
  - rewrite B, Nat.eqb_refl. reflexivity.
Qed.

(** the four kinds of pairs of strings with equal numbers of electrons *)
Inductive kind (b k : det) : nat -> Prop :=
| kind0 : b = k -> kind b k 0
| kind1 o v : o < length k -> v < length k -> occd k o = true -> occd k v = false ->
    removed k b = [o] -> added k b = [v] -> b = ex1 k o v -> kind b k 1
| kind2 o1 o2 v1 v2 : o1 < o2 -> v1 < v2 -> o2 < length k -> v2 < length k ->
    occd k o1 = true -> occd k o2 = true -> occd k v1 = false -> occd k v2 = false ->
    removed k b = [o1; o2] -> added k b = [v1; v2] ->
    b = put v1 true (put v2 true (c2 k o1 o2)) -> kind b k 2
| kind3 m : 4 < ndiff k b -> kind b k (3 + m).

Lemma sorted2 (a b : nat) : sorted [a; b] -> a < b.
Proof. intros S. inversion S as [|? ? _ F]. inversion F; auto. Qed.

Lemma kinds b k : length b = length k -> nel b = nel k ->
  exists d, diff (dstr b) (dstr k) = Z.of_nat (2 * d) /\ ndiff k b = 2 * d /\ kind b k d.
Proof.
  intros L N. destruct (count_removed k b L) as [C1 C2].
  set (d := length (removed k b)) in *. exists d.
  assert (D : ndiff k b = 2 * d) by lia.
  split; [unfold diff; rewrite level_ndiff, ndiff_sym, D by auto; reflexivity|].
  split; [exact D|].
  assert (A : length (added k b) = d) by lia.
  assert (R : length (removed k b) = d) by reflexivity.
  assert (SR := sorted_removed k b). assert (SA := sorted_added k b).
  assert (IR : forall p, In p (removed k b) <-> occd k p = true /\ occd b p = false) by apply in_removed.
  assert (IA : forall p, In p (added k b) <-> occd k p = false /\ occd b p = true)
    by (intros; apply in_added; auto).
  assert (LA : forall p, In p (added k b) -> p < length k).
  { intros p H. apply IA in H. rewrite <- L. apply occd_lt. tauto. }
  assert (Ext : forall p, occd b p = if mem p (added k b) then true else if mem p (removed k b) then false else occd k p).
  { intros p. destruct (mem p (added k b)) eqn:E.
    - apply mem_In, IA in E. tauto.
    - destruct (mem p (removed k b)) eqn:F.
      + apply mem_In, IR in F. tauto.
      + apply mem_false in E. apply mem_false in F. rewrite IA in E. rewrite IR in F.
        destruct (occd k p), (occd b p); auto; tauto. }
  clearbody d. destruct d as [|[|[|d]]].
  - apply kind0. apply det_ext; auto. intros p Hp. rewrite Ext.
    destruct (added k b); [|discriminate]. destruct (removed k b); [|discriminate]. reflexivity.
  - destruct (removed k b) as [|o [|]] eqn:ER; try discriminate.
    destruct (added k b) as [|v [|]] eqn:EA; try discriminate.
    destruct (proj1 (IR o) (or_introl eq_refl)) as [O1 O2].
    destruct (proj1 (IA v) (or_introl eq_refl)) as [V1 V2].
    assert (Lo := occd_lt _ _ O1). assert (Lv := LA v (or_introl eq_refl)).
    apply (kind1 b k o v); auto.
    apply det_ext; [rewrite ex1_length; auto|]. intros p Hp. rewrite Ext, ex1_occd by auto.
    unfold mem; cbn [existsb]. rewrite !orb_false_r. reflexivity.
  - destruct (removed k b) as [|o1 [|o2 [|]]] eqn:ER; try discriminate.
    destruct (added k b) as [|v1 [|v2 [|]]] eqn:EA; try discriminate.
    assert (o1 < o2) by (apply sorted2; auto). assert (v1 < v2) by (apply sorted2; auto).
    destruct (proj1 (IR o1) (or_introl eq_refl)) as [O1 _].
    destruct (proj1 (IR o2) (or_intror (or_introl eq_refl))) as [O2 _].
    destruct (proj1 (IA v1) (or_introl eq_refl)) as [V1 _].
    destruct (proj1 (IA v2) (or_intror (or_introl eq_refl))) as [V2 _].
    assert (Lo := occd_lt _ _ O2). assert (Lv := LA v2 (or_intror (or_introl eq_refl))).
    apply (kind2 b k o1 o2 v1 v2); auto.
    apply det_ext; [rewrite !put_length, c2_length; auto|]. intros p Hp. rewrite Ext.
    rewrite !occd_put, put_length, c2_length, occd_c2 by lia.
    assert (Nat.ltb v1 (length k) = true) as -> by (apply Nat.ltb_lt; lia).
    assert (Nat.ltb v2 (length k) = true) as -> by (apply Nat.ltb_lt; lia).
    unfold mem; cbn [existsb]. rewrite !orb_false_r, !andb_true_r.
    destruct (Nat.eqb p v1), (Nat.eqb p v2); reflexivity.
  - apply (kind3 b k d). lia.
Qed.

(** *** ci_matrixel *)
Section Code.
  Variable K : cring.
  Local Open Scope K_scope.
  Add Ring KrC : (c_th K).

  Definition el2 (t : tensor K) (p q : nat) : K := dat t [p; q].
  Definition el4 (t : tensor K) (p q r s : nat) : K := dat t [p; q; r; s].

  Lemma zK_b2z b : zK (b2z b) = (if b then 1 else 0) :> K.
  Proof. destruct b; reflexivity. Qed.
  Lemma zK_zsgn g : zK (zsgn g) = sgn g :> K.
  Proof. destruct g; reflexivity. Qed.

  Lemma tvec_dat s i : dat (tvec K (d_occ (dstr s))) [i] = occK s i.
  Proof.
    unfold tvec, occK. cbn [dat d_occ dstr]. change 0%Z with (b2z false). rewrite map_nth.
    rewrite zK_b2z. reflexivity.
  Qed.
  Lemma tvec_shp s : shp (tvec K (d_occ (dstr s))) = [length s].
  Proof. unfold tvec. cbn [shp d_occ dstr]. rewrite map_length. reflexivity. Qed.

  Lemma einsum_ii n (h : tensor K) s : shp h = [n; n] -> length s = n ->
    einsum0 K "ii,i->" [h; tvec K (d_occ (dstr s))] = Some (sumN n (fun i => dat h [i; i] * occK s i)).
  Proof.
    intros Sh L. assert (Sp := tvec_shp s). assert (Dp := tvec_dat s).
    revert Sp Dp. generalize (tvec K (d_occ (dstr s))). intros p Sp Dp. unfold einsum0.
    change (parse_spec [] "ii,i->") with ([["i"; "i"]; ["i"]]%char, @nil Ascii.ascii). cbv beta iota.
    unfold einsum. cbn [map]. rewrite Sh, Sp, L. cbn. rewrite Nat.eqb_refl. cbn.
    rewrite Nat.eqb_refl. cbn. f_equal. apply sumN_ext. intros i Hi.
    rewrite Dp. ring.
  Qed.
  Lemma einsum_ijij n (t : tensor K) a b (spec : string) : (spec = "ijij,i,j->" \/ spec = "ijij,i,j")%string ->
    shp t = [n; n; n; n] -> length a = n -> length b = n ->
    einsum0 K spec [t; tvec K (d_occ (dstr a)); tvec K (d_occ (dstr b))]
    = Some (sumN n (fun i => sumN n (fun j => dat t [i; j; i; j] * occK a i * occK b j))).
  Proof.
    intros E Sh La Lb. assert (Sa := tvec_shp a). assert (Da := tvec_dat a).
    assert (Sb := tvec_shp b). assert (Db := tvec_dat b).
    revert Sa Da Sb Db. generalize (tvec K (d_occ (dstr a))) (tvec K (d_occ (dstr b))).
    intros pa pb Sa Da Sb Db. unfold einsum0.
    assert (P : parse_spec [] spec = ([["i"; "j"; "i"; "j"]; ["i"]; ["j"]]%char, @nil Ascii.ascii))
      by (destruct E as [-> | ->]; reflexivity).
    rewrite P. unfold einsum. cbn [map]. rewrite Sh, Sa, Sb, La, Lb. cbn. rewrite Nat.eqb_refl. cbn.
    rewrite Nat.eqb_refl. cbn. rewrite ?Nat.eqb_refl. cbn. rewrite ?Nat.eqb_refl. cbn.
    f_equal. apply sumN_ext. intros i Hi. apply sumN_ext. intros j Hj.
    rewrite Da, Db. ring.
  Qed.
  Lemma einsum_ijji n (t : tensor K) a b :
    shp t = [n; n; n; n] -> length a = n -> length b = n ->
    einsum0 K "ijji,i,j->" [t; tvec K (d_occ (dstr a)); tvec K (d_occ (dstr b))]
    = Some (sumN n (fun i => sumN n (fun j => dat t [i; j; j; i] * occK a i * occK b j))).
  Proof.
    intros Sh La Lb. assert (Sa := tvec_shp a). assert (Da := tvec_dat a).
    assert (Sb := tvec_shp b). assert (Db := tvec_dat b).
    revert Sa Da Sb Db. generalize (tvec K (d_occ (dstr a))) (tvec K (d_occ (dstr b))).
    intros pa pb Sa Da Sb Db. unfold einsum0.
    assert (P : parse_spec [] "ijji,i,j->" = ([["i"; "j"; "j"; "i"]; ["i"]; ["j"]]%char, @nil Ascii.ascii))
      by reflexivity.
    rewrite P. unfold einsum. cbn [map]. rewrite Sh, Sa, Sb, La, Lb. cbn. rewrite Nat.eqb_refl. cbn.
    rewrite Nat.eqb_refl. cbn. rewrite ?Nat.eqb_refl. cbn. rewrite ?Nat.eqb_refl. cbn.
    f_equal. apply sumN_ext. intros i Hi. apply sumN_ext. intros j Hj.
    rewrite Da, Db. ring.
  Qed.

  Lemma tget2 n (h : tensor K) v o : shp h = [n; n] -> v < n -> o < n -> tget K h [v; o] = Some (dat h [v; o]).
  Proof.
    intros Sh Hv Ho. unfold tget. rewrite Sh. cbn [in_rangeb].
    apply Nat.ltb_lt in Hv. apply Nat.ltb_lt in Ho. rewrite Hv, Ho. reflexivity.
  Qed.
  Lemma tget4 n (h : tensor K) p q r s : shp h = [n; n; n; n] -> p < n -> q < n -> r < n -> s < n ->
    tget K h [p; q; r; s] = Some (dat h [p; q; r; s]).
  Proof.
    intros Sh Hp Hq Hr Hs. unfold tget. rewrite Sh. cbn [in_rangeb].
    apply Nat.ltb_lt in Hp. apply Nat.ltb_lt in Hq. apply Nat.ltb_lt in Hr. apply Nat.ltb_lt in Hs.
    rewrite Hp, Hq, Hr, Hs. reflexivity.
  Qed.

  (** I[v, :, o, :] and the like, contracted with an occupation *)
  Lemma pick_contract n (t : tensor K) pat s (f : nat -> list nat) : shp t = [n; n; n; n] -> length s = n ->
    pick_shape pat [n; n; n; n] = Some [n; n] ->
    (forall i, pick_index pat [i; i] = f i) ->
    bindo (tpick K pat t) (fun u => einsum0 K "ii,i->" [u; tvec K (d_occ (dstr s))])
    = Some (sumN n (fun i => dat t (f i) * occK s i)).
  Proof.
    intros Sh L P Q. unfold tpick. rewrite Sh, P. cbn [bindo].
    rewrite (einsum_ii n) by (auto; reflexivity). f_equal. apply sumN_ext. intros i Hi. cbn [dat].
    rewrite Q. reflexivity.
  Qed.

  Variables (n : nat).
  Lemma pick_ex (t : tensor K) pat : shp t = [n; n; n; n] ->
    pick_shape pat [n; n; n; n] = Some [n; n] ->
    exists u, tpick K pat t = Some u /\ shp u = [n; n] /\ forall i, dat u [i; i] = dat t (pick_index pat [i; i]).
  Proof.
    intros Sh P. unfold tpick. rewrite Sh, P. eexists. split; [reflexivity|]. split; reflexivity.
  Qed.

  (** one spin, as in gci_matrixel and the branches of ci_matrixel *)
  Definition diag_code (h V : tensor K) (p : tensor K) : option K :=
    let? x := einsum0 K "ii,i->" [h; p] in
    let? y := einsum0 K "ijij,i,j->" [V; p; p] in
    let? z := einsum0 K "ijji,i,j->" [V; p; p] in
    Some (x + chalf * y - chalf * z).

  Lemma diag_eval h V s : shp h = [n; n] -> shp V = [n; n; n; n] -> length s = n ->
    exists x y z,
      einsum0 K "ii,i->" [h; tvec K (d_occ (dstr s))] = Some x /\
      einsum0 K "ijij,i,j->" [V; tvec K (d_occ (dstr s)); tvec K (d_occ (dstr s))] = Some y /\
      einsum0 K "ijji,i,j->" [V; tvec K (d_occ (dstr s)); tvec K (d_occ (dstr s))] = Some z /\
      x = one_body K n (el2 h) s s /\ y - z = two_body K n (el4 V) s s.
  Proof.
    intros Sh SV L. do 3 eexists.
    split; [apply (einsum_ii n); auto|]. split; [apply (einsum_ijij n); auto|].
    split; [apply (einsum_ijji n); auto|]. split.
    - rewrite one_body_diag by auto. reflexivity.
    - rewrite two_body_diag by auto. f_equal; do 2 (apply sumN_ext; intros); unfold el4; ring.
  Qed.

  Definition symV (V : tensor K) : Prop :=
    forall p q r s, p < n -> q < n -> r < n -> s < n -> dat V [p; q; r; s] = dat V [q; p; s; r].

  Lemma single_eval h V k o v : shp h = [n; n] -> shp V = [n; n; n; n] -> symV V -> length k = n ->
    o < n -> v < n -> occd k o = true -> occd k v = false ->
    exists x t1 y t2 z,
      tget K h [v; o] = Some x /\
      tpick K [Some v; None; Some o; None] V = Some t1 /\
      einsum0 K "ii,i->" [t1; tvec K (d_occ (dstr k))] = Some y /\
      tpick K [Some v; None; None; Some o] V = Some t2 /\
      einsum0 K "ii,i->" [t2; tvec K (d_occ (dstr k))] = Some z /\
      sgn (between k o v) * x = one_body K n (el2 h) (ex1 k o v) k /\
      sgn (between k o v) * (y - z) = chalf * two_body K n (el4 V) (ex1 k o v) k.
  Proof.
    intros Sh SV Sy L Ho Hv Oo Ov.
    assert (P1 : pick_shape [Some v; None; Some o; None] [n; n; n; n] = Some [n; n]).
    { cbn. apply Nat.ltb_lt in Ho. apply Nat.ltb_lt in Hv. unfold Nat.ltb in *. cbn in *. rewrite Ho, Hv. reflexivity. }
    assert (P2 : pick_shape [Some v; None; None; Some o] [n; n; n; n] = Some [n; n]).
    { cbn. apply Nat.ltb_lt in Ho. apply Nat.ltb_lt in Hv. unfold Nat.ltb in *. cbn in *. rewrite Ho, Hv. reflexivity. }
    destruct (pick_ex V _ SV P1) as (t1 & E1' & S1 & D1). destruct (pick_ex V _ SV P2) as (t2 & E2' & S2 & D2).
    do 5 eexists. split; [apply (tget2 n); auto|]. split; [exact E1'|]. split; [apply (einsum_ii n); auto|].
    split; [exact E2'|]. split; [apply (einsum_ii n); auto|]. split.
    - rewrite one_body_single by auto. reflexivity.
    - rewrite two_body_single by (auto; intros; apply Sy; auto). f_equal. f_equal.
      + apply sumN_ext. intros i Hi. rewrite D1. reflexivity.
      + apply sumN_ext. intros i Hi. rewrite D2. reflexivity.
  Qed.

  Lemma double_eval V k o1 o2 v1 v2 : shp V = [n; n; n; n] -> symV V -> length k = n ->
    o1 < o2 -> v1 < v2 -> o2 < n -> v2 < n ->
    occd k o1 = true -> occd k o2 = true -> occd k v1 = false -> occd k v2 = false ->
    let b := put v1 true (put v2 true (c2 k o1 o2)) in
    exists x y s1 s2,
      tget K V [v1; v2; o1; o2] = Some x /\ tget K V [v1; v2; o2; o1] = Some y /\
      fsign (d_occ (dstr b)) (Nat.min o1 v1) (Nat.max o1 v1) = zsgn s1 /\
      fsign (d_occ (dstr b)) (Nat.min o2 v2) (Nat.max o2 v2) = zsgn s2 /\
      sgn (xorb (xorb s1 s2) (Nat.ltb v2 o1 || Nat.ltb o2 v1)) * (x - y) = chalf * two_body K n (el4 V) b k.
  Proof.
    intros SV Sy L Lo Lv Lo2 Lv2 O1 O2 V1 V2 b.
    assert (N : o1 <> v1 /\ o1 <> v2 /\ o2 <> v1 /\ o2 <> v2) by (repeat split; intros ->; congruence).
    assert (Lb : length b = n) by (unfold b; rewrite !put_length, c2_length; auto).
    do 4 eexists.
    split; [apply (tget4 n); auto; lia|]. split; [apply (tget4 n); auto; lia|].
    split; [apply fsign_between; lia|]. split; [apply fsign_between; lia|].
    assert (B := between_double k o1 o2 v1 v2 Lo Lv ltac:(lia) ltac:(lia) O1 O2 V1 V2).
    cbv zeta in B. fold b in B. rewrite B.
    unfold b. rewrite two_body_double by (auto; intros; apply Sy; auto).
    f_equal. f_equal. destruct (_ || _), (sig2 _ _ _ _ _); reflexivity.
  Qed.

  (** What the two-body sign looks like in the code. *)
  Lemma sign_product s1 s2 : zK (zsgn s1 * zsgn s2) = sgn (xorb s1 s2) :> K.
  Proof. destruct s1, s2; reflexivity. Qed.
  Lemma sign_product' s1 s2 : zK (- zsgn s1 * zsgn s2) = sgn (xorb (xorb s1 s2) true) :> K.
  Proof. destruct s1, s2; reflexivity. Qed.

  Lemma same_kind b k d : kind b k d -> length b = length k -> ndiff k b = (2 * d)%nat ->
    same (K:=K) b k = (if Nat.eqb d 0 then 1 else 0).
  Proof.
    intros Kd L D. destruct (Nat.eqb_spec d 0) as [->|N].
    - inversion Kd; subst. apply same_refl.
    - apply same_neq. intros ->. rewrite ndiff_refl in D. lia.
  Qed.

  Theorem gci_matrixel_spec h V c b k : shp h = [n; n] -> shp V = [n; n; n; n] -> symV V ->
    length b = n -> length k = n -> nel b = nel k ->
    gci_matrixel K (dstr b) (dstr k) h V c
    = Some (match removed k b, added k b with
            | [o1; o2], [v1; v2] =>
                if Nat.ltb v2 o1 || Nat.ltb o2 v1
                then - H_spin_orbital n 0 (el2 h) (el4 V) b k
                else H_spin_orbital n 0 (el2 h) (el4 V) b k
            | _, _ => H_spin_orbital n 0 (el2 h) (el4 V) b k
            end).
  Proof.
    intros Sh SV Sy Lb Lk N.
    assert (HS : H_spin_orbital n 0 (el2 h) (el4 V) b k
      = one_body K n (el2 h) b k + chalf * two_body K n (el4 V) b k).
    { unfold H_spin_orbital, H1, H2, one_body, two_body, S4, E1, E2. ring. }
    rewrite HS.
    destruct (kinds b k ltac:(congruence) N) as (d & D & ND & Kd).
    unfold gci_matrixel. rewrite D.
    replace (Z.of_nat (2 * d) / 2)%Z with (Z.of_nat d) by (rewrite Nat2Z.inj_mul; change (Z.of_nat 2) with 2%Z; rewrite Z.mul_comm, Z.div_mul; lia).
    rewrite removed_nonzero, added_nonzero by congruence.
    inversion Kd as [E|o v Ho Hv Oo Ov R A E|o1 o2 v1 v2 Lo Lv Lo2 Lv2 O1 O2 V1 V2 R A E|m M].
    - subst d b. cbn [Z.of_nat Z.eqb]. 
      destruct (diag_eval h V k Sh SV Lk) as (x & y & z & -> & -> & -> & X & Y). cbn [bindo].
      assert (removed k k = []) as ->.
      { destruct (removed k k) as [|p l] eqn:E; [reflexivity|].
        assert (I : In p (removed k k)) by (rewrite E; left; reflexivity). apply in_removed in I. destruct I; congruence. }
      rewrite <- X, <- Y. f_equal. ring.
    - subst d. rewrite R, A. cbn [Z.of_nat Z.eqb Pos.of_succ_nat Pos.eqb nth_error bindo].
      rewrite Lk in Ho, Hv.
      destruct (single_eval h V k o v Sh SV Sy Lk Ho Hv Oo Ov) as (x & t1 & y & t2 & z & -> & -> & E1' & -> & E2' & X & Y).
      cbn [bindo]. rewrite E1', E2'. cbn [bindo]. f_equal.
      assert (o <> v) by (intros ->; congruence).
      rewrite fsign_between by (subst b; rewrite ?ex1_length; lia). subst b.
      rewrite between_ex1, zK_zsgn by (auto; lia). rewrite <- X, <- Y. ring.
    - subst d. rewrite R, A. cbn [Z.of_nat Z.eqb Pos.of_succ_nat Pos.succ Pos.eqb].
      rewrite Lk in Lo2, Lv2.
      destruct (double_eval V k o1 o2 v1 v2 SV Sy Lk Lo Lv Lo2 Lv2 O1 O2 V1 V2) as (x & y & s1 & s2 & -> & -> & F1 & F2 & X).
      rewrite <- E in F1, F2, X. rewrite F1, F2. cbn [bindo]. f_equal.
      rewrite <- X. rewrite one_body_zero by lia.
      rewrite !zK_zsgn, sgn_xorb, sgn_xorb. destruct (_ || _); cbn [sgn]; ring.
    - rewrite one_body_zero, two_body_zero by lia.
      assert (Z.eqb (Z.of_nat (3 + m)) 0 = false) as -> by (apply Z.eqb_neq; lia).
      assert (Z.eqb (Z.of_nat (3 + m)) 1 = false) as -> by (apply Z.eqb_neq; lia).
      assert (Z.eqb (Z.of_nat (3 + m)) 2 = false) as -> by (apply Z.eqb_neq; lia).
      f_equal. transitivity (0 : K); [reflexivity|].
      assert (T : 0 = (0 : K) + chalf * 0) by ring. 
      destruct (removed k b) as [|? [|? [|]]]; [exact T|exact T| |exact T].
      destruct (added k b) as [|? [|? [|]]]; try exact T. destruct (_ || _); [ring|exact T].
  Qed.

  Theorem ci_matrixel_spec ha hb Ia Ib Iab c ba bb ka kb :
    shp ha = [n; n] -> shp hb = [n; n] -> shp Ia = [n; n; n; n] -> shp Ib = [n; n; n; n] -> shp Iab = [n; n; n; n] ->
    symV Ia -> symV Ib ->
    length ba = n -> length bb = n -> length ka = n -> length kb = n -> nel ba = nel ka -> nel bb = nel kb ->
    ci_matrixel K (dstr ba) (dstr bb) (dstr ka) (dstr kb) ha hb Ia Ib Iab c
    = Some (H_spatial n c (el2 ha) (el2 hb) (el4 Ia) (el4 Ib) (el4 Iab) (ba ++ bb) (ka ++ kb)).
  Proof.
    intros Sha Shb SIa SIb SIab Sya Syb Lba Lbb Lka Lkb Na Nb.
    rewrite H_spatial_factor by auto.
    destruct (kinds ba ka ltac:(congruence) Na) as (da & Da & NDa & Ka).
    destruct (kinds bb kb ltac:(congruence) Nb) as (db & Db & NDb & Kb).
    rewrite (same_kind ba ka da), (same_kind bb kb db) by (auto; congruence).
    unfold ci_matrixel. rewrite Da, Db.
    assert (HF : forall d, (Z.of_nat (2 * d) / 2)%Z = Z.of_nat d).
    { intros d. rewrite Nat2Z.inj_mul. change (Z.of_nat 2) with 2%Z. rewrite Z.mul_comm, Z.div_mul; lia. }
    rewrite !HF.
    rewrite !removed_nonzero, !added_nonzero by congruence.
    assert (Q0 : forall m, Z.eqb (Z.of_nat (3 + m)) 0 = false) by (intros; apply Z.eqb_neq; lia).
    assert (Q1 : forall m, Z.eqb (Z.of_nat (3 + m)) 1 = false) by (intros; apply Z.eqb_neq; lia).
    assert (Q2 : forall m, Z.eqb (Z.of_nat (3 + m)) 2 = false) by (intros; apply Z.eqb_neq; lia).
    assert (M0 : 2 < ndiff ka ba \/ 2 < ndiff kb bb -> mixed n (el4 Iab) ba bb ka kb = 0)
      by (apply mixed_zero; auto).
    inversion Ka as [Ea|oa va Hoa Hva Ooa Ova Ra Aa Ea|oa1 oa2 va1 va2 Loa Lva Loa2 Lva2 Oa1 Oa2 Va1 Va2 Ra Aa Ea|ma Ma];
    inversion Kb as [Eb|ob vb Hob Hvb Oob Ovb Rb Ab Eb|ob1 ob2 vb1 vb2 Lob Lvb Lob2 Lvb2 Ob1 Ob2 Vb1 Vb2 Rb Ab Eb|mb Mb];
    subst da db; rewrite ?Q0, ?Q1, ?Q2;
    cbn [Z.of_nat Z.eqb Pos.of_succ_nat Pos.succ Pos.eqb andb Nat.eqb Nat.add].
    - (* 0,0 *)
      subst ba bb. 
      destruct (diag_eval ha Ia ka Sha SIa Lka) as (x & y & z & -> & -> & -> & X & Y). cbn [bindo].
      destruct (diag_eval hb Ib kb Shb SIb Lkb) as (x' & y' & z' & -> & -> & -> & X' & Y'). cbn [bindo].
      rewrite (einsum_ijij n) by auto. cbn [bindo]. rewrite mixed_diag by auto. rewrite <- X, <- Y, <- X', <- Y'.
      f_equal. unfold el4. ring.
    - (* 0,1 *)
      subst ba. rewrite Rb, Ab. cbn [nth_error bindo]. rewrite Lkb in Hob, Hvb.
      destruct (single_eval hb Ib kb ob vb Shb SIb Syb Lkb Hob Hvb Oob Ovb) as (x & t1 & y & t2 & z & -> & -> & E1' & -> & E2' & X & Y).
      cbn [bindo]. rewrite E1', E2'. cbn [bindo].
      assert (P : pick_shape [None; Some vb; None; Some ob] [n; n; n; n] = Some [n; n]).
      { cbn. apply Nat.ltb_lt in Hob. apply Nat.ltb_lt in Hvb. unfold Nat.ltb in *. cbn in *. rewrite Hob, Hvb. reflexivity. }
      destruct (pick_ex Iab _ SIab P) as (t3 & -> & S3 & D3). cbn [bindo].
      rewrite (einsum_ii n) by auto. cbn [bindo]. f_equal.
      assert (ob <> vb) by (intros ->; congruence).
      rewrite fsign_between by (subst bb; rewrite ?ex1_length; lia). subst bb.
      rewrite between_ex1, zK_zsgn by (auto; lia). rewrite mixed_b by auto. rewrite <- X, <- Y.
      rewrite (sumN_ext _ n _ (fun q => el4 Iab q vb q ob * occK ka q)) by (intros; rewrite D3; reflexivity). ring.
    - (* 0,2 *)
      rewrite Rb, Ab. rewrite Lkb in Lob2, Lvb2.
      destruct (double_eval Ib kb ob1 ob2 vb1 vb2 SIb Syb Lkb Lob Lvb Lob2 Lvb2 Ob1 Ob2 Vb1 Vb2) as (x & y & s1 & s2 & -> & -> & F1 & F2 & X).
      rewrite <- Eb in F1, F2, X. rewrite F1, F2. cbn [bindo]. f_equal.
      rewrite <- X. rewrite (one_body_zero K n (el2 hb) bb kb) by lia.
      rewrite M0 by lia. subst ba.
      destruct (_ || _); [rewrite sign_product'|rewrite sign_product, xorb_false_r]; ring.
    - (* 0,>=3 *)
      rewrite (one_body_zero K n (el2 hb) bb kb), (two_body_zero K n (el4 Ib) bb kb), M0 by lia.
      f_equal. ring.
    - (* 1,0 *)
      subst bb. rewrite Ra, Aa. cbn [nth_error bindo]. rewrite Lka in Hoa, Hva.
      destruct (single_eval ha Ia ka oa va Sha SIa Sya Lka Hoa Hva Ooa Ova) as (x & t1 & y & t2 & z & -> & -> & E1' & -> & E2' & X & Y).
      cbn [bindo]. rewrite E1', E2'. cbn [bindo].
      assert (P : pick_shape [Some va; None; Some oa; None] [n; n; n; n] = Some [n; n]).
      { cbn. apply Nat.ltb_lt in Hoa. apply Nat.ltb_lt in Hva. unfold Nat.ltb in *. cbn in *. rewrite Hoa, Hva. reflexivity. }
      destruct (pick_ex Iab _ SIab P) as (t3 & -> & S3 & D3). cbn [bindo].
      rewrite (einsum_ii n) by auto. cbn [bindo]. f_equal.
      assert (oa <> va) by (intros ->; congruence).
      rewrite fsign_between by (subst ba; rewrite ?ex1_length; lia). subst ba.
      rewrite between_ex1, zK_zsgn by (auto; lia). rewrite mixed_a by auto. rewrite <- X, <- Y.
      rewrite (sumN_ext _ n _ (fun q => el4 Iab va q oa q * occK kb q)) by (intros; rewrite D3; reflexivity). ring.
    - (* 1,1 *)
      rewrite Ra, Aa, Rb, Ab. cbn [nth_error bindo]. rewrite Lka in Hoa, Hva. rewrite Lkb in Hob, Hvb.
      rewrite (tget4 n) by auto. cbn [bindo]. f_equal.
      assert (oa <> va) by (intros ->; congruence). assert (ob <> vb) by (intros ->; congruence).
      rewrite !fsign_between by (subst ba bb; rewrite ?ex1_length; lia). subst ba bb.
      rewrite !between_ex1, !zK_zsgn by (auto; lia). rewrite mixed_ab by auto. unfold el4. ring.
    - (* 1,2 *) rewrite M0 by lia. f_equal. ring.
    - rewrite M0 by lia. f_equal. ring.
    - (* 2,0 *)
      rewrite Ra, Aa. rewrite Lka in Loa2, Lva2.
      destruct (double_eval Ia ka oa1 oa2 va1 va2 SIa Sya Lka Loa Lva Loa2 Lva2 Oa1 Oa2 Va1 Va2) as (x & y & s1 & s2 & -> & -> & F1 & F2 & X).
      rewrite <- Ea in F1, F2, X. rewrite F1, F2. cbn [bindo]. f_equal.
      rewrite <- X. rewrite (one_body_zero K n (el2 ha) ba ka) by lia.
      rewrite M0 by lia. subst bb.
      destruct (_ || _); [rewrite sign_product'|rewrite sign_product, xorb_false_r]; ring.
    - rewrite M0 by lia. f_equal. ring.
    - rewrite M0 by lia. f_equal. ring.
    - rewrite M0 by lia. f_equal. ring.
    - (* >=3,0 *)
      rewrite (one_body_zero K n (el2 ha) ba ka), (two_body_zero K n (el4 Ia) ba ka), M0 by lia.
      f_equal. ring.
    - rewrite M0 by lia. f_equal. ring.
    - rewrite M0 by lia. f_equal. ring.
    - rewrite M0 by lia. f_equal. ring.
  Qed.
End Code.

(** *** Adjoints *)
Definition dag (o : op) : op := match o with Cre p => Ann p | Ann p => Cre p end.

Lemma act1_dag o s g t : act1 o s = Some (g, t) -> act1 (dag o) t = Some (g, s).
Proof.
  destruct o as [p|p]; cbn [dag act1].
  - destruct (Nat.ltb p (length s) && negb (occd s p)) eqn:E; [|discriminate].
    apply andb_true_iff in E as [L O]. apply negb_true_iff in O. intros X. injection X as <- <-.
    rewrite occd_put, Nat.eqb_refl, L. cbn [andb].
    rewrite odd_below_put, Nat.ltb_irrefl. cbn [andb]. rewrite put_put, <- O, put_same. reflexivity.
  - destruct (occd s p) eqn:O; [|discriminate]. intros X. injection X as <- <-.
    assert (L := occd_lt _ _ O). apply Nat.ltb_lt in L. rewrite put_length, L.
    rewrite occd_put, Nat.eqb_refl, L. cbn [andb negb].
    rewrite odd_below_put, Nat.ltb_irrefl. cbn [andb]. rewrite put_put, <- O, put_same. reflexivity.
Qed.
Lemma act_dag ops : forall s g t, act ops s = Some (g, t) -> act (map dag (rev ops)) t = Some (g, s).
Proof.
  induction ops as [|o ops IH]; intros s g t E.
  - cbn in E. injection E as <- <-. reflexivity.
  - rewrite act_cons in E. destruct (act ops s) as [[h u]|] eqn:F; [|discriminate]. cbn [bindop] in E.
    destruct (act1 o u) as [[h' w]|] eqn:G; [|discriminate]. injection E as <- <-.
    cbn [rev]. rewrite map_app, act_app. cbn [map].
    rewrite act_cons. cbn [act bindop]. rewrite (act1_dag _ _ _ _ G). cbn [bindop].
    rewrite (IH _ _ _ F). destruct h', h; reflexivity.
Qed.
Lemma dag_dag o : dag (dag o) = o.
Proof. destruct o; reflexivity. Qed.
Lemma dagger_dagger ops : map dag (rev (map dag (rev ops))) = ops.
Proof.
  rewrite <- map_rev, rev_involutive, map_map.
  rewrite (map_ext _ (fun o => o)) by apply dag_dag. apply map_id.
Qed.

Section Hermitian.
  Variable K : cring.
  Local Open Scope K_scope.
  Add Ring KrH : (c_th K).

  Lemma braket_dag bra ops ket : braket (K:=K) bra ops ket = braket ket (map dag (rev ops)) bra.
  Proof.
    unfold braket. destruct (act ops ket) as [[g t]|] eqn:E.
    - destruct (det_eqb t bra) eqn:D.
      + apply det_eqb_eq in D. subst t. rewrite (act_dag _ _ _ _ E), det_eqb_refl. reflexivity.
      + destruct (act (map dag (rev ops)) bra) as [[h u]|] eqn:F; [|reflexivity].
        destruct (det_eqb u ket) eqn:D'; [|reflexivity]. exfalso. apply det_eqb_eq in D'. subst u.
        apply act_dag in F. rewrite dagger_dagger, E in F. injection F as _ ->.
        rewrite det_eqb_refl in D. discriminate.
    - destruct (act (map dag (rev ops)) bra) as [[h u]|] eqn:F; [|reflexivity].
      destruct (det_eqb u ket) eqn:D'; [|reflexivity]. exfalso. apply det_eqb_eq in D'. subst u.
      apply act_dag in F. rewrite dagger_dagger, E in F. discriminate.
  Qed.

  Lemma S4_transpose n (F : nat -> nat -> nat -> nat -> K) : S4 n F = S4 n (fun p q r s => F r s p q).
  Proof.
    unfold S4.
    transitivity (sumN n (fun p => sumN n (fun r => sumN n (fun q => sumN n (fun s => F p q r s))))).
    { apply sumN_ext; intros. apply sumN_swap. }
    rewrite sumN_swap.
    transitivity (sumN n (fun r => sumN n (fun p => sumN n (fun s => sumN n (fun q => F p q r s))))).
    { do 2 (apply sumN_ext; intros). apply sumN_swap. }
    apply sumN_ext; intros. apply sumN_swap.
  Qed.

  Lemma H_spatial_sym n c ha hb Ia Ib Iab bra ket :
    (forall p q, p < n -> q < n -> ha p q = ha q p) -> (forall p q, p < n -> q < n -> hb p q = hb q p) ->
    (forall p q r s, p < n -> q < n -> r < n -> s < n -> Ia p q r s = Ia r s p q) ->
    (forall p q r s, p < n -> q < n -> r < n -> s < n -> Ib p q r s = Ib r s p q) ->
    (forall p q r s, p < n -> q < n -> r < n -> s < n -> Iab p q r s = Iab r s p q) ->
    H_spatial (K:=K) n c ha hb Ia Ib Iab bra ket = H_spatial n c ha hb Ia Ib Iab ket bra.
  Proof.
    intros Sa Sb Ssa Ssb Sab. unfold H_spatial.
    f_equal; [f_equal; [f_equal; [f_equal; [f_equal|]|]|]|].
    - f_equal. apply (braket_dag bra [] ket).
    - rewrite sumN_swap. do 2 (apply sumN_ext; intros). rewrite braket_dag, Sa by auto. reflexivity.
    - rewrite sumN_swap. do 2 (apply sumN_ext; intros). rewrite braket_dag, Sb by auto. reflexivity.
    - f_equal. etransitivity; [apply (S4_transpose n (fun p q r s => Ia p q r s * braket bra [Cre p; Cre q; Ann s; Ann r] ket))|].
      unfold S4. do 4 (apply sumN_ext; intros). rewrite braket_dag, Ssa by auto. reflexivity.
    - f_equal. etransitivity; [apply (S4_transpose n (fun p q r s => Ib p q r s * braket bra [Cre (n+p); Cre (n+q); Ann (n+s); Ann (n+r)] ket))|].
      unfold S4. do 4 (apply sumN_ext; intros). rewrite braket_dag, Ssb by auto. reflexivity.
    - etransitivity; [apply (S4_transpose n (fun p q r s => Iab p q r s * braket bra [Cre p; Cre (n+q); Ann (n+s); Ann r] ket))|].
      unfold S4. do 4 (apply sumN_ext; intros). rewrite braket_dag, Sab by auto. reflexivity.
  Qed.

  Lemma H_spin_orbital_sym n c h V bra ket :
    (forall p q, p < n -> q < n -> h p q = h q p) ->
    (forall p q r s, p < n -> q < n -> r < n -> s < n -> V p q r s = V r s p q) ->
    H_spin_orbital (K:=K) n c h V bra ket = H_spin_orbital n c h V ket bra.
  Proof.
    intros Sa Ss. unfold H_spin_orbital, H1, H2.
    f_equal; [f_equal|].
    - f_equal. apply (braket_dag bra [] ket).
    - rewrite sumN_swap. do 2 (apply sumN_ext; intros). rewrite braket_dag, Sa by auto. reflexivity.
    - f_equal. etransitivity; [apply (S4_transpose n (fun p q r s => V p q r s * braket bra [Cre p; Cre q; Ann s; Ann r] ket))|].
      unfold S4. do 4 (apply sumN_ext; intros). rewrite braket_dag, Ss by auto. reflexivity.
  Qed.

  (** beyond double excitations: no assumption on the integrals *)
  Lemma ci_zero ha hb Ia Ib Iab c ba bb ka kb i j :
    excited i ka ba -> excited j kb bb -> 2 < i + j ->
    ci_matrixel K (dstr ba) (dstr bb) (dstr ka) (dstr kb) ha hb Ia Ib Iab c = Some 0.
  Proof.
    intros (La & _ & Da) (Lb & _ & Db) G. unfold ci_matrixel, diff.
    rewrite !level_ndiff, (ndiff_sym ba ka), (ndiff_sym bb kb), Da, Db by auto.
    assert (HF : forall d, (Z.of_nat (2 * d) / 2)%Z = Z.of_nat d).
    { intros d. rewrite Nat2Z.inj_mul. change (Z.of_nat 2) with 2%Z. rewrite Z.mul_comm, Z.div_mul; lia. }
    rewrite !HF.
    repeat match goal with
    | |- (if ?x && ?y then _ else _) = _ =>
        let E := fresh in destruct (x && y) eqn:E;
        [exfalso; apply andb_true_iff in E; destruct E as [E1' E2']; apply Z.eqb_eq in E1', E2'; lia|]
    end. reflexivity.
  Qed.
  Lemma gci_zero h V c b k i : excited i k b -> 2 < i ->
    gci_matrixel K (dstr b) (dstr k) h V c = Some 0.
  Proof.
    intros (L & _ & D) G. unfold gci_matrixel, diff.
    rewrite level_ndiff, (ndiff_sym b k), D by auto.
    assert (HF : forall d, (Z.of_nat (2 * d) / 2)%Z = Z.of_nat d).
    { intros d. rewrite Nat2Z.inj_mul. change (Z.of_nat 2) with 2%Z. rewrite Z.mul_comm, Z.div_mul; lia. }
    rewrite HF.
    repeat match goal with
    | |- (if ?x then _ else _) = _ =>
        let E := fresh in destruct x eqn:E; [exfalso; apply Z.eqb_eq in E; lia|]
    end. reflexivity.
  Qed.

  (** gci_matrixel, in terms of the orbitals moved *)
  Lemma moved2_lists ket bra o1 o2 v1 v2 : moved2 ket bra o1 o2 v1 v2 ->
    length bra = length ket /\ nel bra = nel ket /\ removed ket bra = [o1; o2] /\ added ket bra = [v1; v2].
  Proof.
    intros (Lo & Lv & Lv2 & O1 & O2 & V1 & V2 & E).
    assert (Lo2 := occd_lt _ _ O2).
    assert (L : length bra = length ket) by (subst; rewrite !put_length; auto).
    assert (B : forall x, occd bra x = if Nat.eqb x v1 then true else if Nat.eqb x v2 then true
             else if Nat.eqb x o1 || Nat.eqb x o2 then false else occd ket x).
    { intros x. subst bra. rewrite !occd_put, !put_length.
      assert (Nat.ltb v1 (length ket) = true) as -> by (apply Nat.ltb_lt; lia).
      assert (Nat.ltb v2 (length ket) = true) as -> by (apply Nat.ltb_lt; lia).
      assert (Nat.ltb o1 (length ket) = true) as -> by (apply Nat.ltb_lt; lia).
      assert (Nat.ltb o2 (length ket) = true) as -> by (apply Nat.ltb_lt; lia).
      rewrite !andb_true_r. destruct (Nat.eqb x o1), (Nat.eqb x o2); reflexivity. }
    assert (SO : sorted [o1; o2]) by (repeat constructor; auto).
    assert (SV : sorted [v1; v2]) by (repeat constructor; auto).
    assert (R : removed ket bra = [o1; o2]).
    { apply sorted_ext; auto using sorted_removed. intros p. rewrite in_removed, B. cbn [In]. split.
      - intros [A C]. destruct (Nat.eqb_spec p v1); [discriminate|]. destruct (Nat.eqb_spec p v2); [discriminate|].
        destruct (Nat.eqb_spec p o1); [auto|]. destruct (Nat.eqb_spec p o2); [auto|]. cbn in C. congruence.
      - intros [<-|[<-|[]]]; (split; [auto|]).
        + destruct (Nat.eqb_spec o1 v1); [congruence|]. destruct (Nat.eqb_spec o1 v2); [congruence|].
          rewrite Nat.eqb_refl. reflexivity.
        + destruct (Nat.eqb_spec o2 v1); [congruence|]. destruct (Nat.eqb_spec o2 v2); [congruence|].
          rewrite Nat.eqb_refl, orb_true_r. reflexivity. }
    assert (A : added ket bra = [v1; v2]).
    { apply sorted_ext; auto using sorted_added. intros p. rewrite in_added, B by auto. cbn [In]. split.
      - intros [A C]. destruct (Nat.eqb_spec p v1); [auto|]. destruct (Nat.eqb_spec p v2); [auto|].
        destruct (_ || _); congruence.
      - intros [<-|[<-|[]]]; (split; [auto|]).
        + rewrite Nat.eqb_refl. reflexivity.
        + rewrite Nat.eqb_refl. destruct (Nat.eqb v2 v1); reflexivity. }
    split; [auto|]. split; [|auto].
    destruct (count_removed ket bra L) as [C _]. rewrite R, A in C. cbn in C. lia.
  Qed.
  Lemma lists_moved2 ket bra o1 o2 v1 v2 : length bra = length ket -> nel bra = nel ket ->
    removed ket bra = [o1; o2] -> added ket bra = [v1; v2] -> moved2 ket bra o1 o2 v1 v2.
  Proof.
    intros L N R A. destruct (kinds bra ket L N) as (d & _ & _ & Kd).
    inversion Kd as [E|? ? _ _ _ _ R' _ _|? ? ? ? X1 X2 X3 X4 X5 X6 X7 X8 R' A' E|m M]; try congruence.
    - subst. assert (I : In o1 (removed ket ket)) by (rewrite R; left; auto). apply in_removed in I. destruct I; congruence.
    - rewrite R in R'. rewrite A in A'. injection R' as <- <-. injection A' as <- <-.
      unfold moved2. repeat (split; auto).
    - destruct (count_removed ket bra L) as [_ C]. rewrite R, A in C. cbn in C. lia.
  Qed.

  Lemma gci_right n h V c b k : shp h = [n; n] -> shp V = [n; n; n; n] -> symV K n V ->
    length b = n -> length k = n -> nel b = nel k ->
    (forall o1 o2 v1 v2, moved2 k b o1 o2 v1 v2 -> ~ (v2 < o1 \/ o2 < v1)) ->
    gci_matrixel K (dstr b) (dstr k) h V c = Some (H_spin_orbital n 0 (el2 K h) (el4 K V) b k).
  Proof.
    intros Sh SV Sy Lb Lk N X. rewrite (gci_matrixel_spec K n) by auto. f_equal.
    destruct (removed k b) as [|o1 [|o2 [|]]] eqn:R; try reflexivity.
    destruct (added k b) as [|v1 [|v2 [|]]] eqn:A; try reflexivity.
    specialize (X o1 o2 v1 v2 (lists_moved2 k b o1 o2 v1 v2 ltac:(congruence) N R A)).
    destruct (Nat.ltb_spec v2 o1); [lia|]. destruct (Nat.ltb_spec o2 v1); [lia|]. reflexivity.
  Qed.
  Lemma gci_wrong n h V c b k o1 o2 v1 v2 : shp h = [n; n] -> shp V = [n; n; n; n] -> symV K n V ->
    length k = n -> moved2 k b o1 o2 v1 v2 -> v2 < o1 \/ o2 < v1 ->
    gci_matrixel K (dstr b) (dstr k) h V c = Some (- H_spin_orbital n c (el2 K h) (el4 K V) b k).
  Proof.
    intros Sh SV Sy Lk M X. destruct (moved2_lists _ _ _ _ _ _ M) as (L & N & R & A).
    rewrite (gci_matrixel_spec K n) by (auto; congruence). rewrite R, A.
    assert (Nat.ltb v2 o1 || Nat.ltb o2 v1 = true) as ->.
    { apply orb_true_iff. rewrite !Nat.ltb_lt. auto. }
    f_equal. f_equal. unfold H_spin_orbital. rewrite braket_nil. rewrite same_neq; [ring|].
    intros ->. assert (I : In o1 (removed k k)) by (rewrite R; left; auto). apply in_removed in I. destruct I; congruence.
  Qed.
End Hermitian.
