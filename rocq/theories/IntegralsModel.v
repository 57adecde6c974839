(** Model of cqcpy/integrals.py, one definition per Python function.

    The integral engine is PySCF.  Its AO->MO transformation is modelled by its
    contract: for coefficient arrays with one row per atomic orbital it returns
    the four-fold contraction of the AO integrals (mu nu|la si) with the
    coefficients, the first and third of them conjugated.  A molecule is the
    number of atomic orbitals, the AO integrals and the conjugation ([fun x =>
    x] for the real orbitals of a molecule).  The same contract models
    mol_ao2mo.general(mol, ...) and mf.with_df.ao2mo(..., mf.kpt, ...), so the
    functions get_X and get_X_sol, whose texts differ only in that call, share
    a definition.  Exceptions (shape errors) are [None].  The dtype of the
    result arrays (numpy.zeros(..., dtype=o1.dtype)) is not part of this
    file, where scalars are those of the ring; DtypeModel.v models it (C102). *)
From Coq Require Import String Ascii.
From Coq Require Import List Bool Arith ZArith.
From Verif Require Import Scalar Tensor NpModel.
Import ListNotations.

Section IntegralsModel.
  Variable K : cring.
  Notation T := (tensor K).

  Record mol : Type := Mol { nao : nat; eri : list nat -> K; bar : K -> K }.

  (** the contraction of AO integrals [g] over [n] atomic orbitals *)
  Definition contract (n : nat) (g : list nat -> K) (b : K -> K) (o1 o2 o3 o4 : T) (p q r s : nat) : K :=
    sumN n (fun mu => sumN n (fun nu => sumN n (fun la => sumN n (fun si =>
      (b (dat o1 [mu; p]) * dat o2 [nu; q] * (b (dat o3 [la; r]) * dat o4 [si; s]) * g [mu; nu; la; si])%K)))).

  (** pyscf.ao2mo.general(mol, (o1, o2, o3, o4), compact=False) and
      with_df.ao2mo(...), followed by .reshape(n1, n2, n3, n4)
      (integrals.py:12-13, 86-91, 141-142) *)
  Definition transform (n : nat) (g : list nat -> K) (b : K -> K) (o1 o2 o3 o4 : T) : option T :=
    match shp o1, shp o2, shp o3, shp o4 with
    | [a1; n1], [a2; n2], [a3; n3], [a4; n4] =>
        if Nat.eqb a1 n && Nat.eqb a2 n && Nat.eqb a3 n && Nat.eqb a4 n
        then Some (mkT [n1; n2; n3; n4] (fun idx =>
               match idx with [p; q; r; s] => contract n g b o1 o2 o3 o4 p q r s | _ => c0 end))
        else None
    | _, _, _, _ => None
    end.
  Definition ao2mo (m : mol) : T -> T -> T -> T -> option T := transform (nao m) (eri m) (bar m).

  (** o.shape[1] *)
  Definition ncols (o : T) : option nat := match shp o with _ :: n :: _ => Some n | _ => None end.

  (** get_chem, integrals.py:6-19; get_chem_sol, integrals.py:135-148 *)
  Definition get_chem (m : mol) (o1 o2 o3 o4 : T) (anti : bool) : option T :=
    let? Id := ao2mo m o1 o2 o3 o4 in
    if anti then
      let? Ix := ao2mo m o1 o4 o3 o2 in
      let? Ix := ttrans [0; 3; 2; 1] Ix in
      tsub Id Ix
    else Some Id.

  (** get_chem_anti, integrals.py:22-25: the second coefficient argument is not
      passed on *)
  Definition get_chem_anti (m : mol) (o1 o2 o3 o4 : T) : option T := get_chem m o1 o1 o3 o4 true.

  (** get_phys, integrals.py:28-30; get_phys_sol, integrals.py:183-184 *)
  Definition get_phys (m : mol) (o1 o2 o3 o4 : T) (anti : bool) : option T :=
    let? x := get_chem m o1 o3 o2 o4 anti in ttrans [0; 2; 1; 3] x.

  (** get_phys_anti, integrals.py:33-36 *)
  Definition get_phys_anti (m : mol) (o1 o2 o3 o4 : T) : option T := get_phys m o1 o2 o3 o4 true.

  (** get_chemu, integrals.py:39-70; get_chemu_sol, integrals.py:232-263 *)
  Definition get_chemu (m : mol) (o1 o2 o3 o4 p1 p2 p3 p4 : T) (anti : bool) : option T :=
    let? Ia := get_chem m o1 o2 o3 o4 anti in
    let? Ib := get_chem m p1 p2 p3 p4 anti in
    let? Iaabb := get_chem m o1 o2 p3 p4 false in
    let? Ibbaa := get_chem m p1 p2 o3 o4 false in
    let? a1 := ncols o1 in
    let? a2 := ncols o2 in
    let? a3 := ncols o3 in
    let? a4 := ncols o4 in
    let? b1 := ncols p1 in
    let? b2 := ncols p2 in
    let? b3 := ncols p3 in
    let? b4 := ncols p4 in
    let n1 := a1 + b1 in
    let n2 := a2 + b2 in
    let n3 := a3 + b3 in
    let n4 := a4 + b4 in
    let J := tzeros K [n1; n2; n3; n4] in
    let? J := tset [Upto a1; Upto a2; Upto a3; Upto a4] Ia J in
    let? J := tset [From a1; From a2; From a3; From a4] Ib J in
    let? J := tset [Upto a1; Upto a2; From a3; From a4] Iaabb J in
    let? J := tset [From a1; From a2; Upto a3; Upto a4] Ibbaa J in
    if anti then
      let? Iaabbx := get_chem m o1 o4 p3 p2 false in
      let? Ibbaax := get_chem m p1 p4 o3 o2 false in
      let? u := ttrans [0; 3; 2; 1] Iaabbx in
      let? J := tset [Upto a1; From a2; From a3; Upto a4] (tneg u) J in
      let? u := ttrans [0; 3; 2; 1] Ibbaax in
      tset [From a1; Upto a2; Upto a3; From a4] (tneg u) J
    else Some J.

  (** get_chem_antiu, integrals.py:73-77; get_chem_antiu_sol, integrals.py:266-267 *)
  Definition get_chem_antiu (m : mol) (o1 o2 o3 o4 p1 p2 p3 p4 : T) : option T :=
    get_chemu m o1 o2 o3 o4 p1 p2 p3 p4 true.

  (** get_chemu_all, integrals.py:80-102; get_chemu_all_sol, integrals.py:278-299 *)
  Definition get_chemu_all (m : mol) (oa ob : T) (anti : bool) : option T :=
    let? na := ncols oa in
    let? nb := ncols ob in
    let n := na + nb in
    let? Ia := ao2mo m oa oa oa oa in
    let? Ib := ao2mo m ob ob ob ob in
    let? Iab := ao2mo m oa oa ob ob in
    let Id := tzeros K [n; n; n; n] in
    let? Id := tset [Upto na; Upto na; Upto na; Upto na] Ia Id in
    let? Id := tset [From na; From na; From na; From na] Ib Id in
    let? Id := tset [Upto na; Upto na; From na; From na] Iab Id in
    let? u := ttrans [2; 3; 0; 1] Iab in
    let? Id := tset [From na; From na; Upto na; Upto na] u Id in
    if anti then let? x := ttrans [0; 3; 2; 1] Id in tsub Id x else Some Id.

  (** get_chem_antiu_all, integrals.py:105-109 *)
  Definition get_chem_antiu_all (m : mol) (oa ob : T) : option T := get_chemu_all m oa ob true.

  (** get_physu_all, integrals.py:112-117; get_physu_all_sol, integrals.py:302-303 *)
  Definition get_physu_all (m : mol) (oa ob : T) (anti : bool) : option T :=
    let? x := get_chemu_all m oa ob anti in ttrans [0; 2; 1; 3] x.

  (** get_phys_antiu_all, integrals.py:120-124 *)
  Definition get_phys_antiu_all (m : mol) (oa ob : T) : option T := get_physu_all m oa ob true.

  (** get_phys_antiu, integrals.py:127-132; get_phys_antiu_sol, integrals.py:270-275 *)
  Definition get_phys_antiu (m : mol) (o1 o2 o3 o4 p1 p2 p3 p4 : T) : option T :=
    let? x := get_chem_antiu m o1 o3 o2 o4 p1 p3 p2 p4 in ttrans [0; 2; 1; 3] x.

  (** *** Mean-field objects *)
  (** mf.mo_occ and mf.mo_coeff of a restricted (mo_occ.ndim = 1) or
      unrestricted (mo_occ.ndim = 2) calculation.  Occupations are only
      compared with zero, so they are integers here. *)
  Inductive scf : Type :=
  | Rscf (occ : list Z) (mo : T)
  | Uscf (occa occb : list Z) (moa mob : T).

  (** get_physu_all_gen, integrals.py:306-328 *)
  Definition get_physu_all_gen (m : mol) (mf : scf) (anti : bool) : option T :=
    match mf with
    | Rscf _ mo => get_physu_all m mo mo anti
    | Uscf _ _ moa mob => get_physu_all m moa mob anti
    end.

  (** get_phys_antiu_all_gen, integrals.py:331-335 *)
  Definition get_phys_antiu_all_gen (m : mol) (mf : scf) : option T := get_physu_all_gen m mf true.

  (** get_phys_gen, integrals.py:338-344 *)
  Definition get_phys_gen (m : mol) (mo1 mo2 mo3 mo4 : T) (anti : bool) : option T :=
    get_phys m mo1 mo2 mo3 mo4 anti.

  (** the positions at which a mask holds *)
  Definition where_ (f : Z -> bool) (occ : list Z) : list nat :=
    filter (fun i => f (nth i occ 0%Z)) (seq 0 (length occ)).
  (** c[:, mask]: the mask must have one entry per column *)
  Definition columns (f : Z -> bool) (occ : list Z) (c : T) : option T :=
    match shp c with
    | [a; n] => if Nat.eqb n (length occ)
                then Some (mkT [a; length (where_ f occ)] (fun idx =>
                       match idx with [mu; j] => dat c [mu; nth j (where_ f occ) 0] | _ => c0 end))
                else None
    | _ => None
    end.

  (** eri_blocks: an attribute that is not set is [None] *)
  Record eriB : Type := EriB {
    e_vvvv : option T; e_vvvo : option T; e_vovv : option T; e_vvoo : option T; e_vovo : option T;
    e_oovv : option T; e_vooo : option T; e_ooov : option T; e_oooo : option T }.

  Definition attr (has : bool) (v : option T) : option (option T) :=
    if has then let? x := v in Some (Some x) else Some None.

  (** eri_blocks._build_integrals_mol, _build_integrals_sol, integrals.py:406-444 *)
  Definition build_integrals (m : mol) (code : nat) (oa ob va vb : T) : option eriB :=
    let has k := Nat.eqb code k || Nat.eqb code 0 in
    let? vvvv := attr (has 1) (get_phys_antiu m va va va va vb vb vb vb) in
    let? vvvo := attr (has 2) (get_phys_antiu m va va va oa vb vb vb ob) in
    let? vovv := attr (has 3) (get_phys_antiu m va oa va va vb ob vb vb) in
    let? vvoo := attr (has 4) (get_phys_antiu m va va oa oa vb vb ob ob) in
    let? vovo := attr (has 5) (get_phys_antiu m va oa va oa vb ob vb ob) in
    let? oovv := attr (has 6) (get_phys_antiu m oa oa va va ob ob vb vb) in
    let? vooo := attr (has 7) (get_phys_antiu m va oa oa oa vb ob ob ob) in
    let? ooov := attr (has 8) (get_phys_antiu m oa oa oa va ob ob ob vb) in
    let? oooo := attr (has 9) (get_phys_antiu m oa oa oa oa ob ob ob ob) in
    Some (EriB vvvv vvvo vovv vvoo vovo oovv vooo ooov oooo).

  Definition occupied (n : Z) : bool := Z.ltb 0 n.
  Definition virtual (n : Z) : bool := Z.eqb n 0.

  (** eri_blocks.__init__, integrals.py:356-404 *)
  Definition eri_blocks (m : mol) (mf : scf) (code : nat) : option eriB :=
    match mf with
    | Rscf occ mo =>
        let? o := columns occupied occ mo in
        let? v := columns virtual occ mo in
        build_integrals m code o o v v
    | Uscf occa occb moa mob =>
        let? oa := columns occupied occa moa in
        let? va := columns virtual occa moa in
        let? ob := columns occupied occb mob in
        let? vb := columns virtual occb mob in
        build_integrals m code oa ob va vb
    end.

  (** *** k-point integrals *)
  (** A k-point mean field: the number of k-points, the AO integrals for each
      quadruple of k-points, the conjugation, the momentum conservation table
      kconserv[k1, k2, k3] of PySCF's KptsHelper, the core Hamiltonian and the
      orbitals at each k-point, and whether it is a restricted one. *)
  Record kscf : Type := KScf {
    k_rhf : bool; k_nao : nat; k_n : nat; k_eri : nat -> nat -> nat -> nat -> list nat -> K;
    k_bar : K -> K; kconserv : nat -> nat -> nat -> nat; k_hcore : nat -> T; k_coeff : list T;
    k_nmo : nat (* len(mo_occ[0]) *) }.

  Definition kao2mo (f : kscf) (k1 k2 k3 k4 : nat) : T -> T -> T -> T -> option T :=
    transform (k_nao f) (k_eri f k1 k2 k3 k4) (k_bar f).

  (** get_chem_solk, integrals.py:151-180; each k of [kpt] must be below the
      number of k-points (kpts[k], kconserv[k1, k2, k3]) *)
  Definition get_chem_solk (f : kscf) (kpt : nat * nat * nat * nat) (o1 o2 o3 o4 : T) (anti : bool) : option T :=
    let '(k1, k2, k3, k4) := kpt in
    if negb (Nat.ltb k1 (k_n f) && Nat.ltb k2 (k_n f) && Nat.ltb k3 (k_n f)) then None else
    let k4test := kconserv f k1 k2 k3 in
    let? n1 := ncols o1 in
    let? n2 := ncols o2 in
    let? n3 := ncols o3 in
    let? n4 := ncols o4 in
    if negb (Nat.eqb k4 k4test) then Some (tzeros K [n1; n2; n3; n4])
    else if negb (Nat.ltb k4 (k_n f)) then None
    else
      let? Id := kao2mo f k1 k2 k3 k4 o1 o2 o3 o4 in
      if anti then
        let? Ix := kao2mo f k1 k4 k3 k2 o1 o4 o3 o2 in
        let? Ix := ttrans [0; 3; 2; 1] Ix in
        tsub Id Ix
      else Some Id.

  (** get_phys_solk, integrals.py:187-192 *)
  Definition get_phys_solk (f : kscf) (kpt : nat * nat * nat * nat) (o1 o2 o3 o4 : T) (anti : bool) : option T :=
    let '(k1, k2, k3, k4) := kpt in
    let? x := get_chem_solk f (k1, k3, k2, k4) o1 o3 o2 o4 anti in ttrans [0; 2; 1; 3] x.

  (** numpy.dot of two matrices *)
  Definition matmul (A B : T) : option T :=
    match shp A, shp B with
    | [n; k], [k'; l] =>
        if Nat.eqb k k' then Some (mkT [n; l] (fun idx =>
          match idx with [i; j] => sumN k (fun x => (dat A [i; x] * dat B [x; j])%K) | _ => c0 end))
        else None
    | _, _ => None
    end.
  (** mo.T.conj() *)
  Definition dagger (b : K -> K) (c : T) : option T :=
    match shp c with
    | [n; k] => Some (mkT [k; n] (fun idx => match idx with [i; j] => b (dat c [j; i]) | _ => c0 end))
    | _ => None
    end.

  Fixpoint all_some {A} (l : list (option A)) : option (list A) :=
    match l with
    | [] => Some []
    | x :: l' => let? y := x in let? r := all_some l' in Some (y :: r)
    end.

  (** eriorder[0].lower() == 'c' *)
  Definition is_chem (eriorder : string) : option bool :=
    match eriorder with
    | EmptyString => None
    | String a _ => Some (Ascii.eqb a "c"%char || Ascii.eqb a "C"%char)
    end.

  Definition k_h1 (f : kscf) (k : nat) : option T :=
    let? mo := nth_error (k_coeff f) k in
    let? d := dagger (k_bar f) mo in
    let? x := matmul d (k_hcore f k) in
    matmul x mo.
  Definition k_h2 (f : kscf) (chem : bool) (kp kq kr : nat) : option T :=
    let ks := if chem then kconserv f kp kq kr else kconserv f kp kr kq in
    let? mop := nth_error (k_coeff f) kp in
    let? moq := nth_error (k_coeff f) kq in
    let? mor := nth_error (k_coeff f) kr in
    let? mos := nth_error (k_coeff f) ks in
    let? u := if chem then get_chem_solk f (kp, kq, kr, ks) mop moq mor mos false
              else get_phys_solk f (kp, kq, kr, ks) mop moq mor mos false in
    if shape_eqb (shp u) [k_nmo f; k_nmo f; k_nmo f; k_nmo f] then Some u else None.

  (** a list of arrays of one shape as one array with a further first axis *)
  Definition stack (sh : list nat) (l : list T) : T :=
    mkT (length l :: sh) (fun idx => match idx with k :: r => dat (nth k l (tzeros K sh)) r | [] => c0 end).

  (** get_solk_integrals, integrals.py:195-229.  The loop that fills
      h2[kp, kq, kr] for all kp, kq, kr is a table of its blocks. *)
  Definition get_solk_integrals (f : kscf) (eriorder : string) : option (T * T) :=
    if negb (k_rhf f) then None else
    let? h1s := all_some (map (k_h1 f) (seq 0 (length (k_coeff f)))) in
    let? chem := is_chem eriorder in
    if negb (forallb (fun mo => match shp mo with [_; n] => Nat.eqb n (k_nmo f) | _ => false end) (k_coeff f))
    then None else
    let nk := k_n f in
    let nmo := k_nmo f in
    let? h2s := all_some (map (fun kp => all_some (map (fun kq => all_some (map (fun kr =>
                  k_h2 f chem kp kq kr) (seq 0 nk))) (seq 0 nk))) (seq 0 nk)) in
    let s4 := [nmo; nmo; nmo; nmo] in
    Some (stack [nmo; nmo] h1s,
          stack (nk :: nk :: s4) (map (fun x => stack (nk :: s4) (map (stack s4) x)) h2s)).
End IntegralsModel.
Arguments nao {K}. Arguments eri {K}. Arguments bar {K}. Arguments ncols {K}.
Arguments e_vvvv {K}. Arguments e_vvvo {K}. Arguments e_vovv {K}. Arguments e_vvoo {K}. Arguments e_vovo {K}.
Arguments e_oovv {K}. Arguments e_vooo {K}. Arguments e_ooov {K}. Arguments e_oooo {K}.
Arguments k_rhf {K}. Arguments k_nao {K}. Arguments k_n {K}. Arguments k_eri {K}. Arguments k_bar {K}.
Arguments kconserv {K}. Arguments k_hcore {K}. Arguments k_coeff {K}. Arguments k_nmo {K}.
