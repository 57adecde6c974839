(** Documented argument and result shapes of the public functions of
    cc_equations.py and cc_energy.py.  Specification only. *)
From Coq Require Import List String ZArith.
From Verif Require Import Scalar Tensor PySyntax PySem CCProg CCSpec.
Import ListNotations.
Local Open Scope string_scope.

(** Orbital spaces: o, v for spin-orbital (or restricted) occupied and
    virtual, or alpha occupied and virtual; O, V for beta. *)
Inductive space : Type := so | sv | sO | sV.

Inductive shape : Type :=
| SNum
| SArr (l : list space)
| STup (l : list shape)
| SObj (l : list (string * shape)).

(** A value has a shape, given the number of orbitals of each space. *)
Inductive fits {K : cring} (n : space -> nat) : pyval K -> shape -> Prop :=
| fit_num x : fits n (numv x) SNum
| fit_arr t l : shp t = map n l -> fits n (arr t) (SArr l)
| fit_tup vs l : Forall2 (fits n) vs l -> fits n (XTup vs) (STup l)
| fit_obj vs l : Forall2 (fun v s => fst v = fst s /\ fits n (snd v) (snd s)) vs l ->
    fits n (XObj vs) (SObj l).

Definition fock (o v : space) : shape :=
  SObj [("oo", SArr [o; o]); ("ov", SArr [o; v]); ("vo", SArr [v; o]); ("vv", SArr [v; v])].
Definition eri9 (o v : space) : shape :=
  SObj [("vvvv", SArr [v; v; v; v]); ("vvvo", SArr [v; v; v; o]); ("vovv", SArr [v; o; v; v]);
        ("vvoo", SArr [v; v; o; o]); ("vovo", SArr [v; o; v; o]); ("oovv", SArr [o; o; v; v]);
        ("vooo", SArr [v; o; o; o]); ("ooov", SArr [o; o; o; v]); ("oooo", SArr [o; o; o; o])].
(** all sixteen blocks (two_e_blocks_full), first particle in (o, v), second
    in (O, V) *)
Definition eri16 (o v O V : space) : shape :=
  SObj [("vvvv", SArr [v; V; v; V]); ("vvvo", SArr [v; V; v; O]); ("vvov", SArr [v; V; o; V]);
        ("vovv", SArr [v; O; v; V]); ("ovvv", SArr [o; V; v; V]); ("vvoo", SArr [v; V; o; O]);
        ("vovo", SArr [v; O; v; O]); ("voov", SArr [v; O; o; V]); ("ovvo", SArr [o; V; v; O]);
        ("ovov", SArr [o; V; o; V]); ("oovv", SArr [o; O; v; V]); ("ooov", SArr [o; O; o; V]);
        ("oovo", SArr [o; O; v; O]); ("ovoo", SArr [o; V; o; O]); ("vooo", SArr [v; O; o; O]);
        ("oooo", SArr [o; O; o; O])].
Definition t1s (o v : space) : shape := SArr [v; o].
Definition t2s (o v O V : space) : shape := SArr [v; V; o; O].
Definition l1s (o v : space) : shape := SArr [o; v].
Definition l2s (o v O V : space) : shape := SArr [o; O; v; V].

Definition F_ := fock so sv.
Definition I_ := eri9 so sv.
Definition T1_ := t1s so sv.
Definition T2_ := t2s so sv so sv.
Definition L1_ := l1s so sv.
Definition L2_ := l2s so sv so sv.
Definition Fb_ := fock sO sV.
Definition Ib_ := eri9 sO sV.
Definition Iab_ := eri16 so sv sO sV.
Definition Ir_ := eri16 so sv so sv.
Definition T1b_ := t1s sO sV.
Definition T2ab_ := t2s so sv sO sV.
Definition T2bb_ := t2s sO sV sO sV.
Definition L1b_ := l1s sO sV.
Definition L2ab_ := l2s so sv sO sV.
Definition L2bb_ := l2s sO sV sO sV.
Definition uT1 := STup [T1_; T1b_].
Definition uT2 := STup [T2_; T2ab_; T2bb_].
Definition uL1 := STup [L1_; L1b_].
Definition uL2 := STup [L2_; L2ab_; L2bb_].
Definition rdm_args := [T1_; T2_; L1_; L2_].
Definition urdm_args := [T1_; T1b_; T2_; T2ab_; T2bb_; L1_; L1b_; L2_; L2ab_; L2bb_].

(** attributes of a lambda_int object, in the order in which its constructor
    sets them, cc_equations.py:1044-1091 *)
Definition int_ : shape :=
  SObj [("IooovT", SArr [so; so; so; sv]); ("IvovvT", SArr [sv; so; sv; sv]);
        ("IovT", SArr [so; sv]); ("IToo", SArr [so; so]); ("ITvv", SArr [sv; sv]);
        ("ITvovo", SArr [sv; so; sv; so]); ("IToovv", SArr [so; so; sv; sv]);
        ("ITvooo", SArr [sv; so; so; so]); ("ITvvvo", SArr [sv; sv; sv; so]);
        ("ITov", SArr [so; sv]); ("ITvovv", SArr [sv; so; sv; sv]);
        ("ITooov", SArr [so; so; so; sv]); ("ITvovo2", SArr [sv; so; sv; so]);
        ("ITvvvv", SArr [sv; sv; sv; sv]); ("IToooo", SArr [so; so; so; so]);
        ("IToovv2", SArr [so; so; sv; sv])].

(** function, argument shapes, result shape; a function with an optional
    argument is listed with and without it *)
Definition public_functions : list (string * list shape * shape) :=
  [ ("lccd_simple", [F_; I_; T2_], T2_);
    ("lccsd_simple", [F_; I_; T1_; T2_], STup [T1_; T2_]);
    ("ccd_simple", [F_; I_; T2_], T2_);
    ("ccd_ladder_simple", [I_; T2_], T2_);
    ("ccd_ring_simple", [I_; T2_], T2_);
    ("ccsd_simple", [F_; I_; T1_; T2_], STup [T1_; T2_]);
    ("ccsd_stanton", [F_; I_; T1_; T2_], STup [T1_; T2_]);
    ("uccsd_stanton", [F_; Fb_; I_; Ib_; Iab_; uT1; uT2], STup [uT1; uT2]);
    ("rccsd_stanton", [F_; Ir_; T1_; T2_], STup [T1_; T2_]);
    ("ccd_stanton", [F_; I_; T2_], T2_);
    ("ccd_lambda_simple", [F_; I_; L2_; T2_], L2_);
    ("ccsd_lambda_opt", [F_; I_; L1_; L2_; T1_; T2_], STup [L1_; L2_]);
    ("lambda_int", [F_; I_; T1_; T2_], int_);
    ("ccsd_lambda_opt_int", [F_; I_; L1_; L2_; T1_; T2_; int_], STup [L1_; L2_]);
    ("ccsd_lambda_stanton", [F_; I_; L1_; L2_; T1_; T2_], STup [L1_; L2_]);
    ("uccsd_lambda_opt", [F_; Fb_; I_; Ib_; Iab_; uL1; uL2; uT1; uT2], STup [uL1; uL2]);
    ("rccsd_lambda_opt", [F_; Ir_; L1_; L2_; T1_; T2_], STup [L1_; L2_]);
    ("ccsd_lambda_simple", [F_; I_; L1_; L2_; T1_; T2_], STup [L1_; L2_]);
    ("ccsd_1rdm_ba", rdm_args, SArr [sv; sv]);
    ("ccsd_1rdm_ji", rdm_args, SArr [so; so]);
    ("ccsd_1rdm_ai", rdm_args, SArr [sv; so]);
    ("ccsd_1rdm_ai", (rdm_args ++ [SNum])%list, SArr [sv; so]);
    ("ccsd_2rdm_cdab", rdm_args, SArr [sv; sv; sv; sv]);
    ("ccsd_2rdm_ciab", rdm_args, SArr [sv; so; sv; sv]);
    ("ccsd_2rdm_bcai", rdm_args, SArr [sv; sv; sv; so]);
    ("ccsd_2rdm_bjai", rdm_args, SArr [sv; so; sv; so]);
    ("ccsd_2rdm_abij", rdm_args, SArr [sv; sv; so; so]);
    ("ccsd_2rdm_abij", (rdm_args ++ [SNum])%list, SArr [sv; sv; so; so]);
    ("ccsd_2rdm_jkai", rdm_args, SArr [so; so; sv; so]);
    ("ccsd_2rdm_kaij", rdm_args, SArr [so; sv; so; so]);
    ("ccsd_2rdm_klij", rdm_args, SArr [so; so; so; so]);
    ("ccsd_1rdm_ba_opt", rdm_args, SArr [sv; sv]);
    ("ccsd_1rdm_ji_opt", rdm_args, SArr [so; so]);
    ("ccsd_2rdm_ciab_opt", rdm_args, SArr [sv; so; sv; sv]);
    ("ccsd_2rdm_jkai_opt", rdm_args, SArr [so; so; sv; so]);
    ("ccsd_1rdm_ai_opt", rdm_args, SArr [sv; so]);
    ("ccsd_1rdm_ai_opt", (rdm_args ++ [SNum])%list, SArr [sv; so]);
    ("ccsd_2rdm_cdab_opt", rdm_args, SArr [sv; sv; sv; sv]);
    ("ccsd_2rdm_bcai_opt", rdm_args, SArr [sv; sv; sv; so]);
    ("ccsd_2rdm_bjai_opt", rdm_args, SArr [sv; so; sv; so]);
    ("ccsd_2rdm_abij_opt", rdm_args, SArr [sv; sv; so; so]);
    ("ccsd_2rdm_abij_opt", (rdm_args ++ [SNum])%list, SArr [sv; sv; so; so]);
    ("ccsd_2rdm_kaij_opt", rdm_args, SArr [so; sv; so; so]);
    ("ccsd_2rdm_klij_opt", rdm_args, SArr [so; so; so; so]);
    ("uccsd_1rdm_ba", urdm_args, STup [SArr [sv; sv]; SArr [sV; sV]]);
    ("uccsd_1rdm_ji", urdm_args, STup [SArr [so; so]; SArr [sO; sO]]);
    ("uccsd_1rdm_ai", urdm_args, STup [SArr [sv; so]; SArr [sV; sO]]);
    ("uccsd_1rdm_ai", (urdm_args ++ [SNum])%list, STup [SArr [sv; so]; SArr [sV; sO]]);
    ("rccsd_1rdm_ba", rdm_args, SArr [sv; sv]);
    ("rccsd_1rdm_ba", (rdm_args ++ [SNum])%list, SArr [sv; sv]);
    ("rccsd_1rdm_ji", rdm_args, SArr [so; so]);
    ("rccsd_1rdm_ji", (rdm_args ++ [SNum])%list, SArr [so; so]);
    ("rccsd_1rdm_ai", rdm_args, SArr [sv; so]);
    ("rccsd_1rdm_ai", (rdm_args ++ [SNum])%list, SArr [sv; so]);
    ("uccsd_2rdm_ciab", urdm_args,
       STup [SArr [sv; so; sv; sv]; SArr [sV; sO; sV; sV]; SArr [sv; sO; sv; sV];
             SArr [sV; so; sV; sv]]);
    ("uccsd_2rdm_jkai", urdm_args,
       STup [SArr [so; so; sv; so]; SArr [sO; sO; sV; sO]; SArr [so; sO; sv; sO];
             SArr [sO; so; sV; so]]);
    ("uccsd_2rdm_cdab", urdm_args,
       STup [SArr [sv; sv; sv; sv]; SArr [sV; sV; sV; sV]; SArr [sv; sV; sv; sV]]);
    ("uccsd_2rdm_bjai", urdm_args,
       STup [SArr [sv; so; sv; so]; SArr [sV; sO; sV; sO]; SArr [sv; sO; sv; sO];
             SArr [sv; sO; sV; so]; SArr [sV; so; sv; sO]; SArr [sV; so; sV; so]]);
    ("uccsd_2rdm_klij", urdm_args,
       STup [SArr [so; so; so; so]; SArr [sO; sO; sO; sO]; SArr [so; sO; so; sO]]);
    ("uccsd_2rdm_bcai", urdm_args,
       STup [SArr [sv; sv; sv; so]; SArr [sV; sV; sV; sO]; SArr [sv; sV; sv; sO];
             SArr [sV; sv; sV; so]]);
    ("uccsd_2rdm_kaij", urdm_args,
       STup [SArr [so; sv; so; so]; SArr [sO; sV; sO; sO]; SArr [so; sV; so; sO];
             SArr [sO; sv; sO; so]]);
    ("uccsd_2rdm_abij", urdm_args,
       STup [SArr [sv; sv; so; so]; SArr [sV; sV; sO; sO]; SArr [sv; sV; so; sO]]);
    ("uccsd_2rdm_abij", (urdm_args ++ [SNum])%list,
       STup [SArr [sv; sv; so; so]; SArr [sV; sV; sO; sO]; SArr [sv; sV; so; sO]]);
    ("rccsd_2rdm_ciab", rdm_args, SArr [sv; so; sv; sv]);
    ("rccsd_2rdm_jkai", rdm_args, SArr [so; so; sv; so]);
    ("rccsd_2rdm_cdab", rdm_args, SArr [sv; sv; sv; sv]);
    ("rccsd_2rdm_bjai", rdm_args, SArr [sv; so; sv; so]);
    ("rccsd_2rdm_bjia", rdm_args, SArr [sv; so; so; sv]);
    ("rccsd_2rdm_klij", rdm_args, SArr [so; so; so; so]);
    ("rccsd_2rdm_bcai", rdm_args, SArr [sv; sv; sv; so]);
    ("rccsd_2rdm_kaij", rdm_args, SArr [so; sv; so; so]);
    ("rccsd_2rdm_abij", rdm_args, SArr [sv; sv; so; so]);
    ("cc_energy_d", [T2_; SArr [so; so; sv; sv]], SNum);
    ("cc_energy_s1", [T1_; SArr [so; sv]], SNum);
    ("cc_energy_s2", [T1_; SArr [so; so; sv; sv]], SNum);
    ("cc_energy_s2_a", [T1_; T1_; SArr [so; so; sv; sv]], SNum);
    ("cc_energy", [T1_; T2_; SArr [so; sv]; SArr [so; so; sv; sv]], SNum);
    ("mp2_energy", [T1_; T2_; SArr [so; sv]; SArr [so; so; sv; sv]], SNum);
    ("ucc_energy", [uT1; uT2; SArr [so; sv]; SArr [sO; sV]; SArr [so; so; sv; sv];
                    SArr [sO; sO; sV; sV]; SArr [so; sO; sv; sV]], SNum);
    ("rcc_energy", [T1_; T2_; SArr [so; sv]; SArr [so; so; sv; sv]], SNum);
    ("ump2_energy", [uT1; uT2; SArr [so; sv]; SArr [sO; sV]; SArr [so; so; sv; sv];
                     SArr [sO; sO; sV; sV]; SArr [so; sO; sv; sV]], SNum) ].
