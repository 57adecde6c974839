(** Generated by tools/py2coq.py from cqcpy/cc_energy.py and
    cqcpy/cc_equations.py; do not edit.  One definition per Python function,
    statement by statement.  [self.x] in the constructor of lambda_int is a
    variable of that name and the constructor returns the object.  dtype
    conversions are copies. *)
From Coq Require Import List String ZArith.
From Verif Require Import PySyntax.
Import ListNotations.
Local Open Scope string_scope.

(** cqcpy/cc_energy.py, lines 9-12 *)
Definition py_cc_energy_d : fundef :=
  FunDef ["t2"; "eri"] []
  [ SAssign (PVar "Ed") (EMul (ENum (1) 2) (EEinsum "abij,ijab->" [(EVar "t2"); (EVar "eri")]));
    SReturn (EVar "Ed") ].

(** cqcpy/cc_energy.py, lines 15-18 *)
Definition py_cc_energy_s1 : fundef :=
  FunDef ["t1"; "f"] []
  [ SAssign (PVar "Es1") (EEinsum "ai,ia->" [(EVar "t1"); (EVar "f")]);
    SReturn (EVar "Es1") ].

(** cqcpy/cc_energy.py, lines 21-24 *)
Definition py_cc_energy_s2 : fundef :=
  FunDef ["t1"; "eri"] []
  [ SAssign (PVar "Es2") (EEinsum "ai,bj,ijab->" [(EVar "t1"); (EVar "t1"); (EVar "eri")]);
    SReturn (EVar "Es2") ].

(** cqcpy/cc_energy.py, lines 27-29 *)
Definition py_cc_energy_s2_a : fundef :=
  FunDef ["t11"; "t12"; "eri"] []
  [ SAssign (PVar "Es2") (EEinsum "ai,bj,ijab->" [(EVar "t11"); (EVar "t12"); (EVar "eri")]);
    SReturn (EVar "Es2") ].

(** cqcpy/cc_energy.py, lines 32-37 *)
Definition py_cc_energy : fundef :=
  FunDef ["t1"; "t2"; "f"; "eri"] []
  [ SCall (Some (PVar "Ed")) "cc_energy_d" [(EVar "t2"); (EVar "eri")];
    SCall (Some (PVar "Es1")) "cc_energy_s1" [(EVar "t1"); (EVar "f")];
    SCall (Some (PVar "Es2")) "cc_energy_s2" [(EVar "t1"); (EVar "eri")];
    SReturn (EAdd (EAdd (EVar "Ed") (EVar "Es1")) (EMul (ENum (1) 1) (EVar "Es2"))) ].

(** cqcpy/cc_energy.py, lines 40-44 *)
Definition py_mp2_energy : fundef :=
  FunDef ["t1"; "t2"; "f"; "eri"] []
  [ SCall (Some (PVar "Ed")) "cc_energy_d" [(EVar "t2"); (EVar "eri")];
    SCall (Some (PVar "Es1")) "cc_energy_s1" [(EVar "t1"); (EVar "f")];
    SReturn (EAdd (EVar "Ed") (EVar "Es1")) ].

(** cqcpy/cc_energy.py, lines 47-58 *)
Definition py_ucc_energy : fundef :=
  FunDef ["t1"; "t2"; "fa"; "fb"; "Ia"; "Ib"; "Iabab"] []
  [ SAssign (PTup [(PVar "t1a"); (PVar "t1b")]) (EVar "t1");
    SAssign (PTup [(PVar "t2aa"); (PVar "t2ab"); (PVar "t2bb")]) (EVar "t2");
    SAssign (PVar "tauaa") (EAdd (EVar "t2aa") (EMul (ENum (2) 0) (EEinsum "ai,bj->abij" [(EVar "t1a"); (EVar "t1a")])));
    SAssign (PVar "taubb") (EAdd (EVar "t2bb") (EMul (ENum (2) 0) (EEinsum "ai,bj->abij" [(EVar "t1b"); (EVar "t1b")])));
    SAssign (PVar "tauab") (EAdd (EVar "t2ab") (EEinsum "ai,bj->abij" [(EVar "t1a"); (EVar "t1b")]));
    SAssign (PVar "s") (EEinsum "ia,ai->" [(EVar "fa"); (EVar "t1a")]);
    SAugAdd "s" (EEinsum "ia,ai->" [(EVar "fb"); (EVar "t1b")]);
    SAssign (PVar "d") (EMul (ENum (1) 2) (EEinsum "ijab,abij->" [(EVar "Ia"); (EVar "tauaa")]));
    SAugAdd "d" (EMul (ENum (1) 2) (EEinsum "ijab,abij->" [(EVar "Ib"); (EVar "taubb")]));
    SAugAdd "d" (EEinsum "ijab,abij->" [(EVar "Iabab"); (EVar "tauab")]);
    SReturn (EAdd (EVar "d") (EVar "s")) ].

(** cqcpy/cc_energy.py, lines 61-66 *)
Definition py_rcc_energy : fundef :=
  FunDef ["t1"; "t2"; "f"; "I"] []
  [ SAssign (PVar "s") (EMul (ENum (2) 0) (EEinsum "ia,ai->" [(EVar "f"); (EVar "t1")]));
    SAssign (PVar "tau") (EAdd (EVar "t2") (EEinsum "ai,bj->abij" [(EVar "t1"); (EVar "t1")]));
    SAssign (PVar "d") (EMul (ENum (2) 0) (EEinsum "abij,ijab->" [(EVar "tau"); (EVar "I")]));
    SAugSub "d" (EEinsum "abij,ijba->" [(EVar "tau"); (EVar "I")]);
    SReturn (EAdd (EVar "d") (EVar "s")) ].

(** cqcpy/cc_energy.py, lines 69-77 *)
Definition py_ump2_energy : fundef :=
  FunDef ["t1"; "t2"; "fa"; "fb"; "Ia"; "Ib"; "Iabab"] []
  [ SAssign (PTup [(PVar "t1a"); (PVar "t1b")]) (EVar "t1");
    SAssign (PTup [(PVar "t2aa"); (PVar "t2ab"); (PVar "t2bb")]) (EVar "t2");
    SAssign (PVar "s") (EEinsum "ia,ai->" [(EVar "fa"); (EVar "t1a")]);
    SAugAdd "s" (EEinsum "ia,ai->" [(EVar "fb"); (EVar "t1b")]);
    SAssign (PVar "d") (EMul (ENum (1) 2) (EEinsum "ijab,abij->" [(EVar "Ia"); (EVar "t2aa")]));
    SAugAdd "d" (EMul (ENum (1) 2) (EEinsum "ijab,abij->" [(EVar "Ib"); (EVar "t2bb")]));
    SAugAdd "d" (EEinsum "ijab,abij->" [(EVar "Iabab"); (EVar "t2ab")]);
    SReturn (EAdd (EVar "d") (EVar "s")) ].

(** cqcpy/cc_equations.py, lines 9-15 *)
Definition py__S_S : fundef :=
  FunDef ["T1"; "F"; "I"; "T1old"; "fac"] [("fac", ((1)%Z, 0%nat))]
  [ SAugAdd "T1" (EMul (EVar "fac") (EEinsum "ab,bi->ai" [(EAttr (EVar "F") "vv"); (EVar "T1old")]));
    SAugSub "T1" (EMul (EVar "fac") (EEinsum "ji,aj->ai" [(EAttr (EVar "F") "oo"); (EVar "T1old")]));
    SAugSub "T1" (EMul (EVar "fac") (EEinsum "ajbi,bj->ai" [(EAttr (EVar "I") "vovo"); (EVar "T1old")])) ].

(** cqcpy/cc_equations.py, lines 18-24 *)
Definition py__S_D : fundef :=
  FunDef ["T1"; "F"; "I"; "T2old"; "fac"] [("fac", ((1)%Z, 0%nat))]
  [ SAugAdd "T1" (EMul (EVar "fac") (EEinsum "jb,abij->ai" [(EAttr (EVar "F") "ov"); (EVar "T2old")]));
    SAugAdd "T1" (EMul (EMul (EVar "fac") (ENum (1) 1)) (EEinsum "ajbc,bcij->ai" [(EAttr (EVar "I") "vovv"); (EVar "T2old")]));
    SAugSub "T1" (EMul (EMul (EVar "fac") (ENum (1) 1)) (EEinsum "jkib,abjk->ai" [(EAttr (EVar "I") "ooov"); (EVar "T2old")])) ].

(** cqcpy/cc_equations.py, lines 27-33 *)
Definition py__S_SS : fundef :=
  FunDef ["T1"; "F"; "I"; "T1old"; "fac"] [("fac", ((1)%Z, 0%nat))]
  [ SAugSub "T1" (EMul (EVar "fac") (EEinsum "jb,bi,aj->ai" [(EAttr (EVar "F") "ov"); (EVar "T1old"); (EVar "T1old")]));
    SAugSub "T1" (EMul (EVar "fac") (EEinsum "ajbc,bj,ci->ai" [(EAttr (EVar "I") "vovv"); (EVar "T1old"); (EVar "T1old")]));
    SAugAdd "T1" (EMul (EVar "fac") (EEinsum "jkib,bj,ak->ai" [(EAttr (EVar "I") "ooov"); (EVar "T1old"); (EVar "T1old")])) ].

(** cqcpy/cc_equations.py, lines 36-42 *)
Definition py__S_SD : fundef :=
  FunDef ["T1"; "F"; "I"; "T1old"; "T2old"; "fac"] [("fac", ((1)%Z, 0%nat))]
  [ SAugSub "T1" (EMul (EMul (EVar "fac") (ENum (1) 1)) (EEinsum "jkbc,bi,acjk->ai" [(EAttr (EVar "I") "oovv"); (EVar "T1old"); (EVar "T2old")]));
    SAugSub "T1" (EMul (EMul (EVar "fac") (ENum (1) 1)) (EEinsum "jkbc,aj,bcik->ai" [(EAttr (EVar "I") "oovv"); (EVar "T1old"); (EVar "T2old")]));
    SAugAdd "T1" (EMul (EVar "fac") (EEinsum "jkbc,bj,caki->ai" [(EAttr (EVar "I") "oovv"); (EVar "T1old"); (EVar "T2old")])) ].

(** cqcpy/cc_equations.py, lines 45-46 *)
Definition py__S_SSS : fundef :=
  FunDef ["T1"; "F"; "I"; "T1old"; "fac"] [("fac", ((1)%Z, 0%nat))]
  [ SAugAdd "T1" (EMul (EVar "fac") (EEinsum "jkbc,bi,cj,ak->ai" [(EAttr (EVar "I") "oovv"); (EVar "T1old"); (EVar "T1old"); (EVar "T1old")])) ].

(** cqcpy/cc_equations.py, lines 49-55 *)
Definition py__D_S : fundef :=
  FunDef ["T2"; "F"; "I"; "T1old"; "fac"] [("fac", ((1)%Z, 0%nat))]
  [ SAugAdd "T2" (EMul (EVar "fac") (EEinsum "abcj,ci->abij" [(EAttr (EVar "I") "vvvo"); (EVar "T1old")]));
    SAugSub "T2" (EMul (EVar "fac") (EEinsum "abci,cj->abij" [(EAttr (EVar "I") "vvvo"); (EVar "T1old")]));
    SAugAdd "T2" (EMul (EVar "fac") (EEinsum "bkij,ak->abij" [(EAttr (EVar "I") "vooo"); (EVar "T1old")]));
    SAugSub "T2" (EMul (EVar "fac") (EEinsum "akij,bk->abij" [(EAttr (EVar "I") "vooo"); (EVar "T1old")])) ].

(** cqcpy/cc_equations.py, lines 58-73 *)
Definition py__D_D : fundef :=
  FunDef ["T2"; "F"; "I"; "T2old"; "fac"] [("fac", ((1)%Z, 0%nat))]
  [ SAugAdd "T2" (EMul (EVar "fac") (EEinsum "bc,acij->abij" [(EAttr (EVar "F") "vv"); (EVar "T2old")]));
    SAugSub "T2" (EMul (EVar "fac") (EEinsum "ac,bcij->abij" [(EAttr (EVar "F") "vv"); (EVar "T2old")]));
    SAugSub "T2" (EMul (EVar "fac") (EEinsum "kj,abik->abij" [(EAttr (EVar "F") "oo"); (EVar "T2old")]));
    SAugAdd "T2" (EMul (EVar "fac") (EEinsum "ki,abjk->abij" [(EAttr (EVar "F") "oo"); (EVar "T2old")]));
    SAugAdd "T2" (EMul (EMul (EVar "fac") (ENum (1) 1)) (EEinsum "abcd,cdij->abij" [(EAttr (EVar "I") "vvvv"); (EVar "T2old")]));
    SAugAdd "T2" (EMul (EMul (EVar "fac") (ENum (1) 1)) (EEinsum "klij,abkl->abij" [(EAttr (EVar "I") "oooo"); (EVar "T2old")]));
    SAugSub "T2" (EMul (EVar "fac") (EEinsum "bkcj,acik->abij" [(EAttr (EVar "I") "vovo"); (EVar "T2old")]));
    SAugAdd "T2" (EMul (EVar "fac") (EEinsum "akcj,bcik->abij" [(EAttr (EVar "I") "vovo"); (EVar "T2old")]));
    SAugAdd "T2" (EMul (EVar "fac") (EEinsum "bkci,acjk->abij" [(EAttr (EVar "I") "vovo"); (EVar "T2old")]));
    SAugSub "T2" (EMul (EVar "fac") (EEinsum "akci,bcjk->abij" [(EAttr (EVar "I") "vovo"); (EVar "T2old")])) ].

(** cqcpy/cc_equations.py, lines 76-80 *)
Definition py__D_D_ladder : fundef :=
  FunDef ["T2"; "I"; "T2old"; "fac"] [("fac", ((1)%Z, 0%nat))]
  [ SAugAdd "T2" (EMul (EMul (EVar "fac") (ENum (1) 1)) (EEinsum "abcd,cdij->abij" [(EAttr (EVar "I") "vvvv"); (EVar "T2old")]));
    SAugAdd "T2" (EMul (EMul (EVar "fac") (ENum (1) 1)) (EEinsum "klij,abkl->abij" [(EAttr (EVar "I") "oooo"); (EVar "T2old")])) ].

(** cqcpy/cc_equations.py, lines 83-86 *)
Definition py__D_D_ring : fundef :=
  FunDef ["T2"; "I"; "T2old"; "fac"] [("fac", ((1)%Z, 0%nat))]
  [ SAugSub "T2" (EMul (EVar "fac") (EEinsum "bkcj,acik->abij" [(EAttr (EVar "I") "vovo"); (EVar "T2old")]));
    SAugSub "T2" (EMul (EVar "fac") (EEinsum "akci,bcjk->abij" [(EAttr (EVar "I") "vovo"); (EVar "T2old")])) ].

(** cqcpy/cc_equations.py, lines 89-100 *)
Definition py__D_SS : fundef :=
  FunDef ["T2"; "F"; "I"; "T1old"; "fac"] [("fac", ((1)%Z, 0%nat))]
  [ SAugAdd "T2" (EMul (EMul (EVar "fac") (ENum (1) 1)) (EEinsum "abcd,ci,dj->abij" [(EAttr (EVar "I") "vvvv"); (EVar "T1old"); (EVar "T1old")]));
    SAugSub "T2" (EMul (EMul (EVar "fac") (ENum (1) 1)) (EEinsum "abcd,cj,di->abij" [(EAttr (EVar "I") "vvvv"); (EVar "T1old"); (EVar "T1old")]));
    SAugAdd "T2" (EMul (EMul (EVar "fac") (ENum (1) 1)) (EEinsum "klij,ak,bl->abij" [(EAttr (EVar "I") "oooo"); (EVar "T1old"); (EVar "T1old")]));
    SAugSub "T2" (EMul (EMul (EVar "fac") (ENum (1) 1)) (EEinsum "klij,bk,al->abij" [(EAttr (EVar "I") "oooo"); (EVar "T1old"); (EVar "T1old")]));
    SAugSub "T2" (EMul (EVar "fac") (EEinsum "akcj,ci,bk->abij" [(EAttr (EVar "I") "vovo"); (EVar "T1old"); (EVar "T1old")]));
    SAugAdd "T2" (EMul (EVar "fac") (EEinsum "bkcj,ci,ak->abij" [(EAttr (EVar "I") "vovo"); (EVar "T1old"); (EVar "T1old")]));
    SAugAdd "T2" (EMul (EVar "fac") (EEinsum "akci,cj,bk->abij" [(EAttr (EVar "I") "vovo"); (EVar "T1old"); (EVar "T1old")]));
    SAugSub "T2" (EMul (EVar "fac") (EEinsum "bkci,cj,ak->abij" [(EAttr (EVar "I") "vovo"); (EVar "T1old"); (EVar "T1old")])) ].

(** cqcpy/cc_equations.py, lines 103-131 *)
Definition py__D_SD : fundef :=
  FunDef ["T2"; "F"; "I"; "T1old"; "T2old"; "fac"] [("fac", ((1)%Z, 0%nat))]
  [ SAugSub "T2" (EMul (EVar "fac") (EEinsum "kc,ci,abkj->abij" [(EAttr (EVar "F") "ov"); (EVar "T1old"); (EVar "T2old")]));
    SAugAdd "T2" (EMul (EVar "fac") (EEinsum "kc,cj,abki->abij" [(EAttr (EVar "F") "ov"); (EVar "T1old"); (EVar "T2old")]));
    SAugSub "T2" (EMul (EVar "fac") (EEinsum "kc,ak,cbij->abij" [(EAttr (EVar "F") "ov"); (EVar "T1old"); (EVar "T2old")]));
    SAugAdd "T2" (EMul (EVar "fac") (EEinsum "kc,bk,caij->abij" [(EAttr (EVar "F") "ov"); (EVar "T1old"); (EVar "T2old")]));
    SAugSub "T2" (EMul (EVar "fac") (EEinsum "akcd,ck,dbij->abij" [(EAttr (EVar "I") "vovv"); (EVar "T1old"); (EVar "T2old")]));
    SAugAdd "T2" (EMul (EVar "fac") (EEinsum "bkcd,ck,daij->abij" [(EAttr (EVar "I") "vovv"); (EVar "T1old"); (EVar "T2old")]));
    SAugAdd "T2" (EMul (EVar "fac") (EEinsum "klic,ck,ablj->abij" [(EAttr (EVar "I") "ooov"); (EVar "T1old"); (EVar "T2old")]));
    SAugSub "T2" (EMul (EVar "fac") (EEinsum "kljc,ck,abli->abij" [(EAttr (EVar "I") "ooov"); (EVar "T1old"); (EVar "T2old")]));
    SAugAdd "T2" (EMul (EVar "fac") (EEinsum "akcd,ci,dbkj->abij" [(EAttr (EVar "I") "vovv"); (EVar "T1old"); (EVar "T2old")]));
    SAugSub "T2" (EMul (EVar "fac") (EEinsum "bkcd,ci,dakj->abij" [(EAttr (EVar "I") "vovv"); (EVar "T1old"); (EVar "T2old")]));
    SAugSub "T2" (EMul (EVar "fac") (EEinsum "akcd,cj,dbki->abij" [(EAttr (EVar "I") "vovv"); (EVar "T1old"); (EVar "T2old")]));
    SAugAdd "T2" (EMul (EVar "fac") (EEinsum "bkcd,cj,daki->abij" [(EAttr (EVar "I") "vovv"); (EVar "T1old"); (EVar "T2old")]));
    SAugSub "T2" (EMul (EVar "fac") (EEinsum "klic,ak,cblj->abij" [(EAttr (EVar "I") "ooov"); (EVar "T1old"); (EVar "T2old")]));
    SAugAdd "T2" (EMul (EVar "fac") (EEinsum "klic,bk,calj->abij" [(EAttr (EVar "I") "ooov"); (EVar "T1old"); (EVar "T2old")]));
    SAugAdd "T2" (EMul (EVar "fac") (EEinsum "kljc,ak,cbli->abij" [(EAttr (EVar "I") "ooov"); (EVar "T1old"); (EVar "T2old")]));
    SAugSub "T2" (EMul (EVar "fac") (EEinsum "kljc,bk,cali->abij" [(EAttr (EVar "I") "ooov"); (EVar "T1old"); (EVar "T2old")]));
    SAugSub "T2" (EMul (EMul (EVar "fac") (ENum (1) 1)) (EEinsum "kljc,ci,abkl->abij" [(EAttr (EVar "I") "ooov"); (EVar "T1old"); (EVar "T2old")]));
    SAugAdd "T2" (EMul (EMul (EVar "fac") (ENum (1) 1)) (EEinsum "klic,cj,abkl->abij" [(EAttr (EVar "I") "ooov"); (EVar "T1old"); (EVar "T2old")]));
    SAugAdd "T2" (EMul (EMul (EVar "fac") (ENum (1) 1)) (EEinsum "bkcd,ak,cdij->abij" [(EAttr (EVar "I") "vovv"); (EVar "T1old"); (EVar "T2old")]));
    SAugSub "T2" (EMul (EMul (EVar "fac") (ENum (1) 1)) (EEinsum "akcd,bk,cdij->abij" [(EAttr (EVar "I") "vovv"); (EVar "T1old"); (EVar "T2old")])) ].

(** cqcpy/cc_equations.py, lines 134-145 *)
Definition py__D_DD : fundef :=
  FunDef ["T2"; "F"; "I"; "T2old"; "fac"] [("fac", ((1)%Z, 0%nat))]
  [ SAugAdd "T2" (EMul (EMul (EVar "fac") (ENum (1) 2)) (EEinsum "klcd,cdij,abkl->abij" [(EAttr (EVar "I") "oovv"); (EVar "T2old"); (EVar "T2old")]));
    SAugAdd "T2" (EMul (EVar "fac") (EEinsum "klcd,acik,dblj->abij" [(EAttr (EVar "I") "oovv"); (EVar "T2old"); (EVar "T2old")]));
    SAugSub "T2" (EMul (EVar "fac") (EEinsum "klcd,bcik,dalj->abij" [(EAttr (EVar "I") "oovv"); (EVar "T2old"); (EVar "T2old")]));
    SAugSub "T2" (EMul (EMul (EVar "fac") (ENum (1) 1)) (EEinsum "klcd,cakl,dbij->abij" [(EAttr (EVar "I") "oovv"); (EVar "T2old"); (EVar "T2old")]));
    SAugAdd "T2" (EMul (EMul (EVar "fac") (ENum (1) 1)) (EEinsum "klcd,cbkl,daij->abij" [(EAttr (EVar "I") "oovv"); (EVar "T2old"); (EVar "T2old")]));
    SAugSub "T2" (EMul (EMul (EVar "fac") (ENum (1) 1)) (EEinsum "klcd,cdki,ablj->abij" [(EAttr (EVar "I") "oovv"); (EVar "T2old"); (EVar "T2old")]));
    SAugAdd "T2" (EMul (EMul (EVar "fac") (ENum (1) 1)) (EEinsum "klcd,cdkj,abli->abij" [(EAttr (EVar "I") "oovv"); (EVar "T2old"); (EVar "T2old")])) ].

(** cqcpy/cc_equations.py, lines 148-150 *)
Definition py__D_DD_ladder : fundef :=
  FunDef ["T2"; "I"; "T2old"; "fac"] [("fac", ((1)%Z, 0%nat))]
  [ SAugAdd "T2" (EMul (EMul (EVar "fac") (ENum (1) 2)) (EEinsum "klcd,cdij,abkl->abij" [(EAttr (EVar "I") "oovv"); (EVar "T2old"); (EVar "T2old")])) ].

(** cqcpy/cc_equations.py, lines 153-155 *)
Definition py__D_DD_ring : fundef :=
  FunDef ["T2"; "I"; "T2old"; "fac"] [("fac", ((1)%Z, 0%nat))]
  [ SAugAdd "T2" (EMul (EVar "fac") (EEinsum "klcd,acik,dblj->abij" [(EAttr (EVar "I") "oovv"); (EVar "T2old"); (EVar "T2old")])) ].

(** cqcpy/cc_equations.py, lines 158-164 *)
Definition py__D_SSS : fundef :=
  FunDef ["T2"; "F"; "I"; "T1old"; "fac"] [("fac", ((1)%Z, 0%nat))]
  [ SAugAdd "T2" (EMul (EVar "fac") (EEinsum "bkcd,ci,ak,dj->abij" [(EAttr (EVar "I") "vovv"); (EVar "T1old"); (EVar "T1old"); (EVar "T1old")]));
    SAugSub "T2" (EMul (EVar "fac") (EEinsum "akcd,ci,bk,dj->abij" [(EAttr (EVar "I") "vovv"); (EVar "T1old"); (EVar "T1old"); (EVar "T1old")]));
    SAugSub "T2" (EMul (EVar "fac") (EEinsum "kljc,ci,ak,bl->abij" [(EAttr (EVar "I") "ooov"); (EVar "T1old"); (EVar "T1old"); (EVar "T1old")]));
    SAugAdd "T2" (EMul (EVar "fac") (EEinsum "klic,cj,ak,bl->abij" [(EAttr (EVar "I") "ooov"); (EVar "T1old"); (EVar "T1old"); (EVar "T1old")])) ].

(** cqcpy/cc_equations.py, lines 167-184 *)
Definition py__D_SSD : fundef :=
  FunDef ["T2"; "F"; "I"; "T1old"; "T2old"; "fac"] [("fac", ((1)%Z, 0%nat))]
  [ SAugAdd "T2" (EMul (EMul (EVar "fac") (ENum (1) 2)) (EEinsum "klcd,ci,dj,abkl->abij" [(EAttr (EVar "I") "oovv"); (EVar "T1old"); (EVar "T1old"); (EVar "T2old")]));
    SAugSub "T2" (EMul (EMul (EVar "fac") (ENum (1) 2)) (EEinsum "klcd,cj,di,abkl->abij" [(EAttr (EVar "I") "oovv"); (EVar "T1old"); (EVar "T1old"); (EVar "T2old")]));
    SAugAdd "T2" (EMul (EMul (EVar "fac") (ENum (1) 2)) (EEinsum "klcd,ak,bl,cdij->abij" [(EAttr (EVar "I") "oovv"); (EVar "T1old"); (EVar "T1old"); (EVar "T2old")]));
    SAugSub "T2" (EMul (EMul (EVar "fac") (ENum (1) 2)) (EEinsum "klcd,bk,al,cdij->abij" [(EAttr (EVar "I") "oovv"); (EVar "T1old"); (EVar "T1old"); (EVar "T2old")]));
    SAugSub "T2" (EMul (EVar "fac") (EEinsum "klcd,ci,ak,dblj->abij" [(EAttr (EVar "I") "oovv"); (EVar "T1old"); (EVar "T1old"); (EVar "T2old")]));
    SAugAdd "T2" (EMul (EVar "fac") (EEinsum "klcd,ci,bk,dalj->abij" [(EAttr (EVar "I") "oovv"); (EVar "T1old"); (EVar "T1old"); (EVar "T2old")]));
    SAugAdd "T2" (EMul (EVar "fac") (EEinsum "klcd,cj,ak,dbli->abij" [(EAttr (EVar "I") "oovv"); (EVar "T1old"); (EVar "T1old"); (EVar "T2old")]));
    SAugSub "T2" (EMul (EVar "fac") (EEinsum "klcd,cj,bk,dali->abij" [(EAttr (EVar "I") "oovv"); (EVar "T1old"); (EVar "T1old"); (EVar "T2old")]));
    SAugSub "T2" (EMul (EVar "fac") (EEinsum "klcd,ck,di,ablj->abij" [(EAttr (EVar "I") "oovv"); (EVar "T1old"); (EVar "T1old"); (EVar "T2old")]));
    SAugAdd "T2" (EMul (EVar "fac") (EEinsum "klcd,ck,dj,abli->abij" [(EAttr (EVar "I") "oovv"); (EVar "T1old"); (EVar "T1old"); (EVar "T2old")]));
    SAugSub "T2" (EMul (EVar "fac") (EEinsum "klcd,ck,al,dbij->abij" [(EAttr (EVar "I") "oovv"); (EVar "T1old"); (EVar "T1old"); (EVar "T2old")]));
    SAugAdd "T2" (EMul (EVar "fac") (EEinsum "klcd,ck,bl,daij->abij" [(EAttr (EVar "I") "oovv"); (EVar "T1old"); (EVar "T1old"); (EVar "T2old")])) ].

(** cqcpy/cc_equations.py, lines 187-189 *)
Definition py__D_SSSS : fundef :=
  FunDef ["T2"; "F"; "I"; "T1old"; "fac"] [("fac", ((1)%Z, 0%nat))]
  [ SAugAdd "T2" (EMul (EVar "fac") (EEinsum "klcd,ci,ak,bl,dj->abij" [(EAttr (EVar "I") "oovv"); (EVar "T1old"); (EVar "T1old"); (EVar "T1old"); (EVar "T1old")])) ].

(** cqcpy/cc_equations.py, lines 192-262 *)
Definition py__Stanton : fundef :=
  FunDef ["T1"; "T2"; "F"; "I"; "T1old"; "T2old"; "fac"] [("fac", ((1)%Z, 0%nat))]
  [ SAssign (PVar "T2A") (ECopy (EVar "T2old"));
    SAugAdd "T2A" (EMul (ENum (1) 1) (EEinsum "ai,bj->abij" [(EVar "T1old"); (EVar "T1old")]));
    SAugSub "T2A" (EMul (ENum (1) 1) (EEinsum "bi,aj->abij" [(EVar "T1old"); (EVar "T1old")]));
    SAssign (PVar "Fvv") (ECopy (EAttr (EVar "F") "vv"));
    SAugSub "Fvv" (EMul (ENum (1) 1) (EEinsum "jb,aj->ab" [(EAttr (EVar "F") "ov"); (EVar "T1old")]));
    SAugSub "Fvv" (EEinsum "ajcb,cj->ab" [(EAttr (EVar "I") "vovv"); (EVar "T1old")]);
    SAugSub "Fvv" (EMul (ENum (1) 1) (EEinsum "jkbc,acjk->ab" [(EAttr (EVar "I") "oovv"); (EVar "T2A")]));
    SAssign (PVar "Foo") (ECopy (EAttr (EVar "F") "oo"));
    SAugAdd "Foo" (EMul (ENum (1) 1) (EEinsum "jb,bi->ji" [(EAttr (EVar "F") "ov"); (EVar "T1old")]));
    SAugAdd "Foo" (EEinsum "jkib,bk->ji" [(EAttr (EVar "I") "ooov"); (EVar "T1old")]);
    SAugAdd "Foo" (EMul (ENum (1) 1) (EEinsum "jkbc,bcik->ji" [(EAttr (EVar "I") "oovv"); (EVar "T2A")]));
    SDel "T2A";
    SAssign (PVar "Fov") (ECopy (EAttr (EVar "F") "ov"));
    SAugAdd "Fov" (EEinsum "jkbc,ck->jb" [(EAttr (EVar "I") "oovv"); (EVar "T1old")]);
    SAugAdd "T1" (EMul (EVar "fac") (EEinsum "ab,bi->ai" [(EVar "Fvv"); (EVar "T1old")]));
    SAugSub "T1" (EMul (EVar "fac") (EEinsum "ji,aj->ai" [(EVar "Foo"); (EVar "T1old")]));
    SAugAdd "T1" (EMul (EVar "fac") (EEinsum "jb,abij->ai" [(EVar "Fov"); (EVar "T2old")]));
    SAugSub "T1" (EMul (EVar "fac") (EEinsum "ajbi,bj->ai" [(EAttr (EVar "I") "vovo"); (EVar "T1old")]));
    SAugAdd "T1" (EMul (EMul (EVar "fac") (ENum (1) 1)) (EEinsum "ajbc,bcij->ai" [(EAttr (EVar "I") "vovv"); (EVar "T2old")]));
    SAugSub "T1" (EMul (EMul (EVar "fac") (ENum (1) 1)) (EEinsum "jkib,abjk->ai" [(EAttr (EVar "I") "ooov"); (EVar "T2old")]));
    SAssign (PVar "T2B") (ECopy (EVar "T2old"));
    SAugAdd "T2B" (EEinsum "ai,bj->abij" [(EVar "T1old"); (EVar "T1old")]);
    SAugSub "T2B" (EEinsum "bi,aj->abij" [(EVar "T1old"); (EVar "T1old")]);
    SAssign (PVar "Woooo") (ECopy (EAttr (EVar "I") "oooo"));
    SAugAdd "Woooo" (EEinsum "klic,cj->klij" [(EAttr (EVar "I") "ooov"); (EVar "T1old")]);
    SAugSub "Woooo" (EEinsum "kljc,ci->klij" [(EAttr (EVar "I") "ooov"); (EVar "T1old")]);
    SAugAdd "Woooo" (EMul (ENum (1) 2) (EEinsum "klcd,cdij->klij" [(EAttr (EVar "I") "oovv"); (EVar "T2B")]));
    SAugAdd "T2" (EMul (EMul (EVar "fac") (ENum (1) 1)) (EEinsum "klij,abkl->abij" [(EVar "Woooo"); (EVar "T2B")]));
    SDel "Woooo";
    SAssign (PVar "Wvvvv") (ECopy (EAttr (EVar "I") "vvvv"));
    SAugSub "Wvvvv" (EEinsum "akcd,bk->abcd" [(EAttr (EVar "I") "vovv"); (EVar "T1old")]);
    SAugAdd "Wvvvv" (EEinsum "bkcd,ak->abcd" [(EAttr (EVar "I") "vovv"); (EVar "T1old")]);
    SAugAdd "Wvvvv" (EMul (ENum (1) 2) (EEinsum "klcd,abkl->abcd" [(EAttr (EVar "I") "oovv"); (EVar "T2B")]));
    SAugAdd "T2" (EMul (EMul (EVar "fac") (ENum (1) 1)) (EEinsum "abcd,cdij->abij" [(EVar "Wvvvv"); (EVar "T2B")]));
    SDel "T2B";
    SDel "Wvvvv";
    SAssign (PVar "Wovvo") (ENeg (ECopy (ETrans (EAttr (EVar "I") "vovo") [1; 0; 2; 3])));
    SAugSub "Wovvo" (EEinsum "bkcd,dj->kbcj" [(EAttr (EVar "I") "vovv"); (EVar "T1old")]);
    SAugAdd "Wovvo" (EEinsum "kljc,bl->kbcj" [(EAttr (EVar "I") "ooov"); (EVar "T1old")]);
    SAssign (PVar "temp") (EAdd (EMul (ENum (1) 1) (EVar "T2old")) (EEinsum "dj,bl->dbjl" [(EVar "T1old"); (EVar "T1old")]));
    SAugSub "Wovvo" (EEinsum "klcd,dbjl->kbcj" [(EAttr (EVar "I") "oovv"); (EVar "temp")]);
    SAssign (PVar "temp") (EEinsum "kbcj,acik->abij" [(EVar "Wovvo"); (EVar "T2old")]);
    SAugAdd "temp" (EEinsum "bkcj,ci,ak->abij" [(EAttr (EVar "I") "vovo"); (EVar "T1old"); (EVar "T1old")]);
    SAugAdd "T2" (EMul (EVar "fac") (EVar "temp"));
    SAugSub "T2" (EMul (EVar "fac") (ETrans (EVar "temp") [0; 1; 3; 2]));
    SAugSub "T2" (EMul (EVar "fac") (ETrans (EVar "temp") [1; 0; 2; 3]));
    SAugAdd "T2" (EMul (EVar "fac") (ETrans (EVar "temp") [1; 0; 3; 2]));
    SDel "temp";
    SDel "Wovvo";
    SAssign (PVar "Ftemp") (ESub (EVar "Fvv") (EMul (ENum (1) 1) (EEinsum "jb,aj->ab" [(EVar "Fov"); (EVar "T1old")])));
    SAssign (PVar "temp_ab") (EEinsum "bc,acij->abij" [(EVar "Ftemp"); (EVar "T2old")]);
    SAugAdd "temp_ab" (EEinsum "bkij,ak->abij" [(EAttr (EVar "I") "vooo"); (EVar "T1old")]);
    SAugAdd "T2" (EMul (EVar "fac") (EVar "temp_ab"));
    SAugSub "T2" (EMul (EVar "fac") (ETrans (EVar "temp_ab") [1; 0; 2; 3]));
    SDel "temp_ab";
    SAssign (PVar "Ftemp") (EAdd (EVar "Foo") (EMul (ENum (1) 1) (EEinsum "jb,bi->ji" [(EVar "Fov"); (EVar "T1old")])));
    SAssign (PVar "temp_ij") (ENeg (EEinsum "kj,abik->abij" [(EVar "Ftemp"); (EVar "T2old")]));
    SAugAdd "temp_ij" (EEinsum "abcj,ci->abij" [(EAttr (EVar "I") "vvvo"); (EVar "T1old")]);
    SAugAdd "T2" (EMul (EVar "fac") (EVar "temp_ij"));
    SAugSub "T2" (EMul (EVar "fac") (ETrans (EVar "temp_ij") [0; 1; 3; 2])) ].

(** cqcpy/cc_equations.py, lines 265-299 *)
Definition py__Stanton_ccd : fundef :=
  FunDef ["T2"; "F"; "I"; "T2old"; "fac"] [("fac", ((1)%Z, 0%nat))]
  [ SAssign (PVar "Fvv") (ECopy (EAttr (EVar "F") "vv"));
    SAugSub "Fvv" (EMul (ENum (1) 1) (EEinsum "jkbc,acjk->ab" [(EAttr (EVar "I") "oovv"); (EVar "T2old")]));
    SAssign (PVar "Foo") (ECopy (EAttr (EVar "F") "oo"));
    SAugAdd "Foo" (EMul (ENum (1) 1) (EEinsum "jkbc,bcik->ji" [(EAttr (EVar "I") "oovv"); (EVar "T2old")]));
    SAssign (PVar "Woooo") (ECopy (EAttr (EVar "I") "oooo"));
    SAugAdd "Woooo" (EMul (ENum (1) 2) (EEinsum "klcd,cdij->klij" [(EAttr (EVar "I") "oovv"); (EVar "T2old")]));
    SAugAdd "T2" (EMul (EMul (EVar "fac") (ENum (1) 1)) (EEinsum "klij,abkl->abij" [(EVar "Woooo"); (EVar "T2old")]));
    SDel "Woooo";
    SAssign (PVar "Wvvvv") (ECopy (EAttr (EVar "I") "vvvv"));
    SAugAdd "Wvvvv" (EMul (ENum (1) 2) (EEinsum "klcd,abkl->abcd" [(EAttr (EVar "I") "oovv"); (EVar "T2old")]));
    SAugAdd "T2" (EMul (EMul (EVar "fac") (ENum (1) 1)) (EEinsum "abcd,cdij->abij" [(EVar "Wvvvv"); (EVar "T2old")]));
    SDel "Wvvvv";
    SAssign (PVar "Wovvo") (ENeg (ECopy (ETrans (EAttr (EVar "I") "vovo") [1; 0; 2; 3])));
    SAugSub "Wovvo" (EMul (ENum (1) 1) (EEinsum "klcd,dbjl->kbcj" [(EAttr (EVar "I") "oovv"); (EVar "T2old")]));
    SAssign (PVar "temp") (EEinsum "kbcj,acik->abij" [(EVar "Wovvo"); (EVar "T2old")]);
    SAugAdd "T2" (EMul (EVar "fac") (EVar "temp"));
    SAugSub "T2" (EMul (EVar "fac") (ETrans (EVar "temp") [0; 1; 3; 2]));
    SAugSub "T2" (EMul (EVar "fac") (ETrans (EVar "temp") [1; 0; 2; 3]));
    SAugAdd "T2" (EMul (EVar "fac") (ETrans (EVar "temp") [1; 0; 3; 2]));
    SDel "temp";
    SDel "Wovvo";
    SAssign (PVar "temp_ab") (EEinsum "bc,acij->abij" [(EVar "Fvv"); (EVar "T2old")]);
    SAugAdd "T2" (EMul (EVar "fac") (EVar "temp_ab"));
    SAugSub "T2" (EMul (EVar "fac") (ETrans (EVar "temp_ab") [1; 0; 2; 3]));
    SDel "temp_ab";
    SAssign (PVar "temp_ij") (ENeg (EEinsum "kj,abik->abij" [(EVar "Foo"); (EVar "T2old")]));
    SAugAdd "T2" (EMul (EVar "fac") (EVar "temp_ij"));
    SAugSub "T2" (EMul (EVar "fac") (ETrans (EVar "temp_ij") [0; 1; 3; 2])) ].

(** cqcpy/cc_equations.py, lines 302-546 *)
Definition py__u_Stanton : fundef :=
  FunDef ["T1a"; "T1b"; "T2aa"; "T2ab"; "T2bb"; "Faa"; "Fbb"; "Ia"; "Ib"; "Iabab"; "T1old"; "T2old"; "fac"] [("fac", ((1)%Z, 0%nat))]
  [ SAssign (PTup [(PVar "T1aold"); (PVar "T1bold")]) (EVar "T1old");
    SAssign (PTup [(PVar "T2aaold"); (PVar "T2abold"); (PVar "T2bbold")]) (EVar "T2old");
    SAssign (PVar "T2Aaa") (ECopy (EVar "T2aaold"));
    SAugAdd "T2Aaa" (EMul (ENum (1) 1) (EEinsum "ai,bj->abij" [(EVar "T1aold"); (EVar "T1aold")]));
    SAugSub "T2Aaa" (EMul (ENum (1) 1) (EEinsum "bi,aj->abij" [(EVar "T1aold"); (EVar "T1aold")]));
    SAssign (PVar "T2Abb") (ECopy (EVar "T2bbold"));
    SAugAdd "T2Abb" (EMul (ENum (1) 1) (EEinsum "ai,bj->abij" [(EVar "T1bold"); (EVar "T1bold")]));
    SAugSub "T2Abb" (EMul (ENum (1) 1) (EEinsum "bi,aj->abij" [(EVar "T1bold"); (EVar "T1bold")]));
    SAssign (PVar "T2Aab") (ECopy (EVar "T2abold"));
    SAugAdd "T2Aab" (EMul (ENum (1) 1) (EEinsum "ai,bj->abij" [(EVar "T1aold"); (EVar "T1bold")]));
    SAssign (PVar "Fvva") (ECopy (EAttr (EVar "Faa") "vv"));
    SAugSub "Fvva" (EMul (ENum (1) 1) (EEinsum "jb,aj->ab" [(EAttr (EVar "Faa") "ov"); (EVar "T1aold")]));
    SAugSub "Fvva" (EEinsum "ajcb,cj->ab" [(EAttr (EVar "Ia") "vovv"); (EVar "T1aold")]);
    SAugAdd "Fvva" (EEinsum "ajbc,cj->ab" [(EAttr (EVar "Iabab") "vovv"); (EVar "T1bold")]);
    SAugSub "Fvva" (EMul (ENum (1) 1) (EEinsum "jkbc,acjk->ab" [(EAttr (EVar "Ia") "oovv"); (EVar "T2Aaa")]));
    SAugSub "Fvva" (EEinsum "jkbc,acjk->ab" [(EAttr (EVar "Iabab") "oovv"); (EVar "T2Aab")]);
    SAssign (PVar "Fvvb") (ECopy (EAttr (EVar "Fbb") "vv"));
    SAugSub "Fvvb" (EMul (ENum (1) 1) (EEinsum "jb,aj->ab" [(EAttr (EVar "Fbb") "ov"); (EVar "T1bold")]));
    SAugSub "Fvvb" (EEinsum "ajcb,cj->ab" [(EAttr (EVar "Ib") "vovv"); (EVar "T1bold")]);
    SAugAdd "Fvvb" (EEinsum "jacb,cj->ab" [(EAttr (EVar "Iabab") "ovvv"); (EVar "T1aold")]);
    SAugSub "Fvvb" (EMul (ENum (1) 1) (EEinsum "jkbc,acjk->ab" [(EAttr (EVar "Ib") "oovv"); (EVar "T2Abb")]));
    SAugSub "Fvvb" (EEinsum "kjcb,cakj->ab" [(EAttr (EVar "Iabab") "oovv"); (EVar "T2Aab")]);
    SAssign (PVar "Fooa") (ECopy (EAttr (EVar "Faa") "oo"));
    SAugAdd "Fooa" (EMul (ENum (1) 1) (EEinsum "jb,bi->ji" [(EAttr (EVar "Faa") "ov"); (EVar "T1aold")]));
    SAugAdd "Fooa" (EEinsum "jkib,bk->ji" [(EAttr (EVar "Ia") "ooov"); (EVar "T1aold")]);
    SAugAdd "Fooa" (EEinsum "jkib,bk->ji" [(EAttr (EVar "Iabab") "ooov"); (EVar "T1bold")]);
    SAugAdd "Fooa" (EMul (ENum (1) 1) (EEinsum "jkbc,bcik->ji" [(EAttr (EVar "Ia") "oovv"); (EVar "T2Aaa")]));
    SAugAdd "Fooa" (EEinsum "jkbc,bcik->ji" [(EAttr (EVar "Iabab") "oovv"); (EVar "T2Aab")]);
    SAssign (PVar "Foob") (ECopy (EAttr (EVar "Fbb") "oo"));
    SAugAdd "Foob" (EMul (ENum (1) 1) (EEinsum "jb,bi->ji" [(EAttr (EVar "Fbb") "ov"); (EVar "T1bold")]));
    SAugAdd "Foob" (EEinsum "jkib,bk->ji" [(EAttr (EVar "Ib") "ooov"); (EVar "T1bold")]);
    SAugAdd "Foob" (EEinsum "kjbi,bk->ji" [(EAttr (EVar "Iabab") "oovo"); (EVar "T1aold")]);
    SAugAdd "Foob" (EMul (ENum (1) 1) (EEinsum "jkbc,bcik->ji" [(EAttr (EVar "Ib") "oovv"); (EVar "T2Abb")]));
    SAugAdd "Foob" (EEinsum "kjcb,cbki->ji" [(EAttr (EVar "Iabab") "oovv"); (EVar "T2Aab")]);
    SDel "T2Aaa";
    SDel "T2Aab";
    SDel "T2Abb";
    SAssign (PVar "Fova") (ECopy (EAttr (EVar "Faa") "ov"));
    SAugAdd "Fova" (EEinsum "jkbc,ck->jb" [(EAttr (EVar "Ia") "oovv"); (EVar "T1aold")]);
    SAugAdd "Fova" (EEinsum "jkbc,ck->jb" [(EAttr (EVar "Iabab") "oovv"); (EVar "T1bold")]);
    SAssign (PVar "Fovb") (ECopy (EAttr (EVar "Fbb") "ov"));
    SAugAdd "Fovb" (EEinsum "jkbc,ck->jb" [(EAttr (EVar "Ib") "oovv"); (EVar "T1bold")]);
    SAugAdd "Fovb" (EEinsum "kjcb,ck->jb" [(EAttr (EVar "Iabab") "oovv"); (EVar "T1aold")]);
    SAugAdd "T1a" (EMul (EVar "fac") (EEinsum "ab,bi->ai" [(EVar "Fvva"); (EVar "T1aold")]));
    SAugAdd "T1b" (EMul (EVar "fac") (EEinsum "ab,bi->ai" [(EVar "Fvvb"); (EVar "T1bold")]));
    SAugSub "T1a" (EMul (EVar "fac") (EEinsum "ji,aj->ai" [(EVar "Fooa"); (EVar "T1aold")]));
    SAugSub "T1b" (EMul (EVar "fac") (EEinsum "ji,aj->ai" [(EVar "Foob"); (EVar "T1bold")]));
    SAugAdd "T1a" (EMul (EVar "fac") (EEinsum "jb,abij->ai" [(EVar "Fova"); (EVar "T2aaold")]));
    SAugAdd "T1a" (EMul (EVar "fac") (EEinsum "jb,abij->ai" [(EVar "Fovb"); (EVar "T2abold")]));
    SAugAdd "T1b" (EMul (EVar "fac") (EEinsum "jb,abij->ai" [(EVar "Fovb"); (EVar "T2bbold")]));
    SAugAdd "T1b" (EMul (EVar "fac") (EEinsum "jb,baji->ai" [(EVar "Fova"); (EVar "T2abold")]));
    SAugSub "T1a" (EMul (EVar "fac") (EEinsum "ajbi,bj->ai" [(EAttr (EVar "Ia") "vovo"); (EVar "T1aold")]));
    SAugAdd "T1a" (EMul (EVar "fac") (EEinsum "ajib,bj->ai" [(EAttr (EVar "Iabab") "voov"); (EVar "T1bold")]));
    SAugSub "T1b" (EMul (EVar "fac") (EEinsum "ajbi,bj->ai" [(EAttr (EVar "Ib") "vovo"); (EVar "T1bold")]));
    SAugAdd "T1b" (EMul (EVar "fac") (EEinsum "jabi,bj->ai" [(EAttr (EVar "Iabab") "ovvo"); (EVar "T1aold")]));
    SAugAdd "T1a" (EMul (EMul (EVar "fac") (ENum (1) 1)) (EEinsum "ajbc,bcij->ai" [(EAttr (EVar "Ia") "vovv"); (EVar "T2aaold")]));
    SAugAdd "T1a" (EMul (EMul (EMul (ENum (2) 0) (EVar "fac")) (ENum (1) 1)) (EEinsum "ajbc,bcij->ai" [(EAttr (EVar "Iabab") "vovv"); (EVar "T2abold")]));
    SAugAdd "T1b" (EMul (EMul (EVar "fac") (ENum (1) 1)) (EEinsum "ajbc,bcij->ai" [(EAttr (EVar "Ib") "vovv"); (EVar "T2bbold")]));
    SAugAdd "T1b" (EMul (EMul (EMul (ENum (2) 0) (EVar "fac")) (ENum (1) 1)) (EEinsum "jacb,cbji->ai" [(EAttr (EVar "Iabab") "ovvv"); (EVar "T2abold")]));
    SAugSub "T1a" (EMul (EMul (EVar "fac") (ENum (1) 1)) (EEinsum "jkib,abjk->ai" [(EAttr (EVar "Ia") "ooov"); (EVar "T2aaold")]));
    SAugSub "T1a" (EMul (EVar "fac") (EEinsum "jkib,abjk->ai" [(EAttr (EVar "Iabab") "ooov"); (EVar "T2abold")]));
    SAugSub "T1b" (EMul (EMul (EVar "fac") (ENum (1) 1)) (EEinsum "jkib,abjk->ai" [(EAttr (EVar "Ib") "ooov"); (EVar "T2bbold")]));
    SAugSub "T1b" (EMul (EVar "fac") (EEinsum "kjbi,bakj->ai" [(EAttr (EVar "Iabab") "oovo"); (EVar "T2abold")]));
    SAssign (PVar "T2Baa") (ECopy (EVar "T2aaold"));
    SAugAdd "T2Baa" (EEinsum "ai,bj->abij" [(EVar "T1aold"); (EVar "T1aold")]);
    SAugSub "T2Baa" (EEinsum "bi,aj->abij" [(EVar "T1aold"); (EVar "T1aold")]);
    SAssign (PVar "T2Bbb") (ECopy (EVar "T2bbold"));
    SAugAdd "T2Bbb" (EEinsum "ai,bj->abij" [(EVar "T1bold"); (EVar "T1bold")]);
    SAugSub "T2Bbb" (EEinsum "bi,aj->abij" [(EVar "T1bold"); (EVar "T1bold")]);
    SAssign (PVar "T2Bab") (ECopy (EVar "T2abold"));
    SAugAdd "T2Bab" (EEinsum "ai,bj->abij" [(EVar "T1aold"); (EVar "T1bold")]);
    SAssign (PVar "Wo_aaaa") (ECopy (EAttr (EVar "Ia") "oooo"));
    SAugAdd "Wo_aaaa" (EEinsum "klic,cj->klij" [(EAttr (EVar "Ia") "ooov"); (EVar "T1aold")]);
    SAugSub "Wo_aaaa" (EEinsum "kljc,ci->klij" [(EAttr (EVar "Ia") "ooov"); (EVar "T1aold")]);
    SAugAdd "Wo_aaaa" (EMul (ENum (1) 2) (EEinsum "klcd,cdij->klij" [(EAttr (EVar "Ia") "oovv"); (EVar "T2Baa")]));
    SAssign (PVar "Wo_bbbb") (ECopy (EAttr (EVar "Ib") "oooo"));
    SAugAdd "Wo_bbbb" (EEinsum "klic,cj->klij" [(EAttr (EVar "Ib") "ooov"); (EVar "T1bold")]);
    SAugSub "Wo_bbbb" (EEinsum "kljc,ci->klij" [(EAttr (EVar "Ib") "ooov"); (EVar "T1bold")]);
    SAugAdd "Wo_bbbb" (EMul (ENum (1) 2) (EEinsum "klcd,cdij->klij" [(EAttr (EVar "Ib") "oovv"); (EVar "T2Bbb")]));
    SAssign (PVar "Wo_abab") (ECopy (EAttr (EVar "Iabab") "oooo"));
    SAugAdd "Wo_abab" (EEinsum "klic,cj->klij" [(EAttr (EVar "Iabab") "ooov"); (EVar "T1bold")]);
    SAugAdd "Wo_abab" (EEinsum "klcj,ci->klij" [(EAttr (EVar "Iabab") "oovo"); (EVar "T1aold")]);
    SAugAdd "Wo_abab" (EMul (ENum (1) 1) (EEinsum "klcd,cdij->klij" [(EAttr (EVar "Iabab") "oovv"); (EVar "T2Bab")]));
    SAugAdd "T2aa" (EMul (EMul (EVar "fac") (ENum (1) 1)) (EEinsum "klij,abkl->abij" [(EVar "Wo_aaaa"); (EVar "T2Baa")]));
    SAugAdd "T2bb" (EMul (EMul (EVar "fac") (ENum (1) 1)) (EEinsum "klij,abkl->abij" [(EVar "Wo_bbbb"); (EVar "T2Bbb")]));
    SAugAdd "T2ab" (EMul (EVar "fac") (EEinsum "klij,abkl->abij" [(EVar "Wo_abab"); (EVar "T2Bab")]));
    SDel "Wo_aaaa";
    SDel "Wo_bbbb";
    SDel "Wo_abab";
    SAssign (PVar "Wv_aaaa") (ECopy (EAttr (EVar "Ia") "vvvv"));
    SAugSub "Wv_aaaa" (EEinsum "akcd,bk->abcd" [(EAttr (EVar "Ia") "vovv"); (EVar "T1aold")]);
    SAugAdd "Wv_aaaa" (EEinsum "bkcd,ak->abcd" [(EAttr (EVar "Ia") "vovv"); (EVar "T1aold")]);
    SAugAdd "Wv_aaaa" (EMul (ENum (1) 2) (EEinsum "klcd,abkl->abcd" [(EAttr (EVar "Ia") "oovv"); (EVar "T2Baa")]));
    SAssign (PVar "Wv_bbbb") (ECopy (EAttr (EVar "Ib") "vvvv"));
    SAugSub "Wv_bbbb" (EEinsum "akcd,bk->abcd" [(EAttr (EVar "Ib") "vovv"); (EVar "T1bold")]);
    SAugAdd "Wv_bbbb" (EEinsum "bkcd,ak->abcd" [(EAttr (EVar "Ib") "vovv"); (EVar "T1bold")]);
    SAugAdd "Wv_bbbb" (EMul (ENum (1) 2) (EEinsum "klcd,abkl->abcd" [(EAttr (EVar "Ib") "oovv"); (EVar "T2Bbb")]));
    SAssign (PVar "Wv_abab") (ECopy (EAttr (EVar "Iabab") "vvvv"));
    SAugSub "Wv_abab" (EEinsum "akcd,bk->abcd" [(EAttr (EVar "Iabab") "vovv"); (EVar "T1bold")]);
    SAugSub "Wv_abab" (EEinsum "kbcd,ak->abcd" [(EAttr (EVar "Iabab") "ovvv"); (EVar "T1aold")]);
    SAugAdd "Wv_abab" (EMul (ENum (1) 1) (EEinsum "klcd,abkl->abcd" [(EAttr (EVar "Iabab") "oovv"); (EVar "T2Bab")]));
    SAugAdd "T2aa" (EMul (EMul (EVar "fac") (ENum (1) 1)) (EEinsum "abcd,cdij->abij" [(EVar "Wv_aaaa"); (EVar "T2Baa")]));
    SAugAdd "T2bb" (EMul (EMul (EVar "fac") (ENum (1) 1)) (EEinsum "abcd,cdij->abij" [(EVar "Wv_bbbb"); (EVar "T2Bbb")]));
    SAugAdd "T2ab" (EMul (EVar "fac") (EEinsum "abcd,cdij->abij" [(EVar "Wv_abab"); (EVar "T2Bab")]));
    SDel "T2Baa";
    SDel "T2Bab";
    SDel "T2Bbb";
    SDel "Wv_aaaa";
    SDel "Wv_bbbb";
    SDel "Wv_abab";
    SAssign (PVar "aatemp") (EEinsum "bkcj,ci,ak->abij" [(EAttr (EVar "Ia") "vovo"); (EVar "T1aold"); (EVar "T1aold")]);
    SAssign (PVar "bbtemp") (EEinsum "bkcj,ci,ak->abij" [(EAttr (EVar "Ib") "vovo"); (EVar "T1bold"); (EVar "T1bold")]);
    SAssign (PVar "abtemp") (ENeg (EEinsum "kbcj,ci,ak->abij" [(EAttr (EVar "Iabab") "ovvo"); (EVar "T1aold"); (EVar "T1aold")]));
    SAugAdd "abtemp" (ENeg (EEinsum "akcj,ci,bk->abij" [(EAttr (EVar "Iabab") "vovo"); (EVar "T1aold"); (EVar "T1bold")]));
    SAugAdd "abtemp" (ENeg (EEinsum "kbic,cj,ak->abij" [(EAttr (EVar "Iabab") "ovov"); (EVar "T1bold"); (EVar "T1aold")]));
    SAugAdd "abtemp" (ENeg (EEinsum "akic,cj,bk->abij" [(EAttr (EVar "Iabab") "voov"); (EVar "T1bold"); (EVar "T1bold")]));
    SAssign (PVar "aatemp") (ESub (ESub (EAdd (EVar "aatemp") (ETrans (EVar "aatemp") [1; 0; 3; 2])) (ETrans (EVar "aatemp") [1; 0; 2; 3])) (ETrans (EVar "aatemp") [0; 1; 3; 2]));
    SAssign (PVar "bbtemp") (ESub (ESub (EAdd (EVar "bbtemp") (ETrans (EVar "bbtemp") [1; 0; 3; 2])) (ETrans (EVar "bbtemp") [1; 0; 2; 3])) (ETrans (EVar "bbtemp") [0; 1; 3; 2]));
    SAugAdd "T2aa" (EMul (EVar "fac") (EVar "aatemp"));
    SAugAdd "T2bb" (EMul (EVar "fac") (EVar "bbtemp"));
    SAugAdd "T2ab" (EMul (EVar "fac") (EVar "abtemp"));
    SDel "aatemp";
    SDel "abtemp";
    SDel "bbtemp";
    SAssign (PVar "TTTaa") (EAdd (EMul (ENum (1) 1) (EVar "T2aaold")) (EEinsum "dj,bl->dbjl" [(EVar "T1aold"); (EVar "T1aold")]));
    SAssign (PVar "TTTbb") (EAdd (EMul (ENum (1) 1) (EVar "T2bbold")) (EEinsum "dj,bl->dbjl" [(EVar "T1bold"); (EVar "T1bold")]));
    SAssign (PVar "TTTab") (EAdd (EMul (ENum (1) 1) (EVar "T2abold")) (EEinsum "dj,bl->dbjl" [(EVar "T1aold"); (EVar "T1bold")]));
    SAssign (PVar "W_ovvo") (ENeg (ECopy (ETrans (EAttr (EVar "Ia") "vovo") [1; 0; 2; 3])));
    SAugSub "W_ovvo" (EEinsum "bkcd,dj->kbcj" [(EAttr (EVar "Ia") "vovv"); (EVar "T1aold")]);
    SAugAdd "W_ovvo" (EEinsum "kljc,bl->kbcj" [(EAttr (EVar "Ia") "ooov"); (EVar "T1aold")]);
    SAugSub "W_ovvo" (EEinsum "klcd,dbjl->kbcj" [(EAttr (EVar "Ia") "oovv"); (EVar "TTTaa")]);
    SAugAdd "W_ovvo" (EMul (ENum (1) 1) (EEinsum "klcd,bdjl->kbcj" [(EAttr (EVar "Iabab") "oovv"); (EVar "T2abold")]));
    SAssign (PVar "W_OVVO") (ENeg (ECopy (ETrans (EAttr (EVar "Ib") "vovo") [1; 0; 2; 3])));
    SAugSub "W_OVVO" (EEinsum "bkcd,dj->kbcj" [(EAttr (EVar "Ib") "vovv"); (EVar "T1bold")]);
    SAugAdd "W_OVVO" (EEinsum "kljc,bl->kbcj" [(EAttr (EVar "Ib") "ooov"); (EVar "T1bold")]);
    SAugSub "W_OVVO" (EEinsum "klcd,dbjl->kbcj" [(EAttr (EVar "Ib") "oovv"); (EVar "TTTbb")]);
    SAugAdd "W_OVVO" (EMul (ENum (1) 1) (EEinsum "lkdc,dblj->kbcj" [(EAttr (EVar "Iabab") "oovv"); (EVar "T2abold")]));
    SAssign (PVar "W_oVvO") (ECopy (EAttr (EVar "Iabab") "ovvo"));
    SAugAdd "W_oVvO" (EEinsum "kbcd,dj->kbcj" [(EAttr (EVar "Iabab") "ovvv"); (EVar "T1bold")]);
    SAugSub "W_oVvO" (EEinsum "klcj,bl->kbcj" [(EAttr (EVar "Iabab") "oovo"); (EVar "T1bold")]);
    SAugSub "W_oVvO" (EEinsum "klcd,dbjl->kbcj" [(EAttr (EVar "Iabab") "oovv"); (EVar "TTTbb")]);
    SAugAdd "W_oVvO" (EMul (ENum (1) 1) (EEinsum "klcd,dblj->kbcj" [(EAttr (EVar "Ia") "oovv"); (EVar "T2abold")]));
    SAssign (PVar "W_OvVo") (ECopy (ETrans (EAttr (EVar "Iabab") "voov") [1; 0; 3; 2]));
    SAugAdd "W_OvVo" (EEinsum "bkdc,dj->kbcj" [(EAttr (EVar "Iabab") "vovv"); (EVar "T1aold")]);
    SAugSub "W_OvVo" (EEinsum "lkjc,bl->kbcj" [(EAttr (EVar "Iabab") "ooov"); (EVar "T1aold")]);
    SAugSub "W_OvVo" (EEinsum "lkdc,dbjl->kbcj" [(EAttr (EVar "Iabab") "oovv"); (EVar "TTTaa")]);
    SAugAdd "W_OvVo" (EMul (ENum (1) 1) (EEinsum "klcd,bdjl->kbcj" [(EAttr (EVar "Ib") "oovv"); (EVar "T2abold")]));
    SAssign (PVar "W_oVVo") (ENeg (ECopy (ETrans (EAttr (EVar "Iabab") "ovov") [0; 1; 3; 2])));
    SAugSub "W_oVVo" (EEinsum "kbdc,dj->kbcj" [(EAttr (EVar "Iabab") "ovvv"); (EVar "T1aold")]);
    SAugAdd "W_oVVo" (EEinsum "kljc,bl->kbcj" [(EAttr (EVar "Iabab") "ooov"); (EVar "T1bold")]);
    SAugAdd "W_oVVo" (EEinsum "kldc,dbjl->kbcj" [(EAttr (EVar "Iabab") "oovv"); (EVar "TTTab")]);
    SAssign (PVar "W_OvvO") (ENeg (ECopy (ETrans (EAttr (EVar "Iabab") "vovo") [1; 0; 2; 3])));
    SAugSub "W_OvvO" (EEinsum "bkcd,dj->kbcj" [(EAttr (EVar "Iabab") "vovv"); (EVar "T1bold")]);
    SAugAdd "W_OvvO" (EEinsum "lkcj,bl->kbcj" [(EAttr (EVar "Iabab") "oovo"); (EVar "T1aold")]);
    SAugAdd "W_OvvO" (EEinsum "lkcd,bdlj->kbcj" [(EAttr (EVar "Iabab") "oovv"); (EVar "TTTab")]);
    SAssign (PVar "ATaa") (EEinsum "kbcj,acik->abij" [(EVar "W_ovvo"); (EVar "T2aaold")]);
    SAugAdd "ATaa" (EEinsum "kbcj,acik->abij" [(EVar "W_OvVo"); (EVar "T2abold")]);
    SAssign (PVar "ATbb") (EEinsum "kbcj,acik->abij" [(EVar "W_OVVO"); (EVar "T2bbold")]);
    SAugAdd "ATbb" (EEinsum "kbcj,caki->abij" [(EVar "W_oVvO"); (EVar "T2abold")]);
    SAssign (PVar "ATaa") (EAdd (ESub (ESub (EVar "ATaa") (ETrans (EVar "ATaa") [0; 1; 3; 2])) (ETrans (EVar "ATaa") [1; 0; 2; 3])) (ETrans (EVar "ATaa") [1; 0; 3; 2]));
    SAssign (PVar "ATbb") (EAdd (ESub (ESub (EVar "ATbb") (ETrans (EVar "ATbb") [0; 1; 3; 2])) (ETrans (EVar "ATbb") [1; 0; 2; 3])) (ETrans (EVar "ATbb") [1; 0; 3; 2]));
    SAssign (PVar "ATab") (EEinsum "kbcj,acik->abij" [(EVar "W_oVvO"); (EVar "T2aaold")]);
    SAugAdd "ATab" (EEinsum "kbcj,acik->abij" [(EVar "W_OVVO"); (EVar "T2abold")]);
    SAugAdd "ATab" (EEinsum "kacj,cbik->abij" [(EVar "W_OvvO"); (EVar "T2abold")]);
    SAugAdd "ATab" (EEinsum "kbci,ackj->abij" [(EVar "W_oVVo"); (EVar "T2abold")]);
    SAugAdd "ATab" (EEinsum "kaci,cbkj->abij" [(EVar "W_ovvo"); (EVar "T2abold")]);
    SAugAdd "ATab" (EEinsum "kaci,cbkj->abij" [(EVar "W_OvVo"); (EVar "T2bbold")]);
    SAugAdd "T2aa" (EMul (EVar "fac") (EVar "ATaa"));
    SAugAdd "T2ab" (EMul (EVar "fac") (EVar "ATab"));
    SAugAdd "T2bb" (EMul (EVar "fac") (EVar "ATbb"));
    SDel "W_ovvo";
    SDel "W_OVVO";
    SDel "W_oVvO";
    SDel "W_OvVo";
    SDel "W_oVVo";
    SDel "W_OvvO";
    SAugSub "Fvva" (EMul (ENum (1) 1) (EEinsum "jb,aj->ab" [(EVar "Fova"); (EVar "T1aold")]));
    SAugSub "Fvvb" (EMul (ENum (1) 1) (EEinsum "jb,aj->ab" [(EVar "Fovb"); (EVar "T1bold")]));
    SAssign (PVar "ATaa") (EEinsum "bc,acij->abij" [(EVar "Fvva"); (EVar "T2aaold")]);
    SAugAdd "ATaa" (EEinsum "bkij,ak->abij" [(EAttr (EVar "Ia") "vooo"); (EVar "T1aold")]);
    SAugSub "ATaa" (ETrans (EVar "ATaa") [1; 0; 2; 3]);
    SAssign (PVar "ATbb") (EEinsum "bc,acij->abij" [(EVar "Fvvb"); (EVar "T2bbold")]);
    SAugAdd "ATbb" (EEinsum "bkij,ak->abij" [(EAttr (EVar "Ib") "vooo"); (EVar "T1bold")]);
    SAugSub "ATbb" (ETrans (EVar "ATbb") [1; 0; 2; 3]);
    SAssign (PVar "ATab") (EEinsum "bc,acij->abij" [(EVar "Fvvb"); (EVar "T2abold")]);
    SAugAdd "ATab" (EEinsum "ac,cbij->abij" [(EVar "Fvva"); (EVar "T2abold")]);
    SAugSub "ATab" (EEinsum "kbij,ak->abij" [(EAttr (EVar "Iabab") "ovoo"); (EVar "T1aold")]);
    SAugSub "ATab" (EEinsum "akij,bk->abij" [(EAttr (EVar "Iabab") "vooo"); (EVar "T1bold")]);
    SAugAdd "T2aa" (EMul (EVar "fac") (EVar "ATaa"));
    SAugAdd "T2ab" (EMul (EVar "fac") (EVar "ATab"));
    SAugAdd "T2bb" (EMul (EVar "fac") (EVar "ATbb"));
    SAugAdd "Fooa" (EMul (ENum (1) 1) (EEinsum "jb,bi->ji" [(EVar "Fova"); (EVar "T1aold")]));
    SAugAdd "Foob" (EMul (ENum (1) 1) (EEinsum "jb,bi->ji" [(EVar "Fovb"); (EVar "T1bold")]));
    SAssign (PVar "ATaa") (EEinsum "kj,abik->abij" [(EVar "Fooa"); (EVar "T2aaold")]);
    SAugSub "ATaa" (EEinsum "abcj,ci->abij" [(EAttr (EVar "Ia") "vvvo"); (EVar "T1aold")]);
    SAugSub "ATaa" (ETrans (EVar "ATaa") [0; 1; 3; 2]);
    SAssign (PVar "ATbb") (EEinsum "kj,abik->abij" [(EVar "Foob"); (EVar "T2bbold")]);
    SAugSub "ATbb" (EEinsum "abcj,ci->abij" [(EAttr (EVar "Ib") "vvvo"); (EVar "T1bold")]);
    SAugSub "ATbb" (ETrans (EVar "ATbb") [0; 1; 3; 2]);
    SAssign (PVar "ATab") (EEinsum "kj,abik->abij" [(EVar "Foob"); (EVar "T2abold")]);
    SAugAdd "ATab" (EEinsum "ki,abkj->abij" [(EVar "Fooa"); (EVar "T2abold")]);
    SAugSub "ATab" (EEinsum "abcj,ci->abij" [(EAttr (EVar "Iabab") "vvvo"); (EVar "T1aold")]);
    SAugSub "ATab" (EEinsum "abic,cj->abij" [(EAttr (EVar "Iabab") "vvov"); (EVar "T1bold")]);
    SAugSub "T2aa" (EMul (EVar "fac") (EVar "ATaa"));
    SAugSub "T2ab" (EMul (EVar "fac") (EVar "ATab"));
    SAugSub "T2bb" (EMul (EVar "fac") (EVar "ATbb")) ].

(** cqcpy/cc_equations.py, lines 549-652 *)
Definition py__r_Stanton : fundef :=
  FunDef ["T1"; "T2"; "F"; "I"; "T1old"; "T2old"; "fac"] [("fac", ((1)%Z, 0%nat))]
  [ SAssign (PVar "Fov") (ECopy (EAttr (EVar "F") "ov"));
    SAssign (PVar "Fvv") (ECopy (EAttr (EVar "F") "vv"));
    SAugSub "Fvv" (EMul (ENum (1) 1) (EEinsum "jb,aj->ab" [(EAttr (EVar "F") "ov"); (EVar "T1old")]));
    SAssign (PVar "Iovvv") (ESub (EMul (ENum (2) 0) (EAttr (EVar "I") "ovvv")) (ETrans (EAttr (EVar "I") "vovv") [1; 0; 2; 3]));
    SAugAdd "Fvv" (EEinsum "jacb,cj->ab" [(EVar "Iovvv"); (EVar "T1old")]);
    SDel "Iovvv";
    SAssign (PVar "Foo") (ECopy (EAttr (EVar "F") "oo"));
    SAugAdd "Foo" (EMul (ENum (1) 1) (EEinsum "jb,bi->ji" [(EAttr (EVar "F") "ov"); (EVar "T1old")]));
    SAssign (PVar "Ioovo") (ESub (EMul (ENum (2) 0) (EAttr (EVar "I") "oovo")) (ETrans (EAttr (EVar "I") "oovo") [1; 0; 2; 3]));
    SAugAdd "Foo" (EEinsum "kjbi,bk->ji" [(EVar "Ioovo"); (EVar "T1old")]);
    SDel "Ioovo";
    SAssign (PVar "T2temp") (ESub (EMul (ENum (2) 0) (EVar "T2old")) (ETrans (EVar "T2old") [0; 1; 3; 2]));
    SAssign (PVar "Ioovv") (ESub (EMul (ENum (2) 0) (EAttr (EVar "I") "oovv")) (ETrans (EAttr (EVar "I") "oovv") [1; 0; 2; 3]));
    SAssign (PVar "tau2") (EAdd (EVar "T2old") (EMul (ENum (1) 1) (EEinsum "ai,bj->abij" [(EVar "T1old"); (EVar "T1old")])));
    SAugSub "Fvv" (EEinsum "jkbc,acjk->ab" [(EVar "Ioovv"); (EVar "tau2")]);
    SAugAdd "Foo" (EEinsum "jkbc,bcik->ji" [(EVar "Ioovv"); (EVar "tau2")]);
    SAugAdd "Fov" (EEinsum "kjcb,ck->jb" [(EVar "Ioovv"); (EVar "T1old")]);
    SDel "Ioovv";
    SAugAdd "T1" (EMul (EVar "fac") (EEinsum "jb,abij->ai" [(EVar "Fov"); (EVar "T2temp")]));
    SAugAdd "T1" (EMul (EVar "fac") (EEinsum "ab,bi->ai" [(EVar "Fvv"); (EVar "T1old")]));
    SAugSub "T1" (EMul (EVar "fac") (EEinsum "ji,aj->ai" [(EVar "Foo"); (EVar "T1old")]));
    SDel "T2temp";
    SAssign (PVar "Iovvo") (ESub (EMul (ENum (2) 0) (EAttr (EVar "I") "ovvo")) (ETrans (EAttr (EVar "I") "ovov") [0; 1; 3; 2]));
    SAugAdd "T1" (EMul (EVar "fac") (EEinsum "jabi,bj->ai" [(EVar "Iovvo"); (EVar "T1old")]));
    SDel "Iovvo";
    SAssign (PVar "Ivovv") (ESub (EMul (ENum (2) 0) (EAttr (EVar "I") "vovv")) (ETrans (EAttr (EVar "I") "vovv") [0; 1; 3; 2]));
    SAugAdd "T1" (EMul (EVar "fac") (EEinsum "ajbc,bcij->ai" [(EVar "Ivovv"); (EVar "T2old")]));
    SDel "Ivovv";
    SAssign (PVar "Iooov") (ESub (EMul (ENum (2) 0) (EAttr (EVar "I") "ooov")) (ETrans (EAttr (EVar "I") "oovo") [0; 1; 3; 2]));
    SAugSub "T1" (EMul (EVar "fac") (EEinsum "jkib,abjk->ai" [(EVar "Iooov"); (EVar "T2old")]));
    SDel "Iooov";
    SAssign (PVar "tau2") (EAdd (EVar "T2old") (EEinsum "ai,bj->abij" [(EVar "T1old"); (EVar "T1old")]));
    SAssign (PVar "Wo") (ECopy (EAttr (EVar "I") "oooo"));
    SAssign (PVar "tmp") (EEinsum "klic,cj->klij" [(EAttr (EVar "I") "ooov"); (EVar "T1old")]);
    SAugAdd "Wo" (EAdd (EVar "tmp") (ETrans (EVar "tmp") [1; 0; 3; 2]));
    SAugAdd "Wo" (EMul (ENum (1) 1) (EEinsum "klcd,cdij->klij" [(EAttr (EVar "I") "oovv"); (EVar "tau2")]));
    SAugAdd "T2" (EMul (EVar "fac") (EEinsum "klij,abkl->abij" [(EVar "Wo"); (EVar "tau2")]));
    SDel "Wo";
    SAssign (PVar "Wv") (ECopy (EAttr (EVar "I") "vvvv"));
    SAssign (PVar "tmp") (EEinsum "akcd,bk->abcd" [(EAttr (EVar "I") "vovv"); (EVar "T1old")]);
    SAugSub "Wv" (EAdd (EVar "tmp") (ETrans (EVar "tmp") [1; 0; 3; 2]));
    SAugAdd "Wv" (EMul (ENum (1) 1) (EEinsum "klcd,abkl->abcd" [(EAttr (EVar "I") "oovv"); (EVar "tau2")]));
    SAugAdd "T2" (EMul (EVar "fac") (EEinsum "abcd,cdij->abij" [(EVar "Wv"); (EVar "tau2")]));
    SDel "Wv";
    SAssign (PVar "temp") (ENeg (EEinsum "kbcj,ci,ak->abij" [(EAttr (EVar "I") "ovvo"); (EVar "T1old"); (EVar "T1old")]));
    SAugAdd "temp" (ETrans (EVar "temp") [1; 0; 3; 2]);
    SAugAdd "T2" (EMul (EVar "fac") (EVar "temp"));
    SAssign (PVar "temp") (ENeg (EEinsum "akcj,ci,bk->abij" [(EAttr (EVar "I") "vovo"); (EVar "T1old"); (EVar "T1old")]));
    SAugAdd "temp" (ETrans (EVar "temp") [1; 0; 3; 2]);
    SAugAdd "T2" (EMul (EVar "fac") (EVar "temp"));
    SDel "temp";
    SAssign (PVar "TTT1") (EMul (ENum (1) 1) (ESub (EVar "T2old") (ETrans (EVar "T2old") [0; 1; 3; 2])));
    SAugAdd "TTT1" (EEinsum "dj,bl->dbjl" [(EVar "T1old"); (EVar "T1old")]);
    SAssign (PVar "TTT2") (EAdd (EMul (ENum (1) 1) (EVar "T2old")) (EEinsum "dj,bl->dbjl" [(EVar "T1old"); (EVar "T1old")]));
    SAssign (PVar "W1") (ESub (EAttr (EVar "I") "ovvo") (ETrans (EAttr (EVar "I") "ovov") [0; 1; 3; 2]));
    SAugSub "W1" (EEinsum "bkcd,dj->kbcj" [(ESub (EAttr (EVar "I") "vovv") (ETrans (EAttr (EVar "I") "vovv") [0; 1; 3; 2])); (EVar "T1old")]);
    SAugAdd "W1" (EEinsum "kljc,bl->kbcj" [(ESub (EAttr (EVar "I") "ooov") (ETrans (EAttr (EVar "I") "oovo") [0; 1; 3; 2])); (EVar "T1old")]);
    SAugSub "W1" (EEinsum "klcd,dbjl->kbcj" [(ESub (EAttr (EVar "I") "oovv") (ETrans (EAttr (EVar "I") "oovv") [0; 1; 3; 2])); (EVar "TTT1")]);
    SAugAdd "W1" (EMul (ENum (1) 1) (EEinsum "klcd,bdjl->kbcj" [(EAttr (EVar "I") "oovv"); (EVar "T2old")]));
    SAssign (PVar "W2") (ECopy (EAttr (EVar "I") "ovvo"));
    SAugAdd "W2" (EEinsum "kbcd,dj->kbcj" [(EAttr (EVar "I") "ovvv"); (EVar "T1old")]);
    SAugSub "W2" (EEinsum "klcj,bl->kbcj" [(EAttr (EVar "I") "oovo"); (EVar "T1old")]);
    SAugSub "W2" (EEinsum "klcd,dbjl->kbcj" [(EAttr (EVar "I") "oovv"); (EVar "TTT1")]);
    SAugAdd "W2" (EMul (ENum (1) 1) (EEinsum "klcd,dblj->kbcj" [(ESub (EAttr (EVar "I") "oovv") (ETrans (EAttr (EVar "I") "oovv") [0; 1; 3; 2])); (EVar "T2old")]));
    SDel "TTT1";
    SAssign (PVar "W3") (ENeg (ECopy (ETrans (EAttr (EVar "I") "ovov") [0; 1; 3; 2])));
    SAugSub "W3" (EEinsum "kbdc,dj->kbcj" [(EAttr (EVar "I") "ovvv"); (EVar "T1old")]);
    SAugAdd "W3" (EEinsum "kljc,bl->kbcj" [(EAttr (EVar "I") "ooov"); (EVar "T1old")]);
    SAugAdd "W3" (EEinsum "kldc,dbjl->kbcj" [(EAttr (EVar "I") "oovv"); (EVar "TTT2")]);
    SDel "TTT2";
    SAssign (PVar "AT") (EEinsum "kbcj,acik->abij" [(EVar "W2"); (ESub (EVar "T2old") (ETrans (EVar "T2old") [0; 1; 3; 2]))]);
    SAugAdd "AT" (EEinsum "kbcj,acik->abij" [(EVar "W1"); (EVar "T2old")]);
    SAugAdd "AT" (EEinsum "kacj,cbik->abij" [(EVar "W3"); (EVar "T2old")]);
    SDel "W1";
    SDel "W2";
    SDel "W3";
    SAugAdd "T2" (EMul (EVar "fac") (EAdd (EVar "AT") (ETrans (EVar "AT") [1; 0; 3; 2])));
    SAugSub "Fvv" (EMul (ENum (1) 1) (EEinsum "jb,aj->ab" [(EVar "Fov"); (EVar "T1old")]));
    SAssign (PVar "AT") (EEinsum "bc,acij->abij" [(EVar "Fvv"); (EVar "T2old")]);
    SAugSub "AT" (EEinsum "kbij,ak->abij" [(EAttr (EVar "I") "ovoo"); (EVar "T1old")]);
    SAugAdd "T2" (EMul (EVar "fac") (EAdd (EVar "AT") (ETrans (EVar "AT") [1; 0; 3; 2])));
    SAugAdd "Foo" (EMul (ENum (1) 1) (EEinsum "jb,bi->ji" [(EVar "Fov"); (EVar "T1old")]));
    SAssign (PVar "AT") (EEinsum "kj,abik->abij" [(EVar "Foo"); (EVar "T2old")]);
    SAugSub "AT" (EEinsum "abcj,ci->abij" [(EAttr (EVar "I") "vvvo"); (EVar "T1old")]);
    SAugSub "T2" (EMul (EVar "fac") (EAdd (EVar "AT") (ETrans (EVar "AT") [1; 0; 3; 2]))) ].

(** cqcpy/cc_equations.py, lines 655-661 *)
Definition py_lccd_simple : fundef :=
  FunDef ["F"; "I"; "T2old"] []
  [ SAssign (PVar "T2") (ECopy (EAttr (EVar "I") "vvoo"));
    SCall None "_D_D" [(EVar "T2"); (EVar "F"); (EVar "I"); (EVar "T2old")];
    SReturn (EVar "T2") ].

(** cqcpy/cc_equations.py, lines 664-676 *)
Definition py_lccsd_simple : fundef :=
  FunDef ["F"; "I"; "T1old"; "T2old"] []
  [ SAssign (PVar "T1") (ECopy (EAttr (EVar "F") "vo"));
    SCall None "_S_S" [(EVar "T1"); (EVar "F"); (EVar "I"); (EVar "T1old")];
    SCall None "_S_D" [(EVar "T1"); (EVar "F"); (EVar "I"); (EVar "T2old")];
    SAssign (PVar "T2") (ECopy (EAttr (EVar "I") "vvoo"));
    SCall None "_D_S" [(EVar "T2"); (EVar "F"); (EVar "I"); (EVar "T1old")];
    SCall None "_D_D" [(EVar "T2"); (EVar "F"); (EVar "I"); (EVar "T2old")];
    SReturn (ETuple [(EVar "T1"); (EVar "T2")]) ].

(** cqcpy/cc_equations.py, lines 679-686 *)
Definition py_ccd_simple : fundef :=
  FunDef ["F"; "I"; "T2old"] []
  [ SAssign (PVar "T2") (ECopy (EAttr (EVar "I") "vvoo"));
    SCall None "_D_D" [(EVar "T2"); (EVar "F"); (EVar "I"); (EVar "T2old")];
    SCall None "_D_DD" [(EVar "T2"); (EVar "F"); (EVar "I"); (EVar "T2old")];
    SReturn (EVar "T2") ].

(** cqcpy/cc_equations.py, lines 689-696 *)
Definition py_ccd_ladder_simple : fundef :=
  FunDef ["I"; "T2old"] []
  [ SAssign (PVar "T2") (ECopy (EAttr (EVar "I") "vvoo"));
    SCall None "_D_D_ladder" [(EVar "T2"); (EVar "I"); (EVar "T2old")];
    SCall None "_D_DD_ladder" [(EVar "T2"); (EVar "I"); (EVar "T2old")];
    SReturn (EVar "T2") ].

(** cqcpy/cc_equations.py, lines 699-706 *)
Definition py_ccd_ring_simple : fundef :=
  FunDef ["I"; "T2old"] []
  [ SAssign (PVar "T2") (ECopy (EAttr (EVar "I") "vvoo"));
    SCall None "_D_D_ring" [(EVar "T2"); (EVar "I"); (EVar "T2old")];
    SCall None "_D_DD_ring" [(EVar "T2"); (EVar "I"); (EVar "T2old")];
    SReturn (EVar "T2") ].

(** cqcpy/cc_equations.py, lines 709-730 *)
Definition py_ccsd_simple : fundef :=
  FunDef ["F"; "I"; "T1old"; "T2old"] []
  [ SAssign (PVar "T1") (ECopy (EAttr (EVar "F") "vo"));
    SCall None "_S_S" [(EVar "T1"); (EVar "F"); (EVar "I"); (EVar "T1old")];
    SCall None "_S_D" [(EVar "T1"); (EVar "F"); (EVar "I"); (EVar "T2old")];
    SCall None "_S_SS" [(EVar "T1"); (EVar "F"); (EVar "I"); (EVar "T1old")];
    SCall None "_S_SD" [(EVar "T1"); (EVar "F"); (EVar "I"); (EVar "T1old"); (EVar "T2old")];
    SCall None "_S_SSS" [(EVar "T1"); (EVar "F"); (EVar "I"); (EVar "T1old")];
    SAssign (PVar "T2") (ECopy (EAttr (EVar "I") "vvoo"));
    SCall None "_D_S" [(EVar "T2"); (EVar "F"); (EVar "I"); (EVar "T1old")];
    SCall None "_D_D" [(EVar "T2"); (EVar "F"); (EVar "I"); (EVar "T2old")];
    SCall None "_D_SS" [(EVar "T2"); (EVar "F"); (EVar "I"); (EVar "T1old")];
    SCall None "_D_SD" [(EVar "T2"); (EVar "F"); (EVar "I"); (EVar "T1old"); (EVar "T2old")];
    SCall None "_D_DD" [(EVar "T2"); (EVar "F"); (EVar "I"); (EVar "T2old")];
    SCall None "_D_SSS" [(EVar "T2"); (EVar "F"); (EVar "I"); (EVar "T1old")];
    SCall None "_D_SSD" [(EVar "T2"); (EVar "F"); (EVar "I"); (EVar "T1old"); (EVar "T2old")];
    SCall None "_D_SSSS" [(EVar "T2"); (EVar "F"); (EVar "I"); (EVar "T1old")];
    SReturn (ETuple [(EVar "T1"); (EVar "T2")]) ].

(** cqcpy/cc_equations.py, lines 733-742 *)
Definition py_ccsd_stanton : fundef :=
  FunDef ["F"; "I"; "T1old"; "T2old"] []
  [ SAssign (PVar "T1") (ECopy (EAttr (EVar "F") "vo"));
    SAssign (PVar "T2") (ECopy (EAttr (EVar "I") "vvoo"));
    SCall None "_Stanton" [(EVar "T1"); (EVar "T2"); (EVar "F"); (EVar "I"); (EVar "T1old"); (EVar "T2old")];
    SReturn (ETuple [(EVar "T1"); (EVar "T2")]) ].

(** cqcpy/cc_equations.py, lines 745-755 *)
Definition py_uccsd_stanton : fundef :=
  FunDef ["Faa"; "Fbb"; "Ia"; "Ib"; "I_abab"; "T1old"; "T2old"] []
  [ SAssign (PVar "T1a") (ECopy (EAttr (EVar "Faa") "vo"));
    SAssign (PVar "T1b") (ECopy (EAttr (EVar "Fbb") "vo"));
    SAssign (PVar "T2aa") (ECopy (EAttr (EVar "Ia") "vvoo"));
    SAssign (PVar "T2ab") (ECopy (EAttr (EVar "I_abab") "vvoo"));
    SAssign (PVar "T2bb") (ECopy (EAttr (EVar "Ib") "vvoo"));
    SCall None "_u_Stanton" [(EVar "T1a"); (EVar "T1b"); (EVar "T2aa"); (EVar "T2ab"); (EVar "T2bb"); (EVar "Faa"); (EVar "Fbb"); (EVar "Ia"); (EVar "Ib"); (EVar "I_abab"); (EVar "T1old"); (EVar "T2old")];
    SReturn (ETuple [(ETuple [(EVar "T1a"); (EVar "T1b")]); (ETuple [(EVar "T2aa"); (EVar "T2ab"); (EVar "T2bb")])]) ].

(** cqcpy/cc_equations.py, lines 758-764 *)
Definition py_rccsd_stanton : fundef :=
  FunDef ["F"; "I"; "T1old"; "T2old"] []
  [ SAssign (PVar "T1") (ECopy (EAttr (EVar "F") "vo"));
    SAssign (PVar "T2") (ECopy (EAttr (EVar "I") "vvoo"));
    SCall None "_r_Stanton" [(EVar "T1"); (EVar "T2"); (EVar "F"); (EVar "I"); (EVar "T1old"); (EVar "T2old")];
    SReturn (ETuple [(EVar "T1"); (EVar "T2")]) ].

(** cqcpy/cc_equations.py, lines 767-775 *)
Definition py_ccd_stanton : fundef :=
  FunDef ["F"; "I"; "T2old"] []
  [ SAssign (PVar "T2") (ECopy (EAttr (EVar "I") "vvoo"));
    SCall None "_Stanton_ccd" [(EVar "T2"); (EVar "F"); (EVar "I"); (EVar "T2old")];
    SReturn (EVar "T2") ].

(** cqcpy/cc_equations.py, lines 778-779 *)
Definition py__LS_TS : fundef :=
  FunDef ["L1"; "I"; "T1old"; "fac"] [("fac", ((1)%Z, 0%nat))]
  [ SAugAdd "L1" (EMul (EVar "fac") (EEinsum "jiba,bj->ia" [(EAttr (EVar "I") "oovv"); (EVar "T1old")])) ].

(** cqcpy/cc_equations.py, lines 782-786 *)
Definition py__u_LS_TS : fundef :=
  FunDef ["L1a"; "L1b"; "Ia"; "Ib"; "Iabab"; "T1aold"; "T1bold"; "fac"] [("fac", ((1)%Z, 0%nat))]
  [ SAugAdd "L1a" (EMul (EVar "fac") (EEinsum "jiba,bj->ia" [(EAttr (EVar "Ia") "oovv"); (EVar "T1aold")]));
    SAugAdd "L1a" (EMul (EVar "fac") (EEinsum "ijab,bj->ia" [(EAttr (EVar "Iabab") "oovv"); (EVar "T1bold")]));
    SAugAdd "L1b" (EMul (EVar "fac") (EEinsum "jiba,bj->ia" [(EAttr (EVar "Ib") "oovv"); (EVar "T1bold")]));
    SAugAdd "L1b" (EMul (EVar "fac") (EEinsum "jiba,bj->ia" [(EAttr (EVar "Iabab") "oovv"); (EVar "T1aold")])) ].

(** cqcpy/cc_equations.py, lines 789-792 *)
Definition py__r_LS_TS : fundef :=
  FunDef ["L1"; "I"; "T1old"; "fac"] [("fac", ((1)%Z, 0%nat))]
  [ SAugAdd "L1" (EMul (EVar "fac") (EEinsum "jiba,bj->ia" [(ESub (EAttr (EVar "I") "oovv") (ETrans (EAttr (EVar "I") "oovv") [0; 1; 3; 2])); (EVar "T1old")]));
    SAugAdd "L1" (EMul (EVar "fac") (EEinsum "ijab,bj->ia" [(EAttr (EVar "I") "oovv"); (EVar "T1old")])) ].

(** cqcpy/cc_equations.py, lines 795-801 *)
Definition py__LS_LS : fundef :=
  FunDef ["L1"; "F"; "I"; "L1old"; "fac"] [("fac", ((1)%Z, 0%nat))]
  [ SAugAdd "L1" (EMul (EVar "fac") (EEinsum "ib,ba->ia" [(EVar "L1old"); (EAttr (EVar "F") "vv")]));
    SAugSub "L1" (EMul (EVar "fac") (EEinsum "ja,ij->ia" [(EVar "L1old"); (EAttr (EVar "F") "oo")]));
    SAugSub "L1" (EMul (EVar "fac") (EEinsum "jb,biaj->ia" [(EVar "L1old"); (EAttr (EVar "I") "vovo")])) ].

(** cqcpy/cc_equations.py, lines 804-816 *)
Definition py__LS_LSTS : fundef :=
  FunDef ["L1"; "F"; "I"; "L1old"; "T1old"; "fac"] [("fac", ((1)%Z, 0%nat))]
  [ SAugSub "L1" (EMul (EVar "fac") (EEinsum "ja,ib,bj->ia" [(EVar "L1old"); (EAttr (EVar "F") "ov"); (EVar "T1old")]));
    SAugSub "L1" (EMul (EVar "fac") (EEinsum "ib,ja,bj->ia" [(EVar "L1old"); (EAttr (EVar "F") "ov"); (EVar "T1old")]));
    SAugAdd "L1" (EMul (EVar "fac") (EEinsum "ic,cjab,bj->ia" [(EVar "L1old"); (EAttr (EVar "I") "vovv"); (EVar "T1old")]));
    SAugSub "L1" (EMul (EVar "fac") (EEinsum "ka,ijkb,bj->ia" [(EVar "L1old"); (EAttr (EVar "I") "ooov"); (EVar "T1old")]));
    SAugAdd "L1" (EMul (EVar "fac") (EEinsum "jc,ciba,bj->ia" [(EVar "L1old"); (EAttr (EVar "I") "vovv"); (EVar "T1old")]));
    SAugSub "L1" (EMul (EVar "fac") (EEinsum "kb,jika,bj->ia" [(EVar "L1old"); (EAttr (EVar "I") "ooov"); (EVar "T1old")])) ].

(** cqcpy/cc_equations.py, lines 819-825 *)
Definition py__LS_LSTD : fundef :=
  FunDef ["L1"; "I"; "L1old"; "T2old"; "fac"] [("fac", ((1)%Z, 0%nat))]
  [ SAugSub "L1" (EMul (EMul (ENum (1) 1) (EVar "fac")) (EEinsum "ja,ikbc,bcjk->ia" [(EVar "L1old"); (EAttr (EVar "I") "oovv"); (EVar "T2old")]));
    SAugSub "L1" (EMul (EMul (ENum (1) 1) (EVar "fac")) (EEinsum "ib,jkac,bcjk->ia" [(EVar "L1old"); (EAttr (EVar "I") "oovv"); (EVar "T2old")]));
    SAugAdd "L1" (EMul (EVar "fac") (EEinsum "jb,kica,bcjk->ia" [(EVar "L1old"); (EAttr (EVar "I") "oovv"); (EVar "T2old")])) ].

(** cqcpy/cc_equations.py, lines 828-834 *)
Definition py__LS_LSTSS : fundef :=
  FunDef ["L1"; "I"; "L1old"; "T1old"; "fac"] [("fac", ((1)%Z, 0%nat))]
  [ SAugSub "L1" (EMul (EVar "fac") (EEinsum "ja,ikbc,bj,ck->ia" [(EVar "L1old"); (EAttr (EVar "I") "oovv"); (EVar "T1old"); (EVar "T1old")]));
    SAugSub "L1" (EMul (EVar "fac") (EEinsum "ib,jkac,bj,ck->ia" [(EVar "L1old"); (EAttr (EVar "I") "oovv"); (EVar "T1old"); (EVar "T1old")]));
    SAugSub "L1" (EMul (EVar "fac") (EEinsum "jc,kiba,bj,ck->ia" [(EVar "L1old"); (EAttr (EVar "I") "oovv"); (EVar "T1old"); (EVar "T1old")])) ].

(** cqcpy/cc_equations.py, lines 837-841 *)
Definition py__LS_LD : fundef :=
  FunDef ["L1"; "F"; "I"; "L2old"; "fac"] [("fac", ((1)%Z, 0%nat))]
  [ SAugAdd "L1" (EMul (EMul (ENum (1) 1) (EVar "fac")) (EEinsum "ijcb,cbaj->ia" [(EVar "L2old"); (EAttr (EVar "I") "vvvo")]));
    SAugAdd "L1" (EMul (EMul (ENum (1) 1) (EVar "fac")) (EEinsum "kjab,bikj->ia" [(EVar "L2old"); (EAttr (EVar "I") "vooo")])) ].

(** cqcpy/cc_equations.py, lines 844-852 *)
Definition py__LS_LDTS : fundef :=
  FunDef ["L1"; "F"; "I"; "L2old"; "T1old"; "fac"] [("fac", ((1)%Z, 0%nat))]
  [ SAugAdd "L1" (EMul (EVar "fac") (EEinsum "jkac,cibk,bj->ia" [(EVar "L2old"); (EAttr (EVar "I") "vovo"); (EVar "T1old")]));
    SAugAdd "L1" (EMul (EVar "fac") (EEinsum "ikbc,cjak,bj->ia" [(EVar "L2old"); (EAttr (EVar "I") "vovo"); (EVar "T1old")]));
    SAugAdd "L1" (EMul (EMul (ENum (1) 1) (EVar "fac")) (EEinsum "ijcd,cdab,bj->ia" [(EVar "L2old"); (EAttr (EVar "I") "vvvv"); (EVar "T1old")]));
    SAugAdd "L1" (EMul (EMul (ENum (1) 1) (EVar "fac")) (EEinsum "klab,ijkl,bj->ia" [(EVar "L2old"); (EAttr (EVar "I") "oooo"); (EVar "T1old")])) ].

(** cqcpy/cc_equations.py, lines 855-871 *)
Definition py__LS_LDTD : fundef :=
  FunDef ["L1"; "F"; "I"; "L2old"; "T2old"; "fac"] [("fac", ((1)%Z, 0%nat))]
  [ SAugSub "L1" (EMul (EMul (ENum (1) 1) (EVar "fac")) (EEinsum "jkba,ic,bcjk->ia" [(EVar "L2old"); (EAttr (EVar "F") "ov"); (EVar "T2old")]));
    SAugSub "L1" (EMul (EMul (ENum (1) 1) (EVar "fac")) (EEinsum "jibc,ka,bcjk->ia" [(EVar "L2old"); (EAttr (EVar "F") "ov"); (EVar "T2old")]));
    SAugAdd "L1" (EMul (EMul (ENum (1) 1) (EVar "fac")) (EEinsum "jkbd,dica,bcjk->ia" [(EVar "L2old"); (EAttr (EVar "I") "vovv"); (EVar "T2old")]));
    SAugSub "L1" (EMul (EMul (ENum (1) 1) (EVar "fac")) (EEinsum "jlbc,kila,bcjk->ia" [(EVar "L2old"); (EAttr (EVar "I") "ooov"); (EVar "T2old")]));
    SAugSub "L1" (EMul (EVar "fac") (EEinsum "jibd,dkca,bcjk->ia" [(EVar "L2old"); (EAttr (EVar "I") "vovv"); (EVar "T2old")]));
    SAugAdd "L1" (EMul (EVar "fac") (EEinsum "jlba,kilc,bcjk->ia" [(EVar "L2old"); (EAttr (EVar "I") "ooov"); (EVar "T2old")]));
    SAugAdd "L1" (EMul (EMul (ENum (1) 2) (EVar "fac")) (EEinsum "jkad,dibc,bcjk->ia" [(EVar "L2old"); (EAttr (EVar "I") "vovv"); (EVar "T2old")]));
    SAugSub "L1" (EMul (EMul (ENum (1) 2) (EVar "fac")) (EEinsum "ilbc,jkla,bcjk->ia" [(EVar "L2old"); (EAttr (EVar "I") "ooov"); (EVar "T2old")])) ].

(** cqcpy/cc_equations.py, lines 874-882 *)
Definition py__LS_LDTSS : fundef :=
  FunDef ["L1"; "F"; "I"; "L2old"; "T1old"; "fac"] [("fac", ((1)%Z, 0%nat))]
  [ SAugSub "L1" (EMul (EVar "fac") (EEinsum "ikdb,djac,bj,ck->ia" [(EVar "L2old"); (EAttr (EVar "I") "vovv"); (EVar "T1old"); (EVar "T1old")]));
    SAugAdd "L1" (EMul (EVar "fac") (EEinsum "lkab,ijlc,bj,ck->ia" [(EVar "L2old"); (EAttr (EVar "I") "ooov"); (EVar "T1old"); (EVar "T1old")]));
    SAugAdd "L1" (EMul (EMul (ENum (1) 1) (EVar "fac")) (EEinsum "jkad,dibc,bj,ck->ia" [(EVar "L2old"); (EAttr (EVar "I") "vovv"); (EVar "T1old"); (EVar "T1old")]));
    SAugSub "L1" (EMul (EMul (ENum (1) 1) (EVar "fac")) (EEinsum "ilbc,jkla,bj,ck->ia" [(EVar "L2old"); (EAttr (EVar "I") "ooov"); (EVar "T1old"); (EVar "T1old")])) ].

(** cqcpy/cc_equations.py, lines 885-901 *)
Definition py__LS_LDTSD : fundef :=
  FunDef ["L1"; "I"; "L2old"; "T1old"; "T2old"; "fac"] [("fac", ((1)%Z, 0%nat))]
  [ SAugSub "L1" (EMul (EMul (ENum (1) 1) (EVar "fac")) (EEinsum "klca,ijdb,bj,cdkl->ia" [(EVar "L2old"); (EAttr (EVar "I") "oovv"); (EVar "T1old"); (EVar "T2old")]));
    SAugSub "L1" (EMul (EMul (ENum (1) 1) (EVar "fac")) (EEinsum "kicd,ljab,bj,cdkl->ia" [(EVar "L2old"); (EAttr (EVar "I") "oovv"); (EVar "T1old"); (EVar "T2old")]));
    SAugSub "L1" (EMul (EVar "fac") (EEinsum "jlad,ikbc,bj,cdkl->ia" [(EVar "L2old"); (EAttr (EVar "I") "oovv"); (EVar "T1old"); (EVar "T2old")]));
    SAugSub "L1" (EMul (EVar "fac") (EEinsum "ilbd,jkac,bj,cdkl->ia" [(EVar "L2old"); (EAttr (EVar "I") "oovv"); (EVar "T1old"); (EVar "T2old")]));
    SAugAdd "L1" (EMul (EMul (ENum (1) 2) (EVar "fac")) (EEinsum "klab,ijcd,bj,cdkl->ia" [(EVar "L2old"); (EAttr (EVar "I") "oovv"); (EVar "T1old"); (EVar "T2old")]));
    SAugAdd "L1" (EMul (EMul (ENum (1) 2) (EVar "fac")) (EEinsum "ijcd,klab,bj,cdkl->ia" [(EVar "L2old"); (EAttr (EVar "I") "oovv"); (EVar "T1old"); (EVar "T2old")]));
    SAugSub "L1" (EMul (EMul (ENum (1) 1) (EVar "fac")) (EEinsum "klcb,jida,bj,cdkl->ia" [(EVar "L2old"); (EAttr (EVar "I") "oovv"); (EVar "T1old"); (EVar "T2old")]));
    SAugSub "L1" (EMul (EMul (ENum (1) 1) (EVar "fac")) (EEinsum "kjcd,liba,bj,cdkl->ia" [(EVar "L2old"); (EAttr (EVar "I") "oovv"); (EVar "T1old"); (EVar "T2old")])) ].

(** cqcpy/cc_equations.py, lines 904-910 *)
Definition py__LS_LDTSSS : fundef :=
  FunDef ["L1"; "I"; "L2old"; "T1old"; "fac"] [("fac", ((1)%Z, 0%nat))]
  [ SAugAdd "L1" (EMul (EMul (ENum (1) 1) (EVar "fac")) (EEinsum "jlac,ikbd,ck,dl,bj->ia" [(EVar "L2old"); (EAttr (EVar "I") "oovv"); (EVar "T1old"); (EVar "T1old"); (EVar "T1old")]));
    SAugAdd "L1" (EMul (EMul (ENum (1) 1) (EVar "fac")) (EEinsum "ilbc,jkad,ck,dl,bj->ia" [(EVar "L2old"); (EAttr (EVar "I") "oovv"); (EVar "T1old"); (EVar "T1old"); (EVar "T1old")])) ].

(** cqcpy/cc_equations.py, lines 913-924 *)
Definition py__LD_LS : fundef :=
  FunDef ["L2"; "F"; "I"; "L1old"; "fac"] [("fac", ((1)%Z, 0%nat))]
  [ SAugAdd "L2" (EMul (EVar "fac") (EEinsum "jb,ia->ijab" [(EAttr (EVar "F") "ov"); (EVar "L1old")]));
    SAugSub "L2" (EMul (EVar "fac") (EEinsum "ib,ja->ijab" [(EAttr (EVar "F") "ov"); (EVar "L1old")]));
    SAugSub "L2" (EMul (EVar "fac") (EEinsum "ja,ib->ijab" [(EAttr (EVar "F") "ov"); (EVar "L1old")]));
    SAugAdd "L2" (EMul (EVar "fac") (EEinsum "ia,jb->ijab" [(EAttr (EVar "F") "ov"); (EVar "L1old")]));
    SAugAdd "L2" (EMul (EVar "fac") (EEinsum "cjab,ic->ijab" [(EAttr (EVar "I") "vovv"); (EVar "L1old")]));
    SAugSub "L2" (EMul (EVar "fac") (EEinsum "ciab,jc->ijab" [(EAttr (EVar "I") "vovv"); (EVar "L1old")]));
    SAugSub "L2" (EMul (EVar "fac") (EEinsum "ijkb,ka->ijab" [(EAttr (EVar "I") "ooov"); (EVar "L1old")]));
    SAugAdd "L2" (EMul (EVar "fac") (EEinsum "ijka,kb->ijab" [(EAttr (EVar "I") "ooov"); (EVar "L1old")])) ].

(** cqcpy/cc_equations.py, lines 927-938 *)
Definition py__LD_LSTS : fundef :=
  FunDef ["L2"; "F"; "I"; "L1old"; "T1old"; "fac"] [("fac", ((1)%Z, 0%nat))]
  [ SAugAdd "L2" (EMul (EVar "fac") (EEinsum "jb,ikac,ck->ijab" [(EVar "L1old"); (EAttr (EVar "I") "oovv"); (EVar "T1old")]));
    SAugSub "L2" (EMul (EVar "fac") (EEinsum "ib,jkac,ck->ijab" [(EVar "L1old"); (EAttr (EVar "I") "oovv"); (EVar "T1old")]));
    SAugSub "L2" (EMul (EVar "fac") (EEinsum "ja,ikbc,ck->ijab" [(EVar "L1old"); (EAttr (EVar "I") "oovv"); (EVar "T1old")]));
    SAugAdd "L2" (EMul (EVar "fac") (EEinsum "ia,jkbc,ck->ijab" [(EVar "L1old"); (EAttr (EVar "I") "oovv"); (EVar "T1old")]));
    SAugSub "L2" (EMul (EVar "fac") (EEinsum "ic,kjab,ck->ijab" [(EVar "L1old"); (EAttr (EVar "I") "oovv"); (EVar "T1old")]));
    SAugAdd "L2" (EMul (EVar "fac") (EEinsum "jc,kiab,ck->ijab" [(EVar "L1old"); (EAttr (EVar "I") "oovv"); (EVar "T1old")]));
    SAugSub "L2" (EMul (EVar "fac") (EEinsum "ka,ijcb,ck->ijab" [(EVar "L1old"); (EAttr (EVar "I") "oovv"); (EVar "T1old")]));
    SAugAdd "L2" (EMul (EVar "fac") (EEinsum "kb,ijca,ck->ijab" [(EVar "L1old"); (EAttr (EVar "I") "oovv"); (EVar "T1old")])) ].

(** cqcpy/cc_equations.py, lines 941-956 *)
Definition py__LD_LD : fundef :=
  FunDef ["L2"; "F"; "I"; "L2old"; "fac"] [("fac", ((1)%Z, 0%nat))]
  [ SAugAdd "L2" (EMul (EVar "fac") (EEinsum "cb,ijac->ijab" [(EAttr (EVar "F") "vv"); (EVar "L2old")]));
    SAugSub "L2" (EMul (EVar "fac") (EEinsum "ca,ijbc->ijab" [(EAttr (EVar "F") "vv"); (EVar "L2old")]));
    SAugSub "L2" (EMul (EVar "fac") (EEinsum "jk,ikab->ijab" [(EAttr (EVar "F") "oo"); (EVar "L2old")]));
    SAugAdd "L2" (EMul (EVar "fac") (EEinsum "ik,jkab->ijab" [(EAttr (EVar "F") "oo"); (EVar "L2old")]));
    SAugAdd "L2" (EMul (EMul (ENum (1) 1) (EVar "fac")) (EEinsum "cdab,ijcd->ijab" [(EAttr (EVar "I") "vvvv"); (EVar "L2old")]));
    SAugAdd "L2" (EMul (EMul (ENum (1) 1) (EVar "fac")) (EEinsum "ijkl,klab->ijab" [(EAttr (EVar "I") "oooo"); (EVar "L2old")]));
    SAugSub "L2" (EMul (EVar "fac") (EEinsum "cjbk,ikac->ijab" [(EAttr (EVar "I") "vovo"); (EVar "L2old")]));
    SAugAdd "L2" (EMul (EVar "fac") (EEinsum "cibk,jkac->ijab" [(EAttr (EVar "I") "vovo"); (EVar "L2old")]));
    SAugAdd "L2" (EMul (EVar "fac") (EEinsum "cjak,ikbc->ijab" [(EAttr (EVar "I") "vovo"); (EVar "L2old")]));
    SAugSub "L2" (EMul (EVar "fac") (EEinsum "ciak,jkbc->ijab" [(EAttr (EVar "I") "vovo"); (EVar "L2old")])) ].

(** cqcpy/cc_equations.py, lines 959-963 *)
Definition py__LD_LD_ladder : fundef :=
  FunDef ["L2"; "I"; "L2old"; "fac"] [("fac", ((1)%Z, 0%nat))]
  [ SAugAdd "L2" (EMul (EMul (ENum (1) 1) (EVar "fac")) (EEinsum "cdab,ijcd->ijab" [(EAttr (EVar "I") "vvvv"); (EVar "L2old")]));
    SAugAdd "L2" (EMul (EMul (ENum (1) 1) (EVar "fac")) (EEinsum "ijkl,klab->ijab" [(EAttr (EVar "I") "oooo"); (EVar "L2old")])) ].

(** cqcpy/cc_equations.py, lines 966-992 *)
Definition py__LD_LDTS : fundef :=
  FunDef ["L2"; "F"; "I"; "L2old"; "T1old"; "fac"] [("fac", ((1)%Z, 0%nat))]
  [ SAugSub "L2" (EMul (EVar "fac") (EEinsum "ikab,jc,ck->ijab" [(EVar "L2old"); (EAttr (EVar "F") "ov"); (EVar "T1old")]));
    SAugAdd "L2" (EMul (EVar "fac") (EEinsum "jkab,ic,ck->ijab" [(EVar "L2old"); (EAttr (EVar "F") "ov"); (EVar "T1old")]));
    SAugSub "L2" (EMul (EVar "fac") (EEinsum "ijac,kb,ck->ijab" [(EVar "L2old"); (EAttr (EVar "F") "ov"); (EVar "T1old")]));
    SAugAdd "L2" (EMul (EVar "fac") (EEinsum "ijbc,ka,ck->ijab" [(EVar "L2old"); (EAttr (EVar "F") "ov"); (EVar "T1old")]));
    SAugAdd "L2" (EMul (EVar "fac") (EEinsum "ijad,dkbc,ck->ijab" [(EVar "L2old"); (EAttr (EVar "I") "vovv"); (EVar "T1old")]));
    SAugSub "L2" (EMul (EVar "fac") (EEinsum "ijbd,dkac,ck->ijab" [(EVar "L2old"); (EAttr (EVar "I") "vovv"); (EVar "T1old")]));
    SAugSub "L2" (EMul (EVar "fac") (EEinsum "ilab,jklc,ck->ijab" [(EVar "L2old"); (EAttr (EVar "I") "ooov"); (EVar "T1old")]));
    SAugAdd "L2" (EMul (EVar "fac") (EEinsum "jlab,iklc,ck->ijab" [(EVar "L2old"); (EAttr (EVar "I") "ooov"); (EVar "T1old")]));
    SAugAdd "L2" (EMul (EVar "fac") (EEinsum "ikad,djcb,ck->ijab" [(EVar "L2old"); (EAttr (EVar "I") "vovv"); (EVar "T1old")]));
    SAugSub "L2" (EMul (EVar "fac") (EEinsum "jkad,dicb,ck->ijab" [(EVar "L2old"); (EAttr (EVar "I") "vovv"); (EVar "T1old")]));
    SAugSub "L2" (EMul (EVar "fac") (EEinsum "ikbd,djca,ck->ijab" [(EVar "L2old"); (EAttr (EVar "I") "vovv"); (EVar "T1old")]));
    SAugAdd "L2" (EMul (EVar "fac") (EEinsum "jkbd,dica,ck->ijab" [(EVar "L2old"); (EAttr (EVar "I") "vovv"); (EVar "T1old")]));
    SAugSub "L2" (EMul (EVar "fac") (EEinsum "ilac,kjlb,ck->ijab" [(EVar "L2old"); (EAttr (EVar "I") "ooov"); (EVar "T1old")]));
    SAugAdd "L2" (EMul (EVar "fac") (EEinsum "jlac,kilb,ck->ijab" [(EVar "L2old"); (EAttr (EVar "I") "ooov"); (EVar "T1old")]));
    SAugAdd "L2" (EMul (EVar "fac") (EEinsum "ilbc,kjla,ck->ijab" [(EVar "L2old"); (EAttr (EVar "I") "ooov"); (EVar "T1old")]));
    SAugSub "L2" (EMul (EVar "fac") (EEinsum "jlbc,kila,ck->ijab" [(EVar "L2old"); (EAttr (EVar "I") "ooov"); (EVar "T1old")]));
    SAugAdd "L2" (EMul (EVar "fac") (EEinsum "ijcd,dkab,ck->ijab" [(EVar "L2old"); (EAttr (EVar "I") "vovv"); (EVar "T1old")]));
    SAugSub "L2" (EMul (EVar "fac") (EEinsum "klab,ijlc,ck->ijab" [(EVar "L2old"); (EAttr (EVar "I") "ooov"); (EVar "T1old")])) ].

(** cqcpy/cc_equations.py, lines 995-1016 *)
Definition py__LD_LDTD : fundef :=
  FunDef ["L2"; "I"; "L2old"; "T2old"; "fac"] [("fac", ((1)%Z, 0%nat))]
  [ SAugSub "L2" (EMul (EMul (ENum (1) 1) (EVar "fac")) (EEinsum "jlcd,cdkl,ikab->ijab" [(EAttr (EVar "I") "oovv"); (EVar "T2old"); (EVar "L2old")]));
    SAugAdd "L2" (EMul (EMul (ENum (1) 1) (EVar "fac")) (EEinsum "ilcd,cdkl,jkab->ijab" [(EAttr (EVar "I") "oovv"); (EVar "T2old"); (EVar "L2old")]));
    SAugSub "L2" (EMul (EMul (ENum (1) 1) (EVar "fac")) (EEinsum "klbd,cdkl,ijac->ijab" [(EAttr (EVar "I") "oovv"); (EVar "T2old"); (EVar "L2old")]));
    SAugAdd "L2" (EMul (EMul (ENum (1) 1) (EVar "fac")) (EEinsum "klad,cdkl,ijbc->ijab" [(EAttr (EVar "I") "oovv"); (EVar "T2old"); (EVar "L2old")]));
    SAugAdd "L2" (EMul (EVar "fac") (EEinsum "ljdb,cdkl,ikac->ijab" [(EAttr (EVar "I") "oovv"); (EVar "T2old"); (EVar "L2old")]));
    SAugSub "L2" (EMul (EVar "fac") (EEinsum "lidb,cdkl,jkac->ijab" [(EAttr (EVar "I") "oovv"); (EVar "T2old"); (EVar "L2old")]));
    SAugSub "L2" (EMul (EVar "fac") (EEinsum "ljda,cdkl,ikbc->ijab" [(EAttr (EVar "I") "oovv"); (EVar "T2old"); (EVar "L2old")]));
    SAugAdd "L2" (EMul (EVar "fac") (EEinsum "lida,cdkl,jkbc->ijab" [(EAttr (EVar "I") "oovv"); (EVar "T2old"); (EVar "L2old")]));
    SAugSub "L2" (EMul (EMul (ENum (1) 1) (EVar "fac")) (EEinsum "ijdb,cdkl,klca->ijab" [(EAttr (EVar "I") "oovv"); (EVar "T2old"); (EVar "L2old")]));
    SAugAdd "L2" (EMul (EMul (ENum (1) 1) (EVar "fac")) (EEinsum "ijda,cdkl,klcb->ijab" [(EAttr (EVar "I") "oovv"); (EVar "T2old"); (EVar "L2old")]));
    SAugSub "L2" (EMul (EMul (ENum (1) 1) (EVar "fac")) (EEinsum "ljab,cdkl,kicd->ijab" [(EAttr (EVar "I") "oovv"); (EVar "T2old"); (EVar "L2old")]));
    SAugAdd "L2" (EMul (EMul (ENum (1) 1) (EVar "fac")) (EEinsum "liab,cdkl,kjcd->ijab" [(EAttr (EVar "I") "oovv"); (EVar "T2old"); (EVar "L2old")]));
    SAugAdd "L2" (EMul (EMul (ENum (1) 2) (EVar "fac")) (EEinsum "ijcd,cdkl,klab->ijab" [(EAttr (EVar "I") "oovv"); (EVar "T2old"); (EVar "L2old")]));
    SAugAdd "L2" (EMul (EMul (ENum (1) 2) (EVar "fac")) (EEinsum "klab,cdkl,ijcd->ijab" [(EAttr (EVar "I") "oovv"); (EVar "T2old"); (EVar "L2old")])) ].

(** cqcpy/cc_equations.py, lines 1019-1023 *)
Definition py__LD_LDTD_ladder : fundef :=
  FunDef ["L2"; "I"; "L2old"; "T2old"; "fac"] [("fac", ((1)%Z, 0%nat))]
  [ SAugAdd "L2" (EMul (EMul (ENum (1) 2) (EVar "fac")) (EEinsum "ijcd,cdkl,klab->ijab" [(EAttr (EVar "I") "oovv"); (EVar "T2old"); (EVar "L2old")]));
    SAugAdd "L2" (EMul (EMul (ENum (1) 2) (EVar "fac")) (EEinsum "klab,cdkl,ijcd->ijab" [(EAttr (EVar "I") "oovv"); (EVar "T2old"); (EVar "L2old")])) ].

(** cqcpy/cc_equations.py, lines 1026-1041 *)
Definition py__LD_LDTSS : fundef :=
  FunDef ["L2"; "F"; "I"; "L2old"; "T1old"; "fac"] [("fac", ((1)%Z, 0%nat))]
  [ SAugSub "L2" (EMul (EVar "fac") (EEinsum "ikab,jlcd,ck,dl->ijab" [(EVar "L2old"); (EAttr (EVar "I") "oovv"); (EVar "T1old"); (EVar "T1old")]));
    SAugAdd "L2" (EMul (EVar "fac") (EEinsum "jkab,ilcd,ck,dl->ijab" [(EVar "L2old"); (EAttr (EVar "I") "oovv"); (EVar "T1old"); (EVar "T1old")]));
    SAugSub "L2" (EMul (EVar "fac") (EEinsum "ijac,klbd,ck,dl->ijab" [(EVar "L2old"); (EAttr (EVar "I") "oovv"); (EVar "T1old"); (EVar "T1old")]));
    SAugAdd "L2" (EMul (EVar "fac") (EEinsum "ijbc,klad,ck,dl->ijab" [(EVar "L2old"); (EAttr (EVar "I") "oovv"); (EVar "T1old"); (EVar "T1old")]));
    SAugSub "L2" (EMul (EVar "fac") (EEinsum "ikad,ljcb,ck,dl->ijab" [(EVar "L2old"); (EAttr (EVar "I") "oovv"); (EVar "T1old"); (EVar "T1old")]));
    SAugAdd "L2" (EMul (EVar "fac") (EEinsum "jkad,licb,ck,dl->ijab" [(EVar "L2old"); (EAttr (EVar "I") "oovv"); (EVar "T1old"); (EVar "T1old")]));
    SAugAdd "L2" (EMul (EVar "fac") (EEinsum "ikbd,ljca,ck,dl->ijab" [(EVar "L2old"); (EAttr (EVar "I") "oovv"); (EVar "T1old"); (EVar "T1old")]));
    SAugSub "L2" (EMul (EVar "fac") (EEinsum "jkbd,lica,ck,dl->ijab" [(EVar "L2old"); (EAttr (EVar "I") "oovv"); (EVar "T1old"); (EVar "T1old")]));
    SAugAdd "L2" (EMul (EMul (ENum (1) 1) (EVar "fac")) (EEinsum "klab,ijcd,ck,dl->ijab" [(EVar "L2old"); (EAttr (EVar "I") "oovv"); (EVar "T1old"); (EVar "T1old")]));
    SAugAdd "L2" (EMul (EMul (ENum (1) 1) (EVar "fac")) (EEinsum "ijcd,klab,ck,dl->ijab" [(EVar "L2old"); (EAttr (EVar "I") "oovv"); (EVar "T1old"); (EVar "T1old")])) ].

(** cqcpy/cc_equations.py, lines 1045-1090 *)
Definition py_lambda_int : fundef :=
  FunDef ["F"; "I"; "T1old"; "T2old"] []
  [ SAssign (PVar "TTemp") (EAdd (EMul (ENum (1) 1) (EVar "T2old")) (EEinsum "bj,ck->bcjk" [(EVar "T1old"); (EVar "T1old")]));
    SAssign (PVar "IvovoT1") (EEinsum "aibc,ck->aibk" [(EAttr (EVar "I") "vovv"); (EVar "T1old")]);
    SAssign (PVar "IvovoT2") (EEinsum "bj,jika->biak" [(EVar "T1old"); (EAttr (EVar "I") "ooov")]);
    SAssign (PVar "self.IooovT") (EEinsum "ikbc,bj->ikjc" [(EAttr (EVar "I") "oovv"); (EVar "T1old")]);
    SAssign (PVar "self.IvovvT") (EEinsum "ck,kiab->ciab" [(EVar "T1old"); (EAttr (EVar "I") "oovv")]);
    SAssign (PVar "self.IovT") (EEinsum "ikac,ck->ia" [(EAttr (EVar "I") "oovv"); (EVar "T1old")]);
    SAssign (PVar "self.IToo") (EAdd (EAdd (EAdd (EEinsum "ib,bj->ij" [(EAttr (EVar "F") "ov"); (EVar "T1old")]) (EAttr (EVar "F") "oo")) (EEinsum "ikbc,bcjk->ij" [(EAttr (EVar "I") "oovv"); (EVar "TTemp")])) (EEinsum "ijkb,bj->ik" [(EAttr (EVar "I") "ooov"); (EVar "T1old")]));
    SAssign (PVar "self.ITvv") (EAdd (ESub (ESub (EEinsum "ja,bj->ba" [(EAttr (EVar "F") "ov"); (EVar "T1old")]) (EAttr (EVar "F") "vv")) (EEinsum "bkac,ck->ba" [(EAttr (EVar "I") "vovv"); (EVar "T1old")])) (EEinsum "jkac,bcjk->ba" [(EAttr (EVar "I") "oovv"); (EVar "TTemp")]));
    SAssign (PVar "self.ITvovo") (ESub (ESub (ENeg (EVar "IvovoT1")) (EVar "IvovoT2")) (EAttr (EVar "I") "vovo"));
    SAssign (PVar "self.IToovv") (ESub (EEinsum "kica,bcjk->ijab" [(EAttr (EVar "I") "oovv"); (EVar "T2old")]) (EEinsum "ciba,bj->ijac" [(EVar "self.IvovvT"); (EVar "T1old")]));
    SAssign (PVar "self.ITvooo") (ESub (ESub (EAdd (EAdd (ESub (EAdd (EAdd (EAdd (EAdd (EEinsum "cibk,bj->cijk" [(EAttr (EVar "I") "vovo"); (EVar "T1old")]) (EMul (ENum (1) 1) (EAttr (EVar "I") "vooo"))) (EMul (ENum (1) 1) (EEinsum "ic,bcjk->bijk" [(EAttr (EVar "F") "ov"); (EVar "T2old")]))) (EMul (ENum (1) 1) (EEinsum "ijkl,bj->bikl" [(EAttr (EVar "I") "oooo"); (EVar "T1old")]))) (EEinsum "kilc,bcjk->bilj" [(EAttr (EVar "I") "ooov"); (EVar "T2old")])) (EEinsum "bicl,ck->bilk" [(EVar "IvovoT2"); (EVar "T1old")])) (EMul (ENum (1) 1) (EEinsum "dibc,bcjk->dijk" [(EAttr (EVar "I") "vovv"); (EVar "TTemp")]))) (EMul (ENum (1) 1) (EEinsum "id,cdkl->cikl" [(EVar "self.IovT"); (EVar "T2old")]))) (EEinsum "ikjc,cdkl->dijl" [(EVar "self.IooovT"); (EVar "T2old")])) (EMul (ENum (1) 1) (EEinsum "bicd,cdkl->bikl" [(EVar "self.IvovvT"); (EVar "TTemp")])));
    SAssign (PVar "self.ITvvvo") (EAdd (EAdd (ESub (EAdd (ESub (ESub (ESub (ESub (ESub (EEinsum "cjak,bj->cbak" [(EAttr (EVar "I") "vovo"); (EVar "T1old")]) (EMul (ENum (1) 1) (EAttr (EVar "I") "vvvo"))) (EMul (ENum (1) 1) (EEinsum "ka,bcjk->bcaj" [(EAttr (EVar "F") "ov"); (EVar "T2old")]))) (EMul (ENum (1) 1) (EEinsum "cdab,bj->cdaj" [(EAttr (EVar "I") "vvvv"); (EVar "T1old")]))) (EEinsum "dkca,bcjk->bdaj" [(EAttr (EVar "I") "vovv"); (EVar "T2old")])) (EEinsum "djak,bj->bdak" [(EVar "IvovoT1"); (EVar "T1old")])) (EMul (ENum (1) 1) (EEinsum "jkla,bcjk->bcal" [(EAttr (EVar "I") "ooov"); (EVar "TTemp")]))) (EMul (ENum (1) 1) (EEinsum "la,cdkl->cdak" [(EVar "self.IovT"); (EVar "T2old")]))) (EEinsum "bkac,cdkl->bdal" [(EVar "self.IvovvT"); (EVar "T2old")])) (EMul (ENum (1) 1) (EEinsum "klja,cdkl->cdaj" [(EVar "self.IooovT"); (EVar "TTemp")])));
    SAssign (PVar "self.ITov") (EAdd (EVar "self.IovT") (EAttr (EVar "F") "ov"));
    SAssign (PVar "self.ITvovv") (ESub (EVar "self.IvovvT") (EAttr (EVar "I") "vovv"));
    SAssign (PVar "self.ITooov") (EAdd (EVar "self.IooovT") (EAttr (EVar "I") "ooov"));
    SAssign (PVar "self.ITvovo2") (ESub (ESub (ESub (ENeg (EVar "IvovoT1")) (EVar "IvovoT2")) (EAttr (EVar "I") "vovo")) (EEinsum "djcb,ck->djbk" [(EVar "self.IvovvT"); (EVar "T1old")]));
    SAssign (PVar "self.ITvvvv") (EAdd (EAdd (EEinsum "dkab,ck->cdab" [(EAttr (EVar "I") "vovv"); (EVar "T1old")]) (EMul (ENum (1) 1) (EEinsum "klab,cdkl->cdab" [(EAttr (EVar "I") "oovv"); (EVar "TTemp")]))) (EMul (ENum (1) 1) (EAttr (EVar "I") "vvvv")));
    SAssign (PVar "self.IToooo") (ESub (ESub (EEinsum "ijlc,ck->ijkl" [(EAttr (EVar "I") "ooov"); (EVar "T1old")]) (EMul (ENum (1) 1) (EEinsum "ijcd,cdkl->ijkl" [(EAttr (EVar "I") "oovv"); (EVar "TTemp")]))) (EMul (ENum (1) 1) (EAttr (EVar "I") "oooo")));
    SAssign (PVar "self.IToovv2") (EEinsum "ljdb,cdkl->kjcb" [(EAttr (EVar "I") "oovv"); (EVar "T2old")]);
    SReturn (EObj [("IooovT", EVar "self.IooovT"); ("IvovvT", EVar "self.IvovvT"); ("IovT", EVar "self.IovT"); ("IToo", EVar "self.IToo"); ("ITvv", EVar "self.ITvv"); ("ITvovo", EVar "self.ITvovo"); ("IToovv", EVar "self.IToovv"); ("ITvooo", EVar "self.ITvooo"); ("ITvvvo", EVar "self.ITvvvo"); ("ITov", EVar "self.ITov"); ("ITvovv", EVar "self.ITvovv"); ("ITooov", EVar "self.ITooov"); ("ITvovo2", EVar "self.ITvovo2"); ("ITvvvv", EVar "self.ITvvvv"); ("IToooo", EVar "self.IToooo"); ("IToovv2", EVar "self.IToovv2")]) ].

(** cqcpy/cc_equations.py, lines 1093-1188 *)
Definition py__Lambda_Stanton : fundef :=
  FunDef ["L1"; "L2"; "F"; "I"; "L1old"; "L2old"; "T1old"; "T2old"; "fac"] [("fac", ((1)%Z, 0%nat))]
  [ SAssign (PVar "T2A") (ECopy (EVar "T2old"));
    SAugAdd "T2A" (EMul (ENum (1) 1) (EEinsum "ai,bj->abij" [(EVar "T1old"); (EVar "T1old")]));
    SAugSub "T2A" (EMul (ENum (1) 1) (EEinsum "bi,aj->abij" [(EVar "T1old"); (EVar "T1old")]));
    SAssign (PVar "Fvv") (ECopy (EAttr (EVar "F") "vv"));
    SAugSub "Fvv" (EMul (ENum (1) 1) (EEinsum "jb,aj->ab" [(EAttr (EVar "F") "ov"); (EVar "T1old")]));
    SAugSub "Fvv" (EEinsum "ajcb,cj->ab" [(EAttr (EVar "I") "vovv"); (EVar "T1old")]);
    SAugSub "Fvv" (EMul (ENum (1) 1) (EEinsum "jkbc,acjk->ab" [(EAttr (EVar "I") "oovv"); (EVar "T2A")]));
    SAssign (PVar "Foo") (ECopy (EAttr (EVar "F") "oo"));
    SAugAdd "Foo" (EMul (ENum (1) 1) (EEinsum "jb,bi->ji" [(EAttr (EVar "F") "ov"); (EVar "T1old")]));
    SAugAdd "Foo" (EEinsum "jkib,bk->ji" [(EAttr (EVar "I") "ooov"); (EVar "T1old")]);
    SAugAdd "Foo" (EMul (ENum (1) 1) (EEinsum "jkbc,bcik->ji" [(EAttr (EVar "I") "oovv"); (EVar "T2A")]));
    SAssign (PVar "Fov") (ECopy (EAttr (EVar "F") "ov"));
    SAugAdd "Fov" (EEinsum "jkbc,ck->jb" [(EAttr (EVar "I") "oovv"); (EVar "T1old")]);
    SAssign (PVar "T2B") (ECopy (EVar "T2old"));
    SAugAdd "T2B" (EEinsum "ai,bj->abij" [(EVar "T1old"); (EVar "T1old")]);
    SAugSub "T2B" (EEinsum "bi,aj->abij" [(EVar "T1old"); (EVar "T1old")]);
    SAssign (PVar "Woooo") (ECopy (EAttr (EVar "I") "oooo"));
    SAugAdd "Woooo" (EEinsum "klic,cj->klij" [(EAttr (EVar "I") "ooov"); (EVar "T1old")]);
    SAugSub "Woooo" (EEinsum "kljc,ci->klij" [(EAttr (EVar "I") "ooov"); (EVar "T1old")]);
    SAugAdd "Woooo" (EMul (ENum (1) 2) (EEinsum "klcd,cdij->klij" [(EAttr (EVar "I") "oovv"); (EVar "T2B")]));
    SAssign (PVar "Wvvvv") (ECopy (EAttr (EVar "I") "vvvv"));
    SAugSub "Wvvvv" (EEinsum "akcd,bk->abcd" [(EAttr (EVar "I") "vovv"); (EVar "T1old")]);
    SAugAdd "Wvvvv" (EEinsum "bkcd,ak->abcd" [(EAttr (EVar "I") "vovv"); (EVar "T1old")]);
    SAugAdd "Wvvvv" (EMul (ENum (1) 2) (EEinsum "klcd,abkl->abcd" [(EAttr (EVar "I") "oovv"); (EVar "T2B")]));
    SAssign (PVar "Wovvo") (ENeg (ETrans (EAttr (EVar "I") "vovo") [1; 0; 2; 3]));
    SAugSub "Wovvo" (EEinsum "bkcd,dj->kbcj" [(EAttr (EVar "I") "vovv"); (EVar "T1old")]);
    SAugAdd "Wovvo" (EEinsum "kljc,bl->kbcj" [(EAttr (EVar "I") "ooov"); (EVar "T1old")]);
    SAssign (PVar "temp") (EAdd (EMul (ENum (1) 1) (EVar "T2old")) (EEinsum "dj,bl->dbjl" [(EVar "T1old"); (EVar "T1old")]));
    SAugSub "Wovvo" (EEinsum "klcd,dbjl->kbcj" [(EAttr (EVar "I") "oovv"); (EVar "temp")]);
    SAssign (PVar "F1ov") (EVar "Fov");
    SAssign (PVar "F1vv") (ESub (EVar "Fvv") (EMul (ENum (1) 1) (EEinsum "me,am->ae" [(EVar "Fov"); (EVar "T1old")])));
    SAssign (PVar "F1oo") (EAdd (EVar "Foo") (EMul (ENum (1) 1) (EEinsum "me,ei->mi" [(EVar "Fov"); (EVar "T1old")])));
    SAssign (PVar "W1oooo") (EAdd (EVar "Woooo") (EMul (ENum (1) 2) (EEinsum "mnef,efij->mnij" [(EAttr (EVar "I") "oovv"); (EVar "T2B")])));
    SAssign (PVar "W1vvvv") (EAdd (EVar "Wvvvv") (EMul (ENum (1) 2) (EEinsum "mnef,abmn->abef" [(EAttr (EVar "I") "oovv"); (EVar "T2B")])));
    SAssign (PVar "W1ovvo") (ESub (EVar "Wovvo") (EMul (ENum (1) 1) (EEinsum "mnef,fbjn->mbej" [(EAttr (EVar "I") "oovv"); (EVar "T2old")])));
    SAssign (PVar "W1ooov") (EAdd (EAttr (EVar "I") "ooov") (EEinsum "mnfe,fi->mnie" [(EAttr (EVar "I") "oovv"); (EVar "T1old")]));
    SAssign (PVar "W1vovv") (ESub (EAttr (EVar "I") "vovv") (EEinsum "nmef,an->amef" [(EAttr (EVar "I") "oovv"); (EVar "T1old")]));
    SAssign (PVar "W1vvvo") (ESub (EAttr (EVar "I") "vvvo") (EEinsum "me,abmi->abei" [(EVar "F1ov"); (EVar "T2old")]));
    SAugAdd "W1vvvo" (EEinsum "abef,fi->abei" [(EVar "W1vvvv"); (EVar "T1old")]);
    SAugSub "W1vvvo" (EMul (ENum (1) 1) (EEinsum "mnie,abmn->abei" [(EAttr (EVar "I") "ooov"); (EVar "T2B")]));
    SAssign (PVar "temp") (ENeg (EEinsum "bmef,afmi->abei" [(EAttr (EVar "I") "vovv"); (EVar "T2old")]));
    SAssign (PVar "Xt") (ENeg (ETrans (EAttr (EVar "I") "vovo") [1; 0; 2; 3]));
    SAugSub "Xt" (EEinsum "mnef,bfni->mbei" [(EAttr (EVar "I") "oovv"); (EVar "T2old")]);
    SAugAdd "temp" (EEinsum "mbei,am->abei" [(EVar "Xt"); (EVar "T1old")]);
    SAugSub "W1vvvo" (ESub (EVar "temp") (ETrans (EVar "temp") [1; 0; 2; 3]));
    SAssign (PVar "W1ovoo") (ENeg (ETrans (EAttr (EVar "I") "vooo") [1; 0; 2; 3]));
    SAugSub "W1ovoo" (EEinsum "me,beij->mbij" [(EVar "F1ov"); (EVar "T2old")]);
    SAugSub "W1ovoo" (EEinsum "mnij,bn->mbij" [(EVar "W1oooo"); (EVar "T1old")]);
    SAugSub "W1ovoo" (EMul (ENum (1) 1) (EEinsum "bmef,efij->mbij" [(EAttr (EVar "I") "vovv"); (EVar "T2B")]));
    SAssign (PVar "temp") (EEinsum "mnie,bejn->mbij" [(EAttr (EVar "I") "ooov"); (EVar "T2old")]);
    SAssign (PVar "Xt") (ENeg (ETrans (EAttr (EVar "I") "vovo") [1; 0; 2; 3]));
    SAugSub "Xt" (EEinsum "mnef,bfnj->mbej" [(EAttr (EVar "I") "oovv"); (EVar "T2old")]);
    SAugAdd "temp" (EEinsum "ei,mbej->mbij" [(EVar "T1old"); (EVar "Xt")]);
    SAugAdd "W1ovoo" (ESub (EVar "temp") (ETrans (EVar "temp") [0; 1; 3; 2]));
    SAssign (PVar "Gvv") (EMul (ENeg (ENum (1) 1)) (EEinsum "mnaf,efmn->ae" [(EVar "L2old"); (EVar "T2old")]));
    SAssign (PVar "Goo") (EMul (ENum (1) 1) (EEinsum "inef,efmn->mi" [(EVar "L2old"); (EVar "T2old")]));
    SAugAdd "L1" (EEinsum "ie,ea->ia" [(EVar "L1old"); (EVar "F1vv")]);
    SAugSub "L1" (EEinsum "ma,im->ia" [(EVar "L1old"); (EVar "F1oo")]);
    SAugAdd "L1" (EEinsum "me,ieam->ia" [(EVar "L1old"); (EVar "W1ovvo")]);
    SAugAdd "L1" (EMul (ENum (1) 1) (EEinsum "imef,efam->ia" [(EVar "L2old"); (EVar "W1vvvo")]));
    SAugSub "L1" (EMul (ENum (1) 1) (EEinsum "mnae,iemn->ia" [(EVar "L2old"); (EVar "W1ovoo")]));
    SAugSub "L1" (EEinsum "ef,eifa->ia" [(EVar "Gvv"); (EVar "W1vovv")]);
    SAugSub "L1" (EEinsum "mn,mina->ia" [(EVar "Goo"); (EVar "W1ooov")]);
    SAugAdd "L2" (EMul (ENum (1) 1) (EEinsum "mnab,ijmn->ijab" [(EVar "L2old"); (EVar "W1oooo")]));
    SAugAdd "L2" (EMul (ENum (1) 1) (EEinsum "ijef,efab->ijab" [(EVar "L2old"); (EVar "W1vvvv")]));
    SAssign (PVar "tempijab") (EEinsum "ia,jb->ijab" [(EVar "L1old"); (EVar "F1ov")]);
    SAugAdd "tempijab" (EEinsum "imae,jebm->ijab" [(EVar "L2old"); (EVar "W1ovvo")]);
    SAugAdd "L2" (EAdd (ESub (ESub (EVar "tempijab") (ETrans (EVar "tempijab") [0; 1; 3; 2])) (ETrans (EVar "tempijab") [1; 0; 2; 3])) (ETrans (EVar "tempijab") [1; 0; 3; 2]));
    SAssign (PVar "tempij") (ENeg (EEinsum "imab,jm->ijab" [(EVar "L2old"); (EVar "F1oo")]));
    SAugAdd "tempij" (EEinsum "ie,ejab->ijab" [(EVar "L1old"); (EVar "W1vovv")]);
    SAugSub "tempij" (EEinsum "imab,mj->ijab" [(EAttr (EVar "I") "oovv"); (EVar "Goo")]);
    SAugAdd "L2" (ESub (EVar "tempij") (ETrans (EVar "tempij") [1; 0; 2; 3]));
    SAssign (PVar "tempab") (EEinsum "ijae,eb->ijab" [(EVar "L2old"); (EVar "F1vv")]);
    SAugSub "tempab" (EEinsum "ma,ijmb->ijab" [(EVar "L1old"); (EVar "W1ooov")]);
    SAugAdd "tempab" (EEinsum "ijae,be->ijab" [(EAttr (EVar "I") "oovv"); (EVar "Gvv")]);
    SAugAdd "L2" (ESub (EVar "tempab") (ETrans (EVar "tempab") [0; 1; 3; 2])) ].

(** cqcpy/cc_equations.py, lines 1191-1335 *)
Definition py__Lambda_opt : fundef :=
  FunDef ["L1"; "L2"; "F"; "I"; "L1old"; "L2old"; "T1old"; "T2old"; "fac"] [("fac", ((1)%Z, 0%nat))]
  [ SAssign (PVar "TTemp") (EAdd (EMul (ENum (1) 1) (EVar "T2old")) (EEinsum "bj,ck->bcjk" [(EVar "T1old"); (EVar "T1old")]));
    SAssign (PVar "IvovoT1") (EEinsum "aibc,ck->aibk" [(EAttr (EVar "I") "vovv"); (EVar "T1old")]);
    SAssign (PVar "IvovoT2") (EEinsum "bj,jika->biak" [(EVar "T1old"); (EAttr (EVar "I") "ooov")]);
    SAssign (PVar "IooovT") (EEinsum "ikbc,bj->ikjc" [(EAttr (EVar "I") "oovv"); (EVar "T1old")]);
    SAssign (PVar "IvovvT") (EEinsum "ck,kiab->ciab" [(EVar "T1old"); (EAttr (EVar "I") "oovv")]);
    SAssign (PVar "IovT") (EEinsum "ikac,ck->ia" [(EAttr (EVar "I") "oovv"); (EVar "T1old")]);
    SAssign (PVar "IToo") (EAdd (EAdd (EAdd (EEinsum "ib,bj->ij" [(EAttr (EVar "F") "ov"); (EVar "T1old")]) (EAttr (EVar "F") "oo")) (EEinsum "ikbc,bcjk->ij" [(EAttr (EVar "I") "oovv"); (EVar "TTemp")])) (EEinsum "ijkb,bj->ik" [(EAttr (EVar "I") "ooov"); (EVar "T1old")]));
    SAugSub "L1" (EMul (EVar "fac") (EEinsum "ja,ij->ia" [(EVar "L1old"); (EVar "IToo")]));
    SAssign (PVar "temp") (EMul (EVar "fac") (EEinsum "ikab,jk->ijab" [(EVar "L2old"); (EVar "IToo")]));
    SAugSub "L2" (EVar "temp");
    SAugAdd "L2" (ETrans (EVar "temp") [1; 0; 2; 3]);
    SDel "IToo";
    SDel "temp";
    SAssign (PVar "ITvv") (EAdd (ESub (ESub (EEinsum "ja,bj->ba" [(EAttr (EVar "F") "ov"); (EVar "T1old")]) (EAttr (EVar "F") "vv")) (EEinsum "bkac,ck->ba" [(EAttr (EVar "I") "vovv"); (EVar "T1old")])) (EEinsum "jkac,bcjk->ba" [(EAttr (EVar "I") "oovv"); (EVar "TTemp")]));
    SAugSub "L1" (EMul (EVar "fac") (EEinsum "ib,ba->ia" [(EVar "L1old"); (EVar "ITvv")]));
    SAssign (PVar "temp") (EMul (EVar "fac") (EEinsum "ijac,cb->ijab" [(EVar "L2old"); (EVar "ITvv")]));
    SAugSub "L2" (EVar "temp");
    SAugAdd "L2" (ETrans (EVar "temp") [0; 1; 3; 2]);
    SDel "ITvv";
    SDel "temp";
    SAssign (PVar "ITvovo") (ESub (ESub (ENeg (EVar "IvovoT1")) (EVar "IvovoT2")) (EAttr (EVar "I") "vovo"));
    SAugAdd "L1" (EMul (EVar "fac") (EEinsum "jb,biaj->ia" [(EVar "L1old"); (EVar "ITvovo")]));
    SDel "ITvovo";
    SAssign (PVar "IToovv") (ESub (EEinsum "kica,bcjk->ijab" [(EAttr (EVar "I") "oovv"); (EVar "T2old")]) (EEinsum "ciba,bj->ijac" [(EVar "IvovvT"); (EVar "T1old")]));
    SAugAdd "L1" (EMul (EVar "fac") (EEinsum "jb,ijab->ia" [(EVar "L1old"); (EVar "IToovv")]));
    SDel "IToovv";
    SAssign (PVar "ITvooo") (ESub (ESub (EAdd (EAdd (ESub (EAdd (EAdd (EAdd (EAdd (EEinsum "cibk,bj->cijk" [(EAttr (EVar "I") "vovo"); (EVar "T1old")]) (EMul (ENum (1) 1) (EAttr (EVar "I") "vooo"))) (EMul (ENum (1) 1) (EEinsum "ic,bcjk->bijk" [(EAttr (EVar "F") "ov"); (EVar "T2old")]))) (EMul (ENum (1) 1) (EEinsum "ijkl,bj->bikl" [(EAttr (EVar "I") "oooo"); (EVar "T1old")]))) (EEinsum "kilc,bcjk->bilj" [(EAttr (EVar "I") "ooov"); (EVar "T2old")])) (EEinsum "bicl,ck->bilk" [(EVar "IvovoT2"); (EVar "T1old")])) (EMul (ENum (1) 1) (EEinsum "dibc,bcjk->dijk" [(EAttr (EVar "I") "vovv"); (EVar "TTemp")]))) (EMul (ENum (1) 1) (EEinsum "id,cdkl->cikl" [(EVar "IovT"); (EVar "T2old")]))) (EEinsum "ikjc,cdkl->dijl" [(EVar "IooovT"); (EVar "T2old")])) (EMul (ENum (1) 1) (EEinsum "bicd,cdkl->bikl" [(EVar "IvovvT"); (EVar "TTemp")])));
    SAugAdd "L1" (EMul (EVar "fac") (EEinsum "jkab,bijk->ia" [(EVar "L2old"); (EVar "ITvooo")]));
    SDel "ITvooo";
    SAssign (PVar "ITvvvo") (EAdd (EAdd (ESub (EAdd (ESub (ESub (ESub (ESub (ESub (EEinsum "cjak,bj->cbak" [(EAttr (EVar "I") "vovo"); (EVar "T1old")]) (EMul (ENum (1) 1) (EAttr (EVar "I") "vvvo"))) (EMul (ENum (1) 1) (EEinsum "ka,bcjk->bcaj" [(EAttr (EVar "F") "ov"); (EVar "T2old")]))) (EMul (ENum (1) 1) (EEinsum "cdab,bj->cdaj" [(EAttr (EVar "I") "vvvv"); (EVar "T1old")]))) (EEinsum "dkca,bcjk->bdaj" [(EAttr (EVar "I") "vovv"); (EVar "T2old")])) (EEinsum "djak,bj->bdak" [(EVar "IvovoT1"); (EVar "T1old")])) (EMul (ENum (1) 1) (EEinsum "jkla,bcjk->bcal" [(EAttr (EVar "I") "ooov"); (EVar "TTemp")]))) (EMul (ENum (1) 1) (EEinsum "la,cdkl->cdak" [(EVar "IovT"); (EVar "T2old")]))) (EEinsum "bkac,cdkl->bdal" [(EVar "IvovvT"); (EVar "T2old")])) (EMul (ENum (1) 1) (EEinsum "klja,cdkl->cdaj" [(EVar "IooovT"); (EVar "TTemp")])));
    SAugAdd "L1" (EMul (EVar "fac") (EEinsum "ikbc,cbak->ia" [(EVar "L2old"); (EVar "ITvvvo")]));
    SDel "ITvvvo";
    SAssign (PVar "ITov") (EAdd (EVar "IovT") (EAttr (EVar "F") "ov"));
    SAssign (PVar "temp") (EMul (EVar "fac") (EEinsum "jb,ia->ijab" [(EVar "L1old"); (EVar "ITov")]));
    SAugAdd "L2" (EVar "temp");
    SAugSub "L2" (ETrans (EVar "temp") [1; 0; 2; 3]);
    SAugSub "L2" (ETrans (EVar "temp") [0; 1; 3; 2]);
    SAugAdd "L2" (ETrans (EVar "temp") [1; 0; 3; 2]);
    SDel "ITov";
    SAssign (PVar "ITvovv") (ESub (EVar "IvovvT") (EAttr (EVar "I") "vovv"));
    SAssign (PVar "temp") (EMul (EVar "fac") (EEinsum "ic,cjab->ijab" [(EVar "L1old"); (EVar "ITvovv")]));
    SAugSub "L2" (EVar "temp");
    SAugAdd "L2" (ETrans (EVar "temp") [1; 0; 2; 3]);
    SDel "ITvovv";
    SAssign (PVar "ITooov") (EAdd (EVar "IooovT") (EAttr (EVar "I") "ooov"));
    SAssign (PVar "temp") (EMul (EVar "fac") (EEinsum "ka,ijkb->ijab" [(EVar "L1old"); (EVar "ITooov")]));
    SAugSub "L2" (EVar "temp");
    SAugAdd "L2" (ETrans (EVar "temp") [0; 1; 3; 2]);
    SDel "ITooov";
    SAssign (PVar "ITvovo") (ESub (ESub (ESub (ENeg (EVar "IvovoT1")) (EVar "IvovoT2")) (EAttr (EVar "I") "vovo")) (EEinsum "djcb,ck->djbk" [(EVar "IvovvT"); (EVar "T1old")]));
    SAssign (PVar "temp") (EMul (EVar "fac") (EEinsum "ikad,djbk->ijab" [(EVar "L2old"); (EVar "ITvovo")]));
    SAugAdd "L2" (EVar "temp");
    SAugSub "L2" (ETrans (EVar "temp") [1; 0; 2; 3]);
    SAugSub "L2" (ETrans (EVar "temp") [0; 1; 3; 2]);
    SAugAdd "L2" (ETrans (EVar "temp") [1; 0; 3; 2]);
    SDel "ITvovo";
    SAssign (PVar "ITvvvv") (EAdd (EAdd (EEinsum "dkab,ck->cdab" [(EAttr (EVar "I") "vovv"); (EVar "T1old")]) (EMul (ENum (1) 1) (EEinsum "klab,cdkl->cdab" [(EAttr (EVar "I") "oovv"); (EVar "TTemp")]))) (EMul (ENum (1) 1) (EAttr (EVar "I") "vvvv")));
    SAugAdd "L2" (EMul (EVar "fac") (EEinsum "ijcd,cdab->ijab" [(EVar "L2old"); (EVar "ITvvvv")]));
    SDel "ITvvvv";
    SAssign (PVar "IToooo") (ESub (ESub (EEinsum "ijlc,ck->ijkl" [(EAttr (EVar "I") "ooov"); (EVar "T1old")]) (EMul (ENum (1) 1) (EEinsum "ijcd,cdkl->ijkl" [(EAttr (EVar "I") "oovv"); (EVar "TTemp")]))) (EMul (ENum (1) 1) (EAttr (EVar "I") "oooo")));
    SAugSub "L2" (EMul (EVar "fac") (EEinsum "klab,ijkl->ijab" [(EVar "L2old"); (EVar "IToooo")]));
    SDel "IToooo";
    SAssign (PVar "IToovv") (EEinsum "ljdb,cdkl->kjcb" [(EAttr (EVar "I") "oovv"); (EVar "T2old")]);
    SAssign (PVar "temp") (EMul (EVar "fac") (EEinsum "ikac,kjcb->ijab" [(EVar "L2old"); (EVar "IToovv")]));
    SAugAdd "L2" (EVar "temp");
    SAugSub "L2" (ETrans (EVar "temp") [1; 0; 2; 3]);
    SAugSub "L2" (ETrans (EVar "temp") [0; 1; 3; 2]);
    SAugAdd "L2" (ETrans (EVar "temp") [1; 0; 3; 2]);
    SDel "IToovv";
    SAssign (PVar "Ltemp1") (EEinsum "jkbd,bcjk->cd" [(EVar "L2old"); (EVar "T2old")]);
    SAssign (PVar "Ltemp2") (EEinsum "jlbc,bcjk->lk" [(EVar "L2old"); (EVar "T2old")]);
    SAugAdd "L1" (EMul (EMul (ENum (1) 1) (EVar "fac")) (EEinsum "cd,dica->ia" [(EVar "Ltemp1"); (EAttr (EVar "I") "vovv")]));
    SAugSub "L1" (EMul (EMul (ENum (1) 1) (EVar "fac")) (EEinsum "lk,kila->ia" [(EVar "Ltemp2"); (EAttr (EVar "I") "ooov")]));
    SAugSub "L1" (EMul (EMul (ENum (1) 1) (EVar "fac")) (EEinsum "db,bida->ia" [(EVar "Ltemp1"); (EVar "IvovvT")]));
    SAugSub "L1" (EMul (EMul (ENum (1) 1) (EVar "fac")) (EEinsum "jl,lija->ia" [(EVar "Ltemp2"); (EVar "IooovT")]));
    SAssign (PVar "temp") (EMul (EMul (ENum (1) 1) (EVar "fac")) (EEinsum "da,ijdb->ijab" [(EVar "Ltemp1"); (EAttr (EVar "I") "oovv")]));
    SAugSub "L2" (EVar "temp");
    SAugAdd "L2" (ETrans (EVar "temp") [0; 1; 3; 2]);
    SAssign (PVar "temp") (EMul (EMul (ENum (1) 1) (EVar "fac")) (EEinsum "il,ljab->ijab" [(EVar "Ltemp2"); (EAttr (EVar "I") "oovv")]));
    SAugSub "L2" (EVar "temp");
    SAugAdd "L2" (ETrans (EVar "temp") [1; 0; 2; 3]) ].

(** cqcpy/cc_equations.py, lines 1338-1420 *)
Definition py__Lambda_opt_int : fundef :=
  FunDef ["L1"; "L2"; "F"; "I"; "L1old"; "L2old"; "T1old"; "T2old"; "intor"; "fac"] [("fac", ((1)%Z, 0%nat))]
  [ SAugSub "L1" (EMul (EVar "fac") (EEinsum "ja,ij->ia" [(EVar "L1old"); (EAttr (EVar "intor") "IToo")]));
    SAssign (PVar "temp") (EMul (EVar "fac") (EEinsum "ikab,jk->ijab" [(EVar "L2old"); (EAttr (EVar "intor") "IToo")]));
    SAugSub "L2" (EVar "temp");
    SAugAdd "L2" (ETrans (EVar "temp") [1; 0; 2; 3]);
    SAugSub "L1" (EMul (EVar "fac") (EEinsum "ib,ba->ia" [(EVar "L1old"); (EAttr (EVar "intor") "ITvv")]));
    SAssign (PVar "temp") (EMul (EVar "fac") (EEinsum "ijac,cb->ijab" [(EVar "L2old"); (EAttr (EVar "intor") "ITvv")]));
    SAugSub "L2" (EVar "temp");
    SAugAdd "L2" (ETrans (EVar "temp") [0; 1; 3; 2]);
    SAugAdd "L1" (EMul (EVar "fac") (EEinsum "jb,biaj->ia" [(EVar "L1old"); (EAttr (EVar "intor") "ITvovo")]));
    SAugAdd "L1" (EMul (EVar "fac") (EEinsum "jb,ijab->ia" [(EVar "L1old"); (EAttr (EVar "intor") "IToovv")]));
    SAugAdd "L1" (EMul (EVar "fac") (EEinsum "jkab,bijk->ia" [(EVar "L2old"); (EAttr (EVar "intor") "ITvooo")]));
    SAugAdd "L1" (EMul (EVar "fac") (EEinsum "ikbc,cbak->ia" [(EVar "L2old"); (EAttr (EVar "intor") "ITvvvo")]));
    SAssign (PVar "temp") (EMul (EVar "fac") (EEinsum "jb,ia->ijab" [(EVar "L1old"); (EAttr (EVar "intor") "ITov")]));
    SAugAdd "L2" (EVar "temp");
    SAugSub "L2" (ETrans (EVar "temp") [1; 0; 2; 3]);
    SAugSub "L2" (ETrans (EVar "temp") [0; 1; 3; 2]);
    SAugAdd "L2" (ETrans (EVar "temp") [1; 0; 3; 2]);
    SAssign (PVar "temp") (EMul (EVar "fac") (EEinsum "ic,cjab->ijab" [(EVar "L1old"); (EAttr (EVar "intor") "ITvovv")]));
    SAugSub "L2" (EVar "temp");
    SAugAdd "L2" (ETrans (EVar "temp") [1; 0; 2; 3]);
    SAssign (PVar "temp") (EMul (EVar "fac") (EEinsum "ka,ijkb->ijab" [(EVar "L1old"); (EAttr (EVar "intor") "ITooov")]));
    SAugSub "L2" (EVar "temp");
    SAugAdd "L2" (ETrans (EVar "temp") [0; 1; 3; 2]);
    SAssign (PVar "temp") (EMul (EVar "fac") (EEinsum "ikad,djbk->ijab" [(EVar "L2old"); (EAttr (EVar "intor") "ITvovo2")]));
    SAugAdd "L2" (EVar "temp");
    SAugSub "L2" (ETrans (EVar "temp") [1; 0; 2; 3]);
    SAugSub "L2" (ETrans (EVar "temp") [0; 1; 3; 2]);
    SAugAdd "L2" (ETrans (EVar "temp") [1; 0; 3; 2]);
    SAugAdd "L2" (EMul (EVar "fac") (EEinsum "ijcd,cdab->ijab" [(EVar "L2old"); (EAttr (EVar "intor") "ITvvvv")]));
    SAugSub "L2" (EMul (EVar "fac") (EEinsum "klab,ijkl->ijab" [(EVar "L2old"); (EAttr (EVar "intor") "IToooo")]));
    SAssign (PVar "temp") (EMul (EVar "fac") (EEinsum "ikac,kjcb->ijab" [(EVar "L2old"); (EAttr (EVar "intor") "IToovv2")]));
    SAugAdd "L2" (EVar "temp");
    SAugSub "L2" (ETrans (EVar "temp") [1; 0; 2; 3]);
    SAugSub "L2" (ETrans (EVar "temp") [0; 1; 3; 2]);
    SAugAdd "L2" (ETrans (EVar "temp") [1; 0; 3; 2]);
    SAssign (PVar "Ltemp1") (EEinsum "jkbd,bcjk->cd" [(EVar "L2old"); (EVar "T2old")]);
    SAssign (PVar "Ltemp2") (EEinsum "jlbc,bcjk->lk" [(EVar "L2old"); (EVar "T2old")]);
    SAugAdd "L1" (EMul (EMul (ENum (1) 1) (EVar "fac")) (EEinsum "cd,dica->ia" [(EVar "Ltemp1"); (EAttr (EVar "I") "vovv")]));
    SAugSub "L1" (EMul (EMul (ENum (1) 1) (EVar "fac")) (EEinsum "lk,kila->ia" [(EVar "Ltemp2"); (EAttr (EVar "I") "ooov")]));
    SAugSub "L1" (EMul (EMul (ENum (1) 1) (EVar "fac")) (EEinsum "db,bida->ia" [(EVar "Ltemp1"); (EAttr (EVar "intor") "IvovvT")]));
    SAugSub "L1" (EMul (EMul (ENum (1) 1) (EVar "fac")) (EEinsum "jl,lija->ia" [(EVar "Ltemp2"); (EAttr (EVar "intor") "IooovT")]));
    SAssign (PVar "temp") (EMul (EMul (ENum (1) 1) (EVar "fac")) (EEinsum "da,ijdb->ijab" [(EVar "Ltemp1"); (EAttr (EVar "I") "oovv")]));
    SAugSub "L2" (EVar "temp");
    SAugAdd "L2" (ETrans (EVar "temp") [0; 1; 3; 2]);
    SAssign (PVar "temp") (EMul (EMul (ENum (1) 1) (EVar "fac")) (EEinsum "il,ljab->ijab" [(EVar "Ltemp2"); (EAttr (EVar "I") "oovv")]));
    SAugSub "L2" (EVar "temp");
    SAugAdd "L2" (ETrans (EVar "temp") [1; 0; 2; 3]) ].

(** cqcpy/cc_equations.py, lines 1423-1980 *)
Definition py__uccsd_Lambda_opt : fundef :=
  FunDef ["L1a"; "L1b"; "L2aa"; "L2ab"; "L2bb"; "Fa"; "Fb"; "Ia"; "Ib"; "Iabab"; "L1olds"; "L2olds"; "T1olds"; "T2olds"; "fac"] [("fac", ((1)%Z, 0%nat))]
  [ SAssign (PTup [(PVar "L1aold"); (PVar "L1bold")]) (EVar "L1olds");
    SAssign (PTup [(PVar "L2aaold"); (PVar "L2abold"); (PVar "L2bbold")]) (EVar "L2olds");
    SAssign (PTup [(PVar "T1aold"); (PVar "T1bold")]) (EVar "T1olds");
    SAssign (PTup [(PVar "T2aaold"); (PVar "T2abold"); (PVar "T2bbold")]) (EVar "T2olds");
    SAssign (PVar "TTempaa") (EAdd (EMul (ENum (1) 1) (EVar "T2aaold")) (EEinsum "bj,ck->bcjk" [(EVar "T1aold"); (EVar "T1aold")]));
    SAssign (PVar "TTempab") (EAdd (EMul (ENum (1) 1) (EVar "T2abold")) (EEinsum "bj,ck->bcjk" [(EVar "T1aold"); (EVar "T1bold")]));
    SAssign (PVar "TTempbb") (EAdd (EMul (ENum (1) 1) (EVar "T2bbold")) (EEinsum "bj,ck->bcjk" [(EVar "T1bold"); (EVar "T1bold")]));
    SAssign (PVar "Ivovos1") (EEinsum "aibc,ck->aibk" [(EAttr (EVar "Ia") "vovv"); (EVar "T1aold")]);
    SAssign (PVar "IVOVOs1") (EEinsum "aibc,ck->aibk" [(EAttr (EVar "Ib") "vovv"); (EVar "T1bold")]);
    SAssign (PVar "IvOvOs1") (EEinsum "aibc,ck->aibk" [(EAttr (EVar "Iabab") "vovv"); (EVar "T1bold")]);
    SAssign (PVar "IVoVos1") (EEinsum "iacb,ck->aibk" [(EAttr (EVar "Iabab") "ovvv"); (EVar "T1aold")]);
    SAssign (PVar "IvOVos1") (ENeg (EEinsum "aicb,ck->aibk" [(EAttr (EVar "Iabab") "vovv"); (EVar "T1aold")]));
    SAssign (PVar "IVovOs1") (ENeg (EEinsum "iabc,ck->aibk" [(EAttr (EVar "Iabab") "ovvv"); (EVar "T1bold")]));
    SAssign (PVar "Ivovos2") (EEinsum "bj,jika->biak" [(EVar "T1aold"); (EAttr (EVar "Ia") "ooov")]);
    SAssign (PVar "IVOVOs2") (EEinsum "bj,jika->biak" [(EVar "T1bold"); (EAttr (EVar "Ib") "ooov")]);
    SAssign (PVar "IvOvOs2") (ENeg (EEinsum "bj,jiak->biak" [(EVar "T1aold"); (EAttr (EVar "Iabab") "oovo")]));
    SAssign (PVar "IVoVos2") (ENeg (EEinsum "bj,ijka->biak" [(EVar "T1bold"); (EAttr (EVar "Iabab") "ooov")]));
    SAssign (PVar "IvOVos2") (EEinsum "bj,jika->biak" [(EVar "T1aold"); (EAttr (EVar "Iabab") "ooov")]);
    SAssign (PVar "IVovOs2") (EEinsum "bj,ijak->biak" [(EVar "T1bold"); (EAttr (EVar "Iabab") "oovo")]);
    SAssign (PVar "Ivovvs") (EEinsum "ck,kiab->ciab" [(EVar "T1aold"); (EAttr (EVar "Ia") "oovv")]);
    SAssign (PVar "IVOVVs") (EEinsum "ck,kiab->ciab" [(EVar "T1bold"); (EAttr (EVar "Ib") "oovv")]);
    SAssign (PVar "IVoVvs") (EEinsum "ck,ikba->ciab" [(EVar "T1bold"); (EAttr (EVar "Iabab") "oovv")]);
    SAssign (PVar "IvOvVs") (EEinsum "ck,kiab->ciab" [(EVar "T1aold"); (EAttr (EVar "Iabab") "oovv")]);
    SAssign (PVar "IvOVvs") (ENeg (EEinsum "ck,kiba->ciab" [(EVar "T1aold"); (EAttr (EVar "Iabab") "oovv")]));
    SAssign (PVar "IVovVs") (ENeg (EEinsum "ck,ikab->ciab" [(EVar "T1bold"); (EAttr (EVar "Iabab") "oovv")]));
    SAssign (PVar "Iooovs") (EEinsum "ikbc,bj->ikjc" [(EAttr (EVar "Ia") "oovv"); (EVar "T1aold")]);
    SAssign (PVar "IOOOVs") (EEinsum "ikbc,bj->ikjc" [(EAttr (EVar "Ib") "oovv"); (EVar "T1bold")]);
    SAssign (PVar "IOoOvs") (EEinsum "kicb,bj->ikjc" [(EAttr (EVar "Iabab") "oovv"); (EVar "T1bold")]);
    SAssign (PVar "IoOoVs") (EEinsum "ikbc,bj->ikjc" [(EAttr (EVar "Iabab") "oovv"); (EVar "T1aold")]);
    SAssign (PVar "IoOOvs") (ENeg (EEinsum "ikcb,bj->ikjc" [(EAttr (EVar "Iabab") "oovv"); (EVar "T1bold")]));
    SAssign (PVar "IOooVs") (ENeg (EEinsum "kibc,bj->ikjc" [(EAttr (EVar "Iabab") "oovv"); (EVar "T1aold")]));
    SAssign (PVar "Iovs") (EEinsum "ikac,ck->ia" [(EAttr (EVar "Ia") "oovv"); (EVar "T1aold")]);
    SAugAdd "Iovs" (EEinsum "ikac,ck->ia" [(EAttr (EVar "Iabab") "oovv"); (EVar "T1bold")]);
    SAssign (PVar "IOVs") (EEinsum "ikac,ck->ia" [(EAttr (EVar "Ib") "oovv"); (EVar "T1bold")]);
    SAugAdd "IOVs" (EEinsum "kica,ck->ia" [(EAttr (EVar "Iabab") "oovv"); (EVar "T1aold")]);
    SAssign (PVar "ITooa") (EAdd (EAdd (EAdd (EAdd (EAdd (EAdd (EEinsum "ib,bj->ij" [(EAttr (EVar "Fa") "ov"); (EVar "T1aold")]) (EAttr (EVar "Fa") "oo")) (EEinsum "ikbc,bcjk->ij" [(EAttr (EVar "Ia") "oovv"); (EVar "TTempaa")])) (EEinsum "ikbc,bcjk->ij" [(EAttr (EVar "Iabab") "oovv"); (EVar "TTempab")])) (EMul (ENum (1) 1) (EEinsum "ikcb,cbjk->ij" [(EAttr (EVar "Iabab") "oovv"); (EVar "T2abold")]))) (EEinsum "ijkb,bj->ik" [(EAttr (EVar "Ia") "ooov"); (EVar "T1aold")])) (EEinsum "ijkb,bj->ik" [(EAttr (EVar "Iabab") "ooov"); (EVar "T1bold")]));
    SAugSub "L1a" (EMul (EVar "fac") (EEinsum "ja,ij->ia" [(EVar "L1aold"); (EVar "ITooa")]));
    SAssign (PVar "tempa") (EEinsum "ikab,jk->ijab" [(EVar "L2aaold"); (EVar "ITooa")]);
    SAugSub "tempa" (ETrans (EVar "tempa") [1; 0; 2; 3]);
    SAugSub "L2aa" (EMul (EVar "fac") (EVar "tempa"));
    SDel "tempa";
    SAssign (PVar "tempab") (EEinsum "kjab,ik->ijab" [(EVar "L2abold"); (EVar "ITooa")]);
    SDel "ITooa";
    SAssign (PVar "IToob") (EAdd (EAdd (EAdd (EAdd (EAdd (EAdd (EEinsum "ib,bj->ij" [(EAttr (EVar "Fb") "ov"); (EVar "T1bold")]) (EAttr (EVar "Fb") "oo")) (EEinsum "ikbc,bcjk->ij" [(EAttr (EVar "Ib") "oovv"); (EVar "TTempbb")])) (EEinsum "kicb,cbkj->ij" [(EAttr (EVar "Iabab") "oovv"); (EVar "TTempab")])) (EMul (ENum (1) 1) (EEinsum "kibc,bckj->ij" [(EAttr (EVar "Iabab") "oovv"); (EVar "T2abold")]))) (EEinsum "ijkb,bj->ik" [(EAttr (EVar "Ib") "ooov"); (EVar "T1bold")])) (EEinsum "jibk,bj->ik" [(EAttr (EVar "Iabab") "oovo"); (EVar "T1aold")]));
    SAugSub "L1b" (EMul (EVar "fac") (EEinsum "ja,ij->ia" [(EVar "L1bold"); (EVar "IToob")]));
    SAssign (PVar "tempb") (EEinsum "ikab,jk->ijab" [(EVar "L2bbold"); (EVar "IToob")]);
    SAugSub "tempb" (ETrans (EVar "tempb") [1; 0; 2; 3]);
    SAugSub "L2bb" (EMul (EVar "fac") (EVar "tempb"));
    SDel "tempb";
    SAugAdd "tempab" (EEinsum "ikab,jk->ijab" [(EVar "L2abold"); (EVar "IToob")]);
    SDel "IToob";
    SAugSub "L2ab" (EMul (EVar "fac") (EVar "tempab"));
    SDel "tempab";
    SAssign (PVar "ITvva") (ESub (ESub (ESub (EEinsum "ja,bj->ba" [(EAttr (EVar "Fa") "ov"); (EVar "T1aold")]) (EAttr (EVar "Fa") "vv")) (EEinsum "bkac,ck->ba" [(EAttr (EVar "Ia") "vovv"); (EVar "T1aold")])) (EEinsum "bkac,ck->ba" [(EAttr (EVar "Iabab") "vovv"); (EVar "T1bold")]));
    SAugAdd "ITvva" (EEinsum "jkac,bcjk->ba" [(EAttr (EVar "Ia") "oovv"); (EVar "TTempaa")]);
    SAugAdd "ITvva" (EEinsum "jkac,bcjk->ba" [(EAttr (EVar "Iabab") "oovv"); (EVar "TTempab")]);
    SAugAdd "ITvva" (EMul (ENum (1) 1) (EEinsum "kjac,bckj->ba" [(EAttr (EVar "Iabab") "oovv"); (EVar "T2abold")]));
    SAugSub "L1a" (EMul (EVar "fac") (EEinsum "ib,ba->ia" [(EVar "L1aold"); (EVar "ITvva")]));
    SAssign (PVar "tempa") (EEinsum "ijac,cb->ijab" [(EVar "L2aaold"); (EVar "ITvva")]);
    SAugSub "tempa" (ETrans (EVar "tempa") [0; 1; 3; 2]);
    SAssign (PVar "tempab") (EEinsum "ijcb,ca->ijab" [(EVar "L2abold"); (EVar "ITvva")]);
    SDel "ITvva";
    SAssign (PVar "ITvvb") (ESub (ESub (ESub (EEinsum "ja,bj->ba" [(EAttr (EVar "Fb") "ov"); (EVar "T1bold")]) (EAttr (EVar "Fb") "vv")) (EEinsum "bkac,ck->ba" [(EAttr (EVar "Ib") "vovv"); (EVar "T1bold")])) (EEinsum "kbca,ck->ba" [(EAttr (EVar "Iabab") "ovvv"); (EVar "T1aold")]));
    SAugAdd "ITvvb" (EEinsum "jkac,bcjk->ba" [(EAttr (EVar "Ib") "oovv"); (EVar "TTempbb")]);
    SAugAdd "ITvvb" (EEinsum "kjca,cbkj->ba" [(EAttr (EVar "Iabab") "oovv"); (EVar "TTempab")]);
    SAugAdd "ITvvb" (EMul (ENum (1) 1) (EEinsum "jkca,cbjk->ba" [(EAttr (EVar "Iabab") "oovv"); (EVar "T2abold")]));
    SAugSub "L1b" (EMul (EVar "fac") (EEinsum "ib,ba->ia" [(EVar "L1bold"); (EVar "ITvvb")]));
    SAssign (PVar "tempb") (EEinsum "ijac,cb->ijab" [(EVar "L2bbold"); (EVar "ITvvb")]);
    SAugSub "tempb" (ETrans (EVar "tempb") [0; 1; 3; 2]);
    SAugAdd "tempab" (EEinsum "ijac,cb->ijab" [(EVar "L2abold"); (EVar "ITvvb")]);
    SDel "ITvvb";
    SAugSub "L2aa" (EMul (EVar "fac") (EVar "tempa"));
    SAugSub "L2ab" (EMul (EVar "fac") (EVar "tempab"));
    SAugSub "L2bb" (EMul (EVar "fac") (EVar "tempb"));
    SAssign (PVar "IToovvs1") (EEinsum "kida,bdjk->ijab" [(EAttr (EVar "Ia") "oovv"); (EVar "T2aaold")]);
    SAugAdd "IToovvs1" (EEinsum "ikad,bdjk->ijab" [(EAttr (EVar "Iabab") "oovv"); (EVar "T2abold")]);
    SAugSub "IToovvs1" (EEinsum "ciba,bj->ijac" [(EVar "Ivovvs"); (EVar "T1aold")]);
    SAugAdd "L1a" (EMul (EVar "fac") (EEinsum "jb,ijab->ia" [(EVar "L1aold"); (EVar "IToovvs1")]));
    SDel "IToovvs1";
    SAssign (PVar "ITOOVVs1") (EEinsum "kica,bcjk->ijab" [(EAttr (EVar "Ib") "oovv"); (EVar "T2bbold")]);
    SAugAdd "ITOOVVs1" (EEinsum "kica,cbkj->ijab" [(EAttr (EVar "Iabab") "oovv"); (EVar "T2abold")]);
    SAugSub "ITOOVVs1" (EEinsum "ciba,bj->ijac" [(EVar "IVOVVs"); (EVar "T1bold")]);
    SAugAdd "L1b" (EMul (EVar "fac") (EEinsum "jb,ijab->ia" [(EVar "L1bold"); (EVar "ITOOVVs1")]));
    SDel "ITOOVVs1";
    SAssign (PVar "IToOvVs1") (EEinsum "kica,cbkj->ijab" [(EAttr (EVar "Ia") "oovv"); (EVar "T2abold")]);
    SAugAdd "IToOvVs1" (EEinsum "ikac,bcjk->ijab" [(EAttr (EVar "Iabab") "oovv"); (EVar "T2bbold")]);
    SAugSub "IToOvVs1" (EEinsum "ciba,bj->ijac" [(EVar "IVoVvs"); (EVar "T1bold")]);
    SAugAdd "L1a" (EMul (EVar "fac") (EEinsum "jb,ijab->ia" [(EVar "L1bold"); (EVar "IToOvVs1")]));
    SDel "IToOvVs1";
    SAssign (PVar "ITOoVvs1") (EEinsum "kica,bcjk->ijab" [(EAttr (EVar "Iabab") "oovv"); (EVar "T2aaold")]);
    SAugAdd "ITOoVvs1" (EEinsum "kica,bcjk->ijab" [(EAttr (EVar "Ib") "oovv"); (EVar "T2abold")]);
    SAugSub "ITOoVvs1" (EEinsum "ciba,bj->ijac" [(EVar "IvOvVs"); (EVar "T1aold")]);
    SAugAdd "L1b" (EMul (EVar "fac") (EEinsum "jb,ijab->ia" [(EVar "L1aold"); (EVar "ITOoVvs1")]));
    SDel "ITOoVvs1";
    SAssign (PVar "ITvooos") (EEinsum "cibk,bj->cijk" [(EAttr (EVar "Ia") "vovo"); (EVar "T1aold")]);
    SAugAdd "ITvooos" (EMul (ENum (1) 1) (EAttr (EVar "Ia") "vooo"));
    SAugAdd "ITvooos" (EMul (ENum (1) 1) (EEinsum "ic,bcjk->bijk" [(EAttr (EVar "Fa") "ov"); (EVar "T2aaold")]));
    SAugAdd "ITvooos" (EMul (ENum (1) 1) (EEinsum "ijkl,bj->bikl" [(EAttr (EVar "Ia") "oooo"); (EVar "T1aold")]));
    SAugAdd "ITvooos" (EEinsum "kilc,bcjk->bilj" [(EAttr (EVar "Ia") "ooov"); (EVar "T2aaold")]);
    SAugSub "ITvooos" (EEinsum "iklc,bcjk->bilj" [(EAttr (EVar "Iabab") "ooov"); (EVar "T2abold")]);
    SAugSub "ITvooos" (EEinsum "bicl,ck->bilk" [(EVar "Ivovos2"); (EVar "T1aold")]);
    SAugAdd "ITvooos" (EMul (ENum (1) 1) (EEinsum "dibc,bcjk->dijk" [(EAttr (EVar "Ia") "vovv"); (EVar "TTempaa")]));
    SAugAdd "ITvooos" (EMul (ENum (1) 1) (EEinsum "id,cdkl->cikl" [(EVar "Iovs"); (EVar "T2aaold")]));
    SAugSub "ITvooos" (EEinsum "ikjc,cdkl->dijl" [(EVar "Iooovs"); (EVar "T2aaold")]);
    SAugSub "ITvooos" (EEinsum "ikjc,dclk->dijl" [(EVar "IoOoVs"); (EVar "T2abold")]);
    SAugSub "ITvooos" (EMul (ENum (1) 1) (EEinsum "bicd,cdkl->bikl" [(EVar "Ivovvs"); (EVar "TTempaa")]));
    SAugAdd "L1a" (EMul (EVar "fac") (EEinsum "jkab,bijk->ia" [(EVar "L2aaold"); (EVar "ITvooos")]));
    SDel "ITvooos";
    SAssign (PVar "ITVOOOs") (EEinsum "cibk,bj->cijk" [(EAttr (EVar "Ib") "vovo"); (EVar "T1bold")]);
    SAugAdd "ITVOOOs" (EMul (ENum (1) 1) (EAttr (EVar "Ib") "vooo"));
    SAugAdd "ITVOOOs" (EMul (ENum (1) 1) (EEinsum "ic,bcjk->bijk" [(EAttr (EVar "Fb") "ov"); (EVar "T2bbold")]));
    SAugAdd "ITVOOOs" (EMul (ENum (1) 1) (EEinsum "ijkl,bj->bikl" [(EAttr (EVar "Ib") "oooo"); (EVar "T1bold")]));
    SAugAdd "ITVOOOs" (EEinsum "kilc,bcjk->bilj" [(EAttr (EVar "Ib") "ooov"); (EVar "T2bbold")]);
    SAugSub "ITVOOOs" (EEinsum "kicl,cbkj->bilj" [(EAttr (EVar "Iabab") "oovo"); (EVar "T2abold")]);
    SAugSub "ITVOOOs" (EEinsum "bicl,ck->bilk" [(EVar "IVOVOs2"); (EVar "T1bold")]);
    SAugAdd "ITVOOOs" (EMul (ENum (1) 1) (EEinsum "dibc,bcjk->dijk" [(EAttr (EVar "Ib") "vovv"); (EVar "TTempbb")]));
    SAugAdd "ITVOOOs" (EMul (ENum (1) 1) (EEinsum "id,cdkl->cikl" [(EVar "IOVs"); (EVar "T2bbold")]));
    SAugSub "ITVOOOs" (EEinsum "ikjc,cdkl->dijl" [(EVar "IOOOVs"); (EVar "T2bbold")]);
    SAugSub "ITVOOOs" (EEinsum "ikjc,cdkl->dijl" [(EVar "IOoOvs"); (EVar "T2abold")]);
    SAugSub "ITVOOOs" (EMul (ENum (1) 1) (EEinsum "bicd,cdkl->bikl" [(EVar "IVOVVs"); (EVar "TTempbb")]));
    SAugAdd "L1b" (EMul (EVar "fac") (EEinsum "jkab,bijk->ia" [(EVar "L2bbold"); (EVar "ITVOOOs")]));
    SDel "ITVOOOs";
    SAssign (PVar "ITVooOs") (ENeg (EEinsum "icbk,bj->cijk" [(EAttr (EVar "Iabab") "ovvo"); (EVar "T1aold")]));
    SAugSub "ITVooOs" (EMul (ENum (1) 1) (ETrans (EAttr (EVar "Iabab") "ovoo") [1; 0; 2; 3]));
    SAugSub "ITVooOs" (EMul (ENum (1) 1) (EEinsum "ic,cbjk->bijk" [(EAttr (EVar "Fa") "ov"); (EVar "T2abold")]));
    SAugAdd "ITVooOs" (EMul (ENum (1) 1) (EEinsum "ijkl,bj->bikl" [(EAttr (EVar "Iabab") "oooo"); (EVar "T1bold")]));
    SAugAdd "ITVooOs" (EEinsum "kilc,cbkj->bilj" [(EAttr (EVar "Ia") "ooov"); (EVar "T2abold")]);
    SAugSub "ITVooOs" (EEinsum "iklc,bcjk->bilj" [(EAttr (EVar "Iabab") "ooov"); (EVar "T2bbold")]);
    SAugSub "ITVooOs" (EEinsum "bicl,ck->bilk" [(EVar "IVoVos2"); (EVar "T1bold")]);
    SAugSub "ITVooOs" (EMul (ENum (1) 1) (EEinsum "idbc,bcjk->dijk" [(EAttr (EVar "Iabab") "ovvv"); (EVar "TTempab")]));
    SAugSub "ITVooOs" (EMul (ENum (1) 2) (EEinsum "idcb,cbjk->dijk" [(EAttr (EVar "Iabab") "ovvv"); (EVar "T2abold")]));
    SAugSub "ITVooOs" (EMul (ENum (1) 1) (EEinsum "id,dckl->cikl" [(EVar "Iovs"); (EVar "T2abold")]));
    SAugSub "ITVooOs" (EEinsum "ikjc,cdkl->dijl" [(EVar "Iooovs"); (EVar "T2abold")]);
    SAugSub "ITVooOs" (EEinsum "ikjc,cdkl->dijl" [(EVar "IoOoVs"); (EVar "T2bbold")]);
    SAugSub "ITVooOs" (EMul (ENum (1) 1) (EEinsum "bicd,cdkl->bikl" [(EVar "IVovVs"); (EVar "TTempab")]));
    SAugAdd "ITVooOs" (EMul (ENum (1) 2) (EEinsum "bicd,dckl->bikl" [(EVar "IVoVvs"); (EVar "T2abold")]));
    SAugAdd "L1a" (EMul (EVar "fac") (EEinsum "jkab,bijk->ia" [(EVar "L2abold"); (EVar "ITVooOs")]));
    SDel "ITVooOs";
    SAssign (PVar "ITvOOos") (ENeg (EEinsum "cikb,bj->cijk" [(EAttr (EVar "Iabab") "voov"); (EVar "T1bold")]));
    SAugSub "ITvOOos" (EMul (ENum (1) 1) (ETrans (EAttr (EVar "Iabab") "vooo") [0; 1; 3; 2]));
    SAugSub "ITvOOos" (EMul (ENum (1) 1) (EEinsum "ic,bckj->bijk" [(EAttr (EVar "Fb") "ov"); (EVar "T2abold")]));
    SAugAdd "ITvOOos" (EMul (ENum (1) 1) (EEinsum "jilk,bj->bikl" [(EAttr (EVar "Iabab") "oooo"); (EVar "T1aold")]));
    SAugAdd "ITvOOos" (EEinsum "kilc,bcjk->bilj" [(EAttr (EVar "Ib") "ooov"); (EVar "T2abold")]);
    SAugSub "ITvOOos" (EEinsum "kicl,bcjk->bilj" [(EAttr (EVar "Iabab") "oovo"); (EVar "T2aaold")]);
    SAugSub "ITvOOos" (EEinsum "bicl,ck->bilk" [(EVar "IvOvOs2"); (EVar "T1aold")]);
    SAugSub "ITvOOos" (EMul (ENum (1) 1) (EEinsum "dicb,cbkj->dijk" [(EAttr (EVar "Iabab") "vovv"); (EVar "TTempab")]));
    SAugSub "ITvOOos" (EMul (ENum (1) 2) (EEinsum "dibc,bckj->dijk" [(EAttr (EVar "Iabab") "vovv"); (EVar "T2abold")]));
    SAugSub "ITvOOos" (EMul (ENum (1) 1) (EEinsum "id,cdlk->cikl" [(EVar "IOVs"); (EVar "T2abold")]));
    SAugSub "ITvOOos" (EEinsum "ikjc,cdkl->dijl" [(EVar "IOoOvs"); (EVar "T2aaold")]);
    SAugSub "ITvOOos" (EEinsum "ikjc,dclk->dijl" [(EVar "IOOOVs"); (EVar "T2abold")]);
    SAugSub "ITvOOos" (EMul (ENum (1) 1) (EEinsum "bicd,dclk->bikl" [(EVar "IvOVvs"); (EVar "TTempab")]));
    SAugAdd "ITvOOos" (EMul (ENum (1) 2) (EEinsum "bicd,cdlk->bikl" [(EVar "IvOvVs"); (EVar "T2abold")]));
    SAugAdd "L1b" (EMul (EVar "fac") (EEinsum "kjba,bijk->ia" [(EVar "L2abold"); (EVar "ITvOOos")]));
    SDel "ITvOOos";
    SAssign (PVar "ITVoOos") (EEinsum "ickb,bj->cijk" [(EAttr (EVar "Iabab") "ovov"); (EVar "T1bold")]);
    SAugAdd "ITVoOos" (EMul (ENum (1) 1) (ETrans (EAttr (EVar "Iabab") "ovoo") [1; 0; 3; 2]));
    SAugAdd "ITVoOos" (EMul (ENum (1) 1) (EEinsum "ic,cbkj->bijk" [(EAttr (EVar "Fa") "ov"); (EVar "T2abold")]));
    SAugSub "ITVoOos" (EMul (ENum (1) 1) (EEinsum "ijlk,bj->bikl" [(EAttr (EVar "Iabab") "oooo"); (EVar "T1bold")]));
    SAugSub "ITVoOos" (EEinsum "ikcl,cbjk->bilj" [(EAttr (EVar "Iabab") "oovo"); (EVar "T2abold")]);
    SAugSub "ITVoOos" (EEinsum "bicl,ck->bilk" [(EVar "IVovOs2"); (EVar "T1aold")]);
    SAugAdd "ITVoOos" (EMul (ENum (1) 1) (EEinsum "idcb,cbkj->dijk" [(EAttr (EVar "Iabab") "ovvv"); (EVar "TTempab")]));
    SAugAdd "ITVoOos" (EMul (ENum (1) 2) (EEinsum "idbc,bckj->dijk" [(EAttr (EVar "Iabab") "ovvv"); (EVar "T2abold")]));
    SAugAdd "ITVoOos" (EMul (ENum (1) 1) (EEinsum "id,dclk->cikl" [(EVar "Iovs"); (EVar "T2abold")]));
    SAugAdd "ITVoOos" (EEinsum "ikjc,cdlk->dijl" [(EVar "IoOOvs"); (EVar "T2abold")]);
    SAugSub "ITVoOos" (EMul (ENum (1) 1) (EEinsum "bicd,dclk->bikl" [(EVar "IVoVvs"); (EVar "TTempab")]));
    SAugAdd "ITVoOos" (EMul (ENum (1) 2) (EEinsum "bicd,cdlk->bikl" [(EVar "IVovVs"); (EVar "T2abold")]));
    SAugSub "L1a" (EMul (EVar "fac") (EEinsum "kjab,bijk->ia" [(EVar "L2abold"); (EVar "ITVoOos")]));
    SDel "ITVoOos";
    SAssign (PVar "ITvOoOs") (EEinsum "cibk,bj->cijk" [(EAttr (EVar "Iabab") "vovo"); (EVar "T1aold")]);
    SAugAdd "ITvOoOs" (EMul (ENum (1) 1) (EAttr (EVar "Iabab") "vooo"));
    SAugAdd "ITvOoOs" (EMul (ENum (1) 1) (EEinsum "ic,bcjk->bijk" [(EAttr (EVar "Fb") "ov"); (EVar "T2abold")]));
    SAugSub "ITvOoOs" (EMul (ENum (1) 1) (EEinsum "jikl,bj->bikl" [(EAttr (EVar "Iabab") "oooo"); (EVar "T1aold")]));
    SAugSub "ITvOoOs" (EEinsum "kilc,bckj->bilj" [(EAttr (EVar "Iabab") "ooov"); (EVar "T2abold")]);
    SAugSub "ITvOoOs" (EEinsum "bicl,ck->bilk" [(EVar "IvOVos2"); (EVar "T1bold")]);
    SAugAdd "ITvOoOs" (EMul (ENum (1) 1) (EEinsum "dibc,bcjk->dijk" [(EAttr (EVar "Iabab") "vovv"); (EVar "TTempab")]));
    SAugAdd "ITvOoOs" (EMul (ENum (1) 2) (EEinsum "dicb,cbjk->dijk" [(EAttr (EVar "Iabab") "vovv"); (EVar "T2abold")]));
    SAugAdd "ITvOoOs" (EMul (ENum (1) 1) (EEinsum "id,cdkl->cikl" [(EVar "IOVs"); (EVar "T2abold")]));
    SAugAdd "ITvOoOs" (EEinsum "ikjc,dckl->dijl" [(EVar "IOooVs"); (EVar "T2abold")]);
    SAugSub "ITvOoOs" (EMul (ENum (1) 1) (EEinsum "bicd,cdkl->bikl" [(EVar "IvOvVs"); (EVar "TTempab")]));
    SAugAdd "ITvOoOs" (EMul (ENum (1) 2) (EEinsum "bicd,dckl->bikl" [(EVar "IvOVvs"); (EVar "T2abold")]));
    SAugSub "L1b" (EMul (EVar "fac") (EEinsum "jkba,bijk->ia" [(EVar "L2abold"); (EVar "ITvOoOs")]));
    SDel "ITvOoOs";
    SAssign (PVar "ITvvvos") (EMul (ENeg (ENum (1) 1)) (EAttr (EVar "Ia") "vvvo"));
    SAugAdd "ITvvvos" (EEinsum "cjak,bj->cbak" [(EAttr (EVar "Ia") "vovo"); (EVar "T1aold")]);
    SAugSub "ITvvvos" (EMul (ENum (1) 1) (EEinsum "ka,bcjk->bcaj" [(EAttr (EVar "Fa") "ov"); (EVar "T2aaold")]));
    SAugSub "ITvvvos" (EMul (ENum (1) 1) (EEinsum "cdab,bj->cdaj" [(EAttr (EVar "Ia") "vvvv"); (EVar "T1aold")]));
    SAugSub "ITvvvos" (EEinsum "dkca,bcjk->bdaj" [(EAttr (EVar "Ia") "vovv"); (EVar "T2aaold")]);
    SAugAdd "ITvvvos" (EEinsum "dkac,bcjk->bdaj" [(EAttr (EVar "Iabab") "vovv"); (EVar "T2abold")]);
    SAugSub "ITvvvos" (EEinsum "djak,bj->bdak" [(EVar "Ivovos1"); (EVar "T1aold")]);
    SAugAdd "ITvvvos" (EMul (ENum (1) 1) (EEinsum "jkla,bcjk->bcal" [(EAttr (EVar "Ia") "ooov"); (EVar "TTempaa")]));
    SAugSub "ITvvvos" (EMul (ENum (1) 1) (EEinsum "la,cdkl->cdak" [(EVar "Iovs"); (EVar "T2aaold")]));
    SAugAdd "ITvvvos" (EEinsum "bkac,cdkl->bdal" [(EVar "Ivovvs"); (EVar "T2aaold")]);
    SAugAdd "ITvvvos" (EEinsum "bkac,dclk->bdal" [(EVar "IvOvVs"); (EVar "T2abold")]);
    SAugAdd "ITvvvos" (EMul (ENum (1) 1) (EEinsum "klja,cdkl->cdaj" [(EVar "Iooovs"); (EVar "TTempaa")]));
    SAugAdd "L1a" (EMul (EVar "fac") (EEinsum "ikbc,cbak->ia" [(EVar "L2aaold"); (EVar "ITvvvos")]));
    SDel "ITvvvos";
    SAssign (PVar "ITVVVOs") (EMul (ENeg (ENum (1) 1)) (EAttr (EVar "Ib") "vvvo"));
    SAugAdd "ITVVVOs" (EEinsum "cjak,bj->cbak" [(EAttr (EVar "Ib") "vovo"); (EVar "T1bold")]);
    SAugSub "ITVVVOs" (EMul (ENum (1) 1) (EEinsum "ka,bcjk->bcaj" [(EAttr (EVar "Fb") "ov"); (EVar "T2bbold")]));
    SAugSub "ITVVVOs" (EMul (ENum (1) 1) (EEinsum "cdab,bj->cdaj" [(EAttr (EVar "Ib") "vvvv"); (EVar "T1bold")]));
    SAugSub "ITVVVOs" (EEinsum "dkca,bcjk->bdaj" [(EAttr (EVar "Ib") "vovv"); (EVar "T2bbold")]);
    SAugAdd "ITVVVOs" (EEinsum "kdca,cbkj->bdaj" [(EAttr (EVar "Iabab") "ovvv"); (EVar "T2abold")]);
    SAugSub "ITVVVOs" (EEinsum "djak,bj->bdak" [(EVar "IVOVOs1"); (EVar "T1bold")]);
    SAugAdd "ITVVVOs" (EMul (ENum (1) 1) (EEinsum "jkla,bcjk->bcal" [(EAttr (EVar "Ib") "ooov"); (EVar "TTempbb")]));
    SAugSub "ITVVVOs" (EMul (ENum (1) 1) (EEinsum "la,cdkl->cdak" [(EVar "IOVs"); (EVar "T2bbold")]));
    SAugAdd "ITVVVOs" (EEinsum "bkac,cdkl->bdal" [(EVar "IVOVVs"); (EVar "T2bbold")]);
    SAugAdd "ITVVVOs" (EEinsum "bkac,cdkl->bdal" [(EVar "IVoVvs"); (EVar "T2abold")]);
    SAugAdd "ITVVVOs" (EMul (ENum (1) 1) (EEinsum "klja,cdkl->cdaj" [(EVar "IOOOVs"); (EVar "TTempbb")]));
    SAugAdd "L1b" (EMul (EVar "fac") (EEinsum "ikbc,cbak->ia" [(EVar "L2bbold"); (EVar "ITVVVOs")]));
    SDel "ITVVVOs";
    SAssign (PVar "ITVvvOs") (EMul (ENum (1) 1) (ETrans (EAttr (EVar "Iabab") "vvvo") [1; 0; 2; 3]));
    SAugSub "ITVvvOs" (EEinsum "jcak,bj->cbak" [(EAttr (EVar "Iabab") "ovvo"); (EVar "T1aold")]);
    SAugSub "ITVvvOs" (EMul (ENum (1) 1) (EEinsum "ka,cbkj->bcaj" [(EAttr (EVar "Fa") "ov"); (EVar "T2abold")]));
    SAugAdd "ITVvvOs" (EMul (ENum (1) 1) (EEinsum "dcab,bj->cdaj" [(EAttr (EVar "Iabab") "vvvv"); (EVar "T1bold")]));
    SAugSub "ITVvvOs" (EEinsum "dkca,cbkj->bdaj" [(EAttr (EVar "Ia") "vovv"); (EVar "T2abold")]);
    SAugAdd "ITVvvOs" (EEinsum "dkac,bcjk->bdaj" [(EAttr (EVar "Iabab") "vovv"); (EVar "T2bbold")]);
    SAugSub "ITVvvOs" (EEinsum "djak,bj->bdak" [(EVar "IvOvOs1"); (EVar "T1bold")]);
    SAugAdd "ITVvvOs" (EMul (ENum (1) 1) (EEinsum "kjal,cbkj->bcal" [(EAttr (EVar "Iabab") "oovo"); (EVar "TTempab")]));
    SAugAdd "ITVvvOs" (EMul (ENum (1) 2) (EEinsum "jkal,cbjk->bcal" [(EAttr (EVar "Iabab") "oovo"); (EVar "T2abold")]));
    SAugSub "ITVvvOs" (EMul (ENum (1) 1) (EEinsum "la,dclk->cdak" [(EVar "Iovs"); (EVar "T2abold")]));
    SAugSub "ITVvvOs" (EEinsum "bkac,dckl->bdal" [(EVar "IVovVs"); (EVar "T2abold")]);
    SAugAdd "ITVvvOs" (EMul (ENum (1) 1) (EEinsum "klja,dclk->cdaj" [(EVar "IOoOvs"); (EVar "TTempab")]));
    SAugSub "ITVvvOs" (EMul (ENum (1) 2) (EEinsum "klja,dckl->cdaj" [(EVar "IoOOvs"); (EVar "T2abold")]));
    SAugAdd "L1a" (EMul (EVar "fac") (EEinsum "ikbc,cbak->ia" [(EVar "L2abold"); (EVar "ITVvvOs")]));
    SDel "ITVvvOs";
    SAssign (PVar "ITvVVos") (EMul (ENum (1) 1) (ETrans (EAttr (EVar "Iabab") "vvov") [0; 1; 3; 2]));
    SAugSub "ITvVVos" (EEinsum "cjka,bj->cbak" [(EAttr (EVar "Iabab") "voov"); (EVar "T1bold")]);
    SAugSub "ITvVVos" (EMul (ENum (1) 1) (EEinsum "ka,bcjk->bcaj" [(EAttr (EVar "Fb") "ov"); (EVar "T2abold")]));
    SAugAdd "ITvVVos" (EMul (ENum (1) 1) (EEinsum "cdba,bj->cdaj" [(EAttr (EVar "Iabab") "vvvv"); (EVar "T1aold")]));
    SAugAdd "ITvVVos" (EEinsum "kdca,bcjk->bdaj" [(EAttr (EVar "Iabab") "ovvv"); (EVar "T2aaold")]);
    SAugSub "ITvVVos" (EEinsum "dkca,bcjk->bdaj" [(EAttr (EVar "Ib") "vovv"); (EVar "T2abold")]);
    SAugSub "ITvVVos" (EEinsum "djak,bj->bdak" [(EVar "IVoVos1"); (EVar "T1aold")]);
    SAugAdd "ITvVVos" (EMul (ENum (1) 1) (EEinsum "jkla,bcjk->bcal" [(EAttr (EVar "Iabab") "ooov"); (EVar "TTempab")]));
    SAugAdd "ITvVVos" (EMul (ENum (1) 2) (EEinsum "kjla,bckj->bcal" [(EAttr (EVar "Iabab") "ooov"); (EVar "T2abold")]));
    SAugSub "ITvVVos" (EMul (ENum (1) 1) (EEinsum "la,cdkl->cdak" [(EVar "IOVs"); (EVar "T2abold")]));
    SAugSub "ITvVVos" (EEinsum "bkac,cdlk->bdal" [(EVar "IvOVvs"); (EVar "T2abold")]);
    SAugAdd "ITvVVos" (EMul (ENum (1) 1) (EEinsum "klja,cdkl->cdaj" [(EVar "IoOoVs"); (EVar "TTempab")]));
    SAugSub "ITvVVos" (EMul (ENum (1) 2) (EEinsum "klja,cdlk->cdaj" [(EVar "IOooVs"); (EVar "T2abold")]));
    SAugAdd "L1b" (EMul (EVar "fac") (EEinsum "kicb,cbak->ia" [(EVar "L2abold"); (EVar "ITvVVos")]));
    SDel "ITvVVos";
    SAssign (PVar "ITVvVos") (EMul (ENeg (ENum (1) 1)) (ETrans (EAttr (EVar "Iabab") "vvov") [1; 0; 3; 2]));
    SAugAdd "ITVvVos" (EEinsum "jcka,bj->cbak" [(EAttr (EVar "Iabab") "ovov"); (EVar "T1aold")]);
    SAugAdd "ITVvVos" (EMul (ENum (1) 1) (EEinsum "ka,cbjk->bcaj" [(EAttr (EVar "Fb") "ov"); (EVar "T2abold")]));
    SAugSub "ITVvVos" (EMul (ENum (1) 1) (EEinsum "dcba,bj->cdaj" [(EAttr (EVar "Iabab") "vvvv"); (EVar "T1aold")]));
    SAugAdd "ITVvVos" (EEinsum "dkca,cbjk->bdaj" [(EAttr (EVar "Iabab") "vovv"); (EVar "T2abold")]);
    SAugSub "ITVvVos" (EEinsum "djak,bj->bdak" [(EVar "IvOVos1"); (EVar "T1bold")]);
    SAugSub "ITVvVos" (EMul (ENum (1) 1) (EEinsum "kjla,cbkj->bcal" [(EAttr (EVar "Iabab") "ooov"); (EVar "TTempab")]));
    SAugSub "ITVvVos" (EMul (ENum (1) 2) (EEinsum "jkla,cbjk->bcal" [(EAttr (EVar "Iabab") "ooov"); (EVar "T2abold")]));
    SAugAdd "ITVvVos" (EMul (ENum (1) 1) (EEinsum "la,dckl->cdak" [(EVar "IOVs"); (EVar "T2abold")]));
    SAugAdd "ITVvVos" (EEinsum "bkac,cdkl->bdal" [(EVar "IVoVvs"); (EVar "T2aaold")]);
    SAugAdd "ITVvVos" (EEinsum "bkac,dclk->bdal" [(EVar "IVOVVs"); (EVar "T2abold")]);
    SAugAdd "ITVvVos" (EMul (ENum (1) 1) (EEinsum "klja,dclk->cdaj" [(EVar "IOooVs"); (EVar "TTempab")]));
    SAugSub "ITVvVos" (EMul (ENum (1) 2) (EEinsum "klja,dckl->cdaj" [(EVar "IoOoVs"); (EVar "T2abold")]));
    SAugSub "L1b" (EMul (EVar "fac") (EEinsum "kibc,cbak->ia" [(EVar "L2abold"); (EVar "ITVvVos")]));
    SDel "ITVvVos";
    SAssign (PVar "ITvVvOs") (EMul (ENeg (ENum (1) 1)) (EAttr (EVar "Iabab") "vvvo"));
    SAugAdd "ITvVvOs" (EEinsum "cjak,bj->cbak" [(EAttr (EVar "Iabab") "vovo"); (EVar "T1bold")]);
    SAugAdd "ITvVvOs" (EMul (ENum (1) 1) (EEinsum "ka,bckj->bcaj" [(EAttr (EVar "Fa") "ov"); (EVar "T2abold")]));
    SAugSub "ITvVvOs" (EMul (ENum (1) 1) (EEinsum "cdab,bj->cdaj" [(EAttr (EVar "Iabab") "vvvv"); (EVar "T1bold")]));
    SAugAdd "ITvVvOs" (EEinsum "kdac,bckj->bdaj" [(EAttr (EVar "Iabab") "ovvv"); (EVar "T2abold")]);
    SAugSub "ITvVvOs" (EEinsum "djak,bj->bdak" [(EVar "IVovOs1"); (EVar "T1aold")]);
    SAugSub "ITvVvOs" (EMul (ENum (1) 1) (EEinsum "jkal,bcjk->bcal" [(EAttr (EVar "Iabab") "oovo"); (EVar "TTempab")]));
    SAugSub "ITvVvOs" (EMul (ENum (1) 2) (EEinsum "kjal,bckj->bcal" [(EAttr (EVar "Iabab") "oovo"); (EVar "T2abold")]));
    SAugAdd "ITvVvOs" (EMul (ENum (1) 1) (EEinsum "la,cdlk->cdak" [(EVar "Iovs"); (EVar "T2abold")]));
    SAugAdd "ITvVvOs" (EEinsum "bkac,cdkl->bdal" [(EVar "Ivovvs"); (EVar "T2abold")]);
    SAugAdd "ITvVvOs" (EEinsum "bkac,cdkl->bdal" [(EVar "IvOvVs"); (EVar "T2bbold")]);
    SAugAdd "ITvVvOs" (EMul (ENum (1) 1) (EEinsum "klja,cdkl->cdaj" [(EVar "IoOOvs"); (EVar "TTempab")]));
    SAugSub "ITvVvOs" (EMul (ENum (1) 2) (EEinsum "klja,cdlk->cdaj" [(EVar "IOoOvs"); (EVar "T2abold")]));
    SAugSub "L1a" (EMul (EVar "fac") (EEinsum "ikcb,cbak->ia" [(EVar "L2abold"); (EVar "ITvVvOs")]));
    SDel "ITvVvOs";
    SAssign (PVar "ITovs") (EAdd (EVar "Iovs") (EAttr (EVar "Fa") "ov"));
    SAssign (PVar "tempaa") (EEinsum "jb,ia->ijab" [(EVar "L1aold"); (EVar "ITovs")]);
    SAssign (PVar "tempab") (EEinsum "jb,ia->ijab" [(EVar "L1bold"); (EVar "ITovs")]);
    SDel "ITovs";
    SAssign (PVar "ITOVs") (EAdd (EVar "IOVs") (EAttr (EVar "Fb") "ov"));
    SAugAdd "tempaa" (ESub (ESub (ETrans (EVar "tempaa") [1; 0; 3; 2]) (ETrans (EVar "tempaa") [0; 1; 3; 2])) (ETrans (EVar "tempaa") [1; 0; 2; 3]));
    SAssign (PVar "tempbb") (EEinsum "jb,ia->ijab" [(EVar "L1bold"); (EVar "ITOVs")]);
    SAugAdd "tempbb" (ESub (ESub (ETrans (EVar "tempbb") [1; 0; 3; 2]) (ETrans (EVar "tempbb") [0; 1; 3; 2])) (ETrans (EVar "tempbb") [1; 0; 2; 3]));
    SAugAdd "tempab" (EEinsum "ia,jb->ijab" [(EVar "L1aold"); (EVar "ITOVs")]);
    SDel "ITOVs";
    SAugAdd "L2aa" (EMul (EVar "fac") (EVar "tempaa"));
    SAugAdd "L2ab" (EMul (EVar "fac") (EVar "tempab"));
    SAugAdd "L2bb" (EMul (EVar "fac") (EVar "tempbb"));
    SAssign (PVar "ITvovvs") (ESub (EVar "Ivovvs") (EAttr (EVar "Ia") "vovv"));
    SAssign (PVar "tempaa") (EEinsum "ic,cjab->ijab" [(EVar "L1aold"); (EVar "ITvovvs")]);
    SDel "ITvovvs";
    SAugSub "tempaa" (ETrans (EVar "tempaa") [1; 0; 2; 3]);
    SAugSub "L2aa" (EMul (EVar "fac") (EVar "tempaa"));
    SAssign (PVar "ITVOVVs") (ESub (EVar "IVOVVs") (EAttr (EVar "Ib") "vovv"));
    SAssign (PVar "tempbb") (EEinsum "ic,cjab->ijab" [(EVar "L1bold"); (EVar "ITVOVVs")]);
    SDel "ITVOVVs";
    SAugSub "tempbb" (ETrans (EVar "tempbb") [1; 0; 2; 3]);
    SAugSub "L2bb" (EMul (EVar "fac") (EVar "tempbb"));
    SAssign (PVar "ITvOvVs") (ESub (EVar "IvOvVs") (EAttr (EVar "Iabab") "vovv"));
    SAssign (PVar "tempab") (EEinsum "ic,cjab->ijab" [(EVar "L1aold"); (EVar "ITvOvVs")]);
    SDel "ITvOvVs";
    SAssign (PVar "ITVovVs") (EAdd (EVar "IVovVs") (ETrans (EAttr (EVar "Iabab") "ovvv") [1; 0; 2; 3]));
    SAugSub "tempab" (EEinsum "jc,ciab->ijab" [(EVar "L1bold"); (EVar "ITVovVs")]);
    SDel "ITVovVs";
    SAugSub "L2ab" (EMul (EVar "fac") (EVar "tempab"));
    SAssign (PVar "ITooovs") (EAdd (EVar "Iooovs") (EAttr (EVar "Ia") "ooov"));
    SAssign (PVar "tempaa") (EEinsum "ka,ijkb->ijab" [(EVar "L1aold"); (EVar "ITooovs")]);
    SAugSub "tempaa" (ETrans (EVar "tempaa") [0; 1; 3; 2]);
    SDel "ITooovs";
    SAssign (PVar "ITOOOVs") (EAdd (EVar "IOOOVs") (EAttr (EVar "Ib") "ooov"));
    SAssign (PVar "tempbb") (EEinsum "ka,ijkb->ijab" [(EVar "L1bold"); (EVar "ITOOOVs")]);
    SAugSub "tempbb" (ETrans (EVar "tempbb") [0; 1; 3; 2]);
    SDel "ITOOOVs";
    SAssign (PVar "IToOoVs") (EAdd (EVar "IoOoVs") (EAttr (EVar "Iabab") "ooov"));
    SAssign (PVar "tempab") (EEinsum "ka,ijkb->ijab" [(EVar "L1aold"); (EVar "IToOoVs")]);
    SDel "IToOoVs";
    SAssign (PVar "IToOOvs") (ESub (EVar "IoOOvs") (ETrans (EAttr (EVar "Iabab") "oovo") [0; 1; 3; 2]));
    SAugSub "tempab" (EEinsum "kb,ijka->ijab" [(EVar "L1bold"); (EVar "IToOOvs")]);
    SDel "IToOOvs";
    SAugSub "L2aa" (EMul (EVar "fac") (EVar "tempaa"));
    SAugSub "L2ab" (EMul (EVar "fac") (EVar "tempab"));
    SAugSub "L2bb" (EMul (EVar "fac") (EVar "tempbb"));
    SAssign (PVar "ITvovos") (ESub (ESub (ENeg (EVar "Ivovos1")) (EVar "Ivovos2")) (EAttr (EVar "Ia") "vovo"));
    SAugAdd "L1a" (EMul (EVar "fac") (EEinsum "jb,biaj->ia" [(EVar "L1aold"); (EVar "ITvovos")]));
    SAugSub "ITvovos" (EEinsum "djcb,ck->djbk" [(EVar "Ivovvs"); (EVar "T1aold")]);
    SAssign (PVar "tempaa") (EEinsum "ikad,djbk->ijab" [(EVar "L2aaold"); (EVar "ITvovos")]);
    SAssign (PVar "tempab") (EEinsum "kjdb,diak->ijab" [(EVar "L2abold"); (EVar "ITvovos")]);
    SDel "ITvovos";
    SAssign (PVar "ITVOVOs") (ESub (ESub (ENeg (EVar "IVOVOs1")) (EVar "IVOVOs2")) (EAttr (EVar "Ib") "vovo"));
    SAugAdd "L1b" (EMul (EVar "fac") (EEinsum "jb,biaj->ia" [(EVar "L1bold"); (EVar "ITVOVOs")]));
    SAugSub "ITVOVOs" (EEinsum "djcb,ck->djbk" [(EVar "IVOVVs"); (EVar "T1bold")]);
    SAugAdd "tempab" (EEinsum "ikad,djbk->ijab" [(EVar "L2abold"); (EVar "ITVOVOs")]);
    SAssign (PVar "tempbb") (EEinsum "ikad,djbk->ijab" [(EVar "L2bbold"); (EVar "ITVOVOs")]);
    SDel "ITVOVOs";
    SAssign (PVar "ITvOVos") (EAdd (ESub (ENeg (EVar "IvOVos1")) (EVar "IvOVos2")) (ETrans (EAttr (EVar "Iabab") "voov") [0; 1; 3; 2]));
    SAugAdd "L1b" (EMul (EVar "fac") (EEinsum "jb,biaj->ia" [(EVar "L1aold"); (EVar "ITvOVos")]));
    SAugSub "ITvOVos" (EEinsum "djcb,ck->djbk" [(EVar "IvOvVs"); (EVar "T1aold")]);
    SAugAdd "tempab" (EEinsum "ikad,djbk->ijab" [(EVar "L2aaold"); (EVar "ITvOVos")]);
    SAugAdd "tempbb" (EEinsum "kida,djbk->ijab" [(EVar "L2abold"); (EVar "ITvOVos")]);
    SDel "ITvOVos";
    SAssign (PVar "ITVovOs") (EAdd (ESub (ENeg (EVar "IVovOs1")) (EVar "IVovOs2")) (ETrans (EAttr (EVar "Iabab") "ovvo") [1; 0; 2; 3]));
    SAugAdd "L1a" (EMul (EVar "fac") (EEinsum "jb,biaj->ia" [(EVar "L1bold"); (EVar "ITVovOs")]));
    SAugSub "ITVovOs" (EEinsum "djcb,ck->djbk" [(EVar "IVoVvs"); (EVar "T1bold")]);
    SAugAdd "tempaa" (EEinsum "ikad,djbk->ijab" [(EVar "L2abold"); (EVar "ITVovOs")]);
    SAugAdd "tempab" (EEinsum "kjdb,diak->ijab" [(EVar "L2bbold"); (EVar "ITVovOs")]);
    SDel "ITVovOs";
    SAssign (PVar "ITvOvOs") (ESub (ESub (ENeg (EVar "IvOvOs1")) (EVar "IvOvOs2")) (EAttr (EVar "Iabab") "vovo"));
    SAugSub "ITvOvOs" (EEinsum "djcb,ck->djbk" [(EVar "IvOVvs"); (EVar "T1bold")]);
    SAugAdd "tempab" (EEinsum "ikdb,djak->ijab" [(EVar "L2abold"); (EVar "ITvOvOs")]);
    SDel "ITvOvOs";
    SAssign (PVar "ITVoVos") (ESub (ESub (ENeg (EVar "IVoVos1")) (EVar "IVoVos2")) (ETrans (EAttr (EVar "Iabab") "ovov") [1; 0; 3; 2]));
    SAugSub "ITVoVos" (EEinsum "djcb,ck->djbk" [(EVar "IVovVs"); (EVar "T1aold")]);
    SAugAdd "tempab" (EEinsum "kjad,dibk->ijab" [(EVar "L2abold"); (EVar "ITVoVos")]);
    SDel "ITVoVos";
    SAugAdd "tempaa" (ESub (ESub (ETrans (EVar "tempaa") [1; 0; 3; 2]) (ETrans (EVar "tempaa") [0; 1; 3; 2])) (ETrans (EVar "tempaa") [1; 0; 2; 3]));
    SAugAdd "tempbb" (ESub (ESub (ETrans (EVar "tempbb") [1; 0; 3; 2]) (ETrans (EVar "tempbb") [0; 1; 3; 2])) (ETrans (EVar "tempbb") [1; 0; 2; 3]));
    SAugAdd "L2aa" (EMul (EVar "fac") (EVar "tempaa"));
    SAugAdd "L2ab" (EMul (EVar "fac") (EVar "tempab"));
    SAugAdd "L2bb" (EMul (EVar "fac") (EVar "tempbb"));
    SAssign (PVar "ITvvvvs") (EAdd (EAdd (EEinsum "dkab,ck->cdab" [(EAttr (EVar "Ia") "vovv"); (EVar "T1aold")]) (EMul (ENum (1) 1) (EEinsum "klab,cdkl->cdab" [(EAttr (EVar "Ia") "oovv"); (EVar "TTempaa")]))) (EMul (ENum (1) 1) (EAttr (EVar "Ia") "vvvv")));
    SAugAdd "L2aa" (EMul (EVar "fac") (EEinsum "ijcd,cdab->ijab" [(EVar "L2aaold"); (EVar "ITvvvvs")]));
    SDel "ITvvvvs";
    SAssign (PVar "ITVVVVs") (EAdd (EAdd (EEinsum "dkab,ck->cdab" [(EAttr (EVar "Ib") "vovv"); (EVar "T1bold")]) (EMul (ENum (1) 1) (EEinsum "klab,cdkl->cdab" [(EAttr (EVar "Ib") "oovv"); (EVar "TTempbb")]))) (EMul (ENum (1) 1) (EAttr (EVar "Ib") "vvvv")));
    SAugAdd "L2bb" (EMul (EVar "fac") (EEinsum "ijcd,cdab->ijab" [(EVar "L2bbold"); (EVar "ITVVVVs")]));
    SDel "ITVVVVs";
    SAssign (PVar "ITvVvVs") (ENeg (EEinsum "kdab,ck->cdab" [(EAttr (EVar "Iabab") "ovvv"); (EVar "T1aold")]));
    SAugAdd "ITvVvVs" (EMul (ENum (1) 1) (EEinsum "klab,cdkl->cdab" [(EAttr (EVar "Iabab") "oovv"); (EVar "TTempab")]));
    SAugAdd "ITvVvVs" (EMul (ENum (1) 2) (EEinsum "lkab,cdlk->cdab" [(EAttr (EVar "Iabab") "oovv"); (EVar "T2abold")]));
    SAugAdd "ITvVvVs" (EMul (ENum (1) 1) (EAttr (EVar "Iabab") "vvvv"));
    SAugAdd "L2ab" (EMul (EVar "fac") (EEinsum "ijcd,cdab->ijab" [(EVar "L2abold"); (EVar "ITvVvVs")]));
    SDel "ITvVvVs";
    SAssign (PVar "ITVvvVs") (EEinsum "dkab,ck->cdab" [(EAttr (EVar "Iabab") "vovv"); (EVar "T1bold")]);
    SAugSub "ITVvvVs" (EMul (ENum (1) 1) (EEinsum "lkab,dclk->cdab" [(EAttr (EVar "Iabab") "oovv"); (EVar "TTempab")]));
    SAugSub "ITVvvVs" (EMul (ENum (1) 2) (EEinsum "klab,dckl->cdab" [(EAttr (EVar "Iabab") "oovv"); (EVar "T2abold")]));
    SAugSub "ITVvvVs" (EMul (ENum (1) 1) (ETrans (EAttr (EVar "Iabab") "vvvv") [1; 0; 2; 3]));
    SAugSub "L2ab" (EMul (EVar "fac") (EEinsum "ijdc,cdab->ijab" [(EVar "L2abold"); (EVar "ITVvvVs")]));
    SDel "ITVvvVs";
    SAssign (PVar "IToooos") (ESub (ESub (EEinsum "ijlc,ck->ijkl" [(EAttr (EVar "Ia") "ooov"); (EVar "T1aold")]) (EMul (ENum (1) 1) (EEinsum "ijcd,cdkl->ijkl" [(EAttr (EVar "Ia") "oovv"); (EVar "TTempaa")]))) (EMul (ENum (1) 1) (EAttr (EVar "Ia") "oooo")));
    SAugSub "L2aa" (EMul (EVar "fac") (EEinsum "klab,ijkl->ijab" [(EVar "L2aaold"); (EVar "IToooos")]));
    SDel "IToooos";
    SAssign (PVar "ITOOOOs") (ESub (ESub (EEinsum "ijlc,ck->ijkl" [(EAttr (EVar "Ib") "ooov"); (EVar "T1bold")]) (EMul (ENum (1) 1) (EEinsum "ijcd,cdkl->ijkl" [(EAttr (EVar "Ib") "oovv"); (EVar "TTempbb")]))) (EMul (ENum (1) 1) (EAttr (EVar "Ib") "oooo")));
    SAugSub "L2bb" (EMul (EVar "fac") (EEinsum "klab,ijkl->ijab" [(EVar "L2bbold"); (EVar "ITOOOOs")]));
    SDel "ITOOOOs";
    SAssign (PVar "IToOoOs") (ESub (ESub (ENeg (EEinsum "ijcl,ck->ijkl" [(EAttr (EVar "Iabab") "oovo"); (EVar "T1aold")])) (EMul (ENum (1) 1) (EEinsum "ijcd,cdkl->ijkl" [(EAttr (EVar "Iabab") "oovv"); (EVar "TTempab")]))) (EMul (ENum (1) 2) (EEinsum "ijdc,dckl->ijkl" [(EAttr (EVar "Iabab") "oovv"); (EVar "T2abold")])));
    SAugAdd "IToOoOs" (EMul (ENeg (ENum (1) 1)) (EAttr (EVar "Iabab") "oooo"));
    SAugSub "L2ab" (EMul (EVar "fac") (EEinsum "klab,ijkl->ijab" [(EVar "L2abold"); (EVar "IToOoOs")]));
    SDel "IToOoOs";
    SAssign (PVar "IToOOos") (EEinsum "ijlc,ck->ijkl" [(EAttr (EVar "Iabab") "ooov"); (EVar "T1bold")]);
    SAugAdd "IToOOos" (EMul (ENum (1) 1) (EEinsum "ijdc,dclk->ijkl" [(EAttr (EVar "Iabab") "oovv"); (EVar "TTempab")]));
    SAugAdd "IToOOos" (EMul (ENum (1) 2) (EEinsum "ijcd,cdlk->ijkl" [(EAttr (EVar "Iabab") "oovv"); (EVar "T2abold")]));
    SAugAdd "IToOOos" (EMul (ENum (1) 1) (ETrans (EAttr (EVar "Iabab") "oooo") [0; 1; 3; 2]));
    SAugAdd "L2ab" (EMul (EVar "fac") (EEinsum "lkab,ijkl->ijab" [(EVar "L2abold"); (EVar "IToOOos")]));
    SDel "IToOOos";
    SAssign (PVar "IToovvs") (EEinsum "ljdb,cdkl->kjcb" [(EAttr (EVar "Ia") "oovv"); (EVar "T2aaold")]);
    SAugAdd "IToovvs" (EEinsum "jlbd,cdkl->kjcb" [(EAttr (EVar "Iabab") "oovv"); (EVar "T2abold")]);
    SAssign (PVar "tempaa") (EEinsum "ikac,kjcb->ijab" [(EVar "L2aaold"); (EVar "IToovvs")]);
    SAssign (PVar "tempab") (EEinsum "kjcb,kica->ijab" [(EVar "L2abold"); (EVar "IToovvs")]);
    SDel "IToovvs";
    SAssign (PVar "ITOOVVs") (EEinsum "ljdb,cdkl->kjcb" [(EAttr (EVar "Ib") "oovv"); (EVar "T2bbold")]);
    SAugAdd "ITOOVVs" (EEinsum "ljdb,dclk->kjcb" [(EAttr (EVar "Iabab") "oovv"); (EVar "T2abold")]);
    SAssign (PVar "tempbb") (EEinsum "ikac,kjcb->ijab" [(EVar "L2bbold"); (EVar "ITOOVVs")]);
    SAugAdd "tempab" (EEinsum "ikac,kjcb->ijab" [(EVar "L2abold"); (EVar "ITOOVVs")]);
    SDel "ITOOVVs";
    SAssign (PVar "IToOvVs") (EEinsum "ljdb,cdkl->kjcb" [(EAttr (EVar "Iabab") "oovv"); (EVar "T2aaold")]);
    SAugAdd "IToOvVs" (EEinsum "ljdb,cdkl->kjcb" [(EAttr (EVar "Ib") "oovv"); (EVar "T2abold")]);
    SAugAdd "tempbb" (EEinsum "kica,kjcb->ijab" [(EVar "L2abold"); (EVar "IToOvVs")]);
    SAugAdd "tempab" (EEinsum "ikac,kjcb->ijab" [(EVar "L2aaold"); (EVar "IToOvVs")]);
    SDel "IToOvVs";
    SAssign (PVar "ITOoVvs") (EEinsum "ljdb,dclk->kjcb" [(EAttr (EVar "Ia") "oovv"); (EVar "T2abold")]);
    SAugAdd "ITOoVvs" (EEinsum "jlbd,cdkl->kjcb" [(EAttr (EVar "Iabab") "oovv"); (EVar "T2bbold")]);
    SAugAdd "tempaa" (EEinsum "ikac,kjcb->ijab" [(EVar "L2abold"); (EVar "ITOoVvs")]);
    SAugAdd "tempab" (EEinsum "kjcb,kica->ijab" [(EVar "L2bbold"); (EVar "ITOoVvs")]);
    SDel "ITOoVvs";
    SAssign (PVar "ITOOvvs") (EEinsum "ljbd,cdlk->kjcb" [(EAttr (EVar "Iabab") "oovv"); (EVar "T2abold")]);
    SAugAdd "tempab" (EEinsum "ikcb,kjca->ijab" [(EVar "L2abold"); (EVar "ITOOvvs")]);
    SDel "ITOOvvs";
    SAssign (PVar "ITooVVs") (EEinsum "jldb,dckl->kjcb" [(EAttr (EVar "Iabab") "oovv"); (EVar "T2abold")]);
    SAugAdd "tempab" (EEinsum "kjac,kicb->ijab" [(EVar "L2abold"); (EVar "ITooVVs")]);
    SDel "ITooVVs";
    SAugAdd "tempaa" (ESub (ESub (ETrans (EVar "tempaa") [1; 0; 3; 2]) (ETrans (EVar "tempaa") [0; 1; 3; 2])) (ETrans (EVar "tempaa") [1; 0; 2; 3]));
    SAugAdd "tempbb" (ESub (ESub (ETrans (EVar "tempbb") [1; 0; 3; 2]) (ETrans (EVar "tempbb") [0; 1; 3; 2])) (ETrans (EVar "tempbb") [1; 0; 2; 3]));
    SAugAdd "L2aa" (EMul (EVar "fac") (EVar "tempaa"));
    SAugAdd "L2ab" (EMul (EVar "fac") (EVar "tempab"));
    SAugAdd "L2bb" (EMul (EVar "fac") (EVar "tempbb"));
    SAssign (PVar "Lt1a") (EEinsum "jkbd,bcjk->cd" [(EVar "L2aaold"); (EVar "T2aaold")]);
    SAugAdd "Lt1a" (EEinsum "kjdb,cbkj->cd" [(EVar "L2abold"); (EVar "T2abold")]);
    SAugAdd "Lt1a" (EEinsum "jkdb,cbjk->cd" [(EVar "L2abold"); (EVar "T2abold")]);
    SAugAdd "L1a" (EMul (EMul (ENum (1) 1) (EVar "fac")) (EEinsum "cd,dica->ia" [(EVar "Lt1a"); (EAttr (EVar "Ia") "vovv")]));
    SAugAdd "L1b" (EMul (EMul (ENum (1) 1) (EVar "fac")) (EEinsum "cd,dica->ia" [(EVar "Lt1a"); (EAttr (EVar "Iabab") "vovv")]));
    SAugSub "L1a" (EMul (EMul (ENum (1) 1) (EVar "fac")) (EEinsum "db,bida->ia" [(EVar "Lt1a"); (EVar "Ivovvs")]));
    SAugSub "L1b" (EMul (EMul (ENum (1) 1) (EVar "fac")) (EEinsum "db,bida->ia" [(EVar "Lt1a"); (EVar "IvOvVs")]));
    SAssign (PVar "Lt1b") (EEinsum "jkbd,bcjk->cd" [(EVar "L2bbold"); (EVar "T2bbold")]);
    SAugAdd "Lt1b" (EEinsum "jkbd,bcjk->cd" [(EVar "L2abold"); (EVar "T2abold")]);
    SAugAdd "Lt1b" (EEinsum "kjbd,bckj->cd" [(EVar "L2abold"); (EVar "T2abold")]);
    SAugAdd "L1a" (EMul (EMul (ENum (1) 1) (EVar "fac")) (EEinsum "cd,idac->ia" [(EVar "Lt1b"); (EAttr (EVar "Iabab") "ovvv")]));
    SAugAdd "L1b" (EMul (EMul (ENum (1) 1) (EVar "fac")) (EEinsum "cd,dica->ia" [(EVar "Lt1b"); (EAttr (EVar "Ib") "vovv")]));
    SAugSub "L1a" (EMul (EMul (ENum (1) 1) (EVar "fac")) (EEinsum "db,bida->ia" [(EVar "Lt1b"); (EVar "IVoVvs")]));
    SAugSub "L1b" (EMul (EMul (ENum (1) 1) (EVar "fac")) (EEinsum "db,bida->ia" [(EVar "Lt1b"); (EVar "IVOVVs")]));
    SAssign (PVar "Lt2a") (EEinsum "jlbc,bcjk->lk" [(EVar "L2aaold"); (EVar "T2aaold")]);
    SAugAdd "Lt2a" (EEinsum "ljcb,cbkj->lk" [(EVar "L2abold"); (EVar "T2abold")]);
    SAugAdd "Lt2a" (EEinsum "ljbc,bckj->lk" [(EVar "L2abold"); (EVar "T2abold")]);
    SAugSub "L1a" (EMul (EMul (ENum (1) 1) (EVar "fac")) (EEinsum "lk,kila->ia" [(EVar "Lt2a"); (EAttr (EVar "Ia") "ooov")]));
    SAugSub "L1b" (EMul (EMul (ENum (1) 1) (EVar "fac")) (EEinsum "lk,kila->ia" [(EVar "Lt2a"); (EAttr (EVar "Iabab") "ooov")]));
    SAugSub "L1a" (EMul (EMul (ENum (1) 1) (EVar "fac")) (EEinsum "jl,lija->ia" [(EVar "Lt2a"); (EVar "Iooovs")]));
    SAugSub "L1b" (EMul (EMul (ENum (1) 1) (EVar "fac")) (EEinsum "jl,lija->ia" [(EVar "Lt2a"); (EVar "IoOoVs")]));
    SAssign (PVar "Lt2b") (EEinsum "jlbc,bcjk->lk" [(EVar "L2bbold"); (EVar "T2bbold")]);
    SAugAdd "Lt2b" (EEinsum "jlbc,bcjk->lk" [(EVar "L2abold"); (EVar "T2abold")]);
    SAugAdd "Lt2b" (EEinsum "jlcb,cbjk->lk" [(EVar "L2abold"); (EVar "T2abold")]);
    SAugSub "L1a" (EMul (EMul (ENum (1) 1) (EVar "fac")) (EEinsum "lk,ikal->ia" [(EVar "Lt2b"); (EAttr (EVar "Iabab") "oovo")]));
    SAugSub "L1b" (EMul (EMul (ENum (1) 1) (EVar "fac")) (EEinsum "lk,kila->ia" [(EVar "Lt2b"); (EAttr (EVar "Ib") "ooov")]));
    SAugSub "L1a" (EMul (EMul (ENum (1) 1) (EVar "fac")) (EEinsum "jl,lija->ia" [(EVar "Lt2b"); (EVar "IOoOvs")]));
    SAugSub "L1b" (EMul (EMul (ENum (1) 1) (EVar "fac")) (EEinsum "jl,lija->ia" [(EVar "Lt2b"); (EVar "IOOOVs")]));
    SAssign (PVar "tempaa") (EMul (ENum (1) 1) (EEinsum "da,ijdb->ijab" [(EVar "Lt1a"); (EAttr (EVar "Ia") "oovv")]));
    SAssign (PVar "tempab") (EMul (ENum (1) 1) (EEinsum "da,ijdb->ijab" [(EVar "Lt1a"); (EAttr (EVar "Iabab") "oovv")]));
    SAugSub "tempaa" (ETrans (EVar "tempaa") [0; 1; 3; 2]);
    SAssign (PVar "tempbb") (EMul (ENum (1) 1) (EEinsum "da,ijdb->ijab" [(EVar "Lt1b"); (EAttr (EVar "Ib") "oovv")]));
    SAugSub "tempbb" (ETrans (EVar "tempbb") [0; 1; 3; 2]);
    SAugAdd "tempab" (EMul (ENum (1) 1) (EEinsum "db,ijad->ijab" [(EVar "Lt1b"); (EAttr (EVar "Iabab") "oovv")]));
    SAugSub "L2aa" (EMul (EVar "fac") (EVar "tempaa"));
    SAugSub "L2ab" (EMul (EVar "fac") (EVar "tempab"));
    SAugSub "L2bb" (EMul (EVar "fac") (EVar "tempbb"));
    SAssign (PVar "tempaa") (EMul (ENum (1) 1) (EEinsum "il,ljab->ijab" [(EVar "Lt2a"); (EAttr (EVar "Ia") "oovv")]));
    SAugSub "tempaa" (ETrans (EVar "tempaa") [1; 0; 2; 3]);
    SAssign (PVar "tempbb") (EMul (ENum (1) 1) (EEinsum "il,ljab->ijab" [(EVar "Lt2b"); (EAttr (EVar "Ib") "oovv")]));
    SAugSub "tempbb" (ETrans (EVar "tempbb") [1; 0; 2; 3]);
    SAssign (PVar "tempab") (EMul (ENum (1) 1) (EEinsum "il,ljab->ijab" [(EVar "Lt2a"); (EAttr (EVar "Iabab") "oovv")]));
    SAugAdd "tempab" (EMul (ENum (1) 1) (EEinsum "jl,ilab->ijab" [(EVar "Lt2b"); (EAttr (EVar "Iabab") "oovv")]));
    SAugSub "L2aa" (EMul (EVar "fac") (EVar "tempaa"));
    SAugSub "L2ab" (EMul (EVar "fac") (EVar "tempab"));
    SAugSub "L2bb" (EMul (EVar "fac") (EVar "tempbb")) ].

(** cqcpy/cc_equations.py, lines 1983-2259 *)
Definition py__rccsd_Lambda_opt : fundef :=
  FunDef ["L1"; "L2"; "F"; "I"; "L1old"; "L2old"; "T1old"; "T2old"; "fac"] [("fac", ((1)%Z, 0%nat))]
  [ SAssign (PVar "T2anti") (ESub (EVar "T2old") (ETrans (EVar "T2old") [0; 1; 3; 2]));
    SAssign (PVar "L2anti") (ESub (EVar "L2old") (ETrans (EVar "L2old") [0; 1; 3; 2]));
    SAssign (PVar "TTempaa") (EAdd (EMul (ENum (1) 1) (EVar "T2anti")) (EEinsum "bj,ck->bcjk" [(EVar "T1old"); (EVar "T1old")]));
    SAssign (PVar "TTempab") (EAdd (EMul (ENum (1) 1) (EVar "T2old")) (EEinsum "bj,ck->bcjk" [(EVar "T1old"); (EVar "T1old")]));
    SAssign (PVar "Ivovos1") (EEinsum "aibc,ck->aibk" [(ESub (EAttr (EVar "I") "vovv") (ETrans (EAttr (EVar "I") "vovv") [0; 1; 3; 2])); (EVar "T1old")]);
    SAssign (PVar "IvOvOs1") (EEinsum "aibc,ck->aibk" [(EAttr (EVar "I") "vovv"); (EVar "T1old")]);
    SAssign (PVar "IvOVos1") (ENeg (EEinsum "aicb,ck->aibk" [(EAttr (EVar "I") "vovv"); (EVar "T1old")]));
    SAssign (PVar "Ivovos2") (EEinsum "bj,jika->biak" [(EVar "T1old"); (ESub (EAttr (EVar "I") "ooov") (ETrans (EAttr (EVar "I") "oovo") [0; 1; 3; 2]))]);
    SAssign (PVar "IvOvOs2") (ENeg (EEinsum "bj,jiak->biak" [(EVar "T1old"); (EAttr (EVar "I") "oovo")]));
    SAssign (PVar "IvOVos2") (EEinsum "bj,jika->biak" [(EVar "T1old"); (EAttr (EVar "I") "ooov")]);
    SAssign (PVar "Toovv") (ESub (EAttr (EVar "I") "oovv") (ETrans (EAttr (EVar "I") "oovv") [0; 1; 3; 2]));
    SAssign (PVar "Ivovvs") (EEinsum "ck,kiab->ciab" [(EVar "T1old"); (EVar "Toovv")]);
    SAssign (PVar "IvOvVs") (EEinsum "ck,kiab->ciab" [(EVar "T1old"); (EAttr (EVar "I") "oovv")]);
    SAssign (PVar "IvOVvs") (ENeg (EEinsum "ck,kiba->ciab" [(EVar "T1old"); (EAttr (EVar "I") "oovv")]));
    SAssign (PVar "Iooovs") (EEinsum "ikbc,bj->ikjc" [(EVar "Toovv"); (EVar "T1old")]);
    SAssign (PVar "IoOoVs") (EEinsum "ikbc,bj->ikjc" [(EAttr (EVar "I") "oovv"); (EVar "T1old")]);
    SAssign (PVar "IoOOvs") (ENeg (EEinsum "ikcb,bj->ikjc" [(EAttr (EVar "I") "oovv"); (EVar "T1old")]));
    SAssign (PVar "Iovs") (EEinsum "ikac,ck->ia" [(ESub (EMul (ENum (2) 0) (EAttr (EVar "I") "oovv")) (ETrans (EAttr (EVar "I") "oovv") [0; 1; 3; 2])); (EVar "T1old")]);
    SAssign (PVar "Iooov") (ESub (EMul (ENum (2) 0) (EAttr (EVar "I") "ooov")) (ETrans (EAttr (EVar "I") "oovo") [0; 1; 3; 2]));
    SAssign (PVar "IToo") (EAdd (EEinsum "ib,bj->ij" [(EAttr (EVar "F") "ov"); (EVar "T1old")]) (EAttr (EVar "F") "oo"));
    SAugAdd "IToo" (EEinsum "ikbc,bcjk->ij" [(ESub (EAttr (EVar "I") "oovv") (ETrans (EAttr (EVar "I") "oovv") [0; 1; 3; 2])); (EVar "TTempaa")]);
    SAugAdd "IToo" (EEinsum "ikbc,bcjk->ij" [(EAttr (EVar "I") "oovv"); (EVar "TTempab")]);
    SAugAdd "IToo" (EMul (ENum (1) 1) (EEinsum "ikcb,cbjk->ij" [(EAttr (EVar "I") "oovv"); (EVar "T2old")]));
    SAugAdd "IToo" (EEinsum "ijkb,bj->ik" [(EVar "Iooov"); (EVar "T1old")]);
    SAugSub "L1" (EMul (EVar "fac") (EEinsum "ja,ij->ia" [(EVar "L1old"); (EVar "IToo")]));
    SAssign (PVar "temp") (EEinsum "kjab,ik->ijab" [(EVar "L2old"); (EVar "IToo")]);
    SAugAdd "temp" (ETrans (EVar "temp") [1; 0; 3; 2]);
    SAugSub "L2" (EMul (EVar "fac") (EVar "temp"));
    SAssign (PVar "Ivovv") (ESub (EMul (ENum (2) 0) (EAttr (EVar "I") "vovv")) (ETrans (EAttr (EVar "I") "vovv") [0; 1; 3; 2]));
    SAssign (PVar "ITvv") (ESub (ESub (EEinsum "ja,bj->ba" [(EAttr (EVar "F") "ov"); (EVar "T1old")]) (EAttr (EVar "F") "vv")) (EEinsum "bkac,ck->ba" [(EVar "Ivovv"); (EVar "T1old")]));
    SAugAdd "ITvv" (EEinsum "jkac,bcjk->ba" [(ESub (EAttr (EVar "I") "oovv") (ETrans (EAttr (EVar "I") "oovv") [0; 1; 3; 2])); (EVar "TTempaa")]);
    SAugAdd "ITvv" (EEinsum "jkac,bcjk->ba" [(EAttr (EVar "I") "oovv"); (EVar "TTempab")]);
    SAugAdd "ITvv" (EMul (ENum (1) 1) (EEinsum "kjac,bckj->ba" [(EAttr (EVar "I") "oovv"); (EVar "T2old")]));
    SAugSub "L1" (EMul (EVar "fac") (EEinsum "ib,ba->ia" [(EVar "L1old"); (EVar "ITvv")]));
    SAssign (PVar "temp") (EEinsum "ijcb,ca->ijab" [(EVar "L2old"); (EVar "ITvv")]);
    SAugAdd "temp" (ETrans (EVar "temp") [1; 0; 3; 2]);
    SAugSub "L2" (EMul (EVar "fac") (EVar "temp"));
    SAssign (PVar "IToovvs1") (EEinsum "kida,bdjk->ijab" [(ESub (EAttr (EVar "I") "oovv") (ETrans (EAttr (EVar "I") "oovv") [0; 1; 3; 2])); (EVar "T2anti")]);
    SAugAdd "IToovvs1" (EEinsum "ikad,bdjk->ijab" [(EAttr (EVar "I") "oovv"); (EVar "T2old")]);
    SAugSub "IToovvs1" (EEinsum "ciba,bj->ijac" [(EVar "Ivovvs"); (EVar "T1old")]);
    SAugAdd "IToovvs1" (EEinsum "kica,cbkj->ijab" [(ESub (EAttr (EVar "I") "oovv") (ETrans (EAttr (EVar "I") "oovv") [0; 1; 3; 2])); (EVar "T2old")]);
    SAugAdd "IToovvs1" (EEinsum "ikac,bcjk->ijab" [(EAttr (EVar "I") "oovv"); (EVar "T2anti")]);
    SAugSub "IToovvs1" (EEinsum "ciba,bj->ijac" [(EVar "IvOvVs"); (EVar "T1old")]);
    SAugAdd "L1" (EMul (EVar "fac") (EEinsum "jb,ijab->ia" [(EVar "L1old"); (EVar "IToovvs1")]));
    SDel "IToovvs1";
    SAssign (PVar "ITvooos") (EEinsum "cibk,bj->cijk" [(ESub (EAttr (EVar "I") "vovo") (ETrans (EAttr (EVar "I") "voov") [0; 1; 3; 2])); (EVar "T1old")]);
    SAugAdd "ITvooos" (EMul (ENum (1) 1) (ESub (EAttr (EVar "I") "vooo") (ETrans (EAttr (EVar "I") "vooo") [0; 1; 3; 2])));
    SAugAdd "ITvooos" (EMul (ENum (1) 1) (EEinsum "ic,bcjk->bijk" [(EAttr (EVar "F") "ov"); (EVar "T2anti")]));
    SAugAdd "ITvooos" (EMul (ENum (1) 1) (EEinsum "ijkl,bj->bikl" [(ESub (EAttr (EVar "I") "oooo") (ETrans (EAttr (EVar "I") "oooo") [0; 1; 3; 2])); (EVar "T1old")]));
    SAugAdd "ITvooos" (EEinsum "kilc,bcjk->bilj" [(ESub (EAttr (EVar "I") "ooov") (ETrans (EAttr (EVar "I") "oovo") [0; 1; 3; 2])); (EVar "T2anti")]);
    SAugSub "ITvooos" (EEinsum "iklc,bcjk->bilj" [(EAttr (EVar "I") "ooov"); (EVar "T2old")]);
    SAugSub "ITvooos" (EEinsum "bicl,ck->bilk" [(EVar "Ivovos2"); (EVar "T1old")]);
    SAugAdd "ITvooos" (EMul (ENum (1) 1) (EEinsum "dibc,bcjk->dijk" [(ESub (EAttr (EVar "I") "vovv") (ETrans (EAttr (EVar "I") "vovv") [0; 1; 3; 2])); (EVar "TTempaa")]));
    SAugAdd "ITvooos" (EMul (ENum (1) 1) (EEinsum "id,cdkl->cikl" [(EVar "Iovs"); (EVar "T2anti")]));
    SAugSub "ITvooos" (EEinsum "ikjc,cdkl->dijl" [(EVar "Iooovs"); (EVar "T2anti")]);
    SAugSub "ITvooos" (EEinsum "ikjc,dclk->dijl" [(EVar "IoOoVs"); (EVar "T2old")]);
    SAugSub "ITvooos" (EMul (ENum (1) 1) (EEinsum "bicd,cdkl->bikl" [(EVar "Ivovvs"); (EVar "TTempaa")]));
    SAugAdd "L1" (EMul (EVar "fac") (EEinsum "jkab,bijk->ia" [(ESub (EVar "L2old") (ETrans (EVar "L2old") [0; 1; 3; 2])); (EVar "ITvooos")]));
    SDel "ITvooos";
    SAssign (PVar "ITVooOs") (ENeg (EEinsum "icbk,bj->cijk" [(EAttr (EVar "I") "ovvo"); (EVar "T1old")]));
    SAugSub "ITVooOs" (EMul (ENum (1) 1) (ETrans (EAttr (EVar "I") "ovoo") [1; 0; 2; 3]));
    SAugSub "ITVooOs" (EMul (ENum (1) 1) (EEinsum "ic,cbjk->bijk" [(EAttr (EVar "F") "ov"); (EVar "T2old")]));
    SAugAdd "ITVooOs" (EMul (ENum (1) 1) (EEinsum "ijkl,bj->bikl" [(EAttr (EVar "I") "oooo"); (EVar "T1old")]));
    SAugAdd "ITVooOs" (EEinsum "kilc,cbkj->bilj" [(ESub (EAttr (EVar "I") "ooov") (ETrans (EAttr (EVar "I") "oovo") [0; 1; 3; 2])); (EVar "T2old")]);
    SAugSub "ITVooOs" (EEinsum "iklc,bcjk->bilj" [(EAttr (EVar "I") "ooov"); (EVar "T2anti")]);
    SAugSub "ITVooOs" (EEinsum "bicl,ck->bilk" [(EVar "IvOvOs2"); (EVar "T1old")]);
    SAugSub "ITVooOs" (EMul (ENum (1) 1) (EEinsum "idbc,bcjk->dijk" [(EAttr (EVar "I") "ovvv"); (EVar "TTempab")]));
    SAugSub "ITVooOs" (EMul (ENum (1) 2) (EEinsum "idcb,cbjk->dijk" [(EAttr (EVar "I") "ovvv"); (EVar "T2old")]));
    SAugSub "ITVooOs" (EMul (ENum (1) 1) (EEinsum "id,dckl->cikl" [(EVar "Iovs"); (EVar "T2old")]));
    SAugSub "ITVooOs" (EEinsum "ikjc,cdkl->dijl" [(EVar "Iooovs"); (EVar "T2old")]);
    SAugSub "ITVooOs" (EEinsum "ikjc,cdkl->dijl" [(EVar "IoOoVs"); (EVar "T2anti")]);
    SAugSub "ITVooOs" (EMul (ENum (1) 1) (EEinsum "bicd,cdkl->bikl" [(EVar "IvOVvs"); (EVar "TTempab")]));
    SAugAdd "ITVooOs" (EMul (ENum (1) 2) (EEinsum "bicd,dckl->bikl" [(EVar "IvOvVs"); (EVar "T2old")]));
    SAugAdd "L1" (EMul (EVar "fac") (EEinsum "jkab,bijk->ia" [(EVar "L2old"); (EVar "ITVooOs")]));
    SDel "ITVooOs";
    SAssign (PVar "ITVoOos") (EEinsum "ickb,bj->cijk" [(EAttr (EVar "I") "ovov"); (EVar "T1old")]);
    SAugAdd "ITVoOos" (EMul (ENum (1) 1) (ETrans (EAttr (EVar "I") "ovoo") [1; 0; 3; 2]));
    SAugAdd "ITVoOos" (EMul (ENum (1) 1) (EEinsum "ic,cbkj->bijk" [(EAttr (EVar "F") "ov"); (EVar "T2old")]));
    SAugSub "ITVoOos" (EMul (ENum (1) 1) (EEinsum "ijlk,bj->bikl" [(EAttr (EVar "I") "oooo"); (EVar "T1old")]));
    SAugSub "ITVoOos" (EEinsum "ikcl,cbjk->bilj" [(EAttr (EVar "I") "oovo"); (EVar "T2old")]);
    SAugSub "ITVoOos" (EEinsum "bicl,ck->bilk" [(EVar "IvOVos2"); (EVar "T1old")]);
    SAugAdd "ITVoOos" (EMul (ENum (1) 1) (EEinsum "idcb,cbkj->dijk" [(EAttr (EVar "I") "ovvv"); (EVar "TTempab")]));
    SAugAdd "ITVoOos" (EMul (ENum (1) 2) (EEinsum "idbc,bckj->dijk" [(EAttr (EVar "I") "ovvv"); (EVar "T2old")]));
    SAugAdd "ITVoOos" (EMul (ENum (1) 1) (EEinsum "id,dclk->cikl" [(EVar "Iovs"); (EVar "T2old")]));
    SAugAdd "ITVoOos" (EEinsum "ikjc,cdlk->dijl" [(EVar "IoOOvs"); (EVar "T2old")]);
    SAugSub "ITVoOos" (EMul (ENum (1) 1) (EEinsum "bicd,dclk->bikl" [(EVar "IvOvVs"); (EVar "TTempab")]));
    SAugAdd "ITVoOos" (EMul (ENum (1) 2) (EEinsum "bicd,cdlk->bikl" [(EVar "IvOVvs"); (EVar "T2old")]));
    SAugSub "L1" (EMul (EVar "fac") (EEinsum "kjab,bijk->ia" [(EVar "L2old"); (EVar "ITVoOos")]));
    SDel "ITVoOos";
    SAssign (PVar "ITvvvos") (EMul (ENeg (ENum (1) 1)) (ESub (EAttr (EVar "I") "vvvo") (ETrans (EAttr (EVar "I") "vvov") [0; 1; 3; 2])));
    SAugAdd "ITvvvos" (EEinsum "cjak,bj->cbak" [(ESub (EAttr (EVar "I") "vovo") (ETrans (EAttr (EVar "I") "voov") [0; 1; 3; 2])); (EVar "T1old")]);
    SAugSub "ITvvvos" (EMul (ENum (1) 1) (EEinsum "ka,bcjk->bcaj" [(EAttr (EVar "F") "ov"); (EVar "T2anti")]));
    SAugSub "ITvvvos" (EMul (ENum (1) 1) (EEinsum "cdab,bj->cdaj" [(ESub (EAttr (EVar "I") "vvvv") (ETrans (EAttr (EVar "I") "vvvv") [0; 1; 3; 2])); (EVar "T1old")]));
    SAugSub "ITvvvos" (EEinsum "dkca,bcjk->bdaj" [(ESub (EAttr (EVar "I") "vovv") (ETrans (EAttr (EVar "I") "vovv") [0; 1; 3; 2])); (EVar "T2anti")]);
    SAugAdd "ITvvvos" (EEinsum "dkac,bcjk->bdaj" [(EAttr (EVar "I") "vovv"); (EVar "T2old")]);
    SAugSub "ITvvvos" (EEinsum "djak,bj->bdak" [(EVar "Ivovos1"); (EVar "T1old")]);
    SAugAdd "ITvvvos" (EMul (ENum (1) 1) (EEinsum "jkla,bcjk->bcal" [(ESub (EAttr (EVar "I") "ooov") (ETrans (EAttr (EVar "I") "oovo") [0; 1; 3; 2])); (EVar "TTempaa")]));
    SAugSub "ITvvvos" (EMul (ENum (1) 1) (EEinsum "la,cdkl->cdak" [(EVar "Iovs"); (EVar "T2anti")]));
    SAugAdd "ITvvvos" (EEinsum "bkac,cdkl->bdal" [(EVar "Ivovvs"); (EVar "T2anti")]);
    SAugAdd "ITvvvos" (EEinsum "bkac,dclk->bdal" [(EVar "IvOvVs"); (EVar "T2old")]);
    SAugAdd "ITvvvos" (EMul (ENum (1) 1) (EEinsum "klja,cdkl->cdaj" [(EVar "Iooovs"); (EVar "TTempaa")]));
    SAugAdd "L1" (EMul (EVar "fac") (EEinsum "ikbc,cbak->ia" [(EVar "L2anti"); (EVar "ITvvvos")]));
    SDel "ITvvvos";
    SAssign (PVar "ITVvvOs") (EMul (ENum (1) 1) (ETrans (EAttr (EVar "I") "vvvo") [1; 0; 2; 3]));
    SAugSub "ITVvvOs" (EEinsum "jcak,bj->cbak" [(EAttr (EVar "I") "ovvo"); (EVar "T1old")]);
    SAugSub "ITVvvOs" (EMul (ENum (1) 1) (EEinsum "ka,cbkj->bcaj" [(EAttr (EVar "F") "ov"); (EVar "T2old")]));
    SAugAdd "ITVvvOs" (EMul (ENum (1) 1) (EEinsum "dcab,bj->cdaj" [(EAttr (EVar "I") "vvvv"); (EVar "T1old")]));
    SAugSub "ITVvvOs" (EEinsum "dkca,cbkj->bdaj" [(ESub (EAttr (EVar "I") "vovv") (ETrans (EAttr (EVar "I") "vovv") [0; 1; 3; 2])); (EVar "T2old")]);
    SAugAdd "ITVvvOs" (EEinsum "dkac,bcjk->bdaj" [(EAttr (EVar "I") "vovv"); (EVar "T2anti")]);
    SAugSub "ITVvvOs" (EEinsum "djak,bj->bdak" [(EVar "IvOvOs1"); (EVar "T1old")]);
    SAugAdd "ITVvvOs" (EMul (ENum (1) 1) (EEinsum "kjal,cbkj->bcal" [(EAttr (EVar "I") "oovo"); (EVar "TTempab")]));
    SAugAdd "ITVvvOs" (EMul (ENum (1) 2) (EEinsum "jkal,cbjk->bcal" [(EAttr (EVar "I") "oovo"); (EVar "T2old")]));
    SAugSub "ITVvvOs" (EMul (ENum (1) 1) (EEinsum "la,dclk->cdak" [(EVar "Iovs"); (EVar "T2old")]));
    SAugSub "ITVvvOs" (EEinsum "bkac,dckl->bdal" [(EVar "IvOVvs"); (EVar "T2old")]);
    SAugAdd "ITVvvOs" (EMul (ENum (1) 1) (EEinsum "klja,dclk->cdaj" [(EVar "IoOoVs"); (EVar "TTempab")]));
    SAugSub "ITVvvOs" (EMul (ENum (1) 2) (EEinsum "klja,dckl->cdaj" [(EVar "IoOOvs"); (EVar "T2old")]));
    SAugAdd "L1" (EMul (EVar "fac") (EEinsum "ikbc,cbak->ia" [(EVar "L2old"); (EVar "ITVvvOs")]));
    SDel "ITVvvOs";
    SAssign (PVar "ITvVvOs") (EMul (ENeg (ENum (1) 1)) (EAttr (EVar "I") "vvvo"));
    SAugAdd "ITvVvOs" (EEinsum "cjak,bj->cbak" [(EAttr (EVar "I") "vovo"); (EVar "T1old")]);
    SAugAdd "ITvVvOs" (EMul (ENum (1) 1) (EEinsum "ka,bckj->bcaj" [(EAttr (EVar "F") "ov"); (EVar "T2old")]));
    SAugSub "ITvVvOs" (EMul (ENum (1) 1) (EEinsum "cdab,bj->cdaj" [(EAttr (EVar "I") "vvvv"); (EVar "T1old")]));
    SAugAdd "ITvVvOs" (EEinsum "kdac,bckj->bdaj" [(EAttr (EVar "I") "ovvv"); (EVar "T2old")]);
    SAugSub "ITvVvOs" (EEinsum "djak,bj->bdak" [(EVar "IvOVos1"); (EVar "T1old")]);
    SAugSub "ITvVvOs" (EMul (ENum (1) 1) (EEinsum "jkal,bcjk->bcal" [(EAttr (EVar "I") "oovo"); (EVar "TTempab")]));
    SAugSub "ITvVvOs" (EMul (ENum (1) 2) (EEinsum "kjal,bckj->bcal" [(EAttr (EVar "I") "oovo"); (EVar "T2old")]));
    SAugAdd "ITvVvOs" (EMul (ENum (1) 1) (EEinsum "la,cdlk->cdak" [(EVar "Iovs"); (EVar "T2old")]));
    SAugAdd "ITvVvOs" (EEinsum "bkac,cdkl->bdal" [(EVar "Ivovvs"); (EVar "T2old")]);
    SAugAdd "ITvVvOs" (EEinsum "bkac,cdkl->bdal" [(EVar "IvOvVs"); (EVar "T2anti")]);
    SAugAdd "ITvVvOs" (EMul (ENum (1) 1) (EEinsum "klja,cdkl->cdaj" [(EVar "IoOOvs"); (EVar "TTempab")]));
    SAugSub "ITvVvOs" (EMul (ENum (1) 2) (EEinsum "klja,cdlk->cdaj" [(EVar "IoOoVs"); (EVar "T2old")]));
    SAugSub "L1" (EMul (EVar "fac") (EEinsum "ikcb,cbak->ia" [(EVar "L2old"); (EVar "ITvVvOs")]));
    SDel "ITvVvOs";
    SAssign (PVar "ITovs") (EAdd (EVar "Iovs") (EAttr (EVar "F") "ov"));
    SAssign (PVar "tempab") (EEinsum "jb,ia->ijab" [(EVar "L1old"); (EVar "ITovs")]);
    SAugAdd "tempab" (ETrans (EVar "tempab") [1; 0; 3; 2]);
    SAugAdd "L2" (EMul (EVar "fac") (EVar "tempab"));
    SAssign (PVar "ITvOvVs") (ESub (EVar "IvOvVs") (EAttr (EVar "I") "vovv"));
    SAssign (PVar "tempab") (EEinsum "ic,cjab->ijab" [(EVar "L1old"); (EVar "ITvOvVs")]);
    SAugAdd "tempab" (ETrans (EVar "tempab") [1; 0; 3; 2]);
    SAugSub "L2" (EMul (EVar "fac") (EVar "tempab"));
    SAssign (PVar "IToOoVs") (EAdd (EVar "IoOoVs") (EAttr (EVar "I") "ooov"));
    SAssign (PVar "tempab") (EEinsum "ka,ijkb->ijab" [(EVar "L1old"); (EVar "IToOoVs")]);
    SAugAdd "tempab" (ETrans (EVar "tempab") [1; 0; 3; 2]);
    SAugSub "L2" (EMul (EVar "fac") (EVar "tempab"));
    SAssign (PVar "ITvovos") (EAdd (ESub (ESub (ENeg (EVar "Ivovos1")) (EVar "Ivovos2")) (EAttr (EVar "I") "vovo")) (ETrans (EAttr (EVar "I") "voov") [0; 1; 3; 2]));
    SAugAdd "L1" (EMul (EVar "fac") (EEinsum "jb,biaj->ia" [(EVar "L1old"); (EVar "ITvovos")]));
    SAugSub "ITvovos" (EEinsum "djcb,ck->djbk" [(EVar "Ivovvs"); (EVar "T1old")]);
    SAssign (PVar "tempab") (EEinsum "kjdb,diak->ijab" [(EVar "L2old"); (EVar "ITvovos")]);
    SAssign (PVar "ITvOVos") (EAdd (ESub (ENeg (EVar "IvOVos1")) (EVar "IvOVos2")) (ETrans (EAttr (EVar "I") "voov") [0; 1; 3; 2]));
    SAugSub "ITvOVos" (EEinsum "djcb,ck->djbk" [(EVar "IvOvVs"); (EVar "T1old")]);
    SAugAdd "tempab" (EEinsum "ikad,djbk->ijab" [(EVar "L2anti"); (EVar "ITvOVos")]);
    SDel "ITvOVos";
    SAssign (PVar "ITVovOs") (EAdd (ESub (ENeg (EVar "IvOVos1")) (EVar "IvOVos2")) (ETrans (EAttr (EVar "I") "ovvo") [1; 0; 2; 3]));
    SAugAdd "L1" (EMul (EVar "fac") (EEinsum "jb,biaj->ia" [(EVar "L1old"); (EVar "ITVovOs")]));
    SDel "ITVovOs";
    SAssign (PVar "ITvOvOs") (ESub (ESub (ENeg (EVar "IvOvOs1")) (EVar "IvOvOs2")) (EAttr (EVar "I") "vovo"));
    SAugSub "ITvOvOs" (EEinsum "djcb,ck->djbk" [(EVar "IvOVvs"); (EVar "T1old")]);
    SAugAdd "tempab" (EEinsum "ikdb,djak->ijab" [(EVar "L2old"); (EVar "ITvOvOs")]);
    SDel "ITvOvOs";
    SAugAdd "tempab" (ETrans (EVar "tempab") [1; 0; 3; 2]);
    SAugAdd "L2" (EMul (EVar "fac") (EVar "tempab"));
    SAssign (PVar "ITvVvVs") (ENeg (EEinsum "kdab,ck->cdab" [(EAttr (EVar "I") "ovvv"); (EVar "T1old")]));
    SAugAdd "ITvVvVs" (EMul (ENum (1) 1) (EEinsum "klab,cdkl->cdab" [(EAttr (EVar "I") "oovv"); (EVar "TTempab")]));
    SAugAdd "ITvVvVs" (EMul (ENum (1) 2) (EEinsum "lkab,cdlk->cdab" [(EAttr (EVar "I") "oovv"); (EVar "T2old")]));
    SAugAdd "ITvVvVs" (EMul (ENum (1) 1) (EAttr (EVar "I") "vvvv"));
    SAugAdd "L2" (EMul (EVar "fac") (EEinsum "ijcd,cdab->ijab" [(EVar "L2old"); (EVar "ITvVvVs")]));
    SDel "ITvVvVs";
    SAssign (PVar "ITVvvVs") (EEinsum "dkab,ck->cdab" [(EAttr (EVar "I") "vovv"); (EVar "T1old")]);
    SAugSub "ITVvvVs" (EMul (ENum (1) 1) (EEinsum "lkab,dclk->cdab" [(EAttr (EVar "I") "oovv"); (EVar "TTempab")]));
    SAugSub "ITVvvVs" (EMul (ENum (1) 2) (EEinsum "klab,dckl->cdab" [(EAttr (EVar "I") "oovv"); (EVar "T2old")]));
    SAugSub "ITVvvVs" (EMul (ENum (1) 1) (ETrans (EAttr (EVar "I") "vvvv") [1; 0; 2; 3]));
    SAugSub "L2" (EMul (EVar "fac") (EEinsum "ijdc,cdab->ijab" [(EVar "L2old"); (EVar "ITVvvVs")]));
    SDel "ITVvvVs";
    SAssign (PVar "IToOoOs") (ESub (ESub (ENeg (EEinsum "ijcl,ck->ijkl" [(EAttr (EVar "I") "oovo"); (EVar "T1old")])) (EMul (ENum (1) 1) (EEinsum "ijcd,cdkl->ijkl" [(EAttr (EVar "I") "oovv"); (EVar "TTempab")]))) (EMul (ENum (1) 2) (EEinsum "ijdc,dckl->ijkl" [(EAttr (EVar "I") "oovv"); (EVar "T2old")])));
    SAugAdd "IToOoOs" (EMul (ENeg (ENum (1) 1)) (EAttr (EVar "I") "oooo"));
    SAugSub "L2" (EMul (EVar "fac") (EEinsum "klab,ijkl->ijab" [(EVar "L2old"); (EVar "IToOoOs")]));
    SDel "IToOoOs";
    SAssign (PVar "IToOOos") (EEinsum "ijlc,ck->ijkl" [(EAttr (EVar "I") "ooov"); (EVar "T1old")]);
    SAugAdd "IToOOos" (EMul (ENum (1) 1) (EEinsum "ijdc,dclk->ijkl" [(EAttr (EVar "I") "oovv"); (EVar "TTempab")]));
    SAugAdd "IToOOos" (EMul (ENum (1) 2) (EEinsum "ijcd,cdlk->ijkl" [(EAttr (EVar "I") "oovv"); (EVar "T2old")]));
    SAugAdd "IToOOos" (EMul (ENum (1) 1) (ETrans (EAttr (EVar "I") "oooo") [0; 1; 3; 2]));
    SAugAdd "L2" (EMul (EVar "fac") (EEinsum "lkab,ijkl->ijab" [(EVar "L2old"); (EVar "IToOOos")]));
    SDel "IToOOos";
    SAssign (PVar "IToovvs") (EEinsum "ljdb,cdkl->kjcb" [(ESub (EAttr (EVar "I") "oovv") (ETrans (EAttr (EVar "I") "oovv") [0; 1; 3; 2])); (EVar "T2anti")]);
    SAugAdd "IToovvs" (EEinsum "jlbd,cdkl->kjcb" [(EAttr (EVar "I") "oovv"); (EVar "T2old")]);
    SAssign (PVar "tempab") (EEinsum "kjcb,kica->ijab" [(EVar "L2old"); (EVar "IToovvs")]);
    SAssign (PVar "IToOvVs") (EEinsum "ljdb,cdkl->kjcb" [(EAttr (EVar "I") "oovv"); (EVar "T2anti")]);
    SAugAdd "IToOvVs" (EEinsum "ljdb,cdkl->kjcb" [(ESub (EAttr (EVar "I") "oovv") (ETrans (EAttr (EVar "I") "oovv") [0; 1; 3; 2])); (EVar "T2old")]);
    SAugAdd "tempab" (EEinsum "ikac,kjcb->ijab" [(EVar "L2anti"); (EVar "IToOvVs")]);
    SAssign (PVar "ITOOvvs") (EEinsum "ljbd,cdlk->kjcb" [(EAttr (EVar "I") "oovv"); (EVar "T2old")]);
    SAugAdd "tempab" (EEinsum "ikcb,kjca->ijab" [(EVar "L2old"); (EVar "ITOOvvs")]);
    SDel "ITOOvvs";
    SAugAdd "tempab" (ETrans (EVar "tempab") [1; 0; 3; 2]);
    SAugAdd "L2" (EMul (EVar "fac") (EVar "tempab"));
    SAssign (PVar "Lt1a") (EEinsum "jkbd,bcjk->cd" [(EVar "L2anti"); (EVar "T2anti")]);
    SAugAdd "Lt1a" (EMul (ENum (2) 0) (EEinsum "kjdb,cbkj->cd" [(EVar "L2old"); (EVar "T2old")]));
    SAugAdd "L1" (EMul (EMul (ENum (1) 1) (EVar "fac")) (EEinsum "cd,dica->ia" [(EVar "Lt1a"); (ESub (EAttr (EVar "I") "vovv") (ETrans (EAttr (EVar "I") "vovv") [0; 1; 3; 2]))]));
    SAugSub "L1" (EMul (EMul (ENum (1) 1) (EVar "fac")) (EEinsum "db,bida->ia" [(EVar "Lt1a"); (EVar "Ivovvs")]));
    SAugAdd "L1" (EMul (EMul (ENum (1) 1) (EVar "fac")) (EEinsum "cd,idac->ia" [(EVar "Lt1a"); (EAttr (EVar "I") "ovvv")]));
    SAugSub "L1" (EMul (EMul (ENum (1) 1) (EVar "fac")) (EEinsum "db,bida->ia" [(EVar "Lt1a"); (EVar "IvOvVs")]));
    SAssign (PVar "Lt2a") (EEinsum "jlbc,bcjk->lk" [(EVar "L2anti"); (EVar "T2anti")]);
    SAugAdd "Lt2a" (EEinsum "ljcb,cbkj->lk" [(EVar "L2old"); (EVar "T2old")]);
    SAugAdd "Lt2a" (EEinsum "ljbc,bckj->lk" [(EVar "L2old"); (EVar "T2old")]);
    SAugSub "L1" (EMul (EMul (ENum (1) 1) (EVar "fac")) (EEinsum "lk,kila->ia" [(EVar "Lt2a"); (ESub (EAttr (EVar "I") "ooov") (ETrans (EAttr (EVar "I") "oovo") [0; 1; 3; 2]))]));
    SAugSub "L1" (EMul (EMul (ENum (1) 1) (EVar "fac")) (EEinsum "jl,lija->ia" [(EVar "Lt2a"); (EVar "Iooovs")]));
    SAugSub "L1" (EMul (EMul (ENum (1) 1) (EVar "fac")) (EEinsum "lk,ikal->ia" [(EVar "Lt2a"); (EAttr (EVar "I") "oovo")]));
    SAugSub "L1" (EMul (EMul (ENum (1) 1) (EVar "fac")) (EEinsum "jl,lija->ia" [(EVar "Lt2a"); (EVar "IoOoVs")]));
    SAssign (PVar "tempab") (EMul (ENum (1) 1) (EEinsum "da,ijdb->ijab" [(EVar "Lt1a"); (EAttr (EVar "I") "oovv")]));
    SAugAdd "tempab" (EMul (ENum (1) 1) (EEinsum "jl,ilab->ijab" [(EVar "Lt2a"); (EAttr (EVar "I") "oovv")]));
    SAugAdd "tempab" (ETrans (EVar "tempab") [1; 0; 3; 2]);
    SAugSub "L2" (EMul (EVar "fac") (EVar "tempab")) ].

(** cqcpy/cc_equations.py, lines 2262-2269 *)
Definition py_ccd_lambda_simple : fundef :=
  FunDef ["F"; "I"; "L2old"; "T2old"] []
  [ SAssign (PVar "L2") (ECopy (EAttr (EVar "I") "oovv"));
    SCall None "_LD_LD" [(EVar "L2"); (EVar "F"); (EVar "I"); (EVar "L2old")];
    SCall None "_LD_LDTD" [(EVar "L2"); (EVar "I"); (EVar "L2old"); (EVar "T2old")];
    SReturn (EVar "L2") ].

(** cqcpy/cc_equations.py, lines 2272-2282 *)
Definition py_ccsd_lambda_opt : fundef :=
  FunDef ["F"; "I"; "L1old"; "L2old"; "T1old"; "T2old"] []
  [ SAssign (PVar "L1") (ECopy (EAttr (EVar "F") "ov"));
    SAssign (PVar "L2") (ECopy (EAttr (EVar "I") "oovv"));
    SCall None "_LS_TS" [(EVar "L1"); (EVar "I"); (EVar "T1old")];
    SCall None "_Lambda_opt" [(EVar "L1"); (EVar "L2"); (EVar "F"); (EVar "I"); (EVar "L1old"); (EVar "L2old"); (EVar "T1old"); (EVar "T2old")];
    SReturn (ETuple [(EVar "L1"); (EVar "L2")]) ].

(** cqcpy/cc_equations.py, lines 2285-2295 *)
Definition py_ccsd_lambda_stanton : fundef :=
  FunDef ["F"; "I"; "L1old"; "L2old"; "T1old"; "T2old"] []
  [ SAssign (PVar "L1") (ECopy (EAttr (EVar "F") "ov"));
    SAssign (PVar "L2") (ECopy (EAttr (EVar "I") "oovv"));
    SCall None "_LS_TS" [(EVar "L1"); (EVar "I"); (EVar "T1old")];
    SCall None "_Lambda_Stanton" [(EVar "L1"); (EVar "L2"); (EVar "F"); (EVar "I"); (EVar "L1old"); (EVar "L2old"); (EVar "T1old"); (EVar "T2old")];
    SReturn (ETuple [(EVar "L1"); (EVar "L2")]) ].

(** cqcpy/cc_equations.py, lines 2298-2308 *)
Definition py_ccsd_lambda_opt_int : fundef :=
  FunDef ["F"; "I"; "L1old"; "L2old"; "T1old"; "T2old"; "intor"] []
  [ SAssign (PVar "L1") (ECopy (EAttr (EVar "F") "ov"));
    SAssign (PVar "L2") (ECopy (EAttr (EVar "I") "oovv"));
    SCall None "_LS_TS" [(EVar "L1"); (EVar "I"); (EVar "T1old")];
    SCall None "_Lambda_opt_int" [(EVar "L1"); (EVar "L2"); (EVar "F"); (EVar "I"); (EVar "L1old"); (EVar "L2old"); (EVar "T1old"); (EVar "T2old"); (EVar "intor")];
    SReturn (ETuple [(EVar "L1"); (EVar "L2")]) ].

(** cqcpy/cc_equations.py, lines 2311-2327 *)
Definition py_uccsd_lambda_opt : fundef :=
  FunDef ["Fa"; "Fb"; "Ia"; "Ib"; "Iabab"; "L1old"; "L2old"; "T1old"; "T2old"] []
  [ SAssign (PTup [(PVar "T1aold"); (PVar "T1bold")]) (EVar "T1old");
    SAssign (PVar "L1a") (ECopy (EAttr (EVar "Fa") "ov"));
    SAssign (PVar "L1b") (ECopy (EAttr (EVar "Fb") "ov"));
    SAssign (PVar "L2aa") (ECopy (EAttr (EVar "Ia") "oovv"));
    SAssign (PVar "L2ab") (ECopy (EAttr (EVar "Iabab") "oovv"));
    SAssign (PVar "L2bb") (ECopy (EAttr (EVar "Ib") "oovv"));
    SCall None "_u_LS_TS" [(EVar "L1a"); (EVar "L1b"); (EVar "Ia"); (EVar "Ib"); (EVar "Iabab"); (EVar "T1aold"); (EVar "T1bold")];
    SCall None "_uccsd_Lambda_opt" [(EVar "L1a"); (EVar "L1b"); (EVar "L2aa"); (EVar "L2ab"); (EVar "L2bb"); (EVar "Fa"); (EVar "Fb"); (EVar "Ia"); (EVar "Ib"); (EVar "Iabab"); (EVar "L1old"); (EVar "L2old"); (EVar "T1old"); (EVar "T2old")];
    SReturn (ETuple [(ETuple [(EVar "L1a"); (EVar "L1b")]); (ETuple [(EVar "L2aa"); (EVar "L2ab"); (EVar "L2bb")])]) ].

(** cqcpy/cc_equations.py, lines 2330-2339 *)
Definition py_rccsd_lambda_opt : fundef :=
  FunDef ["F"; "I"; "L1old"; "L2old"; "T1old"; "T2old"] []
  [ SAssign (PVar "L1") (ECopy (EAttr (EVar "F") "ov"));
    SAssign (PVar "L2") (ECopy (EAttr (EVar "I") "oovv"));
    SCall None "_r_LS_TS" [(EVar "L1"); (EVar "I"); (EVar "T1old")];
    SCall None "_rccsd_Lambda_opt" [(EVar "L1"); (EVar "L2"); (EVar "F"); (EVar "I"); (EVar "L1old"); (EVar "L2old"); (EVar "T1old"); (EVar "T2old")];
    SReturn (ETuple [(EVar "L1"); (EVar "L2")]) ].

(** cqcpy/cc_equations.py, lines 2342-2366 *)
Definition py_ccsd_lambda_simple : fundef :=
  FunDef ["F"; "I"; "L1old"; "L2old"; "T1old"; "T2old"] []
  [ SAssign (PVar "L1") (ECopy (EAttr (EVar "F") "ov"));
    SAssign (PVar "L2") (ECopy (EAttr (EVar "I") "oovv"));
    SCall None "_LS_TS" [(EVar "L1"); (EVar "I"); (EVar "T1old")];
    SCall None "_LS_LS" [(EVar "L1"); (EVar "F"); (EVar "I"); (EVar "L1old")];
    SCall None "_LS_LSTS" [(EVar "L1"); (EVar "F"); (EVar "I"); (EVar "L1old"); (EVar "T1old")];
    SCall None "_LS_LSTD" [(EVar "L1"); (EVar "I"); (EVar "L1old"); (EVar "T2old")];
    SCall None "_LS_LSTSS" [(EVar "L1"); (EVar "I"); (EVar "L1old"); (EVar "T1old")];
    SCall None "_LS_LD" [(EVar "L1"); (EVar "F"); (EVar "I"); (EVar "L2old")];
    SCall None "_LS_LDTS" [(EVar "L1"); (EVar "F"); (EVar "I"); (EVar "L2old"); (EVar "T1old")];
    SCall None "_LS_LDTD" [(EVar "L1"); (EVar "F"); (EVar "I"); (EVar "L2old"); (EVar "T2old")];
    SCall None "_LS_LDTSS" [(EVar "L1"); (EVar "F"); (EVar "I"); (EVar "L2old"); (EVar "T1old")];
    SCall None "_LS_LDTSD" [(EVar "L1"); (EVar "I"); (EVar "L2old"); (EVar "T1old"); (EVar "T2old")];
    SCall None "_LS_LDTSSS" [(EVar "L1"); (EVar "I"); (EVar "L2old"); (EVar "T1old")];
    SCall None "_LD_LS" [(EVar "L2"); (EVar "F"); (EVar "I"); (EVar "L1old")];
    SCall None "_LD_LSTS" [(EVar "L2"); (EVar "F"); (EVar "I"); (EVar "L1old"); (EVar "T1old")];
    SCall None "_LD_LD" [(EVar "L2"); (EVar "F"); (EVar "I"); (EVar "L2old")];
    SCall None "_LD_LDTS" [(EVar "L2"); (EVar "F"); (EVar "I"); (EVar "L2old"); (EVar "T1old")];
    SCall None "_LD_LDTD" [(EVar "L2"); (EVar "I"); (EVar "L2old"); (EVar "T2old")];
    SCall None "_LD_LDTSS" [(EVar "L2"); (EVar "F"); (EVar "I"); (EVar "L2old"); (EVar "T1old")];
    SReturn (ETuple [(EVar "L1"); (EVar "L2")]) ].

(** cqcpy/cc_equations.py, lines 2369-2372 *)
Definition py_ccsd_1rdm_ba : fundef :=
  FunDef ["T1"; "T2"; "L1"; "L2"] []
  [ SAssign (PVar "pba") (EAdd (EEinsum "ia,bi->ba" [(EVar "L1"); (EVar "T1")]) (EMul (ENum (1) 1) (EEinsum "kica,cbki->ba" [(EVar "L2"); (EVar "T2")])));
    SReturn (EVar "pba") ].

(** cqcpy/cc_equations.py, line 2375: alias *)
Definition py_ccsd_1rdm_ba_opt : fundef := py_ccsd_1rdm_ba.

(** cqcpy/cc_equations.py, lines 2378-2381 *)
Definition py_ccsd_1rdm_ji : fundef :=
  FunDef ["T1"; "T2"; "L1"; "L2"] []
  [ SAssign (PVar "pji") (ESub (ENeg (EEinsum "ja,ai->ji" [(EVar "L1"); (EVar "T1")])) (EMul (ENum (1) 1) (EEinsum "kjca,caki->ji" [(EVar "L2"); (EVar "T2")])));
    SReturn (EVar "pji") ].

(** cqcpy/cc_equations.py, line 2384: alias *)
Definition py_ccsd_1rdm_ji_opt : fundef := py_ccsd_1rdm_ji.

(** cqcpy/cc_equations.py, lines 2387-2393 *)
Definition py_ccsd_1rdm_ai : fundef :=
  FunDef ["T1"; "T2"; "L1"; "L2"; "tfac"] [("tfac", ((1)%Z, 0%nat))]
  [ SAssign (PVar "pai") (ESub (ESub (ESub (EAdd (EMul (EVar "tfac") (EVar "T1")) (EEinsum "jb,baji->ai" [(EVar "L1"); (EVar "T2")])) (EEinsum "jb,bi,aj->ai" [(EVar "L1"); (EVar "T1"); (EVar "T1")])) (EMul (ENum (1) 1) (EEinsum "kjcb,ci,abkj->ai" [(EVar "L2"); (EVar "T1"); (EVar "T2")]))) (EMul (ENum (1) 1) (EEinsum "kjcb,ak,cbij->ai" [(EVar "L2"); (EVar "T1"); (EVar "T2")])));
    SReturn (EVar "pai") ].

(** cqcpy/cc_equations.py, lines 2396-2400 *)
Definition py_ccsd_2rdm_cdab : fundef :=
  FunDef ["T1"; "T2"; "L1"; "L2"] []
  [ SAssign (PVar "Pcdab") (EMul (ENum (1) 1) (EEinsum "ijab,cdij->cdab" [(EVar "L2"); (EVar "T2")]));
    SAugAdd "Pcdab" (EMul (ENum (1) 1) (EEinsum "ijab,ci,dj->cdab" [(EVar "L2"); (EVar "T1"); (EVar "T1")]));
    SAugSub "Pcdab" (EMul (ENum (1) 1) (EEinsum "ijab,di,cj->cdab" [(EVar "L2"); (EVar "T1"); (EVar "T1")]));
    SReturn (EVar "Pcdab") ].

(** cqcpy/cc_equations.py, lines 2403-2405 *)
Definition py_ccsd_2rdm_ciab : fundef :=
  FunDef ["T1"; "T2"; "L1"; "L2"] []
  [ SAssign (PVar "Pciab") (EEinsum "jiab,cj->ciab" [(EVar "L2"); (EVar "T1")]);
    SReturn (EVar "Pciab") ].

(** cqcpy/cc_equations.py, line 2408: alias *)
Definition py_ccsd_2rdm_ciab_opt : fundef := py_ccsd_2rdm_ciab.

(** cqcpy/cc_equations.py, lines 2411-2421 *)
Definition py_ccsd_2rdm_bcai : fundef :=
  FunDef ["T1"; "T2"; "L1"; "L2"] []
  [ SAssign (PVar "Pbcai") (EEinsum "ja,bcji->bcai" [(EVar "L1"); (EVar "T2")]);
    SAugAdd "Pbcai" (EEinsum "ja,bj,ci->bcai" [(EVar "L1"); (EVar "T1"); (EVar "T1")]);
    SAugSub "Pbcai" (EEinsum "ja,cj,bi->bcai" [(EVar "L1"); (EVar "T1"); (EVar "T1")]);
    SAugAdd "Pbcai" (EMul (ENum (1) 1) (EEinsum "jlad,bdjl,ci->bcai" [(EVar "L2"); (EVar "T2"); (EVar "T1")]));
    SAugSub "Pbcai" (EMul (ENum (1) 1) (EEinsum "jlad,cdjl,bi->bcai" [(EVar "L2"); (EVar "T2"); (EVar "T1")]));
    SAugAdd "Pbcai" (EEinsum "jkad,cdik,bj->bcai" [(EVar "L2"); (EVar "T2"); (EVar "T1")]);
    SAugSub "Pbcai" (EEinsum "jkad,bdik,cj->bcai" [(EVar "L2"); (EVar "T2"); (EVar "T1")]);
    SAugSub "Pbcai" (EMul (ENum (1) 1) (EEinsum "jkda,cbjk,di->bcai" [(EVar "L2"); (EVar "T2"); (EVar "T1")]));
    SAugSub "Pbcai" (EEinsum "kjda,ck,di,bj->bcai" [(EVar "L2"); (EVar "T1"); (EVar "T1"); (EVar "T1")]);
    SReturn (EVar "Pbcai") ].

(** cqcpy/cc_equations.py, lines 2424-2428 *)
Definition py_ccsd_2rdm_bjai : fundef :=
  FunDef ["T1"; "T2"; "L1"; "L2"] []
  [ SAssign (PVar "Pbjai") (ENeg (EEinsum "ja,bi->bjai" [(EVar "L1"); (EVar "T1")]));
    SAugSub "Pbjai" (EEinsum "kjac,bcki->bjai" [(EVar "L2"); (EVar "T2")]);
    SAugSub "Pbjai" (EEinsum "kjac,bk,ci->bjai" [(EVar "L2"); (EVar "T1"); (EVar "T1")]);
    SReturn (EVar "Pbjai") ].

(** cqcpy/cc_equations.py, lines 2431-2476 *)
Definition py_ccsd_2rdm_abij : fundef :=
  FunDef ["T1"; "T2"; "L1"; "L2"; "tfac"] [("tfac", ((1)%Z, 0%nat))]
  [ SAssign (PVar "Pabij") (EMul (EVar "tfac") (ECopy (EVar "T2")));
    SAugAdd "Pabij" (EMul (EVar "tfac") (EEinsum "ai,bj->abij" [(EVar "T1"); (EVar "T1")]));
    SAugSub "Pabij" (EMul (EVar "tfac") (EEinsum "aj,bi->abij" [(EVar "T1"); (EVar "T1")]));
    SAugSub "Pabij" (EEinsum "kc,abkj,ci->abij" [(EVar "L1"); (EVar "T2"); (EVar "T1")]);
    SAugAdd "Pabij" (EEinsum "kc,abki,cj->abij" [(EVar "L1"); (EVar "T2"); (EVar "T1")]);
    SAugSub "Pabij" (EEinsum "kc,cbij,ak->abij" [(EVar "L1"); (EVar "T2"); (EVar "T1")]);
    SAugAdd "Pabij" (EEinsum "kc,caij,bk->abij" [(EVar "L1"); (EVar "T2"); (EVar "T1")]);
    SAugAdd "Pabij" (EEinsum "kc,bcjk,ai->abij" [(EVar "L1"); (EVar "T2"); (EVar "T1")]);
    SAugSub "Pabij" (EEinsum "kc,acjk,bi->abij" [(EVar "L1"); (EVar "T2"); (EVar "T1")]);
    SAugSub "Pabij" (EEinsum "kc,bcik,aj->abij" [(EVar "L1"); (EVar "T2"); (EVar "T1")]);
    SAugAdd "Pabij" (EEinsum "kc,acik,bj->abij" [(EVar "L1"); (EVar "T2"); (EVar "T1")]);
    SAugSub "Pabij" (EEinsum "kc,ak,bj,ci->abij" [(EVar "L1"); (EVar "T1"); (EVar "T1"); (EVar "T1")]);
    SAugAdd "Pabij" (EEinsum "kc,bk,aj,ci->abij" [(EVar "L1"); (EVar "T1"); (EVar "T1"); (EVar "T1")]);
    SAugAdd "Pabij" (EEinsum "kc,ak,bi,cj->abij" [(EVar "L1"); (EVar "T1"); (EVar "T1"); (EVar "T1")]);
    SAugSub "Pabij" (EEinsum "kc,bk,ai,cj->abij" [(EVar "L1"); (EVar "T1"); (EVar "T1"); (EVar "T1")]);
    SAugAdd "Pabij" (EMul (ENum (1) 2) (EEinsum "klcd,abkl,cdij->abij" [(EVar "L2"); (EVar "T2"); (EVar "T2")]));
    SAugAdd "Pabij" (EMul (ENum (1) 1) (EEinsum "klcd,caki,bdjl->abij" [(EVar "L2"); (EVar "T2"); (EVar "T2")]));
    SAugSub "Pabij" (EMul (ENum (1) 1) (EEinsum "klcd,cakj,bdil->abij" [(EVar "L2"); (EVar "T2"); (EVar "T2")]));
    SAugSub "Pabij" (EMul (ENum (1) 1) (EEinsum "klcd,cbki,adjl->abij" [(EVar "L2"); (EVar "T2"); (EVar "T2")]));
    SAugAdd "Pabij" (EMul (ENum (1) 1) (EEinsum "klcd,cbkj,adil->abij" [(EVar "L2"); (EVar "T2"); (EVar "T2")]));
    SAugSub "Pabij" (EMul (ENum (1) 1) (EEinsum "klcd,bdkl,acij->abij" [(EVar "L2"); (EVar "T2"); (EVar "T2")]));
    SAugAdd "Pabij" (EMul (ENum (1) 1) (EEinsum "klcd,adkl,bcij->abij" [(EVar "L2"); (EVar "T2"); (EVar "T2")]));
    SAugSub "Pabij" (EMul (ENum (1) 1) (EEinsum "klcd,abik,cdjl->abij" [(EVar "L2"); (EVar "T2"); (EVar "T2")]));
    SAugAdd "Pabij" (EMul (ENum (1) 1) (EEinsum "klcd,abjk,cdil->abij" [(EVar "L2"); (EVar "T2"); (EVar "T2")]));
    SAugAdd "Pabij" (EMul (ENum (1) 2) (EEinsum "klcd,cdij,ak,bl->abij" [(EVar "L2"); (EVar "T2"); (EVar "T1"); (EVar "T1")]));
    SAugSub "Pabij" (EMul (ENum (1) 2) (EEinsum "klcd,cdij,bk,al->abij" [(EVar "L2"); (EVar "T2"); (EVar "T1"); (EVar "T1")]));
    SAugAdd "Pabij" (EMul (ENum (1) 2) (EEinsum "klcd,abkl,ci,dj->abij" [(EVar "L2"); (EVar "T2"); (EVar "T1"); (EVar "T1")]));
    SAugSub "Pabij" (EMul (ENum (1) 2) (EEinsum "klcd,abkl,cj,di->abij" [(EVar "L2"); (EVar "T2"); (EVar "T1"); (EVar "T1")]));
    SAugSub "Pabij" (EEinsum "klcd,bdjl,ak,ci->abij" [(EVar "L2"); (EVar "T2"); (EVar "T1"); (EVar "T1")]);
    SAugAdd "Pabij" (EEinsum "klcd,adjl,bk,ci->abij" [(EVar "L2"); (EVar "T2"); (EVar "T1"); (EVar "T1")]);
    SAugAdd "Pabij" (EEinsum "klcd,bdil,ak,cj->abij" [(EVar "L2"); (EVar "T2"); (EVar "T1"); (EVar "T1")]);
    SAugSub "Pabij" (EEinsum "klcd,adil,bk,cj->abij" [(EVar "L2"); (EVar "T2"); (EVar "T1"); (EVar "T1")]);
    SAugSub "Pabij" (EMul (ENum (1) 1) (EEinsum "klcd,cdjl,bk,ai->abij" [(EVar "L2"); (EVar "T2"); (EVar "T1"); (EVar "T1")]));
    SAugAdd "Pabij" (EMul (ENum (1) 1) (EEinsum "klcd,cdjl,ak,bi->abij" [(EVar "L2"); (EVar "T2"); (EVar "T1"); (EVar "T1")]));
    SAugAdd "Pabij" (EMul (ENum (1) 1) (EEinsum "klcd,cdil,bk,aj->abij" [(EVar "L2"); (EVar "T2"); (EVar "T1"); (EVar "T1")]));
    SAugSub "Pabij" (EMul (ENum (1) 1) (EEinsum "klcd,cdil,ak,bj->abij" [(EVar "L2"); (EVar "T2"); (EVar "T1"); (EVar "T1")]));
    SAugSub "Pabij" (EMul (ENum (1) 1) (EEinsum "klcd,bdkl,cj,ai->abij" [(EVar "L2"); (EVar "T2"); (EVar "T1"); (EVar "T1")]));
    SAugAdd "Pabij" (EMul (ENum (1) 1) (EEinsum "klcd,adkl,cj,bi->abij" [(EVar "L2"); (EVar "T2"); (EVar "T1"); (EVar "T1")]));
    SAugAdd "Pabij" (EMul (ENum (1) 1) (EEinsum "klcd,bdkl,ci,aj->abij" [(EVar "L2"); (EVar "T2"); (EVar "T1"); (EVar "T1")]));
    SAugSub "Pabij" (EMul (ENum (1) 1) (EEinsum "klcd,adkl,ci,bj->abij" [(EVar "L2"); (EVar "T2"); (EVar "T1"); (EVar "T1")]));
    SAugAdd "Pabij" (EMul (ENum (1) 2) (EEinsum "klcd,ci,ak,dj,bl->abij" [(EVar "L2"); (EVar "T1"); (EVar "T1"); (EVar "T1"); (EVar "T1")]));
    SAugSub "Pabij" (EMul (ENum (1) 2) (EEinsum "klcd,ci,bk,dj,al->abij" [(EVar "L2"); (EVar "T1"); (EVar "T1"); (EVar "T1"); (EVar "T1")]));
    SAugSub "Pabij" (EMul (ENum (1) 2) (EEinsum "klcd,cj,ak,di,bl->abij" [(EVar "L2"); (EVar "T1"); (EVar "T1"); (EVar "T1"); (EVar "T1")]));
    SAugAdd "Pabij" (EMul (ENum (1) 2) (EEinsum "klcd,cj,bk,di,al->abij" [(EVar "L2"); (EVar "T1"); (EVar "T1"); (EVar "T1"); (EVar "T1")]));
    SReturn (EVar "Pabij") ].

(** cqcpy/cc_equations.py, lines 2479-2481 *)
Definition py_ccsd_2rdm_jkai : fundef :=
  FunDef ["T1"; "T2"; "L1"; "L2"] []
  [ SAssign (PVar "Pjkai") (ENeg (EEinsum "jkab,bi->jkai" [(EVar "L2"); (EVar "T1")]));
    SReturn (EVar "Pjkai") ].

(** cqcpy/cc_equations.py, line 2484: alias *)
Definition py_ccsd_2rdm_jkai_opt : fundef := py_ccsd_2rdm_jkai.

(** cqcpy/cc_equations.py, lines 2487-2498 *)
Definition py_ccsd_2rdm_kaij : fundef :=
  FunDef ["T1"; "T2"; "L1"; "L2"] []
  [ SAssign (PVar "Pkaij") (ENeg (EEinsum "kb,baij->kaij" [(EVar "L1"); (EVar "T2")]));
    SAugSub "Pkaij" (EEinsum "kb,bi,aj->kaij" [(EVar "L1"); (EVar "T1"); (EVar "T1")]);
    SAugAdd "Pkaij" (EEinsum "kb,bj,ai->kaij" [(EVar "L1"); (EVar "T1"); (EVar "T1")]);
    SAugSub "Pkaij" (EMul (ENum (1) 1) (EEinsum "klcd,cdil,aj->kaij" [(EVar "L2"); (EVar "T2"); (EVar "T1")]));
    SAugAdd "Pkaij" (EMul (ENum (1) 1) (EEinsum "klcd,cdjl,ai->kaij" [(EVar "L2"); (EVar "T2"); (EVar "T1")]));
    SAugSub "Pkaij" (EEinsum "klcd,adjl,ci->kaij" [(EVar "L2"); (EVar "T2"); (EVar "T1")]);
    SAugAdd "Pkaij" (EEinsum "klcd,adil,cj->kaij" [(EVar "L2"); (EVar "T2"); (EVar "T1")]);
    SAugAdd "Pkaij" (EMul (ENum (1) 1) (EEinsum "lkdb,dbji,al->kaij" [(EVar "L2"); (EVar "T2"); (EVar "T1")]));
    SAugAdd "Pkaij" (EMul (ENum (1) 1) (EEinsum "lkdb,al,dj,bi->kaij" [(EVar "L2"); (EVar "T1"); (EVar "T1"); (EVar "T1")]));
    SAugSub "Pkaij" (EMul (ENum (1) 1) (EEinsum "lkdb,al,di,bj->kaij" [(EVar "L2"); (EVar "T1"); (EVar "T1"); (EVar "T1")]));
    SReturn (EVar "Pkaij") ].

(** cqcpy/cc_equations.py, lines 2501-2505 *)
Definition py_ccsd_2rdm_klij : fundef :=
  FunDef ["T1"; "T2"; "L1"; "L2"] []
  [ SAssign (PVar "Pklij") (EMul (ENum (1) 1) (EEinsum "klab,abij->klij" [(EVar "L2"); (EVar "T2")]));
    SAugAdd "Pklij" (EMul (ENum (1) 1) (EEinsum "klab,ai,bj->klij" [(EVar "L2"); (EVar "T1"); (EVar "T1")]));
    SAugSub "Pklij" (EMul (ENum (1) 1) (EEinsum "klab,aj,bi->klij" [(EVar "L2"); (EVar "T1"); (EVar "T1")]));
    SReturn (EVar "Pklij") ].

(** cqcpy/cc_equations.py, lines 2508-2518 *)
Definition py_ccsd_1rdm_ai_opt : fundef :=
  FunDef ["T1"; "T2"; "L1"; "L2"; "tfac"] [("tfac", ((1)%Z, 0%nat))]
  [ SAssign (PVar "pai") (EMul (EVar "tfac") (EVar "T1"));
    SAssign (PVar "T2temp") (ESub (EVar "T2") (EEinsum "bi,aj->baji" [(EVar "T1"); (EVar "T1")]));
    SAugAdd "pai" (EEinsum "jb,baji->ai" [(EVar "L1"); (EVar "T2temp")]);
    SAssign (PVar "Pac") (EMul (ENum (1) 1) (EEinsum "kjcb,abkj->ac" [(EVar "L2"); (EVar "T2")]));
    SAugSub "pai" (EEinsum "ac,ci->ai" [(EVar "Pac"); (EVar "T1")]);
    SAssign (PVar "Pik") (EMul (ENum (1) 1) (EEinsum "kjcb,cbij->ik" [(EVar "L2"); (EVar "T2")]));
    SAugSub "pai" (EEinsum "ik,ak->ai" [(EVar "Pik"); (EVar "T1")]);
    SReturn (EVar "pai") ].

(** cqcpy/cc_equations.py, lines 2521-2525 *)
Definition py_ccsd_2rdm_cdab_opt : fundef :=
  FunDef ["T1"; "T2"; "L1"; "L2"] []
  [ SAssign (PVar "T2temp") (EAdd (EVar "T2") (EEinsum "ci,dj->cdij" [(EVar "T1"); (EVar "T1")]));
    SAugSub "T2temp" (EEinsum "di,cj->cdij" [(EVar "T1"); (EVar "T1")]);
    SAssign (PVar "Pcdab") (EMul (ENum (1) 1) (EEinsum "ijab,cdij->cdab" [(EVar "L2"); (EVar "T2temp")]));
    SReturn (EVar "Pcdab") ].

(** cqcpy/cc_equations.py, lines 2528-2542 *)
Definition py_ccsd_2rdm_bcai_opt : fundef :=
  FunDef ["T1"; "T2"; "L1"; "L2"] []
  [ SAssign (PVar "T2temp") (EAdd (EVar "T2") (EEinsum "ci,dj->cdij" [(EVar "T1"); (EVar "T1")]));
    SAugSub "T2temp" (EEinsum "di,cj->cdij" [(EVar "T1"); (EVar "T1")]);
    SAssign (PVar "Pbcai") (EEinsum "ja,bcji->bcai" [(EVar "L1"); (EVar "T2temp")]);
    SAssign (PVar "LTba") (EEinsum "jlad,bdjl->ba" [(EVar "L2"); (EVar "T2")]);
    SAugAdd "Pbcai" (EMul (ENum (1) 1) (EEinsum "ba,ci->bcai" [(EVar "LTba"); (EVar "T1")]));
    SAugSub "Pbcai" (EMul (ENum (1) 1) (EEinsum "ca,bi->bcai" [(EVar "LTba"); (EVar "T1")]));
    SAssign (PVar "LTtemp") (EEinsum "jkad,cdik->jcai" [(EVar "L2"); (EVar "T2")]);
    SAugAdd "Pbcai" (EEinsum "jcai,bj->bcai" [(EVar "LTtemp"); (EVar "T1")]);
    SAugSub "Pbcai" (EEinsum "jbai,cj->bcai" [(EVar "LTtemp"); (EVar "T1")]);
    SAugSub "Pbcai" (EMul (ENum (1) 1) (EEinsum "kjda,cbkj,di->bcai" [(EVar "L2"); (EVar "T2temp"); (EVar "T1")]));
    SReturn (EVar "Pbcai") ].

(** cqcpy/cc_equations.py, lines 2545-2549 *)
Definition py_ccsd_2rdm_bjai_opt : fundef :=
  FunDef ["T1"; "T2"; "L1"; "L2"] []
  [ SAssign (PVar "Pbjai") (ENeg (EEinsum "ja,bi->bjai" [(EVar "L1"); (EVar "T1")]));
    SAssign (PVar "T2temp") (EAdd (EVar "T2") (EEinsum "bk,ci->bcki" [(EVar "T1"); (EVar "T1")]));
    SAugSub "Pbjai" (EEinsum "kjac,bcki->bjai" [(EVar "L2"); (EVar "T2temp")]);
    SReturn (EVar "Pbjai") ].

(** cqcpy/cc_equations.py, lines 2552-2606 *)
Definition py_ccsd_2rdm_abij_opt : fundef :=
  FunDef ["T1"; "T2"; "L1"; "L2"; "tfac"] [("tfac", ((1)%Z, 0%nat))]
  [ SAssign (PVar "Pabij") (EMul (EVar "tfac") (ECopy (EVar "T2")));
    SAugAdd "Pabij" (EMul (EVar "tfac") (EEinsum "ai,bj->abij" [(EVar "T1"); (EVar "T1")]));
    SAugSub "Pabij" (EMul (EVar "tfac") (EEinsum "aj,bi->abij" [(EVar "T1"); (EVar "T1")]));
    SAssign (PVar "LTki") (EEinsum "kc,ci->ki" [(EVar "L1"); (EVar "T1")]);
    SAssign (PVar "tmp") (ENeg (EEinsum "ki,abkj->abij" [(EVar "LTki"); (EVar "T2")]));
    SAugAdd "Pabij" (ESub (EVar "tmp") (ETrans (EVar "tmp") [0; 1; 3; 2]));
    SAssign (PVar "LTac") (EEinsum "kc,ak->ac" [(EVar "L1"); (EVar "T1")]);
    SAssign (PVar "tmp") (ENeg (EEinsum "ac,cbij->abij" [(EVar "LTac"); (EVar "T2")]));
    SAugAdd "Pabij" (ESub (EVar "tmp") (ETrans (EVar "tmp") [1; 0; 2; 3]));
    SAssign (PVar "T2temp") (ESub (EVar "T2") (EEinsum "bk,cj->bcjk" [(EVar "T1"); (EVar "T1")]));
    SAssign (PVar "LTbj") (EEinsum "kc,bcjk->bj" [(EVar "L1"); (EVar "T2temp")]);
    SAugAdd "Pabij" (EEinsum "ai,bj->abij" [(EVar "LTbj"); (EVar "T1")]);
    SAugSub "Pabij" (EEinsum "aj,bi->abij" [(EVar "LTbj"); (EVar "T1")]);
    SAugSub "Pabij" (EEinsum "bi,aj->abij" [(EVar "LTbj"); (EVar "T1")]);
    SAugAdd "Pabij" (EEinsum "bj,ai->abij" [(EVar "LTbj"); (EVar "T1")]);
    SAssign (PVar "LToo") (EEinsum "klcd,cdij->klij" [(EVar "L2"); (EVar "T2")]);
    SAugAdd "Pabij" (EMul (ENum (1) 2) (EEinsum "klij,abkl->abij" [(EVar "LToo"); (EVar "T2")]));
    SAssign (PVar "LTov") (EEinsum "klcd,caki->lida" [(EVar "L2"); (EVar "T2")]);
    SAssign (PVar "tmp") (EMul (ENum (1) 1) (EEinsum "lida,bdjl->abij" [(EVar "LTov"); (EVar "T2")]));
    SAugAdd "Pabij" (ESub (EVar "tmp") (ETrans (EVar "tmp") [0; 1; 3; 2]));
    SAugSub "Pabij" (ETrans (EVar "tmp") [1; 0; 2; 3]);
    SAugAdd "Pabij" (ETrans (EVar "tmp") [1; 0; 3; 2]);
    SAssign (PVar "T2temp") (ESub (EAdd (EVar "T2") (EEinsum "cj,ai->acij" [(EVar "T1"); (EVar "T1")])) (EEinsum "ci,aj->acij" [(EVar "T1"); (EVar "T1")]));
    SAssign (PVar "Lcb") (EEinsum "klcd,bdkl->cb" [(EVar "L2"); (EVar "T2")]);
    SAssign (PVar "tmp") (EMul (ENeg (ENum (1) 1)) (EEinsum "cb,acij->abij" [(EVar "Lcb"); (EVar "T2temp")]));
    SAugAdd "Pabij" (ESub (EVar "tmp") (ETrans (EVar "tmp") [1; 0; 2; 3]));
    SAssign (PVar "Lkj") (EEinsum "klcd,cdjl->kj" [(EVar "L2"); (EVar "T2")]);
    SAssign (PVar "tmp") (EMul (ENeg (ENum (1) 1)) (EEinsum "kj,abik->abij" [(EVar "Lkj"); (EVar "T2temp")]));
    SAugAdd "Pabij" (ESub (EVar "tmp") (ETrans (EVar "tmp") [0; 1; 3; 2]));
    SAssign (PVar "T2temp") (EAdd (EVar "T2") (EEinsum "ci,dj->cdij" [(EVar "T1"); (EVar "T1")]));
    SAssign (PVar "LToo") (EEinsum "klcd,cdij->klij" [(EVar "L2"); (EVar "T2temp")]);
    SAssign (PVar "tmp") (EEinsum "klij,ak->alij" [(EVar "LToo"); (EVar "T1")]);
    SAssign (PVar "tmp") (EMul (ENum (1) 2) (EEinsum "alij,bl->abij" [(EVar "tmp"); (EVar "T1")]));
    SAugAdd "Pabij" (ESub (EVar "tmp") (ETrans (EVar "tmp") [1; 0; 2; 3]));
    SAssign (PVar "Looov") (EEinsum "klcd,ci->klid" [(EVar "L2"); (EVar "T1")]);
    SAssign (PVar "Loooo") (EEinsum "klid,dj->klij" [(EVar "Looov"); (EVar "T1")]);
    SAugSub "Loooo" (ETrans (EVar "Loooo") [0; 1; 3; 2]);
    SAugAdd "Pabij" (EMul (ENum (1) 2) (EEinsum "klij,abkl->abij" [(EVar "Loooo"); (EVar "T2temp")]));
    SAssign (PVar "Lalid") (EEinsum "klcd,ak,ci->alid" [(EVar "L2"); (EVar "T1"); (EVar "T1")]);
    SAssign (PVar "tmp") (EEinsum "alid,bdjl->abij" [(EVar "Lalid"); (EVar "T2")]);
    SAugSub "Pabij" (EVar "tmp");
    SAugAdd "Pabij" (EAdd (ETrans (EVar "tmp") [0; 1; 3; 2]) (ETrans (EVar "tmp") [1; 0; 2; 3]));
    SAugSub "Pabij" (ETrans (EVar "tmp") [1; 0; 3; 2]);
    SReturn (EVar "Pabij") ].

(** cqcpy/cc_equations.py, lines 2609-2623 *)
Definition py_ccsd_2rdm_kaij_opt : fundef :=
  FunDef ["T1"; "T2"; "L1"; "L2"] []
  [ SAssign (PVar "T2temp") (EAdd (EVar "T2") (EEinsum "ci,dj->cdij" [(EVar "T1"); (EVar "T1")]));
    SAugSub "T2temp" (EEinsum "di,cj->cdij" [(EVar "T1"); (EVar "T1")]);
    SAssign (PVar "Pkaij") (ENeg (EEinsum "kb,baij->kaij" [(EVar "L1"); (EVar "T2temp")]));
    SAssign (PVar "LTo") (EEinsum "klcd,cdil->ki" [(EVar "L2"); (EVar "T2")]);
    SAssign (PVar "tmp") (EMul (ENeg (ENum (1) 1)) (EEinsum "ki,aj->kaij" [(EVar "LTo"); (EVar "T1")]));
    SAugAdd "Pkaij" (ESub (EVar "tmp") (ETrans (EVar "tmp") [0; 1; 3; 2]));
    SAssign (PVar "Lklid") (EEinsum "klcd,ci->klid" [(EVar "L2"); (EVar "T1")]);
    SAssign (PVar "tmp") (ENeg (EEinsum "klid,adjl->kaij" [(EVar "Lklid"); (EVar "T2")]));
    SAugAdd "Pkaij" (ESub (EVar "tmp") (ETrans (EVar "tmp") [0; 1; 3; 2]));
    SAugAdd "Pkaij" (EMul (ENum (1) 1) (EEinsum "lkdb,dbji,al->kaij" [(EVar "L2"); (EVar "T2temp"); (EVar "T1")]));
    SReturn (EVar "Pkaij") ].

(** cqcpy/cc_equations.py, lines 2626-2630 *)
Definition py_ccsd_2rdm_klij_opt : fundef :=
  FunDef ["T1"; "T2"; "L1"; "L2"] []
  [ SAssign (PVar "T2temp") (EAdd (EVar "T2") (EEinsum "ci,dj->cdij" [(EVar "T1"); (EVar "T1")]));
    SAugSub "T2temp" (EEinsum "di,cj->cdij" [(EVar "T1"); (EVar "T1")]);
    SAssign (PVar "Pklij") (EMul (ENum (1) 1) (EEinsum "klab,abij->klij" [(EVar "L2"); (EVar "T2temp")]));
    SReturn (EVar "Pklij") ].

(** cqcpy/cc_equations.py, lines 2633-2642 *)
Definition py_uccsd_1rdm_ba : fundef :=
  FunDef ["T1a"; "T1b"; "T2aa"; "T2ab"; "T2bb"; "L1a"; "L1b"; "L2aa"; "L2ab"; "L2bb"] []
  [ SAssign (PVar "pba_a") (EEinsum "ia,bi->ba" [(EVar "L1a"); (EVar "T1a")]);
    SAugAdd "pba_a" (EMul (ENum (1) 1) (EEinsum "kica,cbki->ba" [(EVar "L2aa"); (EVar "T2aa")]));
    SAugAdd "pba_a" (EEinsum "ikac,bcik->ba" [(EVar "L2ab"); (EVar "T2ab")]);
    SAssign (PVar "pba_b") (EEinsum "ia,bi->ba" [(EVar "L1b"); (EVar "T1b")]);
    SAugAdd "pba_b" (EMul (ENum (1) 1) (EEinsum "kica,cbki->ba" [(EVar "L2bb"); (EVar "T2bb")]));
    SAugAdd "pba_b" (EEinsum "kica,cbki->ba" [(EVar "L2ab"); (EVar "T2ab")]);
    SReturn (ETuple [(EVar "pba_a"); (EVar "pba_b")]) ].

(** cqcpy/cc_equations.py, lines 2645-2655 *)
Definition py_uccsd_1rdm_ji : fundef :=
  FunDef ["T1a"; "T1b"; "T2aa"; "T2ab"; "T2bb"; "L1a"; "L1b"; "L2aa"; "L2ab"; "L2bb"] []
  [ SAssign (PVar "pji_a") (ENeg (EEinsum "ja,ai->ji" [(EVar "L1a"); (EVar "T1a")]));
    SAugSub "pji_a" (EMul (ENum (1) 1) (EEinsum "kjca,caki->ji" [(EVar "L2aa"); (EVar "T2aa")]));
    SAugSub "pji_a" (EEinsum "jkac,acik->ji" [(EVar "L2ab"); (EVar "T2ab")]);
    SAssign (PVar "pji_b") (ENeg (EEinsum "ja,ai->ji" [(EVar "L1b"); (EVar "T1b")]));
    SAugSub "pji_b" (EMul (ENum (1) 1) (EEinsum "kjca,caki->ji" [(EVar "L2bb"); (EVar "T2bb")]));
    SAugSub "pji_b" (EEinsum "kjca,caki->ji" [(EVar "L2ab"); (EVar "T2ab")]);
    SReturn (ETuple [(EVar "pji_a"); (EVar "pji_b")]) ].

(** cqcpy/cc_equations.py, lines 2658-2687 *)
Definition py_uccsd_1rdm_ai : fundef :=
  FunDef ["T1a"; "T1b"; "T2aa"; "T2ab"; "T2bb"; "L1a"; "L1b"; "L2aa"; "L2ab"; "L2bb"; "tfac"] [("tfac", ((1)%Z, 0%nat))]
  [ SAssign (PVar "T2tempaa") (ESub (EVar "T2aa") (EEinsum "bi,aj->baji" [(EVar "T1a"); (EVar "T1a")]));
    SAssign (PVar "T2tempbb") (ESub (EVar "T2bb") (EEinsum "bi,aj->baji" [(EVar "T1b"); (EVar "T1b")]));
    SAssign (PVar "T2tempab") (EVar "T2ab");
    SAssign (PVar "pai_a") (EMul (EVar "tfac") (EVar "T1a"));
    SAugAdd "pai_a" (EEinsum "jb,baji->ai" [(EVar "L1a"); (EVar "T2tempaa")]);
    SAugAdd "pai_a" (EEinsum "jb,abij->ai" [(EVar "L1b"); (EVar "T2tempab")]);
    SAssign (PVar "Pac_a") (EMul (ENum (1) 1) (EEinsum "kjcb,abkj->ac" [(EVar "L2aa"); (EVar "T2aa")]));
    SAugAdd "Pac_a" (EEinsum "kjcb,abkj->ac" [(EVar "L2ab"); (EVar "T2ab")]);
    SAugSub "pai_a" (EEinsum "ac,ci->ai" [(EVar "Pac_a"); (EVar "T1a")]);
    SAssign (PVar "Pik_a") (EMul (ENum (1) 1) (EEinsum "kjcb,cbij->ik" [(EVar "L2aa"); (EVar "T2aa")]));
    SAugAdd "Pik_a" (EEinsum "kjcb,cbij->ik" [(EVar "L2ab"); (EVar "T2ab")]);
    SAugSub "pai_a" (EEinsum "ik,ak->ai" [(EVar "Pik_a"); (EVar "T1a")]);
    SAssign (PVar "pai_b") (EMul (EVar "tfac") (EVar "T1b"));
    SAugAdd "pai_b" (EEinsum "jb,baji->ai" [(EVar "L1b"); (EVar "T2tempbb")]);
    SAugAdd "pai_b" (EEinsum "jb,baji->ai" [(EVar "L1a"); (EVar "T2tempab")]);
    SAssign (PVar "Pac_b") (EMul (ENum (1) 1) (EEinsum "kjcb,abkj->ac" [(EVar "L2bb"); (EVar "T2bb")]));
    SAugAdd "Pac_b" (EEinsum "jkbc,bajk->ac" [(EVar "L2ab"); (EVar "T2ab")]);
    SAugSub "pai_b" (EEinsum "ac,ci->ai" [(EVar "Pac_b"); (EVar "T1b")]);
    SAssign (PVar "Pik_b") (EMul (ENum (1) 1) (EEinsum "kjcb,cbij->ik" [(EVar "L2bb"); (EVar "T2bb")]));
    SAugAdd "Pik_b" (EEinsum "jkbc,bcji->ik" [(EVar "L2ab"); (EVar "T2ab")]);
    SAugSub "pai_b" (EEinsum "ik,ak->ai" [(EVar "Pik_b"); (EVar "T1b")]);
    SReturn (ETuple [(EVar "pai_a"); (EVar "pai_b")]) ].

(** cqcpy/cc_equations.py, lines 2690-2696 *)
Definition py_rccsd_1rdm_ba : fundef :=
  FunDef ["T1"; "T2"; "L1"; "L2"; "tfac"] [("tfac", ((1)%Z, 0%nat))]
  [ SAssign (PVar "pba") (EEinsum "ia,bi->ba" [(EVar "L1"); (EVar "T1")]);
    SAugAdd "pba" (EMul (ENum (1) 1) (EEinsum "kica,cbki->ba" [(ESub (EVar "L2") (ETrans (EVar "L2") [0; 1; 3; 2])); (ESub (EVar "T2") (ETrans (EVar "T2") [0; 1; 3; 2]))]));
    SAugAdd "pba" (EEinsum "ikac,bcik->ba" [(EVar "L2"); (EVar "T2")]);
    SReturn (EVar "pba") ].

(** cqcpy/cc_equations.py, lines 2699-2705 *)
Definition py_rccsd_1rdm_ji : fundef :=
  FunDef ["T1"; "T2"; "L1"; "L2"; "tfac"] [("tfac", ((1)%Z, 0%nat))]
  [ SAssign (PVar "pji") (ENeg (EEinsum "ja,ai->ji" [(EVar "L1"); (EVar "T1")]));
    SAugSub "pji" (EMul (ENum (1) 1) (EEinsum "kjca,caki->ji" [(ESub (EVar "L2") (ETrans (EVar "L2") [0; 1; 3; 2])); (ESub (EVar "T2") (ETrans (EVar "T2") [0; 1; 3; 2]))]));
    SAugSub "pji" (EEinsum "jkac,acik->ji" [(EVar "L2"); (EVar "T2")]);
    SReturn (EVar "pji") ].

(** cqcpy/cc_equations.py, lines 2708-2728 *)
Definition py_rccsd_1rdm_ai : fundef :=
  FunDef ["T1"; "T2"; "L1"; "L2"; "tfac"] [("tfac", ((1)%Z, 0%nat))]
  [ SAssign (PVar "T2tempaa") (ESub (ESub (EVar "T2") (ETrans (EVar "T2") [0; 1; 3; 2])) (EEinsum "bi,aj->baji" [(EVar "T1"); (EVar "T1")]));
    SAssign (PVar "T2tempab") (EVar "T2");
    SAssign (PVar "pai") (EMul (EVar "tfac") (EVar "T1"));
    SAugAdd "pai" (EEinsum "jb,baji->ai" [(EVar "L1"); (EVar "T2tempaa")]);
    SAugAdd "pai" (EEinsum "jb,abij->ai" [(EVar "L1"); (EVar "T2tempab")]);
    SAssign (PVar "Pac") (EMul (ENum (1) 1) (EEinsum "kjcb,abkj->ac" [(ESub (EVar "L2") (ETrans (EVar "L2") [0; 1; 3; 2])); (ESub (EVar "T2") (ETrans (EVar "T2") [0; 1; 3; 2]))]));
    SAugAdd "Pac" (EEinsum "kjcb,abkj->ac" [(EVar "L2"); (EVar "T2")]);
    SAugSub "pai" (EEinsum "ac,ci->ai" [(EVar "Pac"); (EVar "T1")]);
    SAssign (PVar "Pik") (EMul (ENum (1) 1) (EEinsum "kjcb,cbij->ik" [(ESub (EVar "L2") (ETrans (EVar "L2") [0; 1; 3; 2])); (ESub (EVar "T2") (ETrans (EVar "T2") [0; 1; 3; 2]))]));
    SAugAdd "Pik" (EEinsum "kjcb,cbij->ik" [(EVar "L2"); (EVar "T2")]);
    SAugSub "pai" (EEinsum "ik,ak->ai" [(EVar "Pik"); (EVar "T1")]);
    SReturn (EVar "pai") ].

(** cqcpy/cc_equations.py, lines 2731-2738 *)
Definition py_uccsd_2rdm_ciab : fundef :=
  FunDef ["T1a"; "T1b"; "T2aa"; "T2ab"; "T2bb"; "L1a"; "L1b"; "L2aa"; "L2ab"; "L2bb"] []
  [ SAssign (PVar "Pciab") (EEinsum "jiab,cj->ciab" [(EVar "L2aa"); (EVar "T1a")]);
    SAssign (PVar "PCIAB") (EEinsum "jiab,cj->ciab" [(EVar "L2bb"); (EVar "T1b")]);
    SAssign (PVar "PcIaB") (EEinsum "jiab,cj->ciab" [(EVar "L2ab"); (EVar "T1a")]);
    SAssign (PVar "PCiAb") (EEinsum "ijba,cj->ciab" [(EVar "L2ab"); (EVar "T1b")]);
    SReturn (ETuple [(EVar "Pciab"); (EVar "PCIAB"); (EVar "PcIaB"); (EVar "PCiAb")]) ].

(** cqcpy/cc_equations.py, lines 2741-2747 *)
Definition py_uccsd_2rdm_jkai : fundef :=
  FunDef ["T1a"; "T1b"; "T2aa"; "T2ab"; "T2bb"; "L1a"; "L1b"; "L2aa"; "L2ab"; "L2bb"] []
  [ SAssign (PVar "Pjkai") (ENeg (EEinsum "jkab,bi->jkai" [(EVar "L2aa"); (EVar "T1a")]));
    SAssign (PVar "PjKaI") (ENeg (EEinsum "jkab,bi->jkai" [(EVar "L2ab"); (EVar "T1b")]));
    SAssign (PVar "PJkAi") (ENeg (EEinsum "kJbA,bi->JkAi" [(EVar "L2ab"); (EVar "T1a")]));
    SAssign (PVar "PJKAI") (ENeg (EEinsum "jkab,bi->jkai" [(EVar "L2bb"); (EVar "T1b")]));
    SReturn (ETuple [(EVar "Pjkai"); (EVar "PJKAI"); (EVar "PjKaI"); (EVar "PJkAi")]) ].

(** cqcpy/cc_equations.py, lines 2750-2760 *)
Definition py_uccsd_2rdm_cdab : fundef :=
  FunDef ["T1a"; "T1b"; "T2aa"; "T2ab"; "T2bb"; "L1a"; "L1b"; "L2aa"; "L2ab"; "L2bb"] []
  [ SAssign (PVar "T2tempaa") (EAdd (EVar "T2aa") (EEinsum "ci,dj->cdij" [(EVar "T1a"); (EVar "T1a")]));
    SAssign (PVar "T2tempbb") (EAdd (EVar "T2bb") (EEinsum "ci,dj->cdij" [(EVar "T1b"); (EVar "T1b")]));
    SAssign (PVar "T2tempab") (EAdd (EVar "T2ab") (EEinsum "ci,dj->cdij" [(EVar "T1a"); (EVar "T1b")]));
    SAugSub "T2tempaa" (EEinsum "di,cj->cdij" [(EVar "T1a"); (EVar "T1a")]);
    SAugSub "T2tempbb" (EEinsum "di,cj->cdij" [(EVar "T1b"); (EVar "T1b")]);
    SAssign (PVar "Pcdab") (EMul (ENum (1) 1) (EEinsum "ijab,cdij->cdab" [(EVar "L2aa"); (EVar "T2tempaa")]));
    SAssign (PVar "PCDAB") (EMul (ENum (1) 1) (EEinsum "ijab,cdij->cdab" [(EVar "L2bb"); (EVar "T2tempbb")]));
    SAssign (PVar "PcDaB") (EEinsum "ijab,cdij->cdab" [(EVar "L2ab"); (EVar "T2tempab")]);
    SReturn (ETuple [(EVar "Pcdab"); (EVar "PCDAB"); (EVar "PcDaB")]) ].

(** cqcpy/cc_equations.py, lines 2763-2787 *)
Definition py_uccsd_2rdm_bjai : fundef :=
  FunDef ["T1a"; "T1b"; "T2aa"; "T2ab"; "T2bb"; "L1a"; "L1b"; "L2aa"; "L2ab"; "L2bb"] []
  [ SAssign (PVar "Pbjai") (ENeg (EEinsum "bi,ja->bjai" [(EVar "T1a"); (EVar "L1a")]));
    SAssign (PVar "PbJAi") (ENeg (EEinsum "bi,ja->bjai" [(EVar "T1a"); (EVar "L1b")]));
    SAssign (PVar "PBjaI") (ENeg (EEinsum "bi,ja->bjai" [(EVar "T1b"); (EVar "L1a")]));
    SAssign (PVar "PBJAI") (ENeg (EEinsum "bi,ja->bjai" [(EVar "T1b"); (EVar "L1b")]));
    SAssign (PVar "T2tempaa") (EAdd (EVar "T2aa") (EEinsum "bk,ci->bcki" [(EVar "T1a"); (EVar "T1a")]));
    SAssign (PVar "T2tempab") (EAdd (EVar "T2ab") (EEinsum "bk,ci->bcki" [(EVar "T1a"); (EVar "T1b")]));
    SAssign (PVar "T2tempbb") (EAdd (EVar "T2bb") (EEinsum "bk,ci->bcki" [(EVar "T1b"); (EVar "T1b")]));
    SAugSub "Pbjai" (EEinsum "kjac,bcki->bjai" [(EVar "L2aa"); (EVar "T2tempaa")]);
    SAugSub "Pbjai" (EEinsum "jKaC,bCiK->bjai" [(EVar "L2ab"); (EVar "T2ab")]);
    SAssign (PVar "PbJaI") (ENeg (EEinsum "kJaC,bCkI->bJaI" [(EVar "L2ab"); (EVar "T2tempab")]));
    SAugAdd "PbJAi" (EEinsum "kJcA,bcki->bJAi" [(EVar "L2ab"); (EVar "T2tempaa")]);
    SAugAdd "PbJAi" (EEinsum "KJAC,bCiK->bJAi" [(EVar "L2bb"); (EVar "T2ab")]);
    SAugAdd "PBjaI" (EEinsum "kjac,cBkI->BjaI" [(EVar "L2aa"); (EVar "T2ab")]);
    SAugAdd "PBjaI" (EEinsum "jKaC,BCKI->BjaI" [(EVar "L2ab"); (EVar "T2tempbb")]);
    SAssign (PVar "PBjAi") (ENeg (EEinsum "jKcA,cBiK->BjAi" [(EVar "L2ab"); (EVar "T2tempab")]));
    SAugSub "PBJAI" (EEinsum "kjac,bcki->bjai" [(EVar "L2bb"); (EVar "T2tempbb")]);
    SAugSub "PBJAI" (EEinsum "kJcA,cBkI->BJAI" [(EVar "L2ab"); (EVar "T2ab")]);
    SReturn (ETuple [(EVar "Pbjai"); (EVar "PBJAI"); (EVar "PbJaI"); (EVar "PbJAi"); (EVar "PBjaI"); (EVar "PBjAi")]) ].

(** cqcpy/cc_equations.py, lines 2790-2800 *)
Definition py_uccsd_2rdm_klij : fundef :=
  FunDef ["T1a"; "T1b"; "T2aa"; "T2ab"; "T2bb"; "L1a"; "L1b"; "L2aa"; "L2ab"; "L2bb"] []
  [ SAssign (PVar "T2tempaa") (EAdd (EVar "T2aa") (EEinsum "ci,dj->cdij" [(EVar "T1a"); (EVar "T1a")]));
    SAssign (PVar "T2tempab") (EAdd (EVar "T2ab") (EEinsum "ci,dj->cdij" [(EVar "T1a"); (EVar "T1b")]));
    SAssign (PVar "T2tempbb") (EAdd (EVar "T2bb") (EEinsum "ci,dj->cdij" [(EVar "T1b"); (EVar "T1b")]));
    SAugSub "T2tempaa" (EEinsum "di,cj->cdij" [(EVar "T1a"); (EVar "T1a")]);
    SAugSub "T2tempbb" (EEinsum "di,cj->cdij" [(EVar "T1b"); (EVar "T1b")]);
    SAssign (PVar "Pklij") (EMul (ENum (1) 1) (EEinsum "klab,abij->klij" [(EVar "L2aa"); (EVar "T2tempaa")]));
    SAssign (PVar "PkLiJ") (EEinsum "klab,abij->klij" [(EVar "L2ab"); (EVar "T2tempab")]);
    SAssign (PVar "PKLIJ") (EMul (ENum (1) 1) (EEinsum "klab,abij->klij" [(EVar "L2bb"); (EVar "T2tempbb")]));
    SReturn (ETuple [(EVar "Pklij"); (EVar "PKLIJ"); (EVar "PkLiJ")]) ].

(** cqcpy/cc_equations.py, lines 2803-2856 *)
Definition py_uccsd_2rdm_bcai : fundef :=
  FunDef ["T1a"; "T1b"; "T2aa"; "T2ab"; "T2bb"; "L1a"; "L1b"; "L2aa"; "L2ab"; "L2bb"] []
  [ SAssign (PVar "T2tempaa") (EAdd (EVar "T2aa") (EEinsum "ci,dj->cdij" [(EVar "T1a"); (EVar "T1a")]));
    SAssign (PVar "T2tempab") (EAdd (EVar "T2ab") (EEinsum "ci,dj->cdij" [(EVar "T1a"); (EVar "T1b")]));
    SAssign (PVar "T2tempbb") (EAdd (EVar "T2bb") (EEinsum "ci,dj->cdij" [(EVar "T1b"); (EVar "T1b")]));
    SAugSub "T2tempaa" (EEinsum "di,cj->cdij" [(EVar "T1a"); (EVar "T1a")]);
    SAugSub "T2tempbb" (EEinsum "di,cj->cdij" [(EVar "T1b"); (EVar "T1b")]);
    SAssign (PVar "Pbcai") (EEinsum "ja,bcji->bcai" [(EVar "L1a"); (EVar "T2tempaa")]);
    SAssign (PVar "PbCaI") (EEinsum "ja,bCjI->bCaI" [(EVar "L1a"); (EVar "T2tempab")]);
    SAssign (PVar "PBcAi") (EEinsum "JA,cBiJ->BcAi" [(EVar "L1b"); (EVar "T2tempab")]);
    SAssign (PVar "PBCAI") (EEinsum "ja,bcji->bcai" [(EVar "L1b"); (EVar "T2tempbb")]);
    SAssign (PVar "LTba") (EEinsum "jlad,bdjl->ba" [(EVar "L2aa"); (EVar "T2aa")]);
    SAugAdd "LTba" (EMul (ENum (2) 0) (EEinsum "jLaD,bDjL->ba" [(EVar "L2ab"); (EVar "T2ab")]));
    SAssign (PVar "LTBA") (EEinsum "jlad,bdjl->ba" [(EVar "L2bb"); (EVar "T2bb")]);
    SAugAdd "LTBA" (EMul (ENum (2) 0) (EEinsum "lJdA,dBlJ->BA" [(EVar "L2ab"); (EVar "T2ab")]));
    SAugAdd "Pbcai" (EMul (ENum (1) 1) (EEinsum "ba,ci->bcai" [(EVar "LTba"); (EVar "T1a")]));
    SAugSub "Pbcai" (EMul (ENum (1) 1) (EEinsum "ca,bi->bcai" [(EVar "LTba"); (EVar "T1a")]));
    SAugAdd "PBCAI" (EMul (ENum (1) 1) (EEinsum "ba,ci->bcai" [(EVar "LTBA"); (EVar "T1b")]));
    SAugSub "PBCAI" (EMul (ENum (1) 1) (EEinsum "ca,bi->bcai" [(EVar "LTBA"); (EVar "T1b")]));
    SAugAdd "PbCaI" (EMul (ENum (1) 1) (EEinsum "ba,CI->bCaI" [(EVar "LTba"); (EVar "T1b")]));
    SAugAdd "PBcAi" (EMul (ENum (1) 1) (EEinsum "BA,ci->BcAi" [(EVar "LTBA"); (EVar "T1a")]));
    SAssign (PVar "LTtempaa") (EEinsum "jkad,cdik->jcai" [(EVar "L2aa"); (EVar "T2aa")]);
    SAugAdd "LTtempaa" (EEinsum "jKaD,cDiK->jcai" [(EVar "L2ab"); (EVar "T2ab")]);
    SAssign (PVar "LTtempbb") (EEinsum "jkad,cdik->jcai" [(EVar "L2bb"); (EVar "T2bb")]);
    SAugAdd "LTtempbb" (EEinsum "kJdA,dCkI->JCAI" [(EVar "L2ab"); (EVar "T2ab")]);
    SAssign (PVar "LTtempab1") (EEinsum "jkad,dCkI->jCaI" [(EVar "L2aa"); (EVar "T2ab")]);
    SAugAdd "LTtempab1" (EEinsum "jKaD,CDIK->jCaI" [(EVar "L2ab"); (EVar "T2bb")]);
    SAssign (PVar "LTtempab2") (EEinsum "kJaD,cDkI->JcaI" [(EVar "L2ab"); (EVar "T2ab")]);
    SAssign (PVar "LTtempab3") (EEinsum "kJdA,cdik->JcAi" [(EVar "L2ab"); (EVar "T2aa")]);
    SAugAdd "LTtempab3" (EEinsum "JKAD,cDiK->JcAi" [(EVar "L2bb"); (EVar "T2ab")]);
    SAssign (PVar "LTtempab4") (EEinsum "jKdA,dCiK->jCAi" [(EVar "L2ab"); (EVar "T2ab")]);
    SAugAdd "Pbcai" (EEinsum "jcai,bj->bcai" [(EVar "LTtempaa"); (EVar "T1a")]);
    SAugSub "Pbcai" (EEinsum "jbai,cj->bcai" [(EVar "LTtempaa"); (EVar "T1a")]);
    SAugAdd "PBCAI" (EEinsum "jcai,bj->bcai" [(EVar "LTtempbb"); (EVar "T1b")]);
    SAugSub "PBCAI" (EEinsum "jbai,cj->bcai" [(EVar "LTtempbb"); (EVar "T1b")]);
    SAugAdd "PbCaI" (EEinsum "jCaI,bj->bCaI" [(EVar "LTtempab1"); (EVar "T1a")]);
    SAugSub "PbCaI" (EEinsum "JbaI,CJ->bCaI" [(EVar "LTtempab2"); (EVar "T1b")]);
    SAugAdd "PBcAi" (EEinsum "JcAi,BJ->BcAi" [(EVar "LTtempab3"); (EVar "T1b")]);
    SAugSub "PBcAi" (EEinsum "jBAi,cj->BcAi" [(EVar "LTtempab4"); (EVar "T1a")]);
    SAugSub "Pbcai" (EMul (ENum (1) 1) (EEinsum "kjda,cbkj,di->bcai" [(EVar "L2aa"); (EVar "T2tempaa"); (EVar "T1a")]));
    SAugSub "PbCaI" (EEinsum "jKaD,bCjK,DI->bCaI" [(EVar "L2ab"); (EVar "T2tempab"); (EVar "T1b")]);
    SAugSub "PBcAi" (EEinsum "kJdA,cBkJ,di->BcAi" [(EVar "L2ab"); (EVar "T2tempab"); (EVar "T1a")]);
    SAugSub "PBCAI" (EMul (ENum (1) 1) (EEinsum "kjda,cbkj,di->bcai" [(EVar "L2bb"); (EVar "T2tempbb"); (EVar "T1b")]));
    SReturn (ETuple [(EVar "Pbcai"); (EVar "PBCAI"); (EVar "PbCaI"); (EVar "PBcAi")]) ].

(** cqcpy/cc_equations.py, lines 2859-2914 *)
Definition py_uccsd_2rdm_kaij : fundef :=
  FunDef ["T1a"; "T1b"; "T2aa"; "T2ab"; "T2bb"; "L1a"; "L1b"; "L2aa"; "L2ab"; "L2bb"] []
  [ SAssign (PVar "T2tempaa") (EAdd (EVar "T2aa") (EEinsum "ci,dj->cdij" [(EVar "T1a"); (EVar "T1a")]));
    SAssign (PVar "T2tempab") (EAdd (EVar "T2ab") (EEinsum "ci,dj->cdij" [(EVar "T1a"); (EVar "T1b")]));
    SAssign (PVar "T2tempbb") (EAdd (EVar "T2bb") (EEinsum "ci,dj->cdij" [(EVar "T1b"); (EVar "T1b")]));
    SAugSub "T2tempaa" (EEinsum "di,cj->cdij" [(EVar "T1a"); (EVar "T1a")]);
    SAugSub "T2tempbb" (EEinsum "di,cj->cdij" [(EVar "T1b"); (EVar "T1b")]);
    SAssign (PVar "Pkaij") (ENeg (EEinsum "kb,baij->kaij" [(EVar "L1a"); (EVar "T2tempaa")]));
    SAssign (PVar "PkAiJ") (ENeg (EEinsum "kb,bAiJ->kAiJ" [(EVar "L1a"); (EVar "T2tempab")]));
    SAssign (PVar "PKaIj") (ENeg (EEinsum "KB,aBjI->KaIj" [(EVar "L1b"); (EVar "T2tempab")]));
    SAssign (PVar "PKAIJ") (ENeg (EEinsum "kb,baij->kaij" [(EVar "L1b"); (EVar "T2tempbb")]));
    SAssign (PVar "LToa") (EEinsum "klcd,cdil->ki" [(EVar "L2aa"); (EVar "T2aa")]);
    SAugAdd "LToa" (EMul (ENum (2) 0) (EEinsum "kLcD,cDiL->ki" [(EVar "L2ab"); (EVar "T2ab")]));
    SAssign (PVar "LTob") (EEinsum "klcd,cdil->ki" [(EVar "L2bb"); (EVar "T2bb")]);
    SAugAdd "LTob" (EMul (ENum (2) 0) (EEinsum "lKdC,dClI->KI" [(EVar "L2ab"); (EVar "T2ab")]));
    SAssign (PVar "tmpaa") (EMul (ENeg (ENum (1) 1)) (EEinsum "ki,aj->kaij" [(EVar "LToa"); (EVar "T1a")]));
    SAssign (PVar "tmpab") (EMul (ENeg (ENum (1) 1)) (EEinsum "ki,AJ->kAiJ" [(EVar "LToa"); (EVar "T1b")]));
    SAssign (PVar "tmpba") (EMul (ENeg (ENum (1) 1)) (EEinsum "KI,aj->KaIj" [(EVar "LTob"); (EVar "T1a")]));
    SAssign (PVar "tmpbb") (EMul (ENeg (ENum (1) 1)) (EEinsum "ki,aj->kaij" [(EVar "LTob"); (EVar "T1b")]));
    SAugAdd "Pkaij" (ESub (EVar "tmpaa") (ETrans (EVar "tmpaa") [0; 1; 3; 2]));
    SAugAdd "PkAiJ" (EVar "tmpab");
    SAugAdd "PKaIj" (EVar "tmpba");
    SAugAdd "PKAIJ" (ESub (EVar "tmpbb") (ETrans (EVar "tmpbb") [0; 1; 3; 2]));
    SAssign (PVar "Lklid") (EEinsum "klcd,ci->klid" [(EVar "L2aa"); (EVar "T1a")]);
    SAssign (PVar "LkLiD") (EEinsum "kLcD,ci->kLiD" [(EVar "L2ab"); (EVar "T1a")]);
    SAssign (PVar "LKlId") (EEinsum "lKdC,CI->KlId" [(EVar "L2ab"); (EVar "T1b")]);
    SAssign (PVar "LKLID") (EEinsum "klcd,ci->klid" [(EVar "L2bb"); (EVar "T1b")]);
    SAssign (PVar "LkLId") (ENeg (EEinsum "kLdC,CI->kLId" [(EVar "L2ab"); (EVar "T1b")]));
    SAssign (PVar "LKliD") (ENeg (EEinsum "lKcD,ci->KliD" [(EVar "L2ab"); (EVar "T1a")]));
    SAssign (PVar "tmpaa") (ENeg (EEinsum "klid,adjl->kaij" [(EVar "Lklid"); (EVar "T2aa")]));
    SAugSub "tmpaa" (EEinsum "kLiD,aDjL->kaij" [(EVar "LkLiD"); (EVar "T2ab")]);
    SAssign (PVar "tmpab") (ENeg (EEinsum "klid,dAlJ->kAiJ" [(EVar "Lklid"); (EVar "T2ab")]));
    SAugSub "tmpab" (EEinsum "kLiD,ADJL->kAiJ" [(EVar "LkLiD"); (EVar "T2bb")]);
    SAugSub "tmpab" (EEinsum "kLJd,dAiL->kAiJ" [(EVar "LkLId"); (EVar "T2ab")]);
    SAssign (PVar "tmpba") (ENeg (EEinsum "KlId,adjl->KaIj" [(EVar "LKlId"); (EVar "T2aa")]));
    SAugSub "tmpba" (EEinsum "KLID,aDjL->KaIj" [(EVar "LKLID"); (EVar "T2ab")]);
    SAugSub "tmpba" (EEinsum "KljD,aDlI->KaIj" [(EVar "LKliD"); (EVar "T2ab")]);
    SAssign (PVar "tmpbb") (ENeg (EEinsum "klid,adjl->kaij" [(EVar "LKLID"); (EVar "T2bb")]));
    SAugSub "tmpbb" (EEinsum "KlId,dAlJ->KAIJ" [(EVar "LKlId"); (EVar "T2ab")]);
    SAugAdd "Pkaij" (ESub (EVar "tmpaa") (ETrans (EVar "tmpaa") [0; 1; 3; 2]));
    SAugAdd "PkAiJ" (EVar "tmpab");
    SAugAdd "PKaIj" (EVar "tmpba");
    SAugAdd "PKAIJ" (ESub (EVar "tmpbb") (ETrans (EVar "tmpbb") [0; 1; 3; 2]));
    SAugAdd "Pkaij" (EMul (ENum (1) 1) (EEinsum "lkdb,dbji,al->kaij" [(EVar "L2aa"); (EVar "T2tempaa"); (EVar "T1a")]));
    SAugAdd "PkAiJ" (EEinsum "kLbD,bDiJ,AL->kAiJ" [(EVar "L2ab"); (EVar "T2tempab"); (EVar "T1b")]);
    SAugAdd "PKaIj" (EEinsum "lKdB,dBjI,al->KaIj" [(EVar "L2ab"); (EVar "T2tempab"); (EVar "T1a")]);
    SAugAdd "PKAIJ" (EMul (ENum (1) 1) (EEinsum "lkdb,dbji,al->kaij" [(EVar "L2bb"); (EVar "T2tempbb"); (EVar "T1b")]));
    SReturn (ETuple [(EVar "Pkaij"); (EVar "PKAIJ"); (EVar "PkAiJ"); (EVar "PKaIj")]) ].

(** cqcpy/cc_equations.py, lines 2917-3093 *)
Definition py_uccsd_2rdm_abij : fundef :=
  FunDef ["T1a"; "T1b"; "T2aa"; "T2ab"; "T2bb"; "L1a"; "L1b"; "L2aa"; "L2ab"; "L2bb"; "tfac"] [("tfac", ((1)%Z, 0%nat))]
  [ SAssign (PVar "Pabij") (EMul (EVar "tfac") (ECopy (EVar "T2aa")));
    SAssign (PVar "PaBiJ") (EMul (EVar "tfac") (ECopy (EVar "T2ab")));
    SAssign (PVar "PABIJ") (EMul (EVar "tfac") (ECopy (EVar "T2bb")));
    SAugAdd "Pabij" (EMul (EVar "tfac") (EEinsum "ai,bj->abij" [(EVar "T1a"); (EVar "T1a")]));
    SAugSub "Pabij" (EMul (EVar "tfac") (EEinsum "aj,bi->abij" [(EVar "T1a"); (EVar "T1a")]));
    SAugAdd "PABIJ" (EMul (EVar "tfac") (EEinsum "ai,bj->abij" [(EVar "T1b"); (EVar "T1b")]));
    SAugSub "PABIJ" (EMul (EVar "tfac") (EEinsum "aj,bi->abij" [(EVar "T1b"); (EVar "T1b")]));
    SAugAdd "PaBiJ" (EMul (EVar "tfac") (EEinsum "ai,bj->abij" [(EVar "T1a"); (EVar "T1b")]));
    SAssign (PVar "LTki") (EEinsum "kc,ci->ki" [(EVar "L1a"); (EVar "T1a")]);
    SAssign (PVar "LTKI") (EEinsum "KC,CI->KI" [(EVar "L1b"); (EVar "T1b")]);
    SAssign (PVar "tmpaa") (ENeg (EEinsum "ki,abkj->abij" [(EVar "LTki"); (EVar "T2aa")]));
    SAssign (PVar "tmpbb") (ENeg (EEinsum "ki,abkj->abij" [(EVar "LTKI"); (EVar "T2bb")]));
    SAssign (PVar "tmpab") (ENeg (EEinsum "ki,aBkJ->aBiJ" [(EVar "LTki"); (EVar "T2ab")]));
    SAugSub "tmpab" (EEinsum "KJ,aBiK->aBiJ" [(EVar "LTKI"); (EVar "T2ab")]);
    SAugAdd "Pabij" (ESub (EVar "tmpaa") (ETrans (EVar "tmpaa") [0; 1; 3; 2]));
    SAugAdd "PABIJ" (ESub (EVar "tmpbb") (ETrans (EVar "tmpbb") [0; 1; 3; 2]));
    SAugAdd "PaBiJ" (EVar "tmpab");
    SAssign (PVar "LTac") (EEinsum "kc,ak->ac" [(EVar "L1a"); (EVar "T1a")]);
    SAssign (PVar "LTAC") (EEinsum "kc,ak->ac" [(EVar "L1b"); (EVar "T1b")]);
    SAssign (PVar "tmpaa") (ENeg (EEinsum "ac,cbij->abij" [(EVar "LTac"); (EVar "T2aa")]));
    SAssign (PVar "tmpbb") (ENeg (EEinsum "ac,cbij->abij" [(EVar "LTAC"); (EVar "T2bb")]));
    SAssign (PVar "tmpab") (ENeg (EEinsum "ac,cBiJ->aBiJ" [(EVar "LTac"); (EVar "T2ab")]));
    SAugSub "tmpab" (EEinsum "BC,aCiJ->aBiJ" [(EVar "LTAC"); (EVar "T2ab")]);
    SAugAdd "Pabij" (ESub (EVar "tmpaa") (ETrans (EVar "tmpaa") [1; 0; 2; 3]));
    SAugAdd "PABIJ" (ESub (EVar "tmpbb") (ETrans (EVar "tmpbb") [1; 0; 2; 3]));
    SAugAdd "PaBiJ" (EVar "tmpab");
    SAssign (PVar "T2tempaa") (ESub (EVar "T2aa") (EEinsum "bk,cj->bcjk" [(EVar "T1a"); (EVar "T1a")]));
    SAssign (PVar "T2tempbb") (ESub (EVar "T2bb") (EEinsum "bk,cj->bcjk" [(EVar "T1b"); (EVar "T1b")]));
    SAssign (PVar "LTbj") (EEinsum "kc,bcjk->bj" [(EVar "L1a"); (EVar "T2tempaa")]);
    SAugAdd "LTbj" (EEinsum "KC,bCjK->bj" [(EVar "L1b"); (EVar "T2ab")]);
    SAssign (PVar "LTBJ") (EEinsum "kc,bcjk->bj" [(EVar "L1b"); (EVar "T2tempbb")]);
    SAugAdd "LTBJ" (EEinsum "kc,cBkJ->BJ" [(EVar "L1a"); (EVar "T2ab")]);
    SAugAdd "Pabij" (EEinsum "ai,bj->abij" [(EVar "LTbj"); (EVar "T1a")]);
    SAugSub "Pabij" (EEinsum "aj,bi->abij" [(EVar "LTbj"); (EVar "T1a")]);
    SAugSub "Pabij" (EEinsum "bi,aj->abij" [(EVar "LTbj"); (EVar "T1a")]);
    SAugAdd "Pabij" (EEinsum "bj,ai->abij" [(EVar "LTbj"); (EVar "T1a")]);
    SAugAdd "PABIJ" (EEinsum "ai,bj->abij" [(EVar "LTBJ"); (EVar "T1b")]);
    SAugSub "PABIJ" (EEinsum "aj,bi->abij" [(EVar "LTBJ"); (EVar "T1b")]);
    SAugSub "PABIJ" (EEinsum "bi,aj->abij" [(EVar "LTBJ"); (EVar "T1b")]);
    SAugAdd "PABIJ" (EEinsum "bj,ai->abij" [(EVar "LTBJ"); (EVar "T1b")]);
    SAugAdd "PaBiJ" (EEinsum "ai,BJ->aBiJ" [(EVar "LTbj"); (EVar "T1b")]);
    SAugAdd "PaBiJ" (EEinsum "BJ,ai->aBiJ" [(EVar "LTBJ"); (EVar "T1a")]);
    SAssign (PVar "LToo") (EEinsum "klcd,cdij->klij" [(EVar "L2aa"); (EVar "T2aa")]);
    SAssign (PVar "LToO") (EEinsum "kLcD,cDiJ->kLiJ" [(EVar "L2ab"); (EVar "T2ab")]);
    SAssign (PVar "LTOO") (EEinsum "klcd,cdij->klij" [(EVar "L2bb"); (EVar "T2bb")]);
    SAugAdd "Pabij" (EMul (ENum (1) 2) (EEinsum "klij,abkl->abij" [(EVar "LToo"); (EVar "T2aa")]));
    SAugAdd "PABIJ" (EMul (ENum (1) 2) (EEinsum "klij,abkl->abij" [(EVar "LTOO"); (EVar "T2bb")]));
    SAugAdd "PaBiJ" (EEinsum "kLiJ,aBkL->aBiJ" [(EVar "LToO"); (EVar "T2ab")]);
    SAssign (PVar "LTlida") (EEinsum "klcd,caki->lida" [(EVar "L2aa"); (EVar "T2aa")]);
    SAugAdd "LTlida" (EEinsum "lKdC,aCiK->lida" [(EVar "L2ab"); (EVar "T2ab")]);
    SAssign (PVar "LTLIDA") (EEinsum "klcd,caki->lida" [(EVar "L2bb"); (EVar "T2bb")]);
    SAugAdd "LTLIDA" (EEinsum "kLcD,cAkI->LIDA" [(EVar "L2ab"); (EVar "T2ab")]);
    SAssign (PVar "LTLIda") (EEinsum "kLdC,aCkI->LIda" [(EVar "L2ab"); (EVar "T2ab")]);
    SAssign (PVar "LTliDA") (EEinsum "lKcD,cAiK->liDA" [(EVar "L2ab"); (EVar "T2ab")]);
    SAssign (PVar "LTlIdA") (EEinsum "klcd,cAkI->lIdA" [(EVar "L2aa"); (EVar "T2ab")]);
    SAugAdd "LTlIdA" (EEinsum "lKdC,CAKI->lIdA" [(EVar "L2ab"); (EVar "T2bb")]);
    SAssign (PVar "LTLiDa") (EEinsum "kLcD,caki->LiDa" [(EVar "L2ab"); (EVar "T2aa")]);
    SAugAdd "LTLiDa" (EEinsum "KLCD,aCiK->LiDa" [(EVar "L2bb"); (EVar "T2ab")]);
    SAssign (PVar "tmpaa") (EMul (ENum (1) 1) (EEinsum "lida,bdjl->abij" [(EVar "LTlida"); (EVar "T2aa")]));
    SAugAdd "tmpaa" (EMul (ENum (1) 1) (EEinsum "LiDa,bDjL->abij" [(EVar "LTLiDa"); (EVar "T2ab")]));
    SAssign (PVar "tmpbb") (EMul (ENum (1) 1) (EEinsum "lida,bdjl->abij" [(EVar "LTLIDA"); (EVar "T2bb")]));
    SAugAdd "tmpbb" (EMul (ENum (1) 1) (EEinsum "lIdA,dBlJ->ABIJ" [(EVar "LTlIdA"); (EVar "T2ab")]));
    SAssign (PVar "tmpab") (EMul (ENum (1) 1) (EEinsum "lida,dBlJ->aBiJ" [(EVar "LTlida"); (EVar "T2ab")]));
    SAugAdd "tmpab" (EMul (ENum (1) 1) (EEinsum "LiDa,BDJL->aBiJ" [(EVar "LTLiDa"); (EVar "T2bb")]));
    SAugAdd "tmpab" (EMul (ENum (1) 1) (EEinsum "LJda,dBiL->aBiJ" [(EVar "LTLIda"); (EVar "T2ab")]));
    SAugAdd "tmpab" (EMul (ENum (1) 1) (EEinsum "liDB,aDlJ->aBiJ" [(EVar "LTliDA"); (EVar "T2ab")]));
    SAugAdd "tmpab" (EMul (ENum (1) 1) (EEinsum "lJdB,adil->aBiJ" [(EVar "LTlIdA"); (EVar "T2aa")]));
    SAugAdd "tmpab" (EMul (ENum (1) 1) (EEinsum "LJDB,aDiL->aBiJ" [(EVar "LTLIDA"); (EVar "T2ab")]));
    SAugAdd "Pabij" (ESub (EVar "tmpaa") (ETrans (EVar "tmpaa") [0; 1; 3; 2]));
    SAugAdd "Pabij" (EAdd (ENeg (ETrans (EVar "tmpaa") [1; 0; 2; 3])) (ETrans (EVar "tmpaa") [1; 0; 3; 2]));
    SAugAdd "PABIJ" (ESub (EVar "tmpbb") (ETrans (EVar "tmpbb") [0; 1; 3; 2]));
    SAugAdd "PABIJ" (EAdd (ENeg (ETrans (EVar "tmpbb") [1; 0; 2; 3])) (ETrans (EVar "tmpbb") [1; 0; 3; 2]));
    SAugAdd "PaBiJ" (EVar "tmpab");
    SAssign (PVar "T2tempaa") (EAdd (EVar "T2aa") (EEinsum "cj,ai->acij" [(EVar "T1a"); (EVar "T1a")]));
    SAugSub "T2tempaa" (EEinsum "ci,aj->acij" [(EVar "T1a"); (EVar "T1a")]);
    SAssign (PVar "T2tempab") (EAdd (EVar "T2ab") (EEinsum "cj,ai->acij" [(EVar "T1b"); (EVar "T1a")]));
    SAssign (PVar "T2tempbb") (EAdd (EVar "T2bb") (EEinsum "cj,ai->acij" [(EVar "T1b"); (EVar "T1b")]));
    SAugSub "T2tempbb" (EEinsum "ci,aj->acij" [(EVar "T1b"); (EVar "T1b")]);
    SAssign (PVar "Lcb") (EEinsum "klcd,bdkl->cb" [(EVar "L2aa"); (EVar "T2aa")]);
    SAugAdd "Lcb" (EMul (ENum (2) 0) (EEinsum "kLcD,bDkL->cb" [(EVar "L2ab"); (EVar "T2ab")]));
    SAssign (PVar "LCB") (EEinsum "klcd,bdkl->cb" [(EVar "L2bb"); (EVar "T2bb")]);
    SAugAdd "LCB" (EMul (ENum (2) 0) (EEinsum "lKdC,dBlK->CB" [(EVar "L2ab"); (EVar "T2ab")]));
    SAssign (PVar "tmpaa") (EMul (ENeg (ENum (1) 1)) (EEinsum "cb,acij->abij" [(EVar "Lcb"); (EVar "T2tempaa")]));
    SAssign (PVar "tmpbb") (EMul (ENeg (ENum (1) 1)) (EEinsum "cb,acij->abij" [(EVar "LCB"); (EVar "T2tempbb")]));
    SAssign (PVar "tmpab") (EMul (ENeg (ENum (1) 1)) (EEinsum "CB,aCiJ->aBiJ" [(EVar "LCB"); (EVar "T2tempab")]));
    SAugSub "tmpab" (EMul (ENum (1) 1) (EEinsum "ca,cBiJ->aBiJ" [(EVar "Lcb"); (EVar "T2tempab")]));
    SAugAdd "Pabij" (ESub (EVar "tmpaa") (ETrans (EVar "tmpaa") [1; 0; 2; 3]));
    SAugAdd "PABIJ" (ESub (EVar "tmpbb") (ETrans (EVar "tmpbb") [1; 0; 2; 3]));
    SAugAdd "PaBiJ" (EVar "tmpab");
    SAssign (PVar "Lkj") (EEinsum "klcd,cdjl->kj" [(EVar "L2aa"); (EVar "T2aa")]);
    SAugAdd "Lkj" (EMul (ENum (2) 0) (EEinsum "kLcD,cDjL->kj" [(EVar "L2ab"); (EVar "T2ab")]));
    SAssign (PVar "LKJ") (EEinsum "klcd,cdjl->kj" [(EVar "L2bb"); (EVar "T2bb")]);
    SAugAdd "LKJ" (EMul (ENum (2) 0) (EEinsum "lKdC,dClJ->KJ" [(EVar "L2ab"); (EVar "T2ab")]));
    SAssign (PVar "tmpaa") (EMul (ENeg (ENum (1) 1)) (EEinsum "kj,abik->abij" [(EVar "Lkj"); (EVar "T2tempaa")]));
    SAssign (PVar "tmpbb") (EMul (ENeg (ENum (1) 1)) (EEinsum "kj,abik->abij" [(EVar "LKJ"); (EVar "T2tempbb")]));
    SAssign (PVar "tmpab") (EMul (ENeg (ENum (1) 1)) (EEinsum "KJ,aBiK->aBiJ" [(EVar "LKJ"); (EVar "T2tempab")]));
    SAugSub "tmpab" (EMul (ENum (1) 1) (EEinsum "ki,aBkJ->aBiJ" [(EVar "Lkj"); (EVar "T2tempab")]));
    SAugAdd "Pabij" (ESub (EVar "tmpaa") (ETrans (EVar "tmpaa") [0; 1; 3; 2]));
    SAugAdd "PABIJ" (ESub (EVar "tmpbb") (ETrans (EVar "tmpbb") [0; 1; 3; 2]));
    SAugAdd "PaBiJ" (EVar "tmpab");
    SAssign (PVar "T2tempaa") (EAdd (EVar "T2aa") (EEinsum "ci,dj->cdij" [(EVar "T1a"); (EVar "T1a")]));
    SAssign (PVar "T2tempab") (EAdd (EVar "T2ab") (EEinsum "ci,dj->cdij" [(EVar "T1a"); (EVar "T1b")]));
    SAssign (PVar "T2tempbb") (EAdd (EVar "T2bb") (EEinsum "ci,dj->cdij" [(EVar "T1b"); (EVar "T1b")]));
    SAssign (PVar "LToo") (EEinsum "klcd,cdij->klij" [(EVar "L2aa"); (EVar "T2tempaa")]);
    SAssign (PVar "LTOO") (EEinsum "klcd,cdij->klij" [(EVar "L2bb"); (EVar "T2tempbb")]);
    SAssign (PVar "LToO") (EEinsum "kLcD,cDiJ->kLiJ" [(EVar "L2ab"); (EVar "T2tempab")]);
    SAugAdd "LToO" (EEinsum "kLdC,dCiJ->kLiJ" [(EVar "L2ab"); (EVar "T2ab")]);
    SAssign (PVar "LTOo") (ENeg (EEinsum "lKdC,dCiJ->KliJ" [(EVar "L2ab"); (EVar "T2ab")]));
    SAugSub "LTOo" (EEinsum "lKcD,cDiJ->KliJ" [(EVar "L2ab"); (EVar "T2tempab")]);
    SAssign (PVar "tmpaa") (EEinsum "klij,ak->alij" [(EVar "LToo"); (EVar "T1a")]);
    SAssign (PVar "tmpaa") (EMul (ENum (1) 2) (EEinsum "alij,bl->abij" [(EVar "tmpaa"); (EVar "T1a")]));
    SAssign (PVar "tmpbb") (EEinsum "klij,ak->alij" [(EVar "LTOO"); (EVar "T1b")]);
    SAssign (PVar "tmpbb") (EMul (ENum (1) 2) (EEinsum "alij,bl->abij" [(EVar "tmpbb"); (EVar "T1b")]));
    SAssign (PVar "tmpab1") (EEinsum "kLiJ,ak->aLiJ" [(EVar "LToO"); (EVar "T1a")]);
    SAssign (PVar "tmpab2") (EEinsum "KliJ,AK->AliJ" [(EVar "LTOo"); (EVar "T1b")]);
    SAssign (PVar "tmpab") (EMul (ENum (1) 2) (EEinsum "aLiJ,BL->aBiJ" [(EVar "tmpab1"); (EVar "T1b")]));
    SAugSub "tmpab" (EMul (ENum (1) 2) (EEinsum "BliJ,al->aBiJ" [(EVar "tmpab2"); (EVar "T1a")]));
    SAugAdd "Pabij" (ESub (EVar "tmpaa") (ETrans (EVar "tmpaa") [1; 0; 2; 3]));
    SAugAdd "PABIJ" (ESub (EVar "tmpbb") (ETrans (EVar "tmpbb") [1; 0; 2; 3]));
    SAugAdd "PaBiJ" (EVar "tmpab");
    SAssign (PVar "Looov") (EEinsum "klcd,ci->klid" [(EVar "L2aa"); (EVar "T1a")]);
    SAssign (PVar "LOOOV") (EEinsum "klcd,ci->klid" [(EVar "L2bb"); (EVar "T1b")]);
    SAssign (PVar "LoOoV") (EEinsum "kLcD,ci->kLiD" [(EVar "L2ab"); (EVar "T1a")]);
    SAssign (PVar "LoOOv") (ENeg (EEinsum "kLdC,CI->kLId" [(EVar "L2ab"); (EVar "T1b")]));
    SAssign (PVar "Loooo") (EEinsum "klid,dj->klij" [(EVar "Looov"); (EVar "T1a")]);
    SAugSub "Loooo" (ETrans (EVar "Loooo") [0; 1; 3; 2]);
    SAssign (PVar "LOOOO") (EEinsum "klid,dj->klij" [(EVar "LOOOV"); (EVar "T1b")]);
    SAugSub "LOOOO" (ETrans (EVar "LOOOO") [0; 1; 3; 2]);
    SAssign (PVar "LoOoO") (EEinsum "kLiD,DJ->kLiJ" [(EVar "LoOoV"); (EVar "T1b")]);
    SAugSub "LoOoO" (EEinsum "kLJd,di->kLiJ" [(EVar "LoOOv"); (EVar "T1a")]);
    SAugAdd "Pabij" (EMul (ENum (1) 2) (EEinsum "klij,abkl->abij" [(EVar "Loooo"); (EVar "T2tempaa")]));
    SAugAdd "PABIJ" (EMul (ENum (1) 2) (EEinsum "klij,abkl->abij" [(EVar "LOOOO"); (EVar "T2tempbb")]));
    SAugAdd "PaBiJ" (EMul (ENum (1) 2) (EEinsum "kLiJ,aBkL->aBiJ" [(EVar "LoOoO"); (EVar "T2tempab")]));
    SAugAdd "PaBiJ" (EMul (ENum (1) 2) (EEinsum "lKiJ,aBlK->aBiJ" [(EVar "LoOoO"); (EVar "T2ab")]));
    SAssign (PVar "Lalid") (EEinsum "klcd,ak,ci->alid" [(EVar "L2aa"); (EVar "T1a"); (EVar "T1a")]);
    SAssign (PVar "LALID") (EEinsum "klcd,ak,ci->alid" [(EVar "L2bb"); (EVar "T1b"); (EVar "T1b")]);
    SAssign (PVar "LaLiD") (EEinsum "kLcD,ak,ci->aLiD" [(EVar "L2ab"); (EVar "T1a"); (EVar "T1a")]);
    SAssign (PVar "LAlId") (EEinsum "lKdC,AK,CI->AlId" [(EVar "L2ab"); (EVar "T1b"); (EVar "T1b")]);
    SAssign (PVar "LaLId") (ENeg (EEinsum "kLdC,ak,CI->aLId" [(EVar "L2ab"); (EVar "T1a"); (EVar "T1b")]));
    SAssign (PVar "LAliD") (ENeg (EEinsum "lKcD,AK,ci->AliD" [(EVar "L2ab"); (EVar "T1b"); (EVar "T1a")]));
    SAssign (PVar "tmpaa") (EEinsum "alid,bdjl->abij" [(EVar "Lalid"); (EVar "T2aa")]);
    SAugAdd "tmpaa" (EEinsum "aLiD,bDjL->abij" [(EVar "LaLiD"); (EVar "T2ab")]);
    SAssign (PVar "tmpbb") (EEinsum "alid,bdjl->abij" [(EVar "LALID"); (EVar "T2bb")]);
    SAugAdd "tmpbb" (EEinsum "AlId,dBlJ->ABIJ" [(EVar "LAlId"); (EVar "T2ab")]);
    SAssign (PVar "tmpab") (EEinsum "alid,dBlJ->aBiJ" [(EVar "Lalid"); (EVar "T2ab")]);
    SAugAdd "tmpab" (EEinsum "aLiD,BDJL->aBiJ" [(EVar "LaLiD"); (EVar "T2bb")]);
    SAugAdd "tmpab" (EEinsum "aLJd,dBiL->aBiJ" [(EVar "LaLId"); (EVar "T2ab")]);
    SAugAdd "tmpab" (EEinsum "BliD,aDlJ->aBiJ" [(EVar "LAliD"); (EVar "T2ab")]);
    SAugAdd "tmpab" (EEinsum "BlJd,adil->aBiJ" [(EVar "LAlId"); (EVar "T2aa")]);
    SAugAdd "tmpab" (EEinsum "BLJD,aDiL->aBiJ" [(EVar "LALID"); (EVar "T2ab")]);
    SAugSub "Pabij" (EVar "tmpaa");
    SAugAdd "Pabij" (EAdd (ETrans (EVar "tmpaa") [0; 1; 3; 2]) (ETrans (EVar "tmpaa") [1; 0; 2; 3]));
    SAugSub "Pabij" (ETrans (EVar "tmpaa") [1; 0; 3; 2]);
    SAugSub "PABIJ" (EVar "tmpbb");
    SAugAdd "PABIJ" (EAdd (ETrans (EVar "tmpbb") [0; 1; 3; 2]) (ETrans (EVar "tmpbb") [1; 0; 2; 3]));
    SAugSub "PABIJ" (ETrans (EVar "tmpbb") [1; 0; 3; 2]);
    SAugSub "PaBiJ" (EVar "tmpab");
    SReturn (ETuple [(EVar "Pabij"); (EVar "PABIJ"); (EVar "PaBiJ")]) ].

(** cqcpy/cc_equations.py, lines 3096-3099 *)
Definition py_rccsd_2rdm_ciab : fundef :=
  FunDef ["T1"; "T2"; "L1"; "L2"] []
  [ SAssign (PVar "Pciab") (EEinsum "jiab,cj->ciab" [(EVar "L2"); (EVar "T1")]);
    SReturn (EVar "Pciab") ].

(** cqcpy/cc_equations.py, lines 3102-3104 *)
Definition py_rccsd_2rdm_jkai : fundef :=
  FunDef ["T1"; "T2"; "L1"; "L2"] []
  [ SAssign (PVar "Pjkai") (ENeg (EEinsum "jkab,bi->jkai" [(EVar "L2"); (EVar "T1")]));
    SReturn (EVar "Pjkai") ].

(** cqcpy/cc_equations.py, lines 3107-3110 *)
Definition py_rccsd_2rdm_cdab : fundef :=
  FunDef ["T1"; "T2"; "L1"; "L2"] []
  [ SAssign (PVar "T2temp") (EAdd (EVar "T2") (EEinsum "ci,dj->cdij" [(EVar "T1"); (EVar "T1")]));
    SAssign (PVar "Pcdab") (EEinsum "ijab,cdij->cdab" [(EVar "L2"); (EVar "T2temp")]);
    SReturn (EVar "Pcdab") ].

(** cqcpy/cc_equations.py, lines 3113-3117 *)
Definition py_rccsd_2rdm_bjai : fundef :=
  FunDef ["T1"; "T2"; "L1"; "L2"] []
  [ SAssign (PVar "T2temp") (EAdd (EVar "T2") (EEinsum "bk,ci->bcki" [(EVar "T1"); (EVar "T1")]));
    SAssign (PVar "Pbjai") (ENeg (EEinsum "kJaC,bCkI->bJaI" [(EVar "L2"); (EVar "T2temp")]));
    SReturn (EVar "Pbjai") ].

(** cqcpy/cc_equations.py, lines 3120-3126 *)
Definition py_rccsd_2rdm_bjia : fundef :=
  FunDef ["T1"; "T2"; "L1"; "L2"] []
  [ SAssign (PVar "Pbjia") (EEinsum "bi,ja->bjia" [(EVar "T1"); (EVar "L1")]);
    SAssign (PVar "T2temp") (EAdd (ESub (EVar "T2") (ETrans (EVar "T2") [0; 1; 3; 2])) (EEinsum "bk,ci->bcki" [(EVar "T1"); (EVar "T1")]));
    SAugSub "Pbjia" (EEinsum "kjca,bcki->bjia" [(EVar "L2"); (EVar "T2temp")]);
    SAugSub "Pbjia" (EEinsum "kjac,bcik->bjia" [(ESub (EVar "L2") (ETrans (EVar "L2") [0; 1; 3; 2])); (EVar "T2")]);
    SReturn (EVar "Pbjia") ].

(** cqcpy/cc_equations.py, lines 3129-3132 *)
Definition py_rccsd_2rdm_klij : fundef :=
  FunDef ["T1"; "T2"; "L1"; "L2"] []
  [ SAssign (PVar "T2temp") (EAdd (EVar "T2") (EEinsum "ci,dj->cdij" [(EVar "T1"); (EVar "T1")]));
    SAssign (PVar "Pklij") (EEinsum "klab,abij->klij" [(EVar "L2"); (EVar "T2temp")]);
    SReturn (EVar "Pklij") ].

(** cqcpy/cc_equations.py, lines 3135-3154 *)
Definition py_rccsd_2rdm_bcai : fundef :=
  FunDef ["T1"; "T2"; "L1"; "L2"] []
  [ SAssign (PVar "T2temp") (EAdd (EVar "T2") (EEinsum "ci,dj->cdij" [(EVar "T1"); (EVar "T1")]));
    SAssign (PVar "Pbcai") (EEinsum "ja,bcji->bcai" [(EVar "L1"); (EVar "T2temp")]);
    SAssign (PVar "LT") (EEinsum "jlad,bdjl->ba" [(ESub (EVar "L2") (ETrans (EVar "L2") [0; 1; 3; 2])); (ESub (EVar "T2") (ETrans (EVar "T2") [0; 1; 3; 2]))]);
    SAugAdd "LT" (EMul (ENum (2) 0) (EEinsum "jlad,bdjl->ba" [(EVar "L2"); (EVar "T2")]));
    SAugAdd "Pbcai" (EMul (ENum (1) 1) (EEinsum "ba,ci->bcai" [(EVar "LT"); (EVar "T1")]));
    SAssign (PVar "LTtempab1") (EEinsum "jkad,dcki->jcai" [(ESub (EVar "L2") (ETrans (EVar "L2") [0; 1; 3; 2])); (EVar "T2")]);
    SAugAdd "LTtempab1" (EEinsum "jkad,cdik->jcai" [(EVar "L2"); (ESub (EVar "T2") (ETrans (EVar "T2") [0; 1; 3; 2]))]);
    SAssign (PVar "LTtempab2") (EEinsum "kjad,cdki->jcai" [(EVar "L2"); (EVar "T2")]);
    SAugAdd "Pbcai" (EEinsum "jCaI,bj->bCaI" [(EVar "LTtempab1"); (EVar "T1")]);
    SAugSub "Pbcai" (EEinsum "JbaI,CJ->bCaI" [(EVar "LTtempab2"); (EVar "T1")]);
    SAugSub "Pbcai" (EEinsum "jkad,bcjk,di->bcai" [(EVar "L2"); (EVar "T2temp"); (EVar "T1")]);
    SReturn (EVar "Pbcai") ].

(** cqcpy/cc_equations.py, lines 3157-3185 *)
Definition py_rccsd_2rdm_kaij : fundef :=
  FunDef ["T1"; "T2"; "L1"; "L2"] []
  [ SAssign (PVar "T2temp") (EAdd (EVar "T2") (EEinsum "ci,dj->cdij" [(EVar "T1"); (EVar "T1")]));
    SAssign (PVar "T2aa") (ESub (EVar "T2") (ETrans (EVar "T2") [0; 1; 3; 2]));
    SAssign (PVar "Pkaij") (ENeg (EEinsum "kb,baij->kaij" [(EVar "L1"); (EVar "T2temp")]));
    SAssign (PVar "LTo") (EEinsum "klcd,cdil->ki" [(ESub (EVar "L2") (ETrans (EVar "L2") [0; 1; 3; 2])); (ESub (EVar "T2") (ETrans (EVar "T2") [0; 1; 3; 2]))]);
    SAugAdd "LTo" (EMul (ENum (2) 0) (EEinsum "klcd,cdil->ki" [(EVar "L2"); (EVar "T2")]));
    SAssign (PVar "tmp") (EMul (ENeg (ENum (1) 1)) (EEinsum "ki,aj->kaij" [(EVar "LTo"); (EVar "T1")]));
    SAugAdd "Pkaij" (EVar "tmp");
    SAssign (PVar "Lklid") (EEinsum "klcd,ci->klid" [(ESub (EVar "L2") (ETrans (EVar "L2") [0; 1; 3; 2])); (EVar "T1")]);
    SAssign (PVar "LkLiD") (EEinsum "klcd,ci->klid" [(EVar "L2"); (EVar "T1")]);
    SAssign (PVar "LkLId") (ENeg (EEinsum "kldc,ci->klid" [(EVar "L2"); (EVar "T1")]));
    SAssign (PVar "tmp") (ENeg (EEinsum "klid,dalj->kaij" [(EVar "Lklid"); (EVar "T2")]));
    SAugSub "tmp" (EEinsum "kljd,dail->kaij" [(EVar "LkLId"); (EVar "T2")]);
    SAugSub "tmp" (EEinsum "klid,adjl->kaij" [(EVar "LkLiD"); (EVar "T2aa")]);
    SAssign (PVar "tmp") (ENeg (EEinsum "klid,adjl->kaij" [(EVar "LkLiD"); (EVar "T2aa")]));
    SAugSub "tmp" (EEinsum "klid,adjl->kaij" [(EVar "Lklid"); (EVar "T2")]);
    SAugSub "tmp" (EEinsum "kljd,adli->kaij" [(EVar "LkLId"); (EVar "T2")]);
    SAugAdd "Pkaij" (EVar "tmp");
    SAugAdd "Pkaij" (EEinsum "klbd,bdij,al->kaij" [(EVar "L2"); (EVar "T2temp"); (EVar "T1")]);
    SReturn (EVar "Pkaij") ].

(** cqcpy/cc_equations.py, lines 3188-3272 *)
Definition py_rccsd_2rdm_abij : fundef :=
  FunDef ["T1"; "T2"; "L1"; "L2"] []
  [ SAssign (PVar "T2a") (ESub (EVar "T2") (ETrans (EVar "T2") [0; 1; 3; 2]));
    SAssign (PVar "L2a") (ESub (EVar "L2") (ETrans (EVar "L2") [0; 1; 3; 2]));
    SAssign (PVar "Pabij") (ECopy (EVar "T2"));
    SAugAdd "Pabij" (EEinsum "ai,bj->abij" [(EVar "T1"); (EVar "T1")]);
    SAssign (PVar "LTki") (EEinsum "kc,ci->ki" [(EVar "L1"); (EVar "T1")]);
    SAssign (PVar "tmp") (ENeg (EEinsum "ki,abkj->abij" [(EVar "LTki"); (EVar "T2")]));
    SAugSub "tmp" (EEinsum "kj,abik->abij" [(EVar "LTki"); (EVar "T2")]);
    SAugAdd "Pabij" (EVar "tmp");
    SAssign (PVar "LTac") (EEinsum "kc,ak->ac" [(EVar "L1"); (EVar "T1")]);
    SAssign (PVar "tmp") (ENeg (EEinsum "ac,cbij->abij" [(EVar "LTac"); (EVar "T2")]));
    SAugSub "tmp" (EEinsum "bc,acij->abij" [(EVar "LTac"); (EVar "T2")]);
    SAugAdd "Pabij" (EVar "tmp");
    SAssign (PVar "T2tempa") (ESub (EVar "T2a") (EEinsum "bk,cj->bcjk" [(EVar "T1"); (EVar "T1")]));
    SAssign (PVar "LTbj") (EEinsum "kc,bcjk->bj" [(EVar "L1"); (EVar "T2tempa")]);
    SAugAdd "LTbj" (EEinsum "kc,bcjk->bj" [(EVar "L1"); (EVar "T2")]);
    SAugAdd "Pabij" (EEinsum "ai,bj->abij" [(EVar "LTbj"); (EVar "T1")]);
    SAugAdd "Pabij" (EEinsum "bj,ai->abij" [(EVar "LTbj"); (EVar "T1")]);
    SAssign (PVar "LToO") (EEinsum "klcd,cdij->klij" [(EVar "L2"); (EVar "T2")]);
    SAugAdd "Pabij" (EEinsum "klij,abkl->abij" [(EVar "LToO"); (EVar "T2")]);
    SAssign (PVar "LTlida") (EEinsum "klcd,caki->lida" [(EVar "L2a"); (EVar "T2a")]);
    SAugAdd "LTlida" (EEinsum "lkdc,acik->lida" [(EVar "L2"); (EVar "T2")]);
    SAssign (PVar "LTliDA") (EEinsum "lkcd,caik->lida" [(EVar "L2"); (EVar "T2")]);
    SAssign (PVar "LTlIdA") (EEinsum "klcd,caki->lida" [(EVar "L2a"); (EVar "T2")]);
    SAugAdd "LTlIdA" (EEinsum "lkdc,caki->lida" [(EVar "L2"); (EVar "T2a")]);
    SAssign (PVar "tmp") (EMul (ENum (1) 1) (EEinsum "lida,dblj->abij" [(EVar "LTlida"); (EVar "T2")]));
    SAugAdd "tmp" (EMul (ENum (1) 1) (EEinsum "lida,bdjl->abij" [(EVar "LTlIdA"); (EVar "T2a")]));
    SAugAdd "tmp" (EMul (ENum (1) 1) (EEinsum "ljda,dbil->abij" [(EVar "LTliDA"); (EVar "T2")]));
    SAugAdd "tmp" (EMul (ENum (1) 1) (EEinsum "lidb,adlj->abij" [(EVar "LTliDA"); (EVar "T2")]));
    SAugAdd "tmp" (EMul (ENum (1) 1) (EEinsum "ljdb,adil->abij" [(EVar "LTlIdA"); (EVar "T2a")]));
    SAugAdd "tmp" (EMul (ENum (1) 1) (EEinsum "ljdb,adil->abij" [(EVar "LTlida"); (EVar "T2")]));
    SAugAdd "Pabij" (EVar "tmp");
    SAssign (PVar "T2tempab") (EAdd (EVar "T2") (EEinsum "cj,ai->acij" [(EVar "T1"); (EVar "T1")]));
    SAssign (PVar "Lcb") (EEinsum "klcd,bdkl->cb" [(EVar "L2a"); (EVar "T2a")]);
    SAugAdd "Lcb" (EMul (ENum (2) 0) (EEinsum "klcd,bdkl->cb" [(EVar "L2"); (EVar "T2")]));
    SAssign (PVar "tmp") (EMul (ENeg (ENum (1) 1)) (EEinsum "cb,acij->abij" [(EVar "Lcb"); (EVar "T2tempab")]));
    SAugSub "tmp" (EMul (ENum (1) 1) (EEinsum "ca,cbij->abij" [(EVar "Lcb"); (EVar "T2tempab")]));
    SAugAdd "Pabij" (EVar "tmp");
    SAssign (PVar "Lkj") (EEinsum "klcd,cdjl->kj" [(EVar "L2a"); (EVar "T2a")]);
    SAugAdd "Lkj" (EMul (ENum (2) 0) (EEinsum "klcd,cdjl->kj" [(EVar "L2"); (EVar "T2")]));
    SAssign (PVar "tmp") (EMul (ENeg (ENum (1) 1)) (EEinsum "kj,abik->abij" [(EVar "Lkj"); (EVar "T2tempab")]));
    SAugSub "tmp" (EMul (ENum (1) 1) (EEinsum "ki,abkj->abij" [(EVar "Lkj"); (EVar "T2tempab")]));
    SAugAdd "Pabij" (EVar "tmp");
    SAssign (PVar "T2tempab") (EAdd (EVar "T2") (EEinsum "ci,dj->cdij" [(EVar "T1"); (EVar "T1")]));
    SAssign (PVar "LToO") (EEinsum "klcd,cdij->klij" [(EVar "L2"); (EVar "T2tempab")]);
    SAugAdd "LToO" (EEinsum "kldc,dcij->klij" [(EVar "L2"); (EVar "T2")]);
    SAssign (PVar "LTOo") (ENeg (EEinsum "lkdc,dcij->klij" [(EVar "L2"); (EVar "T2")]));
    SAugSub "LTOo" (EEinsum "lkcd,cdij->klij" [(EVar "L2"); (EVar "T2tempab")]);
    SAssign (PVar "tmp1") (EEinsum "klij,ak->alij" [(EVar "LToO"); (EVar "T1")]);
    SAssign (PVar "tmp2") (EEinsum "klij,ak->alij" [(EVar "LTOo"); (EVar "T1")]);
    SAssign (PVar "tmp") (EMul (ENum (1) 2) (EEinsum "alij,bl->abij" [(EVar "tmp1"); (EVar "T1")]));
    SAugSub "tmp" (EMul (ENum (1) 2) (EEinsum "blij,al->abij" [(EVar "tmp2"); (EVar "T1")]));
    SAugAdd "Pabij" (EVar "tmp");
    SAssign (PVar "LoOoV") (EEinsum "klcd,ci->klid" [(EVar "L2"); (EVar "T1")]);
    SAssign (PVar "LoOOv") (ENeg (EEinsum "kldc,ci->klid" [(EVar "L2"); (EVar "T1")]));
    SAssign (PVar "LoOoO") (EEinsum "klid,dj->klij" [(EVar "LoOoV"); (EVar "T1")]);
    SAugSub "LoOoO" (EEinsum "kljd,di->klij" [(EVar "LoOOv"); (EVar "T1")]);
    SAugAdd "Pabij" (EMul (ENum (1) 2) (EEinsum "klij,abkl->abij" [(EVar "LoOoO"); (EVar "T2tempab")]));
    SAugAdd "Pabij" (EMul (ENum (1) 2) (EEinsum "lkij,ablk->abij" [(EVar "LoOoO"); (EVar "T2")]));
    SAssign (PVar "Lalid") (EEinsum "klcd,ak,ci->alid" [(EVar "L2a"); (EVar "T1"); (EVar "T1")]);
    SAssign (PVar "LaLiD") (EEinsum "klcd,ak,ci->alid" [(EVar "L2"); (EVar "T1"); (EVar "T1")]);
    SAssign (PVar "LaLId") (ENeg (EEinsum "kldc,ak,ci->alid" [(EVar "L2"); (EVar "T1"); (EVar "T1")]));
    SAssign (PVar "tmp") (EEinsum "alid,bdjl->abij" [(EVar "LaLiD"); (EVar "T2a")]);
    SAugAdd "tmp" (EEinsum "bljd,adil->abij" [(EVar "LaLiD"); (EVar "T2a")]);
    SAugAdd "tmp" (EEinsum "alid,dblj->abij" [(EVar "Lalid"); (EVar "T2")]);
    SAugAdd "tmp" (EEinsum "aljd,dbil->abij" [(EVar "LaLId"); (EVar "T2")]);
    SAugAdd "tmp" (EEinsum "blid,adlj->abij" [(EVar "LaLId"); (EVar "T2")]);
    SAugAdd "tmp" (EEinsum "bljd,adil->abij" [(EVar "Lalid"); (EVar "T2")]);
    SAugSub "Pabij" (EVar "tmp");
    SReturn (EVar "Pabij") ].

(** cqcpy/cc_equations.py, lines 3275-3276 *)
Definition py_ccsd_pt_simple : fundef :=
  FunDef ["F"; "I"; "eo"; "ev"; "T1"; "T2"] []
  [ SRaise "ccsd(T) is not implemented" ].

(** All functions by their Python names. *)
Definition cc_prog : program :=
  [ ("cc_energy_d", py_cc_energy_d);
    ("cc_energy_s1", py_cc_energy_s1);
    ("cc_energy_s2", py_cc_energy_s2);
    ("cc_energy_s2_a", py_cc_energy_s2_a);
    ("cc_energy", py_cc_energy);
    ("mp2_energy", py_mp2_energy);
    ("ucc_energy", py_ucc_energy);
    ("rcc_energy", py_rcc_energy);
    ("ump2_energy", py_ump2_energy);
    ("_S_S", py__S_S);
    ("_S_D", py__S_D);
    ("_S_SS", py__S_SS);
    ("_S_SD", py__S_SD);
    ("_S_SSS", py__S_SSS);
    ("_D_S", py__D_S);
    ("_D_D", py__D_D);
    ("_D_D_ladder", py__D_D_ladder);
    ("_D_D_ring", py__D_D_ring);
    ("_D_SS", py__D_SS);
    ("_D_SD", py__D_SD);
    ("_D_DD", py__D_DD);
    ("_D_DD_ladder", py__D_DD_ladder);
    ("_D_DD_ring", py__D_DD_ring);
    ("_D_SSS", py__D_SSS);
    ("_D_SSD", py__D_SSD);
    ("_D_SSSS", py__D_SSSS);
    ("_Stanton", py__Stanton);
    ("_Stanton_ccd", py__Stanton_ccd);
    ("_u_Stanton", py__u_Stanton);
    ("_r_Stanton", py__r_Stanton);
    ("lccd_simple", py_lccd_simple);
    ("lccsd_simple", py_lccsd_simple);
    ("ccd_simple", py_ccd_simple);
    ("ccd_ladder_simple", py_ccd_ladder_simple);
    ("ccd_ring_simple", py_ccd_ring_simple);
    ("ccsd_simple", py_ccsd_simple);
    ("ccsd_stanton", py_ccsd_stanton);
    ("uccsd_stanton", py_uccsd_stanton);
    ("rccsd_stanton", py_rccsd_stanton);
    ("ccd_stanton", py_ccd_stanton);
    ("_LS_TS", py__LS_TS);
    ("_u_LS_TS", py__u_LS_TS);
    ("_r_LS_TS", py__r_LS_TS);
    ("_LS_LS", py__LS_LS);
    ("_LS_LSTS", py__LS_LSTS);
    ("_LS_LSTD", py__LS_LSTD);
    ("_LS_LSTSS", py__LS_LSTSS);
    ("_LS_LD", py__LS_LD);
    ("_LS_LDTS", py__LS_LDTS);
    ("_LS_LDTD", py__LS_LDTD);
    ("_LS_LDTSS", py__LS_LDTSS);
    ("_LS_LDTSD", py__LS_LDTSD);
    ("_LS_LDTSSS", py__LS_LDTSSS);
    ("_LD_LS", py__LD_LS);
    ("_LD_LSTS", py__LD_LSTS);
    ("_LD_LD", py__LD_LD);
    ("_LD_LD_ladder", py__LD_LD_ladder);
    ("_LD_LDTS", py__LD_LDTS);
    ("_LD_LDTD", py__LD_LDTD);
    ("_LD_LDTD_ladder", py__LD_LDTD_ladder);
    ("_LD_LDTSS", py__LD_LDTSS);
    ("lambda_int", py_lambda_int);
    ("_Lambda_Stanton", py__Lambda_Stanton);
    ("_Lambda_opt", py__Lambda_opt);
    ("_Lambda_opt_int", py__Lambda_opt_int);
    ("_uccsd_Lambda_opt", py__uccsd_Lambda_opt);
    ("_rccsd_Lambda_opt", py__rccsd_Lambda_opt);
    ("ccd_lambda_simple", py_ccd_lambda_simple);
    ("ccsd_lambda_opt", py_ccsd_lambda_opt);
    ("ccsd_lambda_stanton", py_ccsd_lambda_stanton);
    ("ccsd_lambda_opt_int", py_ccsd_lambda_opt_int);
    ("uccsd_lambda_opt", py_uccsd_lambda_opt);
    ("rccsd_lambda_opt", py_rccsd_lambda_opt);
    ("ccsd_lambda_simple", py_ccsd_lambda_simple);
    ("ccsd_1rdm_ba", py_ccsd_1rdm_ba);
    ("ccsd_1rdm_ba_opt", py_ccsd_1rdm_ba_opt);
    ("ccsd_1rdm_ji", py_ccsd_1rdm_ji);
    ("ccsd_1rdm_ji_opt", py_ccsd_1rdm_ji_opt);
    ("ccsd_1rdm_ai", py_ccsd_1rdm_ai);
    ("ccsd_2rdm_cdab", py_ccsd_2rdm_cdab);
    ("ccsd_2rdm_ciab", py_ccsd_2rdm_ciab);
    ("ccsd_2rdm_ciab_opt", py_ccsd_2rdm_ciab_opt);
    ("ccsd_2rdm_bcai", py_ccsd_2rdm_bcai);
    ("ccsd_2rdm_bjai", py_ccsd_2rdm_bjai);
    ("ccsd_2rdm_abij", py_ccsd_2rdm_abij);
    ("ccsd_2rdm_jkai", py_ccsd_2rdm_jkai);
    ("ccsd_2rdm_jkai_opt", py_ccsd_2rdm_jkai_opt);
    ("ccsd_2rdm_kaij", py_ccsd_2rdm_kaij);
    ("ccsd_2rdm_klij", py_ccsd_2rdm_klij);
    ("ccsd_1rdm_ai_opt", py_ccsd_1rdm_ai_opt);
    ("ccsd_2rdm_cdab_opt", py_ccsd_2rdm_cdab_opt);
    ("ccsd_2rdm_bcai_opt", py_ccsd_2rdm_bcai_opt);
    ("ccsd_2rdm_bjai_opt", py_ccsd_2rdm_bjai_opt);
    ("ccsd_2rdm_abij_opt", py_ccsd_2rdm_abij_opt);
    ("ccsd_2rdm_kaij_opt", py_ccsd_2rdm_kaij_opt);
    ("ccsd_2rdm_klij_opt", py_ccsd_2rdm_klij_opt);
    ("uccsd_1rdm_ba", py_uccsd_1rdm_ba);
    ("uccsd_1rdm_ji", py_uccsd_1rdm_ji);
    ("uccsd_1rdm_ai", py_uccsd_1rdm_ai);
    ("rccsd_1rdm_ba", py_rccsd_1rdm_ba);
    ("rccsd_1rdm_ji", py_rccsd_1rdm_ji);
    ("rccsd_1rdm_ai", py_rccsd_1rdm_ai);
    ("uccsd_2rdm_ciab", py_uccsd_2rdm_ciab);
    ("uccsd_2rdm_jkai", py_uccsd_2rdm_jkai);
    ("uccsd_2rdm_cdab", py_uccsd_2rdm_cdab);
    ("uccsd_2rdm_bjai", py_uccsd_2rdm_bjai);
    ("uccsd_2rdm_klij", py_uccsd_2rdm_klij);
    ("uccsd_2rdm_bcai", py_uccsd_2rdm_bcai);
    ("uccsd_2rdm_kaij", py_uccsd_2rdm_kaij);
    ("uccsd_2rdm_abij", py_uccsd_2rdm_abij);
    ("rccsd_2rdm_ciab", py_rccsd_2rdm_ciab);
    ("rccsd_2rdm_jkai", py_rccsd_2rdm_jkai);
    ("rccsd_2rdm_cdab", py_rccsd_2rdm_cdab);
    ("rccsd_2rdm_bjai", py_rccsd_2rdm_bjai);
    ("rccsd_2rdm_bjia", py_rccsd_2rdm_bjia);
    ("rccsd_2rdm_klij", py_rccsd_2rdm_klij);
    ("rccsd_2rdm_bcai", py_rccsd_2rdm_bcai);
    ("rccsd_2rdm_kaij", py_rccsd_2rdm_kaij);
    ("rccsd_2rdm_abij", py_rccsd_2rdm_abij);
    ("ccsd_pt_simple", py_ccsd_pt_simple) ].
