(** gmakeCfromT and makeCfromT, ci_utils.py:418-597 and 600-1269.  Generated by
    tools/gen_cfromt.py from the Python text: every loop nest is one definition,
    statement by statement.

    - [None] is an exception (failed assertion, [raise], missing element of a
      list in [index], bad index of an array).
    - [s, x = d.excite(i, a)] gives a result [r_x]; testing [x is None] is a
      match on it.  A test of a variable already known not to be None is left
      out.
    - [x/d] is [x * inv d], 0.5 is [inv 2]: [inv d] stands for the inverse of the
      number d.
    - C is the list of the entries of the array C; the float zeros of numpy mean
      that only real amplitudes are modelled. *)
From Coq Require Import List Bool Arith ZArith.
From Verif Require Import Scalar Tensor NpModel CIModel.
Import ListNotations.

(** [range(lo, hi)] and [enumerate(l)] *)
Definition range (lo hi : nat) : list nat := seq lo (hi - lo).
Definition enumerate {A} (l : list A) : list (nat * A) := combine (seq 0 (length l)) l.
(** [for x in l: ...] updating C *)
Fixpoint each {S A} (l : list A) (body : A -> S -> option S) (C : S) : option S :=
  match l with
  | [] => Some C
  | x :: l' => let? C := body x C in each l' body C
  end.

Section U.
  Variable K : cring.
  Local Open Scope K_scope.
  Variable inv : nat -> K.
  Variables (noa nva nob nvb : nat) (basis : list upair) (refa refb : dstring).
  Variables T1a T1b T2aa T2ab T2bb : tensor K.

  (** ci_utils.py:626-631 *)
  Definition u_T1a (C : list K) : option (list K) :=
    each (range 0 noa) (fun i C =>
      each (range 0 nva) (fun a C =>
        let? r_astr := excite refa i (a + noa)%nat in
        match r_astr with None => Some C | Some (s, astr) =>
        let? idx := index upair_eq (astr, refb) basis in
        let? x0 := tget K T1a [a; i] in
        add_at K C idx (zK s * x0) end) C) C.

  (** ci_utils.py:633-638 *)
  Definition u_T1b (C : list K) : option (list K) :=
    each (range 0 nob) (fun i C =>
      each (range 0 nvb) (fun a C =>
        let? r_bstr := excite refb i (a + nob)%nat in
        match r_bstr with None => Some C | Some (s, bstr) =>
        let? idx := index upair_eq (refa, bstr) basis in
        let? x0 := tget K T1b [a; i] in
        add_at K C idx (zK s * x0) end) C) C.

  (** ci_utils.py:642-652 *)
  Definition u_T2aa (C : list K) : option (list K) :=
    each (range 0 noa) (fun i C =>
      each (range (i + 1)%nat noa) (fun j C =>
        each (range 0 nva) (fun a C =>
          each (range (a + 1)%nat nva) (fun b C =>
            let? r_astr := excite refa i (a + noa)%nat in
            match r_astr with None => Some C | Some (s1, astr) =>
            let? r_astr := excite astr j (b + noa)%nat in
            match r_astr with None => Some C | Some (s2, astr) =>
            let? idx := index upair_eq (astr, refb) basis in
            let? x0 := tget K T2aa [a; b; i; j] in
            add_at K C idx (zK s1 * zK s2 * x0) end end) C) C) C) C.

  (** ci_utils.py:654-664 *)
  Definition u_T2bb (C : list K) : option (list K) :=
    each (range 0 nob) (fun i C =>
      each (range (i + 1)%nat nob) (fun j C =>
        each (range 0 nvb) (fun a C =>
          each (range (a + 1)%nat nvb) (fun b C =>
            let? r_bstr := excite refb i (a + nob)%nat in
            match r_bstr with None => Some C | Some (s1, bstr) =>
            let? r_bstr := excite bstr j (b + nob)%nat in
            match r_bstr with None => Some C | Some (s2, bstr) =>
            let? idx := index upair_eq (refa, bstr) basis in
            let? x0 := tget K T2bb [a; b; i; j] in
            add_at K C idx (zK s1 * zK s2 * x0) end end) C) C) C) C.

  (** ci_utils.py:666-674 *)
  Definition u_T2ab (C : list K) : option (list K) :=
    each (range 0 noa) (fun i C =>
      each (range 0 nob) (fun j C =>
        each (range 0 nva) (fun a C =>
          each (range 0 nvb) (fun b C =>
            let? r_astr := excite refa i (a + noa)%nat in
            let? r_bstr := excite refb j (b + nob)%nat in
            match r_astr with None => Some C | Some (sa, astr) =>
            match r_bstr with None => Some C | Some (sb, bstr) =>
            let? idx := index upair_eq (astr, bstr) basis in
            let? x0 := tget K T2ab [a; b; i; j] in
            add_at K C idx (zK sa * zK sb * x0) end end) C) C) C) C.

  (** ci_utils.py:677-687 *)
  Definition u_T1a_T1a (C : list K) : option (list K) :=
    each (range 0 noa) (fun i C =>
      each (range 0 noa) (fun j C =>
        each (range 0 nva) (fun a C =>
          each (range 0 nva) (fun b C =>
            let? r_astr := excite refa i (a + noa)%nat in
            match r_astr with None => Some C | Some (s1, astr) =>
            let? r_astr := excite astr j (b + noa)%nat in
            match r_astr with None => Some C | Some (s2, astr) =>
            let? idx := index upair_eq (astr, refb) basis in
            let? x0 := tget K T1a [a; i] in
            let? x1 := tget K T1a [b; j] in
            add_at K C idx (inv 2 * zK s1 * zK s2 * x0 * x1) end end) C) C) C) C.

  (** ci_utils.py:689-699 *)
  Definition u_T1b_T1b (C : list K) : option (list K) :=
    each (range 0 nob) (fun i C =>
      each (range 0 nob) (fun j C =>
        each (range 0 nvb) (fun a C =>
          each (range 0 nvb) (fun b C =>
            let? r_bstr := excite refb i (a + nob)%nat in
            match r_bstr with None => Some C | Some (s1, bstr) =>
            let? r_bstr := excite bstr j (b + nob)%nat in
            match r_bstr with None => Some C | Some (s2, bstr) =>
            let? idx := index upair_eq (refa, bstr) basis in
            let? x0 := tget K T1b [a; i] in
            let? x1 := tget K T1b [b; j] in
            add_at K C idx (inv 2 * zK s1 * zK s2 * x0 * x1) end end) C) C) C) C.

  (** ci_utils.py:701-709 *)
  Definition u_T1a_T1b (C : list K) : option (list K) :=
    each (range 0 noa) (fun i C =>
      each (range 0 nob) (fun j C =>
        each (range 0 nva) (fun a C =>
          each (range 0 nvb) (fun b C =>
            let? r_astr := excite refa i (a + noa)%nat in
            let? r_bstr := excite refb j (b + nob)%nat in
            match r_astr with None => Some C | Some (sa, astr) =>
            match r_bstr with None => Some C | Some (sb, bstr) =>
            let? idx := index upair_eq (astr, bstr) basis in
            let? x0 := tget K T1a [a; i] in
            let? x1 := tget K T1b [b; j] in
            add_at K C idx (zK sa * zK sb * x0 * x1) end end) C) C) C) C.

  (** ci_utils.py:712-727 *)
  Definition u_T1a_T2aa (C : list K) : option (list K) :=
    each (range 0 noa) (fun i C =>
      each (range 0 noa) (fun j C =>
        each (range (j + 1)%nat noa) (fun k C =>
          each (range 0 nva) (fun a C =>
            each (range 0 nva) (fun b C =>
              each (range (b + 1)%nat nva) (fun c C =>
                let? r_astr := excite refa i (a + noa)%nat in
                match r_astr with None => Some C | Some (s1, astr) =>
                let? r_astr := excite astr j (b + noa)%nat in
                match r_astr with None => Some C | Some (s2, astr) =>
                let? r_astr := excite astr k (c + noa)%nat in
                match r_astr with None => Some C | Some (s3, astr) =>
                let? idx := index upair_eq (astr, refb) basis in
                let? x0 := tget K T1a [a; i] in
                let? x1 := tget K T2aa [b; c; j; k] in
                add_at K C idx (zK s1 * zK s2 * zK s3 * x0 * x1) end end end) C) C) C) C) C) C.

  (** ci_utils.py:729-742 *)
  Definition u_T1a_T2ab (C : list K) : option (list K) :=
    each (range 0 noa) (fun i C =>
      each (range 0 noa) (fun j C =>
        each (range 0 nob) (fun k C =>
          each (range 0 nva) (fun a C =>
            each (range 0 nva) (fun b C =>
              each (range 0 nvb) (fun c C =>
                let? r_astr := excite refa i (a + noa)%nat in
                match r_astr with None => Some C | Some (s1a, astr) =>
                let? r_astr := excite astr j (b + noa)%nat in
                let? r_bstr := excite refb k (c + nob)%nat in
                match r_astr with None => Some C | Some (s2a, astr) =>
                match r_bstr with None => Some C | Some (sb, bstr) =>
                let? idx := index upair_eq (astr, bstr) basis in
                let? x0 := tget K T1a [a; i] in
                let? x1 := tget K T2ab [b; c; j; k] in
                add_at K C idx (zK s1a * zK s2a * zK sb * x0 * x1) end end end) C) C) C) C) C) C.

  (** ci_utils.py:744-757 *)
  Definition u_T1b_T2aa (C : list K) : option (list K) :=
    each (range 0 nob) (fun i C =>
      each (range 0 noa) (fun j C =>
        each (range (j + 1)%nat noa) (fun k C =>
          each (range 0 nvb) (fun a C =>
            each (range 0 nva) (fun b C =>
              each (range (b + 1)%nat nva) (fun c C =>
                let? r_bstr := excite refb i (a + nob)%nat in
                let? r_astr := excite refa j (b + noa)%nat in
                match r_astr with None => Some C | Some (s1a, astr) =>
                let? r_astr := excite astr k (c + noa)%nat in
                match r_astr with None => Some C | Some (s2a, astr) =>
                match r_bstr with None => Some C | Some (sb, bstr) =>
                let? idx := index upair_eq (astr, bstr) basis in
                let? x0 := tget K T1b [a; i] in
                let? x1 := tget K T2aa [b; c; j; k] in
                add_at K C idx (zK s1a * zK s2a * zK sb * x0 * x1) end end end) C) C) C) C) C) C.

  (** ci_utils.py:759-772 *)
  Definition u_T1a_T2bb (C : list K) : option (list K) :=
    each (range 0 noa) (fun i C =>
      each (range 0 nob) (fun j C =>
        each (range (j + 1)%nat nob) (fun k C =>
          each (range 0 nva) (fun a C =>
            each (range 0 nvb) (fun b C =>
              each (range (b + 1)%nat nvb) (fun c C =>
                let? r_astr := excite refa i (a + noa)%nat in
                let? r_bstr := excite refb j (b + nob)%nat in
                match r_bstr with None => Some C | Some (s1b, bstr) =>
                let? r_bstr := excite bstr k (c + nob)%nat in
                match r_astr with None => Some C | Some (sa, astr) =>
                match r_bstr with None => Some C | Some (s2b, bstr) =>
                let? idx := index upair_eq (astr, bstr) basis in
                let? x0 := tget K T1a [a; i] in
                let? x1 := tget K T2bb [b; c; j; k] in
                add_at K C idx (zK s1b * zK s2b * zK sa * x0 * x1) end end end) C) C) C) C) C) C.

  (** ci_utils.py:774-787 *)
  Definition u_T1b_T2ab (C : list K) : option (list K) :=
    each (range 0 nob) (fun i C =>
      each (range 0 noa) (fun j C =>
        each (range 0 nob) (fun k C =>
          each (range 0 nvb) (fun a C =>
            each (range 0 nva) (fun b C =>
              each (range 0 nvb) (fun c C =>
                let? r_bstr := excite refb i (a + nob)%nat in
                match r_bstr with None => Some C | Some (s1b, bstr) =>
                let? r_astr := excite refa j (b + noa)%nat in
                let? r_bstr := excite bstr k (c + nob)%nat in
                match r_astr with None => Some C | Some (sa, astr) =>
                match r_bstr with None => Some C | Some (s2b, bstr) =>
                let? idx := index upair_eq (astr, bstr) basis in
                let? x0 := tget K T1b [a; i] in
                let? x1 := tget K T2ab [b; c; j; k] in
                add_at K C idx (zK s1b * zK s2b * zK sa * x0 * x1) end end end) C) C) C) C) C) C.

  (** ci_utils.py:789-804 *)
  Definition u_T1b_T2bb (C : list K) : option (list K) :=
    each (range 0 nob) (fun i C =>
      each (range 0 nob) (fun j C =>
        each (range (j + 1)%nat nob) (fun k C =>
          each (range 0 nvb) (fun a C =>
            each (range 0 nvb) (fun b C =>
              each (range (b + 1)%nat nvb) (fun c C =>
                let? r_bstr := excite refb i (a + nob)%nat in
                match r_bstr with None => Some C | Some (s1, bstr) =>
                let? r_bstr := excite bstr j (b + nob)%nat in
                match r_bstr with None => Some C | Some (s2, bstr) =>
                let? r_bstr := excite bstr k (c + nob)%nat in
                match r_bstr with None => Some C | Some (s3, bstr) =>
                let? idx := index upair_eq (refa, bstr) basis in
                let? x0 := tget K T1b [a; i] in
                let? x1 := tget K T2bb [b; c; j; k] in
                add_at K C idx (zK s1 * zK s2 * zK s3 * x0 * x1) end end end) C) C) C) C) C) C.

  (** ci_utils.py:807-822 *)
  Definition u_T1a_T1a_T1a (C : list K) : option (list K) :=
    each (range 0 noa) (fun i C =>
      each (range 0 noa) (fun j C =>
        each (range 0 noa) (fun k C =>
          each (range 0 nva) (fun a C =>
            each (range 0 nva) (fun b C =>
              each (range 0 nva) (fun c C =>
                let? r_astr := excite refa i (a + noa)%nat in
                match r_astr with None => Some C | Some (s1, astr) =>
                let? r_astr := excite astr j (b + noa)%nat in
                match r_astr with None => Some C | Some (s2, astr) =>
                let? r_astr := excite astr k (c + noa)%nat in
                match r_astr with None => Some C | Some (s3, astr) =>
                let? idx := index upair_eq (astr, refb) basis in
                let? x0 := tget K T1a [a; i] in
                let? x1 := tget K T1a [b; j] in
                let? x2 := tget K T1a [c; k] in
                add_at K C idx ((zK s1 * zK s2 * zK s3 * x0 * x1 * x2) * inv 6) end end end) C) C) C) C) C) C.

  (** ci_utils.py:824-837 *)
  Definition u_T1a_T1a_T1b (C : list K) : option (list K) :=
    each (range 0 noa) (fun i C =>
      each (range 0 noa) (fun j C =>
        each (range 0 nob) (fun k C =>
          each (range 0 nva) (fun a C =>
            each (range 0 nva) (fun b C =>
              each (range 0 nvb) (fun c C =>
                let? r_astr := excite refa i (a + noa)%nat in
                match r_astr with None => Some C | Some (s1a, astr) =>
                let? r_astr := excite astr j (b + noa)%nat in
                let? r_bstr := excite refb k (c + nob)%nat in
                match r_astr with None => Some C | Some (s2a, astr) =>
                match r_bstr with None => Some C | Some (sb, bstr) =>
                let? idx := index upair_eq (astr, bstr) basis in
                let? x0 := tget K T1a [a; i] in
                let? x1 := tget K T1a [b; j] in
                let? x2 := tget K T1b [c; k] in
                add_at K C idx ((zK s1a * zK s2a * zK sb * x0 * x1 * x2) * inv 2) end end end) C) C) C) C) C) C.

  (** ci_utils.py:839-852 *)
  Definition u_T1a_T1b_T1b (C : list K) : option (list K) :=
    each (range 0 noa) (fun i C =>
      each (range 0 nob) (fun j C =>
        each (range 0 nob) (fun k C =>
          each (range 0 nva) (fun a C =>
            each (range 0 nvb) (fun b C =>
              each (range 0 nvb) (fun c C =>
                let? r_astr := excite refa i (a + noa)%nat in
                let? r_bstr := excite refb j (b + nob)%nat in
                match r_bstr with None => Some C | Some (s1b, bstr) =>
                let? r_bstr := excite bstr k (c + nob)%nat in
                match r_astr with None => Some C | Some (sa, astr) =>
                match r_bstr with None => Some C | Some (s2b, bstr) =>
                let? idx := index upair_eq (astr, bstr) basis in
                let? x0 := tget K T1a [a; i] in
                let? x1 := tget K T1b [b; j] in
                let? x2 := tget K T1b [c; k] in
                add_at K C idx ((zK s1b * zK s2b * zK sa * x0 * x1 * x2) * inv 2) end end end) C) C) C) C) C) C.

  (** ci_utils.py:854-869 *)
  Definition u_T1b_T1b_T1b (C : list K) : option (list K) :=
    each (range 0 nob) (fun i C =>
      each (range 0 nob) (fun j C =>
        each (range 0 nob) (fun k C =>
          each (range 0 nvb) (fun a C =>
            each (range 0 nvb) (fun b C =>
              each (range 0 nvb) (fun c C =>
                let? r_bstr := excite refb i (a + nob)%nat in
                match r_bstr with None => Some C | Some (s1, bstr) =>
                let? r_bstr := excite bstr j (b + nob)%nat in
                match r_bstr with None => Some C | Some (s2, bstr) =>
                let? r_bstr := excite bstr k (c + nob)%nat in
                match r_bstr with None => Some C | Some (s3, bstr) =>
                let? idx := index upair_eq (refa, bstr) basis in
                let? x0 := tget K T1b [a; i] in
                let? x1 := tget K T1b [b; j] in
                let? x2 := tget K T1b [c; k] in
                add_at K C idx ((zK s1 * zK s2 * zK s3 * x0 * x1 * x2) * inv 6) end end end) C) C) C) C) C) C.

  (** ci_utils.py:872-892 *)
  Definition u_T2aa_T2aa (C : list K) : option (list K) :=
    each (range 0 noa) (fun i C =>
      each (range (i + 1)%nat noa) (fun j C =>
        each (range 0 noa) (fun k C =>
          each (range (k + 1)%nat noa) (fun l C =>
            each (range 0 nva) (fun a C =>
              each (range (a + 1)%nat nva) (fun b C =>
                each (range 0 nva) (fun c C =>
                  each (range (c + 1)%nat nva) (fun d C =>
                    let? r_astr := excite refa i (a + noa)%nat in
                    match r_astr with None => Some C | Some (sa1, astr) =>
                    let? r_astr := excite astr j (b + noa)%nat in
                    match r_astr with None => Some C | Some (sa2, astr) =>
                    let? r_astr := excite astr k (c + noa)%nat in
                    match r_astr with None => Some C | Some (sa3, astr) =>
                    let? r_astr := excite astr l (d + noa)%nat in
                    match r_astr with None => Some C | Some (sa4, astr) =>
                    let? idx := index upair_eq (astr, refb) basis in
                    let? x0 := tget K T2aa [a; b; i; j] in
                    let? x1 := tget K T2aa [c; d; k; l] in
                    add_at K C idx ((zK sa1 * zK sa2 * zK sa3 * zK sa4 * x0 * x1) * inv 2) end end end end) C) C) C) C) C) C) C) C.

  (** ci_utils.py:894-912 *)
  Definition u_T2aa_T2ab (C : list K) : option (list K) :=
    each (range 0 noa) (fun i C =>
      each (range (i + 1)%nat noa) (fun j C =>
        each (range 0 noa) (fun k C =>
          each (range 0 nob) (fun l C =>
            each (range 0 nva) (fun a C =>
              each (range (a + 1)%nat nva) (fun b C =>
                each (range 0 nva) (fun c C =>
                  each (range 0 nvb) (fun d C =>
                    let? r_astr := excite refa i (a + noa)%nat in
                    match r_astr with None => Some C | Some (sa1, astr) =>
                    let? r_astr := excite astr j (b + noa)%nat in
                    match r_astr with None => Some C | Some (sa2, astr) =>
                    let? r_astr := excite astr k (c + noa)%nat in
                    let? r_bstr := excite refb l (d + nob)%nat in
                    match r_bstr with None => Some C | Some (sb1, bstr) =>
                    match r_astr with None => Some C | Some (sa3, astr) =>
                    let? idx := index upair_eq (astr, bstr) basis in
                    let? x0 := tget K T2aa [a; b; i; j] in
                    let? x1 := tget K T2ab [c; d; k; l] in
                    add_at K C idx (zK sa1 * zK sa2 * zK sa3 * zK sb1 * x0 * x1) end end end end) C) C) C) C) C) C) C) C.

  (** ci_utils.py:914-932 *)
  Definition u_T2aa_T2bb (C : list K) : option (list K) :=
    each (range 0 noa) (fun i C =>
      each (range (i + 1)%nat noa) (fun j C =>
        each (range 0 nob) (fun k C =>
          each (range (k + 1)%nat nob) (fun l C =>
            each (range 0 nva) (fun a C =>
              each (range (a + 1)%nat nva) (fun b C =>
                each (range 0 nvb) (fun c C =>
                  each (range (c + 1)%nat nvb) (fun d C =>
                    let? r_astr := excite refa i (a + noa)%nat in
                    match r_astr with None => Some C | Some (sa1, astr) =>
                    let? r_astr := excite astr j (b + noa)%nat in
                    let? r_bstr := excite refb k (c + nob)%nat in
                    match r_bstr with None => Some C | Some (sb1, bstr) =>
                    let? r_bstr := excite bstr l (d + nob)%nat in
                    match r_bstr with None => Some C | Some (sb2, bstr) =>
                    match r_astr with None => Some C | Some (sa2, astr) =>
                    let? idx := index upair_eq (astr, bstr) basis in
                    let? x0 := tget K T2aa [a; b; i; j] in
                    let? x1 := tget K T2bb [c; d; k; l] in
                    add_at K C idx (zK sa1 * zK sa2 * zK sb1 * zK sb2 * x0 * x1) end end end end) C) C) C) C) C) C) C) C.

  (** ci_utils.py:934-952 *)
  Definition u_T2ab_T2ab (C : list K) : option (list K) :=
    each (range 0 noa) (fun i C =>
      each (range 0 nob) (fun j C =>
        each (range 0 noa) (fun k C =>
          each (range 0 nob) (fun l C =>
            each (range 0 nva) (fun a C =>
              each (range 0 nvb) (fun b C =>
                each (range 0 nva) (fun c C =>
                  each (range 0 nvb) (fun d C =>
                    let? r_astr := excite refa i (a + noa)%nat in
                    match r_astr with None => Some C | Some (sa1, astr) =>
                    let? r_astr := excite astr k (c + noa)%nat in
                    let? r_bstr := excite refb j (b + nob)%nat in
                    match r_bstr with None => Some C | Some (sb1, bstr) =>
                    let? r_bstr := excite bstr l (d + nob)%nat in
                    match r_bstr with None => Some C | Some (sb2, bstr) =>
                    match r_astr with None => Some C | Some (sa2, astr) =>
                    let? idx := index upair_eq (astr, bstr) basis in
                    let? x0 := tget K T2ab [a; b; i; j] in
                    let? x1 := tget K T2ab [c; d; k; l] in
                    add_at K C idx ((zK sa1 * zK sa2 * zK sb1 * zK sb2 * x0 * x1) * inv 2) end end end end) C) C) C) C) C) C) C) C.

  (** ci_utils.py:954-972 *)
  Definition u_T2ab_T2bb (C : list K) : option (list K) :=
    each (range 0 noa) (fun i C =>
      each (range 0 nob) (fun j C =>
        each (range 0 nob) (fun k C =>
          each (range (k + 1)%nat nob) (fun l C =>
            each (range 0 nva) (fun a C =>
              each (range 0 nvb) (fun b C =>
                each (range 0 nvb) (fun c C =>
                  each (range (c + 1)%nat nvb) (fun d C =>
                    let? r_astr := excite refa i (a + noa)%nat in
                    let? r_bstr := excite refb j (b + nob)%nat in
                    match r_bstr with None => Some C | Some (s1, bstr) =>
                    let? r_bstr := excite bstr k (c + nob)%nat in
                    match r_bstr with None => Some C | Some (s2, bstr) =>
                    let? r_bstr := excite bstr l (d + nob)%nat in
                    match r_bstr with None => Some C | Some (s3, bstr) =>
                    match r_astr with None => Some C | Some (sa, astr) =>
                    let? idx := index upair_eq (astr, bstr) basis in
                    let? x0 := tget K T2ab [a; b; i; j] in
                    let? x1 := tget K T2bb [c; d; k; l] in
                    add_at K C idx (zK sa * zK s1 * zK s2 * zK s3 * x0 * x1) end end end end) C) C) C) C) C) C) C) C.

  (** ci_utils.py:974-994 *)
  Definition u_T2bb_T2bb (C : list K) : option (list K) :=
    each (range 0 nob) (fun i C =>
      each (range (i + 1)%nat nob) (fun j C =>
        each (range 0 nob) (fun k C =>
          each (range (k + 1)%nat nob) (fun l C =>
            each (range 0 nvb) (fun a C =>
              each (range (a + 1)%nat nvb) (fun b C =>
                each (range 0 nvb) (fun c C =>
                  each (range (c + 1)%nat nvb) (fun d C =>
                    let? r_bstr := excite refb i (a + nob)%nat in
                    match r_bstr with None => Some C | Some (s1, bstr) =>
                    let? r_bstr := excite bstr j (b + nob)%nat in
                    match r_bstr with None => Some C | Some (s2, bstr) =>
                    let? r_bstr := excite bstr k (c + nob)%nat in
                    match r_bstr with None => Some C | Some (s3, bstr) =>
                    let? r_bstr := excite bstr l (d + nob)%nat in
                    match r_bstr with None => Some C | Some (s4, bstr) =>
                    let? idx := index upair_eq (refa, bstr) basis in
                    let? x0 := tget K T2bb [a; b; i; j] in
                    let? x1 := tget K T2bb [c; d; k; l] in
                    add_at K C idx ((zK s1 * zK s2 * zK s3 * zK s4 * x0 * x1) * inv 2) end end end end) C) C) C) C) C) C) C) C.

  (** ci_utils.py:997-1017 *)
  Definition u_T1a_T1a_T2aa (C : list K) : option (list K) :=
    each (range 0 noa) (fun i C =>
      each (range 0 noa) (fun j C =>
        each (range 0 noa) (fun k C =>
          each (range (k + 1)%nat noa) (fun l C =>
            each (range 0 nva) (fun a C =>
              each (range 0 nva) (fun b C =>
                each (range 0 nva) (fun c C =>
                  each (range (c + 1)%nat nva) (fun d C =>
                    let? r_astr := excite refa i (a + noa)%nat in
                    match r_astr with None => Some C | Some (sa1, astr) =>
                    let? r_astr := excite astr j (b + noa)%nat in
                    match r_astr with None => Some C | Some (sa2, astr) =>
                    let? r_astr := excite astr k (c + noa)%nat in
                    match r_astr with None => Some C | Some (sa3, astr) =>
                    let? r_astr := excite astr l (d + noa)%nat in
                    match r_astr with None => Some C | Some (sa4, astr) =>
                    let? idx := index upair_eq (astr, refb) basis in
                    let? x0 := tget K T1a [a; i] in
                    let? x1 := tget K T1a [b; j] in
                    let? x2 := tget K T2aa [c; d; k; l] in
                    add_at K C idx ((zK sa1 * zK sa2 * zK sa3 * zK sa4 * x0 * x1 * x2) * inv 2) end end end end) C) C) C) C) C) C) C) C.

  (** ci_utils.py:1019-1037 *)
  Definition u_T1a_T1a_T2ab (C : list K) : option (list K) :=
    each (range 0 noa) (fun i C =>
      each (range 0 noa) (fun j C =>
        each (range 0 noa) (fun k C =>
          each (range 0 nob) (fun l C =>
            each (range 0 nva) (fun a C =>
              each (range 0 nva) (fun b C =>
                each (range 0 nva) (fun c C =>
                  each (range 0 nvb) (fun d C =>
                    let? r_astr := excite refa i (a + noa)%nat in
                    match r_astr with None => Some C | Some (sa1, astr) =>
                    let? r_astr := excite astr j (b + noa)%nat in
                    match r_astr with None => Some C | Some (sa2, astr) =>
                    let? r_astr := excite astr k (c + noa)%nat in
                    let? r_bstr := excite refb l (d + nob)%nat in
                    match r_bstr with None => Some C | Some (sb1, bstr) =>
                    match r_astr with None => Some C | Some (sa3, astr) =>
                    let? idx := index upair_eq (astr, bstr) basis in
                    let? x0 := tget K T1a [a; i] in
                    let? x1 := tget K T1a [b; j] in
                    let? x2 := tget K T2ab [c; d; k; l] in
                    add_at K C idx ((zK sa1 * zK sa2 * zK sa3 * zK sb1 * x0 * x1 * x2) * inv 2) end end end end) C) C) C) C) C) C) C) C.

  (** ci_utils.py:1039-1057 *)
  Definition u_T1a_T1b_T2aa (C : list K) : option (list K) :=
    each (range 0 noa) (fun i C =>
      each (range 0 nob) (fun j C =>
        each (range 0 noa) (fun k C =>
          each (range (k + 1)%nat noa) (fun l C =>
            each (range 0 nva) (fun a C =>
              each (range 0 nvb) (fun b C =>
                each (range 0 nva) (fun c C =>
                  each (range (c + 1)%nat nva) (fun d C =>
                    let? r_astr := excite refa i (a + noa)%nat in
                    match r_astr with None => Some C | Some (sa1, astr) =>
                    let? r_astr := excite astr k (c + noa)%nat in
                    match r_astr with None => Some C | Some (sa2, astr) =>
                    let? r_astr := excite astr l (d + noa)%nat in
                    let? r_bstr := excite refb j (b + nob)%nat in
                    match r_astr with None => Some C | Some (sa3, astr) =>
                    match r_bstr with None => Some C | Some (sb1, bstr) =>
                    let? idx := index upair_eq (astr, bstr) basis in
                    let? x0 := tget K T1a [a; i] in
                    let? x1 := tget K T1b [b; j] in
                    let? x2 := tget K T2aa [c; d; k; l] in
                    add_at K C idx (zK sa1 * zK sa2 * zK sa3 * zK sb1 * x0 * x1 * x2) end end end end) C) C) C) C) C) C) C) C.

  (** ci_utils.py:1059-1079 *)
  Definition u_T1a_T1a_T2bb (C : list K) : option (list K) :=
    each (range 0 noa) (fun i C =>
      each (range 0 noa) (fun j C =>
        each (range 0 nob) (fun k C =>
          each (range (k + 1)%nat nob) (fun l C =>
            each (range 0 nva) (fun a C =>
              each (range 0 nva) (fun b C =>
                each (range 0 nvb) (fun c C =>
                  each (range (c + 1)%nat nvb) (fun d C =>
                    let? r_astr := excite refa i (a + noa)%nat in
                    match r_astr with None => Some C | Some (sa1, astr) =>
                    let? r_astr := excite astr j (b + noa)%nat in
                    match r_astr with None => Some C | Some (sa2, astr) =>
                    let? r_bstr := excite refb k (c + nob)%nat in
                    match r_bstr with None => Some C | Some (sb1, bstr) =>
                    let? r_bstr := excite bstr l (d + nob)%nat in
                    match r_bstr with None => Some C | Some (sb2, bstr) =>
                    let? idx := index upair_eq (astr, bstr) basis in
                    let? x0 := tget K T1a [a; i] in
                    let? x1 := tget K T1a [b; j] in
                    let? x2 := tget K T2bb [c; d; k; l] in
                    add_at K C idx ((zK sa1 * zK sa2 * zK sb1 * zK sb2 * x0 * x1 * x2) * inv 2) end end end end) C) C) C) C) C) C) C) C.

  (** ci_utils.py:1081-1099 *)
  Definition u_T1a_T1b_T2ab (C : list K) : option (list K) :=
    each (range 0 noa) (fun i C =>
      each (range 0 nob) (fun j C =>
        each (range 0 noa) (fun k C =>
          each (range 0 nob) (fun l C =>
            each (range 0 nva) (fun a C =>
              each (range 0 nvb) (fun b C =>
                each (range 0 nva) (fun c C =>
                  each (range 0 nvb) (fun d C =>
                    let? r_astr := excite refa i (a + noa)%nat in
                    match r_astr with None => Some C | Some (sa1, astr) =>
                    let? r_astr := excite astr k (c + noa)%nat in
                    let? r_bstr := excite refb j (b + nob)%nat in
                    match r_bstr with None => Some C | Some (sb1, bstr) =>
                    let? r_bstr := excite bstr l (d + nob)%nat in
                    match r_astr with None => Some C | Some (sa2, astr) =>
                    match r_bstr with None => Some C | Some (sb2, bstr) =>
                    let? idx := index upair_eq (astr, bstr) basis in
                    let? x0 := tget K T1a [a; i] in
                    let? x1 := tget K T1b [b; j] in
                    let? x2 := tget K T2ab [c; d; k; l] in
                    add_at K C idx (zK sa1 * zK sa2 * zK sb1 * zK sb2 * x0 * x1 * x2) end end end end) C) C) C) C) C) C) C) C.

  (** ci_utils.py:1101-1119 *)
  Definition u_T1a_T1b_T2bb (C : list K) : option (list K) :=
    each (range 0 noa) (fun i C =>
      each (range 0 nob) (fun j C =>
        each (range 0 nob) (fun k C =>
          each (range (k + 1)%nat nob) (fun l C =>
            each (range 0 nva) (fun a C =>
              each (range 0 nvb) (fun b C =>
                each (range 0 nvb) (fun c C =>
                  each (range (c + 1)%nat nvb) (fun d C =>
                    let? r_astr := excite refa i (a + noa)%nat in
                    let? r_bstr := excite refb j (b + nob)%nat in
                    match r_bstr with None => Some C | Some (s1, bstr) =>
                    let? r_bstr := excite bstr k (c + nob)%nat in
                    match r_bstr with None => Some C | Some (s2, bstr) =>
                    let? r_bstr := excite bstr l (d + nob)%nat in
                    match r_bstr with None => Some C | Some (s3, bstr) =>
                    match r_astr with None => Some C | Some (sa, astr) =>
                    let? idx := index upair_eq (astr, bstr) basis in
                    let? x0 := tget K T1a [a; i] in
                    let? x1 := tget K T1b [b; j] in
                    let? x2 := tget K T2bb [c; d; k; l] in
                    add_at K C idx (zK sa * zK s1 * zK s2 * zK s3 * x0 * x1 * x2) end end end end) C) C) C) C) C) C) C) C.

  (** ci_utils.py:1121-1139 *)
  Definition u_T1b_T1b_T2ab (C : list K) : option (list K) :=
    each (range 0 nob) (fun i C =>
      each (range 0 nob) (fun j C =>
        each (range 0 noa) (fun k C =>
          each (range 0 nob) (fun l C =>
            each (range 0 nvb) (fun a C =>
              each (range 0 nvb) (fun b C =>
                each (range 0 nva) (fun c C =>
                  each (range 0 nvb) (fun d C =>
                    let? r_astr := excite refa k (c + noa)%nat in
                    let? r_bstr := excite refb i (a + nob)%nat in
                    match r_bstr with None => Some C | Some (s1, bstr) =>
                    let? r_bstr := excite bstr j (b + nob)%nat in
                    match r_bstr with None => Some C | Some (s2, bstr) =>
                    let? r_bstr := excite bstr l (d + nob)%nat in
                    match r_bstr with None => Some C | Some (s3, bstr) =>
                    match r_astr with None => Some C | Some (sa, astr) =>
                    let? idx := index upair_eq (astr, bstr) basis in
                    let? x0 := tget K T1b [a; i] in
                    let? x1 := tget K T1b [b; j] in
                    let? x2 := tget K T2ab [c; d; k; l] in
                    add_at K C idx ((zK s1 * zK s2 * zK s3 * zK sa * x0 * x1 * x2) * inv 2) end end end end) C) C) C) C) C) C) C) C.

  (** ci_utils.py:1141-1161 *)
  Definition u_T1b_T1b_T2bb (C : list K) : option (list K) :=
    each (range 0 nob) (fun i C =>
      each (range 0 nob) (fun j C =>
        each (range 0 nob) (fun k C =>
          each (range (k + 1)%nat nob) (fun l C =>
            each (range 0 nvb) (fun a C =>
              each (range 0 nvb) (fun b C =>
                each (range 0 nvb) (fun c C =>
                  each (range (c + 1)%nat nvb) (fun d C =>
                    let? r_bstr := excite refb i (a + nob)%nat in
                    match r_bstr with None => Some C | Some (s1, bstr) =>
                    let? r_bstr := excite bstr j (b + nob)%nat in
                    match r_bstr with None => Some C | Some (s2, bstr) =>
                    let? r_bstr := excite bstr k (c + nob)%nat in
                    match r_bstr with None => Some C | Some (s3, bstr) =>
                    let? r_bstr := excite bstr l (d + nob)%nat in
                    match r_bstr with None => Some C | Some (s4, bstr) =>
                    let? idx := index upair_eq (refa, bstr) basis in
                    let? x0 := tget K T1b [a; i] in
                    let? x1 := tget K T1b [b; j] in
                    let? x2 := tget K T2bb [c; d; k; l] in
                    add_at K C idx ((zK s1 * zK s2 * zK s3 * zK s4 * x0 * x1 * x2) * inv 2) end end end end) C) C) C) C) C) C) C) C.

  (** ci_utils.py:1164-1184 *)
  Definition u_T1a_T1a_T1a_T1a (C : list K) : option (list K) :=
    each (range 0 noa) (fun i C =>
      each (range 0 noa) (fun j C =>
        each (range 0 noa) (fun k C =>
          each (range 0 noa) (fun l C =>
            each (range 0 nva) (fun a C =>
              each (range 0 nva) (fun b C =>
                each (range 0 nva) (fun c C =>
                  each (range 0 nva) (fun d C =>
                    let? r_astr := excite refa i (a + noa)%nat in
                    match r_astr with None => Some C | Some (sa1, astr) =>
                    let? r_astr := excite astr j (b + noa)%nat in
                    match r_astr with None => Some C | Some (sa2, astr) =>
                    let? r_astr := excite astr k (c + noa)%nat in
                    match r_astr with None => Some C | Some (sa3, astr) =>
                    let? r_astr := excite astr l (d + noa)%nat in
                    match r_astr with None => Some C | Some (sa4, astr) =>
                    let? idx := index upair_eq (astr, refb) basis in
                    let? x0 := tget K T1a [a; i] in
                    let? x1 := tget K T1a [b; j] in
                    let? x2 := tget K T1a [c; k] in
                    let? x3 := tget K T1a [d; l] in
                    add_at K C idx ((zK sa1 * zK sa2 * zK sa3 * zK sa4 * x0 * x1 * x2 * x3) * inv 24) end end end end) C) C) C) C) C) C) C) C.

  (** ci_utils.py:1186-1204 *)
  Definition u_T1a_T1a_T1a_T1b (C : list K) : option (list K) :=
    each (range 0 noa) (fun i C =>
      each (range 0 noa) (fun j C =>
        each (range 0 noa) (fun k C =>
          each (range 0 nob) (fun l C =>
            each (range 0 nva) (fun a C =>
              each (range 0 nva) (fun b C =>
                each (range 0 nva) (fun c C =>
                  each (range 0 nvb) (fun d C =>
                    let? r_astr := excite refa i (a + noa)%nat in
                    match r_astr with None => Some C | Some (sa1, astr) =>
                    let? r_astr := excite astr j (b + noa)%nat in
                    match r_astr with None => Some C | Some (sa2, astr) =>
                    let? r_astr := excite astr k (c + noa)%nat in
                    let? r_bstr := excite refb l (d + nob)%nat in
                    match r_bstr with None => Some C | Some (sb1, bstr) =>
                    match r_astr with None => Some C | Some (sa3, astr) =>
                    let? idx := index upair_eq (astr, bstr) basis in
                    let? x0 := tget K T1a [a; i] in
                    let? x1 := tget K T1a [b; j] in
                    let? x2 := tget K T1a [c; k] in
                    let? x3 := tget K T1b [d; l] in
                    add_at K C idx ((zK sa1 * zK sa2 * zK sa3 * zK sb1 * x0 * x1 * x2 * x3) * inv 6) end end end end) C) C) C) C) C) C) C) C.

  (** ci_utils.py:1206-1224 *)
  Definition u_T1a_T1a_T1b_T1b (C : list K) : option (list K) :=
    each (range 0 noa) (fun i C =>
      each (range 0 noa) (fun j C =>
        each (range 0 nob) (fun k C =>
          each (range 0 nob) (fun l C =>
            each (range 0 nva) (fun a C =>
              each (range 0 nva) (fun b C =>
                each (range 0 nvb) (fun c C =>
                  each (range 0 nvb) (fun d C =>
                    let? r_astr := excite refa i (a + noa)%nat in
                    match r_astr with None => Some C | Some (sa1, astr) =>
                    let? r_astr := excite astr j (b + noa)%nat in
                    let? r_bstr := excite refb k (c + nob)%nat in
                    match r_bstr with None => Some C | Some (sb1, bstr) =>
                    let? r_bstr := excite bstr l (d + nob)%nat in
                    match r_bstr with None => Some C | Some (sb2, bstr) =>
                    match r_astr with None => Some C | Some (sa2, astr) =>
                    let? idx := index upair_eq (astr, bstr) basis in
                    let? x0 := tget K T1a [a; i] in
                    let? x1 := tget K T1a [b; j] in
                    let? x2 := tget K T1b [c; k] in
                    let? x3 := tget K T1b [d; l] in
                    add_at K C idx ((zK sa1 * zK sa2 * zK sb1 * zK sb2 * x0 * x1 * x2 * x3) * inv 4) end end end end) C) C) C) C) C) C) C) C.

  (** ci_utils.py:1226-1244 *)
  Definition u_T1a_T1b_T1b_T1b (C : list K) : option (list K) :=
    each (range 0 noa) (fun i C =>
      each (range 0 nob) (fun j C =>
        each (range 0 nob) (fun k C =>
          each (range 0 nob) (fun l C =>
            each (range 0 nva) (fun a C =>
              each (range 0 nvb) (fun b C =>
                each (range 0 nvb) (fun c C =>
                  each (range 0 nvb) (fun d C =>
                    let? r_astr := excite refa i (a + noa)%nat in
                    let? r_bstr := excite refb j (b + nob)%nat in
                    match r_bstr with None => Some C | Some (s1, bstr) =>
                    let? r_bstr := excite bstr k (c + nob)%nat in
                    match r_bstr with None => Some C | Some (s2, bstr) =>
                    let? r_bstr := excite bstr l (d + nob)%nat in
                    match r_bstr with None => Some C | Some (s3, bstr) =>
                    match r_astr with None => Some C | Some (sa, astr) =>
                    let? idx := index upair_eq (astr, bstr) basis in
                    let? x0 := tget K T1a [a; i] in
                    let? x1 := tget K T1b [b; j] in
                    let? x2 := tget K T1b [c; k] in
                    let? x3 := tget K T1b [d; l] in
                    add_at K C idx ((zK sa * zK s1 * zK s2 * zK s3 * x0 * x1 * x2 * x3) * inv 6) end end end end) C) C) C) C) C) C) C) C.

  (** ci_utils.py:1246-1266 *)
  Definition u_T1b_T1b_T1b_T1b (C : list K) : option (list K) :=
    each (range 0 nob) (fun i C =>
      each (range 0 nob) (fun j C =>
        each (range 0 nob) (fun k C =>
          each (range 0 nob) (fun l C =>
            each (range 0 nvb) (fun a C =>
              each (range 0 nvb) (fun b C =>
                each (range 0 nvb) (fun c C =>
                  each (range 0 nvb) (fun d C =>
                    let? r_bstr := excite refb i (a + nob)%nat in
                    match r_bstr with None => Some C | Some (s1, bstr) =>
                    let? r_bstr := excite bstr j (b + nob)%nat in
                    match r_bstr with None => Some C | Some (s2, bstr) =>
                    let? r_bstr := excite bstr k (c + nob)%nat in
                    match r_bstr with None => Some C | Some (s3, bstr) =>
                    let? r_bstr := excite bstr l (d + nob)%nat in
                    match r_bstr with None => Some C | Some (s4, bstr) =>
                    let? idx := index upair_eq (refa, bstr) basis in
                    let? x0 := tget K T1b [a; i] in
                    let? x1 := tget K T1b [b; j] in
                    let? x2 := tget K T1b [c; k] in
                    let? x3 := tget K T1b [d; l] in
                    add_at K C idx ((zK s1 * zK s2 * zK s3 * zK s4 * x0 * x1 * x2 * x3) * inv 24) end end end end) C) C) C) C) C) C) C) C.

End U.

Section G.
  Variable K : cring.
  Local Open Scope K_scope.
  Variable inv : nat -> K.
  Variables (iocc ivir : list nat) (basis : list dstring) (ref : dstring).
  Variables T1 T2 : tensor K.

  (** ci_utils.py:444-449 *)
  Definition g_T1 (C : list K) : option (list K) :=
    each (enumerate iocc) (fun '(ii, i) C =>
      each (enumerate ivir) (fun '(ia, a) C =>
        let? r_dstr := excite ref i a in
        match r_dstr with None => Some C | Some (s, dstr) =>
        let? idx := index dstring_eq dstr basis in
        let? x0 := tget K T1 [ia; ii] in
        add_at K C idx (zK s * x0) end) C) C.

  (** ci_utils.py:452-466 *)
  Definition g_T2 (C : list K) : option (list K) :=
    each (enumerate iocc) (fun '(ii, i) C =>
      each (enumerate iocc) (fun '(ij, j) C =>
        if Nat.leb j i then Some C else
        each (enumerate ivir) (fun '(ia, a) C =>
          each (enumerate ivir) (fun '(ib, b) C =>
            if Nat.leb b a then Some C else
            let? r_dstr := excite ref i a in
            match r_dstr with None => Some C | Some (s1, dstr) =>
            let? r_dstr := excite dstr j b in
            match r_dstr with None => Some C | Some (s2, dstr) =>
            let? idx := index dstring_eq dstr basis in
            let? x0 := tget K T2 [ia; ib; ii; ij] in
            add_at K C idx (zK s1 * zK s2 * x0) end end) C) C) C) C.

  (** ci_utils.py:468-478 *)
  Definition g_T1_T1 (C : list K) : option (list K) :=
    each (enumerate iocc) (fun '(ii, i) C =>
      each (enumerate iocc) (fun '(ij, j) C =>
        each (enumerate ivir) (fun '(ia, a) C =>
          each (enumerate ivir) (fun '(ib, b) C =>
            let? r_dstr := excite ref i a in
            match r_dstr with None => Some C | Some (s1, dstr) =>
            let? r_dstr := excite dstr j b in
            match r_dstr with None => Some C | Some (s2, dstr) =>
            let? idx := index dstring_eq dstr basis in
            let? x0 := tget K T1 [ia; ii] in
            let? x1 := tget K T1 [ib; ij] in
            add_at K C idx (inv 2 * zK s1 * zK s2 * x0 * x1) end end) C) C) C) C.

  (** ci_utils.py:481-500 *)
  Definition g_T1_T2 (C : list K) : option (list K) :=
    each (enumerate iocc) (fun '(ii, i) C =>
      each (enumerate iocc) (fun '(ij, j) C =>
        each (enumerate iocc) (fun '(ik, k) C =>
          if Nat.leb k j then Some C else
          each (enumerate ivir) (fun '(ia, a) C =>
            each (enumerate ivir) (fun '(ib, b) C =>
              each (enumerate ivir) (fun '(ic, c) C =>
                if Nat.leb c b then Some C else
                let? r_dstr := excite ref i a in
                match r_dstr with None => Some C | Some (s1, dstr) =>
                let? r_dstr := excite dstr j b in
                match r_dstr with None => Some C | Some (s2, dstr) =>
                let? r_dstr := excite dstr k c in
                match r_dstr with None => Some C | Some (s3, dstr) =>
                let? idx := index dstring_eq dstr basis in
                let? x0 := tget K T1 [ia; ii] in
                let? x1 := tget K T2 [ib; ic; ij; ik] in
                add_at K C idx (zK s1 * zK s2 * zK s3 * x0 * x1) end end end) C) C) C) C) C) C.

  (** ci_utils.py:502-517 *)
  Definition g_T1_T1_T1 (C : list K) : option (list K) :=
    each (enumerate iocc) (fun '(ii, i) C =>
      each (enumerate iocc) (fun '(ij, j) C =>
        each (enumerate iocc) (fun '(ik, k) C =>
          each (enumerate ivir) (fun '(ia, a) C =>
            each (enumerate ivir) (fun '(ib, b) C =>
              each (enumerate ivir) (fun '(ic, c) C =>
                let? r_dstr := excite ref i a in
                match r_dstr with None => Some C | Some (s1, dstr) =>
                let? r_dstr := excite dstr j b in
                match r_dstr with None => Some C | Some (s2, dstr) =>
                let? r_dstr := excite dstr k c in
                match r_dstr with None => Some C | Some (s3, dstr) =>
                let? idx := index dstring_eq dstr basis in
                let? x0 := tget K T1 [ia; ii] in
                let? x1 := tget K T1 [ib; ij] in
                let? x2 := tget K T1 [ic; ik] in
                add_at K C idx ((zK s1 * zK s2 * zK s3 * x0 * x1 * x2) * inv 6) end end end) C) C) C) C) C) C.

  (** ci_utils.py:520-548 *)
  Definition g_T2_T2 (C : list K) : option (list K) :=
    each (enumerate iocc) (fun '(ii, i) C =>
      each (enumerate iocc) (fun '(ij, j) C =>
        if Nat.leb j i then Some C else
        each (enumerate iocc) (fun '(ik, k) C =>
          each (enumerate iocc) (fun '(il, l) C =>
            if Nat.leb l k then Some C else
            each (enumerate ivir) (fun '(ia, a) C =>
              each (enumerate ivir) (fun '(ib, b) C =>
                if Nat.leb b a then Some C else
                each (enumerate ivir) (fun '(ic, c) C =>
                  each (enumerate ivir) (fun '(idd, d) C =>
                    if Nat.leb d c then Some C else
                    let? r_dstr := excite ref i a in
                    match r_dstr with None => Some C | Some (s1, dstr) =>
                    let? r_dstr := excite dstr j b in
                    match r_dstr with None => Some C | Some (s2, dstr) =>
                    let? r_dstr := excite dstr k c in
                    match r_dstr with None => Some C | Some (s3, dstr) =>
                    let? r_dstr := excite dstr l d in
                    match r_dstr with None => Some C | Some (s4, dstr) =>
                    let? idx := index dstring_eq dstr basis in
                    let? x0 := tget K T2 [ia; ib; ii; ij] in
                    let? x1 := tget K T2 [ic; idd; ik; il] in
                    add_at K C idx ((zK s1 * zK s2 * zK s3 * zK s4 * x0 * x1) * inv 2) end end end end) C) C) C) C) C) C) C) C.

  (** ci_utils.py:550-574 *)
  Definition g_T1_T1_T2 (C : list K) : option (list K) :=
    each (enumerate iocc) (fun '(ii, i) C =>
      each (enumerate iocc) (fun '(ij, j) C =>
        each (enumerate iocc) (fun '(ik, k) C =>
          each (enumerate iocc) (fun '(il, l) C =>
            if Nat.leb l k then Some C else
            each (enumerate ivir) (fun '(ia, a) C =>
              each (enumerate ivir) (fun '(ib, b) C =>
                each (enumerate ivir) (fun '(ic, c) C =>
                  each (enumerate ivir) (fun '(idd, d) C =>
                    if Nat.leb d c then Some C else
                    let? r_dstr := excite ref i a in
                    match r_dstr with None => Some C | Some (s1, dstr) =>
                    let? r_dstr := excite dstr j b in
                    match r_dstr with None => Some C | Some (s2, dstr) =>
                    let? r_dstr := excite dstr k c in
                    match r_dstr with None => Some C | Some (s3, dstr) =>
                    let? r_dstr := excite dstr l d in
                    match r_dstr with None => Some C | Some (s4, dstr) =>
                    let? idx := index dstring_eq dstr basis in
                    let? x0 := tget K T1 [ia; ii] in
                    let? x1 := tget K T1 [ib; ij] in
                    let? x2 := tget K T2 [ic; idd; ik; il] in
                    add_at K C idx ((zK s1 * zK s2 * zK s3 * zK s4 * x0 * x1 * x2) * inv 2) end end end end) C) C) C) C) C) C) C) C.

  (** ci_utils.py:575-596 *)
  Definition g_T1_T1_T1_T1 (C : list K) : option (list K) :=
    each (enumerate iocc) (fun '(ii, i) C =>
      each (enumerate iocc) (fun '(ij, j) C =>
        each (enumerate iocc) (fun '(ik, k) C =>
          each (enumerate iocc) (fun '(il, l) C =>
            each (enumerate ivir) (fun '(ia, a) C =>
              each (enumerate ivir) (fun '(ib, b) C =>
                each (enumerate ivir) (fun '(ic, c) C =>
                  each (enumerate ivir) (fun '(idd, d) C =>
                    let? r_dstr := excite ref i a in
                    match r_dstr with None => Some C | Some (s1, dstr) =>
                    let? r_dstr := excite dstr j b in
                    match r_dstr with None => Some C | Some (s2, dstr) =>
                    let? r_dstr := excite dstr k c in
                    match r_dstr with None => Some C | Some (s3, dstr) =>
                    let? r_dstr := excite dstr l d in
                    match r_dstr with None => Some C | Some (s4, dstr) =>
                    let? idx := index dstring_eq dstr basis in
                    let? x0 := tget K T1 [ia; ii] in
                    let? x1 := tget K T1 [ib; ij] in
                    let? x2 := tget K T1 [ic; ik] in
                    let? x3 := tget K T1 [idd; il] in
                    add_at K C idx ((zK s1 * zK s2 * zK s3 * zK s4 * x0 * x1 * x2 * x3) * inv 24) end end end end) C) C) C) C) C) C) C) C.

End G.

Section Make.
  Variable K : cring.
  Local Open Scope K_scope.
  Variable inv : nat -> K.

  (** [C = numpy.zeros(nd); C[0] = 1.0] *)
  Definition start (nd : nat) : option (list K) :=
    match nd with O => None | S _ => Some (upd 0 1 (zeros K nd)) end.

  (** gmakeCfromT, ci_utils.py:418-597 *)
  Definition gmakeCfromT (no nv : nat) (T1 T2 : tensor K) (order : Z) (occ : option (list Z))
    : option (list K) :=
    let nmo := (no + nv)%nat in
    if Z.ltb order 1 then None else
    let? basis :=
      if Z.eqb order 1 then gcis_basis nmo no true
      else if Z.eqb order 2 then gcisd_basis nmo no
      else if Z.eqb order 3 then gcisdt_basis nmo no
      else if Z.eqb order 4 then gcisdtq_basis nmo no
      else None in
    let occ := match occ with Some o => o | None => default_occ (Nat.div nmo 2) no end in
    let vir := virt occ in
    let iocc := indices_pos occ in
    let ivir := indices_pos vir in
    let? ref := Dstring nmo occ in
    let? C := start (length basis) in
        let? C := g_T1 K iocc ivir basis ref T1 C in
      let? C := if Z.leb 2 order then
        let? C := g_T2 K iocc ivir basis ref T2 C in
        let? C := g_T1_T1 K inv iocc ivir basis ref T1 C in
        Some C else Some C in
      let? C := if Z.leb 3 order then
        let? C := g_T1_T2 K iocc ivir basis ref T1 T2 C in
        let? C := g_T1_T1_T1 K inv iocc ivir basis ref T1 C in
        Some C else Some C in
      let? C := if Z.leb 4 order then
        let? C := g_T2_T2 K inv iocc ivir basis ref T2 C in
        let? C := g_T1_T1_T2 K inv iocc ivir basis ref T1 T2 C in
        let? C := g_T1_T1_T1_T1 K inv iocc ivir basis ref T1 C in
        Some C else Some C in
    Some C.

  (** makeCfromT, ci_utils.py:600-1269 *)
  Definition makeCfromT (noa nva nob nvb : nat) (T1a T1b T2aa T2ab T2bb : tensor K) (order : Z)
    : option (list K) :=
    let na := (noa + nva)%nat in
    let nb := (nob + nvb)%nat in
    if negb (Nat.eqb na nb) then None else
    if Z.ltb order 1 then None else
    let? basis :=
      if Z.eqb order 1 then ucis_basis na noa nob true
      else if Z.eqb order 2 then ucisd_basis na noa nob
      else if Z.eqb order 3 then ucisdt_basis na noa nob
      else if Z.eqb order 4 then ucisdtq_basis na noa nob
      else None in
    let? refa := Dstring na (default_occ na noa) in
    let? refb := Dstring nb (default_occ nb nob) in
    let? C := start (length basis) in
        let? C := u_T1a K noa nva basis refa refb T1a C in
        let? C := u_T1b K nob nvb basis refa refb T1b C in
      let? C := if Z.leb 2 order then
        let? C := u_T2aa K noa nva basis refa refb T2aa C in
        let? C := u_T2bb K nob nvb basis refa refb T2bb C in
        let? C := u_T2ab K noa nva nob nvb basis refa refb T2ab C in
        let? C := u_T1a_T1a K inv noa nva basis refa refb T1a C in
        let? C := u_T1b_T1b K inv nob nvb basis refa refb T1b C in
        let? C := u_T1a_T1b K noa nva nob nvb basis refa refb T1a T1b C in
        Some C else Some C in
      let? C := if Z.leb 3 order then
        let? C := u_T1a_T2aa K noa nva basis refa refb T1a T2aa C in
        let? C := u_T1a_T2ab K noa nva nob nvb basis refa refb T1a T2ab C in
        let? C := u_T1b_T2aa K noa nva nob nvb basis refa refb T1b T2aa C in
        let? C := u_T1a_T2bb K noa nva nob nvb basis refa refb T1a T2bb C in
        let? C := u_T1b_T2ab K noa nva nob nvb basis refa refb T1b T2ab C in
        let? C := u_T1b_T2bb K nob nvb basis refa refb T1b T2bb C in
        let? C := u_T1a_T1a_T1a K inv noa nva basis refa refb T1a C in
        let? C := u_T1a_T1a_T1b K inv noa nva nob nvb basis refa refb T1a T1b C in
        let? C := u_T1a_T1b_T1b K inv noa nva nob nvb basis refa refb T1a T1b C in
        let? C := u_T1b_T1b_T1b K inv nob nvb basis refa refb T1b C in
        Some C else Some C in
      let? C := if Z.leb 4 order then
        let? C := u_T2aa_T2aa K inv noa nva basis refa refb T2aa C in
        let? C := u_T2aa_T2ab K noa nva nob nvb basis refa refb T2aa T2ab C in
        let? C := u_T2aa_T2bb K noa nva nob nvb basis refa refb T2aa T2bb C in
        let? C := u_T2ab_T2ab K inv noa nva nob nvb basis refa refb T2ab C in
        let? C := u_T2ab_T2bb K noa nva nob nvb basis refa refb T2ab T2bb C in
        let? C := u_T2bb_T2bb K inv nob nvb basis refa refb T2bb C in
        let? C := u_T1a_T1a_T2aa K inv noa nva basis refa refb T1a T2aa C in
        let? C := u_T1a_T1a_T2ab K inv noa nva nob nvb basis refa refb T1a T2ab C in
        let? C := u_T1a_T1b_T2aa K noa nva nob nvb basis refa refb T1a T1b T2aa C in
        let? C := u_T1a_T1a_T2bb K inv noa nva nob nvb basis refa refb T1a T2bb C in
        let? C := u_T1a_T1b_T2ab K noa nva nob nvb basis refa refb T1a T1b T2ab C in
        let? C := u_T1a_T1b_T2bb K noa nva nob nvb basis refa refb T1a T1b T2bb C in
        let? C := u_T1b_T1b_T2ab K inv noa nva nob nvb basis refa refb T1b T2ab C in
        let? C := u_T1b_T1b_T2bb K inv nob nvb basis refa refb T1b T2bb C in
        let? C := u_T1a_T1a_T1a_T1a K inv noa nva basis refa refb T1a C in
        let? C := u_T1a_T1a_T1a_T1b K inv noa nva nob nvb basis refa refb T1a T1b C in
        let? C := u_T1a_T1a_T1b_T1b K inv noa nva nob nvb basis refa refb T1a T1b C in
        let? C := u_T1a_T1b_T1b_T1b K inv noa nva nob nvb basis refa refb T1a T1b C in
        let? C := u_T1b_T1b_T1b_T1b K inv nob nvb basis refa refb T1b C in
        Some C else Some C in
    if Z.leb 5 order then None else
    Some C.
End Make.

