(** How many roundings an entry of the result of each public function of
    cc_equations.py and cc_energy.py goes through.  Specification only. *)
From Coq Require Import List String.
Import ListNotations.
Local Open Scope string_scope.

(** (function, c, e): at most c N^e, where N >= 1 is at least the number of occupied
    and of virtual orbitals (of either spin) *)
Definition rounding_table : list (string * nat * nat) :=
  [ ("lccd_simple", 12, 2); ("lccsd_simple", 16, 3); ("ccd_simple", 19, 4);
    ("ccd_ladder_simple", 6, 4); ("ccd_ring_simple", 5, 4); ("ccsd_simple", 68, 4);
    ("ccsd_stanton", 22, 3); ("uccsd_stanton", 20, 3); ("rccsd_stanton", 16, 3);
    ("ccd_stanton", 16, 3); ("ccd_lambda_simple", 26, 4); ("ccsd_lambda_opt", 33, 3);
    ("lambda_int", 10, 3); ("ccsd_lambda_opt_int", 28, 3); ("ccsd_lambda_stanton", 17, 3);
    ("uccsd_lambda_opt", 31, 3); ("rccsd_lambda_opt", 32, 3); ("ccsd_lambda_simple", 70, 6);
    ("ccsd_1rdm_ba", 3, 3); ("ccsd_1rdm_ji", 3, 3); ("ccsd_1rdm_ai", 5, 4);
    ("ccsd_2rdm_cdab", 5, 2); ("ccsd_2rdm_ciab", 1, 1); ("ccsd_2rdm_bcai", 10, 3);
    ("ccsd_2rdm_bjai", 3, 2); ("ccsd_2rdm_abij", 45, 4); ("ccsd_2rdm_jkai", 1, 1);
    ("ccsd_2rdm_kaij", 11, 3); ("ccsd_2rdm_klij", 5, 2); ("ccsd_1rdm_ba_opt", 3, 3);
    ("ccsd_1rdm_ji_opt", 3, 3); ("ccsd_2rdm_ciab_opt", 1, 1); ("ccsd_2rdm_jkai_opt", 1, 1);
    ("ccsd_1rdm_ai_opt", 6, 3); ("ccsd_2rdm_cdab_opt", 5, 2); ("ccsd_2rdm_bcai_opt", 9, 3);
    ("ccsd_2rdm_bjai_opt", 4, 2); ("ccsd_2rdm_abij_opt", 21, 3); ("ccsd_2rdm_kaij_opt", 7, 3);
    ("ccsd_2rdm_klij_opt", 5, 2); ("uccsd_1rdm_ba", 4, 3); ("uccsd_1rdm_ji", 4, 3);
    ("uccsd_1rdm_ai", 7, 3); ("rccsd_1rdm_ba", 6, 3); ("rccsd_1rdm_ji", 6, 3);
    ("rccsd_1rdm_ai", 8, 3); ("uccsd_2rdm_ciab", 1, 1); ("uccsd_2rdm_jkai", 1, 1);
    ("uccsd_2rdm_cdab", 5, 2); ("uccsd_2rdm_bjai", 5, 2); ("uccsd_2rdm_klij", 5, 2);
    ("uccsd_2rdm_bcai", 10, 3); ("uccsd_2rdm_kaij", 9, 3); ("uccsd_2rdm_abij", 20, 3);
    ("rccsd_2rdm_ciab", 1, 1); ("rccsd_2rdm_jkai", 1, 1); ("rccsd_2rdm_cdab", 3, 2);
    ("rccsd_2rdm_bjai", 3, 2); ("rccsd_2rdm_bjia", 5, 2); ("rccsd_2rdm_klij", 3, 2);
    ("rccsd_2rdm_bcai", 10, 3); ("rccsd_2rdm_kaij", 9, 3); ("rccsd_2rdm_abij", 18, 3);
    ("cc_energy_d", 2, 4); ("cc_energy_s1", 1, 2); ("cc_energy_s2", 2, 4);
    ("cc_energy_s2_a", 2, 4); ("cc_energy", 4, 4); ("mp2_energy", 3, 4); ("ucc_energy", 8, 4);
    ("rcc_energy", 6, 4); ("ump2_energy", 5, 4) ].
