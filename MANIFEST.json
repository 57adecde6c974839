{
 "claims": [
  {
   "property": "C01",
   "status": "proved",
   "theorems": [
    "C01_ccsd_stanton_eq_simple"
   ],
   "note": ""
  },
  {
   "property": "C02",
   "status": "proved",
   "theorems": [
    "C02_ccd_stanton_eq_simple"
   ],
   "note": ""
  },
  {
   "property": "C03",
   "status": "proved",
   "theorems": [
    "C03_ccd_is_ccsd_without_singles"
   ],
   "note": ""
  },
  {
   "property": "C04",
   "status": "proved",
   "theorems": [
    "C04_linearized_is_linear_part"
   ],
   "note": ""
  },
  {
   "property": "C05",
   "status": "proved",
   "theorems": [
    "C05_ccsd_antisymmetric",
    "C05_ccd_antisymmetric",
    "C05_ladder_antisymmetric",
    "C05_ring_not_antisymmetric",
    "C05_uccsd_antisymmetric"
   ],
   "note": "ccd_ring_simple is the exception: refuted by a concrete case over the rationals."
  },
  {
   "property": "C06",
   "status": "proved",
   "theorems": [
    "C06_C07_total_and_pure"
   ],
   "note": "same theorem as C07: [returns] includes that the argument arrays are unchanged."
  },
  {
   "property": "C07",
   "status": "proved",
   "theorems": [
    "C06_C07_total_and_pure",
    "C07_ccsd_pt_simple_raises"
   ],
   "note": "all 81 signatures in CCShapes.public_functions; ccsd_pt_simple raises."
  },
  {
   "property": "C08",
   "status": "proved",
   "theorems": [
    "C08_uccsd_is_spin_orbital_ccsd"
   ],
   "note": ""
  },
  {
   "property": "C09",
   "status": "proved",
   "theorems": [
    "C09_rccsd_is_closed_shell_uccsd"
   ],
   "note": ""
  },
  {
   "property": "C10",
   "status": "proved",
   "theorems": [
    "C10_rcc_energy_is_ucc_energy",
    "C10_energies_agree_with_spin_orbital"
   ],
   "note": ""
  },
  {
   "property": "C11",
   "status": "proved",
   "theorems": [
    "C11_cc_energy_formula",
    "C11_ucc_energy_formula",
    "C11_rcc_energy_formula"
   ],
   "note": ""
  },
  {
   "property": "C12",
   "status": "proved",
   "theorems": [
    "C12_lambda_implementations_agree"
   ],
   "note": ""
  },
  {
   "property": "C13",
   "status": "proved",
   "theorems": [
    "C13_ccd_lambda_is_ccsd_lambda_without_singles"
   ],
   "note": ""
  },
  {
   "property": "C14",
   "status": "proved",
   "theorems": [
    "C14_lambda_is_derivative"
   ],
   "note": ""
  },
  {
   "property": "C15",
   "status": "proved",
   "theorems": [
    "C15_lambda_antisymmetric",
    "C15_lambda_opt_int_antisymmetric",
    "C15_ccd_lambda_antisymmetric",
    "C15_ulambda_antisymmetric"
   ],
   "note": ""
  },
  {
   "property": "C16",
   "status": "proved",
   "theorems": [
    "C16_ulambda_is_spin_orbital_lambda"
   ],
   "note": ""
  },
  {
   "property": "C17",
   "status": "proved",
   "theorems": [
    "C17_rlambda_is_closed_shell_ulambda"
   ],
   "note": ""
  },
  {
   "property": "C18",
   "status": "proved",
   "theorems": [
    "C18_rdm_opt_eq_plain",
    "C18_rdm_opt_eq_plain_tfac"
   ],
   "note": ""
  },
  {
   "property": "C19",
   "status": "proved",
   "theorems": [
    "C19_rdm_contraction_is_lagrangian"
   ],
   "note": ""
  },
  {
   "property": "C20",
   "status": "proved",
   "theorems": [
    "C20_rdm_bra_antisymmetric",
    "C20_rdm_ket_antisymmetric",
    "C20_urdm_bra_antisymmetric",
    "C20_urdm_ket_antisymmetric",
    "C20_rrdm_pair_symmetric"
   ],
   "note": ""
  },
  {
   "property": "C21",
   "status": "proved",
   "theorems": [
    "C21_urdm_blocks"
   ],
   "note": ""
  },
  {
   "property": "C22",
   "status": "proved",
   "theorems": [
    "C22_rrdm_blocks",
    "C22_rrdm_vovo_blocks"
   ],
   "note": ""
  },
  {
   "property": "C23",
   "status": "proved",
   "theorems": [
    "C23_excite_is_operator",
    "C23_excite_none",
    "C23_excite_result",
    "C23_excite_pure"
   ],
   "note": ""
  },
  {
   "property": "C24",
   "status": "proved",
   "theorems": [
    "C24_diff_metric",
    "C24_excite_distance"
   ],
   "note": ""
  },
  {
   "property": "C25",
   "status": "proved",
   "theorems": [
    "C25_raize",
    "C25_lower",
    "C25_raize_pure",
    "C25_lower_pure"
   ],
   "note": ""
  },
  {
   "property": "C26",
   "status": "proved",
   "theorems": [
    "C26_s_strings",
    "C26_d_strings",
    "C26_t_strings",
    "C26_default_reference"
   ],
   "note": ""
  },
  {
   "property": "C27",
   "status": "proved",
   "theorems": [
    "C27_ucis_basis",
    "C27_ucis_basis_without_reference",
    "C27_ucisd_basis",
    "C27_ucisdt_basis",
    "C27_ucisdtq_basis",
    "C27_gcis_basis",
    "C27_gcis_basis_without_reference",
    "C27_gcisd_basis",
    "C27_gcisdt_basis",
    "C27_g_reference",
    "C27_odd_raises",
    "C27_index",
    "C27_gindex"
   ],
   "note": ""
  },
  {
   "property": "C28",
   "status": "proved",
   "theorems": [
    "C28_q_strings_right",
    "C28_q_strings_refuted",
    "C28_ucisdtq_basis_refuted",
    "C28_q_strings_exact",
    "C28_gcisdtq_basis",
    "C28_ucisdtq_basis"
   ],
   "note": ""
  },
  {
   "property": "C29",
   "status": "proved",
   "theorems": [
    "C29_vcis_basis",
    "C29_vcisd_basis"
   ],
   "note": ""
  },
  {
   "property": "C30",
   "status": "proved",
   "theorems": [
    "C30_ci_matrixel"
   ],
   "note": ""
  },
  {
   "property": "C31",
   "status": "proved",
   "theorems": [
    "C31_ci_matrixel_symmetric",
    "C31_pair_symmetry_needed"
   ],
   "note": "also proved: the exchange symmetry of the same-spin integrals is needed."
  },
  {
   "property": "C32",
   "status": "proved",
   "theorems": [
    "C32_ci_matrixel_zero",
    "C32_gci_matrixel_zero"
   ],
   "note": ""
  },
  {
   "property": "C33",
   "status": "proved",
   "theorems": [
    "C33_gci_matrixel_right",
    "C33_gci_matrixel_sign_wrong",
    "C33_gci_matrixel_refuted"
   ],
   "note": "the code does not compute <bra|H|ket>; the theorems say exactly when it does and what it computes otherwise."
  },
  {
   "property": "C34",
   "status": "proved",
   "theorems": [
    "C34_s_on_vec",
    "C34_d_on_vec",
    "C34_spin_on_vec",
    "C34_linear"
   ],
   "note": ""
  },
  {
   "property": "C35",
   "status": "proved",
   "theorems": [
    "C35_H_on_vec",
    "C35_H_on_vec_linear_symmetric",
    "C35_gH_on_vec",
    "C35_gH_on_vec_right"
   ],
   "note": ""
  },
  {
   "property": "C36",
   "status": "proved",
   "theorems": [
    "C36_order1",
    "C36_order2",
    "C36_order3",
    "C36_order4_lacks_a_term",
    "C36_order4_four_electrons",
    "C36_order4_five_electrons_raises",
    "C36_order4_small",
    "C36_order4_refuted",
    "C36_raises",
    "C36_g_order1",
    "C36_g_order2",
    "C36_g_order3",
    "C36_g_order4",
    "C36_g_order4_four_electrons",
    "C36_g_order4_five_electrons_raises",
    "C36_g_raises"
   ],
   "note": "order 4 of makeCfromT: the exact missing term is proved, with a concrete refutation; gmakeCfromT is right for order 4."
  },
  {
   "property": "C37",
   "status": "proved",
   "theorems": [
    "C37_default_occupation_raises"
   ],
   "note": ""
  },
  {
   "property": "C38",
   "status": "proved",
   "theorems": [
    "C38_T1_round_trip",
    "C38_T2_round_trip",
    "C38_F_round_trip",
    "C38_int_round_trip"
   ],
   "note": ""
  },
  {
   "property": "C39",
   "status": "proved",
   "theorems": [
    "C39_T2_to_spin_antisymmetric",
    "C39_int_to_spin2_antisymmetric",
    "C39_T1_to_spin_conserves",
    "C39_F_to_spin_conserves"
   ],
   "note": ""
  },
  {
   "property": "C40",
   "status": "proved",
   "theorems": [
    "C40_int_to_spin_antisymmetrizes"
   ],
   "note": ""
  },
  {
   "property": "C41",
   "status": "proved",
   "theorems": [
    "C41_T2_retraction",
    "C41_T1_retraction",
    "C41_needs_conservation"
   ],
   "note": ""
  },
  {
   "property": "C42",
   "status": "proved",
   "theorems": [
    "C42_D1",
    "C42_D2",
    "C42_D2u",
    "C42_D2_to_spin",
    "C42_block_diag"
   ],
   "note": ""
  },
  {
   "property": "C43",
   "status": "proved",
   "theorems": [
    "C43_full_blocks",
    "C43_reassemble",
    "C43_nine_blocks",
    "C43_wrong_sizes_raise"
   ],
   "note": ""
  },
  {
   "property": "C44",
   "status": "proved",
   "theorems": [
    "C44_occupations_sum_to_one",
    "C44_probabilities",
    "C44_particle_hole"
   ],
   "note": ""
  },
  {
   "property": "C45",
   "status": "proved",
   "theorems": [
    "C45_exact",
    "C45_error",
    "C45_relative_error",
    "C45_decreasing_in_branch",
    "C45_monotone_refuted"
   ],
   "note": ""
  },
  {
   "property": "C46",
   "status": "proved",
   "theorems": [
    "C46_exact",
    "C46_error",
    "C46_derivative",
    "C46_derivative_far",
    "C46_derivative_between",
    "C46_exact_derivative"
   ],
   "note": ""
  },
  {
   "property": "C47",
   "status": "proved",
   "theorems": [
    "C47_elementwise",
    "C47_occupations_sum_to_one"
   ],
   "note": ""
  },
  {
   "property": "C48",
   "status": "proved",
   "theorems": [
    "C48_F_symmetric",
    "C48_I_pair_symmetric",
    "C48_I_antisymmetric",
    "C48_integrals",
    "C48_Itot_symmetries",
    "C48_Ifull_antisymmetric",
    "C48_Ifull_gen_blocks",
    "C48_T_antisymmetric",
    "C48_L_antisymmetric",
    "C48_T_spatial_antisymmetric",
    "C48_ft_integrals_symmetric",
    "C48_ft_T_antisymmetric",
    "C48_ft_T_spatial_antisymmetric",
    "C48_ft_D_antisymmetric",
    "C48_ft_D2_antisymmetric"
   ],
   "note": ""
  },
  {
   "property": "C49",
   "status": "proved",
   "theorems": [
    "C49_get_chem_value",
    "C49_get_phys_value",
    "C49_get_phys_antisymmetric",
    "C49_get_chem_anti_ignores_o2",
    "C49_get_chem_anti_refuted",
    "C49_get_chemu_value",
    "C49_get_chemu_all_value",
    "C49_get_physu_all_value",
    "C49_physu_all_antisymmetric",
    "C49_physu_all_spin_forbidden",
    "C49_get_phys_antiu_value",
    "C49_eri_blocks_unrestricted",
    "C49_eri_blocks_restricted"
   ],
   "note": ""
  },
  {
   "property": "C50",
   "status": "proved",
   "theorems": [
    "C50_cc_energy",
    "C50_ccsd_residuals",
    "C50_every_block_set_has_a_hamiltonian"
   ],
   "note": ""
  },
  {
   "property": "C51",
   "status": "proved",
   "theorems": [
    "C51_occupation_is_derivative"
   ],
   "note": ""
  },
  {
   "property": "C52",
   "status": "proved",
   "theorems": [
    "C52_zero_temperature"
   ],
   "note": ""
  },
  {
   "property": "C53",
   "status": "proved",
   "theorems": [
    "C53_solk_zero_unless_conserved",
    "C53_solk_value",
    "C53_phys_solk_antisymmetric",
    "C53_get_solk_integrals_value",
    "C53_solk_phys_is_chem_reordered",
    "C53_solk_electron_exchange",
    "C53_solk_h1_hermitian"
   ],
   "note": ""
  },
  {
   "property": "C54",
   "status": "proved",
   "theorems": [
    "C54_projected_schroedinger_equation",
    "C54_exact_for_two_electrons"
   ],
   "note": ""
  },
  {
   "property": "C55",
   "status": "proved",
   "theorems": [
    "C55_density_matrices",
    "C55_density_matrices_tfac",
    "C55_lambda_blocks",
    "C55_complete_densities"
   ],
   "note": ""
  },
  {
   "property": "C56",
   "status": "proved",
   "theorems": [
    "C56_lambda_equations",
    "C56_lambda_equations_intermediates",
    "C56_left_eigenvector"
   ],
   "note": ""
  },
  {
   "property": "C57",
   "status": "proved",
   "theorems": [
    "C57_expectation_of_the_hamiltonian",
    "C57_energy_from_density_matrices"
   ],
   "note": ""
  },
  {
   "property": "C58",
   "status": "proved",
   "theorems": [
    "C58_energy",
    "C58_projected_schroedinger_equation",
    "C58_exact_for_two_excitations",
    "C58_same_hamiltonian",
    "C58_every_hamiltonian"
   ],
   "note": ""
  },
  {
   "property": "C59",
   "status": "proved",
   "theorems": [
    "C59_energy_from_CI"
   ],
   "note": ""
  },
  {
   "property": "C60",
   "status": "proved",
   "theorems": [
    "C60_full_CI"
   ],
   "note": ""
  },
  {
   "property": "C61",
   "status": "proved",
   "theorems": [
    "C61_rows",
    "C61_rows_suffice"
   ],
   "note": ""
  },
  {
   "property": "C62",
   "status": "proved",
   "theorems": [
    "C62_HtoK",
    "C62_HtoK_linear"
   ],
   "note": ""
  },
  {
   "property": "C63",
   "status": "proved",
   "theorems": [
    "C63_energy",
    "C63_projected_schroedinger_equation",
    "C63_exact_for_two_excitations",
    "C63_same_hamiltonian",
    "C63_every_hamiltonian"
   ],
   "note": ""
  },
  {
   "property": "C64",
   "status": "proved",
   "theorems": [
    "C64_singlet",
    "C64_spin_symmetry"
   ],
   "note": ""
  },
  {
   "property": "C65",
   "status": "proved",
   "theorems": [
    "C65_density_matrices",
    "C65_density_matrices_tfac"
   ],
   "note": ""
  },
  {
   "property": "C66",
   "status": "proved",
   "theorems": [
    "C66_lambda_equations",
    "C66_left_eigenvector"
   ],
   "note": ""
  },
  {
   "property": "C67",
   "status": "proved",
   "theorems": [
    "C67_expectation_of_the_hamiltonian"
   ],
   "note": ""
  },
  {
   "property": "C68",
   "status": "proved",
   "theorems": [
    "C68_density_matrices",
    "C68_density_matrices_tfac",
    "C68_equal_spins"
   ],
   "note": ""
  },
  {
   "property": "C69",
   "status": "proved",
   "theorems": [
    "C69_lambda_equations",
    "C69_left_eigenvector"
   ],
   "note": ""
  },
  {
   "property": "C70",
   "status": "proved",
   "theorems": [
    "C70_expectation_of_the_hamiltonian"
   ],
   "note": ""
  },
  {
   "property": "C71",
   "status": "proved",
   "theorems": [
    "C71_orbital_change",
    "C71_energy_invariant",
    "C71_solutions",
    "C71_arguments_exist"
   ],
   "note": ""
  },
  {
   "property": "C72",
   "status": "proved",
   "theorems": [
    "C72_size_consistency",
    "C72_energies_add",
    "C72_solutions"
   ],
   "note": ""
  },
  {
   "property": "C73",
   "status": "proved",
   "theorems": [
    "C73_linear_in_hamiltonian"
   ],
   "note": ""
  },
  {
   "property": "C74",
   "status": "proved",
   "theorems": [
    "C74_spin_flip"
   ],
   "note": ""
  },
  {
   "property": "C75",
   "status": "proved",
   "theorems": [
    "C75_scalar_map",
    "C75_fixed_scalars"
   ],
   "note": ""
  },
  {
   "property": "C76",
   "status": "proved",
   "theorems": [
    "C76_linear_in_lambda",
    "C76_affine_in_lambda",
    "C76_linearised_affine_in_amplitudes"
   ],
   "note": ""
  },
  {
   "property": "C77",
   "status": "proved",
   "theorems": [
    "C77_ccd_residuals",
    "C77_lccsd_residuals",
    "C77_lccd_residuals",
    "C77_mp2_energy"
   ],
   "note": ""
  },
  {
   "property": "C78",
   "status": "proved",
   "theorems": [
    "C78_first_order_wave_function",
    "C78_second_order_energy"
   ],
   "note": ""
  },
  {
   "property": "C79",
   "status": "proved",
   "theorems": [
    "C79_fermi_functions",
    "C79_always_in_range",
    "C79_overflow_refuted",
    "C79_arrays"
   ],
   "note": ""
  },
  {
   "property": "C80",
   "status": "proved",
   "theorems": [
    "C80_grand_potential",
    "C80_derivative",
    "C80_arrays"
   ],
   "note": ""
  },
  {
   "property": "C81",
   "status": "proved",
   "theorems": [
    "C81_sigma",
    "C81_cisd",
    "C81_cis"
   ],
   "note": ""
  },
  {
   "property": "C82",
   "status": "proved",
   "theorems": [
    "C82_ring_rpa",
    "C82_ring_energy",
    "C82_ladder_pprpa",
    "C82_ladder_energy"
   ],
   "note": ""
  },
  {
   "property": "C83",
   "status": "proved",
   "theorems": [
    "C83_eri_blocks",
    "C83_molecular_ccsd",
    "C83_unrestricted",
    "C83_restricted"
   ],
   "note": ""
  },
  {
   "property": "C84",
   "status": "proved",
   "theorems": [
    "C84_third_order_energy",
    "C84_mp3"
   ],
   "note": ""
  },
  {
   "property": "C85",
   "status": "proved",
   "theorems": [
    "C85_every_call",
    "C85_public_functions",
    "C85_table_complete",
    "C85_relative_error",
    "C85_energies",
    "C85_double_precision",
    "C85_complex",
    "C85_ccsd_100_orbitals"
   ],
   "note": "rounding to 53 bits with unbounded exponent range: no overflow or underflow."
  },
  {
   "property": "C86",
   "status": "proved",
   "theorems": [
    "C86_contributions",
    "C86_table_complete",
    "C86_lambda_stanton",
    "C86_lambda_stanton_fac_refuted"
   ],
   "note": "_Lambda_Stanton is the exception: what it does is proved, and that it does not scale with fac is shown on a concrete case."
  },
  {
   "property": "C87",
   "status": "proved",
   "theorems": [
    "C87_lambda_parts",
    "C87_energy_part",
    "C87_table_complete",
    "C87_sums_of_parts"
   ],
   "note": ""
  },
  {
   "property": "C88",
   "status": "proved",
   "theorems": [
    "C88_cis",
    "C88_closed_shell",
    "C88_cisd"
   ],
   "note": ""
  },
  {
   "property": "C89",
   "status": "proved",
   "theorems": [
    "C89_closed_shell",
    "C89_first_order_wave_function",
    "C89_second_order_energy"
   ],
   "note": ""
  },
  {
   "property": "C90",
   "status": "proved",
   "theorems": [
    "C90_crystal_energy",
    "C90_crystal_orbitals"
   ],
   "note": ""
  },
  {
   "property": "C91",
   "status": "proved",
   "theorems": [
    "C91_kmp2"
   ],
   "note": ""
  },
  {
   "property": "C92",
   "status": "proved",
   "theorems": [
    "C92_first_order_energy",
    "C92_energy_derivative"
   ],
   "note": ""
  },
  {
   "property": "C93",
   "status": "proved",
   "theorems": [
    "C93_differentiable"
   ],
   "note": ""
  },
  {
   "property": "C94",
   "status": "proved",
   "theorems": [
    "C94_unrestricted_energy_derivative",
    "C94_restricted_energy_derivative",
    "C94_unrestricted_change",
    "C94_restricted_change"
   ],
   "note": ""
  },
  {
   "property": "C95",
   "status": "proved",
   "theorems": [
    "C95_unrestricted_expectation",
    "C95_restricted_expectation"
   ],
   "note": ""
  },
  {
   "property": "C96",
   "status": "proved",
   "theorems": [
    "C96_traces",
    "C96_unrestricted_traces",
    "C96_restricted_traces"
   ],
   "note": ""
  },
  {
   "property": "C97",
   "status": "proved",
   "theorems": [
    "C97_exchange_exists",
    "C97_amplitudes",
    "C97_doubles",
    "C97_ladder_ring",
    "C97_lambda",
    "C97_doubles_lambda",
    "C97_energies",
    "C97_densities",
    "C97_densities_tfac",
    "C97_unrestricted_amplitudes",
    "C97_unrestricted_lambda",
    "C97_unrestricted_energies",
    "C97_unrestricted_densities",
    "C97_restricted_amplitudes",
    "C97_restricted_lambda",
    "C97_restricted_energy",
    "C97_restricted_densities"
   ],
   "note": ""
  },
  {
   "property": "C98",
   "status": "proved",
   "theorems": [
    "C98_change_exists",
    "C98_fock_change",
    "C98_denominators",
    "C98_doubles_fock_change",
    "C98_doubles_denominators",
    "C98_lambda_fock_change",
    "C98_lambda_denominators",
    "C98_doubles_lambda_fock_change",
    "C98_doubles_lambda_denominators",
    "C98_unrestricted_fock_change",
    "C98_unrestricted_denominators",
    "C98_unrestricted_lambda_fock_change",
    "C98_unrestricted_lambda_denominators",
    "C98_restricted_fock_change",
    "C98_restricted_denominators",
    "C98_restricted_lambda_fock_change",
    "C98_restricted_lambda_denominators"
   ],
   "note": ""
  },
  {
   "property": "C99",
   "status": "proved",
   "theorems": [
    "C99_quadratic_form",
    "C99_lower_bound",
    "C99_larger_basis",
    "C99_complete_basis",
    "C99_orthogonal",
    "C99_examples",
    "C99_ccsd_two_excitations",
    "C99_complex_form",
    "C99_complex_hermitian",
    "C99_complex_bound",
    "C99_complex_larger_basis"
   ],
   "note": ""
  },
  {
   "property": "C100",
   "status": "proved",
   "theorems": [
    "C100_mp2_energy",
    "C100_ump2_energy",
    "C100_closed_shell",
    "C100_complex_mp2",
    "C100_complex_ump2",
    "C100_complex_closed_shell",
    "C100_kmp2"
   ],
   "note": ""
  },
  {
   "property": "C101",
   "status": "proved",
   "theorems": [
    "C101_occupation",
    "C101_occupation_error",
    "C101_two_levels",
    "C101_electrons",
    "C101_grand_potential",
    "C101_grand_potential_error",
    "C101_derivatives",
    "C101_energy_and_entropy",
    "C101_gibbs",
    "C101_gibbs_equality"
   ],
   "note": ""
  },
  {
   "property": "C102",
   "status": "proved",
   "theorems": [
    "C102_spin_arrays",
    "C102_real_input",
    "C102_round_trip",
    "C102_integrals",
    "C102_ci_vectors",
    "C102_complex_refuted"
   ],
   "note": ""
  },
  {
   "property": "C103",
   "status": "proved",
   "theorems": [
    "C103_lipschitz",
    "C103_ccsd_converges",
    "C103_energies_converge",
    "C103_lambda_converges",
    "C103_doubles_converge",
    "C103_closed_shell_converges",
    "C103_closed_shell_lambda_converges",
    "C103_unrestricted_converges",
    "C103_unrestricted_lambda_converges",
    "C103_closed_shell_same_iterates"
   ],
   "note": ""
  }
 ]
}