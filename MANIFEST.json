{
 "claims": [
  {
   "property": "C01",
   "status": "proved",
   "theorems": [
    "C01_two_body_closed_form"
   ],
   "note": "hypotheses met: C01_example"
  },
  {
   "property": "C02",
   "status": "proved",
   "theorems": [
    "C02_atm_closed_form"
   ],
   "note": "hypotheses met: C02_example"
  },
  {
   "property": "C03",
   "status": "proved",
   "theorems": [
    "C03_matrix_and_atom_energies_agree",
    "C03_matrix_closed_form"
   ],
   "note": "hypotheses met: C03_example"
  },
  {
   "property": "C04",
   "status": "proved",
   "theorems": [
    "C04_atm_counts_each_triple_once"
   ],
   "note": "hypotheses met: C04_example"
  },
  {
   "property": "C05",
   "status": "proved",
   "theorems": [
    "C05_padding_and_batching"
   ],
   "note": "hypotheses met: C05_example"
  },
  {
   "property": "C06",
   "status": "proved",
   "theorems": [
    "C06_permutation_equivariance"
   ],
   "note": "hypotheses met: C06_example"
  },
  {
   "property": "C07",
   "status": "proved",
   "theorems": [
    "C07_rigid_motion_invariance"
   ],
   "note": "hypotheses met: C07_example"
  },
  {
   "property": "C08",
   "status": "proved",
   "theorems": [
    "C08_sharp_inclusive_cutoff",
    "C08_beyond_cutoff_moves_do_nothing"
   ],
   "note": "hypotheses met: C08_example, C08_move_example"
  },
  {
   "property": "C09",
   "status": "proved",
   "theorems": [
    "C02_atm_closed_form",
    "C09_long_edge_is_dropped_refuted"
   ],
   "note": "exact behaviour by C02, natural claim refuted"
  },
  {
   "property": "C10",
   "status": "proved",
   "theorems": [
    "C10_size_consistency"
   ],
   "note": "hypotheses met: C10_example"
  },
  {
   "property": "C11",
   "status": "proved",
   "theorems": [
    "C11_two_body_attractive_and_bounded"
   ],
   "note": "hypotheses met: C11_example"
  },
  {
   "property": "C12",
   "status": "proved",
   "theorems": [
    "C12_two_body_linear",
    "C12_three_body_linear",
    "C12_energy_linear"
   ],
   "note": "hypotheses met: C12_example, C12_example_atm, C12_energy_example"
  },
  {
   "property": "C13",
   "status": "proved",
   "theorems": [
    "C13_explicit_charges_override",
    "C13_dftd4"
   ],
   "note": "hypotheses met: C13_example"
  },
  {
   "property": "C14",
   "status": "proved",
   "theorems": [
    "C14_no_charge_dependence",
    "C14_atm_ignores_charges"
   ],
   "note": "hypotheses met: C14_example"
  },
  {
   "property": "C15",
   "status": "proved",
   "theorems": [
    "C15_well_formed_call_returns",
    "C15_shipped_terms_usable",
    "C15_wrong_shapes_raise"
   ],
   "note": "hypotheses met: C15_example"
  },
  {
   "property": "C16",
   "status": "proved",
   "theorems": [
    "C16_rcov_and_cn_cutoff_ignored",
    "C16_rcov_optional",
    "C13_dftd4"
   ],
   "note": "hypotheses met: C16_example"
  },
  {
   "property": "C17",
   "status": "proved",
   "theorems": [
    "C17_other_objects_unaffected",
    "C17_register",
    "C17_deregister",
    "C17_counts",
    "C17_deregister_raises_iff_none",
    "C17_energy_of_multiset",
    "C17_energy_depends_on_counts_only",
    "C17_register_deregister"
   ],
   "note": "energies over exact reals (floating point addition depends on the order); damping classes of the package; hypotheses met: C17_history_example"
  },
  {
   "property": "C18",
   "status": "proved",
   "theorems": [
    "C18_accepted_models",
    "C18_class_restriction_not_applied",
    "C18_d5_always_fails",
    "C18_d3_has_no_energy",
    "C18_instance_used_as_is"
   ],
   "note": "case folding modelled for ASCII; hypotheses met: C18_example, C18_d3_example"
  },
  {
   "property": "C19",
   "status": "proved",
   "theorems": [
    "C19_default_cn_function",
    "C19_by_key"
   ],
   "note": "hypotheses met: C19_example"
  },
  {
   "property": "C20",
   "status": "proved",
   "theorems": [
    "C20_rational_formula",
    "C20_rational_bounds",
    "C20_rational_decreasing"
   ],
   "note": "hypotheses met: C20_example"
  },
  {
   "property": "C21",
   "status": "proved",
   "theorems": [
    "C21_zero_damping_is_exchanged",
    "C21_wrong_limits",
    "C21_zero_damping_documented_refuted"
   ],
   "note": "documented two-body formula refuted; exact behaviour proved"
  },
  {
   "property": "C22",
   "status": "proved",
   "theorems": [
    "C22_modified_zero_damping",
    "C22_factor_increases"
   ],
   "note": "hypotheses met: C22_example"
  },
  {
   "property": "C23",
   "status": "proved",
   "theorems": [
    "C23_optimised_power_formula",
    "C23_diverges",
    "C23_documented_is_bounded",
    "C23_documented_refuted"
   ],
   "note": ""
  },
  {
   "property": "C24",
   "status": "proved",
   "theorems": [
    "C24_unknown_name_raises",
    "C24_missing_parameter_raises",
    "C24_switched_off_is_zero",
    "C24_unimplemented_order",
    "C24_d4_needs_a1_a2",
    "C24_unknown_name_in_call"
   ],
   "note": "hypotheses met: C24_example, C24_zero_example, C24_unimplemented_example"
  },
  {
   "property": "C25",
   "status": "proved",
   "theorems": [
    "C25_omitted_parameters"
   ],
   "note": "hypotheses met: C25_omitted_example"
  },
  {
   "property": "C26",
   "status": "proved",
   "theorems": [
    "C26_weights_formula",
    "C26_weights_bounds",
    "C26_weights_normalised"
   ],
   "note": "hypotheses met: C26_example"
  },
  {
   "property": "C27",
   "status": "proved",
   "theorems": [
    "C27_weights_ieee",
    "C27_far_coordination_number",
    "C27_weights_finite",
    "C27_derivative_not_nan"
   ],
   "note": "any IEEE binary format as working precision; exp and pow are parameters, required to be non-negative (libm_nonneg) and, for the far-CN theorem, to underflow (libm_underflow); hypotheses met: C27_example"
  },
  {
   "property": "C28",
   "status": "proved",
   "theorems": [
    "C28_dgwdcn_is_minus_derivative",
    "C28_documented_derivative_refuted",
    "C28_d4s_not_implemented"
   ],
   "note": "documented sign refuted; exact behaviour proved; hypotheses met: C28_example"
  },
  {
   "property": "C29",
   "status": "proved",
   "theorems": [
    "C29_dgwdq_derivative"
   ],
   "note": "hypotheses met: C29_example"
  },
  {
   "property": "C30",
   "status": "proved",
   "theorems": [
    "C30_zeta_formula",
    "C30_range",
    "C30_reference_value",
    "C30_decreasing",
    "C30_monotone_refuted",
    "C30_weights_decrease_with_charge"
   ],
   "note": "hypotheses met: C30_example"
  },
  {
   "property": "C31",
   "status": "proved",
   "theorems": [
    "C31_c6_symmetric",
    "C31_c6_nonneg",
    "C31_c6_formula",
    "C31_c6_positive"
   ],
   "note": "hypotheses met: C26_example, C31_c6_positive_example"
  },
  {
   "property": "C32",
   "status": "proved",
   "theorems": [
    "C32_casimir_polder",
    "C32_cauchy_schwarz"
   ],
   "note": "hypotheses met: C26_example"
  },
  {
   "property": "C33",
   "status": "proved",
   "theorems": [
    "C33_d4s_reduces_to_d4"
   ],
   "note": "hypotheses met: C33_example"
  },
  {
   "property": "C34",
   "status": "proved",
   "theorems": [
    "C34_d4s_weighted_pols",
    "C34_atoms_not_distinguished",
    "C34_batched_raises",
    "C34_square_batch"
   ],
   "note": "hypotheses met: C34_example, C34_batched_example"
  },
  {
   "property": "C35",
   "status": "proved",
   "theorems": [
    "C35_reference_polarizabilities",
    "C35_d4_polarizabilities",
    "C35_d4s_polarizabilities",
    "C35_d4s_batched_raises"
   ],
   "note": "hypotheses met: C26_example, C34_batched_example"
  },
  {
   "property": "C36",
   "status": "proved",
   "theorems": [
    "C36_c9_approx",
    "C36_c9_exact"
   ],
   "note": "hypotheses met: C36_example"
  },
  {
   "property": "C37",
   "status": "proved",
   "theorems": [
    "C37_unknown_reference_charges"
   ],
   "note": "hypotheses met: C37_example"
  },
  {
   "property": "C38",
   "status": "proved",
   "theorems": [
    "C38_reference_counts",
    "C38_padding_has_no_references",
    "C38_unique_maximal_cn",
    "C38_cn_nonneg",
    "C38_secondary_systems",
    "C38_pair_factors"
   ],
   "note": "hypotheses met: C38_example"
  },
  {
   "property": "C39",
   "status": "proved",
   "theorems": [
    "C39_supported_elements",
    "C39_too_heavy_elements",
    "C39_too_heavy_call",
    "C39_accepted_numbers",
    "C39_rejected_numbers"
   ],
   "note": "hypotheses met: C39_negative_example, C39_example, C39_call_example"
  },
  {
   "property": "C40",
   "status": "proved",
   "theorems": [
    "C40_pure_lookup",
    "C40_same_arguments_same_content"
   ],
   "note": "hypotheses met: C40_example, C40_no_entry_example"
  },
  {
   "property": "C41",
   "status": "proved",
   "theorems": [
    "C41_upper_case_name",
    "C41_no_functional_no_variant",
    "C41_methods",
    "C41_case_insensitive_refuted"
   ],
   "note": "documented case-insensitivity refuted; exact behaviour proved; hypotheses met: C41_example"
  },
  {
   "property": "C42",
   "status": "proved",
   "theorems": [
    "C42_shipped_parameters_accepted",
    "C42_default_section_rejected",
    "C42_two_body_variant_keeps_three_body"
   ],
   "note": "hypotheses met: C42_example"
  },
  {
   "property": "C43",
   "status": "proved",
   "theorems": [
    "C43_calls_do_not_matter",
    "C43_calls_change_no_object",
    "C43_calculate_after_any_history",
    "C43_damping_after_any_history",
    "C43_dftd4_after_any_history",
    "C43_new_object_after_any_history"
   ],
   "note": "hypotheses met: C43_history_example"
  },
  {
   "property": "C44",
   "status": "proved",
   "theorems": [
    "C44_few_atoms"
   ],
   "note": "hypotheses met: C44_example"
  },
  {
   "property": "C45",
   "status": "proved",
   "theorems": [
    "C45_explicit_model_charges",
    "C45_properties_are_those_of_the_energy"
   ],
   "note": "hypotheses met: C45_example"
  },
  {
   "property": "C46",
   "status": "proved",
   "theorems": [
    "C46_dftd4_is_DispD4",
    "C46_defaults_agree",
    "C46_energy_is_sum_of_terms"
   ],
   "note": "hypotheses met: C46_sum_example, C46_defaults_example"
  },
  {
   "property": "C47",
   "status": "proved",
   "theorems": [
    "C47_no_net_force"
   ],
   "note": "hypotheses met: C47_example"
  },
  {
   "property": "C48",
   "status": "proved",
   "theorems": [
    "C48_quadrature",
    "C48_bilinear"
   ],
   "note": "hypotheses met: C36_example"
  },
  {
   "property": "C49",
   "status": "proved",
   "theorems": [
    "C49_outcome",
    "C49_d3_entries",
    "C49_d3_default_variant",
    "C49_signature_defaults",
    "C49_d3_alp"
   ],
   "note": "for every number type; hypotheses met: C49_outcome_example, C49_entries_example, C49_default_variant_example"
  },
  {
   "property": "C50",
   "status": "proved",
   "theorems": [
    "C50_validation",
    "C50_validated_refused",
    "C50_validated_rational_accepted",
    "C50_validated_energy",
    "C50_shipped_entries",
    "C50_variants"
   ],
   "note": "the energy comparison is over exact reals, for the D4 terms; hypotheses met: C50_example"
  },
  {
   "property": "C51",
   "status": "proved",
   "theorems": [
    "C51_molecule_bit_for_bit",
    "C51_molecule_alone",
    "C51_padding_coordinates"
   ],
   "note": "every number type; the distance, coordination number and charge functions are external and required to be local (dist_local, cn_local, eeq_local); the order of a sum depends on the number of summands only; hypotheses met: C51_example, C51_padding_example, C51_nan_example"
  },
  {
   "property": "C52",
   "status": "proved",
   "theorems": [
    "C52_padding_never_nonzero",
    "C52_two_body_padding_zero",
    "C52_three_body_padding_zero",
    "C52_padding_zero_always_refuted"
   ],
   "note": "any IEEE binary format; exactly zero for every input is refuted (NaN for infinite coefficients); hypotheses met: C52_example, C52_two_body_example, C52_three_body_example"
  },
  {
   "property": "C53",
   "status": "proved",
   "theorems": [
    "C53_energy_formula",
    "C53_DispD4",
    "C53_DispD4Exact",
    "C53_dftd4"
   ],
   "note": "exact reals; the regularised external square root is required to be exact from ds on, and the three-body arguments to lie there (regular); coordination numbers and charges are those of the external functions; hypotheses met: C53_DispD4_example, C53_DispD4Exact_example, C53_dftd4_example"
  },
  {
   "property": "C54",
   "status": "proved",
   "theorems": [
    "C54_missing_radii",
    "C54_unknown_radius_type",
    "C54_radii_not_used",
    "C54_shipped_functions",
    "C54_default_cutoff"
   ],
   "note": "every number type; hypotheses met: C54_example"
  },
  {
   "property": "C55",
   "status": "proved",
   "theorems": [
    "C55_energy_differentiable",
    "C55_sharp_cutoff",
    "C55_continuous_refuted"
   ],
   "note": "exact reals; differentiability of the external coordination numbers and charges is assumed; continuity across the cutoff is refuted; hypotheses met: C55_energy_differentiable_example"
  },
  {
   "property": "C56",
   "status": "proved",
   "theorems": [
    "C56_concurrent_calls",
    "C56_every_fair_schedule_finishes",
    "C56_objects_survive",
    "C56_register_during_calculate",
    "C56_registering_threads_refuted",
    "C56_uninterrupted_thread",
    "C56_deregister_race"
   ],
   "note": "every number type; one access to an attribute, list or constructor is one atomic step, tensors are not modified in place; the condition on shared registration is needed: C56_registering_threads_refuted shows a schedule in which a calculation has a result that it has neither before nor after the registration (a charge-dependent term evaluated without charges); hypotheses met: C56_example, C56_race_example, C56_uninterrupted_example, C56_deregister_race_example"
  },
  {
   "property": "C57",
   "status": "proved",
   "theorems": [
    "C57_two_body_negative",
    "C57_D4_bounds",
    "C57_three_body_acute"
   ],
   "note": "exact reals; same requirements on the external functions as C53; hypotheses met: C57_two_body_example, C57_D4_bounds_example, C57_acute_example"
  },
  {
   "property": "C58",
   "status": "proved",
   "theorems": [
    "C58_two_body_cutoff_error",
    "C58_three_body_cutoff_error"
   ],
   "note": "exact reals; same requirements on the external functions as C53; hypotheses met: C58_example, C58_three_body_example"
  },
  {
   "property": "C59",
   "status": "proved",
   "theorems": [
    "C59_energy_type",
    "C59_dftd4",
    "C59_get_properties",
    "C59_mixed_precision",
    "C59_one_device",
    "C59_positions_dtype_refuted"
   ],
   "note": "about ModelDtype.v, which follows the dtype, the device and the presence of dimensions of every tensor through the code; PyTorch's promotion and device rules are written there and trusted; half precision types are left out; the literal claim that energies always have the dtype of the positions is refuted for objects of another precision; hypotheses met: C59_dftd4_example, C59_energy_type_example, C59_one_device_example"
  },
  {
   "property": "C60",
   "status": "proved",
   "theorems": [
    "C60_lookup_any_schedule",
    "C60_always_finishes",
    "C60_times_read",
    "C60_read_once_refuted",
    "C60_alone"
   ],
   "note": "one access to the cache, the file or a dictionary is one atomic step; lru_cache holds no lock while the function runs (CPython); the docstring of _load, file read exactly once, is refuted for overlapping calls; hypotheses met: C60_nonvacuous, C60_package"
  },
  {
   "property": "C61",
   "status": "proved",
   "theorems": [
    "C61_formula",
    "C61_signs",
    "C61_same_molecule",
    "C61_rigid_motion"
   ],
   "note": "exact reals; coordination numbers and charges are those of the external functions, whose invariance (cn_contract, eeq_contract) is assumed for C61_same_molecule and C61_rigid_motion; cerium is excepted from strict positivity; hypotheses met: C61_example"
  },
  {
   "property": "C62",
   "status": "proved",
   "theorems": [
    "C62_class_statement",
    "C62_call",
    "C62_binding",
    "C62_unknown_keyword",
    "C62_all_names_needed",
    "C62_subclass_cannot_relax",
    "C62_usual_class",
    "C62_shipped",
    "C62_names_hide_function",
    "C62_kwargs_rejected"
   ],
   "note": "every number type; parameters that cannot be passed by keyword, and classes that override __call__ or __init_subclass__, are left out; a body is any function of its bound arguments; two consequences that may surprise are stated as theorems: a class that only declares required names hides the function of the classes after it, and a function with **kwargs cannot be given required names; hypotheses met: C62_names_example, C62_example"
  },
  {
   "property": "C63",
   "status": "proved",
   "theorems": [
    "C63_energy_never_positive",
    "C63_c6_never_negative",
    "C63_properties_never_negative"
   ],
   "note": "any IEEE binary format; NaN is not excluded; exp and pow, the distance, division and van-der-Waals table are external and required to give no negative results for arguments that are not negative (libm_sign, ext_sign); hypotheses met: C63_example, C63_properties_example"
  },
  {
   "property": "C64",
   "status": "proved",
   "theorems": [
    "C64_derivative_carried",
    "C64_forward_mode",
    "C64_backward_mode"
   ],
   "note": "the value model instantiated with numbers that carry derivatives (AdInst.v: the derivative formulas of PyTorch in exact arithmetic, forward and backward mode as two instances of one proof); coordination numbers, charges and the external functions are required to carry their own derivatives (ext_ad, trk_atoms); rounding, and NaN from 0 times an infinite derivative in branches not selected by torch.where, are not modelled; hypotheses met: C64_forward_example, C64_backward_example"
  },
  {
   "property": "C65",
   "status": "proved",
   "theorems": [
    "C65_same_program",
    "C65_gradients",
    "C65_gradient_is_derivative",
    "C65_zero_padded_r4r2_refuted",
    "C65_mzero_padding_refuted"
   ],
   "note": "the value model with torch.where as an operation that sends a zero gradient into the branch not selected, on numbers extended by infinities and NaN (GradInst.v, ModelGrad.v; C65_same_program: with plain selection it is the value model); two cases outside the conditions are proved to give NaN: <r4>/<r2> values that require gradients padded with zeros, and the modified zero damping with parameters that require gradients and padding of zero radius; hypotheses met: C65_example"
  },
  {
   "property": "C66",
   "status": "proved",
   "theorems": [
    "C66_energy_finite",
    "C66_c6_finite",
    "C66_properties_finite",
    "C66_single_precision_sizes",
    "C66_double_precision_sizes"
   ],
   "note": "magnitude bounds as powers of two through the whole calculation (IeeeB.v, PropsFinite.v); the tables of reference data are bounded by computation; exp and pow are assumed monotone at powers of two (pow_bounds, met by the correctly rounded library, InstFinite.v); hypotheses met: C66_example, C66_properties_example"
  },
  {
   "property": "C67",
   "status": "proved",
   "theorems": [
    "C67_energy_accuracy",
    "C67_pair_accuracy",
    "C67_linear",
    "C67_direct_distance",
    "C67_single_precision_sizes",
    "C67_double_precision_sizes"
   ],
   "note": "relative errors of positive numbers (IeeeA.v), two-body term with rational damping (PropsAcc.v); the accuracy of torch.pow and of the distances are hypotheses, met by correctly rounded powers (kp = 1) and by distances evaluated directly (kd = 7 in three dimensions), InstAcc.v; hypotheses met: C67_example"
  },
  {
   "property": "C68",
   "status": "proved",
   "theorems": [
    "C68_no_net_force_no_net_torque",
    "C68_gradient_along_rigid_motions"
   ],
   "note": "the backward pass of C64 read along a direction, with the invariance of C07/C47; the external functions are required to carry derivatives and to depend on the molecule only; hypotheses met: C68_example"
  },
  {
   "property": "C69",
   "status": "proved",
   "theorems": [
    "C69_hessian",
    "C69_forward_orders",
    "C69_zero_exponent_refuted"
   ],
   "note": "the value model instantiated with numbers that carry derivatives of derivatives (AdN.v: automatic differentiation over any numbers, so it can be nested); one proof for all towers of forward and backward passes (C69_derivatives_carried), instantiated to two backward passes and to k forward passes; exponents that are leaves must not be 0 (or 0..k-2 for order k), and C69_zero_exponent_refuted shows that the condition is needed; exact arithmetic; hypotheses met: C69_hessian_example, C69_forward_example"
  },
  {
   "property": "C70",
   "status": "proved",
   "theorems": [
    "C70_hessian_symmetric",
    "C70_zero_exponent_refuted"
   ],
   "note": "a further instance of the proof of C69: the numbers carry, besides their derivatives under displacements of every pair of leaves, a gradient and a symmetric matrix from which both backward passes can be computed (jet2); same conditions as C69; exact arithmetic; hypotheses met: C70_example"
  },
  {
   "property": "C71",
   "status": "proved",
   "theorems": [
    "C71_hessian_along_rigid_motions",
    "C71_sum_rules"
   ],
   "note": "a further instance of the proof of C69 in which the first backward pass is read along a velocity field (Tread), combined with the invariance of the energies (C07); the external functions are assumed to carry derivatives along, however they are read (hess_call); exact arithmetic; hypotheses met: C71_example"
  },
  {
   "property": "C72",
   "status": "proved",
   "theorems": [
    "C72_properties_carried",
    "C72_weights_carried",
    "C72_hessian",
    "C72_forward_orders"
   ],
   "note": "for all numbers that carry derivatives (Laws, as C69); get_properties is run with these numbers and, near the point, with reals; coordination numbers and charges come from external functions that carry derivatives along; exact arithmetic; hypotheses met: C72_example, C72_weights_example"
  },
  {
   "property": "C73",
   "status": "proved",
   "theorems": [
    "C73_two_machines",
    "C73_same_bits_refuted"
   ],
   "note": "a machine is a mathematical library and an order of summation (Libm); two-body energies with rational damping; the claim that the bits agree is refuted by an example with two orders of summation; hypotheses met: C73_example"
  },
  {
   "property": "C74",
   "status": "proved",
   "theorems": [
    "C74_functions",
    "C74_trapezoid",
    "C74_integral"
   ],
   "note": "exact reals; the frequency grid is part of the specification (the code contains only the weights); hypotheses met: C74_example"
  },
  {
   "property": "C75",
   "status": "proved",
   "theorems": [
    "C75_sum",
    "C75_order",
    "C75_failure",
    "C75_mixins",
    "C75_atm_formula",
    "C75_deregister",
    "C75_register",
    "C75_package_classes",
    "C75_package_equality",
    "C75_package_honest",
    "C75_sum_without_honesty_refuted"
   ],
   "note": "sum and formula over exact reals, the rest for any number type; a class is its identity and its method calculate (a function of the arguments and of the attributes damping_fn and charge_dependent), so methods with state of their own are outside; bases are ATM and mixins without bases. Refuted: that the flag alone guarantees independence of charges."
  },
  {
   "property": "C76",
   "status": "proved",
   "theorems": [
    "C76_atm_accuracy",
    "C76_correct_pow",
    "C76_correct_division",
    "C76_single_precision_sizes",
    "C76_double_precision_sizes",
    "C76_default_alp"
   ],
   "note": "errors relative to a majorant (IeeeM.v), three-body term with zero damping (PropsAcc3.v); C9 coefficients and radii are given floats; the accuracy of torch.pow, of the division of storch and of the distances are hypotheses, met by correct rounding (InstAcc3.v) and by direct evaluation (C67_direct_distance); the exact energies mask the pairs ij and jk, as the code does (C02); hypotheses met: C76_example"
  },
  {
   "property": "C77",
   "status": "proved",
   "theorems": [
    "C77_weights_accuracy",
    "C77_correct_exp",
    "C77_double_in_single"
   ],
   "note": "built on C27_weights_ieee, which describes every operation; the exact formulas are gauss_weight and zeta_fun of SpecW.v; machine epsilon, added to the shifted charge by the code, is part of the exact formula; coordination numbers, charges, hardnesses and effective charges are given floats; the accuracy of exp and pow is a hypothesis, met by correct rounding (InstAccT.v); hypotheses met: C77_example"
  },
  {
   "property": "C78",
   "status": "proved",
   "theorems": [
    "C78_c6_accuracy"
   ],
   "note": "the exact side is c6_pair of SpecW.v with the tables and parameters of the model read as real numbers (real_ext, real_kw); every number of the reference tables enters as the literal of the source and its rounding is counted; coordination numbers, charges, hardnesses and effective charges are given floats; machine epsilon in the charge scaling is part of the exact formula; accuracy of exp and pow as in C77; the correctly rounded library and single precision meet the hypotheses (InstAccC6.v); hypotheses met: C78_example"
  },
  {
   "property": "C79",
   "status": "proved",
   "theorems": [
    "C79_term_accuracy"
   ],
   "note": "term_calculate of TwoBodyTerm with RationalDamping against two_body (SpecR.v) of c6_pair (SpecW.v); hypotheses on the exact coefficients only (c6_condition), the floats in between are not assumed to have any size; coordination numbers, charges and r4r2 are given floats; distances accurate up to kd errors and not within their errors of the cutoff, as in C67; the example is a hydrogen molecule with a padding atom of NaN coordinates, coordination number and charge in single precision (InstAccE.v); hypotheses met: C79_example"
  },
  {
   "property": "C80",
   "status": "proved",
   "theorems": [
    "C80_atm_term_accuracy",
    "C80_correct_sqrt"
   ],
   "note": "term_calculate of D4ATMApprox with ZeroDamping against sums of triple_energy and triple_size (SpecR.v, PropsAcc3.v) with C9 = sqrt |c6 c6 c6| of the exact coefficients and radii a1 sqrt(3 Qi Qj) + a2; the error is relative to the sum of the sizes, as in C76, since the energy of a triple can vanish; the exact C6 coefficients of pairs of atoms are not zero; the square root of tad_mctc is external and required to be accurate from 2^-dl on (sqrt_accurate), which the correctly rounded one is (C80_correct_sqrt); the example has three hydrogen atoms and a padding atom of NaN coordinates in single precision (InstAccA.v); hypotheses met: C80_example"
  },
  {
   "property": "C81",
   "status": "proved",
   "theorems": [
    "C81_sum_of_terms"
   ],
   "note": "run (= Disp.calculate) for any list of terms; term_accurate says what each term returns for the values calculate passes to it; the sum starts from zero and adds the terms in order; the example is DispD4's list of terms in single precision on three hydrogen atoms and a padding atom, the two terms by C79 and C80; hypotheses met: C81_example"
  },
  {
   "property": "C82",
   "status": "proved",
   "theorems": [
    "C82_polarizabilities",
    "C82_get_properties"
   ],
   "note": "model_polarizabilities and get_properties at IEEE numbers against pol_atom and c6_pair at the real numbers (SpecW.v, also used by C35 and C31); the coordination numbers and charges are what the external functions return, whose own errors are not modelled; the example is single precision on the hydrogen and the carbon atom of C77_example and C78_example; hypotheses met: C82_example"
  }
 ]
}