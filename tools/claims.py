CLAIMS = {
"C01": ("proved", ["C01_two_body_closed_form", "C01_example"], ""),
"C02": ("proved", ["C02_atm_closed_form", "C02_example"], ""),
"C03": ("proved", ["C03_matrix_and_atom_energies_agree", "C03_matrix_closed_form", "C03_example"], ""),
"C04": ("proved", ["C04_atm_counts_each_triple_once", "C04_example"], ""),
"C05": ("proved", ["C05_padding_and_batching", "C05_example"], ""),
"C06": ("proved", ["C06_permutation_equivariance", "C06_example"], ""),
"C07": ("proved", ["C07_rigid_motion_invariance", "C07_example"], ""),
"C08": ("proved", ["C08_sharp_inclusive_cutoff", "C08_beyond_cutoff_moves_do_nothing", "C08_example", "C08_move_example"], ""),
"C09": ("proved", ["C02_atm_closed_form", "C09_long_edge_is_dropped_refuted"], "exact behaviour by C02, natural claim refuted"),
"C10": ("proved", ["C10_size_consistency", "C10_example"], ""),
"C11": ("proved", ["C11_two_body_attractive_and_bounded", "C11_example"], ""),
"C12": ("proved", ["C12_two_body_linear", "C12_three_body_linear", "C12_energy_linear", "C12_example", "C12_example_atm", "C12_energy_example"], ""),
"C13": ("proved", ["C13_explicit_charges_override", "C13_dftd4", "C13_example"], ""),
"C15": ("proved", ["C15_well_formed_call_returns", "C15_shipped_terms_usable", "C15_wrong_shapes_raise", "C15_example"], ""),
"C16": ("proved", ["C16_rcov_and_cn_cutoff_ignored", "C16_rcov_optional", "C13_dftd4", "C16_example"], ""),
"C14": ("proved", ["C14_no_charge_dependence", "C14_atm_ignores_charges", "C14_example"], ""),
"C25": ("proved", ["C25_omitted_parameters", "C25_omitted_example"], ""),
"C44": ("proved", ["C44_few_atoms", "C44_example"], ""),
"C45": ("proved", ["C45_explicit_model_charges", "C45_properties_are_those_of_the_energy", "C45_example"], ""),
"C46": ("proved", ["C46_dftd4_is_DispD4", "C46_defaults_agree", "C46_energy_is_sum_of_terms", "C46_sum_example", "C46_defaults_example"], ""),
"C47": ("proved", ["C47_no_net_force", "C47_example"], ""),
"C18": ("proved", ["C18_accepted_models", "C18_class_restriction_not_applied", "C18_d5_always_fails", "C18_d3_has_no_energy", "C18_instance_used_as_is", "C18_example", "C18_d3_example"], "case folding modelled for ASCII"),
"C19": ("proved", ["C19_default_cn_function", "C19_by_key", "C19_example"], ""),
"C37": ("proved", ["C37_unknown_reference_charges", "C37_example"], ""),
"C24": ("proved", ["C24_unknown_name_raises", "C24_missing_parameter_raises", "C24_switched_off_is_zero", "C24_unimplemented_order", "C24_d4_needs_a1_a2", "C24_unknown_name_in_call", "C24_example", "C24_zero_example", "C24_unimplemented_example"], ""),
"C39": ("proved", ["C39_supported_elements", "C39_too_heavy_elements", "C39_too_heavy_call", "C39_accepted_numbers", "C39_rejected_numbers", "C39_negative_example", "C39_example", "C39_call_example"], ""),
"C20": ("proved", ["C20_rational_formula", "C20_rational_bounds", "C20_rational_decreasing", "C20_example"], ""),
"C21": ("proved", ["C21_zero_damping_is_exchanged", "C21_wrong_limits", "C21_zero_damping_documented_refuted"], "documented two-body formula refuted; exact behaviour proved"),
"C22": ("proved", ["C22_modified_zero_damping", "C22_factor_increases", "C22_example"], ""),
"C23": ("proved", ["C23_optimised_power_formula", "C23_diverges", "C23_documented_is_bounded", "C23_documented_refuted"], ""),
"C38": ("proved", ["C38_reference_counts", "C38_padding_has_no_references", "C38_unique_maximal_cn", "C38_cn_nonneg", "C38_secondary_systems", "C38_pair_factors", "C38_example"], ""),
"C26": ("proved", ["C26_weights_formula", "C26_weights_bounds", "C26_weights_normalised", "C26_example"], ""),
"C28": ("proved", ["C28_dgwdcn_is_minus_derivative", "C28_documented_derivative_refuted", "C28_d4s_not_implemented", "C28_example"], "documented sign refuted; exact behaviour proved"),
"C29": ("proved", ["C29_dgwdq_derivative", "C29_example"], ""),
"C30": ("proved", ["C30_zeta_formula", "C30_range", "C30_reference_value", "C30_decreasing", "C30_monotone_refuted", "C30_weights_decrease_with_charge", "C30_example"], ""),
"C31": ("proved", ["C31_c6_symmetric", "C31_c6_nonneg", "C31_c6_formula", "C31_c6_positive", "C26_example", "C31_c6_positive_example"], ""),
"C32": ("proved", ["C32_casimir_polder", "C32_cauchy_schwarz", "C26_example"], ""),
"C33": ("proved", ["C33_d4s_reduces_to_d4", "C33_example"], ""),
"C34": ("proved", ["C34_d4s_weighted_pols", "C34_atoms_not_distinguished", "C34_batched_raises", "C34_square_batch", "C34_example", "C34_batched_example"], ""),
"C35": ("proved", ["C35_reference_polarizabilities", "C35_d4_polarizabilities", "C35_d4s_polarizabilities", "C35_d4s_batched_raises", "C26_example", "C34_batched_example"], ""),
"C36": ("proved", ["C36_c9_approx", "C36_c9_exact", "C36_example"], ""),
"C48": ("proved", ["C48_quadrature", "C48_bilinear", "C36_example"], ""),
"C40": ("proved", ["C40_pure_lookup", "C40_same_arguments_same_content", "C40_example", "C40_no_entry_example"], ""),
"C41": ("proved", ["C41_upper_case_name", "C41_no_functional_no_variant", "C41_methods", "C41_case_insensitive_refuted", "C41_example"], "documented case-insensitivity refuted; exact behaviour proved"),
"C42": ("proved", ["C42_shipped_parameters_accepted", "C42_default_section_rejected", "C42_two_body_variant_keeps_three_body", "C42_example"], ""),
"C17": ("proved", ["C17_other_objects_unaffected", "C17_register", "C17_deregister", "C17_counts", "C17_deregister_raises_iff_none", "C17_energy_of_multiset", "C17_energy_depends_on_counts_only", "C17_register_deregister", "C17_history_example"], "energies over exact reals (floating point addition depends on the order); damping classes of the package"),
"C43": ("proved", ["C43_calls_do_not_matter", "C43_calls_change_no_object", "C43_calculate_after_any_history", "C43_damping_after_any_history", "C43_dftd4_after_any_history", "C43_new_object_after_any_history", "C43_history_example"], ""),
"C27": ("proved", ["C27_weights_ieee", "C27_far_coordination_number", "C27_weights_finite", "C27_derivative_not_nan", "C27_example"], "any IEEE binary format as working precision; exp and pow are parameters, required to be non-negative (libm_nonneg) and, for the far-CN theorem, to underflow (libm_underflow)"),
"C49": ("proved", ["C49_outcome", "C49_d3_entries", "C49_d3_default_variant", "C49_signature_defaults", "C49_d3_alp", "C49_outcome_example", "C49_entries_example", "C49_default_variant_example"], "for every number type"),
"C50": ("proved", ["C50_validation", "C50_validated_refused", "C50_validated_rational_accepted", "C50_validated_energy", "C50_shipped_entries", "C50_example", "C50_variants"], "the energy comparison is over exact reals, for the D4 terms"),
"C51": ("proved", ["C51_molecule_bit_for_bit", "C51_molecule_alone", "C51_padding_coordinates", "C51_example", "C51_padding_example", "C51_nan_example"], "every number type; the distance, coordination number and charge functions are external and required to be local (dist_local, cn_local, eeq_local); the order of a sum depends on the number of summands only"),
"C52": ("proved", ["C52_padding_never_nonzero", "C52_two_body_padding_zero", "C52_three_body_padding_zero", "C52_padding_zero_always_refuted", "C52_example", "C52_two_body_example", "C52_three_body_example"], "any IEEE binary format; exactly zero for every input is refuted (NaN for infinite coefficients)"),
"C53": ("proved", ["C53_energy_formula", "C53_DispD4", "C53_DispD4Exact", "C53_dftd4", "C53_DispD4_example", "C53_DispD4Exact_example", "C53_dftd4_example"], "exact reals; the regularised external square root is required to be exact from ds on, and the three-body arguments to lie there (regular); coordination numbers and charges are those of the external functions"),
"C54": ("proved", ["C54_missing_radii", "C54_unknown_radius_type", "C54_radii_not_used", "C54_shipped_functions", "C54_default_cutoff", "C54_example"], "every number type"),
"C55": ("proved", ["C55_energy_differentiable", "C55_sharp_cutoff", "C55_continuous_refuted", "C55_energy_differentiable_example"], "exact reals; differentiability of the external coordination numbers and charges is assumed; continuity across the cutoff is refuted"),
"C56": ("proved", ["C56_concurrent_calls", "C56_every_fair_schedule_finishes", "C56_objects_survive", "C56_example", "C56_register_during_calculate", "C56_registering_threads_refuted", "C56_race_example", "C56_uninterrupted_thread", "C56_deregister_race", "C56_uninterrupted_example", "C56_deregister_race_example"], "every number type; one access to an attribute, list or constructor is one atomic step, tensors are not modified in place; the condition on shared registration is needed: C56_registering_threads_refuted shows a schedule in which a calculation has a result that it has neither before nor after the registration (a charge-dependent term evaluated without charges)"),
"C57": ("proved", ["C57_two_body_negative", "C57_D4_bounds", "C57_three_body_acute", "C57_two_body_example", "C57_D4_bounds_example", "C57_acute_example"], "exact reals; same requirements on the external functions as C53"),
"C58": ("proved", ["C58_two_body_cutoff_error", "C58_three_body_cutoff_error", "C58_example", "C58_three_body_example"], "exact reals; same requirements on the external functions as C53"),
"C59": ("proved", ["C59_energy_type", "C59_dftd4", "C59_get_properties", "C59_mixed_precision", "C59_one_device", "C59_positions_dtype_refuted", "C59_dftd4_example", "C59_energy_type_example", "C59_one_device_example"], "about ModelDtype.v, which follows the dtype, the device and the presence of dimensions of every tensor through the code; PyTorch's promotion and device rules are written there and trusted; half precision types are left out; the literal claim that energies always have the dtype of the positions is refuted for objects of another precision"),
"C60": ("proved", ["C60_lookup_any_schedule", "C60_always_finishes", "C60_times_read", "C60_read_once_refuted", "C60_alone", "C60_nonvacuous", "C60_package"], "one access to the cache, the file or a dictionary is one atomic step; lru_cache holds no lock while the function runs (CPython); the docstring of _load, file read exactly once, is refuted for overlapping calls"),
"C61": ("proved", ["C61_formula", "C61_signs", "C61_same_molecule", "C61_rigid_motion", "C61_example"], "exact reals; coordination numbers and charges are those of the external functions, whose invariance (cn_contract, eeq_contract) is assumed for C61_same_molecule and C61_rigid_motion; cerium is excepted from strict positivity"),
"C62": ("proved", ["C62_class_statement", "C62_call", "C62_binding", "C62_unknown_keyword", "C62_all_names_needed", "C62_names_example", "C62_subclass_cannot_relax", "C62_usual_class", "C62_shipped", "C62_names_hide_function", "C62_kwargs_rejected", "C62_example"], "every number type; parameters that cannot be passed by keyword, and classes that override __call__ or __init_subclass__, are left out; a body is any function of its bound arguments; two consequences that may surprise are stated as theorems: a class that only declares required names hides the function of the classes after it, and a function with **kwargs cannot be given required names"),
"C63": ("proved", ["C63_energy_never_positive", "C63_c6_never_negative", "C63_properties_never_negative", "C63_example", "C63_properties_example"], "any IEEE binary format; NaN is not excluded; exp and pow, the distance, division and van-der-Waals table are external and required to give no negative results for arguments that are not negative (libm_sign, ext_sign)"),
"C64": ("proved", ["C64_derivative_carried", "C64_forward_mode", "C64_backward_mode", "C64_forward_example", "C64_backward_example"], "the value model instantiated with numbers that carry derivatives (AdInst.v: the derivative formulas of PyTorch in exact arithmetic, forward and backward mode as two instances of one proof); coordination numbers, charges and the external functions are required to carry their own derivatives (ext_ad, trk_atoms); rounding, and NaN from 0 times an infinite derivative in branches not selected by torch.where, are not modelled"),
"C65": ("proved", ["C65_same_program", "C65_gradients", "C65_gradient_is_derivative", "C65_example", "C65_zero_padded_r4r2_refuted", "C65_mzero_padding_refuted"], "the value model with torch.where as an operation that sends a zero gradient into the branch not selected, on numbers extended by infinities and NaN (GradInst.v, ModelGrad.v; C65_same_program: with plain selection it is the value model); two cases outside the conditions are proved to give NaN: <r4>/<r2> values that require gradients padded with zeros, and the modified zero damping with parameters that require gradients and padding of zero radius"),
"C66": ("proved", ["C66_energy_finite", "C66_c6_finite", "C66_properties_finite", "C66_single_precision_sizes", "C66_double_precision_sizes", "C66_example", "C66_properties_example"], "magnitude bounds as powers of two through the whole calculation (IeeeB.v, PropsFinite.v); the tables of reference data are bounded by computation; exp and pow are assumed monotone at powers of two (pow_bounds, met by the correctly rounded library, InstFinite.v)"),
"C67": ("proved", ["C67_energy_accuracy", "C67_pair_accuracy", "C67_linear", "C67_direct_distance", "C67_single_precision_sizes", "C67_double_precision_sizes", "C67_example"], "relative errors of positive numbers (IeeeA.v), two-body term with rational damping (PropsAcc.v); the accuracy of torch.pow and of the distances are hypotheses, met by correctly rounded powers (kp = 1) and by distances evaluated directly (kd = 7 in three dimensions), InstAcc.v"),
"C68": ("proved", ["C68_no_net_force_no_net_torque", "C68_gradient_along_rigid_motions", "C68_example"], "the backward pass of C64 read along a direction, with the invariance of C07/C47; the external functions are required to carry derivatives and to depend on the molecule only"),
"C69": ("proved", ["C69_hessian", "C69_forward_orders", "C69_zero_exponent_refuted", "C69_hessian_example", "C69_forward_example"], "the value model instantiated with numbers that carry derivatives of derivatives (AdN.v: automatic differentiation over any numbers, so it can be nested); one proof for all towers of forward and backward passes (C69_derivatives_carried), instantiated to two backward passes and to k forward passes; exponents that are leaves must not be 0 (or 0..k-2 for order k), and C69_zero_exponent_refuted shows that the condition is needed; exact arithmetic"),
"C70": ("proved", ["C70_hessian_symmetric", "C70_zero_exponent_refuted", "C70_example"], "a further instance of the proof of C69: the numbers carry, besides their derivatives under displacements of every pair of leaves, a gradient and a symmetric matrix from which both backward passes can be computed (jet2); same conditions as C69; exact arithmetic"),
"C71": ("proved", ["C71_hessian_along_rigid_motions", "C71_sum_rules", "C71_example"], "a further instance of the proof of C69 in which the first backward pass is read along a velocity field (Tread), combined with the invariance of the energies (C07); the external functions are assumed to carry derivatives along, however they are read (hess_call); exact arithmetic"),
"C72": ("proved", ["C72_properties_carried", "C72_weights_carried", "C72_hessian", "C72_forward_orders", "C72_example", "C72_weights_example"], "for all numbers that carry derivatives (Laws, as C69); get_properties is run with these numbers and, near the point, with reals; coordination numbers and charges come from external functions that carry derivatives along; exact arithmetic"),
"C73": ("proved", ["C73_two_machines", "C73_same_bits_refuted", "C73_example"], "a machine is a mathematical library and an order of summation (Libm); two-body energies with rational damping; the claim that the bits agree is refuted by an example with two orders of summation"),
"C74": ("proved", ["C74_functions", "C74_trapezoid", "C74_integral", "C74_example"], "exact reals; the frequency grid is part of the specification (the code contains only the weights)"),
"C75": ("proved", ["C75_sum", "C75_order", "C75_failure", "C75_mixins", "C75_atm_formula", "C75_deregister", "C75_register", "C75_package_classes", "C75_package_equality", "C75_package_honest", "C75_sum_without_honesty_refuted"], "sum and formula over exact reals, the rest for any number type; a class is its identity and its method calculate (a function of the arguments and of the attributes damping_fn and charge_dependent), so methods with state of their own are outside; bases are ATM and mixins without bases. Refuted: that the flag alone guarantees independence of charges."),
"C76": ("proved", ["C76_atm_accuracy", "C76_correct_pow", "C76_correct_division", "C76_single_precision_sizes", "C76_double_precision_sizes", "C76_default_alp", "C76_example"], "errors relative to a majorant (IeeeM.v), three-body term with zero damping (PropsAcc3.v); C9 coefficients and radii are given floats; the accuracy of torch.pow, of the division of storch and of the distances are hypotheses, met by correct rounding (InstAcc3.v) and by direct evaluation (C67_direct_distance); the exact energies mask the pairs ij and jk, as the code does (C02)"),
"C77": ("proved", ["C77_weights_accuracy", "C77_correct_exp", "C77_double_in_single", "C77_example"], "built on C27_weights_ieee, which describes every operation; the exact formulas are gauss_weight and zeta_fun of SpecW.v; machine epsilon, added to the shifted charge by the code, is part of the exact formula; coordination numbers, charges, hardnesses and effective charges are given floats; the accuracy of exp and pow is a hypothesis, met by correct rounding (InstAccT.v)"),
"C78": ("proved", ["C78_c6_accuracy", "C78_example"], "the exact side is c6_pair of SpecW.v with the tables and parameters of the model read as real numbers (real_ext, real_kw); every number of the reference tables enters as the literal of the source and its rounding is counted; coordination numbers, charges, hardnesses and effective charges are given floats; machine epsilon in the charge scaling is part of the exact formula; accuracy of exp and pow as in C77; the correctly rounded library and single precision meet the hypotheses (InstAccC6.v)"),
"C79": ("proved", ["C79_term_accuracy", "C79_example"], "term_calculate of TwoBodyTerm with RationalDamping against two_body (SpecR.v) of c6_pair (SpecW.v); hypotheses on the exact coefficients only (c6_condition), the floats in between are not assumed to have any size; coordination numbers, charges and r4r2 are given floats; distances accurate up to kd errors and not within their errors of the cutoff, as in C67; the example is a hydrogen molecule with a padding atom of NaN coordinates, coordination number and charge in single precision (InstAccE.v)"),
"C80": ("proved", ["C80_atm_term_accuracy", "C80_correct_sqrt", "C80_example"], "term_calculate of D4ATMApprox with ZeroDamping against sums of triple_energy and triple_size (SpecR.v, PropsAcc3.v) with C9 = sqrt |c6 c6 c6| of the exact coefficients and radii a1 sqrt(3 Qi Qj) + a2; the error is relative to the sum of the sizes, as in C76, since the energy of a triple can vanish; the exact C6 coefficients of pairs of atoms are not zero; the square root of tad_mctc is external and required to be accurate from 2^-dl on (sqrt_accurate), which the correctly rounded one is (C80_correct_sqrt); the example has three hydrogen atoms and a padding atom of NaN coordinates in single precision (InstAccA.v)"),
"C81": ("proved", ["C81_sum_of_terms", "C81_example"], "run (= Disp.calculate) for any list of terms; term_accurate says what each term returns for the values calculate passes to it; the sum starts from zero and adds the terms in order; the example is DispD4's list of terms in single precision on three hydrogen atoms and a padding atom, the two terms by C79 and C80"),
"C82": ("proved", ["C82_polarizabilities", "C82_get_properties", "C82_example"], "model_polarizabilities and get_properties at IEEE numbers against pol_atom and c6_pair at the real numbers (SpecW.v, also used by C35 and C31); the coordination numbers and charges are what the external functions return, whose own errors are not modelled; the example is single precision on the hydrogen and the carbon atom of C77_example and C78_example"),
}
