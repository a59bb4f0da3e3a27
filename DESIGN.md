# Formal model of tad-dftd4 in Rocq (Coq 8.16.1)

## 1. Shape of the development

One executable-style Gallina model, generic in the number type, mirroring the Python
function by function and *tensor operation by tensor operation*:

| layer | content |
|---|---|
| `Py*.v`, `Tensor*.v` | exceptions as values (`res`), PyTorch tensors with shapes, broadcasting, `unsqueeze`, `where`, `sum`, advanced indexing, `einsum` with ellipsis |
| `Scalar*.v` | record of floating point operations; instances: exact reals, IEEE-754 (Flocq), numbers with derivatives |
| `Data*.v` | the reference tables and TOML files of /repo, generated verbatim (exact decimals) |
| `Model*.v` | the code: utils, damping, models D4/D4S, two-/three-body terms, `Disp`, `dftd4`, `get_properties`, `get_params` |
| `Spec*.v` | independent textbook specifications, small |
| `Props*.v` | only property theorems, each closed by `exact`, with `Print Assumptions` |

Functions of the *external* packages (tad_mctc, tad_multicharge) are parameters of the model,
collected in one record; what a theorem needs of them is an explicit hypothesis of that theorem,
with an instance proved to satisfy it.

The properties and per-property plan are in section 3; the trusted base in section 2.

## 2. Trusted base

### 2.1 What has to be believed

* **Coq's kernel** (8.16.1, including its virtual machine, used by `vm_compute` for the table checks).
  No kernel check is switched off, there are no axioms, parameters, admitted proofs, functors or
  module types of our own, and no plugins.
* **Axioms of the standard library**, and of nothing else, as listed by `Print Assumptions`:
  * `ClassicalDedekindReals.sig_forall_dec`, `ClassicalDedekindReals.sig_not_dec` and
    `FunctionalExtensionality.functional_extensionality_dep`: the construction of the real numbers;
  * `Classical_Prop.classic`: through the theory of limits, powers and square roots, through Flocq,
    and in one case distinction of `charges_unique`.
  Libraries used: the standard library, and Flocq (definitions and lemmas of IEEE arithmetic; no axioms
  of its own). The constants of `Rdefinitions` and `ssrunder` that a whole-library listing shows
  are opaque module fields of the standard library with proofs, not assumptions of the theorems.
* **Fidelity of the model to the Python text.** Every definition of the `Model*.v` files cites the
  file and lines it models. The tables (`Data*.v`) are generated by `tools/gendata.py` from the
  Python and TOML text, as exact decimals.
* **The semantics of PyTorch and Python** written in `Tensor.v` and `Py.v`: shapes, broadcasting,
  `unsqueeze`, `where`, `sum`, `gather` by integer tensors (negative indices wrap, indices out of range
  raise `IndexError`), `einsum` with ellipsis, exceptions as values, keyword binding,
  dictionaries, `lru_cache`, `copy`/aliasing (`ModelLoader.v`, `ModelStore.v`).
* **The hypotheses about external packages** stated in each theorem (2.3).
* That the specification files (`Spec*.v`) say what the English says. They contain no tensor code.

### 2.2 What is modelled, and what is not

| file of /repo/src/tad_dftd4 | modelled | not modelled |
|---|---|---|
| `disp.py` | `dftd4`, `get_properties` (`ModelDisp.v`; with object identities `ModelStore.v`; in several threads `ModelConc.v`; dtypes and devices `ModelDtype.v`) | - |
| `dispersion/base.py` | `DispTerm` (attributes, `__eq__`, user-defined subclasses in `ModelUser.v`), `Disp.__init__`, `register`, `deregister`, `get_model`, `get_r4r2`, `get_rvdw`, `calculate` | `get_rcov` (never called), `__str__`, `__repr__`; assignment to attributes by the user; user-defined terms whose `calculate` has state of its own or overrides `__init__`/`__eq__` |
| `dispersion/twobody.py` | `dispersion2`, `TwoBodyTerm.calculate` | - |
| `dispersion/threebody.py` | `get_atm_dispersion`, `ATM.calculate`, the four mixins; user-defined subclasses of `ATM` (`ModelUser.v`: bases are `ATM` and mixins that have no base class) | subclasses of subclasses, multiple inheritance from mixins with bases (C3 linearisation) |
| `dispersion/d3.py`, `d4.py` | the term lists of `DispD3BJ`, `DispD3Zero`, `DispD4`, `DispD4Exact`; `ALLOWED_MODELS` (not consulted by the code) | - |
| `damping/functions.py` | `Damping.__call__`, `_checked_f`, `__eq__`, `doi`; `RationalDamping`, `ZeroDamping`, `MZeroDamping`, `OptimisedPowerDamping`; arbitrary user-defined `_f` as a function; class definitions with `__init_subclass__`, attribute lookup and argument binding (`ModelSubclass.v`); `ZDamping` | positional-only parameters; subclasses that override `__call__` or `__init_subclass__` |
| `damping/parameters/base.py` | `DispersionMethod`, `Variant`, the four pydantic data classes, `PARAM_MODELS` (`ModelParams.v`) | conversion of numeric strings by pydantic |
| `damping/parameters/loader.py` | `_load`, `get_params` with cache, heap and aliasing (`ModelLoader.v`), in several threads (`ModelLoaderConc.v`); both TOML files | the `reference` entries of the TOML files |
| `model/base.py` | `__init__`, `_zeta`, `_dzeta`, `_get_alpha`, `_get_refc6`, `get_polarizabilities` | `__str__`, `__repr__` |
| `model/d4.py`, `d4s.py` | `_get_wf`, `weight_references` (all four return types), `get_atomic_c6`, `get_weighted_pols`, `D4SDebug._get_wf` | - |
| `model/d3.py`, `d5.py` | construction; their missing methods | - |
| `cutoff.py`, `defaults.py`, `utils.py` | all | `TensorLike.type`, `TensorLike.to` |
| `data/`, `reference/` | all tables | - |

Simplifications:

* One working floating point type per call (plus double precision inside `weight_references`,
  which the code uses explicitly). Precision and device of every tensor are followed separately
  in `ModelDtype.v` (C59), without values. One consequence for values is left out: the default `a1`
  of the three-body radii is a tensor of the term's own dtype, which for the constructor calls of the
  package is the default dtype (single precision), so that a missing `a1` means 0.4 rounded to single
  precision in a double precision calculation (all other defaults are exact in single precision).
* A sum of n numbers is taken along a tree of additions (`stree`, `plan` in Scalar.v) that belongs to the
  machine: any tree in which each summand occurs once. The statements about IEEE arithmetic (C27, C52,
  C63, C66, C67, ...) quantify over it, together with the mathematical library (`Libm`). On one machine the tree
  depends on the number of summands only; C51 (bit for bit equality) rests on that. Not covered: fused
  multiply-add inside `einsum`. An `einsum` of three operands that sums over two indices is carried out in two steps,
  as the code prescribes with `optimize=[(0, 1), (0, 1)]` (`get_atomic_c6`). In exact arithmetic, and where derivatives are followed over the reals,
  the order is no restriction and index order is used.
* `D3Model` and `D5Model` inherit abstract methods that return `None`; the model raises the error that the use of
  `None` causes (`TypeError` in the two-body term, `AttributeError` in the three-body term).
* Unknown keyword arguments of models are not represented (the record `mkwargs` has the known ones).
* `str.casefold` is modelled for ASCII letters.
* Parameter values are tensors without dimensions, `None`, or (for `doi`) strings.
* `assert` statements are enabled.
* Objects created inside `dftd4` are collected after the call.
* IEEE arithmetic: round to nearest even, gradual underflow (no flush to zero), NaN payloads not
  distinguished; `exp` and `pow` are not specified by IEEE 754 and are parameters (`Libm`).
* Automatic differentiation (C64): exact arithmetic; `torch.where` and indexing hand on the derivative of the
  entry they select. Rounding of derivatives, `detach`, `no_grad` and in-place accumulation into `.grad` are not
  modelled. Derivatives of derivatives (C69): the derivative formulas are carried out on numbers that carry
  derivatives themselves (AdN.v); literals and masks in the formulas carry none.
* Backward pass with infinities and NaN (C65): `torch.where` sends a zero gradient into the branch that is not
  selected. Finite arithmetic is exact (no overflow, no underflow), there is one zero, and a gradient that
  reaches an entry along several paths is handed on along each path and summed at the leaf, not summed at the
  entry first. Integer powers with exponent 0 have derivative 0.

### 2.3 External functions and what is assumed of them

`tad_mctc` and `tad_multicharge` are not part of /repo. Their functions are fields of the records `Ext`
(`x_dist` = `storch.cdist`, `x_div` = `storch.divide`, `x_sqrt` = `storch.sqrt`, tables `x_zeff`, `x_gam`, `x_vdw`) and
`World` (`w_cn_d3`, `w_cn_d4`, `w_erf_count`, `w_eeq`). The masks `real_atoms`, `real_pairs`, `real_triples` are
defined in `ModelExt.v` as documented. Assumptions are hypotheses of the theorems:

| name | meaning | instance |
|---|---|---|
| `ext_tables` | the tables have an entry for each element 0..103 | `Xex_tables` |
| `dist_contract d0` | the distance is a function of the squared Euclidean distance, non-negative, and exact from `d0` on | `Xex_dist`, `Xreg_dist` |
| `dist_metric` | the distance is a function of the squared Euclidean distance | `Xex_metric` |
| `div_contract` | division, where the divisor is not 0 | `Xex_div` |
| `sqrt_contract ds` | the square root is exact from `ds` on, and non-negative | `Xex_sqrt`, `Xreg_sqrt` |
| `cn_contract`, `eeq_contract` | coordination numbers and charges of a molecule depend on that molecule only, not on order or padding | `cn_ex_contract`, `eeq_ex_contract` |
| `dist_local`, `cn_local`, `eeq_local` (C51) | the same bit for bit | `InstAny.v` |
| `libm_nonneg`, `libm_underflow`, `exp_ok` (C27) | `exp`, `pow` are not negative, underflow to zero, and stay finite and not NaN on the arguments in question | `InstIeee.v` |
| `ext_ad`, `trk_atoms` (C64) | distance, `storch.divide`, `storch.sqrt`, coordination numbers and charges carry along their derivatives; tables are constant | `Xad_carries`, `ex_smooth` |
| `ext_live`, `live_mol` (C65) | distance, `storch.divide` and `storch.sqrt` have finite gradients (the package clamps their arguments), as have coordination numbers and charges; tables are constant | `Xsafe_live`, `ex_mol` |
| `libm_sign`, `ext_sign` (C63) | `exp`, `pow`, distances, `storch.divide` and van-der-Waals radii are not negative for arguments that are not negative | `Lcr_sign`, `Xl_sign` |
| `pow_bounds`, `storch_bounds`, `charges_ok` (C66) | `pow` is not NaN for a base that is neither negative nor NaN and stays on the right side of powers of two; so do `storch.divide`, `storch.sqrt` and the exponential in the charge scaling | `Lcr_pow_bounds`, `Xl_storch`, `two_mols_charges` |
| `pow_accurate`, `acc_geometry` (C67) | `torch.pow` with an integer exponent and the distances are accurate to a given number of rounding errors | `Lcr_pow_accurate`, `C67_direct_distance`, `C67_example` |
| `rpow_accurate`, `div_accurate`, `tri_geometry` (C76) | `torch.pow` with two floats, the division of `tad_mctc.storch` and the distances are accurate to a given number of rounding errors | `C76_correct_pow`, `C76_correct_division`, `C76_example` |
| `exp_accurate` (C77, with `rpow_accurate` and `pow_accurate` in double precision) | `torch.exp` is accurate to a given number of rounding errors where its value is in range | `C77_correct_exp`, `C77_example` |
| `grad_call` (C68) | as for C64, for every way of reading the derivatives, and for every geometry of the right shape | `ex_grad_call`, `C68_example` |
| `ext_ad`, `trk_atoms` of SpecADN.v (C69, C70) | as for C64, for derivatives of all orders in question | `XadN_carries`, `C69_hessian_example`, `C69_forward_example`, `C70_example` |
| `hess_call` (C71) | as for C69, for every way of reading the derivatives (`Tread`), and for every geometry of the right shape | `ex_hess_call`, `C71_example` |
| `same_props`, `smooth_props` (C72) | coordination numbers and charges carry derivatives along; the effective charge is neither 0 nor the regulariser | `C72_example` (18 coordinates as leaves), `C72_weights_example` (D4S) |

### 2.4 `Print Assumptions` of every theorem in MANIFEST.json

Generated by `tools/assumptions.py`.

* **no axioms (closed under the global context)** - 107 theorems:
  C13_explicit_charges_override, C13_dftd4, C14_no_charge_dependence, C15_well_formed_call_returns, C15_shipped_terms_usable, C15_wrong_shapes_raise, C16_rcov_and_cn_cutoff_ignored, C16_rcov_optional, C17_other_objects_unaffected, C17_register, C17_deregister, C17_counts, C17_deregister_raises_iff_none, C18_accepted_models, C18_class_restriction_not_applied, C18_d5_always_fails, C18_d3_has_no_energy, C18_instance_used_as_is, C19_default_cn_function, C19_by_key, C24_unknown_name_raises, C24_missing_parameter_raises, C24_switched_off_is_zero, C24_unimplemented_order, C24_d4_needs_a1_a2, C24_unknown_name_in_call, C37_unknown_reference_charges, C38_reference_counts, C38_padding_has_no_references, C39_supported_elements, C39_too_heavy_elements, C39_too_heavy_call, C39_rejected_numbers, C40_pure_lookup, C40_same_arguments_same_content, C41_upper_case_name, C41_no_functional_no_variant, C41_methods, C41_case_insensitive_refuted, C42_shipped_parameters_accepted, C42_default_section_rejected, C43_calls_do_not_matter, C43_calls_change_no_object, C43_calculate_after_any_history, C43_damping_after_any_history, C43_dftd4_after_any_history, C43_new_object_after_any_history, C45_explicit_model_charges, C46_dftd4_is_DispD4, C46_defaults_agree, C49_outcome, C49_d3_entries, C49_d3_default_variant, C49_signature_defaults, C49_d3_alp, C50_validation, C50_validated_refused, C50_validated_rational_accepted, C50_shipped_entries, C50_variants, C51_molecule_bit_for_bit, C51_molecule_alone, C51_padding_coordinates, C54_missing_radii, C54_unknown_radius_type, C54_radii_not_used, C54_shipped_functions, C54_default_cutoff, C56_concurrent_calls, C56_every_fair_schedule_finishes, C56_objects_survive, C56_register_during_calculate, C56_uninterrupted_thread, C56_deregister_race, C59_energy_type, C59_dftd4, C59_get_properties, C59_mixed_precision, C59_one_device, C59_positions_dtype_refuted, C60_lookup_any_schedule, C60_always_finishes, C60_times_read, C60_read_once_refuted, C60_alone, C62_class_statement, C62_call, C62_binding, C62_unknown_keyword, C62_all_names_needed, C62_subclass_cannot_relax, C62_usual_class, C62_shipped, C62_names_hide_function, C62_kwargs_rejected, C65_same_program, C67_single_precision_sizes, C67_double_precision_sizes, C75_failure, C75_mixins, C75_deregister, C75_register, C75_package_classes, C75_package_equality, C75_package_honest, C76_single_precision_sizes, C76_double_precision_sizes.
* **`functional_extensionality_dep`** - 1 theorems:
  C39_accepted_numbers.
* **`sig_forall_dec`, `sig_not_dec`, `functional_extensionality_dep`** - 1 theorems:
  C30_reference_value.
* **`sig_forall_dec`, `sig_not_dec`, `classic`, `functional_extensionality_dep`** - 154 theorems:
  C01_two_body_closed_form, C02_atm_closed_form, C03_matrix_and_atom_energies_agree, C03_matrix_closed_form, C04_atm_counts_each_triple_once, C05_padding_and_batching, C06_permutation_equivariance, C07_rigid_motion_invariance, C08_sharp_inclusive_cutoff, C08_beyond_cutoff_moves_do_nothing, C09_long_edge_is_dropped_refuted, C10_size_consistency, C11_two_body_attractive_and_bounded, C12_two_body_linear, C12_three_body_linear, C12_energy_linear, C14_atm_ignores_charges, C17_energy_of_multiset, C17_energy_depends_on_counts_only, C17_register_deregister, C20_rational_formula, C20_rational_bounds, C20_rational_decreasing, C21_zero_damping_is_exchanged, C21_wrong_limits, C21_zero_damping_documented_refuted, C22_modified_zero_damping, C22_factor_increases, C23_optimised_power_formula, C23_diverges, C23_documented_is_bounded, C23_documented_refuted, C25_omitted_parameters, C26_weights_formula, C26_weights_bounds, C26_weights_normalised, C27_weights_ieee, C27_far_coordination_number, C27_weights_finite, C27_derivative_not_nan, C28_dgwdcn_is_minus_derivative, C28_documented_derivative_refuted, C28_d4s_not_implemented, C29_dgwdq_derivative, C30_zeta_formula, C30_range, C30_decreasing, C30_monotone_refuted, C30_weights_decrease_with_charge, C31_c6_symmetric, C31_c6_nonneg, C31_c6_formula, C31_c6_positive, C32_casimir_polder, C32_cauchy_schwarz, C33_d4s_reduces_to_d4, C34_d4s_weighted_pols, C34_atoms_not_distinguished, C34_batched_raises, C34_square_batch, C35_reference_polarizabilities, C35_d4_polarizabilities, C35_d4s_polarizabilities, C35_d4s_batched_raises, C36_c9_approx, C36_c9_exact, C38_unique_maximal_cn, C38_cn_nonneg, C38_secondary_systems, C38_pair_factors, C42_two_body_variant_keeps_three_body, C44_few_atoms, C45_properties_are_those_of_the_energy, C46_energy_is_sum_of_terms, C47_no_net_force, C48_quadrature, C48_bilinear, C50_validated_energy, C52_padding_never_nonzero, C52_two_body_padding_zero, C52_three_body_padding_zero, C52_padding_zero_always_refuted, C53_energy_formula, C53_DispD4, C53_DispD4Exact, C53_dftd4, C55_energy_differentiable, C55_sharp_cutoff, C55_continuous_refuted, C56_registering_threads_refuted, C57_two_body_negative, C57_D4_bounds, C57_three_body_acute, C58_two_body_cutoff_error, C58_three_body_cutoff_error, C61_formula, C61_signs, C61_same_molecule, C61_rigid_motion, C63_energy_never_positive, C63_c6_never_negative, C63_properties_never_negative, C64_derivative_carried, C64_forward_mode, C64_backward_mode, C65_gradients, C65_gradient_is_derivative, C65_zero_padded_r4r2_refuted, C65_mzero_padding_refuted, C66_energy_finite, C66_c6_finite, C66_properties_finite, C66_single_precision_sizes, C66_double_precision_sizes, C67_energy_accuracy, C67_pair_accuracy, C67_linear, C67_direct_distance, C68_no_net_force_no_net_torque, C68_gradient_along_rigid_motions, C69_hessian, C69_forward_orders, C69_zero_exponent_refuted, C70_hessian_symmetric, C70_zero_exponent_refuted, C71_hessian_along_rigid_motions, C71_sum_rules, C72_properties_carried, C72_weights_carried, C72_hessian, C72_forward_orders, C73_two_machines, C73_same_bits_refuted, C74_functions, C74_trapezoid, C74_integral, C75_sum, C75_order, C75_atm_formula, C75_sum_without_honesty_refuted, C76_atm_accuracy, C76_correct_pow, C76_correct_division, C76_default_alp, C77_weights_accuracy, C77_correct_exp, C77_double_in_single, C78_c6_accuracy, C79_term_accuracy, C80_atm_term_accuracy, C80_correct_sqrt, C81_sum_of_terms, C82_polarizabilities, C82_get_properties.

## 3. Plan per property

| id | modelled | proof |
|---|---|---|
| C01 | `dispersion2` as a tensor program | symbolic evaluation of the tensor program for arbitrary batch shape = closed form |
| C02 | `get_atm_dispersion` | same, then law of cosines over R |
| C03, C04 | same | summation lemmas over R |
| C05 | same + `calculate` | from closed forms, induction on padding |
| C06 | `dftd4` | reindexing of sums by a permutation |
| C07 | `dftd4` | distances only |
| C08, C09 | two/three body | closed form; witness for the refutation |
| C10 | two/three body | splitting of sums |
| C11, C12 | two body | order / ring reasoning over R |
| C13, C14, C16 | `calculate` | non-interference: equality of two runs |
| C15 | `calculate` | case analysis on all checks, totality by symbolic evaluation |
| C17 | object store, `register`/`deregister` | induction over histories |
| C18, C19 | constructor | case analysis over strings |
| C20-C23 | damping | real analysis |
| C24, C25 | damping call | dictionary reasoning |
| C26 | `weight_references` | real arithmetic |
| C27 | same over IEEE floats | Flocq |
| C28, C29, C30 | derivatives | `derivable_pt_lim` of the standard library; explicit derivatives (`DerivR.v`) |
| C31-C36 | model classes | sums, Cauchy-Schwarz |
| C37-C39 | tables, constructor | `vm_compute` over the complete finite table lifted to forall; exact range of accepted numbers from the wrap-around of negative indices |
| C40-C42 | loader | heap model with aliasing, induction over histories; table computation |
| C43 | damping state | induction over histories |
| C44-C48 | entry points | from the closed forms |
| C49 | acceptance of parameter dictionaries; `d3.toml` | outcome of the three `damping_call`s of `dispersion2` by case analysis on the bound names; table check lifted with `forallb_forall` |
| C50 | pydantic classes (`ModelParams.v`) | validation as a fold over the field list; energy from C12; refusal from C49; which class a (functional, variant) pair gives, by computation over the parameter file (`C50_variants`) |
| C51 | `calculate`, in any number type | both runs evaluated symbolically to the same closed form |
| C52 | two-/three-body terms, IEEE instance | sums of signed zeros; masked factors are zero |
| C53 | whole call, reals | `run_steps_full` evaluates the call to a sum over terms; each term from C01/C02 with the weights (`weights_run`), C6 (`c6_run`), polarizabilities (`pols_run`) and radii in closed form |
| C54 | `dispersion2` on its own | symbolic evaluation up to the choice of the radii |
| C55 | whole call, reals (`DiffR.v`, `PropsDiff.v`) | closure of differentiability under the operations of the formula of C53; strict positivity of C6 (`PropsC6.v`) for the roots; the jump at the cutoff by evaluating both sides |
| C56 | `ModelConc.v` (the operations of `ModelStore.v` as programs of atomic steps), every number type | rely-guarantee: a thread relies on classes of dampings, terms and the existing objects not changing (`env`) and guarantees the same (`guar`), with the objects it makes itself as its own; every program is shown to have its sequential result under every interference that obeys the rely (`runs`); invariant over schedules; termination by well-foundedness of `runs`; a thread that runs without interruption is the sequential program (`C56_uninterrupted_thread`) |
| C57 | whole call, reals (`SpecBounds.v`, `BoundsR.v`, `PropsBounds.v`) | from the formula of C53; angular factor by the law of cosines, Cauchy-Schwarz and Schur's inequality; strict positivity of C6 |
| C58 | whole call, reals | from C53 for both cutoffs with the same coordination numbers and charges; pair energy decreases with the distance and is below its undamped value; for the three-body cutoff the bounds of C57 on a triple, and the triangle inequality: a triple left out has one side longer than the cutoff and a second one longer than half of it |
| C59 | `ModelDtype.v`: dtype, device and presence of dimensions of every tensor of a calculation (abstract interpretation of the same functions), with PyTorch's promotion rules | one lemma per operation for the two kinds of operand that occur (tensor with dimensions on the device; small operand), one per function, induction over the terms; refutation of the literal claim by evaluation |
| C60 | `ModelLoaderConc.v`: `get_params` as a program of atomic steps over the heap and cache of `ModelLoader.v` | rely-guarantee: nobody changes or reaches the dictionaries of the tables (`rely`, `good`), every program keeps this and ends as specified under such interference (`safe`); induction over executions; step counting; for the number of reads a counting invariant over the phases of the calls |
| C61 | `get_properties` of `ModelDisp.v`, reals; external functions by contract | closed forms of weights, C6 and polarizabilities (C26, C31, C35) composed; signs from C31, C32, C48; the same molecule: closed forms agree atom by atom |
| C62 | `ModelSubclass.v`: class objects with method resolution order, `inspect.Signature.bind`, `__init_subclass__` and its wrapper, `__call__` | the functions found in a class are characterised by a relation on class statements (`uses`), by induction over the hierarchy; binding of arguments is compared with Python's rules stated declaratively (`fits`, `bound_as`); the shipped classes agree with `ModelDamping.v` for all arguments |
| C63 | the value model with IEEE numbers | "sign bit clear, or NaN" is preserved by every operation up to the factor -1/2; the damping functions of a term are identified with their closed forms by uniqueness; "not greater than zero" is preserved by the sum over terms |
| C64 | `AdInst.v`: the value model instantiated with pairs of a real number and derivative information (tangent, or map from incoming gradient to gradients of the leaves) | every operation used carries derivatives (`AdR.v`), hence weights, C6, C9, damping functions and terms do (`AdW.v`, `AdT.v`, `PropsAD.v`); closed forms of both runs compared entry by entry; both modes are instances |
| C65 | `GradInst.v`: numbers and gradients with infinities and NaN; `ModelGrad.v`: the functions on the way to the energy with `torch.where` as an operation, equal to the model for plain selection | an entry is *live* (finite, gradients of exact arithmetic) or *dead* (no gradient reaches a leaf); both are preserved by every operation where it is not singular, and `torch.where` needs the entry not selected to be live or dead; closed forms (`ClosedGrad.v`) compared with those of C64; the refutations follow one NaN from the square root or quotient to the leaf |
| C66 | the model at IEEE numbers | a bound of the form 2^e for every intermediate result (`IeeeB.v`: rounding does not cross a power of two), sums bounded by the number of terms; lower bounds for divisors; NaN excluded for `pow` and division; the tables by computation; `fits` collects the inequalities between exponents |
| C67 | the model at IEEE numbers, against the textbook formula over the reals (`SpecR.two_body`) | every intermediate result is a nonnegative number that approximates its exact counterpart up to `k` factors `1 + 2^-prec` (`IeeeA.appr`); each operation adds one factor as long as the result stays in the normal range, a sum of n terms adds n; the cutoff comparison agrees with the exact one because no distance is within rounding errors of the cutoff |
| C68 | backward pass of C64 with every coordinate a leaf | the gradient contracted with a direction is one more way to read derivative information (`along`, sound in the sense of C64), so it is the derivative of the total energy along the motion; that energy is constant along rigid motions (C47); translations and plane rotations are differentiable families of rigid motions |
| C69 | AdN.v: numbers carrying derivatives over any numbers (`Nest`), so the construction can be repeated | a number carries a function of parameters (`Tracking`); the laws that the proof of C64 needs (`Laws`) hold for the reals and are inherited by one more level of forward or backward mode (`next_laws`), so the energies carry their derivatives in any tower (`C69_derivatives_carried`); the Hessian and the derivative of order k are read off |
| C70 | the numbers of C69 with two backward passes | one more instance of the laws of C69 (`Tsym_laws`): every number has a gradient and a symmetric matrix of second derivatives which determine what both backward passes return (`jet2`, `sym_jet`); needs no theorem on mixed derivatives |
| C71 | the numbers of C70, all coordinates as leaves | the first pass is read along a velocity field and the second for one coordinate (`Tread`), which again satisfies the laws of C69 (`read_all`); the energies do not change along rigid motions (C07), so what is read is zero |
| C72 | `get_properties` and the methods of the models, run with the numbers of C69 (backward twice, forward k times) | closed form of `get_properties` for any numbers (`properties_closed`); weights, C6 coefficients and polarizabilities carry derivatives along by the lemmas of C69 |
| C73 | summation orders (`plan`) and mathematical libraries (`Libm`) as parameters of IEEE arithmetic | C67 for both machines and the triangle inequality; an example computed in the kernel shows that the last bits depend on the order |
| C74 | `trapzd*` of `ModelUtils.v` and the weight tables, reals | weights compared with those of the trapezoidal rule on the stated grid; pi by Machin's formula of the standard library, partial sums evaluated as rationals; the integral cell by cell from monotonicity |
| C75 | `ModelUser.v` (terms of any class, mixins and attribute lookup), any number type and reals | `calculate_u` split into preparation and loop; the result of a term alone fixes its broadcast against the zeros, so the loop adds it; agreement with `calculate` for the four classes of the package; refutation without the hypothesis on the flag by a class that looks at `q` |
| C76 | the model at IEEE numbers, against the textbook formula over the reals (`SpecR.triple_energy`) | every intermediate result approximates its exact counterpart up to `k` rounding errors of a majorant (`IeeeM.mapr`); a difference is treated like a sum, so the majorant of the angular factor is the sum of its parts; positive factors (distances, radii, damping) keep relative errors (`IeeeA.appr`), and a power with a real exponent multiplies their number by the exponent |
| C77 | the model at IEEE numbers with its double precision part, against the formulas over the reals (`SpecW.gauss_weight`, `SpecW.zeta_fun`) | the operations are those of `C27_weights_ieee`; arguments of exponential functions carry errors relative to a majorant, and `exp` turns `k` of them into `2 k A` relative errors for arguments up to `A` (`IeeeE.appr_exp`); the Gaussian part is done in double precision and one conversion, with an absolute term for underflow, leads to the working precision |
| C78 | the model at IEEE numbers, `get_atomic_c6` of the result of `weight_references`, against `SpecW.c6_pair` over the reals | closed form of the coefficients (`ClosedModels.get_atomic_c6_ev`); the rows of the reference tables are literals whose ranges are checked by evaluation over the whole tables (`fits`); charge scaling of the secondary system, scaled polarizabilities, quadrature and the two contractions carry errors relative to a majorant (`PropsAccC.v`); weights from C77 |
| C79 | the model at IEEE numbers, `term_calculate` of a two-body term, against `SpecR.two_body` of `SpecW.c6_pair` over the reals | C78 puts the computed coefficients within a fraction of the exact ones, which yields the sizes C67 asks of them; the exact energy is linear in the coefficients with non-negative factors (`two_body_close`), so the fractions carry over (`PropsAccE.v`) |
| C80 | the model at IEEE numbers, `term_calculate` of the approximate three-body term, against sums of `SpecR.triple_energy` over the reals | `c6_close` (C78) bounds the coefficients, `c9_acc` and `radius_acc` the C9 coefficients and radii and their sizes, which C76 asks for; `triple_change`: the exact energy of a triple and its size change by the same factor when C9 and the radii change by factors (`PropsAccA.v`) |
| C81 | the model at IEEE numbers, `run` (`Disp.calculate`) with any list of terms | `fold_acc`: induction over the terms with the error and the size of the partial sums; an addition of two floating point numbers has a relative error of at most half a unit, also near underflow (`plus_err`, `PropsAccD.v`) |
| C82 | the model at IEEE numbers, `model_polarizabilities` and `get_properties` | `weight_mapr` (C77) and `pol_acc` (C78) for the factors, `mapr_mul` and `mapr_sum` for the sum over the reference systems; C78 for the C6 coefficients (`PropsAccP.v`) |
