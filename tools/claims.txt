c("C01","proved","C01_LM_layout")
c("C02","proved","C02_deduce_ell_max C02_deduce_rejects C02_deduce_float")
c("C03","proved","C03_LMpM_layout C03_rejects_half_integers")
c("C04","proved","C04_half_integer_layout C04_Wigner_index")
c("C05","proved","C05_Wigner_table C05_binomial_table C05_ladder_table C05_coefficient_values")
c("C06","proved","C06_linear_matrix_index C06_blocks_tile C06_block_bijection")
c("C07","proved","C07_wedge_bijection C07_nm_bijection C07_nabsm_bijection C07_nmpm_index")
c("C08","proved","C08_wedgeify_in_wedge C08_wedgeify_orbits C08_wedgeify_storage")
c("C09","proved","C09_complex_powers C09_M0_refuted","M=0 is refuted with a witness family; np.sqrt and complex arithmetic are exact")
c("C10","proved","C10_roundtrips C10_constant_function C10_vector_function C10_with_SWSH")
c("C11","proved","C11_eth_factors C11_eth_commutator C11_modes_agree")
c("C12","proved","C12_inverse_after_ethbar C12_ethbar_after_inverse C12_kernel")
c("C13","proved","C13_Wigner_D_element C13_Wigner_D_element_indices C13_Wigner_D_element_ell C13_euler_angles_unit","exact arithmetic; rotors whose part magnitudes are 0 or above epsilon")
c("C14","proved","C14_Wigner_D_matrices C14_Wigner_D_elements")
c("C15","proved","C15_product C15_identity C15_double_cover")
c("C16","proved","C16_unitary C16_symmetries")
c("C17","proved","C17_value C17_conjugate C17_frame_rotation C17_array_of_rotors C17_array_of_indices C17_grid")
c("C18","proved","C18_rotation")
c("C19","partial","C19_checked_calls C19_rejected_triples C19_mixed_parity_refuted C19_ell_list_refuted C19_quaternion_array_refuted C19_two_parts_form_refuted C19_single_ell_refuted","the statement is false of the code: the call forms that validate are proved safe, the others are refuted with witnesses")
c("C21","partial","C21_constructor C21_call_forms C21_deduced_ell_max C21_caller_array_refuted","everything is proved except that the caller's array is not modified, which is false for ell_min = 0 and refuted with a witness")
c("C22","proved","C22_conjugate C22_twice C22_inplace")
c("C23","proved","C23_real_imag C23_real_idempotent C23_inplace C23_nonzero_spin")
c("C24","partial","C24_add C24_spin_mismatch C24_nonzero_scalar C24_out_partial C24_out_stale_refuted C24_out_alias_refuted","everything is proved except the out= clause, which is false for general out arrays (refuted with two witnesses) and proved for out arrays that do not share memory with the second operand and are zero beyond the first operand's modes")
c("C25","partial","C25_harmonics C25_product C25_ell_max C25_entries C25_selection C25_truncated C25_returns_partial C25_arrays","whenever multiplication returns, the result is the product (proved for all inputs, exact integers, and for the compiled widths up to ell_max_f+ell_max_g=151); that it always returns is proved when either ell_max is at most 7 or (ell_max_f-7)(ell_max_g-7) < 28 (for example both at most 12) and otherwise up to the late_zero case of C32, where the 3-j calculator would divide by zero; negative truncator results are excluded")
c("C26","proved","C26_L_algebra C26_R_algebra C26_L_R_commute C26_eth")
c("C28","partial","C28_index C28_truncate C28_larger_refuted","everything is proved except that truncating to a larger ell_max raises, which is false and refuted")
c("C30","partial","C30_modes_scalar C30_grid_operators C30_grid_method_refuted C30_grid_method_partial","Holds for Modes and for the operators (ufuncs) of Grid; the methods Grid.multiply and Grid.divide do not add axes and mix grid points (refuted), except for a single number")
c("C41","proved","C41_evaluate C41_linear C41_truncate C41_scalar")
c("C42","partial","C42_norm C42_parseval C42_absolute_refuted","the norm and its identification with the integral over the sphere are proved; the claim about np.absolute is false and refuted")
c("C31","proved","C31_zero C31_slot C31_value C31_small C31_in_bounds","the only failure the model allows is a division by zero in the middle loop, characterised by late_zero, of which no instance is known; it never reads or writes outside the workspace")
c("C32","partial","C32_symbols C32_returns C32_small C32_only_error C32_recurrence","proved for every call that returns; a call can only fail with ZeroDivisionError, and only if a symbol of the family vanishes late in the range (late_zero); that this never happens is proved for j2 <= 7 or j3 <= 7 or (j2-7)(j3-7) < 28 or m2 = m3 = 0 or a non-negative first coefficient, and is an open Diophantine question otherwise")
c("C33","proved","C33_history C33_workspace_size","equality for different workspace sizes is for calls that return")
c("C34","proved","C34_symmetries C34_returns_together C34_clebsch_gordan C34_clebsch_gordan_negative_j3","relations between values of calls that return")
c("C35","partial","C35_B C35_A C35_calculator C35_B_refuted C35_A_refuted","false in general (both helpers overflow, witnesses given); proved for j2+j3 <= 151 (B, and the whole calculator) and j2+j3 <= 1447 (A)")
c("C43","proved","C43_columns C43_rows")
c("C20","proved","C20_invariant C20_out_refuted","every history of the listed operations, with memory shared between objects in any way; writing through out= is not among them and can break a view of the target (witness given)")
c("C27","proved","C27_left_derivatives C27_ladder_entries C27_rotated_values C27_rotation_commutes","derivatives are taken at rotors whose two complex parts exceed the code's cut-off (elsewhere evaluate switches formula in every neighbourhood)")
c("C44","partial","C44_right_derivatives_partial C44_Rplus_refuted","Rz is right; Rplus and Rminus are minus the documented combinations (the docstring's derivation drops (-1)^s), proved for all inputs with a witness against the documented sign")
c("C36","partial","C36_add_subtract C36_multiply_divide C36_conjugate_absolute C36_errors C36_out C36_subtract_spin_refuted C36_too_small_refuted C36_negative_out_refuted","Values, spin weights and most errors proved for all grids. False in part: Grid.subtract raises NameError for different spin weights, so does a product whose spin weight is too large for the grid, and np.negative(x, out=g) negates g")
c("C37","partial","C37_construct_partial C37_positional C37_modes_refuted C37_pickle_refuted","False: Grid.modes always raises, pickling raises NameError, a too small grid raises NameError; what the constructor accepts is proved")
c("C38","proved","C38_theta_phi","Exact arithmetic")
c("C45","partial","C45_powers C45_power_refuted","Proved for all integer exponents, square, reciprocal (nonzero values) and sqrt; refuted for fractional exponents, which int() truncates")
c("C39","proved","C39_constructor C39_run C39_full_run C39_rejects","The storage starts undetermined, and reading an undetermined entry or leaving the bounds is an error of the model; every call succeeds, for arbitrary sines and cosines in range, and returns the same wedge whatever the workspace held. One-dimensional angle arrays.")
c("C40","proved","C40_wedge C40_wedge_any C40_wedge_default_sine C40_full","n_max >= 1 (see C46 for 0). Exact real arithmetic; the specification is Wigner's formula at the rotor cos(beta/2) + sin(beta/2) j.")
c("C46","partial","C46_n_max_0_refuted","False: for n_max = 0 the second step writes H^{0,1}_1 outside the wedge, in both calculators.")
c("C47","partial","C47_angles C47_euler C47_D_from_H C47_degenerate C47_degenerate_refuted","True when neither complex part of the quaternion vanishes. Rotations that keep or reverse the z axis, the identity among them, raise ZeroDivisionError.")
c("C29", "partial", "C29_documented C29_accepts C29_rejects C29_out_partial C29_one_factor C29_keywords C29_in_place C29_other_methods C29_multiply_out_refuted C29_negative_out_refuted C29_absolute_out_refuted C29_at_refuted",
  "without out= everything is proved, for all ufuncs, operand kinds and shapes (the product of two Modes objects returns unless the 3-j calculator divides by zero, see C25); with out= it is proved under the conditions out_ok and refuted without them")
c("C48","proved","C48_orthonormal C48_function C48_recovery C48_inner","the integrand is the formula, which the code returns at every rotor outside the epsilon cut-off")
c("C49","proved","C49_orthogonal","the integrand is the formula, which the code returns at every rotor outside the epsilon cut-off")
c("C50","proved","C50_samples","2 <= n_theta <= 10^12, which keeps the grid points clear of the epsilon cut-off")
c("C51","proved","C51_adjoint","the integrand is the formula, which the code returns at every rotor outside the epsilon cut-off")
c("C52","proved","C52_matrices C52_elements C52_SWSH C52_SWSH_arrays C52_accuracy C52_SWSH_accuracy C52_evaluate C52_product","exact arithmetic: the bound is for the effect of the cut-off, not of rounding; qb = 0 with |qa| <= epsilon is excluded because the code raises 0 to a negative power there")
c("C53","partial","C53_wedge_partial C53_full_partial C53_shape C53_shape_refuted C53_order_refuted C53_mixed_refuted C53_scalar C53_scalar_refuted C53_rejects","each column is right for one angle and each angle has one column, in memory order; false as documented: the result is two-dimensional (the value of reshape is discarded), columns follow memory order, cosines and sines in different memory orders are paired wrongly, a scalar with its own workspace or with a float sine raises; workspaces of three or more dimensions are not modelled")
c("C54","partial","C54_rotors C54_indices C54_grid C54_evaluate C54_other_calls C54_pair_raises C54_columns_refuted C54_empty_grid C54_empty_grid_refuted C54_large_ell C54_large_ell_refuted","the two forms of call, SWSH_grid and evaluate are right for every non-empty shape (SWSH for empty ones too) and all other combinations raise; false: SWSH_grid and evaluate raise on an empty array, rows with more than two columns are accepted, and ell above the table size is not rejected but read outside the table")
c("C55","proved","C55_grid C55_defaults C55_keyword C55_sum C55_product C55_conjugate C55_real_imag C55_scalar C55_determined C55_no_aliasing","assumes of spinsfast.salm2map, which is outside the repository, that it samples the sum of harmonics (salm2map_right); ell_max >= 1 and |s| <= ell_max; n_theta <= 10^12; the product theorems speak about products that return (see C25)")
c("C56","proved","C56_enough C56_theta_too_few C56_phi_too_few C56_minimum_refuted","2 <= n_theta <= 10^12, which keeps the grid points clear of the epsilon cut-off; C56_minimum_refuted contradicts the docstring, as the statement says")
c("C57","proved","C57_leading C57_keys C57_evaluate C57_columns C57_mode C57_copy C57_pickle C57_conjugate C57_real_imag C57_rebuild C57_alias_refuted C57_reversed_refuted","basic indexing only (no index arrays or boolean masks); numpy indexing, copying and pickling modelled from the documentation; the two refutations are the exceptions the statement names")
c("C58","proved","C58_accepts C58_too_small C58_rejects C58_out C58_out_only C58_methods C58_keywords C58_outer_refuted C58_reduceat_refuted","arrays of complex type; entries are numbers, never inf or nan; comparisons with keywords or by other methods are plain numpy and not modelled; the refutations are the exceptions the statement names")
c("C59","proved","C59_complex_powers C59_rounded_sqrt","every operation rounded to nearest even in binary64 without overflow; the complex square root is any function whose imaginary part is within four roundings; parts of z below 2^-300 other than 0 are excluded")
c("C60","proved","C60_constants C60_vectors C60_eth C60_ethbar_inverse C60_ethbar_round_trip","every operation rounded to nearest even in binary64 without overflow; division is any function accurate to three roundings, which the plain division and the multiplication by the reciprocal are; vectors with complex components, where x + 1j*y can cancel, are not covered")
c("C61","proved","C61_binomial C61_ladder C61_Wigner C61_nearest_refuted","about the bytes of the three .npy files, transcribed by tools/gen_tables.py; the statement names what is false of them (nearest doubles, exact integers), C61_nearest_refuted has the witnesses")
c("C62","proved","C62_D C62_SWSH C62_D_rotor C62_SWSH_rotor","every operation rounded to nearest even in binary64 without overflow; cmath.polar, pow, cmath.rect and complex ** int are any functions with the accuracy good_libm states; about _Wigner_D_element and _SWSH; the matrices and the arrays of rotors are C63")
c("C63","proved","C63_matrices C63_matrices_rotor C63_elements C63_SWSHs","rounding and library as in C62; the second prefactor of the matrices takes its angle plus np.pi, which costs sixteen more roundings per unit of ell than the first")
c("C64","proved","C64_SWSH_grid C64_evaluate C64_norm","rounding and library as in C62; the order of summation, and whether products are fused with additions, is universally quantified over; overflow is not part of the model, so the norm is that of entries whose squares do not overflow")
c("C65","proved","C65_L C65_R C65_eth C65_add C65_multiply C65_divide","every operation rounded to nearest even in binary64 without overflow; complex multiplication with real and imaginary parts, division by Smith's algorithm as in numpy; which products are fused with additions is universally quantified over; products of two Modes are not included")
c("C66","proved","C66_angles C66_powers C66_underflow C66_underflow_refuted C66_grid","every operation rounded to nearest even in binary64 without overflow; compiled complex division by a float divides each part; linspace as in numpy. That a non-degenerate rotor can raise ZeroDivisionError is part of the statement")
c("C67","proved","C67_outcome C67_accurate C67_out C67_add C67_multiply C67_divide C67_absolute","every operation rounded to nearest even in binary64 without overflow; complex entries; numpy's own algorithms for products, quotients, reciprocals and integer powers; accuracy of hypot and csqrt assumed, nothing assumed of cpow (used for |e| >= 100)")
c("C68","proved","C68_conjugate C68_real C68_imag C68_inplace C68_real_valued C68_fixed C68_twice C68_together","every operation rounded to nearest even in binary64 without overflow; signed zeros not modelled")
c("C69","proved","C69_calculator C69_Wigner3j C69_sign C69_parity C69_clebsch_gordan","every operation rounded to nearest even in binary64 without overflow; symbols with all m = 0 only; int64 and int32 wrap-around modelled")
c("C70","proved","C70_same C70_entries C70_Wigner3j C70_cyclic C70_any C70_short C70_exact","every operation rounded to nearest even in binary64 without overflow; int64 and int32 wrap-around modelled")
c("C71","proved","C71_one_function C71_init C71_exact","every operation rounded to nearest even in binary64 without overflow; signed zeros not modelled; one-dimensional arrays of angles; integer arithmetic of the coefficients without wrap-around")
c("C72","proved","C72_reproducible C72_rounding C72_accuracy C72_axisymmetric C72_constant C72_arrays","every operation rounded to nearest even in binary64 without overflow; complex products in any order of addition, fused or not; the accuracy of the symbols is an assumption of C72_accuracy, proved for m=0 (C69) and for ell = 0 or 1 (C73); C72_arrays is the same for multiplication.multiply on plain arrays")
c("C73","proved","C73_calculator C73_Wigner3j C73_sign C73_aligned C73_clebsch_gordan C73_product","every operation rounded to nearest even in binary64 without overflow; families of more than three symbols with m different from 0 are not covered")
c("C74","proved","C74_poles C74_ends","every operation rounded to nearest even in binary64 without overflow; entries other than the ends of row and column 0 at general angles are not covered")
c("C75","proved","C75_dipole C75_default_sine C75_default_as_accurate_refuted","every operation rounded to nearest even in binary64 without overflow; n = 1 only (for larger n: C74)")
