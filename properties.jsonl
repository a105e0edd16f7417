{"id": "C01", "title": "LM mode ordering is a bijection shared by range, index and size", "statement": "LM_range(ell_min, ell_max) has exactly LM_total_size(ell_min, ell_max) rows, lists every pair (ell, m) with ell_min<=ell<=ell_max and |m|<=ell exactly once in lexicographic order and nothing else, and row number LM_index(ell, m, ell_min) is exactly the row (ell, m).", "quantifier": "all 0<=ell_min<=ell_max+1 and all (ell, m) in range", "why_tests_cant": "the suite checks ell_min, ell_max up to a small constant; every array layout in the package relies on it at arbitrary size", "anchors": ["spherical_functions/__init__.py:LM_range", "spherical_functions/__init__.py:LM_index", "spherical_functions/__init__.py:LM_total_size"]}
{"id": "C02", "title": "LM_deduce_ell_max inverts LM_total_size and rejects every other size", "statement": "LM_deduce_ell_max(size, ell_min) returns ell_max exactly when size = LM_total_size(ell_min, ell_max), and raises ValueError for every size that is not of that form; the use of a floating-point square root never changes the answer while size + ell_min^2 < 2^53.", "quantifier": "all sizes and ell_min (exact square root), and all sizes with size + ell_min^2 < 2^53 with IEEE double square root and truncation", "why_tests_cant": "the failure mode is a rounding error at a perfect square or its neighbour; only a finite number of sizes can be tried", "anchors": ["spherical_functions/__init__.py:LM_deduce_ell_max", "spherical_functions/__init__.py:LM_total_size"]}
{"id": "C03", "title": "LMpM mode ordering is a bijection shared by range, index and size (integer ell)", "statement": "LMpM_range(ell_min, ell_max) has exactly LMpM_total_size(ell_min, ell_max) rows, lists every (ell, mp, m) with |mp|,|m|<=ell exactly once in lexicographic order, and row LMpM_index(ell, mp, m, ell_min) is (ell, mp, m).", "quantifier": "all 0<=ell_min<=ell_max+1 and all (ell, mp, m) in range", "why_tests_cant": "cubic size formula with an integer division by 3; only small sizes are tested", "anchors": ["spherical_functions/__init__.py:LMpM_range", "spherical_functions/__init__.py:LMpM_index", "spherical_functions/__init__.py:LMpM_total_size"]}
{"id": "C04", "title": "Half-integer LMpM ordering and the Wigner coefficient index agree", "statement": "The doubled rows of LMpM_range_half_integer(ell_min, ell_max) enumerate exactly once, in lexicographic order, all (2ell, 2mp, 2m) of equal parity with |mp|,|m|<=ell and ell in [ell_min, ell_max] in steps of 1/2; for ell_min=0 row _Wigner_index(2ell, 2mp, 2m) is (2ell, 2mp, 2m).", "quantifier": "all integer or half-integer ell_min<=ell_max and every row", "why_tests_cant": "the division by 6 and the two halvings are only correct for index triples of one parity; sizes are unbounded", "anchors": ["spherical_functions/__init__.py:LMpM_range_half_integer", "spherical_functions/__init__.py:_Wigner_index"]}
{"id": "C05", "title": "Coefficient table lookups return the coefficient they are named for", "statement": "With tables generated in the order of _generate_coefficients.py for any ell_max, binomial_coefficient(n,k), ladder_operator_coefficient(ell,m) and Wigner_coefficient(ell,mp,m) read an entry inside the table, and it is C(n,k), sqrt(ell(ell+1)-m(m+1)) and Wigner's prefactor times the two binomials respectively.", "quantifier": "all table sizes ell_max and all valid index triples, integer and half-integer", "why_tests_cant": "an off-by-one in a flattened triangular index only shows at some indices; numba performs no bounds check", "anchors": ["spherical_functions/__init__.py:binomial_coefficient", "spherical_functions/__init__.py:_ladder_operator_coefficient", "spherical_functions/__init__.py:_Wigner_index", "spherical_functions/__init__.py:_Wigner_coefficient", "spherical_functions/_generate_coefficients.py"]}
{"id": "C06", "title": "Flattened matrix index helpers address the LMpM layout", "statement": "_linear_matrix_index, _linear_matrix_diagonal_index, _linear_matrix_offset and _total_size_D_matrices address the position that LMpM_index gives relative to the block of that ell, and the blocks for ell_min..ell_max tile the output array without gap or overlap.", "quantifier": "all ell_min<=ell<=ell_max, all mp, m", "why_tests_cant": "unbounded sizes; formula differs from LMpM_index and no test compares them", "anchors": ["spherical_functions/WignerD/__init__.py:_linear_matrix_index", "spherical_functions/WignerD/__init__.py:_linear_matrix_diagonal_index", "spherical_functions/WignerD/__init__.py:_linear_matrix_offset", "spherical_functions/WignerD/__init__.py:_total_size_D_matrices", "spherical_functions/__init__.py:LMpM_index"]}
{"id": "C07", "title": "The H-wedge storage is a bijection", "statement": "For every n_max, wedge_index(n, mp, m) is an order-preserving bijection from the wedge {(n,mp,m): n<=n_max, |mp|<=n, |mp|<=m<=n} onto [0, wedge_size(n_max)), and the nm / nabsm / nmpm indices are bijections onto their storage.", "quantifier": "all n_max and every element", "why_tests_cant": "polynomial index formulas of degree 3 with integer divisions; only small sizes can be tried", "anchors": ["spherical_functions/recursions/wignerH.py:wedge_size", "spherical_functions/recursions/wignerH.py:wedge_index", "spherical_functions/recursions/wignerH.py:nm_index", "spherical_functions/recursions/wignerH.py:nabsm_index", "spherical_functions/recursions/wignerH.py:nmpm_index"]}
{"id": "C08", "title": "wedgeify_index maps every (n,mp,m) into the wedge along a symmetry of H", "statement": "For every |mp|,|m|<=n, wedgeify_index(n,mp,m) is the triple (n,mp',m') with (mp',m') the element of {(mp,m),(m,mp),(-mp,-m),(-m,-mp)} that lies in the wedge (m'>=|mp'|); all four elements of such an orbit map to the same triple, elements of different orbits map to different triples, and the storage position of the triple is inside the wedge storage.", "quantifier": "all n and all |mp|,|m|<=n", "why_tests_cant": "four-way branch whose boundary cases (mp=+-m, m=0) depend on comparison strictness; infinite domain", "anchors": ["spherical_functions/recursions/wignerH.py:wedgeify_index"]}
{"id": "C09", "title": "complex_powers returns exact powers and terminates", "statement": "For every unit complex number z and every M>=1, complex_powers(z, M) terminates, writes exactly the entries 0..M of its output, and entry m equals z^m (exact arithmetic), whichever quadrant z lies in.", "quantifier": "all z with |z|=1 and all M>=1", "why_tests_cant": "two coupled recurrences with a quadrant-reduction loop; only sampled z and M can be run", "anchors": ["spherical_functions/recursions/complex_powers.py:complex_powers"]}
{"id": "C10", "title": "Constants and vectors convert to modes and back without loss", "statement": "constant_from_ell_0_mode and vector_from_ell_1_modes invert constant_as_ell_0_mode and vector_as_ell_1_modes in both directions, and the returned modes weight the l=0/l=1 harmonics so that their sum is the constant, respectively the dot product of the vector with the direction (theta, phi).", "quantifier": "all complex constants, all vectors (real or complex), all directions", "why_tests_cant": "continuous domain; tests use random samples", "anchors": ["spherical_functions/mode_conversions.py:constant_as_ell_0_mode", "spherical_functions/mode_conversions.py:constant_from_ell_0_mode", "spherical_functions/mode_conversions.py:vector_as_ell_1_modes", "spherical_functions/mode_conversions.py:vector_from_ell_1_modes", "spherical_functions/SWSH/__init__.py:_SWSH"]}
{"id": "C11", "title": "eth and ethbar of mode arrays: normalisation, kernel and commutator", "statement": "eth_NP / ethbar_NP multiply the (ell,m) mode by sqrt((ell-s)(ell+s+1)) / -sqrt((ell+s)(ell-s+1)) and give zero where ell is below the new spin weight; eth_GHP = eth_NP/sqrt(2), ethbar_GHP = ethbar_NP/sqrt(2); and for every array with no weight below |s|, ethbar_NP(eth_NP f) - eth_NP(ethbar_NP f) = 2 s f with ethbar_NP(eth_NP f) = -(ell-s)(ell+s+1) f mode by mode; the array methods Modes.eth / Modes.ethbar agree with them.", "quantifier": "all arrays of any size, all ell_min, all spin weights", "why_tests_cant": "needs every (ell, s); the kernel depends on an absolute-value boundary", "anchors": ["spherical_functions/mode_conversions.py:eth_NP", "spherical_functions/mode_conversions.py:ethbar_NP", "spherical_functions/mode_conversions.py:eth_GHP", "spherical_functions/mode_conversions.py:ethbar_GHP", "spherical_functions/SWSH_modes/derivatives.py:eth", "spherical_functions/SWSH_modes/derivatives.py:ethbar"]}
{"id": "C12", "title": "ethbar_inverse_NP is a partial inverse of ethbar_NP", "statement": "ethbar_inverse_NP(ethbar_NP(f, s+1), s) equals f on every mode with ell>=|s| and ell>=|s+1|, and ethbar_NP(ethbar_inverse_NP(g, s), s+1) equals g on those modes; only modes outside that range can differ.", "quantifier": "all arrays, all ell_min, all spin weights", "why_tests_cant": "division by a factor that must be non-zero exactly off the kernel", "anchors": ["spherical_functions/mode_conversions.py:ethbar_inverse_NP", "spherical_functions/mode_conversions.py:ethbar_NP"]}
{"id": "C13", "title": "Wigner_D_element computes Wigner's formula for every rotor and index", "statement": "For every rotor given as (Ra,Rb) with |Ra|^2+|Rb|^2=1 and every valid (ell,mp,m), integer or half-integer, the value of Wigner_D_element equals Wigner's explicit sum for D^ell_{mp,m}; this includes the two degenerate branches (Ra=0 or Rb=0) and both the |Ra|<|Rb| and |Ra|>=|Rb| expansions.", "quantifier": "all rotors and all valid indices (exact arithmetic; the epsilon branches exactly at zero)", "why_tests_cant": "three expansions glued at boundaries; unit tests sample rotors and stop at small ell", "anchors": ["spherical_functions/WignerD/__init__.py:_Wigner_D_element", "spherical_functions/WignerD/__init__.py:Wigner_D_element", "spherical_functions/__init__.py:_Wigner_coefficient"]}
{"id": "C14", "title": "The three Wigner-D evaluators agree and fill their whole output", "statement": "_Wigner_D_matrices, _Wigner_D_elements and _Wigner_D_element give the same value for every index; _Wigner_D_matrices writes every slot of its output array of size LMpM_total_size(ell_min, ell_max) and no slot outside it, although it only computes one wedge and fills the rest by symmetry.", "quantifier": "all rotors, all ell_min<=ell_max, all (ell,mp,m)", "why_tests_cant": "numba code without bounds checks on uninitialised (np.empty) output; a missed slot holds garbage that a test may not notice", "anchors": ["spherical_functions/WignerD/__init__.py:_Wigner_D_matrices", "spherical_functions/WignerD/__init__.py:_Wigner_D_elements", "spherical_functions/WignerD/__init__.py:_Wigner_D_element", "spherical_functions/WignerD/__init__.py:Wigner_D_matrices"]}
{"id": "C15", "title": "Wigner D matrices represent the rotation group", "statement": "The matrices returned for R1, R2 and R1 R2 satisfy D(R1 R2) = D(R1) D(R2) for every ell (integer and half-integer), D(1) is the identity, and D(-R) = (-1)^(2 ell) D(R).", "quantifier": "all pairs of rotors and all ell", "why_tests_cant": "continuous domain and unbounded ell", "anchors": ["spherical_functions/WignerD/__init__.py:Wigner_D_element", "spherical_functions/WignerD/__init__.py:Wigner_D_matrices"]}
{"id": "C16", "title": "Wigner D matrices are unitary and have the documented symmetries", "statement": "D(R) D(R)^dagger = 1, D_{mp,m}(R) = conj D_{m,mp}(R^-1), and D_{mp,m}(R) = (-1)^(mp+m) conj D_{-mp,-m}(R), for every ell.", "quantifier": "all rotors, all ell, all (mp,m)", "why_tests_cant": "continuous domain and unbounded ell", "anchors": ["spherical_functions/WignerD/__init__.py:Wigner_D_element", "spherical_functions/WignerD/__init__.py:Wigner_D_matrices"]}
{"id": "C17", "title": "SWSH equals (-1)^s sqrt((2l+1)/4pi) D^l_{m,-s} and obeys its symmetries", "statement": "SWSH(R, s, (ell,m)) = (-1)^s sqrt((2 ell+1)/(4 pi)) D^ell_{m,-s}(R) for valid indices and 0 whenever |m|>ell or |s|>ell; conj sYlm = (-1)^(s+m) (-s)Y(l,-m); rotating the frame by gamma about z multiplies it by exp(-i s gamma); the array-of-rotors and array-of-indices call forms agree.", "quantifier": "all rotors, all s, ell, m", "why_tests_cant": "continuous domain; unbounded indices", "anchors": ["spherical_functions/SWSH/__init__.py:SWSH", "spherical_functions/SWSH/__init__.py:_SWSH", "spherical_functions/SWSH/__init__.py:_SWSHs", "spherical_functions/SWSH/__init__.py:SWSH_grid"]}
{"id": "C18", "title": "SWSHs transform under rotation by the Wigner D matrices", "statement": "For all rotors Q, R and every ell, s, m: sYlm(Q R) = sum over m' of D^ell_{m,m'}(Q) sYlm'(R).", "quantifier": "all rotors, all s, ell, m", "why_tests_cant": "continuous domain; unbounded ell; ties two separately coded evaluators", "anchors": ["spherical_functions/SWSH/__init__.py:SWSH", "spherical_functions/WignerD/__init__.py:Wigner_D_element"]}
{"id": "C19", "title": "Invalid Wigner D indices are rejected before any table is read", "statement": "Every call form of Wigner_D_element either raises ValueError or reads only in-range table entries; in particular index triples of mixed parity, out-of-range m, mp and ell above the table size are rejected.", "quantifier": "all call forms and all index arrays", "why_tests_cant": "the failure is a silent out-of-bounds read in compiled code for inputs outside the tested ones", "anchors": ["spherical_functions/WignerD/__init__.py:_check_valid_indices", "spherical_functions/WignerD/__init__.py:Wigner_D_element", "spherical_functions/__init__.py:_Wigner_coefficient"]}
{"id": "C20", "title": "Modes objects keep their shape and low-mode invariants under every operation sequence", "statement": "After the constructor and after any finite sequence of conjugate, real, imag, add, subtract, multiply, divide, derivative, truncate and copy operations, a Modes object has a last axis of exactly (ell_max+1)^2 entries for its recorded ell_max, and every mode with ell below |spin_weight| is zero.", "quantifier": "all inputs and all finite histories of operations", "why_tests_cant": "histories are unbounded; unit tests run single operations", "anchors": ["spherical_functions/SWSH_modes/__init__.py:Modes.__new__", "spherical_functions/SWSH_modes/algebra.py", "spherical_functions/SWSH_modes/derivatives.py", "spherical_functions/SWSH_modes/utilities.py"]}
{"id": "C21", "title": "The Modes constructor validates its input and places data by (ell,m)", "statement": "Modes(data, s, ell_min, ell_max) succeeds exactly when the last axis has LM_total_size(ell_min, ell_max) entries; the (ell,m) mode of the result is the LM_index(ell,m,ell_min) input entry when ell>=max(ell_min,|s|) and 0 otherwise; the caller's array is not modified.", "quantifier": "all arrays, spin weights and ell ranges", "why_tests_cant": "aliasing between the input and the result cannot be seen by checking results", "anchors": ["spherical_functions/SWSH_modes/__init__.py:Modes.__new__"]}
{"id": "C22", "title": "Conjugation of Modes represents the conjugate function", "statement": "For every Modes object f and rotor R, evaluating f.conjugate() at R gives the complex conjugate of f at R; conjugating twice is the identity; the spin weight is negated; the in-place variant stores the same data.", "quantifier": "all mode data, all spin weights, all ell_max, all rotors", "why_tests_cant": "continuous domain; in-place swap of paired modes can lose one of the pair only for certain indices", "anchors": ["spherical_functions/SWSH_modes/algebra.py:conjugate", "spherical_functions/SWSH_modes/utilities.py:evaluate"]}
{"id": "C23", "title": "Real and imaginary parts of spin-0 Modes are those of the function", "statement": "For spin weight 0, f.real and f.imag evaluate to the real and imaginary part of f at every rotor, f = f.real + i f.imag, real is idempotent, and any nonzero spin weight raises ValueError.", "quantifier": "all mode data, all ell_max, all rotors", "why_tests_cant": "continuous domain", "anchors": ["spherical_functions/SWSH_modes/algebra.py:_real_func", "spherical_functions/SWSH_modes/algebra.py:_imag_func"]}
{"id": "C24", "title": "Addition and subtraction of Modes act pointwise on the functions", "statement": "For Modes f and g of equal spin weight and possibly different ell_max, f+g and f-g evaluate at every rotor to the sum and difference of the values, with ell_max the larger one; adding functions of different spin weight, or a nonzero scalar to a function of nonzero spin weight, raises; np.add / np.subtract with an out= argument give the same result.", "quantifier": "all mode data, all ell_max pairs, all rotors, all out= arrays", "why_tests_cant": "the out= paths depend on prior contents and aliasing of the output array", "anchors": ["spherical_functions/SWSH_modes/algebra.py:add", "spherical_functions/SWSH_modes/algebra.py:subtract", "spherical_functions/SWSH_modes/ufuncs.py:__array_ufunc__"]}
{"id": "C25", "title": "Multiplication of Modes is the pointwise product of the functions", "statement": "For all Modes f and g, f*g has spin weight s_f+s_g, ell_max = ell_max_f+ell_max_g by default, and evaluates at every rotor to the product of the values; with a truncator the result is the full product truncated; the (ell,m) entries equal the 3-j double sum over exactly the index pairs allowed by the triangle and m selection rules.", "quantifier": "all mode data, all spin weights, all ell_max pairs, all truncators, all rotors", "why_tests_cant": "an unbounded quintuple loop with clipped summation limits; a clipped limit that drops a term is invisible for small ell", "anchors": ["spherical_functions/multiplication.py:_multiplication_helper", "spherical_functions/multiplication.py:multiply", "spherical_functions/SWSH_modes/algebra.py:multiply"]}
{"id": "C26", "title": "Angular momentum algebra of Modes derivatives", "statement": "As operators on Modes of any ell_max and spin weight: [Lz,L+-]=+-L+-, [L+,L-]=2Lz, L^2=(L+L- + L-L+)/2+Lz^2, the corresponding relations for R with their documented signs, every L commutes with every R, R^2=L^2, and eth=R+-type raising changes s by the documented amount.", "quantifier": "all mode data, all ell_max, all spin weights", "why_tests_cant": "needs all ell, m, s; off-by-one shifts at |m|=ell edges", "anchors": ["spherical_functions/SWSH_modes/derivatives.py"]}
{"id": "C27", "title": "L operators on Modes are the infinitesimal rotations of the function", "statement": "Lz and L+- acting on Modes generate rotations: on each ell block they are the representation matrices whose action on sYlm is the standard ladder action, and rotation of the modes by the Wigner D matrix commutes with every R operator, eth and ethbar.", "quantifier": "all mode data, all rotors", "why_tests_cant": "continuous domain", "anchors": ["spherical_functions/SWSH_modes/derivatives.py:Lz", "spherical_functions/SWSH_modes/derivatives.py:Lplus", "spherical_functions/SWSH_modes/derivatives.py:Lminus", "spherical_functions/SWSH_modes/derivatives.py:Rplus"]}
{"id": "C28", "title": "Modes.index and truncate_ell select exactly the requested modes", "statement": "index(ell,m) addresses the (ell,m) mode or raises when m or ell is out of range; truncate_ell(L) keeps every mode with ell<=L unchanged and drops the rest; truncating to a larger ell_max raises.", "quantifier": "all ell, m, L and all mode data", "why_tests_cant": "boundary conditions over unbounded index ranges", "anchors": ["spherical_functions/SWSH_modes/utilities.py:index", "spherical_functions/SWSH_modes/utilities.py:truncate_ell"]}
{"id": "C29", "title": "Universal-function dispatch on Modes only yields the documented objects", "statement": "For every ufunc, operand pair and out= argument, the overridden dispatch either declines, raises, or returns the documented result (negation, scaling, addition, product, conjugate, absolute value, comparisons) with consistent metadata; it never scales different modes of one function differently.", "quantifier": "all ufuncs, operand kinds, shapes and out= arguments", "why_tests_cant": "dispatch table with shape-dependent broadcasting conditions", "anchors": ["spherical_functions/SWSH_modes/ufuncs.py:__array_ufunc__", "spherical_functions/SWSH_modes/utilities.py:_check_broadcasting"]}
{"id": "C30", "title": "Scalar broadcasting never mixes modes or grid points", "statement": "An array operand is accepted exactly when it broadcasts against the leading axes (all but the mode axis, or all but the two grid axes), and then every mode (grid value) of one function is scaled by the same factor.", "quantifier": "all shapes of any rank", "why_tests_cant": "broadcasting is a property of all shape pairs; a coincidence of axis lengths selects the wrong axis", "anchors": ["spherical_functions/SWSH_modes/utilities.py:_check_broadcasting", "spherical_functions/SWSH_modes/algebra.py:multiply", "spherical_functions/SWSH_grids/utilities.py:_check_broadcasting", "spherical_functions/SWSH_grids/algebra.py:multiply"]}
{"id": "C31", "title": "Wigner 3-j symbols vanish exactly outside the selection rules' domain and are found at the right slot inside it", "statement": "Wigner3j returns 0 whenever m1+m2+m3!=0, some |m|>j, or the triangle inequality fails, and otherwise returns entry j1 of the family computed for (j2,j3,m2,m3); every array access of the calculation is inside the workspace.", "quantifier": "all integer arguments", "why_tests_cant": "compiled code without bounds checks; unbounded arguments", "anchors": ["spherical_functions/recursions/wigner3j.py:Wigner3j", "spherical_functions/recursions/wigner3j.py:Wigner3jCalculator.calculate"]}
{"id": "C32", "title": "The 3-j calculator returns the 3-j symbols", "statement": "In exact arithmetic, for all j2,j3,m2,m3 the array returned by calculate holds, at index j, the Wigner 3-j symbol (j j2 j3; -m2-m3 m2 m3) for every j in [max(|j2-j3|,|m2+m3|), j2+j3] and 0 below: it solves the three-term recurrence, is normalised, and has the standard sign.", "quantifier": "all j2, j3, m2, m3", "why_tests_cant": "two-sided recurrence with matching, early exits when coefficients vanish, and special cases; unbounded j", "anchors": ["spherical_functions/recursions/wigner3j.py:Wigner3jCalculator.calculate", "spherical_functions/recursions/wigner3j.py:normalize", "spherical_functions/recursions/wigner3j.py:determine_signs"]}
{"id": "C33", "title": "The 3-j calculator is history independent", "statement": "The array returned by calculate depends only on the arguments, not on what the calculator object computed before, whatever the (large enough) workspace size; two interleaved calculators do not interfere.", "quantifier": "all finite histories of calls", "why_tests_cant": "stateful workspace reuse; histories are unbounded", "anchors": ["spherical_functions/recursions/wigner3j.py:Wigner3jCalculator", "spherical_functions/multiplication.py:_multiplication_helper"]}
{"id": "C34", "title": "3-j symmetries and the Clebsch-Gordan relation", "statement": "Wigner3j is invariant under even column permutations, picks up (-1)^(j1+j2+j3) under odd permutations and under sign reversal of all m; clebsch_gordan(j1,m1,j2,m2,j3,m3) = (-1)^(j1-j2+m3) sqrt(2 j3+1) Wigner3j(j1,j2,j3,m1,m2,-m3).", "quantifier": "all integer arguments", "why_tests_cant": "different argument orders run different recurrences; unbounded j", "anchors": ["spherical_functions/recursions/wigner3j.py:Wigner3j", "spherical_functions/recursions/wigner3j.py:clebsch_gordan"]}
{"id": "C35", "title": "3-j recurrence coefficients are computed without integer overflow", "statement": "For all arguments whose result is representable, the integer coefficient helpers return their mathematical value despite their fixed-width integer types.", "quantifier": "all integer arguments up to the workspace limit", "why_tests_cant": "overflow happens only at large j and wraps silently in compiled code", "anchors": ["spherical_functions/recursions/wigner3j.py:A", "spherical_functions/recursions/wigner3j.py:B"]}
{"id": "C36", "title": "Grid algebra is pointwise with spin-weight bookkeeping", "statement": "For Grid objects of equal grid shape: + and - require equal spin weight, * adds and / subtracts spin weights, conjugate negates it, absolute gives weight 0; values combine point by point; shape or spin mismatch raises ValueError.", "quantifier": "all grids, all shapes, all spin weights", "why_tests_cant": "all shapes and spin weights; error paths", "anchors": ["spherical_functions/SWSH_grids/algebra.py", "spherical_functions/SWSH_grids/ufuncs.py:__array_ufunc__", "spherical_functions/SWSH_grids/__init__.py:Grid.__new__"]}
{"id": "C37", "title": "Grids convert back to modes, copy and pickle", "statement": "Grid.modes returns the modes of the function; pickling or copying a Grid preserves data and metadata; constructing a Grid too small for its spin weight raises ValueError.", "quantifier": "all grids", "why_tests_cant": "error paths reached only by inputs the suite does not exercise", "anchors": ["spherical_functions/SWSH_grids/utilities.py:modes", "spherical_functions/SWSH_grids/__init__.py:Grid.__reduce__", "spherical_functions/SWSH_grids/__init__.py:Grid.__new__"]}
{"id": "C38", "title": "theta_phi samples the poles and the full circle in the order Grid expects", "statement": "theta_phi(n_theta, n_phi) has shape (n_theta, n_phi, 2), entry [i,j] is (i pi/(n_theta-1), 2 pi j/n_phi): theta runs from 0 to pi inclusive, phi covers [0, 2 pi) without repeating 0.", "quantifier": "all n_theta>=2, n_phi>=1", "why_tests_cant": "unbounded sizes", "anchors": ["spherical_functions/__init__.py:theta_phi"]}
{"id": "C39", "title": "The H recursion reads only values it has computed and fills its storage", "statement": "For every n_max>=1 and every accepted array of angles, running the steps of the H calculator never reads an entry that has not yet been written in this run, never accesses storage out of bounds, and leaves every entry of the wedge (or of the full storage) written; the result does not depend on what the workspace held.", "quantifier": "all n_max>=1, all angle arrays, all workspace contents", "why_tests_cant": "reuse of the workspace between calls hides reads of stale data; compiled code has no bounds checks", "anchors": ["spherical_functions/recursions/wignerH.py:_step_1", "spherical_functions/recursions/wignerH.py:_step_2", "spherical_functions/recursions/wignerH.py:_step_3", "spherical_functions/recursions/wignerH.py:_step_4", "spherical_functions/recursions/wignerH.py:_step_5", "spherical_functions/recursions/wignerH.py:HCalculator"]}
{"id": "C40", "title": "The H recursion computes the Wigner d functions", "statement": "In exact arithmetic the wedge entry for (n,mp,m) equals the H function epsilon(m') epsilon(-m) d^n_{m',m}(beta) at the given angle, for all n<=n_max and n_max>=1; the entries for the other mp, m are found through wedgeify_index; the full-storage calculator returns the same functions at every (n,mp,m).", "quantifier": "all n_max>=1 and all beta", "why_tests_cant": "a five-step recursion whose coefficients involve square roots of products of indices; continuous angle", "anchors": ["spherical_functions/recursions/wignerH.py:HCalculator", "spherical_functions/WignerD/WignerDRecursion.py:HCalculator"]}
{"id": "C41", "title": "Evaluation of Modes is linear and consistent with grids", "statement": "evaluate(f, R) = sum over (ell,m) of f_(ell,m) sYlm(R); it is linear in f, truncation commutes with it, and multiplying by a scalar array broadcasts over the leading axes.", "quantifier": "all mode data, all rotors", "why_tests_cant": "continuous domain", "anchors": ["spherical_functions/SWSH_modes/utilities.py:evaluate", "spherical_functions/SWSH/__init__.py:SWSH_grid"]}
{"id": "C42", "title": "Modes.norm and the absolute ufunc give the L2 norm", "statement": "norm(f) is the square root of the sum of |f_(ell,m)|^2 (the L2 norm of the function) and np.absolute(f) returns the same quantity, as the class documentation says.", "quantifier": "all mode data", "why_tests_cant": "documentation claim about every input", "anchors": ["spherical_functions/SWSH_modes/algebra.py:norm", "spherical_functions/SWSH_modes/ufuncs.py:__array_ufunc__", "spherical_functions/SWSH_modes/__init__.py:Modes"]}
{"id": "C43", "title": "The computed 3-j symbols are orthonormal", "statement": "For arrays returned by calculate for the same (j2,j3) and the same m2+m3, the sum over j of (2j+1) times the product of the entries is 1 if m2 agrees and 0 otherwise; for values returned by Wigner3j, (2 j3+1) times the sum over m1 of w(j1,j2,j3;m1,-m3-m1,m3) w(j1,j2,j3';m1,-m3-m1,m3) is 1 if j3=j3' and 0 otherwise.", "quantifier": "all j2, j3 and all projections; all histories of the calculators", "why_tests_cant": "unbounded j; the relation ties together results of different recurrence runs", "anchors": ["spherical_functions/recursions/wigner3j.py:Wigner3jCalculator.calculate", "spherical_functions/recursions/wigner3j.py:Wigner3j"]}
{"id": "C44", "title": "R operators on Modes are the documented right Lie derivatives", "statement": "With Rg(f){Q} = -0.5j df{Q exp(t g)}/dt at t=0: Rz returns Rz, Rplus returns Rx - 1j Ry and Rminus returns Rx + 1j Ry, as their docstrings derive.", "quantifier": "all mode data, all spin weights, all rotors away from the poles", "why_tests_cant": "a statement about a derivative at every point; the suite only checks the mode coefficients against the docstring's own table, so a sign shared by both is invisible", "anchors": ["spherical_functions/SWSH_modes/derivatives.py:Rz", "spherical_functions/SWSH_modes/derivatives.py:Rplus", "spherical_functions/SWSH_modes/derivatives.py:Rminus", "spherical_functions/SWSH_modes/derivatives.py:eth"]}
{"id": "C45", "title": "Powers and roots of Grid objects", "statement": "np.power(g, e), np.square, np.reciprocal and np.sqrt of a Grid raise every value to the power e, 2, -1 or 1/2 and multiply the spin weight by the same number; an exponent for which that is impossible (non-integer result spin weight, exponent that is not an integer) is declined.", "quantifier": "all grids of every shape and spin weight, all exponents", "why_tests_cant": "all exponents and spin weights; the exponent is converted silently", "anchors": ["spherical_functions/SWSH_grids/ufuncs.py:__array_ufunc__"]}
{"id": "C46", "title": "An H calculator of degree 0 stays inside its storage", "statement": "HCalculator(0), which the constructor accepts, computes H^{0,0}_0 = 1 without accessing storage out of bounds, in both calculators.", "quantifier": "all angles", "why_tests_cant": "compiled code has no bounds checks, so a write past the end goes unnoticed", "anchors": ["spherical_functions/recursions/wignerH.py:HCalculator", "spherical_functions/WignerD/WignerDRecursion.py:HCalculator"]}
{"id": "C47", "title": "The quaternion angles factor the D matrices", "statement": "For every unit quaternion, quaternion_angles returns z_beta=exp(i beta) and phases z_p, z_m with D^n_{m',m}(R) = d^n_{m',m}(beta) z_p^(m'+m) z_m^(m'-m); for the quaternion of Euler angles alpha, beta, gamma these are exp(i beta), exp(i(alpha+gamma)/2), exp(i(alpha-gamma)/2); with the H calculator they give the D matrices.", "quantifier": "all unit quaternions and all indices", "why_tests_cant": "continuous group; degenerate rotations are measure zero", "anchors": ["spherical_functions/recursions/__init__.py:quaternion_angles"]}
{"id": "C48", "title": "The harmonics are orthonormal and modes are integrals", "statement": "The values SWSH returns are orthonormal over the sphere at every spin weight: the integral of conj(sY_lm) sY_l'm' is 1 if (l,m)=(l',m') and 0 otherwise. Consequently the modes of a Modes object f are recovered as the integrals of the function f.evaluate returns against the conjugate harmonics, and the L2 inner product of two such functions of one spin weight is the sum of conj(f_lm) g_lm.", "quantifier": "all spin weights, degrees, orders and mode data", "why_tests_cant": "integrals over a continuum, at every degree and spin weight", "anchors": ["spherical_functions/SWSH/__init__.py:SWSH", "spherical_functions/SWSH_modes/utilities.py:evaluate"]}
{"id": "C49", "title": "The D functions are orthogonal over the rotation group", "statement": "The integral over all unit quaternions (Euler angles with weight sin beta, gamma up to 4 pi) of conj(D^l_{m'm}) D^k_{n'n}, with the values Wigner_D_element returns for Euler angles, is 16 pi^2/(2l+1) if (l,m',m)=(k,n',n) and 0 otherwise, for integer and half-integer degrees.", "quantifier": "all integer and half-integer degrees and indices", "why_tests_cant": "integrals over a continuum, at every degree", "anchors": ["spherical_functions/WignerD/__init__.py:Wigner_D_element"]}
{"id": "C50", "title": "Samples on the theta_phi grid determine the modes", "statement": "If two Modes objects of one spin weight evaluate to the same values at all points of theta_phi(n_theta, n_phi), and n_theta and n_phi are at least 2 ell_max + 1 (the sizes Modes.grid uses and Grid demands), they have the same modes.", "quantifier": "all mode data, all spin weights, all admissible grid sizes", "why_tests_cant": "injectivity over continuous data at every size", "anchors": ["spherical_functions/__init__.py:theta_phi", "spherical_functions/SWSH_modes/utilities.py:evaluate", "spherical_functions/SWSH_modes/utilities.py:grid"]}
{"id": "C51", "title": "The differential operators are adjoint as the sphere's inner product demands", "statement": "Over the sphere, the integral of (A f) conj(g) equals sign times the integral of f conj(B g), where the functions are those that evaluate returns: Lz, Rz, Lsquared and Rsquared are their own adjoints, Lplus and Lminus are each other's, so are Rplus and Rminus, and eth is minus the adjoint of ethbar. A f and B g always return.", "quantifier": "all mode data, spin weights, ell_max (different for f and g), leading shapes", "why_tests_cant": "an identity of integrals over all pairs of functions", "anchors": ["spherical_functions/SWSH_modes/derivatives.py:Lplus", "spherical_functions/SWSH_modes/derivatives.py:Rplus", "spherical_functions/SWSH_modes/derivatives.py:eth", "spherical_functions/SWSH_modes/derivatives.py:ethbar", "spherical_functions/SWSH_modes/utilities.py:evaluate"]}
{"id": "C52", "title": "The evaluators at every quaternion, and the size of the cut-off's effect", "statement": "Wigner_D_matrices, the rotor-array form of Wigner_D_element, SWSH on one rotor, on many and on a grid all return the same numbers as Wigner_D_element at the same quaternion (times (-1)^s sqrt((2l+1)/4pi) for SWSH), unit or not and whether or not a part is below the cut-off epsilon. At every unit quaternion, also those with a part strictly between 0 and epsilon, an element is within (2l+1) epsilon of Wigner's formula, an evaluated function within epsilon times the sum of |mode| sqrt((2l+1)/4pi) (2l+1) of the function the modes define, and two D matrices multiply to the matrix of the product within 4 (2l+1)^2 epsilon.", "quantifier": "all quaternions except qb = 0 with |qa| <= epsilon, all indices with 2 ell at most 10^14 (for the bounds)", "why_tests_cant": "the cut-off acts in a set of rotations of tiny measure that random tests never hit; the bound holds for all ell", "anchors": ["spherical_functions/WignerD/__init__.py:_Wigner_D_element", "spherical_functions/WignerD/__init__.py:_Wigner_D_matrices", "spherical_functions/SWSH/__init__.py:_SWSH", "spherical_functions/SWSH_modes/utilities.py:evaluate"]}
{"id": "C53", "title": "The H calculators accept arrays of angles of any shape", "statement": "Calling HCalculator with an array of cosines of any shape and memory layout, with or without the array of sines and a workspace made by workspace(), returns an array whose initial dimension runs over (n, mp, m) and whose following dimensions are those of the cosines, holding at each position the H functions of the angle at that position.", "quantifier": "all shapes, memory layouts, angles, n_max >= 1", "why_tests_cant": "all shapes and layouts; tests use one-dimensional arrays", "anchors": ["spherical_functions/recursions/wignerH.py:HCalculator.__call__", "spherical_functions/recursions/wignerH.py:HCalculator.workspace", "spherical_functions/WignerD/WignerDRecursion.py:HCalculator.__call__"]}
{"id": "C54", "title": "SWSH, SWSH_grid and evaluate on rotors and indices of any shape", "statement": "Given an array of rotors of any shape and a pair (ell,m), or one rotor and an (N,2) array of indices, SWSH returns an array of shape R.shape, respectively (N,), whose entry at each position is the harmonic of the rotor, respectively the row, at that position. SWSH_grid returns shape R_grid.shape + ((ell_max+1)^2,) with the harmonic (ell,m) of each rotor at ell^2+ell+m of the last axis, and Modes.evaluate returns the leading axes of the modes followed by the axes of the rotors, each entry being the value of that function at that rotor. This includes empty arrays; every other combination of arguments raises a Python exception.", "quantifier": "all shapes of rotors and indices, all rotors, all s, ell, m", "why_tests_cant": "infinitely many shapes and argument combinations; failures are index errors that only show for some shapes, and reads outside a table that need not show at all", "anchors": ["spherical_functions/SWSH/__init__.py:11-88", "spherical_functions/SWSH_modes/utilities.py:83-92"]}
{"id": "C55", "title": "Modes.grid samples the function, and Grid algebra agrees with Modes algebra", "statement": "f.grid(n_theta, n_phi), with at least 2*ell_max+1 points in each direction (the default), is a Grid of f's spin weight and leading axes whose values are those f.evaluate returns at the points of theta_phi(n_theta, n_phi). Sums, differences, products, conjugates, real and imaginary parts and multiples of Grids made this way are the Grids of the corresponding Modes objects (for a product, with points enough for its ell_max). Equal Grids come from equal modes, and with 2*(ell_max_f+ell_max_g)+1 points the product of two Grids has no other modes up to that ell_max than f.multiply(g).", "quantifier": "all Modes objects, all grid sizes from the minimum up, all leading shapes that broadcast, given that spinsfast.salm2map samples the sum of harmonics", "why_tests_cant": "agreement at a few sizes and random modes leaves open index and sign conventions at other spin weights, sizes and leading shapes; uniqueness speaks about all functions", "anchors": ["spherical_functions/SWSH_modes/utilities.py:44-80", "spherical_functions/SWSH_grids/__init__.py:74-93", "spherical_functions/SWSH_grids/algebra.py", "spherical_functions/SWSH_modes/algebra.py"]}
{"id": "C56", "title": "How many sample points determine a function", "statement": "For functions of spin weight s with modes up to ell_max = L, sampled at the points of theta_phi(n_theta, n_phi) with n_phi >= 2L+1: the samples determine all modes if n_theta >= L+2 (s = 0) or n_theta >= L-|s|+3 (s != 0), and with fewer points in theta (but at least two) some non-zero function vanishes at every point. At spin weight zero, an even n_phi <= 2L always leaves some non-zero function with all samples zero. In particular 2*ell_max+1, which the docstring of Modes.grid calls the minimum number of points in theta, is sufficient but not the minimum.", "quantifier": "all s, ell_max, n_theta, n_phi, and all mode weights", "why_tests_cant": "a lower bound needs a function vanishing at all points for every size, an upper bound a statement about all functions; tests sample a few sizes and random modes, which never vanish at the points", "anchors": ["spherical_functions/SWSH_modes/utilities.py:44-70", "spherical_functions/__init__.py:295-320"]}
{"id": "C57", "title": "Parts, copies and pickles of Modes objects", "statement": "Indexing a valid Modes object f with integers, slices, np.newaxis and ... so that the last axis is left alone either raises or returns a valid Modes object with f's spin weight and ell_max, whose modes are those of f at the leading indices that Python's indexing rules pick, stored in f's memory; evaluating it gives the corresponding part of f.evaluate. f[..., f.index(ell,m)] is the (ell,m) mode. A slice of the last axis keeps f's ell_max, so evaluate and Modes(...) refuse it unless its length is unchanged (a reversed last axis passes, and is not valid). Copies and unpickled objects equal f and share no memory with it; Modes(f) is f. An in-place conjugate, real or imag on a part of f changes exactly f's modes at the part's leading indices, and leaves f's own spin weight alone.", "quantifier": "all memory layouts, leading shapes, keys, spin weights, ell_max, modes", "why_tests_cant": "the space of keys, strides and shapes is infinite, and aliasing faults show only when an operation on one object is followed by a look at another", "anchors": ["spherical_functions/SWSH_modes/__init__.py:99-152", "spherical_functions/SWSH_modes/algebra.py:14-157", "spherical_functions/SWSH_modes/utilities.py:9-27"]}
{"id": "C58", "title": "Every universal function on Grid objects", "statement": "A call of any numpy universal function with at least one Grid among its inputs either raises or returns the documented result. Comparisons (complex numbers ordered by real part, then imaginary part; spin weights ignored), logical and/or, isfinite, isinf and isnan return the truth values of the broadcast arrays. Sums, differences, products, quotients, powers (by the integer part of the exponent), roots, squares, reciprocals, conjugates, absolute values and signs return a Grid whose value at every point is the operation on the values there, an array that is not a Grid counting as one number per function, with the spin weight of that operation. Combinations without a result raise TypeError or ValueError, a result whose spin weight the grid is too small for raises NameError. out= receives the same result broadcast to its shape, or the call raises ValueError. Further keyword arguments are refused; reduce and accumulate raise; outer, reduceat and at do not do what they do for arrays: they compute what a plain call computes, and at returns None.", "quantifier": "all universal functions, operand kinds, shapes, spin weights, values, out arguments, methods", "why_tests_cant": "the product of functions, operand kinds, shapes, spin weights and out arguments is infinite; most branches are never run by the suite", "anchors": ["spherical_functions/SWSH_grids/ufuncs.py:12-176", "spherical_functions/SWSH_grids/utilities.py:36-66", "spherical_functions/SWSH_grids/__init__.py:74-93"]}
{"id": "C59", "title": "complex_powers is numerically stable", "statement": "In double precision, for every complex number z of doubles with modulus 1 up to four roundings and every M up to 2^36, entry m of complex_powers(z, M) is within 150 m 2^-53 of the exact power z^m, in whatever quadrant z lies and however close it is to an axis (parts other than 0 at least 2^-300).", "quantifier": "all z of doubles with | |z|-1 | <= 4*2^-53, all M from 1 to 2^36, all arrays of such z, any complex square root accurate to four roundings", "why_tests_cant": "tests sample a few angles and powers; the amplification of rounding errors by the recurrence depends on the angle, worst next to the axes", "anchors": ["spherical_functions/recursions/complex_powers.py:complex_powers", "spherical_functions/recursions/complex_powers.py:_complex_powers"]}
{"id": "C60", "title": "The mode conversions lose only a few roundings", "statement": "In double precision, every entry that constant_as_ell_0_mode, constant_from_ell_0_mode, vector_as_ell_1_modes (of a real vector), eth_GHP, ethbar_GHP, eth_NP, ethbar_NP and ethbar_inverse_NP return is within at most 7 units of 2^-53 of the exact value, relatively and in the real and imaginary part separately (plus 8 times the smallest double). Converting a constant or a real vector to modes and back returns it within at most 7 units, the vector with imaginary parts exactly 0; ethbar_inverse_NP undoes ethbar_NP within 5 units for every ell where neither annihilates the modes.", "quantifier": "all constants, all real vectors of doubles, all spin weights, all arrays with (ell_max+1)^2 < 2^53, division done directly or by the reciprocal", "why_tests_cant": "a test compares at a few values with a tolerance chosen by hand; the bound holds for every input and includes the sign and parity of every factor", "anchors": ["spherical_functions/mode_conversions.py"]}
{"id": "C61", "title": "The shipped coefficient tables are right to the last place", "statement": "For every n up to 64, binomial_coefficient(n, k) is the exact binomial coefficient below 2^53 and otherwise within half a unit in the last place of it. For every integer or half-integer ell up to 32, ladder_operator_coefficient(ell, m) and Wigner_coefficient(ell, mp, m), looked up in the .npy files that the package ships, are at most one unit in the last place below the exact square roots and never above. (They are not always the nearest doubles, and not always exact where the exact value is an integer.)", "quantifier": "all arguments with |m|, |mp| <= ell <= 32, integer or half-integer, and all 0 <= k <= n <= 64; the tables are the bytes in the repository", "why_tests_cant": "the suite recomputes a part of the tables in floating point with a tolerance; the last place of all 98 thousand entries needs exact arithmetic, and the symmetric places of the Wigner table differ in 20 cases", "anchors": ["spherical_functions/__init__.py:binomial_coefficient", "spherical_functions/__init__.py:ladder_operator_coefficient", "spherical_functions/__init__.py:Wigner_coefficient", "spherical_functions/_generate_coefficients.py"]}
{"id": "C62", "title": "Wigner D elements and spin-weighted harmonics are accurate in double precision", "statement": "In double precision, with the shipped coefficient table, Wigner_D_element and SWSH of a rotor return, for every integer or half-integer ell up to 32, numbers within 37*(2*ell+1)*2^-53*2^ell (for SWSH 42*(2*ell+1)*2^-53*2^ell times sqrt((2*ell+1)/4pi)) of Wigner's formula, whatever the rotation, also at and around the cut-off 1e-15 for a part of the rotor. For quaternions of any norm up to 3/2 whose parts are above the cut-off the error is at most 74*ell+15 (for SWSH 74*ell+22) units of 2^-53 of the sum of the moduli of the terms of the formula, plus 2^-600. Rows with |m| or |mp| or |s| above ell give exactly 0.", "quantifier": "all pairs of complex parts whose squared norm is within 8 units of 2^-53 of 1 (any norm up to 3/2 above the cut-off), all ell up to 32, all mp, m, s, all arrays of rows, every C library whose polar, pow, rect and complex power are as accurate as stated", "why_tests_cant": "the suite compares with formulas at random rotors with tolerances chosen by hand; the worst rotor and the worst row are not among them", "anchors": ["spherical_functions/WignerD/__init__.py:_Wigner_D_element", "spherical_functions/SWSH/__init__.py:_SWSH"]}
{"id": "C63", "title": "Wigner D matrices and evaluations over arrays of rotors are accurate in double precision", "statement": "In double precision, with the shipped coefficient table, every entry of the matrices that Wigner_D_matrices computes for a rotor, for all ell up to 32, is within 53*(2*ell+1)*2^-53*2^ell of Wigner's formula, whichever of the four symmetric positions it was written to, whatever the array held before and whatever the rotation, also at and around the cut-off 1e-15. One element of many rotors is within 37*(2*ell+1)*2^-53*2^ell for each of them, and a spin-weighted harmonic of many rotors within 42*(2*ell+1)*2^-53*2^ell times sqrt((2*ell+1)/4pi). For quaternions of any norm up to 3/2 whose parts are above the cut-off the errors are at most 106*ell+15, 74*ell+15 and 74*ell+22 units of 2^-53 of the sum of the moduli of the terms of the formula, plus 2^-600. Indices with |m| or |mp| or |s| above ell give exactly 0.", "quantifier": "all rotors (squared norm within 8 units of 2^-53 of 1; any norm up to 3/2 above the cut-off), all arrays of them, all ell ranges up to 32, all mp, m, s, every initial content of the output, every C library whose polar, pow, rect and complex power are as accurate as stated", "why_tests_cant": "the suite compares the matrices with the elements at random rotors to a tolerance; it does not visit the worst rotor or the worst entry, and equality of two evaluators says nothing about the distance from the formula", "anchors": ["spherical_functions/WignerD/__init__.py:Wigner_D_matrices", "spherical_functions/WignerD/__init__.py:_Wigner_D_matrices", "spherical_functions/WignerD/__init__.py:_Wigner_D_elements", "spherical_functions/SWSH/__init__.py:_SWSHs"]}
{"id": "C64", "title": "Evaluation and norm of Modes are accurate in double precision", "statement": "In double precision, with the shipped coefficient table, every entry of SWSH_grid(R, s, ell_max) with ell_max up to 32 is within 42*(2*ell+1)*2^-53*2^ell*sqrt((2*ell+1)/4pi) of the spin-weighted harmonic, and exactly 0 for ell < |s|. Modes.evaluate is within 2^-53 * sum |f_lm| sqrt((2*ell+1)/4pi) (42*(2*ell+1)*2^ell + 1.5 d) + 2^-1000 of the sum of the modes times the harmonics, and Modes.norm is within (0.52 d + 2)*2^-53 of its exact value, relatively, plus 2^-500, in whatever order and with whatever fused operations the library adds the products, where d is the largest number of roundings one product goes through.", "quantifier": "all Modes arrays of any shape and spin weight (ell_max up to 32 for evaluate, below 2^29 for norm), all arrays of rotors whose squared norm is within 8 units of 2^-53 of 1, every order of summation, every C library whose functions are as accurate as stated", "why_tests_cant": "the suite compares evaluations with closed forms at random points to a tolerance chosen by hand; the order of summation depends on the BLAS library and on the shape, and a run sees only one", "anchors": ["spherical_functions/SWSH/__init__.py:SWSH_grid", "spherical_functions/SWSH_modes/utilities.py:evaluate", "spherical_functions/SWSH_modes/algebra.py:norm"]}
{"id": "C65", "title": "Derivatives and arithmetic of Modes are accurate in double precision", "statement": "In double precision, for Modes of any spin weight, shape and ell_max, the real and imaginary parts of every mode of Lsquared, Lz, Rsquared and Rz are within 2.1 units of 2^-53 (relative, plus underflow) of the exact ones, and those of Lplus, Lminus, Rplus, Rminus, eth and ethbar within 3.1, with the spin weight changed as documented. Sums and differences of Modes are the exact ones rounded once. A product with a number is within 3*2^-53 of the product, relative to its modulus, and a quotient by a number of modulus between 2^-900 and 2^900 within 18*2^-53, with or without fused operations, apart from underflow.", "quantifier": "all well-formed Modes arrays (any leading shape, spin weight, ell_max, entries), all numbers and arrays of numbers they broadcast with, every choice of fused operations, also differing from entry to entry", "why_tests_cant": "the suite compares with closed forms at random entries to absolute tolerances; relative accuracy of each part of each mode, at every magnitude and for every choice of fused operations, is a statement about all entries", "anchors": ["spherical_functions/SWSH_modes/derivatives.py:Lplus", "spherical_functions/SWSH_modes/derivatives.py:Rplus", "spherical_functions/SWSH_modes/derivatives.py:eth", "spherical_functions/SWSH_modes/derivatives.py:ethbar", "spherical_functions/SWSH_modes/algebra.py:add", "spherical_functions/SWSH_modes/ufuncs.py:__array_ufunc__"]}
{"id": "C66", "title": "Rotor angles and grid points are accurate in double precision", "statement": "In double precision, for a rotor of any norm whose parts w+iz and y+ix have moduli between 2^-400 and 2^400, quaternion_angles returns exp(i beta) within 13 units of 2^-53 and each of the two phases within 3.04, and complex_powers applied to the computed phases returns their m-th powers within 154*m units (m up to 2^36). When the squares of both components of one part underflow (components at most 2^-538) quaternion_angles raises ZeroDivisionError, although the rotor is not degenerate. theta_phi returns every angle within a relative 3.02 units of 2^-53 of i*pi/(n_theta-1) and 2*pi*j/n_phi, starts at exactly 0 and ends in theta at exactly np.pi, and both coordinates are strictly increasing and stay within [0, np.pi] and [0, 2*np.pi).", "quantifier": "all rotors in the stated range (not only unit rotors), all exponents up to 2^36, every implementation of the complex square root accurate to four roundings, all grid sizes up to 2^50 in each direction", "why_tests_cant": "the suite evaluates some rotors and small grids to absolute tolerances; a bound at every magnitude, strict monotonicity for every grid size, and the failure of rotors 2^-538 from the axis are statements about all inputs", "anchors": ["spherical_functions/recursions/__init__.py:quaternion_angles", "spherical_functions/recursions/complex_powers.py:complex_powers", "spherical_functions/__init__.py:theta_phi"]}
{"id": "C67", "title": "Grid arithmetic is accurate in double precision", "statement": "In double precision every universal function on Grid objects ends exactly as it would in exact arithmetic: the same exception, or a Grid of the same shape and spin weight, or the same truth values. At every grid point addition and subtraction return the correctly rounded result; multiplication and square are within 3 units of 2^-53, division within 18 and reciprocal within 11 units relative to the exact value (divisors between 2^-900 and 2^900), absolute within 2, sqrt within 4 of the principal root, and an integer power with exponent |e| < 100 within 4*e units (4*|e|+20 for negative e) as long as the power lies between 2^-800 and 2^800; positive, negative, conjugate and the first power are exact. With out= the same rounded numbers are stored. The methods add, subtract, multiply, divide and absolute of Grid obey the same bounds.", "quantifier": "all ufuncs and methods, all operands, shapes, spin weights and exponents, every order and fusing of the additions and products at every entry, every C library whose hypot and csqrt are accurate to two and four roundings", "why_tests_cant": "the suite compares some grids with numpy itself; a bound for all values and all compiled variants, and the claim that rounding never changes which calls succeed, are statements about all inputs", "anchors": ["spherical_functions/SWSH_grids/ufuncs.py:__array_ufunc__", "spherical_functions/SWSH_grids/algebra.py:add", "spherical_functions/SWSH_grids/algebra.py:subtract", "spherical_functions/SWSH_grids/algebra.py:multiply", "spherical_functions/SWSH_grids/algebra.py:divide", "spherical_functions/SWSH_grids/algebra.py:absolute"]}
{"id": "C68", "title": "Conjugate, real and imaginary part of Modes in double precision", "statement": "In double precision, for Modes of spin weight 0 whose entries are doubles, every mode of the real part and of the imaginary part is the exact one rounded once to nearest, in place or not. Both results satisfy f_(l,-m) = (-1)^m conj f_(l,m) exactly, so they are modes of real functions without any rounding error; a real function has exactly itself as real part and exactly 0 as imaginary part, and taking the real part twice is the same as once. Real part plus i times imaginary part is the original mode up to 2^-53 times the larger of the modes m and -m. The conjugate is exact for every spin weight.", "quantifier": "all well-formed Modes arrays with double entries (any leading shape and ell_max), in place or not, every order and fusing of the complex products and quotients, also differing from entry to entry; without overflow", "why_tests_cant": "the suite compares grids of random modes to a tolerance; exact symmetry, exact idempotence and correct rounding at every magnitude (also where halving underflows) are statements about all doubles", "anchors": ["spherical_functions/SWSH_modes/algebra.py:_real_func", "spherical_functions/SWSH_modes/algebra.py:_imag_func", "spherical_functions/SWSH_modes/algebra.py:conjugate"]}
{"id": "C69", "title": "3-j symbols and Clebsch-Gordan coefficients with m = 0 in double precision", "statement": "In double precision, every entry that Wigner3jCalculator.calculate(j2, j3, 0, 0) returns has a relative error of at most (18 min(j2,j3) + 40) 2^-53, in any calculator whatever was computed in it before, and no exception is raised. The symbols that vanish, because j1+j2+j3 is odd or the triangle rule fails, are returned as exactly 0, and all others with their correct sign. The same holds for Wigner3j(j1, j2, j3, 0, 0, 0) with arguments in any order, and with (18 min + 44) 2^-53 for clebsch_gordan(j1, 0, j2, 0, j3, 0).", "quantifier": "all j with j2+j3 <= 1447 (for single symbols: the sum of the two smaller ones), the range in which the 64-bit coefficients do not wrap around; all calculators and prior contents; without overflow", "why_tests_cant": "the suite compares a few symbols of small j to a tolerance; growth of rounding error along the three-term recursion, division by the nearly vanishing entries and exactness of the zeros are statements about hundreds of thousands of families", "anchors": ["spherical_functions/recursions/wigner3j.py:Wigner3jCalculator.calculate", "spherical_functions/recursions/wigner3j.py:Wigner3j", "spherical_functions/recursions/wigner3j.py:clebsch_gordan"]}
{"id": "C70", "title": "Reproducible 3-j symbols in double precision", "statement": "For every j2, j3, m2, m3 the double-precision result of Wigner3jCalculator.calculate is bitwise the same in every calculator large enough, whatever its size and whatever was computed in it before. The only exception it can raise is a division by zero, and then every calculator raises it. Entries that violate a selection rule are exactly 0, no entry exceeds 5/4 in absolute value, and the entry at j2+j3 never has the wrong sign. Wigner3j returns the entry of any calculator for the largest j, is 0 wherever a selection rule is violated, and gives bitwise equal results for the three cyclic orders of its columns when one j is larger than the others. Families of one or two symbols with j2+j3 <= 151 have a relative error of at most 12 2^-53.", "quantifier": "all j, m with j2+j3 <= 1447 (for single symbols: the sum of the two smaller ones), the range in which the 64-bit coefficients do not wrap around; all calculators and prior contents; without overflow", "why_tests_cant": "the suite compares single values to a tolerance in fresh calculators; stale entries of the workspace, an index beyond the family, or a dependence on the size of the calculator show only for particular branch sequences of the recursion", "anchors": ["spherical_functions/recursions/wigner3j.py:Wigner3jCalculator.calculate", "spherical_functions/recursions/wigner3j.py:Wigner3j"]}
{"id": "C71", "title": "Reproducible H recursion in double precision", "statement": "In double precision the entry that the H calculators store for (n, m', m) and an angle is bitwise the same function of (n, m', m, cos beta, sin beta) alone: it does not depend on n_max, on the storage (wedge or full), on what the workspace held, or on the other angles of the array. This function has the symmetries of H exactly: H(m,m') = H(m',m) = H(-m',-m), H_0 = 1, reversing the sign of sin beta multiplies it by (-1)^(m+m'), and reversing the sign of cos beta multiplies the row m'=0 by (-1)^(n+m). The constructors accept every n_max >= 0, and no run reads an entry it has not written.", "quantifier": "all n_max >= 1, all n <= n_max and m', m, all arrays of cosines in [-1,1] and of sines, all workspace contents; without overflow", "why_tests_cant": "the suite compares values to a tolerance at a few n_max; bitwise agreement of two storages, of different n_max and of neighbouring angles is a statement about every rounding of a recursion of unbounded length", "anchors": ["spherical_functions/recursions/wignerH.py:HCalculator", "spherical_functions/WignerD/WignerDRecursion.py:HCalculator"]}
{"id": "C72", "title": "Products of Modes in double precision", "statement": "In double precision Modes.multiply returns a new object with the spin weight, ell_max, truncator and broadcast shape of C25, and each mode differs from the sum of all products (with the 3-j symbols as computed) by at most (1.01 n + 14) 2^-53 times the sum of the absolute values, n being the number of pairs of nonzero modes that contribute, up to underflow; the only exception is a ZeroDivisionError that a 3-j calculator raises itself. The result does not depend on the contents of uninitialised memory. If the symbols used have relative error eps, the modes are those of the exact product within ((1+eps)^2 (1 + (1.01 n + 14) 2^-53) - 1) times the sum of absolute values. Without assumptions on the symbols: for axisymmetric functions of spin weight 0 the factor is (37 min(ell_max) + 95 + 1.01 n) 2^-53 and the modes with m != 0 are exactly 0; and the product of a constant with any function of ell_max <= 151 always exists, with modes f00 g_lm / sqrt(4 pi) to a relative error of 40 2^-53 and exactly 0 above the ell_max of the function. The first three claims also hold for multiplication.multiply on plain arrays with any ellmin.", "quantifier": "all heaps and pairs of Modes with ell_max summing to at most 1447, all truncators, broadcastable shapes, orders of addition and fused or unfused complex products, all workspace contents; without overflow", "why_tests_cant": "the suite multiplies a few random functions and compares at a loose tolerance; a bound on every mode for every pair of inputs, and independence of uninitialised memory, cannot be sampled", "anchors": ["spherical_functions/multiplication.py:_multiplication_helper", "spherical_functions/SWSH_modes/algebra.py:multiply", "spherical_functions/multiplication.py:multiply"]}
{"id": "C73", "title": "Symbols with a degree 0 or 1, and dipole products, in double precision", "statement": "In double precision Wigner3j returns the 3-j symbol with a relative error of at most 114 2^-53 for all m whenever one of the three degrees is 0 or 1, vanishes exactly where the symbol does and otherwise has its sign; clebsch_gordan has a relative error of at most 117 2^-53 there. The same accuracy of Wigner3j holds, in each cyclic order, if the m of the largest degree is at most two below the sum of the other degrees. Wigner3jCalculator.calculate raises nothing and is as accurate for every family of at most three symbols, in a calculator of any size and contents. The product of two Modes, one of which has ell_max <= 1, always exists, and each of its modes is that of the exact product within (1.01 n + 245) 2^-53 times the sum of the absolute values of all contributions, n being the number of pairs of nonzero modes that contribute, up to underflow.", "quantifier": "all j, m for which the two smaller degrees (for calculate: j2+j3; for products: the two ell_max) sum to at most 151, the range in which the 32-bit coefficients do not wrap around; all calculators and workspace contents; all heaps, truncators, broadcastable shapes and orders of addition; without overflow", "why_tests_cant": "the suite compares to a few tabulated values at an absolute tolerance; a relative bound for every m must exclude every catastrophic cancellation in the ratio recursion, which happens only for particular arguments", "anchors": ["spherical_functions/recursions/wigner3j.py:Wigner3jCalculator.calculate", "spherical_functions/recursions/wigner3j.py:Wigner3j", "spherical_functions/recursions/wigner3j.py:clebsch_gordan", "spherical_functions/SWSH_modes/algebra.py:multiply"]}
{"id": "C74", "title": "The H recursion at the poles and at the ends of its first row, in double precision", "statement": "In double precision the H calculators return, at cos beta = 1 and at cos beta = -1 (with sine 0, given or by default), every entry (n, m', m) within 20 (n+2) 2^-53 of the exact H; at cos beta = 1 the entries with |m| != |m'| are exactly 0, at cos beta = -1 those with m' != -m. At any angle whose cosine and sine are given within one rounding, the last two entries of the row and of the column 0 (|m| or |m'| equal to n or n-1, the other 0) have a relative error of at most (6n+5) 2^-53, also where they are tiny.", "quantifier": "all n_max >= 1 and all n <= min(n_max, 1000), all m', m, all arrays of cosines in [-1,1] and of sines, any position in the array, all workspace contents, both storages; for the ends of the row: all beta with |sin beta|^n >= 2^-800 and cos beta = 0 or |cos beta| >= 2^-50; without overflow", "why_tests_cant": "at a pole the recursion runs on numbers that grow exponentially with n and are multiplied by 0; that nothing of them leaks into the result, and that the errors grow only linearly, concerns every n, and the suite compares a few n at an absolute tolerance", "anchors": ["spherical_functions/recursions/wignerH.py:HCalculator", "spherical_functions/WignerD/WignerDRecursion.py:HCalculator"]}
{"id": "C75", "title": "The H recursion for n = 1 in double precision at every angle", "statement": "In double precision the H calculators return all nine entries (1, m', m), the elements of the rotation matrix of vectors, within 170 2^-53 of the exact H at every angle, if its cosine and sine are given to within 2^-53, although they are computed through the entries of n = 2 with subtractions that cancel. If only the cosine, a double in [-1,1], is given, the calculators compute the sine themselves, and the entries are within 2^-36 of those at acos of this cosine, also next to the poles; the accuracy with a given sine is then not reached (at cos beta = 1 - 3/2^29 an entry is off by more than 800 2^-53).", "quantifier": "all angles beta, all cosines in [-1,1] and sines within 2^-53 of those of beta, any position in an array of any angles, all n_max >= 1, both storages, all workspace contents; without overflow", "why_tests_cant": "the suite samples a few angles; the bound concerns every pair of doubles, including the neighbourhood of the poles where 1 - cos beta cancels", "anchors": ["spherical_functions/recursions/wignerH.py:HCalculator", "spherical_functions/WignerD/WignerDRecursion.py:HCalculator"]}
