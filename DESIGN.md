# Formal model of spherical_functions — design

## What is modelled

The source in `/repo/spherical_functions` is Python, partly compiled by numba.  The model is a
shallow embedding in Gallina: each function becomes a Gallina function with the same branches,
the same loops and the same index arithmetic.  Every definition cites the file and lines it
models.

* **Integers.** Python and numba integers are `Z`.  Python `//` and `%` are `Z.div`/`Z.modulo`
  (floor division), which agree with Python's sign convention.  Fixed-width wrap-around is
  modelled explicitly where it matters (`int32` in `wigner3j.B`) and excluded by explicit
  bounds theorems elsewhere.
* **Numbers.** `float64` and `complex128` are idealised as exact reals `R` (Coq standard library)
  and complex numbers `C` (pairs of reals, Coquelicot's `Complex`).  Rounding, overflow and NaN are
  not modelled, except with Flocq's IEEE doubles (rounding to nearest even, no overflow) in `LM_deduce_ell_max` (C02) and
  in the second models of the functions of C59, C60 and C62 to C75.
* **Arrays.** A one-dimensional buffer is a length and a lookup function, with reads and writes that
  fail outside the bounds.  A run that returns a value therefore shows that no access
  was out of bounds.  Uninitialised memory (`np.empty`) is an arbitrary function.
* **Exceptions** are values (`Err kind`).
* **Loops** are folds over integer ranges in an error monad.
* **Aliasing** (in-place operations, `out=` arguments, views) uses an explicit heap of buffers.

## Trusted base

* The Coq 8.16.1 kernel (and `coqchk`).
* The axioms that `Print Assumptions` prints under every theorem.  Integer theorems: none.  Theorems about
  real or complex numbers: the axioms of the standard library's reals
  (`ClassicalDedekindReals.sig_forall_dec`, `ClassicalDedekindReals.sig_not_dec`,
  `FunctionalExtensionality.functional_extensionality_dep`, sometimes `Classical_Prop.classic`).
* The reading of the Python source that the citations record, and for C61 the transcription of the `.npy` files by
  `tools/gen_tables.py` (which stores the Wigner table up to its symmetries and lists every entry that breaks them).

Not modelled: rounding error of floating-point arithmetic outside C02, C59, C60 and C62 to C75, numpy's own implementation (broadcasting and views are
modelled from numpy's documentation), numba's compiler, `quaternion` (a rotor is its pair of complex parts),
`spinsfast` (`Modes.grid` is modelled for any `salm2map` that samples the sum of harmonics; `Grid.modes` never gets
beyond its call), the unfinished modules
(`recursions/associated_legendre_functions.py`, `recursions/__init__.py:rotate`).

## Plan, property by property

| id | model | method |
|----|-------|--------|
| C01 | `LM_*` over `Z`, ranges as lists | induction on the number of rows; index = position, order and completeness |
| C02 | exact integer square root; IEEE double sqrt (Flocq) | squares bracket; rounding of sqrt is exact at squares and monotone |
| C03 | `LMpM_*` | as C01 with the cubic size identity |
| C04 | doubled half-integer ranges, `_Wigner_index` | as C01 |
| C05 | table generation loops and lookups | position lemma for triangular enumerations, then nth of the generated table |
| C06 | `_linear_matrix_*` | arithmetic identities with LMpM_index |
| C07 | `wedge_*`, `nm`, `nabsm`, `nmpm` | successor lemma: the index grows by one along the enumeration order |
| C08 | `wedgeify_index` | case analysis on the four sectors |
| C09 | `complex_powers` with its `while` loop and two recurrences | loop invariant; trigonometric-free algebra with x^2+y^2=1 |
| C10 | conversions over C | field identities; direction given by angles |
| C11, C12 | loops over mode arrays | loop invariant gives the mode-by-mode factor; square-root algebra |
| C13 | `_Wigner_D_element` branch by branch | each branch equals the explicit sum; finite-sum algebra |
| C14 | `_Wigner_D_matrices`, `_Wigner_D_elements` | write-set coverage by loop invariant; symmetry of the explicit sum |
| C15 | specification matrices | induction on 2 ell with the two-term recurrences of symmetric powers |
| C16 | same | from C15 and the sum's symmetries |
| C17 | `_SWSH`, `_SWSHs` | reduces to C13's sum with a renamed index |
| C18 | | from C15, C17 |
| C19 | `_check_valid_indices` and the dispatcher | refutation with witness where the check is missing; theorem for the covered form |
| C20 | operations as a transition system on Modes values | invariant by induction on the history |
| C21 | constructor on a heap | functional correctness; the mutation claim is refuted with a witness |
| C22, C23 | `conjugate`, `_real_func`, `_imag_func` loops | loop invariant; pairing of +m and -m; C17 symmetry for the function statement |
| C24 | `add`, `subtract`, ufunc `out=` on a heap | functional correctness; refutations for `out=` |
| C25 | `_multiplication_helper` loop nest | loop limits equal the full selection-rule sum; Clebsch-Gordan series for the function statement |
| C26, C27 | derivative loops | mode-wise operator identities |
| C28 | `index`, `truncate_ell` | direct |
| C29, C30 | dispatch table; shapes as lists | case analysis; broadcasting specification by index arithmetic |
| C31–C35 | `Wigner3jCalculator.calculate` as a program on a workspace | loop invariants; uniqueness of the normalised solution of the recurrence; explicit Racah sum |
| C36, C37 | Grid methods with Python name errors as values | direct; refutations |
| C38 | `theta_phi` | direct |
| C39, C40 | H recursion on an instrumented array | write-before-read invariant; recurrences of the d functions |
| C41, C42 | `evaluate`, `norm` | direct; refutation of the documentation claim about `absolute` |
| C43, C44 | rotation of modes by D matrices; L and R operators | representation property; derivative along one-parameter subgroups |
| C45 | Grid powers and roots | direct; refutations |
| C46 | H calculator with `n_max = 0` | refuted: the run leaves its storage |
| C47 | `quaternion_angles` | polar form of the two complex parts; phases of the terms of Wigner's formula |
| C48 | integrals of the values of `SWSH` and `evaluate` | mean of a harmonic by the Beta integral; products by the Clebsch-Gordan series |
| C49 | integral of the values of `Wigner_D_element` over Euler angles | Beta integral and finite differences of polynomials |
| C50 | `theta_phi` and `evaluate` | discrete Fourier transform in phi; roots of a homogeneous polynomial in theta |
| C51 | the derivative operators and `evaluate` | inner product of modes (C48); matrix elements of the operators |
| C52 | all evaluators, both degenerate branches | exact value of each branch (`Dc`, `SWSH_code`); bound on the dropped terms by the Bernoulli inequality |
| C53 | arrays with shape and memory order around the H calculators | memory order is a permutation of the positions; then C40; refutations |
| C54 | `SWSH`, `SWSH_grid`, `evaluate` on arrays with a shape | flattening in C order and its inverse; case analysis of argument shapes; refutations |
| C55 | `Modes.grid` over an abstract `salm2map`; Grid and Modes algebra | values at the points (C48); then C22-C25, C30 against C36; uniqueness from C50 |
| C56 | `theta_phi` and `evaluate` | reduced degree of the theta polynomials; a kernel vector of too few equations |
| C57 | strided views, keys, `__array_finalize__`, `__reduce__`, `__setstate__` | induction on the key; injective addresses; lifting of the in-place lemmas of C22, C23 |
| C58 | `Grid.__array_ufunc__` for every ufunc, operand kind, `out=` and method | case analysis over one statement of what each ufunc means at a point |
| C59 | `complex_powers` in double precision | two linear forms of the error that a step multiplies by a unit; induction over the loop |
| C60 | `mode_conversions.py` in double precision | chains of relative errors through product, division and square root; the loop lemmas of C11 |
| C61 | the contents of the three `.npy` files | exact integer comparison of squares for every entry, by computation in the kernel; Pascal's triangle gives the exact values |
| C62 | `_Wigner_D_element`, `_SWSH` in double precision | relative errors counted in roundings through coefficient, powers, angle and sum; the sum of the moduli of the terms is at most (abs Ra + abs Rb)^(2l); below the cut-off the bound of C52 for the rescaled rotor |
| C63 | `Wigner_D_matrices`, `_Wigner_D_elements`, `_SWSHs` in double precision | both prefactors of an iteration as in C62, the shifted angle counted separately; conjugation and sign commute with rounding; loop invariant over a predicate on entries instead of their values |
| C64 | `SWSH_grid`, `Modes.evaluate`, `Modes.norm` in double precision | any binary tree of rounded sums (with or without fused products) by induction on the tree, errors counted by depth; then C63's bound for the harmonics |
| C65 | derivatives, `add`, `subtract`, products and quotients by numbers in double precision | the loops of the exact model with rounded factors; relative errors of the factors; Smith's quotient part by part, reduced to a positive larger part of the divisor |
| C66 | `quaternion_angles`, `theta_phi` in double precision | relative errors of sums of squares, halved by the square root; then C59 for the powers; spacing of the grid against its errors |
| C67 | ufuncs and methods of Grid in double precision | simulation of the exact calls; Smith's quotient and reciprocal; error of repeated squaring counted by multiplications |
| C68 | conjugate, real and imaginary part of Modes in double precision | halving commutes with rounding or the sum is exact; the loops as in C23 |
| C69 | 3-j symbols with m = 0 in double precision | every coefficient is a product: relative errors add on a logarithmic scale; the exact symbols bound the range; odd entries stay exactly 0 |
| C70 | reproducible 3-j symbols in double precision | two runs in workspaces of different size and contents are related step by step; the norm bounds the entries; short families as in C69 |
| C71 | H calculators in double precision | the proofs of C39 with the rounded values as functions of one angle; induction on the rows for the signs |
| C72 | products of Modes in double precision | every term has three rounded factors and a rounded complex product; induction on the loop with a blocked sum; C69 for the symbols with m = 0 |
| C73 | symbols with a degree 0 or 1 in double precision | the run of the calculator on a family of three: each branch condition bounds the cancellation in the one subtraction; the family with j = 0 separately; products through C72 |
| C74 | H at the poles and at the ends of row 0, in double precision | relative errors of the coefficients and of the unnormalised column by induction; at sine 0 all but one diagonal is exactly 0, the remaining recursion has one term per step |
| C75 | H for n = 1 in double precision | absolute errors followed through steps 2, 3 and 5 of the recursion; the default sine by Sterbenz's lemma, with a witness for its loss of accuracy |

False claims are kept: the theorem is named `..._refuted` and carries a concrete witness.
Claims proved only in part carry the suffix `_partial` and say what is missing.

## Files

`theories/` holds, per topic, a model file (`*Model.v`, definitions only), specification files (`*Spec.v`), proof files
(`*Proofs.v`, `*Props.v`), and a property file (`P_*.v`, theorems only, each closed by `exact`, with `Print Assumptions`
beneath and an `Example` that a concrete non-trivial case meets the hypotheses).

| layer | model | property file |
|-------|-------|---------------|
| errors, buffers, loops | `Base.v` | |
| index functions and tables | `IndexModel.v`, `FloatIndexModel.v` (IEEE square root) | `P_Index.v` |
| complex powers, coordinate changes, derivatives of mode arrays | `PowersModel.v`, `ConvModel.v` | `P_Numeric.v` |
| D matrices, their call interface | `WignerModel.v`, `WignerCallModel.v` | `P_Wigner.v` |
| spin-weighted harmonics | `SWSHModel.v` | `P_Wigner.v` |
| Modes: constructor, slicing, algebra, ufuncs, on a heap | `ModesModel.v` | `P_Modes.v` |
| 3-j symbols | `Wigner3jModel.v` | `P_ThreeJ.v` |
| multiplication of Modes | `MultModel.v` | `P_Mult.v` |
| universal functions on Modes: dispatch and `out=` | `UfuncModel.v` | `P_Ufunc.v` |
| histories of Modes operations | `HistSpec.v` | `P_Hist.v` |
| L and R operators as Lie derivatives | `LieSpec.v` | `P_Lie.v` |
| Grid | `GridModel.v` | `P_Grid.v`, `P_GridUfunc.v` |
| double precision: powers, mode conversions | `FloatPowersModel.v`, `FloatConvModel.v` | `P_FloatPowers.v`, `P_FloatConv.v` |
| double precision: D matrices, harmonics | `FloatWignerModel.v`, `FloatMatrixModel.v`, `TableModel.v` | `P_FloatWigner.v`, `P_FloatMatrix.v`, `P_Table.v` |
| double precision: Modes, angles, grid points, Grid | `FloatModesModel.v`, `FloatAnglesModel.v`, `FloatGridModel.v`, `FloatPartsModel.v` | `P_FloatModes.v`, `P_FloatAlgebra.v`, `P_FloatAngles.v`, `P_FloatGrid.v`, `P_FloatParts.v` |
| double precision: 3-j symbols | `FloatThreeJModel.v` | `P_FloatThreeJ.v`, `P_FloatThreeJSame.v`, `P_FloatThreeJThree.v` |
| double precision: H recursion | `FloatHModel.v` | `P_FloatH.v`, `P_FloatHPole.v`, `P_FloatHOne.v` |
| double precision: products of Modes | `FloatMultModel.v` | `P_FloatMult.v` |
| H recursion, quaternion angles | `HModel.v`, `QAnglesModel.v` | `P_H.v` |
| calls of the H calculators with arrays of any shape and memory order | `HCallModel.v` | `P_HCall.v` |
| calls of `SWSH`, `SWSH_grid`, `evaluate` with arrays of any shape | `SWSHCallModel.v` | `P_SWSHCall.v` |
| integrals over the sphere and the rotation group, sampling | `OrthoSpec.v` | `P_Ortho.v` |
| evaluators inside the `epsilon` cut-off | `WignerModel.v`, `SWSHModel.v` | `P_Near.v` |

## Conventions that a reader has to know

* `OutOfBounds` is not a Python exception.  It marks an access outside a buffer in compiled code, which numba does not check: what
  really happens is undefined.  A theorem that a function returns `Err OutOfBounds` says that it corrupts or reads foreign memory.
* `Undetermined` marks a read of an entry whose contents this run has not written, or of an infinity or NaN.
* `Diverges` marks a loop that does not terminate.
* `ZeroDivisionError` is raised by divisions in compiled code (numba's default error model).  In numpy code a division by zero gives
  an infinity or a NaN instead; where the model meets one it says so in a comment.
* Fixed widths: integers are unbounded except where the code stores them in a fixed-width array or computes them in `int32`
  (`wigner3j`), which is modelled.
* The 3-j calculator chooses between recursion directions by comparing magnitudes; a value that vanishes late in the recursion
  (`late_zero`) is excluded by a hypothesis where the proof needs it, and the affected properties are marked partial.  No example is
  known, and no estimate can exclude one: every inequality of `late_zero` holds for whole ranges of quantum numbers, for example
  j2, j3, m2, m3 = 74, 11, -58, -7, where the value at j = 78 is small but not zero.  Whether one of these polynomial expressions
  of degree at least seven vanishes at integers is the open question.  Proved is that there is none unless j2, j3 >= 8 and
  (j2 - 7)(j3 - 7) >= 28 (`late_zero_min`): so products of Modes always return if one ell_max is at most 7 or both are at most 12.
* The `epsilon` branches of the D matrices and of the harmonics (a rotor within 1e-15 of a coordinate axis) treat the rotor as
  exactly on the axis: theorems that name Wigner's formula are for rotors that are on the axis or beyond `epsilon`.  C52 covers the
  quaternions in between: what the code returns there, and how far that is from Wigner's formula.
* `Modes` and `Grid` objects live in a heap of buffers: a view shares its buffer, `out=` names an existing one.
* C57 has a second, finer heap with strided views, because keys can take any part of an object; the operations on such a part are
  those of the first model on an array with the same entries, written back to the addresses of the part.
* In the ufunc dispatch an operand that is not a Modes object is an array of numbers passed by value; `out=` is one array of at
  least one dimension.  Methods of the truth-valued ufuncs other than a plain call are numpy's own (`RPlain`).  Subclasses of Modes,
  tuples of several outputs and operands that are not arrays of numbers are not modelled.
* In the H recursion a two-dimensional buffer is an array of rows, a row being a function of the column (angle).
* Integrals are Riemann integrals (Coquelicot's `is_RInt`), iterated: over theta and phi with weight sin theta, over the three Euler
  angles with weight sin beta.  The integrand is Wigner's formula, and a theorem beside it says that the code returns that formula at
  every rotor outside the `epsilon` cut-off.
