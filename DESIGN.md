# Formal model of fatiando/choclo in Rocq (Coq 8.16.1)

## 1. What is modelled

choclo is a library of pure numeric functions (Numba-jitted). The model is a
shallow embedding, function by function, of **all** functions of the package:

| source | model file |
|---|---|
| `src/choclo/constants.py` | `Arith.v` |
| `src/choclo/utils.py` | `ModelUtils.v` |
| `src/choclo/point/_kernels.py`, `point/_forward.py` | `ModelPoint.v` |
| `src/choclo/dipole/_forward.py` | `ModelDipole.v` |
| `src/choclo/prism/_utils.py` | `ModelPrismUtils.v` |
| `src/choclo/prism/_kernels.py` | `ModelPrismKernels.v` |
| `src/choclo/prism/_gravity.py` | `ModelPrismGravity.v` |
| `src/choclo/prism/_magnetic.py` | `ModelPrismMagnetic.v` |
| loops of `doc/user_guide/how-to-use.rst`, `jacobian.rst` | `ModelGuide.v`; source text in `GuideSource.v`, run by `GuideSemantics.v` |
| `jacobian @ densities` and `np.allclose` of `jacobian.rst` (assumed behaviour of NumPy, finite numbers only) | `ModelNumpy.v` |

Every model function is written once, parametrically in a record `arith` of
scalar operations (`Arith.v`), keeping the branches, the loop nest, the order of
the floating point operations and the argument order of the Python source. It is
then instantiated with

* `RA` (`RealArith.v`): exact real arithmetic on `xr = Fin x | PInf | NInf | NaN`
  (`x : R`), with NumPy's conventions for `log 0`, `log` of a negative number,
  `sqrt` of a negative number, and IEEE rules for infinities and NaN;
* `FA log atan cos sin` (`FloatArith.v`): IEEE-754 binary64, round to nearest
  even, from Flocq (`BinarySingleNaN`), with the libm functions as *arbitrary*
  function parameters. Theorems that need something of libm say so as an
  explicit hypothesis.

Exceptions are values: `res T = Ret x | Raise ZeroDivisionError`. Division raises
on a zero divisor (Numba's default `error_model="python"`, which
`test/test_point_gravity.py:163-173` relies on).

### From the source text to the model
The shallow model is tied to the source by proof (C67). `tools/py2coq.py` prints
Python's own `ast` of the twelve modules as a Coq constant (`PySource.v`, with
the sha256 of each file); it fails on any construct outside the small subset of
`PySyntax.v` and leaves out only docstrings, `import numpy as np`, `from numba
import jit`, the decorator `@jit(nopython=True)` (checked to be the only one, on
every function), `choclo/__init__.py` and `_version.py`. `PySemantics.v` is an
interpreter for the subset: dynamically typed values (float, int, bool, tuple,
function), left-to-right evaluation, short-circuit `and`/`or`, chained
comparisons, name resolution through the packages' imports, `for ... in range`,
int64 arithmetic that wraps around, ints converted to float64 in mixed arithmetic, and one Numba-specific rule (a
function returning an int in one branch and a float in another returns a float).
C67 proves that running each exported function gives exactly the model's result,
for every arithmetic. So the trusted base for "the model is the code" is:
Python's parser, the printer `py2coq.py`, and `PySemantics.v` as a description of
Python/Numba; the hand-written model files are not in it.

The functions of the user guide are treated the same way (C96):
`tools/guide2coq.py` prints the function definitions and imports of the
`jupyter-execute` blocks of `how-to-use.rst` and `jacobian.rst` as `GuideSource.v`
(syntax in `GuideSyntax.v`; statements outside functions are left out), and
`GuideSemantics.v` interprets them: float64 arrays in a heap, negative indices,
rows of matrices, `*args`, loops, calls into choclo run by `PySemantics.v`, and for
`parallel=True` the interleavings of the iterations of a top-level `prange` loop.
Simplifications there: evaluating one expression is one step of a thread, but in
`x[i] += e` the load and the store are two steps; arrays are C-contiguous and
one- or two-dimensional; array creation only as a whole right-hand side; an index out of bounds is
an outcome of its own (IndexError or undefined behaviour); an exception in one
iteration lets the others finish and is then raised. `ModelGuide.v` is thereby out of
the trusted base; `guide2coq.py` and `GuideSemantics.v` are in it.

### Not modelled
* Numba's compilation itself, `fastmath` (not enabled in the source), threads
  other than in `ModelGuide.v` and `GuideSemantics.v`, argument type inference (arguments are
  float64, and int64 in C74; float32 and, outside the user guide's functions, arrays are out of scope; C74 leaves out the sign of zero and
  rounding, being over the reals). The mode with Numba disabled, where a NumPy scalar
  division by zero gives `inf` or NaN with a warning instead of raising, is modelled in
  `PyInterp.v` and related to the compiled mode in C76, in exact arithmetic, and in binary64 by C89 (any pow) and C94 (the same doubles)
  (`**` is the C library's pow there, and a Python float power can raise OverflowError).
* `x ** n` with a literal exponent is modelled as Numba's unrolled binary
  exponentiation (`static_power_impl`); only the binary64 theorems depend on it.
* NaN payloads and the sign of NaN (one NaN).
* Signed zeros and rounding are absent from `RA` and present in `FA`.
* `_version.py`, packaging, docs other than the two user-guide loops.

## 2. How properties are stated

`Spec.v` holds the vocabulary that does not depend on the model: `returns r x`
(`r` is a normal return of the finite real `x`), triple integrals, the geometric
sets (open box, closed box, closed edges, open faces). Property theorems live in
`Props*.v` files, in terms of the modelled API functions and `Spec.v`; each is
followed by `Print Assumptions` and by an `Example` showing that its hypotheses
are met by a concrete non-trivial case.

## 3. Plan per property

(R = exact-real instance, A = every arithmetic, F = binary64 instance.)

| id | model | proof idea |
|---|---|---|
| C01 | R | unfold, square-root algebra, Cauchy-Schwarz for the triangle inequality |
| C02, C03 | R | trigonometric identity; radicand rewritten as a sum of squares |
| C04-C06, C11 | R | closed form at distinct points, `auto_derive` + `field` |
| C07, C08, C10, C12, C14, C16 | R | `field` on the closed forms |
| C09, C17 | R | distance is 0 iff points coincide; case split |
| C13 | A | definitional up to the monad |
| C15 | R | derivatives of closed forms |
| C18 | R | case analysis on comparisons |
| C19, C20, C21, C38 | R | closed forms of kernels valid for every shift; total case analysis |
| C22-C24 | R | iterated fundamental theorem of calculus along the axis order in which the outermost axis does not contain the observation point; own Fubini lemma for continuous integrands; vertex-sum kernels are antiderivatives up to terms that cancel in the vertex sum |
| C25-C27 | R | one-variable derivative of the vertex sums, handling the coordinate planes separately |
| C28 | R | sum of the three arctangents equals +-pi/2 by the addition formula; sign bookkeeping |
| C29 | R | algebra on third-order kernels |
| C30 | R | one-sided limits of arctangent at infinity |
| C31-C34, C37 | R | algebra on vertex sums |
| C35 | A + commutative multiplication, F | loop fusion |
| C36 | R | monotonicity of the integrals of C22 |
| C39 | F | every operation maps NaN to NaN; `rt_*` lemmas show no division by zero can happen first |
| C40, C45 | F | operations commute with negation up to the sign of zero (`phi` forgets it); products exactly |
| C41 | F | x - y rounds to zero only if x = y (gradual underflow); rounding is monotone |
| C42 | F | binary exponent ranges (`bnd`, `rng`, `pos`) propagated through the code |
| C43 | F | sign of the radius; r - x with x < 0 <= r is not zero |
| C44 | F | ratios computed/exact within (1-u)^k .. (1-u)^-k, propagated through the code |
| C46 | A, F | interleaving semantics; invariant: each thread's cells hold what its own sequential loop prefix would hold; every step increases a bounded measure |
| C47 | R | C46 + linearity of gravity_u in the density |
| C48 | R | limits along an arbitrary filter; b ln(c + r) is bounded by 4 sqrt|b| + |b| ln(2M), a arctan by pi/2 |a| |
| C49 | R | cut the prism around the point (C32) into six exterior slabs (C22) and a small cube, whose field tends to 0 by continuity (C48) and flatness (C37) |
| C50 | R | exterior sign (C36), limits onto the faces (C48), cutting off a symmetric part whose component vanishes by reflection |
| C51 | R | kernel homogeneity up to an additive ln l term that cancels in the vertex sums (b ln l with b = 0 on the special branch; sign-matched ln l off the singular edge) |
| C52 | R | vertex sum paired in the vertical: log differences are O((u2^2-u1^2)/L), arctan tends to a sign times pi/2 |
| C53 | R | C22/C23 + three dimensional midpoint rule; fourth derivatives of 1/r are at most 24/r^5 |
| C54 | R | C22-C24: the integrands differ by at most (k+1)!/d0^(k+2) times the displacement (mean value theorem along the segment) |
| C55 | R | size of the integrand times the volume; C32 (cuts) six times for nested prisms |
| C56 | F | error/range calculus on the radicand; concrete latitude: Taylor bounds pin the binary64 sine and cosine, then integer mantissas |
| C57 | F | absolute error calculus (`near`) through radians (pi bracketed by Machin's series), libm, products; the computed distance is sqrt(Q)(1+e) with Q within 250 u rp rq of D^2 |
| C58 | F | absolute error calculus with power-of-two scales (`FloatPrismErr.v`): each kernel value within a multiple of 2^-53 of its exact size; the branch decisions of `_safe_log`/`_safe_atan2` and of the edge/face tests are the exact ones because differences of binary64 numbers vanish only when the numbers are equal; hypotheses on libm: `log_close`, `close_to atan`. The bound grows with the distance to the prism while the field decays: that is a property of the code (cancellation between the eight vertices), not of the proof |
| C59 | F | the calculus of C58 for the third-order kernels (`FloatPrismErr3.v`), `mu0/(4 pi)`, the sums of three kernels times magnetization components and of the eight vertices (`FloatPrismErr4.v`, `FloatPrismErr5.v`); field triple through C35 |
| C60 | F | the scale calculus of C58 (`app`) with a rule for quotients, on top of the relative errors of C44 for d^3, d^5, d^7 (`FloatPointErr.v`); scales 4/D^3, 24/D^4 |
| C61 | F | C46 (the loop result is the left-to-right sum of the calls) + C58 (each call) + error of a left-to-right sum by induction on the number of prisms (`FloatSum.v`) |
| C62 | R | the vertex sums are continuous everywhere and C1 off the six boundary planes with divergence -4 pi inside and 0 outside (C23's trace identity); divergence theorem for such fields proved in `Gauss.v` by gluing regular sub-boxes, instantiated in `PrismGauss.v`; point source: each face integral in closed form (a solid angle, `PointGauss.v`) |
| C63 | R | the magnetic field is the derivative along the moment of the gravity field, and the gravity flux through a box does not change under small translations (C62); differentiation under the integral sign in `FluxTranslate.v`, continuity of the exterior tensor from C54 |
| C64 | R | C11, C25, C26, C27 (partial derivatives) and C48, C54 (continuity of the derivatives; inside the prism from the closed forms); chain rule in three variables and fundamental theorem in `PathLib.v` |
| C65 | R | as C64, for the potential that C34 (Poisson's relation) gives |
| C66 | F/R | composition of C58/C59 (rounding error against the exact call) with C22/C23/C24/C49 (the exact call is the volume integral) |
| C67 | A | deep embedding: the source's syntax tree (`PySource.v`, generated by `tools/py2coq.py`) run by a definitional interpreter (`PySemantics.v`); symbolic execution, callees first, one lemma per function (`PyProofs.v`, `PyGravity.v`, `PyMagnetic.v`, `PyMagField.v`, generated by `tools/gen_pyproofs.py`) |
| C68 | A | corollary of C67: the model's result types |
| C69 | R | common refinement: the planes of both lists cut every prism into cells (C32 additivity, by induction on the sorted planes), the cells' densities agree, a flat cell contributes 0 (`Mesh.v`, `MeshFields.v`) |
| C70 | R | C69 and, on each cell, C53's midpoint bound; the triangle inequality over the cells (`MeshPoints.v`) |
| C71 | R | the `AllI` lemmas behind C22-C24 (Fubini on explicit antiderivatives), restated for each kernel call at the eight vertices |
| C72 | R | field identities with the guards' cases; arctangent addition (`PrismTrace.v`) for the octant sum |
| C73 | R | C25 + C50 (sign of the derivative) + the reflection of C33, mean value theorem |
| C74 | R, source | relational abstract interpretation of the syntax tree: `PyInt.v` runs the source on bounds of the ints, `sound_python_call` proves that if no bound reaches 2^63 the run on ints and the run on floats agree; `vm_compute` runs it on every function. Beyond the bounds a concrete run of the interpreter |
| C75 | R | C62 (Gauss's law) on the box between the plane and its mirror image through the prism's centre, C33 (reflection) for the two horizontal faces, an explicit bound of the four vertical faces; sums over the body (`MassPlane.v`) |
| C76 | R, source | second interpreter of the same syntax tree, for CPython with NumPy scalars (`PyInterp.v`; C76 assumes an exact pow that never overflows); simulation between the two interpreters (`PyInterpSim.v`), soundness of a type system that tracks NumPy floats (`PyInterpSafe.v`), run by `vm_compute` on every function |
| C77 | F | every function unfolded to computed differences; for finite numbers the sign of a computed difference decides each comparison (`shift_*`), so the location tests too (`FloatTrans.v`); equal exact differences round to equal bits, the sign of a zero included |
| C78 | F | binary64 seen as rounded extended reals (`phi`); rounding, sums, squares, square root, quotients are monotone on the non-negative extended reals (`FloatMono.v`) |
| C79 | R | The field of a prism is G rho times a vertex sum of a continuous kernel K (C45 machinery). Its triple integral over another prism is a double vertex sum of a triple antiderivative of K (`Recip.v`: antiderivatives of continuous functions, their continuity, substitution, linearity); the inversion symmetry from C33 exchanges source and target. Lists by linearity (`RecipBody.v`); specification `SpecForce.v`. |
| C80 | R | By C23/C24 the exterior field is the integral over the prism of a kernel of the offset, continuous away from 0; cut off near 0 (the bodies are a positive distance apart) it is continuous everywhere and the double integral is a double vertex sum of sextuple antiderivatives, symmetric up to the kernel's parity (`MagRecip.v`, on `Recip.v`); specification `SpecMagForce.v`. |
| C81 | R | Equal potentials have equal gradients and Laplacians (C25, C26), and C28 turns the Laplacian into the density; one equal acceleration component means the potentials differ by a function constant along an axis, and both decay along it (C55), so they are equal; conversely C69 (`Inverse.v`) |
| C82 | R | Closed forms of the functions (`PrismSums.v`, `PrismMag.v`, no order of the boundaries assumed) and antisymmetry of the signed sum over the vertices (`PropsReverse.v`, specification `SpecReverse.v`) |
| C83 | R | Closed forms of the tensor; each kernel is continuous where its own coordinate does not vanish, outside by the exterior Lipschitz bound; the jump follows from Poisson's equation and the continuity of the two tangential diagonal components (`PrismJump.v`, `PropsJump.v`, specification `SpecJump.v`) |
| C84 | R | Closed forms by axes with Kronecker deltas; orthonormal rows and columns (`PropsRotate.v`, specification `SpecRotate.v`) |
| C85 | R | Triple integral with a moving end (parameter integrals of continuous functions, `BoxFaces.v`) and the volume integrals of C25-C27 (`PropsFaces.v`, specification `SpecFaces.v`) |
| C86 | R | Fundamental theorem of calculus along each axis under the volume integrals (`PropsFaces2.v`, `BoxFaces.v`, specification `SpecFaces.v`) |
| C87 | R | Common mesh of both bodies (C69) and the sign of each cell's contribution (C50); strictness from a small cube around the point where they differ (`PropsCompare.v`, specification `SpecCompare.v`) |
| C88 | F | Signs through each rounded operation; commutativity of rounded addition (`PropsMirror.v`) |
| C89 | F, source | The interpreter of C76 over binary64 (`SpecInterp64.v`, `PropsInterp64.v`); its type system also tracks sizes, so that powers of Python floats are known not to overflow |
| C90 | F, source | The analysis of C74 with 2^53 for 2^63, and floats related by equality up to the sign of zero (`PyInt.v` is generic in both; `SpecInt64.v`, `PropsInt64.v`) |
| C91 | F | Rounding to nearest is monotone and keeps signs; rules of signs for rounded extended reals (`FloatSign.v`), then through the models (`PropsSign64.v`) |
| C92 | R | Fubini to make the direction of the displacement the outermost integral, fundamental theorem of calculus; continuity and gradient from C48 and C25 (`SpecEnergy.v`, `Energy.v`, `PropsEnergy.v`) |
| C93 | R | ModelNumpy.v models the matrix product as any tree of rounded products, fused products and sums, and np.isclose with its default tolerances; FloatDot.v bounds the product's error by induction on the tree; combined with C46 and C61 in PropsAllclose.v. NumPy's treatment of non-finite numbers in isclose is not modelled. |
| C94 | F, source | the simulation of C76 generalised to an equivalence of floats and to a set of allowed exponents that a checker finds in the program text (`PyInterpSim.v`), instantiated with binary64 and equality up to the sign of zero; C89 excludes exceptions |
| C95 | R | the integrands of C51 have elementary antiderivatives in northing (`TwoD.v`); at the ends these differ from their limits by at most 1/(2 l^2) and 1/l^2; Fubini turns the prism's triple integral into a double integral over the cross section. `SpecTwoD.v` gives the field of an infinite line |
| C96 | S | `tools/guide2coq.py` prints the functions of the two documents as syntax trees (`GuideSource.v`); `GuideSemantics.v` interprets them with arrays in a heap and, for parallel=True, with interleaved iterations. `GuideRun.v`/`GuideEval.v`: every run of the trees is simulated by a run of `ModelGuide.v` (C46), whose results are known; `gravity_u` is itself run from its source text (C67) |
| C97 | R | `Harmonic.v`: extreme values of Lipschitz functions on boxes; the maximum principle for functions with Laplacian 0 (perturb by eps r^2) and for their uniform limits, a class closed under sums, multiples, and derivatives with Lipschitz values (difference quotients). The prism potential is in it (C25, C26, C28, C54), hence the acceleration, the tensor, the magnetic field (C34) and gradiometry (C27); point sources are limits of small prisms (C53). `SpecHarmonic.v` lists the fields |
| C98 | F | `FloatPow2.v`: rounding commutes with powers of two above the underflow threshold; a relation between two runs (scaled exactly, with a lower bound, a grid and an upper bound, or both NaN) preserved by every operation; `FloatPow2b.v`, `FloatPow2c.v`: each function is run through these rules. |
| C99 | S | `GuideEval.v` (as for C96, with longer arrays); `GuideShort.v`: invariant of the interleavings when a statement reads a missing element (each iteration has passed only good prisms), with the measure of C96: no iteration of the bad point ever finishes, some step reads outside; `GuideShortEval.v`: which statements do. |
| C100 | R | `FreeSpace.v`: every field is bounded by C/(L - A) at distance L (C55; point sources are compared with unit prisms, C53); above a plane this is C97 on large boxes; around a box, a maximum of field + eps r^2 over a large shell (a union of six boxes) would be a local maximum, excluded by C97's maximum principle on a small cube after removing a linear function. `SpecFree.v` says what sources below a plane, and inside a box, are |
| C101 | R | `PosDef.v`: Gaussian kernels are strictly positive definite (power series of the scalar product; all moments zero only for zero weights), 1/s, 1/sqrt s and 1/s^(3/2) of s = distance^2 + depth^2 are mixtures (integrals) of Gaussians; elimination solves any definite system. `SpecEquivalent.v` says what the survey, its sources and the data are |
| C102 | RF | `FiniteDiff.v`: mean value theorem along the shift, with C25-C27/C11 for the derivative and C54 (and its point-kernel lemmas) for its change; C58/C59 for the double-precision version. `SpecDiff.v` says what a finite difference is |
| C103 | F | `FloatKernels.v`: the relative-error calculus of `FloatErr.v` through each kernel (`FloatPrismErr3.v` for the third order ones); a relative perturbation of the argument perturbs the arctangent by no more (concavity); absolute calculus of `FloatPrismErr.v` for the logarithmic ones. `SpecKernelErr.v` has the vocabulary |
| C104 | F, R | `PropsKernelSym.v`: signs and commuted operands through the operations (`sr_*` of `PropsMirror.v`) and through the branches of `_safe_atan2`, `_safe_log`; monotony from (u + r)(r - u) = e^2 + n^2 exactly and from monotone rounding (`FloatMono.v`) in binary64. kernel_pot is excluded from the exchanges (its sum is taken in another order) |
| C105 | R | `PropsEuler.v`: closed forms of the kernels (`PointReal.v`) and (x-a)^2 + (y-b)^2 + (z-c)^2 = r^2; the dipole's derivatives from C06, C14; for bodies, trace 0 (C28, C07) and Cauchy-Schwarz between the tensor and its square without trace. `SpecEuler.v` defines the invariants |
| C106 | F, R | `PropsLaplaceFloat.v`: the exact identities C07, C28, C29, C32, C34 and the error bounds C58, C59, C60 of the same calls, added up; Poisson's relation needs the off-edge cases in which all nine functions return |
| C107 | F, R | `PropsRelErr.v`: lower bounds of the volume integrals (C22's representation, `lo_bound`/`up_bound`), divided into the absolute error bounds of C58; signs from C36 |
| C108 | R, F | `PropsDipoleSize.v`: the closed form of the dipole's field in terms of the unit vector; C60's bound compared with the lower bound of the strength; C16 with C60 |
| C109 | F, R | `PropsLimitsFloat.v`: C52 and C53 with the error bounds C58 and C59 of the same calls |
| C110 | R | `SpecBodyFlux.v`, `PropsBodyFlux.v`: C62 and C63 added up by induction over the list |
| C111 | F | `PropsProportional.v`: the factor that depends on the geometry is common to both calls; two roundings and an underflow term remain |
| C112 | R | `PropsSphMetric.v`: C01 and C02, and trigonometry |
| C113 | R | `PropsTensorSign.v`: C86 (sheets on the faces) and a bound on the integrand give the negative signs, C28 the positive ones; C26, C48, C36 and the mean value theorem |
| C114 | R | `PropsInteriorSign.v`: moving the point is moving the prism (C33), which adds one slab and removes another (C32) whose attractions are bounded by C107; C26 for the derivative, C28 for the lower bound |
| C115 | R | `PropsCentre.v`: C33 (reflection and translation) gives the zero on the central plane, C114 the sign between the faces, C36 beyond them |
| C116 | R | `PropsMagSign.v`: C113 and Poisson's relation (C34) |

### Binary64 proofs
`FloatArith.v` defines `phi`, the value of a binary64 number as an extended real
(forgetting the sign of zero), and proves that each operation is the exact
operation followed by rounding with overflow (`phi_add`, `phi_mul`, ...), from
Flocq's correctness theorems. `FloatLib`, `FloatRange`, `FloatErr` build
sign, range and relative error calculi on top of it. Vocabulary of the statements:
`SpecFloat64.v`; theorems: `PropsFloat.v`.

### Generated files
`PropsPrismSym.v`, `PropsPrismInt.v`, `PrismSym.v` and `FloatPrismErr5.v` (among others) were produced by the scripts
in `tools/` (`gen_*.py`) and are committed; the build does not run the scripts.
`tools/properties.py` writes `properties.jsonl` and `tools/manifest.py`
`MANIFEST.json`.

### Defects of the code the theorems record
* C43: outside the ordinary range the compiled functions can raise or return NaN although
  the exact value is a number (see `C43_limits`).
* C56: `distance_spherical` of two coincident points can be NaN (`C56_distance_to_itself_can_be_nan`:
  latitude 8 degrees, every longitude and radius), because the computed cosine of the
  angle can be 1 + 2^-52.

* C74: with int arguments, intermediate results wrap around modulo 2^64: `prism.magnetic_ee` raises
  ZeroDivisionError for a prism at int offsets of 65536 m (`C74_too_large_integers`).

## 4. Trusted base

* Coq's kernel (8.16.1).
* The axioms printed by `Print Assumptions`: those of the standard library's
  real numbers (`ClassicalDedekindReals.sig_not_dec`, `sig_forall_dec`,
  `FunctionalExtensionality.functional_extensionality_dep`) and
  `Classical_Prop.classic`. No axiom is declared in this development.
* Flocq 4.1.0 (binary64 arithmetic) and Coquelicot (derivatives, integrals, limits)
  are used as libraries of definitions and proved theorems; they add no axiom.
* The reading of the Python source recorded in the comments of the `Model*.v`
  files, and the Numba semantics listed in section 1.
