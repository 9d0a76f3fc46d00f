{"id": "C01", "title": "distance_cartesian is the Euclidean metric", "statement": "choclo.utils.distance_cartesian never raises and never returns NaN on finite points; it is non-negative, zero exactly when the points coincide, symmetric, translation invariant, satisfies the triangle inequality, and its square is the sum of the squared coordinate differences.", "quantifier": "all real coordinates of both points (three points for the triangle inequality)", "why_tests_cant": "a metric law quantifies over every pair/triple of points; tests compare a handful of distances", "anchors": ["src/choclo/utils.py:distance_cartesian"]}
{"id": "C02", "title": "distance_spherical is the straight-line distance between the two geographic points", "statement": "For any longitudes, latitudes (degrees) and radii, distance_spherical returns exactly the Cartesian distance between the points (r cos(lat) cos(lon), r cos(lat) sin(lon), r sin(lat)); in particular the square root never sees a negative argument, the result is symmetric and does not change when a longitude is shifted by 360 degrees.", "quantifier": "all real longitudes, latitudes and radii (including negative or zero radii and latitudes beyond the poles)", "why_tests_cant": "needs a trigonometric identity valid for every angle, and non-negativity of the radicand for every input", "anchors": ["src/choclo/utils.py:distance_spherical", "src/choclo/utils.py:distance_cartesian"]}
{"id": "C03", "title": "distance_spherical_core agrees with distance_spherical and returns genuine cosines", "statement": "Feeding distance_spherical_core with the longitudes in radians and the cosine/sine of the latitudes returns the same distance as distance_spherical, cos(psi) equal to the dot product of the two unit position vectors (hence within [-1, 1]) and coslambda = cos(lambda_p - lambda_q).", "quantifier": "all real longitudes, latitudes and radii", "why_tests_cant": "tests sample a few coordinates; the identity must hold for every angle", "anchors": ["src/choclo/utils.py:distance_spherical_core", "src/choclo/utils.py:distance_spherical"]}
{"id": "C04", "title": "first-order point kernels are the gradient of the inverse distance", "statement": "For two distinct points, kernel_e, kernel_n, kernel_u evaluated with the distance given by distance_cartesian are the partial derivatives of kernel_pot (with the same distance convention) with respect to easting_p, northing_p and upward_p.", "quantifier": "all pairs of distinct points", "why_tests_cant": "tests use finite differences at a few points with a tolerance", "anchors": ["src/choclo/point/_kernels.py:kernel_pot", "src/choclo/point/_kernels.py:kernel_e", "src/choclo/point/_kernels.py:kernel_n", "src/choclo/point/_kernels.py:kernel_u"]}
{"id": "C05", "title": "second-order point kernels are the Hessian of the inverse distance", "statement": "For distinct points each second-order kernel kernel_ij is the partial derivative along j of kernel_i and the partial derivative along i of kernel_j (both orders of differentiation).", "quantifier": "all pairs of distinct points, all nine (i, j)", "why_tests_cant": "finite-difference tests only approximate the derivative at samples", "anchors": ["src/choclo/point/_kernels.py:kernel_ee", "src/choclo/point/_kernels.py:kernel_nn", "src/choclo/point/_kernels.py:kernel_uu", "src/choclo/point/_kernels.py:kernel_en", "src/choclo/point/_kernels.py:kernel_eu", "src/choclo/point/_kernels.py:kernel_nu"]}
{"id": "C06", "title": "third-order point kernels are the third derivatives of the inverse distance", "statement": "For distinct points each third-order kernel is the partial derivative of the corresponding second-order kernels, in every order of differentiation stated in its docstring.", "quantifier": "all pairs of distinct points, all index orders", "why_tests_cant": "finite-difference tests only approximate the derivative at samples", "anchors": ["src/choclo/point/_kernels.py:kernel_eee", "src/choclo/point/_kernels.py:kernel_een", "src/choclo/point/_kernels.py:kernel_eeu", "src/choclo/point/_kernels.py:kernel_nne", "src/choclo/point/_kernels.py:kernel_nnn", "src/choclo/point/_kernels.py:kernel_nnu", "src/choclo/point/_kernels.py:kernel_uue", "src/choclo/point/_kernels.py:kernel_uun", "src/choclo/point/_kernels.py:kernel_uuu", "src/choclo/point/_kernels.py:kernel_enu"]}
{"id": "C07", "title": "point kernels and point gravity tensors are harmonic", "statement": "kernel_ee + kernel_nn + kernel_uu = 0, every trace of the third-order kernels vanishes (eee+nne+uue, een+nnn+uun, eeu+nnu+uuu), and gravity_ee + gravity_nn + gravity_uu = 0, for distinct points.", "quantifier": "all pairs of distinct points and masses", "why_tests_cant": "Laplace's equation is an identity in all coordinates", "anchors": ["src/choclo/point/_kernels.py:kernel_ee", "src/choclo/point/_kernels.py:kernel_eee", "src/choclo/point/_forward.py:gravity_ee", "src/choclo/point/_forward.py:gravity_nn", "src/choclo/point/_forward.py:gravity_uu"]}
{"id": "C08", "title": "exchanging the two points changes point fields only by parity", "statement": "Exchanging observation and source point leaves the potential and all tensor components unchanged and flips the sign of the gradient components (Newton's third law); translating both points changes nothing.", "quantifier": "all pairs of distinct points, masses and translations", "why_tests_cant": "symmetry must hold for every pair", "anchors": ["src/choclo/point/_forward.py:gravity_pot", "src/choclo/point/_forward.py:gravity_e", "src/choclo/point/_forward.py:gravity_ee", "src/choclo/point/_forward.py:gravity_en"]}
{"id": "C09", "title": "point forward functions raise ZeroDivisionError exactly at the source", "statement": "Every choclo.point.gravity_* function raises ZeroDivisionError if and only if the observation point coincides with the mass; otherwise it returns a finite number.", "quantifier": "all pairs of points and masses, all ten functions", "why_tests_cant": "'only if' quantifies over every other point", "anchors": ["src/choclo/point/_forward.py:gravity_pot", "src/choclo/point/_forward.py:gravity_uu", "test/test_point_gravity.py:test_division_by_zero"]}
{"id": "C10", "title": "point gravity is Newton's law", "statement": "gravity_pot is G*mass/distance; (gravity_e, gravity_n, gravity_u) has modulus G*|mass|/distance^2, is parallel to q-p and for a positive mass points from the observation point to the mass, so gravity_u is negative exactly when the observation point is above the mass.", "quantifier": "all pairs of distinct points and masses", "why_tests_cant": "a universally quantified vector identity", "anchors": ["src/choclo/point/_forward.py:gravity_pot", "src/choclo/point/_forward.py:gravity_e", "src/choclo/point/_forward.py:gravity_n", "src/choclo/point/_forward.py:gravity_u"]}
{"id": "C11", "title": "point gravity vector and tensor are the derivatives of the potential function", "statement": "For every observation point different from the mass, gravity_i is the partial derivative of gravity_pot along i, and gravity_ij is the partial derivative of gravity_i along j and of gravity_j along i.", "quantifier": "all pairs of distinct points and masses, all components", "why_tests_cant": "finite differences at samples cannot establish a derivative identity", "anchors": ["src/choclo/point/_forward.py:gravity_pot", "src/choclo/point/_forward.py:gravity_e", "src/choclo/point/_forward.py:gravity_ee", "src/choclo/point/_forward.py:gravity_en"]}
{"id": "C12", "title": "point gravity is linear in the mass", "statement": "For every point gravity function the field of mass a*m1 + m2 is a times the field of m1 plus the field of m2 (so the field of unit mass is the Jacobian).", "quantifier": "all pairs of distinct points, all masses and scalars, all ten functions", "why_tests_cant": "linearity is universally quantified", "anchors": ["src/choclo/point/_forward.py:gravity_pot", "doc/user_guide/jacobian.rst"]}
{"id": "C13", "title": "dipole.magnetic_field is exactly the triple of single-component functions", "statement": "dipole.magnetic_field returns the triple (magnetic_e, magnetic_n, magnetic_u), bit for bit, in whatever arithmetic (in particular IEEE binary64 with any libm), and raises exactly when they raise.", "quantifier": "all inputs, including NaN/inf, and all arithmetics", "why_tests_cant": "bit-for-bit equality on every input cannot be sampled", "anchors": ["src/choclo/dipole/_forward.py:magnetic_field", "src/choclo/dipole/_forward.py:magnetic_e", "src/choclo/dipole/_forward.py:magnetic_n", "src/choclo/dipole/_forward.py:magnetic_u"]}
{"id": "C14", "title": "dipole field is mu0/(4 pi) times the point second-derivative tensor applied to the moment", "statement": "For distinct points, each dipole magnetic component equals mu0/(4 pi) times the dot product of the moment with the corresponding row of choclo.point second-order kernels; it is therefore linear in the moment and invariant under exchanging the points.", "quantifier": "all pairs of distinct points and moments", "why_tests_cant": "universally quantified identity across two modules", "anchors": ["src/choclo/dipole/_forward.py:magnetic_e", "src/choclo/dipole/_forward.py:magnetic_n", "src/choclo/dipole/_forward.py:magnetic_u", "src/choclo/point/_kernels.py:kernel_ee", "src/choclo/point/_kernels.py:kernel_en"]}
{"id": "C15", "title": "dipole field derives from a scalar potential and is divergence and curl free", "statement": "Away from the dipole, (magnetic_e, magnetic_n, magnetic_u) is minus the gradient of mu0/(4 pi) (m . r)/|r|^3, and its partial derivatives exist, form a symmetric matrix and have zero trace.", "quantifier": "all observation points different from the dipole, all moments", "why_tests_cant": "a differential identity over all of space", "anchors": ["src/choclo/dipole/_forward.py:magnetic_e", "src/choclo/dipole/_forward.py:magnetic_n", "src/choclo/dipole/_forward.py:magnetic_u"]}
{"id": "C16", "title": "dipole reciprocity", "statement": "The field of a dipole m1 at q measured at p along m2 equals the field of a dipole m2 at p measured at q along m1.", "quantifier": "all pairs of distinct points and all pairs of moments", "why_tests_cant": "universally quantified symmetry", "anchors": ["src/choclo/dipole/_forward.py:magnetic_field"]}
{"id": "C17", "title": "dipole functions raise ZeroDivisionError exactly at the dipole", "statement": "dipole.magnetic_field and its component functions raise ZeroDivisionError if and only if the observation point coincides with the dipole, otherwise they return finite numbers.", "quantifier": "all pairs of points and moments", "why_tests_cant": "'only if' quantifies over every other point", "anchors": ["src/choclo/dipole/_forward.py:magnetic_field", "src/choclo/dipole/_forward.py:magnetic_e"]}
{"id": "C18", "title": "prism location predicates describe the geometry exactly", "statement": "For a prism with ordered boundaries: is_interior_point holds exactly on the open box; the three edge predicates hold exactly on the closed edges of the respective direction and is_point_on_edge on their union; the face predicates exactly on the relative interior of the east, north and top faces; interior, edges and these faces are pairwise disjoint.", "quantifier": "all prisms with west<east, south<north, bottom<top and all points", "why_tests_cant": "set equality over all points in space", "anchors": ["src/choclo/prism/_utils.py:is_interior_point", "src/choclo/prism/_utils.py:is_point_on_edge", "src/choclo/prism/_utils.py:is_point_on_easting_edge", "src/choclo/prism/_utils.py:is_point_on_east_face"]}
{"id": "C19", "title": "prism gravity potential and acceleration are finite everywhere", "statement": "gravity_pot, gravity_e, gravity_n and gravity_u of a prism never raise and return a finite number at every observation point: outside, inside, on faces, edges and vertices.", "quantifier": "all observation points, all prisms (even unordered or flat boundaries), all densities", "why_tests_cant": "the singular alignments are a measure-zero set that sampling misses", "anchors": ["src/choclo/prism/_gravity.py:gravity_pot", "src/choclo/prism/_gravity.py:gravity_e", "src/choclo/prism/_kernels.py:_safe_log", "src/choclo/prism/_kernels.py:_safe_atan2"]}
{"id": "C20", "title": "prism gravity tensor is NaN exactly on its documented singular points", "statement": "gravity_ee is NaN exactly on the edges (and vertices) perpendicular to easting, gravity_nn, gravity_uu likewise, gravity_en exactly on the edges parallel to upward, gravity_eu to northing, gravity_nu to easting; everywhere else they return finite numbers, and they never raise.", "quantifier": "all observation points, all prisms with ordered boundaries, all densities", "why_tests_cant": "exactness of the NaN set quantifies over all points", "anchors": ["src/choclo/prism/_gravity.py:gravity_ee", "src/choclo/prism/_gravity.py:gravity_nn", "src/choclo/prism/_gravity.py:gravity_uu", "src/choclo/prism/_gravity.py:gravity_en", "src/choclo/prism/_gravity.py:gravity_eu", "src/choclo/prism/_gravity.py:gravity_nu"]}
{"id": "C21", "title": "prism magnetic functions are NaN exactly on edges and inside the prism", "statement": "magnetic_field, magnetic_e/n/u and the six gradiometry components return NaN exactly when the observation point is on an edge or vertex or strictly inside the prism; everywhere else (including all six faces and all alignments with faces or edges) they return finite numbers, and they never raise.", "quantifier": "all observation points, all prisms with ordered boundaries, all magnetizations", "why_tests_cant": "exactness of the NaN set quantifies over all points", "anchors": ["src/choclo/prism/_magnetic.py:magnetic_field", "src/choclo/prism/_magnetic.py:magnetic_e", "src/choclo/prism/_magnetic.py:magnetic_ee", "src/choclo/prism/_magnetic.py:magnetic_en"]}
{"id": "C22", "title": "exterior prism gravity is the volume integral of choclo's point gravity", "statement": "For every observation point outside the closed prism, each of the ten prism.gravity_* functions returns the triple integral over the prism of the same-named point.gravity_* function with mass equal to the density.", "quantifier": "all prisms with ordered boundaries, all exterior observation points (including those aligned with faces and edges), all densities, all ten functions", "why_tests_cant": "equality with an integral over a continuum for every exterior point", "anchors": ["src/choclo/prism/_gravity.py:gravity_pot", "src/choclo/prism/_gravity.py:gravity_e", "src/choclo/prism/_gravity.py:gravity_ee", "src/choclo/prism/_gravity.py:gravity_en", "src/choclo/point/_forward.py:gravity_pot"]}
{"id": "C23", "title": "exterior prism magnetic field is the volume integral of choclo's dipole field", "statement": "For every observation point outside the closed prism, prism.magnetic_e/n/u return the triple integral over the prism of dipole.magnetic_e/n/u with moment equal to the magnetization.", "quantifier": "all prisms with ordered boundaries, all exterior points, all magnetizations", "why_tests_cant": "equality with an integral over a continuum for every exterior point", "anchors": ["src/choclo/prism/_magnetic.py:magnetic_e", "src/choclo/prism/_magnetic.py:magnetic_n", "src/choclo/prism/_magnetic.py:magnetic_u", "src/choclo/dipole/_forward.py:magnetic_e"]}
{"id": "C24", "title": "exterior magnetic gradiometry is the volume integral of the point third-derivative kernels", "statement": "For every observation point outside the closed prism, prism.magnetic_ij returns mu0/(4 pi) times the integral over the prism of the dot product of the magnetization with the point third-order kernels (i, j, .).", "quantifier": "all prisms with ordered boundaries, all exterior points, all magnetizations, all six components", "why_tests_cant": "equality with an integral over a continuum for every exterior point", "anchors": ["src/choclo/prism/_magnetic.py:magnetic_ee", "src/choclo/prism/_magnetic.py:magnetic_en", "src/choclo/prism/_kernels.py:_kernel_iii", "src/choclo/prism/_kernels.py:_kernel_iij", "src/choclo/point/_kernels.py:kernel_eee"]}
{"id": "C25", "title": "prism gravity acceleration is the gradient of the potential at every point", "statement": "At every observation point (outside, inside, on faces, edges and vertices) gravity_e, gravity_n, gravity_u are the partial derivatives of gravity_pot along easting, northing and upward.", "quantifier": "all observation points, all prisms, all densities", "why_tests_cant": "finite-difference tests sample generic points only", "anchors": ["src/choclo/prism/_gravity.py:gravity_pot", "src/choclo/prism/_gravity.py:gravity_e", "src/choclo/prism/_gravity.py:gravity_n", "src/choclo/prism/_gravity.py:gravity_u"]}
{"id": "C26", "title": "prism gravity tensor is the derivative of the acceleration", "statement": "gravity_ee is the easting derivative of gravity_e at every point (outside and inside) that is not on the closed east or west face (same for nn, uu with their faces); gravity_en is the northing derivative of gravity_e and the easting derivative of gravity_n at every point that is not on an upward edge (same for eu, nu).", "quantifier": "all prisms with ordered boundaries, all observation points off the stated faces/edges, all densities", "why_tests_cant": "finite-difference tests sample generic points only", "anchors": ["src/choclo/prism/_gravity.py:gravity_ee", "src/choclo/prism/_gravity.py:gravity_en", "src/choclo/prism/_gravity.py:gravity_e"]}
{"id": "C27", "title": "prism magnetic gradiometry is the derivative of the magnetic field", "statement": "At every point outside the closed prism, magnetic_ij is the derivative along j of magnetic_i and along i of magnetic_j.", "quantifier": "all prisms with ordered boundaries, all exterior points, all magnetizations, all components", "why_tests_cant": "finite-difference tests sample generic points only", "anchors": ["src/choclo/prism/_magnetic.py:magnetic_ee", "src/choclo/prism/_magnetic.py:magnetic_en", "src/choclo/prism/_magnetic.py:magnetic_e"]}
{"id": "C28", "title": "Poisson's and Laplace's equations for the prism gravity tensor", "statement": "gravity_ee + gravity_nn + gravity_uu equals -4 pi G density strictly inside the prism and 0 outside it and on all its faces, wherever none of the three is NaN.", "quantifier": "all prisms with ordered boundaries, all non-edge observation points, all densities", "why_tests_cant": "tests check a few points with tolerances", "anchors": ["src/choclo/prism/_gravity.py:gravity_ee", "src/choclo/prism/_gravity.py:gravity_nn", "src/choclo/prism/_gravity.py:gravity_uu", "src/choclo/prism/_kernels.py:_safe_atan2"]}
{"id": "C29", "title": "prism magnetic field is divergence free", "statement": "magnetic_ee + magnetic_nn + magnetic_uu = 0 wherever they are defined (outside the prism and on its faces).", "quantifier": "all prisms with ordered boundaries, all observation points not on edges or inside, all magnetizations", "why_tests_cant": "identity over all of space", "anchors": ["src/choclo/prism/_magnetic.py:magnetic_ee", "src/choclo/prism/_magnetic.py:magnetic_nn", "src/choclo/prism/_magnetic.py:magnetic_uu"]}
{"id": "C30", "title": "values on faces are the limits from outside", "statement": "At a point in the relative interior of any of the six faces, gravity_ee (east/west faces), gravity_nn (north/south), gravity_uu (top/bottom) and the three magnetic components equal the limit of the same function when the observation point approaches the face along its outward normal.", "quantifier": "all prisms with ordered boundaries, all face points, all densities/magnetizations", "why_tests_cant": "a limit statement; and the set of face points is measure zero", "anchors": ["src/choclo/prism/_gravity.py:gravity_ee", "src/choclo/prism/_magnetic.py:magnetic_field", "src/choclo/prism/_magnetic.py:magnetic_e", "src/choclo/prism/_utils.py:is_point_on_east_face"]}
{"id": "C31", "title": "prism fields are linear in the physical property", "statement": "All ten prism gravity functions are linear in the density and all prism magnetic functions linear in the magnetization vector (for ordered, possibly flat, boundaries), at every non-singular point; the NaN set does not depend on the property.", "quantifier": "all prisms, points, densities, magnetizations and scalars", "why_tests_cant": "linearity is universally quantified", "anchors": ["src/choclo/prism/_gravity.py:gravity_u", "src/choclo/prism/_magnetic.py:magnetic_e", "src/choclo/prism/_magnetic.py:magnetic_ee", "doc/user_guide/jacobian.rst"]}
{"id": "C32", "title": "splitting a prism preserves the total field", "statement": "If a prism is cut in two by a plane perpendicular to an axis, the gravity of the whole is the sum of the gravities of the two parts: for gravity_pot/e/n/u at every point, and for every tensor and magnetic component at every point that is not singular for either part and does not lie on the cutting plane's shared face.", "quantifier": "all prisms, cutting planes, observation points, densities and magnetizations", "why_tests_cant": "additivity for every cut and every point", "anchors": ["src/choclo/prism/_gravity.py:_evaluate_kernel", "src/choclo/prism/_magnetic.py:_calculate_component"]}
{"id": "C33", "title": "prism fields have the symmetries of the prism", "statement": "Reflecting the observation point and the prism across a coordinate plane preserves gravity_pot and flips the sign of each component once per reflected index; permuting the axes of point and prism permutes the components; translating both changes nothing.", "quantifier": "all prisms with ordered boundaries, all observation points, all densities/magnetizations", "why_tests_cant": "symmetry must hold for every configuration, including degenerate alignments", "anchors": ["src/choclo/prism/_gravity.py:gravity_pot", "src/choclo/prism/_gravity.py:gravity_e", "src/choclo/prism/_gravity.py:gravity_en", "src/choclo/prism/_magnetic.py:magnetic_e", "src/choclo/prism/_kernels.py:_safe_log"]}
{"id": "C34", "title": "Poisson's relation between prism magnetic and gravity fields", "statement": "Wherever magnetic_e/n/u are defined, they equal mu0/(4 pi G rho) times the product of the prism gravity tensor for density rho with the magnetization vector, including the values on the faces.", "quantifier": "all prisms with ordered boundaries, all points where the magnetic field is not NaN, all magnetizations, rho not 0", "why_tests_cant": "identity across two modules for every point", "anchors": ["src/choclo/prism/_magnetic.py:magnetic_e", "src/choclo/prism/_magnetic.py:magnetic_field", "src/choclo/prism/_gravity.py:gravity_ee", "src/choclo/prism/_gravity.py:gravity_en"]}
{"id": "C35", "title": "prism.magnetic_field is exactly the triple of single-component functions", "statement": "prism.magnetic_field returns exactly the triple (magnetic_e, magnetic_n, magnetic_u): in exact arithmetic and bit for bit in IEEE binary64 with any log/arctan, for every input, as long as none of the component functions raises.", "quantifier": "all inputs, including NaN/inf and degenerate prisms", "why_tests_cant": "bit-for-bit equality on every input cannot be sampled", "anchors": ["src/choclo/prism/_magnetic.py:magnetic_field", "src/choclo/prism/_magnetic.py:magnetic_e", "src/choclo/prism/_magnetic.py:magnetic_n", "src/choclo/prism/_magnetic.py:magnetic_u"]}
{"id": "C36", "title": "sign and size of the prism attraction", "statement": "For positive density and non-empty prism, at exterior points: gravity_pot is positive and lies between G rho V / r_max and G rho V / r_min (extreme distances from the point to the prism); gravity_u is negative at every exterior point at or above the top and positive at or below the bottom, and similarly for e and n; |g_u| is bounded by G rho V / r_min^2.", "quantifier": "all non-empty prisms, exterior points and positive densities", "why_tests_cant": "inequality over a continuum", "anchors": ["src/choclo/prism/_gravity.py:gravity_pot", "src/choclo/prism/_gravity.py:gravity_u", "src/choclo/prism/_gravity.py:gravity_e", "src/choclo/prism/_gravity.py:gravity_n"]}
{"id": "C37", "title": "a prism without volume has no field, except on itself", "statement": "A prism with a pair of equal boundaries (zero volume) has zero gravity_pot and gravity_e/n/u everywhere, and every tensor and magnetic component is NaN or zero, with exactly one exception: in the relative interior of a prism that is flat along an axis, the diagonal tensor component along that axis is the one-sided face value 4 pi G density and the magnetic component along that axis is mu0 times the magnetization along it.", "quantifier": "all flat prisms and observation points", "why_tests_cant": "quantifies over all flat prisms including points lying on them", "anchors": ["src/choclo/prism/_gravity.py:gravity_ee", "src/choclo/prism/_gravity.py:gravity_u", "src/choclo/prism/_magnetic.py:magnetic_e", "src/choclo/prism/_utils.py:is_point_on_east_face"]}
{"id": "C38", "title": "prism kernels on a vertex", "statement": "With radius zero (observation point on the vertex) the second- and third-order prism kernels return NaN, while the potential and first-order kernels return zero, never raising; with a consistent non-zero radius every kernel returns a finite number.", "quantifier": "all shifted coordinates with the radius they determine, all twenty kernels", "why_tests_cant": "finiteness for every vertex position, including alignments", "anchors": ["src/choclo/prism/_kernels.py:kernel_pot", "src/choclo/prism/_kernels.py:kernel_e", "src/choclo/prism/_kernels.py:kernel_ee", "src/choclo/prism/_kernels.py:kernel_en", "src/choclo/prism/_kernels.py:kernel_eee", "src/choclo/prism/_kernels.py:kernel_enu"]}
{"id": "C39", "title": "NaN inputs are never silently swallowed (binary64)", "statement": "In IEEE binary64, a NaN among the observation coordinates, source coordinates or physical properties never yields a number. A NaN observation coordinate makes every function return NaN. A NaN source coordinate makes every point, dipole and prism function return NaN, except that the prism gradiometry functions may raise instead. A NaN density or magnetization makes the prism functions return NaN (gradiometry may raise); a NaN mass or moment makes the point and dipole functions return NaN unless they raise ZeroDivisionError.", "quantifier": "all binary64 inputs, any log/arctan that map NaN to NaN", "why_tests_cant": "every combination of NaN argument and other argument values", "anchors": ["src/choclo/point/_forward.py:gravity_pot", "src/choclo/dipole/_forward.py:magnetic_field", "src/choclo/prism/_gravity.py:gravity_pot", "src/choclo/prism/_gravity.py:gravity_ee", "src/choclo/prism/_magnetic.py:magnetic_ee", "src/choclo/prism/_kernels.py:_kernel_iii"]}
{"id": "C40", "title": "exchange symmetry survives rounding", "statement": "In IEEE binary64 distance_cartesian(p, q) and distance_cartesian(q, p) are bit-for-bit equal; when the points are exchanged, point gravity_pot and gravity_ee/nn/uu are bit-for-bit unchanged, gravity_en/eu/nu are unchanged and gravity_e/n/u exactly negated up to the sign of a zero, and exceptions are the same.", "quantifier": "all binary64 inputs", "why_tests_cant": "bit-level statement over 2^448 inputs", "anchors": ["src/choclo/utils.py:distance_cartesian", "src/choclo/point/_forward.py:gravity_pot", "src/choclo/point/_forward.py:gravity_e", "src/choclo/point/_forward.py:gravity_ee"]}
{"id": "C41", "title": "the singularity guards see exactly the vanishing shifted coordinates (binary64)", "statement": "For finite binary64 numbers the shifted coordinate boundary - coordinate is a zero if and only if the coordinate equals the boundary, so the location predicates evaluated on the coordinates give the same answer as on the shifted coordinates the kernels receive, which is the answer of exact arithmetic; and in the ordinary range (differences zero or between 2^-100 and 2^100) the computed distance is zero exactly when the points coincide.", "quantifier": "all finite binary64 numbers (whole range for differences and predicates)", "why_tests_cant": "depends on gradual underflow; cannot be sampled", "anchors": ["src/choclo/prism/_utils.py:is_point_on_edge", "src/choclo/prism/_gravity.py:_evaluate_kernel", "src/choclo/prism/_kernels.py:_safe_log", "src/choclo/prism/_kernels.py:_safe_atan2"]}
{"id": "C42", "title": "no spurious NaN, infinity or exception in the ordinary range (binary64)", "statement": "In IEEE binary64, if every non-zero coordinate difference has magnitude between 2^-100 and 2^100 and the physical property is at most 2^100, the point and dipole functions (at distinct points), all prism gravity functions off their documented singular edges, all prism magnetic functions off edges and interior, and all forty kernels return finite numbers; prism kernels of second and third order return NaN exactly at the vertex.", "quantifier": "all binary64 inputs in the stated range, any log/arctan finite on the positive reals / reals", "why_tests_cant": "needs rounding-error reasoning over all inputs", "anchors": ["src/choclo/point/_forward.py:gravity_pot", "src/choclo/prism/_kernels.py:kernel_pot", "src/choclo/prism/_kernels.py:kernel_ee", "src/choclo/prism/_kernels.py:kernel_en", "src/choclo/prism/_kernels.py:kernel_eee"]}
{"id": "C43", "title": "prism functions never raise, point functions raise at the source (binary64, whole range)", "statement": "In IEEE binary64, no prism gravity function and none of prism magnetic_field/e/n/u ever raises, whatever the inputs (NaN, infinities, unordered or flat prisms included); every point and dipole function raises ZeroDivisionError when the observation point coincides with the source.", "quantifier": "all binary64 inputs (finite ones for the second part)", "why_tests_cant": "underflow/overflow corners", "anchors": ["src/choclo/prism/_kernels.py:_kernel_iij", "src/choclo/prism/_kernels.py:_safe_log", "src/choclo/prism/_gravity.py:gravity_en", "src/choclo/prism/_magnetic.py:magnetic_en", "src/choclo/point/_forward.py:gravity_pot"]}
{"id": "C44", "title": "rounding error of distance and point kernels (binary64)", "statement": "In IEEE binary64, distance_cartesian is within relative error 5*2^-53 of the exact distance when every non-zero coordinate difference lies between 2^-500 and 2^500; in the ordinary range the relative error with respect to the same function in exact arithmetic is at most 9*2^-53 for point gravity_pot, 20*2^-53 for gravity_e/n/u and 33*2^-53 for gravity_en/eu/nu.", "quantifier": "all binary64 inputs in the stated range", "why_tests_cant": "worst-case error over all inputs", "anchors": ["src/choclo/utils.py:distance_cartesian", "src/choclo/point/_kernels.py:kernel_pot", "src/choclo/point/_forward.py:gravity_pot"]}
{"id": "C45", "title": "negating the source negates the field exactly (binary64)", "statement": "In IEEE binary64 replacing the mass or density by its negative flips exactly the sign bit of every point and prism gravity result, and replacing the moment or magnetization vector by its negative negates every dipole and prism magnetic result up to the sign of a zero, with the same exceptions and NaNs.", "quantifier": "all binary64 inputs", "why_tests_cant": "bit-level statement over all inputs", "anchors": ["src/choclo/point/_forward.py:gravity_u", "src/choclo/prism/_gravity.py:gravity_u", "src/choclo/prism/_gravity.py:gravity_ee"]}
{"id": "C46", "title": "the user guide's forward loop is schedule independent", "statement": "The user guide's parallel forward model (prange over observation points, each accumulating result[i] += gravity_u(...)) and its parallel Jacobian produce, for every interleaving of the threads' reads and writes, the same array as the sequential loops (or raise like them), in whatever arithmetic and whatever np.empty contained; every schedule terminates; in IEEE binary64 no schedule raises and element i is the left-to-right floating point sum of the prisms' contributions.", "quantifier": "all schedules, all arrays of points and prisms, any arithmetic", "why_tests_cant": "thread schedules cannot be enumerated by tests", "anchors": ["doc/user_guide/how-to-use.rst:gravity_upward_parallel", "src/choclo/prism/_gravity.py:gravity_u"]}
{"id": "C47", "title": "Jacobian times densities is the forward model", "statement": "The user guide's Jacobian (gravity_u with unit density) multiplied by the density vector equals the forward model that sums gravity_u over the prisms, at every observation point and for every schedule; and its element (i, j) is the derivative of the forward model at point i with respect to the density of prism j.", "quantifier": "all lists of prisms, densities and observation points (exact arithmetic)", "why_tests_cant": "universally quantified over model size", "anchors": ["doc/user_guide/jacobian.rst:build_jacobian", "src/choclo/prism/_gravity.py:gravity_u"]}
{"id": "C48", "title": "prism gravity potential and acceleration are continuous everywhere", "statement": "gravity_pot and gravity_e/n/u are jointly continuous functions of the observation point, the prism boundaries and the density, everywhere (flat and inverted prisms included), including on faces, edges and vertices and across the coordinate planes of the prism's boundaries where the implementation switches branches.", "quantifier": "all observation points, prisms and densities", "why_tests_cant": "continuity across branch switches is a limit statement at every point", "anchors": ["src/choclo/prism/_gravity.py:gravity_pot", "src/choclo/prism/_gravity.py:gravity_e", "src/choclo/prism/_kernels.py:_safe_log", "src/choclo/prism/_kernels.py:_safe_atan2"]}
{"id": "C49", "title": "interior prism gravity is the improper integral of the point source's", "statement": "At every observation point of the closed prism (interior, faces, edges, vertices) gravity_pot and gravity_e/n/u return the improper volume integral over the prism of the point source's gravity_pot and gravity_e/n/u: the limit, as the half-width of a cube around the observation point tends to 0, of the integral over the prism minus that cube.", "quantifier": "all prisms, densities and points of the closed prism", "why_tests_cant": "limit of integrals with a singular integrand", "anchors": ["src/choclo/prism/_gravity.py:gravity_pot", "src/choclo/prism/_gravity.py:gravity_e", "src/choclo/point/_forward.py:gravity_pot", "src/choclo/point/_forward.py:gravity_e"]}
{"id": "C50", "title": "the attraction points to the middle of the prism, everywhere", "statement": "For positive density and every observation point (outside, on the boundary, inside) gravity_pot > 0, and each acceleration component is negative exactly when the point is beyond the prism's middle plane in that direction, positive exactly when it is before it, hence zero exactly on it.", "quantifier": "all proper prisms, positive densities and all observation points", "why_tests_cant": "sign at every point incl. branch-switch points", "anchors": ["src/choclo/prism/_gravity.py:gravity_pot", "src/choclo/prism/_gravity.py:gravity_e", "src/choclo/prism/_gravity.py:gravity_n", "src/choclo/prism/_gravity.py:gravity_u"]}
{"id": "C51", "title": "results do not depend on the unit of length", "statement": "Multiplying every coordinate (observation point and source) by the same l > 0 multiplies the results by a fixed power of l: distances by l (spherical distance: radii), point kernels of order k by l^-(k+1), point gravity potential/acceleration/tensor by l^-1, l^-2, l^-3, the dipole field by l^-3, prism gravity potential/acceleration/tensor by l^2, l, 1, prism magnetic field by 1 and gradiometry by l^-1; NaN and ZeroDivisionError occur at the same places. In particular the logarithms' arguments having a dimension never matters, edge and face branches included.", "quantifier": "all l > 0, sources and observation points (exact arithmetic)", "why_tests_cant": "universally quantified scale factor; includes all branch-switch points", "anchors": ["src/choclo/utils.py:distance_cartesian", "src/choclo/utils.py:distance_spherical", "src/choclo/point/_kernels.py:kernel_pot", "src/choclo/point/_forward.py:gravity_pot", "src/choclo/dipole/_forward.py:magnetic_e", "src/choclo/prism/_gravity.py:gravity_pot", "src/choclo/prism/_gravity.py:gravity_en", "src/choclo/prism/_magnetic.py:magnetic_e", "src/choclo/prism/_magnetic.py:magnetic_ee", "src/choclo/prism/_kernels.py:_safe_log"]}
{"id": "C52", "title": "a very wide prism is a Bouguer slab", "statement": "If the prism extends at least L beyond the observation point in the four horizontal directions, gravity_u equals the infinite slab's attraction -2 pi G rho (thickness below - thickness above the point) and gravity_uu equals 0 outside and on the top/bottom faces, -4 pi G rho inside, within an explicit error that tends to 0 as L grows.", "quantifier": "all prisms, densities, observation heights (above, inside, below, on the faces) and L > 0", "why_tests_cant": "limit statement with a bound valid for all inputs", "anchors": ["src/choclo/prism/_gravity.py:gravity_u", "src/choclo/prism/_gravity.py:gravity_uu", "src/choclo/prism/_kernels.py:kernel_u", "src/choclo/prism/_kernels.py:kernel_uu"]}
{"id": "C53", "title": "far from a prism its field is a point source's at its centre", "statement": "If every point of the prism is at least d0 > 0 away from the observation point, the ten gravity functions differ from the point source's with mass density*volume at the prism's centre by at most G |M| D2 / (12 d0^3), / (4 d0^4), / d0^5 (potential, acceleration, tensor; D2 the squared diagonal), and magnetic_e/n/u from the dipole's with moment magnetization*volume by at most mu0/(4 pi) (|me|+|mn|+|mu|) V D2 / d0^5.", "quantifier": "all prisms (flat ones included), densities, magnetizations and exterior observation points", "why_tests_cant": "quantitative limit with a bound valid for all inputs", "anchors": ["src/choclo/prism/_gravity.py:gravity_pot", "src/choclo/prism/_gravity.py:gravity_u", "src/choclo/prism/_gravity.py:gravity_nu", "src/choclo/prism/_magnetic.py:magnetic_e", "src/choclo/point/_forward.py:gravity_u", "src/choclo/dipole/_forward.py:magnetic_e"]}
{"id": "C54", "title": "exterior prism fields are Lipschitz in the observation point", "statement": "Moving the observation point along a straight segment that stays at least d0 > 0 away from the prism changes gravity_pot / acceleration / tensor by at most 1, 2, 6 times G |density| V / d0^2, d0^3, d0^4 times the displacement (sum of absolute coordinate changes), and the magnetic field / gradiometry by at most 6, 24 times mu0/(4 pi) (|me|+|mn|+|mu|) V / d0^4, d0^5 times the displacement; in particular every field is jointly continuous outside the prism, across all the coordinate planes where the implementation switches branches.", "quantifier": "all prisms (flat ones included), physical properties and pairs of exterior points", "why_tests_cant": "uniform estimate over all pairs of points", "anchors": ["src/choclo/prism/_gravity.py:gravity_pot", "src/choclo/prism/_gravity.py:gravity_ee", "src/choclo/prism/_gravity.py:gravity_nu", "src/choclo/prism/_magnetic.py:magnetic_e", "src/choclo/prism/_magnetic.py:magnetic_ee", "src/choclo/prism/_kernels.py:_safe_log", "src/choclo/prism/_kernels.py:_safe_atan2"]}
{"id": "C55", "title": "exterior prism fields are bounded by the volume and stable under changes of the boundaries", "statement": "If the prism is at least d0 > 0 away from the observation point, |gravity_pot|, |acceleration|, |tensor| are at most 1, 1, 2 times G |density| V / d0, d0^2, d0^3 and |magnetic field|, |gradiometry| at most 2, 6 times mu0/(4 pi) (|me|+|mn|+|mu|) V / d0^3, d0^4; and if a prism contains another one the fields of the two differ by at most the same bound with the difference of the volumes.", "quantifier": "all pairs of nested prisms (flat ones included), physical properties and exterior points", "why_tests_cant": "uniform estimate over all inputs", "anchors": ["src/choclo/prism/_gravity.py:gravity_pot", "src/choclo/prism/_gravity.py:gravity_ee", "src/choclo/prism/_magnetic.py:magnetic_e", "src/choclo/prism/_magnetic.py:magnetic_ee"]}
{"id": "C56", "title": "distance_spherical in double precision: when it is a number", "statement": "In binary64: whenever the computed cosine of the angle is at most 1 (radii >= 0) the distance is a finite non-negative number, and in the ordinary range it is within 5 * 2^-53 (relatively) of the law of cosines with that computed cosine. The distance from a point to itself is NaN exactly when the rounded sum of the rounded squares of the computed sine and cosine of the latitude exceeds 1; this does happen: at latitude 8 degrees the distance of every point to itself is NaN for every C library accurate to 0.55 ulp.", "quantifier": "all double-precision inputs in the stated ranges, all C libraries for sin/cos", "why_tests_cant": "universally quantified over binary64 inputs and over the C library; the NaN only appears at particular latitudes", "anchors": ["src/choclo/utils.py:distance_spherical", "src/choclo/utils.py:distance_spherical_core"]}
{"id": "C57", "title": "end-to-end accuracy of distance_spherical", "statement": "In binary64, with sine and cosine correct to 2^-52, longitudes of at most 360 and latitudes of at most 90 degrees: the computed cosine is within 100 * 2^-53 of the exact one; points whose exact distance D exceeds 2^-22 sqrt(rp rq) never give NaN and the result is within 5 * 2^-53 D + 251 * 2^-53 rp rq / D of D; closer points give NaN or a number within 5 * 2^-53 D + 2^-22 sqrt(rp rq) of D.", "quantifier": "all double-precision inputs in the stated ranges, all C libraries close to sin/cos", "why_tests_cant": "error bound over all inputs and all libraries", "anchors": ["src/choclo/utils.py:distance_spherical", "src/choclo/utils.py:distance_spherical_core"]}
{"id": "C58", "title": "prism gravity in double precision: rounding error of the ten functions", "statement": "In binary64, with a logarithm and an arctangent correct to about an ulp: if the coordinate differences between the observation point and the boundaries are zero or between 2^-p and 2^p metres (p <= 100) and no vertex is further than D, then wherever the exact function returns a number the computed one is finite and within 352 (3p+4) 2^-53 G|density| D^2 (potential), 576 (3p+3) 2^-53 G|density| D (acceleration), 928 2^-53 G|density| (diagonal tensor), 224 (3p+3) 2^-53 G|density| (off-diagonal tensor) of it, including on faces and edges and across all branch switches.", "quantifier": "all double-precision inputs in the stated ranges, all C libraries close to log/atan", "why_tests_cant": "error bound over all inputs and all libraries", "anchors": ["src/choclo/prism/_gravity.py:gravity_pot", "src/choclo/prism/_gravity.py:gravity_e", "src/choclo/prism/_gravity.py:gravity_n", "src/choclo/prism/_gravity.py:gravity_u", "src/choclo/prism/_gravity.py:gravity_ee", "src/choclo/prism/_gravity.py:gravity_en", "src/choclo/prism/_kernels.py:_safe_log", "src/choclo/prism/_kernels.py:_safe_atan2"]}
{"id": "C59", "title": "prism magnetics in double precision: rounding error of the nine functions and the field triple", "statement": "In binary64, under the hypotheses of the previous property: wherever the exact function returns a number (outside, on the faces, across all branch switches) the computed magnetic_e/n/u, and the components of magnetic_field, are finite and within 488 (3p+5) 2^-53 mu0/(4 pi) (|me|+|mn|+|mu|) of it, and magnetic_ee/nn/uu/en/eu/nu within 912 2^p 2^-53 mu0/(4 pi) (|me|+|mn|+|mu|); the latter whatever the C library (the gradient kernels are algebraic).", "quantifier": "all double-precision inputs in the stated ranges, all C libraries close to log/atan", "why_tests_cant": "error bound over all inputs and all libraries", "anchors": ["src/choclo/prism/_magnetic.py:magnetic_field", "src/choclo/prism/_magnetic.py:magnetic_e", "src/choclo/prism/_magnetic.py:magnetic_n", "src/choclo/prism/_magnetic.py:magnetic_u", "src/choclo/prism/_magnetic.py:magnetic_ee", "src/choclo/prism/_magnetic.py:magnetic_en", "src/choclo/prism/_kernels.py:_kernel_iii", "src/choclo/prism/_kernels.py:_kernel_iij"]}
{"id": "C60", "title": "rounding error where the point functions subtract, and of the dipole (binary64)", "statement": "In binary64, at distinct points in the ordinary range (distance D): the computed point kernels ee/nn/uu are within 128 2^-53 / D^3 and the ten third-order kernels within 1080 2^-53 / D^4 of the exact ones (called with the computed distance), gravity_ee/nn/uu within 148 2^-53 G|m| / D^3, and the dipole's magnetic_e/n/u and the components of magnetic_field within 200 2^-53 mu0/(4 pi) (|me|+|mn|+|mu|) / D^3; no call raises.", "quantifier": "all double-precision inputs in the stated range", "why_tests_cant": "worst-case error over all inputs, including directions where the two terms cancel", "anchors": ["src/choclo/point/_kernels.py:kernel_ee", "src/choclo/point/_kernels.py:kernel_eee", "src/choclo/point/_kernels.py:kernel_een", "src/choclo/point/_kernels.py:kernel_enu", "src/choclo/point/_forward.py:gravity_ee", "src/choclo/dipole/_forward.py:magnetic_field", "src/choclo/dipole/_forward.py:magnetic_e"]}
{"id": "C61", "title": "accuracy of the user guide's forward model (binary64, every schedule)", "statement": "In binary64, with a logarithm and an arctangent correct to about an ulp, up to 2^40 prisms, coordinates zero or 2^-p..2^p apart (p <= 100) and no vertex further than D from a point: every finished schedule of the user guide's parallel forward model completes without exception and element i is finite and within E + 2 n 2^-53 (S + E) of the exact sum of the prisms' vertical attractions (S = sum of their magnitudes, E = 576 (3p+3) 2^-53 G D sum |densities|); every element of the parallel Jacobian is within 576 (3p+3) 2^-53 G D of the exact sensitivity.", "quantifier": "all schedules, all numbers of points and prisms up to 2^40, all double-precision inputs in the stated ranges, all C libraries close to log/atan", "why_tests_cant": "error bound over all inputs, all schedules", "anchors": ["doc/user_guide/how-to-use.rst:gravity_upward_parallel", "doc/user_guide/jacobian.rst:build_jacobian", "src/choclo/prism/_gravity.py:gravity_u"]}
{"id": "C62", "title": "Gauss's law for gravity", "statement": "The flux of (gravity_e, gravity_n, gravity_u) out of any axis-aligned box equals -4 pi G times the mass inside the box: for a prism with nonzero sides the density times the volume of the intersection of prism and box, whatever the relative position (boxes that cut the prism, touch it or share faces and edges with it included), and for a point source -4 pi G m if it is strictly inside and 0 if it is outside. All the calls on the surface return finite numbers.", "quantifier": "all prisms with nonzero sides, all point sources off the box's surface, all boxes, all masses and densities", "why_tests_cant": "the surface integral involves the values at uncountably many points, and must hold for every box", "anchors": ["src/choclo/prism/_gravity.py:gravity_e", "src/choclo/prism/_gravity.py:gravity_n", "src/choclo/prism/_gravity.py:gravity_u", "src/choclo/point/_forward.py:gravity_e", "src/choclo/point/_forward.py:gravity_n", "src/choclo/point/_forward.py:gravity_u", "src/choclo/prism/_kernels.py:_safe_log", "src/choclo/prism/_kernels.py:_safe_atan2"]}
{"id": "C63", "title": "magnetic fields have no flux through closed surfaces", "statement": "The flux of (magnetic_e, magnetic_n, magnetic_u) of a dipole or of a prism out of any axis-aligned box whose surface does not meet the source is zero, whether the box encloses the source or not, and all the calls on the surface return finite numbers.", "quantifier": "all dipoles, all prisms with nonzero sides, all moments and magnetizations, all boxes whose surface avoids the source", "why_tests_cant": "the surface integral involves the values at uncountably many points, and must hold for every box", "anchors": ["src/choclo/dipole/_forward.py:magnetic_e", "src/choclo/dipole/_forward.py:magnetic_n", "src/choclo/dipole/_forward.py:magnetic_u", "src/choclo/prism/_magnetic.py:magnetic_e", "src/choclo/prism/_magnetic.py:magnetic_n", "src/choclo/prism/_magnetic.py:magnetic_u"]}
{"id": "C64", "title": "fields change along paths by the integral of their derivatives", "statement": "Along any continuously differentiable path the prism's gravity_pot at the end minus gravity_pot at the start equals the integral along the path of (gravity_e, gravity_n, gravity_u), wherever the path goes (through the prism, faces, edges, vertices) and also for flat prisms; the components of the acceleration change by the integral of their row of the tensor along paths that do not touch the surface of the prism, magnetic_e/n/u by the integral of their row of the gradiometry functions along paths outside, and the point source's potential and acceleration likewise along paths avoiding the source.", "quantifier": "all continuously differentiable paths in the stated regions, all sources", "why_tests_cant": "paths are functions; the integral involves uncountably many calls", "anchors": ["src/choclo/prism/_gravity.py:gravity_pot", "src/choclo/prism/_gravity.py:gravity_e", "src/choclo/prism/_gravity.py:gravity_ee", "src/choclo/prism/_gravity.py:gravity_nu", "src/choclo/prism/_magnetic.py:magnetic_e", "src/choclo/prism/_magnetic.py:magnetic_ee", "src/choclo/point/_forward.py:gravity_pot", "src/choclo/point/_forward.py:gravity_e", "src/choclo/point/_forward.py:gravity_ee"]}
{"id": "C65", "title": "magnetic fields have no circulation", "statement": "The integral of (magnetic_e, magnetic_n, magnetic_u) of a prism (dipole) along a path that avoids the source is mu0/(4 pi G density) (mu0/(4 pi G mass)) times the change between its ends of the gravity acceleration of the same prism (of a point mass at the dipole) dotted with the magnetization (moment); in particular it is the same for all such paths between two points and zero for closed paths.", "quantifier": "all continuously differentiable paths avoiding the source, all magnetizations and moments, all nonzero densities", "why_tests_cant": "paths are functions; the integral involves uncountably many calls", "anchors": ["src/choclo/prism/_magnetic.py:magnetic_e", "src/choclo/prism/_magnetic.py:magnetic_n", "src/choclo/prism/_magnetic.py:magnetic_u", "src/choclo/dipole/_forward.py:magnetic_e", "src/choclo/dipole/_forward.py:magnetic_n", "src/choclo/dipole/_forward.py:magnetic_u"]}
{"id": "C66", "title": "end-to-end accuracy: computed prism fields against the volume integrals that define them", "statement": "In binary64, with a logarithm and an arctangent correct to about an ulp and the coordinate ranges of C58: at every exterior point the ten computed gravity functions are finite and within the bounds of C58 of Newton's volume integral of the exact point source's function over the prism; at every point of the closed prism the computed potential and acceleration are within them of the improper integral; the computed magnetic field and gradiometry are, outside, within the bounds of C59 of the volume integral of the dipole field and of mu0/(4 pi) times that of the third-order point kernels dotted with the magnetization.", "quantifier": "all double-precision prisms, points, densities and magnetizations in the stated ranges, all C libraries close to log/atan", "why_tests_cant": "error bound over all inputs and all libraries, against an integral", "anchors": ["src/choclo/prism/_gravity.py:gravity_pot", "src/choclo/prism/_gravity.py:gravity_u", "src/choclo/prism/_gravity.py:gravity_ee", "src/choclo/prism/_gravity.py:gravity_nu", "src/choclo/prism/_magnetic.py:magnetic_e", "src/choclo/prism/_magnetic.py:magnetic_ee", "src/choclo/point/_forward.py:gravity_u", "src/choclo/dipole/_forward.py:magnetic_e", "src/choclo/point/_kernels.py:kernel_eee"]}
{"id": "C67", "title": "the properties hold of the source text: the Python source, executed statement by statement, computes the modelled functions", "statement": "For every exported function of choclo.utils, choclo.point, choclo.dipole and choclo.prism (and the location predicates), importing it from its package and calling it with floats executes the statements of the source, through all helper calls, branches and loops, to exactly the value, or the ZeroDivisionError, of the modelled function the other properties are about, operation for operation, in real as in binary64 arithmetic.", "quantifier": "all arguments, all scalar arithmetics, all exported functions", "why_tests_cant": "the agreement is between programs, for every input and every branch", "anchors": ["src/choclo/utils.py:distance_spherical", "src/choclo/point/_forward.py:gravity_u", "src/choclo/dipole/_forward.py:magnetic_field", "src/choclo/prism/_gravity.py:gravity_pot", "src/choclo/prism/_gravity.py:_evaluate_kernel", "src/choclo/prism/_magnetic.py:magnetic_field", "src/choclo/prism/_magnetic.py:_calculate_component", "src/choclo/prism/_kernels.py:_safe_log", "src/choclo/prism/_utils.py:is_point_on_edge", "src/choclo/prism/__init__.py"]}
{"id": "C68", "title": "every exported function terminates with a number or ZeroDivisionError", "statement": "Calling any exported function with the right number of floats, whatever they are, ends in a float (magnetic_field and distance_spherical_core: a tuple of three floats; the location predicates: a bool) or in ZeroDivisionError: no unbound name, no wrong argument count between the package's functions, no type error, no infinite recursion, no missing return.", "quantifier": "all exported functions, all float arguments", "why_tests_cant": "quantifies over all inputs and all paths through the source", "anchors": ["src/choclo/prism/__init__.py", "src/choclo/point/__init__.py", "src/choclo/dipole/__init__.py", "src/choclo/utils.py", "src/choclo/point/_kernels.py", "src/choclo/point/_forward.py", "src/choclo/dipole/_forward.py", "src/choclo/prism/_kernels.py", "src/choclo/prism/_gravity.py", "src/choclo/prism/_magnetic.py", "src/choclo/prism/_utils.py"]}
{"id": "C69", "title": "the fields of a body do not depend on how it is cut into prisms", "statement": "If two lists of prisms with densities (overlapping, nested, adjacent, negative densities allowed) describe the same density everywhere except on the planes of their faces, the sums of gravity_pot, gravity_e, gravity_n or gravity_u over the two lists are the same number at every point of space (flat prisms allowed), the sums of each tensor component at every point on no prism's surface, and, for equal magnetizations, the sums of the magnetic field components and of the gradiometry functions at every point outside all prisms; all the calls return finite numbers.", "quantifier": "all pairs of finite lists of prisms with the same density, all points as stated", "why_tests_cant": "quantifies over all pairs of discretisations of all bodies", "anchors": ["src/choclo/prism/_gravity.py:gravity_pot", "src/choclo/prism/_gravity.py:gravity_e", "src/choclo/prism/_gravity.py:gravity_u", "src/choclo/prism/_gravity.py:gravity_ee", "src/choclo/prism/_gravity.py:gravity_nu", "src/choclo/prism/_magnetic.py:magnetic_e", "src/choclo/prism/_magnetic.py:magnetic_ee", "src/choclo/prism/_kernels.py:_safe_log", "src/choclo/prism/_kernels.py:_safe_atan2"]}
{"id": "C70", "title": "a body replaced by point masses or dipoles at the centres of a mesh's cells", "statement": "For a body and any mesh of it whose cells are at least d0 away from the observation point and of diagonal at most h, the sum of a prism gravity function over the body and that of the point source's function over the cells' masses placed at their centres differ by at most G (sum of |mass|) h^2/(k d0^m) ((k,m) = (12,3) for the potential, (4,4) for the acceleration, (1,5) for the tensor), and likewise magnetic_e/n/u of prisms and of dipoles; for a prism cut into n x n x n equal cells the error is at most that of one point divided by n^2.", "quantifier": "all bodies, all meshes of them, all n, all observation points at a positive distance", "why_tests_cant": "all discretisations, of any number of cells", "anchors": ["src/choclo/prism/_gravity.py:gravity_pot", "src/choclo/prism/_gravity.py:gravity_u", "src/choclo/prism/_gravity.py:gravity_uu", "src/choclo/point/_forward.py:gravity_pot", "src/choclo/point/_forward.py:gravity_u", "src/choclo/point/_forward.py:gravity_uu", "src/choclo/prism/_magnetic.py:magnetic_e", "src/choclo/dipole/_forward.py:magnetic_e"]}
{"id": "C71", "title": "prism kernels are the vertex antiderivatives of the point kernels", "statement": "Each of the twenty exported prism kernels, called with the shifted coordinates and distances of the eight vertices of a prism and summed with alternating signs, gives the volume integral over the prism of the exported point kernel with the same indices, at every exterior observation point (those in planes of faces and on lines of edges included); all eight calls return finite numbers.", "quantifier": "all prisms, all exterior points, all twenty kernels", "why_tests_cant": "an integral over uncountably many points for every prism and point", "anchors": ["src/choclo/prism/_kernels.py:kernel_pot", "src/choclo/prism/_kernels.py:kernel_e", "src/choclo/prism/_kernels.py:kernel_ee", "src/choclo/prism/_kernels.py:kernel_en", "src/choclo/prism/_kernels.py:kernel_eee", "src/choclo/prism/_kernels.py:kernel_een", "src/choclo/prism/_kernels.py:kernel_enu", "src/choclo/prism/_kernels.py:_safe_log", "src/choclo/prism/_kernels.py:_safe_atan2", "src/choclo/point/_kernels.py:kernel_pot", "src/choclo/point/_kernels.py:kernel_eee"]}
{"id": "C72", "title": "exact relations between the prism kernels", "statement": "At every nonzero offset: e kernel_e + n kernel_n + u kernel_u = -2 kernel_pot; kernel_i = -(e kernel_ie + n kernel_in + u kernel_iu); Euler's relations for the third order; the third-order kernels are harmonic (kernel_eee + kernel_enn + kernel_euu = 0, ...); kernel_ee + kernel_nn + kernel_uu = -+pi/2 by octant; the third-order kernels are minus the derivatives of the second-order ones with respect to the offset (kernel_ii along every coordinate where offset i is nonzero, kernel_ij along the third everywhere).", "quantifier": "all nonzero offsets", "why_tests_cant": "identities over a continuum of offsets, including every singular line and plane", "anchors": ["src/choclo/prism/_kernels.py:kernel_pot", "src/choclo/prism/_kernels.py:kernel_e", "src/choclo/prism/_kernels.py:kernel_ee", "src/choclo/prism/_kernels.py:kernel_en", "src/choclo/prism/_kernels.py:kernel_eee", "src/choclo/prism/_kernels.py:kernel_een", "src/choclo/prism/_kernels.py:kernel_enu", "src/choclo/prism/_kernels.py:_kernel_iii", "src/choclo/prism/_kernels.py:_kernel_iij", "src/choclo/prism/_kernels.py:_safe_log", "src/choclo/prism/_kernels.py:_safe_atan2"]}
{"id": "C73", "title": "the potential of a prism grows towards its centre", "statement": "For a positive density, if one observation point is coordinate by coordinate at most as far from the centre of the prism as another, its gravity_pot is at least as large, and strictly larger if strictly closer in one coordinate, wherever the points are; the centre is the unique maximum of the potential.", "quantifier": "all prisms with nonzero sides, all pairs of points", "why_tests_cant": "monotonicity over all pairs of points", "anchors": ["src/choclo/prism/_gravity.py:gravity_pot", "src/choclo/prism/_gravity.py:gravity_e", "src/choclo/prism/_kernels.py:kernel_pot"]}
{"id": "C74", "title": "integer arguments", "statement": "Each exported function, called with ints for some or all of its arguments, gives what it gives for the same numbers as floats, provided the ints are within a stated limit for that function and argument (800 million for the coordinates of all gravity functions and of the magnetic field of prisms, any int64 for mass, density and magnetization, 19000 for the coordinates in magnetic_ee/nn/uu, ...): no intermediate int64 overflows. Beyond the limit it can fail: magnetic_ee of a 100 m cube at int offsets of 65536 m raises ZeroDivisionError, as floats it returns a number.", "quantifier": "all exported functions, all mixtures of ints and floats within the limits", "why_tests_cant": "all combinations of argument types and sizes, through all paths of the source", "anchors": ["src/choclo/utils.py:distance_cartesian", "src/choclo/point/_forward.py:gravity_u", "src/choclo/point/_kernels.py:kernel_eee", "src/choclo/dipole/_forward.py:magnetic_field", "src/choclo/prism/_kernels.py:_kernel_iii", "src/choclo/prism/_kernels.py:_kernel_iij", "src/choclo/prism/_gravity.py:_evaluate_kernel", "src/choclo/prism/_magnetic.py:_calculate_component"]}
{"id": "C75", "title": "the mass of a body from its gravity on a plane", "statement": "The integral of gravity_u of a body (a list of prisms with densities) over a square window of a horizontal plane nowhere below the body tends to -2 pi G times the mass of the body as the window grows, wherever it is centred; for a window with margin d around a body at most h deep the error is at most G (sum of |mass|) 2 h (width + length) / d^2. For one prism the same holds with the plane below, with the opposite sign, and for a point mass.", "quantifier": "all bodies, planes at or above their tops, all windows with a positive margin", "why_tests_cant": "an integral over uncountably many points, for every body and window", "anchors": ["src/choclo/prism/_gravity.py:gravity_u", "src/choclo/point/_forward.py:gravity_u", "src/choclo/prism/_kernels.py:kernel_u", "src/choclo/prism/_kernels.py:_safe_log", "src/choclo/prism/_kernels.py:_safe_atan2"]}
{"id": "C76", "title": "Numba disabled: the same numbers, and never an exception from the field functions", "statement": "With NUMBA_DISABLE_JIT=1 the source is executed by CPython on Python floats and NumPy scalars. In exact arithmetic, for every exported function and all float arguments (Python or NumPy): where the compiled function returns a value the interpreted one returns the same numbers; the distance, gravity and magnetic functions and the location predicates never raise (dividing by a NumPy zero gives an infinity or NaN), the kernels return a number or raise ZeroDivisionError. At the position of a point mass the compiled gravity_pot raises and the interpreted one returns infinity.", "quantifier": "all exported functions, all float arguments, all results NumPy may give for divisions by zero", "why_tests_cant": "quantifies over all inputs and all paths through the source, in two execution modes", "anchors": ["src/choclo/utils.py:distance_spherical", "src/choclo/point/_forward.py:gravity_pot", "src/choclo/point/_kernels.py:kernel_pot", "src/choclo/dipole/_forward.py:magnetic_field", "src/choclo/prism/_kernels.py:_safe_log", "src/choclo/prism/_kernels.py:_kernel_iii", "src/choclo/prism/_gravity.py:_evaluate_kernel", "src/choclo/prism/_magnetic.py:_calculate_component", "Makefile:test-coverage"]}
{"id": "C77", "title": "double precision: only coordinate differences matter", "statement": "In IEEE binary64, with any log and arctan: two configurations of observation point and source (point, dipole or prism) whose computed coordinate differences have the same bits give the same bits and exceptions in every function, location tests included. In particular moving the observation point and the source by the same displacement changes no bit of any result whenever the moved coordinates are representable (e.g. integers up to 2^53 moved by an integer).", "quantifier": "all binary64 inputs (prisms: all finite ones), all displacements", "why_tests_cant": "quantifies over all pairs of inputs and all math libraries", "anchors": ["src/choclo/utils.py:distance_cartesian", "src/choclo/point/_forward.py:gravity_pot", "src/choclo/point/_kernels.py:kernel_eee", "src/choclo/dipole/_forward.py:magnetic_field", "src/choclo/prism/_gravity.py:_evaluate_kernel", "src/choclo/prism/_magnetic.py:_calculate_component", "src/choclo/prism/_utils.py:is_point_on_edge"]}
{"id": "C78", "title": "double precision: farther is never stronger for point sources", "statement": "In IEEE binary64: if no coordinate gap shrinks, the computed distance does not decrease (over the whole finite range), the computed |gravity_pot| of a point mass does not increase, and, if the gap along the component is unchanged, neither does the computed |gravity_e|, |gravity_n| or |gravity_u|; rounding, overflow and underflow included (a NaN from zero times overflow excepted), and the farther call does not raise unless the nearer does.", "quantifier": "all finite binary64 coordinates and masses", "why_tests_cant": "monotonicity over all pairs of inputs, through all rounding errors", "anchors": ["src/choclo/utils.py:distance_cartesian", "src/choclo/point/_forward.py:gravity_pot", "src/choclo/point/_forward.py:gravity_e", "src/choclo/point/_forward.py:gravity_n", "src/choclo/point/_forward.py:gravity_u", "src/choclo/point/_kernels.py:kernel_pot", "src/choclo/point/_kernels.py:kernel_u"]}
{"id": "C79", "title": "action and reaction: mutual gravitational forces and energy of bodies of prisms", "statement": "For any two bodies made of prisms (each prism with its own density), the integral over the second body of its density times gravity_e (or gravity_n, gravity_u) of the first is exactly the opposite of the integral over the first body of its density times the same field of the second; the same integrals of the potential are equal. Hence a body exerts no net force on itself. This holds whether the bodies are apart, touch, overlap or share prisms.", "quantifier": "all finite lists of prisms with west<east, south<north, bottom<top and all real densities; all four functions gravity_pot, gravity_e, gravity_n, gravity_u; exact real arithmetic", "why_tests_cant": "the claim is about integrals over continua of observation points, for all pairs of bodies; a test can only compare quadratures at a few points within tolerances", "anchors": ["src/choclo/prism/_gravity.py:gravity_pot", "src/choclo/prism/_gravity.py:gravity_e", "src/choclo/prism/_gravity.py:gravity_n", "src/choclo/prism/_gravity.py:gravity_u", "src/choclo/prism/_kernels.py:kernel_pot", "src/choclo/prism/_kernels.py:kernel_e", "src/choclo/prism/_kernels.py:kernel_n", "src/choclo/prism/_kernels.py:kernel_u", "src/choclo/prism/_kernels.py:_safe_log", "src/choclo/prism/_kernels.py:_safe_atan2"]}
{"id": "C80", "title": "action and reaction between magnetized bodies", "statement": "For two magnetized bodies made of prisms that have no point in common, the integral over the second of its magnetization dotted with (magnetic_e, magnetic_n, magnetic_u) of the first equals the integral over the first of its magnetization dotted with the field of the second (mutual energy), and the forces computed from the gradiometry functions (easting: magnetic_ee, magnetic_en, magnetic_eu; northing: magnetic_en, magnetic_nn, magnetic_nu; upward: magnetic_eu, magnetic_nu, magnetic_uu) are exactly opposite.", "quantifier": "all finite lists of prisms with all real magnetization vectors, the two lists sharing no point (prisms of one list may overlap); exact real arithmetic", "why_tests_cant": "integrals over continua of observation points, for all pairs of bodies", "anchors": ["src/choclo/prism/_magnetic.py:magnetic_e", "src/choclo/prism/_magnetic.py:magnetic_n", "src/choclo/prism/_magnetic.py:magnetic_u", "src/choclo/prism/_magnetic.py:magnetic_ee", "src/choclo/prism/_magnetic.py:magnetic_nn", "src/choclo/prism/_magnetic.py:magnetic_uu", "src/choclo/prism/_magnetic.py:magnetic_en", "src/choclo/prism/_magnetic.py:magnetic_eu", "src/choclo/prism/_magnetic.py:magnetic_nu", "src/choclo/prism/_magnetic.py:_calculate_component", "src/choclo/prism/_kernels.py:kernel_ee", "src/choclo/prism/_kernels.py:kernel_eee", "src/choclo/prism/_kernels.py:kernel_een", "src/choclo/prism/_kernels.py:kernel_enu"]}
{"id": "C81", "title": "the field of a body determines its density", "statement": "Two bodies made of prisms have the same summed gravity_pot at every observation point if and only if they have the same density at every point off the planes bounding their prisms; the same holds for each one of gravity_e, gravity_n and gravity_u alone. The potential in an arbitrarily small neighbourhood of a point determines the density there, and the trace of the summed tensor is -4 pi G times the density at every point off the prisms' surfaces.", "quantifier": "all finite lists of prisms of positive volume (possibly overlapping) with all real densities; all observation points; exact real arithmetic", "why_tests_cant": "uniqueness over all pairs of bodies, from the values at a continuum of points", "anchors": ["src/choclo/prism/_gravity.py:gravity_pot", "src/choclo/prism/_gravity.py:gravity_e", "src/choclo/prism/_gravity.py:gravity_n", "src/choclo/prism/_gravity.py:gravity_u", "src/choclo/prism/_gravity.py:gravity_ee", "src/choclo/prism/_gravity.py:gravity_nn", "src/choclo/prism/_gravity.py:gravity_uu", "src/choclo/prism/_gravity.py:_evaluate_kernel"]}
{"id": "C82", "title": "boundaries given in the wrong order", "statement": "If two opposite boundaries of a prism are given in the wrong order (west and east, south and north, or bottom and top exchanged) nothing is raised: gravity_pot, gravity_e, gravity_n and gravity_u return exactly the negative of the correct value at every point; the six tensor functions do so off the planes of the faces, the nine magnetic functions do so off these planes and outside. At points between reversed boundaries the magnetic functions return a finite number where the right order gives NaN.", "quantifier": "all real boundaries in any order, all observation points (with the stated exclusions), all densities and magnetizations; exact real arithmetic", "why_tests_cant": "two calls compared over a continuum of points and boundaries", "anchors": ["src/choclo/prism/_gravity.py:_evaluate_kernel", "src/choclo/prism/_gravity.py:gravity_pot", "src/choclo/prism/_gravity.py:gravity_ee", "src/choclo/prism/_magnetic.py:_calculate_component", "src/choclo/prism/_magnetic.py:magnetic_e", "src/choclo/prism/_magnetic.py:magnetic_ee", "src/choclo/prism/_utils.py:is_interior_point", "src/choclo/prism/_utils.py:is_point_on_edge"]}
{"id": "C83", "title": "continuity of the tensor, and its jump across faces", "statement": "gravity_ee is continuous at every point that is not on the closed east or west face of the prism (gravity_nn: north or south, gravity_uu: top or bottom), also inside and on the other faces; gravity_en, gravity_eu and gravity_nu are continuous at every point not on the edges parallel to the upward, northing and easting axis. Crossing an open face from outside to inside, the component along its normal jumps by exactly -4 pi G density, and the value returned on the face is the one from outside.", "quantifier": "all real prisms with west < east, south < north, bottom < top, all observation points (with the stated exclusions), all directions of approach, all densities; exact real arithmetic", "why_tests_cant": "limits over a continuum of approaching points, at the singular planes of the kernels", "anchors": ["src/choclo/prism/_gravity.py:gravity_ee", "src/choclo/prism/_gravity.py:gravity_nn", "src/choclo/prism/_gravity.py:gravity_uu", "src/choclo/prism/_gravity.py:gravity_en", "src/choclo/prism/_gravity.py:gravity_eu", "src/choclo/prism/_gravity.py:gravity_nu", "src/choclo/prism/_kernels.py:kernel_ee", "src/choclo/prism/_kernels.py:_safe_atan2", "src/choclo/prism/_utils.py:is_point_on_east_face"]}
{"id": "C84", "title": "point sources and dipoles do not depend on the orientation of the axes", "statement": "Rotating or reflecting, and translating, the source and the observation point together (and the moment, for a dipole) leaves gravity_pot of a point mass as it is, rotates the vector (gravity_e, gravity_n, gravity_u), transforms the six tensor functions as a second-order tensor and the ten third-order kernels as a third-order tensor, and rotates the dipole's (magnetic_e, magnetic_n, magnetic_u).", "quantifier": "all orthogonal 3x3 matrices, all translations, all pairs of distinct points, all masses and moments; exact real arithmetic", "why_tests_cant": "relates infinitely many pairs of calls, for a continuum of rotations", "anchors": ["src/choclo/point/_forward.py:gravity_pot", "src/choclo/point/_forward.py:gravity_e", "src/choclo/point/_forward.py:gravity_ee", "src/choclo/point/_forward.py:gravity_en", "src/choclo/point/_kernels.py:kernel_eee", "src/choclo/point/_kernels.py:kernel_een", "src/choclo/point/_kernels.py:kernel_enu", "src/choclo/dipole/_forward.py:magnetic_e", "src/choclo/dipole/_forward.py:magnetic_n", "src/choclo/dipole/_forward.py:magnetic_u"]}
{"id": "C85", "title": "derivatives of a prism's fields in its boundaries", "statement": "At a point outside the prism, moving one boundary of the prism changes gravity_pot, the attraction, the tensor and the magnetic field at a rate equal to the integral, over the face that moves, of the same quantity for a point mass of that density (or a dipole of that magnetization), with the sign of the change of volume.", "quantifier": "all proper prisms, all points outside the closed prism (including those in the planes of faces), all densities and magnetizations, six boundaries, thirteen functions; exact real arithmetic", "why_tests_cant": "limits and surface integrals over a continuum of calls", "anchors": ["src/choclo/prism/_gravity.py:gravity_pot", "src/choclo/prism/_gravity.py:gravity_e", "src/choclo/prism/_gravity.py:gravity_ee", "src/choclo/prism/_gravity.py:gravity_en", "src/choclo/prism/_magnetic.py:magnetic_e", "src/choclo/prism/_magnetic.py:magnetic_n", "src/choclo/prism/_magnetic.py:magnetic_u", "src/choclo/point/_forward.py:gravity_pot", "src/choclo/dipole/_forward.py:magnetic_e"]}
{"id": "C86", "title": "exterior fields of a prism come from sheets on its faces", "statement": "At a point outside the prism, the attraction is the difference of the potentials of sheets of point masses on opposite faces (surface density numerically equal to the density); the tensor is the difference of the sheets' attractions; and the magnetic field is that of the magnetic charges M . n on the six faces.", "quantifier": "all proper prisms, all points outside the closed prism, all densities and magnetizations; exact real arithmetic", "why_tests_cant": "surface integrals over a continuum of calls, for every prism", "anchors": ["src/choclo/prism/_gravity.py:gravity_e", "src/choclo/prism/_gravity.py:gravity_n", "src/choclo/prism/_gravity.py:gravity_u", "src/choclo/prism/_gravity.py:gravity_ee", "src/choclo/prism/_gravity.py:gravity_en", "src/choclo/prism/_magnetic.py:magnetic_e", "src/choclo/prism/_magnetic.py:magnetic_n", "src/choclo/prism/_magnetic.py:magnetic_u", "src/choclo/point/_forward.py:gravity_pot", "src/choclo/point/_forward.py:gravity_e", "src/choclo/point/_kernels.py:kernel_e"]}
{"id": "C87", "title": "denser and larger bodies attract more", "statement": "Of two bodies of prisms, if one is at least as dense everywhere, its summed gravity_pot is at least as large at every observation point (on, inside or outside the prisms), and strictly larger if the densities differ somewhere. For a component of the attraction the same holds when the excess density lies on its positive side (and the deficit on its negative side). In particular enlarging a prism of positive density strictly increases its potential everywhere, and its attraction at points that have the enlarged prism on one side.", "quantifier": "all pairs of finite bodies of prisms (overlaps and negative densities allowed), all observation points, four functions; exact real arithmetic", "why_tests_cant": "compares infinitely many pairs of bodies at every observation point, including points inside, where the formulas are sums of cancelling terms", "anchors": ["src/choclo/prism/_gravity.py:gravity_pot", "src/choclo/prism/_gravity.py:gravity_e", "src/choclo/prism/_gravity.py:gravity_n", "src/choclo/prism/_gravity.py:gravity_u"]}
{"id": "C88", "title": "double precision: mirror images and exchanged horizontal axes", "statement": "For all binary64 inputs, negating one, two or three axes (both points, and the dipole's moment) changes each point kernel, point gravity and dipole result only by the sign its indices give it (up to the sign of a zero) and keeps the exceptions; and exchanging easting with northing gives the same bits with the indices exchanged, for every function except gravity_en and kernel_en/kernel_enu, whose products round in a different order.", "quantifier": "all binary64 inputs including NaN and infinities, eight combinations of mirrored axes, twenty kernels, ten gravity functions, four dipole functions", "why_tests_cant": "2^448 inputs; rounding could break the symmetry anywhere, and does for gravity_en", "anchors": ["src/choclo/utils.py:distance_cartesian", "src/choclo/point/_kernels.py:kernel_e", "src/choclo/point/_kernels.py:kernel_ee", "src/choclo/point/_kernels.py:kernel_en", "src/choclo/point/_kernels.py:kernel_een", "src/choclo/point/_kernels.py:kernel_enu", "src/choclo/point/_forward.py:gravity_pot", "src/choclo/point/_forward.py:gravity_e", "src/choclo/point/_forward.py:gravity_eu", "src/choclo/dipole/_forward.py:magnetic_e", "src/choclo/dipole/_forward.py:magnetic_n", "src/choclo/dipole/_forward.py:magnetic_u", "src/choclo/dipole/_forward.py:magnetic_field"]}
{"id": "C89", "title": "with Numba disabled, in double precision", "statement": "Run by the Python interpreter on doubles, the distance, field and location functions return a result or raise OverflowError, whatever the arguments (never ZeroDivisionError); with NumPy floats, whatever their values, no function raises; with finite arguments of size at most 2^510 the field functions do not raise, and with at most 2^145 the kernels return a number or raise ZeroDivisionError. distance_cartesian of Python floats raises OverflowError exactly when the square of a coordinate difference overflows, where the compiled function returns a float.", "quantifier": "all binary64 arguments, each a Python or a NumPy float, every importable function, every platform (zero division, pow)", "why_tests_cant": "All doubles, and what CPython does depends on whether each intermediate is a Python or NumPy float", "anchors": ["src/choclo/utils.py:distance_cartesian", "src/choclo/utils.py:distance_spherical", "src/choclo/point/_forward.py:gravity_pot", "src/choclo/point/_kernels.py:kernel_e", "src/choclo/dipole/_forward.py:magnetic_field", "src/choclo/prism/_gravity.py:gravity_pot", "src/choclo/prism/_magnetic.py:magnetic_field", "src/choclo/prism/_kernels.py:kernel_pot"]}
{"id": "C90", "title": "integer arguments in double precision", "statement": "In double precision, passing whole numbers as ints gives what passing them as floats gives (the same exception, the same boolean, or the same doubles up to the sign of a zero), as long as each int is within a stated bound for that function and argument. The sign of zero can differ: kernel_e right above its source is 0.0 for ints and -0.0 for floats. Beyond the bounds the values can differ too: 2**53 + 1 is not a double.", "quantifier": "all functions that can be imported, all arguments each an int within its bound or any double (infinite and NaN included), all implementations of log, arctan, cos, sin that ignore the sign of zero", "why_tests_cant": "All ints up to bounds of 10^3 to 10^19, all doubles for the others, each mixed freely", "anchors": ["src/choclo/utils.py:distance_cartesian", "src/choclo/utils.py:distance_spherical", "src/choclo/point/_forward.py:gravity_pot", "src/choclo/point/_kernels.py:kernel_e", "src/choclo/dipole/_forward.py:magnetic_field", "src/choclo/prism/_gravity.py:gravity_pot", "src/choclo/prism/_magnetic.py:magnetic_field", "src/choclo/prism/_kernels.py:kernel_pot"]}
{"id": "C91", "title": "double precision: gravity never repels, and grows with the source", "statement": "In double precision, for a mass that is at least zero, gravity_pot of a point mass is never negative and each component of the acceleration is zero or points to the source's side of the observation point (or is NaN, after an overflow or from NaN). For point masses and prisms, all ten gravity functions: with a larger |mass| or |density| the size of the computed field is never smaller, exceptions are the same, and a zero mass or density gives zero (or NaN).", "quantifier": "all doubles (coordinates, boundaries and masses, infinities included), every implementation of log, arctan, cos, sin", "why_tests_cant": "All doubles; rounding, underflow and overflow could each break a sign or an order", "anchors": ["src/choclo/point/_forward.py:gravity_pot", "src/choclo/point/_forward.py:gravity_e", "src/choclo/point/_forward.py:gravity_n", "src/choclo/point/_forward.py:gravity_u", "src/choclo/prism/_gravity.py:gravity_pot", "src/choclo/prism/_gravity.py:gravity_ee", "src/choclo/point/_kernels.py:kernel_e", "src/choclo/utils.py:distance_cartesian"]}
{"id": "C92", "title": "the force between two bodies is the derivative of their energy", "statement": "Move a body B made of prisms relative to a body A, to any displacement. The integral over B of its density times the potential (gravity_pot) of A is a differentiable function of the displacement, and its derivatives to the east, north and up are the integrals over B of its density times A's gravity_e, gravity_n and gravity_u: energy and force computed with the library are consistent, apart, touching or overlapping. The energy of a body and a displaced copy of itself is stationary where they coincide.", "quantifier": "all bodies A and B made of any number of prisms with any densities, all displacements", "why_tests_cant": "Integrals over bodies and derivatives in a displacement, for all bodies", "anchors": ["src/choclo/prism/_gravity.py:gravity_pot", "src/choclo/prism/_gravity.py:gravity_e", "src/choclo/prism/_gravity.py:gravity_n", "src/choclo/prism/_gravity.py:gravity_u"]}
{"id": "C93", "title": "the user guide's np.allclose check of the Jacobian succeeds", "statement": "Compute the forward model of a set of prisms with the user guide's parallel loop, and again as `jacobian @ densities` with the Jacobian built by the guide's build_jacobian, both in binary64. Whatever the schedules of the two loops and whatever order NumPy/BLAS uses for the product (any grouping, several accumulators, fused multiply-add), the two results differ by at most an explicit rounding bound, and for ordinary sizes (gaps between 2^-32 m and 2^32 m, at most 2^20 prisms, distance times the sum of |densities| at most 2^42, attractions adding up to at most 4 m/s^2) `np.allclose(g_u, expected)` with its default tolerances is True.", "quantifier": "all point and prism arrays and densities of those sizes, all schedules of both parallel loops, all orders of summation of the matrix product, all library log/arctan accurate to 2^-52", "why_tests_cant": "A notebook run checks one model on one machine; it does not show that the check succeeds for other models, thread schedules or BLAS libraries.", "anchors": ["doc/user_guide/jacobian.rst:build_jacobian", "doc/user_guide/how-to-use.rst:gravity_upward_parallel", "src/choclo/prism/_gravity.py:gravity_u"]}
{"id": "C94", "title": "Numba disabled gives the doubles that compiled code gives", "statement": "In IEEE-754 double precision, for every public function and any float arguments (Python floats or NumPy float64, NaN and infinities included): if the compiled function returns a result, then with Numba disabled it returns the same doubles up to the sign of zero (or the same bool, or a tuple of the same doubles), or raises OverflowError. It does not raise when called with NumPy floats, nor with Python floats of size at most 2^510 (kernels: 2^145). This holds if the C library's pow gives the double that repeated multiplication gives for the exponents the package uses: only squares for the prism functions and the distances, where it means that squares are correctly rounded; and if no two arguments are the same NaN object.", "quantifier": "every public function, every list of doubles, every mixture of Python and NumPy floats, every platform whose pow agrees with repeated multiplication", "why_tests_cant": "tests compare the two modes on a few arguments, within a tolerance; equality of every rounding, comparison and branch for all doubles needs a simulation argument over the program text", "anchors": ["src/choclo/utils.py:distance_cartesian", "src/choclo/prism/_gravity.py:gravity_u", "src/choclo/prism/_magnetic.py:magnetic_field", "src/choclo/prism/_kernels.py:kernel_nn", "src/choclo/dipole/_forward.py:magnetic_field", "src/choclo/point/_forward.py:gravity_e", "Makefile:test-coverage"]}
{"id": "C95", "title": "A very long prism is two-dimensional, with a bound on the end effects", "statement": "At a point outside a prism that lies strictly between its two ends in northing (at distances l and m from them), the attraction across the prism, the e/u part of the gravity gradient tensor and the magnetic field returned by the prism functions are those of the same cross section made of infinite lines of mass parallel to the northing axis, up to G |rho| A D/2 (1/l^2 + 1/m^2) for the attraction (A area of the cross section, D a bound of the offsets to it) and G |rho| A 3/2 (1/l^2 + 1/m^2) for the tensor (mu0/(4 pi) (|me|+|mn|+|mu|) instead of G |rho| for the field); the tensor components that involve northing and the northward magnetic field are 0 up to the same bounds, and the northward attraction is at most G |rho| A |1/l - 1/m|. In particular the results converge to the 2D ones as the prism gets longer.", "quantifier": "every prism, every exterior point strictly between its ends in northing, every density and magnetization", "why_tests_cant": "It is a limit statement with an explicit rate over all lengths, positions and cross sections; a test compares one long prism with one 2D formula.", "anchors": ["src/choclo/prism/_gravity.py:gravity_e", "src/choclo/prism/_gravity.py:gravity_n", "src/choclo/prism/_gravity.py:gravity_u", "src/choclo/prism/_gravity.py:gravity_ee", "src/choclo/prism/_gravity.py:gravity_nn", "src/choclo/prism/_gravity.py:gravity_uu", "src/choclo/prism/_gravity.py:gravity_en", "src/choclo/prism/_gravity.py:gravity_eu", "src/choclo/prism/_gravity.py:gravity_nu", "src/choclo/prism/_magnetic.py:magnetic_e", "src/choclo/prism/_magnetic.py:magnetic_n", "src/choclo/prism/_magnetic.py:magnetic_u"]}
{"id": "C96", "title": "The user guide's functions, run from their source text, compute the sums and the Jacobian they promise, under every schedule", "statement": "Take the functions of the user guide literally: gravity_upward_slow, gravity_upward_jit and gravity_upward_parallel of how-to-use.rst and build_jacobian and gravity_upward_parallel of jacobian.rst, reading the coordinates from three arrays of length n, the prisms from an (m, 6) array and the densities from an array of length m, anywhere in memory. Each of them returns a new float64 array and changes nothing else: element i of the forward functions is the left-to-right sum from 0.0 over the prisms j of what gravity_u returns for point i and prism j, and element (i, j) of build_jacobian is what gravity_u returns for density 1.0 (whatever np.empty found in memory). The parallel versions have exactly this one outcome under every interleaving of their iterations, none of which runs for ever, and it is the outcome with parallel=True removed. No element outside an array is ever read or written. In double precision no call raises, for any coordinates, prisms and densities.", "quantifier": "every number of points and prisms, all array contents and placements in memory (including overlapping), any contents of fresh memory, all interleavings of the parallel iterations, any arithmetic", "why_tests_cant": "The schedules of a parallel loop are unboundedly many and a race or an out-of-bounds access in compiled code shows up only on some of them; array sizes are arbitrary.", "anchors": ["doc/user_guide/how-to-use.rst:gravity_upward_slow", "doc/user_guide/how-to-use.rst:gravity_upward_jit", "doc/user_guide/how-to-use.rst:gravity_upward_parallel", "doc/user_guide/jacobian.rst:build_jacobian", "doc/user_guide/jacobian.rst:gravity_upward_parallel", "src/choclo/prism/_gravity.py:gravity_u"]}
{"id": "C97", "title": "Fields in free space have no extremes except on the boundary, and are determined by their boundary values", "statement": "Take a box of space free of sources, and any field in it: one of the ten prism gravity functions or nine prism magnetic functions summed over prisms outside the box, one of the ten point gravity functions summed over point masses outside, one of the three dipole functions summed over dipoles outside, or sums and multiples of such fields. The field is defined in the whole box and lies between any bounds it obeys on the box's boundary; two such fields that agree on the boundary agree inside (so equivalent sources that reproduce the field all around a volume reproduce it inside); the length of a vector of three such fields, such as the attraction or the magnetic field, is largest on the boundary; and no interior point is a strict local maximum or minimum (Earnshaw: no stable equilibrium in free space).", "quantifier": "every box, every finite set of prisms, point masses and dipoles outside it with densities, masses and moments of any sign, every component function, every point of the box", "why_tests_cant": "A statement about the extremes of a function over a continuum of points and about all source configurations; sampled values cannot establish it.", "anchors": ["src/choclo/prism/_gravity.py:gravity_pot", "src/choclo/prism/_gravity.py:gravity_e", "src/choclo/prism/_gravity.py:gravity_n", "src/choclo/prism/_gravity.py:gravity_u", "src/choclo/prism/_gravity.py:gravity_ee", "src/choclo/prism/_gravity.py:gravity_nn", "src/choclo/prism/_gravity.py:gravity_uu", "src/choclo/prism/_gravity.py:gravity_en", "src/choclo/prism/_gravity.py:gravity_eu", "src/choclo/prism/_gravity.py:gravity_nu", "src/choclo/prism/_magnetic.py:magnetic_e", "src/choclo/prism/_magnetic.py:magnetic_n", "src/choclo/prism/_magnetic.py:magnetic_u", "src/choclo/prism/_magnetic.py:magnetic_ee", "src/choclo/prism/_magnetic.py:magnetic_nn", "src/choclo/prism/_magnetic.py:magnetic_uu", "src/choclo/prism/_magnetic.py:magnetic_en", "src/choclo/prism/_magnetic.py:magnetic_eu", "src/choclo/prism/_magnetic.py:magnetic_nu", "src/choclo/point/_forward.py:gravity_pot", "src/choclo/point/_forward.py:gravity_e", "src/choclo/point/_forward.py:gravity_n", "src/choclo/point/_forward.py:gravity_u", "src/choclo/point/_forward.py:gravity_ee", "src/choclo/point/_forward.py:gravity_nn", "src/choclo/point/_forward.py:gravity_uu", "src/choclo/point/_forward.py:gravity_en", "src/choclo/point/_forward.py:gravity_eu", "src/choclo/point/_forward.py:gravity_nu", "src/choclo/dipole/_forward.py:magnetic_e", "src/choclo/dipole/_forward.py:magnetic_n", "src/choclo/dipole/_forward.py:magnetic_u"]}
{"id": "C98", "title": "double precision: powers of two pass through exactly", "statement": "In double precision, multiplying every coordinate by a power of two 2^k and the source by 2^j changes no rounding: distance_cartesian is multiplied by exactly 2^k, the point kernels, point gravity functions and dipole functions by exactly 2^j times the power of 2^k their order calls for (raising ZeroDivisionError in the same cases), the magnetic gradients of a prism by exactly 2^(j-k) (NaN in the same cases), and the diagonal of a prism's gravity tensor and the location predicates do not change by one bit. The ten prism gravity functions return exactly 2^j times their old value when the density is multiplied by 2^j and neither value underflows or overflows. Nothing is assumed of the C library's log and arctan.", "quantifier": "every k with |k| <= 40 and j with |j| <= 100, every set of doubles whose coordinates along each axis are equal or between 2^-60 and 2^60 apart, every source zero or between 2^-100 and 2^100; for the density part every coordinates whatever", "why_tests_cant": "Quantifies over all doubles of the stated range; whether an intermediate result rounds differently after scaling depends on the exact order of operations, and samples cannot exclude it.", "anchors": ["src/choclo/utils.py:distance_cartesian", "src/choclo/point/_kernels.py:kernel_pot", "src/choclo/point/_kernels.py:kernel_e", "src/choclo/point/_kernels.py:kernel_ee", "src/choclo/point/_kernels.py:kernel_eee", "src/choclo/point/_kernels.py:kernel_een", "src/choclo/point/_kernels.py:kernel_enu", "src/choclo/point/_forward.py:gravity_pot", "src/choclo/point/_forward.py:gravity_e", "src/choclo/point/_forward.py:gravity_ee", "src/choclo/dipole/_forward.py:magnetic_field", "src/choclo/dipole/_forward.py:magnetic_e", "src/choclo/dipole/_forward.py:magnetic_n", "src/choclo/dipole/_forward.py:magnetic_u", "src/choclo/prism/_gravity.py:gravity_pot", "src/choclo/prism/_gravity.py:gravity_u", "src/choclo/prism/_gravity.py:gravity_ee", "src/choclo/prism/_gravity.py:gravity_nn", "src/choclo/prism/_gravity.py:gravity_uu", "src/choclo/prism/_gravity.py:_evaluate_kernel", "src/choclo/prism/_magnetic.py:magnetic_ee", "src/choclo/prism/_magnetic.py:magnetic_nn", "src/choclo/prism/_magnetic.py:magnetic_uu", "src/choclo/prism/_magnetic.py:magnetic_en", "src/choclo/prism/_magnetic.py:magnetic_eu", "src/choclo/prism/_magnetic.py:magnetic_nu", "src/choclo/prism/_magnetic.py:_calculate_component", "src/choclo/prism/_utils.py:is_interior_point", "src/choclo/prism/_utils.py:is_point_on_edge"]}
{"id": "C99", "title": "user guide functions: arrays whose sizes do not match", "statement": "The user guide's functions size everything by the easting array and the list of prisms. If the northing array, the upward array or the densities are longer, the extra elements are never looked at: the call has exactly the outcome it has with the arrays cut to size, for the interpreted, compiled and parallel versions and build_jacobian, under every schedule. With no points or no prisms nothing is read at all, whatever the other sizes. If there are points and prisms and one of these arrays is shorter, no call returns an array in double precision: under every schedule it comes to the missing element (IndexError in the interpreter, a read outside the array in the compiled functions, where Numba does not check), and no schedule goes on for ever.", "quantifier": "every number of points and prisms, all array sizes and contents, wherever the arrays lie in memory, every schedule; (extra elements) every arithmetic, (missing elements) every choice of the C library's functions", "why_tests_cant": "All sizes and all interleavings; a test of a compiled function that reads outside an array may pass by luck.", "anchors": ["doc/user_guide/how-to-use.rst:gravity_upward_slow", "doc/user_guide/how-to-use.rst:gravity_upward_jit", "doc/user_guide/how-to-use.rst:gravity_upward_parallel", "doc/user_guide/jacobian.rst:build_jacobian", "doc/user_guide/jacobian.rst:gravity_upward_parallel", "src/choclo/prism/_gravity.py:gravity_u"]}
{"id": "C100", "title": "Upward continuation: bounds, uniqueness and errors carry from a plane, or from the surface of a box, to all of free space", "statement": "Fields of finitely many sources (bodies of prisms under any of the ten gravity or nine magnetic functions, point masses under the ten gravity functions, dipoles under the three component functions, and sums and multiples of these) tend to zero far away. If all sources are below a horizontal plane, bounds lo <= 0 <= hi of the field on the plane hold everywhere above it, two such fields (even of different kinds of sources) that differ by at most M on the plane differ by at most M everywhere above it (so fields equal on the plane are equal above), and a vector of three fields is nowhere above longer than its bound on the plane. The same holds outside a box that contains all sources, with the box's surface in place of the plane. The calls return finite numbers throughout these regions.", "quantifier": "all finite collections of sources, all planes above and boxes around them, all observation points of the unbounded region", "why_tests_cant": "equivalent-source processing relies on a fit on a survey plane being a fit in the whole half space; tests compare finitely many points above finitely many sources", "anchors": ["src/choclo/point/_forward.py:gravity_pot", "src/choclo/point/_forward.py:gravity_e", "src/choclo/point/_forward.py:gravity_n", "src/choclo/point/_forward.py:gravity_u", "src/choclo/point/_forward.py:gravity_ee", "src/choclo/point/_forward.py:gravity_nn", "src/choclo/point/_forward.py:gravity_uu", "src/choclo/point/_forward.py:gravity_en", "src/choclo/point/_forward.py:gravity_eu", "src/choclo/point/_forward.py:gravity_nu", "src/choclo/dipole/_forward.py:magnetic_e", "src/choclo/dipole/_forward.py:magnetic_n", "src/choclo/dipole/_forward.py:magnetic_u", "src/choclo/prism/_gravity.py:gravity_pot", "src/choclo/prism/_gravity.py:gravity_e", "src/choclo/prism/_gravity.py:gravity_n", "src/choclo/prism/_gravity.py:gravity_u", "src/choclo/prism/_gravity.py:gravity_ee", "src/choclo/prism/_gravity.py:gravity_nn", "src/choclo/prism/_gravity.py:gravity_uu", "src/choclo/prism/_gravity.py:gravity_en", "src/choclo/prism/_gravity.py:gravity_eu", "src/choclo/prism/_gravity.py:gravity_nu", "src/choclo/prism/_magnetic.py:magnetic_field", "src/choclo/prism/_magnetic.py:magnetic_e", "src/choclo/prism/_magnetic.py:magnetic_n", "src/choclo/prism/_magnetic.py:magnetic_u", "src/choclo/prism/_magnetic.py:magnetic_ee", "src/choclo/prism/_magnetic.py:magnetic_nn", "src/choclo/prism/_magnetic.py:magnetic_uu", "src/choclo/prism/_magnetic.py:magnetic_en", "src/choclo/prism/_magnetic.py:magnetic_eu", "src/choclo/prism/_magnetic.py:magnetic_nu"]}
{"id": "C101", "title": "Equivalent sources: one point mass below each data point fits any data on a level survey, in exactly one way", "statement": "Put one point mass below each of finitely many different data points of a level survey, all at the same depth below it. The sum of the data weighted by their own masses is positive for gravity_pot and negative for gravity_u unless all masses are zero (the sensitivity matrices are definite), so the masses are determined by the potentials, and by the upward accelerations, at the data points; and any prescribed values at the data points are the values of gravity_pot (or of gravity_u) for some masses.", "quantifier": "all finite sets of different data points, all heights and depths, all masses, all data", "why_tests_cant": "the equivalent-source technique the kernels are made for solves this linear system: a survey of any size or shape where it were singular would make it fail, and tests see a few small surveys", "anchors": ["src/choclo/point/_forward.py:gravity_pot", "src/choclo/point/_forward.py:gravity_u", "src/choclo/point/_forward.py:kernel_pot", "src/choclo/point/_forward.py:kernel_u"]}
{"id": "C102", "title": "Finite differences of a field agree with the derivative functions, with a bound, also in double precision", "statement": "Shift the observation point by h along an axis, staying at least d0 away from the source. Then (shifted field - field) / h is within 2 G |mass| / d0^3 * |h| of the acceleration function for gravity_pot, within 6 G |mass| / d0^4 * |h| of the tensor function for the acceleration functions (prisms, with mass = density times volume, and point masses, all components and directions), and within 24 mu0/(4 pi) (|me|+|mn|+|mu|) volume / d0^5 * |h| of the gradiometry function for the prism's magnetic functions. The same holds for the numbers double precision computes for prisms if 2/|h| times the rounding error of the field (C58, C59) and once that of the derivative function are added.", "quantifier": "all prisms with volume and point masses, all points and shifts that stay d0 away, all components and directions; in double precision all inputs in the ranges of C58/C59 and all C libraries close to log/atan", "why_tests_cant": "the project's own tests compare finite differences with the derivative functions at a handful of points and steps and with tolerances found by trial; this bounds the difference for every source, point and step", "anchors": ["src/choclo/prism/_gravity.py:gravity_pot", "src/choclo/prism/_gravity.py:gravity_e", "src/choclo/prism/_gravity.py:gravity_n", "src/choclo/prism/_gravity.py:gravity_u", "src/choclo/prism/_gravity.py:gravity_ee", "src/choclo/prism/_gravity.py:gravity_nn", "src/choclo/prism/_gravity.py:gravity_uu", "src/choclo/prism/_gravity.py:gravity_en", "src/choclo/prism/_gravity.py:gravity_eu", "src/choclo/prism/_gravity.py:gravity_nu", "src/choclo/prism/_magnetic.py:magnetic_field", "src/choclo/prism/_magnetic.py:magnetic_e", "src/choclo/prism/_magnetic.py:magnetic_n", "src/choclo/prism/_magnetic.py:magnetic_u", "src/choclo/prism/_magnetic.py:magnetic_ee", "src/choclo/prism/_magnetic.py:magnetic_nn", "src/choclo/prism/_magnetic.py:magnetic_uu", "src/choclo/prism/_magnetic.py:magnetic_en", "src/choclo/prism/_magnetic.py:magnetic_eu", "src/choclo/prism/_magnetic.py:magnetic_nu", "src/choclo/point/_forward.py:gravity_pot", "src/choclo/point/_forward.py:gravity_e", "src/choclo/point/_forward.py:gravity_n", "src/choclo/point/_forward.py:gravity_u", "src/choclo/point/_forward.py:gravity_ee", "src/choclo/point/_forward.py:gravity_nn", "src/choclo/point/_forward.py:gravity_uu", "src/choclo/point/_forward.py:gravity_en", "src/choclo/point/_forward.py:gravity_eu", "src/choclo/point/_forward.py:gravity_nu"]}
{"id": "C103", "title": "The exported prism kernels are accurate in double precision for every sign of the coordinates", "statement": "Call an exported prism kernel in double precision with coordinates that are zero or between 2^-99 and 2^99 in magnitude (not all zero, any signs) and a radius right to 3.5 * 2^-53, such as sqrt(e**2 + n**2 + u**2) computed in double precision. Nothing is raised and the result is finite; the third order kernels have a relative error of at most 26 * 2^-53 (eee, nnn, uuu), 14 * 2^-53 (een, eeu, enn, nnu, euu, nuu) and 6 * 2^-53 (enu), the diagonal second order kernels (ee, nn, uu) of at most 14 * 2^-53 if the C library's arctangent is right to 2^-52; the kernels with logarithms have an absolute error of at most 7(3p+3) 2^-53 (en, eu, nu), 30(3p+3) 2^-53 distance (e, n, u), 23(3p+4) 2^-53 distance^2 (pot) for coordinates between 2^-p and 2^p.", "quantifier": "all double-precision coordinates in the range, all signs, zeros included (points on axes and in coordinate planes), all radii right to 3.5 * 2^-53, all C libraries close to log/atan", "why_tests_cant": "the kernels have special branches and reformulations for negative coordinates exactly because straightforward formulas cancel there; tests compare a few points, this shows no cancellation and no division by zero for any coordinates", "anchors": ["src/choclo/prism/_kernels.py:kernel_pot", "src/choclo/prism/_kernels.py:kernel_e", "src/choclo/prism/_kernels.py:kernel_n", "src/choclo/prism/_kernels.py:kernel_u", "src/choclo/prism/_kernels.py:kernel_ee", "src/choclo/prism/_kernels.py:kernel_nn", "src/choclo/prism/_kernels.py:kernel_uu", "src/choclo/prism/_kernels.py:kernel_en", "src/choclo/prism/_kernels.py:kernel_eu", "src/choclo/prism/_kernels.py:kernel_nu", "src/choclo/prism/_kernels.py:kernel_eee", "src/choclo/prism/_kernels.py:kernel_nnn", "src/choclo/prism/_kernels.py:kernel_uuu", "src/choclo/prism/_kernels.py:kernel_een", "src/choclo/prism/_kernels.py:kernel_eeu", "src/choclo/prism/_kernels.py:kernel_enn", "src/choclo/prism/_kernels.py:kernel_nnu", "src/choclo/prism/_kernels.py:kernel_euu", "src/choclo/prism/_kernels.py:kernel_nuu", "src/choclo/prism/_kernels.py:kernel_enu", "src/choclo/prism/_kernels.py:_kernel_iii", "src/choclo/prism/_kernels.py:_kernel_iij", "src/choclo/prism/_kernels.py:_safe_log", "src/choclo/prism/_kernels.py:_safe_atan2"]}
{"id": "C104", "title": "The exported prism kernels have the symmetries of the formulas, bit for bit, and their logarithms are monotone", "statement": "Exchanging coordinates exchanges the exported prism kernels of order 1 to 3 to the last bit in double precision (kernel_n at (n, e, u) is kernel_e at (e, n, u), and so on; for kernel_eee, kernel_nnn, kernel_uuu in the orders in which they call their common helper). Negating coordinates gives the same numbers up to the sign that the formula has: each third-order kernel, kernel_enu, kernel_en/eu/nu in the two coordinates of their name, and, if the C library's arctangent is odd and the coordinate times the radius does not vanish, kernel_ee/nn/uu (odd in every coordinate) and kernel_e/n/u (even in their own coordinate). Exactly, kernel_en, kernel_eu and kernel_nu strictly increase with the coordinate missing from their name and with the magnitudes of the other two, on both sides of the observer; in double precision they do not decrease where that coordinate is not negative, for any non-decreasing C library logarithm.", "quantifier": "all double-precision coordinates and radii (NaN, infinities and zeros included for the symmetries), all C libraries (with an odd arctangent or a monotone logarithm where stated), all real coordinates for the exact monotony", "why_tests_cant": "the logarithm is computed by different formulas on the two sides of the observer and the arctangent by cases; tests compare a few points, a missed sign or an exchanged argument in one of 19 kernels shows only for some signs", "anchors": ["src/choclo/prism/_kernels.py:kernel_pot", "src/choclo/prism/_kernels.py:kernel_e", "src/choclo/prism/_kernels.py:kernel_n", "src/choclo/prism/_kernels.py:kernel_u", "src/choclo/prism/_kernels.py:kernel_ee", "src/choclo/prism/_kernels.py:kernel_nn", "src/choclo/prism/_kernels.py:kernel_uu", "src/choclo/prism/_kernels.py:kernel_en", "src/choclo/prism/_kernels.py:kernel_eu", "src/choclo/prism/_kernels.py:kernel_nu", "src/choclo/prism/_kernels.py:kernel_eee", "src/choclo/prism/_kernels.py:kernel_nnn", "src/choclo/prism/_kernels.py:kernel_uuu", "src/choclo/prism/_kernels.py:kernel_een", "src/choclo/prism/_kernels.py:kernel_eeu", "src/choclo/prism/_kernels.py:kernel_enn", "src/choclo/prism/_kernels.py:kernel_nnu", "src/choclo/prism/_kernels.py:kernel_euu", "src/choclo/prism/_kernels.py:kernel_nuu", "src/choclo/prism/_kernels.py:kernel_enu", "src/choclo/prism/_kernels.py:_kernel_iii", "src/choclo/prism/_kernels.py:_kernel_iij", "src/choclo/prism/_kernels.py:_safe_log", "src/choclo/prism/_kernels.py:_safe_atan2"]}
{"id": "C105", "title": "Euler's equation, the invariants of the gravity tensor, and the location of a point mass from one station", "statement": "Point kernels and dipole fields satisfy Euler's homogeneity equation about the source (degree -1, -2, -3 for kernels of order 0, 1, 2; -3, structural index 3, for the components of the dipole field). The gravity vector and tensor that point.gravity_* return at one station determine a non-zero point mass uniquely, by a formula: twice the vector divided by the tensor's eigenvalue along it is the way to the mass. Outside the sources the invariants of the tensor of any body of prisms and point masses satisfy I1 <= 0 and 0 <= -27 I2^2/(4 I1^3) <= 1, with 1 for a single point mass.", "quantifier": "all stations and point masses or dipoles that are not in the same place, all moments; all bodies of prisms and point masses of any densities and all points outside them", "why_tests_cant": "Euler deconvolution and the invariants of gradiometry use products of all the components; a wrong sign or an exchanged component in one function shows only for sources in general position, which tests do not use", "anchors": ["src/choclo/point/_kernels.py:kernel_pot", "src/choclo/point/_kernels.py:kernel_e", "src/choclo/point/_kernels.py:kernel_n", "src/choclo/point/_kernels.py:kernel_u", "src/choclo/point/_kernels.py:kernel_ee", "src/choclo/point/_kernels.py:kernel_nn", "src/choclo/point/_kernels.py:kernel_uu", "src/choclo/point/_kernels.py:kernel_en", "src/choclo/point/_kernels.py:kernel_eu", "src/choclo/point/_kernels.py:kernel_nu", "src/choclo/point/_kernels.py:kernel_eee", "src/choclo/point/_kernels.py:kernel_nnn", "src/choclo/point/_kernels.py:kernel_uuu", "src/choclo/point/_kernels.py:kernel_een", "src/choclo/point/_kernels.py:kernel_eeu", "src/choclo/point/_kernels.py:kernel_nne", "src/choclo/point/_kernels.py:kernel_nnu", "src/choclo/point/_kernels.py:kernel_uue", "src/choclo/point/_kernels.py:kernel_uun", "src/choclo/point/_kernels.py:kernel_enu", "src/choclo/point/_forward.py:gravity_pot", "src/choclo/point/_forward.py:gravity_e", "src/choclo/point/_forward.py:gravity_n", "src/choclo/point/_forward.py:gravity_u", "src/choclo/point/_forward.py:gravity_ee", "src/choclo/point/_forward.py:gravity_nn", "src/choclo/point/_forward.py:gravity_uu", "src/choclo/point/_forward.py:gravity_en", "src/choclo/point/_forward.py:gravity_eu", "src/choclo/point/_forward.py:gravity_nu", "src/choclo/dipole/_forward.py:magnetic_field", "src/choclo/dipole/_forward.py:magnetic_e", "src/choclo/dipole/_forward.py:magnetic_n", "src/choclo/dipole/_forward.py:magnetic_u", "src/choclo/prism/_gravity.py:gravity_pot", "src/choclo/prism/_gravity.py:gravity_e", "src/choclo/prism/_gravity.py:gravity_n", "src/choclo/prism/_gravity.py:gravity_u", "src/choclo/prism/_gravity.py:gravity_ee", "src/choclo/prism/_gravity.py:gravity_nn", "src/choclo/prism/_gravity.py:gravity_uu", "src/choclo/prism/_gravity.py:gravity_en", "src/choclo/prism/_gravity.py:gravity_eu", "src/choclo/prism/_gravity.py:gravity_nu"]}
{"id": "C106", "title": "In double precision: Laplace, Poisson, div B = 0, Poisson's relation and cutting hold to a stated number of rounding errors", "statement": "For the binary64 numbers that the functions return: off the edges the three diagonal components of prism.gravity_* add up to zero outside and on the faces, and to -4 pi G density inside, within 2784 x 2^-53 G |density|; point.gravity_ee + nn + uu is zero within 444 x 2^-53 G |m| / D^3, and so are the Laplacians of the exported point kernels within 384 x 2^-53 / D^3 and 3240 x 2^-53 / D^4; outside and on the faces magnetic_ee + nn + uu of a prism is zero within 2736 x 2^p x 2^-53 mu0/(4 pi) (|me|+|mn|+|mu|); prism.magnetic_e, n, u are mu0/(4 pi G density) times the magnetization applied to the computed gravity tensor within (2136 p + 3368) x 2^-53 mu0/(4 pi)(|me|+|mn|+|mu|); the components of the gravity tensor computed for the two parts of a cut prism add up to the one computed for the whole within 2784 (diagonal) or 2016 (p+1) (others) x 2^-53 G |density|. All of these calls return finite numbers.", "quantifier": "all finite binary64 coordinates and boundaries whose differences are zero or between 2^-p and 2^p (0 <= p <= 100), all ordinary masses, densities and magnetizations, all observation points off the edges (off the cut), and every math library whose log and atan are as accurate as stated", "why_tests_cant": "the tests compare the sum of the diagonal with zero at a few points with a tolerance found by trial; here it is a bound for every input, and the functions are computed independently of one another so that nothing but their mathematics makes them agree", "anchors": ["src/choclo/prism/_gravity.py:gravity_pot", "src/choclo/prism/_gravity.py:gravity_e", "src/choclo/prism/_gravity.py:gravity_n", "src/choclo/prism/_gravity.py:gravity_u", "src/choclo/prism/_gravity.py:gravity_ee", "src/choclo/prism/_gravity.py:gravity_nn", "src/choclo/prism/_gravity.py:gravity_uu", "src/choclo/prism/_gravity.py:gravity_en", "src/choclo/prism/_gravity.py:gravity_eu", "src/choclo/prism/_gravity.py:gravity_nu", "src/choclo/prism/_magnetic.py:magnetic_field", "src/choclo/prism/_magnetic.py:magnetic_e", "src/choclo/prism/_magnetic.py:magnetic_n", "src/choclo/prism/_magnetic.py:magnetic_u", "src/choclo/prism/_magnetic.py:magnetic_ee", "src/choclo/prism/_magnetic.py:magnetic_nn", "src/choclo/prism/_magnetic.py:magnetic_uu", "src/choclo/prism/_magnetic.py:magnetic_en", "src/choclo/prism/_magnetic.py:magnetic_eu", "src/choclo/prism/_magnetic.py:magnetic_nu", "src/choclo/prism/_kernels.py:kernel_pot", "src/choclo/prism/_kernels.py:kernel_e", "src/choclo/prism/_kernels.py:kernel_n", "src/choclo/prism/_kernels.py:kernel_u", "src/choclo/prism/_kernels.py:kernel_ee", "src/choclo/prism/_kernels.py:kernel_nn", "src/choclo/prism/_kernels.py:kernel_uu", "src/choclo/prism/_kernels.py:kernel_en", "src/choclo/prism/_kernels.py:kernel_eu", "src/choclo/prism/_kernels.py:kernel_nu", "src/choclo/prism/_kernels.py:kernel_eee", "src/choclo/prism/_kernels.py:kernel_nnn", "src/choclo/prism/_kernels.py:kernel_uuu", "src/choclo/prism/_kernels.py:kernel_een", "src/choclo/prism/_kernels.py:kernel_eeu", "src/choclo/prism/_kernels.py:kernel_enn", "src/choclo/prism/_kernels.py:kernel_nnu", "src/choclo/prism/_kernels.py:kernel_euu", "src/choclo/prism/_kernels.py:kernel_nuu", "src/choclo/prism/_kernels.py:kernel_enu", "src/choclo/point/_forward.py:gravity_pot", "src/choclo/point/_forward.py:gravity_e", "src/choclo/point/_forward.py:gravity_n", "src/choclo/point/_forward.py:gravity_u", "src/choclo/point/_forward.py:gravity_ee", "src/choclo/point/_forward.py:gravity_nn", "src/choclo/point/_forward.py:gravity_uu", "src/choclo/point/_forward.py:gravity_en", "src/choclo/point/_forward.py:gravity_eu", "src/choclo/point/_forward.py:gravity_nu", "src/choclo/point/_kernels.py:kernel_pot", "src/choclo/point/_kernels.py:kernel_e", "src/choclo/point/_kernels.py:kernel_n", "src/choclo/point/_kernels.py:kernel_u", "src/choclo/point/_kernels.py:kernel_ee", "src/choclo/point/_kernels.py:kernel_nn", "src/choclo/point/_kernels.py:kernel_uu", "src/choclo/point/_kernels.py:kernel_en", "src/choclo/point/_kernels.py:kernel_eu", "src/choclo/point/_kernels.py:kernel_nu", "src/choclo/point/_kernels.py:kernel_eee", "src/choclo/point/_kernels.py:kernel_nnn", "src/choclo/point/_kernels.py:kernel_uuu", "src/choclo/point/_kernels.py:kernel_een", "src/choclo/point/_kernels.py:kernel_eeu", "src/choclo/point/_kernels.py:kernel_nne", "src/choclo/point/_kernels.py:kernel_nnu", "src/choclo/point/_kernels.py:kernel_uue", "src/choclo/point/_kernels.py:kernel_uun", "src/choclo/point/_kernels.py:kernel_enu"]}
{"id": "C107", "title": "Relative accuracy and sign of the computed gravity of a prism", "statement": "If no point of the prism (volume V, positive density) is further than D from the observation point and the point is at least h beyond a face, the attraction across that face is at least G density V h / D^3 and points to the prism, and the potential is at least G density V / D. In double precision the potential therefore has relative error at most 352 (3p+4) 2^-53 D^3/V and the components at most 576 (3p+3) 2^-53 D^4/(V h), for every density that is not zero; and where these are below one the computed potential is positive and the computed attraction points to the prism, strictly.", "quantifier": "all binary64 coordinates and boundaries whose differences are zero or between 2^-p and 2^p (0 <= p <= 100), all ordinary non-zero densities, all observation points outside the prism, all D and h as described, and every math library whose log and atan are as accurate as stated; the lower bounds for all real prisms and points", "why_tests_cant": "the closed form subtracts nearly equal vertex terms, so far from a small prism the relative error grows like D^4/(V h) and eventually the sign is lost; tests look at a handful of distances and cannot say where the results stop being usable", "anchors": ["src/choclo/prism/_gravity.py:gravity_pot", "src/choclo/prism/_gravity.py:gravity_e", "src/choclo/prism/_gravity.py:gravity_n", "src/choclo/prism/_gravity.py:gravity_u", "src/choclo/prism/_kernels.py:kernel_pot", "src/choclo/prism/_kernels.py:kernel_e"]}
{"id": "C108", "title": "Dipole fields: strength, inversion for the moment, relative accuracy and reciprocity in double precision", "statement": "The vector that dipole.magnetic_* return has length mu0/(4 pi) sqrt(|m|^2 + 3 (m.r)^2)/D^3, r the unit vector from the dipole: between one time (perpendicular to the moment, where the field is opposite to the moment) and twice (exactly on the axis) mu0 |m|/(4 pi D^3). The field at one station gives back the moment of a dipole in a known place by an explicit formula. In double precision each component is within 350 x 2^-53 of the strength of the exact field, the computed field of a non-zero moment is never the zero vector, and the energies of two dipoles in each other's computed fields agree to 400 x 2^-53 mu0/(4 pi) |m1|_1 |m2|_1/D^3.", "quantifier": "all stations, dipoles in another place and moments; in double precision all ordinary coordinates and moments, and every math library", "why_tests_cant": "single components vanish along curves where a relative error per component does not exist, so tests use absolute tolerances; the strength of the vector gives a bound for every direction", "anchors": ["src/choclo/dipole/_forward.py:magnetic_e", "src/choclo/dipole/_forward.py:magnetic_n", "src/choclo/dipole/_forward.py:magnetic_u", "src/choclo/dipole/_forward.py:magnetic_field"]}
{"id": "C109", "title": "Wide and far prisms in double precision: Bouguer slab, point mass and dipole", "statement": "The double that gravity_u returns over, under or inside a prism reaching at least L beyond the point is the attraction 2 pi G density h of a Bouguer slab, and gravity_uu is zero outside and -4 pi G density inside, within the truncation terms (C52) plus 576 (3p+3) 2^-53 G |density| D and 928 x 2^-53 G |density|. The doubles that the potential, attraction and diagonal tensor functions return for a prism at least d0 away are Newton's law for its mass at its centre, and those of the magnetic functions the field of a dipole there, within the size terms (C53) plus the rounding terms of C58 and C59.", "quantifier": "all binary64 coordinates and boundaries whose differences are zero or between 2^-p and 2^p, all ordinary densities and magnetizations, all L, D, d0 as described, and every math library whose log and atan are as accurate as stated", "why_tests_cant": "these limits are how the functions are validated in practice; in double precision neither limit is ever reached: truncation decreases with distance while rounding grows, and no sample of distances shows a bound", "anchors": ["src/choclo/prism/_gravity.py:gravity_u", "src/choclo/prism/_gravity.py:gravity_uu", "src/choclo/prism/_gravity.py:gravity_pot", "src/choclo/prism/_gravity.py:gravity_e", "src/choclo/prism/_gravity.py:gravity_n", "src/choclo/prism/_gravity.py:gravity_ee", "src/choclo/prism/_gravity.py:gravity_nn", "src/choclo/prism/_gravity.py:gravity_en", "src/choclo/prism/_gravity.py:gravity_eu", "src/choclo/prism/_gravity.py:gravity_nu", "src/choclo/prism/_magnetic.py:magnetic_e", "src/choclo/prism/_magnetic.py:magnetic_n", "src/choclo/prism/_magnetic.py:magnetic_u"]}
{"id": "C110", "title": "Gauss's law for whole bodies and sets of sources", "statement": "The flux, out of any box, of the summed gravity_e, gravity_n and gravity_u of any list of prisms (overlapping, touching, cut by the box) is -4 pi G times the mass of the body inside the box; a box that contains the body gives its total mass; two bodies whose summed accelerations agree on the surface of a box have the same mass inside it. For point masses off the surface the flux is -4 pi G times the sum of the masses inside. The summed magnetic field of magnetized prisms that do not meet the surface, or of dipoles off it, has no flux.", "quantifier": "all boxes, all lists (any length) of prisms with volume and densities, of point masses, of magnetized prisms and of dipoles", "why_tests_cant": "a statement about an integral over a closed surface of a sum of arbitrarily many sources; tests sample neither the surface nor the bodies", "anchors": ["src/choclo/prism/_gravity.py:gravity_e", "src/choclo/prism/_gravity.py:gravity_n", "src/choclo/prism/_gravity.py:gravity_u", "src/choclo/point/_forward.py:gravity_e", "src/choclo/point/_forward.py:gravity_n", "src/choclo/point/_forward.py:gravity_u", "src/choclo/prism/_magnetic.py:magnetic_e", "src/choclo/prism/_magnetic.py:magnetic_n", "src/choclo/prism/_magnetic.py:magnetic_u", "src/choclo/dipole/_forward.py:magnetic_e", "src/choclo/dipole/_forward.py:magnetic_n", "src/choclo/dipole/_forward.py:magnetic_u"]}
{"id": "C111", "title": "Computed gravity is proportional to density or mass and adds up, to a few half-units in the last place", "statement": "The doubles v and v' that a gravity function of a prism (a point) returns for two densities (masses) d and d' satisfy |v d' - v' d| <= 5 x 2^-53 |v d'| + 2^-1074 (|d| + |d'|), and the doubles for d, d' and their sum satisfy |v + v' - v''| <= 5 x 2^-53 (|v| + |v'|) + 2^-1073: proportionality and superposition survive rounding to a few half-units of the result itself, even where the result has lost all its digits to cancellation. In particular a Jacobian entry (computed for density or mass 1) times the density is the computed field, to 5 x 2^-53 of it.", "quantifier": "all 20 gravity functions, all binary64 coordinates and boundaries (any size, any order), every math library, all densities or masses that are zero or at least 2^-900 in magnitude, whenever the calls return finite numbers", "why_tests_cant": "the error bound of C58 is absolute, and a test comparing values for two densities passes or fails with the digits lost to cancellation; only the structure of the computation shows that the loss is common to both", "anchors": ["src/choclo/prism/_gravity.py:gravity_pot", "src/choclo/prism/_gravity.py:gravity_e", "src/choclo/prism/_gravity.py:gravity_n", "src/choclo/prism/_gravity.py:gravity_u", "src/choclo/prism/_gravity.py:gravity_ee", "src/choclo/prism/_gravity.py:gravity_nn", "src/choclo/prism/_gravity.py:gravity_uu", "src/choclo/prism/_gravity.py:gravity_en", "src/choclo/prism/_gravity.py:gravity_eu", "src/choclo/prism/_gravity.py:gravity_nu", "src/choclo/point/_forward.py:gravity_pot", "src/choclo/point/_forward.py:gravity_e", "src/choclo/point/_forward.py:gravity_n", "src/choclo/point/_forward.py:gravity_u", "src/choclo/point/_forward.py:gravity_ee", "src/choclo/point/_forward.py:gravity_nn", "src/choclo/point/_forward.py:gravity_uu", "src/choclo/point/_forward.py:gravity_en", "src/choclo/point/_forward.py:gravity_eu", "src/choclo/point/_forward.py:gravity_nu"]}
{"id": "C112", "title": "distance_spherical is a metric on geographic points, and grows with the great-circle distance", "statement": "distance_spherical satisfies the triangle inequality; for positive radii it is zero exactly when radius and latitude agree and the longitudes agree up to whole turns (or the point is a pole); it lies between the difference and the sum of the radii. On one sphere it is 2 r sin(psi/2) for the angle psi between the points, so psi = 2 arcsin(d/2r) and ordering by it is ordering by great-circle distance; along a meridian and along the equator it is the chord of the coordinate difference; with the diametrically opposite point it makes d^2 + d'^2 = 2 (rp^2 + rq^2); it does not change when all longitudes shift, all longitudes are negated, or all latitudes are negated.", "quantifier": "all real longitudes, latitudes (in [-90,90] for the zero case) and radii, in exact arithmetic", "why_tests_cant": "the triangle inequality and the monotonicity quantify over all triples and pairs of points, including poles, antipodes and the date line", "anchors": ["src/choclo/utils.py:distance_spherical", "src/choclo/utils.py:distance_spherical_core"]}
{"id": "C113", "title": "Signs of the gravity tensor of a prism; its attraction weakens away from a face and falls along a profile", "statement": "For a prism of positive density and an observation point outside it: prism_gravity_ee, _nn and _uu are negative when the point lies, along that axis, strictly between the two faces, and positive when the point directly faces the prism along that axis (so prism_gravity_uu is positive above and below the footprint). Along a line that passes beside the prism, the component of the attraction along the line strictly decreases from one face plane to the other. Along a line out of a face, the component across the face strictly weakens in magnitude with distance, from the face itself outwards.", "quantifier": "all proper prisms, positive densities, exterior observation points and pairs of points along such lines, in exact arithmetic", "why_tests_cant": "the signs and the monotonicity hold for every prism and every pair of points of a line; a test checks a grid of points", "anchors": ["src/choclo/prism/_gravity.py:gravity_e", "src/choclo/prism/_gravity.py:gravity_n", "src/choclo/prism/_gravity.py:gravity_u", "src/choclo/prism/_gravity.py:gravity_ee", "src/choclo/prism/_gravity.py:gravity_nn", "src/choclo/prism/_gravity.py:gravity_uu"]}
{"id": "C114", "title": "Between two faces of a prism its attraction decreases across it, inside the prism too", "statement": "For a prism of positive density: at every point strictly between the west and east face planes (inside the prism, on another face, on an edge parallel to the axis, or outside) prism_gravity_ee is negative; likewise prism_gravity_nn between south and north and prism_gravity_uu between bottom and top. Along every line parallel to an axis, through the prism or not, the component of the acceleration along the line strictly decreases from one face plane to the other, both included. Inside the prism each of the three diagonal components lies strictly between -4 pi G density and 0.", "quantifier": "all proper prisms, positive densities, observation points and pairs of points, in exact arithmetic", "why_tests_cant": "a sign that holds for every prism and every point between the faces; a test checks a finite number of points", "anchors": ["src/choclo/prism/_gravity.py:gravity_e", "src/choclo/prism/_gravity.py:gravity_n", "src/choclo/prism/_gravity.py:gravity_u", "src/choclo/prism/_gravity.py:gravity_ee", "src/choclo/prism/_gravity.py:gravity_nn", "src/choclo/prism/_gravity.py:gravity_uu"]}
{"id": "C115", "title": "A prism attracts towards its central planes, everywhere, and its centre is the only point of equilibrium", "statement": "For a prism of positive density and any observation point (outside, on the surface, on an edge, or inside): prism_gravity_e is positive, zero or negative exactly as the point is west of, on, or east of the plane half way between the west and east faces; likewise prism_gravity_n for south and north and prism_gravity_u for bottom and top. All three vanish together only at the centre of the prism.", "quantifier": "all proper prisms, positive densities and observation points, in exact arithmetic", "why_tests_cant": "a sign that holds at every point of space; a test checks a finite number of points", "anchors": ["src/choclo/prism/_gravity.py:gravity_e", "src/choclo/prism/_gravity.py:gravity_n", "src/choclo/prism/_gravity.py:gravity_u"]}
{"id": "C116", "title": "The field of an axially magnetized prism has the direction of the magnetization over its poles and opposes it beside the prism", "statement": "Outside a prism magnetized along one axis, the component of the magnetic field along that axis (magnetic_e, magnetic_n or magnetic_u) has the sign of the magnetization at every point that directly faces one of the two pole faces, and the opposite sign at every point strictly between the two pole planes.", "quantifier": "all proper prisms, nonzero axial magnetizations of either sign and exterior observation points, in exact arithmetic", "why_tests_cant": "a sign that holds for every prism and every point of these regions; a test checks a finite number of points", "anchors": ["src/choclo/prism/_magnetic.py:magnetic_e", "src/choclo/prism/_magnetic.py:magnetic_n", "src/choclo/prism/_magnetic.py:magnetic_u"]}
