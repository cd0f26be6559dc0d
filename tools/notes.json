{
 "C01": "Determinant = mathcomp \\det for matrices of every size over R.",
 "C06": "REFUTED as stated: Tensor3D.__getitem__ checks only the first index, so negative j, k wrap around. Proved: the part that holds (in-range access, everything else outside the wrap range raises) and that every negative index in range wraps.",
 "C08": "REFUTED as stated: Vector.dot does not check sizes and truncates. Proved: equal sizes give the inner product; unequal sizes give the product of the truncations.",
 "C09": "REFUTED in part: the sum is 1 at construction, clamping is correct per weight, but assert_bounds breaks sum = 1 (witness); the error is bounded by the total bound violation.",
 "C11": "All rectangles, scales, fix options and set orders, in exact real arithmetic (int() truncation of the exact quotient).",
 "C18": "REFUTED as stated: inner vertices of a fixed side are Neumann vertices without touching a Neumann edge (proved for every grid with the left side fixed). Proved: exact characterisation, and the half that every end of a Neumann edge is a Neumann vertex (grids with at least one cell in each direction).",
 "C19": "REFUTED in part: unknown names are silently ignored (proved for every unknown name). Proved: order/repetition independence even across different set orders, single name = singleton list.",
 "C20": "Exact real arithmetic; the bounds on coordinates and the None clause need mesh width >= 1e-5 because the containment tolerance 1e-10 is absolute (see C21).",
 "C21": "REFUTED at mesh widths <= 1e-5 (proved for every such grid with at least two columns): the absolute tolerance 1e-10 accepts the first triangle although it does not contain the point. Proved for every mesh width above 1e-5.",
 "C24": "REFUTED in part: symmetry fails because the tolerance is taken from the left operand (witness for every scale). Proved: reflexivity, invariance under every renumbering/reordering, soundness, symmetry for grids of the same rectangle.",
 "C27": "Any triangulated lattice rectangle (all rectangle grids with at least one cell and, by C27_chains, every chain of refinements of them), any factor >= 1, exact real arithmetic; the fine width must be at least 1e-15 (the code's coincidence and assertion tolerances are absolute).",
 "C28": "REFUTED as stated: whenever a side is fixed and the factor is at least 2 the refined grid lacks the inner vertices of the fixed side among its Neumann vertices and == is not True (proved for every such grid; the repository's own test_equilateral_grid_refine exercises such a case). Proved: equality when no side is fixed, and everything except the Neumann vertices always.",
 "C29": "Any triangulated lattice rectangle and factor; exact real arithmetic.",
 "C30": "All fine edges on horizontal or vertical coarse edges, in particular every boundary edge.",
 "C31": "REFUTED: every fine edge on a diagonal coarse edge raises ValueError because the dictionaries hold it in the opposite orientation (proved for every refined grid, and that such edges always exist). Proved: reversed, it is answered correctly; edges on no coarse edge raise ValueError as documented.",
 "C34": "Rules as built by the model of the constructor; polynomials as coefficient lists; integral = iterated Riemann integral (Coquelicot RInt).",
 "C35": "Over exact reals with the decimal literals of the source; checked in Q by vm_compute for all monomials, lifted to all polynomials by linearity.",
 "C36": "Partial: acceptance is characterised exactly (C36_accepted_iff) and constants are right if there are as many weights as points; the code does not check that (C36_length_mismatch_accepted_refuted: weights [1], no points, accepted, integral of 1 is 0).",
 "C37": "numpy's leggauss is an oracle; its exactness on [-1,1] is the hypothesis; gauss1/gauss2 show that the one- and two-point rules meet it.",
 "C38": "Includes exactness over arbitrary triangles for piecewise polynomials and, on the rectangle grid, equality with the iterated integral over the rectangle.",
 "C39": "Also shown: the one-point rule the code uses is not exact for squares (observation).",
 "C40": "Nodal values, affine reproduction, true gradient and shared edges for every grid whose parameters exist at the corners; on every lattice mesh the evaluation is total and the value at a point does not depend on the triangle used.",
 "C41": "Over the reals; for every listing order of the vertices.",
 "C42": "Over the reals; polynomials as finite sums of monomials of total degree <= 4, parameters are the jets (Coquelicot derivatives) at the three vertices.",
 "C43": "First and second partial derivatives (Coquelicot is_derive) of one function of the Euclidean point; every point of the plane has exactly one coordinate triple.",
 "C44": "Element level for arbitrary opposite vertices and listing orders; grid level: on every lattice mesh value and gradient at a point agree for all triangles containing it.",
 "C45": "All three edges and both orientations (via listings); the edge function never fails.",
 "C46": "Value for all triangles including degenerate ones; gradient and Hessian for non-degenerate triangles.",
 "C47": "For every refinement of a lattice mesh whose fine width is at least 1e-15; edges: the axis-parallel ones (other edges are refused or inexact, C31).",
 "C48": "Grids of RectangleDomain with at least one cell; outside: for mesh widths with s^2 >= 1e-10, beyond 2e-10/s.",
 "C49": "The error cases are exact (success otherwise).",
 "C50": "Strains as arbitrary 2x2 matrices; also the blow-up at det F -> 0.",
 "C51": "REFUTED in the 'only' part: the potential also vanishes at [1 0; 0.5 1], which is not a rotation of a documented well (C51_only_wells_refuted). The rest of the property is proved; the exact zero set is C74.",
 "C53": "Directional derivatives along every direction (Coquelicot is_derive), with the gradient returned by the code.",
 "C54": "sp.integrate is modelled by its contract (definite integral from 0); the proof computes it and differentiates.",
 "C55": "Also F K F^T = det F Id and invariance under F -> QF. Observation: for det F < 0 the same formula is negative definite.",
 "C56": "Includes the explicit formula of the symmetrized increment.",
 "C57": "Proved for the regularized scheme as well and also after runs that raised; the P1 deformation is the identity along Dirichlet edges. Solver: arbitrary oracle that cannot change fixed variables (pyomo's contract, in the model of solve).",
 "C58": "For histories without exceptions; after a failed thermal solve it fails, see C69. respects_bounds only constrains solvers on problems whose bounds are consistent, and the proof shows those posed are.",
 "C59": "In all reachable states, also after runs that raised.",
 "C61": "Deformation updates: exactly the stated behaviour, with search boxes, for all histories of single steps (and all steps inside simulations). Temperature updates also reject arrays of the right shape with a negative entry, and then the entries before the first negative one stay changed: exact description proved, all-or-nothing refuted.",
 "C62": "Exact (iff): the constraints hold exactly if the deformation is the identity along every Dirichlet edge; also as seen from the triangles, and for all recorded steps of simulations whose solver respects the constraints.",
 "C64": "Value, strain and (regularized) hyper strain at every point of the gridded rectangle; temperature at every point of every triangle.",
 "C65": "Failing runs: see C69.",
 "C66": "Unregularized; the regularized scheme ignores the forcing, see C63.",
 "C67": "Includes starting guess, box bounds, fixed variables, constants and forcing of both problems.",
 "C68": "max_temp proved in general, limits proved without regularization and shown to cover the vertices in general; with regularization the limits also include derivative parameters, so they are not the bounding box (refuted, concrete instance).",
 "C72": "REFUTED: the coordinates are combined with the listed rotation of the triangle without rotating them; proved for every refined triangle.",
 "C73": "Added after the seeded bug 'Tensor3D_sub adds' survived.",
 "C74": "Added in place of the refuted part of C51.",
 "C76": "Hypotheses on user callbacks and solver only.",
 "C60": "For single steps of any history (with a solver that does not increase the objective) and for all undisturbed simulations, with and without regularization; example with a solver that accepts moves only if the objective does not grow.",
 "C77": "Exact (iff). That the solver does not leave the domain of the objective is a hypothesis on the solver (Ipopt), met by the solver of the example.",
 "C78": "The factor mass is 1 without regularization and 1 - 10^-15 with it (the stored weights sum to that).",
 "C79": "Over the reals.",
 "C80": "Includes that failing evaluations fail in the same way.",
 "C81": "Numpy's one-point rule ([0], [2]) is a hypothesis on leggauss.",
 "C63": "Refuted: with regularization two settings differing only in the forcing (one may raise whenever called) give identical sessions, for every solver that sees only the numbers of the problem; the regularized objectives do not contain traction or external temperature. Without regularization the forcing does enter (C66).",
 "C69": "Recorded steps survive every failure and the clock stays consistent (proved for all failures). Continuing from the last recorded step is proved when failures happen in the mechanical part only; after a failing thermal solve it is refuted: the next recorded step is two search radii from its predecessor.",
 "C70": "Exact acceptance condition, error and stored values proved; the documented fps > 0 is not enforced: fps = 0 is accepted and construction then always fails (ZeroDivisionError), refuted with a concrete setting.",
 "C71": "Drawing itself is not modelled; the model is which step is drawn and under which index it is saved.",
 "C82": "midpoint_rule: numpy's leggauss(1) = ([0], [2]).",
 "C83": "Holds exactly where the energy of martensite exceeds that of austenite by at most 2e (C83_internal_energy_increasing_partial, an iff); refuted at the strain diag(1/2, 1/2).",
 "C84": "Proved where martensite exceeds austenite by at most 2e at the quadrature points; refuted for a body compressed by 1/2 at temperature 1/5: heating up lowers the objective.",
 "C85": "REFUTED: a body at rest, compressed so that martensite exceeds austenite by 25/(2-37exp(-5)), at temperature 1: temperatures 0 and 1 both minimize the objective (C85_unique_refuted). Proved where martensite exceeds austenite by at most 2e at the quadrature points (strict convexity).",
 "C86": "Holds with twice the conductivity of heat_conductivity_reference: the diffusion term of the objective lacks the factor 1/2. C86_conductivity_refuted: at every non-constant temperature the derivative of the objective differs from the heat equation with the stated conductivity.",
 "C87": "Does not depend on the doubled conductivity (the test function is constant).",
 "C88": "Existence without restriction; uniqueness is C85 (C85_well_posed_partial where martensite exceeds austenite by at most 2e, C85_unique_refuted in general).",
 "C89": "Rectangles thinner than the mesh width can be simulated, but every plot raises ValueError (C89_no_cells_refuted). Regularized steps need mesh widths of at least 1e-15 after both refinements (fine_enough).",
 "C90": "Colours: for temperature mesh widths above about 3e-5. View: refuted, the limits come from the degrees of freedom, between grid points the quintic interpolant leaves them (witness: unit square, every variable at its upper bound).",
 "C91": "The film is always written with 30 frames per second, so it runs in real time exactly if params.fps = 30 (C91_real_time_refuted).",
 "C92": "grid.plot() without an axis always raises TypeError: fig_axis is called without its arguments (C92_default_axis_refuted).",
 "C93": "Holds if the mesh width divides both sides; otherwise raises because the outline is not covered by the grid.",
 "C94": "Proved by a penalized Lipschitz minimization over the box of bounds with a determinant barrier; simulations for solvers that keep the objective defined (and, with regularization, the constraints).",
 "C95": "Derivative, balance in free directions, variational inequality, net force; simulations with an exact solver.",
 "C96": "The exact solver is obtained with the standard library's ClassicalEpsilon; the theorems on simulations hold for every exact solver.",
 "C97": "Non-negativity, rest states, martensite variants.",
 "C98": "Count, whole multiples, requested cells.",
 "C99": "Theorems about the same Gallina code as the exact ones, instantiated with Coq's primitive binary64 floats; x**2 is modelled as x*x.",
 "C100": "For grids built by domain.grid; the index part of the proof is shared with exact arithmetic (Proofs/GenRefine.v).",
 "C101": "Refuted: a 10 by 10 square with mesh width 5 refined by 3 cannot be refined by 5: the assertion with absolute tolerance 1e-15 (domain.py:700-701) fails. In exact arithmetic it always can (C28).",
 "C102": "Refuted: 0.3 by 0.1 gives two cells instead of three and the corner is in no triangle (C102_decimal_sides_refuted), the mesh width 1/93 gives 92 cells (C102_requested_cells_refuted), 1.7 by 0.1 sticks out of the rectangle (C102_inside_refuted). What holds: C98, C99_nearly_inside.",
 "C103": "Python's list == also treats identical objects as equal, which matters only for nan (excluded). C103_float_norm_underflows: over floats the norm of the difference can vanish for different vectors.",
 "C104": "",
 "C105": "The printed form of a single number is a parameter, required to be non-empty and free of blanks, line breaks, commas and brackets.",
 "C106": "Theorems about the same Gallina code as C20, instantiated with primitive floats. C106_meshes for every float grid whose vertices are within 40 K rounding errors (times s) of a lattice triangulation; C106_domain_grid, C106_refined_grid for the grids the package builds.",
 "C107": "Refuted: strip 1197.2 by 3600 with mesh width 1197.2, the point (31.9, 2426.3) is in no triangle because the tolerance 1e-10 is absolute. C106 is what holds.",
 "C108": "Constants sqrt 2 k s, k s^2 / 4 (attained: C108_example), 3/2 k s; over the reals. Euclidean evaluation for cells of side at least 1e-4.",
 "C109": "For every accepted rule with as many weights as points; over the reals.",
 "C110": "Explicit constants (12, 120, 960; at points of the plane 18, 165, 1250 for cells of side at least 1e-4); smooth_on follows from bounded fifth derivatives (C110_bounded_derivatives). Over the reals.",
 "C111": "First order in the mesh width with uniform constants (P1 strains are first order); C111_bounded_derivatives derives the regularity asked for from partial derivatives that are bounded and Lipschitz. Jacobian positive on the discrete side is a conclusion, not a hypothesis. Over the reals.",
 "C112": "C112_objective combines the three energies. The mesh must be finer than min(1,d)/(960 (k+1)^2); refinement needs s/N at least 1e-15 (as C27). C112_bounded_derivatives derives the smoothness asked for from bounded derivatives up to order five. Order s/N comes from the P1 temperature and the quadrature of a density that is only Lipschitz. Over the reals.",
 "C113": "C113_near_minimal for undisturbed regularized simulations whose solver is exact (C96; such solvers exist); the side lengths are multiples of the mesh width (otherwise the grid is smaller than the body), the previous step's arrays are the nodal values of some smooth fields (true of the first step: identity, constant temperature; see C113_example), mesh finer than min(1,d)/(960 (k+1)^2). C113_boundary_conditions: identity on the fixed sides of the body gives the six constraints of every Dirichlet edge. Over the reals.",
 "C114": "C114_traction_work and C114_mechanical_objective for steps built and updated by the code (mech_history) on a grid of RectangleDomain.grid with the midpoint rule from numpy; side lengths are multiples of the mesh width. Over the reals.",
 "C115": "C115_near_minimal for undisturbed plain simulations whose solver is exact (C96); side lengths are multiples of the mesh width, the previous step's arrays are the nodal values of some regular motion and temperature (true of the first step; see C115_example). Step i + 1 uses the traction at time i / fps (C57, C65). Over the reals.",
 "C116": "C116_heat_energy, C116_heat_storage, C116_heat_exchange and C116_thermal_objective, with the midpoint rule from numpy on the boundary. Over the reals.",
 "C117": "C117_heat_energy, C117_heat_storage and C117_thermal_objective. Over the reals.",
 "C118": "C118_near_minimal and C118_recorded for undisturbed plain simulations whose solver is exact (C96). Over the reals.",
 "C119": "C119_near_minimal and C119_recorded for undisturbed regularized simulations whose solver is exact (C96). Over the reals.",
 "C120": "C120_transition, C120_only_rotations and C120_rest. Over the reals.",
 "C121": "C121_rigid_motion, C121_solutions, C121_held, C121_stays and C121_simulation. Over the reals; the simulation theorems for undisturbed plain simulations whose solver is exact (C96).",
 "C122": "C122_mechanical_step, C122_simulation, C122_translation and C122_held. Over the reals; for undisturbed simulations whose solver is exact (C96).",
 "C123": "C123_regularization_zero (both directions) and C123_solutions. Over the reals. That the seven points of one refined triangle determine a Bell element up to affine maps is shown for every position and size of the refined triangle in the coarse one (Proofs/FlatQ.v, FlatV.v, FlatG.v).",
 "C124": "C124_frame_rate and C124_regularization hold for all steps; C124_load, C124_larger_load and C124_surroundings for steps on the grids of rectangles without regularization (with regularization the code ignores load and surroundings, C63). C124_constructor. Over the reals; that solutions exist is C94 and C88."
}