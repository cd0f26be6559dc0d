# Formal model of tvemoves (Rocq/Coq 8.16.1)

Source: `/repo/src/tvemoves_rufbad/*.py` (read as text, never run).

## 1. Layout (`rocq/theories`)

| folder | contents |
|---|---|
| `Model/` | executable model, definitions only, every definition cites file and lines |
| `Spec/`  | small independent specifications (what the English property talks about) |
| `Proofs/`| lemmas |
| `Props/` | property theorems only: statement, `exact lemma`, `Print Assumptions`, non-vacuity examples |

## 2. Modelling conventions

* **Numbers.** Scalars are an abstract type `T` with a record of operations (`Model/Num.v`). Theorems
  are about the instance `R` (exact real arithmetic); the instance `float` (IEEE binary64, Coq's
  primitive floats) is used for the statements that are *about* rounding. Pyomo/sympy expressions
  appear only through the value they have at a point.
* **Exceptions as values.** `res A := Ok a | Err exn`; for methods that mutate and may raise half way the
  model is `state -> state * res A`, so the state left behind by a failure is visible.
* **sympy.** `Model/Expr.v` has an expression syntax with evaluation (errors for division by 0 and log of a
  non-positive number), sequential substitution and symbolic differentiation.  Differentiation is proved correct
  against Coquelicot's derivative. `sp.integrate` is modelled by its contract (Riemann integral).
* **Sets.** `list(set)` has an unspecified order: the grid builder takes an arbitrary ordering oracle
  (`SetOrder`: any duplicate-free list of the same elements); theorems quantify over it.
* **Solver.** ipopt is an oracle; the assumptions a theorem needs (respects fixed variables, bounds, does not
  return a worse value than the starting point) are explicit hypotheses of that theorem.
* **Vertices** are `nat` (the API only produces non-negative ids); user-facing indices are `Z`.
* **Aliasing** of Python lists (a caller mutating a list it passed in) is not modelled.

Not modelled: the inside of matplotlib, `numpy()`, printing of a single number, ipopt itself,
pyomo's internals (beyond Param/Var value, bounds, fixed flag, domain check), numpy's `leggauss` (oracle).

## 3. Plan per property

* C01 model `permutations`, `sign`, `det`; prove = cofactor expansion for every size, and = mathcomp's `\det` over any comRing.
* C02-C10 model `tensors.py` on lists; list induction + ring/field.
* C11-C19 model `RectangleDomain.grid` with a set-order oracle; arithmetic on `j*nh+i`.
* C20-C22 model point location; nra/field on orientation determinants; lattice argument.
* C23 invariant over append_edge sequences (fold). C24 model `__eq__`; renumbering proof, asymmetry by witness.
* C25, C26 direct.
* C27-C33 model `refine` statement by statement (dicts, append order, tolerance search); invariant "all points are pairwise
  distinct lattice points; everything appended so far is the image of lattice triangles/edges", preserved by each coarse triangle.
* C34-C39 model quadrature rules with exact decimal constants; integrals by Coquelicot `RInt`.
* C40-C49 model interpolation.py/bell_finite_element.py with the AST; identities by ring/field after eliminating r_ij.
* C50-C56 model helpers.py; real analysis, Coquelicot derivatives.
* C57-C69 model mechanical/thermal steps and Simulation as state machines with solver oracle; invariants by induction on run histories.
* C70, C71 decision logic.
* C72 witness computation from the C29 characterisation of the coarse coordinates, for every refined triangle.
* C73 entrywise list reasoning. C74 algebra on the zero set; C75 from C73.
* C76 liveness: every statement of construction and `run` is shown total from the invariant of C57-C69.
* C77 objective = finite sum of potentials at quadrature points; a potential is defined iff det F > 0 (C50/C51).
* C78-C80 constant integrands (C38) and frame indifference pointwise; C81 one-point rule on edges (C39).
* C82-C88 thermal step: the objective is a finite sum of closed-form densities of the temperatures; C82 from C50/C51/C55 pointwise; C83 by the
  derivative of the internal energy (sign of 25 t exp(-5t) dW + 10); C84/C85 strict convexity gap, summed with positive weights; C86 derivative of the
  objective along a test function; C87 = C86 with the constant test function; C88 Lipschitz functions on boxes attain their minimum.
* C89-C93 drawing: an axis is its limits and the list of drawn objects; point location is total on the rectangle of a mesh, so interpolation of the
  plotting grid's vertices is total (C20/C27); C90 colours: barycentric coordinates of lattice points are exactly non-negative; C90 view: edge
  trace (C45) of the example simulation; C91 decimal notation is injective and contains no underscore; C93 C26 and C48.
* C94 the objective is Lipschitz on the part of the box where determinants stay above a barrier value, below it is too large; constraints by a
  penalty. C95 pointwise derivatives of the potentials (C53) summed over the quadrature points; hyper stress |H|^3 by hand at H = 0; convexity of
  the admissible set. C96 a solver defined with classical epsilon from C88 and C94; simulations by the invariants of C57-C69. C97 signs of the
  potentials (C50-C52, C56) and C78.
* C98-C102 the generic definitions of Domain.v and Refine.v at the instance `float`: Flocq relates each operation to the rounding of the real result;
  refine is proved once for any scalars that recognise lattice points (GenRefine.v: only comparisons that come out right are used), then R and
  binary64 meet its hypotheses, the latter by forward error bounds (40 ulp against a tolerance of 5e-8 mesh widths). C101, C102 by computation.
* C106 running error analysis in multiples of the rounding unit: orientation test, then weights; the covering triangle passes the
  test because the accumulated error stays below 1e-10, an accepted triangle is not degenerate. C107 vm_compute.
* C108 distances in the two triangle shapes of a mesh; weighted Taylor remainders (mean squared distance to the corners is at most the
  squared circumradius). C109 compare the rule sums of the two triangles and the integral of a cell with the value (affine part) at its
  centre; integrability by continuing the function beyond the rectangle.
* C110 on a mesh triangle the Bell element in Bernstein form (one set of coefficients for both shapes, up to the sign of s): value,
  gradient and Hessian are bounded by the scaled parameters; subtract the Taylor polynomial at the evaluation point, which the element
  reproduces (C42). Taylor's theorem for the plane along two axis-parallel segments, from bounds on the fifth derivatives.
* C111, C112 the energy densities are bounded and Lipschitz ("tame") on sets of strains with bounded entries and Jacobian at least d/2
  (closure of tameness under sums, products, quotients, logarithms, powers); the discrete strain is near the true one (C108, C110), so
  its Jacobian stays positive on fine grids and the rule sum is near that of the true density, whose integral C109 compares.
* C113 a function that is affine along a segment has the slope as derivative and no second derivative at its ends (from the Taylor
  polynomial of C110, one-sided); hence smooth deformations that are the identity on the fixed sides satisfy the six constraints per
  Dirichlet edge, their nodal values are admissible for the solver, and C112 bounds their objective, which bounds the minimizer's.
* C114, C115 the Neumann edges are the edges of the free sides (disjoint, duplicate-free lists); on each edge the product of the means
  of the end values is near traction times deformation, and the integrals over the edges add up to the side integral (functions
  continued beyond the side for integrability). With C111 the plain objective is consistent; C115 then argues as C113 (C115_recorded compares the functionals themselves).
* C116, C117 the two densities of the thermal step are Lipschitz in previous strain, strain, both temperatures and the temperature
  gradient on sets with bounded entries and determinants bounded below (`Proofs/TameHeat`); the strains and temperatures of nodal
  data are near the exact ones (C105, C109, C112), so the Riemann-sum arguments of C111 and C112 apply; the boundary term as C114.
* C118, C119 as C113 and C115: the nodal values of a competitor are admissible for the problem posed by the recorded step, whose
  objective is consistent by C116 and C117; applied to recorded values that come from a regular temperature this compares functionals.
* C120 convexity: with e = exp(-5 t) <= 2/3 the density exceeds e/16 by a sum of squares; below the transition a shear decreases it;
  sums over quadrature points. C121 the two triangles of each cell give discrete Cauchy-Riemann equations, which propagate from two
  neighbouring vertices; then induction over the steps, with C84 and C85 for the temperatures.
* C122 the objective is the energy plus positive multiples of two non-negative terms; equality forces rotations (C120), no dissipation
  (so the same rotations) and no second derivatives at all points with positive weight; induction over the steps as for C121.
  Translations follow with C123.
* C123 in the coordinates of a refined triangle a Bell element is a polynomial of degree five, with 18 coefficients of degree two or
  more; they are linear functions of the 21 second derivatives at the seven points. The explicit left inverse (generated rational
  numbers, checked by `ring` and `lra`) shows that they vanish, for every position and size of the refined triangle in the coarse one.
  Then every coarse triangle contains a refined one (C29), and the mesh is connected (as in C121).
* C124 each objective is (rest) + constant * (term) with rest and term independent of the constant; add the two minimality
  inequalities. Loads and surroundings enter through the boundary integrals, computed in closed form (C81, Proofs/ThermQ.v).
* C103 list induction; floats: Flocq's `round_plus_neq_0`. C104 model Python's slice objects (`PySlice_AdjustIndices`); arithmetic.
  C105 model the texts; printed entries are code words ended by punctuation, printed rows and matrices by bracket depth.

Every property is expressible; where the code violates the statement a `_refuted` theorem with a witness is proved and the
property is reported as partial in MANIFEST.json, with the part that does hold proved next to it.

## 4. Trusted base

* Coq 8.16.1's kernel (and `coqchk`). No axioms of our own; no `Admitted`, no functors, no disabled checks.
* Axioms: `ASSUMPTIONS.md` lists the output of `Print Assumptions` for every property theorem (generated by
  `tools/assumptions.py`). Only standard-library axioms occur: those of the classical reals
  (`ClassicalDedekindReals.sig_forall_dec`, `sig_not_dec`), `functional_extensionality_dep`,
  `Classical_Prop.classic` (statements about Coquelicot's integral/derivative), and for C01 (mathcomp's `\\det` over R) and C96 (an exact solver exists)
  `constructive_indefinite_description`; theorems about binary64 floats use the primitive float/int operations
  and the standard library's axioms specifying them (`Coq.Floats.FloatAxioms`, `Coq.Numbers` integers); Flocq is used as a library (no axioms). Python's `x ** 2` is modelled
  as `x * x` in floats (the C library's `pow(x, 2)` is exact up to the same rounding on usual platforms). Some theorems are axiom free.
* The model is a reading of the Python text; nothing checks it against running code. Its conventions are section 2. In
  particular: exact real arithmetic instead of floats (unless a theorem says float), sympy's `lambdify`d functions are
  evaluated expression trees, `sp.integrate` is its contract, `np.polynomial.legendre.leggauss`, `set` iteration order,
  ipopt and the user's callbacks are arbitrary functions constrained only by named hypotheses.
* Modelled: `tensors.py` (all arithmetic, indexing, slices, equality, iteration, printing, reshaping, constructors), `grid.py`/`domain.py` (grids, boundaries,
  equality, refinement, point location), `quadrature_rules.py`, `integrators.py`, `bell_finite_element.py`,
  `interpolation.py`, `helpers.py` (all, plotting as in Plot.v), `mechanical_step.py`, `thermal_step.py` (parameters, variables, bounds, fixing,
  constraints, objective functions as functions of the variables, getters, updates, solve), `simulation.py`
  (parameters, steps, construction, run, plot/save indices, plot limits); drawing code of `domain.py`, `helpers.py` and `simulation.py` as the calls
  it makes (Plot.v: limits and drawn objects; matplotlib assumed as stated in its header).
* Not modelled: `numpy()` conversions, `repr` of a single number (a parameter), abstract stubs, colours, line widths, aspect and
  file formats of pictures, ipopt, pyomo's expression graph (an expression is its value), aliasing of caller-owned lists.

## 5. Findings (properties the code does not have; each a theorem)

| property | what goes wrong |
|---|---|
| C06 | `Tensor3D.__getitem__` bounds-checks only the first index: negative second/third indices wrap |
| C08 | `Vector.dot` silently truncates to the shorter operand |
| C09 | `BarycentricCoordinates.assert_bounds` clamps without renormalising: the sum is no longer 1 |
| C18 | inner vertices of a fixed side are listed as Neumann vertices |
| C19 | unknown side names in `fix` are ignored |
| C21 | point location uses an absolute tolerance: for mesh widths <= 1e-5 it returns a wrong triangle |
| C24 | grid equality is not symmetric (tolerance from the left operand) |
| C28 | `grid.refine(k) == domain.grid(scale/k)` fails whenever a side is fixed |
| C31 | `to_coarse_edge_point` raises for every fine edge on a diagonal coarse edge |
| C36 | quadrature rules with fewer weights than points are accepted |
| C51 | the martensite potential vanishes on more than the two documented wells |
| C61 | temperature updates are not atomic |
| C63 | regularized simulations ignore boundary traction and external temperature |
| C68 | regularized plot limits mix derivative degrees of freedom into the bounding box |
| C69 | after a failing thermal solve the next run starts from a deformation that was never recorded |
| C70 | `fps=0` passes validation, then construction raises ZeroDivisionError |
| C72 | coarse coordinates are wrong for rotated listings of a fine triangle |
| C83 | negative heat capacity under strong compression (martensite more than 2e above austenite) |
| C84 | there, a body in thermal equilibrium does not minimize the thermal objective |
| C89 | rectangles thinner than the mesh width can be simulated but not drawn |
| C90 | regularized pictures can cut off the body: the limits ignore what the interpolant does between grid points |
| C91 | films always run at 30 frames per second, whatever `fps` is |
| C92 | `grid.plot()` without an axis always raises TypeError |
| C93 | drawing deformed curves raises if the mesh width does not divide the sides |
| C102 | decimal sides lose cells in floats: 0.3 by 0.1 gives a 2 x 2 grid; 1.7 by 0.1 sticks out of the rectangle |
| C85 | under strong compression the thermal step can have two minimizers: at temperature 1 staying at 1 and falling to 0 are equally good |
| C101 | a refined grid of a domain of side 10 cannot be refined again (absolute tolerance 1e-15): regularized simulations raise AssertionError |
| C107 | in floats, point location loses points next to diagonals of large grids (1197.2 by 3600, point (31.9, 2426.3)): absolute tolerance 1e-10 |
| C86 | the diffusion term lacks the factor 1/2: the step solves the heat equation with twice the stated conductivity |

Observations recorded in notes rather than as refutations: one-point boundary rule on degree-2 products (C39, C81),
DUNAVANT5's stored weights sum to 1 - 1e-15 (C78), `heat_conductivity_reference` is negative definite for det F < 0 (C55),
`bell_interpolation_on_edge` has no size check (C49).

## 6. Results

`MANIFEST.json` (generated by `tools/manifest.py`) maps each property to its theorems; `tools/notes.json` holds the remarks.
`seeded/LOG.jsonl` is the log of seeded bugs. Each Props file contains, next to the theorems, `Example`s showing that
concrete non-trivial data meet the hypotheses.
