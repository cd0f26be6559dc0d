{"id": "C01", "title": "Matrix.det is the determinant", "statement": "For every square matrix, of any size, Matrix.det() returns the determinant (Laplace/Leibniz), so det(I)=1, det(A@B)=det(A)det(B), det(A^T)=det(A), a matrix with two equal rows has det 0; for every non-square matrix it raises ValueError.", "quantifier": "all matrices of all sizes with entries in a commutative ring", "why_tests_cant": "unbounded matrix size and arbitrary entries; tests use one 7x7 sample", "anchors": ["src/tvemoves_rufbad/tensors.py:Matrix.det", "src/tvemoves_rufbad/tensors.py:sign"]}
{"id": "C02", "title": "inverse_2x2 is the two-sided inverse", "statement": "For every 2x2 matrix with non-zero determinant inverse_2x2(A)@A and A@inverse_2x2(A) are the identity; a singular 2x2 matrix raises ZeroDivisionError and any other shape raises ValueError.", "quantifier": "all matrices", "why_tests_cant": "infinitely many matrices, and the error boundary det=0 is measure zero", "anchors": ["src/tvemoves_rufbad/tensors.py:inverse_2x2"]}
{"id": "C03", "title": "Matrix product laws and shape discipline", "statement": "A@B is defined exactly when the inner sizes agree (ValueError otherwise), has the outer shape and the row-by-column entries; it is associative, A.dot(v) agrees with it, and (A@B).transpose() == B.transpose()@A.transpose().", "quantifier": "all matrices of all compatible and incompatible shapes", "why_tests_cant": "all shapes and all entries", "anchors": ["src/tvemoves_rufbad/tensors.py:Matrix.__matmul__", "src/tvemoves_rufbad/tensors.py:Matrix.dot", "src/tvemoves_rufbad/tensors.py:Matrix.transpose"]}
{"id": "C04", "title": "Flatten, reshape and transpose are inverse to each other", "statement": "v.reshape(m,n).flatten()==v whenever reshape succeeds, M.flatten().reshape(*M.shape)==M, M.transpose().transpose()==M; reshape raises ValueError exactly when the size is not m*n.", "quantifier": "all vectors, matrices and requested shapes", "why_tests_cant": "all sizes, including degenerate ones", "anchors": ["src/tvemoves_rufbad/tensors.py:Vector.reshape", "src/tvemoves_rufbad/tensors.py:Matrix.flatten", "src/tvemoves_rufbad/tensors.py:Matrix.transpose"]}
{"id": "C05", "title": "Vector and Matrix element access never returns a wrong element", "statement": "v[i] and M[i,j] return the stored entry for in-range non-negative indices and raise IndexError for every other integer, negative ones included.", "quantifier": "all vectors/matrices and all integers i, j", "why_tests_cant": "all integers, no finite sample covers the out of range side", "anchors": ["src/tvemoves_rufbad/tensors.py:Vector.__getitem__", "src/tvemoves_rufbad/tensors.py:Matrix.__getitem__"]}
{"id": "C06", "title": "Tensor3D element access never returns a wrong element", "statement": "T[i,j,k] returns the stored entry for in-range indices and raises IndexError for every other integer triple (same contract as Vector and Matrix).", "quantifier": "all 3-d tensors and all integer triples", "why_tests_cant": "all integers; the tests never index out of range", "anchors": ["src/tvemoves_rufbad/tensors.py:Tensor3D.__getitem__"]}
{"id": "C07", "title": "Vector space laws, norm and size checks", "statement": "Addition/subtraction/scaling of vectors and matrices are entrywise and satisfy the vector space laws, normsqr is non-negative and zero only for the zero vector, normsqr()==dot(self), the Frobenius scalar product is trace(A^T@B) and obeys Cauchy-Schwarz; operands of different sizes are rejected with ValueError by +, -, scalar_product.", "quantifier": "all vectors and matrices", "why_tests_cant": "all sizes and entries", "anchors": ["src/tvemoves_rufbad/tensors.py:Vector.__add__", "src/tvemoves_rufbad/tensors.py:Vector.__sub__", "src/tvemoves_rufbad/tensors.py:Vector.normsqr", "src/tvemoves_rufbad/tensors.py:Vector.dot", "src/tvemoves_rufbad/tensors.py:Matrix.scalar_product", "src/tvemoves_rufbad/tensors.py:Matrix.normsqr"]}
{"id": "C08", "title": "Vector.dot rejects operands of different sizes", "statement": "v.dot(w) is only ever computed for vectors of equal size; a size mismatch is an error as for every other binary vector operation.", "quantifier": "all pairs of vectors", "why_tests_cant": "all pairs of sizes", "anchors": ["src/tvemoves_rufbad/tensors.py:Vector.dot", "src/tvemoves_rufbad/bell_finite_element.py:bell_interpolation_on_edge"]}
{"id": "C09", "title": "Barycentric coordinates sum to one and clamping", "statement": "BarycentricCoordinates(l1,l2) always sums to 1. assert_bounds leaves in-range coordinates unchanged and always ends with every weight in [lower, upper]; the documented invariant (sum = 1) must survive assert_bounds.", "quantifier": "all real l1, l2 and all bounds lower<=upper", "why_tests_cant": "continuum of inputs", "anchors": ["src/tvemoves_rufbad/tensors.py:BarycentricCoordinates.__init__", "src/tvemoves_rufbad/tensors.py:BarycentricCoordinates.assert_bounds"]}
{"id": "C10", "title": "Matrix and Tensor3D constructors accept exactly rectangular data", "statement": "Matrix(data)/Tensor3D(data) succeed iff data is non-empty (in each leading axis) and rectangular; then shape is the true shape and data is stored verbatim; all operations returning tensors keep that invariant. Stacking succeeds iff the shapes agree.", "quantifier": "all nested lists", "why_tests_cant": "all nested list shapes", "anchors": ["src/tvemoves_rufbad/tensors.py:Matrix.__init__", "src/tvemoves_rufbad/tensors.py:Tensor3D.__init__", "src/tvemoves_rufbad/tensors.py:Vector.stack", "src/tvemoves_rufbad/tensors.py:Matrix.stack"]}
{"id": "C11", "title": "Grid vertices form the full lattice inside the rectangle", "statement": "RectangleDomain(w,h).grid(s) has vertices 0..N-1 in order, N=(floor(w/s)+1)(floor(h/s)+1), the points are exactly the lattice points (i*s, j*s) lying in the rectangle, pairwise distinct, and the grid extent misses the rectangle width/height by less than s.", "quantifier": "all widths, heights >= 0 and scales > 0", "why_tests_cant": "continuum of domain sizes and scales", "anchors": ["src/tvemoves_rufbad/domain.py:RectangleDomain.grid"]}
{"id": "C12", "title": "Grid edges are valid and unique", "statement": "Every grid edge joins two different existing vertices, no edge occurs twice in either orientation, and two vertices are joined exactly when they are horizontal, vertical or (up-right) diagonal lattice neighbours.", "quantifier": "all grids", "why_tests_cant": "all grid sizes", "anchors": ["src/tvemoves_rufbad/domain.py:RectangleDomain.grid"]}
{"id": "C13", "title": "Grid triangles are positively oriented right isosceles triangles that add up to the grid area", "statement": "Every triangle has a horizontal first and vertical second side of length s, positive signed area s^2/2, triangles are pairwise different, and the areas add up to grid width x grid height.", "quantifier": "all grids", "why_tests_cant": "all grid sizes", "anchors": ["src/tvemoves_rufbad/domain.py:RectangleDomain.grid", "src/tvemoves_rufbad/integrators.py:Integrator.__init__"]}
{"id": "C14", "title": "The grid is a conforming triangulation", "statement": "Each side of each triangle is a grid edge (in some orientation), each grid edge is the side of at least one and at most two triangles, and boundary.edges are exactly the edges that belong to only one triangle; V-E+F=1.", "quantifier": "all grids with at least one cell in each direction", "why_tests_cant": "all grid sizes", "anchors": ["src/tvemoves_rufbad/domain.py:RectangleDomain.grid"]}
{"id": "C15", "title": "Triangles cover the grid rectangle without overlap", "statement": "Every point of the grid rectangle lies in some grid triangle, and no point lies in the interior of two different triangles.", "quantifier": "all grids and all points of the plane", "why_tests_cant": "continuum of points", "anchors": ["src/tvemoves_rufbad/domain.py:RectangleDomain.grid", "src/tvemoves_rufbad/domain.py:Grid.to_barycentric_point"]}
{"id": "C16", "title": "Boundary is split into Dirichlet and Neumann edges by the fixed sides", "statement": "dirichlet_boundary.edges are exactly the boundary edges on the sides named in fix, neumann_boundary.edges exactly the remaining boundary edges; the two are disjoint and every boundary vertex lies on the outline of the grid rectangle, and every outline vertex is a boundary vertex.", "quantifier": "all grids, all fix options, every iteration order of Python sets", "why_tests_cant": "all sizes, all subsets of sides, all set iteration orders", "anchors": ["src/tvemoves_rufbad/domain.py:RectangleDomain.grid"]}
{"id": "C17", "title": "Dirichlet vertices are exactly the vertices on fixed sides", "statement": "A vertex is in dirichlet_boundary.vertices iff it lies on a side named in fix; without fix there is none.", "quantifier": "all grids and fix options", "why_tests_cant": "all sizes and subsets of sides", "anchors": ["src/tvemoves_rufbad/domain.py:RectangleDomain.grid"]}
{"id": "C18", "title": "Neumann vertices are exactly the endpoints of Neumann edges", "statement": "Every endpoint of a Neumann edge is a Neumann vertex (so a traction value exists for it) and no other vertex is.", "quantifier": "all grids and fix options", "why_tests_cant": "all sizes and subsets of sides", "anchors": ["src/tvemoves_rufbad/domain.py:RectangleDomain.grid", "src/tvemoves_rufbad/interpolation.py:P1BoundaryInterpolation.__call__"]}
{"id": "C19", "title": "fix option semantics", "statement": "Order and repetition inside the fix list do not change the grid, a single name behaves like a one-element list; a name that is not one of the four sides is rejected.", "quantifier": "all fix values", "why_tests_cant": "all lists of strings", "anchors": ["src/tvemoves_rufbad/domain.py:RectangleDomain.grid", "src/tvemoves_rufbad/domain.py:RectangleDomain.__init__"]}
{"id": "C20", "title": "to_barycentric_point locates points correctly", "statement": "On a rectangle grid to_barycentric_point never raises; if it returns (triangle, coords) then triangle is a grid triangle, the coords sum to 1 and reproduce p from the triangle's vertices, and (mesh width s >= 1e-5) no coordinate is below -1e-10/s^2; for a point inside the grid rectangle it never returns None; points more than 2e-10/s outside get None (s >= 1e-5).", "quantifier": "all grids and all points", "why_tests_cant": "continuum of points", "anchors": ["src/tvemoves_rufbad/domain.py:Grid.to_barycentric_point", "src/tvemoves_rufbad/domain.py:_triangle_contains_point", "src/tvemoves_rufbad/domain.py:_to_barycentric_coordinates"]}
{"id": "C21", "title": "Point location finds a triangle that really contains the point", "statement": "The triangle returned for a grid point has this point as one of its vertices (so P1 evaluation at a grid point returns the nodal value), at every mesh scale.", "quantifier": "all grids and all grid vertices", "why_tests_cant": "all scales; tests use scales around 0.2", "anchors": ["src/tvemoves_rufbad/domain.py:_triangle_contains_point", "src/tvemoves_rufbad/domain.py:Grid.to_barycentric_point"]}
{"id": "C22", "title": "point_to_vertex inverts points", "statement": "On every grid point_to_vertex(points[v])==v; it returns the first vertex whose point is closer than the tolerance and None when there is none.", "quantifier": "all grids, vertices and query points", "why_tests_cant": "all sizes and points", "anchors": ["src/tvemoves_rufbad/domain.py:Grid.point_to_vertex", "src/tvemoves_rufbad/domain.py:Grid._points_coincide"]}
{"id": "C23", "title": "append_edge keeps edges unique and the mean edge length exact", "statement": "After any sequence of append_edge calls no edge is stored twice in either orientation, earlier edges are kept in order, and the internal mean edge length used for the coincidence tolerance is the exact average length of the stored edges.", "quantifier": "all grids and all sequences of append_edge calls", "why_tests_cant": "all operation histories", "anchors": ["src/tvemoves_rufbad/domain.py:Grid.append_edge", "src/tvemoves_rufbad/domain.py:Grid.__init__"]}
{"id": "C24", "title": "Grid equality is an equivalence that ignores numbering", "statement": "A grid equals itself and any renumbering/reordering of itself; equality is symmetric.", "quantifier": "all well formed grids and permutations", "why_tests_cant": "all grids and permutations", "anchors": ["src/tvemoves_rufbad/domain.py:Grid.__eq__", "src/tvemoves_rufbad/domain.py:_boundaries_coincide"]}
{"id": "C25", "title": "triangle_vertices and edge_vertices", "statement": "They return the stored points of exactly the listed triangles/edges and raise ValueError for everything else (also for a listed edge given in the other orientation).", "quantifier": "all grids, triangles and edges", "why_tests_cant": "all index tuples", "anchors": ["src/tvemoves_rufbad/domain.py:Grid.triangle_vertices", "src/tvemoves_rufbad/domain.py:Grid.edge_vertices"]}
{"id": "C26", "title": "Domain curves lie in the rectangle and include its outline", "statement": "curves(n,h,v) returns h+2 horizontal and v+2 vertical curves of n points each, equidistant, from one side of the rectangle to the other, all inside the rectangle, the first and last of each family being the outline; n=1 raises ZeroDivisionError.", "quantifier": "all rectangles and counts", "why_tests_cant": "all counts and sizes", "anchors": ["src/tvemoves_rufbad/domain.py:RectangleDomain.curves"]}
{"id": "C27", "title": "Refinement produces exactly the fine lattice triangulation", "statement": "For every grid and refinement factor n>=1 refine(grid,n) has each fine lattice point exactly once (old vertices keep their numbers), its triangles are, each once, the n^2 congruent subtriangles of every coarse triangle, edges are the sides of these, each once up to orientation.", "quantifier": "all rectangle grids, all factors n, all chains of refinements", "why_tests_cant": "unbounded grid size and factor; dedup by floating tolerance", "anchors": ["src/tvemoves_rufbad/domain.py:RectangleDomain.refine", "src/tvemoves_rufbad/domain.py:_refine_equilateral_triangle"]}
{"id": "C28", "title": "Refinement equals the grid built at the finer scale", "statement": "refine(grid(s), n) == grid(s/n) (Grid equality) whenever both cover the same rectangle.", "quantifier": "all rectangle grids and factors", "why_tests_cant": "the test checks factor 3 on a 2x2 grid only", "anchors": ["src/tvemoves_rufbad/domain.py:RectangleDomain.refine", "src/tvemoves_rufbad/domain.py:Grid.__eq__"]}
{"id": "C29", "title": "Coarse barycentric coordinates denote the same physical point", "statement": "For every fine triangle and coordinates, to_coarse_barycentric_point returns a coarse grid triangle and coordinates of the same Euclidean point, and coordinates in [0,1] stay in [0,1]; an unknown triangle raises ValueError.", "quantifier": "all refined grids, fine triangles and coordinates", "why_tests_cant": "continuum of coordinates, unbounded grids", "anchors": ["src/tvemoves_rufbad/domain.py:RefinedGrid.to_coarse_barycentric_point", "src/tvemoves_rufbad/domain.py:_refine_equilateral_triangle"]}
{"id": "C30", "title": "Coarse edge coordinates denote the same physical point", "statement": "For every fine edge lying on a horizontal or vertical coarse edge (all boundary edges in particular) and every t, to_coarse_edge_point returns a coarse edge of the grid and a parameter of the same Euclidean point.", "quantifier": "all refined grids, fine edges and t", "why_tests_cant": "continuum of t, unbounded grids", "anchors": ["src/tvemoves_rufbad/domain.py:RefinedGrid.to_coarse_edge_point", "src/tvemoves_rufbad/domain.py:_refine_equilateral_triangle"]}
{"id": "C31", "title": "Every fine edge on a coarse edge has coarse edge coordinates", "statement": "to_coarse_edge_point succeeds on every edge of the refined grid that lies on a coarse edge (documented: only other edges raise).", "quantifier": "all refined grids and edges", "why_tests_cant": "the test only samples boundary edges", "anchors": ["src/tvemoves_rufbad/domain.py:RefinedGrid.to_coarse_edge_point", "src/tvemoves_rufbad/domain.py:_refine_equilateral_triangle"]}
{"id": "C32", "title": "Refinement refines the boundary", "statement": "Boundary, Dirichlet and Neumann edges of the refined grid are exactly the n sub-edges of the corresponding coarse edges, in the same orientation, each is an edge of the refined grid, and their vertices are the coarse boundary vertices plus the new ones on these edges.", "quantifier": "all grids, fix options and factors", "why_tests_cant": "unbounded", "anchors": ["src/tvemoves_rufbad/domain.py:_refine_boundary_edge", "src/tvemoves_rufbad/domain.py:_refine_equilateral_triangle"]}
{"id": "C33", "title": "refine rejects bad factors and never fails on a rectangle grid", "statement": "refine raises ValueError exactly for factors below 1; for factors >= 1 on any grid produced by grid() or refine() whose fine mesh width is above the coincidence tolerance no assertion, lookup or index error occurs.", "quantifier": "all grids and integers", "why_tests_cant": "unbounded", "anchors": ["src/tvemoves_rufbad/domain.py:RectangleDomain.refine"]}
{"id": "C34", "title": "Low order triangle rules are exact", "statement": "CENTROID, VERTEX integrate polynomials of degree 1, DUNAVANT2 degree 2, DUNAVANT3 degree 3 exactly on the reference triangle.", "quantifier": "all polynomials of the given degree", "why_tests_cant": "infinite family of polynomials; numeric test uses one random polynomial", "anchors": ["src/tvemoves_rufbad/quadrature_rules.py:CENTROID", "src/tvemoves_rufbad/quadrature_rules.py:VERTEX", "src/tvemoves_rufbad/quadrature_rules.py:DUNAVANT2", "src/tvemoves_rufbad/quadrature_rules.py:DUNAVANT3"]}
{"id": "C35", "title": "High order triangle rules are exact up to the printed digits", "statement": "DUNAVANT4/DUNAVANT5 integrate every polynomial of degree 4/5 with an error of at most 1e-14 times the sum of absolute coefficients.", "quantifier": "all polynomials of the given degree", "why_tests_cant": "infinite family", "anchors": ["src/tvemoves_rufbad/quadrature_rules.py:DUNAVANT4", "src/tvemoves_rufbad/quadrature_rules.py:DUNAVANT5"]}
{"id": "C36", "title": "A triangle rule accepted by the constructor is usable", "statement": "TriangleQuadratureRule accepts only points in the closed reference triangle and weights adding up to 1 (relative 1e-9), so an accepted rule integrates constants correctly.", "quantifier": "all weight and point lists", "why_tests_cant": "all lists, including ones of different length", "anchors": ["src/tvemoves_rufbad/quadrature_rules.py:TriangleQuadratureRule.__init__", "src/tvemoves_rufbad/quadrature_rules.py:TriangleQuadratureRule.__iter__"]}
{"id": "C37", "title": "Gauss rule is correctly transplanted to [0,1]", "statement": "If numpy's rule is exact for polynomials of degree d on [-1,1], GaussQuadratureRule is exact for polynomials of degree d on [0,1], its points lie in [0,1] and its weights sum to 1.", "quantifier": "all rules and polynomials", "why_tests_cant": "infinite family", "anchors": ["src/tvemoves_rufbad/quadrature_rules.py:GaussQuadratureRule.__init__"]}
{"id": "C38", "title": "Integrator integrates over the triangulation", "statement": "Integrator is linear in the integrand, does not depend on the order or orientation of the triangle vertices for the areas, gives the total area for the constant 1 and, with a rule exact for degree d, the exact integral of every polynomial of degree d over every triangle.", "quantifier": "all triangulations, integrands and exact rules", "why_tests_cant": "infinite families", "anchors": ["src/tvemoves_rufbad/integrators.py:Integrator.__init__", "src/tvemoves_rufbad/integrators.py:Integrator.__call__"]}
{"id": "C39", "title": "BoundaryIntegrator integrates along edges", "statement": "BoundaryIntegrator(1,...) is linear, gives the total length for the constant 1 and the exact line integral for integrands affine along each edge.", "quantifier": "all edge lists and integrands", "why_tests_cant": "infinite families", "anchors": ["src/tvemoves_rufbad/integrators.py:BoundaryIntegrator.__init__", "src/tvemoves_rufbad/integrators.py:BoundaryIntegrator.__call__"]}
{"id": "C40", "title": "P1 interpolation: nodal values, affine reproduction, true gradient, continuity", "statement": "P1Interpolation takes the nodal value at each vertex, reproduces every affine function and its gradient on every non-degenerate triangle, its gradient is the true derivative, and on a shared edge both neighbouring triangles and on_edge give the same value.", "quantifier": "all grids, parameters, triangles and coordinates", "why_tests_cant": "continuum", "anchors": ["src/tvemoves_rufbad/interpolation.py:P1Interpolation", "src/tvemoves_rufbad/bell_finite_element.py:transform_gradient"]}
{"id": "C41", "title": "Bell element interpolates nodal values, gradients and Hessians", "statement": "At each vertex of any non-degenerate triangle bell_interpolation, its gradient and Hessian return the six parameters u,u_x,u_y,u_xx,u_xy,u_yy given for that vertex.", "quantifier": "all non-degenerate triangles, all parameters", "why_tests_cant": "continuum", "anchors": ["src/tvemoves_rufbad/bell_finite_element.py:bell_interpolation", "src/tvemoves_rufbad/bell_finite_element.py:bell_interpolation_gradient", "src/tvemoves_rufbad/bell_finite_element.py:bell_interpolation_hessian"]}
{"id": "C42", "title": "Bell element reproduces quartic polynomials", "statement": "For parameters taken from any polynomial of degree <= 4 the interpolation equals the polynomial at every point of every non-degenerate triangle, as do gradient and Hessian.", "quantifier": "all non-degenerate triangles, quartics, points", "why_tests_cant": "tests use one triangle and one random polynomial", "anchors": ["src/tvemoves_rufbad/bell_finite_element.py:bell_interpolation", "src/tvemoves_rufbad/bell_finite_element.py:bell_interpolation_gradient", "src/tvemoves_rufbad/bell_finite_element.py:bell_interpolation_hessian"]}
{"id": "C43", "title": "Gradient and Hessian are the true derivatives of the interpolation", "statement": "bell_interpolation_gradient/_hessian are the first/second partial derivatives, with respect to Euclidean coordinates, of the function the interpolation defines.", "quantifier": "all non-degenerate triangles, parameters, points", "why_tests_cant": "continuum; finite differences only approximate", "anchors": ["src/tvemoves_rufbad/bell_finite_element.py:transform_gradient", "src/tvemoves_rufbad/bell_finite_element.py:transform_hessian", "src/tvemoves_rufbad/bell_finite_element.py:bell_interpolation_gradient", "src/tvemoves_rufbad/bell_finite_element.py:bell_interpolation_hessian"]}
{"id": "C44", "title": "C1 regularity across edges", "statement": "On an edge shared by two triangles value and gradient of the C1 interpolation computed in either triangle coincide, for arbitrary parameters at the vertices.", "quantifier": "all pairs of non-degenerate triangles sharing an edge, all parameters, all points of the edge", "why_tests_cant": "continuum; not tested at all in the repo", "anchors": ["src/tvemoves_rufbad/interpolation.py:C1Interpolation", "src/tvemoves_rufbad/bell_finite_element.py:_N1", "src/tvemoves_rufbad/bell_finite_element.py:bell_interpolation_gradient"]}
{"id": "C45", "title": "Edge evaluation is consistent", "statement": "bell_interpolation_on_edge equals the triangle interpolation on that edge (for each of the three edges and both orientations) and depends on the data of the edge's endpoints only.", "quantifier": "all triangles, edges, t and parameters", "why_tests_cant": "continuum", "anchors": ["src/tvemoves_rufbad/bell_finite_element.py:bell_interpolation_on_edge", "src/tvemoves_rufbad/bell_finite_element.py:_N_on_edge", "src/tvemoves_rufbad/interpolation.py:C1Interpolation.on_edge"]}
{"id": "C46", "title": "Interpolation does not depend on vertex numbering", "statement": "Listing a triangle's vertices (with their parameters and coordinates) in any of the six orders gives the same Bell interpolation value.", "quantifier": "all triangles, permutations, parameters, points", "why_tests_cant": "continuum", "anchors": ["src/tvemoves_rufbad/bell_finite_element.py:_cyclic_permutation", "src/tvemoves_rufbad/bell_finite_element.py:_N"]}
{"id": "C47", "title": "Refined interpolation equals the coarse one", "statement": "RefinedInterpolation on a refined grid returns at every fine point the value/gradient/Hessian of the coarse interpolation at the same Euclidean point.", "quantifier": "all refined grids, interpolations, points", "why_tests_cant": "continuum", "anchors": ["src/tvemoves_rufbad/interpolation.py:RefinedInterpolation"]}
{"id": "C48", "title": "Euclidean interpolation is total on the domain and exact", "statement": "EuclideanInterpolation evaluates at every point of the grid rectangle, reproduces affine functions (P1) there, and raises ValueError for points further outside.", "quantifier": "all grids and points", "why_tests_cant": "continuum", "anchors": ["src/tvemoves_rufbad/interpolation.py:EuclideanInterpolation", "src/tvemoves_rufbad/interpolation.py:EuclideanDeformation"]}
{"id": "C49", "title": "Interpolation constructors validate parameter counts", "statement": "P1Interpolation/C1Interpolation/P1BoundaryInterpolation raise ValueError exactly if the number (or for C1 the length) of parameters is wrong; P1 hessian always raises NotImplementedError; the Bell functions reject parameter vectors whose size is not 18.", "quantifier": "all parameter lists", "why_tests_cant": "all sizes", "anchors": ["src/tvemoves_rufbad/interpolation.py:P1Interpolation.__init__", "src/tvemoves_rufbad/interpolation.py:C1Interpolation.__init__", "src/tvemoves_rufbad/interpolation.py:P1BoundaryInterpolation.__init__", "src/tvemoves_rufbad/bell_finite_element.py:bell_interpolation"]}
{"id": "C50", "title": "Austenite potential: frame indifference and single well", "statement": "For det F>0 the austenite potential is >=0, zero exactly on rotations, invariant under F->RF; for det F <= 0 evaluation fails.", "quantifier": "all 2x2 strains", "why_tests_cant": "continuum", "anchors": ["src/tvemoves_rufbad/helpers.py:austenite_potential"]}
{"id": "C51", "title": "Martensite potential has exactly the documented wells", "statement": "The martensite potential is >=0, frame indifferent, vanishes at [1 +-0.5; 0 1] and (README) these are its wells: it vanishes only on rotations of these two matrices.", "quantifier": "all 2x2 strains with det > 0", "why_tests_cant": "continuum", "anchors": ["src/tvemoves_rufbad/helpers.py:martensite_potential", "README.md"]}
{"id": "C52", "title": "Austenite fraction is a monotone fraction", "statement": "austenite_percentage(0)=0, stays in [0,1) for theta>=0 and is strictly increasing; the total elastic potential is a convex combination of the two phases and non-negative.", "quantifier": "all temperatures >= 0, strains with det>0", "why_tests_cant": "continuum", "anchors": ["src/tvemoves_rufbad/helpers.py:austenite_percentage", "src/tvemoves_rufbad/helpers.py:total_elastic_potential"]}
{"id": "C53", "title": "Stress functions are the derivatives of the potentials", "statement": "derivative_austenite_potential/derivative_martensite_potential/strain_derivative_coupling_potential are the true F-derivatives of austenite_potential, martensite_potential and austenite_percentage*(W_A-W_M).", "quantifier": "all strains with det>0, temperatures", "why_tests_cant": "continuum", "anchors": ["src/tvemoves_rufbad/helpers.py:derivative_austenite_potential", "src/tvemoves_rufbad/helpers.py:derivative_martensite_potential", "src/tvemoves_rufbad/helpers.py:strain_derivative_coupling_potential"]}
{"id": "C54", "title": "Internal energy is thermodynamically consistent", "statement": "internal_energy_no_entropy = phi - theta*dphi/dtheta for the coupling potential phi=a(theta)(W_A-W_M); temp_antrider_internal_energy_no_entropy is its antiderivative in theta vanishing at 0; the weight is increasing and in [0,1) for theta>=0.", "quantifier": "all strains, temperatures", "why_tests_cant": "continuum", "anchors": ["src/tvemoves_rufbad/helpers.py:internal_energy_no_entropy", "src/tvemoves_rufbad/helpers.py:temp_antrider_internal_energy_no_entropy", "src/tvemoves_rufbad/helpers.py:internal_energy_weight"]}
{"id": "C55", "title": "Pulled back heat conductivity is symmetric positive definite", "statement": "For det F>0 heat_conductivity_reference(F) is symmetric positive definite (so diffusion energy is >=0 and 0 only for zero gradient); singular F raises.", "quantifier": "all strains", "why_tests_cant": "continuum", "anchors": ["src/tvemoves_rufbad/helpers.py:heat_conductivity_reference", "src/tvemoves_rufbad/thermal_step.py:_energy_potential"]}
{"id": "C56", "title": "Dissipation", "statement": "dissipation_potential is >=0, zero for equal strains, invariant under a common rotation of both strains, and zero exactly if the symmetrized increment vanishes; dissipation_rate is 2*fps^2 times it.", "quantifier": "all pairs of strains", "why_tests_cant": "continuum", "anchors": ["src/tvemoves_rufbad/helpers.py:dissipation_potential", "src/tvemoves_rufbad/helpers.py:dissipation_rate", "src/tvemoves_rufbad/helpers.py:symmetrized_strain_delta"]}
{"id": "C57", "title": "Dirichlet vertices never move", "statement": "In the unregularized scheme, in every recorded step the deformation of each Dirichlet vertex is its reference position.", "quantifier": "all simulations, all numbers of steps, every solver that respects fixed variables", "why_tests_cant": "all histories and solver results", "anchors": ["src/tvemoves_rufbad/mechanical_step.py:_model", "src/tvemoves_rufbad/mechanical_step.py:_MechanicalStep.update_prev_y", "src/tvemoves_rufbad/simulation.py:Simulation"]}
{"id": "C58", "title": "Per-step changes are limited by the search radius", "statement": "Between consecutive recorded steps no coordinate of the deformation and no temperature changes by more than search_radius; the initial guess is always within the bounds.", "quantifier": "all simulations and solvers respecting bounds", "why_tests_cant": "all histories", "anchors": ["src/tvemoves_rufbad/mechanical_step.py:_MechanicalStep.update_prev_y", "src/tvemoves_rufbad/thermal_step.py:_ThermalStep.update_prev_theta"]}
{"id": "C59", "title": "Temperatures stay non-negative", "statement": "Every recorded temperature is >=0 for every solver respecting variable domains and bounds.", "quantifier": "all simulations and solvers", "why_tests_cant": "all histories", "anchors": ["src/tvemoves_rufbad/thermal_step.py:_model", "src/tvemoves_rufbad/mechanical_step.py:_model", "src/tvemoves_rufbad/simulation.py:SimulationParams"]}
{"id": "C60", "title": "Energy-dissipation inequality of the mechanical step", "statement": "If the solver does not return something worse than its starting guess, elastic energy minus traction work plus fps*dissipation after a mechanical step is at most elastic energy minus traction work before it; the dissipation term is >=0.", "quantifier": "all states and descent solvers", "why_tests_cant": "all states", "anchors": ["src/tvemoves_rufbad/mechanical_step.py:_model"]}
{"id": "C61", "title": "Update methods validate shapes and are all-or-nothing", "statement": "update_prev_y/update_y/update_prev_theta raise ValueError exactly for arrays of a wrong shape, and then leave the step unchanged; after a successful update the getters return what was set.", "quantifier": "all steps and arrays", "why_tests_cant": "all shapes", "anchors": ["src/tvemoves_rufbad/mechanical_step.py:_MechanicalStep.update_prev_y", "src/tvemoves_rufbad/thermal_step.py:_ThermalStep.update_y", "src/tvemoves_rufbad/thermal_step.py:_ThermalStep.update_prev_theta", "src/tvemoves_rufbad/mechanical_step.py:_MechanicalStepRegularized.update_prev_y"]}
{"id": "C62", "title": "Regularized Dirichlet constraints pin the whole edge", "statement": "If the six constraints of a Dirichlet edge hold for both components, the C1 deformation is the identity at every point of that edge.", "quantifier": "all Dirichlet edges, all parameter values satisfying the constraints, all points of the edge", "why_tests_cant": "continuum", "anchors": ["src/tvemoves_rufbad/mechanical_step.py:_dirichlet_constraint_regularized", "src/tvemoves_rufbad/interpolation.py:C1Interpolation.on_edge"]}
{"id": "C63", "title": "External forcing is applied in the regularized setting", "statement": "boundary_traction and external_temperature given to Simulation influence a regularized simulation as they do an unregularized one.", "quantifier": "all forcings, all histories", "why_tests_cant": "needs an argument over all forcings", "anchors": ["src/tvemoves_rufbad/mechanical_step.py:_MechanicalStepRegularized", "src/tvemoves_rufbad/thermal_step.py:_ThermalStepRegularized", "src/tvemoves_rufbad/simulation.py:Simulation"]}
{"id": "C64", "title": "Simulations start from the identity deformation", "statement": "The first recorded step is the identity: P1 strain is the identity matrix in every triangle, and in the regularized setting C1 value is the point itself, strain the identity and hyper strain zero, everywhere; the temperature is the initial temperature.", "quantifier": "all grids, triangles, points", "why_tests_cant": "continuum", "anchors": ["src/tvemoves_rufbad/mechanical_step.py:_model", "src/tvemoves_rufbad/mechanical_step.py:_model_regularized", "src/tvemoves_rufbad/simulation.py:Simulation.__init__"]}
{"id": "C65", "title": "Step bookkeeping of run", "statement": "After construction there are 2 steps, each run(n) with n>=1 adds exactly n, earlier steps are never changed; run(n) with n<=0 raises ValueError and changes nothing.", "quantifier": "all sequences of run calls", "why_tests_cant": "all histories", "anchors": ["src/tvemoves_rufbad/simulation.py:Simulation.run", "src/tvemoves_rufbad/simulation.py:Simulation._append_step"]}
{"id": "C66", "title": "Forcing schedule", "statement": "Step k>=1 is computed with traction and external temperature evaluated at time (k-1)/fps.", "quantifier": "all simulations, all k", "why_tests_cant": "all histories", "anchors": ["src/tvemoves_rufbad/simulation.py:Simulation._append_step", "src/tvemoves_rufbad/simulation.py:Simulation._update_mechanical_step", "src/tvemoves_rufbad/simulation.py:Simulation._update_thermal_step"]}
{"id": "C67", "title": "Staggered data flow", "statement": "Step k+1's deformation is the solver's answer to the mechanical problem whose previous deformation/temperature are exactly those of step k, and its temperature the answer to the thermal problem with previous data of step k and the new deformation.", "quantifier": "all simulations, all k, all solvers", "why_tests_cant": "all histories", "anchors": ["src/tvemoves_rufbad/simulation.py:Simulation._run_single_step", "src/tvemoves_rufbad/mechanical_step.py:_MechanicalStep", "src/tvemoves_rufbad/thermal_step.py:_ThermalStep"]}
{"id": "C68", "title": "Plot limits cover all steps", "statement": "max_temp is the maximum of 0 and all recorded temperatures; the plot limits are exactly the bounding box of all deformed vertex positions of all steps.", "quantifier": "all histories, regularized and not", "why_tests_cant": "all histories", "anchors": ["src/tvemoves_rufbad/simulation.py:Simulation._append_step", "src/tvemoves_rufbad/simulation.py:Simulation.max_temp"]}
{"id": "C69", "title": "A failed run does not corrupt the simulation", "statement": "If run raises (solver failure, forcing callback or parameter error) the recorded steps are unchanged, and calling run again continues from the last recorded step.", "quantifier": "all histories and all crash points", "why_tests_cant": "all crash points", "anchors": ["src/tvemoves_rufbad/simulation.py:Simulation._run_single_step", "src/tvemoves_rufbad/simulation.py:Simulation._update_mechanical_step", "src/tvemoves_rufbad/simulation.py:Simulation._update_thermal_step"]}
{"id": "C70", "title": "SimulationParams accepts exactly meaningful parameters", "statement": "Construction succeeds iff initial_temperature>=0, search_radius>0, fps>0, scale>0, regularization (if given) >=0 with a positive refinement_factor; refinement_factor is dropped without regularization.", "quantifier": "all parameter values", "why_tests_cant": "continuum, boundary cases", "anchors": ["src/tvemoves_rufbad/simulation.py:SimulationParams.__post_init__", "src/tvemoves_rufbad/simulation.py:Simulation.__init__"]}
{"id": "C71", "title": "Step indices in plotting and saving follow Python indexing", "statement": "plot_step/save_step address step i for 0<=i<n and n+i for -n<=i<0 and do nothing otherwise; saved file names carry the non-negative index.", "quantifier": "all step counts and integers", "why_tests_cant": "all integers", "anchors": ["src/tvemoves_rufbad/simulation.py:Simulation._plot_step", "src/tvemoves_rufbad/simulation.py:Simulation.save_step"]}
{"id": "C72", "title": "Coarse coordinates do not depend on how the fine triangle is listed", "statement": "to_coarse_barycentric_point accepts a fine triangle in any of its three rotations; for each it should return coordinates of the point that the given coordinates denote in the given rotation.", "quantifier": "all refined grids, fine triangles, rotations and coordinates", "why_tests_cant": "tests only pass triangles as listed in the grid", "anchors": ["src/tvemoves_rufbad/domain.py:RefinedGrid.to_coarse_barycentric_point"]}
{"id": "C73", "title": "Three-tensor arithmetic", "statement": "Addition, subtraction, negation and map of Tensor3D are entrywise and keep the shape, operands of different shapes raise ValueError, normsqr is the sum of the squares of all entries, is non-negative and vanishes only for the zero tensor, and norm is its square root.", "quantifier": "all tensors of all shapes", "why_tests_cant": "all shapes and entries", "anchors": ["src/tvemoves_rufbad/tensors.py:Tensor3D.__add__", "src/tvemoves_rufbad/tensors.py:Tensor3D.__sub__", "src/tvemoves_rufbad/tensors.py:Tensor3D.__neg__", "src/tvemoves_rufbad/tensors.py:Tensor3D.normsqr", "src/tvemoves_rufbad/tensors.py:Tensor3D.map"]}
{"id": "C74", "title": "Exact zero set of the martensite potential", "statement": "For det F>0 the martensite potential vanishes exactly if det F=1 and |F|^2=9/4, i.e. exactly for F = Q [1 0.5; 0 1] R with rotations Q and R (a superset of the documented wells, see C51); for det F=0 it raises ZeroDivisionError.", "quantifier": "all 2x2 strains", "why_tests_cant": "continuum", "anchors": ["src/tvemoves_rufbad/helpers.py:martensite_potential"]}
{"id": "C75", "title": "Hyper elastic potential", "statement": "hyper_elastic_potential is the cube of the norm of the hyper strain: non-negative, and zero exactly for the zero tensor.", "quantifier": "all three-tensors", "why_tests_cant": "continuum", "anchors": ["src/tvemoves_rufbad/helpers.py:hyper_elastic_potential"]}
{"id": "C76", "title": "Well-posed simulations never fail by themselves", "statement": "With valid parameters (fps>0, and for regularized simulations at least one cell and a mesh width above the internal tolerance), forcing callbacks that return a pair of tractions and a non-negative temperature, and a solver that does not raise and respects the non-negativity of temperatures, constructing a Simulation and run(n) for every n>=1 complete without an exception, any number of times.", "quantifier": "all such settings, all histories of run calls", "why_tests_cant": "all settings and unbounded histories", "anchors": ["src/tvemoves_rufbad/simulation.py:Simulation.__init__", "src/tvemoves_rufbad/simulation.py:Simulation.run", "src/tvemoves_rufbad/mechanical_step.py:mechanical_step", "src/tvemoves_rufbad/thermal_step.py:thermal_step"]}
{"id": "C77", "title": "The elastic energy is finite exactly on orientation-preserving deformations, and recorded steps stay there", "statement": "The objective of an unregularized mechanical step evaluates without error exactly for deformations that keep every grid triangle positively oriented (regularized: whose strain has positive determinant at every quadrature point of every refined triangle) and raises ValueError otherwise; if the solver never leaves the domain of the objective, every recorded step of every simulation (also after runs that raised) keeps all triangles positively oriented (regularized: positive Jacobian at all quadrature points).", "quantifier": "all rectangles, scales, grids, parameter arrays; all histories of run calls", "why_tests_cant": "all arrays and unbounded histories", "anchors": ["src/tvemoves_rufbad/mechanical_step.py:_MechanicalStep", "src/tvemoves_rufbad/helpers.py:austenite_potential", "src/tvemoves_rufbad/simulation.py:Simulation.run"]}
{"id": "C78", "title": "Energies of affine deformations are area times density", "statement": "For x -> A x + c the elastic energy at constant temperature is the area of the gridded rectangle times the elastic potential of A (and raises exactly if the potential does), the dissipation from x -> B x + d is the area times the dissipation potential of (B, A), and the hyperelastic energy is 0 (up to the rounding 1 - 1e-15 of the stored weights of the regularized rule).", "quantifier": "all rectangles, scales, refinements, matrices, translations", "why_tests_cant": "all grids and matrices", "anchors": ["src/tvemoves_rufbad/mechanical_step.py:_model", "src/tvemoves_rufbad/integrators.py:Integrator"]}
{"id": "C79", "title": "Integrals over the whole grid and over its refinements", "statement": "For a grid of a rectangle with m x n cells and every refinement of it, the areas sum to the area of the rectangle, and a quadrature rule exact to degree d integrates every polynomial of degree d over the whole rectangle exactly.", "quantifier": "all grids, refinement factors, rules, polynomials", "why_tests_cant": "all grids and polynomials", "anchors": ["src/tvemoves_rufbad/integrators.py:Integrator", "src/tvemoves_rufbad/domain.py:RectangleDomain.grid", "src/tvemoves_rufbad/domain.py:Grid.refine"]}
{"id": "C80", "title": "Energies do not see rigid motions", "statement": "The elastic and hyperelastic energies of a deformation do not change (nor whether they are defined) if it is followed by a rotation and a translation; neither does the dissipation, if previous and new deformation are rotated by the same angle.", "quantifier": "all grids, deformation parameters, rotations, translations, with and without regularization", "why_tests_cant": "all deformations", "anchors": ["src/tvemoves_rufbad/mechanical_step.py:_MechanicalStep", "src/tvemoves_rufbad/mechanical_step.py:_MechanicalStepRegularized", "src/tvemoves_rufbad/helpers.py:total_elastic_potential"]}
{"id": "C81", "title": "Work of the boundary traction", "statement": "The traction term of the unregularized objective is the mesh width times the sum over the Neumann edges of mean traction times mean deformed position of the two ends; translating the deformed body adds the scalar product of the translation with the total force.", "quantifier": "all rectangles, scales, fixed sides, tractions, deformations", "why_tests_cant": "all grids and forces", "anchors": ["src/tvemoves_rufbad/mechanical_step.py:_MechanicalStep", "src/tvemoves_rufbad/integrators.py:BoundaryIntegrator"]}
{"id": "C82", "title": "The thermal objective is defined exactly for deformations that keep the orientation", "statement": "For a thermal step on the grid of a rectangle (with or without regularization) the objective has a value at given temperatures iff both the previous and the new deformation have strains with positive determinant at the points of the quadrature rule, whatever the temperatures; without regularization iff no triangle of the previous or new deformation is flipped or degenerate. In a simulation whose solver does not leave the domain of the mechanical objective every thermal objective is defined.", "quantifier": "all grids, deformations, temperatures, histories of a thermal step, simulations of any length", "why_tests_cant": "a statement about every deformation and temperature field on every grid; minimality and uniqueness quantify over all competitors", "anchors": ["src/tvemoves_rufbad/thermal_step.py:AbstractThermalStep", "src/tvemoves_rufbad/thermal_step.py:_energy_potential"]}
{"id": "C83", "title": "Positive heat capacity", "statement": "At every strain with positive determinant the internal energy is strictly increasing in the temperature.", "quantifier": "all strains and temperatures", "why_tests_cant": "a statement about every deformation and temperature field on every grid; minimality and uniqueness quantify over all competitors", "anchors": ["src/tvemoves_rufbad/helpers.py:internal_energy"]}
{"id": "C84", "title": "A body in equilibrium stays in equilibrium", "statement": "If the body does not move in the time step, has a constant temperature and (without regularization) the external temperature is the same, then keeping this temperature minimizes the thermal objective, strictly.", "quantifier": "all grids, deformations, temperatures, frame rates", "why_tests_cant": "a statement about every deformation and temperature field on every grid; minimality and uniqueness quantify over all competitors", "anchors": ["src/tvemoves_rufbad/thermal_step.py:AbstractThermalStep", "src/tvemoves_rufbad/thermal_step.py:_ThermalStep", "src/tvemoves_rufbad/thermal_step.py:_ThermalStepRegularized"]}
{"id": "C85", "title": "The solution of the thermal step is unique", "statement": "The thermal objective has at most one minimizer among the temperatures admitted by domain and bounds.", "quantifier": "all grids, deformations, previous temperatures, bounds", "why_tests_cant": "a statement about every deformation and temperature field on every grid; minimality and uniqueness quantify over all competitors", "anchors": ["src/tvemoves_rufbad/thermal_step.py:AbstractThermalStep"]}
{"id": "C86", "title": "The thermal step solves the heat equation", "statement": "The temperatures minimizing the thermal objective, if no bound is active, solve the weak form of the time-discrete heat equation: for every test function, flux (heat_conductivity_reference of the previous strain times the temperature gradient) against the gradient of the test function, plus fps times the change of internal energy minus dissipation rate and adiabatic power against the test function, plus heat loss through the boundary, is zero.", "quantifier": "all grids, deformations, temperatures, test functions", "why_tests_cant": "a statement about every deformation and temperature field on every grid; minimality and uniqueness quantify over all competitors", "anchors": ["src/tvemoves_rufbad/thermal_step.py:_energy_potential", "src/tvemoves_rufbad/thermal_step.py:_dissipation_potential", "src/tvemoves_rufbad/thermal_step.py:_boundary_potential"]}
{"id": "C87", "title": "Energy balance of the thermal step", "statement": "If the new temperatures minimize the thermal objective and no bound is active, the internal energy of the body changes by the heat produced (dissipation rate plus adiabatic power) minus the heat lost through the boundary, times the length of the time step; also for every step of a simulation.", "quantifier": "all grids, deformations, temperatures, simulations of any length", "why_tests_cant": "a statement about every deformation and temperature field on every grid; minimality and uniqueness quantify over all competitors", "anchors": ["src/tvemoves_rufbad/thermal_step.py:AbstractThermalStep", "src/tvemoves_rufbad/helpers.py:internal_energy", "src/tvemoves_rufbad/helpers.py:dissipation_rate"]}
{"id": "C88", "title": "The thermal step is solvable", "statement": "If both deformations keep the orientation and some temperature satisfies the bounds, the thermal objective has a minimizer (whether only one: C85); in a simulation whose solver does not leave the domain of the mechanical objective every thermal problem has a minimizer.", "quantifier": "all grids, deformations, previous temperatures, bounds, simulations of any length", "why_tests_cant": "a statement about every deformation and temperature field on every grid; minimality and uniqueness quantify over all competitors", "anchors": ["src/tvemoves_rufbad/thermal_step.py:AbstractThermalStep", "src/tvemoves_rufbad/thermal_step.py:ThermalStep"]}
{"id": "C89", "title": "A plot shows the recorded step", "statement": "plot_step(i) of a simulation with at least one grid cell per direction never raises: for a valid index it draws exactly the step that Python indexing selects, complete (all triangles of the step's grid, every vertex at step.y with colour step.theta, colour scale 0 to max_temp) within the limits of the simulation; without regularization the drawn values are the recorded ones and inside the view. Other indices draw nothing.", "quantifier": "all simulations, histories, indices, grid sizes", "why_tests_cant": "quantifies over every history of runs and every grid", "anchors": ["src/tvemoves_rufbad/simulation.py:AbstractStep._plot_temperature", "src/tvemoves_rufbad/simulation.py:Simulation.plot_step"]}
{"id": "C90", "title": "Colours on scale, body in view", "statement": "No drawn temperature is outside the colour scale, with or without regularization; with regularization too the drawn body lies inside the limits of the picture.", "quantifier": "all simulations and steps", "why_tests_cant": "values between grid points of arbitrary recorded data", "anchors": ["src/tvemoves_rufbad/simulation.py:RegularizedStep", "src/tvemoves_rufbad/simulation.py:Simulation._update_lims"]}
{"id": "C91", "title": "Films and picture files", "statement": "save_animation writes one frame per step, in order, each equal to plot_step of that step; the film runs in real time. save_step names its file by the position of the step: different steps never share a file, all indices of a step do, and the file shows what plot_step shows.", "quantifier": "all simulations, indices, paths", "why_tests_cant": "quantifies over all histories, indices and file names", "anchors": ["src/tvemoves_rufbad/simulation.py:Simulation.save_animation", "src/tvemoves_rufbad/simulation.py:Simulation.save_step"]}
{"id": "C92", "title": "Drawing grids and domains", "statement": "Grid.plot on an axis adds one dot per vertex and one segment per edge, never shrinks the view and shows the whole grid; without an axis it creates one. RectangleDomain.plot shows the whole rectangle.", "quantifier": "all domain grids and refinements, all axes", "why_tests_cant": "every grid size and prior axis state", "anchors": ["src/tvemoves_rufbad/domain.py:Grid.plot", "src/tvemoves_rufbad/domain.py:RectangleDomain.plot", "src/tvemoves_rufbad/helpers.py:fig_axis"]}
{"id": "C93", "title": "Deformed curves", "statement": "Drawing the deformed curves of a step succeeds for every rectangle and mesh width and draws, for every curve of the domain, the line through the images of its points.", "quantifier": "all simulations, steps, numbers of curves and points", "why_tests_cant": "depends on whether the mesh width divides the sides, for all rectangles", "anchors": ["src/tvemoves_rufbad/simulation.py:AbstractStep._plot_deformation_curves", "src/tvemoves_rufbad/domain.py:RectangleDomain.curves"]}
{"id": "C94", "title": "The mechanical problem has a solution", "statement": "If some admissible deformation (within the search bounds, fixed values kept, boundary constraints satisfied) has a defined objective, then some admissible deformation has the smallest objective among all of them. The problem posed by every step of a simulation whose solver keeps the objective defined is of this kind.", "quantifier": "all grids, refinements, previous states, loads, bounds and radii; all simulations and steps", "why_tests_cant": "existence of a minimizer over a continuum of deformations, with an objective that is undefined on part of it", "anchors": ["src/tvemoves_rufbad/mechanical_step.py:_MechanicalStep", "src/tvemoves_rufbad/mechanical_step.py:_MechanicalStepRegularized"]}
{"id": "C95", "title": "A mechanical step solves the balance of momentum", "statement": "The derivative of the mechanical objective in the direction of a virtual velocity is the power of elastic and viscous stress minus the work of the traction (with regularization: plus the power of the hyper stress, without traction). A solution of the mechanical problem makes it zero in all directions in which it can be moved both ways, and nonnegative towards all other admissible deformations; a body that is nowhere fixed can be at rest strictly within its bounds only if the tractions add up to zero.", "quantifier": "all mechanical problems, deformations and virtual velocities; all simulations with an exact solver", "why_tests_cant": "derivative along every direction at every deformation", "anchors": ["src/tvemoves_rufbad/mechanical_step.py:_MechanicalStep", "src/tvemoves_rufbad/mechanical_step.py:_MechanicalStepRegularized", "src/tvemoves_rufbad/helpers.py:derivative_martensite_potential", "src/tvemoves_rufbad/helpers.py:strain_derivative_coupling_potential"]}
{"id": "C96", "title": "Simulations with an exact solver", "statement": "There are solvers that return a minimizer of every problem that has one and never raise. A simulation with such a solver never raises, every recorded step is a solution of the mechanical problem posed by its predecessor followed by a solution of the thermal problem, and stored energy minus work plus dissipation does not grow.", "quantifier": "all valid settings, numbers of runs, steps", "why_tests_cant": "existence and optimality over all histories", "anchors": ["src/tvemoves_rufbad/simulation.py:Simulation.run", "src/tvemoves_rufbad/mechanical_step.py:mechanical_step", "src/tvemoves_rufbad/thermal_step.py:thermal_step"]}
{"id": "C97", "title": "Rest states", "statement": "Stored energies and dissipation are never negative. If no traction acts and the last deformation stores no energy, it is itself a solution of the mechanical problem and every solution stores and dissipates nothing. At temperature 0 every rotated and shifted homogeneous martensite variant is such a deformation.", "quantifier": "all mechanical problems with nonnegative previous temperatures, all deformations, all rotations", "why_tests_cant": "global optimality over a continuum", "anchors": ["src/tvemoves_rufbad/mechanical_step.py:_MechanicalStep", "src/tvemoves_rufbad/helpers.py:total_elastic_potential", "src/tvemoves_rufbad/helpers.py:dissipation_potential"]}
{"id": "C98", "title": "Vertex counts in floating point", "statement": "In Python's floats the number of vertices along a side is one more than the number of whole mesh widths that fit, except that a quotient that falls short of a whole number by at most one rounding error may be counted as that number. A side that is exactly a whole number of mesh widths gets all its vertices; asking for k cells through the mesh width width/k loses at most one of them.", "quantifier": "all binary64 widths and mesh widths with at most 2^52 cells", "why_tests_cant": "rounding must be controlled for every pair of floats", "anchors": ["src/tvemoves_rufbad/domain.py:RectangleDomain.grid"]}
{"id": "C99", "title": "Rectangle grids in floating point", "statement": "The grid of a rectangle computed in floats has exactly the vertices, edges, triangles and boundaries (same indices, order and orientation) of the exact grid of the cells that fit; its points are the exact points up to one relative rounding error each, no point is outside the rectangle by more than three, and looking up the point of a vertex finds that vertex.", "quantifier": "all binary64 rectangles and mesh widths of moderate size (mesh width 1e-14 to 2^400, at most 500000 cells per side), all ways of fixing sides", "why_tests_cant": "rounding and a tolerance proportional to the mean edge length, for every size", "anchors": ["src/tvemoves_rufbad/domain.py:RectangleDomain.grid", "src/tvemoves_rufbad/domain.py:Grid.point_to_vertex", "src/tvemoves_rufbad/domain.py:Grid.__init__"]}
{"id": "C100", "title": "Refinement in floating point", "statement": "Refining such a grid in floats never fails and gives the same vertices, edges, triangles, boundaries and maps to coarse triangles and edges as exact arithmetic; points are within 40 relative rounding errors of the longer side, stored barycentric coordinates within 9 rounding errors and stored edge coordinates within 4; the points of the coarse grid are kept unchanged and looking up a point of the refined grid finds its vertex.", "quantifier": "all moderate binary64 rectangles and mesh widths, all refinement factors", "why_tests_cant": "shared points of neighbouring triangles are merged by comparing rounded coordinates: must hold for every size and factor", "anchors": ["src/tvemoves_rufbad/domain.py:RectangleDomain.refine", "src/tvemoves_rufbad/domain.py:_refine_triangle", "src/tvemoves_rufbad/domain.py:Grid.point_to_vertex"]}
{"id": "C101", "title": "Refining a refined grid in floating point", "statement": "A refined grid can be refined again (as every regularized simulation does for plotting).", "quantifier": "all moderate binary64 rectangles, mesh widths and factors", "why_tests_cant": "depends on rounding of every coordinate", "anchors": ["src/tvemoves_rufbad/domain.py:RectangleDomain.refine", "src/tvemoves_rufbad/simulation.py:RegularizedStep"]}
{"id": "C102", "title": "Decimal sides in floating point", "statement": "A rectangle whose sides are whole multiples of the mesh width in decimal notation is covered by its grid, gets as many cells as the quotient says, and contains every vertex of its grid.", "quantifier": "all decimal widths and mesh widths, read as binary64 floats", "why_tests_cant": "fails only for some decimals", "anchors": ["src/tvemoves_rufbad/domain.py:RectangleDomain.grid"]}
{"id": "C103", "title": "Equality of vectors, matrices, tensors", "statement": "a == b holds exactly if a and b have the same shape and the same entry at every index, exactly if the norm of a - b is zero; for floats exactly if the entries are the same numbers, exactly if every entry of a - b is zero.", "quantifier": "all vectors, matrices, tensors of any shape over the reals; all vectors of binary64 numbers", "why_tests_cant": "two-sided claim over all shapes; gradual underflow", "anchors": ["src/tvemoves_rufbad/tensors.py:Vector.__eq__", "src/tvemoves_rufbad/tensors.py:Matrix.__eq__", "src/tvemoves_rufbad/tensors.py:Tensor3D.__eq__"]}
{"id": "C104", "title": "Slices of vectors", "statement": "v[a:b:c] raises exactly for c = 0 and otherwise is the vector of the entries of v at a, a+c, a+2c, ... as long as they come before b (negative bounds from the end, clipped, omitted bounds the ends); v[a:b] are the entries between the bounds (negative bounds from the end, clipped); v[:k] extended by v[k:] is v; v[::-1] is v reversed; v[::c] has every c-th entry.", "quantifier": "all vectors and all slice objects", "why_tests_cant": "all bounds, signs and steps", "anchors": ["src/tvemoves_rufbad/tensors.py:Vector.__getitem__", "src/tvemoves_rufbad/tensors.py:Vector.extend"]}
{"id": "C105", "title": "Printed tensors can be read back", "statement": "Two vectors (barycentric coordinates, matrices, tensors) have the same repr, or the same str, only if their entries print the same, entry by entry and row by row; printing never raises.", "quantifier": "all vectors, matrices, tensors, and every way of printing numbers without blanks, commas, brackets", "why_tests_cant": "injectivity over all shapes", "anchors": ["src/tvemoves_rufbad/tensors.py:Vector.__repr__", "src/tvemoves_rufbad/tensors.py:Matrix.__str__", "src/tvemoves_rufbad/tensors.py:Tensor3D.__repr__"]}
{"id": "C106", "title": "Point location in floating point", "statement": "In Python's binary64 arithmetic grid.to_barycentric_point finds every point of the meshed rectangle (no point is lost at a seam between triangles) and what it returns, also for points near but outside the rectangle, is a triangle of the grid with weights within 13400*K relative rounding errors of the exact barycentric coordinates in that triangle, none of which is below -(1e-10/s^2 + 300*K*2^-53); K is the larger number of cells along a side. It never raises. For grids built by domain.grid and their refinements, mesh width s at least 1e-4, s times the longer side at most 2900.", "quantifier": "all floats w, h, s, all refinement factors and all pairs of floats x, y in the stated ranges; every set order and fixed boundary", "why_tests_cant": "all points and all grids; the rounding errors of two neighbouring triangles have to be excluded together", "anchors": ["src/tvemoves_rufbad/domain.py:Grid.to_barycentric_point", "src/tvemoves_rufbad/domain.py:_triangle_contains_point", "src/tvemoves_rufbad/domain.py:_to_barycentric_coordinates"]}
{"id": "C107", "title": "No point of a grid is lost, whatever its size", "statement": "Every point of the rectangle covered by the grid is located by to_barycentric_point, for all sizes of rectangles with moderate cell counts.", "quantifier": "all grids built by domain.grid, all float points between its vertices", "why_tests_cant": "lost points are rare (a few in a hundred thousand, next to diagonals only)", "anchors": ["src/tvemoves_rufbad/domain.py:_triangle_contains_point", "src/tvemoves_rufbad/domain.py:Grid.to_barycentric_point"]}
{"id": "C108", "title": "P1 interpolation converges with the mesh", "statement": "Interpolating a function sampled at the grid points with P1Interpolation gives, anywhere in the rectangle, values within a multiple of the mesh width of the function if it is Lipschitz; within a multiple of the squared mesh width, with a gradient within a multiple of the mesh width, if its second derivatives are bounded. This holds for barycentric evaluation and, up to the tolerance of point location, for EuclideanInterpolation; on refined grids too.", "quantifier": "all meshes (grids and refinements of any size), all Lipschitz / twice differentiable functions, all points of the rectangle", "why_tests_cant": "a test checks a few functions on a few meshes", "anchors": ["src/tvemoves_rufbad/interpolation.py:P1Interpolation", "src/tvemoves_rufbad/interpolation.py:EuclideanInterpolation", "src/tvemoves_rufbad/domain.py:Grid"]}
{"id": "C109", "title": "Numerical integration converges with the mesh", "statement": "Integrating a function over a grid with an Integrator gives a value within a multiple of the mesh width times the area of the exact integral if the function is Lipschitz, and within a multiple of the squared mesh width times the area if its second derivatives are bounded and the rule is exact for affine functions; for all six rules of the library.", "quantifier": "all meshes, all accepted quadrature rules, all Lipschitz / twice differentiable functions", "why_tests_cant": "a test integrates a few functions on a few meshes", "anchors": ["src/tvemoves_rufbad/integrators.py:Integrator", "src/tvemoves_rufbad/quadrature_rules.py"]}
{"id": "C110", "title": "C1 interpolation converges with the mesh", "statement": "If the nodal parameters of a C1Interpolation are the values and the first and second derivatives of a function with bounded fifth derivatives, then everywhere in the domain the interpolation is within a constant times the fifth power of the mesh width of the function, its gradient within a constant times the fourth power and its Hessian within a constant times the third power; both for evaluation by triangle and barycentric coordinates and for evaluation at a point of the plane.", "quantifier": "all meshes, all triangles, all points, all functions with bounded derivatives of order five", "why_tests_cant": "a test interpolates a few functions (mostly polynomials the element reproduces) on a few meshes and samples a few points", "anchors": ["src/tvemoves_rufbad/interpolation.py:C1Interpolation", "src/tvemoves_rufbad/bell_finite_element.py:bell_interpolation", "src/tvemoves_rufbad/bell_finite_element.py:bell_interpolation_gradient", "src/tvemoves_rufbad/bell_finite_element.py:bell_interpolation_hessian"]}
{"id": "C111", "title": "The plain discrete energies are consistent with the continuum energies", "statement": "If the vertex values of a deformation are those of a deformation of the body with bounded, Lipschitz first derivatives and Jacobian bounded away from zero, and the vertex temperatures those of a non-negative Lipschitz temperature, then on every sufficiently fine grid the non-regularized mechanical step's elastic energy can be evaluated and differs from the integral of the elastic energy density of the true deformation gradient and temperature by at most a constant times the mesh width; likewise the dissipation between the previous and the new deformation differs from its integral by at most a constant times the mesh width. The constants depend only on the size of the body and the bounds, not on the grid, the deformation or the temperature.", "quantifier": "all body sizes, all bounds, all sufficiently fine grids, all deformations and temperatures within the bounds", "why_tests_cant": "a test compares one deformation on a few grids; an order of accuracy with a uniform constant is a statement about all of them", "anchors": ["src/tvemoves_rufbad/mechanical_step.py:_MechanicalStep", "src/tvemoves_rufbad/helpers.py:total_elastic_potential", "src/tvemoves_rufbad/helpers.py:dissipation_potential", "src/tvemoves_rufbad/integrators.py:Integrator", "src/tvemoves_rufbad/interpolation.py:P1Interpolation"]}
{"id": "C112", "title": "The regularized discrete energies are consistent with the continuum energies", "statement": "If the six nodal values of each component of a deformation are value, first and second derivatives of a deformation of the body with bounded derivatives up to order five and Jacobian bounded away from zero, and the temperatures those of a non-negative Lipschitz temperature, then on every sufficiently fine grid the regularized mechanical step's elastic energy and dissipation can be evaluated and differ from the integrals of their densities at the true strains by at most a constant times (s^4 + s/N), the hyper-elastic energy from the integral of the cubed norm of the second derivatives by at most a constant times (s^3 + s/N), s being the mesh width and N the refinement factor, up to a relative error of 1e-14 (rounded quadrature weights); the minimized objective is their sum weighted with the regularization and the scaled inverse time step. The constants depend only on the size of the body and the bounds.", "quantifier": "all body sizes, all bounds, all sufficiently fine grids and refinement factors, all deformations and temperatures within the bounds, all parameters of the step", "why_tests_cant": "a test compares one deformation on a few grids; an order of accuracy with a uniform constant is a statement about all of them", "anchors": ["src/tvemoves_rufbad/mechanical_step.py:_MechanicalStepRegularized", "src/tvemoves_rufbad/helpers.py:hyper_elastic_potential", "src/tvemoves_rufbad/interpolation.py:RefinedInterpolation", "src/tvemoves_rufbad/bell_finite_element.py:bell_interpolation_hessian", "src/tvemoves_rufbad/quadrature_rules.py:DUNAVANT5"]}
{"id": "C113", "title": "Recorded steps nearly minimize the continuous functional", "statement": "In a regularized simulation whose solver returns minimizers, the objective of every recorded deformation (elastic energy plus regularization times hyper-elastic energy plus fps times dissipation, as computed) is at most the corresponding integrals for any smooth deformation of the body that is the identity on the fixed sides, keeps its Jacobian above a positive bound and stays, with its first and second derivatives, within the search radius of the previous step, up to a constant times (1 + reg + fps)(s^3 + s/N) and a relative error of 1e-14; the constant depends on the body, the smoothness bound and the Jacobian bound only. Such a competitor satisfies the boundary constraints of the discrete problem.", "quantifier": "all regularized simulations with an exact solver, all recorded steps, all smooth competing deformations, all sufficiently fine meshes", "why_tests_cant": "an inequality against all smooth deformations on all meshes", "anchors": ["src/tvemoves_rufbad/mechanical_step.py:_MechanicalStepRegularized", "src/tvemoves_rufbad/simulation.py:Simulation.run"]}
{"id": "C114", "title": "Boundary work and plain mechanical objective are consistent", "statement": "For a boundary traction and a deformation of the body that are bounded and Lipschitz, the traction energy computed in an unregularized mechanical step differs from the integral of traction times deformation over exactly those sides of the rectangle that the fix argument does not name by at most a constant times the mesh width; and for deformations with bounded, Lipschitz first derivatives and positive Jacobian the whole objective differs from elastic energy minus work plus fps times dissipation by at most a constant times (1 + fps) times the mesh width. The constants depend on the size of the body and the bounds only.", "quantifier": "all rectangles, fix arguments, mesh widths, tractions, deformations and temperatures with the stated bounds", "why_tests_cant": "a convergence rate on all meshes, for all fields", "anchors": ["src/tvemoves_rufbad/mechanical_step.py:_MechanicalStep", "src/tvemoves_rufbad/integrators.py:BoundaryIntegrator", "src/tvemoves_rufbad/domain.py:RectangleDomain.grid"]}
{"id": "C115", "title": "Recorded plain steps nearly minimize the continuous functional", "statement": "In an unregularized simulation whose solver returns minimizers, the objective of every recorded deformation (elastic energy minus work of the traction plus fps times dissipation, as computed) is at most the corresponding integrals for any deformation of the body with bounded, Lipschitz first derivatives and Jacobian above a positive bound that is the identity on the fixed sides and stays within the search radius of the previous step, up to a constant times (1 + fps) times the mesh width. The traction is the user's function at the time of the step.", "quantifier": "all unregularized simulations with an exact solver, all recorded steps, all regular competing deformations, all sufficiently fine meshes", "why_tests_cant": "an inequality against all regular deformations on all meshes", "anchors": ["src/tvemoves_rufbad/mechanical_step.py:_MechanicalStep", "src/tvemoves_rufbad/simulation.py:Simulation.run"]}
{"id": "C116", "title": "The plain thermal objective is consistent", "statement": "For previous and new deformations with bounded, Lipschitz first derivatives and Jacobian above a positive bound, a Lipschitz non-negative previous temperature and a non-negative temperature with bounded, Lipschitz gradient, each of the three sums of the unregularized thermal step evaluated at nodal values (conduction minus heat produced, storage of heat, exchange of heat through all four sides) differs from the integral of the same density at the exact strains and temperatures by at most a constant, depending on the size of the body and the bounds only, times (1 + fps)^2 times the mesh width; so does the whole objective.", "quantifier": "all rectangles, mesh widths, deformations, temperatures and external temperatures with the stated bounds", "why_tests_cant": "a convergence rate on all meshes, for all fields", "anchors": ["src/tvemoves_rufbad/thermal_step.py:_ThermalStep", "src/tvemoves_rufbad/helpers.py:energy_potential", "src/tvemoves_rufbad/integrators.py:BoundaryIntegrator"]}
{"id": "C117", "title": "The regularized thermal objective is consistent", "statement": "For smooth previous and new deformations with Jacobian above a positive bound, entered with their nodal values and derivatives, and temperatures as in C116 on the refined grid, the sums of the regularized thermal step differ from the integrals by at most a constant times (1 + fps)^2 times (s^4 + s/N), with s the mesh width and N the refinement factor, plus 1e-14 times the absolute value of the integrals for the rounded quadrature weights.", "quantifier": "all rectangles, mesh widths, refinement factors, smooth deformations and temperatures with the stated bounds", "why_tests_cant": "a convergence rate on all meshes, for all fields", "anchors": ["src/tvemoves_rufbad/thermal_step.py:_ThermalStep", "src/tvemoves_rufbad/helpers.py:energy_potential", "src/tvemoves_rufbad/domain.py:RefinedGrid"]}
{"id": "C118", "title": "Recorded plain temperatures nearly minimize the continuous functional", "statement": "In an unregularized simulation whose solver returns minimizers, if the recorded deformations of two successive steps and the earlier temperature are nodal values of regular fields, then the thermal objective of the recorded new temperatures is at most the continuous functional (conduction minus heat produced, exchange with the surroundings at the temperature the user's function gives for the time of the step, storage) at any non-negative regular temperature within the search radius of the previous one, plus a constant times (1 + fps)^2 times the mesh width. If the recorded temperatures are nodal values of a regular temperature, the continuous functional there is at most that of any competitor plus such an error.", "quantifier": "all unregularized simulations with an exact solver, all recorded steps, all regular competing temperatures, all sufficiently fine meshes", "why_tests_cant": "an inequality against all regular temperatures on all meshes", "anchors": ["src/tvemoves_rufbad/thermal_step.py:_ThermalStep", "src/tvemoves_rufbad/helpers.py:energy_potential", "src/tvemoves_rufbad/simulation.py:Simulation.run"]}
{"id": "C119", "title": "Recorded regularized temperatures nearly minimize the continuous functional", "statement": "As C118 for regularized simulations: the body is insulated, deformations are entered with their nodal values and derivatives, temperatures live on the refined grid, and the error is a constant times (1 + fps)^2 times (s^4 + s/K) plus 1e-14 times the absolute values of the integrals.", "quantifier": "all regularized simulations with an exact solver, all recorded steps, all regular competing temperatures, all sufficiently fine meshes", "why_tests_cant": "an inequality against all regular temperatures on all meshes", "anchors": ["src/tvemoves_rufbad/thermal_step.py:_ThermalStep", "src/tvemoves_rufbad/helpers.py:energy_potential", "src/tvemoves_rufbad/simulation.py:Simulation.run", "src/tvemoves_rufbad/domain.py:RefinedGrid"]}
{"id": "C120", "title": "From the transition temperature on the undeformed body is stable", "statement": "At a temperature t >= 0 the undeformed state has the least elastic energy density of all strains with positive Jacobian exactly if t is at least ln(3/2)/5, and then only rotations share it. Hence, with and without regularization, if all previous temperatures are at least ln(3/2)/5, there is no traction (regularized steps ignore it) and the body is in a rotated and shifted undeformed state that is admissible, keeping it is a solution of the mechanical step, and every other solution has a rotation as strain at all quadrature points.", "quantifier": "all temperatures and strains; all grids, refinements, previous temperatures above the transition, rigid states and solutions", "why_tests_cant": "global minimality over all strains and all deformations; the threshold is a real number", "anchors": ["src/tvemoves_rufbad/helpers.py:total_elastic_potential", "src/tvemoves_rufbad/mechanical_step.py:_MechanicalStep"]}
{"id": "C121", "title": "Above the transition temperature an unloaded body stays at rest", "statement": "Without regularization, a deformation whose strains are rotations (possibly different ones in different triangles) is a single rotation followed by a translation; so all solutions of the mechanical step in C120 that start from the undeformed body are rigid motions, and if a side is held the undeformed body is the only one. In a simulation with a held side, without traction and with a solver that returns minimizers, every step whose predecessors are all at or above the transition temperature is undeformed; if initial and external temperature are the same constant at or above it, all recorded positions are the reference positions and all recorded temperatures that constant, forever.", "quantifier": "all plain grids and deformations; all unregularized simulations with an exact solver, all lengths", "why_tests_cant": "uniqueness of minimizers and an invariant of all steps of all simulations", "anchors": ["src/tvemoves_rufbad/helpers.py:total_elastic_potential", "src/tvemoves_rufbad/mechanical_step.py:_MechanicalStep", "src/tvemoves_rufbad/simulation.py:Simulation.run"]}
{"id": "C122", "title": "With regularization a body at or above the transition temperature never moves or changes temperature", "statement": "In a regularized simulation with positive regularization and a solver that returns minimizers, started at a constant temperature at or above ln(3/2)/5, every recorded step has that temperature at every vertex, and its deformation has the identity as strain and vanishing second derivatives at every point of the degree 5 rule in every refined triangle, whatever the traction, the external temperature and the fixed sides (regularized steps ignore the forces). Hence in every recorded step the body is the undeformed one moved by a single vector, with the derivatives of the identity at every vertex, and if a side is fixed it is not moved at all. More generally, whenever the previous deformation has rotations as strains and no second derivatives at these points, every solution of the mechanical step has the same strains and no second derivatives there.", "quantifier": "all regularized simulations with an exact solver, all lengths, all refinements, tractions and external temperatures", "why_tests_cant": "uniqueness of minimizers and an invariant of all steps of all simulations", "anchors": ["src/tvemoves_rufbad/helpers.py:total_elastic_potential", "src/tvemoves_rufbad/mechanical_step.py:_RegularizedMechanicalStep", "src/tvemoves_rufbad/thermal_step.py:_RegularizedThermalStep", "src/tvemoves_rufbad/simulation.py:Simulation.run"]}
{"id": "C123", "title": "The regularization term vanishes for affine deformations only", "statement": "On every refined grid the hyper elastic energy of a deformation is 0 exactly if the deformation is affine, x -> A x + c: all coefficients are those of one affine map (values A x + c, gradients A, zero second derivatives at all vertices). So the quadrature at the points of the refined triangles misses no curved Bell element. Hence with positive regularization and dissipation and all previous temperatures at or above ln(3/2)/5, from a rotated and shifted undeformed state all solutions of the regularized mechanical step are translations of that state.", "quantifier": "all rectangles, widths, refinement factors and coefficient vectors; all such mechanical problems and all their solutions", "why_tests_cant": "the kernel of a seminorm on all deformations of all grids", "anchors": ["src/tvemoves_rufbad/mechanical_step.py:_RegularizedMechanicalStep", "src/tvemoves_rufbad/helpers.py:hyper_elastic_potential", "src/tvemoves_rufbad/bell_finite_element.py", "src/tvemoves_rufbad/quadrature_rules.py:DUNAVANT5", "src/tvemoves_rufbad/interpolation.py:RefinedInterpolation"]}
{"id": "C124", "title": "The time steps respond monotonically to their constants", "statement": "Compare solutions of two time steps that start from the same state and differ in one constant. Mechanical step, higher frame rate (shorter time step): the body dissipates no more, and the remaining part of the objective is no lower. More regularization: no more regularization energy, and the remaining energies are no lower. Another load: on the new solution the load has gained at least as much work as on the old one; in particular a load c > 1 times as large does, measured with the original load, at least as much work, and the body stores plus dissipates at least as much energy. Thermal step, warmer surroundings: the mean temperature of the boundary is no lower. The constructor called with the other constant returns exactly the changed step.", "quantifier": "all mechanical and thermal steps, all constants and all solutions of both problems (they need not be unique)", "why_tests_cant": "compares all solutions of all pairs of non-convex problems", "anchors": ["src/tvemoves_rufbad/mechanical_step.py:mechanical_step", "src/tvemoves_rufbad/mechanical_step.py:_MechanicalStep", "src/tvemoves_rufbad/mechanical_step.py:_MechanicalStepRegularized", "src/tvemoves_rufbad/thermal_step.py:_ThermalStep"]}
