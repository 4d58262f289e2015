{"id": "C01", "title": "Shell sort sorts", "statement": "For every slice of floats containing no NaN, of any length including 0, Shell terminates without an index panic and leaves the slice in ascending order, holding exactly the same elements with the same multiplicities as before.", "quantifier": "all finite slices of non-NaN float64 values", "why_tests_cant": "The input space is infinite; the gap sequence 1,4,13,40,... exercises different code for every length range, and random tests only sample lengths and orderings.", "anchors": ["math/sort/shell.go: Shell"]}
{"id": "C02", "title": "Quicksort sorts", "statement": "For every slice of floats containing no NaN, Quick terminates without an index panic and leaves the slice ascending and a permutation of the input.", "quantifier": "all finite slices of non-NaN float64 values, including ones with many duplicates", "why_tests_cant": "Quicksort depends on sentinel placement and on both recursive slices being strictly smaller; adversarial orders and duplicates are not enumerable by tests.", "anchors": ["math/sort/quick.go: Quick, partition, sort3"]}
{"id": "C03", "title": "Sorting never loses data or crashes, even with NaN", "statement": "For every slice of float64 values, including NaN and infinities in any position, Shell and Quick terminate, never index out of range, and the result is a permutation of the input.", "quantifier": "all finite slices over all of float64 including NaN", "why_tests_cant": "The unguarded inner scans of the partition step rely on sentinel comparisons which are all false for NaN; a crash needs one particular arrangement of NaNs.", "anchors": ["math/sort/shell.go: Shell", "math/sort/quick.go: Quick, partition"]}
{"id": "C04", "title": "NthLargest selects the n-th largest", "statement": "For every non-empty NaN-free slice xs and 1 <= n <= len(xs), NthLargest(xs, n) returns the value at position len(xs)-n of the ascending sort of xs, does not modify xs, and gives the same answer whatever the previous contents of a supplied buffer of the right length; an empty xs or a buffer of another length panics.", "quantifier": "all non-empty NaN-free slices, all ranks in range, all buffers", "why_tests_cant": "Quickselect's recursion narrows rank and range together; an off-by-one shows only for particular pivot positions.", "anchors": ["math/sort/median.go: NthLargest, nthLargest"]}
{"id": "C05", "title": "Median is the median", "statement": "For every NaN-free slice of odd length 2k+1, Median returns the element with k elements below it and k above it in sorted order.", "quantifier": "all NaN-free slices of odd length", "why_tests_cant": "Needs to hold for every odd length and every ordering; the existing test named TestMedian only exercises NthLargest.", "anchors": ["math/sort/median.go: Median"]}
{"id": "C06", "title": "Percentile is total on [0,1]", "statement": "For every non-empty NaN-free slice and every p in [0,1], Percentile returns an element of the slice, and in particular p = 0 and p = 1 return the two extremes.", "quantifier": "all non-empty slices, all p in [0,1]", "why_tests_cant": "Failure happens only for p*len < 1 combined with particular recursion shapes.", "anchors": ["math/sort/median.go: Percentile"]}
{"id": "C07", "title": "Reverse reverses in place", "statement": "For every slice, Reverse puts element i at position len-1-i; applying it twice restores the slice.", "quantifier": "all slices of any element values", "why_tests_cant": "Odd/even length midpoint handling must be right for all lengths.", "anchors": ["math/sort/sort.go: Reverse"]}
{"id": "C08", "title": "Xorshift produces values in [0,1) forever", "statement": "From every seed, after any number of draws, the Xorshift generator returns (its internal retry loop terminates) and the returned float64 lies in [0,1).", "quantifier": "all 2^64 seeds, all draw counts, with IEEE-754 double rounding", "why_tests_cant": "The retry loop would spin forever from the all-zero state; excluding that state needs an invariant over all reachable states, not sampling.", "anchors": ["math/rand/xorshift.go: Init, Next, NextSequence"]}
{"id": "C09", "title": "Batch and single draws give the same stream (Xorshift)", "statement": "For every generator state, filling a slice of n values with NextSequence yields exactly the values of n successive Next calls and leaves the generator in the same state.", "quantifier": "all generator states, all batch lengths", "why_tests_cant": "The batch code is a hand-inlined copy with its own retry handling; differences would show only at the rare retry.", "anchors": ["math/rand/xorshift.go: Next, NextSequence"]}
{"id": "C10", "title": "Bounded integers stay in bounds", "statement": "For every Xorshift state and every n with 1 <= n <= 2^31, UniformInt(0, n) returns an integer r with 0 <= r < n under IEEE double arithmetic, so it is always a valid index into a slice of length n.", "quantifier": "all generator states and all n in range", "why_tests_cant": "Rounding of n*u up to n would need a u within half an ulp of 1; it is not reachable by random testing.", "anchors": ["math/rand/rand.go: UniformInt, Uniform", "render/density/interpolator.go: Interpolate"]}
{"id": "C11", "title": "Lagged Fibonacci (Tausworthe) stream is well formed", "statement": "After any number of draws the generator never indexes outside its table, each output is in [0,1) and (from draw 4187 on) equals the difference modulo 1 of the outputs 2444 and 4187 draws earlier, and NextSequence yields the same stream as repeated Next.", "quantifier": "all initial tables with entries in [0,1), all draw counts, in exact arithmetic", "why_tests_cant": "The three circular indices wrap at different times over a period of 9689; only an invariant covers all phases and histories.", "anchors": ["math/rand/tausworthe.go: Init, Next, NextSequence"]}
{"id": "C12", "title": "Tausworthe outputs are strictly below one in double arithmetic", "statement": "For every table of float64 entries in [0,1), every output of the Tausworthe generator is a float64 strictly less than 1.", "quantifier": "all tables of doubles in [0,1)", "why_tests_cant": "A violation needs a tiny negative difference whose sum with 1 rounds to 1; sampling will practically never find it.", "anchors": ["math/rand/tausworthe.go: Next"]}
{"id": "C13", "title": "Sobol coordinates are in range and never repeat", "statement": "For a fixed dimension d <= 6, each of the first 2^30 - 2 calls to Next returns d coordinates in [0,1), and within each coordinate all these values are pairwise distinct.", "quantifier": "all call counts below 2^30-1 and all pairs of calls", "why_tests_cant": "About 5*10^17 pairs of calls; distinctness follows only from non-singularity of the direction numbers.", "anchors": ["math/rand/sobol.go: Init, NextAt, Next"]}
{"id": "C14", "title": "Sobol sequence capacity", "statement": "The generator delivers points until its advertised limit of 2^30 is reached and only then refuses.", "quantifier": "the call history of length 2^30", "why_tests_cant": "A test would need a billion calls.", "anchors": ["math/rand/sobol.go: NextAt"]}
{"id": "C15", "title": "Re-initialising a Sobol sequence restarts it", "statement": "Calling Init on a sequence that has already been used makes the following calls return the same points as a fresh sequence.", "quantifier": "all prior call histories", "why_tests_cant": "Must hold for every history before the re-initialisation.", "anchors": ["math/rand/sobol.go: Init"]}
{"id": "C16", "title": "Linear interpolation on increasing tables", "statement": "For every strictly increasing table of at least two points and every x in the table's range, Linear.Eval returns without panicking the value at x of the piecewise linear function through the points (in particular the stored value at each table point), and panics for every x outside the range.", "quantifier": "all strictly increasing tables, all x, exact arithmetic", "why_tests_cant": "The lookup mixes a guess and a binary search; correctness for every spacing needs an invariant.", "anchors": ["math/interpolate/search.go: search", "math/interpolate/linear_interpolators.go: NewLinear, Linear.Eval"]}
{"id": "C17", "title": "Linear interpolation on decreasing tables", "statement": "NewLinear also accepts strictly decreasing tables; for every such table and every x in its range Eval returns the interpolated value.", "quantifier": "all strictly decreasing tables, all x in range", "why_tests_cant": "Documented behaviour for an infinite family of tables.", "anchors": ["math/interpolate/search.go: search", "math/interpolate/linear_interpolators.go: NewLinear"]}
{"id": "C18", "title": "Uniform and non-uniform linear tables agree", "statement": "For every x0, dx > 0, list of at least two values, and x in range, the uniform interpolator returns the same value as the general one built from the explicit abscissae x0 + i*dx.", "quantifier": "all uniform tables and all x, exact arithmetic", "why_tests_cant": "Two different lookups must agree everywhere including at the right end point.", "anchors": ["math/interpolate/search.go: unifInit, search, val"]}
{"id": "C19", "title": "Bilinear interpolation", "statement": "For all strictly increasing xs, ys (each at least two points) and all values on the grid, BiLinear.Eval at any (x,y) in range equals interpolating linearly in x along both bracketing rows and then linearly in y; it returns the stored value at grid nodes.", "quantifier": "all grids, all points in range, exact arithmetic", "why_tests_cant": "Universal over grids and points.", "anchors": ["math/interpolate/linear_interpolators.go: BiLinear.Eval"]}
{"id": "C20", "title": "Trilinear interpolation", "statement": "For all strictly increasing xs, ys, zs and all values, TriLinear.Eval returns the trilinear interpolant; in particular the stored value at every grid node.", "quantifier": "all grids, all points in range", "why_tests_cant": "An axis mix-up is invisible whenever two axes happen to have the same coordinates.", "anchors": ["math/interpolate/linear_interpolators.go: TriLinear.Eval"]}
{"id": "C21", "title": "Cubic spline is the natural interpolating spline", "statement": "For every strictly increasing or strictly decreasing table of n >= 3 points the spline is constructed without panic; it passes through every table point, its value, first and second derivative are continuous at every interior point, and its second derivative vanishes at both ends.", "quantifier": "all strictly monotone tables with n >= 3, exact arithmetic", "why_tests_cant": "Global smoothness comes from a linear system of arbitrary size.", "anchors": ["math/interpolate/spline.go: NewSpline, Init, calcY2s, calcCoeffs, Eval"]}
{"id": "C22", "title": "Splines through two points", "statement": "NewSpline accepts any table of at least two points (it rejects only shorter ones), so a two point table gives the straight line.", "quantifier": "all two point tables", "why_tests_cant": "A boundary case stated by the length check; must hold for all values.", "anchors": ["math/interpolate/spline.go: NewSpline, calcY2s, TriDiagAt"]}
{"id": "C23", "title": "Spline derivatives are derivatives", "statement": "For every strictly monotone table of at least three points and x strictly inside the range, Deriv(x, 0) = Eval(x), and Deriv(x, k) for k = 1, 2 is the derivative of the function x -> Deriv(x, k-1); order 3 is the derivative of order 2 at every x that is not a table point; every other order returns 0.", "quantifier": "all tables, all interior x, exact arithmetic", "why_tests_cant": "A statement about limits at every real point.", "anchors": ["math/interpolate/spline.go: Deriv, Eval"]}
{"id": "C24", "title": "Spline integral", "statement": "For every strictly increasing table and lo <= hi in its range, Integrate(lo, hi) equals the integral of Eval over [lo, hi].", "quantifier": "all tables, all lo <= hi", "why_tests_cant": "The error vanishes when lo is a table point, which is what hand written tests use.", "anchors": ["math/interpolate/spline.go: Integrate, integTerm"]}
{"id": "C25", "title": "Tridiagonal solver", "statement": "If TriDiagAt returns without panicking then the output solves the tridiagonal system given by the three diagonals; for strictly diagonally dominant systems it never panics.", "quantifier": "all sizes and all coefficients, exact arithmetic", "why_tests_cant": "Universal over sizes.", "anchors": ["math/interpolate/spline.go: TriDiagAt"]}
{"id": "C26", "title": "Bicubic evaluation does not depend on history", "statement": "The value returned by BiCubic.Eval(x,y) for an in-range point is the same after any sequence of earlier in-range evaluations as on a fresh interpolator, and equals the stored value at grid nodes.", "quantifier": "all tables, all histories of calls, all points", "why_tests_cant": "The interpolator caches the last y; a stale cache depends on the call history.", "anchors": ["math/interpolate/cubic_interpolators.go: BiCubic.Eval"]}
{"id": "C27", "title": "Tricubic evaluation does not depend on history", "statement": "The value returned by TriCubic.Eval(x,y,z) for an in-range point is the same after any sequence of earlier in-range evaluations as on a fresh interpolator, and equals the stored value at grid nodes.", "quantifier": "all tables, all histories of calls, all points", "why_tests_cant": "The interpolator caches the last (y,z) pair.", "anchors": ["math/interpolate/cubic_interpolators.go: TriCubic.Eval"]}
{"id": "C28", "title": "Convolution with zero padding and extension", "statement": "For every kernel of odd width w, every input of length n >= w and boundary condition ZeroPad or Extension, output i is the kernel-weighted sum of the input extended by zeros, respectively by its end values; no index panics.", "quantifier": "all kernels, all inputs with n >= w, all positions", "why_tests_cant": "Three code regions (left edge, interior, right edge) must agree for all sizes.", "anchors": ["math/interpolate/filter.go: ConvolveAt"]}
{"id": "C29", "title": "Convolution with periodic and reflecting boundaries", "statement": "With boundary condition Periodic (Reflection), output i is the kernel-weighted sum of the input extended periodically (by mirror images).", "quantifier": "all kernels and inputs", "why_tests_cant": "Off-by-one at the left boundary is numerically small for smooth data.", "anchors": ["math/interpolate/filter.go: ConvolveAt"]}
{"id": "C30", "title": "Normalised kernels preserve constants", "statement": "For a kernel whose coefficients sum to one, convolving a constant input of length >= width with Periodic, Reflection or Extension boundaries returns the same constant everywhere; the tophat and Gaussian constructors give kernels that sum to one and are symmetric, for every odd width.", "quantifier": "all widths, lengths, constants, all sigmas other than zero, exact arithmetic", "why_tests_cant": "Universal over sizes.", "anchors": ["math/interpolate/filter.go: ConvolveAt, NewTophatKernel, NewGaussianKernel, normalize"]}
{"id": "C31", "title": "Boundary condition lookup", "statement": "BoundaryCondition.Get(xs, i) for i within one length of the slice returns, for Periodic, the element at i modulo len and, for Reflection, the mirrored element, without panicking.", "quantifier": "all slices and indices within one period", "why_tests_cant": "Every index must be right, not the few a test tries.", "anchors": ["math/interpolate/filter.go: BoundaryCondition.Get"]}
{"id": "C32", "title": "Savitzky-Golay kernels reproduce polynomials", "statement": "For every order m and odd width w > m, convolving uniformly spaced samples of any polynomial of degree <= m with the kernel returns the polynomial's value at every interior point, for every boundary condition.", "quantifier": "all orders, widths, polynomials, exact arithmetic", "why_tests_cant": "Tests compare four tabulated kernels to three digits.", "anchors": ["math/interpolate/filter.go: NewSavGolKernel"]}
{"id": "C33", "title": "Second order numerical derivative", "statement": "On every uniform grid with at least 3 points, Deriv with order 2 returns the exact derivative of every quadratic at every grid point, including the ends.", "quantifier": "all uniform grids and quadratics, exact arithmetic", "why_tests_cant": "Universal over grids and coefficients.", "anchors": ["math/calc/deriv.go: Deriv"]}
{"id": "C34", "title": "Fourth order numerical derivative", "statement": "On every uniform grid with at least 5 points, Deriv with order 4 returns the exact derivative of every polynomial of degree at most 4 at every grid point.", "quantifier": "all uniform grids and quartics", "why_tests_cant": "Universal over grids and coefficients.", "anchors": ["math/calc/deriv.go: Deriv"]}
{"id": "C35", "title": "Matrix product for equal widths", "statement": "For all matrices A (h x n) and B (n x n), Mult returns A*B and leaves A and B unchanged.", "quantifier": "all sizes and entries, exact arithmetic", "why_tests_cant": "Universal over sizes.", "anchors": ["math/mat/mat.go: Mult, MultAt"]}
{"id": "C36", "title": "Matrix product for all compatible shapes", "statement": "For all matrices A (h x n) and B (n x w), Mult returns A*B.", "quantifier": "all compatible shapes", "why_tests_cant": "Index stride errors are invisible for square matrices, the only shapes benchmarked.", "anchors": ["math/mat/mat.go: Mult, MultAt"]}
{"id": "C37", "title": "Transpose", "statement": "For every h x w matrix Transpose returns the w x h matrix with entry (j,i) equal to entry (i,j), however the recursion splits it; transposing twice is the identity.", "quantifier": "all shapes, including those larger than the recursion cut-off", "why_tests_cant": "The recursive branch only runs for matrices wider than 16 million, which tests never build.", "anchors": ["math/mat/mat.go: Transpose, recTranspose, baseTranspose"]}
{"id": "C38", "title": "Matrix-vector products", "statement": "MultVec returns A*v and VecMult returns v*A for all compatible sizes.", "quantifier": "all sizes and entries, exact arithmetic", "why_tests_cant": "Universal over sizes.", "anchors": ["math/mat/mat.go: MultVec, VecMult"]}
{"id": "C39", "title": "LU factorisation", "statement": "For every non-singular square matrix, the factors returned by LU satisfy P*A = L*U where L is unit lower triangular, U upper triangular, P the permutation given by the recorded row exchanges; entries of L are bounded as partial pivoting prescribes; LU panics exactly when some row is all zero.", "quantifier": "all sizes and entries, exact arithmetic", "why_tests_cant": "Universal over sizes and entries.", "anchors": ["math/mat/mat.go: LU, LUFactorsAt, factorizeInPlace"]}
{"id": "C40", "title": "Determinant", "statement": "LUFactors.Determinant returns the determinant of the factorised matrix, for every square matrix with no all-zero row, in particular zero for singular matrices.", "quantifier": "all square matrices", "why_tests_cant": "Singular matrices take a special path that random tests never hit.", "anchors": ["math/mat/mat.go: Determinant, factorizeInPlace"]}
{"id": "C41", "title": "Linear solve without row exchanges", "statement": "If the factorisation of A performed no row exchange and produced non-zero pivots, SolveVector(b) returns x with A*x = b.", "quantifier": "all such matrices and right hand sides, exact arithmetic", "why_tests_cant": "Universal over sizes and entries.", "anchors": ["math/mat/mat.go: SolveVector, forwardSubst, backSubst"]}
{"id": "C42", "title": "Linear solve", "statement": "For every non-singular A and every b, SolveVector(b) returns x with A*x = b.", "quantifier": "all non-singular matrices", "why_tests_cant": "Whether rows are exchanged depends on the data.", "anchors": ["math/mat/mat.go: SolveVector, forwardSubst"]}
{"id": "C43", "title": "Solving for several right hand sides", "statement": "Matrix.SolveMatrix(B) returns X with A*X = B for non-singular A.", "quantifier": "all non-singular A and all B", "why_tests_cant": "Universal over matrices.", "anchors": ["math/mat/mat.go: SolveMatrix"]}
{"id": "C44", "title": "Matrix inverse without row exchanges", "statement": "If the factorisation of A performed no row exchange and produced non-zero pivots then Invert returns B with A*B = I.", "quantifier": "all such matrices, exact arithmetic", "why_tests_cant": "Universal over sizes.", "anchors": ["math/mat/mat.go: Invert, InvertAt, SolveMatrix"]}
{"id": "C45", "title": "Grid index is a bijection", "statement": "For every grid, Idx maps the cells inside the grid one-to-one onto 0..Volume-1; IdxCheck reports true exactly for cells inside; CoordsAt of an index in range followed by Idx (after adding the grid origin) returns the index.", "quantifier": "all grid origins, widths, cells", "why_tests_cant": "Universal over grids.", "anchors": ["render/geom/grid.go: Grid.Init, Idx, IdxCheck, BoundsCheck, Coords"]}
{"id": "C46", "title": "Coords inverts Idx", "statement": "For every grid, including those with non-zero origin, Coords(Idx(x,y,z)) = (x,y,z).", "quantifier": "all grids and cells", "why_tests_cant": "Fails only for non-zero origins.", "anchors": ["render/geom/grid.go: Coords, Idx"]}
{"id": "C47", "title": "Periodic cell-box intersection has no false negatives", "statement": "For boxes of cells on a periodic grid of width L with both origins in [0,L) and widths at most L, Intersect returns true whenever the boxes share a cell modulo L; when it returns true the boxes share a cell or touch along every axis on which they do not overlap.", "quantifier": "all pairs of boxes and all grid widths", "why_tests_cant": "False negatives silently drop mass from images; wrap-around cases are many.", "anchors": ["render/geom/grid.go: CellBounds.Intersect, bound"]}
{"id": "C48", "title": "Unbounded cell-box intersection is exact", "statement": "For boxes of positive width, IntersectUnbounded is true exactly when some cell is in both boxes.", "quantifier": "all pairs of boxes", "why_tests_cant": "Universal over boxes.", "anchors": ["render/geom/grid.go: CellBounds.IntersectUnbounded"]}
{"id": "C49", "title": "Periodic vector difference is the minimum image", "statement": "For coordinates in [0,L), the periodic difference of two vectors is congruent to the plain difference modulo L and each component is in [-L/2, L/2]; Mod returns a congruent vector in [0,L) for inputs within one period.", "quantifier": "all vectors and widths, exact arithmetic", "why_tests_cant": "Universal; boundary values matter.", "anchors": ["render/geom/vec.go: SubAt, ModAt"]}
{"id": "C50", "title": "Mod stays below the width in single precision", "statement": "For every width and every float32 coordinate within one period, Mod returns a float32 in [0, width).", "quantifier": "all float32 inputs", "why_tests_cant": "Fails only for tiny negative coordinates.", "anchors": ["render/geom/vec.go: ModAt"]}
{"id": "C51", "title": "Cross product", "statement": "a.Cross(b) is the right handed cross product a x b; it is orthogonal to both and correct when the output aliases an input.", "quantifier": "all vectors", "why_tests_cant": "A sign convention; must hold for all vectors.", "anchors": ["render/geom/vec.go: CrossAt, CrossSelf, Cross"]}
{"id": "C52", "title": "The six tetrahedra tile the cube", "statement": "The six tetrahedra chosen for a lattice cube cover it, have pairwise disjoint interiors and equal volumes; every point of the cube with pairwise different coordinates in (0,1) lies in exactly one of them.", "quantifier": "all points of the cube", "why_tests_cant": "A statement about every point in a continuum; double counting or gaps change the mass.", "anchors": ["render/geom/tetra.go: TetraIdxs.Init, dirs"]}
{"id": "C53", "title": "Tetrahedron vertex indices are in range", "statement": "For every grid width, skip and lattice cell with room for a cube of side skip, each of the six tetrahedra has four pairwise distinct vertex indices inside the particle array, all vertices being corners of the cube.", "quantifier": "all widths, skips, cells, directions", "why_tests_cant": "Universal over lattice sizes.", "anchors": ["render/geom/tetra.go: TetraIdxs.Init, InitCartesian, compressCoords"]}
{"id": "C54", "title": "Centered tetrahedra are checked against the grid", "statement": "TetraIdxs.InitCentered reports success only if all vertex indices it produced refer to lattice points inside the grid.", "quantifier": "all widths, cells and directions", "why_tests_cant": "Only violated on y and z faces of the lattice.", "anchors": ["render/geom/tetra.go: InitCentered, compressCoordsCheck"]}
{"id": "C55", "title": "Tetrahedron volume", "statement": "Volume is one sixth of the absolute value of the determinant of the edge vectors: non-negative, unchanged by translation and by reordering the corners, and zero exactly for degenerate tetrahedra; the cached value equals the recomputed one whenever the corners changed only through Init.", "quantifier": "all tetrahedra, exact arithmetic", "why_tests_cant": "Universal over real vectors.", "anchors": ["render/geom/tetra.go: Volume, signedVolume"]}
{"id": "C56", "title": "Point in tetrahedron", "statement": "For a non-degenerate tetrahedron Contains returns true for every point that is a strictly positive convex combination of the corners and false for every point outside.", "quantifier": "all non-degenerate tetrahedra and points, exact arithmetic", "why_tests_cant": "Depends on consistent face orientations for both handednesses.", "anchors": ["render/geom/tetra.go: Contains"]}
{"id": "C57", "title": "Barycenter", "statement": "Barycenter returns the mean of the four corners.", "quantifier": "all tetrahedra", "why_tests_cant": "Universal over vectors.", "anchors": ["render/geom/tetra.go: Barycenter"]}
{"id": "C58", "title": "Sample points fall inside the tetrahedron", "statement": "For every tetrahedron and all random numbers in [0,1), every point produced by Distribute, or by DistributeTetra from unit points, is a convex combination of the four corners, hence inside the tetrahedron.", "quantifier": "all tetrahedra and random numbers, exact arithmetic", "why_tests_cant": "Universal over a continuum; each of six folding branches must be right.", "anchors": ["render/geom/tetra.go: Distribute, DistributeUnit, DistributeTetra"]}
{"id": "C59", "title": "Sampling is uniform", "statement": "The folding map from the unit cube to the unit simplex is six-to-one and volume preserving: every interior point of the simplex away from the fold planes has exactly six preimages in the open cube, one for each of six affine branches with determinant +-1.", "quantifier": "all points of the simplex", "why_tests_cant": "Uniformity is a measure-theoretic statement; statistics only detect gross failures.", "anchors": ["render/geom/tetra.go: DistributeUnit"]}
{"id": "C60", "title": "Cell bounds contain the tetrahedron", "statement": "CellBoundsAt returns a box of grid cells that contains every point of the tetrahedron, and is the smallest such box.", "quantifier": "all tetrahedra, all cell widths, exact arithmetic", "why_tests_cant": "A box one cell too small drops mass only for particular positions.", "anchors": ["render/geom/tetra.go: CellBoundsAt"]}
{"id": "C61", "title": "Grid derivative along the first two axes", "statement": "For axis 0 and 1 on any grid wide enough, the order 2 and order 4 derivatives are exact at every cell for fields that are polynomials of degree <= 2 (<= 4) along the axis, with one sided formulas at non-periodic edges and wrap-around at periodic edges.", "quantifier": "all grid shapes, cells, polynomial fields, exact arithmetic", "why_tests_cant": "Universal over shapes; edge cells have separate formulas.", "anchors": ["render/geom/deriv.go: Deriv, wrapDeriv, edgesDeriv"]}
{"id": "C62", "title": "Grid derivative along the third axis", "statement": "The same holds for axis 2.", "quantifier": "all grid shapes, cells, fields", "why_tests_cant": "Wrong only at the z edges.", "anchors": ["render/geom/deriv.go: wrapDeriv, edgesDeriv"]}
{"id": "C63", "title": "Curl and divergence do not depend on earlier calls", "statement": "Calling Curl, Divergence or Gradient does not change the caller's options or the package defaults, so repeating any call gives the same result.", "quantifier": "all call histories", "why_tests_cant": "A history property; each call alone looks right.", "anchors": ["render/geom/deriv.go: Curl, Divergence, Gradient, DerivOptionsDefault"]}
{"id": "C64", "title": "Every tetrahedron is processed exactly once", "statement": "For every segment size, worker count w >= 1 and skip, splitting the work over the workers processes each lattice cell exactly once, by exactly one worker.", "quantifier": "all segment widths, worker counts, skips", "why_tests_cant": "Partition must be exact for every combination.", "anchors": ["render/render.go: initWorkspaces, RenderDensityFromFile", "render/density/interpolator.go: Interpolate"]}
{"id": "C65", "title": "Parallel rendering is schedule independent", "statement": "Whatever the interleaving of the worker goroutines and the order in which they report on the channel, rendering a file terminates without deadlock and adds to the output grid exactly the sum of all workers' buffers.", "quantifier": "all worker counts, all interleavings", "why_tests_cant": "Exponentially many schedules.", "anchors": ["render/render.go: RenderDensityFromFile, chanInterpolate"]}
{"id": "C66", "title": "Deposited mass is conserved", "statement": "Depositing points into the density buffer changes the total of the buffer by the number of deposited points times the point weight, touches only the cells containing the points, and for a whole segment with all points inside the buffer the total equals (number of lattice cells) * skip^3 * (cells/CountWidth)^3.", "quantifier": "all segments, all random samples, exact arithmetic", "why_tests_cant": "Normalisation constants cancel only for the right combination of factors.", "anchors": ["render/density/interpolator.go: Interpolate", "render/box.go: Interpolate methods", "render/render.go: NewManager"]}
{"id": "C67", "title": "Merging a buffer into the image adds each cell once", "statement": "Adding a segment (or domain) buffer to a rendering box adds to every cell of the box the sum of the buffer cells that coincide with it on the periodic grid, and changes nothing else.", "quantifier": "all box and buffer positions and sizes on a periodic grid", "why_tests_cant": "Wrap-around and partial overlap cases are many.", "anchors": ["render/box.go: Add methods of the overlap types"]}
{"id": "C68", "title": "Floor of a grid coordinate", "statement": "The integer conversion used for placing points in cells is the floor function for every coordinate in the box, including 0 and negative integers.", "quantifier": "all real coordinates", "why_tests_cant": "Fails only exactly on integers.", "anchors": ["render/box.go: intFloor"]}
{"id": "C69", "title": "Workspaces are clean for every file", "statement": "However many files of whatever size were rendered before, the worker buffers visible to the next file are all zero and have exactly the required length, and re-slicing never exceeds capacity.", "quantifier": "all histories of rendered files and sizes up to the allocated maximum", "why_tests_cant": "A history property over reused buffers.", "anchors": ["render/render.go: initWorkspaces", "render/density/buffer.go: Slice, Clear"]}
{"id": "C70", "title": "Subsample length validation", "statement": "Subsample accepts exactly the powers of two that are valid subsample lengths and rejects everything else at the call that passes it.", "quantifier": "all lengths and call histories", "why_tests_cant": "History dependent validation.", "anchors": ["render/render.go: Subsample, isPowTwo", "render/hist.go: Subsample"]}
{"id": "C71", "title": "Quantity names round-trip", "statement": "Every quantity's String is recognised by QuantityFromString as the same quantity, and unrecognised strings are rejected; String is defined for every valid quantity.", "quantifier": "all quantities and strings", "why_tests_cant": "All strings must be classified; the first constant is a special case.", "anchors": ["render/density/quantity.go: String, QuantityFromString"]}
{"id": "C72", "title": "Velocity-type buffers finalise without panic", "statement": "Converting any velocity or divergence buffer to its final form returns the per-cell averages for every buffer length.", "quantifier": "all buffer lengths and contents", "why_tests_cant": "Fails only for lengths 1..29.", "anchors": ["render/density/buffer.go: FinalizedVectorBuffer, FinalizedScalarBuffer"]}
{"id": "C73", "title": "Sheet files round-trip", "statement": "Reading a file produced by WriteSheet returns the same positions, velocities and header fields bit for bit (Count being replaced by CountWidth^3), for every header and every data.", "quantifier": "all headers and particle data, as byte sequences", "why_tests_cant": "Every bit pattern incl. NaN must survive; layout offsets must agree.", "anchors": ["render/io/io.go: WriteSheet, ReadSheetHeaderAt, ReadSheetPositionsAt, ReadSheetVelocitiesAt"]}
{"id": "C74", "title": "Truncated sheet files are reported", "statement": "Reading positions or velocities from a sheet file cut off at any byte before the end of that data returns an error.", "quantifier": "all truncation points (crash points while writing)", "why_tests_cant": "Every crash point must be covered.", "anchors": ["render/io/io.go: ReadSheetPositionsAt, ReadSheetVelocitiesAt, readVecAsByte"]}
{"id": "C75", "title": "Unreadable headers are reported", "statement": "If the header of a sheet file cannot be read, reading positions or velocities returns an error.", "quantifier": "all invalid header contents", "why_tests_cant": "Error paths over all invalid inputs.", "anchors": ["render/io/io.go: ReadSheetPositionsAt"]}
{"id": "C76", "title": "Byte order conversion", "statement": "The raw readers for int32, int64 and float32 triples decode data in the declared byte order, whatever the machine's byte order.", "quantifier": "all byte strings and both orders", "why_tests_cant": "Universal over byte strings.", "anchors": ["render/io/io.go: readVecAsByte, readInt64AsByte, readInt32AsByte"]}
{"id": "C77", "title": "Byte order conversion for double triples", "statement": "The raw reader for float64 triples decodes data in the declared byte order, whatever the machine's byte order.", "quantifier": "all byte strings and both orders", "why_tests_cant": "Only exercised with foreign-endian files.", "anchors": ["render/io/io.go: readVec64AsByte"]}
{"id": "C78", "title": "Particle buffer delivers every particle", "statement": "For any sequence of Append calls with ids in range followed by Flush, for any positive buffer size, the destination slot of each id holds the last particle appended with that id and all other slots are unchanged.", "quantifier": "all call sequences and buffer sizes", "why_tests_cant": "Depends on how appends straddle flush boundaries.", "anchors": ["render/io/buffer.go: Append, Flush"]}
{"id": "C79", "title": "Particle count from a Gadget header", "statement": "The standard header's Count is the 64 bit total number of particles of which the Gadget header stores the low and high words.", "quantifier": "all header word values", "why_tests_cant": "Fails only for counts >= 2^32.", "anchors": ["render/io/io.go: Standardize"]}
{"id": "C80", "title": "Grid files round-trip", "statement": "For scalar, non-projected renderings ReadGrid returns exactly the values passed to WriteBuffer, for all header values.", "quantifier": "all grids and headers", "why_tests_cant": "Universal over contents.", "anchors": ["render/io/output.go: WriteBuffer, ReadGrid"]}
{"id": "C81", "title": "Vector and projected grid files are self describing", "statement": "The header of a written grid file tells vector grids from scalar grids, and every grid written by WriteBuffer (also projected ones) can be read back.", "quantifier": "all quantities and projections", "why_tests_cant": "Order of writes; all shapes.", "anchors": ["render/io/output.go: WriteBuffer, ReadGrid"]}
{"id": "C82", "title": "Endianness/version flag", "statement": "The bit-reversal used in the flag is an involution on 64 bit words, and decoding the flag with the Python reader's rule yields the little-endian marker and format version 2.", "quantifier": "all 64 bit words", "why_tests_cant": "2^64 inputs.", "anchors": ["render/io/output.go: reverse, EndiannessVersionFlag", "python/gotetra.py: _read_endianness"]}
{"id": "C83", "title": "Ball regions become the right boxes", "statement": "The box of a ball of radius r < L/2 centered in [0,L) has side 2r (scaled by the multiplier) and its origin is congruent to center - r modulo L and lies in [0,L).", "quantifier": "all centers, radii, box sizes", "why_tests_cant": "Boundary case center = r.", "anchors": ["render/io/config.go: BallConfig.Box"]}
{"id": "C84", "title": "Power of two validation", "statement": "TetraHistConfig.ValidSubsampleLength and isPowTwo accept exactly the powers of two and terminate on every integer.", "quantifier": "all integers", "why_tests_cant": "Infinite domain incl. negatives.", "anchors": ["render/io/config.go: TetraHistConfig.ValidSubsampleLength", "render/render.go: isPowTwo"]}
{"id": "C85", "title": "Segments cover the particle lattice", "statement": "When the lattice width is a multiple of the number of cells, copying into segments never indexes out of range, gives every segment the particles of its sub-lattice plus the periodic one-layer overlap, and each lattice cube is contained in exactly one segment.", "quantifier": "all lattice widths and cell counts", "why_tests_cant": "Universal over sizes.", "anchors": ["render/main/main.go: writeGrids, copyToSegment"]}
{"id": "C86", "title": "Segment files do not overwrite each other", "statement": "Different segments are written to different files.", "quantifier": "all cell counts and pairs of segments", "why_tests_cant": "Collisions only occur from a certain cell count on.", "anchors": ["render/main/main.go: writeGrids"]}
{"id": "C87", "title": "Segment bounding boxes contain their particles", "statement": "If the particles of a segment span less than half the box on each axis, the recorded origin and width bound all of them on the periodic box.", "quantifier": "all particle sequences with bounded span, exact arithmetic", "why_tests_cant": "An incremental algorithm with drifting center; depends on order.", "anchors": ["render/main/main.go: boundingBox Init, Add"]}
{"id": "C88", "title": "Cell number validation", "statement": "validCellNum accepts exactly the powers of two.", "quantifier": "all integers", "why_tests_cant": "Infinite domain.", "anchors": ["render/main/main.go: validCellNum"]}
{"id": "C89", "title": "Histogram counts every sample in range once", "statement": "Each sample with min <= x < max that is flagged ok increases exactly the bin whose interval contains it by one, all others change nothing; bin centers are the midpoints of these intervals.", "quantifier": "all samples, bin counts, ranges, exact arithmetic", "why_tests_cant": "Boundary values of bins.", "anchors": ["render/hist.go: histogram, histCenters"]}
{"id": "C90", "title": "Histogram workers visit every cube once (skip 1)", "statement": "With skip 1, for every number of workers each lattice cube is visited by exactly one worker.", "quantifier": "all grid widths and worker counts", "why_tests_cant": "Universal.", "anchors": ["render/hist.go: chanHistogram"]}
{"id": "C91", "title": "Histogram workers visit every cube once (any skip)", "statement": "With any skip, each sub-sampled lattice cube is visited by exactly one worker.", "quantifier": "all grid widths, skips and worker counts", "why_tests_cant": "Universal.", "anchors": ["render/hist.go: chanHistogram"]}
{"id": "C92", "title": "Periodic interval tests", "statement": "The interval overlap test used to skip files returns true whenever two periodic intervals overlap.", "quantifier": "all periodic intervals", "why_tests_cant": "Boundary cases.", "anchors": ["render/hist.go: contains1D, intersect1D"]}
{"id": "C93", "title": "Halo grid lists partition the halos", "statement": "After inserting positions in [-Width,2*Width) other than Width itself, every index appears in exactly one cell's list, namely the cell containing its position or its periodic image in the box; lists are descending; Length, MaxLength, AverageLength agree with the lists; ReadIndexes returns them.", "quantifier": "all positions and grid sizes, exact arithmetic", "why_tests_cant": "Linked lists in shared arrays; all insertion orders.", "anchors": ["render/halo/grid.go: Insert, Length, MaxLength, ReadIndexes"]}
{"id": "C94", "title": "Positions on the upper box edge", "statement": "A position equal to the box width is treated as periodic image of 0.", "quantifier": "all positions on the upper faces", "why_tests_cant": "Measure-zero boundary.", "anchors": ["render/halo/grid.go: Insert"]}
{"id": "C95", "title": "Subhalo finder finds exactly the overlapping halos", "statement": "For halos whose search spheres do not reach across the box boundary, the intersection list of each halo contains exactly the other halos whose spheres overlap it (periodic distance), each once and ascending; hosts and subhalos split the list by index; all counts agree. For spheres that leave the box but stay a cell shorter than it, the list is exactly the overlaps without periodic images.", "quantifier": "all halo catalogues, exact arithmetic", "why_tests_cant": "Pairs may be missed by the cell search for particular geometry only.", "anchors": ["render/halo/finder.go: FindSubhalos, markSubhalos, crossMatch, Hosts, Subhalos"]}
{"id": "C96", "title": "Subhalo finder is periodic", "statement": "The same holds with the periodic distance, for halos near the box boundary.", "quantifier": "all halo catalogues", "why_tests_cant": "Only boundary halos are affected.", "anchors": ["render/halo/finder.go: markSubhalos, SphereBounds"]}
{"id": "C97", "title": "Cell index conversion of bounds", "statement": "ConvertIndices and Inside agree: for cell indices in [0,width) Inside is true exactly when the converted (relative) index is inside the span, i.e. when the cell is congruent to origin+d for some d in the span; these are exactly the cells FindSubhalos visits along the axis.", "quantifier": "all bounds and cells", "why_tests_cant": "Wrap-around cases.", "anchors": ["render/halo/finder.go: Bounds.Inside, ConvertIndices"]}
{"id": "C98", "title": "Radius names round-trip", "statement": "RadiusFromString(r.String()) = r for each radius definition, independent of letter case, and no other string is accepted.", "quantifier": "all radius types, all strings", "why_tests_cant": "All strings.", "anchors": ["render/halo/radius.go: RadiusFromString, String"]}
{"id": "C99", "title": "Mass and radius conversions are inverse", "statement": "For each overdensity definition and positive values, converting masses to radii and back gives the masses again, and the mass-radius relation is strictly increasing.", "quantifier": "all cosmologies with positive densities, all masses, exact arithmetic", "why_tests_cant": "Universal over reals.", "anchors": ["render/halo/radius.go: Radius, Mass", "cosmo/param.go: RhoCritical, RhoAverage"]}
{"id": "C100", "title": "Catalog conversion keeps the n most massive halos", "statement": "RockstarConvertTopN writes, for each column, the rows of the n largest M200b halos in ascending order of mass, rows staying aligned across columns; reading the binary file back returns the written columns.", "quantifier": "all catalogues and n", "why_tests_cant": "Permutation must be the same for all columns.", "anchors": ["render/halo/io.go: RockstarConvertTopN, RockstarConvert, binaryColGetter"]}
{"id": "C101", "title": "Critical and mean density relations", "statement": "For every cosmology the mean matter density at z=0 is OmegaM times the critical density at z=0, the critical density in h-units does not depend on H0, and both grow with z for non-negative density parameters.", "quantifier": "all cosmologies, exact arithmetic", "why_tests_cant": "Universal over reals.", "anchors": ["cosmo/param.go: RhoCritical, RhoAverage, HubbleFrac"]}
{"id": "C102", "title": "Mode selection", "statement": "The command line runs exactly when exactly one mode flag is given, and runs that mode.", "quantifier": "all flag combinations", "why_tests_cant": "All combinations of flags.", "anchors": ["render/main/main.go: getModeName"]}
{"id": "C103", "title": "Savitzky-Golay derivative kernels", "statement": "For every derivative order d <= m and odd width w > m, convolving uniformly spaced samples of any polynomial of degree <= m with NewSavGolDerivKernel returns the d-th derivative of the polynomial at every interior point.", "quantifier": "all orders, widths, spacings other than zero, polynomials, exact arithmetic", "why_tests_cant": "Tests check none of the derivative kernels of order 4 or more, where the linear solve exchanges rows.", "anchors": ["math/interpolate/filter.go: NewSavGolDerivKernel, savgol, factorial", "math/mat/mat.go: LUFactors.SolveVector"]}
{"id": "C104", "title": "A rendering box has at most as many cells as the periodic grid", "statement": "The cells of a rendering box cover the box, and along every axis there are at most as many of them as the periodic grid of the simulation has.", "quantifier": "all box origins, widths and cell counts", "why_tests_cant": "A test fixes one box; the claim is about every width up to the width of the simulation, and the failure is one extra layer of cells that stay empty.", "anchors": ["render/box.go:156-166", "render/box.go:192-202"]}
{"id": "C105", "title": "Velocity images hold mean velocities", "statement": "Each pixel of a velocity image, projected or not, holds the mean velocity of the points in it, and 0 if there are none.", "quantifier": "all positions, velocities, overlaps and projection depths", "why_tests_cant": "Means need to be checked for every distribution of points over pixels; rendered images are compared by eye at best.", "anchors": ["render/box.go:491-534", "render/box.go:588-636", "render/density/buffer.go:293-306"]}
{"id": "C106", "title": "Writing a sheet keeps the caller's data", "statement": "WriteSheet leaves the positions and velocities passed to it unchanged, whatever the machine's byte order.", "quantifier": "all sheets, both byte orders", "why_tests_cant": "Test machines are little endian.", "anchors": ["render/io/io.go: WriteSheet, writeVecAsByte"]}
{"id": "C107", "title": "Render SubsampleLength validation", "statement": "RenderConfig.ValidSubsampleLength accepts only powers of two, the lengths that Subsample is written for.", "quantifier": "all integers", "why_tests_cant": "Infinite domain.", "anchors": ["render/io/config.go: RenderConfig.ValidSubsampleLength", "render/render.go: Subsample"]}
{"id": "C108", "title": "Render Quantity validation", "statement": "RenderConfig.ValidQuantity returns true exactly for the names of quantities, ignoring case.", "quantifier": "all strings", "why_tests_cant": "Infinite domain; the method is not called by the commands.", "anchors": ["render/io/config.go: RenderConfig.ValidQuantity", "render/density/quantity.go: String"]}
{"id": "C109", "title": "Accepted balls give acceptable boxes", "statement": "Every ball that passes BallConfig.CheckInit becomes a box that BoxConfig.CheckInit accepts, and that encloses the ball.", "quantifier": "all balls and box widths", "why_tests_cant": "Boundary and sign cases.", "anchors": ["render/io/config.go: BallConfig.CheckInit, BallConfig.Box, BoxConfig.CheckInit"]}
{"id": "C110", "title": "Box validation", "statement": "BoxConfig.CheckInit accepts exactly the boxes with positive widths, an origin in [0, L) on every axis and a projection axis that is empty or x, y, z in either case with spaces around it; it normalises the axis and keeps the rest.", "quantifier": "all boxes and axis strings", "why_tests_cant": "All strings and reals.", "anchors": ["render/io/config.go: BoxConfig.CheckInit"]}
{"id": "C111", "title": "Python reader on any machine", "statement": "The Python reader recovers the little-endian marker and version 2 from the flag on machines of either byte order.", "quantifier": "both machine byte orders", "why_tests_cant": "Needs a big endian machine.", "anchors": ["python/gotetra.py: _read_endianness_version", "render/io/output.go: WriteBuffer"]}
{"id": "C112", "title": "Every particle is written", "statement": "Whatever number of cells is accepted, every particle of the lattice ends up in some sheet file.", "quantifier": "all lattice widths, cell counts and particle data", "why_tests_cant": "Tests use widths divisible by the cell count.", "anchors": ["render/main/main.go:363-412", "render/main/main.go:464-517", "render/io/config.go:265-267"]}
{"id": "C113", "title": "Velocity bounds contain the velocities", "statement": "The recorded velocity origin and width of a segment contain the velocity of every particle of the segment on every axis.", "quantifier": "all lattices and velocities, exact arithmetic", "why_tests_cant": "Needs an argument over arbitrary orders of values.", "anchors": ["render/main/main.go:497-517"]}
{"id": "C114", "title": "Velocity bounds are tight", "statement": "The ends of the recorded velocity range of a segment are velocities of particles of that segment.", "quantifier": "all lattices and segments", "why_tests_cant": "Looks right for the first segment, which is the only one usually inspected.", "anchors": ["render/main/main.go:476-517"]}
{"id": "C115", "title": "Rounding and image pixels", "statement": "round returns a nearest integer (ties downwards), and with ImagePixels the longest side of the box spans ImagePixels pixels up to half a pixel.", "quantifier": "all reals, all boxes that fit, all pixel numbers; exact arithmetic", "why_tests_cant": "Real quantification.", "anchors": ["render/main/main.go:681-705"]}
{"id": "C116", "title": "Integer cube root", "statement": "intCubeRoot returns k for every cube whose floating point root is within 1/2 of k, never returns a wrong root, and panics on non-cubes.", "quantifier": "all integers, all implementations of math.Pow; exact arithmetic", "why_tests_cant": "All cubes.", "anchors": ["render/main/main.go:356-360"]}
{"id": "C117", "title": "Accepted render configurations give usable numbers", "statement": "For every render configuration that passes the checks and every box that fits, the numbers of pixels and of particles per tetrahedron are positive, and with AutoParticles they follow the documented scaling.", "quantifier": "all configurations and boxes, exact arithmetic", "why_tests_cant": "Combination of five optional settings.", "anchors": ["render/main/main.go:111-133", "render/main/main.go:691-759"]}
{"id": "C118", "title": "Output files record the numbers used", "statement": "The numbers of particles and pixels recorded in an output file are those used to render it.", "quantifier": "all accepted configurations", "why_tests_cant": "Only the default settings are usually compared.", "anchors": ["render/main/main.go:546-590"]}
{"id": "C119", "title": "Converted positions lie in the recorded box", "statement": "The positions written into sheet files lie in [0, TotalWidth) of the header written with them, for all unit settings.", "quantifier": "all positions within one box width of the box, all units, both precisions", "why_tests_cant": "Unit conversion is usually left at 1.", "anchors": ["render/main/main.go:280-352", "render/io/io.go:122-129"]}
{"id": "C120", "title": "Merging worker histograms", "statement": "After all workers of a file have sent their number, every bin of Counts has grown by the sum of that bin over the workers' histograms, whatever the order in which goroutines run; the main goroutine never blocks forever and every run ends.", "quantifier": "all schedules, worker counts and histograms", "why_tests_cant": "Schedules cannot be enumerated by tests.", "anchors": ["render/hist.go: HistFromFile"]}
{"id": "C121", "title": "Bounding box of a cube", "statement": "cubeBoundingBox returns a periodic box that contains all eight corner particles of the cube.", "quantifier": "all sheets, skips and cubes, exact arithmetic", "why_tests_cant": "Universal; the code has no test.", "anchors": ["render/hist.go: cubeBoundingBox"]}
{"id": "C122", "title": "Cubes are not lost", "statement": "cubeIntersects does not skip a cube that has a particle strictly inside the region it is compared with.", "quantifier": "all sheets, skips and cubes", "why_tests_cant": "Universal; the code has no test.", "anchors": ["render/hist.go: cubeIntersects"]}
{"id": "C123", "title": "Grid index", "statement": "gridIndex returns the number of the unique pixel of the grid that holds a position, which is a valid index of the grid, or -1 if no pixel does.", "quantifier": "all grids (periodic origin and span) and positions", "why_tests_cant": "Boundary positions and rounding.", "anchors": ["render/hist.go: gridIndex"]}
{"id": "C124", "title": "Samples of a tetrahedron", "statement": "The densities used for a tetrahedron are those at points inside the tetrahedron, also when it crosses the edge of the periodic box.", "quantifier": "all tetrahedra and unit points", "why_tests_cant": "Universal.", "anchors": ["render/hist.go: getDensities"]}
{"id": "C125", "title": "Histogram workers do not panic", "statement": "A worker finishes without a panic for every skip accepted by the configuration and its histogram counts the samples of its cubes.", "quantifier": "all sheets, skips, workers", "why_tests_cant": "Universal.", "anchors": ["render/hist.go: chanHistogram"]}
{"id": "C126", "title": "Histogram counts in float64", "statement": "Every float64 sample with min <= x < max is counted, and no sample makes the histogram panic.", "quantifier": "all float64 samples", "why_tests_cant": "Needs particular values at bin edges.", "anchors": ["render/hist.go: histogram"]}
{"id": "C127", "title": "Counts of one file (skip 1)", "statement": "With skip 1 and any number of workers and any schedule, the counts added for a file are those of the samples of the six tetrahedra of every cube whose base particle is strictly inside the sheet's region, each cube once.", "quantifier": "all files, boxes, grids, workers and schedules, exact arithmetic", "why_tests_cant": "Schedules and universal.", "anchors": ["render/hist.go: HistFromFile, chanHistogram, cubeIntersects, getDensities, histogram"]}
{"id": "C128", "title": "Finder works for large spheres", "statement": "Overlapping halos are found however large their radii are compared to the box.", "quantifier": "all catalogues", "why_tests_cant": "Needs radii above a quarter of the box.", "anchors": ["render/halo/finder.go: SphereBounds, FindSubhalos"]}
{"id": "C129", "title": "Finder can be used twice", "statement": "A second search with the same finder gives the same lists as a new finder.", "quantifier": "all catalogues", "why_tests_cant": "Tests use a fresh finder.", "anchors": ["render/halo/finder.go: FindSubhalos, crossMatch"]}
{"id": "C130", "title": "Finder accepts an empty catalogue", "statement": "FindSubhalos with no halos returns empty lists.", "quantifier": "all grids", "why_tests_cant": "Edge case.", "anchors": ["render/halo/finder.go: FindSubhalos, cumulativeMax"]}
{"id": "C131", "title": "Values read from a catalogue", "statement": "readRockstarVals returns the identifiers and, for each requested value in order, the requested column: lengths converted from kpc to Mpc, and requested radii computed from the masses of the same definition.", "quantifier": "all requests, all catalogues, exact arithmetic", "why_tests_cant": "Universal over the list of requests.", "anchors": ["render/halo/io.go: readRockstarVals", "render/halo/radius.go: Radius"]}
{"id": "C132", "title": "Positions just below the width in float64", "statement": "Insert accepts every float64 position in [0,Width).", "quantifier": "all float64 positions, widths, cell numbers", "why_tests_cant": "Needs a position at the last float64 below the width.", "anchors": ["render/halo/grid.go: Insert", "render/scripts/read_halo.go"]}
{"id": "C133", "title": "Halos read from a catalogue", "statement": "ReadRockstar returns the rows of the table, each once and with all six columns aligned, ordered from largest to smallest radius; mass and radius of a row are related by the chosen overdensity, and the one given in the file is unchanged (radii in Mpc).", "quantifier": "all catalogues, definitions, cosmologies, any correct sort, exact arithmetic", "why_tests_cant": "Universal over tables and over sorting algorithms.", "anchors": ["render/halo/io.go: ReadRockstar, halos.Swap", "render/halo/radius.go: RockstarColumn, RockstarMass, Radius, Mass"]}
{"id": "C134", "title": "Density along a line", "statement": "extractLine returns, for a unit vector, the density on the line from the center of the box in that direction: point j lies j cells from the center along the longest axis, its radius is its distance from the center in physical units, its density is interpolated between the four cells around it in its layer, and the points reach up to the edge of the box.", "quantifier": "all box sizes, grids, unit vectors, cell widths, exact arithmetic; all float64 inputs", "why_tests_cant": "Universal over directions and box shapes; tests use cubes.", "anchors": ["render/scripts/profile.go: extractLine, gridMult"]}
{"id": "C135", "title": "Lines through removed subhalos are rejected", "statement": "extractLine reports failure for a line that meets cells removed as subhalos (NaN), and lineProfiles draws directions until it has the number of lines asked for.", "quantifier": "all grids, directions, numbers of lines", "why_tests_cant": "The rejecting branch depends on data; its absence is visible only over all inputs.", "anchors": ["render/scripts/profile.go: extractLine, lineProfiles"]}
{"id": "C136", "title": "Radii of cells", "statement": "radii returns for every cell the distance of its center from the center of the box.", "quantifier": "all boxes, cell widths, exact arithmetic", "why_tests_cant": "Universal over boxes and cells.", "anchors": ["render/scripts/profile.go: radii"]}
{"id": "C137", "title": "Random directions", "statement": "randomUnit returns a vector of length 1 along the drawn point, with the component of the given axis equal to zero.", "quantifier": "all draws, all axes", "why_tests_cant": "Universal over draws; the failing draw has probability near zero.", "anchors": ["render/scripts/profile.go: randomUnit"]}
{"id": "C138", "title": "Removing a subhalo", "statement": "removeSubhalo sets to NaN exactly those cells of the halo's grid that are cells of the subhalo's box in the periodic volume, changes no others and never indexes out of range.", "quantifier": "all halo and subhalo bounds, grids, numbers of cells", "why_tests_cant": "Universal over positions relative to the periodic boundary.", "anchors": ["render/scripts/profile.go: removeSubhalo", "render/halo/finder.go: Inside, ConvertIndices, SphereBounds"]}
{"id": "C139", "title": "Means of binned data", "statement": "binnedMean returns, in order, the middles of the bins that are not empty and the means of their elements; elements that are masked, NaN or outside the limits are ignored, and limits that are not given are the extremes of the data.", "quantifier": "all data, masks, limits, numbers of bins, scales, exact arithmetic; all float64 data", "why_tests_cant": "Universal over data; special values of the limits.", "anchors": ["render/scripts/profile.go: binnedMean"]}
{"id": "C140", "title": "Rounding", "statement": "round returns the nearest integer, the larger one for ties.", "quantifier": "all numbers, exact arithmetic", "why_tests_cant": "Universal over reals.", "anchors": ["render/scripts/profile.go: round"]}
{"id": "C141", "title": "Printed profiles", "statement": "printProfiles prints as many rows as the shortest profile has points; row k has radius and density of point k of every profile, and no index is out of range.", "quantifier": "all nonempty lists of profiles with radii and densities of equal lengths", "why_tests_cant": "Universal over lengths.", "anchors": ["render/scripts/profile.go: printProfiles"]}
{"id": "C142", "title": "Columns of the halo table stay together", "statement": "Whatever sequence of swaps a sorting algorithm makes, the rows of the seven columns of Halos are permuted as units.", "quantifier": "all tables, all sequences of swaps in range", "why_tests_cant": "Universal over sorting algorithms.", "anchors": ["render/scripts/read_halo.go: Halos.Swap, main"]}
{"id": "C143", "title": "Radii written for the renderer", "statement": "The radii written are those of the definition named on the command line.", "quantifier": "all definitions, masses, cosmologies, exact arithmetic", "why_tests_cant": "Universal over cosmologies; needs an independent definition of overdensity radii.", "anchors": ["render/scripts/read_halo.go: main", "render/halo/radius.go: Radius, RockstarMass"]}
{"id": "C144", "title": "Targets in the catalogue", "statement": "The index found for a target ID is that of its first row; an ID that is not in the catalogue is not rendered.", "quantifier": "all ID lists, targets", "why_tests_cant": "Universal over catalogues.", "anchors": ["render/scripts/read_halo.go: main"]}
{"id": "C145", "title": "Halos from rows", "statement": "newHalos returns for each index that row of the columns, in order.", "quantifier": "all index lists in range, all columns", "why_tests_cant": "Universal over lists.", "anchors": ["render/scripts/read_halo.go: newHalo, newHalos"]}
{"id": "C146", "title": "Number of particles", "statement": "particles returns 1000 (L/3l)^3 (pixels/500)^3 rounded down, and at least 20.", "quantifier": "all widths, numbers of pixels, exact arithmetic", "why_tests_cant": "Universal over reals.", "anchors": ["render/scripts/read_halo.go: particles"]}
{"id": "C147", "title": "First element below a value", "statement": "findIdx returns the first index with an element below the value, and the length if there is none.", "quantifier": "all lists, values, exact arithmetic", "why_tests_cant": "Universal over lists.", "anchors": ["render/scripts/read_halo.go: findIdx"]}
{"id": "C148", "title": "The catalogue program as a whole", "statement": "read_halo sorts the rows by radius, and writes for each target ID its position, its radius in the definition asked for, a ball of three times that radius with a number of particles that follows from it, and the list of all smaller halos whose spheres, three times as large as R200m, overlap with its own in the periodic box.", "quantifier": "all catalogues, targets, cosmologies, sequences of swaps that sort, exact arithmetic", "why_tests_cant": "Universal over catalogues and sorting algorithms; composition of five parts.", "anchors": ["render/scripts/read_halo.go: main, genScripts, particles", "render/halo/grid.go: Insert", "render/halo/finder.go: FindSubhalos"]}
{"id": "C149", "title": "Scaled positions stay in the buffer", "statement": "Every particle of a sheet is scaled to its position in units of cells, relative to the buffer and up to whole periods, with the same period for all particles of the sheet along an axis; for segment buffers the result lies inside the buffer.", "quantifier": "all sheets narrower than half the simulation, boxes, exact arithmetic; refuted for float32 by a witness", "why_tests_cant": "A particle a rounding error above a cell face is what breaks it.", "anchors": ["render/box.go: ScaleVecs", "render/render.go: renderer passes", "render/geom/grid.go: ScaleVecsSegment"]}
{"id": "C150", "title": "Jobs that cannot be rendered", "statement": "A job without files, without boxes, with a file that cannot be read or with a file of another size ends with a message and not with a panic.", "quantifier": "all jobs, any arithmetic", "why_tests_cant": "Universal over jobs.", "anchors": ["render/render.go: NewManager, RenderDensityFromFile, loadHeader"]}
{"id": "C151", "title": "Choice of files and length of buffers", "statement": "NewManager keeps exactly the files whose cells meet those of some box, in order; a box requires exactly the files whose cells meet its own; and the buffers of all workers have room for every pair of a box and a file that meet.", "quantifier": "all lists of files and boxes, any arithmetic", "why_tests_cant": "Universal over lists of files and boxes.", "anchors": ["render/render.go: NewManager"]}
{"id": "C152", "title": "A whole rendering run", "statement": "A run over any files and boxes ends without panic, and every cell of every image grows by the mass of a sample point times the number of sample points of all tetrahedra of all files in it, where every tetrahedron is sampled once with one of the 64 unit buffers. The result does not depend on the number of workers or on the order in which they finish, and nothing but the images changes.", "quantifier": "all files with sheets narrower than half the simulation, boxes with at least 4 cells, numbers of workers, random choices, orders, scalar quantities; exact arithmetic; no sample point exactly on a face between two cells unless the buffer is a three dimensional segment", "why_tests_cant": "Universal over files, boxes and schedules; composition of scan, scaling, sampling, merging.", "anchors": ["render/render.go: NewManager, RenderDensity", "render/box.go: all", "render/density/interpolator.go: Interpolate"]}
{"id": "C153", "title": "Mean density of a full image", "statement": "If the files are all segments of the sheet and the skip divides the segment width, then a run raises the mean of every image that shows the whole simulation by exactly 1, the mean density, projected or not.", "quantifier": "as C152, for boxes as wide as the simulation", "why_tests_cant": "Conservation over all runs; a test could only compare a few images.", "anchors": ["render/render.go: RenderDensity", "render/density/interpolator.go: Interpolate"]}
{"id": "C154", "title": "From particles to images", "statement": "If a complete lattice of particles is converted to sheet files and all files of the directory are rendered, then the mean of every three dimensional image of the whole simulation rises by exactly 1.", "quantifier": "all lattices whose segments span less than half the simulation along each axis, numbers of segments, widths, skips that divide the segment width, numbers of workers, random choices, orders, directory listings; exact arithmetic", "why_tests_cant": "Composition of both programs; the files that overwrite each other appear only with eleven or more segments per axis.", "anchors": ["render/main/main.go: writeGrids, copyToSegment, renderMain", "render/render.go: NewManager, RenderDensity", "render/io/io.go: WriteSheet"]}
{"id": "C155", "title": "NewBox makes an empty image of the configured box", "statement": "For every accepted box, number of pixels and quantity, NewBox does not panic: the pixels of the image are those that the closed box meets, it is projected if an axis is given and the quantity allows it, and all values are zero.", "quantifier": "for all simulation widths, numbers of pixels and particles, quantities and boxes", "why_tests_cant": "widths, origins and pixel counts are unbounded; tests see a few of them", "anchors": ["render/box.go:129-216"]}
{"id": "C156", "title": "renderMain as a whole", "statement": "From the configuration, the bounds files and a complete set of sheets, renderMain writes for each box an image in which each pixel holds the density of the sampled tetrahedra, and an image of the whole simulation has mean 1; unreadable files are reported.", "quantifier": "for all configurations, bounds files, sets of sheets, random points and schedules of the workers", "why_tests_cant": "a test renders one simulation with one configuration and one schedule", "anchors": ["render/main/main.go:526-597", "render/main/main.go:606-639", "render/box.go:129-216", "render/render.go:58-330"]}
{"id": "C157", "title": "The location recorded with an image is that of the image", "statement": "Origin, span and pixel width in the output file describe the pixels of the image: they enclose the configured box, start and end in its outermost pixels, and the recorded axis is that along which the image is projected.", "quantifier": "for all boxes, quantities and numbers of pixels", "why_tests_cant": "an infinite range of boxes; the header is written, never compared with the image", "anchors": ["render/io/output.go:103-139", "render/main/main.go:577-589"]}
{"id": "C158", "title": "The recorded projection depth is the one the particles suffice for", "statement": "MinProjectionDepth is the least depth for which the rule that chooses the number of particles asks for no more than were used.", "quantifier": "for all numbers of particles and pixels and all subsampling lengths", "why_tests_cant": "two formulas in two packages must be inverse to each other for all inputs", "anchors": ["render/io/output.go:118-124", "render/main/main.go:743-756"]}
{"id": "C159", "title": "All boxes of the bounds files are rendered", "statement": "The boxes to be rendered are the accepted sections of all bounds files with their names, each once, balls before boxes in each file; if a file cannot be read or a section is not accepted the run ends with an error.", "quantifier": "for all lists of bounds files", "why_tests_cant": "any number of files and sections", "anchors": ["render/io/config.go:486-508", "render/main/main.go:531-537"]}
{"id": "C160", "title": "Each image has its own file", "statement": "Every box is written to the file named after it, and after the run that file holds its image.", "quantifier": "for all sets of bounds files and names", "why_tests_cant": "collisions depend on the names that users choose", "anchors": ["render/main/main.go:567-592"]}
{"id": "C161", "title": "The recorded cosmology is that of the sheets", "statement": "Redshift, scale factor, density parameters, Hubble constant and box width in the output are those of the header of the sheets, and the recorded critical and mean densities follow from them by the Friedmann equation.", "quantifier": "for all cosmologies with non-negative density parameters", "why_tests_cant": "a continuum of parameters", "anchors": ["render/io/output.go:94-101", "render/main/main.go:580-583", "cosmo/param.go:11-38"]}
{"id": "C162", "title": "tetraHistMain as a whole", "statement": "From the configuration, the bounds files, a grid and a set of sheets, tetraHistMain writes for each box a table whose row j is the middle of bin j and the number of sample points of all tetrahedra of the sheets inside the box whose grid value is in bin j.", "quantifier": "for all configurations, bounds files, grids, sets of sheets, random points and schedules of the workers", "why_tests_cant": "a test makes one histogram of one simulation with one schedule", "anchors": ["render/hist.go:28-189", "render/main/main.go:761-819"]}
{"id": "C163", "title": "Files that cannot be read end a histogram run", "statement": "If the header or the positions of a sheet or the grid cannot be read, tetraHistMain ends with an error and writes no table.", "quantifier": "for all configurations and all positions of the file in the listing", "why_tests_cant": "the files before and after the bad one are arbitrary", "anchors": ["render/hist.go:73-101", "render/hist.go:162-189", "render/io/io.go:314-332", "render/main/main.go:761-819"]}
{"id": "C164", "title": "Accepted histogram configurations can be run", "statement": "A configuration that passes the checks of main has a non-empty range of bins, positive if the scale is logarithmic, a power of two as subsampling length, a known quantity and counts that are not negative, and its run does not panic.", "quantifier": "for all configurations", "why_tests_cant": "the configuration space is infinite", "anchors": ["render/main/main.go:147-160", "render/io/config.go:510-574"]}
{"id": "C165", "title": "Each histogram has its own file", "statement": "The table of every box is written to the file named after it, and after the run that file holds its table.", "quantifier": "for all sets of bounds files and names", "why_tests_cant": "collisions depend on the names that users choose", "anchors": ["render/main/main.go:795-819"]}
{"id": "C166", "title": "Rendered images can serve as grids of histograms", "statement": "The location written with a rendered image describes a grid that the histogram code can use: pixels and spans fit, it lies in the simulation, it has as many pixels as there are values, and the histogram code numbers the pixels as the renderer does.", "quantifier": "for all configurations, boxes and images", "why_tests_cant": "two programs must agree for all boxes", "anchors": ["render/io/output.go:103-139", "render/hist.go:258-330", "render/box.go:129-216"]}
{"id": "C167", "title": "A velocity run adds up the velocities of the sample points", "statement": "For every configuration in which the quantity needs velocities (Velocity, VelocityDivergence, VelocityCurl), for every set of sheets with velocities and every set of boxes with vector images, NewManager, Subsample and RenderDensity end normally, change nothing of a box but its image, and each cell of the image gets, for every sample point that lies in the cell modulo the period, one more point and the point's velocity (the corners' velocities mixed with the same weights as their positions) divided by the depth of the box along the projection axis; every tetrahedron of every sheet is sampled exactly once. The result does not depend on how the cells are split over workers or on the order in which workers finish.", "quantifier": "For all sheets, boxes, projections, skips, numbers of workers, random points and choices, and orders in which workers finish.", "why_tests_cant": "The number of combinations of sheets, boxes, worker counts and finishing orders is unbounded, and a velocity taken from the wrong particle or weighted wrongly still gives an image of plausible velocities.", "anchors": ["render/render.go: NewManager, Subsample, RenderDensity", "render/box.go: all", "render/density/interpolator.go: Interpolate", "render/density/buffer.go:265-306"]}
{"id": "C168", "title": "Velocity images show mean velocities", "statement": "At the end of a run that renders velocities into empty images each pixel of the three images written is the mean of the velocities of the sample points that lie in the pixel, and 0 where there is none.", "quantifier": "For all sheets, boxes with at least 30 pixels, projections, skips, numbers of workers, random points and choices, and finishing orders.", "why_tests_cant": "A test compares few pixels of one image; the mean must hold in every pixel of every box, for each projection axis and depth.", "anchors": ["render/render.go: NewManager, Subsample, RenderDensity", "render/box.go: all", "render/density/interpolator.go: Interpolate", "render/density/buffer.go:265-306"]}
{"id": "C169", "title": "Uniform motion gives uniform images", "statement": "If all particles of all sheets have the velocity v, a run that renders velocities into empty images shows v over the depth of the box (v itself in three dimensional images) in every pixel a sample point lies in and 0 in all other pixels, whatever the positions, the splitting into tetrahedra and the random points are.", "quantifier": "For all sheets, velocities, boxes with at least 30 pixels, skips, numbers of workers, random points and choices, and finishing orders.", "why_tests_cant": "Positions are arbitrary and the statement is about every pixel of every image.", "anchors": ["render/render.go: NewManager, Subsample, RenderDensity", "render/box.go: all", "render/density/interpolator.go: Interpolate", "render/density/buffer.go:265-306"]}
{"id": "C170", "title": "A run for Velocity writes mean velocities", "statement": "renderMain with the quantity Velocity writes one file per box whose pixels hold the mean velocity of the sample points in them (over the depth of the box), under the path, header and record of that box.", "quantifier": "For all configurations, bounds files, sheets, numbers of workers, random points and choices, and finishing orders that satisfy the conditions of C152.", "why_tests_cant": "Every pixel of every image of every configuration, over all schedules; the existing tests compute no derivative of a rendered image.", "anchors": ["render/main/main.go:526-597 renderMain", "render/io/output.go:154-166 WriteBuffer", "render/density/buffer.go:265-306", "render/render.go: NewManager, RenderDensity"]}
{"id": "C171", "title": "A run for DensityGradient writes the gradient", "statement": "renderMain with the quantity DensityGradient writes three images per box that are the differences of the rendered density along the three axes, taken over the width of one pixel, whatever the box.", "quantifier": "For all configurations, bounds files, sheets, numbers of workers, random points and choices, and finishing orders that satisfy the conditions of C152.", "why_tests_cant": "Every pixel of every image of every configuration, over all schedules; the existing tests compute no derivative of a rendered image.", "anchors": ["render/main/main.go:526-597 renderMain", "render/io/output.go:154-166 WriteBuffer", "render/density/buffer.go: FinalizedVectorBuffers", "render/geom/deriv.go: Gradient"]}
{"id": "C172", "title": "A run for VelocityCurl writes the curl", "statement": "renderMain with the quantity VelocityCurl writes the curl of the mean velocities of each box, whatever the box.", "quantifier": "For all configurations, bounds files, sheets, numbers of workers, random points and choices, and finishing orders that satisfy the conditions of C152.", "why_tests_cant": "Every pixel of every image of every configuration, over all schedules; the existing tests compute no derivative of a rendered image.", "anchors": ["render/main/main.go:526-597 renderMain", "render/io/output.go:154-166 WriteBuffer", "render/density/buffer.go: FinalizedVectorBuffers", "render/geom/deriv.go: Curl"]}
{"id": "C173", "title": "A run for VelocityDivergence writes the divergence", "statement": "renderMain with the quantity VelocityDivergence writes one image per box, the divergence of the mean velocities.", "quantifier": "For all configurations, bounds files, sheets, numbers of workers, random points and choices, and finishing orders that satisfy the conditions of C152.", "why_tests_cant": "Every pixel of every image of every configuration, over all schedules; the existing tests compute no derivative of a rendered image.", "anchors": ["render/main/main.go:526-597 renderMain", "render/io/output.go:154-166 WriteBuffer", "render/density/buffer.go: FinalizedScalarBuffer", "render/geom/deriv.go: Divergence"]}
{"id": "C174", "title": "A Gadget-2 file is read faithfully", "statement": "ReadGadget returns the header, the positions wrapped into the box, the velocities times the root of the scale factor, and the ids of the dark matter particles of a snapshot file, in the order of the file, or refuses the file.", "quantifier": "For all headers, numbers of particles, particles, widths of floats and ids, number types, and for both byte orders.", "why_tests_cant": "Every file; the repository has no test of the Gadget reader.", "anchors": ["render/io/io.go:79-118 gadgetHeader, Standardize", "render/io/io.go:122-149 WrapDistance, ReadGadgetHeader", "render/io/io.go:155-263 ReadGadgetParticlesAt, ReadGadget"]}
{"id": "C175", "title": "A Gadget-2 file that is cut is refused", "statement": "Reading a prefix of a snapshot file does not succeed.", "quantifier": "For all snapshot files and all lengths at which they may be cut.", "why_tests_cant": "Every file and every length.", "anchors": ["render/io/io.go:135-149 ReadGadgetHeader", "render/io/io.go:155-263 ReadGadgetParticlesAt, ReadGadget"]}
{"id": "C176", "title": "A set of snapshot files fills the grids", "statement": "createGrids puts the position and velocity of every particle of every file, in the units of the configuration, at the place of its id, and returns the header of the first file with the width of the lattice.", "quantifier": "For all numbers of files, distributions and orders of the particles over the files in which each id from 1 to the total occurs once.", "why_tests_cant": "All files and all permutations; there is no test of createGrids.", "anchors": ["render/main/main.go:280-353 createGrids", "render/io/buffer.go"]}
{"id": "C177", "title": "An incomplete set of snapshot files is noticed", "statement": "createGrids does not succeed if ids are missing, out of range, or not in the file of their particles.", "quantifier": "For all sets of files.", "why_tests_cant": "All sets of files; there is no test of createGrids.", "anchors": ["render/main/main.go:280-353 createGrids", "render/io/io.go:227-236"]}
{"id": "C178", "title": "Snapshots become segments", "statement": "The conversion of a directory of snapshot files writes one file per segment, whose points are the particles with the ids of the lattice points of the segment, with periodic neighbours at the upper faces.", "quantifier": "For all complete sets of files, numbers of segments and widths of segments.", "why_tests_cant": "All sets of files; there is no test of the conversion.", "anchors": ["render/main/main.go:241-279 lGadget2Main", "render/main/main.go:280-353 createGrids", "render/main/main.go: writeGrids"]}
{"id": "C179", "title": "The mass of a snapshot is in the images", "statement": "Converting a directory of snapshot files and rendering the density of boxes that show all of the simulation gives images whose mean is 1.", "quantifier": "For all complete sets of files whose positions are within one period of the box, all numbers of segments, workers, random points and finishing orders.", "why_tests_cant": "The whole way from the bytes of snapshots to pixels, over all files, numbers of segments and schedules.", "anchors": ["render/main/main.go:241-279 lGadget2Main", "render/render.go: NewManager, RenderDensity"]}
{"id": "C180", "title": "Every directory of an iteration is converted", "statement": "ConvertSnapshot either refuses its settings or converts the given directory, or all directories of the iteration in order, to the corresponding output directories.", "quantifier": "For all settings, directories, and ways of forming names.", "why_tests_cant": "All settings; there is no test of the program.", "anchors": ["render/main/main.go:168-191", "render/main/main.go:241-279 lGadget2Main", "render/io/config.go:220-282"]}
{"id": "C181", "title": "Derivative orders and slice lengths", "statement": "Deriv of order 0 returns the function values unchanged; slices of different lengths and orders other than 0, 2 and 4 are refused, whether or not an output slice is given.", "quantifier": "all abscissae, values, output slices and orders, any arithmetic", "why_tests_cant": "Universal over lengths and orders; the order 0 case returns the wrong slice for every input.", "anchors": ["math/calc/deriv.go: Deriv"]}
{"id": "C182", "title": "Matrix operations refuse sizes that do not fit", "statement": "NewMatrix accepts exactly positive sizes with matching data; products, LU factorisation, solving and inversion refuse operands whose sizes do not fit, with one slice or matrix fitting and the other not as well.", "quantifier": "all matrices, vectors and output buffers of any size, any arithmetic", "why_tests_cant": "Universal over sizes and over which of the operands is wrong.", "anchors": ["math/mat/mat.go: Init, MultAt, MultVec, VecMult, LU, SolveVector, SolveMatrix, InvertAt"]}
{"id": "C183", "title": "EvalAll is Eval at every point", "statement": "For every interpolator, EvalAll succeeds exactly when every Eval does and the other slices are long enough, and returns the value of Eval at each point; a given output slice receives the values and keeps its further entries; the cubic interpolators give the values of a new interpolator whatever was evaluated before.", "quantifier": "all interpolators, point lists, output slices and call histories", "why_tests_cant": "Universal over call histories and list lengths.", "anchors": ["math/interpolate/linear_interpolators.go: EvalAll", "math/interpolate/spline.go: EvalAll", "math/interpolate/cubic_interpolators.go: EvalAll"]}
{"id": "C184", "title": "Catalogue readers refuse what they cannot serve", "statement": "Each of the five definitions of the radius has its column of a Rockstar table and any other number stops the program; a binary catalogue that is too short for its count or for a column asked for gives an error, never wrong numbers, and a negative count stops the program.", "quantifier": "all definitions, files, counts and lists of columns", "why_tests_cant": "The failing inputs are universal over lengths, counts and columns.", "anchors": ["render/halo/radius.go: RockstarColumn, RockstarMass", "render/halo/io.go: ReadRockstar, binaryColGetter"]}
{"id": "C185", "title": "The program profile from image and table to files", "statement": "A run of profile reads the image and the table, replaces by NaN exactly the pixels that meet the cube around a subhalo, and writes four files: for each axis choice 1000 directions drawn in turn from the random numbers, of length one, and below them the distances and the densities of the image interpolated along these directions. Wrong arguments, empty tables, short files and projected images stop the run.", "quantifier": "all images, tables, random numbers, box and pixel sizes", "why_tests_cant": "Universal over positions in the periodic box and over random numbers; a wrong column or a shared random number is invisible in single files.", "anchors": ["render/scripts/profile.go: main, readSubhalos, printData, printVecs, lineProfiles, removeSubhalo", "render/halo/finder.go: SphereBounds"]}
{"id": "C186", "title": "Random generators behind one interface", "statement": "New makes a working generator for each of the three types and any seed, and panics for any other type. Every draw after that succeeds and lies in [0, 1), or in [0, 1] for Tausworthe. UniformAt gives exactly the numbers that the same number of Uniform calls would give, and leaves the generator in the same state.", "quantifier": "all types, seeds, histories of draws, ranges and slices", "why_tests_cant": "a test draws a few numbers from a few seeds", "anchors": ["math/rand/rand.go:37-73", "math/rand/golang.go:7-24", "math/rand/tausworthe.go:16-68", "math/rand/xorshift.go:17-41"]}
{"id": "C187", "title": "Seeding and the points of the unit cube", "statement": "Whatever the seed, the table of the Tausworthe generator has 9689 numbers of [0, 1). The buffers that a run makes before it starts its workers hold the requested number of points, each of which is the fold of a point of the unit cube into the unit tetrahedron.", "quantifier": "all seeds, numbers of buffers and points", "why_tests_cant": "the seed is the time, so a test sees one seed", "anchors": ["math/rand/tausworthe.go:16-34", "render/render.go:155-172"]}
{"id": "C188", "title": "Ranges of Uniform and UniformInt", "statement": "Uniform(low, high) lies in [low, high) and UniformInt(low, high) in the integers low..high-1.", "quantifier": "all generators, histories and ranges", "why_tests_cant": "a test would have to meet the draw next to one", "anchors": ["math/rand/rand.go:56-65"]}
{"id": "C189", "title": "Sampling of a tetrahedron", "statement": "RandomSample panics unless randBuf has three numbers for each point; otherwise it uses exactly that many draws and every point lies in the tetrahedron. DistributeTetra64 gives the points of DistributeTetra in double precision, leaves the rest of the output as it was, and panics if the output is too short.", "quantifier": "all tetrahedra, generators, histories and lengths", "why_tests_cant": "points are random, a test looks at some of them", "anchors": ["render/geom/tetra.go:308-324", "render/geom/tetra.go:396-447"]}
{"id": "C190", "title": "What configurations are accepted", "statement": "The histogram program accepts a configuration exactly if input and output are named, the subsampling is a power of two, the lower edge of the histogram lies below the upper one, and the scale is linear, or logarithmic with a positive lower edge. The render program accepts one exactly if the subsampling is positive, one of the two pixel numbers is positive, and the particle number, the projection depth or the automatic choice is given.", "quantifier": "all configurations", "why_tests_cant": "each of the conditions is decided by several predicates that the callers combine; a test tries single files", "anchors": ["render/io/config.go:536-585", "render/main/main.go:112-134", "render/main/main.go:147-160"]}
{"id": "C191", "title": "The Xorshift generator runs through all its states", "statement": "From every state that is not all zero, the Xorshift generator comes back to that state after 2^128 - 1 steps and meets no state twice on the way; all such states lie on the one cycle. Counted in numbers drawn, which leave out the states that would give 1, the state comes back after exactly 2^128 - 2^96 draws and not before.", "quantifier": "all states, all numbers of steps and of draws", "why_tests_cant": "the cycle has 2^128 - 1 states; no run can go round it, and a wrong shift constant leaves every short test green", "anchors": ["math/rand/xorshift.go:13-31"]}
{"id": "C192", "title": "The Sobol points are evenly spread", "statement": "Of a block of 2^p points that starts at a multiple of 2^p, each coordinate falls exactly once into every interval of length 2^-p, and any two coordinates give every box of area 2^-(p-t) its share of 2^t points, with t bounded.", "quantifier": "all dimensions, all block sizes and positions up to the capacity, all intervals and boxes", "why_tests_cant": "the claim is about all blocks up to 2^30 points; the points of a wrong table still look random and stay in range", "anchors": ["math/rand/sobol.go:17-21", "math/rand/sobol.go:40-70", "math/rand/sobol.go:80-102"]}
{"id": "C193", "title": "A buffer answers as its quantity says", "statement": "However a buffer has been cut, cleared, placed and filled since it was made, it still reports the quantity it was made for; counts and vectors are there exactly for the three velocity quantities and scalars exactly for the two density quantities, all of the current length; the finished image is one array exactly for density and divergence and three arrays otherwise; SetVectors overwrites the front of the vectors and nothing else; WriteBuffer writes the image of the contents at the location last given.", "quantifier": "all quantities, lengths, locations and sequences of Slice, Clear, SetGridLocation and SetVectors", "why_tests_cant": "tests try a few kinds and orders of calls; the dispatch by embedded types hides which method answers after which history", "anchors": ["render/density/buffer.go:13-68", "render/density/buffer.go:74-188", "render/density/buffer.go:196-429", "render/io/output.go:141-167"]}
{"id": "C194", "title": "The Python reader sees the image that was written", "statement": "read_header and read_grid of python/gotetra.py, given the file WriteBuffer writes for a buffer of any quantity, return every header field and every number of the image, in an array whose axes are z, y, x without the projected one.", "quantifier": "all quantities, buffer histories, header values of their types, projection axes and image sizes", "why_tests_cant": "the writer is Go and the reader Python, so no unit test of either runs both; a wrong offset or shape still yields plausible pictures", "anchors": ["python/gotetra.py:34-136", "python/gotetra.py:160-213", "python/gotetra.py:226-235", "python/gotetra.py:277-287", "python/gotetra.py:318-326", "python/gotetra.py:363-371", "render/io/output.go:141-167"]}
{"id": "C195", "title": "The Python reader sees the sheets of a conversion", "statement": "The class File of python/gtet.py, given a file that a conversion writes, holds the header fields its comment lists and the positions and velocities of the segment: xn and vn the s + 1 particles on each side, x and v the s that belong to the file, indexed by x, y, z. No particle stands in the arrays x of two files, and file_cells * x_width is count_width, so that every particle stands in one.", "quantifier": "all lattices, numbers of cells, segments, header values of their types and byte orders of the writing machine", "why_tests_cant": "writer and reader are in different languages, and a cubic lattice hides an exchange of axes: every index stays in range and the picture stays smooth", "anchors": ["python/gtet.py:6-82", "render/main/main.go:363-412", "render/main/main.go:464-517", "render/io/io.go:43-75", "render/io/io.go:352-386"]}
{"id": "C196", "title": "The picture of a grid shows the layers that were asked for", "statement": "render.py with direction d and depth k shows, of an unprojected grid, the mean of the k layers about the middle of the box (all of them if k is larger), and accepts a projected grid only for its own direction. It draws every number at the coordinates of its pixel and puts a coordinate and the depth of what is shown in the title.", "quantifier": "all array shapes, contents, directions, depths, origins and pixel widths", "why_tests_cant": "the pictures are looked at by eye: one layer more, the last layers in place of all, or a title that gives a coordinate outside of the box look plausible", "anchors": ["python/render.py:10-30", "python/render.py:73-74", "python/render.py:82-97", "python/render.py:104-113", "python/render.py:120-129", "python/render.py:137-143", "python/render.py:149-155"]}
