{"id": "C01", "title": "Group is an insertion-ordered set", "statement": "After any sequence of Add calls on a Group, iterating it yields every object that was ever added exactly once, in the order of its first insertion; Contains(x) is true exactly for the objects that were added; Size() is the number of distinct objects. This holds no matter how the objects' addresses are ordered in memory.", "quantifier": "every sequence of Add/Contains calls and every assignment of memory addresses to the objects", "why_tests_cant": "The implementation keeps a binary-searched index sorted by address next to the insertion-order list; the outcome must not depend on heap addresses, which a test cannot enumerate.", "anchors": ["nuto/base/Group.h:Group::Add", "nuto/base/Group.h:Group::Contains", "nuto/base/Group.h:SortedUniqueVector"]}
{"id": "C02", "title": "Group set algebra", "statement": "Unite, Difference, Intersection and SymmetricDifference of two groups contain exactly the set-theoretic result, without duplicates, and in the order in which the operands list their elements (left operand first).", "quantifier": "all pairs of groups built by any history of Add calls; Unite additionally for any number of operands", "why_tests_cant": "Universally quantified over group contents, address order and arity.", "anchors": ["nuto/base/Group.h:Unite", "nuto/base/Group.h:Difference", "nuto/base/Group.h:Intersection", "nuto/base/Group.h:SymmetricDifference"]}
{"id": "C03", "title": "Unique ids", "statement": "Any two distinct constructed (not copied) objects of a UniqueId class report different Id()s, the ids are 0,1,2,... in construction order for every class separately, and a copy reports the id of its original forever.", "quantifier": "all interleavings of constructions and copies over any number of classes", "why_tests_cant": "A statement over all construction histories.", "anchors": ["nuto/base/UniqueId.h:UniqueId"]}
{"id": "C04", "title": "ValueVector references stay valid", "statement": "A reference returned by ValueVector::Add denotes the same, unmodified value after any later Add calls, and stays valid until the element itself is erased; iteration yields the values in insertion order.", "quantifier": "all histories of Add and Erase calls, interleaved with reads through earlier references", "why_tests_cant": "Reference stability must hold for every history including arbitrarily many reallocations.", "anchors": ["nuto/base/ValueVector.h:ValueVector"]}
{"id": "C05", "title": "Serialization round trip", "statement": "Writing any sequence of primitive values and matrices to a SerializeStreamOut and reading the file with a SerializeStreamIn in the same order and with the same shapes restores exactly the written values, in text mode and in binary mode.", "quantifier": "all sequences of writes, all matrix shapes, all ints and bools and all finite normal doubles and zero", "why_tests_cant": "Round trip over unbounded sequences and all doubles.", "anchors": ["nuto/base/serializeStream/SerializeStreamOut.h", "nuto/base/serializeStream/SerializeStreamIn.h"]}
{"id": "C06", "title": "Serialization separators", "statement": "Separator calls interleaved at the same positions of the write and read sequence do not change what is read back, do not consume or produce data of neighbouring values, and access only memory they own, in text and in binary mode.", "quantifier": "all write/read sequences with separators at arbitrary positions", "why_tests_cant": "Framing errors appear only for particular sequences and modes; memory access is undefined behaviour that tests may not see.", "anchors": ["nuto/base/serializeStream/SerializeStreamOut.cpp:Separator", "nuto/base/serializeStream/SerializeStreamIn.cpp:Separator"]}
{"id": "C07", "title": "DofContainer is a map from dof types", "statement": "A DofContainer behaves as a finite map keyed by the dof type: the non-const operator[] creates a default entry, At and const operator[] return the stored entry or throw, Insert throws exactly when the key exists and otherwise adds it, Has tells membership, and entries of other dof types are never affected.", "quantifier": "all sequences of operations on any set of dof types", "why_tests_cant": "History property of a mutable container.", "anchors": ["nuto/mechanics/dofs/DofContainer.h:DofContainer", "nuto/mechanics/dofs/DofInfo.h:DofInfo::Merge"]}
{"id": "C08", "title": "DofVector arithmetic is block-wise linear algebra", "statement": "+=, -=, *=, AddScaled and the binary +, - and scalar * built from them act block-wise as the vector-space operations on DofVectors, where a block missing on either side counts as zero; SetZero zeroes every block and keeps its size; DofTypes() lists the stored dof types in ascending id order.", "quantifier": "all DofVectors, scalars and sets of dof types (missing blocks included)", "why_tests_cant": "Algebraic law over arbitrary sets of dof types and sizes; the 'uninitialized' branches are easy to get wrong for one combination only.", "anchors": ["nuto/mechanics/dofs/DofVector.h:DofVector", "nuto/mechanics/dofs/DofVector.h:operator+=", "nuto/mechanics/dofs/DofVector.h:operator-="]}
{"id": "C09", "title": "Block to Eigen conversion", "statement": "ToEigen(DofVector, dofs) concatenates the blocks in the given order, FromEigen splits a vector of the right length back, each is the inverse of the other; ToEigen of a block matrix places block (i,j) at the row/column offset given by the sizes of the preceding diagonal blocks, so that ToEigen(K)*ToEigen(v) = ToEigen(K*v).", "quantifier": "all dof type lists, block sizes, vectors and sparse block matrices with consistent block shapes", "why_tests_cant": "Offsets must be right for any number of blocks and any shapes, including empty blocks.", "anchors": ["nuto/mechanics/dofs/DofVectorConvertEigen.h:ToEigen", "nuto/mechanics/dofs/DofVectorConvertEigen.h:FromEigen", "nuto/mechanics/dofs/DofMatrixSparseConvertEigen.h:ToEigen"]}
{"id": "C10", "title": "Dof numbering is a bijection", "statement": "DofNumbering::Build gives every component of every node of the group a number such that the numbers are exactly 0..N-1 with N the total number of components, no two components share a number, the reported number of dependent dofs is the number of constraint equations of that dof type and independent + dependent = N; it throws iff a constraint refers to a node outside the group, and then leaves all node numbers as they were.", "quantifier": "all node groups with arbitrary numbers of components, all constraint sets, all dof types, any previous numbering state", "why_tests_cant": "Bijection over unbounded meshes.", "anchors": ["nuto/mechanics/dofs/DofNumbering.cpp:Build", "nuto/mechanics/dofs/DofNumbering.h", "nuto/mechanics/nodes/NodeSimple.h"]}
{"id": "C11", "title": "Constrained dofs are numbered last", "statement": "As its documentation states, DofNumbering::Build gives the constrained dofs the highest dof numbers.", "quantifier": "all node groups and constraints", "why_tests_cant": "A statement about all numberings; the unit tests only look at selected meshes.", "anchors": ["nuto/mechanics/dofs/DofNumbering.h:Build", "nuto/mechanics/dofs/DofNumbering.cpp:Build"]}
{"id": "C12", "title": "Accepted constraint sets are solvable", "statement": "After any history of Constraints::Add calls (throwing calls included), every dof is the dependent dof of at most one equation and no dependent dof occurs among the independent terms of any equation; Add throws exactly when the new equation would violate this, and a throwing single Add leaves the set unchanged.", "quantifier": "all histories of Add calls over any dof types, nodes, components and equations", "why_tests_cant": "Invariant over all histories; the rejection rule must consider every pair of old and new terms.", "anchors": ["nuto/mechanics/constraints/Constraints.cpp:Add", "nuto/mechanics/constraints/Constraints.cpp:TermChecker", "nuto/mechanics/constraints/Term.h"]}
{"id": "C13", "title": "Constraint matrix parametrises the admissible space", "statement": "For an accepted constraint set with numbered dofs, with C = BuildUnitConstraintMatrix and g(t) the global right hand side, every u = C v + g(t) fulfils every constraint equation at time t, and every u that fulfils all equations is C v + g(t) for exactly one v of length numIndependentDofs.", "quantifier": "all constraint sets, dof numberings, times t and vectors u, v", "why_tests_cant": "Existence and uniqueness over all vectors and all constraint sets.", "anchors": ["nuto/mechanics/constraints/Constraints.cpp:BuildUnitConstraintMatrix", "nuto/mechanics/constraints/Constraints.cpp:GetSparseGlobalRhs", "nuto/mechanics/constraints/Constraints.cpp:GetRhs"]}
{"id": "C14", "title": "JK numbering is a permutation", "statement": "Constraints::GetJKNumbering returns a permutation of 0..numDofs-1 whose first numIndependent entries are the unconstrained dofs in ascending order and whose last entries are the constrained dofs in the order of the equations; it throws when a constrained dof number is missing or out of range.", "quantifier": "all constraint sets and all numbers of dofs", "why_tests_cant": "Permutation property over unbounded sets.", "anchors": ["nuto/mechanics/constraints/Constraints.cpp:GetJKNumbering", "nuto/mechanics/constraints/Constraints.h:JKNumbering"]}
{"id": "C15", "title": "Prescribed values are passed in full precision", "statement": "The vector returned by GetSparseGlobalRhs holds, for each constrained dof, exactly the double value the right hand side function of its equation returns at that time, and zero elsewhere.", "quantifier": "all constraint sets, right hand side functions and times", "why_tests_cant": "Depends on the value; a test with 'nice' values (0, 1, 0.5) cannot see a loss of precision.", "anchors": ["nuto/mechanics/constraints/Constraints.cpp:GetSparseGlobalRhs"]}
{"id": "C16", "title": "Direction constraint prescribes the displacement along the direction", "statement": "Direction(node, d, rhs) yields an equation that holds for the nodal values u at time t exactly if (d/|d|) . u = rhs(t), for every d that is not (nearly) zero, and throws otherwise.", "quantifier": "all directions d of any dimension, nodal values u, rhs functions and times", "why_tests_cant": "Equivalence over all directions and values.", "anchors": ["nuto/mechanics/constraints/ConstraintCompanion.cpp:Direction", "nuto/mechanics/constraints/Equation.h"]}
{"id": "C17", "title": "Parallel assembly is schedule independent", "statement": "SimpleAssembler::BuildVector and BuildMatrix return the sum over all cells of the cell contributions scattered to the global dof numbers, for every distribution of cells over threads and every order in which the threads merge their results.", "quantifier": "all groups of cells, all lists of distinct dof types, all numbers of threads, all static/dynamic schedules and merge orders", "why_tests_cant": "OpenMP schedules cannot be enumerated by tests.", "anchors": ["nuto/mechanics/cell/SimpleAssembler.cpp:BuildVector", "nuto/mechanics/cell/SimpleAssembler.cpp:BuildMatrix"]}
{"id": "C18", "title": "Lumped matrix preserves the mass", "statement": "The diagonal matrix returned by BuildDiagonallyLumpedMatrix has, for every displacement component, the same total mass as the consistent mass matrix, and nonnegative entries whenever the consistent diagonal is nonnegative and the total is positive.", "quantifier": "all meshes, all dof types with any number of components", "why_tests_cant": "The existing test covers scalar dofs only; the law concerns every number of components.", "anchors": ["nuto/mechanics/cell/SimpleAssembler.cpp:BuildDiagonallyLumpedMatrix"]}
{"id": "C19", "title": "Incremental assembler life cycle", "statement": "A VectorAssembler/MatrixAssembler holds the sum of all contributions added since the last SetZero, whatever the order of Add, SetZero and (for matrices) Finish calls; Resize and Get throw in exactly the documented states.", "quantifier": "all histories of Resize/Add/SetZero/Finish/Get calls", "why_tests_cant": "State machine with an implicit phase switch; interleavings are unbounded.", "anchors": ["nuto/mechanics/cell/Assembler.cpp:MatrixAssembler", "nuto/mechanics/cell/Assembler.cpp:VectorAssembler"]}
{"id": "C20", "title": "Cell integration is the quadrature sum", "statement": "Integrate returns sum over integration points of f(ip) * det J(ip) * weight(ip), visits every integration point exactly once with its own cell and ip id, Apply visits the same points and adds nothing, and the constructor rejects mismatching shapes.", "quantifier": "all integrands, interpolations and integration types", "why_tests_cant": "Universally quantified over integrands and rules.", "anchors": ["nuto/mechanics/cell/Cell.h:IntegrateGeneric", "nuto/mechanics/cell/Cell.h:Apply", "nuto/mechanics/cell/Cell.h:Eval"]}
{"id": "C21", "title": "Integration point data caching is transparent", "statement": "CellIpData::N, B, NodeValueVector, Value and Apply return for each (dof type, operator) the same value as direct evaluation, whatever was requested before.", "quantifier": "all sequences of requests on one integration point", "why_tests_cant": "Cache coherence over all request orders.", "anchors": ["nuto/mechanics/cell/CellIpData.h:CellIpData", "nuto/mechanics/cell/CellData.h:CellData"]}
{"id": "C22", "title": "Jacobian and its inverse", "statement": "For square Jacobians (dimension 1 to 3) Inv() is the inverse and Det() the determinant of the derivative of the geometry; for lines in 2D and surfaces in 3D Det() is the length/area ratio, Inv() a left inverse and Normal() a unit normal; any other pair of dimensions is rejected; global gradients computed with it are the chain-rule gradients.", "quantifier": "all element geometries with nonzero measure and all dimensions", "why_tests_cant": "Algebraic identity over all real node coordinates.", "anchors": ["nuto/mechanics/cell/Jacobian.h:Jacobian", "nuto/mechanics/cell/DifferentialOperators.h"]}
{"id": "C23", "title": "Strain operator", "statement": "B * nodal values equals the symmetric displacement gradient in Voigt notation (xx, yy, zz, yz, xz, xy with engineering shear) of the interpolated field, in 1, 2 and 3 dimensions and any number of nodes.", "quantifier": "all numbers of nodes, shape function gradients, nodal values and dimensions 1-3", "why_tests_cant": "Index layout must be right for every node and component.", "anchors": ["nuto/mechanics/cell/DifferentialOperators.h:Strain", "nuto/mechanics/cell/DifferentialOperators.h:Gradient", "nuto/mechanics/cell/Matrix.h:N"]}
{"id": "C24", "title": "Linear solve with constraints", "statement": "Solve(K, f, constraints) returns the vector u that satisfies the homogeneous constraints and the reduced equilibrium C^T K u = C^T f, with the block of each dof type in the returned DofVector being the solution of that dof type, for every order of the dof type list.", "quantifier": "all block systems, dof type orders, constraints, and any correct linear solver", "why_tests_cant": "Block order is a permutation argument; tests use one dof type.", "anchors": ["nuto/mechanics/solver/Solve.cpp:Solve", "nuto/mechanics/solver/Solve.h"]}
{"id": "C25", "title": "Trial state", "statement": "SolveTrialState returns the increment that satisfies the constraint increment from t_old to t_new on the constrained dofs and equilibrium on the independent dofs.", "quantifier": "all block systems, constraint histories and time increments", "why_tests_cant": "Quantified over all systems and times.", "anchors": ["nuto/mechanics/solver/Solve.cpp:SolveTrialState"]}
{"id": "C26", "title": "Adaptive time stepping", "statement": "Whatever the step function does (any iteration counts, any pattern of NoConvergence), AdaptiveSolve::Solve attempts steps whose size never exceeds max(initial, maximal) time step, only ever advances time by successful steps, calls postprocessing exactly at t=0 and after each success with strictly increasing times, halts, and either reaches exactly the requested end time or throws after the time step fell below the minimum.", "quantifier": "all outcomes of the step function, all parameters with 0 < decrease factor < 1 <= increase factor", "why_tests_cant": "Controller behaviour over all success/failure histories; termination.", "anchors": ["nuto/mechanics/tools/AdaptiveSolve.cpp:Solve", "nuto/mechanics/tools/AdaptiveSolve.h"]}
{"id": "C27", "title": "Newton-Raphson postcondition", "statement": "NewtonRaphson::Solve returns only iterates whose residual norm is below the tolerance, uses at most the given number of iterations, and throws NoConvergence otherwise; with line search the residual norm decreases by the sufficient-decrease factor in every accepted step.", "quantifier": "all residual/derivative/norm functions and solvers, all start values and iteration limits", "why_tests_cant": "Postcondition over arbitrary functions.", "anchors": ["nuto/math/NewtonRaphson.h:Solve", "nuto/math/LineSearch.h:LineSearch"]}
{"id": "C28", "title": "Quasi-static step is a transaction", "statement": "QuasistaticSolver::DoStep either succeeds, in which case global time, solution and history are updated to the new converged state, or throws, in which case global time, solution vector and history variables are unchanged and a later DoStep with the same arguments behaves the same.", "quantifier": "all problems, all sequences of DoStep calls with arbitrary convergence patterns", "why_tests_cant": "Transactional behaviour over histories with failures at any point.", "anchors": ["nuto/mechanics/tools/QuasistaticSolver.cpp:DoStep", "nuto/mechanics/tools/TimeDependentProblem.cpp"]}
{"id": "C29", "title": "Nodal value merge/extract", "statement": "Merge(values) writes each entry of the global vector to the node component with that dof number; Extract after Merge returns the merged vector and Merge after Extract leaves the nodes unchanged.", "quantifier": "all meshes with a bijective numbering, all vectors, any number of calls, nodes added to the mesh in between", "why_tests_cant": "Round trip over all meshes and histories.", "anchors": ["nuto/mechanics/tools/NodalValueMerger.cpp:Merge", "nuto/mechanics/tools/NodalValueMerger.cpp:Extract"]}
{"id": "C30", "title": "Fracture energy integration", "statement": "IntegrateSofteningCurve returns the area under the piecewise linear load-displacement curve divided by the crack area, up to the given force threshold where the last segment is cut at the interpolated crossing.", "quantifier": "all curves with any number of points, all thresholds", "why_tests_cant": "The threshold version depends on where the crossing falls.", "anchors": ["nuto/mechanics/tools/GlobalFractureEnergyIntegrator.cpp"]}
{"id": "C31", "title": "Morton codes", "statement": "EncodeMorton3D interleaves the bits of three coordinates (Part1By1 those of two), the decode functions are inverse to the encoding on the supported coordinate range, the encoding is injective there, and the neighbour functions change exactly the requested coordinates or report a cell that does not exist.", "quantifier": "all coordinates in range (2^16 in 2D, 2^10 in 3D) and all shifts", "why_tests_cant": "Bit-level identity over the whole coordinate range; neighbours at the range limits.", "anchors": ["nuto/math/MortonOrder.h"]}
{"id": "C32", "title": "Linear interpolation", "statement": "LinearInterpolation evaluates the piecewise linear interpolant of the given points for every argument in range, independently of the order in which the points were given; it hits every point, its derivative is the slope of the segment, and arguments out of range throw.", "quantifier": "all point tables with distinct abscissae in any order and all arguments", "why_tests_cant": "Universally quantified over tables and arguments.", "anchors": ["nuto/math/LinearInterpolation.cpp", "nuto/math/Interpolation.cpp"]}
{"id": "C33", "title": "Legendre polynomials", "statement": "Legendre Polynomial(n, x, k) is the k-th derivative of the n-th Legendre polynomial for every n, x and k.", "quantifier": "all degrees n, arguments x and derivative orders k", "why_tests_cant": "Recurrences over unbounded n and k; integer overflow for larger k.", "anchors": ["nuto/math/Legendre.cpp:Polynomial"]}
{"id": "C34", "title": "Tensor product quadrature", "statement": "The tensor product rule of dimension d built from a one-dimensional rule has n^d points, integrates products of one-dimensional integrands to the product of the one-dimensional sums, and so is exact for all polynomials whose degree in each variable does not exceed the degree of exactness of the one-dimensional rule.", "quantifier": "all one-dimensional rules, dimensions 1-3, all integrands", "why_tests_cant": "Index arithmetic and exactness for every n and every polynomial.", "anchors": ["nuto/mechanics/integrationtypes/IntegrationTypeTensorProduct.cpp"]}
{"id": "C35", "title": "Simplex and prism quadrature tables", "statement": "The triangle, tetrahedron and prism integration rules of order p integrate every polynomial of total degree <= p exactly over the reference element (up to the rounding of the tabulated digits), i.e. also the weights sum to the element volume.", "quantifier": "all polynomials of degree <= p (by linearity from the monomials), all tabulated orders covered", "why_tests_cant": "The claim is about every polynomial; a test uses single monomials.", "anchors": ["nuto/mechanics/integrationtypes/IntegrationTypeTriangle.cpp", "nuto/mechanics/integrationtypes/IntegrationTypeTetrahedron.cpp", "nuto/mechanics/integrationtypes/IntegrationType3D6NGauss2x3Ip.cpp", "nuto/mechanics/integrationtypes/IntegrationType3D6NGauss1Ip.cpp"]}
{"id": "C36", "title": "Shape functions: partition of unity", "statement": "For every element type of fixed order the shape functions sum to one at every point, so constant fields are reproduced exactly.", "quantifier": "all element types listed, all (real) local coordinates", "why_tests_cant": "Identity over all real points.", "anchors": ["nuto/mechanics/interpolation/Interpolation*.cpp:ShapeFunctions*"]}
{"id": "C37", "title": "Shape functions: nodal basis", "statement": "For every element type the i-th shape function is one at the local coordinates of node i and zero at those of all other nodes.", "quantifier": "all node pairs of all element types; all orders for Lobatto elements", "why_tests_cant": "Complete table for every type; unbounded order for the Lobatto family.", "anchors": ["nuto/mechanics/interpolation/Interpolation*.cpp:NodeCoordinates*", "nuto/mechanics/interpolation/InterpolationTrussLobatto.cpp"]}
{"id": "C38", "title": "Shape functions: derivatives", "statement": "DerivativeShapeFunctions is the exact gradient of ShapeFunctions with respect to the local coordinates at every point.", "quantifier": "all element types, all points; all orders for Lobatto elements", "why_tests_cant": "Analytic derivative over all real points.", "anchors": ["nuto/mechanics/interpolation/Interpolation*.cpp:DerivativeShapeFunctions*"]}
{"id": "C39", "title": "Lobatto interpolation of arbitrary order", "statement": "For every order the truss Lobatto shape functions form the Lagrange basis of their nodes: partition of unity, Kronecker property, exact derivative, and reproduction of every polynomial of degree < number of nodes.", "quantifier": "all node sets of distinct points (any order), all evaluation points", "why_tests_cant": "Unbounded order.", "anchors": ["nuto/mechanics/interpolation/InterpolationTrussLobatto.cpp", "nuto/mechanics/interpolation/InterpolationQuadLobatto.cpp", "nuto/mechanics/interpolation/InterpolationBrickLobatto.cpp"]}
{"id": "C40", "title": "Linear elasticity", "statement": "LinearElastic returns Hooke's law: the tangent is the derivative of the stress, symmetric, and positive definite for E>0 and -1<nu<1/2; plane stress is the 3D law with sigma_zz=0 and plane strain the 3D law with eps_zz=0; 1D is E*eps.", "quantifier": "all strains, all admissible E and nu, all plane states and dimensions", "why_tests_cant": "Identities and inequalities over all real parameters.", "anchors": ["nuto/mechanics/constitutive/LinearElastic.h"]}
{"id": "C41", "title": "Damage laws", "statement": "Every damage law returns a value in [0,1), zero up to the damage threshold, non-decreasing in kappa and continuous; Derivative is its derivative away from the kinks and its right derivative everywhere; the uniaxial stress (1-omega(kappa)) E kappa never exceeds the strength it has at the threshold, and the area under the exponential softening branch is the fracture energy parameter.", "quantifier": "all material parameters in their admissible ranges and all kappa >= 0", "why_tests_cant": "Inequalities over all real arguments.", "anchors": ["nuto/mechanics/constitutive/damageLaws/DamageLawExponential.h", "nuto/mechanics/constitutive/damageLaws/DamageLawLinear.h", "nuto/mechanics/constitutive/damageLaws/DamageLawNoSoftening.h"]}
{"id": "C42", "title": "Damage is irreversible", "statement": "Along any strain history applied to LocalIsotropicDamage with Update after each converged step, the history variable is the running maximum of the strain norm and damage never decreases; evaluating Stress or Tangent without Update does not change the state.", "quantifier": "all strain histories of any length, all cells and integration points, any interleaving of Evaluate and Update calls", "why_tests_cant": "History property.", "anchors": ["nuto/mechanics/constitutive/LocalIsotropicDamage.h"]}
{"id": "C43", "title": "Damaged elasticity is consistent", "statement": "LinearElasticDamage with omega=0 is LinearElastic; stress is linear in the strain for full damage coupling, DstressDstrain and DstressDomega are the derivatives of Stress; unilateral coupling degrades only tension: it leaves pure volumetric compression undamaged.", "quantifier": "all strains, omega in [0,1], parameters, plane states", "why_tests_cant": "Identities over all strains.", "anchors": ["nuto/mechanics/constitutive/LinearElasticDamage.h"]}
{"id": "C44", "title": "Modified von Mises strain norm", "statement": "The strain norm of uniaxial tension eps is eps, of uniaxial compression -k*eps is eps, it is nonnegative and positively homogeneous of degree one, and Derivative is its gradient wherever it is differentiable.", "quantifier": "all strains, nu in (-1,1/2), k >= 1", "why_tests_cant": "Identities and inequalities over all strains.", "anchors": ["nuto/mechanics/constitutive/ModifiedMisesStrainNorm.h", "nuto/mechanics/constitutive/EngineeringStrainInvariants.h"]}
{"id": "C45", "title": "Strain invariants", "statement": "I1, I2, I3 of an EngineeringStrain are the coefficients of the characteristic polynomial of the corresponding symmetric 3x3 tensor, J2 = I1^2/3 - I2 >= 0 is that of its deviator and vanishes only for purely volumetric strains, and none of them changes when the strain is expressed in another coordinate system.", "quantifier": "all strains and all orthogonal changes of coordinates", "why_tests_cant": "Identity over all real strains.", "anchors": ["nuto/mechanics/constitutive/EngineeringStrainInvariants.h", "nuto/mechanics/constitutive/EngineeringStrain.h"]}
{"id": "C46", "title": "NURBS span search", "statement": "FindSpan returns for every parameter inside the knot range the index of the knot interval containing it (the last non-empty one for the end parameter), and terminates.", "quantifier": "all non-decreasing clamped knot vectors of any length and degree and all parameters", "why_tests_cant": "Binary search on arbitrary knot vectors with repeated knots.", "anchors": ["nuto/mechanics/iga/Nurbs.h:FindSpan"]}
{"id": "C47", "title": "NURBS basis functions", "statement": "The B-spline basis functions returned for a parameter are nonnegative and sum to one, agree with the Cox-de Boor definition, and rational basis functions with positive weights are again a partition of unity.", "quantifier": "all degrees, knot vectors, weights and parameters", "why_tests_cant": "Recursion over unbounded degree.", "anchors": ["nuto/mechanics/iga/Nurbs.h:BasisFunctions", "nuto/mechanics/iga/Nurbs.h:BasisFunctionsRational"]}
{"id": "C48", "title": "Node lookup by coordinate", "statement": "NodeAtCoordinate returns a node of the mesh whose coordinates have distance at most tol from the request, and throws exactly if there is none; NodesAtAxis returns exactly the nodes within tol of the plane.", "quantifier": "all meshes, coordinates, nonnegative tolerances and directions below the dimension", "why_tests_cant": "Quantified over all meshes.", "anchors": ["nuto/mechanics/mesh/MeshFem.cpp:NodeAtCoordinate", "nuto/mechanics/mesh/MeshFem.cpp:NodesAtAxis"]}
{"id": "C49", "title": "Unit meshes", "statement": "CreateLines/CreateQuads/CreateTriangles/CreateBricks return meshes whose element count, node count and node coordinates are those of the regular grid, every element references grid neighbours in the orientation of its interpolation (positive Jacobian), and neighbouring elements share their common nodes.", "quantifier": "all positive numbers of subdivisions", "why_tests_cant": "Index formulas for all grid sizes.", "anchors": ["nuto/mechanics/mesh/UnitMeshFem.cpp"]}
{"id": "C50", "title": "Dof meshes share nodes", "statement": "AddDofInterpolation creates, for every element, one node per interpolation point, and two elements use the same dof node exactly if the coordinates of the interpolation points coincide (up to the tolerance).", "quantifier": "all meshes and interpolations", "why_tests_cant": "The spatial hashing must find every coincident pair for every geometry.", "anchors": ["nuto/mechanics/mesh/MeshFemDofConvert.cpp"]}
{"id": "C51", "title": "Gmsh reader", "statement": "Reading a gmsh 2.2 file (ASCII or binary) yields exactly the nodes and elements of the file: every element once, with its nodes in NuTo's order, in the group of its physical entity.", "quantifier": "all files with any number of element blocks, types and physical entities", "why_tests_cant": "File structure (several element blocks, sparse ids) is unbounded.", "anchors": ["nuto/mechanics/mesh/MeshGmsh.cpp"]}
{"id": "C52", "title": "Visualization grid ids", "statement": "AddPoint and AddCell return consecutive ids starting at 0, cells may only reference existing points, and data stored with SetPointData/SetCellData is returned unchanged for that id and name whatever was stored under other ids or names.", "quantifier": "all histories of grid operations", "why_tests_cant": "History property.", "anchors": ["nuto/visualize/UnstructuredGrid.cpp", "nuto/visualize/Cell.cpp", "nuto/visualize/Point.cpp"]}
{"id": "C53", "title": "VTK appended data offsets", "statement": "In the binary .vtu export the offset attribute of each data array is the byte position at which that array's block starts in the appended section, and each block announces its own length.", "quantifier": "all grids: any number of points, cells and data arrays", "why_tests_cant": "Running sum over an unbounded list.", "anchors": ["nuto/visualize/XMLWriter.cpp"]}
{"id": "C54", "title": "PVD file stays well-formed", "statement": "After any number of Plot calls for any set of visualizers, every .pvd file on disk is a complete collection: header, one entry per plotted time step in order, footer - at every moment between calls.", "quantifier": "all histories of DefineVisualizer/Plot calls", "why_tests_cant": "The file is patched in place by seeking back over the footer; correctness is an invariant over histories.", "anchors": ["nuto/visualize/PostProcess.cpp:AddToPvdFile", "nuto/visualize/PostProcess.cpp:Plot"]}
{"id": "C55", "title": "Tensor component order in VTK export", "statement": "Exported 6-component data is the Voigt vector permuted to VTK's order (xx, yy, zz, xy, yz, xz), a permutation that loses no component; other data is unchanged.", "quantifier": "all data vectors", "why_tests_cant": "Permutation over all data lengths.", "anchors": ["nuto/visualize/XMLWriter.cpp:TransformData"]}
{"id": "C56", "title": "Sphere collision prediction", "statement": "For two non-overlapping growing, moving spheres the predicted time is the first time >= now at which they touch: they do not overlap before; if no collision is predicted they never overlap. The prediction is symmetric in the two spheres.", "quantifier": "all positions, velocities, radii, growth rates and local clock offsets", "why_tests_cant": "Minimality and non-existence over all future times.", "anchors": ["nuto/geometryConcrete/collision/collidables/CollidableParticleSphere.cpp:PredictCollision"]}
{"id": "C57", "title": "Sphere collision response", "statement": "PerformCollision changes only the velocity components along the line of centres; when the spheres do not grow it conserves their momentum, and their kinetic energy if they were approaching; and it leaves the two spheres separating at least as fast as they grow, so that they do not overlap immediately afterwards.", "quantifier": "all touching sphere pairs with positive radii, any velocities and growth rates", "why_tests_cant": "Algebraic law over all states.", "anchors": ["nuto/geometryConcrete/collision/collidables/CollidableParticleSphere.cpp:PerformCollision"]}
{"id": "C58", "title": "Wall collisions", "statement": "For a sphere inside a physical wall the predicted time is the first time the growing sphere touches the plane, and after the collision the sphere moves away from the wall at least as fast as it grows, with unchanged tangential velocity.", "quantifier": "all walls (any unit normal), sphere states and growth rates", "why_tests_cant": "Over all states and wall orientations.", "anchors": ["nuto/geometryConcrete/collision/collidables/CollidableWallPhysical.cpp", "nuto/geometryConcrete/collision/collidables/CollidableWallBase.cpp", "nuto/geometryConcrete/collision/collidables/CollidableWallCylinder.cpp"]}
{"id": "C59", "title": "Event order", "statement": "Events are totally ordered by time with a deterministic tie break on the collidables; the order is a strict weak order, equality is the induced equivalence, and the event of (a,b) at a time equals that of (b,a).", "quantifier": "all triples of events", "why_tests_cant": "Transitivity is a property of all triples; violating it is undefined behaviour in std::set.", "anchors": ["nuto/geometryConcrete/collision/Event.cpp"]}
{"id": "C60", "title": "Event list memory safety", "statement": "Deleting outdated events after a collision never touches an event that was already destroyed, and removes exactly the events that involve one of the two colliding particles.", "quantifier": "all event lists and collisions", "why_tests_cant": "Use-after-free is invisible to functional tests.", "anchors": ["nuto/geometryConcrete/collision/handler/EventListHandler.cpp:DeleteOldEvents", "nuto/geometryConcrete/collision/Event.cpp:EraseOldEvents"]}
{"id": "C61", "title": "No overlap during the event-driven simulation", "statement": "Starting from a non-overlapping packing, at every time of an event-driven run - between and at events - no two spheres overlap, for any number of events.", "quantifier": "all initial packings, numbers of spheres and lengths of the run", "why_tests_cant": "Invariant over continuous time and unbounded event histories.", "anchors": ["nuto/geometryConcrete/collision/handler/CollisionHandler.cpp:Simulate", "nuto/geometryConcrete/collision/handler/EventListHandler.cpp"]}
{"id": "C62", "title": "Sub-box grid", "statement": "The sub-boxes tile the bounding box, a wall between two boxes is virtual and links exactly the neighbouring boxes, a wall on the specimen surface is physical, and a sphere inside the specimen is registered in every box its bounding cube meets.", "quantifier": "all bounding boxes, division counts and spheres", "why_tests_cant": "Index arithmetic for all grids and boundary positions.", "anchors": ["nuto/geometryConcrete/collision/handler/SubBoxHandler.cpp"]}
{"id": "C63", "title": "Cylindrical specimens are enclosed", "statement": "For a cylindrical specimen every sub-box that intersects the lateral surface carries the cylinder wall, for every number of divisions.", "quantifier": "all division counts", "why_tests_cant": "Depends on the divisions chosen.", "anchors": ["nuto/geometryConcrete/collision/handler/SubBoxHandler.cpp:BuildCylinder"]}
{"id": "C64", "title": "Take phase respects the grading curve", "statement": "PerformTakePhase generates only radii inside their size class, never exceeds the target volume of a class, and returns the particles sorted by decreasing radius.", "quantifier": "all grading curves, random number streams and volume fractions", "why_tests_cant": "All random streams.", "anchors": ["nuto/geometryConcrete/takeAndPlace/ParticleCreator.cpp:PerformTakePhase"]}
{"id": "C65", "title": "Every particle is placed", "statement": "GetNumParticlesPerSizeClass distributes all particles over the size classes: the counts sum to the number of particles and particle i is assigned to the class whose diameter interval contains it.", "quantifier": "all radius lists sorted in decreasing order", "why_tests_cant": "Fails only for particular gaps in the diameters.", "anchors": ["nuto/geometryConcrete/takeAndPlace/ParticleCreator.cpp:GetNumParticlesPerSizeClass"]}
{"id": "C66", "title": "Placed particles do not overlap", "statement": "For every stream of random numbers, PerformPlacePhase accepts a particle only if it lies inside the specimen and keeps the required distance from all particles placed before.", "quantifier": "all random streams, particle lists, boxes and distances", "why_tests_cant": "Spatial hashing must not miss any neighbour for any stream.", "anchors": ["nuto/geometryConcrete/takeAndPlace/ParticleCreator.cpp:PerformPlacePhase", "nuto/geometryConcrete/takeAndPlace/ParticleCreator.cpp:CollidesWithOtherParticles", "nuto/geometryConcrete/takeAndPlace/ParticleCreator.cpp:InsertParticleIntoBox"]}
{"id": "C67", "title": "Minimal particle distance", "statement": "GetAbsoluteMininimalDistance returns the minimum over all pairs of particles of the distance of their surfaces.", "quantifier": "all packings and specimens", "why_tests_cant": "Depends on which sub-boxes the closest pair occupies.", "anchors": ["nuto/geometryConcrete/collision/handler/ParticleHandler.cpp:GetAbsoluteMininimalDistance"]}
{"id": "C68", "title": "Specimen validation", "statement": "The specimen constructor accepts a bounding box exactly if it is a 3x2 matrix of bounds, and GetVolume is the volume of the box or cylinder.", "quantifier": "all matrix shapes and bounds", "why_tests_cant": "Over all shapes.", "anchors": ["nuto/geometryConcrete/Specimen.cpp"]}
{"id": "C69", "title": "Circumcircle", "statement": "Triangle::GetCircumcenter is equidistant from the three corners and CircumcircleContainsPoint is true exactly for points inside the circumscribed circle, independently of the orientation of the triangle.", "quantifier": "all non-degenerate triangles and points", "why_tests_cant": "Algebraic identity over all points.", "anchors": ["nuto/math/DelaunayVoronoi.h:Triangle"]}
{"id": "C70", "title": "Point in polygon", "statement": "Polygon::PointIsInside is true exactly for the points inside the polygon.", "quantifier": "all sets of points a polygon is constructed from (convex or not, star-shaped after the sort) and all query points", "why_tests_cant": "Rays through vertices are a measure-zero set that tests miss.", "anchors": ["nuto/math/DelaunayVoronoi.h:Polygon"]}
{"id": "C71", "title": "Memoization by natural coordinates is transparent", "statement": "NaturalCoordinateMemoizer::Get returns the value of the wrapped function at the requested coordinate, whatever was requested before and from whatever threads.", "quantifier": "all sequences of requests", "why_tests_cant": "Hash/equality of coordinates must not merge distinct points.", "anchors": ["nuto/math/NaturalCoordinateMemoizer.h"]}
{"id": "C72", "title": "Cubic spline interpolation", "statement": "CubicSplineInterpolation evaluates the natural cubic spline of its points: the value is a twice continuously differentiable function through every point, cubic between neighbouring points, with zero second derivative at both ends; derivative(x) is its derivative and arguments out of range throw.", "quantifier": "all point tables with distinct abscissae in any order, any number of points, all arguments", "why_tests_cant": "Smoothness at every knot for every table is a property of the solved tridiagonal system, not of samples.", "anchors": ["nuto/math/CubicSplineInterpolation.cpp", "nuto/math/Interpolation.cpp:bisection"]}
{"id": "C73", "title": "Gauss rules integrate polynomials exactly", "statement": "The Gauss rule with n points (weights computed from the Legendre derivative at the roots) integrates every polynomial of degree at most 2n-1 over [-1,1] exactly, provided the roots are the exact distinct zeros of the Legendre polynomial; n = 0 is rejected.", "quantifier": "every number of points, every polynomial of the admissible degree (exact arithmetic)", "why_tests_cant": "tests integrate a handful of polynomials for a handful of n; the claim is about every n and every polynomial, so about a whole vector space", "anchors": ["nuto/math/Quadrature.cpp:ComputeWeightsAndPoints1DGauss", "nuto/math/Legendre.cpp:Legendre"]}
{"id": "C74", "title": "Lobatto rules contain the end points and integrate polynomials exactly", "statement": "The Gauss-Lobatto rule with n points contains -1 and 1 and integrates every polynomial of degree at most 2n-3 over [-1,1] exactly, provided the interior points are the exact zeros of the derivative of the Legendre polynomial of degree n-1; n < 2 is rejected.", "quantifier": "every number of points, every polynomial of the admissible degree (exact arithmetic)", "why_tests_cant": "same as C73: infinitely many polynomials and point numbers", "anchors": ["nuto/math/Quadrature.cpp:ComputeWeightsAndPoints1DLobatto", "nuto/math/Legendre.cpp:Legendre"]}
{"id": "C75", "title": "Consistent tangent of the damage model", "statement": "LocalIsotropicDamage::Tangent is the derivative of LocalIsotropicDamage::Stress with respect to the strain, in loading (strain norm above the history variable) and in unloading (below it), wherever the damage law and the volumetric split are differentiable.", "quantifier": "all strains, dimensions 1-3, material parameters, damage laws, history states and integration points", "why_tests_cant": "Identity of derivatives over all strains and history states.", "anchors": ["nuto/mechanics/constitutive/LocalIsotropicDamage.h", "nuto/mechanics/constitutive/LinearElasticDamage.h", "nuto/mechanics/constitutive/ModifiedMisesStrainNorm.h"]}
{"id": "C76", "title": "NURBS derivatives", "statement": "Every row of the B-spline derivative table is the derivative of that order of the basis functions, and the first and second derivatives of the rational curve and surface basis functions are the true derivatives.", "quantifier": "all degrees, derivative orders, clamped knot vectors, positive weights, control points and parameters", "why_tests_cant": "In-place triangular recursion over unbounded degree and order with scratch memory; quotient rules.", "anchors": ["nuto/mechanics/iga/Nurbs.h:BasisFunctionsAndDerivatives", "nuto/mechanics/iga/Nurbs.h:BasisFunctionsAndDerivativesRational", "nuto/mechanics/iga/Nurbs.h:Evaluate"]}
{"id": "C77", "title": "Result files of a collection", "statement": "Each entry of a .pvd file names the .vtu file that was written for that visualizer at that time step; the file is still there with that content and no other entry names it.", "quantifier": "all histories of ResultDirectory/DefineVisualizer/Plot calls, including calls that throw, and all visualizer names", "why_tests_cant": "File names are built from names and step numbers; collisions depend on the whole history.", "anchors": ["nuto/visualize/PostProcess.cpp:Plot"]}
{"id": "C78", "title": "The event simulation never acts on an empty event list", "statement": "CollisionHandler::Simulate never performs the next event of an event list without events, whatever the spheres, the walls and the time limits.", "quantifier": "all sphere configurations and simulation parameters", "why_tests_cant": "The list is empty only for particular configurations and barrier times.", "anchors": ["nuto/geometryConcrete/collision/handler/CollisionHandler.cpp:Simulate", "nuto/geometryConcrete/collision/handler/EventListHandler.cpp:PerformNextEvent"]}
{"id": "C79", "title": "Delaunay triangulation only reads live triangles", "statement": "CalculateDelaunayTriangulation never reads a triangle of its list after it has been erased.", "quantifier": "all finite sets of points", "why_tests_cant": "Whether freed memory is read depends on every intermediate triangulation; a test that does not crash shows nothing.", "anchors": ["nuto/math/DelaunayVoronoi.h:CalculateDelaunayTriangulation"]}
{"id": "C80", "title": "Hessian0 of an integrand is the derivative of its Gradient", "statement": "For MomentumBalance with LinearElastic or LocalIsotropicDamage and for GradientDamage, every block of Hessian0 is the partial derivative of the matching block of Gradient with respect to the node values, at every state where the constitutive functions have derivatives; the elastic stiffness is symmetric and positive semi-definite; the internal forces do the virtual work of the stresses; the interaction functions of GradientDamage have their derivatives and fall from 1 to the given residual.", "quantifier": "all material parameters in range, element matrices of any size, node values, history values and directions", "why_tests_cant": "Finite difference tests compare a few states up to a tolerance; a missing coupling term that is small or zero there is accepted.", "anchors": ["nuto/mechanics/integrands/MomentumBalance.h:MomentumBalance::Gradient", "nuto/mechanics/integrands/MomentumBalance.h:MomentumBalance::Hessian0", "nuto/mechanics/integrands/GradientDamage.h:GradientDamage::Gradient", "nuto/mechanics/integrands/GradientDamage.h:GradientDamage::Hessian0", "nuto/mechanics/integrands/GradientDamage.h:Decreasing"]}
{"id": "C81", "title": "The gradient damage integrand keeps the largest nonlocal strain", "statement": "After any sequence of Gradient, Hessian0 and Update calls the history value of every integration point is the largest of its initial value and the nonlocal equivalent strains of its Update calls, so damage never heals; evaluations change nothing; every call on a freshly constructed integrand is defined and the strain norm is that of the material's plane state.", "quantifier": "all call sequences, cells, integration points and node values", "why_tests_cant": "The claim is about every interleaving of evaluations and updates of all integration points.", "anchors": ["nuto/mechanics/integrands/GradientDamage.h:GradientDamage::Update", "nuto/mechanics/integrands/GradientDamage.h:GradientDamage::Kappa", "nuto/mechanics/integrands/GradientDamage.h:mKappas"]}
{"id": "C82", "title": "Boundary loads and masses are those of the interpolated field", "statement": "The node forces of NeumannBc do on every virtual displacement the work of the given traction on the interpolated displacement and sum up to the traction; Hessian2 of DynamicMomentumBalance is symmetric, its quadratic form is the density times the square of the interpolated velocity (never negative), and a rigid translation has the full mass.", "quantifier": "all interpolations (numbers of nodes and shape function values), dimensions, tractions, densities and node values", "why_tests_cant": "Tests compare a few elements; the identity must hold for every interpolation and virtual displacement.", "anchors": ["nuto/mechanics/integrands/NeumannBc.h:NeumannBc::ExternalLoad", "nuto/mechanics/integrands/DynamicMomentumBalance.h:DynamicMomentumBalance::Hessian2", "nuto/mechanics/cell/Matrix.h:N"]}
{"id": "C83", "title": "Renumbering keeps the nodal values; Gradient and Hessian0 are the assembled sums; UpdateHistory visits each point once", "statement": "RenumberDofs returns a vector in which every component of every node has, at its new number, the value it had before (in the old vector, or at the node if that is empty); new numbers run from 0 without gaps or repetition; other nodes keep everything. Gradient and Hessian0 evaluate all functions at the given dof values, time and step and return the sum of all cells for every thread schedule, also for dof types that were renumbered in an earlier call. UpdateHistory calls each update function exactly once for every integration point of every cell of its group, at the given dof values, time and step, so that history data kept per cell and point advance by exactly one step.", "quantifier": "all meshes, old numberings, constraints, dof types, values, gradient, Hessian and update functions, thread counts and schedules", "why_tests_cant": "A test fixes one mesh and numbering; losing or swapping values depends on the old and new numbering together.", "anchors": ["nuto/mechanics/tools/TimeDependentProblem.cpp:TimeDependentProblem::RenumberDofs", "nuto/mechanics/tools/TimeDependentProblem.cpp:TimeDependentProblem::Gradient", "nuto/mechanics/tools/TimeDependentProblem.cpp:TimeDependentProblem::Hessian0", "nuto/mechanics/tools/TimeDependentProblem.cpp:TimeDependentProblem::UpdateHistory"]}
{"id": "C84", "title": "Stored cells have consecutive ids", "statement": "CellStorage::AddCells returns one cell per element in the order of the elements with ids start, start+1, ...; stored cells keep their ids; cells of different calls have different ids.", "quantifier": "all element groups, start ids and earlier calls", "why_tests_cant": "History data is indexed by cell id, so a clash corrupts results silently and depends on the sizes of all groups.", "anchors": ["nuto/mechanics/tools/CellStorage.cpp:CellStorage::AddCells"]}
{"id": "C85", "title": "Gmres: restarts below the limit mean a converged, finite solution", "statement": "If Gmres(A, rhs, x, maxNumRestarts, tolerance, krylovDimension) returns fewer restarts than allowed, the residual rhs - A x is at most tolerance times the norm of rhs; the residual is never larger than the one of the start vector; a restart cycle delivers the point of the Krylov space with the smallest residual; for a regular A the method never breaks down, whatever the start vector and the Krylov dimension.", "quantifier": "every size, matrix, preconditioner, right hand side, start vector, tolerance, Krylov dimension and number of restarts", "why_tests_cant": "tests solve a few fixed systems; breakdowns, the meaning of the return value and optimality concern all matrices and right hand sides, and the out of bounds access needs particular sizes", "anchors": ["nuto/math/Gmres.h: Gmres"]}
{"id": "C86", "title": "Polynomial fitting minimises the squared error", "statement": "After SetDegree, SetSupportPoints and BuildDerived, SolveTransformed evaluates the polynomial of that degree which minimises the sum of squared errors at the support points - among the polynomials that match all boundary conditions, if there are any; data on a polynomial of the degree are reproduced; the fitter never reads or writes out of bounds and refuses to answer before it is built.", "quantifier": "every degree, every list of support points with enough different abscissae, every list of boundary conditions, every order of the calls", "why_tests_cant": "minimality compares with infinitely many polynomials; tests fit a few data sets, mostly exact ones", "anchors": ["nuto/math/PolynomialLeastSquaresFitting.cpp: BuildDerived, SolveTransformed, AddBoundaryCondition, SetDegree, SetSupportPoints", "nuto/math/SupportPoints.h"]}
{"id": "C87", "title": "A point is reported within a shape exactly if it lies in the element", "statement": "Shape::IsWithinShape accepts every convex combination of the corner nodes of the element for every positive tolerance, rejects points outside of it for small tolerances, and a point accepted with tolerance e is within e of the element in every coordinate.", "quantifier": "every shape, every point, every positive tolerance", "why_tests_cant": "membership ranges over all points of the element and all points outside; the repository tests a handful", "anchors": ["nuto/math/shapes/*.h: IsWithinShape", "nuto/mechanics/interpolation: NodeCoordinates*"]}
{"id": "C88", "title": "Integration points lie in the element and have positive weights", "statement": "Every integration point of an integration type lies in the element it is made for, and every weight is positive, so that integrands are only evaluated where they are defined and nonnegative integrands get nonnegative integrals.", "quantifier": "every integration type, every number of points per direction or order, every dimension", "why_tests_cant": "Gauss and Lobatto rules exist for every number of points; tests integrate a few polynomials of the order the rule was made for, which does not reveal points outside or negative weights", "anchors": ["nuto/math/Quadrature.cpp: ComputeWeightsAndPoints*", "nuto/mechanics/integrationtypes/IntegrationTypeTensorProduct.cpp", "nuto/mechanics/integrationtypes/IntegrationTypeTriangle.cpp", "nuto/mechanics/integrationtypes/IntegrationTypeTetrahedron.cpp", "nuto/mechanics/integrationtypes/IntegrationType3D6N*.cpp", "nuto/math/shapes"]}
{"id": "C89", "title": "The visualizer draws every cell and stores every value at its place", "statement": "A Visualizer draws for every cell of its group the points and cells of its handler at the interpolated coordinates; after any sequence of DofValues, CellData and PointData calls every drawn point and cell has, under every name, exactly the value that belongs to it (dof value, function value, average over the integration points, or value of its integration point) of the last call with this name, and different cells never share points.", "quantifier": "every group of cells, every handler, every sequence of calls", "why_tests_cant": "values land on points through running offsets over all cells; tests check one or two cells", "anchors": ["nuto/visualize/Visualizer.cpp", "nuto/visualize/AverageHandler.cpp", "nuto/visualize/VoronoiHandler.cpp", "nuto/visualize/PointHandler.cpp", "nuto/visualize/AverageGeometries.h", "nuto/visualize/UnstructuredGrid.cpp"]}
{"id": "C90", "title": "The Voronoi geometries tile the element and cell i belongs to integration point i", "statement": "VoronoiGeometryLine, VoronoiGeometryQuad and VoronoiGeometryBrick(n, spacing) return n^d visualization cells whose corner ids are valid and list the corners of an axis parallel box in VTK's order; the boxes cover the reference element [-1,1]^d, stay inside it and have disjoint interiors. With GAUSS or LOBATTO spacing, box i is exactly the set of points of the element whose nearest point of the integration rule with n points per direction is integration point i, so that the value of integration point i is drawn around it. With EQUIDISTANT spacing all boxes have edge length 2/n.", "quantifier": "every dimension 1-3, every number of cells n >= 1 (n >= 2 for LOBATTO), every point of the element, every spacing", "why_tests_cant": "a test looks at a few orders; the tiling and the match between cell numbers and integration point numbers are claims for every order and every point of the element", "anchors": ["nuto/visualize/VoronoiGeometries.cpp: Linspace, CenteredPointsWithBoundary, VoronoiGeometryLine, VoronoiGeometryQuad, VoronoiGeometryBrick", "nuto/mechanics/integrationtypes/IntegrationTypeTensorProduct.h"]}
{"id": "C91", "title": "GeometryConcrete delivers the packing that was asked for", "statement": "After SetSpecimenBox or SetSpecimenCylinder, SetGradingCurve and a growth rate, GetParticles returns, for MaximizeParticleDistance(d), the particles of the grading curve with their own radii, pairwise at least d apart and at least d/2 from the surface; for MaximizeParticleVolumeFraction(s), non-overlapping particles inside the specimen with the sizes of the grading curve and the asked total volume up to one particle; the built-in grading curves are valid for 1 to 6 classes; a refused call leaves a usable object.", "quantifier": "all box and cylinder specimens, grading curves, fractions, shrinkages, distances, random numbers, velocities, wall clocks and numbers of events", "why_tests_cant": "the result depends on random numbers, on the wall clock and on an unbounded sequence of collision events; a test sees a few seeds", "anchors": ["nuto/geometryConcrete/GeometryConcrete.cpp:MaximizeParticleDistance", "nuto/geometryConcrete/GeometryConcrete.cpp:MaximizeParticleVolumeFraction", "nuto/geometryConcrete/GeometryConcrete.cpp:SetSpecimenBox", "nuto/geometryConcrete/GeometryConcrete.cpp:SetGradingCurve", "nuto/geometryConcrete/collision/handler/ParticleHandler.cpp:CreateParticlesFromMatrix"]}
{"id": "C92", "title": "Slices of a packing", "statement": "GetParticles2D / ExportGmshGeo2D at the height z: every circle is exactly the section of one particle and has a radius above the threshold; every particle whose section is that large contributes one; circles of non-overlapping particles do not overlap, and circles of particles inside the box are inside its rectangle.", "quantifier": "all particle tables, heights z and thresholds", "why_tests_cant": "the claim is about every packing and every height; a wrong radius shows only for particles cut off-centre", "anchors": ["nuto/geometryConcrete/collision/handler/ParticleHandler.cpp:GetParticles2D", "nuto/geometryConcrete/GeometryConcrete.cpp:ExportGmshGeo2D"]}
{"id": "C93", "title": "The concrete input file means what it says", "statement": "InputReader::ReadFile, applied to a file that follows the documented order of entries, returns exactly the values written in the file (numbers rounded to double, vectors in order, switches, the working directory), whatever blanks, comments and number notations it uses; inputs that contradict each other are refused; a file that is not complete is reported; reading always ends.", "quantifier": "all files, number literals, comments, vector lengths", "why_tests_cant": "there are infinitely many ways to write the same values and infinitely many malformed files; a test reads a few", "anchors": ["nuto/geometryConcrete/InputReader.cpp:ReadFile", "nuto/geometryConcrete/InputReader.cpp:SkipToNextData", "nuto/geometryConcrete/InputReader.cpp:ReadVector", "nuto/geometryConcrete/InputReader.cpp:ReadNumber", "nuto/geometryConcrete/InputReader.cpp:CheckInputs"]}
{"id": "C94", "title": "Matrices survive the way through a file", "statement": "A file written by EigenIO::WriteToFile(m, file, delimiter) is read by EigenIO::ReadFromFile(file) as a matrix of the same shape with the same entries, for every matrix and delimiter; malformed files are reported.", "quantifier": "all matrices (sizes, entries), delimiters and files", "why_tests_cant": "the printed decimal text depends on every entry; tests compare a handful of exactly representable numbers", "anchors": ["nuto/math/EigenIO.cpp:WriteToFile", "nuto/math/EigenIO.cpp:ReadFromFile"]}
{"id": "C95", "title": "Log lines carry their prefix", "statement": "Whatever sequence of messages is sent to a Logger, the console (unless quiet) and the log file show the text of the messages in order with the prefix once at the beginning of every line.", "quantifier": "all prefixes, message sequences, message kinds and contents, quiet settings and log files", "why_tests_cant": "the prefix depends on the whole history of messages; tests send a few", "anchors": ["nuto/base/Logger.h:Logger::Out", "nuto/base/Logger.cpp:OptionalPrefix", "nuto/base/Logger.cpp:operator<<", "nuto/base/Logger.cpp:OpenFile"]}
{"id": "C96", "title": "The gmsh script of a specimen describes exactly that specimen", "statement": "For every box, cylinder or rectangle, every list of aggregates and every interface thickness, the script written by GmshWriter::Write is read by gmsh without an undefined variable or object and without giving a number twice. The resulting model has, for every aggregate, a closed, outward oriented sphere (a circle in 2D) with the given centre and radius (with an interface: radius r - h/2 and a layer of thickness h around it); a closed surface with the corners of the specimen; a matrix volume bounded by exactly the specimen surface and the outer surface of every aggregate; and every volume is in exactly one physical group. Aggregates that do not overlap do not overlap in the file.", "quantifier": "all specimens, all lists of aggregates of any length, all thicknesses between 0 and the smallest radius, all numbers up to their rounding to six digits", "why_tests_cant": "The script generates numbers by newp/newreg, so that any count of aggregates could collide or refer to a wrong object; tests only compare the text of one script. Rounding depends on every digit of the input.", "anchors": ["nuto/geometryConcrete/GmshWriter.cpp: Write, Aggregates3D, Footer3D, Footer2D, sAggregate, sAggregateWithInterface, sBox3D, sCylinder, sBox2D, sAggregate2D, sAggregate2DWithInterface"]}
{"id": "C97", "title": "Isogeometric elements reproduce the NURBS geometry", "statement": "For every NURBS curve or surface with clamped knots and positive weights and every knot interval of positive length used as an element: interpolating the element at a local coordinate of [-1,1] gives the point of the NURBS geometry at the corresponding knot parameter; the shape functions are nonnegative and sum to one; the derivative shape functions are derivatives with respect to the local coordinate; and integrating over a cell on the element with an exact rule gives the integral over the part of the curve.", "quantifier": "all degrees, knot vectors, weights, control points in any dimension, elements, local coordinates, integrands and integration rules", "why_tests_cant": "the repository's tests evaluate the element at few interior points of one curve and one surface; the statement is about every knot vector and every point, including the element boundaries", "anchors": ["nuto/mechanics/elements/ElementIga.h", "nuto/mechanics/iga/Nurbs.h", "ElementIga::GetShapeFunctions", "ElementIga::GetDerivativeShapeFunctions", "ElementIga::ExtractNodeValues", "Cell::Integrate"]}
{"id": "C98", "title": "Interpolations created from a shape and an order fit the shape and each other", "statement": "CreateLagrangeInterpolation returns an interpolation exactly for the supported orders (1 for every shape, 2 for triangle, quadrilateral, tetrahedron and prism) and throws otherwise. What it returns belongs to the shape (dimension, corners first), reproduces every polynomial up to the order, and is conforming: the field on a facet depends only on the nodes on this facet and is their Lagrange interpolation, so two elements of the same order, of whatever shapes, that share a facet and its nodal values have the same field on it. CreateLobattoInterpolation returns interpolations with (order+1)^dim nodes for line, quadrilateral and hexahedron and every order from one on and throws otherwise.", "quantifier": "all shapes, orders (including negative ones), polynomials, facets with every listing of their corners, nodal values and points of the facet", "why_tests_cant": "the repository's test only counts the nodes of eleven interpolations; continuity between neighbours is a statement about all fields and all points of all pairs of facets", "anchors": ["nuto/mechanics/interpolation/InterpolationCompanion.cpp", "CreateLagrangeInterpolation", "CreateLobattoInterpolation"]}
{"id": "C99", "title": "Discrete equilibrium, patch test and rigid motions of a cell", "statement": "Integrate the momentum balance over a cell whose coordinate and displacement elements use the library's interpolations, with any integration type and any node coordinates. (a) Patch test: nodal displacements A x_k + b produce at every integration point exactly the strain of A. (b) Whatever the material law and the displacements, the nodal internal forces of the cell add up to zero, and for isoparametric cells their moment vanishes. (c) Infinitesimal rigid motions cause no forces if the law has no stress without strain. (d) The linear elastic stiffness matrix is symmetric, reproduces the internal forces, annihilates the rigid motions, is positive semidefinite for positive weights and Jacobians, and its energy vanishes only for displacements without strain at the integration points; for linear simplex elements these are exactly the rigid motions.", "quantifier": "all interpolations with exact coefficients and the pyramid away from its apex plane, all node coordinates with non-zero Jacobian determinant, all displacements, all material laws, all integration types", "why_tests_cant": "Unit tests check one geometry with one displacement field; equilibrium must hold for every distortion, every law and every rule, and follows only from the interplay of the shape functions, the Jacobian, the strain operator and the integration loop.", "anchors": ["nuto/mechanics/cell/Cell.h Integrate Eval", "nuto/mechanics/cell/CellIpData.h B Apply", "nuto/mechanics/cell/Jacobian.h", "nuto/mechanics/cell/DifferentialOperators.h Strain", "nuto/mechanics/integrands/MomentumBalance.h Gradient Hessian0", "nuto/mechanics/elements/ElementFem.h"]}
{"id": "C100", "title": "Cumulative average", "statement": "After any sequence of calls Average holds the arithmetic mean of all values passed so far, which lies between their bounds, and their number; a new Average holds zero.", "quantifier": "all sequences of integers of any length", "why_tests_cant": "The update formula is recursive; only an induction shows that the weights of all earlier values stay equal for every history.", "anchors": ["nuto/math/Average.h Average operator()"]}
{"id": "C101", "title": "Density of liquid water", "statement": "SI::DensityLiquidWater returns a density for every temperature from 243.15 K to 373.15 K and throws outside. The density agrees with the table, is strictly increasing up to 277.15 K and strictly decreasing from there, and stays within [958.4, 999.972].", "quantifier": "all real temperatures, every ordering std::sort may produce", "why_tests_cant": "Monotonicity between all pairs of temperatures is a statement about a continuum.", "anchors": ["nuto/physics/PhysicalEquationsSI.h DensityLiquidWater", "nuto/math/LinearInterpolation.cpp"]}
{"id": "C102", "title": "Timer reports", "statement": "A timer writes one line per Reset and one when it is destroyed. Each line shows the message that was set before and the wall and CPU time since the previous line, padded with dots to 90 columns; the reported times add up to the life time, and no time is negative. With rShowTime = false nothing is written.", "quantifier": "all sequences of resets and messages, all clock readings", "why_tests_cant": "The tests read the output by eye; the statement ranges over all histories of resets and all behaviours of the clocks.", "anchors": ["nuto/base/Timer.cpp Reset", "nuto/base/Timer.h"]}
{"id": "C103", "title": "Sparse solvers by name", "statement": "Every documented solver name selects the documented solver class and returns its solution; any other name throws; a name whose library is missing throws an exception that names the library; if the solver fails, an exception is thrown instead of returning a vector that is no solution.", "quantifier": "all names, all build configurations, all behaviours of the solver classes, all matrices and right hand sides", "why_tests_cant": "Tests run one build configuration with well-posed systems.", "anchors": ["nuto/math/EigenSparseSolve.cpp EigenSparseSolve SolveWithSolver EigenSparseSolver::Solve", "nuto/math/EigenSparseSolve.h"]}
{"id": "C104", "title": "Line and boundary queries of polygons", "statement": "Edge::GetIntersectionLineParameter returns a positive parameter exactly where the line meets the edge; Polygon::SegmentIntersects is true exactly if the inner part of the segment meets a side; Polygon::GetClosestIntersection returns the first point of the line on the polygon; Polygon::GetEdgeIndex returns a side that contains the point, and -1 if there is none.", "quantifier": "all edges, polygons, points, directions and segments", "why_tests_cant": "Intersection queries have infinitely many configurations (parallel sides, touching ends, several intersections, prolonged sides); examples only show a few of them.", "anchors": ["nuto/math/DelaunayVoronoi.h:Edge::GetIntersectionLineParameter", "nuto/math/DelaunayVoronoi.h:Edge::GetDistance", "nuto/math/DelaunayVoronoi.h:Polygon::SegmentIntersects", "nuto/math/DelaunayVoronoi.h:Polygon::GetClosestIntersection", "nuto/math/DelaunayVoronoi.h:Polygon::GetEdgeIndex"]}
{"id": "C105", "title": "An assembled body is in equilibrium and has the right loads and mass", "statement": "For every mesh of solid cells whose dofs are numbered by BuildDofNumbering: the vector that SimpleAssembler::BuildVector returns for MomentumBalance::Gradient has no resultant force over the nodes of the mesh, and no moment if the elements are isoparametric, whatever the law, the nodal values, the constraints and the schedule of the threads. So the reactions at the supported dofs balance the loads whenever the other dofs are in equilibrium. A rigid motion of the whole mesh gives zero forces. For linear elasticity BuildMatrix of Hessian0 is symmetric, positive semidefinite, has the rigid motions in its kernel, and times the nodal displacements is the assembled gradient. The assembled NeumannBc load has the resultant load times measure of the loaded cells; the assembled Hessian2 has in each direction the total mass density times volume and couples no directions. On a mesh of linear triangles or tetrahedra of one homogeneous material, prescribed affine displacements cause no nodal forces at inner nodes (patch test).", "quantifier": "all meshes (any number of cells and nodes, any interpolations of the library, any integration rule), all laws and nodal values, all constraints, all thread counts and schedules", "why_tests_cant": "Tests assemble a few meshes with one schedule; the balance must hold for every mesh, law, value and interleaving.", "anchors": ["nuto/mechanics/dofs/DofNumbering.cpp:Build", "nuto/mechanics/elements/ElementFem.h:GetDofNumbering", "nuto/mechanics/cell/Cell.h:Integrate", "nuto/mechanics/cell/SimpleAssembler.cpp:BuildVector", "nuto/mechanics/cell/SimpleAssembler.cpp:BuildMatrix", "nuto/mechanics/integrands/MomentumBalance.h:Gradient", "nuto/mechanics/integrands/DynamicMomentumBalance.h:Hessian2", "nuto/mechanics/integrands/NeumannBc.h:ExternalLoad"]}
{"id": "C106", "title": "A supported elastic body has exactly one equilibrium, and Solve finds it", "statement": "For every mesh of linear lines, triangles or tetrahedra with a linear elastic law whose cells hang together through common sides: assembling the stiffness matrix succeeds; the displacements have zero strain energy exactly when they are one rigid motion of the whole body; the system is definite on the displacements that the constraints allow exactly when the constraints allow no rigid motion. Then, for any loads, Solve (with a linear solver that solves regular systems) returns displacements that fulfil the homogeneous constraints, whose internal forces do the same work as the loads on all displacements the constraints allow and equal the load at each dof that no constraint mentions; no other displacements do so, and they alone minimise the potential energy. For every block system that is definite on the admissible vectors, Solve and SolveTrialState return, and their result is the only solution. If every node inside is free and every other node is moved from one time to the next by an affine field, the increment that SolveTrialState finds for linear triangles or tetrahedra of one material is that field at every node (the patch test). Load cases superpose: for x p + y q Solve returns x u + y v; p does the same work on v as q on u; and the work of p on u is positive unless nothing moves.", "quantifier": "all meshes of linear simplices in one piece (any number of cells and nodes), all elastic constants, all integration rules with positive weights, all sets of constraint equations, all loads, all schedules of the assembler, all correct and complete linear solvers", "why_tests_cant": "Tests solve a few problems whose matrix happens to be regular; whether a supported body always gives a regular system and a unique result ranges over all meshes, supports and loads.", "anchors": ["nuto/mechanics/solver/Solve.cpp:Solve", "nuto/mechanics/solver/Solve.cpp:SolveTrialState", "nuto/mechanics/constraints/Constraints.cpp:BuildUnitConstraintMatrix", "nuto/mechanics/dofs/DofNumbering.cpp:Build", "nuto/mechanics/cell/SimpleAssembler.cpp:BuildMatrix", "nuto/mechanics/integrands/MomentumBalance.h:Hessian0", "nuto/mechanics/interpolation/InterpolationTriangleLinear.h", "nuto/mechanics/interpolation/InterpolationTetrahedronLinear.h"]}
{"id": "C107", "title": "The zeros of the Legendre polynomials and of their derivatives are found", "statement": "For every degree n, LegendreRoots(n) returns: each Newton loop ends after at most 27 passes. The result is the ascending list of all n zeros of the Legendre polynomial of degree n, all in (-1, 1), each with an error of at most 4e-16. For every n >= 1, LegendreDerivRoots(n) returns after at most 43 passes per zero the ascending list of all n-1 zeros of the derivative, each with an error of at most 1e-15; n = 0 is rejected. Therefore, for every number of points, the exact Gauss and Lobatto rules exist, the points used by NuTo differ from theirs by at most these errors, and the Gauss weights and the weights of the exact Lobatto rule are positive.", "quantifier": "all degrees n (exact arithmetic)", "why_tests_cant": "Tests compare a few small degrees with tables; that no starting guess of any degree runs to a wrong zero, to a zero found twice, or never returns is a statement about infinitely many Newton iterations.", "anchors": ["nuto/math/Legendre.cpp:FindLegendreRoot", "nuto/math/Legendre.cpp:FindLegendreRoots", "nuto/math/Legendre.cpp:FirstGuess", "nuto/math/Legendre.cpp:LegendreRoots", "nuto/math/Legendre.cpp:LegendreDerivRoots", "nuto/math/Quadrature.cpp:ComputeWeightsAndPoints1DGauss", "nuto/math/Quadrature.cpp:ComputeWeightsAndPoints1DLobatto"]}
{"id": "C108", "title": "Histories of quasi-static steps", "statement": "A sequence of QuasistaticSolver::DoStep calls takes the body from one equilibrium to the next: after every history of calls, failed ones included, the stored solution fulfils the constraints at the time reached; after a successful step the residual of the stored solution at that time is, for every displacement that the constraints allow, below the tolerance; for linear problems with sufficient supports the step needs no iteration and stores the one equilibrium of that time, so that the solution does not depend on the steps on the way or on failed attempts; and WriteTimeDofResidual reports time, mean value and resulting residual force of that solution. If the prescribed displacements of a body of linear triangles or tetrahedra are an affine field at each time, every other node is inside, and no loads act, the solution after every history of steps is that field at every node.", "quantifier": "all gradient, Hessian and update functions with the sizes of the dof vector, all constraints, linear solvers, start values, lists of times and outcomes of the steps; all supported elastic bodies", "why_tests_cant": "tests run a few problems that start from zero with right hand sides that vanish at time zero, one dof type and a constant load; a constant boundary value, a second dof type or a time dependent load is not among them", "anchors": ["nuto/mechanics/tools/QuasistaticSolver.cpp: SetConstraints, TrialState, Norm, DoStep, WriteTimeDofResidual", "nuto/mechanics/solver/Solve.cpp: ConstrainedSystemSolver::Solve, SolveTrialState", "nuto/mechanics/dofs/DofMatrixContainer.h", "nuto/mechanics/dofs/DofMatrixSparseConvertEigen.h: ToEigen"]}
{"id": "C109", "title": "Voronoi cells", "statement": "DelaunayVoronoi::GetVoronoiCells returns one cell for each given point, in their order: the part of the boundary polygon whose points are at least as close to this point as to any other given point. Every corner of a cell is a corner of the boundary or equally far from the cell's point and from one of its neighbours; repeated calls return the same cells; without a boundary, or if a cell cannot be computed, the call fails.", "quantifier": "all boundaries, point sets, triangulations, orders in which the hash map is traversed, and sequences of calls", "why_tests_cant": "the class is not used by any test, and a cell depends on circumcenters inside or outside of the boundary, on edges of one or two triangles and on the number of boundary corners in the cell", "anchors": ["nuto/math/DelaunayVoronoi.h: CalculateVoronoiPolygons, GetVoronoiCells, SetBoundary", "nuto/math/DelaunayVoronoi.h: Polygon::AddIntersectionWithBoundary, GetPointOnBothEdges, GetOtherPointsOnBoundary, SortAndRemoveDoublicates"]}
{"id": "C110", "title": "Visualization cells of a Voronoi diagram", "statement": "CalculateVisualizationCellsPolygon lists every corner of the Voronoi cells once and describes each cell by the indices of its corners, in order; CalculateVisualizationCellsTriangle splits each cell with n corners into n - 2 triangles with corners of the cell, assigns them to the cell's integration point, and keeps the area and the orientation; with the transformed system the points are given in the original coordinates.", "quantifier": "all lists of Voronoi cells, both coordinate systems, all point sets including those without a triangulation", "why_tests_cant": "no test calls these functions; the index lists depend on which corners coincide between cells, and the area statement ranges over all polygons", "anchors": ["nuto/math/DelaunayVoronoi.h: CalculateVisualizationCellsPolygon, CalculateVisualizationCellsTriangle, Transform, TransformInverse"]}
{"id": "C111", "title": "Integration types answer for exactly the integration points they report", "statement": "For every integration type object, GetNumIntegrationPoints is at least 1, and for every index from 0 to GetNumIntegrationPoints() - 1 GetIntegrationPointWeight and GetLocalIntegrationPointCoordinates return the weight and the coordinates of that point, with as many coordinates as the shape of the type has dimensions; the points of tensor product and prism types lie in the element of the shape that GetShape reports, and the weights of every type add up to its length, area or volume; a loop over them reads the rule whose exactness is claimed elsewhere; any other index and any order without a rule is refused with an exception.", "quantifier": "all integration type objects (tensor products of any size, every order of triangles and tetrahedra, both prisms), all int indices and orders", "why_tests_cant": "tests read the existing points of a few types; indices and orders range over all ints and out-of-range reads may silently return something", "anchors": ["nuto/mechanics/integrationtypes/IntegrationTypeBase.h", "nuto/mechanics/integrationtypes/IntegrationTypeTensorProduct.cpp: GetLocalIntegrationPointCoordinates, GetIntegrationPointWeight", "nuto/mechanics/integrationtypes/IntegrationTypeTriangle.cpp", "nuto/mechanics/integrationtypes/IntegrationTypeTetrahedron.cpp", "nuto/mechanics/integrationtypes/IntegrationType3D6NGauss1Ip.cpp", "nuto/mechanics/integrationtypes/IntegrationType3D6NGauss2x3Ip.cpp"]}
{"id": "C112", "title": "Status lines of the sphere simulation", "statement": "With a print-out interval, CollisionHandler::Simulate writes status lines with the simulated time, the kinetic energy of the spheres and the fraction of the specimen's volume they fill, all at the time of the line. Writing a line does not change the simulation: the spheres keep their motion and growth, the pending events and the sub-boxes stay, and the next event has the same effect as without the line.", "quantifier": "all states of the spheres (any number, clocks, velocities, growth rates), all times of a line, all specimens and all next events", "why_tests_cant": "Every sphere has its own clock, so a line is written in a state with as many different times as there are spheres; tests look at one run, and lines depend on the wall clock.", "anchors": ["nuto/geometryConcrete/collision/handler/CollisionHandler.cpp: LogStatus, Simulate", "nuto/geometryConcrete/collision/handler/ParticleHandler.cpp: Sync, GetKineticEnergy, GetVolume", "nuto/geometryConcrete/collision/collidables/CollidableParticleSphere.cpp: MoveAndGrow, GetKineticEnergy, GetVolume"]}
{"id": "C113", "title": "Results survive a kill during Plot", "statement": "If the process is killed at any moment of a call of PostProcess::Plot, nothing already recorded is lost: every .pvd file that had entries still begins with its header and all of its earlier entries, the .vtu files of earlier plots are complete, and an entry of a .pvd file appears only after the .vtu file it points to is complete; the .pvd file remains a well-formed collection.", "quantifier": "all result directories, visualizers, times and histories of earlier plots, and all moments between two writes of the call, including those in the middle of a written text", "why_tests_cant": "a test kills the process at a few moments; the property speaks of every moment, at the granularity of single characters, and of every earlier history.", "anchors": ["nuto/visualize/PostProcess.cpp: PostProcess::Plot, AddToPvdFile", "nuto/visualize/PostProcess.h: PostProcess"]}
{"id": "C114", "title": "Files cut short are not mistaken for complete ones", "statement": "When the file that a program reads was cut short (disk full, killed writer), the reader reports it: SerializeStreamIn, EigenIO::ReadFromFile and MeshGmsh throw instead of returning data that differ from what was written.", "quantifier": "all written data and all positions at which the file is cut", "why_tests_cant": "the claim ranges over every file and every position of the cut.", "anchors": ["nuto/base/serializeStream/SerializeStreamIn.h: SerializeStreamIn::Serialize, SerializeMatrix", "nuto/base/serializeStream/SerializeStreamIn.cpp: SerializeStreamIn::Separator", "nuto/base/serializeStream/SerializeStreamOut.h: SerializeStreamOut", "nuto/math/EigenIO.cpp: EigenIO::ReadFromFile", "nuto/mechanics/mesh/MeshGmsh.cpp: MeshGmsh::ReadGmshFile, ProcessSection"]}
{"id": "C115", "title": "Integration types created for a shape and an order", "statement": "CreateGaussIntegrationType(shape, order) and CreateLobattoIntegrationType(shape, order) return an integration type whose GetShape is the given shape and whose weighted sum over the integration points is the integral over the reference element for every polynomial of total degree at most order; a shape or an order without a rule is refused with an exception, never answered with another rule.", "quantifier": "all shapes, all int orders, all polynomials up to the order", "why_tests_cant": "the tests compare a few numbers of points; orders range over all ints (negative ones are converted to size_t and back) and polynomials over all coefficients", "anchors": ["nuto/mechanics/integrationtypes/IntegrationCompanion.h: CreateGaussIntegrationType, CreateLobattoIntegrationType", "nuto/mechanics/integrationtypes/IntegrationCompanion.cpp", "nuto/mechanics/integrationtypes/IntegrationTypeTensorProduct.cpp", "nuto/math/Quadrature.cpp"]}
