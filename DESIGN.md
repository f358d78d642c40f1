# Formal model of nutofem/nuto in Rocq (Coq 8.16.1)

The code in `/repo` is read as text only; nothing is built or run.  The model
lives in `rocq/theories`, logical name `Verif`.

## 1. Conventions

* `XModel.v` – executable Gallina definitions, no proofs.  Every definition
  cites the file and lines of `/repo` it models and says where it simplifies.
* `XSpec.v` (or a spec section at the head of `PropX.v`) – the small, independent
  specification in terms of which the property is stated.
* `XProofs.v` – lemmas.
* `PropX.v` – only the property theorems (`exact lemma.`), an `Example` that a
  concrete non-trivial case meets the hypotheses, and `Print Assumptions`.
* A theorem that proves only part of its property has the suffix `_partial`.
* A theorem that shows that the code violates (part of) a property has the suffix
  `_refuted`; it exhibits the concrete input.  Section 5 lists these findings.
* Exceptions are modelled by `option`/a result type with one constructor per
  outcome, undefined behaviour (out-of-range access, use after free, …) by a
  constructor of its own.  No default values stand in for failing accesses.
* Numbers: `Z`/`nat`/`N` for integers (wrap-around written out where a property
  is about it); real numbers of the standard library for `double` when the
  property is about mathematics (rounding is then *not* modelled); an abstract
  commutative ring where only ring laws matter; `Q`/`Z` or Flocq when a property
  is about decimal tables or about precision.
* External calls (linear solvers, random numbers, the user's callbacks, the
  file system) are universally quantified function arguments.

## 2. Plan per property

| id | what is modelled | how it is proved |
|----|------------------|------------------|
| C01 | `Group`, `SortedUniqueVector` with `lower_bound` on addresses | invariant (index sorted, same elements as list) by induction over the Add history; refinement to "first occurrences" |
| C02 | `Unite`, `Difference`, `Intersection`, `SymmetricDifference` | membership + order by induction on the operand lists |
| C03 | static counters per class, construct/copy steps | invariant over op lists |
| C04 | vector of heap cells (unique_ptr), heap with fresh addresses | heap invariant over op lists |
| C05 | text stream as list of lines, binary stream as list of bytes, parse/print as an oracle pair with the round-trip law of 17 digits / the 8-byte encoding | induction over the sequence of items |
| C06 | same streams with separators; out-of-bounds access as UB outcome | text: induction; binary: refuted |
| C07 | `DofContainer` as association list sorted by id | refinement to a finite map, for op lists |
| C08 | `DofVector` operators over an abstract commutative ring | per-key extensional equality |
| C09 | `ToEigen`, `FromEigen` for vectors and block matrices | induction over dof list; product law by block sums |
| C10 | `DofNumbering::Build`, node state | induction over nodes; bijection as permutation of `seq 0 N` |
| C11 | same | refuted by a two-node mesh |
| C12 | `Constraints::Add`, `TermChecker` | invariant over Add histories; own-term case refuted |
| C13 | `BuildUnitConstraintMatrix`, rhs | functions on index sets over a commutative ring; both directions |
| C14 | `GetJKNumbering` | `Permutation` of `seq` |
| C15 | double→float conversion as rounding operator | Flocq / primitive float witness, refuted |
| C16 | `Direction` over R | refuted by a 2D direction; the equation that the code does impose is proved |
| C17 | thread-local accumulation and merge for any partition/merge order | commutative monoid sums over permutations |
| C18 | lumping over R | equality for one component, refuted for two |
| C19 | `VectorAssembler`, `MatrixAssembler` state machines | invariants over op lists; SetZero-before-Finish refuted |
| C20 | `Cell::IntegrateGeneric`, `Apply` | fold lemmas |
| C21 | `CellIpData` caches | cache invariant; operator-blind B cache refuted |
| C22 | `Jacobian` 1x1…3x3, 2x1, 3x1, 3x2 | field/nra |
| C23 | `Gradient`, `Strain`, `N` with general node number | sums by induction |
| C24 | `Solve` on block systems | abstract solver; block order refuted |
| C25 | `SolveTrialState` | linear algebra with abstract solver |
| C26 | `AdaptiveSolve::Solve` loop over R with oracle outcomes | invariant over loop, fuel eliminated by a termination measure |
| C27 | `NewtonRaphson`, `LineSearch` | induction over iterations |
| C28 | `DoStep` over abstract problem | case analysis over outcomes, history induction |
| C29 | `NodalValueMerger` | permutation/bijection |
| C30 | trapezoid sums over R | induction; threshold version refuted |
| C31 | Morton codes over N | `N.testbit` extensionality |
| C32 | `Interpolation`/`LinearInterpolation` over R | sorted-list induction |
| C33 | Legendre recurrences over R and int factorial | induction, overflow refuted |
| C34 | tensor product index formulas | double/triple sum factorisation for all n |
| C35 | tables as scaled integers; the Grundmann-Moeller rules in general | exact evaluation of all monomials in integers, lifted by linearity; from order 10 on: tables compared digit by digit with the Grundmann-Moeller rules, which are proved exact for every dimension and index by generating functions |
| C36–C38 | every fixed-order interpolation | ring/field, `auto_derive` |
| C39 | barycentric Lagrange basis for any n | polynomial root counting / induction |
| C40 | `LinearElastic` | field/nra |
| C41 | damage laws | real analysis lemmas |
| C42 | `LocalIsotropicDamage` with a history array | induction over histories |
| C43 | `LinearElasticDamage` | field, derivatives |
| C44, C45 | `ModifiedMisesStrainNorm`, invariants | field, nra, `auto_derive` |
| C46, C47 | `Nurbs::FindSpan`, `BasisFunctions` | search invariant; induction over degree |
| C48 | `NodeAtCoordinate`, `NodesAtAxis` | list induction |
| C49 | `UnitMeshFem` index formulas | arithmetic over Z for all n |
| C50 | `SubBoxes` hashing | R floor lemmas |
| C51 | Gmsh record parser on token lists | induction over blocks; binary count bug refuted |
| C52 | `UnstructuredGrid` | op-list induction |
| C53 | `XMLWriter` offsets | prefix sums |
| C54 | `.pvd` file as byte list with seek/overwrite | invariant over plots |
| C55 | `TransformData` | permutation |
| C56 | `PredictCollision` over R | quadratic analysis |
| C57 | `PerformCollision` over R | algebra in R³ |
| C58 | physical/cylinder walls | same |
| C59 | `Event::operator<` | total-order lemmas |
| C60 | event list with heap liveness | refuted for sphere-sphere |
| C61 | event loop with exact arithmetic | invariant over events and continuous time |
| C62, C63 | `SubBoxHandler` | floor arithmetic; 1x1 cylinder refuted |
| C64–C66 | `ParticleCreator` | induction over random streams |
| C67 | `GetAbsoluteMininimalDistance` | upper bound proved, minimality refuted |
| C68 | `Specimen` | case analysis |
| C69 | `Triangle` | nra / witness |
| C70 | `Polygon`: constructor (mean, atan2, std::map, 1e-6 filter) and `PointIsInside` | crossing parity of any closed path = parity of the triangles of a fan around any point; star-shaped: exactly one triangle; gaps of the sort below PI because the deviations from the mean sum to zero; witness |
| C71 | memoizer map with node addresses; threads as a transition system | op-list induction; induction over schedules; race refuted |
| C72 | `CubicSplineInterpolation` | natural spline system solved, C2 by gluing derivatives |
| C73 | `ComputeWeightsAndPoints1DGauss` | moment equations over R |
| C74 | Lobatto points and weights | polynomial exactness |
| C75 | damage laws | `auto_derive` |
| C76 | NURBS derivatives | induction over degree; surface second derivatives refuted |
| C77 | result file names over plot histories | invariant over histories; collisions refuted |
| C78 | `CollisionHandler::Simulate` loop | witness run to an empty list |
| C79 | `CalculateDelaunayTriangulation` with list node addresses | invariant of Bowyer-Watson insertion; always refuted |
| C80 | `MomentumBalance`, `GradientDamage`, interaction functions | directional derivatives of sums, chain rule over the constitutive derivatives of C40-C44, C75 |
| C81 | `GradientDamage` with its history matrix, call sequences | induction over the calls |
| C82 | `NeumannBc`, `DynamicMomentumBalance`, `Matrix::N` | exchange of sums over node blocks |
| C83 | `TimeDependentProblem::RenumberDofs`, `Gradient`, `Hessian0`, `UpdateHistory` and the Bind functions over the models of merger, numbering, assembler and cell | composition of C10, C17, C20, C29 with a frame for the other dof types; loss of the other DofInfo refuted |
| C84 | `CellStorage::AddCells` | induction over the elements; default start id refuted |
| C85 | GmresModel.v: Gram-Schmidt, the Givens rotations, back substitution, the column loop with the s vector of length n, the restart loop; entries that are no numbers are a separate outcome | invariant of the Arnoldi loop (orthonormal basis, Hessenberg relation, rotated columns); the rotated last entry is the residual; optimality over the Krylov space; injective PA gives nonzero diagonals; refuted for the true residual, short right hand sides, Krylov dimension n and singular A |
| C86 | FitModel.v: the members, the calls, the normal equations with rows replaced by boundary conditions; the LU solver is an argument | normal equations are regular for enough different abscissae (a polynomial has no more roots than its degree); orthogonality of the error gives minimality; Gaussian elimination instantiates the solver; refuted with boundary conditions |
| C87 | ShapeModel.v: IsWithinShape of the seven shapes with exact reals; the specification is the convex hull of the corner nodes used by the linear elements | barycentric weights for both directions, limit of the tolerance to zero; refuted for the pyramid |
| C88 | LegendreModel.v, TensorModel.v, SimplexTables.v, SimplexModel.v with the element of ShapeModel.v / PropShape.v | exactness (C73, C74) applied to squares of Lagrange polynomials times linear factors, strict positivity of the integral of a continuous nonnegative function; tensor products by induction; the tables by computation, lifted to the element; refuted for the listed orders |
| C89 | VisuModel.v: Visualizer and the three handlers on the grid of GridModel.v; the interpolations and integration point values are arguments | layout of points and cells by induction over the cells; frame relation `wrote` for every loop, composed over cells and calls; refuted for bricks, cells without integration points and mismatched handlers |
| C90 | VoronoiModel.v follows the helpers for lines, quads and bricks on top of the 1D rules of LegendreModel; the triangles use boost's Voronoi diagram and are not modelled | base-n digits of the cell number; blocks of flat_map give the corner ids; the cells of midpoints are the nearest point cells in one direction and squared distances are sums over the directions |
| C91 | GeometryConcrete as a record with the specimen pointer (null, live, freed); the two Maximize functions as compositions of TakeModel, SubBoxModel and SimModel; walls and cylinder walls have negative numbers, spheres those that CreateParticlesFromMatrix gives them | composition: the created particles form a packing (C61) because of C64, C65 and C66; the radius before the simulation is an invariant of every step; concrete runs for the refutations |
| C92 | GetParticles2D as a filter and map over the table; the height check of ExportGmshGeo2D | point sets: the disk and the section of the ball have the same points; the distance in the plane from (r1 r2 + d1 d2)^2 - (r1^2 - d1^2)(r2^2 - d2^2) = (r1 d2 + r2 d1)^2; induction over the table |
| C93 | the parts of libstdc++ input streams that are used (get, ignore, >> double, >> char with eof and fail bits) over character lists, and on top of them every reading function of InputReader with its loops, uninitialised locals and exceptions | a grammar of files (InputSpec.v) and a proof that the reader inverts it for every file of the grammar; concrete files for the refutations |
| C94 | IOFormat printing (scientific notation with the precision used, aligned columns, delimiter), line and word splitting, strtod-like parsing; entries finite, infinite or NaN | round trip: the words and lines are recovered, each number is the original rounded to the printed digits; concrete matrices for the refutations |
| C95 | the logger as a state machine over calls, with the console text and the files written | induction over the message sequence against the text with a prefix in front of each line |
| C96 | GeoModel.v: every piece of script as a list of statements, an interpreter with gmsh's numbering, the three Write functions, numbers rounded to six decimal digits | GeoSpec.v describes spheres, boxes, cylinders and disks by oriented curves; every call adds a shifted copy of one template (equivariance of the interpreter), then induction over the aggregates; refutations for missing aggregates, the cylinder's orientation, half circles, rounding and the 2D interface |
| C97 | the transformation to the knot interval, control points of an element, Interpolate, derivative shape functions, Jacobian and Integrate of a cell on the element | B-spline window argument of C47, chain rule with Coquelicot, induction over the rule; witness curve of two lines |
| C98 | both factory functions with the elements of C36-C39; facets and their Lagrange bases written down separately | dispatch by case analysis; pointwise polynomial identities by field for each facet, a permutation lemma for other listings of its corners, linearity for polynomials |
| C99 | the composition Cell::Integrate of MomentumBalance::Gradient/Hessian0 on CellIpData::B from Jacobian and Nabla::Strain, over element interpolations (EquilibriumModel.v) | sum of shape function derivatives is zero (partition of unity + derivative), inverse Jacobian gives exact gradients of affine fields; virtual work identity of the whole integration loop; energy as quadratic form of the elasticity matrix |
| C100 | Average::operator() over R | induction over the calls: num * average = sum |
| C101 | the table on top of the LinearInterpolation model (TableModel) | segments of the table via C32_linear, piecewise comparison |
| C102 | Timer as state machine over clock readings, text of the times as oracle | induction over the operations against the list of expected reports |
| C103 | the chain of comparisons with the two preprocessor symbols, solver classes as oracles with an info() flag | case analysis over the documented names; counterexample solvers that keep their contract |
| C104 | PolygonModel.v: the four queries on the edges of the stored polygon; quotients by zero are a separate value that fails every comparison | Cramer's rule gives the unique common point; fold invariant for the smallest parameter; projection identity for the distance; witnesses on the unit square |
| C105 | BodyModel: cells with node addresses, GetDofNumbering, local vectors and matrices, composed with the models of BuildDofNumbering, Cell::Integrate, the integrands and the parallel assembler | work of the assembled vector on any nodal field is the sum of the works of the cells (from C10 and C17), then C99 and C82 per cell with unit, rotation and arbitrary fields; patch test: the gradients of the shape functions of a simplex are the area vectors of the opposite sides, which sum to zero around an inner node |
| C106 | composition of the models of BuildDofNumbering, cell integration, assembly, the constraint matrix and Solve (BodyModel, ConstraintModel, SolveModel) | zero energy makes each cell rigid (C99); cells with a common side have the same rigid motion, since the side determines it; induction along paths of cells; regularity of the reduced matrix from the uniqueness in C13; minimum of the energy from symmetry and definiteness |
| C107 | FindLegendreRoot (Newton loop with fuel, division by zero as no return), FindLegendreRoots, FirstGuess, LegendreRoots, LegendreDerivRoots (LegendreRootsModel) | the Legendre equation in the angle is an oscillator; the phase of its solution (PhaseProofs) locates each zero in the angle to within 1/(4N)^2 of the guess; a Newton step near such a zero contracts, since the second derivative is bounded through the differential equation (NewtonZoneProofs); symmetry for the negative half |
| C108 | QuasistaticSolver on block vectors: mCmatUnit, Norm, TrialState, DoStep (NewtonModel) with SolveTrialState (SolveModel), WriteTimeDofResidual | invariant over all histories (change of the left sides = change of the right sides); norm of C^T r as bound of the virtual work by Cauchy-Schwarz; unique equilibrium by definiteness on the supports (C106); springs and a pair of dof types as witnesses of the violations |
| C109 | VoronoiCellModel: edge map, both cases of the Voronoi edge, the intersection with the boundary, stored cells and GetVoronoiCells, for any triangulation (C79) and any traversal order of the hash map | equidistance of the circumcenter and of points on the normal through it; nearest point by the empty circles of a Delaunay triangulation and convexity of the half planes; the converse for inner points by separating a point from the circumcenters by a line; three points in a square as witness of the violations |
| C110 | VoronoiCellModel: visu_points, visualization_cells, fan, visualization_triangles, transform_inverse | induction over the cells; the fan of a polygon as telescoping shoelace sum; points without triangles as witness of the violation |
| C111 | IpModel: the members of all integration types on top of the rules of C34 and C35; vector reads out of range are undefined | case analysis on the type; facts about the lengths of the tables by computation |
| C112 | SimPrintModel.v: LogStatus with the sums of ParticleHandler over the state of SimModel.v | the fraction and the last line are those of the time of the line; the energy is taken before the synchronisation and is too small when spheres grow (C112_energy_refuted); a line leaves the motion, the events and the outcome of the next event (C112_undisturbed_partial) |
| C113 | the sequence of file-system states of a call, one per character written (CrashModel.v), over the files of PostProcessModel | induction over the visualizers and over the characters; witnesses for the collection that is not readable |
| C114 | the readers of SerializeModel, EigenIOModel and GmshModel applied to prefixes of what the writers produce | induction over the items for missing lines; families of files for the refutations |
| C115 | the factory functions as functions to the objects of IpModel | case analysis over shapes and orders; C34 and C35 carried over from the rules to the created objects |

## 3. Trusted base

* Coq 8.16.1's kernel; the same modules are re-checked with `coqchk`.
* The axioms of the standard library that section 6 lists per theorem; no others.
  No axiom, parameter or section-less hypothesis is declared in this development;
  the section variables of the models (callbacks, solvers, random numbers, clocks)
  become universally quantified arguments of the theorems.
* The reading of the C++ sources recorded in the comments of the model files
  (section 4 lists which files).  The compiler, the C++ and Eigen libraries, MPI,
  OpenMP and the file system are represented by the modelled behaviour only.
* Arithmetic: unless a comment says otherwise, `double` is an exact real number and
  `int` an unbounded integer.  Where a property is about rounding, decimal tables,
  overflow or NaN, the model says so at the definition.

<!-- generated below this line by a script from MANIFEST.json, the sources and Print Assumptions -->

## 4. What is modelled and what is not

The left column is the model file, the right column the files of `/repo` its comments cite (with the lines, at each definition).

| model | code |
|---|---|
| `AdaptiveModel.v` | `mechanics/tools/AdaptiveSolve.cpp`, `mechanics/tools/AdaptiveSolve.h` |
| `AssemblerModel.v` | `mechanics/cell/Assembler.cpp`, `mechanics/cell/SimpleAssembler.cpp`, `mechanics/dofs/DofMatrixContainer.h` |
| `BaseModel.v` | `base/UniqueId.h`, `base/ValueVector.h` |
| `BodyModel.v` | `mechanics/cell/Cell.h`, `mechanics/cell/CellIpData.h`, `mechanics/cell/SimpleAssembler.cpp`, `mechanics/elements/ElementFem.h`, `visualize/Cell.h` |
| `CellModel.v` | `mechanics/cell/Cell.h`, `mechanics/cell/CellData.h`, `mechanics/cell/CellIpData.h`, `mechanics/cell/DifferentialOperators.h`, `mechanics/cell/Jacobian.h`, `mechanics/cell/Matrix.h`, `mechanics/elements/ElementFem.h`, `visualize/Cell.h` |
| `CollisionModel.v` | `geometryConcrete/collision/Event.cpp`, `geometryConcrete/collision/collidables/CollidableParticleSphere.cpp`, `geometryConcrete/collision/collidables/CollidableParticleSphere.h`, `geometryConcrete/collision/collidables/CollidableWallBase.cpp`, `geometryConcrete/collision/collidables/CollidableWallCylinder.cpp`, `geometryConcrete/collision/collidables/CollidableWallPhysical.cpp`, `geometryConcrete/collision/collidables/CollidableWallVirtual.cpp` |
| `CompanionModel.v` | `mechanics/interpolation/InterpolationBrickLobatto.h`, `mechanics/interpolation/InterpolationCompanion.cpp`, `mechanics/interpolation/InterpolationQuadLobatto.h`, `mechanics/interpolation/InterpolationTrussLobatto.cpp`, `mechanics/interpolation/InterpolationTrussLobatto.h` |
| `ConstraintModel.v` | `mechanics/constraints/ConstraintCompanion.cpp`, `mechanics/constraints/Constraints.cpp`, `mechanics/constraints/Constraints.h`, `mechanics/constraints/Equation.h`, `mechanics/constraints/Term.h`, `mechanics/dofs/DofNumbering.cpp`, `mechanics/nodes/NodeSimple.h` |
| `CrashModel.v` | `visualize/PostProcess.cpp`, `visualize/XMLWriter.cpp` |
| `DelaunayModel.v` | `math/DelaunayVoronoi.h` |
| `DofMeshModel.v` | `math/EigenCompanion.h`, `mechanics/elements/ElementCollection.h`, `mechanics/mesh/MeshFemDofConvert.cpp` |
| `DofModel.v` | `mechanics/dofs/DofContainer.h`, `mechanics/dofs/DofInfo.h`, `mechanics/dofs/DofMatrixContainer.h`, `mechanics/dofs/DofMatrixSparseConvertEigen.h`, `mechanics/dofs/DofType.h`, `mechanics/dofs/DofVector.h`, `mechanics/dofs/DofVectorConvertEigen.h` |
| `EigenIOModel.v` | `math/EigenIO.cpp` |
| `ElasticModel.v` | `mechanics/constitutive/ConstitutivePlaneStateEnum.h`, `mechanics/constitutive/EngineeringStrainInvariants.h`, `mechanics/constitutive/LinearElastic.h`, `mechanics/constitutive/LinearElasticDamage.h`, `mechanics/constitutive/LocalIsotropicDamage.h`, `mechanics/constitutive/ModifiedMisesStrainNorm.h`, `mechanics/constitutive/Voigt.h`, `mechanics/constitutive/damageLaws/DamageLaw.h`, `mechanics/constitutive/damageLaws/DamageLawExponential.h`, `mechanics/constitutive/damageLaws/DamageLawLinear.h`, `mechanics/constitutive/damageLaws/DamageLawNoSoftening.h`, `mechanics/constitutive/damageLaws/SofteningMaterial.h` |
| `EquilibriumModel.v` | `mechanics/cell/Cell.h`, `mechanics/cell/CellIpData.h`, `mechanics/cell/DifferentialOperators.h`, `mechanics/cell/Jacobian.h`, `mechanics/constitutive/MechanicsInterface.h`, `mechanics/elements/ElementFem.h`, `mechanics/integrands/MomentumBalance.h`, `visualize/Cell.h` |
| `EventModel.v` | `geometryConcrete/collision/Event.cpp`, `geometryConcrete/collision/collidables/CollidableParticleSphere.cpp`, `geometryConcrete/collision/collidables/CollidableWallBase.h`, `geometryConcrete/collision/handler/EventListHandler.cpp` |
| `FitModel.v` | `math/PolynomialLeastSquaresFitting.cpp`, `math/PolynomialLeastSquaresFitting.h`, `math/SupportPoints.h` |
| `FractureModel.v` | `mechanics/tools/GlobalFractureEnergyIntegrator.cpp` |
| `GeoModel.v` | `geometryConcrete/GmshWriter.cpp` |
| `GeometryModel.v` | `geometryConcrete/GeometryConcrete.cpp`, `geometryConcrete/GeometryConcrete.h`, `geometryConcrete/collision/collidables/CollidableParticleSphere.cpp`, `geometryConcrete/collision/handler/ParticleHandler.cpp`, `geometryConcrete/collision/handler/SubBoxHandler.cpp` |
| `GmresModel.v` | `math/Gmres.h` |
| `GmshModel.v` | `mechanics/mesh/MeshGmsh.cpp` |
| `GridModel.v` | `math/EigenCompanion.h`, `mechanics/cell/Cell.h`, `visualize/Cell.cpp`, `visualize/Cell.h`, `visualize/DataArray.cpp`, `visualize/DataArray.h`, `visualize/Point.cpp`, `visualize/Point.h`, `visualize/UnstructuredGrid.cpp`, `visualize/UnstructuredGrid.h`, `visualize/VisualizeEnum.h`, `visualize/XMLWriter.cpp` |
| `GroupModel.v` | `base/Group.h` |
| `IgaModel.v` | `mechanics/cell/Cell.h`, `mechanics/elements/ElementIga.h`, `mechanics/elements/ElementInterface.h`, `mechanics/iga/Nurbs.h`, `visualize/Cell.h` |
| `IgaSurfaceModel.v` | `mechanics/cell/Cell.h`, `mechanics/elements/ElementIga.h`, `visualize/Cell.h` |
| `InputModel.v` | `geometryConcrete/InputReader.cpp`, `geometryConcrete/InputReader.h` |
| `IntegrandModel.v` | `mechanics/cell/CellIpData.h`, `mechanics/integrands/DynamicMomentumBalance.h`, `mechanics/integrands/GradientDamage.h`, `mechanics/integrands/MomentumBalance.h`, `mechanics/integrands/NeumannBc.h` |
| `IntegrationCompanionModel.v` | `math/Quadrature.cpp`, `mechanics/integrationtypes/IntegrationCompanion.cpp`, `mechanics/integrationtypes/IntegrationTypeTensorProduct.cpp` |
| `InterpolationModel.v` | `mechanics/interpolation/InterpolationBrickLinear.cpp`, `mechanics/interpolation/InterpolationBrickQuadratic.cpp`, `mechanics/interpolation/InterpolationPrismLinear.cpp`, `mechanics/interpolation/InterpolationPrismQuadratic.cpp`, `mechanics/interpolation/InterpolationPyramidLinear.cpp`, `mechanics/interpolation/InterpolationQuadLinear.cpp`, `mechanics/interpolation/InterpolationQuadSerendipity.cpp`, `mechanics/interpolation/InterpolationSimple.h`, `mechanics/interpolation/InterpolationTetrahedronLinear.cpp`, `mechanics/interpolation/InterpolationTetrahedronQuadratic.cpp`, `mechanics/interpolation/InterpolationTriangle3rdOrder.cpp`, `mechanics/interpolation/InterpolationTriangle4thOrder.cpp`, `mechanics/interpolation/InterpolationTriangleLinear.cpp`, `mechanics/interpolation/InterpolationTriangleQuadratic.cpp`, `mechanics/interpolation/InterpolationTruss3rdOrder.cpp`, `mechanics/interpolation/InterpolationTruss4thOrder.cpp`, `mechanics/interpolation/InterpolationTrussLinear.cpp`, `mechanics/interpolation/InterpolationTrussQuadratic.cpp` |
| `IpModel.v` | `mechanics/integrationtypes/IntegrationType3D6NGauss1Ip.cpp`, `mechanics/integrationtypes/IntegrationType3D6NGauss1Ip.h`, `mechanics/integrationtypes/IntegrationType3D6NGauss2x3Ip.cpp`, `mechanics/integrationtypes/IntegrationType3D6NGauss2x3Ip.h`, `mechanics/integrationtypes/IntegrationTypeBase.h`, `mechanics/integrationtypes/IntegrationTypeTensorProduct.cpp`, `mechanics/integrationtypes/IntegrationTypeTensorProduct.h`, `mechanics/integrationtypes/IntegrationTypeTetrahedron.cpp`, `mechanics/integrationtypes/IntegrationTypeTetrahedron.h`, `mechanics/integrationtypes/IntegrationTypeTriangle.cpp`, `mechanics/integrationtypes/IntegrationTypeTriangle.h` |
| `LegendreModel.v` | `math/Legendre.cpp`, `math/Quadrature.cpp` |
| `LegendreRootsModel.v` | `math/Legendre.cpp` |
| `LobattoModel.v` | `mechanics/interpolation/InterpolationBrickLobatto.cpp`, `mechanics/interpolation/InterpolationQuadLobatto.cpp`, `mechanics/interpolation/InterpolationTrussLobatto.cpp` |
| `LoggerModel.v` | `base/Logger.cpp`, `base/Logger.h` |
| `MemoModel.v` | `math/NaturalCoordinateMemoizer.h` |
| `MemoModel2.v` | `math/NaturalCoordinateMemoizer.h` |
| `MergerModel.v` | `mechanics/mesh/MeshFem.cpp`, `mechanics/nodes/NodeSimple.h`, `mechanics/tools/NodalValueMerger.cpp` |
| `MeshModel.v` | `mechanics/elements/ElementCollection.h`, `mechanics/elements/ElementFem.h`, `mechanics/elements/ElementInterface.h`, `mechanics/interpolation/InterpolationSimple.h`, `mechanics/mesh/MeshFem.cpp`, `mechanics/mesh/UnitMeshFem.cpp` |
| `MortonModel.v` | `math/MortonOrder.h` |
| `NewtonModel.v` | `math/LineSearch.h`, `math/NewtonRaphson.h`, `mechanics/tools/QuasistaticSolver.cpp` |
| `NurbsModel.v` | `mechanics/iga/Nurbs.h` |
| `PolygonModel.v` | `math/DelaunayVoronoi.h` |
| `PvdModel.v` | `visualize/PostProcess.cpp`, `visualize/PostProcess.h` |
| `QuasiModel.v` | `mechanics/dofs/DofVector.h`, `mechanics/solver/Solve.cpp`, `mechanics/tools/QuasistaticSolver.cpp` |
| `SerializeModel.v` | `base/serializeStream/SerializeStreamBase.h`, `base/serializeStream/SerializeStreamIn.cpp`, `base/serializeStream/SerializeStreamIn.h`, `base/serializeStream/SerializeStreamOut.cpp`, `base/serializeStream/SerializeStreamOut.h` |
| `ShapeModel.v` | `math/shapes/Hexahedron.h`, `math/shapes/Line.h`, `math/shapes/Prism.h`, `math/shapes/Pyramid.h`, `math/shapes/Quadrilateral.h`, `math/shapes/Shape.h`, `math/shapes/Tetrahedron.h`, `math/shapes/Triangle.h` |
| `SimModel.v` | `geometryConcrete/collision/Event.cpp`, `geometryConcrete/collision/SubBox.cpp`, `geometryConcrete/collision/collidables/CollidableBase.cpp`, `geometryConcrete/collision/collidables/CollidableParticleSphere.cpp`, `geometryConcrete/collision/collidables/CollidableWallBase.cpp`, `geometryConcrete/collision/collidables/CollidableWallBase.h`, `geometryConcrete/collision/collidables/CollidableWallCylinder.cpp`, `geometryConcrete/collision/collidables/CollidableWallPhysical.cpp`, `geometryConcrete/collision/collidables/CollidableWallVirtual.cpp`, `geometryConcrete/collision/handler/CollisionHandler.cpp`, `geometryConcrete/collision/handler/EventListHandler.cpp`, `geometryConcrete/collision/handler/ParticleHandler.cpp`, `geometryConcrete/collision/handler/SubBoxHandler.cpp` |
| `SimPrintModel.v` | `geometryConcrete/collision/collidables/CollidableParticleSphere.cpp`, `geometryConcrete/collision/handler/CollisionHandler.cpp`, `geometryConcrete/collision/handler/ParticleHandler.cpp`, `geometryConcrete/collision/handler/SubBoxHandler.cpp` |
| `SimplexModel.v` | `mechanics/integrationtypes/IntegrationCompanion.cpp`, `mechanics/integrationtypes/IntegrationType3D6NGauss1Ip.cpp`, `mechanics/integrationtypes/IntegrationType3D6NGauss2x3Ip.cpp`, `mechanics/integrationtypes/IntegrationTypeTetrahedron.cpp`, `mechanics/integrationtypes/IntegrationTypeTriangle.cpp` |
| `SolveModel.v` | `mechanics/solver/Solve.cpp` |
| `SubBoxModel.v` | `geometryConcrete/Specimen.cpp`, `geometryConcrete/collision/collidables/CollidableWallCylinder.cpp`, `geometryConcrete/collision/handler/SubBoxHandler.cpp` |
| `TableModel.v` | `math/CubicSplineInterpolation.cpp`, `math/Interpolation.cpp`, `math/LinearInterpolation.cpp`, `math/LinearInterpolation.h` |
| `TakeModel.v` | `geometryConcrete/collision/handler/ParticleHandler.cpp`, `geometryConcrete/takeAndPlace/ParticleCreator.cpp` |
| `TdpModel.v` | `mechanics/dofs/DofMatrixContainer.h`, `mechanics/tools/CellStorage.cpp`, `mechanics/tools/TimeDependentProblem.cpp`, `mechanics/tools/TimeDependentProblem.h` |
| `TensorModel.v` | `mechanics/integrationtypes/IntegrationTypeTensorProduct.cpp` |
| `TextModel.v` | `geometryConcrete/InputReader.cpp`, `math/EigenIO.cpp` |
| `ToolsModel.v` | `base/Timer.cpp`, `base/Timer.h`, `math/Average.h`, `math/EigenSparseSolve.cpp`, `physics/PhysicalEquationsSI.h` |
| `VisuModel.v` | `mechanics/cell/CellInterface.h`, `visualize/AverageGeometries.h`, `visualize/AverageHandler.cpp`, `visualize/PointHandler.cpp`, `visualize/Visualizer.cpp`, `visualize/Visualizer.h`, `visualize/VoronoiHandler.cpp`, `visualize/VoronoiHandler.h` |
| `VoronoiCellModel.v` | `math/DelaunayVoronoi.h` |
| `VoronoiModel.v` | `visualize/VoronoiGeometries.cpp`, `visualize/VoronoiHandler.h` |

Files of `nuto/` that no definition models:

* `nuto/base`: Debug.h, Exception.h, Version.cpp, Version.h
* `nuto/base/serializeStream`: SerializeStreamBase.cpp
* `nuto/geometryConcrete`: GmshWriter.h, Specimen.h
* `nuto/geometryConcrete/collision`: Event.h, SubBox.h
* `nuto/geometryConcrete/collision/collidables`: CollidableBase.h, CollidableParticleBase.cpp, CollidableParticleBase.h, CollidableWallCylinder.h, CollidableWallPhysical.h, CollidableWallVirtual.h
* `nuto/geometryConcrete/collision/handler`: CollisionHandler.h, EventListHandler.h, ParticleHandler.h, SubBoxHandler.h
* `nuto/geometryConcrete/takeAndPlace`: ParticleCreator.h
* `nuto/math`: CubicSplineInterpolation.h, EigenIO.h, EigenOdeintCompatibility.h, Interpolation.h, Legendre.h, MatrixBaseAddons.h, Quadrature.h, dlapack.h
* `nuto/mechanics`: DirectionEnum.h
* `nuto/mechanics/cell`: Assembler.h, CellIds.h, Integrand.h, SimpleAssembler.h
* `nuto/mechanics/constitutive`: EngineeringStrain.h, EngineeringStress.h, EngineeringTangent.h
* `nuto/mechanics/constraints`: ConstraintCompanion.h
* `nuto/mechanics/dofs`: DofMatrix.h, DofMatrixSparse.h, DofNumbering.h
* `nuto/mechanics/elements`: ElementEnum.h
* `nuto/mechanics/integrands`: Bind.h
* `nuto/mechanics/integrationtypes`: IntegrationCompanion.h, IntegrationType0DBoundary.cpp, IntegrationType0DBoundary.h
* `nuto/mechanics/interpolation`: InterpolationBrickLinear.h, InterpolationBrickQuadratic.h, InterpolationCompanion.h, InterpolationPrismLinear.h, InterpolationPrismQuadratic.h, InterpolationPyramidLinear.h, InterpolationQuadLinear.h, InterpolationQuadSerendipity.h, InterpolationTetrahedronLinear.h, InterpolationTetrahedronQuadratic.h, InterpolationTriangle3rdOrder.h, InterpolationTriangle4thOrder.h, InterpolationTriangleLinear.h, InterpolationTriangleQuadratic.h, InterpolationTruss3rdOrder.h, InterpolationTruss4thOrder.h, InterpolationTrussLinear.h, InterpolationTrussQuadratic.h, TypeDefs.h
* `nuto/mechanics/mesh`: MeshFem.h, MeshFemDofConvert.h, MeshGmsh.h, UnitMeshFem.h
* `nuto/mechanics/solver`: Solve.h
* `nuto/mechanics/tools`: CellStorage.h, GlobalFractureEnergyIntegrator.h, NodalValueMerger.h, QuasistaticSolver.h
* `nuto/physics`: PhysicalConstantsSI.h
* `nuto/visualize`: AverageHandler.h, HandlerInterface.h, PointHandler.h, VoronoiGeometries.h, XMLWriter.h

## 5. Findings

Properties that the code does not have in full.  Each is shown by a `_refuted` theorem about the faithful model; the note says what remains true.

* **C06 Serialization separators** (`C06_binary_separator_write_refuted`, `C06_binary_separator_read_refuted`). text mode proved; binary mode is false of the code: writing reads 8 bytes from a 2-byte literal and reading stores 8 bytes into one char
* **C102 Timer reports** (`C102_monotone_refuted`). Lines, messages and sums are proved. Finding: times can be negative because the wall clock is system_clock, which may be set back.
* **C103 Sparse solvers by name** (`C103_mumps_message_refuted`, `C103_failure_refuted`). Findings: without MUMPS the name MumpsLDLT is reported as unknown (typo MUMPSLDLT in the comparison); solver.info() is never checked, so failed factorisations and diverged iterations are returned silently.
* **C104 Line and boundary queries of polygons** (`C104_edge_index_refuted`, `C104_segment_refuted`, `C104_no_intersection_refuted`). Proved for all lines that are not parallel to a side. Findings: GetDistance measures the distance to the infinite line, so GetEdgeIndex reports points on the prolongation of a side as points of the side; a segment that runs along a side does not intersect; a line that misses the polygon gets the point 1e10 directions away as its closest intersection (the throw is commented out).
* **C108 Histories of quasi-static steps** (`C108_constant_value_refuted`, `C108_two_types_refuted`, `C108_report_refuted`). Proved for every history: constraints change with their right hand sides, hence stay fulfilled if they are at the start; one dof type: a successful step leaves at most tolerance times length of virtual work, linear problems reach the unique equilibrium in the trial step and are independent of the path, also for the supported bodies of C106. The code violates the rest (findings): only the change of a right hand side is imposed, so a constraint with a constant value is never imposed on a solution that starts elsewhere (C108_constant_value_refuted); for two or more dof types the blocks of mCmatUnit overlap because the zero blocks are 0 x 0, so residuals of different types cancel in the norm and a state that is no equilibrium is accepted (C108_two_types_refuted); WriteTimeDofResidual evaluates the gradient at the time before the step, so loads that depend on time give a wrong residual (C108_report_refuted). The reports are right for gradients that do not depend on time (C108_report_partial).  C108_patch_test: a body of linear triangles or tetrahedra whose prescribed displacements are at each time an affine field has exactly that field at every node after every history of DoStep calls with a success, failed calls included.
* **C109 Voronoi cells** (`C109_two_corners_refuted`, `C109_after_failure_refuted`, `C109_right_triangle_refuted`). Proved for any triangulation and traversal order: one cell per point, corners on the boundary or equidistant from a neighbour, failure without a boundary, same result when repeated; for points whose circumcenters lie inside of the boundary, the hull of the computed corners is closest to the cell's point, and if moreover these circumcenters lie on no side of the boundary and triangles surround the point, the cell consists exactly of the points closest to it (C109_inner_partial). For points at the hull the corners other than those of the boundary are proved closest to the cell's point as long as no hull edge runs through (within 1e-4 of) the circumcenter of its triangle (C109_hull_partial). Missing: exact cells when they are cut by the boundary. Violated: next to a right triangle whose longest side is a hull edge, the cell's edge may run back through the triangle, depending on the order of the two ends (C109_right_triangle_refuted); a cell that contains two corners of the boundary throws (three points in a square suffice), and after such a failure the next call returns normally with empty cells. The corner of the boundary that a cut cell gets is proved for two consecutive boundary points on sides with a common corner.
* **C11 Constrained dofs are numbered last** (`C11_constrained_last_refuted`). Finding: the documented order (constrained dofs last) does not hold; witness with two nodes.
* **C110 Visualization cells of a Voronoi diagram** (`C110_no_triangles_refuted`). Proved for all lists of cells with at least one corner each: points without repetition, indices of the corners in order, n - 2 triangles per cell, signed areas add up to the shoelace formula of the cell, convex cells give triangles of the same orientation, points transformed back. Violated: points without triangles (one or two points, points on a line) get cells without corners, and the triangulation reads the first corner of an empty vector (undefined behaviour).
* **C111 Integration types answer for exactly the integration points they report** (`C111_unchecked_refuted`, `C111_orders_refuted`). Proved for every object: each reported point can be read, with the right number of coordinates, and a loop reads the rules of C34 and C35; tensor product types refuse other indices. Findings: the simplex types read behind their tables for an index out of range, the prism types return a point or weight for any index, the constructor of triangle types accepts every order and that of tetrahedron types reads out of range above order 21 (the IntegrationCompanion functions check the order). IntegrationType0DBoundary leaves GetShape pure virtual, so no object of it exists. The reported shape is the element in which the points lie and whose length, area or volume the weights add up to.
* **C112 Status lines of the sphere simulation** (`C112_energy_refuted`). The fraction of a line is that of its time, and the last line has the right energy. Finding: LogStatus adds up the kinetic energy before Sync, so each growing sphere counts with the radius of its own last event and the energy in the line is too small. Writing a line changes no motion, no event and not the effect of the next event; the predictions of later events are not compared (tolerances).
* **C113 Results survive a kill during Plot** (`C113_readable_refuted`, `C113_empty_file_refuted`). Proved at every moment: header and earlier entries are kept, earlier result files are complete, the result file is complete before its entry. The moments begin with the state before the call and end with the state after it. False: the new entry is written over the closing lines of the .pvd file first, so a kill after that leaves a collection that is not closed (C113_readable_refuted), and the first plot of a visualizer opens an empty file (C113_empty_file_refuted). Buffering by the operating system is not modelled: a character counts as written when it is inserted.
* **C114 Files cut short are not mistaken for complete ones** (`C114_cut_number_refuted`, `C114_binary_refuted`, `C114_matrix_file_refuted`, `C114_gmsh_refuted`, `C114_gmsh_binary_refuted`, `C114_gmsh_ascii_elements_refuted`, `C114_gmsh_header_refuted`). True: a text stream from which lines with data are missing is rejected at the first missing line. False: a number cut in its digits is read as the shorter number (C114_cut_number_refuted), binary streams never report that bytes are missing (C114_binary_refuted), a matrix file that lost rows is read as a smaller matrix (C114_matrix_file_refuted), and a Gmsh file that ends after its nodes is read as a mesh without elements (C114_gmsh_refuted). A Gmsh file that ends inside of its nodes or elements is never read as a mesh (C114_gmsh_partial).  Gmsh files cut inside a section are never read as a mesh; binary files are rejected with an exception except in the header of the first block, where unread numbers are used (C114_gmsh_binary_refuted), ASCII files use an unread number of tags (C114_gmsh_ascii_elements_refuted), and an empty file or one cut in the header is read with a version that has no value (C114_gmsh_header_refuted). A file that ends inside of the physical names is rejected with an exception (C114_gmsh_names_partial).
* **C115 Integration types created for a shape and an order** (`C115_lobatto_order2_refuted`, `C115_triangle20_refuted`). Proved for all shapes and orders: an object of the given shape exactly for the orders that exist, otherwise an exception; with exact zeros of the Legendre polynomials, Gauss types integrate every polynomial of total degree order up to 3e-12 per unit of coefficient (tensor products without error), Lobatto types of order 3 and above too. False: Lobatto types of order 2 integrate only linear functions (C115_lobatto_order2_refuted; the order is used as the number of points), and the triangle type of order 20 has a wrong table (C115_triangle20_refuted). No order exists for pyramids.
* **C12 Accepted constraint sets are solvable** (`C12_self_reference_refuted`). Refinement to an equation log for all histories; the full claim holds without self-referencing equations, which the code accepts (finding).
* **C13 Constraint matrix parametrises the admissible space** (`C13_self_reference_refuted`, `C13_tiny_coefficient_refuted`). u = C v + g parametrises the admissible vectors, uniquely. Hypotheses: no self reference, coefficients are 0 or above 1e-18 in magnitude; both are shown to be needed (findings).
* **C14 JK numbering is a permutation** (`C14_more_equations_refuted`). Permutation, free numbers ascending first, dependent numbers in equation order; throws on unnumbered or too large numbers.  End to end after DofNumbering::Build. Finding: with more equations than dofs a vector of negative size is made before the numbers are checked.
* **C15 Prescribed values are passed in full precision** (`C15_full_precision_refuted`). Finding: values pass through single precision. Proved: stored value is the rounded one, exact for floats, relative error at most 2^-24. GetRhs passes the values on unchanged, in the order of GetJKNumbering.
* **C16 Direction constraint prescribes the displacement along the direction** (`C16_direction_refuted`). Finding: sign of the off-dominant coefficients is wrong; documented equation only for axis directions.
* **C17 Parallel assembly is schedule independent** (`C17_duplicate_types_refuted`, `C17_cell_exception_refuted`). For every interleaving of threads, distribution of cells and merge order, in exact arithmetic. Finding: a dof type listed twice is assembled twice.  Finding: an exception of a cell inside the parallel region is not reported, it ends the program (C17_cell_exception_refuted).
* **C18 Lumped matrix preserves the mass** (`C18_vector_mass_refuted`, `C18_cell_exception_refuted`). Mass preserved for scalar dofs; for n components the lumped mass is 1/n of the consistent one (finding). A dof type without numbering is rejected with an exception; a cell without the diagonal block of one of its dof types ends the program, because the exception leaves an OpenMP region (C18_cell_exception_refuted).
* **C19 Incremental assembler life cycle** (`C19_reset_before_finish_refuted`, `C19_resize_smaller_refuted`, `C19_resize_one_type_refuted`, `C19_unsized_type_refuted`). Vector assembler: full refinement. Matrix assembler: all histories without SetZero before Finish; SetZero before Finish does not discard contributions (finding).  Resize before Finish keeps the contributions of a MatrixAssembler (the VectorAssembler drops them): after a Resize to fewer dofs Finish writes out of bounds (finding). Every history whose last Resize names all dof types resized before is described exactly (C19_matrix_assembler_histories); a Resize of one dof type leaves its blocks with other types at their old size, so Finish writes out of bounds (finding, C19_resize_one_type_refuted).  Contributions of a dof type that never got a size are dropped silently before Finish and written out of bounds after it (finding, C19_unsized_type_refuted).
* **C21 Integration point data caching is transparent** (`C21_second_operator_refuted`). Proved for all request sequences that use one operator per dof type. The full claim is false of the code: CellIpData::B stores the matrix per dof type and returns it for any other operator as well.
* **C24 Linear solve with constraints** (`C24_dof_order_refuted`, `C24_dof_subset_refuted`). Proved for every correct linear solver when the dof types are listed in the order of f.DofTypes(); the result is written back in that order instead of the order of the list, so another order swaps blocks and a subset reads behind the end (both refuted with witnesses).
* **C25 Trial state** (`C25_exact_increment_refuted`). Constraint increment up to the single precision rounding of C15 (exact for float values, refuted otherwise) and equilibrium on the independent dofs, for dof types in the order of f.DofTypes().
* **C26 Adaptive time stepping** (`C26_exact_end_refuted`). Proved for every step function, step history and dt bounds (exact arithmetic, post-processing does not throw). Finding: the first step is not clipped to the end time, so the run may end past it (C26_exact_end_refuted); it ends exactly there when dt0 <= tEnd - tStart.
* **C27 Newton-Raphson postcondition** (`C27_sufficient_decrease_refuted`). Newton postcondition proved in full. Finding: the line search accepts the last trial without sufficient decrease when the maximum number of trials is reached.
* **C28 Quasi-static step is a transaction** (`C28_repeat_refuted`, `C28_history_rollback_refuted`). Proved: success commits time and state, failure keeps solution and time, at most one iteration where the linearisation at the end of the step is exact. Findings: the time step of a failed call persists and feeds the next trial state (repeat differs); history data is not rolled back if an update function throws.
* **C29 Nodal value merge/extract** (`C29_added_nodes_refuted`). Proved for every mesh, numbering and history of calls on an unchanged mesh. Finding: nodes are looked up once per dof type, so nodes added to the mesh after the first call are ignored.
* **C30 Fracture energy integration** (`C30_threshold_refuted`, `C30_plateau_refuted`). Without threshold proved in full (work along the curve; integral over displacement when increasing). With threshold proved only if the segment before the crossing continues the crossing segment. Finding: the code extrapolates the previous segment instead of interpolating the crossing one (8 instead of 6.75 in the witness) and divides by zero after a plateau.
* **C31 Morton codes** (`C31_wrap_refuted`). Encoding/decoding proved in full for all words. Neighbours proved inside the range and below zero. Finding: past the upper limit 1023 the coordinate wraps around to an existing cell.
* **C33 Legendre polynomials** (`C33_overflow_refuted`). Proved for every n, x and k <= 6 (and every returned value is right). Finding: for k >= 7 the int conversion of (2k)! overflows (undefined behaviour). Exact arithmetic.
* **C35 Simplex and prism quadrature tables** (`C35_order20_refuted`). Proved for every polynomial: triangle orders 1-19, tetrahedron orders 1-20 (from order 10 on by the general exactness of the Grundmann-Moeller rules, gm_exact, for every dimension and index), both prism rules; volumes for all tabulated orders. Nothing is missing but the finding: the triangle table of order 20 misses the integral of y by more than 1e-10 (refuted).
* **C36 Shape functions: partition of unity** (`C36_fourth_order_refuted`). Exact at every real point for 15 of 17 element types (also linear fields). The two fourth order elements carry coefficients truncated to 12 digits: proved up to a tolerance, the exact claim refuted.
* **C37 Shape functions: nodal basis** (`C37_fourth_order_refuted`). All node pairs of 15 types; fourth order elements up to 1e-9, exact claim refuted (truncated decimals). Lobatto family for every order.
* **C38 Shape functions: derivatives** (`C38_fourth_order_refuted`). Exact gradient for 14 polynomial types at every point, for the rational pyramid away from the plane of the apex and at the apex, for the Lobatto family outside of the 1e-15 tolerance of nodes. The fourth order elements are written with rounded decimal constants: gradient up to 1e-8, and not exact (C38_fourth_order_refuted).
* **C39 Lobatto interpolation of arbitrary order** (`C39_gradient_at_node_refuted`). Every order, every set of distinct nodes. The computation of the Legendre roots is an oracle. Partial only because within 1e-15 of a node the evaluated functions are snapped to the unit vector, so the gradient claim fails exactly there (refuted).
* **C41 Damage laws** (`C41_linear_peak_stress_refuted`). All clauses hold for the exponential and the no-softening law. The stress bound fails for the linear law made from material parameters: the cap omegaMax = 1 - fMin/ft is reached at a finite strain and from there the stress grows linearly without bound (the code comments 'not totally right'). The linear law needs omegaMax < 1, i.e. fMin > 0.
* **C42 Damage is irreversible** (`C42_unallocated_refuted`). Proved for all interleavings that stay within the allocated history data. LocalIsotropicDamage(Material::Softening) allocates 1 x 1 data only; any other cell or integration point is an out-of-range access.
* **C43 Damaged elasticity is consistent** (`C43_default_plane_state_refuted`). With equal plane states everything holds. The class comment's equivalence to LinearElastic fails for default arguments in 2D: LinearElastic defaults to PLANE_STRESS, LinearElasticDamage to PLANE_STRAIN. DstressDstrain of the unilateral law is claimed away from zero volumetric strain (there the stress has a kink).
* **C44 Modified von Mises strain norm** (`C44_softening_plane_stress_refuted`). The norm itself is right in 1D, 2D plane stress and 3D. The evolution equation that LocalIsotropicDamage and GradientDamage build from Material::Softening always uses the plane strain norm, also for plane stress materials, so uniaxial tension eps does not have norm eps there.
* **C50 Dof meshes share nodes** (`C50_flat_mesh_refuted`, `C50_outside_refuted`, `C50_curved_lines_refuted`). Proved when every interpolation point lies in the bounding box of the coordinate nodes, the box is at least 298e-10 wide in each direction and coinciding is transitive on the points. The first two are violated by legal meshes, where the code fails: points of curved elements outside the node box are never shared (C50_curved_lines_refuted), meshes flat in one direction are refused (C50_flat_mesh_refuted).  An element that already has the dof type, occurs twice in the group or has another shape is rejected (C50_repeated_element_rejected).
* **C51 Gmsh reader** (`C51_binary_block_refuted`, `C51_binary_memory_refuted`, `C51_pyramid_refuted`, `C51_line_3d_refuted`, `C51_shared_number_refuted`, `C51_name_with_space_refuted`). Proved for all ASCII files, and all binary files with one element per block, without pyramids: nodes, elements, node order, groups and names. False in general: gmsh's binary blocks of two or more elements are never read (five or more write out of range), gmsh's pyramids are refused, lines in 3D files are refused, physical entities of different dimension with the same number are merged, names are cut at the first space.  Names of groups are found in any spelling of their letters.
* **C52 Visualization grid ids** (`C52_negative_id_refuted`). Ids and stored data proved for all histories. Cells reference existing points only if the ids given are not negative: CheckPoints accepts negative ids, so the full statement is refuted.
* **C53 VTK appended data offsets** (`C53_large_grid_refuted`). Proved for all grids with less than 2^31 bytes of appended data; the offsets are int, for 178956971 points the offset of the connectivity is negative. C53_read_partial: a reader that looks the arrays up by name finds the points and the cells of the grid.
* **C56 Sphere collision prediction** (`C56_near_miss_refuted`). Safety proved in full: no overlap before the predicted time, none at all without prediction; first contact and symmetry proved; moving does not change the trajectory. False in part: discriminants in [-1e-12,0) count as contact, so a time is predicted for spheres that never touch.
* **C58 Wall collisions** (`C58_oblique_wall_refuted`, `C58_cylinder_axis_refuted`). Planes: all directions whose components do not sum to +-1, and the coordinate directions (the only ones the library uses). False for other directions with component sum +-1, which are taken for axis parallel. Violated: the response to the predicted collision of a sphere that grows on the axis of a cylinder throws.
* **C60 Event list memory safety** (`C60_sphere_sphere_refuted`). Proved for collisions with walls. For every collision of two spheres EraseOldEvents reads an event it has just destroyed; the outcome is the intended one only if that memory still reads as before. Every history of insertions, resets and wall collisions refines a set of events (C60_history_partial).
* **C62 Sub-box grid** (`C62_registration_refuted`). Numbering, tiling and wall kinds are proved for all grids. Registration is exact for spheres that stay below the upper faces; a sphere touching the upper x face is refused and one touching the upper y face is also registered in a distant box.
* **C63 Cylindrical specimens are enclosed** (`C63_one_division_refuted`, `C63_unequal_divisions_refuted`). True for equal divisions of at least two per direction; top, bottom and the walls between boxes are always kept. With one division across the cylinder there is no lateral wall at all; with unequal divisions (36 x 3) a box crossed by the surface gets none.
* **C64 Take phase respects the grading curve** (`C64_zero_diameter_refuted`, `C64_boundary_refuted`). Without boundary spheres and with positive smallest diameters: radii within their class, cumulative volume target met from below within one largest particle, sorted table, termination. Refuted: a class with smallest diameter 0 passes the check and loops forever; with boundary spheres the radii are sorted but not the positions, so boundary spheres change radius.
* **C65 Every particle is placed** (`C65_empty_class_refuted`). If no size class is empty the counts are exact and add up to the number of particles. Refuted with an empty class: diameters 8 and 1 give counts 1,0,0 and the second particle is never placed.
* **C66 Placed particles do not overlap** (`C66_large_distance_refuted`, `C66_boundary_spheres_refuted`). For any random stream: no out of bounds access, every placed particle inside, all pairs apart, provided the requested distance is within the size of a sub-box. Refuted: larger absolute distances are not kept; boundary spheres are moved and new spheres may lie on them. In a dogbone specimen no placed particle overlaps the cut-out circles.
* **C67 Minimal particle distance** (`C67_ten_particles_refuted`). Exact for fewer than ten particles, never below the true minimum, and never above the distance of two particles whose surrounding cubes have corners in a common sub-box. Refuted for ten: the closest pair across a sub-box face is missed.
* **C68 Specimen validation** (`C68_constructor_refuted`, `C68_small_volume_refuted`). The size check uses && for ||: matrices with one wrong dimension are accepted or read out of bounds. Volumes below 1e-14 are refused as negative.
* **C70 Point in polygon** (`C70_ray_through_corner_refuted`). The full property is false: a horizontal ray through a corner is counted twice, so an inner point at the height of a corner can be reported outside (refuted with a diamond). Proved for every other point: for every polygon that is star-shaped around some point, stored in either direction, convex or not, inside gives true and outside gives false; and the constructor (atan2 sort around the mean) always makes such a polygon with the given points as corners, provided the points are not on one line, none is the mean, and distinct points differ by more than 1e-6 in angle.
* **C71 Memoization by natural coordinates is transparent** (`C71_search_unprotected_refuted`, `C71_nan_refuted`, `C71_four_coordinates_refuted`, `C71_exceptions_refuted`). Proved for one, two or three coordinates that are numbers: every sequential history returns the function's value, references stay valid until ClearCache, one evaluation per coordinate; under any schedule completed requests have the right value if the search is atomic, insertions exclude each other, and a warm cache is never written. False in general: the search runs outside the critical section, so two threads on an empty cache read and rebalance the tree at once; NaN coordinates get another coordinate's value; four coordinates terminate at the second request. If the function throws, a build without OpenMP hands every exception to its caller and stays transparent (C71_exceptions_partial); with OpenMP the exception would leave a critical section and the program ends (C71_exceptions_refuted).
* **C72 Cubic spline interpolation** (`C72_derivative_refuted`). Value proved in full (the reserved but unsized vectors are taken as usable memory; writing there is undefined behaviour in C++, see DESIGN findings). Finding: derivative() returns the chord slope instead of the spline derivative.
* **C76 NURBS derivatives** (`C76_surface_second_refuted`). Derivative table of every order, rational curve derivatives up to order 2, surface first derivatives and the second derivative in direction 0 proved; the code's second derivative in direction 1 and its mixed derivative are wrong (lines 515 and 523), refuted on a bilinear patch.
* **C77 Result files of a collection** (`C77_overlapping_names_refuted`, `C77_interrupted_plot_refuted`). Proved if no call throws and no visualizer name ends with a digit. False in general: names a and a1 share the file a11.vtu; after a Plot that threw half way the step number is used again and a result file is overwritten.
* **C78 The event simulation never acts on an empty event list** (`C78_resting_spheres_refuted`, `C78_early_barrier_refuted`). False of the code: with an empty list the new barrier is oldGlobalTime + 10*(oldGlobalTime - time of last reset), which is 0 in the first pass; PerformNextEvent then dereferences begin() of an empty set. Refuted for every packing of spheres at rest and for a moving sphere whose first collision lies after the initial barrier. Proved: whenever an event is predicted up to the current barrier the next pass finds and performs one not later than it.
* **C79 Delaunay triangulation only reads live triangles** (`C79_every_triangulation_reads_freed_memory_refuted`). The property is false for every set of points that do not all share an x or a y coordinate: a triangle with two corners of the enclosing quad is queued twice for removal, and the second remove reads the freed triangle.
* **C81 The gradient damage integrand keeps the largest nonlocal strain** (`C81_unallocated_refuted`, `C81_plane_stress_refuted`). The history is proved for all call sequences. False of the code: a freshly constructed GradientDamage has a history of size 0x0, every call before the user resizes the public member is out of bounds; the constructor from material parameters uses the plane strain norm also for plane stress.
* **C83 Renumbering keeps the nodal values; Gradient and Hessian0 are the assembled sums; UpdateHistory visits each point once** (`C83_other_types_refuted`). Proved for all numberings, constraints on mesh nodes and schedules; nodes belong to one dof type and values are exact reals. False of the code: RenumberDofs replaces the DofInfo of the assembler, so every other dof type can no longer be assembled, also if it was renumbered before.
* **C84 Stored cells have consecutive ids** (`C84_default_ids_refuted`). Within one call proved. False across calls: with the default start id two groups share ids and therefore history rows.
* **C85 Gmres: restarts below the limit mean a converged, finite solution** (`C85_true_residual_refuted`, `C85_small_rhs_refuted`, `C85_full_space_refuted`, `C85_singular_refuted`). Proved in exact arithmetic for the preconditioned residual: it is bounded by the tolerance if fewer restarts than allowed are returned, never grows, and is minimal over the Krylov space; no breakdown for regular A and krylovDimension < n. Refuted: the tolerance bounds only the preconditioned residual (A = 1000 I returns the start vector 0); a rhs below 1e-5 gets an absolute tolerance; krylovDimension >= n (or n = 1) reads s out of bounds; a singular A returns 0 restarts with an x that is no number.
* **C86 Polynomial fitting minimises the squared error** (`C86_constrained_minimum_refuted`, `C86_singular_refuted`, `C86_lower_degree_refuted`, `C86_unbuilt_refuted`). Minimality, uniqueness and reproduction proved without boundary conditions; boundary conditions are met exactly when the system is regular; the fitter works with what was set last and refuses a boundary condition exactly when there are as many as the degree. False of the code: with boundary conditions the first rows of the normal equations are dropped, so the result is not the constrained minimum, and the system can be singular although the minimum is unique; lowering the degree after adding boundary conditions writes out of bounds; SolveTransformed of a new object answers 0.
* **C87 A point is reported within a shape exactly if it lies in the element** (`C87_pyramid_refuted`). Finding: Pyramid::IsWithinShape never bounds z from below, so (50, 50, -100) is within the pyramid for every tolerance. Proved for the six other shapes, with the distance bound e for what a tolerance e accepts; for the pyramid the same is proved for points above the base (distance bound 2 e).
* **C88 Integration points lie in the element and have positive weights** (`C88_outside_refuted`, `C88_negative_integral_refuted`). Proved for all Gauss and Lobatto rules (exact roots) on lines, quadrilaterals and hexahedra and for the prism. The tables are characterised exactly: triangle orders 11, 15, 16, 18, 20 and tetrahedron order 9 have points outside of the element; triangle orders 3, 7, 18, 20 and all tetrahedron orders except 1, 2, 5, 6 have negative weights.
* **C89 The visualizer draws every cell and stores every value at its place** (`C89_brick_refuted`, `C89_empty_refuted`, `C89_mismatch_refuted`). Proved for all supported cells and calls. Findings: AverageHandler has no geometry for hexahedra and pyramids (the constructor throws), it reads values[0] of a cell without integration points, and a mismatch between handler and number of integration points is only checked by an assert.
* **C90 The Voronoi geometries tile the element and cell i belongs to integration point i** (`C90_zero_refuted`). The tiling and the nearest point property hold for all n and d given increasing exact roots (FindLegendreRoots sorts them). Finding: zero equidistant cells divide 0 by 0 and return a geometry with one point that is not a number instead of an error. Triangles (boost Voronoi) are not modelled.
* **C91 GeometryConcrete delivers the packing that was asked for** (`C91_overshoot_refuted`, `C91_wall_clock_refuted`, `C91_specimen_freed_refuted`, `C91_cylinder_open_refuted`). Proved end to end for box specimens without status output: no overlap, inside, radii kept, and the distance or the volume reached unless the wall clock or an ignored exception ended the run. Hypotheses taken from the findings of C64, C65 and C66 (positive diameters, a particle in every size class, diameters below the specimen). Refuted: the particles are grown up to the first event after the final time, so they may become much larger than asked (a ball of diameter 2 ends with 10); when the wall clock ends the simulation the call returns normally although the distance is not reached; SetSpecimenBox with a refused box after a valid one leaves a dangling pointer that the destructor deletes again. Cylinder specimens: the same when the cylinder is cut into at least two sub-boxes across and the balls stay narrower than the cylinder. Refuted for cylinders with fewer than 10 particles in MaximizeParticleVolumeFraction: there is one sub-box, it gets no mantle, and a ball drifts out of the cylinder.
* **C93 The concrete input file means what it says** (`C93_documented_example_refuted`, `C93_directory_refuted`, `C93_comment_refuted`, `C93_truncated_refuted`, `C93_cut_file_refuted`). Proved: every file of the grammar (comments shorter than the skip buffer, directory below 58 characters) is read to the values written in it, and CheckInputs accepts exactly the consistent inputs; ReadVector ends when the stream is good up to the terminator. Refuted: the example file in the documentation of the class makes ReadVector loop for ever; the directory is cut after 57 characters, because the delimiter ';' is passed as the buffer size; a comment of 1001 or more characters makes the next number 0 or undefined; a truncated file leaves uninitialised values.  A file that stops behind any of its entries is described exactly: an exception only when the directory is missing, uninitialised values in front of a number or switch, an endless loop in front of a vector (C93_cut_file_refuted).
* **C94 Matrices survive the way through a file** (`C94_precision_refuted`, `C94_delimiter_refuted`, `C94_nonfinite_refuted`, `C94_shape_refuted`, `C94_ragged_refuted`). Proved: for non-empty matrices of finite entries and a delimiter that does not occur in numbers the shape is kept and every entry is the one written up to the printed digits. Refuted: the printed digits are too few for some doubles, a delimiter that occurs in numbers, infinite entries and NaN, matrices without rows or columns, and files with rows of different length.
* **C95 Log lines carry their prefix** (`C95_empty_refuted`, `C95_embedded_refuted`, `C95_reopen_refuted`). Proved for messages that are not empty and contain a newline only as last character of a string or a character message. Refuted: an empty string reads in front of the string (undefined); a newline inside a message, or at the end of a printed object, starts a line without prefix; opening the same log file again empties it.
* **C96 The gmsh script of a specimen describes exactly that specimen** (`C96_no_aggregates_refuted`, `C96_cylinder_orientation_refuted`, `C96_half_circles_refuted`, `C96_overlap_refuted`, `C96_interface_2d_refuted`). Proved for boxes with at least one aggregate and 0 <= h <= r, in 3D; for the cylinder its surface is closed but its faces are not compatibly oriented and its arcs are half circles (refuted); plain disks are half circles too; without aggregates the script reads unassigned lists; six digits can make touching aggregates overlap (C96_disjoint gives the sufficient distance); the 2D interface is put outside of the full radius so that interfaces can overlap although the aggregates have the distance h.
* **C97 Isogeometric elements reproduce the NURBS geometry** (`C97_right_end_refuted`, `C97_length_refuted`, `C97_area_refuted`). Interpolation, shape functions and (1D) derivatives with respect to the place are proved right for every curve and surface on the half-open element. Two violations, both proved: at the right end of an element that is followed by another one the functions of the next element are combined with this element's control points (the span search is done again), and the derivative shape functions are with respect to the knot parameter, so every integral over an element is off by the factor 2 / (knot interval). For surfaces in the plane and in space the Jacobian and integrals are proved with the same missing factors (the unit square as one element gets the area 4).

## 6. Axioms per theorem

What `Print Assumptions` lists, by letter: A = `ClassicalDedekindReals.sig_forall_dec`; B = `ClassicalDedekindReals.sig_not_dec`; C = `Classical_Prop.classic`; D = `FunctionalExtensionality.functional_extensionality_dep`.  All are axioms of the standard library (the real numbers, functional extensionality, classical logic).  `-`: closed under the global context.

| theorem | file | axioms |
|---|---|---|
| `C01_group_is_insertion_ordered_set` | PropBase | - |
| `C01_first_occurrences_spec` | PropBase | - |
| `C02_reachable_groups_ok` | PropBase | - |
| `C02_unite` | PropBase | - |
| `C02_unite_many` | PropBase | - |
| `C02_difference` | PropBase | - |
| `C02_intersection` | PropBase | - |
| `C02_symmetric_difference` | PropBase | - |
| `C03_unique_ids` | PropBase | - |
| `C04_value_vector` | PropBase | - |
| `C04_references_stay_valid` | PropBase | - |
| `C05_text_round_trip` | PropSerialize | A B C D |
| `C05_17_digits_identify_a_double` | PropSerialize | A B C D |
| `C05_binary_round_trip` | PropSerialize | - |
| `C06_text_separator` | PropSerialize | A B C D |
| `C05_text_round_trip` | PropSerialize | A B C D |
| `C06_binary_separator_write_refuted` | PropSerialize | - |
| `C06_binary_separator_read_refuted` | PropSerialize | - |
| `C07_dof_container_is_a_map` | PropDof | - |
| `C07_dof_info_merge` | PropDof | - |
| `C08_add` | PropDof | - |
| `C08_subtract` | PropDof | - |
| `C08_add_scaled` | PropDof | - |
| `C08_scale` | PropDof | - |
| `C08_set_zero` | PropDof | - |
| `C08_dof_types` | PropDof | - |
| `C09_vector_from_to` | PropDof | - |
| `C09_vector_to_from` | PropDof | - |
| `C09_to_eigen_defined` | PropDof | - |
| `C09_matrix_blocks` | PropDof | - |
| `C09_blocks_cover` | PropDof | - |
| `C09_matrix_product` | PropDof | - |
| `C10_numbering_is_bijection` | PropConstraints | - |
| `C10_throw_keeps_numbers` | PropConstraints | - |
| `C10_all_dofs` | PropConstraints | - |
| `C10_get` | PropMore4 | - |
| `C100_average` | PropTools | A D |
| `C101_density` | PropTools | A D |
| `C102_lines` | PropTools | A D |
| `C102_monotone_refuted` | PropTools | A D |
| `C103_dispatch` | PropTools | - |
| `C103_rejected_partial` | PropTools | - |
| `C103_mumps_message_refuted` | PropTools | - |
| `C103_solution` | PropTools | - |
| `C103_failure_refuted` | PropTools | A D |
| `C104_line_parameter` | PropPolygon | A D |
| `C104_segment_partial` | PropPolygon | A D |
| `C104_closest_partial` | PropPolygon | A D |
| `C104_distance` | PropPolygon | A B D |
| `C104_edge_index_partial` | PropPolygon | A B D |
| `C104_edge_index_refuted` | PropPolygon | A B D |
| `C104_segment_refuted` | PropPolygon | A D |
| `C104_no_intersection_refuted` | PropPolygon | A D |
| `C105_force_balance` | PropBody | A B C D |
| `C105_moment_balance` | PropBody | A B C D |
| `C105_reactions` | PropBody | A B C D |
| `C105_rigid_motion` | PropBody | A B C D |
| `C105_stiffness` | PropBody | A B C D |
| `C105_load` | PropBody | A B D |
| `C105_mass` | PropBody | A B D |
| `C105_patch_test` | PropPatch | A B C D |
| `C105_stiffness_any_geometry` | PropBody2 | A B C D |
| `C106_assembles` | PropSupport | A B C D |
| `C106_energy` | PropSupport | A B C D |
| `C106_supports` | PropSupport | A B C D |
| `C106_solve` | PropSupport | A D |
| `C106_trial` | PropSupport | A B C D |
| `C106_supported_body` | PropSupport | A B C D |
| `C106_patch_test` | PropPatch2 | A B C D |
| `C106_load_cases` | PropSupport2 | A B C D |
| `C107_roots` | PropLegendreRoots | A B C D |
| `C107_derivative_roots` | PropLegendreRoots | A B C D |
| `C107_no_polynomial` | PropLegendreRoots | - |
| `C107_stable` | PropLegendreRoots | A D |
| `C107_gauss_rule` | PropLegendreRoots | A B C D |
| `C107_lobatto_rule` | PropLegendreRoots | A B C D |
| `C107_lobatto_weights` | PropLegendreRoots | A B C D |
| `C108_constraints_follow` | PropQuasi | A B C D |
| `C108_constraints_kept_partial` | PropQuasi | A B C D |
| `C108_balance_partial` | PropQuasi | A B C D |
| `C108_linear` | PropQuasi | A B C D |
| `C108_path` | PropQuasi | A B C D |
| `C108_supported_body` | PropQuasi | A B C D |
| `C108_report_partial` | PropQuasi | A D |
| `C108_constant_value_refuted` | PropQuasi | A B C D |
| `C108_two_types_refuted` | PropQuasi | A B C D |
| `C108_report_refuted` | PropQuasi | A B C D |
| `C108_patch_test` | PropPatch3 | A B C D |
| `C109_corners` | PropVoronoiCell | A B C D |
| `C109_no_boundary` | PropVoronoiCell | - |
| `C109_nearest_partial` | PropVoronoiCell | A B C D |
| `C109_again` | PropVoronoiCell | A B C D |
| `C109_two_corners_refuted` | PropVoronoiCell | A B C D |
| `C109_after_failure_refuted` | PropVoronoiCell | A B C D |
| `C109_cut_partial` | PropMore3 | A B C D |
| `C109_inner_partial` | PropVoronoi2 | A B C D |
| `C109_hull_partial` | PropVoronoi3 | A B C D |
| `C109_right_triangle_refuted` | PropVoronoi3 | A B C D |
| `C11_constrained_last_refuted` | PropConstraints | A |
| `C110_polygons` | PropVisuCell | A B D |
| `C110_triangles` | PropVisuCell | A B D |
| `C110_no_triangles_refuted` | PropVisuCell | A B C D |
| `C111_points` | PropIp | A D |
| `C111_number` | PropIp | A D |
| `C111_rules` | PropIp | A D |
| `C111_refuses_partial` | PropIp | A D |
| `C111_unchecked_refuted` | PropIp | A D |
| `C111_orders_refuted` | PropIp | - |
| `C111_gauss_fits` | PropIp2 | A B C D |
| `C111_lobatto_fits` | PropIp2 | A B C D |
| `C111_tables_measure` | PropIp2 | A D |
| `C111_shape_determined` | PropIp2 | A D |
| `C112_fraction` | PropSim2 | A B D |
| `C112_energy_partial` | PropSim2 | A B D |
| `C112_energy_refuted` | PropSim2 | A B D |
| `C112_undisturbed_partial` | PropSim2 | A B D |
| `C113_entries_kept` | PropCrash | - |
| `C113_result_file_first` | PropCrash | - |
| `C113_results_kept` | PropCrash | - |
| `C113_first_and_last_moment` | PropCrash | - |
| `C113_readable_refuted` | PropCrash | A |
| `C113_empty_file_refuted` | PropCrash | A |
| `C113_every_moment` | PropCrash | - |
| `C114_missing_lines_rejected_partial` | PropCut | A B C D |
| `C114_cut_number_refuted` | PropCut | A B C D |
| `C114_binary_refuted` | PropCut | - |
| `C114_matrix_file_refuted` | PropCut | A B C D |
| `C114_gmsh_refuted` | PropCut | A B D |
| `C114_gmsh_partial` | PropCut2 | A B D |
| `C114_gmsh_binary_partial` | PropCut3 | A B D |
| `C114_gmsh_binary_refuted` | PropCut3 | A B D |
| `C114_gmsh_ascii_elements_refuted` | PropCut3 | A B D |
| `C114_gmsh_header_partial` | PropCut3 | A B D |
| `C114_gmsh_header_refuted` | PropCut3 | A B D |
| `C114_gmsh_names_partial` | PropCut4 | A B D |
| `C115_available` | PropCreate | A D |
| `C115_gauss_partial` | PropCreate | A B C D |
| `C115_lobatto_partial` | PropCreate | A B C D |
| `C115_lobatto_order2_refuted` | PropCreate | A B C D |
| `C115_triangle20_refuted` | PropCreate | A B C D |
| `C12_refines_log` | PropConstraints | - |
| `C12_no_conflict` | PropConstraints | - |
| `C12_accepted_sets_partial` | PropConstraints | - |
| `C12_self_reference_refuted` | PropConstraints | A |
| `C13_parametrisation` | PropConstraints | A D |
| `C13_with_built_numbering` | PropConstraints | A D |
| `C13_self_reference_refuted` | PropConstraints | A D |
| `C13_tiny_coefficient_refuted` | PropConstraints | A D |
| `C14_jk_numbering` | PropConstraints | - |
| `C14_free_dofs` | PropConstraints | - |
| `C14_throws` | PropConstraints | - |
| `C14_with_built_numbering` | PropConstraints2 | - |
| `C14_more_equations_refuted` | PropConstraints2 | A |
| `C15_rhs_rounded_partial` | PropConstraints | A B C D |
| `C15_float_exact_partial` | PropConstraints | A B C D |
| `C15_float_error_partial` | PropConstraints | A B C D |
| `C15_full_precision_refuted` | PropConstraints | A B C D |
| `C15_dense_rhs` | PropMore4 | A |
| `C16_direction_equation_partial` | PropConstraints | A B D |
| `C16_axis_direction_partial` | PropConstraints | A B D |
| `C16_direction_refuted` | PropConstraints | A B D |
| `C17_vector_schedule_independent` | PropAssembler | - |
| `C17_matrix_schedule_independent` | PropAssembler | - |
| `C17_throws_without_numbering` | PropAssembler | - |
| `C17_duplicate_types_refuted` | PropAssembler | - |
| `C17_throws_without_dependent_number` | PropAssembler3 | - |
| `C17_matrix_throws_without_numbering` | PropAssembler3 | - |
| `C17_cell_exception_refuted` | PropAssembler3 | - |
| `C18_lumped_total_partial` | PropAssembler | A D |
| `C18_scalar_mass_preserved_partial` | PropAssembler | A D |
| `C18_nonnegative` | PropAssembler | A D |
| `C18_every_schedule` | PropAssembler | A D |
| `C18_vector_mass_refuted` | PropAssembler | A D |
| `C18_throws_without_numbering` | PropAssembler4 | A D |
| `C18_cell_exception_refuted` | PropAssembler4 | A D |
| `C19_vector_assembler` | PropAssembler | - |
| `C19_matrix_assembler_partial` | PropAssembler | - |
| `C19_reset_before_finish_refuted` | PropAssembler | - |
| `C19_resize_keeps_contributions` | PropAssembler2 | - |
| `C19_resize_smaller_refuted` | PropAssembler2 | - |
| `C19_missing_block_rejected` | PropAssembler3 | - |
| `C19_missing_vector_rejected` | PropAssembler3 | - |
| `C19_matrix_assembler_histories` | PropAssembler5 | - |
| `C19_resize_one_type_refuted` | PropAssembler5 | - |
| `C19_unsized_type_refuted` | PropAssembler5 | - |
| `C20_integrate_scalar` | PropCell | A B D |
| `C20_integrate_components` | PropCell | A B D |
| `C20_visits_each_point_once` | PropCell | A B D |
| `C20_eval_apply` | PropCell | A B D |
| `C20_point_data` | PropCell | A B D |
| `C20_constructor_checks_shape` | PropCell | - |
| `C21_cache_transparent_partial` | PropCell | - |
| `C21_second_operator_refuted` | PropCell | - |
| `C22_square` | PropCell | A B D |
| `C22_lines_and_surfaces` | PropCell | A B D |
| `C22_other_dimensions_throw` | PropCell | A B D |
| `C22_chain_rule` | PropCell | A B D |
| `C23_strain` | PropCell | A B D |
| `C23_strain_other_dimensions` | PropCell | A |
| `C23_gradient` | PropCell | A B D |
| `C23_interpolation` | PropCell | A D |
| `C23_layout` | PropCell | A |
| `C24_solve_partial` | PropSolve | A D |
| `C24_dof_order_refuted` | PropSolve | A D |
| `C24_dof_subset_refuted` | PropSolve | A D |
| `C24_missing_dof_rejected` | PropSolve2 | A D |
| `C25_trial_state_partial` | PropSolve | A B C D |
| `C25_trial_state_exact_partial` | PropSolve | A B C D |
| `C25_exact_increment_refuted` | PropSolve | A B C D |
| `C25_missing_dof_rejected` | PropSolve2 | A B C D |
| `C26_adaptive_partial` | PropSolver | A D |
| `C26_bound_irrelevant` | PropSolver | A D |
| `C26_exact_end_refuted` | PropSolver | A D |
| `C27_newton_postcondition` | PropSolver | A D |
| `C27_line_search_partial` | PropSolver | A D |
| `C27_sufficient_decrease_refuted` | PropSolver | A D |
| `C28_success` | PropSolver | A D |
| `C28_one_iteration` | PropSolver | A D |
| `C28_failure_partial` | PropSolver | A D |
| `C28_failure_keeps_solution_partial` | PropSolver | A D |
| `C28_transaction_history_partial` | PropSolver | A D |
| `C28_repeat_refuted` | PropSolver | A D |
| `C28_history_rollback_refuted` | PropSolver | A D |
| `C29_merge_partial` | PropMerger | A D |
| `C29_extract_partial` | PropMerger | A D |
| `C29_merge_extract_partial` | PropMerger | A D |
| `C29_extract_merge_partial` | PropMerger | A D |
| `C29_added_nodes_refuted` | PropMerger | A D |
| `C30_construct_partial` | PropFracture | A D |
| `C30_full_curve` | PropFracture | A B C D |
| `C30_full_displacement` | PropFracture | A B C D |
| `C30_crossing_partial` | PropFracture | A D |
| `C30_threshold_partial` | PropFracture | A B C D |
| `C30_threshold_refuted` | PropFracture | A B C D |
| `C30_plateau_refuted` | PropFracture | A D |
| `C31_interleave3` | PropMorton | - |
| `C31_interleave2` | PropMorton | - |
| `C31_decode_encode3` | PropMorton | - |
| `C31_encode_decode3` | PropMorton | - |
| `C31_decode_encode2` | PropMorton | - |
| `C31_encode_decode2` | PropMorton | - |
| `C31_injective3` | PropMorton | - |
| `C31_neighbor_partial` | PropMorton | - |
| `C31_neg_neighbor_partial` | PropMorton | - |
| `C31_wrap_refuted` | PropMorton | - |
| `C32_construct` | PropTable | - |
| `C32_linear` | PropTable | A D |
| `C32_derivative` | PropTable | A B C D |
| `C33_legendre_partial` | PropLegendre | A B C D |
| `C33_returned_values` | PropLegendre | A B C D |
| `C33_overflow_refuted` | PropLegendre | A D |
| `C34_number_of_points` | PropTensor | A D |
| `C34_products` | PropTensor | A D |
| `C34_exactness` | PropTensor | A D |
| `C34_gauss` | PropTensor | A B C D |
| `C34_lobatto` | PropTensor | A B C D |
| `C35_triangle` | PropSimplex2 | A B C D |
| `C35_tetrahedron` | PropSimplex2 | A B C D |
| `C35_prism` | PropSimplex | A B C D |
| `C35_volume_partial` | PropSimplex | A D |
| `C35_rejected` | PropSimplex | A D |
| `C35_pyramid_rejected` | PropSimplex | - |
| `C35_order20_refuted` | PropSimplex | A B C D |
| `C35_triangle_partial` | PropSimplex | A B C D |
| `C35_tetrahedron_partial` | PropSimplex | A B C D |
| `gm_exact` | GrundmannProofs | A D |
| `C36_partition_of_unity` | PropInterpolation | A D |
| `C36_linear_fields` | PropInterpolation | A D |
| `C36_fourth_order_partial` | PropInterpolation | A D |
| `C36_fourth_order_refuted` | PropInterpolation | A D |
| `C37_nodal_basis` | PropInterpolation | A D |
| `C37_fourth_order_partial` | PropInterpolation | A D |
| `C37_fourth_order_refuted` | PropInterpolation | A D |
| `C39_nodal_basis` | PropLobatto | A D |
| `C39_quad` | PropLobatto | A B C D |
| `C39_brick` | PropLobatto | A B C D |
| `C37_dimensions` | PropMore | A D |
| `C38_gradient` | PropInterpolation | A B C D |
| `C38_pyramid` | PropInterpolation | A B C D |
| `C38_fourth_order_partial` | PropInterpolation | A B C D |
| `C38_fourth_order_refuted` | PropInterpolation | A B C D |
| `C39_gradient` | PropLobatto | A B C D |
| `C39_nodes` | PropLobatto | A |
| `C39_lagrange` | PropLobatto | A B C D |
| `C39_partition_of_unity` | PropLobatto | A D |
| `C39_nodal_basis` | PropLobatto | A D |
| `C39_reproduction` | PropLobatto | A D |
| `C39_gradient` | PropLobatto | A B C D |
| `C39_quad` | PropLobatto | A B C D |
| `C39_brick` | PropLobatto | A B C D |
| `C39_gradient_at_node_refuted` | PropLobatto | A D |
| `C40_hooke_3d` | PropElastic | A D |
| `C40_tangent` | PropElastic | A B C D |
| `C40_positive_definite` | PropElastic | A D |
| `C40_plane_strain` | PropElastic | A D |
| `C40_plane_stress` | PropElastic | A D |
| `C40_uniaxial` | PropElastic | A D |
| `C40_set_plane_state` | PropElastic | A D |
| `C41_exponential` | PropElastic | A B C D |
| `C41_no_softening` | PropElastic | A B C D |
| `C41_linear` | PropElastic | A B C D |
| `C41_softening_parameters` | PropElastic | A B C D |
| `C41_peak_stress` | PropElastic | A B C D |
| `C41_fracture_energy` | PropElastic | A B C D |
| `C41_linear_peak_stress_refuted` | PropElastic | A D |
| `C41_default_concrete` | PropMore5 | A B C D |
| `C42_history` | PropElastic | A B D |
| `C42_damage_irreversible` | PropElastic | A B D |
| `C42_evaluation_is_pure` | PropElastic | A B D |
| `C42_unallocated_refuted` | PropElastic | A B D |
| `C42_resize` | PropMore2 | A B D |
| `C43_undamaged` | PropElastic | A D |
| `C43_full` | PropElastic | A D |
| `C43_dstrain` | PropElastic | A B C D |
| `C43_domega` | PropElastic | A B C D |
| `C43_unilateral_3d` | PropElastic | A D |
| `C43_volumetric_compression` | PropElastic | A D |
| `C43_default_plane_state_refuted` | PropElastic | A D |
| `C44_uniaxial` | PropElastic | A B D |
| `C44_nonnegative_homogeneous` | PropElastic | A B D |
| `C44_gradient` | PropElastic | A B C D |
| `C44_frame_invariance` | PropElastic | A B D |
| `C44_softening_plane_stress_refuted` | PropElastic | A B D |
| `C45_characteristic_polynomial` | PropElastic | A D |
| `C45_deviator` | PropElastic | A D |
| `C45_frame_invariance` | PropElastic | A D |
| `C46_find_span` | PropNurbs | A D |
| `C46_find_span_domain` | PropNurbs | A D |
| `C47_basis_functions` | PropNurbs | A B C D |
| `C47_rational` | PropNurbs | A B C D |
| `C48_node_at_coordinate` | PropMesh | A B D |
| `C48_dof_node_at_coordinate` | PropMesh | A B D |
| `C48_nodes_at_axis` | PropMesh | A D |
| `C48_dof_nodes_at_axis` | PropMesh | A D |
| `C48_nodes_total` | PropMesh | - |
| `C48_dof_nodes_total` | PropMore3 | - |
| `C49_lines` | PropMesh | A B D |
| `C49_quads` | PropMesh | A B D |
| `C49_triangles` | PropMesh | A B D |
| `C49_bricks` | PropMesh | A B D |
| `C49_tiling` | PropMesh | A D |
| `C49_transform` | PropMesh | - |
| `C50_shared_nodes_partial` | PropDofMesh | A B D |
| `C50_flat_mesh_refuted` | PropDofMesh | A D |
| `C50_outside_refuted` | PropDofMesh | A D |
| `C50_curved_lines_refuted` | PropDofMesh | A B D |
| `C50_repeated_element_rejected` | PropDofMesh2 | A B D |
| `C51_reads_file_partial` | PropGmsh | A B D |
| `C51_named_groups` | PropGmsh | A B D |
| `C51_dimension` | PropGmsh | A D |
| `C51_binary_block_refuted` | PropGmsh | A B D |
| `C51_binary_memory_refuted` | PropGmsh | A B D |
| `C51_pyramid_refuted` | PropGmsh | A B D |
| `C51_line_3d_refuted` | PropGmsh | A B D |
| `C51_shared_number_refuted` | PropGmsh | A B D |
| `C51_name_with_space_refuted` | PropGmsh | - |
| `C51_interpolations` | PropMore | A B C D |
| `C51_binary_block_elements` | PropGmsh | A D |
| `C51_name_spelling` | PropGmsh2 | - |
| `C51_name_of_group` | PropGmsh2 | - |
| `upper_name` | PropGmsh2 | - |
| `C52_ids` | PropGrid | A |
| `C52_cells_reference_points_partial` | PropGrid | A |
| `C52_negative_id_refuted` | PropGrid | A |
| `C52_point_data` | PropGrid | A |
| `C52_cell_data` | PropGrid | A |
| `C52_undefined_name` | PropGrid | A |
| `C53_offsets_partial` | PropGrid | - |
| `C53_large_grid_refuted` | PropGrid | - |
| `C53_cells` | PropGrid | - |
| `C53_read_partial` | PropGrid | - |
| `C54_pvd_complete` | PropPvd | - |
| `C54_one_entry_per_plot` | PropPvd | - |
| `C54_readable` | PropPvd | - |
| `C55_order` | PropGrid | - |
| `C55_no_loss` | PropGrid | - |
| `C55_others_unchanged` | PropGrid | - |
| `C55_injective` | PropGrid | - |
| `C55_export` | PropGrid | - |
| `C56_prediction_partial` | PropCollision | A B D |
| `C56_symmetric` | PropCollision | A B D |
| `C56_motion` | PropCollision | A D |
| `C56_near_miss_refuted` | PropCollision | A B D |
| `C57_response` | PropCollision | A B D |
| `C58_plane_prediction_partial` | PropCollision | A B D |
| `C58_plane_response` | PropCollision | A B D |
| `C58_cylinder_prediction` | PropCollision | A B D |
| `C58_cylinder_response` | PropCollision | A B D |
| `C58_oblique_wall_refuted` | PropCollision | A B D |
| `C58_cylinder_axis_refuted` | PropCollision2 | A B D |
| `C59_strict_order` | PropEvents | A D |
| `C59_equality` | PropEvents | A D |
| `C59_swapped_partners` | PropEvents | A D |
| `C60_sphere_wall_partial` | PropEvents | A D |
| `C60_sphere_sphere_refuted` | PropEvents | A D |
| `C60_stale_memory_partial` | PropEvents | A D |
| `C60_history_partial` | PropEvents2 | A D |
| `C61_no_overlap_partial` | PropSim | A B D |
| `C61_final_packing_partial` | PropSim | A B D |
| `C61_cylinder_partial` | PropCylSim | A B D |
| `C61_cylinder_final_partial` | PropCylSim | A B D |
| `C62_box_numbers` | PropSubBox | A |
| `C62_tiling` | PropSubBox | A B D |
| `C62_wall_kinds` | PropSubBox | A B D |
| `C62_registration_partial` | PropSubBox | A D |
| `C62_registration_refuted` | PropSubBox | A D |
| `C63_enclosed_partial` | PropSubBox | A D |
| `C63_other_walls` | PropSubBox | A B D |
| `C63_one_division_refuted` | PropSubBox | A B D |
| `C63_unequal_divisions_refuted` | PropSubBox | A D |
| `C64_take_phase_partial` | PropTake | A B C D |
| `C64_terminates_partial` | PropTake | A B C D |
| `C64_zero_diameter_refuted` | PropTake | A B C D |
| `C64_boundary_refuted` | PropTake | A B C D |
| `C64_curve_check` | PropMore2 | A B C D |
| `C65_all_counted_partial` | PropTake | A D |
| `C65_empty_class_refuted` | PropTake | A D |
| `C66_placed_apart_partial` | PropTake | A B D |
| `C66_large_distance_refuted` | PropTake | A B D |
| `C66_boundary_spheres_refuted` | PropTake | A B C D |
| `C66_dogbone` | PropMore3 | A B D |
| `C67_never_below_partial` | PropTake | A B C D |
| `C67_few_particles_partial` | PropTake | A B C D |
| `C67_same_box_partial` | PropTake | A B C D |
| `C67_ten_particles_refuted` | PropTake | A B C D |
| `C68_constructor_partial` | PropSubBox | A D |
| `C68_constructor_refuted` | PropSubBox | A D |
| `C68_volume_partial` | PropSubBox | A B D |
| `C68_small_volume_refuted` | PropSubBox | A B D |
| `C69_circumcircle` | PropDelaunay | A B D |
| `C70_polygon_partial` | PropDelaunay | A B C D |
| `C70_star_partial` | PropDelaunay | A D |
| `C70_constructor` | PropDelaunay | A B C D |
| `C70_convex_partial` | PropDelaunay | A D |
| `C70_ray_through_corner_refuted` | PropDelaunay | A D |
| `C71_comparison` | PropMemo | A D |
| `C71_sequential` | PropMemo | A D |
| `C71_one_call_per_coordinate` | PropMemo | A D |
| `C71_threads_partial` | PropMemo | A D |
| `C71_warm_cache_partial` | PropMemo | A D |
| `C71_search_unprotected_refuted` | PropMemo | A D |
| `C71_nan_refuted` | PropMemo | A D |
| `C71_four_coordinates_refuted` | PropMemo | A D |
| `C71_exceptions_partial` | PropMemo2 | A D |
| `C71_exceptions_refuted` | PropMemo2 | A D |
| `C72_natural_spline` | PropTable | A B C D |
| `C72_derivative_refuted` | PropTable | A B C D |
| `C73_gauss_exact` | PropLegendre | A B C D |
| `C73_C74_rejected` | PropLegendre | A D |
| `C107_gauss_rule` | PropLegendreRoots | A B C D |
| `C74_lobatto_exact` | PropLegendre | A B C D |
| `C73_C74_rejected` | PropLegendre | A D |
| `C107_lobatto_rule` | PropLegendreRoots | A B C D |
| `C75_tangent` | PropElastic | A B C D |
| `C76_derivatives` | PropNurbs | A B C D |
| `C76_rational_derivatives` | PropNurbs | A B C D |
| `C76_surface` | PropNurbs | A B D |
| `C76_surface_second_direction_0` | PropNurbs | A B D |
| `C76_surface_second_refuted` | PropNurbs | A B C D |
| `C77_result_files_partial` | PropPvd | - |
| `C77_overlapping_names_refuted` | PropPvd | A |
| `C77_interrupted_plot_refuted` | PropPvd | A |
| `C78_event_found_partial` | PropSim | A B D |
| `C78_resting_spheres_refuted` | PropSim | A B D |
| `C78_early_barrier_refuted` | PropSim | A B D |
| `C79_every_triangulation_reads_freed_memory_refuted` | PropDelaunay | A D |
| `C80_linear_elastic` | PropIntegrand | A B C D |
| `C80_local_damage` | PropIntegrand | A B C D |
| `C80_gradient_damage` | PropIntegrand | A B C D |
| `C80_interaction` | PropIntegrand | A B C D |
| `C80_virtual_work` | PropIntegrand | A D |
| `C81_history` | PropIntegrand | A B D |
| `C81_irreversible` | PropIntegrand | A B D |
| `C81_evaluation_is_pure` | PropIntegrand | A B D |
| `C81_damage_used` | PropIntegrand | A B D |
| `C81_unallocated_refuted` | PropIntegrand | A B D |
| `C81_plane_stress_refuted` | PropIntegrand | A B D |
| `C81_fresh_history` | PropMore2 | A B D |
| `C82_load` | PropIntegrand | A D |
| `C82_mass` | PropIntegrand | A D |
| `C83_renumber_keeps_values` | PropTdp | A D |
| `C83_gradient` | PropTdp | A D |
| `C83_hessian` | PropTdp2 | A D |
| `C83_update` | PropTdp2 | A B D |
| `C83_history_once` | PropTdp2 | A B D |
| `C83_bind` | PropTdp2 | A D |
| `C83_other_types_refuted` | PropTdp | A D |
| `C84_cell_ids` | PropTdp | - |
| `C84_default_ids_refuted` | PropTdp | - |
| `C85_residual` | PropGmres | A B D |
| `C85_optimal` | PropGmres | A B D |
| `C85_nonsingular` | PropGmres | A B D |
| `C85_default_preconditioner` | PropGmres | A D |
| `C85_true_residual_refuted` | PropGmres | A B D |
| `C85_small_rhs_refuted` | PropGmres | A B D |
| `C85_full_space_refuted` | PropGmres | A B D |
| `C85_singular_refuted` | PropGmres | A B D |
| `C86_least_squares` | PropFit | A D |
| `C86_boundary_conditions` | PropFit | A D |
| `C86_history` | PropFit | A |
| `C86_constrained_minimum_refuted` | PropFit | A D |
| `C86_singular_refuted` | PropFit | A D |
| `C86_lower_degree_refuted` | PropFit | - |
| `C86_unbuilt_refuted` | PropFit | A |
| `C87_accepts` | PropShape | A D |
| `C87_rejects_partial` | PropShape | A D |
| `C87_membership_partial` | PropShape | A D |
| `C87_default` | PropShape | A D |
| `C87_tolerance` | PropShape | A D |
| `C87_pyramid_partial` | PropShape | A D |
| `C87_pyramid_refuted` | PropShape | A D |
| `C88_gauss` | PropPoints | A B C D |
| `C88_gauss_interior` | PropPoints | A B C D |
| `C88_lobatto` | PropPoints | A B C D |
| `C88_triangle_partial` | PropPoints | A D |
| `C88_tetrahedron_partial` | PropPoints | A D |
| `C88_prism` | PropPoints | A D |
| `C88_outside_refuted` | PropPoints | A D |
| `C88_negative_integral_refuted` | PropPoints | A D |
| `C89_geometry` | PropVisu | A |
| `C89_data` | PropVisu | A D |
| `C89_separate` | PropVisu | A |
| `C89_brick_refuted` | PropVisu | A |
| `C89_empty_refuted` | PropVisu | A D |
| `C89_mismatch_refuted` | PropVisu | A D |
| `C90_gauss` | PropVoronoi | A B C D |
| `C90_lobatto` | PropVoronoi | A B C D |
| `C90_equidistant` | PropVoronoi | A D |
| `C90_zero_refuted` | PropVoronoi | - |
| `C91_distance_particles_partial` | PropGeometry | A B C D |
| `C91_fraction_particles_partial` | PropGeometry | A B C D |
| `C91_overshoot_refuted` | PropGeometry | A B C D |
| `C91_wall_clock_refuted` | PropGeometry | A B C D |
| `C91_specimen_freed_refuted` | PropGeometry | A B C D |
| `C91_specimen_partial` | PropGeometry | A D |
| `C91_growth_rates` | PropGeometry | A |
| `C91_named_curves` | PropGeometry | A D |
| `C91_cylinder_specimen` | PropGeometry | A D |
| `C91_cylinder_distance_partial` | PropGeometryCyl | A B C D |
| `C91_cylinder_fraction_partial` | PropGeometryCyl | A B C D |
| `C91_cylinder_open_refuted` | PropGeometryOpen | A B C D |
| `C92_slice` | PropGeometry | A B D |
| `C92_export` | PropGeometry | A B D |
| `C93_reads_partial` | PropInput | - |
| `C93_checked` | PropInput | - |
| `C93_vector_ends` | PropInput | - |
| `C93_documented_example_refuted` | PropInput | - |
| `C93_directory_refuted` | PropInput | - |
| `C93_comment_refuted` | PropInput | - |
| `C93_truncated_refuted` | PropInput | - |
| `C93_cut_file_refuted` | PropInput2 | - |
| `entries_file` | PropInput2 | - |
| `C94_round_trip_partial` | PropEigenIO | A B C D |
| `C94_precision_refuted` | PropEigenIO | A B C D |
| `C94_delimiter_refuted` | PropEigenIO | A B C D |
| `C94_nonfinite_refuted` | PropEigenIO | A B C D |
| `C94_shape_refuted` | PropEigenIO | A B C D |
| `C94_ragged_refuted` | PropEigenIO | A B C D |
| `C94_nonfinite_text` | PropEigenIO | A B C D |
| `C95_prefix_partial` | PropLogger | - |
| `C95_total_partial` | PropLogger | - |
| `C95_empty_refuted` | PropLogger | - |
| `C95_embedded_refuted` | PropLogger | - |
| `C95_reopen_refuted` | PropLogger | - |
| `C96_box_partial` | PropGeo | A B C D |
| `C96_cylinder_partial` | PropGeo | A B C D |
| `C96_disks_partial` | PropGeo | A B C D |
| `C96_groups` | PropGeo | A B C D |
| `C96_digits` | PropGeo | A B C D |
| `C96_disjoint` | PropGeo | A B C D |
| `C96_no_aggregates_refuted` | PropGeo | A B C D |
| `C96_cylinder_orientation_refuted` | PropGeo | A B C D |
| `C96_half_circles_refuted` | PropGeo | A B C D |
| `C96_overlap_refuted` | PropGeo | A B C D |
| `C96_interface_2d_refuted` | PropGeo | A B C D |
| `C96_groups_2d` | PropMore2 | A B C D |
| `C97_interpolation_partial` | PropIga | A B C D |
| `C97_surface_partial` | PropIga | A B C D |
| `C97_shape_partial` | PropIga | A B C D |
| `C97_gradient` | PropIga | A B C D |
| `C97_integral_factor` | PropIga | A B C D |
| `C97_right_end` | PropIga | A B C D |
| `C97_right_end_refuted` | PropIga | A B C D |
| `C97_length_refuted` | PropIga | A B C D |
| `C97_derivative_factor` | PropIga | A B C D |
| `C97_surface_derivatives` | PropIga | A B C D |
| `C97_surface_jacobian` | PropIga2 | A B C D |
| `C97_surface_integral_factor` | PropIga2 | A B C D |
| `C97_area_refuted` | PropIga2 | A B C D |
| `C98_available` | PropCompanion | A D |
| `C98_created` | PropCompanion | A D |
| `C98_complete` | PropCompanion | A D |
| `C98_facet` | PropCompanion | A D |
| `C98_conforming` | PropCompanion | A D |
| `C98_lobatto` | PropCompanion | A D |
| `C98_lobatto_basis` | PropCompanion | A B C D |
| `C99_patch` | PropEquilibrium | A B C D |
| `C99_force_balance` | PropEquilibrium | A B C D |
| `C99_moment_balance` | PropEquilibrium | A B C D |
| `C99_rigid_motion` | PropEquilibrium | A B C D |
| `C99_stiffness` | PropEquilibrium | A B C D |
| `C99_no_spurious_modes` | PropEquilibrium | A B C D |
