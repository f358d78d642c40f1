-Q theories Verif

theories/AdaptiveModel.v
theories/AdaptiveProofs.v
theories/AdaptiveSpec.v
theories/Algebra.v
theories/AssemblerModel.v
theories/AssemblerProofs.v
theories/AssemblerProofs2.v
theories/AssemblerProofs3.v
theories/AssemblerSpec.v
theories/BaseModel.v
theories/BaseProofs.v
theories/BaseSpec.v
theories/BodyModel.v
theories/BodyProofs.v
theories/BodyProofs2.v
theories/BodySpec.v
theories/CellModel.v
theories/CellProofs.v
theories/CellProofs2.v
theories/CellSpec.v
theories/CollisionModel.v
theories/CollisionProofs.v
theories/CollisionProofs2.v
theories/CollisionSpec.v
theories/CompanionModel.v
theories/CompanionProofs.v
theories/CompanionProofs2.v
theories/CompanionSpec.v
theories/ConstraintModel.v
theories/ConstraintProofs.v
theories/ConstraintProofs2.v
theories/ConstraintProofs3.v
theories/ConstraintSpec.v
theories/CrashModel.v
theories/CylProofs1.v
theories/CylProofs2.v
theories/CylProofs3.v
theories/CylProofs4.v
theories/CylProofs5.v
theories/DamageProofs.v
theories/DelaunayModel.v
theories/DelaunayProofs.v
theories/DelaunayProofs2.v
theories/DelaunayProofs3.v
theories/DelaunaySpec.v
theories/DofMeshModel.v
theories/DofMeshProofs.v
theories/DofMeshProofs2.v
theories/DofMeshProofs3.v
theories/DofMeshProofs4.v
theories/DofModel.v
theories/DofProofs.v
theories/DofSpec.v
theories/EigenIOModel.v
theories/EigenIOProofs.v
theories/ElasticModel.v
theories/ElasticProofs.v
theories/ElasticSpec.v
theories/EquilibriumModel.v
theories/EquilibriumProofs.v
theories/EquilibriumProofs2.v
theories/EquilibriumProofs3.v
theories/EquilibriumSpec.v
theories/EventModel.v
theories/EventProofs.v
theories/EventSpec.v
theories/FitModel.v
theories/FitProofs.v
theories/FitSpec.v
theories/FractureModel.v
theories/FractureProofs.v
theories/FractureSpec.v
theories/GeoModel.v
theories/GeoProofs.v
theories/GeoProofs2.v
theories/GeoProofs3.v
theories/GeoSpec.v
theories/GeometryCyl.v
theories/GeometryModel.v
theories/GeometryProofs.v
theories/GmresModel.v
theories/GmresProofs.v
theories/GmshModel.v
theories/GmshProofs.v
theories/GmshProofs2.v
theories/GmshSpec.v
theories/GridModel.v
theories/GridProofs.v
theories/GridSpec.v
theories/GroupModel.v
theories/GroupProofs.v
theories/GroupSpec.v
theories/GrundmannProofs.v
theories/IgaModel.v
theories/IgaProofs.v
theories/IgaProofs2.v
theories/IgaProofs3.v
theories/IgaProofs4.v
theories/IgaSpec.v
theories/IgaSurfaceModel.v
theories/InputModel.v
theories/InputProofs.v
theories/InputSpec.v
theories/IntegrandModel.v
theories/IntegrandProofs.v
theories/IntegrationCompanionModel.v
theories/InterpolationModel.v
theories/InterpolationProofs.v
theories/InterpolationProofs2.v
theories/InterpolationSpec.v
theories/IpModel.v
theories/LegendreDerivZeroProofs.v
theories/LegendreModel.v
theories/LegendreProofs.v
theories/LegendreRootsModel.v
theories/LegendreRootsProofs.v
theories/LegendreRootsProofs2.v
theories/LegendreRootsProofs3.v
theories/LegendreRootsSpec.v
theories/LegendreSpec.v
theories/LegendreZeroProofs.v
theories/LobattoModel.v
theories/LobattoProofs.v
theories/LobattoSpec.v
theories/LoggerModel.v
theories/MemoModel.v
theories/MemoModel2.v
theories/MergerModel.v
theories/MergerProofs.v
theories/MergerSpec.v
theories/MeshModel.v
theories/MeshProofs.v
theories/MeshSpec.v
theories/MortonModel.v
theories/MortonProofs.v
theories/MortonSpec.v
theories/NewtonModel.v
theories/NewtonProofs.v
theories/NewtonSpec.v
theories/NewtonZoneProofs.v
theories/NormProofs.v
theories/NurbsModel.v
theories/NurbsProofs.v
theories/NurbsProofs2.v
theories/NurbsProofs3.v
theories/NurbsProofs4.v
theories/NurbsSpec.v
theories/Outcome.v
theories/PatchProofs.v
theories/PhaseProofs.v
theories/PointsProofs.v
theories/PolyProofs.v
theories/PolygonModel.v
theories/PolygonSpec.v
theories/PropAssembler.v
theories/PropAssembler2.v
theories/PropAssembler3.v
theories/PropAssembler4.v
theories/PropAssembler5.v
theories/PropBase.v
theories/PropBody.v
theories/PropBody2.v
theories/PropCell.v
theories/PropCollision.v
theories/PropCollision2.v
theories/PropCompanion.v
theories/PropConstraints.v
theories/PropConstraints2.v
theories/PropCrash.v
theories/PropCreate.v
theories/PropCut.v
theories/PropCut2.v
theories/PropCut3.v
theories/PropCut4.v
theories/PropCylSim.v
theories/PropDelaunay.v
theories/PropDof.v
theories/PropDofMesh.v
theories/PropDofMesh2.v
theories/PropEigenIO.v
theories/PropElastic.v
theories/PropEquilibrium.v
theories/PropEvents.v
theories/PropEvents2.v
theories/PropFit.v
theories/PropFracture.v
theories/PropGeo.v
theories/PropGeometry.v
theories/PropGeometryCyl.v
theories/PropGeometryOpen.v
theories/PropGmres.v
theories/PropGmsh.v
theories/PropGmsh2.v
theories/PropGrid.v
theories/PropIga.v
theories/PropIga2.v
theories/PropInput.v
theories/PropInput2.v
theories/PropIntegrand.v
theories/PropInterpolation.v
theories/PropIp.v
theories/PropIp2.v
theories/PropLegendre.v
theories/PropLegendreRoots.v
theories/PropLobatto.v
theories/PropLogger.v
theories/PropMemo.v
theories/PropMemo2.v
theories/PropMerger.v
theories/PropMesh.v
theories/PropMore.v
theories/PropMore2.v
theories/PropMore3.v
theories/PropMore4.v
theories/PropMore5.v
theories/PropMorton.v
theories/PropNurbs.v
theories/PropPatch.v
theories/PropPatch2.v
theories/PropPatch3.v
theories/PropPoints.v
theories/PropPolygon.v
theories/PropPvd.v
theories/PropQuasi.v
theories/PropSerialize.v
theories/PropShape.v
theories/PropSim.v
theories/PropSim2.v
theories/PropSimplex.v
theories/PropSimplex2.v
theories/PropSolve.v
theories/PropSolve2.v
theories/PropSolver.v
theories/PropSubBox.v
theories/PropSupport.v
theories/PropSupport2.v
theories/PropTable.v
theories/PropTake.v
theories/PropTdp.v
theories/PropTdp2.v
theories/PropTensor.v
theories/PropTools.v
theories/PropVisu.v
theories/PropVisuCell.v
theories/PropVoronoi.v
theories/PropVoronoi2.v
theories/PropVoronoi3.v
theories/PropVoronoiCell.v
theories/PvdModel.v
theories/PvdProofs.v
theories/PvdRead.v
theories/PvdSpec.v
theories/QuadratureProofs.v
theories/QuasiModel.v
theories/QuasiProofs.v
theories/QuasiProofs2.v
theories/QuasiProofs3.v
theories/QuasiSpec.v
theories/RSum.v
theories/SerializeModel.v
theories/SerializeProofs.v
theories/ShapeModel.v
theories/SimModel.v
theories/SimPrintModel.v
theories/SimProofs.v
theories/SimProofs2.v
theories/SimProofs3.v
theories/SimProofs4.v
theories/SimProofs5.v
theories/SimProofs6.v
theories/SimSpec.v
theories/SimplexModel.v
theories/SimplexProofs.v
theories/SimplexProofs2.v
theories/SimplexSpec.v
theories/SimplexTables.v
theories/SolveModel.v
theories/SolveProofs.v
theories/SolveSpec.v
theories/SplineProofs.v
theories/StarProofs.v
theories/StarProofs2.v
theories/StarProofs3.v
theories/SubBoxModel.v
theories/SubBoxProofs.v
theories/SubBoxProofs2.v
theories/SubBoxSpec.v
theories/SupportProofs.v
theories/SupportProofs2.v
theories/SupportProofs3.v
theories/SupportSpec.v
theories/TableModel.v
theories/TableProofs.v
theories/TableSpec.v
theories/TakeModel.v
theories/TakeProofs.v
theories/TakeProofs2.v
theories/TakeProofs3.v
theories/TakeSpec.v
theories/TdpModel.v
theories/TdpProofs.v
theories/TdpProofs2.v
theories/TdpSpec.v
theories/TensorModel.v
theories/TensorProofs.v
theories/TensorSpec.v
theories/TextModel.v
theories/ToolsModel.v
theories/ToolsSpec.v
theories/UnitMeshProofs.v
theories/Vec3.v
theories/VisuModel.v
theories/VisuProofs.v
theories/VisuSpec.v
theories/VoronoiCellModel.v
theories/VoronoiCellProofs.v
theories/VoronoiCellSpec.v
theories/VoronoiCover.v
theories/VoronoiHull.v
theories/VoronoiModel.v
