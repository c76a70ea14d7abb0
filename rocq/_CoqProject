-Q theories Verif
theories/Base.v
theories/ModelMath.v
theories/ModelHeightfield.v
theories/ModelFilters.v
theories/ModelHistory.v
theories/SpecHeightfield.v
theories/HeapProofs.v
theories/InsertProofs.v
theories/FilterProofs.v
theories/HistoryProofs.v
theories/PropertiesHeightfield.v
theories/ModelCompact.v
theories/SpecCompact.v
theories/PackProofs.v
theories/CompactProofs.v
theories/LinkProofs.v
theories/PropertiesCompact.v
theories/ModelDistance.v
theories/SpecDistance.v
theories/GraphProofs.v
theories/SweepProofs.v
theories/DistanceProofs.v
theories/ExampleFields.v
theories/PropertiesDistance.v
theories/ModelMarkArea.v
theories/SpecMarkArea.v
theories/MarkAreaProofs.v
theories/PropertiesMarkArea.v
theories/ModelRegions.v
theories/SpecRegions.v
theories/FlowProofs.v
theories/GivesProofs.v
theories/WatershedProofs.v
theories/RegionProofs.v
theories/RegionSizeProofs.v
theories/PropertiesRegions.v
theories/ModelContours.v
theories/SpecContours.v
theories/OrbitProofs.v
theories/FloatOrder.v
theories/ContourWalkProofs.v
theories/SimplifyProofs.v
theories/ContourSetProofs.v
theories/PropertiesContours.v
theories/ModelPoly.v
theories/SpecPoly.v
theories/TriangulateProofs.v
theories/ConvexProofs.v
theories/WeldProofs.v
theories/MergeProofs.v
theories/MergeLoopProofs.v
theories/AdjacencyProofs.v
theories/MeshProofs.v
theories/HoleProofs.v
theories/PropertiesPoly.v
theories/ModelTriMesh.v
theories/SpecTriMesh.v
theories/TriMeshProofs.v
theories/PropertiesTriMesh.v
theories/ModelRasterize.v
theories/SpecRasterize.v
theories/ClipProofs.v
theories/ClipExact.v
theories/ClipCount.v
theories/RasterProofs.v
theories/RasterLoops.v
theories/RasterSafe.v
theories/PropertiesRasterize.v
theories/PropertiesRound.v
theories/ModelExport.v
theories/SpecExport.v
theories/ExportProofs.v
theories/PropertiesExport.v
theories/ModelDetail.v
theories/SpecDetail.v
theories/DetailHullProofs.v
theories/DetailEdgeProofs.v
theories/DetailTessProofs.v
theories/DetailDelaunayProofs.v
theories/DetailPolyProofs.v
theories/DetailMeshProofs.v
theories/DetailLimitProofs.v
theories/DetailHeightProofs.v
theories/PropertiesDetail.v
theories/MeshShapeProofs.v
theories/RemoveProofs.v
theories/PropertiesMesh.v
theories/ModelConfig.v
theories/FloatReal.v
theories/VoxelProofs.v
theories/PropertiesConfig.v
theories/ModelPipeline.v
theories/SpecPipeline.v
theories/PipelineProofs.v
theories/PaintProofs.v
theories/ReverseProofs.v
theories/PropertiesPipeline.v
theories/PropertiesScene.v
theories/CoverProofs.v
theories/PropertiesCover.v
theories/PropertiesLimits.v
theories/SpecOutline.v
theories/OutlineProofs.v
theories/PropertiesOutline.v
theories/SpecCoverage.v
theories/SpotProofs.v
theories/PropertiesCoverage.v
theories/ModelView.v
theories/SpecView.v
theories/ViewProofs.v
theories/SpecSession.v
theories/SessionProofs.v
theories/PropertiesView.v
theories/PropertiesConnect.v
theories/ModelBackend.v
theories/ModelCamera.v
theories/PropertiesBackend.v
theories/SpecMatch.v
theories/MatchProofs.v
theories/PropertiesMatch.v
theories/SpecPatch.v
theories/DetailPatchProofs.v
theories/FloatSignProofs.v
theories/FloatSpotProofs.v
theories/DetailReturnProofs.v
theories/PropertiesPatch.v
theories/FloatSideProofs.v
theories/PropertiesReturn.v
theories/CameraProofs.v
theories/PropertiesCamera.v
theories/PropertiesAgents.v
theories/TriOrderProofs.v
theories/PropertiesOrder.v
theories/FloatClipProofs.v
theories/ClipStates.v
theories/RightTriangleProofs.v
theories/RightTriangleLoops.v
theories/SpecClipping.v
theories/PropertiesClipping.v
theories/ModelMenu.v
theories/SpecMenu.v
theories/PropertiesMenu.v
theories/SpecSamples.v
theories/SampleProofs.v
theories/PropertiesSamples.v
theories/SpecTolerance.v
theories/ToleranceProofs.v
theories/PropertiesTolerance.v
theories/SpecRefine.v
theories/RefineProofs.v
theories/EdgeStepProofs.v
theories/FatProofs.v
theories/PropertiesRefine.v
