-Q theories Verif
theories/Base.v
theories/CellArea.v
theories/CellAreaProps.v
theories/Centroid.v
theories/CentroidMore.v
theories/CentroidProofs.v
theories/CentroidProps.v
theories/CentroidSpec.v
theories/Chunks.v
theories/ChunksProps.v
theories/Climatology.v
theories/ClimatologyProofs.v
theories/ClimatologyProps.v
theories/ClimatologySpec.v
theories/Cluster.v
theories/ClusterFinal.v
theories/ClusterMore.v
theories/ClusterPipe.v
theories/ClusterProofs.v
theories/ClusterProps.v
theories/ClusterSpec.v
theories/Config.v
theories/ConfigProofs.v
theories/ConfigProps.v
theories/ConfigSpec.v
theories/ConfigWitness.v
theories/ConsolidateMore.v
theories/ConsolidateProofs.v
theories/Coverage.v
theories/CoverageProps.v
theories/CutProofs.v
theories/CutProps.v
theories/CutSpec.v
theories/Detect.v
theories/DetectProofs.v
theories/DetectProps.v
theories/DetectRun.v
theories/DetectRunProofs.v
theories/DetectRunProps.v
theories/DetectRunSpec.v
theories/Detrend.v
theories/DetrendProofs.v
theories/DetrendProps.v
theories/DetrendSpec.v
theories/Draw.v
theories/DrawProps.v
theories/Errors.v
theories/ErrorsProps.v
theories/ErrorsSpec.v
theories/ExtendGridProps.v
theories/ExtendProofs.v
theories/ExtendProps.v
theories/Factory.v
theories/FactoryProps.v
theories/Filter.v
theories/FilterAreaProofs.v
theories/FilterGridProofs.v
theories/FilterMeshProofs.v
theories/FilterMoreProofs.v
theories/FilterProofs.v
theories/FilterProps.v
theories/FilterSpec.v
theories/FilterWitness.v
theories/FlipProofs.v
theories/FlipProps.v
theories/Frames.v
theories/FramesProofs.v
theories/FramesProps.v
theories/Graph.v
theories/GraphProofs.v
theories/GridRunProps.v
theories/GrowProofs.v
theories/GrowProps.v
theories/Histogram.v
theories/HistogramExact.v
theories/HistogramGlobal.v
theories/HistogramMono.v
theories/HistogramProofs.v
theories/HistogramProps.v
theories/HistogramSpec.v
theories/HistogramWindow.v
theories/HistogramYear.v
theories/Instrument.v
theories/InstrumentProofs.v
theories/InstrumentProps.v
theories/InstrumentSpec.v
theories/Label.v
theories/LabelProofs.v
theories/LabelProps.v
theories/LabelSpec.v
theories/LocalProofs.v
theories/LocalProps.v
theories/LocalSpec.v
theories/MaskProofs.v
theories/MaskProps.v
theories/MaskSpec.v
theories/Merge.v
theories/MergeChunks.v
theories/MergeLoop.v
theories/MergeMore.v
theories/MergeProofs.v
theories/MergeProps.v
theories/MergeSpec.v
theories/MergeWitness.v
theories/MeshInput.v
theories/MeshInputProps.v
theories/MeshInputSpec.v
theories/MeshMoveProofs.v
theories/MeshMoveProps.v
theories/MeshMoveRunProofs.v
theories/MeshMoveSpec.v
theories/MeshPart.v
theories/MeshPartProofs.v
theories/MeshPartProps.v
theories/MeshPartSpec.v
theories/MeshRun.v
theories/MeshRunLimits.v
theories/MeshRunLoop.v
theories/MeshRunProofs.v
theories/MeshRunProps.v
theories/Metadata.v
theories/MetadataProps.v
theories/ModeProofs.v
theories/ModeProps.v
theories/Morph.v
theories/MorphMeshProofs.v
theories/MorphPlaneProofs.v
theories/MorphProofs.v
theories/MorphProps.v
theories/MorphSpec.v
theories/MorphTimeProofs.v
theories/MorphWitness.v
theories/MoveGridProofs.v
theories/MoveGridProps.v
theories/Names.v
theories/NamesProps.v
theories/NearProps.v
theories/Outline.v
theories/OutlineProps.v
theories/Overlap.v
theories/OverlapAreaProps.v
theories/OverlapFraction.v
theories/OverlapProofs.v
theories/OverlapProps.v
theories/OverlapSpec.v
theories/Parallel.v
theories/ParallelFinal.v
theories/ParallelLimits.v
theories/ParallelMore.v
theories/ParallelProofs.v
theories/ParallelProps.v
theories/ParallelRecord.v
theories/ParallelSpec.v
theories/Partition.v
theories/PartitionMore.v
theories/PartitionProofs.v
theories/PartitionProps.v
theories/PartitionSpec.v
theories/PercentileProps.v
theories/Pipeline.v
theories/PipelineProps.v
theories/Plot.v
theories/PlotProps.v
theories/PrefixProofs.v
theories/PrefixProps.v
theories/QuietGridProofs.v
theories/QuietGridProps.v
theories/QuietMeshProofs.v
theories/QuietMeshProps.v
theories/RefineProofs.v
theories/RefineProps.v
theories/Regional.v
theories/RegionalProps.v
theories/RelateProofs.v
theories/RelateProps.v
theories/RelateSpec.v
theories/Report.v
theories/ReportProps.v
theories/RetrackProofs.v
theories/RetrackProps.v
theories/ReverseMeshProofs.v
theories/ReverseMeshProps.v
theories/ReverseProofs.v
theories/ReverseProps.v
theories/Rounding.v
theories/RoundingPairs.v
theories/RoundingPercentile.v
theories/RoundingProofs.v
theories/RoundingProps.v
theories/RoundingSpec.v
theories/Run.v
theories/RunProofs.v
theories/RunProps.v
theories/RunSpec.v
theories/ScaleProofs.v
theories/Scratch.v
theories/ScratchProofs.v
theories/ScratchProps.v
theories/Screen.v
theories/ScreenProps.v
theories/Session.v
theories/SessionProps.v
theories/SilentProofs.v
theories/SilentProps.v
theories/Sphere.v
theories/SphereProofs.v
theories/SphereProps.v
theories/SphereSpec.v
theories/SphereTableProofs.v
theories/Standardised.v
theories/StandardisedCaseProps.v
theories/StandardisedProofs.v
theories/StandardisedProps.v
theories/StatsRunProps.v
theories/SteadyProofs.v
theories/SteadyProps.v
theories/StricterProps.v
theories/SumFloat.v
theories/SumFloatProofs.v
theories/SumFloatProps.v
theories/Support.v
theories/SupportProps.v
theories/ThinGridProps.v
theories/ThinProofs.v
theories/ThinProps.v
theories/ThresholdRunProps.v
theories/Titles.v
theories/TitlesProps.v
theories/TurnProofs.v
theories/TurnProps.v
theories/TurnSpec.v
theories/UnitProofs.v
theories/UnitProps.v
theories/UnitSpec.v
theories/UnmergedProofs.v
theories/Warnings.v
theories/WarningsProofs.v
theories/WarningsProps.v
theories/WarningsSpec.v
