-Q theories Verif
theories/Model/AverageNeighbours.v
theories/Model/Binary.v
theories/Model/BrukerRoi.v
theories/Model/Calibration.v
theories/Model/Chunking.v
theories/Model/CoordinateConversion.v
theories/Model/CoordinateSetters.v
theories/Model/Datasets.v
theories/Model/Decomposition.v
theories/Model/Detector.v
theories/Model/DetectorPlane.v
theories/Model/DetectorPlotter.v
theories/Model/DetectorText.v
theories/Model/DictIndex.v
theories/Model/DictUnscored.v
theories/Model/Downsample.v
theories/Model/DynamicBackground.v
theories/Model/EMsoftEbsd.v
theories/Model/EMsoftMaster.v
theories/Model/EbsdDirectory.v
theories/Model/EdaxBinary.v
theories/Model/Equalization.v
theories/Model/FftBarnes.v
theories/Model/FilePaths.v
theories/Model/FilteredSignal.v
theories/Model/FlatAverage.v
theories/Model/FlatDownsample.v
theories/Model/FlatEqualization.v
theories/Model/FlatPatterns.v
theories/Model/FlatRefinement.v
theories/Model/FlatSimulation.v
theories/Model/Forwarding.v
theories/Model/FrequencyWindow.v
theories/Model/GeometryViews.v
theories/Model/GridIndices.v
theories/Model/GridOverlay.v
theories/Model/Hdf5.v
theories/Model/Hdf5Write.v
theories/Model/Hough.v
theories/Model/HoughData.v
theories/Model/Intensity.v
theories/Model/KikuchiLines.v
theories/Model/KikuchipyH5.v
theories/Model/KinematicalMaster.v
theories/Model/Lambert.v
theories/Model/LoadLabels.v
theories/Model/MapOverlap.v
theories/Model/MasterPattern.v
theories/Model/MergeInputs.v
theories/Model/MergeMaps.v
theories/Model/MergeUnscored.v
theories/Model/MetricState.v
theories/Model/MissingScores.v
theories/Model/MovingScreen.v
theories/Model/MovingScreenHistory.v
theories/Model/NdArray.v
theories/Model/NeighbourDot.v
theories/Model/Nordif.v
theories/Model/NordifSettings.v
theories/Model/OxfordBinary.v
theories/Model/Pattern.v
theories/Model/PatternSpectrum.v
theories/Model/PlaneFit.v
theories/Model/PositionPlots.v
theories/Model/PyArray.v
theories/Model/RebinCalls.v
theories/Model/RefinementBounds.v
theories/Model/RefinementChunks.v
theories/Model/RefinementInput.v
theories/Model/RefinementObjective.v
theories/Model/RefinementReport.v
theories/Model/RefinementResults.v
theories/Model/RefinementSchedule.v
theories/Model/RefinementState.v
theories/Model/RgbImage.v
theories/Model/RgbNavigator.v
theories/Model/Rotations.v
theories/Model/SaveFile.v
theories/Model/ScanTitles.v
theories/Model/Selections.v
theories/Model/SignalHeap.v
theories/Model/SignalHistory.v
theories/Model/SignalSlices.v
theories/Model/SignalType.v
theories/Model/Similarity.v
theories/Model/SimilarityMap.v
theories/Model/SimilarityShape.v
theories/Model/Simulation.v
theories/Model/SimulationMarkers.v
theories/Model/SimulatorPlot.v
theories/Model/Sorting.v
theories/Model/SphericalPlot.v
theories/Model/StoredPCs.v
theories/Model/TileIndices.v
theories/Model/VendorH5.v
theories/Model/VirtualGrid.v
theories/Model/Window.v
theories/Model/WindowObject.v
theories/Proofs/AverageNeighboursProofs.v
theories/Proofs/BinaryProofs.v
theories/Proofs/CalibrationProofs.v
theories/Proofs/ChunkingProofs.v
theories/Proofs/CoordinateConversionProofs.v
theories/Proofs/DataTypesProofs.v
theories/Proofs/DetectorPlotterProofs.v
theories/Proofs/DetectorProofs.v
theories/Proofs/DetectorTextProofs.v
theories/Proofs/DetectorTilt.v
theories/Proofs/DictIndexProofs.v
theories/Proofs/DictUnscoredProofs.v
theories/Proofs/DownsampleProofs.v
theories/Proofs/DynamicBackgroundProofs.v
theories/Proofs/EMsoftEbsdProofs.v
theories/Proofs/EMsoftMasterProofs.v
theories/Proofs/EdaxBinaryProofs.v
theories/Proofs/FourierProofs.v
theories/Proofs/GridIndicesProofs.v
theories/Proofs/GridOverlayProofs.v
theories/Proofs/Hdf5Proofs.v
theories/Proofs/Hdf5WriteProofs.v
theories/Proofs/HomographyProofs.v
theories/Proofs/ImageQualityProofs.v
theories/Proofs/IntensityProofs.v
theories/Proofs/KikuchiLinesProofs.v
theories/Proofs/KinematicalMasterProofs.v
theories/Proofs/LambertProofs.v
theories/Proofs/ListLemmas.v
theories/Proofs/MapOverlapProofs.v
theories/Proofs/MergeMapsProofs.v
theories/Proofs/MetricStateProofs.v
theories/Proofs/MovingScreenHistoryProofs.v
theories/Proofs/MovingScreenProofs.v
theories/Proofs/NeighbourDotProofs.v
theories/Proofs/NordifSettingsProofs.v
theories/Proofs/OxfordBinaryProofs.v
theories/Proofs/OxfordCountProofs.v
theories/Proofs/PatternProofs.v
theories/Proofs/PlaneFitProofs.v
theories/Proofs/ProjectiveFitProofs.v
theories/Proofs/PyArrayProofs.v
theories/Proofs/RefinementChunksProofs.v
theories/Proofs/RefinementObjectiveProofs.v
theories/Proofs/RefinementResultsProofs.v
theories/Proofs/RgbImageProofs.v
theories/Proofs/SaveFileProofs.v
theories/Proofs/SelectionsProofs.v
theories/Proofs/SignalHeapProofs.v
theories/Proofs/SignalHistoryProofs.v
theories/Proofs/SignalSlicesProofs.v
theories/Proofs/SignalTypeProofs.v
theories/Proofs/SimilarityProofs.v
theories/Proofs/SimulationMarkersProofs.v
theories/Proofs/SimulationProofs.v
theories/Proofs/SmallestDirection.v
theories/Proofs/SortingProofs.v
theories/Proofs/SpectrumProofs.v
theories/Proofs/ThreadsProofs.v
theories/Proofs/VirtualGridProofs.v
theories/Proofs/WindowObjectProofs.v
theories/Proofs/WindowProofs.v
theories/Props/AverageNeighbours.v
theories/Props/BrukerRoi.v
theories/Props/Calibration.v
theories/Props/Chunking.v
theories/Props/CoordinateConversion.v
theories/Props/CoordinateSetters.v
theories/Props/Datasets.v
theories/Props/Decomposition.v
theories/Props/Detector.v
theories/Props/DetectorPlane.v
theories/Props/DetectorPlotter.v
theories/Props/DetectorText.v
theories/Props/DictIndex.v
theories/Props/DictUnscored.v
theories/Props/Downsample.v
theories/Props/DynamicBackground.v
theories/Props/EMsoftEbsd.v
theories/Props/EMsoftMaster.v
theories/Props/EbsdDirectory.v
theories/Props/EdaxBinary.v
theories/Props/Equalization.v
theories/Props/ExtractGrid.v
theories/Props/FftBarnes.v
theories/Props/FileFormat.v
theories/Props/FilePaths.v
theories/Props/FilteredSignal.v
theories/Props/FlatAverage.v
theories/Props/FlatDownsample.v
theories/Props/FlatEqualization.v
theories/Props/FlatPatterns.v
theories/Props/FlatRefinement.v
theories/Props/FlatSimulation.v
theories/Props/Forwarding.v
theories/Props/FrequencyWindow.v
theories/Props/GeometryViews.v
theories/Props/GridIndices.v
theories/Props/GridOverlay.v
theories/Props/Hdf5Write.v
theories/Props/Hough.v
theories/Props/HoughData.v
theories/Props/ImageQuality.v
theories/Props/Intensity.v
theories/Props/KikuchiLines.v
theories/Props/KikuchipyH5.v
theories/Props/KinematicalMaster.v
theories/Props/KinematicalThreads.v
theories/Props/Lambert.v
theories/Props/LoadLabels.v
theories/Props/MasterPattern.v
theories/Props/MergeInputs.v
theories/Props/MergeMaps.v
theories/Props/MergeUnscored.v
theories/Props/MetricState.v
theories/Props/MissingScores.v
theories/Props/MovingScreen.v
theories/Props/MovingScreenHistory.v
theories/Props/NeighbourDot.v
theories/Props/Nordif.v
theories/Props/NordifSettings.v
theories/Props/Normalize.v
theories/Props/OxfordBinary.v
theories/Props/PatternFourier.v
theories/Props/PlaneFit.v
theories/Props/PositionPlots.v
theories/Props/Rebin.v
theories/Props/RebinCalls.v
theories/Props/RefinementBounds.v
theories/Props/RefinementChunks.v
theories/Props/RefinementInput.v
theories/Props/RefinementObjective.v
theories/Props/RefinementReport.v
theories/Props/RefinementResults.v
theories/Props/RefinementSchedule.v
theories/Props/RefinementState.v
theories/Props/RgbImage.v
theories/Props/RgbNavigator.v
theories/Props/Rotations.v
theories/Props/SaveFile.v
theories/Props/SaveQuestions.v
theories/Props/ScanTitles.v
theories/Props/Selections.v
theories/Props/SignalHeap.v
theories/Props/SignalHistory.v
theories/Props/SignalSlices.v
theories/Props/SignalType.v
theories/Props/Similarity.v
theories/Props/SimilarityMap.v
theories/Props/SimilarityShape.v
theories/Props/Simulation.v
theories/Props/SimulationMarkers.v
theories/Props/SimulatorPlot.v
theories/Props/SphericalPlot.v
theories/Props/StoredPCs.v
theories/Props/TileIndices.v
theories/Props/VendorH5.v
theories/Props/VirtualGrid.v
theories/Props/Window.v
theories/Props/WindowObject.v
theories/Props/ZoneAxes.v
theories/Spec/BackgroundSpec.v
theories/Spec/BestMatches.v
theories/Spec/BinaryFiles.v
theories/Spec/Blocks.v
theories/Spec/Chunks.v
theories/Spec/Consistency.v
theories/Spec/CoordinateSpec.v
theories/Spec/Correlation.v
theories/Spec/DataTypes.v
theories/Spec/DetectorGeometry.v
theories/Spec/EMsoftPatternFile.v
theories/Spec/EqualizationSpec.v
theories/Spec/Euler.v
theories/Spec/FilterSpec.v
theories/Spec/Grid.v
theories/Spec/GridOverlaySpec.v
theories/Spec/Hdf5WriteSpec.v
theories/Spec/HoughSpec.v
theories/Spec/Intensity.v
theories/Spec/InteractivePlot.v
theories/Spec/KikuchiBandIntensity.v
theories/Spec/KikuchiBands.v
theories/Spec/MapPlaces.v
theories/Spec/MasterPatternFile.v
theories/Spec/Merging.v
theories/Spec/MethodNames.v
theories/Spec/MetricSpec.v
theories/Spec/MicroscopeFrame.v
theories/Spec/MovingScreenHistorySpec.v
theories/Spec/PatternLabels.v
theories/Spec/PhaseSpec.v
theories/Spec/PlaneSpec.v
theories/Spec/PositionPlotsSpec.v
theories/Spec/QualitySpec.v
theories/Spec/Rebinning.v
theories/Spec/RgbNavigatorSpec.v
theories/Spec/RgbSpec.v
theories/Spec/Rotation.v
theories/Spec/ScanPositions.v
theories/Spec/ScreenPlot.v
theories/Spec/Selections.v
theories/Spec/SettingsText.v
theories/Spec/SharedIndices.v
theories/Spec/SignalConversions.v
theories/Spec/SimulatorPlotSpec.v
theories/Spec/Slices.v
theories/Spec/SphericalPlotSpec.v
theories/Spec/Tiles.v
theories/Spec/VendorFiles.v
theories/Spec/WeightedMean.v
theories/Spec/WindowObjectSpec.v
