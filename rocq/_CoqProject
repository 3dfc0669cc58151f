-Q theories Verif
theories/Model/Apertures.v
theories/Model/BeamMonitors.v
theories/Model/CheckAperture.v
theories/Model/Collective.v
theories/Model/Composer.v
theories/Model/Container.v
theories/Model/Curved.v
theories/Model/Edges.v
theories/Model/Energy.v
theories/Model/Excite.v
theories/Model/FeedDown.v
theories/Model/History.v
theories/Model/ImportLine.v
theories/Model/Insert.v
theories/Model/Kernel.v
theories/Model/Lattice.v
theories/Model/Line.v
theories/Model/LineEdit.v
theories/Model/LineSegment.v
theories/Model/LossRefinement.v
theories/Model/Magnet.v
theories/Model/Maps.v
theories/Model/MergeMultipoles.v
theories/Model/Monitors.v
theories/Model/MultiSetter.v
theories/Model/MultiTracker.v
theories/Model/NormalForm.v
theories/Model/ParticleArray.v
theories/Model/Pdg.v
theories/Model/Pipeline.v
theories/Model/Record.v
theories/Model/RemoveApertures.v
theories/Model/Reverse.v
theories/Model/Rf.v
theories/Model/Rng.v
theories/Model/Sequence.v
theories/Model/Serialize.v
theories/Model/Slicing.v
theories/Model/Spin.v
theories/Model/Survey.v
theories/Model/SyncTime.v
theories/Model/Taylor.v
theories/Model/TwissRange.v
theories/Model/TwissReverse.v
theories/Proofs/Aligned.v
theories/Proofs/ApertureCases.v
theories/Proofs/Apertures.v
theories/Proofs/BeamCases.v
theories/Proofs/BeamMonitors.v
theories/Proofs/BeamStats.v
theories/Proofs/BendCases.v
theories/Proofs/Bends.v
theories/Proofs/CheckAperture.v
theories/Proofs/Collective.v
theories/Proofs/Composer.v
theories/Proofs/ComposerCases.v
theories/Proofs/Container.v
theories/Proofs/ContainerCases.v
theories/Proofs/ContainerSteps.v
theories/Proofs/Counters.v
theories/Proofs/Curved.v
theories/Proofs/Cuts.v
theories/Proofs/Cx.v
theories/Proofs/EdgeBack.v
theories/Proofs/EdgeCases.v
theories/Proofs/EdgeOff.v
theories/Proofs/EdgePaths.v
theories/Proofs/EdgeShift.v
theories/Proofs/EdgeWedge.v
theories/Proofs/Energy.v
theories/Proofs/EnergyCases.v
theories/Proofs/EnergyPython.v
theories/Proofs/Excite.v
theories/Proofs/FeedDown.v
theories/Proofs/FeedDownTrack.v
theories/Proofs/Filter.v
theories/Proofs/FrameMaps.v
theories/Proofs/Frames.v
theories/Proofs/Gaps.v
theories/Proofs/History.v
theories/Proofs/HoldResume.v
theories/Proofs/ImportLine.v
theories/Proofs/ImportLineCases.v
theories/Proofs/Insert.v
theories/Proofs/InsertCases.v
theories/Proofs/InsertMore.v
theories/Proofs/InsertRelative.v
theories/Proofs/InsertTop.v
theories/Proofs/Kernel.v
theories/Proofs/KernelSim.v
theories/Proofs/Lattice.v
theories/Proofs/LatticeCases.v
theories/Proofs/LatticeInverse.v
theories/Proofs/LatticePhase.v
theories/Proofs/LineAlgebra.v
theories/Proofs/LineBase.v
theories/Proofs/LineEditCases.v
theories/Proofs/LineSegment.v
theories/Proofs/LineSegmentCases.v
theories/Proofs/LossRefinement.v
theories/Proofs/LossRefinementCases.v
theories/Proofs/Magnet.v
theories/Proofs/MagnetBack.v
theories/Proofs/MagnetCases.v
theories/Proofs/MagnetDrift.v
theories/Proofs/MagnetKick.v
theories/Proofs/MagnetSum.v
theories/Proofs/MapsCases.v
theories/Proofs/MergeCases.v
theories/Proofs/MergeLine.v
theories/Proofs/MergeMultipoles.v
theories/Proofs/MergeTrack.v
theories/Proofs/Misalign.v
theories/Proofs/Monitors.v
theories/Proofs/MonitorsCases.v
theories/Proofs/MultiSetter.v
theories/Proofs/MultiSetterCases.v
theories/Proofs/MultiTracker.v
theories/Proofs/MultiTrackerCases.v
theories/Proofs/NormalForm.v
theories/Proofs/NormalFormCases.v
theories/Proofs/Ordering.v
theories/Proofs/OrderingTop.v
theories/Proofs/ParticleArray.v
theories/Proofs/Pdg.v
theories/Proofs/PdgCases.v
theories/Proofs/Pipeline.v
theories/Proofs/PipelineCases.v
theories/Proofs/PipelineRun.v
theories/Proofs/Polygon.v
theories/Proofs/PolygonArea.v
theories/Proofs/PolygonTest.v
theories/Proofs/Record.v
theories/Proofs/Remove.v
theories/Proofs/RemoveApertures.v
theories/Proofs/RemoveAperturesCases.v
theories/Proofs/RemoveInactive.v
theories/Proofs/Repeated.v
theories/Proofs/Reverse.v
theories/Proofs/ReverseCases.v
theories/Proofs/ReverseTrack.v
theories/Proofs/Rf.v
theories/Proofs/RfCases.v
theories/Proofs/Rng.v
theories/Proofs/RngCases.v
theories/Proofs/RngSample.v
theories/Proofs/Sequence.v
theories/Proofs/SequenceBuild.v
theories/Proofs/SequenceCases.v
theories/Proofs/SequenceNames.v
theories/Proofs/Serialize.v
theories/Proofs/SerializeCases.v
theories/Proofs/Simplify.v
theories/Proofs/Slices.v
theories/Proofs/Slicing.v
theories/Proofs/SlicingCases.v
theories/Proofs/Spin.v
theories/Proofs/SpinField.v
theories/Proofs/Survey.v
theories/Proofs/SurveyCases.v
theories/Proofs/SurveySlices.v
theories/Proofs/SurveyTrack.v
theories/Proofs/SympAlign.v
theories/Proofs/SympBend.v
theories/Proofs/SympBody.v
theories/Proofs/SympCases.v
theories/Proofs/SympDipole.v
theories/Proofs/SympDipoleMap.v
theories/Proofs/SympEdge.v
theories/Proofs/SympExamples.v
theories/Proofs/SympFringe.v
theories/Proofs/SympMagnet.v
theories/Proofs/SympQuad.v
theories/Proofs/SympRf.v
theories/Proofs/SympSolenoid.v
theories/Proofs/Symplectic.v
theories/Proofs/Symplectify.v
theories/Proofs/SyncTime.v
theories/Proofs/SyncTimeAll.v
theories/Proofs/SyncTimeCases.v
theories/Proofs/Taylor.v
theories/Proofs/ThinSlices.v
theories/Proofs/TrackingCases.v
theories/Proofs/TrackingMore.v
theories/Proofs/TwissRange.v
theories/Proofs/TwissRangeCases.v
theories/Proofs/TwissReverse.v
theories/Proofs/TwissReverseCases.v
theories/Properties/Apertures.v
theories/Properties/BeamMonitors.v
theories/Properties/CheckAperture.v
theories/Properties/Composer.v
theories/Properties/Container.v
theories/Properties/Edges.v
theories/Properties/Energy.v
theories/Properties/Excite.v
theories/Properties/ImportLine.v
theories/Properties/Insert.v
theories/Properties/Lattice.v
theories/Properties/LineEditing.v
theories/Properties/LineSegment.v
theories/Properties/LossRefinement.v
theories/Properties/Magnets.v
theories/Properties/Maps.v
theories/Properties/MergeMultipoles.v
theories/Properties/Monitors.v
theories/Properties/MultiSetter.v
theories/Properties/MultiTracker.v
theories/Properties/NormalForm.v
theories/Properties/Pdg.v
theories/Properties/Pipeline.v
theories/Properties/Random.v
theories/Properties/Record.v
theories/Properties/RemoveApertures.v
theories/Properties/Reverse.v
theories/Properties/Rf.v
theories/Properties/Sequence.v
theories/Properties/Serialize.v
theories/Properties/Slicing.v
theories/Properties/Spin.v
theories/Properties/Survey.v
theories/Properties/Symplectic.v
theories/Properties/SyncTime.v
theories/Properties/Taylor.v
theories/Properties/Tracking.v
theories/Properties/TwissRange.v
theories/Properties/TwissReverse.v
theories/Spec/Aligned.v
theories/Spec/Apertures.v
theories/Spec/BeamMonitors.v
theories/Spec/CheckAperture.v
theories/Spec/Collective.v
theories/Spec/Composer.v
theories/Spec/Container.v
theories/Spec/Edges.v
theories/Spec/Energy.v
theories/Spec/Excite.v
theories/Spec/Frames.v
theories/Spec/History.v
theories/Spec/ImportLine.v
theories/Spec/Insert.v
theories/Spec/Kernel.v
theories/Spec/Lattice.v
theories/Spec/Line.v
theories/Spec/LineEdit.v
theories/Spec/LineSegment.v
theories/Spec/LossRefinement.v
theories/Spec/Magnets.v
theories/Spec/MergeMultipoles.v
theories/Spec/Monitors.v
theories/Spec/MultiSetter.v
theories/Spec/MultiTracker.v
theories/Spec/NormalForm.v
theories/Spec/ParticleArray.v
theories/Spec/Pdg.v
theories/Spec/Pipeline.v
theories/Spec/Poses.v
theories/Spec/Position.v
theories/Spec/Record.v
theories/Spec/RemoveApertures.v
theories/Spec/Reverse.v
theories/Spec/Rf.v
theories/Spec/Rng.v
theories/Spec/Sequence.v
theories/Spec/Serialize.v
theories/Spec/Slicing.v
theories/Spec/Spin.v
theories/Spec/Survey.v
theories/Spec/Symplectic.v
theories/Spec/SyncTime.v
theories/Spec/Taylor.v
theories/Spec/TwissRange.v
theories/Spec/TwissReverse.v
