-Q theories Verif
theories/Base.v
theories/Algebra.v
theories/Arrays.v
theories/Complex.v
theories/Ordered.v
theories/RealField.v
theories/Model/Arnoldi.v
theories/Model/AutoCorr.v
theories/Model/Cfun.v
theories/Model/Chain.v
theories/Model/Clock.v
theories/Model/Cmd.v
theories/Model/Collector.v
theories/Model/Derive.v
theories/Model/Dipole.v
theories/Model/Doubles.v
theories/Model/Eigen.v
theories/Model/Exception.v
theories/Model/FSTools.v
theories/Model/Fifo.v
theories/Model/FileWF.v
theories/Model/FilterProg.v
theories/Model/Filters.v
theories/Model/Find.v
theories/Model/Flux.v
theories/Model/Frequency.v
theories/Model/GMat.v
theories/Model/Getopt.v
theories/Model/Global.v
theories/Model/Gobble.v
theories/Model/Grid.v
theories/Model/Info.v
theories/Model/Kick.v
theories/Model/Laser.v
theories/Model/Logger.v
theories/Model/MatOp.v
theories/Model/Memory.v
theories/Model/Modules.v
theories/Model/Multistate.v
theories/Model/NAC.v
theories/Model/ODMultistate.v
theories/Model/OMultistate.v
theories/Model/OPML.v
theories/Model/Oct.v
theories/Model/Operators.v
theories/Model/PML.v
theories/Model/Params.v
theories/Model/Peaks.v
theories/Model/Position.v
theories/Model/Potential.v
theories/Model/Projection.v
theories/Model/Propa.v
theories/Model/Propagator.v
theories/Model/Qdz.v
theories/Model/Raman.v
theories/Model/RawFile.v
theories/Model/Reduce.v
theories/Model/Registry.v
theories/Model/Report.v
theories/Model/Repr.v
theories/Model/Run.v
theories/Model/Scalar.v
theories/Model/Serial.v
theories/Model/Shared.v
theories/Model/Simd.v
theories/Model/Simple.v
theories/Model/SimpleLex.v
theories/Model/Special.v
theories/Model/Spectral.v
theories/Model/Split.v
theories/Model/Spo.v
theories/Model/Stencil.v
theories/Model/Stepper.v
theories/Model/Stokes.v
theories/Model/Tables.v
theories/Model/TmpFile.v
theories/Model/TransformMat.v
theories/Model/Varint.v
theories/Model/Vec.v
theories/Model/WFBuffer.v
theories/Model/WFList.v
theories/Model/XmlTree.v
theories/Model/ZCopy.v
theories/Spec/Arnoldi.v
theories/Spec/AutoCorr.v
theories/Spec/Cfun.v
theories/Spec/Chain.v
theories/Spec/Clock.v
theories/Spec/Cmd.v
theories/Spec/Collector.v
theories/Spec/Derive.v
theories/Spec/Dipole.v
theories/Spec/Doubles.v
theories/Spec/Eigen.v
theories/Spec/Exception.v
theories/Spec/FSTools.v
theories/Spec/Fifo.v
theories/Spec/FileWF.v
theories/Spec/FilterProg.v
theories/Spec/Filters.v
theories/Spec/Find.v
theories/Spec/Flux.v
theories/Spec/Frequency.v
theories/Spec/GMat.v
theories/Spec/Getopt.v
theories/Spec/Global.v
theories/Spec/Gobble.v
theories/Spec/Grid.v
theories/Spec/Info.v
theories/Spec/Kick.v
theories/Spec/Laser.v
theories/Spec/Logger.v
theories/Spec/MatOp.v
theories/Spec/Memory.v
theories/Spec/Modules.v
theories/Spec/Multistate.v
theories/Spec/NAC.v
theories/Spec/ODMultistate.v
theories/Spec/OMultistate.v
theories/Spec/OPML.v
theories/Spec/Oct.v
theories/Spec/Operators.v
theories/Spec/PML.v
theories/Spec/Params.v
theories/Spec/Peaks.v
theories/Spec/Position.v
theories/Spec/Potential.v
theories/Spec/Projection.v
theories/Spec/Propa.v
theories/Spec/Propagator.v
theories/Spec/Qdz.v
theories/Spec/Raman.v
theories/Spec/RawFile.v
theories/Spec/Reduce.v
theories/Spec/Registry.v
theories/Spec/Report.v
theories/Spec/Repr.v
theories/Spec/Run.v
theories/Spec/Scalar.v
theories/Spec/Serial.v
theories/Spec/Shared.v
theories/Spec/Simd.v
theories/Spec/Simple.v
theories/Spec/SimpleLex.v
theories/Spec/Special.v
theories/Spec/Spectral.v
theories/Spec/Split.v
theories/Spec/Spo.v
theories/Spec/Stencil.v
theories/Spec/Stepper.v
theories/Spec/Stokes.v
theories/Spec/Tables.v
theories/Spec/TmpFile.v
theories/Spec/TransformMat.v
theories/Spec/Vec.v
theories/Spec/WFBuffer.v
theories/Spec/WFList.v
theories/Spec/XmlTree.v
theories/Proofs/Arnoldi.v
theories/Proofs/AutoCorr.v
theories/Proofs/Cfun.v
theories/Proofs/Chain.v
theories/Proofs/Clock.v
theories/Proofs/Cmd.v
theories/Proofs/Collector.v
theories/Proofs/Derive.v
theories/Proofs/Dipole.v
theories/Proofs/Doubles.v
theories/Proofs/Eigen.v
theories/Proofs/Exception.v
theories/Proofs/FSTools.v
theories/Proofs/Fifo.v
theories/Proofs/FileWF.v
theories/Proofs/FilterProg.v
theories/Proofs/Filters.v
theories/Proofs/Find.v
theories/Proofs/Flux.v
theories/Proofs/Frequency.v
theories/Proofs/GMat.v
theories/Proofs/Getopt.v
theories/Proofs/Global.v
theories/Proofs/Gobble.v
theories/Proofs/Grid.v
theories/Proofs/Info.v
theories/Proofs/Kick.v
theories/Proofs/Laser.v
theories/Proofs/Logger.v
theories/Proofs/MatOp.v
theories/Proofs/Memory.v
theories/Proofs/Modules.v
theories/Proofs/Multistate.v
theories/Proofs/NAC.v
theories/Proofs/NACEx.v
theories/Proofs/ODMultistate.v
theories/Proofs/ODMultistateEx.v
theories/Proofs/OMultistate.v
theories/Proofs/OPML.v
theories/Proofs/Oct.v
theories/Proofs/OctEx.v
theories/Proofs/Operators.v
theories/Proofs/PML.v
theories/Proofs/Params.v
theories/Proofs/Peaks.v
theories/Proofs/Position.v
theories/Proofs/Potential.v
theories/Proofs/Projection.v
theories/Proofs/Propa.v
theories/Proofs/Propagator.v
theories/Proofs/Qdz.v
theories/Proofs/Raman.v
theories/Proofs/RawFile.v
theories/Proofs/Reduce.v
theories/Proofs/Registry.v
theories/Proofs/Report.v
theories/Proofs/Repr.v
theories/Proofs/Run.v
theories/Proofs/Scalar.v
theories/Proofs/Serial.v
theories/Proofs/Shared.v
theories/Proofs/Simd.v
theories/Proofs/Simple.v
theories/Proofs/SimpleLex.v
theories/Proofs/Special.v
theories/Proofs/Spectral.v
theories/Proofs/Split.v
theories/Proofs/Spo.v
theories/Proofs/Stencil.v
theories/Proofs/Stepper.v
theories/Proofs/Stokes.v
theories/Proofs/Stripes.v
theories/Proofs/Tables.v
theories/Proofs/TmpFile.v
theories/Proofs/TransformMat.v
theories/Proofs/Varint.v
theories/Proofs/Vec.v
theories/Proofs/VecLaws.v
theories/Proofs/VecLeak.v
theories/Proofs/VecOps.v
theories/Proofs/VecRef.v
theories/Proofs/VecRetire.v
theories/Proofs/VecRun.v
theories/Proofs/VecStore.v
theories/Proofs/WFBuffer.v
theories/Proofs/WFList.v
theories/Proofs/XmlTree.v
theories/Proofs/ZCopy.v
theories/Props/Arnoldi.v
theories/Props/AutoCorr.v
theories/Props/Cfun.v
theories/Props/Chain.v
theories/Props/Clock.v
theories/Props/Cmd.v
theories/Props/Collector.v
theories/Props/Derive.v
theories/Props/Dipole.v
theories/Props/Doubles.v
theories/Props/Eigen.v
theories/Props/Exception.v
theories/Props/FSTools.v
theories/Props/Fifo.v
theories/Props/FileWF.v
theories/Props/FilterProg.v
theories/Props/Filters.v
theories/Props/Find.v
theories/Props/Flux.v
theories/Props/Frequency.v
theories/Props/GMat.v
theories/Props/Getopt.v
theories/Props/Global.v
theories/Props/Gobble.v
theories/Props/Grid.v
theories/Props/Info.v
theories/Props/Kick.v
theories/Props/Laser.v
theories/Props/Logger.v
theories/Props/MatOp.v
theories/Props/Memory.v
theories/Props/Modules.v
theories/Props/Multistate.v
theories/Props/NAC.v
theories/Props/ODMultistate.v
theories/Props/OMultistate.v
theories/Props/OPML.v
theories/Props/Oct.v
theories/Props/Operators.v
theories/Props/PML.v
theories/Props/Params.v
theories/Props/Peaks.v
theories/Props/Position.v
theories/Props/Potential.v
theories/Props/Projection.v
theories/Props/Propa.v
theories/Props/Propagator.v
theories/Props/Qdz.v
theories/Props/Raman.v
theories/Props/RawFile.v
theories/Props/Reduce.v
theories/Props/Registry.v
theories/Props/Report.v
theories/Props/Repr.v
theories/Props/Run.v
theories/Props/Scalar.v
theories/Props/Serial.v
theories/Props/Shared.v
theories/Props/Simd.v
theories/Props/Simple.v
theories/Props/SimpleLex.v
theories/Props/Special.v
theories/Props/Spectral.v
theories/Props/Split.v
theories/Props/Spo.v
theories/Props/Stencil.v
theories/Props/Stepper.v
theories/Props/Stokes.v
theories/Props/TmpFile.v
theories/Props/TransformMat.v
theories/Props/Varint.v
theories/Props/Vec.v
theories/Props/WFBuffer.v
theories/Props/WFList.v
theories/Props/XmlTree.v
theories/Props/ZCopy.v
