-Q theories Verif
theories/Base.v
theories/Domain.v
theories/DomainProofs.v
theories/DomainProps.v
theories/Traversal.v
theories/TraversalProofs.v
theories/TraversalProps.v
theories/Layout.v
theories/LayoutProofs.v
theories/LayoutProps.v
theories/Dist.v
theories/DistProofs.v
theories/DistProps.v
theories/Map.v
theories/MapProofs.v
theories/MapProps.v
theories/ParAssign.v
theories/ParExecProofs.v
theories/ParAssignProofs.v
theories/ParAssignProps.v
theories/CopyChain.v
theories/CopyChainProofs.v
theories/CopyChainProps.v
theories/Views.v
theories/ViewsProofs.v
theories/ViewsProps.v
theories/Storage.v
theories/StorageProofs.v
theories/StorageProps.v
theories/Dda.v
theories/DdaProofs.v
theories/DdaProps.v
theories/Refcount.v
theories/RefcountProofs.v
theories/RefcountProps.v
theories/Reduce.v
theories/ReduceProofs.v
theories/ReduceProps.v
theories/Selgen.v
theories/SelgenProofs.v
theories/SelgenProps.v
theories/Fir.v
theories/FirProofs.v
theories/FirProps.v
theories/Iir.v
theories/IirProofs.v
theories/IirProps.v
theories/Freqswap.v
theories/FreqswapProofs.v
theories/FreqswapProps.v
theories/Histo.v
theories/HistoProofs.v
theories/HistoProps.v
theories/Conv.v
theories/ConvProofs.v
theories/ConvProps.v
theories/Corr.v
theories/CorrProofs.v
theories/CorrProps.v
theories/Random.v
theories/RandomProofs.v
theories/RandomProps.v
theories/Matvec.v
theories/MatvecProofs.v
theories/MatvecProps.v
theories/Toep.v
theories/ToepProofs.v
theories/ToepFields.v
theories/ToepProps.v
theories/Dft.v
theories/DftProofs.v
theories/DftMulti.v
theories/DftThree.v
theories/DftInv.v
theories/DftReals.v
theories/DftExamples.v
theories/DftFinal.v
theories/DftRealsProofs.v
theories/DftProps.v
theories/DftRealsProps.v
theories/LoopLemmas.v
theories/Copy.v
theories/CopyProofs.v
theories/CopyProps.v
theories/Expr.v
theories/ExprProofs.v
theories/ExprProps.v
theories/SubMap.v
theories/SubMapProofs.v
theories/SliceProofs.v
theories/SubMapProps.v
theories/Pool.v
theories/PoolProofs.v
theories/PoolProps.v
theories/Aligned.v
theories/AlignedProofs.v
theories/AlignedProps.v
theories/Scalar.v
theories/ScalarProofs.v
theories/ScalarProps.v
theories/ParSeq.v
theories/ParSeqProofs.v
theories/ParSeqProps.v
theories/Library.v
theories/LibraryProofs.v
theories/LibraryProps.v
theories/Blas.v
theories/BlasProofs.v
theories/BlasProps.v
theories/Solver.v
theories/SolverProofs.v
theories/SolverProps.v
theories/Serial.v
theories/SerialProofs.v
theories/SerialProps.v
theories/Window.v
theories/WindowProofs.v
theories/WindowProps.v
theories/Cheby.v
theories/ChebyProofs.v
theories/ChebyProps.v
theories/DBlock.v
theories/DBlockProofs.v
theories/DBlockProps.v
theories/Svd.v
theories/SvdProofs.v
theories/SvdProps.v
theories/Fftw.v
theories/FftwProofs.v
theories/FftwLayout.v
theories/FftwWs.v
theories/FftwPlan.v
theories/FftwFft.v
theories/FftwFftm.v
theories/FftwFinal.v
theories/FftwExamples.v
theories/FftwProps.v
theories/PReduce.v
theories/PReduceProofs.v
theories/PReduceProps.v
theories/Remote.v
theories/RemoteProofs.v
theories/RemoteProps.v
theories/CVsip.v
theories/CVsipProofs.v
theories/CVsipProps.v
theories/CVsipSig.v
theories/CVsipSigProofs.v
theories/CVsipSigProps.v
theories/CVsipFft.v
theories/CVsipFftProofs.v
theories/CVsipFftProps.v
theories/Lazy.v
theories/LazyProofs.v
theories/LazyProps.v
theories/Device.v
theories/DeviceProofs.v
theories/DeviceProps.v
theories/Pyview.v
theories/PyviewProofs.v
theories/PyviewProps.v
theories/FileIO.v
theories/FileIOProofs.v
theories/FileIOProps.v
theories/Handles.v
theories/HandlesProofs.v
theories/HandlesProps.v
theories/PyLang.v
theories/PyProg.v
theories/PyCalls.v
theories/PyCallsProofs.v
theories/PyCallsProps.v
theories/TransMap.v
theories/TransMapProofs.v
theories/TransMapProps.v
theories/Mpi.v
theories/MpiProofs.v
theories/MpiProps.v
theories/Output.v
theories/OutputProofs.v
theories/OutputProps.v
theories/Equal.v
theories/EqualProofs.v
theories/EqualProps.v
theories/Iter.v
theories/IterProofs.v
theories/IterProps.v
theories/Timer.v
theories/TimerProofs.v
theories/TimerProps.v
theories/Wav.v
theories/WavProofs.v
theories/WavProps.v
theories/Hdf5.v
theories/Hdf5Proofs.v
theories/Hdf5Props.v
theories/PyLife.v
theories/PyLifeProofs.v
theories/PyLifeProps.v
theories/Prod34.v
theories/Prod34Proofs.v
theories/Prod34Props.v
theories/RtPtr.v
theories/RtPtrProofs.v
theories/RtPtrProps.v
theories/SolverObj.v
theories/SolverObjProofs.v
theories/SolverObjProps.v
theories/Resample.v
theories/ResampleProofs.v
theories/ResampleProps.v
theories/FiltObj.v
theories/FiltObjProofs.v
theories/FiltObjProps.v
theories/ParFun.v
theories/ParFunProofs.v
theories/ParFunProps.v
theories/ParVm.v
theories/ParVmProofs.v
theories/ParVmProps.v
theories/HistObj.v
theories/HistObjProofs.v
theories/HistObjProps.v
theories/ParFftm.v
theories/ParFftmProofs.v
theories/ParFftmProps.v
theories/PyPar.v
theories/PyParProofs.v
theories/PyParProps.v
theories/Polar.v
theories/PolarProofs.v
theories/PolarProps.v
theories/Cfar.v
theories/CfarProofs.v
theories/CfarProps.v
theories/Firbank.v
theories/FirbankProofs.v
theories/FirbankProps.v
theories/Fastconv.v
theories/FastconvProofs.v
theories/FastconvProps.v
theories/CfarFlat.v
theories/CfarFlatProofs.v
theories/CfarFlatProps.v
