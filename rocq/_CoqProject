-Q theories Verif
theories/Base/Sums.v
theories/Base/Mat.v
theories/Base/PSD.v
theories/Model/Arrays.v
theories/Model/Distances.v
theories/Model/Kernelizers.v
theories/Model/Kernels.v
theories/Spec/Partial.v
theories/Spec/KernelSpec.v
theories/Spec/SoftSpec.v
theories/Proofs/Deriv.v
theories/Proofs/KernelAtoms.v
theories/Proofs/KernelJets.v
theories/Proofs/Loops.v
theories/Proofs/KernelMethods.v
theories/Proofs/Contraction.v
theories/Proofs/KernelDerivs.v
theories/Proofs/KernelSym.v
theories/Proofs/KernelPSD.v
theories/Model/KernelOps.v
theories/Model/MaternJvp.v
theories/Proofs/KernelBounds.v
theories/Proofs/KernelMisc.v
theories/Proofs/MaternPSD.v
theories/Spec/JvpSpec.v
theories/Proofs/KernelPropLemmas.v
theories/Model/Likelihood.v
theories/Proofs/LanczosBias.v
theories/Proofs/LikelihoodFacts.v
theories/Proofs/LikelihoodTD.v
theories/Model/TDClass.v
theories/Spec/TDClassSpec.v
theories/Proofs/TDClassFacts.v
theories/Proofs/TDClassLemmas.v
theories/Spec/CloseSpec.v
theories/Proofs/Restrict.v
theories/Proofs/KernelClose.v
theories/Proofs/GPRClose.v
theories/Proofs/SoftPSD.v
theories/Proofs/M32Gram.v
theories/Proofs/DGram.v
theories/Proofs/SoftJoint.v
theories/Model/KernelObj.v
theories/Spec/KernelObjSpec.v
theories/Proofs/KernelObjFacts.v
theories/Proofs/KernelObjSafe.v
theories/Proofs/KernelObjRun.v
theories/Spec/EquivSpec.v
theories/Proofs/GPREquiv.v
theories/Proofs/EquivExamples.v
theories/Proofs/SGPRMoreFacts.v
theories/Model/Public.v
theories/Spec/PublicSpec.v
theories/Proofs/PublicFacts.v
theories/Proofs/PublicExamples.v
theories/Model/KernelMethods.v
theories/Spec/KernelMethodsSpec.v
theories/Proofs/KernelMethodsFacts.v
theories/Model/PriorDraw.v
theories/Spec/PriorDrawSpec.v
theories/Proofs/PriorDrawFacts.v
theories/Proofs/PriorDrawExamples.v
theories/Model/Lengthscales.v
theories/Spec/LengthscaleSpec.v
theories/Proofs/LengthscaleFacts.v
theories/Model/Concrete.v
theories/Spec/ConcreteSpec.v
theories/Proofs/ConcreteFacts.v
theories/Proofs/LifecycleParams.v
theories/Proofs/ConcretePropLemmas.v
theories/Proofs/ConcreteExamples.v
theories/Model/RBFClass.v
theories/Spec/RBFClassSpec.v
theories/Proofs/RBFClassFacts.v
theories/Proofs/RBFClassLemmas.v
theories/Proofs/RBFClassExamples.v
theories/Proofs/Construction.v
theories/Proofs/LocalRange.v
theories/Proofs/ConcreteSparse.v
theories/Proofs/ConcreteSparseExamples.v
theories/Model/Training.v
theories/Spec/TrainingSpec.v
theories/Proofs/TrainingRun.v
theories/Proofs/TrainingFacts.v
theories/Proofs/TrainingPropLemmas.v
theories/Proofs/TrainingStatements.v
theories/Proofs/TrainingExamples.v
theories/Model/CustomKernel.v
theories/Spec/CustomSpec.v
theories/Proofs/CustomFacts.v
theories/Proofs/CustomExamples.v
theories/Model/GPRAny.v
theories/Spec/SmoothSpec.v
theories/Spec/AnySpec.v
theories/Proofs/SmoothFacts.v
theories/Proofs/AnyFacts.v
theories/Proofs/AnyExamples.v
theories/Model/SGPRAny.v
theories/Proofs/SAnyFacts.v
theories/Proofs/SAnyExamples.v
theories/Model/Views.v
theories/Spec/ViewsSpec.v
theories/Proofs/ViewsFacts.v
theories/Proofs/ViewsExamples.v
theories/Model/FloatDistances.v
theories/Spec/FloatSpec.v
theories/Proofs/FloatFacts.v
theories/Proofs/FloatExamples.v
theories/Proofs/FloatMore.v
theories/Proofs/FloatKernel.v
theories/Proofs/VecRule.v
theories/Model/LossKwargs.v
theories/Spec/LossKwargsSpec.v
theories/Proofs/LossKwargsFacts.v
theories/Model/History.v
theories/Spec/HistorySpec.v
theories/Proofs/HistoryFacts.v
theories/Props/LengthscaleProps.v
theories/Props/LikelihoodProps.v
theories/Props/KernelProps.v
theories/Model/Bijectors.v
theories/Spec/BijectorSpec.v
theories/Proofs/BijectorLemmas.v
theories/Model/Priors.v
theories/Spec/PriorSpec.v
theories/Proofs/PriorLemmas.v
theories/Props/BijectorProps.v
theories/Model/LinAlg.v
theories/Model/Operations.v
theories/Model/RPCholesky.v
theories/Model/GPR.v
theories/Proofs/LinAlgFacts.v
theories/Proofs/Matvec.v
theories/Proofs/Local.v
theories/Proofs/Jet2.v
theories/Proofs/JetPSD.v
theories/Spec/GPSpec.v
theories/Proofs/GPRFacts.v
theories/Proofs/GPRCov.v
theories/Spec/Det.v
theories/Proofs/DetFacts.v
theories/Proofs/CurveDeriv.v
theories/Proofs/GPRLml.v
theories/Spec/MVN.v
theories/Proofs/RPChol.v
theories/Proofs/GPRExamples.v
theories/Proofs/GPRPack.v
theories/Props/GPRProps.v
theories/Model/PyDict.v
theories/Spec/DictSpec.v
theories/Proofs/DictFacts.v
theories/Model/Params.v
theories/Model/State.v
theories/Spec/StateSpec.v
theories/Proofs/TreeFacts.v
theories/Proofs/StateFacts.v
theories/Proofs/UpdateFacts.v
theories/Proofs/SaveLoad.v
theories/Spec/RandomSpec.v
theories/Proofs/RandomFacts.v
theories/Proofs/StatePropLemmas.v
theories/Proofs/StateExamples.v
theories/Props/StateProps.v
theories/Model/Optim.v
theories/Model/Optax.v
theories/Spec/OptimSpec.v
theories/Spec/NameSpec.v
theories/Spec/SearchSpec.v
theories/Proofs/OptimFacts.v
theories/Proofs/OptimRun.v
theories/Proofs/OptimSearch.v
theories/Proofs/OptimPso.v
theories/Proofs/CheckpointFacts.v
theories/Proofs/OptaxFacts.v
theories/Proofs/OptaxHistory.v
theories/Model/Checks.v
theories/Spec/ChecksSpec.v
theories/Proofs/ChecksFacts.v
theories/Proofs/OptimExamples.v
theories/Proofs/OptaxExamples.v
theories/Proofs/OptimPropLemmas.v
theories/Props/OptimProps.v
theories/Model/Calls.v
theories/Model/Lifecycle.v
theories/Spec/LifecycleSpec.v
theories/Proofs/LifecycleFacts.v
theories/Proofs/LifecyclePropLemmas.v
theories/Proofs/DispatchFacts.v
theories/Props/LifecycleProps.v
theories/Model/Lanczos.v
theories/Spec/LanczosSpec.v
theories/Proofs/LanczosFacts.v
theories/Proofs/LanczosQuad.v
theories/Proofs/LanczosLogdet.v
theories/Proofs/LanczosExamples.v
theories/Props/LanczosProps.v
theories/Model/SGPR.v
theories/Model/SGPRMore.v
theories/Spec/SparseSpec.v
theories/Proofs/SGPRFacts.v
theories/Proofs/SGPRIter.v
theories/Proofs/SGPRCov.v
theories/Proofs/SGPRExamples.v
theories/Proofs/SGPRPack.v
theories/Props/SparseProps.v
theories/Model/GPRTD.v
theories/Spec/TDSpec.v
theories/Proofs/GPRTDFacts.v
theories/Proofs/GPRTDFit.v
theories/Proofs/GPRTDPack.v
theories/Props/TDProps.v
theories/Model/OL.v
theories/Spec/OLSpec.v
theories/Proofs/OLFacts.v
theories/Props/OLProps.v
theories/Model/RBFNet.v
theories/Proofs/RBFFacts.v
theories/Props/RBFProps.v
theories/Model/Sampling.v
theories/Spec/SamplingSpec.v
theories/Proofs/SamplingFacts.v
theories/Props/SamplingProps.v
theories/Model/Shapes.v
theories/Proofs/ShapeFacts.v
theories/Props/ShapeProps.v
theories/Props/TDClassProps.v
theories/Props/KernelObjProps.v
theories/Props/EquivProps.v
theories/Props/PublicProps.v
theories/Props/PriorProps.v
theories/Props/ConcreteProps.v
theories/Props/RBFClassProps.v
theories/Props/TrainingProps.v
theories/Props/CustomProps.v
theories/Props/AnyProps.v
theories/Props/SAnyProps.v
theories/Props/ViewsProps.v
theories/Props/FloatProps.v
theories/Props/LossKwargsProps.v
theories/Props/HistoryProps.v
