-Q theories Verif

theories/Scalar.v
theories/Res.v
theories/Tensor.v
theories/TensorFacts.v
theories/Structures.v
theories/StructSpec.v
theories/StructDense.v
theories/StructPattern.v
theories/StructMul.v
theories/StructOps.v
theories/StructNorm.v
theories/StructAct.v
theories/QEx.v
theories/ProofStruct.v
theories/PropStruct.v
theories/OptimUtils.v
theories/UtilsFacts.v
theories/ProofUtils.v
theories/PropUtils.v
theories/Optimizer.v
theories/Construct.v
theories/OptEx.v
theories/OptState.v
theories/OptRun.v
theories/OptSpec.v
theories/OptFacts.v
theories/RealOrd.v
theories/OptConsume.v
theories/ProofRun.v
theories/PropRun.v
theories/OptDir.v
theories/OptTyped.v
theories/OptStep.v
theories/OptPre.v
theories/OptMom.v
theories/OptEx2.v
theories/ProofUpdate.v
theories/PropUpdate.v
theories/Storage.v
theories/ProofStorage.v
theories/PropStorage.v
theories/Psd.v
theories/ProofPsd.v
theories/PropPsd.v
theories/OptNorm.v
theories/CtorSpec.v
theories/CtorFacts.v
theories/ProofCtor.v
theories/PropCtor.v
theories/OptEx3.v
theories/ProofNorm.v
theories/PropNorm.v
theories/OptOrder.v
theories/OptFail.v
theories/ProofFail.v
theories/PropFail.v
theories/ProgressSpec.v
theories/Progress.v
theories/ProgressEx.v
theories/ProofProgress.v
theories/PropProgress.v
theories/IndepSpec.v
theories/Indep.v
theories/ProofIndep.v
theories/PropIndep.v
theories/Warn.v
theories/ProofWarn.v
theories/PropWarn.v
theories/LayerSpec.v
theories/LayerSim.v
theories/LayerCtor.v
theories/LayerInst.v
theories/ProofLayer.v
theories/PropLayer.v
theories/Checkpoint.v
theories/CkptFacts.v
theories/CkptRun.v
theories/ProofCkpt.v
theories/PropCkpt.v
theories/LoadFacts.v
theories/ProofLoad.v
theories/PropLoad.v
theories/Split.v
theories/SplitCtor.v
theories/ProofSplit.v
theories/PropSplit.v
theories/RelistSpec.v
theories/Relist.v
theories/RelistCtor.v
theories/ProofRelist.v
theories/PropRelist.v
theories/Naive.v
theories/NaiveSpec.v
theories/NaiveFacts.v
theories/NaiveRun.v
theories/ProofNaive.v
theories/PropNaive.v
theories/SharingSpec.v
theories/Sharing.v
theories/ProofSharing.v
theories/PropSharing.v
theories/Registry.v
theories/RegistrySpec.v
theories/RegistryFacts.v
theories/ProofRegistry.v
theories/PropRegistry.v
theories/ScaleInv.v
theories/ScaleRun.v
theories/ProofScale.v
theories/PropScale.v
theories/Batch.v
theories/Accum.v
theories/AccumRun.v
theories/ProofAccum.v
theories/PropAccum.v
theories/ShuffleSpec.v
theories/Shuffle.v
theories/ProofShuffle.v
theories/PropShuffle.v
theories/RotateSpec.v
theories/Rotate.v
theories/ProofRotate.v
theories/PropRotate.v
theories/StructSwap.v
theories/ProofSwap.v
theories/PropSwap.v
theories/SgdSpec.v
theories/Sgd.v
theories/ProofSgd.v
theories/PropSgd.v
theories/NewtonSpec.v
theories/MatInv.v
theories/Newton.v
theories/ProofNewton.v
theories/PropNewton.v
theories/Float.v
theories/NanSpec.v
theories/Nan.v
theories/ProofNan.v
theories/PropNan.v
theories/Dtypes.v
theories/DtypeFacts.v
theories/ProofDtypes.v
theories/PropDtypes.v
theories/Alias.v
theories/AliasFacts.v
theories/ProofAlias.v
theories/PropAlias.v
theories/Dist.v
theories/DistSpec.v
theories/DistFacts.v
theories/DistStat.v
theories/DistRun.v
theories/DistEx.v
theories/ProofDist.v
theories/PropDist.v
theories/Async.v
theories/AsyncSpec.v
theories/AsyncFacts.v
theories/ProofAsync.v
theories/PropAsync.v
theories/LinearSpec.v
theories/LinearFacts.v
theories/ProofLinear.v
theories/PropLinear.v
theories/DecaySpec.v
theories/DecayFacts.v
theories/ProofDecay.v
theories/PropDecay.v
theories/RateSpec.v
theories/RateFacts.v
theories/ProofRate.v
theories/PropRate.v
