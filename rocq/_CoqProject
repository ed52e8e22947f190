-Q theories Verif
theories/Bytes.v
theories/Model/Types.v
theories/Machine.v
theories/Model/Params.v
theories/Model/Helpers.v
theories/Model/Prims.v
theories/Model/Hashers.v
theories/Model/Wots.v
theories/Model/Xmss.v
theories/Model/Hypertree.v
theories/Model/Fors.v
theories/Model/Slh.v
theories/Model/Api.v
theories/Model/Ffi.v
theories/Spec/Fips205.v
theories/Spec/Fips205Hash.v
theories/Proof/Runs.v
theories/Proof/Facts.v
theories/Proof/HelpersP.v
theories/Proof/SpecP.v
theories/Proof/HashP.v
theories/Proof/Fun.v
theories/Proof/WotsP.v
theories/Proof/XmssP.v
theories/Proof/HtP.v
theories/Proof/ForsP.v
theories/Proof/SlhP.v
theories/Proof/SerP.v
theories/Proof/Honest.v
theories/Proof/ApiP.v
theories/Proof/SpecFun.v
theories/Spec/Vocab.v
theories/Proof/Summary.v
theories/Proof/TopCorrect.v
theories/Proof/Toy.v
theories/Proof/TopSafety.v
theories/Proof/TopFips.v
theories/Proof/CallsP.v
theories/Proof/TopKeys.v
theories/Proof/TopRandom.v
theories/Proof/TopFraming.v
theories/Proof/ToyKeys.v
theories/Props/Correct.v
theories/Props/Safety.v
theories/Props/Fips.v
theories/Props/Keys.v
theories/Props/Random.v
theories/Props/Framing.v
theories/Proof/TopSer.v
theories/Proof/PosP.v
theories/Props/Encoding.v
theories/Proof/TopTrace.v
theories/Proof/TopPath.v
theories/Proof/ToyTrace.v
theories/Props/Traces.v
theories/Proof/TopFfi.v
theories/Spec/VocabFfi.v
theories/Spec/VocabHist.v
theories/Proof/TopHist.v
theories/Props/CInterface.v
theories/Props/History.v
theories/Proof/TopBuild.v
theories/Proof/TopWots.v
theories/Props/Build.v
theories/Props/OneTime.v
theories/Spec/VocabLeak.v
theories/Proof/Low.v
theories/Proof/LowHash.v
theories/Proof/LowTree.v
theories/Proof/LowSign.v
theories/Proof/TopLeak.v
theories/Proof/ToyLeak.v
theories/Props/Leakage.v
theories/Proof/Forge.v
theories/Spec/VocabForge.v
theories/Proof/TopForge.v
theories/Proof/ToyForge.v
theories/Props/Forgery.v
theories/Model/Zeroize.v
theories/Spec/VocabMem.v
theories/Proof/TopZero.v
theories/Props/Erasure.v
theories/Model/Py.v
theories/Proof/TopPy.v
theories/Props/Python.v
theories/Proof/TopUnforge.v
theories/Spec/Sha2.v
theories/Spec/Sha3.v
theories/Spec/Standard.v
theories/Model/Features.v
theories/Spec/VocabFeat.v
theories/Proof/TopFeat.v
theories/Proof/TopStd.v
theories/Props/Standard.v
theories/Props/Features.v
theories/Model/Fuzz.v
theories/Proof/TopFuzz.v
theories/Props/Fuzz.v
theories/Spec/VocabConc.v
theories/Proof/TopConc.v
theories/Props/Concurrency.v
theories/Spec/VocabPublic.v
theories/Proof/ToyPublic.v
theories/Model/FfiMem.v
theories/Spec/VocabC.v
theories/Proof/TopC.v
theories/Proof/ToyC.v
theories/Props/CPrograms.v
theories/Proof/Bind.v
theories/Spec/VocabBind.v
theories/Proof/TopBind.v
theories/Props/Binding.v
theories/Proof/Pair.v
theories/Proof/TopPair.v
theories/Spec/VocabSel.v
theories/Proof/Select.v
theories/Proof/TopSelect.v
theories/Props/Selection.v
theories/Spec/VocabPrf.v
theories/Proof/TopPrf.v
theories/Props/SecretUse.v
theories/Model/Dudect.v
theories/Proof/TopDudect.v
theories/Proof/ToyDudect.v
theories/Props/Timing.v
theories/Spec/VocabPrim.v
theories/Proof/TopPrim.v
theories/Proof/ToyPrim.v
theories/Props/Primitives.v
theories/Spec/VocabThreads.v
theories/Proof/TopThreads.v
theories/Proof/ToyThreads.v
theories/Props/CThreads.v
theories/Spec/VocabCommit.v
theories/Proof/TopCommit.v
theories/Proof/ToyCommit.v
theories/Props/Commitment.v
theories/Spec/VocabWork.v
theories/Proof/TopWork.v
theories/Props/Costs.v
theories/Model/PyObj.v
theories/Spec/VocabPy.v
theories/Proof/TopPyObj.v
theories/Proof/ToyPy.v
theories/Props/PyPrograms.v
theories/Model/FfiTrace.v
theories/Spec/VocabCLeak.v
theories/Proof/TopFfiLeak.v
theories/Proof/ToyCLeak.v
theories/Props/CLeakage.v
theories/Model/Examples.v
theories/Spec/VocabEx.v
theories/Proof/TopEx.v
theories/Props/Examples.v
theories/Model/Kat.v
theories/Spec/VocabKat.v
theories/Proof/TopKat.v
theories/Props/KnownAnswers.v
theories/Spec/VocabPyThreads.v
theories/Proof/TopPyThreads.v
theories/Proof/ToyPyThreads.v
theories/Props/PyThreads.v
theories/Proof/TopCUB.v
theories/Proof/TopPyExact.v
theories/Proof/ToyPyExact.v
theories/Spec/VocabRand.v
theories/Spec/VocabCall.v
theories/Proof/TopRand.v
theories/Proof/TopCalls.v
theories/Props/Generator.v
theories/Props/Separation.v
theories/Spec/VocabLimit.v
theories/Proof/Moment.v
theories/Proof/TopLimit.v
theories/Props/Limit.v
theories/Model/Bench.v
theories/Spec/VocabBench.v
theories/Proof/TopBench.v
theories/Props/Benchmarks.v
theories/Spec/VocabBytes.v
theories/Proof/TopBytes.v
theories/Proof/TopKeySub.v
theories/Props/Linear.v
theories/Props/Digests.v
theories/Proof/TopNest.v
theories/Props/Stack.v
theories/Proof/TopInter.v
theories/Props/Interop.v
theories/Proof/TopOther.v
theories/Props/Other.v
theories/Model/Values.v
theories/Spec/VocabOwn.v
theories/Proof/TopOwn.v
theories/Props/Values.v
theories/Proof/TopSystem.v
theories/Props/System.v
theories/Model/PyErr.v
theories/Proof/TopPyErr.v
theories/Props/PyErrors.v
theories/Model/Residue.v
theories/Spec/VocabResidue.v
theories/Proof/TopResidue.v
theories/Proof/TopResidueC.v
theories/Props/Residue.v
