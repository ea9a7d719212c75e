-Q theories Verif

theories/Res.v
theories/Word.v
theories/Config.v
theories/Hash.v
theories/Bitvector.v
theories/Rank.v
theories/Select.v
theories/LabelVector.v
theories/Suffix.v
theories/Builder.v
theories/Dense.v
theories/Sparse.v
theories/Surf.v
theories/BitFacts.v
theories/WordFacts.v
theories/BitvectorFacts.v
theories/RankSelectFacts.v
theories/Spec.v
theories/KeyFacts.v
theories/Trie.v
theories/SuffixFacts.v
theories/StoreFacts.v
theories/BuilderFacts.v
theories/DenseBuild.v
theories/Cutoff.v
theories/StructFacts.v
theories/NodeFacts.v
theories/LabelFacts.v
theories/SparseFacts.v
theories/DenseFacts.v
theories/LookupFacts.v
theories/SpecApi.v
theories/Serialize.v
theories/SpecFilter.v
theories/IntKeys.v
theories/SerialFacts.v
theories/FilterFacts.v
theories/PointFacts.v
theories/Samples.v
theories/HashApi.v
theories/PropPoint.v
theories/SpecBits.v
theories/BitsApi.v
theories/SuffixApi.v
theories/Swar.v
theories/WordApi.v
theories/PropBits.v
theories/SpecTrie.v
theories/TrieApi.v
theories/SizeFacts.v
theories/PropTrie.v
theories/PropSize.v
theories/IterTrie.v
theories/IterDense.v
theories/IterDMove.v
theories/IterSparse.v
theories/IterFacts.v
theories/IterKey.v
theories/SpecIter.v
theories/IterApi.v
theories/SamplesIter.v
theories/PropIter.v
theories/SeekOrder.v
theories/SuffixOrder.v
theories/SeekDense.v
theories/SeekSparse.v
theories/SeekFacts.v
theories/CompareFacts.v
theories/IterSim.v
theories/SpecRange.v
theories/RangeApi.v
theories/SpecBare.v
theories/SpecAlone.v
theories/SpecDAlone.v
theories/SpecCountAlone.v
theories/SamplesRange.v
theories/PropRange.v
theories/BareFacts.v
theories/PropBare.v
theories/AloneFacts.v
theories/PropAlone.v
theories/DAloneFacts.v
theories/PropDAlone.v
theories/LoneFacts.v
theories/PropLone.v
theories/Bloom.v
theories/SpecBloom.v
theories/BloomFacts.v
theories/PropBloom.v
theories/TrimFacts.v
theories/Heap.v
theories/SpecSession.v
theories/SerialApi.v
theories/SamplesSerial.v
theories/PropSerial.v
theories/SpecParts.v
theories/PartApi.v
theories/PropParts.v
theories/SafeBits.v
theories/SafeDense.v
theories/SafeSparse.v
theories/SafeApi.v
theories/SamplesSafe.v
theories/PropSafe.v
theories/Threads.v
theories/ThreadFacts.v
theories/SamplesThreads.v
theories/PropThreads.v
theories/CountBits.v
theories/CountTrie.v
theories/CountSparse.v
theories/CountDense.v
theories/CountDLoop.v
theories/CountSeek.v
theories/CountIt.v
theories/SpecCount.v
theories/CountApi.v
theories/CountAlone.v
theories/SamplesCount.v
theories/PropCount.v
theories/PropCountAlone.v
theories/CountBack.v
theories/BackApi.v
theories/PropBack.v
theories/SpecFixed.v
theories/FixedApi.v
theories/SamplesFixed.v
theories/PropFixed.v
theories/Murmur.v
theories/Bench.v
theories/MurmurFacts.v
theories/SpecBench.v
theories/BenchFacts.v
theories/BenchApi.v
theories/PropBench.v
theories/Load.v
theories/SpecLoad.v
theories/LoadFacts.v
theories/PropLoad.v
theories/Multi.v
theories/SpecMulti.v
theories/MultiFacts.v
theories/PropMulti.v
theories/Demo.v
theories/DemoFacts.v
theories/PropDemo.v
theories/Broadword.v
theories/BroadFacts.v
theories/PropBroad.v
theories/StrictFacts.v
theories/PropStrict.v
theories/SpecExact.v
theories/ExactFacts.v
theories/PropExact.v
theories/SpecDepend.v
theories/DependFacts.v
theories/PropDepend.v
theories/SpecSpace.v
theories/SpaceFacts.v
theories/PropSpace.v
theories/ExactAlone.v
theories/PropExactAlone.v
theories/SpecHash.v
theories/HashFacts.v
theories/PropHash.v
theories/TruncFacts.v
theories/PropTrunc.v
theories/FitFacts.v
theories/PropFit.v
theories/CountExact.v
theories/PropCountExact.v
theories/CountFault.v
theories/PropCountFault.v
theories/StepFacts.v
theories/PropStep.v
theories/Arf.v
theories/SpecArf.v
theories/ArfFacts.v
theories/PropArf.v
theories/SpecMerge.v
theories/MergeFacts.v
theories/PropMerge.v
theories/Gen.v
theories/SpecGen.v
theories/GenFacts.v
theories/PropGen.v
theories/RepoTests.v
theories/SpecMurmur.v
theories/MurmurInj.v
theories/PropMurmur.v
