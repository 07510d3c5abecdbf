-Q theories Verif
theories/Base.v
theories/HashCodeAnalyzer.v
theories/IntKeyAnalyzer.v
theories/SliceKeyAnalyzer.v
theories/HashTable.v
theories/Maps.v
theories/FrozenMap.v
theories/BaseLemmas.v
theories/HashTableProofs.v
theories/HashCodeAnalyzerProofs.v
theories/IntProofs.v
theories/Spec.v
theories/MapSpec.v
theories/SliceKeyAnalyzerProofs.v
theories/MapsProofs.v
theories/FrozenMapProofs.v
theories/FrozenMapBuild.v
theories/EqbLists.v
theories/FrozenMapFacts.v
theories/CapacityProofs.v
theories/BuildSound.v
theories/Iterators.v
theories/IterSpec.v
theories/IteratorProofs.v
theories/SetOps.v
theories/SetSpec.v
theories/SetOpsProofs.v
theories/Sets.v
theories/FrozenSet.v
theories/FrozenSetProofs.v
theories/MapTheorems.v
theories/TypeSafety.v
theories/ComponentTheorems.v
theories/SetTheorems.v
theories/Refutations.v
theories/HistorySpec.v
theories/History.v
theories/HistoryProofs.v
theories/HistorySafety.v
theories/MacroModel.v
theories/IntWrapProofs.v
theories/MacroProofs.v
theories/HugeMap.v
theories/PrimeProofs.v
theories/UsizeAnalyzer.v
theories/SizeSpec.v
theories/TableSizeProofs.v
theories/ObjectSpec.v
theories/MapObjects.v
theories/MapObjectProofs.v
theories/MapObjectEq.v
theories/SetObjects.v
theories/SetObjectProofs.v
theories/Determinism.v
theories/LookupCost.v
theories/CostSpec.v
theories/LookupCostProofs.v
theories/TotalCost.v
theories/DebugModel.v
theories/DebugProofs.v
theories/SetAlgebra.v
theories/FrozenSetAlgebra.v
theories/ExprSpec.v
theories/SetExpressions.v
theories/Constructors.v
theories/ConstructorProofs.v
theories/SpecializedConstructors.v
theories/SpecializedConstructorProofs.v
theories/IterationOrder.v
theories/MacroParse.v
theories/ParseSpec.v
theories/MacroParseProofs.v
theories/ManyMut.v
theories/ManyMutProofs.v
theories/FloatSpec.v
theories/FloatProofs.v
theories/AnalysisCost.v
theories/AnalysisCostProofs.v
theories/SliceCost.v
theories/SliceCostProofs.v
theories/SetDeterminism.v
theories/SetSafety.v
theories/Volatile.v
theories/VolatileProofs.v
theories/EffectSpec.v
theories/VolatileSafety.v
theories/VolatilePanics.v
theories/CallSpec.v
theories/CallProofs.v
theories/CallTheorems.v
theories/VolatileSets.v
theories/VolatileSetSpec.v
theories/VolatileSetProofs.v
theories/VolatileSetTheorems.v
theories/SetCallSpec.v
theories/SetCallProofs.v
theories/Cloning.v
theories/CloneSpec.v
theories/CloneProofs.v
theories/Borrows.v
theories/BorrowSpec.v
theories/BorrowProofs.v
theories/MapBorrows.v
theories/MapBorrowSpec.v
theories/MapBorrowProofs.v
theories/LenModel.v
theories/LenSpec.v
theories/LenProofs.v
theories/SpecialClone.v
theories/SpecialCloneSpec.v
theories/SpecialCloneProofs.v
theories/LawfulCloneSpec.v
theories/LawfulCloneProofs.v
theories/Naming.v
theories/NamingSpec.v
theories/NamingProofs.v
theories/VolatileMaps.v
theories/VolatileMapSpec.v
theories/VolatileMapProofs.v
theories/EffectProofs.v
theories/SpecialCallSpec.v
theories/SpecialCallProofs.v
theories/SpecialSets.v
theories/SpecialSetSpec.v
theories/SpecialSetProofs.v
theories/VolatileRange.v
theories/RangeSpec.v
theories/RangeProofs.v
theories/SetRunning.v
theories/RunSpec.v
theories/SetRunningProofs.v
theories/IteratorUse.v
theories/IteratorUseSpec.v
theories/IteratorUseProofs.v
theories/StdSets.v
theories/StdSetSpec.v
theories/StdSetProofs.v
theories/ProjectTests.v
theories/CollisionSpec.v
theories/ProjectTestProofs.v
theories/DocExamples.v
theories/DocExampleProofs.v
theories/Walks.v
theories/WalkSpec.v
theories/WalkProofs.v
theories/MacroEmit.v
theories/EmitSpec.v
theories/MacroEmitProofs.v
theories/Benchmarks.v
theories/BenchmarkProofs.v
theories/EmitRun.v
theories/WrittenSpec.v
theories/EmitRunProofs.v
theories/RepeatedSpec.v
theories/RepeatedProofs.v
theories/RepeatedCallProofs.v
theories/PlaceSpec.v
theories/PlaceProofs.v
theories/RepeatedEqProofs.v
theories/RepeatedSpecialEq.v
theories/FilledProofs.v
theories/Examples.v
theories/Properties.v
