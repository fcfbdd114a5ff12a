-Q theories Verif
theories/Base.v
theories/Entities.v
theories/IdText.v
theories/Bitset.v
theories/ArrayVec.v
theories/UVec.v
theories/World.v
theories/Query.v
theories/History.v
theories/SpecSmall.v
theories/SpecUVec.v
theories/ProofBase.v
theories/ProofEntities.v
theories/ProofBitset.v
theories/ProofUVec.v
theories/ProofUVecMore.v
theories/ProofArrayVec.v
theories/ProofSort.v
theories/ProofWInv.v
theories/ProofFrame.v
theories/ProofTarget.v
theories/ProofMove.v
theories/ProofAddRemove.v
theories/ProofDespawn.v
theories/ProofBuilder.v
theories/ProofBuild.v
theories/ProofSpawn.v
theories/SpecWorld.v
theories/SpecLedger.v
theories/ProofObserve.v
theories/ProofStep.v
theories/SpecQuery.v
theories/ProofQuery.v
theories/ProofArchIter.v
theories/ProofQueryRun.v
theories/ProofQueryIter.v
theories/ProofStatic.v
theories/ProofLocks.v
theories/ProofGuards.v
theories/ProofSession.v
theories/ProofCalm.v
theories/ProofWorld.v
theories/ProofInfo.v
theories/ProofLaws.v
theories/ProofConsist.v
theories/ProofTorn.v
theories/ProofReject.v
theories/ProofHistory.v
theories/ProofLedger.v
theories/ProofAccess.v
theories/ProofRows.v
theories/ProofMisaligned.v
theories/ProofAlias.v
theories/ProofKnown.v
theories/ProofQueryLaws.v
theories/ProofLife.v
theories/SpecReuse.v
theories/ProofBlind.v
theories/ProofReuse.v
theories/ProofCapacity.v
theories/ProofCapacityHist.v
theories/SpecLimit.v
theories/ProofQuiet.v
theories/ProofQuietWorld.v
theories/ProofLimit.v
theories/ProofLimitVec.v
theories/ProofRecorded.v
theories/MemLog.v
theories/SpecMemory.v
theories/ProofMemory.v
theories/ProofMemWorld.v
theories/ProofMemAdd.v
theories/ProofMemHist.v
theories/Flight.v
theories/SpecFlight.v
theories/ProofShape.v
theories/ProofFlight.v
theories/ProofFlightStep.v
theories/ProofFlightLaws.v
theories/ProofFlightHist.v
theories/DropPanic.v
theories/SpecDropPanic.v
theories/ProofMute.v
theories/ProofDropPanic.v
theories/ProofDropPanicWorld.v
theories/ProofDropPanicOps.v
theories/ProofDropPanicDespawn.v
theories/ProofDropPanicThms.v
theories/SpecRough.v
theories/ProofRough.v
theories/ProofRoughInv.v
theories/ProofRoughMove.v
theories/ProofRoughOps.v
theories/ProofRoughBuild.v
theories/ProofRoughSpawn.v
theories/ProofRoughThms.v
theories/SpecLocks.v
theories/ProofLeaked.v
theories/SpecIds.v
theories/ProofIds.v
theories/PropsEntities.v
theories/PropsBitset.v
theories/PropsArrayVec.v
theories/PropsUVec.v
theories/ExamplesBase.v
theories/ProofRefuted.v
theories/PropsWorld.v
theories/ProofRefutedQuery.v
theories/PropsQuery.v
theories/PropsLife.v
theories/PropsReuse.v
theories/PropsLimit.v
theories/PropsMemory.v
theories/PropsMeta.v
theories/PropsFlight.v
theories/ProofDropPanicRefuted.v
theories/PropsDropPanic.v
theories/ProofRoughRefuted.v
theories/PropsRough.v
theories/SpecIdText.v
theories/ProofIdText.v
theories/PropsIds.v
theories/PropsIdText.v
theories/PropsLocks.v
theories/ExamplesSmall.v
theories/ExamplesUVec.v
theories/ExamplesWorld.v
theories/ExamplesQuery.v
theories/ExamplesLife.v
theories/ExamplesReuse.v
theories/ExamplesLimit.v
theories/ExamplesMemory.v
theories/ExamplesMeta.v
theories/ExamplesRepo.v
theories/ExamplesFlight.v
theories/ExamplesDropPanic.v
theories/ExamplesRough.v
theories/ExamplesIds.v
theories/ExamplesIdText.v
theories/ExamplesLocks.v
theories/SpecTwice.v
theories/ProofTwice.v
theories/PropsTwice.v
theories/ExamplesTwice.v
theories/SpecOrder.v
theories/ProofOrder.v
theories/PropsOrder.v
theories/ExamplesOrder.v
theories/SpecFull.v
theories/ProofFull.v
theories/PropsFull.v
theories/ExamplesFull.v
theories/SpecShort.v
theories/ProofShort.v
theories/PropsShort.v
theories/ExamplesShort.v
theories/Macro.v
theories/SpecMacro.v
theories/ProofMacro.v
theories/PropsMacro.v
theories/ExamplesMacro.v
theories/Playground.v
theories/ProofPlayground.v
theories/PropsPlayground.v
theories/ExamplesPlayground.v
theories/ForEach.v
theories/SpecForEach.v
theories/ProofForEach.v
theories/PropsForEach.v
theories/ExamplesForEach.v
theories/ForEachDyn.v
theories/SpecForEachDyn.v
theories/ProofForEachDyn.v
theories/PropsForEachDyn.v
theories/ExamplesForEachDyn.v
theories/AddRounds.v
theories/SpecAddRounds.v
theories/ProofAddRounds.v
theories/PropsAddRounds.v
theories/ExamplesAddRounds.v
theories/Benches.v
theories/SpecBenches.v
theories/ProofBenches.v
theories/PropsBenches.v
theories/ExamplesBenches.v
theories/IterBench.v
theories/SpecIterBench.v
theories/ProofIterBench.v
theories/PropsIterBench.v
theories/ExamplesIterBench.v
theories/DynBench.v
theories/SpecDynBench.v
theories/ProofDynBench.v
theories/PropsDynBench.v
theories/ExamplesDynBench.v
theories/GetBench.v
theories/SpecGetBench.v
theories/ProofGetBench.v
theories/PropsGetBench.v
theories/ExamplesGetBench.v
theories/InsertBench.v
theories/SpecInsertBench.v
theories/ProofInsertBench.v
theories/PropsInsertBench.v
theories/ExamplesInsertBench.v
theories/SpecRecycle.v
theories/ProofRecycle.v
theories/PropsRecycle.v
theories/ExamplesRecycle.v
