-Q theories Verif
theories/Words.v
theories/Mem.v
theories/State.v
theories/Search.v
theories/Persist.v
theories/Update.v
theories/Delete.v
theories/Iter.v
theories/Keys.v
theories/WordsFacts.v
theories/MemFacts.v
theories/PrefixFacts.v
theories/WordsProps.v
theories/BuildTags.v
theories/PropsWords.v
theories/Trie.v
theories/TrieFacts.v
theories/AllocFacts.v
theories/PText.v
theories/PSeg.v
theories/PWrite.v
theories/Restart.v
theories/LockFacts.v
theories/Occ.v
theories/Core.v
theories/PrepFacts.v
theories/DelPrep.v
theories/Change.v
theories/FinTools.v
theories/Scan.v
theories/FinU.v
theories/FinD.v
theories/Order.v
theories/Api.v
theories/Spec.v
theories/PrepTop.v
theories/Inv.v
theories/Fine.v
theories/FineExec.v
theories/FineRun.v
theories/Step.v
theories/LockStep.v
theories/FineInv.v
theories/FineStep.v
theories/FineRead.v
theories/FineLook.v
theories/FineLock.v
theories/FinePin.v
theories/FineUpd.v
theories/FineDel.v
theories/FineTop.v
theories/FineWake.v
theories/FineProps.v
theories/FineProg.v
theories/ApiProps.v
theories/LookupPath.v
theories/Rmw.v
theories/Script.v
theories/Live.v
theories/Seq.v
theories/Witness.v
theories/ApiTop.v
theories/Examples.v
theories/CandExample.v
theories/PropsApi.v
theories/Kids.v
theories/PSearch.v
theories/MinMax.v
theories/CountFacts.v
theories/IterFacts.v
theories/Query.v
theories/QueryTop.v
theories/CountStats.v
theories/QWitness.v
theories/PropsQuery.v
theories/IterAlong.v
theories/IterGrow.v
theories/IterWitness.v
theories/IterExamples.v
theories/PropsIter.v
theories/Pool.v
theories/PoolFacts.v
theories/PropsPool.v
theories/LockModel.v
theories/LockModelFacts.v
theories/PropsLocks.v
theories/Epoch.v
theories/EpochFacts.v
theories/Unprot.v
theories/UnprotFacts.v
theories/PropsEpoch.v
theories/Recycled.v
theories/LeakWitness.v
theories/LongKeys.v
theories/PropsMemory.v
theories/Same.v
theories/PersistTop.v
theories/PWitness.v
theories/PropsPersist.v
theories/WriterModel.v
theories/WriterFacts.v
theories/PropsWriter.v
theories/BlockRace.v
theories/BlockRaceFacts.v
theories/PropsBlocks.v
theories/RmwExamples.v
theories/PropsRmw.v
theories/FineScript.v
theories/FineWitness.v
theories/FineExamples.v
theories/PropsFine.v
theories/ProgExamples.v
theories/PropsProg.v
theories/StepFin.v
theories/StepExec.v
theories/StepPath.v
theories/StepPhase.v
theories/StepRun.v
theories/StepScript.v
theories/StepLocks.v
theories/StepFinish.v
theories/StepInv.v
theories/StepWitness.v
theories/StepProg.v
theories/StepRest.v
theories/StepEarly.v
theories/StepPlace.v
theories/StepSim.v
theories/StepLin.v
theories/StepAnswer.v
theories/StepWriter.v
theories/StepExamples.v
theories/PropsSteps.v
theories/StepOneExamples.v
theories/PropsStepOne.v
theories/FineObs.v
theories/FineObsExec.v
theories/FineObsRead.v
theories/FineObsTop.v
theories/FineObsProps.v
theories/FineObsSim.v
theories/FineObsOthers.v
theories/FineObsScript.v
theories/FineObsExamples.v
theories/PropsObs.v
theories/Admin.v
theories/AdminFacts.v
theories/AdminWitness.v
theories/PoolAdmin.v
theories/DebugSearch.v
theories/PropsAdmin.v
theories/StepObs.v
theories/StepObsSim.v
theories/StepObsProps.v
theories/StepObsWriter.v
theories/StepObsExamples.v
theories/PropsStepObs.v
