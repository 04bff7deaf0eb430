-Q theories Verif
theories/Model/Bytes.v
theories/Model/Err.v
theories/Model/Field.v
theories/Model/Format.v
theories/Model/IO.v
theories/Model/BulkIO.v
theories/Model/Bucket.v
theories/Model/Pool.v
theories/Model/Recover.v
theories/Model/Create.v
theories/Model/Store.v
theories/Spec.v
theories/SpecFormat.v
theories/SpecDisk.v
theories/Model/History.v
theories/Model/Crash.v
theories/SpecCrash.v
theories/SpecHeader.v
theories/SpecCreate.v
theories/SpecVisit.v
theories/Model/Events.v
theories/Model/Visit.v
theories/Model/Posix.v
theories/Proofs/BytesFacts.v
theories/Proofs/FieldFacts.v
theories/Proofs/IOFacts.v
theories/Proofs/PoolFacts.v
theories/Proofs/BucketFacts.v
theories/Proofs/BulkFacts.v
theories/Proofs/HashFacts.v
theories/Proofs/Table.v
theories/Proofs/Lookup.v
theories/Proofs/SplitFacts.v
theories/Proofs/CommitFacts.v
theories/Proofs/CommitInv.v
theories/Proofs/CommitRun.v
theories/Proofs/HeaderFacts.v
theories/Proofs/StoreInv.v
theories/Proofs/OpenFacts.v
theories/Proofs/HistoryFacts.v
theories/Proofs/LifeFacts.v
theories/Proofs/MapFacts.v
theories/Proofs/SafeFacts.v
theories/Proofs/CommitOps.v
theories/Proofs/CrashFacts.v
theories/Proofs/RecoverFacts.v
theories/Proofs/EventFacts.v
theories/Proofs/FailFacts.v
theories/Proofs/Witness.v
theories/Proofs/CrashTheorems.v
theories/Proofs/RefuseFacts.v
theories/Proofs/CreateFacts.v
theories/Proofs/VisitFacts.v
theories/Props/Samples.v
theories/Props/CrashSamples.v
theories/Props/CrashProps.v
theories/Props/RefuseProps.v
theories/Props/CreateProps.v
theories/Props/MapProps.v
theories/Proofs/FormatFacts.v
theories/Proofs/PoolProps.v
theories/Props/FormatProps.v
theories/Proofs/DiskFacts.v
theories/Proofs/WrittenFacts.v
theories/Proofs/VisitTheorems.v
theories/Props/VisitProps.v
theories/Proofs/PosixFacts.v
theories/Props/PosixProps.v
theories/Props/DiskProps.v
theories/Model/XXHash.v
theories/SpecXXH.v
theories/Proofs/XXHashFacts.v
theories/Props/XXHashProps.v
theories/Model/Arena.v
theories/Model/Verify.v
theories/SpecArena.v
theories/SpecVerify.v
theories/Proofs/ArenaFacts.v
theories/Props/ArenaProps.v
theories/Proofs/VerifyFacts.v
theories/Proofs/VerifyFast.v
theories/Proofs/VerifyTheorems.v
theories/Proofs/VerifySound.v
theories/Proofs/VerifySoundFast.v
theories/Proofs/VerifyIndex.v
theories/Proofs/VerifyRecords.v
theories/Proofs/VerifyErrors.v
theories/Props/VerifyProps.v
theories/Props/VerifySoundProps.v
theories/Proofs/VerifyWalk.v
theories/Model/Rekey.v
theories/Proofs/RekeyBucket.v
theories/Proofs/RekeyFacts.v
theories/Model/RekeyLife.v
theories/SpecRekey.v
theories/Proofs/RekeyRun.v
theories/Proofs/RekeyHist.v
theories/Proofs/RekeyCrash.v
theories/Proofs/RekeyTheorems.v
theories/Props/RekeyProps.v
theories/Model/Context.v
theories/SpecContext.v
theories/Proofs/ContextFacts.v
theories/Proofs/ContextInv.v
theories/Proofs/ContextTheorems.v
theories/Props/ContextProps.v
theories/SpecLin.v
theories/Model/Concurrent.v
theories/Proofs/ConcFacts.v
theories/Proofs/ConcLook.v
theories/Proofs/ConcInv.v
theories/Proofs/ConcStep.v
theories/Proofs/ConcFlush.v
theories/Proofs/LinFacts.v
theories/Proofs/ConcTheorems.v
theories/Props/ConcurrentProps.v
theories/SpecDurable.v
theories/Model/ConcCrash.v
theories/Proofs/ConcDurable.v
theories/Proofs/DurableFacts.v
theories/Props/DurableProps.v
theories/SpecFail.v
theories/Model/ConcFail.v
theories/Proofs/ConcFailInv.v
theories/Proofs/ConcFailRun.v
theories/Proofs/FailHist.v
theories/Proofs/ConcFailAfter.v
theories/Props/FailProps.v
theories/Model/Rest.v
theories/Proofs/ConcRest.v
theories/Props/RestProps.v
theories/Model/Win32.v
theories/Proofs/Win32Facts.v
theories/Props/Win32Props.v
theories/SpecGen.v
theories/Model/Gentex.v
theories/Proofs/GentexFacts.v
theories/Props/GenProps.v
theories/Model/Handles.v
theories/Proofs/HandleFacts.v
theories/Props/HandleProps.v
theories/Model/CreateCrash.v
theories/Proofs/CreateCrashFacts.v
theories/Props/CreateCrashProps.v
theories/Model/BucketMem.v
theories/Proofs/MemFacts.v
theories/Props/MemProps.v
theories/SpecProgress.v
theories/Model/VerifyProgress.v
theories/Proofs/VerifyProgressFacts.v
theories/Proofs/VerifyProgressTheorems.v
theories/Props/VerifyProgressProps.v
theories/Model/Access.v
theories/SpecRace.v
theories/Proofs/RaceFacts.v
theories/Props/RaceProps.v
theories/Model/BufferMem.v
theories/SpecBuffer.v
theories/Proofs/BufferFacts.v
theories/Props/BufferProps.v
theories/Model/VerifyFetch.v
theories/SpecFetch.v
theories/Proofs/VerifyFetchFacts.v
theories/Proofs/VerifyFetchSim.v
theories/Proofs/VerifyFetchDb.v
theories/Proofs/VerifyFetchTheorems.v
theories/Props/VerifyFetchProps.v
theories/SpecOps.v
theories/Proofs/OpsFacts.v
theories/Props/OpsProps.v
theories/Model/Attrs.v
theories/SpecAttrs.v
theories/Proofs/AttrsFacts.v
theories/Props/AttrsProps.v
theories/SpecCost.v
theories/Proofs/CostFacts.v
theories/Proofs/LookupCost.v
theories/Props/CostProps.v
theories/Model/Throttle.v
theories/SpecThrottle.v
theories/Proofs/ThrottleFacts.v
theories/Props/ThrottleProps.v
theories/Proofs/SizeFacts.v
theories/Props/SizeProps.v
theories/Model/PoolMem.v
theories/SpecPoolMem.v
theories/Proofs/PoolMemFacts.v
theories/Props/PoolMemProps.v
theories/SpecErr.v
theories/Proofs/ErrFacts.v
theories/Props/ErrProps.v
theories/Proofs/RepairFacts.v
theories/Props/RepairProps.v
theories/Model/ErrArg.v
theories/Proofs/ErrArgFacts.v
theories/Props/ErrArgProps.v
theories/Model/Reentry.v
theories/SpecReentry.v
theories/Proofs/ReentryFacts.v
theories/Props/ReentryProps.v
theories/Model/ObjectLife.v
theories/Proofs/ObjectLifeFacts.v
theories/Props/ObjectLifeProps.v
theories/Proofs/TwiceFacts.v
theories/Props/TwiceProps.v
theories/Model/Beside.v
theories/Proofs/WholeFacts.v
theories/Proofs/BesideFacts.v
theories/Props/BesideProps.v
theories/Model/Backup.v
theories/Proofs/BackupFacts.v
theories/Props/BackupProps.v
theories/Model/ErrorCode.v
theories/Props/ErrorCodeProps.v
theories/Proofs/OlderFacts.v
theories/Props/OlderProps.v
theories/SpecTool.v
theories/Model/Tool.v
theories/Proofs/ToolFacts.v
theories/Proofs/ToolRun.v
theories/Props/ToolProps.v
theories/Model/ToolProgress.v
theories/SpecToolProgress.v
theories/Proofs/ToolProgressFacts.v
theories/Props/ToolProgressProps.v
theories/SpecVisitAny.v
theories/Proofs/VisitAny.v
theories/Props/VisitAnyProps.v
theories/Proofs/RekeyAny.v
theories/Props/RekeyAnyProps.v
theories/SpecSalvage.v
theories/Proofs/SalvageFacts.v
theories/Props/SalvageProps.v
theories/Model/FailFile.v
theories/SpecRetry.v
theories/Proofs/RetryFacts.v
theories/Proofs/FailFileFacts.v
theories/Proofs/LargeLog.v
theories/Props/FailFileProps.v
theories/Model/Generator.v
theories/SpecItems.v
theories/Proofs/GeneratorFacts.v
theories/Model/Round.v
theories/SpecRound.v
theories/Proofs/RoundFacts.v
theories/Props/TestDataProps.v
theories/SpecHeard.v
theories/Proofs/HeardFacts.v
theories/Props/HeardProps.v
theories/SpecTrouble.v
theories/Proofs/HarmlessFacts.v
theories/Props/TroubleProps.v
