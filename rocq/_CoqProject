-Q theories Verif
theories/Str.v
theories/Path.v
theories/Json.v
theories/Types.v
theories/Parse.v
theories/Map.v
theories/Prog.v
theories/Desc.v
theories/Resolve.v
theories/Top.v
theories/Run.v
theories/Posix.v
theories/MapTests.v
theories/FixtureTests.v
theories/StrP.v
theories/SpecParse.v
theories/ParseP.v
theories/PathP.v
theories/PropParseP.v
theories/PropParse.v
theories/Exec.v
theories/SpecApi.v
theories/ExecP.v
theories/ApiP.v
theories/SpecCarry.v
theories/CarryP.v
theories/Demo.v
theories/SpecError.v
theories/ErrorP.v
theories/PropApiP.v
theories/PropApi.v
theories/SpecMap.v
theories/SpecField.v
theories/MapP.v
theories/TrieP.v
theories/FindP.v
theories/SelectP.v
theories/FieldP.v
theories/NamesP.v
theories/CheckP.v
theories/PropMapP.v
theories/Map32.v
theories/Map32P.v
theories/PropMap32.v
theories/PropMap.v
theories/FuelP.v
theories/RunP.v
theories/WitnessP.v
theories/PropRefutedP.v
theories/PropRefuted.v
theories/SpecRun.v
theories/TsP.v
theories/PropTsP.v
theories/PropTs.v
theories/LookupP.v
theories/LookupTopP.v
theories/PropLookupP.v
theories/PropLookup.v
theories/SpecLoad.v
theories/PosixP.v
theories/SpellP.v
theories/SpecCache.v
theories/SimP.v
theories/LoadP.v
theories/GuarP.v
theories/SpecJson.v
theories/JsonP.v
theories/CacheP.v
theories/ColdP.v
theories/HistP.v
theories/NoFuelP.v
theories/SpecTerm.v
theories/AnswerP.v
theories/TotalP.v
theories/TermP.v
theories/ReachP.v
theories/TwinP.v
theories/PropCacheP.v
theories/PropCache.v
theories/PropTermP.v
theories/PropReachP.v
theories/PropReach.v
theories/PropTerm.v
theories/SpecPanic.v
theories/PanicP.v
theories/PropPanicP.v
theories/PropPanic.v
theories/SpecChange.v
theories/ChangeP.v
theories/GrownP.v
theories/PropChangeP.v
theories/PropChange.v
theories/SpecExports.v
theories/ExportsP.v
theories/PropExportsP.v
theories/PropExports.v
theories/SpecNode.v
theories/NodeP.v
theories/PropNodeP.v
theories/PropNode.v
theories/SpecWorld.v
theories/SpecFull.v
theories/FullP.v
theories/SoundP.v
theories/AllowP.v
theories/PropFullP.v
theories/PropFull.v
theories/PropAllowP.v
theories/PropAllow.v
theories/Lock.v
theories/SpecLock.v
theories/LockP.v
theories/SpecDesc.v
theories/DescP.v
theories/PropDescP.v
theories/PropDesc.v
theories/SpecDebug.v
theories/DebugP.v
theories/PropDebugP.v
theories/PropDebug.v
theories/SpecStale.v
theories/StaleP.v
theories/MoveP.v
theories/PropStaleP.v
theories/PropStale.v
theories/PropMoveP.v
theories/SpecEnd.v
theories/EndP.v
theories/CalmP.v
theories/KeepP.v
theories/PropEndP.v
theories/PropMove.v
theories/PropEnd.v
theories/ChangeEndP.v
theories/PropChangeEndP.v
theories/PropChangeEnd.v
theories/SpecPhase.v
theories/PhaseP.v
theories/PropPhaseP.v
theories/PropPhase.v
theories/LiveP.v
theories/PropLockP.v
theories/PropLock.v
theories/JsonText.v
theories/SpecJsonText.v
theories/JsonTextP.v
theories/JsonRoundP.v
theories/SpecRetell.v
theories/RetellP.v
theories/PropJsonTextP.v
theories/PropJsonText.v
theories/SpecAgain.v
theories/PropAgainP.v
theories/PropAgain.v
theories/SpecReads.v
theories/PropReadsP.v
theories/PropReads.v
theories/SpecDenote.v
theories/PropDenoteP.v
theories/PropDenote.v
theories/SpecWork.v
theories/PropWorkP.v
theories/PropWork.v
theories/SpecSight.v
theories/PropSightP.v
theories/PropSight.v
theories/SpecTsChain.v
theories/PropTsChainP.v
theories/PropTsChain.v
theories/Adjust.v
theories/SpecAdjust.v
theories/PropAdjustP.v
theories/PropAdjust.v
theories/SpecBroken.v
theories/PropBrokenP.v
theories/PropBroken.v
theories/SpecTime.v
theories/PropPeriodP.v
theories/PropPeriod.v
theories/SpecInside.v
theories/PropInsideP.v
theories/PropInside.v
theories/SpecPolicy.v
theories/PropPolicyP.v
theories/PropPolicy.v
theories/SpecChain.v
theories/PropChainP.v
theories/PropChain.v
