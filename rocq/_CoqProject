-Q theories Verif
theories/Types.v
theories/Json.v
theories/JsonFacts.v
theories/Prog.v
theories/Backend.v
theories/Queue.v
theories/Sys.v
theories/Spec.v
theories/BackendFacts.v
theories/WorldFacts.v
theories/MicroFacts.v
theories/LifeFacts.v
theories/HistFacts.v
theories/Demo.v
theories/RedisFacts.v
theories/PropBackend.v
theories/SubmitFacts.v
theories/LifeProps.v
theories/ListFacts.v
theories/ApiFacts.v
theories/PropSubmit.v
theories/PropHist.v
theories/PickFacts.v
theories/StarveFacts.v
theories/PropPick.v
theories/TimeFacts.v
theories/RetryFacts.v
theories/CronFacts.v
theories/PropTime.v
theories/FaultFacts.v
theories/OrphanFacts.v
theories/CrashFacts.v
theories/PropFault.v
theories/Plugin.v
theories/SpecPlugin.v
theories/PluginFacts.v
theories/NoteFacts.v
theories/PluginOrder.v
theories/PropPlugin.v
theories/Multi.v
theories/SpecMulti.v
theories/MultiFacts.v
theories/PropMulti.v
theories/Registry.v
theories/SpecRegistry.v
theories/RegistryFacts.v
theories/PropRegistry.v
theories/Macro.v
theories/SpecMacro.v
theories/MacroFacts.v
theories/PropMisc.v
theories/OrderFacts.v
theories/PropOrder.v
theories/SpecValue.v
theories/ValueFacts.v
theories/ValueProps.v
theories/PropValue.v
theories/Workers.v
theories/SpecWorkers.v
theories/WorkersFacts.v
theories/PropWorkers.v
theories/Client.v
theories/SpecClient.v
theories/ClientFacts.v
theories/ClientProgress.v
theories/PropClient.v
theories/FaultCases.v
theories/PropCases.v
theories/SpecLive.v
theories/LiveFacts.v
theories/PropLive.v
theories/Builder.v
theories/SpecBuilder.v
theories/BuilderFacts.v
theories/PropBuilder.v
theories/Timer.v
theories/SpecTimer.v
theories/TimerFacts.v
theories/PropTimer.v
theories/Text.v
theories/SpecText.v
theories/TextFacts.v
theories/PropText.v
theories/Race.v
theories/SpecRace.v
theories/RaceFacts.v
theories/RaceValue.v
theories/RaceProps.v
theories/RaceList.v
theories/RaceSim.v
theories/RaceBack.v
theories/RaceTick.v
theories/RaceLoop.v
theories/RaceCases.v
theories/PropRace.v
theories/Exec.v
theories/SpecCount.v
theories/CountFacts.v
theories/PropCount.v
theories/SpecStray.v
theories/StrayFacts.v
theories/StrayCases.v
theories/PropStray.v
theories/SpecLost.v
theories/RaceLost.v
theories/LostCases.v
theories/PropLost.v
theories/SpecSpace.v
theories/RaceSpace.v
theories/SpaceCases.v
theories/PropSpace.v
theories/SpecFleetLive.v
theories/FleetLive.v
theories/PropFleetLive.v
theories/SpecShort.v
theories/ShortFacts.v
theories/ShortLive.v
theories/PropShort.v
theories/SpecLocked.v
theories/LockedCore.v
theories/LockedFacts.v
theories/LockedRace.v
theories/LockedLoop.v
theories/LockedLive.v
theories/LockedCases.v
theories/StarveCases.v
theories/PropLocked.v
theories/LongFacts.v
theories/PropLong.v
theories/SpecSched.v
theories/SchedFacts.v
theories/SchedDet.v
theories/SlotFacts.v
theories/PropSched.v
theories/Office.v
theories/SpecOffice.v
theories/OfficeFacts.v
theories/PropOffice.v
theories/SpecWhy.v
theories/WhyFacts.v
theories/PropWhy.v
theories/PluginWait.v
theories/PropWait.v
theories/SpecRead.v
theories/ReadFacts.v
theories/PropRead.v
theories/Wire.v
theories/WireFacts.v
theories/PropWire.v
theories/SpecCost.v
theories/CostFacts.v
theories/PropCost.v
theories/SpecRange.v
theories/RangeFacts.v
theories/PropRange.v
theories/SpecFrame.v
theories/FrameFacts.v
theories/PropFrame.v
theories/RepoTests.v
theories/CommuteFacts.v
theories/PropCommute.v
theories/SpecEnd.v
theories/EndFacts.v
theories/EndLive.v
theories/PropEnd.v
theories/SpecOutput.v
theories/OutputFacts.v
theories/PropOutput.v
theories/SpecDrain.v
theories/DrainFacts.v
theories/PropDrain.v
theories/SpecEver.v
theories/EverFacts.v
theories/PropEver.v
theories/SpecFleetFair.v
theories/FleetFair.v
theories/PropFleetFair.v
theories/SpecRedisLive.v
theories/RedisLive.v
theories/PropRedisLive.v
theories/SpecAny.v
theories/AnyFacts.v
theories/PropAny.v
theories/SpecCut.v
theories/CutFacts.v
theories/PropCut.v
theories/SpecBack.v
theories/BackFacts.v
theories/PropBack.v
theories/SpecAdrift.v
theories/AdriftFacts.v
theories/PropAdrift.v
theories/SpecKeys.v
theories/KeysFacts.v
theories/PropKeys.v
theories/SpecNoise.v
theories/NoiseFacts.v
theories/PropNoise.v
theories/FleetEver.v
theories/PropFleetEver.v
theories/SpecFleetRest.v
theories/FleetRest.v
theories/PropFleetRest.v
theories/WorkersRedis.v
theories/SpecFleetRedis.v
theories/FleetRedis.v
theories/PropFleetRedis.v
theories/SpecFrontRedis.v
theories/FrontRedis.v
theories/PropFrontRedis.v
theories/PluginRedis.v
theories/SpecPluginRedis.v
theories/PluginRedisFacts.v
theories/PropPluginRedis.v
theories/OfficeRedis.v
theories/SpecOfficeRedis.v
theories/OfficeRedisFacts.v
theories/PropOfficeRedis.v
theories/SpecSoft.v
theories/SoftFacts.v
theories/SoftSteps.v
theories/CancelCut.v
theories/PropSoft.v
