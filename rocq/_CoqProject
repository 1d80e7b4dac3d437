-Q theories Verif
theories/Prelude.v
theories/PreludeFacts.v
theories/MemStore.v
theories/StoreSpec.v
theories/MemStoreProofs.v
theories/Calendar.v
theories/CalendarFacts.v
theories/Cron.v
theories/CronSpec.v
theories/CronIncr.v
theories/CronProofs.v
theories/CronSearch.v
theories/CronTop.v
theories/FloatDiv.v
theories/FloatDivProofs.v
theories/Triggers.v
theories/TriggerSpec.v
theories/TriggersProofs.v
theories/TriggersProofs2.v
theories/TriggersMore.v
theories/PropStore.v
theories/PropCron.v
theories/PropTriggers.v
theories/PropTriggers2.v
theories/CallArgs.v
theories/CallArgsProofs.v
theories/Task.v
theories/TaskSpec.v
theories/TaskProofs.v
theories/PropTask.v
theories/Scheduler.v
theories/Executor.v
theories/Conc.v
theories/ConcProofs.v
theories/PropExec.v
theories/SortList.v
theories/Durable.v
theories/DurableSpec.v
theories/DurableProofs.v
theories/DurableProofs2.v
theories/DurableProofs3.v
theories/PropDurable.v
theories/FileSys.v
theories/PropFile.v
theories/SchedSpec.v
theories/SchedProofs.v
theories/SchedProofs2.v
theories/SchedReach.v
theories/SchedProofs3.v
theories/SchedProofs4.v
theories/LifeSpec.v
theories/LifeAcc.v
theories/LifeAll.v
theories/TriggersErr.v
theories/LifeProofs.v
theories/LifeProofs2.v
theories/PropLife.v
theories/PropSched.v
theories/PropLife2.v
theories/PropLife3.v
theories/Locks.v
theories/PropLocks.v
theories/Events.v
theories/PropEvents.v
theories/Text.v
theories/Inspect.v
theories/PropInspect.v
theories/Timer.v
theories/PropTimer.v
theories/CronParse.v
theories/CronParseSpec.v
theories/PropCronText.v
theories/PropCronText2.v
theories/Persist.v
theories/PersistSpec.v
theories/PropPersist.v
theories/Dash.v
theories/DashSpec.v
theories/PropDash.v
theories/History.v
theories/PropHistory.v
theories/Forms.v
theories/FormsSpec.v
theories/PropForms.v
theories/PropForms2.v
theories/Shapes.v
theories/PropShapes.v
theories/Cli.v
theories/CliSpec.v
theories/PropCli.v
theories/Remote.v
theories/RemoteSpec.v
theories/PropRemote.v
theories/DateText.v
theories/DateTextSpec.v
theories/PropDate.v
theories/Zone.v
theories/ZoneSpec.v
theories/ZoneFacts.v
theories/ZoneCron.v
theories/PropZone.v
theories/PropZone2.v
theories/PropZone3.v
theories/PropCatchUp.v
theories/TrigZone.v
theories/PropTrigZone.v
theories/AddTask.v
theories/AddSpec.v
theories/AddProofs.v
theories/PropAdd.v
theories/Config.v
theories/PropConfig.v
theories/CliTask.v
theories/PropCliTask.v
theories/Refs.v
theories/PropRefs.v
theories/Gate.v
theories/PropGate.v
theories/PropRemote2.v
theories/TaskPages.v
theories/PropTaskPages.v
theories/TaskCreate.v
theories/PropTaskCreate.v
theories/CliRun.v
theories/CliRunFacts.v
theories/PropCliRun.v
theories/Capture.v
theories/CaptureSpec.v
theories/CaptureProofs.v
theories/PropCapture.v
theories/Settings.v
theories/PropSettings.v
theories/Crash.v
theories/CrashSpec.v
theories/CrashProofs.v
theories/CrashHistory.v
theories/PropCrash.v
theories/Timeline.v
theories/PropTimeline.v
theories/Status.v
theories/PropStatus.v
theories/Relay.v
theories/PropRelay.v
theories/DataShape.v
theories/PropDataShape.v
theories/Preview.v
theories/PropPreview.v
theories/Supervise.v
theories/PropSupervise.v
theories/Bootstrap.v
theories/PropBootstrap.v
theories/HistoryPages.v
theories/HistoryPagesSpec.v
theories/PropHistoryPages.v
theories/Watch.v
theories/PropWatch.v
theories/OwnLoop.v
theories/PropOwnLoop.v
theories/Links.v
theories/LinksSpec.v
theories/LinksProofs.v
theories/PropLinks.v
theories/Banner.v
theories/PropBanner.v
theories/TaskFilters.v
theories/PropFilters.v
theories/Handles.v
theories/HandlesProofs.v
theories/HandlesProofs2.v
theories/HandlesProofs3.v
theories/HandlesProofs4.v
theories/HandlesProofs5.v
theories/HandlesProofs6.v
theories/HandlesProofs7.v
theories/HandlesProofs8.v
theories/PropHandles.v
theories/Options.v
theories/PropOptions.v
