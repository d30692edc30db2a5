-Q theories Verif
theories/Machine.v
theories/Log2Model.v
theories/HistModel.v
theories/FloatModel.v
theories/IterModel.v
theories/Bins.v
theories/ListZ.v
theories/Log2Facts.v
theories/Cfg.v
theories/Wf.v
theories/Ops.v
theories/AddFacts.v
theories/SubFacts.v
theories/Exact.v
theories/MoreFacts.v
theories/Spec.v
theories/IterSpec.v
theories/FloatSpec.v
theories/FloatFacts.v
theories/IterFacts.v
theories/IterBins.v
theories/SerModel.v
theories/SerSpec.v
theories/ImageSpec.v
theories/LangSpec.v
theories/SerFacts.v
theories/SerCode.v
theories/SerDecode.v
theories/SerRest.v
theories/Reach.v
theories/Witness.v
theories/Cases.v
theories/HeldFacts.v
theories/PfClasses.v
theories/Props_Classes.v
theories/PfRecord.v
theories/Props_Record.v
theories/PfMerge.v
theories/Props_Merge.v
theories/PfQuery.v
theories/Props_Query.v
theories/PfIter.v
theories/Props_Iter.v
theories/PfQuantile.v
theories/Props_Quantile.v
theories/ImageFacts.v
theories/PfSer.v
theories/PfImage.v
theories/LangFacts.v
theories/PfLang.v
theories/CasesSer.v
theories/Props_Ser.v
theories/SyncModel.v
theories/SyncSpec.v
theories/SyncOps.v
theories/SyncFacts.v
theories/SyncRefresh.v
theories/PfSync.v
theories/Props_Sync.v
theories/LogModel.v
theories/LogSpec.v
theories/LogFacts.v
theories/LogText.v
theories/LogTime.v
theories/LogLines.v
theories/LogReader.v
theories/PfLog.v
theories/Props_Log.v
theories/IterLevels.v
theories/IterLinear.v
theories/IterLog.v
theories/PfLevel.v
theories/Props_Level.v
theories/QuantSpec.v
theories/QuantStep.v
theories/IterQuant.v
theories/PfTicks.v
theories/Props_Ticks.v
theories/StatSpec.v
theories/Relerr.v
theories/PfStats.v
theories/PfTotal.v
theories/Props_Stats.v
theories/Props_Total.v
theories/ReleaseModel.v
theories/PfRelease.v
theories/Props_Release.v
theories/OrderSpec.v
theories/PfForms.v
theories/Props_Forms.v
theories/PfPercent.v
theories/Props_Percent.v
theories/PfSize.v
theories/Props_Size.v
theories/PfOrder.v
theories/Props_Order.v
theories/PfAccuracy.v
theories/Props_Accuracy.v
theories/Log2Spec.v
theories/PfUnit.v
theories/Props_Unit.v
theories/PfBounds.v
theories/Props_Bounds.v
theories/Props_Image.v
theories/Props_Lang.v
theories/IoModel.v
theories/IoSpec.v
theories/IoFacts.v
theories/PfIo.v
theories/CasesIo.v
theories/Props_Io.v
theories/LiveSpec.v
theories/LiveFacts.v
theories/PfLive.v
theories/Props_Live.v
theories/PfDeliver.v
theories/Props_Deliver.v
theories/PfUndo.v
theories/Props_Undo.v
theories/FaultSpec.v
theories/PfFault.v
theories/Props_Fault.v
theories/MissSpec.v
theories/PfMiss.v
theories/Props_Miss.v
theories/PfSpread.v
theories/Props_Spread.v
theories/WeakModel.v
theories/WeakSpec.v
theories/WeakFacts.v
theories/CasesSync.v
theories/PfWeak.v
theories/Props_Weak.v
theories/WeakLiveSpec.v
theories/PfWeakLive.v
theories/Props_WeakLive.v
theories/CliModel.v
theories/CliSpec.v
theories/PfCli.v
theories/Props_Cli.v
theories/EventSpec.v
theories/EventFacts.v
theories/PfEvent.v
theories/Props_Event.v
theories/LibmModel.v
theories/LibmSpec.v
theories/LibmFacts.v
theories/PfLibm.v
theories/Props_Libm.v
theories/WidthModel.v
theories/WidthSpec.v
theories/WidthFacts.v
theories/WidthWf.v
theories/WidthAdd.v
theories/WidthSer.v
theories/WidthDe.v
theories/PfWidth.v
theories/Props_Width.v
theories/WeakEventSpec.v
theories/WeakEventFacts.v
theories/PfWeakEvent.v
theories/Props_WeakEvent.v
theories/ReleaseSyncModel.v
theories/ReleaseSyncSpec.v
theories/ReleaseSyncFacts.v
theories/CasesReleaseSync.v
theories/PfReleaseSync.v
theories/Props_ReleaseSync.v
theories/ReleaseLiveSpec.v
theories/PfReleaseLive.v
theories/Props_ReleaseLive.v
theories/WidthSyncModel.v
theories/WidthSyncSpec.v
theories/LooseFacts.v
theories/WidthSyncFacts.v
theories/CasesWidthSync.v
theories/PfWidthSync.v
theories/Props_WidthSync.v
theories/WidthEventSpec.v
theories/WidthEventFacts.v
theories/PfWidthEvent.v
theories/Props_WidthEvent.v
theories/WidthLiveSpec.v
theories/PfWidthLive.v
theories/Props_WidthLive.v
theories/WidthReleaseModel.v
theories/WidthReleaseSpec.v
theories/WidthReleaseFacts.v
theories/CasesWidthRelease.v
theories/PfWidthRelease.v
theories/Props_WidthRelease.v
theories/PfWidthReleaseLive.v
theories/Props_WidthReleaseLive.v
theories/PfWidthReleaseEvent.v
theories/WidthReleaseEventFacts.v
theories/Props_WidthReleaseEvent.v
theories/PfReleaseEvent.v
theories/Props_ReleaseEvent.v
