-Q theories Verif
theories/Base.v
theories/LruApi.v
theories/LruModel.v
theories/LruSpec.v
theories/LruProofs.v
theories/LruHistory.v
theories/LruCopy.v
theories/LruFaults.v
theories/LruMain.v
theories/LruProps.v
theories/UnicodeModel.v
theories/UnicodeSpec.v
theories/UnicodeTextSpec.v
theories/UnicodeProofs.v
theories/UnicodeBodies.v
theories/UnicodeMain.v
theories/UnicodeProps.v
theories/StringModel.v
theories/StringSpec.v
theories/StringProofs.v
theories/DigitsModel.v
theories/DigitsSpec.v
theories/DigitsProofs.v
theories/StringProps.v
theories/SeqModel.v
theories/SeqSpec.v
theories/SeqProofs.v
theories/SeqProps.v
theories/SmallModel.v
theories/SmallSpec.v
theories/SmallProofs.v
theories/SmallProps.v
theories/StopwatchModel.v
theories/StopwatchSpec.v
theories/StopwatchProofs.v
theories/StopwatchProps.v
theories/ScopeModel.v
theories/ScopeSpec.v
theories/ScopeProofs.v
theories/ScopeProps.v
theories/ListUpdate.v
theories/SafeLruModel.v
theories/SafeLruSpec.v
theories/SafeLruProofs.v
theories/SafeLruProps.v
theories/PoolModel.v
theories/PoolSpec.v
theories/PoolProofs.v
theories/PoolLive.v
theories/PoolStop.v
theories/PoolWait.v
theories/PoolDue.v
theories/PoolExamples.v
theories/PoolProps.v
theories/LoggerModel.v
theories/LoggerSpec.v
theories/LoggerProofs.v
theories/LoggerAccount.v
theories/LoggerLive.v
theories/LoggerTimes.v
theories/LoggerExamples.v
theories/LoggerProps.v
theories/LogFileModel.v
theories/LogFileSpec.v
theories/LogFileProofs.v
theories/LogFileFailing.v
theories/LogFileSystem.v
theories/LogFilePaths.v
theories/LogFileExamples.v
theories/LogFileProps.v
theories/LogTextModel.v
theories/LogTextSpec.v
theories/LogTextProofs.v
theories/LogTextExamples.v
theories/LogTextProps.v
theories/ConvModel.v
theories/ConvSpec.v
theories/ConvProofs.v
theories/ConvExamples.v
theories/ConvProps.v
theories/LocaleModel.v
theories/LocaleSpec.v
theories/LocaleProofs.v
theories/LocaleExamples.v
theories/LocaleProps.v
theories/BufferModel.v
theories/BufferSpec.v
theories/BufferProofs.v
theories/BufferExamples.v
theories/BufferProps.v
theories/WriterModel.v
theories/WriterSpec.v
theories/WriterProofs.v
theories/WriterExamples.v
theories/WriterProps.v
theories/MacroModel.v
theories/MacroSpec.v
theories/MacroProofs.v
theories/MacroExamples.v
theories/MacroProps.v
theories/LockModel.v
theories/LockSpec.v
theories/LockProofs.v
theories/LockPool.v
theories/LockLogger.v
theories/LockProgress.v
theories/LockExamples.v
theories/LockProps.v
theories/AlgoModel.v
theories/AlgoSpec.v
theories/AlgoProofs.v
theories/AlgoPow.v
theories/AlgoProps.v
theories/PoolFaultModel.v
theories/PoolFaultSpec.v
theories/PoolFaultProofs.v
theories/PoolFaultExamples.v
theories/PoolFaultProps.v
theories/PoolUseModel.v
theories/PoolUseProofs.v
theories/PoolUseExamples.v
theories/PoolUseProps.v
theories/FloatModel.v
theories/FloatSpec.v
theories/FloatProofs.v
theories/FloatSum.v
theories/FloatUse.v
theories/FloatExamples.v
theories/FloatProps.v
theories/CrashModel.v
theories/CrashSpec.v
theories/CrashProofs.v
theories/CrashSystem.v
theories/CrashMore.v
theories/CrashRefine.v
theories/CrashKeep.v
theories/CrashLines.v
theories/CrashHeaders.v
theories/CrashExamples.v
theories/CrashHeadersEx.v
theories/CrashProps.v
theories/InstanceModel.v
theories/InstanceSpec.v
theories/InstanceProofs.v
theories/InstanceLive.v
theories/InstanceEnd.v
theories/InstanceExamples.v
theories/InstanceProps.v
theories/GroupModel.v
theories/GroupSpec.v
theories/GroupProofs.v
theories/GroupExamples.v
theories/GroupProps.v
theories/FloatTextModel.v
theories/FloatTextSpec.v
theories/FloatTextRound.v
theories/FloatTextNumber.v
theories/FloatTextProofs.v
theories/FloatTextUse.v
theories/FloatTextExamples.v
theories/FloatTextProps.v
theories/CallbackModel.v
theories/CallbackSpec.v
theories/CallbackProofs.v
theories/CallbackFilter.v
theories/CallbackExamples.v
theories/CallbackProps.v
theories/ScopeFailModel.v
theories/ScopeFailSpec.v
theories/ScopeFailProofs.v
theories/ScopeFailExamples.v
theories/ScopeFailProps.v
theories/VersionModel.v
theories/VersionSpec.v
theories/VersionProofs.v
theories/VersionExamples.v
theories/VersionProps.v
theories/PoolHoldModel.v
theories/PoolHoldProofs.v
theories/PoolHoldExamples.v
theories/PoolHoldProps.v
theories/StampModel.v
theories/StampSpec.v
theories/StampCalendar.v
theories/StampProofs.v
theories/StampExamples.v
theories/StampProps.v
theories/StringTests.v
theories/ContainerTests.v
theories/LruTests.v
theories/FloatTests.v
theories/LoggerUseModel.v
theories/LoggerUseSpec.v
theories/LoggerUseProofs.v
theories/LoggerUseExamples.v
theories/LoggerUseProps.v
theories/LogDefaultsModel.v
theories/LogDefaultsSpec.v
theories/LogDefaultsProofs.v
theories/LogDefaultsExamples.v
theories/LogDefaultsProps.v
theories/SafeLruThrowModel.v
theories/SafeLruThrowSpec.v
theories/SafeLruThrowLock.v
theories/SafeLruThrowProofs.v
theories/SafeLruThrowExamples.v
theories/PoolCallModel.v
theories/PoolCallSpec.v
theories/PoolCallProofs.v
theories/PoolCallExamples.v
theories/PoolCallProps.v
theories/OutsideModel.v
theories/OutsideSpec.v
theories/OutsideProofs.v
theories/OutsideExamples.v
theories/OutsideProps.v
theories/PoolFairProofs.v
theories/PoolFairProps.v
theories/LoggerSplitModel.v
theories/LoggerSplitSpec.v
theories/LoggerSplitProofs.v
theories/LoggerSplitExamples.v
theories/LoggerSplitProps.v
theories/SharedModel.v
theories/SharedSpec.v
theories/SharedProofs.v
theories/SharedExamples.v
theories/SharedProps.v
theories/LogAliasSpec.v
theories/LogAliasProofs.v
theories/LogAliasExamples.v
theories/LogAliasProps.v
theories/ScopeTests.v
theories/StopwatchTests.v
theories/LogReadSpec.v
theories/LogReadProofs.v
theories/LogReadExamples.v
theories/LogReadProps.v
theories/FullDiskModel.v
theories/FullDiskSpec.v
theories/FullDiskProofs.v
theories/FullDiskExamples.v
theories/FullDiskProps.v
theories/SampleModel.v
theories/SampleSpec.v
theories/SampleProofs.v
theories/SampleExamples.v
theories/SampleProps.v
theories/ElementModel.v
theories/ElementSpec.v
theories/ElementProofs.v
theories/ElementExamples.v
theories/ElementProps.v
theories/StopwatchClockModel.v
theories/StopwatchClockSpec.v
theories/StopwatchClockProofs.v
theories/StopwatchClockProps.v
theories/PoolTestModel.v
theories/PoolTestSpec.v
theories/PoolTestProofs.v
theories/PoolTestRuns.v
theories/PoolTestExamples.v
theories/PoolTestProps.v
theories/LogTestModel.v
theories/LogTestSpec.v
theories/LogTestProofs.v
theories/LogTestRuns.v
theories/LogTestExamples.v
theories/LogTestProps.v
theories/WatchTestModel.v
theories/WatchTestSpec.v
theories/WatchTestProofs.v
theories/WatchTestProps.v
theories/LogEndModel.v
theories/LogEndSpec.v
theories/LogEndProofs.v
theories/LogEndExamples.v
theories/LogEndProps.v
theories/FloatLocaleModel.v
theories/FloatLocaleSpec.v
theories/FloatLocaleProofs.v
theories/FloatLocaleUse.v
theories/FloatLocaleExamples.v
theories/FloatLocaleProps.v
theories/EncodedSpec.v
theories/EncodedProofs.v
theories/EncodedOrder.v
theories/EncodedUse.v
theories/EncodedExamples.v
theories/EncodedProps.v
theories/EncodedCase.v
theories/EncodedCaseProps.v
theories/LruCompareModel.v
theories/LruCompareSpec.v
theories/LruCompareProofs.v
theories/LruCompareProps.v
theories/LruDefined.v
theories/LruLatest.v
theories/LruLatestProps.v
theories/SafeLruThrowDefined.v
theories/SafeLruThrowProps.v
theories/SafeLruCompareModel.v
theories/SafeLruCompareSpec.v
theories/SafeLruCompareLock.v
theories/SafeLruCompareProofs.v
theories/SafeLruCompareExamples.v
theories/SafeLruCompareProps.v
theories/LruBound.v
theories/LruBoundProps.v
theories/SafeLruBoundSpec.v
theories/SafeLruBound.v
theories/SafeLruBoundExamples.v
theories/SafeLruBoundProps.v
theories/LruCompareBoundSpec.v
theories/LruCompareBound.v
theories/LruCompareBoundProps.v
