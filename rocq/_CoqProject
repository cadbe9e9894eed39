-Q theories Verif
theories/Base.v
theories/StrLib.v
theories/Fs.v
theories/FloatNum.v
theories/Values.v
theories/Validators.v
theories/FormatParse.v
theories/Invocation.v
theories/InvocationProofs.v
theories/InvocationCorollaries.v
theories/InvocationEffects.v
theories/ValuesSpec.v
theories/ValuesProofs.v
theories/ValuesRun.v
theories/ValuesProps.v
theories/ValidatorsSpec.v
theories/ValidatorsProofs.v
theories/ValidatorsFiles.v
theories/ValidatorsFs.v
theories/ValidatorsExact.v
theories/Posix.v
theories/PosixSpec.v
theories/PosixProofs.v
theories/PosixWrite.v
theories/PosixPlain.v
theories/PosixFiles.v
theories/Samples.v
theories/PropInvocation.v
theories/PropValues.v
theories/PropValidators.v
theories/PropPosix.v
theories/ScanSpec.v
theories/ScanProofs.v
theories/ScanFlags.v
theories/ScanOutcomes.v
theories/PropScan.v
theories/Parser.v
theories/ParserSpec.v
theories/ParserProofs.v
theories/ParserPieces.v
theories/ParserReading.v
theories/ParserSim.v
theories/ParserOutcomes.v
theories/PropParser.v
theories/DeclSpec.v
theories/DeclProofs.v
theories/PropDecl.v
theories/MoveSpec.v
theories/MoveProofs.v
theories/PropMove.v
theories/HelpBase.v
theories/HelpText.v
theories/HelpExport.v
theories/HelpSpec.v
theories/HelpTextProofs.v
theories/HelpPage.v
theories/HelpGood.v
theories/HelpLayout.v
theories/HelpExportProofs.v
theories/HelpEntries.v
theories/TdlSpec.v
theories/HelpOther.v
theories/HelpProps.v
theories/HelpSamples.v
theories/PropHelp.v
theories/DefaultSpec.v
theories/DefaultProofs.v
theories/PropDefault.v
theories/WidthSpec.v
theories/WidthProofs.v
theories/PropWidth.v
theories/PageSpec.v
theories/PageProofs.v
theories/PropPage.v
theories/VersionCheck.v
theories/VersionSpec.v
theories/VersionProofs.v
theories/VersionRuns.v
theories/PropVersion.v
theories/VersionEndSpec.v
theories/VersionEnd.v
theories/VersionSeen.v
theories/PropVersionEnd.v
theories/VersionTextsSpec.v
theories/VersionTexts.v
theories/PropVersionTexts.v
theories/VersionSteps.v
theories/OverlapSpec.v
theories/VersionStepsProofs.v
theories/VersionOverlap.v
theories/VersionQuiet.v
theories/VersionPartial.v
theories/PropOverlap.v
theories/ValidatorsHelp.v
theories/Conformance.v
theories/DiagnosisSpec.v
theories/DiagnosisOptions.v
theories/DiagnosisProofs.v
theories/PropDiagnosis.v
theories/ReadingSpec.v
theories/ReadingProofs.v
theories/TailSpec.v
theories/TailProofs.v
theories/PropTail.v
theories/PropReading.v
theories/OrderSpec.v
theories/OrderProofs.v
theories/PropOrder.v
theories/ShiftProofs.v
theories/PropShift.v
theories/UnusedProofs.v
theories/PropUnused.v
theories/Charconv.v
theories/FloatSpec.v
theories/FloatProofs.v
theories/ShimProofs.v
theories/Ieee.v
theories/FloatNumProofs.v
theories/FloatDigits.v
theories/FloatText.v
theories/FloatRoundSpec.v
theories/FloatRound.v
theories/FloatBack.v
theories/FloatRange.v
theories/StrtoSpec.v
theories/StrtoProofs.v
theories/PropStrto.v
theories/HtmlShownSpec.v
theories/HtmlShown.v
theories/HtmlNested.v
theories/PropHtml.v
theories/ListSpec.v
theories/InvocationNames.v
theories/ListElements.v
theories/PropList.v
theories/PropFloat.v
theories/ProgramSpec.v
theories/ProgramProofs.v
theories/ProgramBackend.v
theories/ProgramOutcomes.v
theories/PropProgram.v
theories/FailureSpec.v
theories/FailureValues.v
theories/FailureProofs.v
theories/FailureParse.v
theories/FailureLaws.v
theories/PropFailure.v
theories/NestedSpec.v
theories/NestedProofs.v
theories/NestedComplete.v
theories/PropNested.v
theories/Waiting.v
theories/WaitingSpec.v
theories/WaitingProofs.v
theories/PropWaiting.v
theories/ConformanceHelp.v
theories/ConformanceValidators.v
theories/ConformanceVersion.v
theories/ConformanceFloat.v
theories/ConformanceCharconv.v
theories/ConformanceSnippets.v
theories/PropFloatShow.v
theories/Age.v
theories/AgeSpec.v
theories/AgeProofs.v
theories/PropAge.v
theories/Regex.v
theories/RegexSpec.v
theories/RegexProofs.v
theories/RegexReading.v
theories/RegexErrors.v
theories/RegexUses.v
theories/PropRegex.v
theories/OutlineSpec.v
theories/OutlineProofs.v
theories/PropOutline.v
theories/PromiseSpec.v
theories/PromiseProofs.v
theories/PropPromise.v
theories/FilesSpec.v
theories/FilesProofs.v
theories/PropFiles.v
theories/ElementsSpec.v
theories/ElementsProofs.v
theories/PropElements.v
theories/Static.v
theories/StaticSpec.v
theories/StaticProofs.v
theories/PropStatic.v
theories/ConfigSpec.v
theories/ConfigProofs.v
theories/PropConfig.v
theories/TermProofs.v
theories/PropTerm.v
theories/AnyProgram.v
theories/PropAny.v
theories/TdlNamesSpec.v
theories/TdlNames.v
theories/PropTdl.v
theories/TextSpec.v
theories/TextProofs.v
theories/PropText.v
theories/DaysSpec.v
theories/DaysProofs.v
theories/PropDays.v
theories/WordingSpec.v
theories/WordingProofs.v
theories/PropWording.v
theories/InfoSpec.v
theories/InfoProofs.v
theories/PropInfo.v
theories/UnknownSpec.v
theories/UnknownProofs.v
theories/PropUnknown.v
theories/OrderRuns.v
theories/PropOrderRuns.v
theories/RunsSpec.v
theories/RunsLift.v
theories/PropRuns.v
theories/TestFiles.v
theories/TestFilesSpec.v
theories/TestFilesProofs.v
theories/PropTestFiles.v
theories/TestRuns.v
theories/TestRunsSpec.v
theories/TestRunsProofs.v
theories/PropTestRuns.v
theories/WrapSpec.v
theories/WrapFilled.v
theories/PropWrap.v
theories/ConformanceTest.v
theories/FontSpec.v
theories/FontProofs.v
theories/PropFont.v
theories/LibVersion.v
theories/LibVersionSpec.v
theories/LibVersionProofs.v
theories/PropLibVersion.v
theories/HtmlFontSpec.v
theories/HtmlFontProofs.v
theories/PropHtmlFont.v
