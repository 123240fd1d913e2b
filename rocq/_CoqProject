-Q theories Verif
theories/Base.v
theories/SpecText.v
theories/PointFacts.v
theories/JPath.v
theories/World.v
theories/Messages.v
theories/Glob.v
theories/Matchers.v
theories/Sorts.v
theories/Builders.v
theories/EmojiTables.v
theories/Emoji.v
theories/Options.v
theories/Scanner.v
theories/Renderer.v
theories/Printer.v
theories/ExtOptions.v
theories/Cli.v
theories/Binding.v
theories/Samples.v
theories/SpecRender.v
theories/RenderFacts.v
theories/LayoutFacts.v
theories/ShownFacts.v
theories/SpecPath.v
theories/SpecBuild.v
theories/HistFacts.v
theories/SpecScan.v
theories/SpecHist.v
theories/SpecMatch.v
theories/SpecEmoji.v
theories/SpecOptions.v
theories/SpecCli.v
theories/SpecSchema.v
theories/SpecGlob.v
theories/TimFacts.v
theories/SortFacts.v
theories/PathFacts.v
theories/ScanFacts.v
theories/TreeFacts.v
theories/TraceFacts.v
theories/PrintFacts.v
theories/OutlineFacts.v
theories/RunFacts.v
theories/ScanPrintFacts.v
theories/AccessFacts.v
theories/SpecFail.v
theories/FailFacts.v
theories/FailCliFacts.v
theories/FailCases.v
theories/PropsFail.v
theories/BuilderFacts.v
theories/MatcherFacts.v
theories/EmojiFacts.v
theories/OptionFacts.v
theories/DocFacts.v
theories/CliFacts.v
theories/DebugFacts.v
theories/MapFacts.v
theories/TextFacts.v
theories/DumpFacts.v
theories/Cases.v
theories/CliCases.v
theories/CliRefs.v
theories/SpecMeta.v
theories/SpecDoc.v
theories/MetaFacts.v
theories/MetaCases.v
theories/SpecOrder.v
theories/OrderFacts.v
theories/SpecSeen.v
theories/SeenFacts.v
theories/SpecCalls.v
theories/CallFacts.v
theories/SpecParts.v
theories/PartFacts.v
theories/GlobFacts.v
theories/GlobMatchFacts.v
theories/DocTreeFacts.v
theories/DocGlobFacts.v
theories/KeepFacts.v
theories/SchemaFacts.v
theories/SchemaCases.v
theories/PropsRender.v
theories/PropsScan.v
theories/PropsTrace.v
theories/PropsCalls.v
theories/PropsBuild.v
theories/PropsMatch.v
theories/PropsEmoji.v
theories/PropsOptions.v
theories/SpecHidden.v
theories/HiddenFacts.v
theories/HiddenCases.v
theories/PropsMeta.v
theories/PropsCli.v
theories/PropsSchema.v
theories/DocCases.v
theories/GlobCases.v
theories/PropsGlob.v
theories/PropsDoc.v
theories/Examples.v
theories/SpecExample.v
theories/ExampleFacts.v
theories/ProjectFacts.v
theories/ExampleCases.v
theories/PropsExample.v
theories/SpecFormat.v
theories/FormatFacts.v
theories/DebugFormatFacts.v
theories/PropsFormat.v
theories/Charset.v
theories/SpecCharset.v
theories/CharsetFacts.v
theories/CharsetCases.v
theories/PropsCharset.v
theories/SpecOpen.v
theories/OpenFacts.v
theories/OpenMatchFacts.v
theories/OpenCases.v
theories/PropsOpen.v
theories/SpecBound.v
theories/BoundFacts.v
theories/BoundCases.v
theories/PropsBound.v
theories/Nulls.v
theories/SpecNulls.v
theories/NullFacts.v
theories/PropsNulls.v
theories/Version.v
theories/SpecVersion.v
theories/VersionFacts.v
theories/PropsVersion.v
theories/Arguments.v
theories/SpecArgs.v
theories/ArgsFacts.v
theories/ArgsDocFacts.v
theories/ExitFacts.v
theories/ArgsCases.v
theories/PropsArgs.v
theories/Ints.v
theories/SpecInts.v
theories/IntFacts.v
theories/PropsInts.v
theories/Stack.v
theories/StackFacts.v
theories/StackCases.v
theories/PropsStack.v
theories/Live.v
theories/SpecLive.v
theories/LiveFacts.v
theories/LiveCases.v
theories/PropsLive.v
theories/GlobTextFacts.v
theories/PropsGlobText.v
theories/Threads.v
theories/SpecThreads.v
theories/ThreadFacts.v
theories/ThreadCases.v
theories/PartProgFacts.v
theories/PropsThreads.v
theories/Volume.v
theories/SpecVolume.v
theories/VolumeFacts.v
theories/VolumePrintFacts.v
theories/MovingFacts.v
theories/VolumeCases.v
theories/PropsVolume.v
theories/RepoTests.v
theories/SpecCost.v
theories/CostFacts.v
theories/PropsCost.v
theories/SpecAround.v
theories/AroundFacts.v
theories/AroundCases.v
theories/PropsAround.v
theories/SpecAsked.v
theories/AskedFacts.v
theories/AskedCases.v
theories/PropsAsked.v
theories/SpecLines.v
theories/LinesFacts.v
theories/LinesCases.v
theories/PropsLines.v
theories/Stream.v
theories/SpecStream.v
theories/StreamFacts.v
theories/PropsStream.v
theories/SpecApart.v
theories/ApartFacts.v
theories/PropsApart.v
theories/SpecMoved.v
theories/MovedFacts.v
theories/PropsMoved.v
theories/SpecFewer.v
theories/FewerFacts.v
theories/PropsFewer.v
theories/SpecLocal.v
theories/LocalFacts.v
theories/LocalCases.v
theories/PropsLocal.v
theories/SpecLook.v
theories/LookFacts.v
theories/PropsLook.v
theories/SpecCompare.v
theories/CompareFacts.v
theories/ComparedFacts.v
theories/PropsCompare.v
theories/SpecSortCost.v
theories/SortCostFacts.v
theories/PropsSortCost.v
theories/SpecSize.v
theories/SizeFacts.v
theories/PropsSize.v
theories/SpecRead.v
theories/ReadFacts.v
theories/PropsRead.v
theories/SpecKinds.v
theories/KindFacts.v
theories/PropsKinds.v
theories/SpecWhole.v
theories/WholeFacts.v
theories/SpecReadCli.v
theories/ReadCliFacts.v
theories/ReadCliCases.v
theories/PropsReadCli.v
theories/PropsWhole.v
theories/EqualOutputFacts.v
theories/EqualOutputCases.v
theories/PropsEqualOutput.v
