-Q theories Verif
theories/Base.v
theories/Utf8.v
theories/Num.v
theories/Path.v
theories/Version.v
theories/Template.v
theories/Options.v
theories/World.v
theories/Sys.v
theories/Io.v
theories/Socket.v
theories/Env.v
theories/Core.v
theories/Pair.v
theories/Approve.v
theories/RawExample.v
theories/Spec.v
theories/BaseLemmas.v
theories/OptionProofs.v
theories/NumProofs.v
theories/Utf8Proofs.v
theories/PathProofs.v
theories/TemplateProofs.v
theories/VersionProofs.v
theories/ReadProofs.v
theories/RequestProofs.v
theories/PairPure.v
theories/Samples.v
theories/InputFacts.v
theories/FieldSpec.v
theories/FieldFacts.v
theories/PropsInput.v
theories/RunProofs.v
theories/TraceSpec.v
theories/SessionSpec.v
theories/IoProofs.v
theories/SocketProofs.v
theories/FailFacts.v
theories/PairProofs.v
theories/OpenFacts.v
theories/KernelFacts.v
theories/AskFacts.v
theories/Worlds.v
theories/SessionFacts.v
theories/PropsApproval.v
theories/PropsFields.v
theories/InitFacts.v
theories/PropsInit.v
theories/CallbackSpec.v
theories/CallbackFacts.v
theories/HistoryFacts.v
theories/OutputFacts.v
theories/PropsSession.v
theories/PropsOutput.v
theories/MiscFacts.v
theories/PropsMisc.v
theories/SplitFacts.v
theories/CleanupFacts.v
theories/FilesFacts.v
theories/RefusalFacts.v
theories/PropsSocket.v
theories/Structure.v
theories/SigFacts.v
theories/PropsSignal.v
theories/ShapeFacts.v
theories/AdversaryFacts.v
theories/AdversarySpec.v
theories/GuardFacts.v
theories/PeerFacts.v
theories/PropsAdversary.v
theories/HonourSpec.v
theories/HonourFacts.v
theories/ForwardFacts.v
theories/PropsHonour.v
theories/LocalFacts.v
theories/PropsLocal.v
theories/TalkFacts.v
theories/TalkSpec.v
theories/SetupFacts.v
theories/ArgFacts.v
theories/FuelFacts.v
theories/PropsTalk.v
theories/Memory.v
theories/MemorySpec.v
theories/MemoryFacts.v
theories/PropsMemory.v
theories/Script.v
theories/ScriptSpec.v
theories/ScriptFacts.v
theories/PropsScript.v
theories/CleanFacts.v
theories/PropsClean.v
theories/SideSpec.v
theories/SideFacts.v
theories/PropsSide.v
theories/TellSpec.v
theories/TellFacts.v
theories/PropsTell.v
theories/AgainFacts.v
theories/PropsAgain.v
theories/SearchFacts.v
theories/PropsSearch.v
theories/FrontSpec.v
theories/FrontFacts.v
theories/Frontend.v
theories/PropsFront.v
theories/WaitFacts.v
theories/SameSpec.v
theories/SameFacts.v
theories/PropsSame.v
theories/LeaveSpec.v
theories/LeaveFacts.v
theories/PropsLeave.v
theories/Terminal.v
theories/TerminalFacts.v
theories/PropsTerminal.v
theories/ConfigSpec.v
theories/ConfigFacts.v
theories/PropsConfig.v
theories/Shell.v
theories/ShellFacts.v
theories/PropsShell.v
theories/Conformance.v
theories/Layout.v
theories/LayoutTests.v
theories/LayoutFacts.v
theories/PropsLayout.v
theories/FirstFacts.v
theories/PropsFirst.v
theories/Log.v
theories/LogSpec.v
theories/LogFacts.v
theories/PropsLog.v
theories/WatchSpec.v
theories/WatchFacts.v
theories/PropsWatch.v
theories/Net.v
theories/NetSpec.v
theories/NetFacts.v
theories/PropsNet.v
theories/Defaults.v
theories/DefaultFacts.v
theories/PropsDefault.v
theories/SamplePrompts.v
theories/SampleFacts.v
theories/PropsSample.v
theories/FlawFacts.v
theories/DocExample.v
theories/DocSpec.v
theories/DocFacts.v
theories/PropsDoc.v
theories/ArithSpec.v
theories/ArithFacts.v
theories/ForgeFacts.v
theories/PropsForge.v
theories/Install.v
theories/InstallSpec.v
theories/InstallFacts.v
theories/InstalledFacts.v
theories/PropsInstall.v
theories/Sudoers.v
theories/SudoersFacts.v
theories/PropsSudoers.v
theories/WaitingFacts.v
theories/ListingSpec.v
theories/PropsListing.v
theories/WholeSpec.v
theories/WholeFacts.v
theories/PropsWhole.v
theories/SessionRun.v
theories/SessionRunFacts.v
theories/PropsSameFront.v
theories/ThroughSpec.v
theories/ThroughFacts.v
theories/PropsThrough.v
theories/TidySpec.v
theories/TidyFacts.v
theories/PropsTidy.v
