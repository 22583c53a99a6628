-Q theories Verif
theories/Base.v
theories/SplitModel.v
theories/SplitSpec.v
theories/SplitProofs.v
theories/PropSplit.v
theories/FromStringModel.v
theories/FromStringSpec.v
theories/FromStringProofs.v
theories/PropFromString.v
theories/HistoryModel.v
theories/HistorySpec.v
theories/HistoryProofs.v
theories/PropHistory.v
theories/StorageModel.v
theories/StorageSpec.v
theories/StorageProofs.v
theories/PropStorage.v
theories/PrefixModel.v
theories/PrefixSpec.v
theories/PrefixProofs.v
theories/PropPrefix.v
theories/TerminalModel.v
theories/TerminalSpec.v
theories/TerminalProofs.v
theories/PropTerminal.v
theories/MenuModel.v
theories/SessionModel.v
theories/ResolveSpec.v
theories/ResolveProofs.v
theories/SessionSpec.v
theories/TreeProofs.v
theories/SessionProofs.v
theories/InvariantProofs.v
theories/FeatureProofs.v
theories/SafetyProofs.v
theories/NavProofs.v
theories/ListingProofs.v
theories/CompletionModel.v
theories/CompletionSpec.v
theories/CompletionProofs.v
theories/Demo.v
theories/RepoTests.v
theories/PropSession.v
theories/PropTree.v
theories/PropCompletion.v
theories/ProcessorModel.v
theories/OutputProofs.v
theories/ProcessorSpec.v
theories/ProcessorProofs.v
theories/DisplayProofs.v
theories/InteractiveProofs.v
theories/PropProcessor.v
theories/FileModel.v
theories/FileSpec.v
theories/FileProofs.v
theories/PropFile.v
theories/OutStreamModel.v
theories/OutStreamSpec.v
theories/OutStreamProofs.v
theories/PropOutStream.v
theories/TelnetModel.v
theories/TelnetSpec.v
theories/TelnetProofs.v
theories/PropTelnet.v
theories/ServerModel.v
theories/ServerSpec.v
theories/ServerProofs.v
theories/PropServer.v
theories/SchedulerModel.v
theories/SchedulerSpec.v
theories/SchedulerProofs.v
theories/PropScheduler.v
theories/KeyboardModel.v
theories/KeyboardSpec.v
theories/KeyboardProofs.v
theories/PropKeyboard.v
theories/ColorSpec.v
theories/ColorProofs.v
theories/PropColor.v
theories/SimulationProofs.v
theories/IsolationSpec.v
theories/IsolationProofs.v
theories/PropIsolation.v
theories/AsyncModel.v
theories/AsyncSpec.v
theories/AsyncProofs.v
theories/PropAsync.v
theories/WinKeyboardModel.v
theories/WinKeyboardSpec.v
theories/WinKeyboardProofs.v
theories/PropWinKeyboard.v
theories/AsioSchedModel.v
theories/AsioSchedSpec.v
theories/AsioSchedProofs.v
theories/PropAsioSched.v
theories/LocalModel.v
theories/LocalSpec.v
theories/LocalProofs.v
theories/PropLocal.v
theories/AcceptSpec.v
theories/AcceptProofs.v
theories/PropAccept.v
theories/ServerLifeModel.v
theories/ServerLifeSpec.v
theories/ServerLifeProofs.v
theories/PropServerLife.v
theories/WidthSpec.v
theories/WidthProofs.v
theories/PropWidth.v
theories/RangModel.v
theories/RangSpec.v
theories/RangProofs.v
theories/PropRang.v
theories/ShareModel.v
theories/ShareSpec.v
theories/ShareProofs.v
theories/PropShare.v
theories/FloatModel.v
theories/FloatSpec.v
theories/FloatProofs.v
theories/FloatRoundProofs.v
theories/PropFloat.v
theories/ReentModel.v
theories/ReentSpec.v
theories/ReentProofs.v
theories/PropReent.v
theories/FaultModel.v
theories/FaultSpec.v
theories/FaultProofs.v
theories/PropFault.v
theories/HeapModel.v
theories/HeapSpec.v
theories/HeapProofs.v
theories/PropHeap.v
theories/FmtModel.v
theories/FmtSpec.v
theories/FmtProofs.v
theories/PropFmt.v
theories/LifeModel.v
theories/LifeSpec.v
theories/LifeProofs.v
theories/LifeSafeProofs.v
theories/LifePartProofs.v
theories/PropLife.v
theories/HookInvProofs.v
theories/WireModel.v
theories/WireSpec.v
theories/WireProofs.v
theories/PropWire.v
theories/VirtualModel.v
theories/VirtualSpec.v
theories/VirtualProofs.v
theories/PropVirtual.v
theories/ExampleModel.v
theories/ExampleSpec.v
theories/ExampleProofs.v
theories/PropExample.v
theories/LinearModel.v
theories/LinearSpec.v
theories/LinearProofs.v
theories/PropLinear.v
theories/RaceSpec.v
theories/RaceModel.v
theories/RaceProofs.v
theories/RaceEndProofs.v
theories/PropRace.v
theories/SystemModel.v
theories/SystemSpec.v
theories/SystemProofs.v
theories/PropSystem.v
theories/CompleteModel.v
theories/CompleteSpec.v
theories/CompleteProofs.v
theories/PropComplete.v
theories/WholeModel.v
theories/WholeSpec.v
theories/WholeDeskProofs.v
theories/WholeProofs.v
theories/PropWhole.v
theories/AppModel.v
theories/AppSpec.v
theories/AppProofs.v
theories/PropApp.v
theories/WinConsoleModel.v
theories/WinConsoleSpec.v
theories/WinConsoleProofs.v
theories/PropWinConsole.v
theories/KeyboardsModel.v
theories/KeyboardsSpec.v
theories/KeyboardsProofs.v
theories/PropKeyboards.v
theories/PluginModel.v
theories/PluginSpec.v
theories/PluginProofs.v
theories/PropPlugin.v
theories/NonownerModel.v
theories/NonownerSpec.v
theories/NonownerProofs.v
theories/PropNonowner.v
theories/LiveModel.v
theories/LiveSpec.v
theories/LiveProofs.v
theories/LiveVecProofs.v
theories/PropLive.v
theories/ActionProofs.v
theories/PropAction.v
theories/PropAlone.v
theories/ReachSpec.v
theories/ReachProofs.v
theories/PropReach.v
theories/SchedEndModel.v
theories/SchedEndSpec.v
theories/SchedEndProofs.v
theories/PropSchedEnd.v
theories/AsioEndModel.v
theories/AsioEndSpec.v
theories/AsioEndProofs.v
theories/PropAsioEnd.v
theories/ConvTotalSpec.v
theories/ConvTotalProofs.v
theories/PropConvTotal.v
theories/FeedUBSpec.v
theories/FeedUBProofs.v
theories/PropFeedUB.v
theories/TroubleModel.v
theories/TroubleSpec.v
theories/TroubleProofs.v
theories/PropTrouble.v
theories/WinFailModel.v
theories/WinFailSpec.v
theories/WinFailProofs.v
theories/PropWinFail.v
theories/LinuxFailModel.v
theories/LinuxFailSpec.v
theories/LinuxFailProofs.v
theories/PropLinuxFail.v
theories/WinTextModel.v
theories/WinTextSpec.v
theories/WinTextProofs.v
theories/PropWinText.v
theories/RemoveModel.v
theories/RemoveSpec.v
theories/RemoveProofs.v
theories/PropRemove.v
theories/InsertModel.v
theories/InsertSpec.v
theories/InsertProofs.v
theories/PropInsert.v
theories/KeyUBSpec.v
theories/KeyUBProofs.v
theories/KeyServerProofs.v
theories/PropKeyUB.v
theories/LocaleModel.v
theories/LocaleSpec.v
theories/LocaleProofs.v
theories/PropLocale.v
theories/AllocModel.v
theories/AllocSpec.v
theories/AllocProofs.v
theories/PropAlloc.v
theories/AllocFeedModel.v
theories/AllocFeedSpec.v
theories/AllocFeedProofs.v
theories/PropAllocFeed.v
theories/ConstructModel.v
theories/ConstructSpec.v
theories/ConstructProofs.v
theories/PropConstruct.v
theories/AllocTermModel.v
theories/AllocTermSpec.v
theories/AllocTermProofs.v
theories/PropAllocTerm.v
theories/AllocBrowseModel.v
theories/AllocBrowseSpec.v
theories/AllocBrowseProofs.v
theories/PropAllocBrowse.v
theories/AllocKeyModel.v
theories/AllocKeySpec.v
theories/AllocKeyProofs.v
theories/PropAllocKey.v
theories/AllocReturnModel.v
theories/AllocReturnSpec.v
theories/AllocReturnProofs.v
theories/PropAllocReturn.v
theories/AllocExitModel.v
theories/AllocExitSpec.v
theories/AllocExitProofs.v
theories/PropAllocExit.v
theories/AllocFileModel.v
theories/AllocFileSpec.v
theories/AllocFileProofs.v
theories/PropAllocFile.v
theories/FileFailModel.v
theories/FileFailProofs.v
theories/PropFileFail.v
