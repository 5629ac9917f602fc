-Q theories Verif
theories/Str.v
theories/Regex.v
theories/AstTables.v
theories/Ast.v
theories/Assembler.v
theories/Disassembler.v
theories/Display.v
theories/Error.v
theories/Parser.v
theories/Lib.v
theories/Cli.v
theories/ModelTests.v
theories/SpecIsa.v
theories/StrLemmas.v
theories/DecodeProofs.v
theories/DisasmProofs.v
theories/SpecListing.v
theories/ListingProofs.v
theories/NumLemmas.v
theories/InjProofs.v
theories/DisasmMore.v
theories/PropsDisasm.v
theories/SpecText.v
theories/TextProofs.v
theories/OperandProofs.v
theories/NativeProofs.v
theories/LineProofs.v
theories/ScanProofs.v
theories/SpecProgram.v
theories/ProgProofs.v
theories/RoundProofs.v
theories/FieldProofs.v
theories/AsmProofs.v
theories/PropsAsm.v
theories/WordProofs.v
theories/SpecCli.v
theories/CliProofs.v
theories/PropsCli.v
theories/SpecMachine.v
theories/MachineProofs.v
theories/ExecProofs.v
theories/PseudoProofs.v
theories/SpecPseudo.v
theories/PropsPseudo.v
theories/SpecLabels.v
theories/SpecErrors.v
theories/SpecLines.v
theories/BranchProofs.v
theories/LabelProofs.v
theories/HalfProofs.v
theories/PropsLabels.v
theories/CompareProofs.v
theories/PropsCompare.v
theories/CongProofs.v
theories/ErrorProofs.v
theories/PropsErrors.v
theories/RefProofs.v
theories/PropsRefs.v
theories/SpecScopes.v
theories/ScopeProofs.v
theories/PropsScopes.v
theories/SpecSource.v
theories/ProgCong.v
theories/LayoutProofs.v
theories/SpacingProofs.v
theories/PropsLayout.v
theories/SpecImm.v
theories/ImmProofs.v
theories/ImmLines.v
theories/PropsImm.v
theories/SpecShow.v
theories/ShowProofs.v
theories/DisplayProofs.v
theories/PropsShow.v
theories/SpecWarn.v
theories/QuietProofs.v
theories/WarnProofs.v
theories/PropsWarn.v
theories/SpecPanic.v
theories/PanicProofs.v
theories/PanicMore.v
theories/PropsPanic.v
theories/SpecDisplay.v
theories/ShownProofs.v
theories/PropsDisplay.v
theories/SpecDefault.v
theories/DefaultProofs.v
theories/PropsDefault.v
theories/SpecAccept.v
theories/InsProofs.v
theories/AcceptProofs.v
theories/AcceptLines.v
theories/PropsAccept.v
theories/SpecReading.v
theories/CodingProofs.v
theories/PropsReading.v
theories/ProfileProofs.v
theories/PropsProfile.v
theories/RelocProofs.v
theories/PropsReloc.v
theories/SpecExtend.v
theories/EnvProofs.v
theories/AppendProofs.v
theories/PropsExtend.v
theories/SpecSize.v
theories/SizeProofs.v
theories/PropsSize.v
theories/SpecEdit.v
theories/EditProofs.v
theories/PropsEdit.v
theories/SpecRename.v
theories/RenameProofs.v
theories/RenameScan.v
theories/PropsRename.v
theories/SpecEnds.v
theories/PropsEnds.v
theories/SpecCause.v
theories/CauseProofs.v
theories/PropsCause.v
theories/SpecRegs.v
theories/RegProofs.v
theories/PropsRegs.v
theories/SpecRegErrors.v
theories/RegErrors.v
theories/PropsRegErrors.v
theories/SpecRun.v
theories/RunProofs.v
theories/RunLines.v
theories/PropsRun.v
theories/SpecFlow.v
theories/FlowProofs.v
theories/FlowLines.v
theories/PropsFlow.v
theories/SpecModules.v
theories/ModuleProofs.v
theories/PropsModules.v
theories/SpecCalls.v
theories/CallProofs.v
theories/CallLines.v
theories/PropsCalls.v
theories/SpecLink.v
theories/LinkProofs.v
theories/PropsLink.v
theories/ShiftProofs.v
theories/PropsShift.v
theories/SpecFatal.v
theories/FatalProofs.v
theories/PropsFatal.v
theories/PropsWords.v
theories/Main.v
theories/SpecMain.v
theories/MainProofs.v
theories/PropsMain.v
theories/SpecExact.v
theories/ExactProofs.v
theories/RoundExact.v
theories/BranchBack.v
theories/PropsExact.v
theories/LossProofs.v
theories/PropsLoss.v
theories/TotalProofs.v
theories/PropsTotal.v
theories/DefaultLines.v
theories/DefaultExact.v
theories/PropsDefaultExact.v
theories/SpecReassemble.v
theories/Reassemble.v
theories/PropsReassemble.v
theories/PropsGap.v
theories/SpecReport.v
theories/ReportProofs.v
theories/PropsReport.v
theories/WarnShown.v
theories/PropsTold.v
theories/PropsLike.v
theories/PropsData.v
