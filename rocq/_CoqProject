-Q theories Verif
theories/Base.v
theories/Utf8.v
theories/Utf8Proofs.v
theories/Lexer.v
theories/LexSpec.v
theories/LexerProofs.v
theories/LexStatements.v
theories/LexerThms.v
theories/PropLexer.v
theories/Expr.v
theories/Linter.v
theories/Compiler.v
theories/Flow.v
theories/LintSpec.v
theories/FlowProofs.v
theories/LinterProofs.v
theories/CompilerSpec.v
theories/CompilerProofs.v
theories/OptimizeExact.v
theories/CompilerFix.v
theories/LinterThms.v
theories/PropLinter.v
theories/PropCompiler.v
theories/Fields.v
theories/VmOps.v
theories/Vm.v
theories/VmProofs.v
theories/VmSkip.v
theories/VmStep.v
theories/VmExec.v
theories/VmSpec.v
theories/VmInv.v
theories/VmThms.v
theories/VmSim.v
theories/VmFlow.v
theories/LangSpec.v
theories/VmStack.v
theories/VmTypes.v
theories/VmScratch.v
theories/PropVm.v
theories/DocLines.v
theories/DocProofs.v
theories/DocTokens.v
theories/Semantics.v
theories/SemanticsProofs.v
theories/Strconv.v
theories/Literals.v
theories/LiteralsProofs.v
theories/PropText.v
theories/OpTable.v
theories/Codec.v
theories/CodecProofs.v
theories/Print.v
theories/Process.v
theories/ProcessSpec.v
theories/ProcessProofs.v
theories/ProcessRun.v
theories/ProcessLine.v
theories/ProcessDoc.v
theories/ProcessThms.v
theories/AvmVersions.v
theories/ProcessAvm.v
theories/PropProcess.v
theories/AvmFields.v
theories/FieldProofs.v
theories/RoundTripSpec.v
theories/RoundTripLex.v
theories/RoundTrip.v
theories/RoundTripFit.v
theories/RoundTripExact.v
theories/PropRoundTrip.v
theories/Query.v
theories/Lsp.v
theories/LspSpec.v
theories/LspProofs.v
theories/ConfigSpec.v
theories/ConfigProofs.v
theories/PropLsp.v
theories/PropConfig.v
theories/Messages.v
theories/MessageSpec.v
theories/MessageProofs.v
theories/PropMessages.v
theories/OnceSpec.v
theories/OnceProofs.v
theories/OnceDoc.v
theories/PropOnce.v
theories/LangDocs.v
theories/LetterSpec.v
theories/PropLetters.v
theories/TurnSpec.v
theories/TurnProofs.v
theories/PropTurn.v
theories/Complaints.v
theories/ComplaintSpec.v
theories/ComplaintProofs.v
theories/PropComplaints.v
theories/Titles.v
theories/TitleSpec.v
theories/TitleProofs.v
theories/PropTitles.v
theories/OutlineSpec.v
theories/OutlineProofs.v
theories/PropOutline.v
theories/Snippets.v
theories/SnippetSpec.v
theories/InsertProofs.v
theories/InsertDoc.v
theories/InsertSub.v
theories/SnippetProofs.v
theories/SnippetRun.v
theories/SnippetFunc.v
theories/PropSnippets.v
theories/ModeSpec.v
theories/ModeProofs.v
theories/PropMode.v
theories/RejectSpec.v
theories/RejectProofs.v
theories/PropReject.v
theories/CompleteSpec.v
theories/CompleteProofs.v
theories/PropComplete.v
theories/FieldDocs.v
theories/NotedSpec.v
theories/NotedProofs.v
theories/PropNoted.v
theories/UpgradeSpec.v
theories/UpgradeProofs.v
theories/PropUpgrade.v
theories/LookSpec.v
theories/LookProofs.v
theories/PropLook.v
theories/QuietSpec.v
theories/QuietProofs.v
theories/PropQuiet.v
theories/SpacingSpec.v
theories/SpacingProofs.v
theories/PropSpacing.v
theories/AliasSpec.v
theories/AliasProofs.v
theories/PropAlias.v
theories/Rules.v
theories/PropRules.v
theories/PropNext.v
theories/UndoProofs.v
theories/PropUndo.v
theories/CountProofs.v
theories/PropCount.v
theories/PropFresh.v
theories/MarkProofs.v
theories/PropMarks.v
theories/PropTools.v
theories/HitCount.v
theories/PropHits.v
theories/PropThread.v
theories/PropReason.v
theories/PropFailed.v
theories/Edit.v
theories/QueryProofs.v
theories/PropQuery.v
theories/EditProofs.v
theories/RenameSpec.v
theories/RenameProofs.v
theories/HintSpec.v
theories/HintProofs.v
theories/PropEdit.v
theories/VmHits.v
theories/Dbg.v
theories/DbgSpec.v
theories/DbgProofs.v
theories/PropDbg.v
theories/Sarif.v
theories/SarifProofs.v
theories/PropSarif.v
theories/AnswerSpec.v
theories/AnswerProofs.v
theories/PropAnswer.v
theories/FixLines.v
theories/FixProofs.v
theories/FixVersion.v
theories/FixCommands.v
theories/PropFix.v
theories/RangeSpec.v
theories/RangeProofs.v
theories/PropRange.v
theories/PaintSpec.v
theories/PaintProofs.v
theories/PaintDoc.v
theories/PaintThms.v
theories/PropPaint.v
theories/Signature.v
theories/SignatureSpec.v
theories/SignatureProofs.v
theories/PropSignature.v
theories/Frame.v
theories/FrameSpec.v
theories/FrameProofs.v
theories/PropFrame.v
theories/Notes.v
theories/LangOps.v
theories/NotesSpec.v
theories/NotesProofs.v
theories/PropNotes.v
theories/RealSpec.v
theories/RealProofs.v
theories/RealThms.v
theories/PropReal.v
theories/CostSpec.v
theories/CostProofs.v
theories/PropCost.v
theories/PlaySpec.v
theories/PlayProofs.v
theories/PropPlay.v
theories/IntSpec.v
theories/IntProofs.v
theories/ErrorSpec.v
theories/ErrorProofs.v
theories/PropErrors.v
theories/NameSpec.v
theories/NameProofs.v
theories/PropNames.v
theories/PropInt.v
theories/Base32.v
theories/ByteSpec.v
theories/ByteProofs.v
theories/Byte32Proofs.v
theories/PropBytes.v
theories/RepoTests.v
theories/DiagSpec.v
theories/DiagProofs.v
theories/PropDiag.v
theories/LabelSpec.v
theories/LabelProofs.v
theories/PropLabels.v
theories/CrashSpec.v
theories/CrashProofs.v
theories/PropCrash.v
theories/Walk.v
theories/WalkSpec.v
theories/WalkProofs.v
theories/PropWalk.v
theories/AgreeSpec.v
theories/AgreeProofs.v
theories/PropAgree.v
theories/Builders.v
theories/BuilderSpec.v
theories/BuilderProofs.v
theories/BuilderBytes.v
theories/PropBuilders.v
theories/RemoveSpec.v
theories/RemoveProofs.v
theories/PropRemove.v
theories/ValueSpec.v
theories/ValueProofs.v
theories/TextProofs.v
theories/PropValue.v
