-Q theories Verif
theories/Peg.v
theories/PegWf.v
theories/PegProofs.v
theories/PegThunks.v
theories/PegEval.v
theories/QuickModel.v
theories/LineSafe.v
theories/QuickSpec.v
theories/QuickLex.v
theories/QuickRound.v
theories/QuickProofs.v
theories/QuickProps.v
theories/QuickFacts.v
theories/PropQuick.v
theories/PegMode.v
theories/CypherSyntax.v
theories/CypherGrammar.v
theories/OperModel.v
theories/ErrModel.v
theories/CypherMatch.v
theories/CypherTables.v
theories/LineLevels.v
theories/CypherLineTables.v
theories/CypherRun.v
theories/CypherInv.v
theories/AstTypes.v
theories/AstModel.v
theories/CypherBuild.v
theories/CypherExec.v
theories/CypherParse.v
theories/CypherRound.v
theories/CypherSpec.v
theories/ExecRange.v
theories/NodeFacts.v
theories/CypherLoop.v
theories/CypherChain.v
theories/PropCypher.v
theories/DetailModel.v
theories/PrintModel.v
theories/DetailProofs.v
theories/PrintSpec.v
theories/PrintProofs.v
theories/PropPrint.v
theories/Conformance.v
theories/MemModel.v
theories/UtilSpec.v
theories/UtilProofs.v
theories/ErrChain.v
theories/PropUtil.v
theories/AnnotModel.v
theories/AnnotSpec.v
theories/AnnotProofs.v
theories/OwnModel.v
theories/OwnSpec.v
theories/OwnProofs.v
theories/PropMemory.v
theories/AstSpec.v
theories/AstProofs.v
theories/PropAst.v
theories/NodeHeld.v
theories/Flow.v
theories/FlowSound.v
theories/FlowRun.v
theories/SafeSpec.v
theories/SafeProofs.v
theories/SafeNodes.v
theories/PropSafe.v
theories/TraceSpec.v
theories/TraceProofs.v
theories/PropTrace.v
theories/OperSpec.v
theories/PropOper.v
theories/BufModel.v
theories/BufProofs.v
theories/SourceModel.v
theories/SourceSpec.v
theories/SourceExec.v
theories/SourceProofs.v
theories/PropSource.v
theories/SkipProofs.v
theories/PropSkip.v
theories/ShiftSpec.v
theories/ShiftProofs.v
theories/ColorSpec.v
theories/ColorProofs.v
theories/PropShift.v
theories/LexSpec.v
theories/LexProofs.v
theories/PropLex.v
theories/Forward.v
theories/TermSpec.v
theories/ForwardExec.v
theories/ForwardLex.v
theories/ForwardStep.v
theories/ForwardAtom.v
theories/ForwardExpr.v
theories/ForwardName.v
theories/ForwardNum.v
theories/ForwardPat.v
theories/ExprSpec.v
theories/StmtSpec.v
theories/ForwardForm.v
theories/ForwardPrint.v
theories/ForwardStmt.v
theories/ForwardClause.v
theories/ForwardItem.v
theories/ForwardPattern.v
theories/ForwardHint.v
theories/ForwardQuery.v
theories/ForwardCall.v
theories/ForwardQueries.v
theories/ForwardOption.v
theories/CommandSpec.v
theories/ForwardTop.v
theories/ForwardReturn.v
theories/StmtShow.v
theories/ScriptSpec.v
theories/ForwardStatement.v
theories/ForwardCommand.v
theories/ForwardScript.v
theories/ForwardShow.v
theories/PropExpr.v
theories/PropStmt.v
theories/PropScript.v
theories/AllocModel.v
theories/AllocSpec.v
theories/AllocProofs.v
theories/PropAlloc.v
theories/AccessModel.v
theories/AccessSpec.v
theories/AccessProofs.v
theories/PropAccess.v
theories/LintModel.v
theories/LintSpec.v
theories/LintProofs.v
theories/PropLint.v
