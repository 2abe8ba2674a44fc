-Q theories Verif

theories/Base.v
theories/FlexTables.v
theories/BisonTables.v
theories/TokenCodes.v
theories/GrammarDef.v
theories/Keywords.v
theories/LexRules.v
theories/LexModel.v
theories/Ast.v
theories/DestructTable.v
theories/Heap.v
theories/Actions.v
theories/ParseModel.v
theories/Api.v
theories/ParserCert.v
theories/Grammar.v
theories/TableCheck.v
theories/Driver.v
theories/Abs.v
theories/Typing.v
theories/Own.v
theories/Sem.v
theories/ActTac.v
theories/ActSpecial.v
theories/ActSpecial2.v
theories/ActSpecial3.v
theories/Poke.v
theories/Destruct.v
theories/ActSpec1.v
theories/ActSpec2.v
theories/ActSpec3.v
theories/ActSpec4.v
theories/ActSpec.v
theories/Inv.v
theories/InvStep.v
theories/InvRun.v
theories/Regex.v
theories/LexSpec.v
theories/LexCert.v
theories/LexProof.v
theories/LexMatch.v
theories/LexTotal.v
theories/LexPos.v
theories/ParseProof.v
theories/ParamProof.v
theories/PropParse.v
theories/LexRel.v
theories/LexScan.v
theories/LexWords.v
theories/LexTok.v
theories/PropLex.v
theories/Verdict.v
theories/Prec.v
theories/ItemCert.v
theories/Items.v
theories/Complete.v
theories/PrecSound.v
theories/Meaning.v
theories/Relabel.v
theories/Trees.v
theories/PropGrammar.v
theories/Spell.v
theories/Phrase.v
theories/Part.v
theories/Expr.v
theories/Said.v
theories/ExprProof.v
theories/ExprMain.v
theories/Stmt.v
theories/PartProof.v
theories/Legal.v
theories/StmtProof.v
theories/StmtMain.v
theories/Write.v
theories/Script.v
theories/Paren.v
theories/PropStmt.v
theories/PropClause.v
theories/Adjacent.v
theories/PropLit.v
theories/PropSize.v
theories/PropResult.v
theories/PropThread.v
theories/Print.v
theories/PropPrint.v
theories/PropType.v
theories/Frame.v
theories/Rel.v
theories/Stale.v
theories/TableStmt.v
theories/Viable.v
theories/Prefix.v
theories/PropError.v
theories/Late.v
theories/Length.v
theories/PropLength.v
theories/Outline.v
theories/PrintCong.v
theories/OutlineProof.v
theories/OutlineProof2.v
theories/OutlineProof3.v
theories/OutlineProof4.v
theories/PropOutline.v
theories/History.v
theories/PropHistory.v
theories/Access.v
theories/Nodes.v
theories/PropAccess.v
theories/PropAccess2.v
theories/PropExact.v
theories/Scan.v
theories/ScanProof.v
theories/Session.v
theories/SessionProof.v
theories/PropScan.v
theories/PropLeak.v
theories/PropReuse.v
theories/Overflow.v
theories/PropUndef.v
theories/LexTime.v
theories/TimeProof.v
theories/PropTime.v
theories/Left.v
theories/PropLeft.v
theories/Complaint.v
theories/Cause.v
theories/Fault.v
theories/PropCause.v
theories/Stop.v
theories/PropStop.v
theories/Waste.v
theories/PropWaste.v
theories/Renumber.v
theories/PropScript.v
theories/Slice.v
theories/PropSlice.v
theories/PropComment.v
theories/Move.v
theories/PropMove.v
theories/PropAccount.v
theories/PropVocab.v
theories/Memory.v
theories/PropMemory.v
theories/Verbose.v
theories/PropVerbose.v
theories/Stacks.v
theories/StackProof.v
theories/PropStack.v
theories/Copies.v
theories/PropCopies.v
theories/PropCopies2.v
theories/PropLifetime.v
theories/PropMessage.v
theories/Assumptions.v
