-Q theories Verif
theories/Chars.v
theories/SourceBuffer.v
theories/Token.v
theories/Tokenizer.v
theories/Node.v
theories/ParserState.v
theories/Expressions.v
theories/Statements.v
theories/Blocks.v
theories/Parser.v
theories/NodeView.v
theories/Conformance.v
theories/LexBasics.v
theories/ScanLemmas.v
theories/LineLemmas.v
theories/TokenLemmas.v
theories/NumberLemmas.v
theories/WellFormed.v
theories/CallLemmas.v
theories/CallTheorem.v
theories/LexSpec.v
theories/TokenSpec.v
theories/RenderSpec.v
theories/HistoryProofs.v
theories/TilingProofs.v
theories/MidLine.v
theories/NumberProofs.v
theories/ZeroProofs.v
theories/WordProofs.v
theories/StringProofs.v
theories/TokenProofs.v
theories/Compose.v
theories/LayoutProofs.v
theories/RoundTrip.v
theories/LexCorollaries.v
theories/PropertiesLex1.v
theories/PropertiesLex2.v
theories/PropertiesLex3.v
theories/GrammarSpec.v
theories/ParseBasics.v
theories/SoundBasics.v
theories/SoundExpr.v
theories/SoundStmt.v
theories/SoundBlocks.v
theories/Soundness.v
theories/FirstSets.v
theories/CompleteBasics.v
theories/CompleteExpr.v
theories/CompleteBlocks.v
theories/Completeness.v
theories/Monotone.v
theories/TermBasics.v
theories/TermExpr.v
theories/TermStmt.v
theories/TermStable.v
theories/YieldProofs.v
theories/TreeSpec.v
theories/SpanProofs.v
theories/PositionProofs.v
theories/ParseSpec.v
theories/EndProofs.v
theories/ParseCorollaries.v
theories/OrderProofs.v
theories/FollowProofs.v
theories/DefectProofs.v
theories/DefectProofs2.v
theories/TryProofs.v
theories/PropertiesParse1.v
theories/DisplayProofs.v
theories/PropertiesParse2.v
theories/SchemaSpec.v
theories/SchemaProofs.v
theories/PropertiesParse3.v
theories/OnlineSpec.v
theories/OnlineProofs.v
theories/OnlineCorollaries.v
theories/PropertiesParse4.v
theories/ExprSpec.v
theories/ExprProofs.v
theories/ExprBack.v
theories/ExprText.v
theories/ExprPrint.v
theories/PropertiesExpr.v
theories/StmtSpec.v
theories/StmtProofs.v
theories/StmtDerive.v
theories/StmtText.v
theories/StmtBack.v
theories/StmtExact.v
theories/PropertiesStmt.v
theories/LayoutSpec.v
theories/TwinProofs.v
theories/PropertiesLayout.v
theories/PrintSpec.v
theories/SequenceSpec.v
theories/Steady.v
theories/Sheet.v
theories/Typeset.v
theories/PrintProofs.v
theories/NewlineProofs.v
theories/PropertiesPrint.v
theories/Main.v
theories/PropertiesMain.v
theories/PythonGrammar.v
theories/Recognise.v
theories/PythonSpec.v
theories/PythonProofs.v
theories/PythonInputs.v
theories/PropertiesPython.v
theories/CodedGrammar.v
theories/CodedSpec.v
theories/CodedComplete.v
theories/CodedBlocks.v
theories/CodedSound.v
theories/CodedInputs.v
theories/PropertiesCoded.v
theories/Include.v
theories/CoreGrammar.v
theories/CoreProofs.v
theories/PropertiesCore.v
theories/ErrorSpec.v
theories/ErrorProofs.v
theories/PropertiesError.v
theories/LexErrorSpec.v
theories/LexErrorProofs.v
theories/PropertiesLexError.v
theories/BeyondSpec.v
theories/BeyondProofs.v
theories/BeyondStmt.v
theories/PropertiesBeyond.v
theories/ShapeSpec.v
theories/ShapeProofs.v
theories/PropertiesShape.v
theories/DepthSpec.v
theories/DepthProofs.v
theories/DepthAmount.v
theories/DepthText.v
theories/PropertiesDepth.v
theories/JoinLexer.v
theories/JoinSpec.v
theories/JoinProofs.v
theories/JoinFiles.v
theories/PropertiesJoin.v
theories/Meter.v
theories/MeterExpr.v
theories/MeterStmt.v
theories/MeterBlocks.v
theories/MeterParser.v
theories/MeterSame.v
theories/MeterProofs.v
theories/PropertiesMeter.v
theories/SizeProofs.v
theories/PropertiesSize.v
theories/TableSpec.v
theories/TableProofs.v
theories/PropertiesTable.v
theories/HeightSpec.v
theories/HeightProofs.v
theories/PropertiesHeight.v
theories/SessionSpec.v
theories/SessionProofs.v
theories/PropertiesSession.v
theories/FlagSpec.v
theories/FlagProofs.v
theories/PropertiesFlag.v
theories/RepeatSpec.v
theories/RepeatProofs.v
theories/PropertiesRepeat.v
