-Q theories Verif
theories/Prelude.v
theories/Types.v
theories/Ops.v
theories/OpsSpec.v
theories/OpsProofs.v
theories/OpsFacts.v
theories/OpsProps.v
theories/AbsOps.v
theories/AbsOpsSpec.v
theories/AbsOpsProofs.v
theories/AbsOpsProps.v
theories/Text.v
theories/Literals.v
theories/LiteralsSpec.v
theories/LiteralsProofs.v
theories/LiteralsProps.v
theories/Tribool.v
theories/TriboolProps.v
theories/Tables.v
theories/Tokenizer.v
theories/TokenizerSpec.v
theories/TokenizerProofs.v
theories/TokenizerProps.v
theories/TablesProps.v
theories/LinMap.v
theories/LinMapSpec.v
theories/LinMapProofs.v
theories/LinMapProps.v
theories/VM.v
theories/VMSpec.v
theories/VMProofs.v
theories/VMProps.v
theories/Ast.v
theories/AstFacts.v
theories/Codegen.v
theories/SourceSem.v
theories/CodegenSpec.v
theories/CodegenProofs.v
theories/CodegenRun.v
theories/CodegenJumps.v
theories/CodegenProps.v
theories/Analyze.v
theories/Annotated.v
theories/AnnotatedProofs.v
theories/Programs.v
theories/AnalyzeFacts.v
theories/AnalyzeCode.v
theories/AnalyzeProofs.v
theories/AnalyzeProps.v
theories/AcceptedSpec.v
theories/AcceptedProofs.v
theories/AcceptedProps.v
theories/NameLookup.v
theories/NameLookupSpec.v
theories/NameLookupProofs.v
theories/Sources.v
theories/SourcesProofs.v
theories/NameLookupProps.v
theories/CodeString.v
theories/CodeStringSpec.v
theories/CodeStringProofs.v
theories/CodeStringProps.v
theories/HtmlWriter.v
theories/HtmlWriterSpec.v
theories/HtmlWriterProofs.v
theories/HtmlWriterProps.v
theories/Directives.v
theories/DirectivesSpec.v
theories/DirectivesProofs.v
theories/DirectivesProps.v
theories/BmdParse.v
theories/BmdParseSpec.v
theories/BmdParseFacts.v
theories/BmdRawFacts.v
theories/BmdParseProofs.v
theories/BmdSound.v
theories/BmdTotal.v
theories/BmdParseProps.v
theories/BmsHtml.v
theories/DocHtml.v
theories/DocHtmlSpec.v
theories/DocHtmlFacts.v
theories/BmsHtmlProofs.v
theories/DocHtmlProofs.v
theories/DocHtmlProps.v
theories/DocHtmlTotal.v
theories/DocHtmlTotalProps.v
theories/Annotations.v
theories/AnnotationsSpec.v
theories/AnnotationsProofs.v
theories/AnnotationsProps.v
theories/Parse.v
theories/GrammarSpec.v
theories/ParseFacts.v
theories/ParseComplete.v
theories/ParseTotal.v
theories/ParseDialects.v
theories/ParseProps.v
theories/Decimal.v
theories/DecimalSpec.v
theories/DecimalProofs.v
theories/DecimalProps.v
theories/GenBase.v
theories/GenBms.v
theories/GenC.v
theories/GenFacts.v
theories/GenProps.v
theories/Spell.v
theories/PrintSpec.v
theories/PrintFacts.v
theories/PrintGrammar.v
theories/PrintLook.v
theories/PrintProgram.v
theories/PrintParse.v
theories/PrintProps.v
theories/CGrammar.v
theories/CGrammarFacts.v
theories/CPrintSpec.v
theories/CSpell.v
theories/CPrintFacts.v
theories/CRegroup.v
theories/CBalance.v
theories/CPrintProps.v
theories/Convert.v
theories/ConvertSpec.v
theories/ConvertFacts.v
theories/ConvertParse.v
theories/ConvertSources.v
theories/AnnotationWalkSpec.v
theories/ConvertAnnotations.v
theories/FrontEnd.v
theories/FrontEndProps.v
theories/AnnotationWalkProps.v
theories/ProgramSem.v
theories/ProgramMono.v
theories/ProgramLink.v
theories/ProgramExprs.v
theories/ProgramCalls.v
theories/ProgramStmts.v
theories/ProgramProofs.v
theories/ProgramProps.v
theories/Instantiate.v
theories/InstantiateSpec.v
theories/InstantiateProofs.v
theories/InstantiateProps.v
theories/AnalyzeGeneric.v
theories/Diagnostics.v
theories/DiagnosticsSpec.v
theories/DiagnosticsProofs.v
theories/BmdErrors.v
theories/DiagnosticsProps.v
theories/CodePrintProps.v
theories/ErrorPrint.v
theories/ErrorPrintSpec.v
theories/ErrorPrintProofs.v
theories/ErrorPrintProps.v
theories/AssertProps.v
theories/AnalyzeGenericSpec.v
theories/AnalyzeGenericProofs.v
theories/AnalyzeGenericCalls.v
theories/AnalyzeGenericProps.v
theories/Holders.v
theories/HoldersSpec.v
theories/HoldersProofs.v
theories/HoldersProps.v
theories/Tool.v
theories/ToolProps.v
theories/ParseExpected.v
theories/ParseBlame.v
theories/ParseExpectedProps.v
theories/DocTree.v
theories/DocTreeSpec.v
theories/DocTreeProofs.v
theories/DocTreeProps.v
theories/VMPrint.v
theories/VMPrintSpec.v
theories/VMPrintProofs.v
theories/VMPrintProps.v
theories/Testing.v
theories/TestingSpec.v
theories/TestingProofs.v
theories/TestingProps.v
theories/RepoTests.v
theories/ProgramTree.v
theories/ProgramTreeSpec.v
theories/ProgramTreeProofs.v
theories/ProgramTreeRead.v
theories/ProgramTreeTold.v
theories/ProgramTreeProps.v
