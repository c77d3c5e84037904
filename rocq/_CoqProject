-Q theories Verif
theories/Str.v
theories/StrFacts.v
theories/CRuntime.v
theories/CheckPattern.v
theories/Parse.v
theories/Format.v
theories/SpecParse.v
theories/ParamNames.v
theories/SpecTables.v
theories/SpecFormat.v
theories/SpecCRuntime.v
theories/CRuntimeFacts.v
theories/CRuntimeFacts2.v
theories/CRuntimeProps.v
theories/CRuntimeProps2.v
theories/CRuntimeProps3.v
theories/WinRuntime.v
theories/SpecWin.v
theories/WinSim.v
theories/WinProps.v
theories/WinMsg.v
theories/WinWrap.v
theories/ParseFacts.v
theories/ParseFacts2.v
theories/FormatFacts.v
theories/TypedefFacts.v
theories/Regex.v
theories/Lex.v
theories/Tokenize.v
theories/SpecTokenize.v
theories/TokenizeFacts.v
theories/Prefix.v
theories/Substitute.v
theories/Data.v
theories/SpecData.v
theories/Options.v
theories/Generate.v
theories/Templates.v
theories/SpecPrefix.v
theories/SpecSubstitute.v
theories/PrefixFacts.v
theories/SpecTemplates.v
theories/TemplateFacts.v
theories/NumFacts.v
theories/SpecLex.v
theories/ParamFacts.v
theories/SelectFacts.v
theories/ParamFacts2.v
theories/ParseProps.v
theories/FormatProps.v
theories/RegexFacts.v
theories/LexFacts.v
theories/LexComments.v
theories/LexWords.v
theories/LexJoin.v
theories/LexProps.v
theories/ClangAst.v
theories/Frontend.v
theories/TablesClean.v
theories/SpecNames.v
theories/SymbolNames.v
theories/SubstFacts.v
theories/SubstFacts2.v
theories/SubstProps.v
theories/SpecStatements.v
theories/StatementFacts.v
theories/SpecGenerate.v
theories/SpecClangAst.v
theories/SpecEndToEnd.v
theories/GenerateFacts.v
theories/GenerateProps.v
theories/GenerateProps2.v
theories/GenerateProps3.v
theories/GenerateProps4.v
theories/GenerateProps5.v
theories/GenerateProps6.v
theories/ShippedFacts.v
theories/ShippedProps.v
theories/LoadCode.v
theories/EndToEnd.v
theories/StatementText.v
theories/SpecSymbols.v
theories/SpecCLang.v
theories/SpecCProg.v
theories/SpecCRun.v
theories/SpecCMacro.v
theories/SpecBody.v
theories/SpecHeader.v
theories/SpecReturn.v
theories/SpecProgram.v
theories/SpecProcmap.v
theories/SpecOptions.v
theories/MinRuntime.v
theories/SpecMinRuntime.v
theories/SpecMacros.v
theories/SpecCRead.v
theories/SpecCSyntax.v
theories/SpecCWhole.v
theories/SpecFile.v
theories/SpecFileName.v
theories/SpecDirective.v
theories/SpecDefault.v
theories/CxxRuntime.v
theories/SpecCxxRuntime.v
theories/SpecClangType.v
theories/SpecCUse.v
theories/SpecCText.v
theories/SpecCFiles.v
theories/LexTables.v
theories/Scanner.v
theories/ScannerDfa.v
theories/ScannerFacts.v
theories/ScannerProps.v
theories/PropertiesWin.v
theories/CTemplate.v
theories/CTemplateText.v
theories/CTemplatePP.v
theories/CBody.v
theories/CBodyText.v
theories/CCode.v
theories/CBodyFuns.v
theories/CBodyExec.v
theories/CBodyRun.v
theories/CBodyRun2.v
theories/CBodyRun3.v
theories/CBodyRun4.v
theories/CBodyProps.v
theories/HTemplate.v
theories/HTemplatePP.v
theories/HText.v
theories/HMacro.v
theories/HHeader.v
theories/HHeader2.v
theories/HOrder.v
theories/HWrapper.v
theories/HAlias.v
theories/CBodyFine.v
theories/CBodyMain.v
theories/HSingle.v
theories/CRead.v
theories/CReadS.v
theories/CReadCode.v
theories/CReadMain.v
theories/CExpand.v
theories/CExpandMain.v
theories/PropertiesHeader.v
theories/PropertiesWhole.v
theories/HObject.v
theories/PropertiesUse.v
theories/MacrosProps.v
theories/CTextProps.v
theories/CTextAbs.v
theories/CTextLines.v
theories/CTextFile.v
theories/CTextTables.v
theories/CTextRun.v
theories/ClangAstFacts.v
theories/ClangAstFacts2.v
theories/ClangAstProps.v
theories/ClangAstSelect.v
theories/ClangTypeFacts.v
theories/ClangAstFinal.v
theories/AstRun.v
theories/PropertiesTemplates.v
theories/PropertiesText.v
theories/PropertiesSubstitute.v
theories/PropertiesStatements.v
theories/PropertiesScanner.v
theories/HReturn.v
theories/PropertiesReturn.v
theories/CReadNot.v
theories/PropertiesBody.v
theories/PropertiesRead.v
theories/DataFacts.v
theories/DataProps.v
theories/DumpFacts.v
theories/PropertiesProgram.v
theories/PrintLex.v
theories/PrintText.v
theories/PrintRun.v
theories/PrintFinal.v
theories/PropertiesPrint.v
theories/PropertiesPrefix.v
theories/PropertiesParse.v
theories/OptionsFacts.v
theories/OptionsProps.v
theories/OptionsMean.v
theories/PropertiesOptions.v
theories/PropertiesNames.v
theories/MinProps.v
theories/PropertiesMin.v
theories/Procmap.v
theories/ProcmapFacts.v
theories/MapsLink.v
theories/PropertiesMaps.v
theories/PropertiesLex.v
theories/PropertiesGenerate.v
theories/PropertiesFormat.v
theories/HFile.v
theories/HFileMain.v
theories/HFilePair.v
theories/PropertiesFile.v
theories/PropertiesFilePair.v
theories/HFileName.v
theories/PropertiesFileName.v
theories/DirectiveFacts.v
theories/OptionLines.v
theories/PropertiesDirective.v
theories/HDefaults.v
theories/HDefault.v
theories/PropertiesDefault.v
theories/PropertiesData.v
theories/CxxFacts.v
theories/CxxProps.v
theories/CxxRun.v
theories/CxxRun2.v
theories/CxxRun3.v
theories/CxxCounter.v
theories/PropertiesCxx.v
theories/ClangAstTypes.v
theories/PropertiesClangAst.v
theories/PropertiesCRuntime.v
