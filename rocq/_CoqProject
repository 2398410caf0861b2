-Q theories Verif

theories/GoBase.v
theories/Utf8.v
theories/Utf8Facts.v
theories/UniTables.v
theories/Unicode.v
theories/Replacer.v
theories/Regex.v
theories/RegexParse.v
theories/Hre.v
theories/Subword.v
theories/Rule.v
theories/Hsl.v
theories/Jamo.v
theories/Scripts.v
theories/Spec.v
theories/Procedure.v
theories/BString.v
theories/LocalizeFacts.v
theories/SubwordFacts.v
theories/PropSubword.v
theories/ReplacerFacts.v
theories/SpecOrder.v
theories/LettersFacts.v
theories/PropOrder.v
theories/RegexSpec.v
theories/RegexFacts.v
theories/CaptureFacts.v
theories/FindFacts.v
theories/RuleFacts.v
theories/PropFind.v
theories/JamoFacts.v
theories/PropJamo.v
theories/ScriptFacts.v
theories/PropScript.v
theories/PropOutput.v
theories/Bundled1.v
theories/Bundled2.v
theories/Bundled3.v
theories/Bundled4.v
theories/Bundled5.v
theories/Bundled6.v
theories/Bundled7.v
theories/Bundled8.v
theories/Bundled.v
theories/ProcFacts.v
theories/ProcSem.v
theories/ProcLocal.v
theories/MaskFacts.v
theories/ProcChars.v
theories/PropTrace.v
theories/Api.v
theories/ApiFacts.v
theories/Concurrent.v
theories/CaseFacts.v
theories/SeparateFacts.v
theories/WordFacts.v
theories/WordScan.v
theories/WordRules.v
theories/WordProc.v
theories/WordSpec.v
theories/WhiteFacts.v
theories/PropBundled.v
theories/PropCase.v
theories/PropApi.v
theories/PropProc.v
theories/PropChars.v
theories/PropSplit.v
theories/PropAgain.v
theories/PropFirst.v
theories/PropWords.v
theories/PropMarks.v
theories/PropLines.v
theories/PropBlanks.v
theories/HslFacts.v
theories/HslInv.v
theories/HslDoc.v
theories/HslLayout.v
theories/PropHsl.v
theories/ParseFacts.v
theories/ReplaceFacts.v
theories/SourceFacts.v
theories/PatternFacts.v
theories/SrcFacts.v
theories/FindSrc.v
theories/WidthFacts.v
theories/LookFacts.v
theories/PropPattern.v
theories/PropSyntax.v
theories/PropMiss.v
theories/VarFacts.v
theories/VarParse.v
theories/VarMatch.v
theories/PropVar.v
theories/PropSpec.v
theories/CyrDict.v
theories/Translit.v
theories/TranslitFacts.v
theories/PropTranslit.v
theories/Tracefmt.v
theories/Cli.v
theories/CliFacts.v
theories/PropCli.v
theories/TestCmd.v
theories/PropTest.v
theories/PropProfile.v
theories/Tools.v
theories/PropTools.v
theories/Wasm.v
theories/PropWasm.v
theories/Web.v
theories/PropWeb.v
theories/JsText.v
theories/PropJsText.v
theories/WebTranslit.v
theories/PropWebTranslit.v
theories/PropPage.v
theories/WebWorker.v
theories/PropWorker.v
theories/Json.v
theories/PropJson.v
theories/WebResult.v
theories/PropResult.v
theories/WebUrl.v
theories/PropUrl.v
theories/PropSteps.v
theories/PropPuncts.v
theories/PropEdges.v
theories/WebParts.v
theories/PropParts.v
theories/PropSize.v
theories/WasmCalls.v
theories/PropCalls.v
theories/WebApp.v
theories/PropApp.v
theories/Args.v
theories/PropArgs.v
