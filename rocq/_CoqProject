-Q theories Verif
theories/PyStr.v
theories/Types.v
theories/Regex.v
theories/DialectData.v
theories/ParserTable.v
theories/Line.v
theories/Matcher.v
theories/Ast.v
theories/Parser.v
theories/Compiler.v
theories/Glob.v
theories/Robot.v
theories/Library.v
theories/Events.v
theories/PyStrFacts.v
theories/Classify.v
theories/Table.v
theories/Scan.v
theories/Grammar.v
theories/Deriv.v
theories/Cert.v
theories/RegexFacts.v
theories/HookSpec.v
theories/HookProofs.v
theories/PropHooks.v
theories/LineSpec.v
theories/LineFacts.v
theories/TagFacts.v
theories/StepFacts.v
theories/PropLine.v
theories/Cst.v
theories/Report.v
theories/Eval.v
theories/TagIff.v
theories/RowIff.v
theories/IdSpec.v
theories/Rel.v
theories/Ids.v
theories/PropParse.v
theories/PickleSpec.v
theories/PickleFacts.v
theories/PickleTotal.v
theories/WfDoc.v
theories/ReSem.v
theories/LangSpec.v
theories/LangFacts.v
theories/MdSpec.v
theories/MdFacts.v
theories/PropMarkdown.v
theories/MdRun.v
theories/AnyRun.v
theories/WeakTree.v
theories/WeakEval.v
theories/AstRun.v
theories/MdTree.v
theories/PropMdParse.v
theories/PropCompile.v
theories/RobotSpec.v
theories/SuiteSpec.v
theories/FindSpec.v
theories/EscapeFacts.v
theories/ReprFacts.v
theories/FindFacts.v
theories/RobotFacts.v
theories/GlobSpec.v
theories/GlobFacts.v
theories/FilesSpec.v
theories/FilesFacts.v
theories/PropFiles.v
theories/PropRobot.v
theories/PropEvents.v
theories/Complete.v
theories/DocSpec.v
theories/Erase.v
theories/Den.v
theories/LineIff.v
theories/Means.v
theories/Layout.v
theories/Texts.v
theories/DocStr.v
theories/Blocks.v
theories/DocRun.v
theories/FeatureDoc.v
theories/DocMeans.v
theories/PropDoc.v
theories/PartsSpec.v
theories/Parts.v
theories/PropPlaces.v
theories/PropLang.v
theories/PropDocString.v
theories/CommentSpec.v
theories/PropComments.v
theories/PropDescription.v
theories/Rel2.v
theories/Eol.v
theories/EolMd.v
theories/MdTags.v
theories/EolRun.v
theories/PropCrlf.v
theories/RaggedSpec.v
theories/Repair.v
theories/RowSwap.v
theories/Tabs.v
theories/RaggedFacts.v
theories/PropRagged.v
theories/HeadTree.v
theories/MdFirst.v
theories/PropMdFirst.v
theories/MdOrder.v
theories/PropMdOrder.v
theories/StopRun.v
theories/PropStop.v
theories/WriteSpec.v
theories/WriteRead.v
theories/WriteBack.v
theories/PropWrite.v
theories/VarSpec.v
theories/VarFacts.v
theories/PropVariable.v
theories/PropSimple.v
theories/Main.v
theories/MainSpec.v
theories/PropMain.v
theories/ErrorSpec.v
theories/ErrorFacts.v
theories/PropErrors.v
theories/ExpectFacts.v
theories/PropExpected.v
theories/Made.v
theories/PropPlaceMsg.v
theories/EssenceSpec.v
theories/EssenceFacts.v
theories/PropEssence.v
theories/RelaySpec.v
theories/RelayFacts.v
theories/RelayDoc.v
theories/PropRelay.v
theories/PropPositions.v
theories/PropAppend.v
theories/ListSpec.v
theories/ListFacts.v
theories/PropListing.v
theories/PropComposite.v
theories/ReadSpec.v
theories/PropRead.v
theories/PropBlank.v
theories/TransSpec.v
theories/Flat.v
theories/TransFacts.v
theories/TransPair.v
theories/TransMatch.v
theories/TransStep.v
theories/TransBoth.v
theories/TransLock.v
theories/TransRun.v
theories/PropTranslate.v
theories/PropTwoFiles.v
theories/Runner.v
theories/PropRunner.v
theories/Format.v
theories/EditSpec.v
theories/PropFormat.v
theories/MdPlaceSpec.v
theories/Sourced.v
theories/PropMdPlaces.v
theories/PropMdPositions.v
theories/EmptySpec.v
theories/EmptyScan.v
theories/EmptyBuild.v
theories/PropEmpty.v
theories/MiddleSpec.v
theories/Renumber.v
theories/Units.v
theories/PropMiddle.v
theories/Conform.v
theories/PropLastLine.v
theories/CallTokens.v
theories/PropCallTokens.v
theories/PropSwap.v
theories/PropExact.v
theories/PropProse.v
theories/MdErrorSpec.v
theories/PropMdErrors.v
theories/PropMdRefused.v
theories/PropExactMd.v
theories/ExampleSpec.v
theories/ExampleChange.v
theories/PropExampleRow.v
theories/PartSpec.v
theories/PartChange.v
theories/PropScenarioTags.v
theories/PropStepMore.v
theories/WordSpec.v
theories/PropReword.v
theories/ArgSpec.v
theories/PropRowEdit.v
theories/PropExpectedAll.v
theories/TitleSpec.v
theories/PropView.v
theories/PropTitle.v
theories/PropEnds.v
theories/LabelSpec.v
theories/LabelChange.v
theories/PropLabel.v
theories/PropLabelLine.v
theories/ProseSpec.v
theories/PropPlain.v
theories/ProseChange.v
theories/PropProseLine.v
theories/ArgOnlySpec.v
theories/PropArgOnly.v
theories/DocEditSpec.v
theories/DocChange.v
theories/PropDocEdit.v
theories/ArgEditSpec.v
theories/ArgChange.v
theories/PropArgEdit.v
theories/HeaderSpec.v
theories/PropHeader.v
theories/WordsSpec.v
theories/PropWords.v
theories/MdWriteSpec.v
theories/PropMdWrite.v
theories/SpreadSpec.v
theories/PropSpread.v
theories/ExpandSpec.v
theories/PropExpand.v
theories/GroupSpec.v
theories/PropGroup.v
theories/DownSpec.v
theories/PropDown.v
theories/FlatSpec.v
theories/PropFlat.v
