-Q theories Verif
theories/Base.v
theories/BaseLemmas.v
theories/Regex.v
theories/Preproc.v
theories/PreprocTests.v
theories/PreprocLemmas.v
theories/PreprocFacts.v
theories/PreprocFacts2.v
theories/SpecPreproc.v
theories/PreprocFacts3.v
theories/PropPreproc.v
theories/PropFixed.v
theories/Strings.v
theories/SpecStrings.v
theories/StringsLemmas.v
theories/PropStrings.v
theories/Links.v
theories/SpecLinks.v
theories/LinksLemmas.v
theories/PropLinks.v
theories/Attr.v
theories/Html.v
theories/SpecHtml.v
theories/HtmlLemmas.v
theories/SpecAttr.v
theories/AttrLemmas.v
theories/PropHtml.v
theories/Peg.v
theories/PegLemmas.v
theories/Lexer.v
theories/SpecLexer.v
theories/LexerLemmas.v
theories/PropLexer.v
theories/Includes.v
theories/SpecIncludes.v
theories/IncludesLemmas.v
theories/PropIncludes.v
theories/Depth.v
theories/SpecDepth.v
theories/DepthLemmas.v
theories/Tree.v
theories/Toc.v
theories/SpecTree.v
theories/TreeLemmas.v
theories/PropTree.v
theories/Text.v
theories/PState.v
theories/Blocks.v
theories/Rules.v
theories/Parse.v
theories/SpecParse.v
theories/ParseInv.v
theories/PStateLemmas.v
theories/BlocksLemmas.v
theories/BlocksLemmas2.v
theories/RulesLemmas.v
theories/SpecPage.v
theories/ParseLemmas.v
theories/ParseTestEnv.v
theories/PropParse.v
theories/PropPage.v
theories/ParseTests1.v
theories/ParseTests2.v
theories/ParseTests3.v
theories/ParseTests4.v
theories/Render.v
theories/SpecReader.v
theories/SpecRender.v
theories/RenderLemmas.v
theories/RenderSafe.v
theories/RenderDom.v
theories/RenderEnds.v
theories/RenderNames.v
theories/RenderTestEnv.v
theories/PropRender.v
theories/RenderView.v
theories/PropView.v
theories/PropIds.v
theories/PropMeta.v
theories/RenderTests1.v
theories/RenderTests2.v
theories/RenderTests3.v
theories/RenderTests4.v
theories/SpecWriting.v
theories/ProseLemmas.v
theories/WritingLex.v
theories/DepthBuild.v
theories/WritingParse.v
theories/WritingBlocks.v
theories/WritingRender.v
theories/PropWriting.v
theories/SpecText.v
theories/PropText.v
theories/SpecShown.v
theories/RenderWords.v
theories/PropShown.v
theories/SpecNumbers.v
theories/RenderNumbers.v
theories/PropNumbers.v
theories/SpecBacklinks.v
theories/RenderLinks.v
theories/PropBacklinks.v
theories/SpecLetters.v
theories/LettersLemmas.v
theories/PropLetters.v
theories/SpecBlockless.v
theories/PropBlockless.v
theories/SpecInert.v
theories/PropInert.v
theories/PropPreprocLetters.v
theories/Wasm.v
theories/SpecJs.v
theories/PropWasm.v
theories/SpecPipeline.v
theories/PropPipeline.v
theories/SpecBlocks.v
theories/VerbatimLex.v
theories/BlocksLex.v
theories/BlocksParse.v
theories/BlocksLinks.v
theories/BlocksRun.v
theories/BlocksTable.v
theories/BlocksVerbatim.v
theories/BlocksLines.v
theories/BlocksGroup.v
theories/BlocksRender.v
theories/BlocksText.v
theories/PropBlocks.v
theories/PropAnchors.v
theories/PropPlaces.v
