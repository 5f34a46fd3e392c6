-Q theories Verif
theories/Base.v
theories/Stream.v
theories/Scanner.v
theories/Tree.v
theories/Parser.v
theories/RepoTestsParse.v
theories/BaseFacts.v
theories/ScannerFacts.v
theories/ScanStep.v
theories/ScanProps.v
theories/ScanPanic.v
theories/ScanShape.v
theories/ScanResume.v
theories/ScanEnter.v
theories/PropScan.v
theories/ParseSpec.v
theories/ParseInv.v
theories/ParseOrder.v
theories/PropParse.v
theories/TreeFacts.v
theories/PropTree.v
theories/ParseEnd.v
theories/PropEnd.v
theories/TextDoc.v
theories/PropDoc.v
theories/TagServices.v
theories/PropTags.v
theories/Folding.v
theories/RepoTestsFolding.v
theories/FoldLimit.v
theories/PropFolding.v
theories/SelectionRange.v
theories/ScanComplete.v
theories/ScanLocal.v
theories/SelAttr.v
theories/PropSelection.v
theories/RepoTestsSelection.v
theories/DataManager.v
theories/Uri.v
theories/Links.v
theories/RepoTestsLinks.v
theories/PropUri.v
theories/TokenLoop.v
theories/PropLinks.v
theories/NodeScan.v
theories/Entities.v
theories/Hover.v
theories/RepoTestsHover.v
theories/PropHover.v
theories/PropHoverDoc.v
theories/BuiltinData.v
theories/PropData.v
theories/Completion.v
theories/RepoTestsCompletion.v
theories/PropTagComplete.v
theories/PropComplete.v
theories/PropEdits.v
theories/Formatter.v
theories/RepoTestsFormat.v
theories/FormatFacts.v
theories/PropFormat.v
theories/ParserPtr.v
theories/PropPtr.v
theories/Render.v
theories/RenderFacts.v
theories/FormatWords.v
theories/PropRender.v
theories/PropRename.v
theories/PropAnswers.v
theories/PropStale.v
theories/Service.v
theories/PropLinkAnswers.v
theories/PropService.v
theories/RepoTestsTags.v
theories/Regex.v
theories/PropRegex.v
theories/Layout.v
theories/LayoutTree.v
theories/PropLayout.v
theories/LayoutSettle.v
theories/PropSettle.v
theories/ScanShift.v
theories/ParseShift.v
theories/PropLocal.v
theories/ParseKeep.v
theories/PropTyped.v
theories/MoveFacts.v
theories/MoveComplete.v
theories/PropAbove.v
theories/PropLines.v
theories/PropGaps.v
theories/PropProposals.v
theories/ScanCut.v
theories/BelowFacts.v
theories/BelowLoops.v
theories/BelowComplete.v
theories/PropBelow.v
theories/PropAccept.v
theories/Json.v
theories/BuiltinText.v
theories/PropJson.v
theories/Lexing.v
theories/TokenRun.v
theories/PropTokens.v
theories/PropFoldDoc.v
theories/PropLinkDoc.v
theories/PropSelectDoc.v
theories/PropRange.v
theories/PropTagDoc.v
theories/PropHoverTree.v
theories/PropCompleteTree.v
theories/PropTypeTree.v
theories/PropSoup.v
theories/PropSoupTyping.v
theories/PropSoupServices.v
theories/PropSoupTags.v
theories/PropSoupRename.v
theories/PropSoupComplete.v
theories/PropSoupInside.v
theories/PropSoupHover.v
theories/PropSoupQuote.v
theories/PropSoupName.v
theories/PropSoupSlash.v
theories/PropSoupBracket.v
theories/PropSoupAnswers.v
theories/PropSoupValue.v
theories/PropSoupAttr.v
theories/PropSoupAttrName.v
