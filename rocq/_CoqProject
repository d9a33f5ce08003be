-Q theories Verif
theories/Str.v
theories/Unicode.v
theories/Html5Table.v
theories/Regex.v
theories/RegexParse.v
theories/RegexSnips.v
theories/ModelBase.v
theories/ModelHtml.v
theories/ModelUrl.v
theories/ModelAttrs.v
theories/ModelInline.v
theories/ModelParser.v
theories/RegexTheory.v
theories/RegexAuto.v
theories/Lib.v
theories/SpecHtml.v
theories/RegexGroups.v
theories/ProofHtml.v
theories/ProofCharref.v
theories/PropHtml.v
theories/SpecAttrs.v
theories/ProofAttrs.v
theories/ProofAttrAdd.v
theories/PropAttrs.v
theories/SpecRegex.v
theories/ProofRegex.v
theories/PropRegex.v
theories/SpecParse.v
theories/ProofRawBlocks.v
theories/ProofParse.v
theories/Samples.v
theories/PropParse.v
theories/Logic.v
theories/ProofWalk.v
theories/ProofState.v
theories/SpecState.v
theories/ProofMemory.v
theories/ProofCache.v
theories/ProofSpan.v
theories/ProofStateEx.v
theories/PropState.v
theories/SpecLinks.v
theories/ProofLinks.v
theories/ProofDoc.v
theories/ProofDiverge.v
theories/PropLinks.v
theories/SpecPlain.v
theories/ProofPlain.v
theories/SpecNewlines.v
theories/ProofNewlines.v
theories/PropNewlines.v
theories/ProofParas.v
theories/ProofTags.v
theories/ProofSections.v
theories/ProofBlocks.v
theories/SpecDoc.v
theories/ProofDocument.v
theories/PropDoc.v
theories/SpecNotes.v
theories/ProofNotes.v
theories/PropNotes.v
theories/SpecShelf.v
theories/ProofShelf.v
theories/ProofFuel.v
theories/ProofTokens.v
theories/PropShelf.v
theories/SpecText.v
theories/ProofText.v
theories/PropText.v
theories/SpecSafe.v
theories/ProofSafe.v
theories/PropSafe.v
theories/SpecLists.v
theories/ProofLists.v
theories/ProofPieces.v
theories/ProofWeave.v
theories/ProofListText.v
theories/ProofListDoc.v
theories/ProofListNested.v
theories/PropLists.v
theories/SpecTables.v
theories/ProofTables.v
theories/ProofTableRows.v
theories/ProofTableDoc.v
theories/PropTables.v
theories/SpecGlyphs.v
theories/ProofGlyphs.v
theories/PropGlyphs.v
theories/ProofSpanRe.v
theories/SpecSpans.v
theories/ProofSpanText.v
theories/ProofSpanDoc.v
theories/ProofSpanPage.v
theories/PropSpans.v
theories/SpecSigned.v
theories/ProofSigAtts.v
theories/ProofSigSheet.v
theories/ProofSigned.v
theories/ProofSignedDoc.v
theories/ProofSignedPage.v
theories/ProofSignedEnd.v
theories/ProofSignedTop.v
theories/ProofSigDec.v
theories/SpecComments.v
theories/ProofComments.v
theories/PropSigned.v
theories/ProofPages.v
theories/ProofSpecial.v
theories/SpecCode.v
theories/ProofCode.v
theories/ProofCodeDoc.v
theories/ProofCodePage.v
theories/ProofCodeTop.v
theories/PropCode.v
theories/SpecAtts.v
theories/ProofItems.v
theories/ProofItemsStages.v
theories/ProofItemsClass.v
theories/ProofItemsTop.v
theories/PropItems.v
theories/ProofStock.v
theories/ProofStockDoc.v
theories/SpecLinked.v
theories/ProofLinkAuto.v
theories/ProofLinked.v
theories/ProofLinkedDoc.v
theories/ProofLinkedTop.v
theories/PropLinked.v
theories/SpecImages.v
theories/ProofImageAuto.v
theories/ProofImages.v
theories/ProofImaged.v
theories/ProofImagedDoc.v
theories/ProofImagedTop.v
theories/PropImages.v
theories/SpecSpelling.v
theories/ProofSpelling.v
theories/ProofShown.v
theories/SpecSymbols.v
theories/RegexPath.v
theories/ProofSymbolAuto.v
theories/ProofSymbolStep.v
theories/ProofSymbolHits.v
theories/ProofSymbolWords.v
theories/ProofSymbolsTop.v
theories/PropSymbols.v
theories/PropSpelling.v
theories/SpecDefs.v
theories/ProofDefs.v
theories/ProofDefsKept.v
theories/PropDefs.v
theories/SpecFootnotes.v
theories/ProofFootAuto.v
theories/ProofSteps.v
theories/ProofFootHits.v
theories/ProofFootText.v
theories/ProofFootnotes.v
theories/ProofFootKept.v
theories/PropFootnotes.v
theories/SpecMarks.v
theories/ProofMarks.v
theories/PropMarks.v
theories/SpecMixed.v
theories/ProofMixed.v
theories/ProofApart.v
theories/SpecFormed.v
theories/ProofFormed.v
theories/PropMixed.v
theories/SpecColumns.v
theories/ProofColumns.v
theories/PropColumns.v
theories/SpecReferences.v
theories/ProofReferences.v
theories/PropReferences.v
theories/SpecDivide.v
theories/ProofDivide.v
theories/PropDivide.v
theories/SpecSanitized.v
theories/ProofSanitized.v
theories/PropSanitized.v
theories/SpecLineBreaks.v
theories/ProofLineBreaks.v
theories/PropLineBreaks.v
theories/SpecGlyphRules.v
theories/ProofGlyphRules.v
theories/ProofGlyphSteps.v
theories/PropGlyphRules.v
theories/SpecGlyphText.v
theories/ProofGlyphText.v
theories/PropGlyphText.v
theories/SpecProse.v
theories/ProofProseText.v
theories/ProofProse.v
theories/PropProse.v
theories/SpecQuoted.v
theories/ProofQuoted.v
theories/PropQuoted.v
theories/SpecAliases.v
theories/ProofAliases.v
theories/PropAliases.v
theories/SpecItemBreaks.v
theories/ProofItemBreaks.v
theories/PropItemBreaks.v
theories/SpecGlossary.v
theories/ProofGlossary.v
theories/PropGlossary.v
theories/SpecCaption.v
theories/ProofCaption.v
theories/PropCaption.v
theories/SpecRowGroups.v
theories/ProofRowGroups.v
theories/PropRowGroups.v
