-Q theories Verif
theories/Py.v
theories/Regex.v
theories/Utils.v
theories/TextWrap.v
theories/Lines.v
theories/Detectors.v
theories/Formatters.v
theories/Logging.v
theories/Cli.v
theories/Tests.v
theories/Base.v
theories/PropsApi.v
theories/SpecLines.v
theories/ProofsLines.v
theories/ProofsParser.v
theories/SpecParser.v
theories/ProofsRegex.v
theories/ProofsShapes.v
theories/ProofsKinds.v
theories/PropsParser.v
theories/ProofsChars.v
theories/SpecList.v
theories/SpecCli.v
theories/SpecFormat.v
theories/ProofsPass.v
theories/ProofsList.v
theories/PropsList.v
theories/SpecTable.v
theories/ProofsTable.v
theories/PropsTable.v
theories/SpecWrap.v
theories/ProofsWrap.v
theories/ProofsScan.v
theories/ProofsTokens.v
theories/ProofsLinks.v
theories/ProofsPieces.v
theories/ProofsApart.v
theories/ProofsCode.v
theories/ProofsFilled.v
theories/ProofsGaps.v
theories/ProofsSeams.v
theories/ProofsBreaks.v
theories/ProofsLost.v
theories/ProofsSolid.v
theories/PropsWrap.v
theories/SpecQuote.v
theories/ProofsForward.v
theories/PropsLeaf.v
theories/PropsQuote.v
theories/SpecDefinition.v
theories/ProofsDefinition.v
theories/PropsDefinition.v
theories/SpecErrors.v
theories/SpecLimit.v
theories/ProofsLimit.v
theories/ProofsErrors.v
theories/ProofsCli.v
theories/PropsCli.v
theories/PropsNewlines.v
theories/PropsChars.v
theories/SpecProse.v
theories/SpecDocument.v
theories/SpecContent.v
theories/SpecNested.v
theories/SpecRender.v
theories/ProofsStable.v
theories/ProofsProse.v
theories/ProofsRender.v
theories/ProofsDocument.v
theories/PropsDocument.v
theories/PropsProse.v
theories/ProofsNested.v
theories/ProofsPlain.v
theories/ProofsNestedFormat.v
theories/PropsLimit.v
theories/SpecLazy.v
theories/PropsLazy.v
theories/SpecLocal.v
theories/ProofsLocal.v
theories/PropsLocal.v
theories/ProofsTight.v
theories/SpecParagraph.v
theories/ProofsFirst.v
theories/PropsParagraph.v
theories/PropsRuns.v
theories/PropsErrors.v
theories/PropsNested.v
theories/PropsRender.v
theories/SpecInline.v
theories/ProofsBrackets.v
theories/ProofsRestable.v
theories/ProofsReread.v
theories/ProofsRefill.v
theories/PropsStable.v
theories/Version.v
theories/SpecVersion.v
theories/PropsVersion.v
theories/SpecLetters.v
theories/ProofsLetters.v
theories/PropsLetters.v
theories/SpecWidth.v
theories/ProofsWidth.v
theories/PropsWidth.v
theories/Records.v
theories/SpecRecords.v
theories/ProofsRecords.v
theories/PropsRecords.v
theories/Notices.v
theories/SpecNotices.v
theories/ProofsNotices.v
theories/ProofsAlarms.v
theories/PropsNotices.v
theories/RunLog.v
theories/SpecRunLog.v
theories/ProofsRunLog.v
theories/PropsRunLog.v
theories/Glob.v
theories/SpecGlob.v
theories/ProofsGlob.v
theories/PropsGlob.v
theories/Assumptions.v
