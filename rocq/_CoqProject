-Q theories Verif
theories/Base.v
theories/BaseFacts.v
theories/EscapeModel.v
theories/SpecInline.v
theories/EscapeProof.v
theories/PropsEscape.v
theories/OptsModel.v
theories/PunctModel.v
theories/PunctProof.v
theories/PropsPunct.v
theories/ConfigModel.v
theories/SpecConfig.v
theories/ConfigProof.v
theories/PropsConfig.v
theories/WrapModel.v
theories/SpecWrap.v
theories/WrapProof.v
theories/PropsWrap.v
theories/CodeModel.v
theories/SpecCode.v
theories/CodeProof.v
theories/PropsCode.v
theories/TableModel.v
theories/SpecTable.v
theories/TableProof.v
theories/PropsTable.v
theories/DecFacts.v
theories/HeadingModel.v
theories/SpecHeading.v
theories/HeadingProof.v
theories/PropsHeading.v
theories/CliModel.v
theories/SpecCli.v
theories/CliProof.v
theories/PropsCli.v
theories/DiffModel.v
theories/SpecDiff.v
theories/DiffProof.v
theories/PropsDiff.v
theories/FormatterModel.v
theories/SpecFormatter.v
theories/FormatterProof.v
theories/PropsFormatter.v
theories/AstModel.v
theories/StateModel.v
theories/InlineModel.v
theories/WarnModel.v
theories/SerModel.v
theories/SpecState.v
theories/StateProof.v
theories/PropsState.v
theories/SerFacts.v
theories/PropsOrder.v
theories/SerBuilt.v
theories/SpecContext.v
theories/ContextProof.v
theories/OutputProof.v
theories/DecRead.v
theories/PropsContext.v
theories/SpecDoc.v
theories/DocProof.v
theories/PropsDoc.v
theories/DocRun.v
theories/SpecWarn.v
theories/PropsWarn.v
theories/SpecRefs.v
theories/RefProof.v
theories/PropsRefs.v
theories/SpecNotes.v
theories/NoteProof.v
theories/PropsNotes.v
theories/SpecSame.v
theories/SameProof.v
theories/CarryProof.v
theories/PropsSame.v
theories/SpecSafe.v
theories/SafeProof.v
theories/PropsSafe.v
theories/SpecEnd.v
theories/EndProof.v
theories/EndDoc.v
theories/PropsEnd.v
theories/SpecText.v
theories/TextProof.v
theories/TextPlain.v
theories/PropsText.v
theories/SpecEmph.v
theories/EmphProof.v
theories/EmphDoc.v
theories/PropsEmph.v
theories/ProseProof.v
theories/PropsProse.v
theories/PropsSaid.v
theories/PropsTitle.v
theories/SpecBlocks.v
theories/BlocksProof.v
theories/ParaProof.v
theories/NestProof.v
theories/PropsBlocks.v
theories/SpecStructure.v
theories/SpecGaps.v
theories/SpecSpacing.v
theories/LeafProof.v
theories/LeafTable.v
theories/StructShift.v
theories/StructProof.v
theories/StructDesc.v
theories/StructList.v
theories/StructNote.v
theories/StructDoc.v
theories/UsesProof.v
theories/PropsStructure.v
theories/PropsSpacing.v
theories/PropsLost.v
theories/SpecAgain.v
theories/AgainProof.v
theories/PropsAgain.v
theories/AgainDoc.v
theories/AgainTop.v
theories/PropsAgainDoc.v
theories/NounsData.v
theories/TestsBase.v
theories/TestsDoc1.v
theories/TestsDoc2.v
theories/TestsDoc3.v
theories/TestsDoc4.v
theories/TestsRepo.v
theories/TestsUnits.v
theories/SpecLink.v
theories/PropsLink.v
theories/SpecCase.v
theories/CaseProof.v
theories/PropsCase.v
theories/SpecSteady.v
theories/CaseAgain.v
theories/PropsCaseAgain.v
theories/SpecFill.v
theories/PropsFill.v
theories/SpecScope.v
theories/ScopeProof.v
theories/PropsScope.v
theories/SpecParts.v
theories/FrameProof.v
theories/PartsProof.v
theories/PropsParts.v
theories/PropsRuns.v
theories/SpecTrail.v
theories/TrailText.v
theories/TrailParts.v
theories/TrailProof.v
theories/TrailDoc.v
theories/PropsTrail.v
theories/SpecWidth.v
theories/WidthProof.v
theories/WordsText.v
theories/WordsProof.v
theories/PropsWidth.v
theories/SpecShift.v
theories/ShiftProof.v
theories/PropsShift.v
theories/SpecAnswer.v
theories/AnswerProof.v
theories/PropsAnswer.v
theories/PropsModes.v
theories/SpecSetting.v
theories/SettingProof.v
theories/PropsSetting.v
theories/BuildProof.v
theories/PropsBuild.v
theories/SpecNouns.v
theories/PropsNouns.v
theories/SpecWarned.v
theories/WarnedProof.v
theories/PropsWarned.v
theories/SpecReported.v
theories/PropsReported.v
