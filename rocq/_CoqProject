-Q theories Verif
theories/Base.v
theories/BaseFacts.v
theories/CharModel.v
theories/RepSpec.v
theories/RepProofs.v
theories/VariantProofs.v
theories/IterProofs.v
theories/RangeProofs.v
theories/VarSetSpec.v
theories/VarSetProofs.v
theories/RepFinal.v
theories/PropertiesRepertoire.v
theories/UtilsModel.v
theories/UtilsSpec.v
theories/UtilsProofs.v
theories/Rfc7940Model.v
theories/Rfc7940Spec.v
theories/Rfc7940Proofs.v
theories/RefModel.v
theories/RefSpec.v
theories/RefProofs.v
theories/ActionModel.v
theories/ActionSpec.v
theories/ActionProofs.v
theories/PropertiesBasics.v
theories/LgrModel.v
theories/LgrSpec.v
theories/LgrProofs.v
theories/LgrReach.v
theories/LgrRange.v
theories/LgrInv.v
theories/LgrTags.v
theories/LgrRefs.v
theories/LgrMirror.v
theories/LgrFinal.v
theories/PropertiesLgr.v
theories/LabelModel.v
theories/LabelSpec.v
theories/LabelProofs.v
theories/LabelElig.v
theories/LabelIndex.v
theories/LabelGen.v
theories/LabelVar.v
theories/LabelFilter.v
theories/LabelList.v
theories/LabelFinal.v
theories/PropertiesLabel.v
theories/ValidateModel.v
theories/ValidateSpec.v
theories/ValidateProofs.v
theories/StatsProofs.v
theories/ValidateFinal.v
theories/StatsNamed.v
theories/LgrTypes.v
theories/PropertiesValidate.v
theories/PopulateModel.v
theories/PopulateSpec.v
theories/PopulateProofs.v
theories/PopulateSteps.v
theories/PopulateLoop.v
theories/PopulateBalance.v
theories/PopulateFinal.v
theories/PopulateAgain.v
theories/PropertiesPopulate.v
theories/ClassModel.v
theories/ClassSpec.v
theories/ClassProofs.v
theories/ClassFinal.v
theories/PropertiesClass.v
theories/RuleModel.v
theories/RuleSpec.v
theories/RegexProofs.v
theories/RuleProofs.v
theories/RuleCache.v
theories/RuleFinal.v
theories/RuleTable.v
theories/PropertiesRule.v
theories/MetaModel.v
theories/MetaSpec.v
theories/MetaProofs.v
theories/MetaFinal.v
theories/PropertiesMeta.v
theories/CompareModel.v
theories/CompareSpec.v
theories/CompareProofs.v
theories/CompareFinal.v
theories/CompareWitness.v
theories/PropertiesCompare.v
theories/SerialModel.v
theories/SerialSpec.v
theories/SerialProofs.v
theories/SerialFinal.v
theories/SerialTolerant.v
theories/SerialWitness.v
theories/PropertiesSerial.v
theories/CollisionModel.v
theories/CollisionSpec.v
theories/CollisionProofs.v
theories/CollisionFinal.v
theories/CollisionDiff.v
theories/CollisionWitness.v
theories/PropertiesCollision.v
theories/HarmonizeModel.v
theories/HarmonizeSpec.v
theories/HarmonizeProofs.v
theories/HarmonizeFinal.v
theories/HarmonizeKeep.v
theories/HarmonizeCopy.v
theories/HarmonizeWitness.v
theories/PropertiesHarmonize.v
theories/MergeModel.v
theories/MergeProofs.v
theories/MergeSteps.v
theories/MergeLoop.v
theories/MergeSpec.v
theories/MergeRefs.v
theories/MergeFold.v
theories/MergeFinal.v
theories/MergeContext.v
theories/MergePair.v
theories/MergeWitness.v
theories/MergeSucceedSpec.v
theories/MergeSucceed.v
theories/MergeSucceedWitness.v
theories/MergeAgree.v
theories/MergeAgreeWitness.v
theories/MergeStop.v
theories/MergeCross.v
theories/MergePairExact.v
theories/MergeTurn.v
theories/MergeStopWitness.v
theories/PropertiesMerge.v
theories/ReviewModel.v
theories/ReviewSpec.v
theories/ReviewSummary.v
theories/ReviewRepertoire.v
theories/ReviewSets.v
theories/ReviewVariants.v
theories/ReviewSelf.v
theories/ReviewRules.v
theories/ReviewPairing.v
theories/ReviewWitness.v
theories/PropertiesReview.v
theories/ChecksModel.v
theories/ChecksSpec.v
theories/ChecksProofs.v
theories/ChecksFinal.v
theories/PropertiesChecks.v
theories/AnnotateModel.v
theories/AnnotateSpec.v
theories/AnnotateRead.v
theories/AnnotateProofs.v
theories/AnnotateWitness.v
theories/PropertiesAnnotate.v
theories/TableModel.v
theories/TableSpec.v
theories/TableScan.v
theories/TableParts.v
theories/TableEvents.v
theories/TableProofs.v
theories/Table3743.v
theories/TableDoc.v
theories/TableEnding.v
theories/TableChoice.v
theories/TableWitness.v
theories/PropertiesTable.v
theories/ReportSpec.v
theories/ReportProofs.v
theories/ReportWitness.v
theories/PropertiesReport.v
theories/DiffModel.v
theories/DiffSpec.v
theories/DiffProofs.v
theories/DiffSets.v
theories/DiffWitness.v
theories/PropertiesDiff.v
theories/RebuildModel.v
theories/RebuildSpec.v
theories/RebuildProofs.v
theories/RebuildWitness.v
theories/PropertiesRebuild.v
theories/LangModel.v
theories/LangSpec.v
theories/LangProofs.v
theories/LangWitness.v
theories/PropertiesLang.v
theories/GeneralModel.v
theories/GeneralSpec.v
theories/GeneralProofs.v
theories/GeneralWitness.v
theories/PropertiesGeneral.v
theories/MergeMetaModel.v
theories/MergeMetaSpec.v
theories/MergeMetaProofs.v
theories/MergeMetaOrder.v
theories/MergeMetaRead.v
theories/MergeMetaWitness.v
theories/PropertiesMergeMeta.v
theories/RulesXmlModel.v
theories/RulesXmlSpec.v
theories/RulesXmlClass.v
theories/RulesXmlRule.v
theories/RulesXmlFinal.v
theories/RulesXmlSection.v
theories/RulesXmlDoc.v
theories/RulesXmlTrip.v
theories/RulesXmlWitness.v
theories/PropertiesRulesXml.v
theories/EvalModel.v
theories/EvalSpec.v
theories/EvalProofs.v
theories/EvalErrors.v
theories/EvalFinal.v
theories/EvalWitness.v
theories/PropertiesEval.v
theories/SameSpec.v
theories/SameProofs.v
theories/SameFinal.v
theories/PropertiesSame.v
theories/DocModel.v
theories/ReadySpec.v
theories/ReadyProofs.v
theories/ReadyFinal.v
theories/DocFinal.v
theories/DocWitness.v
theories/PropertiesReady.v
theories/AgainSpec.v
theories/AgainRead.v
theories/AgainClasses.v
theories/AgainStable.v
theories/AgainFinal.v
theories/AgainWitness.v
theories/PropertiesAgain.v
theories/LateSpec.v
theories/LateData.v
theories/LateRules.v
theories/LateFinal.v
theories/LateWitness.v
theories/PropertiesLate.v
theories/CollideModel.v
theories/CollideSpec.v
theories/CollideProofs.v
theories/CollideFinal.v
theories/CollideReport.v
theories/CollideWitness.v
theories/PropertiesCollide.v
theories/RfcToolModel.v
theories/RfcToolSpec.v
theories/RfcToolData.v
theories/RfcToolProofs.v
theories/RfcToolVerdict.v
theories/RfcToolWitness.v
theories/PropertiesRfcTool.v
theories/CliModel.v
theories/CliSpec.v
theories/CliProofs.v
theories/CliLabel.v
theories/CliTest.v
theories/CliWitness.v
theories/PropertiesCli.v
theories/ForceProofs.v
theories/DumpModel.v
theories/DumpSpec.v
theories/DumpProofs.v
theories/DumpFinal.v
theories/DumpIdna.v
theories/DumpWitness.v
theories/PropertiesDump.v
theories/PopToolModel.v
theories/PopToolSpec.v
theories/PopToolProofs.v
theories/PopToolWitness.v
theories/PropertiesPopTool.v
theories/WholeModel.v
theories/WholeSpec.v
theories/WholeVariants.v
theories/WholeChecks.v
theories/WholeProofs.v
theories/WholeTotal.v
theories/WholeMore.v
theories/WholeWitness.v
theories/PropertiesWhole.v
theories/CollToolModel.v
theories/CollToolSpec.v
theories/CollToolProofs.v
theories/CollToolFinal.v
theories/PropertiesCollTool.v
theories/CmpToolModel.v
theories/CmpToolSpec.v
theories/CmpToolProofs.v
theories/CmpToolFinal.v
theories/PropertiesCmpTool.v
theories/HarmToolModel.v
theories/HarmToolSpec.v
theories/HarmToolProofs.v
theories/HarmToolFinal.v
theories/HarmToolWitness.v
theories/PropertiesHarmTool.v
theories/RevToolModel.v
theories/RevToolSpec.v
theories/RevToolProofs.v
theories/RevToolFinal.v
theories/RevToolWitness.v
theories/PropertiesRevTool.v
theories/VerdictSpec.v
theories/VerdictProofs.v
theories/VerdictKeep.v
theories/VerdictFinal.v
theories/PropertiesVerdict.v
theories/DiffRepModel.v
theories/DiffRepSpec.v
theories/DiffRepProofs.v
theories/DiffRepLines.v
theories/DiffRepFinal.v
theories/DiffRepTool.v
theories/PropertiesDiffRep.v
theories/HideSpec.v
theories/HideProofs.v
theories/HideFinal.v
theories/HideWitness.v
theories/PropertiesHide.v
theories/AnnToolModel.v
theories/AnnToolSpec.v
theories/AnnToolProofs.v
theories/AnnToolWitness.v
theories/PropertiesAnnTool.v
theories/CombineSpec.v
theories/CombineHarm.v
theories/CombineIndex.v
theories/CombineFinal.v
theories/CombineWitness.v
theories/PropertiesCombine.v
theories/MergeRulesModel.v
theories/MergeRulesSpec.v
theories/MergeRulesLike.v
theories/MergeRulesTable.v
theories/MergeRulesFinal.v
theories/MergeRulesTags.v
theories/MergeRulesWitness.v
theories/PropertiesMergeRules.v
theories/CompareLabelSpec.v
theories/CompareLabel.v
theories/CompareLabelWitness.v
theories/PropertiesCompareLabel.v
theories/BasicRepModel.v
theories/BasicRepSpec.v
theories/BasicRepProofs.v
theories/BasicRepFinal.v
theories/PropertiesBasicRep.v
theories/MergeLabelSpec.v
theories/MergeLabel.v
theories/MergeLabelWitness.v
theories/PropertiesMergeLabel.v
theories/MergeReadModel.v
theories/MergeReadSpec.v
theories/MergeRead.v
theories/MergeReadFinal.v
theories/MergeReadLabel.v
theories/MergeReadWitness.v
theories/PropertiesMergeRead.v
theories/ParserModel.v
theories/ParserSpec.v
theories/ParserProofs.v
theories/ParserFinal.v
theories/ParserWitness.v
theories/PropertiesParser.v
theories/HarmMergeSpec.v
theories/HarmMerge.v
theories/HarmRoot.v
theories/MergeGlueSpec.v
theories/MergeGlue.v
theories/MeetRel.v
theories/MergeFit.v
theories/MergeFitPair.v
theories/MergeSame.v
theories/MergeRun.v
theories/MergeSettle.v
theories/MergeOutcome.v
theories/MergeRunLabels.v
theories/HarmMergeWitness.v
theories/HarmRootWitness.v
theories/MergePairWitness.v
theories/MergeTurnWitness.v
theories/PropertiesHarmMerge.v
theories/MergeGlueWitness.v
theories/MergeFitWitness.v
theories/MergeSameWitness.v
theories/MergeRoundWitness.v
theories/MergeRunWitness.v
theories/PropertiesGlue.v
