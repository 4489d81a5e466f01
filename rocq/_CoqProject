-Q theories Verif
theories/Base.v
theories/BaseFacts.v
theories/ModelUtil.v
theories/ModelCount.v
theories/SpecCount.v
theories/ProofUtil.v
theories/ProofCount.v
theories/PropCount.v
theories/ModelRank.v
theories/ModelPool.v
theories/ModelFilter.v
theories/SpecFilter.v
theories/ProofPool.v
theories/ProofFilter.v
theories/PropFilter.v
theories/SpecRank.v
theories/ProofRank.v
theories/ModelEntropy.v
theories/ProofEntropy.v
theories/PropRank.v
theories/ModelLatent.v
theories/SpecLatent.v
theories/ProofLatent.v
theories/PropLatent.v
theories/ModelBatched.v
theories/SpecBatched.v
theories/ProofBatched.v
theories/PropBatched.v
theories/ModelLabels.v
theories/SpecLabels.v
theories/ProofLabels.v
theories/PropLabels.v
theories/ModelNoise.v
theories/SpecNoise.v
theories/ProofNoise.v
theories/PropNoise.v
theories/ModelOutlier.v
theories/SpecOutlier.v
theories/ProofOutlier.v
theories/PropOutlier.v
theories/ModelToken.v
theories/SpecToken.v
theories/ProofToken.v
theories/PropToken.v
theories/ModelSegmentation.v
theories/SpecSegmentation.v
theories/ProofSegmentation.v
theories/PropSegmentation.v
theories/ModelMultilabel.v
theories/SpecMultilabel.v
theories/ProofMultilabel.v
theories/PropMultilabel.v
theories/ModelMultiannotator.v
theories/SpecMultiannotator.v
theories/ProofMultiannotator.v
theories/PropMultiannotator.v
theories/ModelDetection.v
theories/SpecDetection.v
theories/ProofDetection.v
theories/ProofDetectionR.v
theories/PropDetection.v
theories/ModelKnn.v
theories/SpecKnn.v
theories/ProofKnn.v
theories/ProofKnnDup.v
theories/PropKnn.v
theories/ModelChecks.v
theories/SpecChecks.v
theories/ProofChecks.v
theories/ProofChecks2.v
theories/PropChecks.v
theories/ModelDatalab.v
theories/SpecDatalab.v
theories/ProofDatalab.v
theories/ProofDatalab2.v
theories/ProofDatalab3.v
theories/PropDatalab.v
theories/ModelDataset.v
theories/SpecDataset.v
theories/ProofDataset.v
theories/PropDataset.v
theories/ModelCV.v
theories/SpecCV.v
theories/ProofCV.v
theories/PropCV.v
theories/ModelRegression.v
theories/SpecRegression.v
theories/ProofRegression.v
theories/PropRegression.v
theories/ModelLearn.v
theories/SpecLearn.v
theories/ProofLearn.v
theories/PropLearn.v
theories/ModelNoniid.v
theories/SpecNoniid.v
theories/ProofNoniid.v
theories/PropNoniid.v
theories/ModelOutlierCheck.v
theories/SpecOutlierCheck.v
theories/ProofOutlierCheck.v
theories/PropOutlierCheck.v
theories/ModelRegRank.v
theories/SpecRegRank.v
theories/ProofRegRank.v
theories/PropRegRank.v
theories/ModelLabelCheck.v
theories/SpecLabelCheck.v
theories/ProofLabelCheck.v
theories/PropLabelCheck.v
theories/ModelIssueCount.v
theories/SpecIssueCount.v
theories/ProofIssueCount.v
theories/PropIssueCount.v
theories/SpecFrac.v
theories/ProofFrac.v
theories/PropFrac.v
theories/ProofMore.v
theories/PropMore.v
theories/SpecBatchFlags.v
theories/ProofBatchFlags.v
theories/PropBatchFlags.v
theories/ModelTrace.v
theories/SpecTrace.v
theories/ProofTrace.v
theories/PropTrace.v
theories/SpecAgreement.v
theories/ModelAgreement.v
theories/ProofAgreement.v
theories/PropAgreement.v
theories/ModelTemperature.v
theories/SpecTemperature.v
theories/ProofTemperature.v
theories/PropTemperature.v
theories/SpecLogLoss.v
theories/ModelLogLoss.v
theories/ProofLogLoss.v
theories/PropLogLoss.v
theories/ModelCoteaching.v
theories/SpecCoteaching.v
theories/ProofCoteaching.v
theories/PropCoteaching.v
theories/ModelValid.v
theories/SpecValid.v
theories/ProofValid.v
theories/ProofTotal.v
theories/PropValid.v
theories/ModelSpan.v
theories/SpecSpan.v
theories/ProofSpan.v
theories/ModelDisplay.v
theories/SpecDisplay.v
theories/ProofDisplay.v
theories/PropSpan.v
theories/ModelDetSummary.v
theories/SpecDetSummary.v
theories/ProofDetSummary.v
theories/PropDetSummary.v
theories/ModelWide.v
theories/SpecWide.v
theories/ProofWide.v
theories/PropWide.v
theories/ModelReport.v
theories/SpecReport.v
theories/ProofReport.v
theories/PropReport.v
theories/SpecSymmetry.v
theories/ProofSymmetry.v
theories/PropSymmetry.v
theories/ProofDownsample.v
theories/ModelRegLearn.v
theories/SpecRegLearn.v
theories/ProofRegLearn.v
theories/PropRegLearn.v
theories/ModelText.v
theories/SpecText.v
theories/ProofText.v
theories/PropText.v
theories/ModelImage.v
theories/SpecImage.v
theories/ProofImage.v
theories/PropImage.v
theories/ModelData.v
theories/SpecData.v
theories/ProofData.v
theories/PropData.v
theories/ModelGraph.v
theories/SpecGraph.v
theories/ProofGraph.v
theories/PropGraph.v
theories/ModelMultiCount.v
theories/SpecMultiCount.v
theories/ProofMultiCount.v
theories/PropMultiCount.v
theories/ProofPU.v
theories/PropPU.v
theories/ProofTight1.v
theories/ProofTight2.v
theories/PropTight.v
theories/ModelCnn.v
theories/SpecCnn.v
theories/ProofCnn.v
theories/PropCnn.v
theories/ModelFeatures.v
theories/SpecFeatures.v
theories/ProofFeatures.v
theories/PropFeatures.v
theories/ModelLabelInfo.v
theories/SpecLabelInfo.v
theories/ProofLabelInfo.v
theories/PropLabelInfo.v
theories/ModelActive.v
theories/SpecActive.v
theories/ProofActive.v
theories/PropActive.v
theories/ModelEstimate.v
theories/SpecEstimate.v
theories/ProofEstimate.v
theories/PropEstimate.v
theories/SpecIdeal.v
theories/ProofIdeal.v
theories/PropIdeal.v
theories/SpecExact.v
theories/ProofExact.v
theories/PropExact.v
theories/SpecTwice.v
theories/ProofTwice.v
theories/PropTwice.v
theories/SpecStable.v
theories/ProofStable.v
theories/PropStable.v
theories/SpecMonotone.v
theories/ProofMonotone.v
theories/PropMonotone.v
theories/SpecUnused.v
theories/ProofUnused.v
theories/PropUnused.v
theories/SpecDetFind.v
theories/ProofDetFind.v
theories/PropDetFind.v
theories/SpecReorder.v
theories/ProofReorder.v
theories/PropReorder.v
theories/ModelMultiCV.v
theories/SpecMultiCV.v
theories/ProofMultiCV.v
theories/PropMultiCV.v
theories/ModelMultiCheck.v
theories/SpecMultiCheck.v
theories/ProofMultiCheck.v
theories/PropMultiCheck.v
theories/ProofEnsemble.v
theories/PropEnsemble.v
theories/SpecRows.v
theories/ProofRows.v
theories/PropRows.v
theories/ModelMultiHealth.v
theories/SpecMultiHealth.v
theories/ProofMultiHealth.v
theories/PropMultiHealth.v
theories/SpecModels.v
theories/ProofModels.v
theories/PropModels.v
theories/SpecShuffle.v
theories/ProofShuffle.v
theories/PropShuffle.v
theories/SpecPictures.v
theories/ProofPictures.v
theories/PropPictures.v
theories/SpecUnits.v
theories/ProofUnits.v
theories/PropUnits.v
theories/SpecRegroup.v
theories/ProofRegroup.v
theories/PropRegroup.v
theories/SpecRerun.v
theories/ProofRerun.v
theories/PropRerun.v
theories/ModelIdentifier.v
theories/SpecIdentifier.v
theories/ProofIdentifier.v
theories/PropIdentifier.v
theories/ModelGroups.v
theories/SpecGroups.v
theories/ProofGroups.v
theories/PropGroups.v
theories/SpecRename.v
theories/ProofRename.v
theories/ProofRename2.v
theories/ProofRename3.v
theories/PropRename.v
theories/SpecNumbering.v
theories/ProofNumbering.v
theories/ProofNumbering2.v
theories/ProofNumbering3.v
theories/ProofNumbering4.v
theories/ProofNumbering5.v
theories/PropNumbering.v
theories/SpecTight.v
theories/ProofTight3.v
theories/PropTight2.v
theories/SpecCrowdlab.v
theories/ProofCrowdlab.v
theories/PropCrowdlab.v
theories/ModelCorrReport.v
theories/SpecCorrReport.v
theories/ProofCorrReport.v
theories/PropCorrReport.v
theories/SpecArrange.v
theories/ProofArrange.v
theories/PropArrange.v
theories/SpecRelabel.v
theories/ProofRelabel.v
theories/PropRelabel.v
theories/SpecParts.v
theories/ProofParts.v
theories/PropParts.v
theories/ModelConfusion.v
theories/SpecConfusion.v
theories/ProofConfusion.v
theories/PropConfusion.v
theories/ProofTight4.v
theories/PropTight3.v
theories/ProofCopies.v
theories/ProofCopies2.v
theories/PropCopies.v
theories/ModelNullReport.v
theories/SpecNullReport.v
theories/ProofNullReport.v
theories/PropNullReport.v
theories/SpecShapley.v
theories/ProofShapley.v
theories/PropShapley.v
theories/SpecRounding.v
theories/ProofRounding.v
theories/PropRounding.v
theories/SpecApprox.v
theories/ProofApprox.v
theories/PropApprox.v
theories/SpecCalibCount.v
theories/ProofCalibCount.v
theories/PropCalibCount.v
theories/ProofSoftmin.v
theories/PropSoftmin.v
theories/SpecRescale.v
theories/ProofRescale.v
theories/PropRescale.v
theories/SpecResample.v
theories/ProofResample.v
theories/PropResample.v
theories/ModelBoxPool.v
theories/SpecBoxPool.v
theories/ProofBoxPool.v
theories/PropBoxPool.v
theories/SpecReplace.v
theories/ProofReplace.v
theories/PropReplace.v
theories/ModelClasses.v
theories/SpecClasses.v
theories/ProofClasses.v
theories/PropClasses.v
theories/SpecExclusive.v
theories/ProofExclusive.v
theories/PropExclusive.v
theories/ModelContainer.v
theories/SpecContainer.v
theories/ProofContainer.v
theories/PropContainer.v
theories/ModelScorer.v
theories/SpecScorer.v
theories/ProofScorer.v
theories/PropScorer.v
theories/ModelCustom.v
theories/SpecCustom.v
theories/ProofCustom.v
theories/PropCustom.v
theories/SpecApart.v
theories/ProofApart.v
theories/PropApart.v
theories/SpecOodLabel.v
theories/ProofOodLabel.v
theories/PropOodLabel.v
theories/ModelLost.v
theories/SpecLost.v
theories/ProofLost.v
theories/PropLost.v
theories/SpecProportion.v
theories/ProofProportion.v
theories/PropProportion.v
theories/SpecFactor.v
theories/ProofFactor.v
theories/PropFactor.v
theories/SpecWays.v
theories/ProofWays.v
theories/PropWays.v
theories/SpecNoop.v
theories/ProofNoop.v
theories/PropNoop.v
theories/SpecNoopMulti.v
theories/ProofNoopMulti.v
theories/PropNoopMulti.v
theories/ModelLatentPs.v
theories/SpecOptional.v
theories/ProofOptional.v
theories/PropOptional.v
theories/ModelPuF1.v
theories/SpecPuF1.v
theories/ProofPuF1.v
theories/PropPuF1.v
theories/ModelPrintMatrix.v
theories/SpecPrintMatrix.v
theories/ProofPrintMatrix.v
theories/PropPrintMatrix.v
theories/PropDocExamples.v
theories/PropSuiteExamples.v
theories/PropSuiteCore.v
theories/PropSuiteLab.v
