-Q theories Verif
theories/Arrays.v
theories/Base.v
theories/Det.v
theories/Directions1.v
theories/Directions2.v
theories/Directions3.v
theories/Directions4.v
theories/ListFacts.v
theories/ModelCli.v
theories/ModelCounts.v
theories/ModelDelta.v
theories/ModelDeltaBoot.v
theories/ModelDfit.v
theories/ModelDgsm.v
theories/ModelDiscrepancy.v
theories/ModelDmorph.v
theories/ModelDouble.v
theories/ModelDouble2.v
theories/ModelDouble3.v
theories/ModelDouble4.v
theories/ModelDouble5.v
theories/ModelDouble6.v
theories/ModelDouble7.v
theories/ModelEhdmr.v
theories/ModelFF.v
theories/ModelFast.v
theories/ModelFiles.v
theories/ModelFiles2.v
theories/ModelGroups.v
theories/ModelHdmr.v
theories/ModelHdmrPlot.v
theories/ModelLatin.v
theories/ModelLevels.v
theories/ModelLocalSingle.v
theories/ModelMorris.v
theories/ModelMorrisAnalyze.v
theories/ModelOakley.v
theories/ModelPawn.v
theories/ModelPawn2.v
theories/ModelPlotting.v
theories/ModelProblemSpec.v
theories/ModelRbd.v
theories/ModelRsa.v
theories/ModelRsaPlot.v
theories/ModelScale.v
theories/ModelSeeds.v
theories/ModelShared.v
theories/ModelSingle.v
theories/ModelSobol.v
theories/ModelSobolSeq.v
theories/ModelTestFunctions.v
theories/ModelWarnings.v
theories/ProofsCli.v
theories/ProofsCounts.v
theories/ProofsCounts2.v
theories/ProofsCounts3.v
theories/ProofsCounts4.v
theories/ProofsCounts5.v
theories/ProofsDelta.v
theories/ProofsDelta10.v
theories/ProofsDelta2.v
theories/ProofsDelta3.v
theories/ProofsDelta4.v
theories/ProofsDelta5.v
theories/ProofsDelta6.v
theories/ProofsDelta7.v
theories/ProofsDelta8.v
theories/ProofsDelta9.v
theories/ProofsDeltaBoot.v
theories/ProofsDfit.v
theories/ProofsDfit2.v
theories/ProofsDfit3.v
theories/ProofsDfit4.v
theories/ProofsDfit5.v
theories/ProofsDfit6.v
theories/ProofsDgsm.v
theories/ProofsDgsm2.v
theories/ProofsDgsm3.v
theories/ProofsDiscrepancy.v
theories/ProofsDiscrepancy2.v
theories/ProofsDmorph.v
theories/ProofsDmorph2.v
theories/ProofsDmorph3.v
theories/ProofsDouble.v
theories/ProofsDouble10.v
theories/ProofsDouble11.v
theories/ProofsDouble12.v
theories/ProofsDouble13.v
theories/ProofsDouble14.v
theories/ProofsDouble15.v
theories/ProofsDouble16.v
theories/ProofsDouble17.v
theories/ProofsDouble18.v
theories/ProofsDouble19.v
theories/ProofsDouble2.v
theories/ProofsDouble20.v
theories/ProofsDouble21.v
theories/ProofsDouble22.v
theories/ProofsDouble3.v
theories/ProofsDouble4.v
theories/ProofsDouble5.v
theories/ProofsDouble6.v
theories/ProofsDouble7.v
theories/ProofsDouble8.v
theories/ProofsDouble9.v
theories/ProofsEfit.v
theories/ProofsEfit2.v
theories/ProofsEfit3.v
theories/ProofsEhdmr.v
theories/ProofsEhdmr2.v
theories/ProofsEhdmr3.v
theories/ProofsEhdmr4.v
theories/ProofsEhdmr5.v
theories/ProofsEhdmr6.v
theories/ProofsEhdmr7.v
theories/ProofsEhdmr8.v
theories/ProofsEhdmrCost.v
theories/ProofsError.v
theories/ProofsError10.v
theories/ProofsError11.v
theories/ProofsError12.v
theories/ProofsError13.v
theories/ProofsError14.v
theories/ProofsError2.v
theories/ProofsError3.v
theories/ProofsError4.v
theories/ProofsError5.v
theories/ProofsError6.v
theories/ProofsError7.v
theories/ProofsError8.v
theories/ProofsError9.v
theories/ProofsExpect.v
theories/ProofsExpect2.v
theories/ProofsExpect3.v
theories/ProofsFF.v
theories/ProofsFF2.v
theories/ProofsFF3.v
theories/ProofsFast.v
theories/ProofsFast2.v
theories/ProofsFast3.v
theories/ProofsFast4.v
theories/ProofsFast5.v
theories/ProofsFast6.v
theories/ProofsFast7.v
theories/ProofsFiles1.v
theories/ProofsFiles2.v
theories/ProofsFiles3.v
theories/ProofsGroups.v
theories/ProofsGroups2.v
theories/ProofsHdmr.v
theories/ProofsHdmr2.v
theories/ProofsHdmr3.v
theories/ProofsHdmr4.v
theories/ProofsHdmr5.v
theories/ProofsHdmr6.v
theories/ProofsHdmrPlot.v
theories/ProofsHdmrPlot2.v
theories/ProofsHdmrPlot3.v
theories/ProofsIntegral.v
theories/ProofsLatin.v
theories/ProofsLatin2.v
theories/ProofsLatin3.v
theories/ProofsLatin4.v
theories/ProofsLatin5.v
theories/ProofsLevels.v
theories/ProofsLevels2.v
theories/ProofsLevels3.v
theories/ProofsLevels4.v
theories/ProofsLevels5.v
theories/ProofsLimit.v
theories/ProofsLimit10.v
theories/ProofsLimit2.v
theories/ProofsLimit3.v
theories/ProofsLimit4.v
theories/ProofsLimit5.v
theories/ProofsLimit6.v
theories/ProofsLimit7.v
theories/ProofsLimit8.v
theories/ProofsLimit9.v
theories/ProofsLocal.v
theories/ProofsLocal2.v
theories/ProofsLocal3.v
theories/ProofsLocal4.v
theories/ProofsLocal5.v
theories/ProofsLocal6.v
theories/ProofsMorris1.v
theories/ProofsMorris10.v
theories/ProofsMorris11.v
theories/ProofsMorris12.v
theories/ProofsMorris13.v
theories/ProofsMorris2.v
theories/ProofsMorris3.v
theories/ProofsMorris4.v
theories/ProofsMorris5.v
theories/ProofsMorris6.v
theories/ProofsMorris7.v
theories/ProofsMorris8.v
theories/ProofsMorris9.v
theories/ProofsOakley.v
theories/ProofsOakley2.v
theories/ProofsOakley3.v
theories/ProofsOakley4.v
theories/ProofsOakley5.v
theories/ProofsOakley6.v
theories/ProofsOakley7.v
theories/ProofsPawn.v
theories/ProofsPawn2.v
theories/ProofsPawn3.v
theories/ProofsPawn4.v
theories/ProofsPawn5.v
theories/ProofsPawn6.v
theories/ProofsPawn7.v
theories/ProofsPi.v
theories/ProofsPlotting.v
theories/ProofsPlotting2.v
theories/ProofsPlotting3.v
theories/ProofsPlotting4.v
theories/ProofsPlotting5.v
theories/ProofsPlotting6.v
theories/ProofsPlotting7.v
theories/ProofsPoincare.v
theories/ProofsPoincare2.v
theories/ProofsProblemSpec.v
theories/ProofsProblemSpec2.v
theories/ProofsProblemSpec3.v
theories/ProofsRbd.v
theories/ProofsRbd2.v
theories/ProofsRbd3.v
theories/ProofsRbd4.v
theories/ProofsRbd5.v
theories/ProofsRidge.v
theories/ProofsRidge2.v
theories/ProofsRidge3.v
theories/ProofsRidge4.v
theories/ProofsRsa.v
theories/ProofsRsa2.v
theories/ProofsRsa3.v
theories/ProofsRsa4.v
theories/ProofsRsaPlot.v
theories/ProofsScale.v
theories/ProofsScale2.v
theories/ProofsShared.v
theories/ProofsShared2.v
theories/ProofsShared3.v
theories/ProofsSingle.v
theories/ProofsSingle2.v
theories/ProofsSingle3.v
theories/ProofsSingle4.v
theories/ProofsSingle5.v
theories/ProofsSobol.v
theories/ProofsSobol2.v
theories/ProofsSobol3.v
theories/ProofsSobol4.v
theories/ProofsSobol5.v
theories/ProofsSobol6.v
theories/ProofsSobol7.v
theories/ProofsSobolSeq.v
theories/ProofsSobolSeq2.v
theories/ProofsSobolSeq3.v
theories/ProofsSobolSeq4.v
theories/ProofsTestFunctions.v
theories/ProofsTestFunctions2.v
theories/ProofsTestFunctions3.v
theories/ProofsTestFunctions4.v
theories/ProofsWarnings.v
theories/ProofsWarnings2.v
theories/PropertiesCli.v
theories/PropertiesCounts.v
theories/PropertiesDelta.v
theories/PropertiesDeltaBoot.v
theories/PropertiesDfit.v
theories/PropertiesDgsm.v
theories/PropertiesDiscrepancy.v
theories/PropertiesDmorph.v
theories/PropertiesDouble.v
theories/PropertiesDouble2.v
theories/PropertiesDouble3.v
theories/PropertiesDouble4.v
theories/PropertiesDouble5.v
theories/PropertiesDouble6.v
theories/PropertiesEfit.v
theories/PropertiesEhdmr.v
theories/PropertiesEhdmrCost.v
theories/PropertiesError.v
theories/PropertiesError2.v
theories/PropertiesError3.v
theories/PropertiesError4.v
theories/PropertiesError5.v
theories/PropertiesExpect.v
theories/PropertiesFF.v
theories/PropertiesFast.v
theories/PropertiesFast2.v
theories/PropertiesFiles1.v
theories/PropertiesFiles2.v
theories/PropertiesGroups.v
theories/PropertiesHdmr.v
theories/PropertiesHdmrPlot.v
theories/PropertiesLatin.v
theories/PropertiesLatin2.v
theories/PropertiesLevels.v
theories/PropertiesLimit.v
theories/PropertiesLocal.v
theories/PropertiesLocal2.v
theories/PropertiesMorris.v
theories/PropertiesMorris2.v
theories/PropertiesOakley.v
theories/PropertiesPawn.v
theories/PropertiesPawn2.v
theories/PropertiesPlotting.v
theories/PropertiesPoincare.v
theories/PropertiesProblemSpec.v
theories/PropertiesRbd.v
theories/PropertiesRidge.v
theories/PropertiesRsa.v
theories/PropertiesRsaPlot.v
theories/PropertiesScale.v
theories/PropertiesSeeds.v
theories/PropertiesShared.v
theories/PropertiesSingle.v
theories/PropertiesSobol.v
theories/PropertiesSobolSeq.v
theories/PropertiesSobolSeq2.v
theories/PropertiesTestFunctions.v
theories/PropertiesTestFunctions2.v
theories/PropertiesWarnings.v
theories/Quant.v
theories/RField.v
theories/SpecCli.v
theories/SpecCounts.v
theories/SpecDelta.v
theories/SpecDfit.v
theories/SpecDgsm.v
theories/SpecDgsm2.v
theories/SpecDiscrepancy.v
theories/SpecDmorph.v
theories/SpecDouble.v
theories/SpecDouble2.v
theories/SpecDouble3.v
theories/SpecDouble4.v
theories/SpecEfit.v
theories/SpecEhdmr.v
theories/SpecError.v
theories/SpecError2.v
theories/SpecError3.v
theories/SpecExpect.v
theories/SpecExpect2.v
theories/SpecFF.v
theories/SpecFast.v
theories/SpecFast2.v
theories/SpecFiles.v
theories/SpecGroups.v
theories/SpecHdmr.v
theories/SpecIntegral.v
theories/SpecLatin.v
theories/SpecLatin2.v
theories/SpecLevels.v
theories/SpecLimit.v
theories/SpecMorris.v
theories/SpecMorris2.v
theories/SpecOakley.v
theories/SpecPawn.v
theories/SpecPawn2.v
theories/SpecPlotting.v
theories/SpecProblemSpec.v
theories/SpecRbd.v
theories/SpecRidge.v
theories/SpecRsa.v
theories/SpecRsaPlot.v
theories/SpecScale.v
theories/SpecShared.v
theories/SpecSingle.v
theories/SpecSobol.v
theories/SpecSobolSeq.v
theories/Stats.v
theories/Sums.v
