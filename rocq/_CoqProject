-Q theories Verif
theories/Base.v
theories/F64.v
theories/F64Lemmas.v
theories/Env.v
theories/EnvLemmas.v
theories/Utils.v
theories/Tree.v
theories/Spec.v
theories/UtilsProofs.v
theories/TreeProofs.v
theories/TreeSplit.v
theories/TreeMid.v
theories/Examples.v
theories/TreeThms.v
theories/UtilsThms.v
theories/RealProofs.v
theories/ActProofs.v
theories/Options.v
theories/Train.v
theories/SpecTrain.v
theories/TrainProofs.v
theories/TrainThms.v
theories/TrainSteps.v
theories/TrainMore.v
theories/TrainEx.v
theories/Text.v
theories/Feats.v
theories/SpecFeats.v
theories/FeatsThms.v
theories/FeatsConc.v
theories/Json.v
theories/SpecJson.v
theories/JsonProofs.v
theories/JsonCodec.v
theories/JsonMore.v
theories/CV.v
theories/SpecCV.v
theories/CVProofs.v
theories/CVEx.v
theories/Grid.v
theories/SpecGrid.v
theories/GridProofs.v
theories/GridConc.v
theories/GridConcProofs.v
theories/GridEx.v
theories/Grad.v
theories/GradConc.v
theories/SpecGrad.v
theories/GradProofs.v
theories/GradConcProofs.v
theories/GradMore.v
theories/GradSearch.v
theories/GradNum.v
theories/GradTot.v
theories/GradEx.v
theories/Confu.v
theories/SpecConfu.v
theories/ConfuProofs.v
theories/ConfuMore.v
theories/ConfuEx.v
theories/Readers.v
theories/CsvReader.v
theories/SpecReaders.v
theories/ReadersProofs.v
theories/ReadersNum.v
theories/ReadersMore.v
theories/ReadersCsv.v
theories/ReadersEx.v
theories/SpecCsv.v
theories/CsvProofs.v
theories/CsvQuote.v
theories/CsvKeys.v
theories/CsvEx.v
theories/PropsCsv.v
theories/PropsTree.v
theories/PropsUtils.v
theories/PropsReal.v
theories/PropsTrain.v
theories/PropsFeats.v
theories/PropsJson.v
theories/PropsCV.v
theories/PropsGrid.v
theories/PropsGrad.v
theories/PropsConfu.v
theories/PropsReaders.v
theories/SpecTot.v
theories/TreeShort.v
theories/TrainTot.v
theories/TrainTotEx.v
theories/CVTot.v
theories/CVTotEx.v
theories/PropsTot.v
theories/SpecInv.v
theories/TreeInv.v
theories/InvMore.v
theories/InvEx.v
theories/PropsInv.v
theories/Print.v
theories/SpecPrint.v
theories/PrintProofs.v
theories/PrintEx.v
theories/PropsPrint.v
theories/Save.v
theories/SpecSave.v
theories/SaveProofs.v
theories/SaveEx.v
theories/PropsSave.v
theories/NumErr.v
theories/SpecErr.v
theories/ErrProofs.v
theories/ErrEx.v
theories/PropsErr.v
theories/SaveGrad.v
theories/SaveGradProofs.v
theories/SaveGradEx.v
theories/PropsSaveGrad.v
theories/DupProofs.v
theories/SpecFit.v
theories/FitProofs.v
theories/MemProofs.v
theories/SatProofs.v
theories/FitEx.v
theories/PropsFit.v
theories/SpecLearn.v
theories/LearnNum.v
theories/LearnProofs.v
theories/LearnEx.v
theories/PropsLearn.v
theories/SpecOpt.v
theories/OptProofs.v
theories/OptEx.v
theories/PropsOpt.v
theories/SpecSize.v
theories/SizeProofs.v
theories/SizeEx.v
theories/PropsSize.v
theories/Misc.v
theories/SpecMisc.v
theories/MiscProofs.v
theories/MiscEx.v
theories/PropsMisc.v
theories/SpecRow.v
theories/RowProofs.v
theories/RowEx.v
theories/PropsRow.v
theories/SpecUse.v
theories/UseProofs.v
theories/UseEx.v
theories/PropsUse.v
theories/SpecReg.v
theories/RegProofs.v
theories/RegEx.v
theories/PropsReg.v
theories/SpecScore.v
theories/ScoreProofs.v
theories/ScoreEx.v
theories/PropsScore.v
theories/FileProofs.v
theories/PropsFile.v
theories/SpecGridTot.v
theories/GridTot.v
theories/GridTotEx.v
theories/PropsGridTot.v
theories/SpecGradDir.v
theories/GradDir.v
theories/GradDirEx.v
theories/PropsGradDir.v
theories/SpecGradTot.v
theories/GradRet.v
theories/GradRetEx.v
theories/PropsGradTot.v
theories/SpecCols.v
theories/ColProofs.v
theories/ColTrain.v
theories/ColEx.v
theories/PropsCols.v
theories/MissProofs.v
theories/MissEx.v
theories/PropsMiss.v
theories/OneProofs.v
theories/OneEx.v
theories/PropsOne.v
theories/Fma.v
theories/FmaProofs.v
theories/FmaGain.v
theories/FmaEx.v
theories/PropsFma.v
theories/Main.v
theories/MainProofs.v
theories/MainEx.v
theories/PropsMain.v
theories/SpecSurp.v
theories/SurpProofs.v
theories/SurpEx.v
theories/PropsSurp.v
theories/GradOut.v
theories/GradOutProofs.v
theories/GradOutEx.v
theories/PropsGradOut.v
theories/CVShare.v
theories/SpecCVShare.v
theories/CVShareProofs.v
theories/CVShareEx.v
theories/PropsCVShare.v
theories/GoJson.v
theories/SpecGoJson.v
theories/GoJsonNum.v
theories/GoJsonStr.v
theories/GoJsonVal.v
theories/GoJsonRec.v
theories/GoJsonWrite.v
theories/GoFmt.v
theories/SpecGoFile.v
theories/GoFileProofs.v
theories/GoJsonEx.v
theories/PropsGoJson.v
theories/ConfuShare.v
theories/SpecConfuShare.v
theories/ConfuShareProofs.v
theories/ConfuShareEx.v
theories/PropsConfuShare.v
theories/PredConc.v
theories/SpecPredConc.v
theories/PredConcProofs.v
theories/PredConcEx.v
theories/PropsPredConc.v
theories/LossMem.v
theories/SpecLossMem.v
theories/LossMemProofs.v
theories/LossMemEx.v
theories/PropsLossMem.v
theories/Verbose.v
theories/SpecVerbose.v
theories/VerboseProofs.v
theories/VerboseCV.v
theories/VerboseGrid.v
theories/VerboseGrad.v
theories/VerboseEx.v
theories/PropsVerbose.v
theories/SpecChance.v
theories/ChanceProofs.v
theories/ChanceCV.v
theories/ChanceFuzz.v
theories/ChanceEx.v
theories/PropsChance.v
theories/SpecUnseen.v
theories/UnseenProofs.v
theories/UnseenChance.v
theories/UnseenEx.v
theories/PropsUnseen.v
theories/SpecBound.v
theories/BoundProofs.v
theories/BoundEx.v
theories/PropsBound.v
theories/SpecShift.v
theories/ShiftProofs.v
theories/ShiftEx.v
theories/PropsShift.v
theories/SpecFar.v
theories/FarProofs.v
theories/FarEx.v
theories/PropsFar.v
theories/SpecLot.v
theories/LotProofs.v
theories/LotEx.v
theories/PropsLot.v
