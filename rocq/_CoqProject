-Q theories Verif
theories/CrcModel.v
theories/CrcSpec.v
theories/CrcProofs.v
theories/RecorderModel.v
theories/LoaderModel.v
theories/LoaderSpec.v
theories/LoaderProofs.v
theories/LoaderProofs2.v
theories/LoaderProofs3.v
theories/LoaderProofs4.v
theories/RecorderLayout.v
theories/RecorderExtra.v
theories/PropRecorder.v
theories/MergeModel.v
theories/MergeSpec.v
theories/MergeProofs.v
theories/MergeProofs2.v
theories/OutageModel.v
theories/OutageSpec.v
theories/OutageProofs.v
theories/WriterModel.v
theories/WriterProofs.v
theories/PropApp.v
theories/ReaderModel.v
theories/ReaderSpec.v
theories/ReaderProofs.v
theories/PropReader.v
theories/LayoutModel.v
theories/LayoutProofs.v
theories/PropMisc.v
theories/ConfigModel.v
theories/ConfigSpec.v
theories/ConfigProofs.v
theories/PropConfig.v
theories/RealMath.v
theories/EarthModel.v
theories/ConvertModel.v
theories/ConvertSpec.v
theories/ConvertProofs.v
theories/EarthProofs.v
theories/MathWrap.v
theories/PropMath.v
theories/SmoothModel.v
theories/SmoothProofs.v
theories/AhrsModel.v
theories/AhrsProofs.v
theories/InsModel.v
theories/InsProofs.v
theories/InsSpec.v
theories/InsRest.v
theories/SmoothSpec.v
theories/SmoothProofs2.v
theories/PropIns.v
theories/Rfield.v
theories/KalmanModel.v
theories/KalmanSpec.v
theories/KalmanProofs.v
theories/PropKalman.v
theories/FusionBase.v
theories/FusionModel.v
theories/FusionSpec.v
theories/FusionProofs.v
theories/FusionFeed.v
theories/FusionParts.v
theories/FusionCov.v
theories/InsRest2.v
theories/FusionRest.v
theories/FusionFix.v
theories/FusionForget.v
theories/FusionHeight.v
theories/FusionInno.v
theories/FusionZupta.v
theories/FusionCases.v
theories/PropFusion.v
theories/AlignModel.v
theories/ApiModel.v
theories/ApiSpec.v
theories/AlignProofs.v
theories/ApiProofs.v
theories/ApiFresh.v
theories/ApiCases.v
theories/ApiPosStd.v
theories/ApiRest.v
theories/AlignExtra.v
theories/AlignHeading.v
theories/AlignCase.v
theories/PropApi.v
theories/PropAlign.v
theories/JacobianSpec.v
theories/JacobianBase.v
theories/JacobianProofs.v
theories/JacobianMain.v
theories/JacobianMatrix.v
theories/PropJacobian.v
theories/MergeReset.v
theories/PostModel.v
theories/PostSpec.v
theories/PostProofs.v
theories/PostTime.v
theories/PostEnd.v
theories/PostMain.v
theories/PropPost.v
theories/FlagsSpec.v
theories/FlagsProofs.v
theories/PropFlags.v
theories/OdoSpec.v
theories/OdoProofs.v
theories/PropOdo.v
theories/InnovationModel.v
theories/InnovationSpec.v
theories/InnovationProofs.v
theories/PropInnovation.v
theories/MotionSpec.v
theories/MotionBase.v
theories/MotionPlace.v
theories/MotionStep.v
theories/MotionMain.v
theories/ConingProofs.v
theories/MotionWrap.v
theories/PropMotion.v
theories/TextModel.v
theories/TextSpec.v
theories/TextProofs.v
theories/TextProofsG.v
theories/TextMain.v
theories/PropText.v
theories/DcmModel.v
theories/DcmProofs.v
theories/PropDcm.v
theories/RecordedModel.v
theories/PropRecorded.v
theories/ProjectSpec.v
theories/PropProject.v
theories/SelectModel.v
theories/PropSelect.v
theories/FloatSpec.v
theories/FloatOutageModel.v
theories/FloatOutageProofs.v
theories/FloatTimeModel.v
theories/FloatTimeSpec.v
theories/FloatTimeProofs.v
theories/FloatOutModel.v
theories/FloatOutProofs.v
theories/PropFloat.v
theories/AlignStart.v
theories/WheelSpec.v
theories/WheelProofs.v
theories/PropStart.v
theories/PropWheel.v
theories/AccuracySpec.v
theories/AccuracyProofs.v
theories/PropAccuracy.v
theories/AhrsLevel.v
theories/PropAhrs.v
theories/DiaryModel.v
theories/DiarySpec.v
theories/DiaryProofs.v
theories/DiaryInno.v
theories/DiaryFloat.v
theories/DiaryAlign.v
theories/PropDiary.v
theories/ProgramModel.v
theories/ProgramSpec.v
theories/ProgramProofs.v
theories/ProgramFiles.v
theories/ProgramOrder.v
theories/PropProgram.v
theories/AlignBias.v
theories/OldModel.v
theories/OldSpec.v
theories/OldProofs.v
theories/OldMain.v
theories/PropOld.v
theories/HelperModel.v
theories/RowModel.v
theories/HelperProofs.v
theories/PropHelper.v
theories/ReplayModel.v
theories/AdiModel.v
theories/ReplayProofs.v
theories/PropReplay.v
theories/InfoSpec.v
theories/InfoModel.v
theories/InfoProofs.v
theories/AngleModel.v
theories/AngleSpec.v
theories/AngleProofs.v
theories/PropInfo.v
theories/SummaryModel.v
theories/SummarySpec.v
theories/SummaryProofs.v
theories/SummaryLoad.v
theories/PropSummary.v
theories/ConstraintSpec.v
theories/ConstraintProofs.v
theories/PropConstraint.v
theories/AttitudeSpec.v
theories/AttitudeProofs.v
theories/PropAttitude.v
theories/EvalModel.v
theories/EvalSpec.v
theories/EvalProofs.v
theories/EvalStat.v
theories/EvalCheck.v
theories/PropEval.v
theories/WanderSpec.v
theories/WanderProofs.v
theories/WanderMain.v
theories/WanderCase.v
theories/StreamModel.v
theories/GenModel.v
theories/GenSpec.v
theories/GenProofs.v
theories/GenAngle.v
theories/GenWheel.v
theories/PropGen.v
theories/WideModel.v
theories/WideNarrow.v
theories/WideRun.v
theories/PropWide.v
theories/GenEndSpec.v
theories/GenEnd.v
theories/PropGenEnd.v
theories/PyInsModel.v
theories/PyInsProofs.v
theories/PyEcef.v
theories/PropPyIns.v
theories/SlowTable.v
theories/SlowProofs.v
theories/PropSlow.v
theories/SharpSpec.v
theories/SharpProofs.v
theories/SharpFilter.v
theories/SharpApi.v
theories/PropSharp.v
theories/PyTextModel.v
theories/PyTextProofs.v
theories/PropPyText.v
theories/PyParaModel.v
theories/PropPyPara.v
theories/EnsembleSpec.v
theories/EnsembleProofs.v
theories/PropEnsemble.v
theories/ViewModel.v
theories/ViewProofs.v
theories/PropView.v
theories/ErrFileModel.v
theories/PropErrFile.v
