-Q theories Verif
theories/IntModel.v
theories/IntSpec.v
theories/IntProofs.v
theories/IntProps.v
theories/ExtModel.v
theories/BoundModel.v
theories/BoundSpec.v
theories/BoundProofs.v
theories/BoundProps.v
theories/ParticleModel.v
theories/ParticleProofs.v
theories/ParticleProps.v
theories/MathModel.v
theories/MathProofs.v
theories/MapModel.v
theories/MapSpec.v
theories/MapProofs.v
theories/MapProps.v
theories/MathProps.v
theories/VecModel.v
theories/TransModel.v
theories/VecTac.v
theories/VecProofs.v
theories/TransProofs.v
theories/VecProps.v
theories/FilterModel.v
theories/ParamModel.v
theories/FormatModel.v
theories/FilterProofs.v
theories/FilterSpec.v
theories/FilterSets.v
theories/FilterProps.v
theories/ParamSpec.v
theories/ParamProofs.v
theories/FormatSpec.v
theories/FormatProofs.v
theories/MergeProofs.v
theories/ParamProps.v
theories/FormatProps.v
theories/MergeProps.v
theories/FrameBase.v
theories/KinModel.v
theories/KinEqs.v
theories/KinSpec.v
theories/KinProofs.v
theories/KinRadProofs.v
theories/KinEvent.v
theories/KinFinal.v
theories/FrameModel.v
theories/FrameProofs.v
theories/FrameRot.v
theories/KinAll.v
theories/KinFin.v
theories/FrameSpec.v
theories/KinProps.v
theories/CutModel.v
theories/CutSpec.v
theories/CutProofs.v
theories/CutBounds.v
theories/CutPhoton.v
theories/CutTake.v
theories/CutNames.v
theories/CutReach.v
theories/CutProps.v
theories/GridModel.v
theories/GridSpec.v
theories/GridProofs.v
theories/GridFloat.v
theories/GridSmooth.v
theories/GridProps.v
theories/ReadGridModel.v
theories/ReadGridSpec.v
theories/ReadGridProofs.v
theories/ReadGridFull.v
theories/ReadGridOut.v
theories/ReadGridProps.v
theories/SfModel.v
theories/SfSpec.v
theories/SfProofs.v
theories/SfProps.v
theories/TmdModel.v
theories/GaussInt.v
theories/TmdSpec.v
theories/TmdProofs.v
theories/TmdProps.v
theories/TermModel.v
theories/TermSpec.v
theories/TermProofs.v
theories/TermProps.v
theories/StatModel.v
theories/StatSpec.v
theories/StatProofs.v
theories/StatProps.v
theories/GenModel.v
theories/GenProofs.v
theories/CutReach9.v
theories/GenSpec.v
theories/GenProps.v
theories/LepModel.v
theories/HadModel.v
theories/XsModel.v
theories/XsProofs.v
theories/XsSoft.v
theories/XsTaylor.v
theories/XsDelta.v
theories/XsSpec.v
theories/XsBorn.v
theories/XsMirror.v
theories/XsFinal.v
theories/XsProps.v
theories/DilogSpec.v
theories/DilogProofs.v
theories/DilogError.v
theories/AsymModel.v
theories/AsymSpec.v
theories/AsymProofs.v
theories/AsymFinal.v
theories/AsymProps.v
theories/PhenomModel.v
theories/PhenomSpec.v
theories/PhenomRK.v
theories/PhenomProofs.v
theories/PhenomFinal.v
theories/VacHadProofs.v
theories/PhenomProps.v
theories/TextModel.v
theories/ParamTextModel.v
theories/TextNum.v
theories/ParamTextSpec.v
theories/TextProofs.v
theories/ParamTextProofs.v
theories/ParamTextRound.v
theories/ParamTextRefute.v
theories/ParamTextProps.v
theories/LifeModel.v
theories/LifeSpec.v
theories/LifeProofs.v
theories/LifeProps.v
theories/ProkModel.v
theories/ProkSpec.v
theories/ProkProofs.v
theories/ProkProps.v
theories/RootModel.v
theories/RootSpec.v
theories/RootProofs.v
theories/RootProps.v
theories/CmdModel.v
theories/CmdSpec.v
theories/CmdProofs.v
theories/CmdProps.v
theories/RowModel.v
theories/RowSpec.v
theories/RowProofs.v
theories/RowProps.v
theories/QedSpec.v
theories/QedAlg.v
theories/QedWord.v
theories/QedTensor.v
theories/QedEval.v
theories/QedTab.v
theories/QedSym.v
theories/QedAnti.v
theories/QedBorn.v
theories/QedEvent.v
theories/QedMain.v
theories/QedPoint.v
theories/QedFrame.v
theories/QedXsSpec.v
theories/QedXs.v
theories/QedProps.v
theories/QedHadSpec.v
theories/QedHad.v
theories/QedSpin.v
theories/QedHadTensor.v
theories/QedBilin.v
theories/QedHadProps.v
theories/Basel.v
theories/VirtSpec.v
theories/VirtVac.v
theories/VirtVert.v
theories/VirtSphi.v
theories/VirtSoft.v
theories/VirtSum.v
theories/VirtCode.v
theories/VirtEvent.v
theories/VirtProps.v
theories/DefaultModel.v
theories/DefaultProofs.v
theories/DefaultWitness.v
theories/DefaultProps.v
theories/FBoundModel.v
theories/FBoundProofs.v
theories/FBoundLerp.v
theories/FBoundProps.v
theories/GridFileModel.v
theories/GridFileSpec.v
theories/GridFileProofs.v
theories/GridFileLines.v
theories/GridFileProps.v
theories/FMathModel.v
theories/FMathSpec.v
theories/FMathSeries.v
theories/FMathSum.v
theories/FMathDilog.v
theories/FMathSqrt.v
theories/FMathOne.v
theories/FMathProps.v
theories/TextPower.v
theories/PowerSpec.v
theories/TextExact.v
theories/PowerProps.v
theories/FKinModel.v
theories/FKinSpec.v
theories/FKinRel.v
theories/FKinProofs.v
theories/FKinMore.v
theories/FKinPoint.v
theories/FKinProps.v
theories/ConstModel.v
theories/ConstSpec.v
theories/ConstProofs.v
theories/ConstNear.v
theories/ConstProps.v
theories/FMapModel.v
theories/FMapSpec.v
theories/FMapProofs.v
theories/FMapInv.v
theories/FMapProps.v
theories/FLogModel.v
theories/FLogSpec.v
theories/FLogProofs.v
theories/FLogNeg.v
theories/FLogProps.v
theories/IntegModel.v
theories/IntegSpec.v
theories/IntegProofs.v
theories/IntegProps.v
theories/MsgModel.v
theories/MsgSpec.v
theories/MsgProofs.v
theories/MsgProps.v
theories/TensorModel.v
theories/TensorSpec.v
theories/TensorProofs.v
theories/TensorProps.v
theories/FGridSpec.v
theories/FGridProofs.v
theories/FGridProps.v
theories/FCubicSpec.v
theories/FCubicProofs.v
theories/FCubicProps.v
theories/FPhenomModel.v
theories/FPhenomSpec.v
theories/FPhenomProofs.v
theories/FPhenomFinal.v
theories/FPhenomProps.v
theories/FVacModel.v
theories/FVacSpec.v
theories/FVacProofs.v
theories/FVacProps.v
theories/FVacLepModel.v
theories/FVacLepProofs.v
theories/FVacLepProps.v
