-Q theories Verif
theories/Base.v
theories/Dim.v
theories/Matrix.v
theories/View.v
theories/Num.v
theories/Expr.v
theories/Tree.v
theories/Spec.v
theories/TreeSpec.v
theories/Iter.v
theories/Sums.v
theories/MatFacts.v
theories/MatThms.v
theories/ViewThms.v
theories/TreeThms.v
theories/ExprThms.v
theories/Batch.v
theories/Kernel.v
theories/Connected.v
theories/Float32.v
theories/FloatFacts.v
theories/CeilBound.v
theories/Pooling.v
theories/Activation.v
theories/Softmax.v
theories/LayerFacts.v
theories/KernelThms.v
theories/Calc.v
theories/KernelGrad.v
theories/BatchThms.v
theories/ConnectedThms.v
theories/PoolingThms.v
theories/PoolGrad.v
theories/ActivationThms.v
theories/SoftmaxThms.v
theories/LayerTotal.v
theories/Chars.v
theories/Model.v
theories/Net.v
theories/NetThms.v
theories/NetPass.v
theories/NetGrad.v
theories/ModelThms.v
theories/NetFresh.v
theories/Train.v
theories/TrainLocal.v
theories/TrainRest.v
theories/TrainInv.v
theories/TrainData.v
theories/TrainEnd.v
theories/TrainThms.v
theories/TrainCount.v
theories/TrainEpoch.v
theories/TrainNet.v
theories/TrainSgd.v
theories/TrainDescent.v
theories/TrainMore.v
theories/Shapes.v
theories/ShapeNet.v
theories/TrainSafe.v
theories/TrainOne.v
theories/LazyInit.v
theories/Double.v
theories/DoubleFacts.v
theories/Stream.v
theories/StreamFacts.v
theories/Text.v
theories/TextFacts.v
theories/LayerText.v
theories/LoadFacts.v
theories/LoadThms.v
theories/LoadSafe.v
theories/LoadEx.v
theories/LoadOld.v
theories/Mnist.v
theories/MnistFacts.v
theories/Main.v
theories/Validate.v
theories/ValidateFacts.v
theories/ValidateStep.v
theories/ValidateRun.v
theories/ValidateThms.v
theories/ValidateRace.v
theories/Bar.v
theories/BarFacts.v
theories/Report.v
theories/ReportFacts.v
theories/Sample.v
theories/AccNear.v
theories/ReportThms.v
theories/Program.v
theories/MnistCut.v
theories/ProgramFeed.v
theories/ProgramThms.v
theories/FiniteFacts.v
theories/FiniteSoft.v
theories/FiniteInit.v
theories/Props_Matrix.v
theories/Props_View.v
theories/Props_Expr.v
theories/Props_Kernel.v
theories/Props_Connected.v
theories/PoolLarge.v
theories/Props_Pooling.v
theories/Props_Output.v
theories/Props_Model.v
theories/Props_Train.v
theories/LoadCrlf.v
theories/EmptyText.v
theories/Props_Text.v
theories/Props_Data.v
theories/ShortResult.v
theories/Props_Safe.v
theories/Props_Validate.v
theories/Props_Report.v
theories/FiniteNet.v
theories/FiniteReal.v
theories/FiniteMain.v
theories/FiniteBack.v
theories/FiniteTrain.v
theories/Props_Finite.v
theories/TrainRace.v
theories/Props_TrainRace.v
theories/Props_FiniteBack.v
theories/Decimal.v
theories/DecimalFacts.v
theories/Print.v
theories/PrintFacts.v
theories/PrintImage.v
theories/EpochText.v
theories/Props_Print.v
theories/SaveLayout.v
theories/Props_Save.v
theories/Repeat.v
theories/RepeatEx.v
theories/Props_Repeat.v
theories/FreeText.v
theories/FreeLayer.v
theories/Props_Free.v
theories/Truncated.v
theories/ValidateCut.v
theories/Access.v
theories/Props_Access.v
theories/Props_Truncated.v
theories/Rounding.v
theories/RoundLayers.v
theories/Props_Round.v
theories/RoundNet.v
theories/RoundPass.v
theories/Props_RoundNet.v
theories/RoundBack.v
theories/RoundMain.v
theories/Props_RoundBack.v
theories/RoundTrain.v
theories/Props_RoundTrain.v
theories/RoundValidate.v
theories/Props_RoundValidate.v
theories/SetBatch.v
theories/Props_SetBatch.v
theories/NetWrong.v
theories/Props_NetWrong.v
theories/TrainMix.v
theories/Props_TrainMix.v
theories/TrainAscent.v
theories/Props_TrainAscent.v
theories/FreeSize.v
theories/Props_FreeSize.v
theories/LoadKind.v
theories/Props_Kind.v
