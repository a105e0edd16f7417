-Q theories Verif
theories/Base.v
theories/BaseProofs.v
theories/IndexModel.v
theories/IndexProofs.v
theories/IndexProofs2.v
theories/FloatIndexModel.v
theories/FloatIndexProofs.v
theories/IndexProps.v
theories/P_Index.v
theories/CBase.v
theories/CSum.v
theories/RSum.v
theories/PowersModel.v
theories/PowersProofs.v
theories/ConvModel.v
theories/ConvProofs.v
theories/ConvProps.v
theories/Fact.v
theories/SymPow.v
theories/WignerSpec.v
theories/P_Numeric.v
theories/DRep.v
theories/WignerModel.v
theories/WignerProofs.v
theories/WignerProofs2.v
theories/WignerProofs3.v
theories/SWSHModel.v
theories/WignerCallModel.v
theories/RotorSpec.v
theories/SWSHProofs.v
theories/WignerCallProofs.v
theories/WignerProps.v
theories/P_Wigner.v
theories/ModesModel.v
theories/ModesSpec.v
theories/ModesProofs.v
theories/ModesProofs2.v
theories/ModesProofs3.v
theories/ModesProps.v
theories/ModesProps2.v
theories/P_Modes.v
theories/ThreeJSpec.v
theories/ThreeJ.v
theories/ThreeJ2.v
theories/ThreeJ3.v
theories/ThreeJ4.v
theories/Wigner3jModel.v
theories/Wigner3jSpec.v
theories/Wigner3jWs.v
theories/Wigner3jFwd.v
theories/Wigner3jProofs.v
theories/Wigner3jProps.v
theories/P_ThreeJ.v
theories/CGSeries.v
theories/MultModel.v
theories/MultSpec.v
theories/MultProofs.v
theories/MultProps.v
theories/UfuncModel.v
theories/UfuncSpec.v
theories/UfuncProofs.v
theories/UfuncProps.v
theories/P_Mult.v
theories/HistSpec.v
theories/HistProofs.v
theories/P_Hist.v
theories/LieSpec.v
theories/LieProofs.v
theories/LieProps.v
theories/P_Lie.v
theories/GridModel.v
theories/GridSpec.v
theories/GridProps.v
theories/P_Grid.v
theories/GridUfuncSpec.v
theories/GridUfuncProps.v
theories/P_GridUfunc.v
theories/HSpec.v
theories/HMath.v
theories/HModel.v
theories/HProofs.v
theories/HCoef.v
theories/HMono.v
theories/HProps.v
theories/QAnglesModel.v
theories/QAnglesProps.v
theories/P_H.v
theories/P_Ufunc.v
theories/OrthoSpec.v
theories/OrthoProofs.v
theories/OrthoProofs2.v
theories/OrthoProps.v
theories/AdjProps.v
theories/SampleProofs.v
theories/SampleProps.v
theories/P_Ortho.v
theories/SampleSharp.v
theories/SampleSharpProps.v
theories/P_Sample.v
theories/ModesGridModel.v
theories/ModesGridSpec.v
theories/ModesGridProps.v
theories/P_ModesGrid.v
theories/NearProofs.v
theories/NearProps.v
theories/P_Near.v
theories/HCallModel.v
theories/HCallSpec.v
theories/HCallProps.v
theories/P_HCall.v
theories/SWSHCallModel.v
theories/SWSHCallProps.v
theories/P_SWSHCall.v
theories/ViewModel.v
theories/ViewSpec.v
theories/ViewProofs.v
theories/ViewProps.v
theories/P_View.v
theories/FloatPowersModel.v
theories/FloatPowersSpec.v
theories/FloatPowersProofs.v
theories/FloatPowersProps.v
theories/P_FloatPowers.v
theories/FloatConvModel.v
theories/FloatConvSpec.v
theories/FloatConvProofs.v
theories/FloatConvProps.v
theories/P_FloatConv.v
theories/TableData.v
theories/TableModel.v
theories/TableSpec.v
theories/TableCheck.v
theories/TableProofs.v
theories/TableProps.v
theories/P_Table.v
theories/FloatWignerModel.v
theories/FloatWignerSpec.v
theories/FloatWignerProofs.v
theories/FloatWignerProofs2.v
theories/FloatWignerProofs3.v
theories/FloatWignerProofs4.v
theories/FloatWignerProofs5.v
theories/FloatWignerProofs6.v
theories/FloatWignerProps.v
theories/P_FloatWigner.v
theories/FloatMatrixModel.v
theories/FloatMatrixSpec.v
theories/FloatMatrixProofs.v
theories/FloatMatrixProofs2.v
theories/FloatMatrixProofs3.v
theories/FloatMatrixProofs4.v
theories/FloatMatrixProofs5.v
theories/FloatMatrixProps.v
theories/P_FloatMatrix.v
theories/FloatModesModel.v
theories/FloatModesSpec.v
theories/FloatModesProofs.v
theories/FloatModesProofs2.v
theories/FloatModesProps.v
theories/FloatModesProofs3.v
theories/FloatModesProofs4.v
theories/FloatAlgebraProps.v
theories/P_FloatModes.v
theories/P_FloatAlgebra.v
theories/FloatAnglesModel.v
theories/FloatAnglesProofs.v
theories/FloatAnglesProps.v
theories/P_FloatAngles.v
theories/FloatGridModel.v
theories/FloatGridSpec.v
theories/FloatGridProofs.v
theories/FloatGridProps.v
theories/P_FloatGrid.v
theories/FloatPartsModel.v
theories/FloatPartsSpec.v
theories/FloatPartsProofs.v
theories/FloatPartsProps.v
theories/P_FloatParts.v
theories/FloatThreeJModel.v
theories/FloatLog.v
theories/ThreeJZero.v
theories/FloatThreeJProofs.v
theories/FloatThreeJZero.v
theories/FloatThreeJProps.v
theories/P_FloatThreeJ.v
theories/FloatThreeJRound.v
theories/FloatThreeJSame.v
theories/FloatThreeJSameProps.v
theories/P_FloatThreeJSame.v
theories/FloatHModel.v
theories/FloatHSpec.v
theories/FloatHProofs.v
theories/FloatHParity.v
theories/FloatHProps.v
theories/P_FloatH.v
theories/FloatMultModel.v
theories/FloatMultSpec.v
theories/FloatMultProofs.v
theories/FloatMultProofs2.v
theories/FloatMultProps.v
theories/FloatMultProps2.v
theories/FloatMultProps3.v
theories/P_FloatMult.v
theories/FloatThreeJThree.v
theories/FloatThreeJDipole.v
theories/FloatThreeJThreeProps.v
theories/P_FloatThreeJThree.v
theories/FloatHPole.v
theories/FloatHPoleProps.v
theories/P_FloatHPole.v
theories/FloatHOne.v
theories/FloatHSine.v
theories/FloatHSineProps.v
theories/P_FloatHOne.v
