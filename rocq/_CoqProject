-Q theories Verif
theories/Outcome.v
theories/SetModel.v
theories/Spec.v
theories/SetProofs.v
theories/SetProofs2.v
theories/PropertiesSet.v
theories/Num.v
theories/NumLaws.v
theories/IntervalModel.v
theories/IvlSpec.v
theories/IvlProofs.v
theories/ArithProofs.v
theories/ArithProofs2.v
theories/ArithProofs3.v
theories/ArithProofs4.v
theories/ArithProofs5.v
theories/Reach.v
theories/IntNum.v
theories/IntProofs.v
theories/IntExact.v
theories/XReal.v
theories/RealNum.v
theories/FloatNum.v
theories/FloatProofs.v
theories/IterModel.v
theories/IterProofs.v
theories/ValueTypes.v
theories/IvlWrap.v
theories/Refute.v
theories/PropertiesInterval.v
theories/PropertiesArith.v
theories/PropertiesIter.v
theories/ConstrainModel.v
theories/CondSpec.v
theories/ConstrainProofs.v
theories/ConstrainProofs2.v
theories/ConstrainProofs3.v
theories/ConstrainProofs4.v
theories/ConstrainProofs5.v
theories/ConstrainProofs6.v
theories/ConstrainWrap.v
theories/ConstrainRefute.v
theories/MixedModel.v
theories/MixedProofs.v
theories/PropertiesConstrain.v
theories/AlgoModel.v
theories/AlgoSpec.v
theories/AlgoProofs.v
theories/AlgoProofs2.v
theories/AlgoProofs3.v
theories/AlgoProofs4.v
theories/PropertiesAlgo.v
theories/MathModel.v
theories/FloatMath.v
theories/RealMath.v
theories/MathSpec.v
theories/MathProofs.v
theories/FloatMathProofs.v
theories/WrapProofs.v
theories/MonoProofs.v
theories/TrigProofs.v
theories/Atan2Proofs.v
theories/PowProofs.v
theories/PowProofs2.v
theories/MathWrap.v
theories/PropertiesMath.v
theories/BlendProofs.v
theories/NarrowProofs.v
theories/PropertiesBlend.v
theories/DebugProofs.v
theories/DebugProofs2.v
theories/PropertiesDebug.v
theories/LangModel.v
theories/LangSpec.v
theories/LangProofs.v
theories/LangProofs2.v
theories/ExampleModel.v
theories/ExampleProofs.v
theories/ExampleProofs2.v
theories/PropertiesLang.v
theories/InterpModel.v
theories/InterpSpec.v
theories/InterpProofs.v
theories/InterpReal.v
theories/SegProofs.v
theories/InterpProofs2.v
theories/InterpProofs3.v
theories/InterpProofs4.v
theories/InterpProofs5.v
theories/PropertiesInterp.v
theories/MixedArithModel.v
theories/MixedArithSpec.v
theories/ConvProofs.v
theories/MixedArithProofs.v
theories/ConvProofs2.v
theories/MixedRefute.v
theories/PropertiesMixed.v
theories/RegularModel.v
theories/RegularSpec.v
theories/RegularProofs.v
theories/EnumModel.v
theories/EnumSpec.v
theories/EnumProofs.v
theories/PropertiesEnum.v
theories/SearchModel.v
theories/SearchSpec.v
theories/SearchProofs.v
theories/PropertiesSearch.v
theories/WidenSpec.v
theories/WidenProofs.v
theories/PropertiesWiden.v
theories/FloatIntModel.v
theories/FloatIntSpec.v
theories/FloatIntProofs.v
theories/PropertiesFloatInt.v
theories/TableModel.v
theories/TableSpec.v
theories/TableProofs.v
theories/PropertiesTable.v
theories/ChecksSpec.v
theories/ChecksProofs.v
theories/PropertiesChecks.v
theories/RoundSpec.v
theories/RoundProofs.v
theories/PropertiesRound.v
theories/MachineSpec.v
theories/NumericFacts.v
theories/TrigMachineProofs.v
theories/SinMachineProofs.v
theories/PowMachineProofs.v
theories/PowNearProofs.v
theories/PowLibProofs.v
theories/LibMachineProofs.v
theories/TanMachineProofs.v
theories/BlendMachineProofs.v
theories/PropertiesMachine.v
theories/MixedBlendModel.v
theories/MixedBlendProofs.v
theories/PropertiesMixedBlend.v
theories/MixedPowModel.v
theories/MixedPowProofs.v
theories/MixedPowProofs2.v
theories/PropertiesMixedPow.v
theories/DebugMixedProofs.v
theories/PropertiesDebugMixed.v
theories/MixedMergeModel.v
theories/MixedMergeSpec.v
theories/MixedMergeProofs.v
theories/PropertiesMixedMerge.v
theories/ScalarModel.v
theories/ScalarProofs.v
theories/ScalarProofs2.v
theories/PropertiesScalar.v
theories/TestsSet.v
theories/TestsInterval.v
theories/TestsMath.v
theories/PartIndexProofs.v
theories/PieceModel.v
theories/PieceProofs.v
theories/PieceProofs2.v
theories/PropertiesPiece.v
theories/IsoSpec.v
theories/IsoProofs.v
theories/IsoProofs2.v
theories/IsoProofs3.v
theories/IsoProofs4.v
theories/PropertiesIso.v
theories/PowHullSpec.v
theories/PowHullProofs.v
theories/PowHullProofs2.v
theories/PropertiesPow.v
theories/LimitSpec.v
theories/LimitProofs.v
theories/LimitProofs2.v
theories/LimitProofs3.v
theories/PropertiesLimit.v
theories/UseSpec.v
theories/UseProofs.v
theories/UseProofs2.v
theories/UseProofs3.v
theories/PropertiesUse.v
theories/AccuSpec.v
theories/AccuProofs.v
theories/AccuProofs2.v
theories/AccuProofs3.v
theories/PropertiesAccu.v
theories/ConjSpec.v
theories/ConstrainProofs7.v
theories/PropertiesConj.v
theories/ChoiceSpec.v
theories/ChoiceProofs.v
theories/ChoiceProofs2.v
theories/PropertiesChoice.v
theories/SuccSpec.v
theories/SuccProofs.v
theories/SuccProofs2.v
theories/PropertiesSucc.v
theories/DecideSpec.v
theories/DecideProofs.v
theories/DecideProofs2.v
theories/PropertiesDecide.v
