-Q theories Verif
theories/Base.v
theories/Lists.v
theories/IndexModel.v
theories/Spec.v
theories/Traverse.v
theories/Triangle.v
theories/Binom.v
theories/Shell.v
theories/ShellList.v
theories/Cross.v
theories/CrossNc.v
theories/HashPrint.v
theories/IndexSet.v
theories/Grid.v
theories/CubeIndex.v
theories/Degree.v
theories/MachineModel.v
theories/Machine.v
theories/Facts1.v
theories/Properties1.v
theories/Num.v
theories/LinModel.v
theories/LinSpec.v
theories/LinBase.v
theories/MatBase.v
theories/Project.v
theories/Tensorize.v
theories/Dirs.v
theories/Sparse.v
theories/TensorMat.v
theories/Inner.v
theories/InnerSum.v
theories/Facts2.v
theories/Facts3.v
theories/Facts4.v
theories/Facts5.v
theories/Properties2.v
theories/Fnum.v
theories/CalcModel.v
theories/CalcSpec.v
theories/QuadModel.v
theories/CalcBase.v
theories/CalcHermite.v
theories/CalcTransform.v
theories/CalcReal.v
theories/CalcTriple.v
theories/CalcFourier.v
theories/CalcQuad.v
theories/CalcFourierQuad.v
theories/CalcInt.v
theories/Facts6.v
theories/Properties3.v
theories/CalcOps.v
theories/CalcVarf.v
theories/CalcVarf2.v
theories/Facts7.v
theories/CalcTensor.v
theories/Facts8.v
theories/Facts9.v
theories/CalcVarfd.v
theories/Facts10.v
theories/CalcDiscretize.v
theories/Facts11.v
theories/Properties5.v
theories/NdModel.v
theories/NdSpec.v
theories/NdFacts.v
theories/Properties6.v
theories/PyBase.v
theories/PosModel.v
theories/PosSpec.v
theories/PosFacts.v
theories/Properties7.v
theories/SeriesModel.v
theories/SeriesSpec.v
theories/SeriesFacts.v
theories/SeriesFacts2.v
theories/SeriesFacts3.v
theories/SeriesFacts4.v
theories/Properties8.v
theories/PartModel.v
theories/PartSpec.v
theories/PartFacts.v
theories/SplitModel.v
theories/SplitSpec.v
theories/SplitFacts.v
theories/Properties9.v
theories/OpModel.v
theories/OpSpec.v
theories/OpFacts.v
theories/StatsModel.v
theories/StatsSpec.v
theories/StatsFacts.v
theories/Properties10.v
theories/CacheModel.v
theories/CacheSpec.v
theories/CacheFacts.v
theories/KeyModel.v
theories/KeySpec.v
theories/KeyFacts.v
theories/Properties11.v
theories/MulModel.v
theories/MulSpec.v
theories/MulFacts.v
theories/SolveModel.v
theories/SolveSpec.v
theories/SolveFacts.v
theories/Properties12.v
theories/PyQuadModel.v
theories/PyQuadSpec.v
theories/PyQuadFacts.v
theories/PyQuadFacts2.v
theories/Properties13.v
theories/ToFunModel.v
theories/ToFunSpec.v
theories/ToFunFacts.v
theories/Properties14.v
theories/InternModel.v
theories/InternSpec.v
theories/InternFacts.v
theories/Properties15.v
theories/OpQuadModel.v
theories/OpQuadSpec.v
theories/OpQuadFacts.v
theories/Properties16.v
theories/Properties4.v
theories/TensQuadModel.v
theories/TensQuadSpec.v
theories/TensQuadFacts.v
theories/TensQuadFacts2.v
theories/TensQuadFacts3.v
theories/TensQuadFacts4.v
theories/Properties17.v
theories/TensVarfModel.v
theories/TensVarfSpec.v
theories/TensVarfFacts.v
theories/TensVarfFacts2.v
theories/TensVarfFacts3.v
theories/Properties18.v
theories/TensOpModel.v
theories/TensOpSpec.v
theories/TensOpFacts.v
theories/TensOpFacts2.v
theories/TensOpFacts3.v
theories/TensOpFacts4.v
theories/Properties19.v
theories/FindDimFacts.v
theories/Properties20.v
theories/CcodeModel.v
theories/CcodeSpec.v
theories/CcodeFacts.v
theories/Properties21.v
theories/OpArithModel.v
theories/OpArithSpec.v
theories/OpArithFacts.v
theories/OpArithFacts2.v
theories/OpArithFacts3.v
theories/Properties22.v
theories/QuadIntModel.v
theories/QuadIntSpec.v
theories/QuadIntFacts.v
theories/QuadMakeModel.v
theories/QuadMakeSpec.v
theories/GaussFacts.v
theories/QuadMakeFacts.v
theories/QuadMakeFacts2.v
theories/NewtonFacts.v
theories/NewtonFacts2.v
theories/NormFacts.v
theories/Properties23.v
theories/EqnModel.v
theories/EqnSpec.v
theories/EqnFacts.v
theories/EqnFacts2.v
theories/Properties24.v
theories/GalSpec.v
theories/GalFacts.v
theories/CompModel.v
theories/CompFacts.v
theories/Properties25.v
theories/ProjModel.v
theories/ProjSpec.v
theories/ProjFacts.v
theories/Properties26.v
theories/EigSpec.v
theories/EigModel.v
theories/EigFacts.v
theories/Properties27.v
theories/EqModel.v
theories/EqSpec.v
theories/EqFacts.v
theories/WeightModel.v
theories/WeightSpec.v
theories/WeightFacts.v
theories/Properties28.v
theories/PlotModel.v
theories/PlotSpec.v
theories/PlotFacts.v
theories/PlotFacts2.v
theories/Properties29.v
theories/CoreModel.v
theories/CoreSpec.v
theories/CoreFacts.v
theories/CoreFacts2.v
theories/Properties30.v
theories/FnModel.v
theories/FnSpec.v
theories/FnFacts.v
theories/FnFacts2.v
theories/FnSample.v
theories/Properties31.v
theories/CheckModel.v
theories/CheckSpec.v
theories/CheckFacts.v
theories/Properties32.v
theories/RestrictSpec.v
theories/RestrictFacts.v
theories/RestrictFacts2.v
theories/Properties33.v
theories/FormSpec.v
theories/FormFacts.v
theories/Properties34.v
theories/OuSpec.v
theories/OuFacts.v
theories/Properties35.v
theories/Core2Model.v
theories/Core2Spec.v
theories/Core2Facts.v
theories/Properties36.v
theories/SteadyModel.v
theories/SteadySpec.v
theories/SteadyFacts.v
theories/SteadyFacts2.v
theories/Properties37.v
theories/DiscModel.v
theories/DiscSpec.v
theories/DiscFacts.v
theories/Properties38.v
theories/ShowModel.v
theories/ShowSpec.v
theories/ShowFacts.v
theories/ShowFacts2.v
theories/Properties39.v
theories/HeapModel.v
theories/HeapSpec.v
theories/HeapFacts.v
theories/HeapFacts2.v
theories/HeapFacts3.v
theories/Properties40.v
theories/DebugModel.v
theories/DebugFacts.v
theories/Properties41.v
theories/AlgModel.v
theories/AlgSpec.v
theories/AlgFacts.v
theories/AlgFacts2.v
theories/Properties42.v
theories/RndModel.v
theories/RndSpec.v
theories/RndFacts.v
theories/RndFacts2.v
theories/RndFacts3.v
theories/RndFacts4.v
theories/RndFacts5.v
theories/RndFacts6.v
theories/Properties43.v
theories/VecModel.v
theories/VecSpec.v
theories/VecFacts.v
theories/VecFacts2.v
theories/VecFacts3.v
theories/VecFacts4.v
theories/Properties44.v
theories/CacheRaceModel.v
theories/CacheRaceSpec.v
theories/CacheRaceFacts.v
theories/CacheRaceFacts2.v
theories/Properties45.v
theories/BestSpec.v
theories/BestFacts.v
theories/Properties46.v
theories/RndTriple.v
theories/RndFacts7.v
theories/RndFacts8.v
theories/Properties47.v
theories/ParamModel.v
theories/ParamSpec.v
theories/ParamFacts.v
theories/ParamFacts2.v
theories/Properties48.v
theories/RndSpec2.v
theories/RndFacts9.v
theories/TrailModel.v
theories/TrailSpec.v
theories/TrailFacts.v
theories/TrailFacts2.v
theories/Properties49.v
theories/MixedModel.v
theories/MixedSpec.v
theories/MixedFacts.v
theories/Properties50.v
theories/CheckFacts2.v
theories/OptModel.v
theories/OptSpec.v
theories/OptFacts.v
theories/Properties51.v
theories/NoiseModel.v
theories/NoiseSpec.v
theories/NoiseFacts.v
theories/Properties52.v
theories/Properties53.v
theories/NoiseFacts2.v
theories/NoiseFacts3.v
theories/LibModel.v
theories/LibSpec.v
theories/LibFacts.v
theories/Properties54.v
theories/TripleModel.v
theories/TripleFacts.v
theories/TripleFacts2.v
theories/Properties55.v
theories/IndepFacts.v
theories/IndepFacts2.v
theories/Properties56.v
theories/GetModel.v
theories/GetSpec.v
theories/GetFacts.v
theories/Properties57.v
theories/IoSpec.v
theories/IoFacts.v
theories/Properties58.v
