-Q theories Verif

theories/Prelude.v
theories/Flt.v
theories/FltFacts.v
theories/Round8.v
theories/Round8Facts.v
theories/ShowNum.v
theories/ShowNumFacts.v
theories/PropNode.v
theories/ParInfo.v
theories/ParInfoFacts.v
theories/Properties_ParInfo.v
theories/FlatMap.v
theories/ObjInfo.v
theories/ParIO.v
theories/SearchPoint.v
theories/ObjInfoFacts.v
theories/ParIOFacts.v
theories/Properties_Params.v
theories/Properties_Params2.v
theories/Properties_Params3.v
theories/Properties_Order.v
theories/Properties_SearchPoint.v
theories/Flt32.v
theories/Num.v
theories/MathTools.v
theories/Optimizer.v
theories/OptimizerFacts.v
theories/Properties_Optimizer.v
theories/Properties_Optimizer2.v
theories/Properties_Optimizer3.v
theories/Properties_Optimizer4.v
theories/Evaluator.v
theories/EvaluatorFacts.v
theories/Properties_Evaluator.v
theories/Properties_Evaluator2.v
theories/Properties_Evaluator3.v
theories/Properties_Evaluator4.v
theories/Boundary.v
theories/Properties_Boundary.v
theories/Driver.v
theories/DriverFacts.v
theories/Mes.v
theories/MesFacts.v
theories/MesF.v
theories/Properties_ES.v
theories/Properties_ES2.v
theories/Properties_ES3.v
theories/Properties_ES4.v
theories/Cma.v
theories/CmaFacts.v
theories/CmaRandom.v
theories/Properties_CmaRandom.v
theories/Properties_Cma.v
theories/Properties_Cma2.v
theories/CmaEigen.v
theories/MatR.v
theories/EigenQL.v
theories/EigenSort.v
theories/EigenTri.v
theories/EigenTri2.v
theories/EigenEnd.v
theories/CmaF.v
theories/Properties_Cma3.v
theories/FltOpp.v
theories/Duality.v
theories/DualityFacts.v
theories/Properties_Duality.v
theories/Properties_Repro.v
theories/Pool.v
theories/PoolFacts.v
theories/Properties_Pool.v
theories/Properties_Pool2.v
theories/Properties_Pool3.v
theories/Properties_Pool4.v
theories/Properties_Pool5.v
theories/Properties_Pool6.v
theories/Properties_Pool7.v
theories/FileReporter.v
theories/FileReporterFacts.v
theories/Properties_FileReporter.v
theories/Properties_FileReporter2.v
theories/Properties_FileReporter3.v
theories/Properties_FileReporter4.v
theories/Properties_FileReporter5.v
theories/Properties_FileReporter6.v
theories/Objectives.v
theories/Properties_Stats.v
theories/Properties_Objectives.v
theories/FltNonneg.v
theories/Properties_Objectives2.v
theories/Properties_Schwefel.v
theories/Properties_Eigen.v
theories/Properties_Cma4.v
theories/Properties_Rank.v
theories/Properties_CmaUpdate.v
theories/Properties_ES5.v
theories/Properties_ES6.v
theories/Properties_FileReporter7.v
theories/Properties_Failed.v
theories/Console.v
theories/Properties_Console.v
theories/Properties_Affine.v
theories/Properties_Names.v
theories/Properties_Pool8.v
theories/Properties_Pool9.v
theories/Properties_Boundary2.v
theories/FltSqrt.v
theories/Properties_Resume.v
theories/Properties_Sampling.v
theories/FileCrash.v
theories/Properties_Crash.v
theories/Properties_Later.v
theories/Properties_CmaOptions.v
theories/Properties_Faults.v
theories/Properties_NaN.v
theories/Properties_Pool10.v
theories/Properties_FileReporter8.v
theories/Properties_Boundary3.v
theories/Properties_Evaluator5.v
theories/Properties_ES7.v
theories/Properties_ES8.v
theories/PoolOptions.v
theories/NoParams.v
theories/Properties_PoolOptions.v
theories/Properties_NoParams.v
theories/StopAccess.v
theories/Properties_StopAccess.v
theories/Properties_CmaDescription.v
theories/Properties_CmaDescription2.v
theories/Properties_CmaWeights2.v
theories/Properties_CmaPars2.v
theories/Properties_CmaStd.v
theories/Properties_Stats2.v
theories/Properties_Objectives3.v
theories/Properties_Objectives4.v
theories/Properties_Schwefel2.v
