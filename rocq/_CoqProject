-Q theories Verif
theories/Num.v
theories/NumLemmas.v
theories/InterpModel.v
theories/InterpSpec.v
theories/InterpProofs.v
theories/PropertiesInterp.v
theories/ProjModel.v
theories/ProjSpec.v
theories/PropertiesProj.v
theories/RpcModel.v
theories/CppRpcModel.v
theories/RpcSpec.v
theories/RpcConvSpec.v
theories/RpcProofs.v
theories/RpcNewton.v
theories/RpcDeriv.v
theories/RpcRun.v
theories/RpcConv.v
theories/RpcBatch.v
theories/PropertiesRpc.v
theories/PropertiesRpcConv.v
theories/RpcConverse.v
theories/PropertiesConverse.v
theories/DtmModel.v
theories/DtmSpec.v
theories/DtmCube.v
theories/DtmWalk.v
theories/DtmIntersect.v
theories/CppDtmModel.v
theories/CppDtmProofs.v
theories/DtmProofs.v
theories/DtmWitness.v
theories/DtmHeld.v
theories/DtmHidden.v
theories/PropertiesDtm.v
theories/PropertiesDtmHidden.v
theories/DtmWitness2.v
theories/PropertiesDtm2.v
theories/CppMemModel.v
theories/CppMemSpec.v
theories/CppMem.v
theories/PropertiesMem.v
theories/CppLine.v
theories/PickleModel.v
theories/PropertiesPickle.v
theories/RpcDtmModel.v
theories/RpcDtmSpec.v
theories/PropertiesRpcDtm.v
theories/TriModel.v
theories/TriSpec.v
theories/TriProofs.v
theories/TriBatch.v
theories/PropertiesTri.v
theories/PropertiesTri2.v
theories/PropertiesTri4.v
theories/PropertiesTri3.v
theories/LocModel.v
theories/LocSpec.v
theories/PropertiesLoc.v
theories/RectModel.v
theories/RectSpec.v
theories/RectAdaptSpec.v
theories/RectAffineSpec.v
theories/FloatModel.v
theories/Float.v
theories/PropertiesFloat.v
theories/FloatInterpModel.v
theories/FloatErr.v
theories/FloatInterp.v
theories/PropertiesFloat2.v
theories/FloatRpcModel.v
theories/FloatEval.v
theories/FloatRpcSpec.v
theories/FloatRpc.v
theories/FloatRpcOut.v
theories/PropertiesFloatRpc.v
theories/PropertiesFloatCross.v
theories/FloatWalkModel.v
theories/FloatWalkSpec.v
theories/FloatWalk.v
theories/RectProofs.v
theories/RectStrip.v
theories/RectCpp.v
theories/RectGrid.v
theories/RectBox.v
theories/RectAdapt.v
theories/RectDisp.v
theories/RectAdapt2.v
theories/RectAffine.v
theories/PropertiesRect.v
theories/PropertiesRect2.v
theories/PropertiesRectGrid.v
theories/PropertiesRect3.v
theories/ImageModel.v
theories/DtmReadModel.v
theories/AliasModel.v
theories/ImageSpec.v
theories/DtmReadSpec.v
theories/DtmReadProofs.v
theories/PropertiesDtmRead.v
theories/PropertiesAlias.v
theories/StripMemModel.v
theories/StripMem.v
theories/PropertiesStripMem.v
theories/PyStrModel.v
theories/ReadersModel.v
theories/LoadModel.v
theories/OptimModel.v
theories/VecMemModel.v
theories/VecMem.v
theories/PropertiesVecMem.v
theories/PropertiesRect4.v
theories/RectHoleSpec.v
theories/RectHole.v
theories/PropertiesRect5.v
theories/GridModel.v
theories/GridSpec.v
theories/GridConvSpec.v
theories/GridPred.v
theories/GridProofs.v
theories/GridNewton.v
theories/PropertiesGrid.v
theories/GridConv.v
theories/FloatRefine.v
theories/PropertiesFloatWalk.v
theories/PropertiesFloatPoint.v
theories/FloatLineSpec.v
theories/FloatLine.v
theories/FloatEntry.v
theories/FloatOnLine.v
theories/PropertiesFloatLine.v
theories/FloatMissSpec.v
theories/FloatMiss.v
theories/PropertiesFloatMiss.v
theories/FloatGeoModel.v
theories/FloatGeoSpec.v
theories/FloatGeo.v
theories/PropertiesFloatGeo.v
theories/FloatTerModel.v
theories/FloatTerSpec.v
theories/FloatTer.v
theories/PropertiesFloatTer.v
theories/FloatCppModel.v
theories/FloatCppSpec.v
theories/FloatCpp.v
theories/PropertiesFloatCpp.v
theories/FloatNewtonModel.v
theories/FloatNewtonSpec.v
theories/FloatNewton.v
theories/PropertiesFloatNewton.v
theories/FloatConvModel.v
theories/FloatConvSpec.v
theories/FloatConv.v
theories/FloatSolve.v
theories/FloatConvRun.v
theories/PropertiesFloatConv.v
theories/FloatLosModel.v
theories/FloatLosSpec.v
theories/FloatLos.v
theories/PropertiesFloatLos.v
theories/FloatDirectModel.v
theories/FloatDirectSpec.v
theories/PropertiesFloatDirect.v
theories/FloatImageModel.v
theories/FloatImageSpec.v
theories/PropertiesFloatImage.v
theories/FloatGeoidModel.v
theories/FloatGeoidSpec.v
theories/PropertiesFloatGeoid.v
theories/FloatEllipsoidModel.v
theories/FloatEllipsoidSpec.v
theories/PropertiesFloatEllipsoid.v
theories/PropertiesGridConv.v
theories/PropertiesGrid2.v
theories/PropertiesGrid3.v
theories/PropertiesGrid4.v
theories/PropertiesImage.v
theories/ReadersSpec.v
theories/ReadersProofs.v
theories/PropertiesReaders.v
theories/PropertiesReaders2.v
theories/WritersModel.v
theories/WritersSpec.v
theories/WritersProofs.v
theories/PropertiesWriters.v
theories/WriteCrashModel.v
theories/WriteCrash.v
theories/PropertiesCrash.v
theories/JsonSpec.v
theories/JsonProofs.v
theories/PropertiesJson.v
theories/FactoryModel.v
theories/PropertiesFactory.v
theories/GridReadModel.v
theories/PropertiesGridRead.v
theories/LoadSpec.v
theories/LoadProofs.v
theories/PropertiesLoad.v
theories/OptimProofs.v
theories/PropertiesOptim.v
theories/PropertiesOptim2.v
theories/PropertiesRpcDtm2.v
theories/Assumptions.v
