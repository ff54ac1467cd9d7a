-Q theories Verif
theories/Res.v
theories/Fld.v
theories/StructUtilsModel.v
theories/StructUtilsSpec.v
theories/StructUtilsProofs.v
theories/PropStructUtils.v
theories/PointcloudsModel.v
theories/PointcloudsSpec.v
theories/PointcloudsCtorSpec.v
theories/PointcloudsIndexSpec.v
theories/PointcloudsSetSpec.v
theories/PointcloudsHist.v
theories/PointcloudsProofs.v
theories/PointcloudsOps.v
theories/PointcloudsCtor.v
theories/PointcloudsClone.v
theories/PointcloudsAppend.v
theories/PointcloudsIndex.v
theories/PointcloudsSet.v
theories/PointcloudsCloneAppend.v
theories/PointcloudsHistProofs.v
theories/PointcloudsPropProofs.v
theories/PointcloudsWitness.v
theories/PointcloudsWitnessProofs.v
theories/PropPointclouds.v
theories/MatSpec.v
theories/TensorModel.v
theories/ShapeSpec.v
theories/TensorProofs.v
theories/LinAlgModel.v
theories/ProjModel.v
theories/GeomModel.v
theories/Se3Model.v
theories/DataUtilsModel.v
theories/GeomSpec.v
theories/MatProofs.v
theories/ProjProofs.v
theories/ProjPropProofs.v
theories/GeomProofs.v
theories/GeomPtsProofs.v
theories/QuatProofs.v
theories/ExpProofs.v
theories/Se3Proofs.v
theories/AxisAngleProofs.v
theories/GTOdomModel.v
theories/GeomMiscProofs.v
theories/GeomRefute.v
theories/PropGeometry.v
theories/RgbdModel.v
theories/RgbdSpec.v
theories/RgbdProofs.v
theories/RgbdOps.v
theories/RgbdCloud.v
theories/RgbdPropProofs.v
theories/RgbdWitness.v
theories/RgbdWitnessProofs.v
theories/PropRgbd.v
theories/FusionModel.v
theories/FusionSpec.v
theories/FusionMap.v
theories/FusionActive.v
theories/FusionSimilar.v
theories/FusionBest.v
theories/FusionMerge.v
theories/FusionFuse.v
theories/FusionCorr.v
theories/FusionFloat.v
theories/FusionPropProofs.v
theories/FusionPropProofs2.v
theories/FusionWitness.v
theories/PropFusion.v
theories/SolveModel.v
theories/IcpModel.v
theories/IcpSpec.v
theories/SolveProofs.v
theories/IcpSolveProofs.v
theories/IcpGnProofs.v
theories/IcpLoopProofs.v
theories/IcpPropProofs.v
theories/IcpRunProofs.v
theories/IcpRunProofs2.v
theories/IcpArgProofs.v
theories/OdomSpec.v
theories/DownProofs.v
theories/ProvideProofs.v
theories/OdomPropProofs.v
theories/PropOdometry.v
theories/SlamModel.v
theories/SlamSpec.v
theories/SlamProofs.v
theories/SlamPropProofs.v
theories/KeepProofs.v
theories/PropSlam.v
theories/TextModel.v
theories/TumModel.v
theories/DatasetModel.v
theories/ImageModel.v
theories/DataSpec.v
theories/TextProofs.v
theories/AssocProofs.v
theories/FileProofs.v
theories/FindAssocProofs.v
theories/DatasetSpec.v
theories/ImageSpec.v
theories/WindowProofs.v
theories/PoseFileProofs.v
theories/SceneProofs.v
theories/ImageProofs.v
theories/DataPropProofs.v
theories/PropData.v
theories/ConfigModel.v
theories/ConfigSpec.v
theories/ConfigHeap.v
theories/ConfigCopy.v
theories/ConfigTree.v
theories/ConfigMerge.v
theories/ConfigMergeHeap.v
theories/ConfigPaths.v
theories/ConfigFreeze.v
theories/ConfigList.v
theories/ConfigDump.v
theories/ConfigProps.v
theories/ConfigProps2.v
theories/ConfigProps3.v
theories/ConfigProps4.v
theories/ConfigProps5.v
theories/PropConfig.v
theories/ItemModel.v
theories/ItemSpec.v
theories/ItemProofs.v
theories/ItemPropProofs.v
theories/ItemWitness.v
theories/PropItem.v
theories/DirModel.v
theories/DirSpec.v
theories/DirProofs.v
theories/DirPropProofs.v
theories/PropDir.v
theories/IcpFixSpec.v
theories/IcpFixProofs.v
theories/IcpFixPropProofs.v
theories/PropFix.v
theories/StillSpec.v
theories/StillProofs.v
theories/StillMapProofs.v
theories/StillSlamProofs.v
theories/StillFuseProofs.v
theories/StillPropProofs.v
theories/PropStill.v
theories/BatchSpec.v
theories/BatchProofs.v
theories/BatchSlamProofs.v
theories/BatchPropProofs.v
theories/BatchWitness.v
theories/PropBatch.v
theories/HullSpec.v
theories/HullProofs.v
theories/HullPropProofs.v
theories/HullWitness.v
theories/PropHull.v
theories/ChanSpec.v
theories/ChanProofs.v
theories/PropChan.v
theories/ColourSpec.v
theories/ColourProofs.v
theories/PropColour.v
theories/GradSpec.v
theories/GradProofs.v
theories/GradMapProofs.v
theories/TableProofs.v
theories/GradFuseProofs.v
theories/UniqueProofs.v
theories/GradRunProofs.v
theories/GradStillProofs.v
theories/GradWitness.v
theories/GradJumpProofs.v
theories/PropGrad.v
theories/SimSpec.v
theories/SimProofs.v
theories/PropSim.v
theories/RotSpec.v
theories/RotProofs.v
theories/RotShiftProofs.v
theories/RotSlamProofs.v
theories/PropRot.v
theories/StoreModel.v
theories/StoreSpec.v
theories/StoreProofs.v
theories/StoreProofs2.v
theories/StoreProofs3.v
theories/StoreProofs4.v
theories/StoreProofs5.v
theories/StorePropProofs.v
theories/StoreProofs6.v
theories/StoreProofs7.v
theories/StorePropProofs2.v
theories/StorePropProofs3.v
theories/StoreCases.v
theories/PropStore.v
theories/RgbdStoreModel.v
theories/RgbdStoreSpec.v
theories/RgbdStoreProofs.v
theories/RgbdStoreProofs2.v
theories/RgbdStoreProofs3.v
theories/RgbdStoreProofs4.v
theories/RgbdStoreProofs5.v
theories/RgbdStoreProofs6.v
theories/RgbdStorePropProofs.v
theories/RgbdStorePropProofs2.v
theories/RgbdStorePropProofs3.v
theories/RgbdStoreCases.v
theories/PropRgbdStore.v
theories/TapeModel.v
theories/TapeSpec.v
theories/TapeForms.v
theories/TapeProofs.v
theories/TapeProofs2.v
theories/TapeProofs3.v
theories/TapeProofs4.v
theories/TapeProofs5.v
theories/TapeProofs6.v
theories/TapeProofs7.v
theories/PropTape.v
theories/VertexTape.v
theories/VertexForms.v
theories/VertexProofs.v
theories/PropVertex.v
theories/ExportModel.v
theories/ExportSpec.v
theories/ExportProofs.v
theories/ExportPropProofs.v
theories/PictureSpec.v
theories/PictureProofs.v
theories/PictureProofs2.v
theories/PropExport.v
theories/PrintModel.v
theories/PrintSpec.v
theories/PrintProofs.v
theories/PrintProofs2.v
theories/PrintProofs3.v
theories/PropPrint.v
theories/NormalTape.v
theories/NormalForms.v
theories/NormalProofs.v
theories/NormalProofs2.v
theories/NormalProofs3.v
theories/NormalProofs4.v
theories/NormalProofs5.v
theories/PropNormal.v
