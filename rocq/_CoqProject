-Q theories Verif

theories/Base.v
theories/ExclusionSetModel.v
theories/NLists.v
theories/ExclusionSetProofs.v
theories/ExclusionSetGrow.v
theories/ExclusionSetSub.v
theories/ExclusionSetMore.v
theories/ExclusionSetFacts.v
theories/PropsExclusionSet.v
theories/BitfieldModel.v
theories/BitfieldProofs.v
theories/TrainModel.v
theories/TrainProofs.v
theories/PropsBitfield.v
theories/GraphModel.v
theories/GraphProofs.v
theories/PropsGraph.v
theories/GraphBfs.v
theories/OrderingModel.v
theories/OrderingProofs.v
theories/OrderingSpec.v
theories/OrderingBuild.v
theories/PropsOrdering.v
theories/AlgoModel.v
theories/AlgoProofs.v
theories/PropsAlgo.v
theories/TextModel.v
theories/TextProofs.v
theories/PropsText.v
theories/Par.v
theories/RouteModel.v
theories/RouteProofs.v
theories/RouteSpec.v
theories/RouteIter.v
theories/RouteIndex.v
theories/RouteGen.v
theories/PropsRoute.v
theories/ExclModel.v
theories/ExclProofs.v
theories/ExclElems.v
theories/PropsExcl.v
theories/TransformModel.v
theories/TransformProofs.v
theories/PropsTransform.v
theories/PropsPathEnd.v
theories/KssModel.v
theories/KssDates.v
theories/KssDur.v
theories/KssSpec.v
theories/KssServices.v
theories/KssTrains.v
theories/PropsKss.v
theories/PhysModel.v
theories/PhysSpec.v
theories/PhysProofs.v
theories/PropsPhys.v
theories/RunModel.v
theories/RunProofs.v
theories/RunSpec.v
theories/RunTimes.v
theories/RunIntervals.v
theories/RunTrain.v
theories/RunLimits.v
theories/PropsRun.v
theories/PropsBraking.v
theories/DpdModel.v
theories/DpdSpec.v
theories/DpdProofs.v
theories/PropsDpd.v
theories/PropsDpdTotal.v
theories/LineModel.v
theories/LineProofs.v
theories/PropsLine.v
theories/UnitModel.v
theories/PropsUnit.v
theories/InfraModel.v
theories/InfraOrder.v
theories/InfraSpec.v
theories/InfraHeap.v
theories/InfraScan.v
theories/InfraLay.v
theories/InfraLaid.v
theories/InfraPlace.v
theories/InfraAdd.v
theories/InfraInv.v
theories/InfraBorder.v
theories/InfraDrive.v
theories/InfraNet.v
theories/InfraSecSpec.v
theories/InfraSect.v
theories/PropsInfra.v
theories/StationModel.v
theories/StationSpec.v
theories/StationPath.v
theories/StationRoute.v
theories/StationProofs.v
theories/StationNet.v
theories/PropsStation.v
theories/StationWay.v
theories/StationDrawn.v
theories/PropsDrawn.v
theories/StationLength.v
theories/PropsLength.v
theories/TrainIterModel.v
theories/TrainIterProofs.v
theories/PropsTrainIter.v
theories/RouteWay.v
theories/WholeModel.v
theories/WholeSpec.v
theories/WholeProofs.v
theories/WholeWay.v
theories/WholeLoad.v
theories/PropsWhole.v
theories/StockModel.v
theories/StockSpec.v
theories/StockText.v
theories/StockProofs.v
theories/PropsStock.v
theories/LayoutModel.v
theories/LayoutSpec.v
theories/LayoutProofs.v
theories/LayoutStations.v
theories/PropsLayout.v
theories/GeoModel.v
theories/GeoSpec.v
theories/GeoProofs.v
theories/GeoPlaces.v
theories/PropsGeo.v
theories/OsmModel.v
theories/OsmSpec.v
theories/OsmNodes.v
theories/OsmWays.v
theories/OsmProofs.v
theories/OsmCurves.v
theories/PropsOsm.v
theories/StartModel.v
theories/StartSpec.v
theories/StartProofs.v
theories/StartWhole.v
theories/StartRedraw.v
theories/PropsStart.v
theories/ServeModel.v
theories/ServeSpec.v
theories/ServeProofs.v
theories/PropsServe.v
theories/OgServeModel.v
theories/OgServeSpec.v
theories/OgServeProofs.v
theories/OgServeMore.v
theories/PropsOgServe.v
theories/CoroModel.v
theories/CoroSpec.v
theories/CoroProofs.v
theories/PropsCoro.v
theories/StatModel.v
theories/StatSpec.v
theories/StatProofs.v
theories/PropsStat.v
theories/ExportModel.v
theories/ExportSpec.v
theories/ExportProofs.v
theories/PropsExport.v
theories/GenOsmModel.v
theories/GenOsmSpec.v
theories/GenOsmProofs.v
theories/PropsGenOsm.v
theories/GenFindModel.v
theories/GenFindSpec.v
theories/GenFindProofs.v
theories/GenFindProofs2.v
theories/PropsGenFind.v
theories/GenMapModel.v
theories/GenMapSpec.v
theories/GenMapProofs.v
theories/GenMapProofs2.v
theories/GenMapProofs3.v
theories/GenMapProofs4.v
theories/GenMapProofs5.v
theories/GenMapProofs6.v
theories/PropsGenMap.v
theories/SimModel.v
theories/SimSpec.v
theories/SimProofs.v
theories/SimProofs2.v
theories/PropsSim.v
theories/MiscModel.v
theories/MiscSpec.v
theories/PropsMisc.v
theories/PropsJourney.v
theories/ClientStoreModel.v
theories/ClientStoreSpec.v
theories/ClientStoreProofs.v
theories/PropsClientStore.v
theories/ClientViewModel.v
theories/ClientViewSpec.v
theories/PropsClientView.v
theories/ClientTabsModel.v
theories/ClientTabsSpec.v
theories/ClientTabsProofs.v
theories/PropsClientTabs.v
theories/RouterModel.v
theories/RouterSpec.v
theories/RouterProofs.v
theories/PropsRouter.v
theories/ClientStationModel.v
theories/ClientStationSpec.v
theories/PropsClientStation.v
theories/ClientMenuModel.v
theories/PropsClientMenu.v
theories/ClientSearchModel.v
theories/PropsClientSearch.v
theories/AnswerModel.v
theories/PropsAnswer.v
theories/IdIterModel.v
theories/PropsIdIter.v
theories/AnswerTypesModel.v
theories/PropsAnswerTypes.v
theories/WebModel.v
theories/WebSpec.v
theories/PropsWeb.v
theories/ErrStatsModel.v
theories/PropsErrStats.v
theories/ErrTextModel.v
theories/PropsErrText.v
