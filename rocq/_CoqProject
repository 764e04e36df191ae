-Q theories Verif
theories/Base.v
theories/EnvModel.v
theories/AssocLemmas.v
theories/EnvSpec.v
theories/EnvLib.v
theories/EnvGood.v
theories/EnvAttach.v
theories/EnvLinks.v
theories/EnvLinks2.v
theories/EnvDetach.v
theories/EnvDeep.v
theories/EnvHandlers.v
theories/EnvWorld.v
theories/EnvStep.v
theories/EnvStep2.v
theories/EnvStep3.v
theories/EnvDemo.v
theories/EnvProps.v
theories/EnvProps2.v
theories/EnvArity.v
theories/EnvProps3.v
theories/EnvEffects.v
theories/EventModel.v
theories/EventApply.v
theories/QueueProps.v
theories/SyncLib.v
theories/SyncProps.v
theories/Bresenham.v
theories/GridModel.v
theories/GridProps.v
theories/RectProps.v
theories/Transform.v
theories/EnvRoot.v
theories/Ids.v
theories/Metadata.v
theories/Persist.v
theories/PersistLib.v
theories/PersistProps.v
theories/ListGrid.v
theories/ListGridProps.v
theories/MlsModel.v
theories/MlsProps.v
theories/MlsUpdate.v
theories/MlsPatch.v
theories/Trav.v
theories/TravProb.v
theories/Growing.v
theories/Passages.v
theories/Lut.v
theories/Grassfire.v
theories/Grassfire2.v
theories/Voxel.v
theories/Scan.v
theories/Cloud.v
theories/Elevation.v
theories/Access.v
theories/MlsProj.v
theories/Uncertain.v
theories/Gauss.v
theories/Icp.v
theories/IcpSearch.v
theories/MlsSum.v
theories/Binary.v
theories/Context.v
theories/Raster.v
theories/RasterProps.v
theories/Frames.v
theories/Mesh.v
theories/Slope.v
theories/Clone.v
theories/Illum.v
theories/Light.v
theories/Ply.v
theories/Distance.v
theories/Polygons.v
theories/Drawing.v
theories/CloudText.v
theories/Stability.v
theories/Cluster.v
theories/ScanWindow.v
theories/ScanPlace.v
theories/SimpleTrav.v
theories/OperatorParams.v
theories/MlsMatch.v
theories/RectPair.v
theories/MapHeader.v
theories/Interp.v
theories/RectStats.v
theories/TravCache.v
theories/FreeSpace.v
theories/OldMaps.v
theories/EventFilters.v
theories/QueueThreads.v
theories/SharedItems.v
theories/Weights.v
theories/Imports.v
theories/CloudFiles.v
theories/Assumptions.v
