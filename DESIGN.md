# Formal model of slam-envire: design

Target: `rock-slam/slam-envire` at the pinned commit in `/repo` (read as text, never built or changed).
Tool: Rocq/Coq 8.16.1. Libraries: std++ (most files), mathcomp (`Uncertain.v`, `Gauss.v`), Flocq and the real numbers of the
standard library (`TravProb.v`, `Scan.v`, `MlsPatch.v`). Sources in `rocq/theories`, build order in `rocq/_CoqProject`.

## 1. Approach

The code is modelled function by function as total Gallina functions. Every definition cites the file and lines it models and
says where it simplifies. A C++ function that can misbehave returns an outcome (`Base.v`): `Ok` (normal return), `Throw`
(exception, with the state at the throw), `Bad` (undefined behaviour, failed `assert` or ill-typed cast) or `NoFuel` (only for
loops whose termination is not obvious; the theorems show when it does not occur). So undefined behaviour is visible in the
model: theorems prove its absence under stated conditions, or exhibit it.

Where a claim of the documentation, or one that a user would expect, is false of the code, this is recorded in three places:
* a theorem `..._refuted` proves that a concrete history or input violates the claim;
* the property in `properties.jsonl` states the claim with the provisos under which it is true, and says that it is false
  without them; the remaining theorems of the property prove the claim under exactly these provisos;
* section 5 lists the finding.

Beside the theorems, `Example ..._nonvacuous` shows that a non-trivial concrete case meets the hypotheses.

What comes from outside of the modelled code (allocators, the `serialize` functions of item classes, `std::sort` on equal
elements, kd-trees, eigenvalue solvers, random numbers, the text form of floating point numbers, out-of-range conversions of
floating point numbers) is an argument of the model, and the theorems hold for every value of it that meets the stated
conditions. Nothing of this is an axiom: the arguments are quantified in the statements.

### Model of the environment core
* Items are heap cells addressed by `positive`. The address of a new item is an argument of the operation that creates it, so
  every order of addresses, hence every iteration order of the pointer keyed maps of the code, is covered.
* `std::map`/`std::multimap` are sorted association lists with the C++ insertion position.
* The intrusive reference count is modelled, including the temporary smart pointers inside events, so destroying an item is an
  observable step, and access to a destroyed item is `Bad`.
* Events are delivered to handlers by appending to a trace.
* A world has any number of items and environments. User operations are an inductive type (`op` in `EnvModel.v`). A world is
  `reachable` if some list of operations that respect the API contract (`legal` in `EnvSpec.v`) leads to it.
* The main invariant `WInv` holds in every reachable world (`EnvStep3.reachable_inv`). Its parts are the properties C01, C02,
  C08, C09, C18, C29, C30, ...; for every operation, the relation between the events sent and the state before and after is
  proved with it (`EnvGood.v`), which gives C15 to C19.

## 2. Files of the model

What each file models and its simplifications (from the comment at its head; the definitions inside carry the line numbers).

* `Base.v`: Shared basic definitions: outcomes of C++ calls and association lists that stand for [std::map] / [std::multimap].
* `EnvModel.v`: Model of the environment core: src/core/Environment.{hpp,cpp}, EnvironmentItem.hpp, EventSource.cpp and the environment related parts of FrameNode.cpp, Layer.cpp, Operator.cpp. Simplifications that hold for the whole file: - the content of an item (transform, grid data, ...) is one opaque integer [it_val]; - the C++ class of an item is one of the four kinds of [kind]; - event handlers only record what they receive (they do not call back into the environment and keep no smart pointers), [EventFilter] is not modelled; - threads are not modelled.
* `AssocLemmas.v`: Lemmas about the association lists of Base.v.
* `EnvSpec.v`: Specification vocabulary for the environment core, independent of how the operations work: well-formed worlds, the API contract, and the mirror a passive listener builds from events.
* `EnvLib.v`: Basic reasoning tools for the environment model: weakest preconditions, events, mirrors.
* `EnvGood.v`: The relation between the states before and after a member function, and the attach primitive.
* `EnvAttach.v`: attachItem
* `EnvLinks.v`: Link functions of the environment: effect on tables, well-formedness, events.
* `EnvLinks2.v`: Operator links and map placement.
* `EnvDetach.v`: detachItem: removal of the links of an item, and of the item itself.
* `EnvDeep.v`: Deep detach: exactly the subtree goes.
* `EnvHandlers.v`: Registration and removal of event handlers.
* `EnvWorld.v`: From one environment to the whole world: every legal operation keeps every environment well-formed.
* `EnvStep.v`: Every legal operation keeps every environment well-formed, informs the handlers, keeps ids of attached items and keeps items alive that somebody holds; and it is free of undefined behaviour if [valid].
* `EnvStep2.v`: The remaining operations: links, attaching, detaching, environments, operators; and the main theorem.
* `EnvStep3.v`: Attaching, detaching, creating and destroying environments; the main theorem about single steps.
* `EnvDemo.v`: A decision procedure for the contract, used to show that concrete histories are reachable.
* `EnvProps.v`: Properties of the environment core: identity, ownership, links, life time. Vocabulary: [reachable], [legal], [valid], [in_env], [below], ... in EnvSpec.v. [w_heap w !! p = Some it]: there is an item at address [p]; [it_env it = Some e]: it is attached to environment [e]; [w_envs w !! e = Some x]: environment [e] exists and has content [x].
* `EnvProps2.v`: Properties of the environment core, second part: detaching, links, life time.
* `EnvArity.v`: The arity of operators (C12).
* `EnvProps3.v`: Properties of the event streams.
* `EnvEffects.v`: Exact effects of the single operations of the environment: what they change, and that they change nothing else.
* `EventModel.v`: Model of the event queue and of applying events to an environment: src/core/Event.cpp, src/core/EventHandler.cpp.
* `EventApply.v`: What applying one event does to an environment.
* `QueueProps.v`: C20 (the event queue keeps a minimal set), C22 (applying events keeps a replica consistent), C23 (dispatching).
* `SyncLib.v`: The compressed queue carries a replica from the state before the events to the state after them.
* `SyncProps.v`: C21: queued synchronisation reproduces the source.
* `Bresenham.v`: The line iterator of src/tools/BresenhamLine.{hpp,cpp} (C33).
* `GridModel.v`: The geometry of grids: src/maps/GridBase.{hpp,cpp}. Simplification: [double] is modelled by the rational numbers (exact arithmetic, no rounding, no infinities). The conversion of a [double] to [size_t] is kept as an oracle [conv] for values outside the range of [size_t], because C++ leaves it undefined.
* `GridProps.v`: C31, C32: cells and points.
* `RectProps.v`: C34: iterating over an oriented rectangle.
* `Transform.v`: Relative transforms between frame nodes (C24): Environment.cpp:744-790, FrameNode.cpp:57-93, Core.hpp:140-178. Simplifications: transforms are affine maps with rational coefficients (exact arithmetic instead of [double]); the variant with uncertainty is not modelled. The content of an item is an integer in [EnvModel]; [tf] says which transform it stands for, and all theorems hold for every [tf].
* `EnvRoot.v`: The root node of an environment never changes and has the id "/0" (Environment.cpp:139-147).
* `Ids.v`: Names: the parts of a unique id (C53), file names of maps (C26), class lookup (C27) and the number at the end of an id. Models parts of src/core/Environment.cpp, Layer.cpp and SerializationFactory.cpp.
* `Metadata.v`: Metadata of layers (C35): src/core/Layer.hpp:119-196, Layer.cpp:21-62 and 145-167, Holder.hpp. A [Holder<T>] is a heap cell with the type [T] (a number) and the value (an integer, simplification).
* `Persist.v`: Model of saving and loading an environment: FileSerialization in src/core/Serialization.cpp:347-648, EnvironmentItem::serialize/unserialize in Environment.cpp:108-123. Simplifications: - the YAML library is not modelled: a document is the tree of scalars that is handed to it, and reading gives the same tree back (scalars with NUL characters are excluded by this); - the files of the scene directory are a finite map from names to contents; two streams to the same file leave the content of the later one; - the [serialize] functions of the item classes and their factories are parameters ([codec]); - the document has the list of objects first and the list of links second, as [writeToFile] produces it.
* `PersistLib.v`: Lemmas for Persist.v: the two phases of loading.
* `PersistProps.v`: C25, C28: saving and loading.
* `ListGrid.v`: Model of ListGrid, src/tools/ListGrid.hpp: a grid of singly linked lists with back pointers, the nodes in a pool. Simplifications: [C] is any type of values; the pool is a finite map from addresses to nodes and an arbitrary allocator that returns unused addresses; a cell index outside of the array is undefined behaviour (boost::multi_array asserts it in debug builds only).
* `ListGridProps.v`: C46: every cell of a ListGrid behaves like a list.
* `MlsModel.v`: Model of MLSGrid, src/maps/MLSGrid.cpp and MLSGrid.hpp. The cells are lists (ListGridProps.v shows to what extent ListGrid provides that); an iterator is a cell and the position in its list. The type of the patches and the merge of two patches are parameters here; MlsPatch.v models them.
* `MlsProps.v`: C47, C48 and C50: the counters of MLSGrid, its file format and updateCell.
* `MlsUpdate.v`: C50: updateCell keeps the information of the patches. Every patch gets a set of labels: the measurements it stands for. A merge that succeeds adds the labels of the other patch, and nothing else changes labels.
* `MlsPatch.v`: Model of SurfacePatch::merge, src/maps/MLSPatch.hpp, and C49. Numbers are real numbers: the rounding of float and double is not modelled, NaN and infinities do not occur. The colours are not modelled (MLSPatch.hpp:387-388), nor the plane fit of the update model SLOPE (90-102, 245-264).
* `Trav.v`: Model of TraversabilityGrid's class registry, statistics and queries (src/maps/TraversabilityGrid.hpp/.cpp), and of FoldOperator (src/operators/Fold.hpp). C36, C37, C43, C56, C57. Drivabilities and distances are rational numbers; the rounding of double is not modelled here.
* `TravProb.v`: C38: probabilities in a traversability grid are stored in a byte (src/maps/TraversabilityGrid.cpp:233-247). The arithmetic is that of IEEE double precision, as formalised by Flocq.
* `Growing.v`: Models of growObstacles (src/operators/SimpleTraversability.cpp:378-425), growObjects (src/operators/ObjectGrowing.hpp:31-91) and growTerrains (src/operators/TraversabilityGrowClasses.cpp:17-89). C41 and C42. Scales and radii are rational numbers (the rounding of double is not modelled); cells are pairs (x, y).
* `Passages.v`: Model of SimpleTraversability::closeNarrowPassages and of its look-up table RadialLUT (src/operators/SimpleTraversability.cpp:287-376, 427-479). C44, C58. Scales and the width are rational numbers (the rounding of double is not modelled); cells are pairs (x, y). The debug output is left out.
* `Lut.v`: Models of RadialLookUpTable (src/tools/RadialLookUpTable.cpp) and BoxLookUpTable (src/tools/BoxLookUpTable.cpp). C45, C59. Numbers are rational, the rounding of double is not modelled. Instead of distances the tables hold squared distances, which avoids the square root; the maximum of distances is the root of the maximum of their squares. Angles are not modelled: the table of angles has the same size and is read at the same index.
* `Grassfire.v`: Model of TraversabilityGrassfire (src/operators/TraversabilityGrassfire.cpp). C39, C40, C60, C61. Heights are rational numbers (the rounding of double is not modelled); a pointer to a patch is represented by the patch. The slope of the plane that is fitted to the neighbours of a cell comes from outside of the model. Debug output and the counters (slopeTooHigh etc.), which are only used by it, are left out.
* `Grassfire2.v`: The expansion of TraversabilityGrassfire (src/operators/TraversabilityGrassfire.cpp:14-34, 37-160, 167-298, 399-469). C39, C60, C61.
* `Voxel.v`: Model of VoxelTraversal (src/tools/VoxelTraversal.hpp). C51, C62. Coordinates are rational numbers (the rounding of double is not modelled). Lengths along the ray are divided by the length of the direction: only comparisons between them are made, so that the square root is not needed. NaN is [None].
* `Scan.v`: Model of the text format of laser scans (src/maps/LaserScan.cpp:116-230). C54. A stream is modelled by the characters that are left and its eofbit and failbit. How an iostream prints and reads floating point numbers comes from outside of the model (see [float_io]); how it reads and writes integers is modelled. The lines "orientation" and "origin", which do not change the scan but the transformation that importScanFile uses, are left out (:125-135).
* `Cloud.v`: Point clouds: cutting and merging (C70, C71), bounding boxes (C72, C73). src/operators/CutPointcloud.cpp, src/operators/MergePointcloud.cpp, src/maps/Pointcloud.hpp, src/maps/Pointcloud.cpp, src/Core.hpp:116-144. Simplifications: coordinates are rational numbers (exact arithmetic instead of [double]). The transform between the frames is a parameter (what [relativeTransform] returns is the subject of C24). [Eigen::Quaterniond(trans.linear()) * n] is modelled by the linear part of the transform, which is the same for a rotation. A cloud holds the four kinds of vertex data that the operators know; other metadata is the subject of C35.
* `Elevation.v`: Elevation grids and simple grid operators (C74 - C80): src/maps/ElevationGrid.{hpp,cpp}, src/maps/Grid.hpp:175-250, src/operators/Projection.cpp:54-89, src/operators/MLSToGrid.cpp:34-64, src/operators/ClassGridProjection.hpp:32-58. Simplifications: [double] is modelled by the rational numbers. A band of a grid is a function from cells to values; an access outside of the array is undefined behaviour.
* `Access.v`: Access to elevations, collections of surface grids and map segments (C81 - C86): src/tools/GridAccess.cpp, src/maps/MLSGrid.cpp:418-470, src/maps/MLSPatch.hpp:100-128, src/maps/MLSMap.cpp, src/maps/MapSegment.cpp. Simplifications: [double] and [float] are modelled by the rational numbers; a frame is given by the affine map between it and another frame (see Transform.v for how it results from the frame tree).
* `MlsProj.v`: Operators that fill surface grids or read them (C87 - C90): src/operators/MLSProjection.cpp, src/operators/MergeMLS.cpp, src/maps/MLSGrid.cpp:523-624, src/operators/GridFloatToMLS.cpp, src/operators/MLSToPointCloud.cpp. Simplifications: [double] and [float] are modelled by the rational numbers; a frame is given by the affine map between it and another frame. The type of the patches and the merge of two patches are parameters, as in MlsModel.v; the update model SLOPE is not modelled.
* `Uncertain.v`: Transforms with uncertainty (C91, C92): core/Transform.hpp, core/Transform.cpp, and core/Environment.cpp:744-797 for [TransformWithUncertainty]. Simplifications: the scalars are the elements of any ordered field (no rounding). The conversions of a rotation matrix into a quaternion and of a quaternion into a rotation vector (Eigen, with square roots and trigonometric functions) are arguments of the model; the theorems hold for all of them.
* `Gauss.v`: Sample statistics, Gaussian mixtures, k-means and expectation maximization (C93 - C95): tools/GaussianMixture.hpp, tools/ExpectationMaximization.hpp. Simplifications: the scalars are the elements of any ordered field (no rounding), so that the order of a summation does not matter and sums over the samples stand for the loops. A division by zero (not a number in the code) is the distinct outcome [None] or [NaN]. The density of a Gaussian, and the search of the kd-tree for a nearest point, are arguments of the model.
* `Icp.v`: Aligning point clouds (C96, C97, C99, C101): icp/icp.hpp, icp/icp.cpp, icp/ransac.hpp. Simplifications: [double] is modelled by the rational numbers (exact arithmetic); infinity is [None]. The kd-tree, the order in which [std::sort] leaves equal elements, the eigenvector solver and the random numbers are arguments of the model; the theorems say what they need of them.
* `IcpSearch.v`: (C98, C100, C101) Parts of the point cloud registration that do not concern transforms: reading a cloud with reduced density (icp.hpp), the search for the best overlap (icp.hpp), and the random sample consensus (ransac.hpp). Numbers are rational: rounding is not modelled.
* `MlsSum.v`: Collecting measurements in one surface patch with the update models SUM and SLOPE (C102): src/maps/MLSPatch.hpp. Numbers are real numbers, as in MlsPatch.v. The class [numeric::PlaneFitting] is not part of the code base: its members are the weighted sums of the coordinates of the measurements and of their products, [update] adds them; its solver is an argument of the model. Colours are not modelled.
* `Binary.v`: Transport of events as binary messages (C103) and context updates (C104): BinarySerialization and SynchronizationEventHandler in src/core/Serialization.cpp:651-925. Simplifications: the YAML library is an argument of the model (a function that writes a sequence of mappings and one that reads it); the [serialize] functions of the item classes and their factories are arguments ([codec], Persist.v); the leaked streams of a name that is opened twice and the null entries that a failed lookup of a stream leaves behind (661) are not modelled; the order in which the streams are stored in a message is that of [map_to_list] instead of that of the names.
* `Context.v`: Context updates (C104): SynchronizationEventHandler::process with useContextUpdates, src/core/Serialization.cpp:851-888 and 915-919. An event about a map is followed by events about all frames above it, so that a receiver that missed everything before can place the map.
* `Raster.v`: Bands of a grid and raster files (C105-C108): src/maps/Grid.hpp, GridBase.cpp:497-560, Grids.hpp:72-98. Simplifications: all bands of a grid have one cell type, whose values are a parameter; other metadata of the layer is left out (C35); GDAL is external: a raster file is its size, its geotransform and its bands with their nodata values, [RasterIO] copies line by line, files with an empty raster cannot be created. Numbers are rational. In a file each band has its own nodata value (the GTiff driver of GDAL keeps one for all bands of a file).
* `RasterProps.v`: Theorems about bands and raster files (C105-C107); the model is Raster.v.
* `Frames.v`: Images copied to bands (C108): src/maps/Grids.hpp:77-98 and 101-113, Grids.cpp:34-48, Grid.hpp:476-484. An image of the camera is the list of its bytes; a distance image is its width, its height and its cells line by line; the model of bands is Raster.v.
* `Mesh.v`: Model of the meshing of laser scans (src/operators/ScanMeshing.cpp:112-307), of LaserScan::addScanLine (src/maps/LaserScan.cpp:43-68) and of the normals of a mesh (src/maps/TriMesh.cpp:28-66). C109, C110, C111. The arithmetic on floating point numbers comes from outside of the model (Section variables): which readings pass the filters of range and edge angle (:142-158), where a reading lies (:160-185), whether two points are closer than maxEdgeLength (:259-263), whether the angle psi of a column is on the other half of the sphere (:274), the colour of a remission (:199-204), the variance of a reading (:191-192), the normal of three points. The markers (:206-228, :297-300) are only printed and are left out.
* `Slope.v`: Model of the operator that computes slopes and steps of a surface map (src/operators/MLSSlope.cpp, MLSSlope.hpp). C112, C113. Heights are exact rational numbers with infinities; the plane fit (:162, :192, :200-202) comes from outside of the model, as a function of the points given to it. The scales of the grids, which are only compared (:78) and scale the points, are left out.
* `Clone.v`: Cloning a map into an environment (C114): [CartesianMap::cloneTo], Layer.cpp:194-227, on top of the model of the environment core.
* `Illum.v`: Model of GridIllumination (src/operators/GridIllumination.cpp). C115: the cells between a cell and the light. C116: the light. Positions in the plane are rational numbers, heights and the light are real numbers (no rounding; heights that are infinite or NaN are not modelled). Lengths along the way to the light are divided by the distance to the light where they are only compared with each other, as in Voxel.v; NaN is [None] there.
* `Light.v`: Model of the light of GridIllumination (src/operators/GridIllumination.cpp). C116. The cells whose heights are looked at are those of Illum.v. Heights and the light are real numbers without rounding; what [double] has beyond real numbers is kept, because quotients by zero occur. Heights that are infinite or NaN are not modelled.
* `Ply.v`: Model of PLY files of point clouds and meshes (src/tools/PlyFile.cpp, and its use in src/maps/Pointcloud.cpp and src/maps/TriMesh.cpp). C117. Numbers are IEEE numbers as formalised by Flocq; all NaN are one. The header is modelled by its elements and properties, not by its text, and the body by its bytes. The parser of the ply library is not part of the code: it is taken to do what the format says, calling the callbacks in the order of the file, and to report an error if the file ends early. The byte order is little endian (the other one is the same up to the order of bytes). Of the types of properties those that the code writes are modelled (uchar, int, float, double).
* `Distance.v`: Point clouds from distance images, and the thinning of point clouds. C118, C119. src/operators/DistanceGridToPointcloud.cpp, src/operators/SimplifyPointcloud.cpp Simplifications: as in Cloud.v, coordinates are rational numbers and the transform between the frames is a parameter (the identity where the code skips it). The functions of the library CGAL are parameters with what its manual says about them as hypotheses.
* `Polygons.v`: Sets of polygons: intersection and distance queries. C120. src/maps/PolygonMap.cpp The library Box2D is a parameter: bounding boxes, the broad phase (a tree of enlarged bounding boxes that is searched in an order of its own), the distance of shapes and the test of points, with what is used of them as hypotheses. Distances are rational numbers. Polygons are named by numbers and live as long as the sets that contain them; the numbers of the tree's nodes are not modelled.
* `Drawing.v`: Drawings of environments. C121. src/tools/GraphViz.cpp Simplifications: a drawing is a list of nodes and five lists of edges instead of the text in the file. Of a node the name, the unique id in its label and its form are kept, not the class name, the user's label and the transform.
* `CloudText.v`: Point clouds as text. C122. src/maps/Pointcloud.cpp:73-111 The conversion of numbers is a parameter (the default precision of a stream is six digits, so reading what was written gives a rounded number); the rest of a stream, with its two error states, is modelled as in the C++ standard. Numbers are rational numbers.
* `Stability.v`: Assessment of scan matching: histograms of distances. C123. icp/stability.hpp, icp/stability.cpp Numbers are rational.
* `Cluster.v`: Assessment of scan matching: clusters of poses, and samples around a pose. C124, C125. icp/stability.hpp, icp/stability.cpp Numbers are real. Rotations, Eigen's extraction of the yaw angle from them and its Cholesky factor are parameters.
* `ScanWindow.v`: Collecting laser scans into point clouds. C126. icp/icpLocalization.hpp, icp/icpLocalization.cpp Simplifications: numbers are rational. A scan is the list of its points in the frame of the laser (base::samples::LaserScan::convertScanToPointCloud applies a transform to each of them); times are left out. The thresholds for norms and angles are parameters. The counter of scans does not overflow.
* `ScanPlace.v`: Matching a point cloud in an environment. C127. icp/icpLocalization.cpp:183-252, on top of the model of the environment core. Simplifications: what the matching computes is an argument, namely the number of pairs and the transform that ICP::align gives to the frame (icp.hpp:413-418, 148-162: exactly one setTransform); the other fields of the result are left out. The content of the cloud and of the frame is a number, as everywhere in the environment core.
* `SimpleTrav.v`: Classifying terrain from slopes and steps. C128, C129. src/operators/SimpleTraversability.cpp:114-285 Simplifications: numbers are rational, or infinite, or not a number; the rounding of double is not modelled. The input layers that are configured exist, and the output band is not the band of the probabilities. The log at 275-282 is left out; it only reads classes.
* `OperatorParams.v`: The parameters of operators in files. C130. The [serialize] and [unserialize] functions of src/operators. Simplifications: numbers are of one type; [boost::lexical_cast] is a pair of functions, of which the theorems assume that a written number is read back (it writes as many digits as that takes). A file is the list of scalars of the operator, as in Persist.v.
* `MlsMatch.v`: Comparison of surface grids, and paths laid onto their surface (C131 - C133): src/maps/MLSGrid.cpp:73-141, 549-570, 626-680, 697-728, src/maps/MLSPatch.hpp:106-119, 147-150. Simplifications: [double] and [float] are modelled by the rational numbers; where the code divides by zero and goes on with an infinity or with something that is not a number the model has the result [None].
* `RectPair.v`: C134: iterating over a rectangle and the border around it: src/maps/GridBase.cpp:116-290, [forEachInRectangles].
* `MapHeader.v`: Transforms of frames and descriptions of grids in files. C135, C136. src/core/Serialization.cpp:176-287, FrameNode.cpp:33-55, src/maps/GridBase.cpp:27-56 and 572-594, MLSGrid.cpp:144-199. Simplifications: as in Persist.v, the YAML library hands back the tree that was written; [boost::lexical_cast] is a pair of functions for each type of numbers, of which the theorems assume that a written number is read back. An item that is loaded is a new one (the factories make one).
* `Interp.v`: Filling the gaps of an elevation map: src/operators/Projection.cpp:46-53 and 91-165, [updateAll] and [interpolateMap]. C137. Simplifications: heights are rationals, an infinite height is [None]; the band exists. The Delaunay triangulation of CGAL is an argument [locate]: what the theorems need of it is the record [delaunay]. A cell of the grid is (column, row), stored at [data[row][column]]; in the code x is the row.
* `RectStats.v`: Statistics of the cells in a rectangle: src/maps/TraversabilityGrid.cpp:16-86, 97-139 and 141-153. C138. The cells of a rectangle are those of C34, the table of distances that of C45, the statistic that of C37, the worst class that of C57. Simplifications: as there; distances are squared, as in Lut.v (the least square is the square of the least distance). The table of distances to a box, which is not used without a border, is left out.
* `TravCache.v`: The arrays of traversability grids and the pointers to them (C139): src/maps/TraversabilityGrid.hpp:131-157, TraversabilityGrid.cpp:161-171, 201-231, 232-246 and 272-286, with Layer::getData, removeData and the copies of layers (Layer.hpp:139-161, Layer.cpp:21-43, 152-167) and Grid::getGridData (Grid.hpp:195-213). Simplifications: the bytes are integers, the other metadata of the layer and the classes are left out (C35, C37); the conversion of probabilities is that of C37.
* `FreeSpace.v`: Free space between the sensor and the surface (C140): src/operators/MLSProjection.cpp:52-175 with negative information. Simplifications as in MlsProj.v. The fields of a patch are Qc numbers, so that equal numbers are equal; [norm] stands for the length of a vector in the plane, which may be irrational.
* `OldMaps.v`: Surface maps in files of any version (C141): src/maps/MLSGrid.cpp:201-287 and 319-377. A file is a list of bytes. The layout of the records in memory is not modelled: [of_image v] reads a record of version [v] from its bytes. [round] is the conversion of a double to a float, [channel] that of a double colour to a byte (MLSPatch.hpp:195-200). A member that is not initialised has a value that [junk] chooses for each record.
* `EventFilters.v`: Filters of event handlers (C142): src/core/EventHandler.hpp:20-67, EventHandler.cpp:9-28. Handlers and filters are objects of the user, numbered. A handler records the events that its method [handle] is called with. The method [filter] of a filter is code of the user: [behave f] gives, from the state of the filter and an event, the new state, the events that the filter passes to its handler by itself meanwhile, and whether the event may pass. Handlers that cause further events are not modelled.
* `QueueThreads.v`: Event queues between threads (C143): src/core/EventHandler.cpp:75-115 with src/core/EventHandler.hpp:105-139. Any number of threads call [handle] and [flush] of one queue. The steps of different threads alternate in any order; a step is taking the mutex, the treatment of one pending event by the loop of [handle] or [flush], or the rest of the call, at the end of which the mutex is released. The method [process] is code of the user: [fails] tells for which events it throws, [reenters] for which it calls [handle] of the same queue, as EventProcessor (EventHandler.cpp:117-125) does if the queue is registered with the environment that it changes.
* `SharedItems.v`: Queues that do not copy items (C144): src/core/Event.cpp:80-101 with [clone] false, which is the default (EventHandler.hpp:120), and 111-147 and 251-258. The event refers to the item itself. Only events that announce or update an item are modelled here, as only they refer to an item; applying the others is in EventModel.v.
* `Weights.v`: Scaling the weights of surface patches (C145): src/maps/MLSPatch.hpp:396-414, src/maps/MLSGrid.cpp:682-695. Numbers and the class [numeric::PlaneFitting] are those of MlsSum.v; [scale] of that class, which is not part of the code base, multiplies all its sums.
* `Imports.v`: Importing scans and point clouds from files (C146): LaserScan::importScanFile, src/maps/LaserScan.cpp:73-109, and Pointcloud::importCsv, src/maps/Pointcloud.cpp:113-130. Reading the text is in Scan.v and CloudText.v; here only its outcome matters. The new objects are created at the addresses that are given.
* `CloudFiles.v`: Saving and loading point clouds and meshes. C147. src/maps/Pointcloud.cpp:16-71, src/maps/TriMesh.cpp:10-26, with Layer.cpp:45-57, Environment.cpp:108-123 and the factory, Serialization.hpp:20-25 (which calls the function of the class itself; a virtual call would load no more than Layer.cpp does). The file of the vertices is that of Ply.v (C117), the description that of MapHeader.v (C135, C136), with the simplifications there. Of the file in the old text format, which is modelled in CloudText.v, only the result is a parameter. The parser of the ply library calls the error callback, which throws (PlyFile.cpp:141-145), whenever it would return false.
* `Assumptions.v`: The assumptions of every theorem that MANIFEST.json names; the build prints them. No definitions.

## 3. Plan per property

"False without provisos" means that an unguarded version of the claim is refuted (theorems `..._refuted`).

| Property | Model | Proof |
|---|---|---|
| C01 Lookup by id is exact | `EnvProps.v` | invariant over operation lists: the item table is keyed by the ids of exactly the attached items |
| C02 An item has at most one owner | `EnvProps.v` | invariant: every attached item is in the table of one environment |
| C03 Generated ids are fresh | `EnvProps.v` | pigeonhole on the taken ids for the search loop; postcondition of `attach` |
| C04 Ids are stable while attached | `EnvProps.v` | every step keeps the id of items attached before and after |
| C05 A rejected attach leaves the environment alone | `EnvProps.v` | state equality on the `Throw` outcome of `attach`; false without provisos |
| C06 Detaching removes exactly one item and its links | `EnvProps2.v` | every relation after is the one before without the links of the item, with multiplicities; events |
| C07 Deep detach removes exactly the subtree | `EnvProps2.v` | induction on the height of the forest; result = filter by the descendant predicate |
| C08 One parent per frame, one frame per map | `EnvProps2.v` | invariant and postcondition with frame condition |
| C09 Links only connect items of the environment | `EnvProps2.v` | invariant under the API contract; false without provisos |
| C10 The frame tree is a tree | `EnvProps2.v` | invariant under the API contract: no cycles, ranking of frames; false without provisos |
| C11 Layer links can be added and removed | `EnvProps2.v` | postconditions on the list of links; false without provisos |
| C12 Operator arity is respected | `EnvArity.v` | counting invariant over the calls of the operator interface; false without provisos |
| C13 detachFromOperator does not ungenerate a layer | `EnvProps2.v` | postcondition of `detachFromOperator`; false without provisos |
| C14 getGenerator answers a generator | `EnvProps2.v` | search lemmas on the output relation, in reachable worlds; false without provisos |
| C15 A listener can mirror the environment | `EnvProps3.v` | the fold of the trace equals the state, induction over operation lists |
| C16 Registration publishes the content | `EnvProps3.v` | the registration events computed in closed form, replayed; false without provisos |
| C17 Unregistration takes the content back | `EnvProps3.v` | the removal events computed in closed form, replayed; false without provisos |
| C18 Link events only mention announced items | `EnvProps3.v` | the trace replays without a link to an unknown item, in every reachable world |
| C19 Delivery is to registered handlers, in order | `EnvProps3.v` | projection of the trace to one handler |
| C20 The event queue keeps a minimal set | `QueueProps.v` | invariant over event lists; characterisation of the queue per key |
| C21 Queued synchronization reproduces the source | `SyncProps.v` | per-key characterisation of the queue against the replay of all events; induction over rounds; false without provisos |
| C22 Applying events keeps a replica consistent | `QueueProps.v` | every event preserves the invariant (`EventApply.v`); false without provisos |
| C23 Every event kind is dispatched | `QueueProps.v` | case analysis over the event kinds; agreement with the direct calls |
| C24 Relative transforms compose | `Transform.v` | affine maps over Qc, induction on paths to the root |
| C25 Saving and loading an environment is lossless | `PersistProps.v` | two phases of loading (items, then links) simulated against the written document; false without provisos |
| C26 Map files collide only for similar ids | `Ids.v` | string lemmas on the replacement of characters; false without provisos |
| C27 Class lookup finds registered classes | `Ids.v` | string lemmas on searching `::`; false without provisos |
| C28 Ids stay fresh after loading | `PersistProps.v` | monotonicity of the id counter over loading; false without provisos |
| C29 Destroying an environment releases everything | `EnvProps2.v` | reference counts; composition of `detach` over all items |
| C30 No attached item is destroyed | `EnvProps2.v` | reference count invariant; false without provisos |
| C31 Grid coordinates round trip | `GridProps.v` | floor lemmas on exact rationals; conversion oracle; false without provisos |
| C32 Grid extents cover the grid | `GridProps.v` | linear arithmetic on exact rationals; false without provisos |
| C33 Bresenham lines are lines | `Bresenham.v` | loop invariant with the error term; each point is within half a cell of the line; false without provisos |
| C34 Rectangle iteration stays in the grid | `RectProps.v` | corners and scan bounds; characterisation of the visited cells; false without provisos |
| C35 Layer metadata behaves like a map | `Metadata.v` | refinement to a map of typed values over any list of operations; false without provisos |
| C36 Traversability classes can be registered until full | `Trav.v` | invariant of the class table; equivalence for refusal; false without provisos |
| C37 Traversability statistics are exact | `Trav.v` | induction over measurements; false without provisos |
| C38 Probabilities survive 8 bit storage | `TravProb.v` | IEEE double arithmetic (Flocq): error bounds over the whole range of the byte; false without provisos |
| C39 Grassfire terminates and visits what is reachable | `Grassfire2.v` | work list invariant; decreasing measure of unexpanded cells; false without provisos |
| C40 Patch search terminates and respects the robot height | `Grassfire.v` | measure on the floor height; minimality of the answer; false without provisos |
| C41 Obstacle growing is a dilation | `Growing.v` | scan-loop invariant; result = set of cells within the radius; false without provisos |
| C42 Class growing yields the worst class in the radius | `Growing.v` | scan-loop invariant; maximum over the window; false without provisos |
| C43 Smoothing with small windows reads only existing cells | `Trav.v` | scan-loop invariant; window mean; false without provisos |
| C44 Closing narrow passages stays in the map | `Passages.v` | scan-loop invariant; bounds of the look-up table |
| C45 Look-up tables are accessed in bounds | `Lut.v` | index arithmetic of the tables; false without provisos |
| C46 ListGrid cells are lists | `ListGridProps.v` | separation of the linked lists in the pool: refinement to one list per cell over all histories; false without provisos |
| C47 Cell count and index of an MLS grid are right | `MlsProps.v` | invariant over histories of calls; false without provisos |
| C48 MLS grids survive saving and loading | `MlsProps.v` | round trip of the stored table; order of patches within cells |
| C49 Merging patches is sound | `MlsPatch.v` | algebra over the real numbers, case analysis on the kinds of patches; false without provisos |
| C50 Inserting a patch loses no information | `MlsUpdate.v`, `MlsPatch.v` | labelled patches: induction over the two scans of `updateCell`; false without provisos |
| C51 Voxel traversal is connected | `Voxel.v` | step invariant and measure; false without provisos |
| C52 Environment prefixes are normalized | `EnvProps2.v` | string lemmas; invariant of environments; false without provisos |
| C53 Id parts recombine | `Ids.v` | string lemmas |
| C54 Laser scans survive saving and loading | `Scan.v` | parser invariants on character streams; IEEE single precision for the numbers (Flocq); false without provisos |
| C55 Two-way lookups agree | `EnvProps2.v` | relation and its inverse, in reachable worlds |
| C56 Traversability classes survive saving and loading | `Trav.v` | round trip of the registry |
| C57 The worst traversability class in a rectangle is the worst covered one | `Trav.v` | maximum over the cells of C34 |
| C58 Closing narrow passages connects close obstacles | `Passages.v` | path along the Bresenham line of the table; false without provisos |
| C59 The box look-up table approximates the distance to the box | `Lut.v` | rational geometry of the table cells; false without provisos |
| C60 Grassfire classes and probabilities | `Grassfire2.v` | case analysis on the final map; false without provisos |
| C61 Drivable cells are reachable from the start | `Grassfire2.v` | reachability of C39 for drivable classes |
| C62 Voxel traversal stays on the ray | `Voxel.v` | step invariant: the parameters of the next borders bound the ray inside the cell; false without provisos |
| C63 Attaching under a free name | `EnvEffects.v` | exact postcondition on all components of the state |
| C64 Removing a link removes exactly that link | `EnvEffects.v` | exact postcondition |
| C65 Operator links change exactly as asked | `EnvEffects.v` | exact postconditions |
| C66 An attached map has a place | `EnvEffects.v` | exact postcondition |
| C67 Content changes are local | `EnvEffects.v` | exact postcondition; other items and environments unchanged |
| C68 Smart pointers destroy exactly unreferenced items | `EnvEffects.v` | exact postcondition of dropping a smart pointer |
| C69 A new environment contains only its root | `EnvEffects.v` | exact postcondition of the constructor |
| C70 Cutting a point cloud keeps exactly the wanted points | `Cloud.v` | list filter; closed box in the frame of the box; properties of affine maps; false without provisos |
| C71 Merging point clouds loses and reorders nothing | `Cloud.v` | list concatenation per kind of vertex data; false without provisos |
| C72 Extents of a point cloud are the tightest box | `Cloud.v` | least upper and greatest lower bounds by induction |
| C73 Transformed extents contain the transformed map | `Cloud.v` | convexity: corners of the box, affine maps; false without provisos |
| C74 Elevation between cell centres | `Elevation.v` | bilinear interpolation algebra; bounds by neighbours; false without provisos |
| C75 Reading a band | `Elevation.v` | index arithmetic and interpolation; false without provisos |
| C76 Projecting point clouds | `Elevation.v` | fold over points, characterisation per cell; false without provisos |
| C77 Heights of a surface map | `Elevation.v` | fold over the patches of a cell; false without provisos |
| C78 Projecting classes | `Elevation.v` | cell loop against the class table; alignment of grids; false without provisos |
| C79 Smallest and largest value | `Elevation.v` | fold lemmas; false without provisos |
| C80 Coinciding cells | `Elevation.v` | equivalence with equality of rational offsets; false without provisos |
| C81 Elevation lookup | `Access.v` | properties of the remembered grid over sequences of calls; false without provisos |
| C82 Finding a patch in a cell | `Access.v` | list search lemmas; false without provisos |
| C83 Surface lookup | `Access.v` | composition of C82 with affine maps; false without provisos |
| C84 Patches of a map of grids | `Access.v` | search over the grids of a map, cache invariant; false without provisos |
| C85 Grids of a map | `Access.v` | invariant over map operations; false without provisos |
| C86 Parts of a map segment | `Access.v` | weighted search lemmas; false without provisos |
| C87 Projecting clouds into surface grids | `MlsProj.v` | fold over points: information per cell (C50) and geometry |
| C88 Merging surface grids | `MlsProj.v` | fold over patches; commuting with affine maps; false without provisos |
| C89 Filling a surface grid from an elevation grid | `MlsProj.v` | cell loop; transform geometry; false without provisos |
| C90 Surface grids as point clouds | `MlsProj.v` | enumeration of points over patches; false without provisos |
| C91 Composing uncertain transforms yields valid covariances | `Uncertain.v` | matrix algebra over any ordered field (mathcomp): J C Jᵀ forms are symmetric and positive semidefinite; false without provisos |
| C92 Removing an uncertain transform undoes composing with it | `Uncertain.v` | matrix algebra: inverse of the composition; false without provisos |
| C93 Sample statistics are the weighted mean and covariance | `Gauss.v` | induction over updates; equality with the batch formulas |
| C94 Mixture weights are normalized; an EM step fits components to responsibilities | `Gauss.v` | sums over responsibilities; stationarity of the weighted mean; false without provisos |
| C95 k-means terminates in a local optimum | `Gauss.v` | decreasing cost over assignments; false without provisos |
| C96 Trimming keeps the closest pairs | `Icp.v` | permutation and order lemmas on the sorted list; false without provisos |
| C97 The aligning transform is rigid with the best translation | `Icp.v` | quaternion algebra; least squares in the translation; false without provisos |
| C98 A cloud read with reduced density | `IcpSearch.v` | index arithmetic on the running density; false without provisos |
| C99 Iterative alignment is a sequence of justified rounds | `Icp.v` | loop unfolding as a chain of rounds |
| C100 The search for the best overlap ends and returns the best value seen | `IcpSearch.v` | interval contraction, order of search points, minimum over evaluated points; false without provisos |
| C101 Random sample consensus reports a best supported model | `Icp.v`, `IcpSearch.v` | loop invariant over iterations: best support; limits of the loop; false without provisos |
| C102 The order of measurements in a surface patch does not matter | `MlsSum.v` | closed form of the merged sums; permutation invariance; false without provisos |
| C103 A binary message delivers the item it was made from | `Binary.v` | round trip of one message; induction over the events; composition with C21; false without provisos |
| C104 Context updates let any receiver place the map | `Context.v` | induction over the events of the frame chain with a table of contents; false without provisos |
| C105 Bands are independent and keep what is stored | `RasterProps.v` | refinement: induction over the operations against the last value told for each cell; false without provisos |
| C106 Imported rasters keep their georeference | `RasterProps.v` | loop invariants for the copy by lines and the mirroring in place; algebra of positions; false without provisos |
| C107 Saved grids are loaded with the same bands | `RasterProps.v` | round trip by induction over the bands; injectivity of file names; false without provisos |
| C108 Images are copied to the cells at their pixels | `Frames.v` | loop invariants for the copies; false without provisos |
| C109 Meshing a scan gives one vertex per accepted reading, with its data | `Mesh.v` | loop invariants for all scans (validity) and for scans with lines of equal length (refinement to the list of accepted readings); false without provisos |
| C110 The faces of a meshed scan tile the quads between neighbouring readings | `Mesh.v` | refinement of the loop to a function per quad, case analysis of the four triangles; false without provisos |
| C111 Normals of a mesh belong to its faces | `Mesh.v` | induction over the faces; false without provisos |
| C112 Steps of a surface map are the greatest rises to known neighbours | `Slope.v` | invariant over the visited cells: the compared pairs and their number; then arithmetic of maxima; false without provisos |
| C113 Slopes of a surface map come from a plane through the surrounding surface | `Slope.v` | the same induction, with the fit as a function from outside; false without provisos |
| C114 Cloning a map copies it, its content and the frames above it, and nothing else | `Clone.v` | induction over the stack of frames on top of the exact effects of attaching and linking new items; the result is reachable, so all invariants hold; false without provisos |
| C115 Illumination looks at the cells between a cell and the light | `Illum.v` | the loop is described by the number of steps in both directions; an invariant compares the times at which the way enters and leaves columns and rows; completeness by comparing a crossed cell with the state after as many steps; false without provisos |
| C116 The light of a cell is the part of the lamp seen above the cells in between | `Light.v` | real numbers extended by the infinities and NaN of double; the loop over the cells is the maximum of finite values, or ends in infinity; induction over the cells for the whole grid; false without provisos |
| C117 Point clouds and meshes survive saving and loading | `Ply.v` | Ply.v: bytes of a file as a list, floats of Flocq; writer and callback-driven reader with its static variables as functions. Round trip by induction over vertices, normals, colours and faces; single precision through the nearest-rounding theorem of Flocq; truncation by showing that every reader only depends on the bytes it takes.; false without provisos |
| C118 A distance image becomes the points on the rays through its cells | `Distance.v` | Distance.v: the loop over the cells as a function; the written lists are shown to follow the filtered list of cells by induction; projecting back uses the lookup theorem of C31.; false without provisos |
| C119 Thinning a point cloud keeps normals and colours with their points | `Distance.v` | Distance.v: points with their numbers, library functions as arguments; induction over the remaining points.; false without provisos |
| C120 Polygon sets answer for the current poses of the polygons that are asked about | `Polygons.v` | worlds of polygons and sets with what they remember; invariant over the history: what is remembered for a polygon without a new move is the result of a fresh search; the search in any order of visits gives the specification; false without provisos |
| C121 The drawing of an environment shows its items and links | `Drawing.v` | the drawing as a function of the heap and the environment; with the invariants of reachable worlds every pointer is valid; edges as pointwise relation to the links; false without provisos |
| C122 Reading point clouds from text keeps the chosen lines | `CloudText.v` | streams as characters with eofbit and failbit; induction over the lines with the state of the stream after each of them; undefined values for unassigned variables; false without provisos |
| C123 Histograms of match distances | `Stability.v` | model as a loop over distances and bins; invariant that the distances before are below the limit of the current bin and those after not below the one before; specification counts distances per bin; false without provisos |
| C124 Clusters of poses | `Cluster.v` | induction over the number of points; relation for the removals; if all points are as far from the origin as their mean their variance is zero, so that something is removed while the limits are exceeded; false without provisos |
| C125 Samples around a pose | `Cluster.v` | state machine over regions, sigma and random offsets; invariant that the samples are those of the region once the first was taken; false without provisos |
| C126 Laser scans collected into point clouds | `ScanWindow.v` | refinement: the window is the newest n of the scans taken, by induction over the operations; algebra of affine transforms; false without provisos |
| C127 Matching a point cloud in an environment | `ScanPlace.v` | composition of the exact effects of the operations of the environment core, on reachable worlds; false without provisos |
| C128 Classifying terrain by slopes and steps | `SimpleTrav.v` | each cell by cases, the loop by induction over the cells; composition with C41 and C58; false without provisos |
| C129 Drivability of classified terrain | `SimpleTrav.v` | induction over the registered classes; rounding is monotone; bounds of the mean; false without provisos |
| C130 Parameters of operators in files | `OperatorParams.v` | computation of each entry of a file with arbitrary values, by cases of missing inputs; false without provisos |
| C131 Difference in height of two surface maps | `MlsMatch.v` | induction over cells and patches: the sums are those over a list of pairs; bounds of weighted means; false without provisos |
| C132 Matching a surface map into another | `MlsMatch.v` | induction over the index: sets of considered and of matched cells; for a map and itself an invariant of the two counts; false without provisos |
| C133 Paths laid onto the surface of a map | `MlsMatch.v` | induction over the path with the list of heights; false without provisos |
| C134 A rectangle and the border around it | `RectPair.v` | induction over the rows of the outer outline with an invariant on what is left of both outlines; containment of the rows by the geometry of the corners; false without provisos |
| C135 Transforms of frames in files | `MapHeader.v` | induction over the sequence with the entry number as invariant; row and column by division; false without provisos |
| C136 Descriptions of grids in files | `MapHeader.v` | lookup of keys in the saved map, composed with the round trip of the stream (C48); false without provisos |
| C137 Filling the gaps of an elevation map | `Interp.v` | each cell is visited once and reads only the known heights; bounds by induction over the points; the inverse by cofactors against barycentric weights; composed with C76; false without provisos |
| C138 Statistics of a rectangle in a traversability grid | `RectStats.v` | corners are within three quarters of the larger size of the centre, so every cell of the rectangle has an entry in the table; composed with C34, C45, C37 and C57; false without provisos |
| C139 Cells of several traversability grids | `TravCache.v` | refinement by induction over the calls: pointers are into the own map, arrays of different grids and bands are separate; false without provisos |
| C140 Free space between the sensor and the surface | `FreeSpace.v` | the line of cells of C33 gives the fractions by induction along it; every loop puts patches into cells (as in C87), so that the cells are described one by one; false without provisos |
| C141 Surface maps in files of any version | `OldMaps.v` | the lines of a file are characterised by induction over its bytes, in both directions; the records by induction over them, as in C30; false without provisos |
| C142 Filters of event handlers | `EventFilters.v` | invariant over histories: the pointers are those set last; independence by a simulation between the history and its part about one handler; false without provisos |
| C143 Event queues between threads | `QueueThreads.v` | interleaving semantics; invariant over schedules that carries the order of the ended calls and how far the call within the mutex has come; a lexicographic measure for termination; false without provisos |
| C144 Queues that do not copy items | `SharedItems.v` | unfolding for known items; moves of items (C02) and the effect of steps on listeners for unknown ones |
| C145 Scaling the weights of surface patches | `Weights.v` | loop over the cells; induction over the later measurements; field arithmetic over the reals; false without provisos |
| C146 Importing scans and point clouds from files | `Imports.v` | composition of the effects of the single operations of the environment (C08, C67) over the invariant of reachable states; false without provisos |
| C147 Saving and loading point clouds and meshes | `CloudFiles.v` | composition of the round trips of descriptions (C135) and of ply files (C117); false without provisos |

## 4. Trusted base

* Coq's kernel (8.16.1), and that the standard library's axioms below are consistent.
* The transcription of the C++ code into the model: nothing connects the two but the comments that cite file and lines. The
  code was never compiled or run.
* The specification vocabulary (`EnvSpec.v` for the environment core; elsewhere the few definitions in front of a theorem).

`Print Assumptions` for every theorem of `MANIFEST.json` (run by `theories/Assumptions.v` as part of the build):
* Theorems that use the real numbers of the standard library depend on some of its four axioms
  `ClassicalDedekindReals.sig_forall_dec`, `ClassicalDedekindReals.sig_not_dec`,
  `FunctionalExtensionality.functional_extensionality_dep` and (through Flocq's statements about `R`)
  `Classical_Prop.classic`:
  * all four: C38 (all theorems), C54 (all theorems) and C117 (all theorems);
  * the first three: C49 (all theorems), C102 (all theorems), C116, C124, C125 (all theorems), and C50_block, C50_two_refuted, C50_unmatched_refuted.
* All other theorems are "Closed under the global context".

No axioms are added, no kernel check is switched off, there are no functors or module types. `Section` variables are used for
arguments that are external to the modelled code; they are quantified in the closed theorems.

### Modelled
See section 2. In terms of the code: all of `src/core` except the parts below; `src/maps` GridBase, Grid (band access, scaling,
search of extreme values, raster files), Grids (copies of images), ElevationGrid, TraversabilityGrid (cells, cached arrays, statistics of rectangles), MLSGrid (also match, matchHeight, paths on the surface, serialize), MLSPatch, MLSMap, MapSegment, LaserScan (text format, recording of lines), TriMesh (normals),
Pointcloud (extents, vertex data, text), PolygonMap (polygons and sets); `src/tools` BresenhamLine, ListGrid, PlyFile, GraphViz (nodes and edges), VoxelTraversal, RadialLookUpTable, BoxLookUpTable,
GridAccess, GaussianMixture, ExpectationMaximization; `src/operators` SimpleTraversability (updateAll, growing, passages, serialize), ObjectGrowing,
TraversabilityGrowClasses, TraversabilityGrassfire, Fold, CutPointcloud, MergePointcloud, Projection (also interpolateMap, with the triangulation as an argument), MLSToGrid,
ClassGridProjection, MLSProjection (also negative information), MergeMLS, GridFloatToMLS, MLSToPointCloud, ScanMeshing, MLSSlope, GridIllumination, DistanceGridToPointcloud, SimplifyPointcloud; `icp` icp, ransac, stability and icpLocalization.

### Not modelled
* Rounding of floating point numbers, NaN and infinities: exact rational or real numbers are used, except in C38, C54 and C117, which
  use IEEE arithmetic, and where a division by zero is a distinct outcome.
* Threads other than those that share an event queue (C143), the file system beyond a map from names to contents,
  memory exhaustion.
* The libraries YAML, GDAL, CGAL, Box2D, Eigen, boost, PCL, PLY, ANN; the `serialize` functions of most item classes.
* The Orocos/ROS transport of binary messages; event handlers that call back into the environment.
* The plane solver of the update model SLOPE of surface patches (an argument in MlsSum.v); colours.
* Visualisation (`viz`), command line programs (`tools/`), `loadEnvironment` and the covariances of `icpLocalization`, SurfaceReconstruction.

## 5. Findings

Behaviour of the code that contradicts its documentation or what a user would expect. A theorem name in parentheses means that
the model proves it; the others were found while reading and are outside of the model or its theorems.

### Environment core
* Attaching an item that belongs to another environment detaches it there before the id is checked: a rejected attach loses it
  (C05_move_refuted), and it is destroyed while in use if nobody else holds a reference (C30_move_refuted).
* `addChild` does not check for cycles (frame_cycle_refuted) nor that both items are attached here (C09_unchecked_refuted);
  `detachItem` only checks the id.
* Layer links: the check for duplicates looks at the first parent only (C11_duplicate_refuted). `removeChild` on layers sends a
  removal even if there is no such link.
* `Layer::detachFromOperator` removes an input link of the generator instead of its output link (C13_refuted).
* Two operators can generate the same layer (C14_refuted). `Environment::addInput/addOutput` do not check the arity
  (C12_environment_interface_refuted).
* `addEventHandler` publishes neither layer links nor frame trees that are not connected to the root (C16_layers_refuted,
  C16_orphan_refuted), and never operator links. `removeEventHandler` does not take back maps on the root node (C17_refuted).
* The empty environment prefix is undefined behaviour (C52_empty_refuted).
* `Layer::getData<T>` with another type than the stored one dereferences a null pointer (C35_wrong_type_refuted).

### Events
* The queue cancels a removal against a later addition of another item with the same id (C21_reuse_refuted), and the removal of
  an absent layer link against its later addition (C21_layer_refuted). `pullEvents(all = true)` reorders events. `flush` holds a
  non-recursive mutex while calling handlers. In synchronous mode items are serialised when the queue is flushed, not when the
  event occurs.
* Applying an update of an unknown item while listeners are registered is undefined behaviour (C22_null_update_refuted); self
  links and cycles are accepted (C22_self_link_refuted, C22_cycle_refuted).
* Without `allowMultithreading(true)` the event processor takes over the items of the source environment.

### Saving and loading
* Two maps can share a file name (C26_refuted), and then one of them is lost (C25_clash_refuted). The environment prefix is not
  saved (C25_prefix_refuted), nor are dirty flags and metadata. An id with the number LONG_MAX overflows the counter
  (C28_limit_refuted).
* `createObject` accepts names that are not registered: without a namespace it cuts off the first character (C27_refuted).
* `BinarySerialization` uses a fixed buffer of 10000 bytes for YAML. Featurecloud writes no ply file but reads it. ScanMeshing
  stores maxEdgeLength under the key of remissionScaleFactor. SimpleTraversability omits obstacle_clearance, MLSProjection and
  MLSSlope all of their parameters. Pointcloud writes text as XYZ and reads it as XYZR by default.

### Grids
* `getExtents` is one cell too large in both directions (C32_refuted). `isAlignedWith` ignores the scale and transforms cell
  counts as if they were coordinates; `isCellAlignedWith` ignores rotation and truncates (C80_turned_refuted).
* Points left of or below a grid can be converted to cells of the grid (C31_negative_refuted, depending on the conversion of
  negative numbers). Iterating over a rectangle can miss a row (C34_missed_row_refuted).
* Bresenham lines longer than half of the range of int overflow (C33_overflow_refuted). `BresenhamLine::getNextPoint` hands out uninitialised coordinates once it has finished.
* Traversability grids: half of the documented classes can be registered (C36_capacity_refuted), the statistics have no room
  for class 255 (C37_class_255_refuted), `isSet` is inverted, `getWorst...` does not terminate for class 255, probabilities
  outside of [0,1] are not caught (C38_range_refuted); the implicit copy constructor shares the arrays.
* FoldOperator reads outside of the grid for every neighbourhood larger than 2 (C43_refuted).
* `growObstacles` writes the probability at the source cell (C41_probability_refuted); the table of the growth policy has one entry too
  few (C42_max_value_refuted) and unregistered classes are not caught (C42_unregistered_refuted); `closeNarrowPassages` takes class
  255 for obstacles (C58_class_255_refuted). `ObjectGrowingUINT8::updateAll` does nothing.
* RadialLookUpTable does not check its arguments (C45_radial_refuted), BoxLookUpTable compares with `>` instead of `>=`
  (C45_box_refuted), its last column is not sampled (C59_edge_refuted), and scales below 1e-5 leave no table (C59_tiny_refuted).
* Grassfire: the start patch can be an obstacle (C39_obstacle_start_refuted) or not the closest one (C39_closest_refuted), the
  result depends on the order of expansion (C39_order_refuted), negative deviations make the search endless
  (C40_negative_refuted), a smaller output grid is written out of bounds (C60_small_output_refuted).
* VoxelTraversal: rays parallel to the x axis move in -y (C51_x_axis_refuted); the distance to the next border is wrong for
  positive directions (C62_direction_refuted) and for cells not of size 1 (C62_scale_refuted); members are uninitialised if the
  origin is outside of the grid. GridIllumination divides by zero under the light source and lets an unsigned index wrap.
* ElevationGrid: `get(Position)` selects the overload with cell-centred interpolation of doubles; border cells are read out of
  bounds by `getNormal` and `getElevation` (C74_border_refuted; C75_cell_refuted for the band of a cell). `getMinMaxValues` starts the search of
  the maximum with the smallest positive value (C79_negative_refuted). Projection additionally applies the transform of the root
  node (C76_root_refuted).
* MLSToGrid leaves cells without patches as they were (C77_stale_refuted). MLSToGrid and MLSSlope check sizes and scales with `&&`
  instead of `||` (C77_size_refuted, C77_scale_refuted). ClassGridProjection's check of alignment ignores scale and shift (C78_scale_refuted,
  C78_shift_refuted).
  Two constructors of MLSSlope leave its window size uninitialised.

### Surface maps
* ListGrid: the copy constructor reads an uninitialised pool; after moving the lists the back pointer of the first element is
  stale, so that erasing it fails (C46_move_refuted).
* MLSGrid: `move` updates neither count, index nor extents (C47_move_refuted, C47_move_index_refuted), erasing does not update
  the index (C47_erase_refuted), assignment keeps the old index (C47_assign_refuted); `updateCell` counts twice when a patch
  bridges two others; unserialize does not reset the count, readMap does not clear.
* Patches: refused merges modify them (C49_refused_refuted), SUM is not symmetric (C49_sum_symmetric_refuted), free space that
  meets occupied space loses counts (C49_count_refuted); a measurement can end up in two patches (C50_two_refuted).
* MergeMLS in reverse adds instead of subtracts the height (C88_reverse_refuted); merging and conversion to points are wrong
  in tilted frames (C88_tilted_refuted, C90_tilted_refuted); GridFloatToMLS uses the inverse transform (C89_frames_refuted).
* GridAccess and MLSAccess only ever ask the grid of the first call (C81_cache_refuted), and GridAccess is wrong for tilted grids
  (C81_tilted_refuted); MLSAccess answers in the frame of the grid (C83_raised_refuted); `MLSPatch::distance` is 0 for any two blocks
  (C82_vertical_refuted); `MLSGrid::get` answers the first instead of the nearest match (C82_nearest_refuted); MLSMap's cache prefers
  the grid used before and keeps its transform (C84_newest_refuted, C84_moved_refuted); new grids are not aligned with the active one
  (C85_relative_refuted); MapSegment compares weights as int
  (C86_weights_refuted); `selectActiveGrid` ignores one of its arguments.

### Laser scans and point clouds
* Scan text: ranges above INT_MAX, remissions above 2^24, remissions in a different number than ranges and trailing blanks are
  not restored (C54_range_refuted, C54_remission_refuted, C54_lost_refuted, C54_trailing_space_refuted); `readScan` appends; the constructor leaves the angles uninitialised.
* CutPointcloud tests the pointer of the variances instead of the attributes (null pointer, C70_no_variance_refuted);
  MergePointcloud throws half way if only one cloud has some vertex data and ignores variances (C71_variances_refuted). In 2D
  `getExtentsTransformed` uses an uninitialised coordinate (C73_plane_refuted). SimplifyPointcloud never
  clears its output. TriMesh overwrites normals instead of averaging them.

### Uncertainty, statistics, registration
* relativeTransformWithUncertainty counts the uncertainty of a common ancestor twice (C91_common_refuted); the inverse has wrong
  signs in its derivative (C91_inverse_refuted); compositionInv yields negative covariances (C92_negative_refuted). The default
  constructors leave the covariance and the flag uninitialised.
* GaussianMixture::eval ignores the weights (C94_eval_refuted); Gaussian::eval multiplies by the root of the determinant
  instead of dividing (C94_density_refuted); removing components leaves weights that do not add up to 1 (C94_removed_refuted);
  k-means divides by zero for empty clusters (C95_empty_refuted).
* ICP: the rotation of `Pairs::getTransform` is computed from a wrong matrix (C97_rotation_refuted); adding pairs after trimming
  misassigns them (C96_add_refuted); the reported error is that before the last transform; a density of 0 is undefined behaviour
  (C98_zero_refuted).
* The golden section search shifts its points with a function that evaluates the new point too early, so that two inner points
  coincide and the minimum is missed (C100_minimum_refuted); it does not end for an interval starting at 0
  (C100_zero_refuted).
* `ransacSingleModel` can return true without a model (C101_success_refuted) and can overwrite the result before it returns
  false (C101_failure_refuted).

### Later additions
* The variance of a surface patch with the update models SUM and SLOPE contains the square of its height times (n - 2), so that
  it depends on the height above the origin (C102_deviation_refuted).
* The YAML text of a binary message is cut off at 10000 bytes; the result of serializeBinaryEvent is ignored
  (C103_large_refuted). If unserializeBinaryEvent throws, its streams stay in the object and serve later messages
  (C103_stale_refuted); the parser and the document are not deleted.
* Context updates fail an assertion if the queue copies items (allowMultithreading), because copies belong to no environment
  (C104_copied_refuted); the comment in the code mentions the problem but tests for NULL. A receiver with listeners
  dereferences NULL at the first unknown frame (C104_listener_refuted).
* copyBandFrom keeps the nodata value of the target if the source has none, so that valid cells count as missing
  (C105_nodata_refuted); a source of another size fails an assertion of boost, or writes out of bounds without assertions
  (C105_size_refuted).
* The test for turned rasters in readGridData compares the shear per line with the scale: a file with 1000 lines is accepted
  although its last line is off by ten cells (C106_sheared_refuted); the two axes are tested differently. If the grid knows its
  scale, files with lines from north to south are stored upside down (C106_scale_refuted).
* Nodata values of bands are not part of a message (C107_nodata_refuted). The underscore that separates id and band in file names
  also occurs in ids and bands: band "b_c" of "/a" and band "c" of "/a_b" share a file (C107_clash_refuted).
* ImageRGB24::copyFromFrame and DistanceGrid::copyFromDistanceImage do not compare the size of the image with the grid
  (C108_large_refuted, C108_width_refuted).
* ScanMeshing tests for vertex indices greater than 0, so the first vertex of a mesh is in no face (C109_first_refuted,
  C110_first_refuted). LaserScan::addScanLine only warns about a line of another length; meshing such a scan writes past the end of
  an array, reads entries that were never written, or connects lines that are not neighbours (C109_long_refuted,
  C109_short_refuted, C110_stale_refuted). Remissions in some of the lines only fail an assertion (C109_remission_refuted); a scan
  without lines has an uninitialised size (C109_empty_refuted).
* TriMesh::calcVertexNormals keeps the normal of the last face of a vertex (C111_order_refuted).
* MLSSlope compares cells of the second row and of the last row but one with only some of their neighbours, as pairs are visited from
  one side only (C112_overlooked_refuted, C112_overlooked_end_refuted); its corrected step depends on the direction of the step
  (C112_direction_refuted); output is rejected only if both dimensions differ (C112_size_refuted); two constructors leave members
  uninitialised (C112_members_refuted); the number of required measurements is ignored by the plane fit (C113_required_refuted).
* CartesianMap::cloneTo calls a member of the null pointer if the frame of the map does not hang below the root node, after the copy has been attached
  (C114_orphan, C114_orphan_refuted), or if the map is not attached (C114_unattached). Frames that maps share are duplicated (C114_shared_refuted), and the
  unique id (and the label) of the map is not kept (C114_id_refuted).
* GridIllumination: for a light in the same row of centres the step lengths are NaN and the walk goes down the column, so walls between are ignored
  (C115_row_refuted, C116_row_refuted); exactly above a corner of cells the walk can pass the light and look at cells behind it (C115_corner_refuted), and above
  the cell itself it goes on to the border of the grid (C115_own_refuted). The heights' band as output band destroys the heights while they are used (C116_band_refuted).
* Variances and attributes of vertices are not written to PLY files and are lost without an error (C117_others_refuted); colours outside 0 to 1 are
  converted out of the range of unsigned char (C117_color_refuted). Loading into a mesh that is not empty makes the faces of the file refer to the old
  vertices (C117_nonempty_refuted). `copyFrom` a sample without colours leaves an empty list of colours, and the cloud can then not be saved; the same
  after `copyFrom` of another cloud into one with normals (C117_copy_refuted). Files of other programs with another order of coordinates give wrong
  vertices (C117_order_refuted), faces with four corners are cut and those with two get a stale third one (C117_corners_refuted).
* DistanceGridToPointcloud accepts negative distances (C118_negative_refuted), dereferences a null pointer without a distance image
  (C118_missing_refuted), reads outside of an image that is smaller (C118_image_refuted) and leaves an empty list of colours when there is no image
  any more (C118_colors_refuted). SimplifyPointcloud does not clear its output (C119_twice_refuted), does not copy variances
  (C119_variances_refuted) and ignores the value of `smoothNeighbours` (24 is fixed).
* PolygonSet: the note that a polygon has moved is shared by all sets, so the second set asked answers for the old pose (C120_two_sets_refuted); polygons
  added (C120_add_refuted) and areas set (C120_area_refuted) after a question are ignored by the next one, and members that move are looked for at their
  old place (C120_member_refuted). isInside tests untransformed vertices against the member in the pose of the polygon, so it is wrong for polygons that
  were moved (C120_pose_refuted), and looks at the first touching member only (C120_first_refuted).
* GraphViz does not tell slashes from underscores: items whose ids differ in this only are one node (C121_names_refuted). Edges of frames point to the
  parent, those of layers to the child.
* Pointcloud::readText uses unassigned variables for an empty file, also the one it writes for an empty cloud (C122_empty_refuted), for an empty last line
  (C122_blank_refuted) and for a line of column names (C122_names_refuted); after a failed conversion the end of the file is never reached
  (C122_forever_refuted); lines with more than 255 ignored characters are taken for two (C122_long_refuted); remission values give
  `Vector3d::Identity() * c`, a shade of red (C122_grey_refuted).
* **Histograms of match distances** (C123): heights of lower bins are divided by the whole area, that of the last non-empty one by its width, so that
  bins of one width with as many distances differ (C123_equal_refuted; `bin_area` is computed but not used at stability.cpp:372-373). Distances
  have to be sorted (C123_unsorted_refuted) and there has to be one (C123_empty_refuted); without normalization the classification throws (C123_plain_refuted).
* **Clusters of poses** (C124): the outlier is chosen by the difference of distances from the origin, not by the distance from the mean (C124_far_refuted);
  the variance of the angle uses `points.at(0)` in every step (C124_angle_refuted); `defOutlinerRegion` ignores the covariance of the
  orientation (C124_orientation_refuted); limits are uninitialized before it is called (C124_unset_refuted); zero required points allow a
  cluster whose mean is not a number (C124_none_refuted).
* **Samples** (C125): `last_sigma_sample` is uninitialized before a region is set (C125_unset_refuted); sigma offsets keep the z entries of the first
  columns, although the z axis is to be ignored (C125_level_refuted).
* **Scan windows** (C126): `addScanLineToPointCloud` subtracts the position of one scan from the direction of another (icpLocalization.cpp:69: `back()`
  and `at(i)`), so a scan in the window can be added again (C126_again_refuted); a negative number of lines is cast to unsigned long, and nothing is removed
  (C126_negative_refuted); no lines, or no scan yet: `back()` of an empty vector (C126_none_refuted, C126_first_refuted).
* **Scan matching** (C127): `doScanMatch` without saving detaches the cloud, which deletes it, but `ICPInputData::pc` and the member `pc` still point to it;
  `removeLastSavedPointCloud` or another match is undefined (C127_dangling_refuted).
* **Terrain classes** (C128, C129): the operator looks up class 7 in any case (SimpleTraversability.cpp:263), so with fewer than five classes and a new map it throws,
  after the map has been written (C129_few_refuted). Without a band of slopes, or with the default maximum slope of zero, cells are not written and keep the class of the
  update before (C128_stale_refuted). A slope that is not a number is converted to int, even if this is the value for missing data, as `!=` holds for it (C128_nan_refuted). Input layers are read with
  the size of the output (C128_smaller_refuted). Flat terrain has the class 2 + class_count, outside of the documented range (C128_range_refuted); with 254 classes it is stored as unknown
  (C128_many_refuted).
* **Saved operators** (C130): `SimpleTraversability::serialize` does not write `obstacle_clearance`; a loaded operator does not grow obstacles (C130_clearance_refuted).
  `ScanMeshing::serialize` writes the length of edges as `remissionScaleFactor`, and `unserialize` reads it into the length of edges (C130_remission_refuted). MLSProjection, SimplifyPointcloud,
  MergePointcloud, CutPointcloud and DistanceGridToPointcloud save none of their parameters (read in the code, not modelled).
* **Comparing surface maps** (C131, C132): `matchHeight` sums up distances, which are not negative, so the sign of the difference in height is lost (C131_sign_refuted); maps without a
  common cell and exact maps give 0/0 or inf/inf (C131_apart_refuted, C131_exact_refuted). `match` does not use the height of the transform, unlike `merge` (C132_height_refuted),
  gives 1 for maps that do not overlap (C132_apart_refuted), counts cells where its documentation speaks of patches (C132_patches_refuted), and divides by the sampling number (C132_sampling_refuted).
* **Paths on the surface** (C133): cells off the map are read (C133_outside_refuted); patches that stand for free space are surfaces (C133_free_refuted). The spline is documented to be in world
  coordinates but is looked up in those of the grid (read in the code).
* **Rectangle with a border** (C134): the direction in which both outlines are followed is chosen by the inner rectangle in sub-cells. For a rectangle that is tilted by so little that the
  inner upper side stays in a row of sub-cells, cells in the middle of the outer one get no call (C134_tilt_refuted). An inner rectangle larger than the outer one is not reported (C134_larger_refuted).
  `TraversabilityGrid::computeStatistic` ignores that forEachInRectangles returned false, and its border is half of `borderWidth` on each side (read in the code).
* **Transforms in files** (C135): a sequence with more than 16 (or 36) numbers is written past the end of the matrix before the number of entries is checked (C135_read); a frame
  without its transform makes the reader follow a null pointer (C135_missing_refuted), where other missing keys only give a warning.
* **Creating grids by name** (C136): `GridBase::create` with the name of a class that is not a grid runs the constructor of that class on the written entries before the cast; for a frame it follows a
  null pointer (C136_create_frame_refuted).
* **Interpolation of elevation maps** (C137): the loops end before the largest row and column with data, so cells there stay unknown although they are between known ones
  (C137_border_refuted). A position outside of the hull of the known cells is located in an infinite face of the triangulation, which the test for NULL does not detect: the coordinates of the
  infinite vertex are used, and the cell can get any height (C137_hull_refuted). `updateAll` interpolates the maxima only.
* **Statistics of rectangles** (C138): the table of distances has two entries per cell of the larger size, so for a rectangle of about the size of a cell, which can cover four cells, it is read
  behind its end (C138_small_refuted); it is built for the scale in x only, so with cells that are not square it is too small (C138_oblong_refuted). `getWorstProbabilityInRectangle` ignores that
  the rectangle is not on the grid and returns 1, the best probability (C138_probability).
* **Copies of traversability grids** (C139): the implicit copy constructor, which `clone` uses, copies the pointers to the arrays of the original. Once a cell of the original was accessed, setting a
  cell of the clone sets it in the original, and the clone outliving the original uses freed memory (C139_copy_refuted). `operator=` resets the pointers. `removeData` leaves the pointer of the band
  behind (C139_remove_refuted).
* **Negative information** (C140): `projectPointcloudWithUncertainty` iterates over the index of the grid which it extends, if the grid had no patches: free patches are treated as hits and make free
  patches themselves, 1, 2, 4, 8, ... per cell (C140_again_refuted). With the sensor below the surface, the height of the free patch is the absolute value of a negative number, and the patch misses
  the line of sight (C140_below_refuted).
* **Old surface maps** (C141): the positions in a file are not compared with the size of the grid (C141_outside), and patches of version 1.0 get the colour that is in memory (C141_colour_refuted).
  If the fourth line is `bin`, a NUL and more than 15 other characters, the file is taken for an empty map.
* **Event filters** (C142): `setFilter( NULL )` dereferences the null pointer (C142_remove), so a filter cannot be removed, and has to live as long as the handler (C142_deleted). A filter knows one
  handler only: set in two, it passes the events of the first to the second (C142_shared_refuted).
* **Flushing a queue** (C143): `process` is called with the mutex held, so that a queue that is registered with the environment that it changes blocks itself and all other threads for ever (C143_deadlock,
  C143_deadlock_refuted). If `process` throws, `flush` leaves all events in the queue: those before the failing one are processed again each time, those behind it never (C143_again_refuted).
* **Queues that do not copy items** (C144): by default `EventProcessor` keeps references to the items themselves. Applying the event that announces an item takes the item away from the source environment (C144_taken),
  and the source tells the queue about it, whose mutex is held at that time (C143_deadlock). Only queues that allow multithreading, which copy the items, replicate an environment.
* **Scaling weights** (C145): `scaleWeight` is documented as "without affecting the uncertainty calculation", but `updateSum` contains a constant 2 (C102) and the average of the variances,
  so that the deviation of patches merged after scaling depends on the factor (C145_deviation_refuted).
* **Importing files** (C146): `importScanFile` creates the scan before it tests whether the file could be opened, and does not delete it then (C146_leak_refuted). `importCsv` does not test whether the frame has an
  environment (C146_free_refuted), as `importScanFile` does.
* **Point clouds in the old text format** (C147): `Pointcloud::unserialize` falls back to a `.txt` stream if the ply file could not be read, but a missing `.ply` stream and every error of the parser are exceptions,
  so that the fallback is never reached (C147_text_refuted).

## 6. Tests of the theorems against wrong programs

`seeded/LOG.jsonl` lists the edits made to scratch copies of the model: wrong boundaries, missed cases, swapped arguments,
dropped updates, and controls that repair a defect or change nothing. For each it names the theorems and lemmas that no longer
proved. An entry whose outcome is "survived" names the theorem that was added or tightened because of it, or explains why the edit is
equivalent to the original; edits were repeated against the tightened theorems.
