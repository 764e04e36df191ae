{"id": "C01", "title": "Lookup by id is exact", "statement": "In every reachable state of an environment, getItem(id) returns an item exactly when an item with that unique id is attached to this environment, it returns that item, and two different attached items never have the same unique id.", "quantifier": "all histories of API calls (attach, detach, link, unlink, id changes, prefix changes, several environments, exceptions included)", "why_tests_cant": "uniqueness must survive every interleaving of explicit ids, generated ids, detaches, moves between environments and failed attaches; tests try a handful of sequences", "anchors": ["src/core/Environment.cpp: attachItem, detachItem", "src/core/Environment.hpp: getItem"]}
{"id": "C02", "title": "An item has at most one owner", "statement": "An item is attached to at most one environment at a time, and item->getEnvironment() is E exactly when E.getItem(item->getUniqueId()) is that item. Attaching an item that belongs to another environment removes it and all its links from that environment.", "quantifier": "all histories over any number of environments and items", "why_tests_cant": "ownership is a whole-history invariant relating two data structures (the item's back pointer and the table of every environment)", "anchors": ["src/core/Environment.cpp: attachItem, detachItem", "src/core/EnvironmentItem.hpp: getEnvironment, isAttached"]}
{"id": "C03", "title": "Generated ids are fresh", "statement": "attachItem on an unattached item whose id is empty or ends with '/' never fails: the item gets the id it asked for as a prefix (the environment prefix if empty or relative) followed by a decimal number, and no item of the environment had that id. Every attached id starts with '/'.", "quantifier": "all reachable environments, all requested prefixes, all values of the id counter below the int limit", "why_tests_cant": "freshness depends on which ids were taken explicitly before and on the counter; the search loop must terminate for every set of taken ids", "anchors": ["src/core/Environment.cpp: attachItem, setEnvironmentPrefix"]}
{"id": "C04", "title": "Ids are stable while attached", "statement": "While an item stays attached its unique id does not change, whatever other API calls are made; setUniqueId on an attached item throws and changes nothing.", "quantifier": "all histories, all items", "why_tests_cant": "has to hold for every call made during the attachment, not for chosen ones", "anchors": ["src/core/Environment.cpp: setUniqueId, attachItem"]}
{"id": "C05", "title": "A rejected attach leaves the environment alone", "statement": "If attachItem throws because the id is taken and the item is not attached to another environment, the items, all five link relations, the registered handlers and the root of the environment are unchanged and no event is sent; only the item itself keeps the id that was asked for. Attaching an item that is already attached here changes nothing at all. The proviso is needed: an item that is attached to another environment is detached there before the id is checked, so a rejected attach loses it.", "quantifier": "all reachable states, all items", "why_tests_cant": "exception safety has to be shown for every state in which the exception can be raised", "anchors": ["src/core/Environment.cpp: attachItem"]}
{"id": "C06", "title": "Detaching removes exactly one item and its links", "statement": "detachItem(item) removes that item and every link that mentions it (frame tree, layer tree, operator inputs, operator outputs, map placement) and keeps every other item and every other link, multiplicities included.", "quantifier": "all reachable states, all attached items", "why_tests_cant": "the link tables are arbitrary finite relations with duplicates; the removal is done through callbacks which search and erase one entry at a time", "anchors": ["src/core/Environment.cpp: detachItem, findMapItem, removeChild, removeInput, removeOutput, detachFrameNode"]}
{"id": "C07", "title": "Deep detach removes exactly the subtree", "statement": "detachItem(frame, deep=true) terminates and removes exactly the frame, its descendants in the frame tree and all maps placed on one of these frames, with all their links; everything else stays.", "quantifier": "all reachable states with an acyclic frame tree, all frames, all depths", "why_tests_cant": "the recursion runs over a table that it mutates; depth and width of the tree are unbounded", "anchors": ["src/core/Environment.cpp: detachItem"]}
{"id": "C08", "title": "One parent per frame, one frame per map", "statement": "In every reachable state a frame node has at most one parent and a map at most one frame node. addChild(p,c) makes p the parent of c and setFrameNode(m,n) places m on n, replacing a previous parent/placement and changing no other link.", "quantifier": "all histories, all pairs of items", "why_tests_cant": "functionality of the relation and the frame condition must hold after any history", "anchors": ["src/core/Environment.cpp: addChild, setFrameNode, removeChild, detachFrameNode, getParent, getFrameNode"]}
{"id": "C09", "title": "Links only connect items of the environment", "statement": "In every reachable state each end of each link (frame tree, layer tree, operator inputs/outputs, map placement) is an item attached to this environment.", "quantifier": "all histories", "why_tests_cant": "a dangling link needs a particular earlier call; the code attaches some but not all arguments", "anchors": ["src/core/Environment.cpp: addChild, addInput, addOutput, setFrameNode, detachItem"]}
{"id": "C10", "title": "The frame tree is a tree", "statement": "In every reachable state following getParent from any frame reaches a frame without parent after finitely many steps, so getRoot, relativeTransform and deep detach terminate.", "quantifier": "all histories", "why_tests_cant": "acyclicity is a global property of an unbounded relation; cycles appear only after particular sequences", "anchors": ["src/core/Environment.cpp: addChild, relativeFrameNodeRoot", "src/core/FrameNode.cpp: getRoot"]}
{"id": "C11", "title": "Layer links can be added and removed", "statement": "addChild(parent, child) on layers makes the link present and leaves all other links alone; adding a link that is already present changes nothing if the child has no other parent; removeChild(parent, child) removes one occurrence of the link and leaves the others alone. The proviso is needed: with several parents a link can be stored twice, and is then still present after removing it.", "quantifier": "all reachable layer link tables", "why_tests_cant": "idempotence fails or holds depending on the order of earlier insertions in a multimap", "anchors": ["src/core/Environment.cpp: addChild(Layer*,Layer*), removeChild(Layer*,Layer*)"]}
{"id": "C12", "title": "Operator arity is respected", "statement": "If an operator declares an input (output) arity n > 0, then through the Operator interface (addInput, setInput, addOutput, setOutput) it never has more than n inputs (outputs); a call beyond the limit throws and changes nothing.", "quantifier": "all histories using the Operator interface", "why_tests_cant": "counts over a multimap after arbitrary histories including detaches", "anchors": ["src/core/Operator.cpp: addInput, setInput, addOutput, setOutput", "src/core/Environment.cpp: addInput, addOutput, getInputs, getOutputs"]}
{"id": "C13", "title": "detachFromOperator does not ungenerate a layer", "statement": "Whenever layer->detachFromOperator() returns, getGenerator(layer) answers the same as before, so a generated layer is still generated. (The documentation promises the opposite; a witness shows a layer that is still generated.)", "quantifier": "all reachable states, all layers", "why_tests_cant": "documented as a guarantee for every layer", "anchors": ["src/core/Layer.cpp: detachFromOperator, isGenerated", "src/core/Layer.hpp: detachFromOperator"]}
{"id": "C14", "title": "getGenerator answers a generator", "statement": "getGenerator(layer) is null exactly if the layer is output of no operator, and otherwise an operator that has the layer as output; so it is the generator if there is only one. That there is only one, as documented, is not enforced: two operators can have the same layer as output.", "quantifier": "all histories", "why_tests_cant": "invariant over all histories of addOutput/removeOutput", "anchors": ["src/core/Environment.hpp: getGenerator", "src/core/Environment.cpp: addOutput, getGenerator"]}
{"id": "C15", "title": "A listener can mirror the environment", "statement": "An event handler that is registered from the creation of the environment on and just records the events it receives (items added/removed, frame links, map placements, layer links added/removed) always has exactly the content of the environment.", "quantifier": "all histories of API calls after registration", "why_tests_cant": "every mutation on every path must send exactly the right events in the right order", "anchors": ["src/core/Environment.cpp: handle, attachItem, detachItem, addChild, removeChild, setFrameNode, detachFrameNode", "src/core/EventSource.cpp"]}
{"id": "C16", "title": "Registration publishes the content", "statement": "On addEventHandler the handler, and nobody else, receives events from which a recording handler learns all items with their content, the root node, all map placements, and exactly the frame links of the tree connected to the root node; it learns of no layer link. So it mirrors the environment exactly if all frames are connected to the root node and there are no layer links; without either condition it does not.", "quantifier": "all reachable environments", "why_tests_cant": "the content is an arbitrary graph; publication walks only some of the tables", "anchors": ["src/core/Environment.cpp: addEventHandler, publishChilds", "src/core/Environment.hpp: addEventHandler"]}
{"id": "C17", "title": "Unregistration takes the content back", "statement": "On removeEventHandler the handler, and nobody else, receives only removals, one for every item, and afterwards no further events. A recording handler that mirrored the environment is empty afterwards if there are no layer links, all frame links and placements are in the tree below the root node and no map is placed on the root node itself; with a map on the root node it is not.", "quantifier": "all reachable environments", "why_tests_cant": "same as C16, in the reverse direction", "anchors": ["src/core/Environment.cpp: removeEventHandler, detachChilds", "src/core/Environment.hpp: removeEventHandler"]}
{"id": "C18", "title": "Link events only mention announced items", "statement": "In the event stream of a handler registered from the beginning, each link event (ADD or REMOVE, frame tree, map placement, layer tree) mentions only items whose ITEM ADD has been sent and whose ITEM REMOVE has not been sent yet.", "quantifier": "all histories, all positions in the event stream", "why_tests_cant": "ordering property of an unbounded trace", "anchors": ["src/core/Environment.cpp: attachItem, detachItem, addChild, setFrameNode"]}
{"id": "C19", "title": "Delivery is to registered handlers, in order", "statement": "Each event is delivered to the handlers registered at that time, once per registration and in registration order; a handler that was removed gets no further events, and other handlers are not affected by its removal.", "quantifier": "all handler registration histories", "why_tests_cant": "ranges over all registration sequences", "anchors": ["src/core/EventSource.cpp: addEventHandler, removeEventHandler, handle"]}
{"id": "C20", "title": "The event queue keeps a minimal set", "statement": "In an EventQueue at every time at most one event is pending per (type, operation, ids) and never an ADD together with a REMOVE for the same (type, ids), and an UPDATE is never pending before a REMOVE of the same item.", "quantifier": "all event sequences passed to the queue", "why_tests_cant": "invariant over all event sequences", "anchors": ["src/core/EventHandler.cpp: EventQueue::handle", "src/core/Event.cpp: Event::merge"]}
{"id": "C21", "title": "Queued synchronization reproduces the source", "statement": "Let a replica be equal to a source environment (items with content, frame links, map placements). After any further history on the source, during which the queue stays registered and in which no id that existed at the beginning is given to a newly attached item and no absent layer link is removed, applying the compressed queue of events to the replica makes it equal to the source again if its root node still exists there; the same for any number of rounds, and for the first round after registration. Both provisos are needed: otherwise an addition and a removal cancel that do not belong together.", "quantifier": "all start states, all histories between two flushes, for any number of flushes", "why_tests_cant": "the queue drops and reorders events; equivalence with the unmerged stream must hold for every history", "anchors": ["src/core/EventHandler.cpp: EventQueue::handle, flush", "src/core/Event.cpp: merge, ref, apply"]}
{"id": "C22", "title": "Applying events keeps a replica consistent", "statement": "Applying any sequence of events (lost, duplicated, reordered, from another environment) to an environment never throws and keeps the environment consistent (C01, C02, C08, C09), provided the ids in link events refer to items of the right kind, no event links a frame to itself and either no listeners are registered or no event updates an item. Links of a frame to itself break the consistency, updates of unknown items with listeners are undefined behaviour, and applying events can create cycles of frames.", "quantifier": "all event sequences, all reachable replicas", "why_tests_cant": "robustness against arbitrary input sequences", "anchors": ["src/core/Event.cpp: ApplyEventHelper, Event::apply", "src/core/EventHandler.cpp: dispatch"]}
{"id": "C23", "title": "Every event kind is dispatched", "statement": "EventDispatcher::dispatch calls exactly one callback for each of the event kinds the library emits, and throws for any other combination of type and operation.", "quantifier": "all 15 combinations of event type and operation", "why_tests_cant": "finite, but stated for the whole enumeration", "anchors": ["src/core/EventHandler.cpp: EventDispatcher::dispatch"]}
{"id": "C24", "title": "Relative transforms compose", "statement": "For frames with a common root: relativeTransform(f,f) is the identity, relativeTransform(child, parent) is the child's transform, relativeTransform(b,c) * relativeTransform(a,b) = relativeTransform(a,c), and relativeTransform(b,a) is the inverse of relativeTransform(a,b); frames without common root raise an exception.", "quantifier": "all acyclic frame trees, all frames, all invertible transforms", "why_tests_cant": "the tree and the transforms are arbitrary", "anchors": ["src/core/Environment.cpp: relativeTransform, relativeFrameNodeRoot"]}
{"id": "C25", "title": "Saving and loading an environment is lossless", "statement": "For every environment in which different maps use different file names and no id ends with the number LONG_MAX, Environment::unserialize(path) after serialize(path) yields an environment with the same items (class, id, content), the same frame tree, layer links, operator inputs/outputs and map placements, and the same root, and leaves everything else alone. Two maps that share a file name are not restored, and the prefix of the environment is not saved.", "quantifier": "all reachable environments whose items have stable (un)serialize functions", "why_tests_cant": "the environment is an arbitrary graph; loading goes through ids", "anchors": ["src/core/Serialization.cpp: FileSerialization::writeToFile, readFromFile"]}
{"id": "C26", "title": "Map files collide only for similar ids", "statement": "Two maps of one environment, of classes without '_' in their names, use the same file name exactly if they have the same class and their ids differ only in having '/' where the other has '_'; so different maps whose ids contain no '_' use different files. Without the proviso files do collide.", "quantifier": "all pairs of ids and class names", "why_tests_cant": "injectivity over all strings", "anchors": ["src/core/Layer.cpp: getMapFileName"]}
{"id": "C27", "title": "Class lookup finds registered classes", "statement": "SerializationFactory::createObject(name) creates an object of the class registered under name, with or without a namespace prefix. A name that is not registered and contains no '::' is looked up without its first character, and refused exactly if that is not registered either; so some names that are not registered create objects.", "quantifier": "all registries, all names", "why_tests_cant": "ranges over all strings", "anchors": ["src/core/SerializationFactory.cpp: createObject"]}
{"id": "C28", "title": "Ids stay fresh after loading", "statement": "After loading an environment, the id counter is above every numeric suffix in use, so that the next generated id is new without search.", "quantifier": "all saved environments", "why_tests_cant": "arbitrary id sets", "anchors": ["src/core/Serialization.cpp: readFromFile", "src/core/Environment.cpp: attachItem"]}
{"id": "C29", "title": "Destroying an environment releases everything", "statement": "Destroying an environment terminates; afterwards no item is attached to it, and exactly the items to which nobody else holds a reference are destroyed.", "quantifier": "all reachable environments", "why_tests_cant": "the destructor loop mutates the table it walks", "anchors": ["src/core/Environment.cpp: ~Environment"]}
{"id": "C30", "title": "No attached item is destroyed", "statement": "No sequence of API calls destroys an item that is attached to an environment, and no API call accesses a destroyed item.", "quantifier": "all histories, including items to which only the environment holds a reference", "why_tests_cant": "reference counts are a whole-history property; the failing schedule needs the right owner set", "anchors": ["src/core/Environment.cpp: attachItem, detachItem, addChild", "src/core/EnvironmentItem.hpp: intrusive_ptr"]}
{"id": "C31", "title": "Grid coordinates round trip", "statement": "For a grid with positive scales: toGrid(fromGrid(cell)) = cell for each cell of the grid; toGrid(x,y) succeeds exactly for points inside the grid rectangle and then returns the cell that contains the point with offsets in [0,scale).", "quantifier": "all grid sizes, scales, offsets and points (exact arithmetic)", "why_tests_cant": "continuum of points and scales; boundary behaviour", "anchors": ["src/maps/GridBase.cpp: toGrid, fromGrid, contains"]}
{"id": "C32", "title": "Grid extents cover the grid", "statement": "getExtents() of a plain grid starts at its lower left corner, contains every point of its cells, and is exactly one cell too large in both directions (so it is not the rectangle covered by the cells, for any grid).", "quantifier": "all grid sizes, scales, offsets", "why_tests_cant": "off-by-one for every size", "anchors": ["src/maps/GridBase.cpp: getExtents, getCellExtents"]}
{"id": "C33", "title": "Bresenham lines are lines", "statement": "lineBresenham(p,q) appends a sequence of grid positions that starts at p, ends at q, has max(|dx|,|dy|)+1 points, moves by one step along the major axis and at most one along the minor axis, stays in the bounding box of p and q and within half a cell of the ideal line.", "quantifier": "all integer end points", "why_tests_cant": "unbounded coordinates, all octants", "anchors": ["src/tools/BresenhamLine.cpp"]}
{"id": "C34", "title": "Rectangle iteration stays in the grid", "statement": "forEachInRectangle terminates; it returns false exactly if a corner is outside of the grid, and otherwise calls the callback only with cells inside the grid, each cell at most once. If the rectangle is not degenerate in rows, the cells are exactly those that lie, in their row, between two points of the outline, which consists of the straight lines of sub-cells between the corners; the corners are those of the rectangle of the given size around the given position, turned by its orientation. Otherwise (finding) a row can be missed.", "quantifier": "all grids of up to 71 million cells per axis, positions, orientations and sizes of the rectangle", "why_tests_cant": "all rectangles, including those across the border of the grid and those whose corners fall into the same row", "anchors": ["src/maps/GridBase.cpp: forEachInRectangle, forEachInRectangles"]}
{"id": "C35", "title": "Layer metadata behaves like a map", "statement": "hasData/getData/removeData on a layer behave like a map from names to values: getData creates on first use, other names are unaffected, a copy of a layer has equal, independent data.", "quantifier": "all histories of metadata calls", "why_tests_cant": "all call sequences", "anchors": ["src/core/Layer.cpp: hasData, removeData, copy constructor, operator=", "src/core/Layer.hpp: getData"]}
{"id": "C36", "title": "Traversability classes can be registered until full", "statement": "registerNewTraversabilityClass returns an id that was not in use, after which getTraversabilityClass(id) is the registered class and all earlier classes are unchanged; it returns false exactly if id 254 is in use, and then changes nothing. (So an empty grid takes 128 classes, not all 256 that the cell type could tell apart.)", "quantifier": "all sequences of registrations", "why_tests_cant": "boundary at 255/256 after a long history", "anchors": ["src/maps/TraversabilityGrid.cpp: registerNewTraversabilityClass, setTraversabilityClass, getTraversabilityClass"]}
{"id": "C37", "title": "Traversability statistics are exact", "statement": "After any sequence of addMeasurement with classes below 255 the total count is the number of calls, the per-class count the number of calls with the class, the minimum distance the minimum over these calls, and the highest class the maximum. Class 255, which the cell type allows, is written outside of the statistics.", "quantifier": "all measurement sequences, all 256 class values", "why_tests_cant": "all sequences; includes the boundary class 255", "anchors": ["src/maps/TraversabilityGrid.hpp: TraversabilityStatistic"]}
{"id": "C38", "title": "Probabilities survive 8 bit storage", "statement": "getProbability after setProbability(p) is within 1/255 of p, never above p, and exact for multiples of 1/255, for p in [0,1].", "quantifier": "all p in [0,1]", "why_tests_cant": "continuum of values", "anchors": ["src/maps/TraversabilityGrid.cpp: setProbability, getProbability"]}
{"id": "C39", "title": "Grassfire terminates and visits what is reachable", "statement": "For patches with non-negative deviations the grassfire expansion of TraversabilityGrassfire terminates, expands each cell at most once and accesses only cells inside the grid. It starts on a patch of the nearest ring of cells that has one fitting the start height, or not at all if there is none. Every cell it spreads from can be reached from the start over drivable patches, every neighbour of such a cell has an entry, and no other cell has. If the patch found in a cell does not depend on the neighbour one comes from, these are exactly the cells connected to the start; otherwise the result depends on the order of expansion, and the start can be an obstacle or not the closest patch.", "quantifier": "all grid sizes, all patch configurations, all start cells", "why_tests_cant": "unbounded grids; termination", "anchors": ["src/operators/TraversabilityGrassfire.cpp: updateAll, checkRecursive, addNeightboursToSearchList"]}
{"id": "C40", "title": "Patch search terminates and respects the robot height", "statement": "getNearestPatchWhereRobotFits terminates for every patch list with non-negative standard deviations; if it reports a non-obstacle patch then no other (non filtered) patch leaves a gap smaller than the robot height above it and the step up to it is at most maxStepHeight.", "quantifier": "all patch lists, all heights and configurations", "why_tests_cant": "the loop follows data dependent references", "anchors": ["src/operators/TraversabilityGrassfire.cpp: getNearestPatchWhereRobotFits"]}
{"id": "C41", "title": "Obstacle growing is a dilation", "statement": "growObstacles marks exactly the cells that are nearer than the clearance to an obstacle cell and changes no other cell.", "quantifier": "all grids, all radii", "why_tests_cant": "all maps", "anchors": ["src/operators/SimpleTraversability.cpp: growObstacles"]}
{"id": "C42", "title": "Class growing yields the worst class in the radius", "statement": "ObjectGrowing/TraversabilityGrowClasses: after growing, each cell holds a class that is present in the input within the radius, and no cell in the radius has a worse class.", "quantifier": "all grids, all radii, all strict weak orders on classes", "why_tests_cant": "result depends on scan order for all grids", "anchors": ["src/operators/ObjectGrowing.hpp: growObjects", "src/operators/TraversabilityGrowClasses.cpp: growTerrains"]}
{"id": "C43", "title": "Smoothing with small windows reads only existing cells", "statement": "For the neighbourhood sizes 0, 1 and 2, FoldOperator::updateAll accesses only cells inside the input grid, and each output cell is the mean of the input cells in its window. For every larger size it reads outside of the grid.", "quantifier": "all grid sizes and window sizes", "why_tests_cant": "boundary cells for every size", "anchors": ["src/operators/Fold.hpp"]}
{"id": "C44", "title": "Closing narrow passages stays in the map", "statement": "closeNarrowPassages terminates and accesses only cells inside the map and the look-up table.", "quantifier": "all map sizes, radii and obstacle positions", "why_tests_cant": "path following through a computed table", "anchors": ["src/operators/SimpleTraversability.cpp: RadialLUT, closeNarrowPassages"]}
{"id": "C45", "title": "Look-up tables are accessed in bounds", "statement": "BoxLookUpTable::getDistanceToBox reads only inside its table for every point nearer to the box than the largest distance in both directions, and RadialLookUpTable::getDistance for every offset the table was computed for, where it answers the squared distance of the offset. The box table refuses points that are too far away in one direction; but neither checks its arguments completely, and both can read outside of their tables.", "quantifier": "all arguments, all table sizes", "why_tests_cant": "boundary for all sizes", "anchors": ["src/tools/BoxLookUpTable.cpp", "src/tools/RadialLookUpTable.cpp"]}
{"id": "C46", "title": "ListGrid cells are lists", "statement": "Each cell of a ListGrid behaves like a list, after every history of operations: insertHead/insertTail/erase/clear change only the addressed cell, erase removes exactly the addressed element and iteration yields the elements in order; the same holds after assigning, resizing and moving the grid, except for erasing the first element of a cell whose list was moved, which leaves it in the list.", "quantifier": "all histories of operations on all cells", "why_tests_cant": "pointer structure with back pointers; bugs need particular histories", "anchors": ["src/tools/ListGrid.hpp"]}
{"id": "C47", "title": "Cell count and index of an MLS grid are right", "statement": "After every history without moving the grid getCellCount() is the number of patches in the grid and getExtents covers them; if the grid is also not assigned to, the index contains every cell with a patch, and if no patch is erased by the user, no other cell. Recomputing the index makes it exact. Each of the provisos is needed: moving, erasing and assigning break the count or the index.", "quantifier": "all histories of insert/update/erase/move/clear", "why_tests_cant": "counters maintained incrementally", "anchors": ["src/maps/MLSGrid.cpp", "src/maps/MLSGrid.hpp"]}
{"id": "C48", "title": "MLS grids survive saving and loading", "statement": "readMap after writeMap restores every patch of every cell in order.", "quantifier": "all grids", "why_tests_cant": "arbitrary number of patches per cell", "anchors": ["src/maps/MLSGrid.cpp: writeMap, readMap"]}
{"id": "C49", "title": "Merging patches is sound", "statement": "Update model KALMAN: merging two surface patches yields a patch whose vertical interval is inside the hull of the two, whose deviation is at most the larger one, and at most the smaller one if the result is a surface; if both are occupied or both are free and the result is a block it covers exactly the hull; the measurement counts are added unless free space meets occupied space; whether two patches merge does not depend on the order. Update model SUM: the interval is the hull, counts are added and the mean is the average of the means, weighted with the inverse variances; whether two patches merge does not depend on the order unless one interval contains the other. The provisos are needed, and a refused merge can modify the patches.", "quantifier": "all pairs of patches", "why_tests_cant": "continuum of values", "anchors": ["src/maps/MLSPatch.hpp: mergeMLS, merge, overlap", "src/tools/Numeric.hpp"]}
{"id": "C50", "title": "Inserting a patch loses no information", "statement": "updateCell(x,y,o): afterwards the information of o and of every patch that was in the cell is contained in some patch of the cell, and, as long as a refused merge does not modify its patches, patches that do not match o are unchanged and in order. The information of o is contained in exactly one patch if at most one patch matches, or if patches that o was merged with can always be merged with each other, as for vertical patches without free space. In other cells o can end up in two patches, or a patch that does not match can change.", "quantifier": "all cell contents, all patches", "why_tests_cant": "result of a double loop over an arbitrary list", "anchors": ["src/maps/MLSGrid.cpp: updateCell"]}
{"id": "C51", "title": "Voxel traversal is connected", "statement": "VoxelTraversal visits a sequence of cells inside the grid starting at the start cell, each sharing an edge with the one before, terminates, and its last cell is next to the cell where it leaves the grid. If the ray is not parallel to the x axis every move is in the direction of the ray; for rays parallel to the x axis that is false.", "quantifier": "all rays, all volumes", "why_tests_cant": "all directions and sizes", "anchors": ["src/tools/VoxelTraversal.hpp"]}
{"id": "C52", "title": "Environment prefixes are normalized", "statement": "setEnvironmentPrefix(s) makes getEnvironmentPrefix() start and end with '/', contains s, and is idempotent.", "quantifier": "all strings", "why_tests_cant": "all strings, including empty", "anchors": ["src/core/Environment.cpp: setEnvironmentPrefix"]}
{"id": "C53", "title": "Id parts recombine", "statement": "getUniqueIdPrefix() + '/' + getUniqueIdSuffix() is the unique id for each id that contains '/', and the suffix contains no '/'.", "quantifier": "all strings", "why_tests_cant": "all strings", "anchors": ["src/core/Environment.cpp: getUniqueIdPrefix, getUniqueIdSuffix"]}
{"id": "C54", "title": "Laser scans survive saving and loading", "statement": "readScan after writeScan into an empty scan restores all lines of a laser scan with their ranges, remissions and angles if the ranges are below 2^31, the remissions as stored at most 2^24, every line has as many remissions as ranges or none, and the angles have at most six digits; reading appends to lines that are already there. Larger ranges are not restored, larger remissions are rounded, and remissions in a different number are lost.", "quantifier": "all scans with integer ranges", "why_tests_cant": "line based text format; all sizes incl. empty lines", "anchors": ["src/maps/LaserScan.cpp: writeScan, parseScan"]}
{"id": "C55", "title": "Two-way lookups agree", "statement": "getParent/getChildren, getFrameNode/getMaps, getParents/getChildren(layer), getInputs/getOutputs/getLayersGeneratedFrom return views of the same links: c is in getChildren(p) exactly when getParent(c) is p, and so on.", "quantifier": "all reachable states, all pairs", "why_tests_cant": "all states", "anchors": ["src/core/Environment.cpp: getParent, getChildren, getFrameNode, getMaps, getInputs, getOutputs, getLayersGeneratedFrom"]}
{"id": "C56", "title": "Traversability classes survive saving and loading", "statement": "After serialising a TraversabilityGrid and loading it, the grid has the same number of classes and every class id has the drivability (and traversability) it had before.", "quantifier": "all histories of setTraversabilityClass and registerNewTraversabilityClass, all class ids", "why_tests_cant": "ranges over all registration histories, including ones that leave placeholders between used ids", "anchors": ["src/maps/TraversabilityGrid.cpp: serialize, unserialize", "src/maps/TraversabilityGrid.hpp: TraversabilityClass"]}
{"id": "C57", "title": "The worst traversability class in a rectangle is the worst covered one", "statement": "getWorstTraversabilityClassInRectangle returns the class of a covered cell such that no covered cell has a class with a smaller drivability, and throws if the rectangle covers no cell.", "quantifier": "all class registries, all sets of covered cells with registered classes", "why_tests_cant": "ranges over all combinations of registered classes, drivabilities and covered cells", "anchors": ["src/maps/TraversabilityGrid.cpp: getWorstTraversabilityClassInRectangle, computeStatistic"]}
{"id": "C58", "title": "Closing narrow passages connects close obstacles", "statement": "After closeNarrowPassages, any two obstacle cells that are nearer to each other than the minimal width are connected by a chain of neighbouring obstacle cells inside of their bounding rectangle, with as few steps as possible; a cell changes only if it lies in the bounding rectangle of two such obstacles, and it becomes an obstacle of full probability.", "quantifier": "all maps, scales and widths; all pairs of obstacles; all cells", "why_tests_cant": "ranges over all arrangements of obstacles and over all positions in the look-up table", "anchors": ["src/operators/SimpleTraversability.cpp: closeNarrowPassages, RadialLUT::precompute, markAllRadius, markSingleRadius"]}
{"id": "C59", "title": "The box look-up table approximates the distance to the box", "statement": "getDistanceToBox answers, for every point in the range the table was computed for except the last tenth of a cell in each direction, the distance from the box of a point that is less than a cell away in both directions. In the last tenth of a cell the answer can be wrong. recompute makes the table this range, unless the scale is so small that no table is left.", "quantifier": "all sequences of recompute calls, all points in range", "why_tests_cant": "ranges over all scales, box sizes and points, including those at the edge of the table", "anchors": ["src/tools/BoxLookUpTable.cpp: recompute, computeDistances, getDistanceToBox"]}
{"id": "C60", "title": "Grassfire classes and probabilities", "statement": "After a run of TraversabilityGrassfire every cell without a patch is UNKNOWN with probability 0; a cell with a neighbour patch more than maxStepHeight higher or lower is OBSTACLE; otherwise a cell with fewer than five known neighbours is UNKNOWN; otherwise the class decreases with the slope of the plane through the neighbours, is OBSTACLE for slopes above maxSlope, and is always one of the registered classes; the probability is min(1, measurements / numNominalMeasurements).", "quantifier": "all multi-level surface maps, configurations with a positive slope and at most 254 classes, plane fitters and start positions", "why_tests_cant": "the class depends on all combinations of known neighbours, heights and slopes and on the conversion of a double to a byte", "anchors": ["src/operators/TraversabilityGrassfire.cpp: setTraversability, setProbability, computeTraversability"]}
{"id": "C61", "title": "Drivable cells are reachable from the start", "statement": "If the robot is at least as high as its step height, every cell that TraversabilityGrassfire gives a drivable class can be reached from the start cell by steps allowed by the patch search, differs by at most maxStepHeight from its known neighbours, and every cell where the search met an obstacle is marked OBSTACLE.", "quantifier": "all multi-level surface maps with non-negative standard deviations, all configurations and start positions", "why_tests_cant": "a safety property of the composition of a breadth first search and a per-cell classification over all maps", "anchors": ["src/operators/TraversabilityGrassfire.cpp: updateAll, checkRecursive, setTraversability, getNearestPatchWhereRobotFits"]}
{"id": "C62", "title": "Voxel traversal stays on the ray", "statement": "In a grid of cells of size 1, every cell that VoxelTraversal reports for a ray with negative direction in x and y is touched by the ray. For other directions and for other cell sizes this is false.", "quantifier": "all grids, start points inside of the grid and ray directions", "why_tests_cant": "the set of rays is infinite and the error depends on the direction, the cell size and the offset in the start cell; the existing test only prints the cells of one diagonal", "anchors": ["src/tools/VoxelTraversal.hpp: init, step"]}
{"id": "C63", "title": "Attaching under a free name", "statement": "Attaching an unattached item whose requested id (the id itself if absolute, otherwise prefix plus id) is not in use succeeds; afterwards the item is found under exactly that id, and no other item, link, handler or setting of the environment changes.", "quantifier": "all reachable environments, unattached items and ids that do not end in a slash", "why_tests_cant": "the effect has to be exact for every content of the environment", "anchors": ["src/core/Environment.cpp: Environment::attachItem"]}
{"id": "C64", "title": "Removing a link removes exactly that link", "statement": "removeChild for frames and detachFrameNode remove the named link if it exists and leave every other link, item and their content alone; if the link does not exist they do nothing at all.", "quantifier": "all reachable environments and arguments", "why_tests_cant": "absence of side effects over all link graphs", "anchors": ["src/core/Environment.cpp: removeChild(FrameNode*,FrameNode*), detachFrameNode"]}
{"id": "C65", "title": "Operator links change exactly as asked", "statement": "addInput/addOutput add exactly the named link (attaching operator and layer if needed), removeInput/removeOutput remove exactly it, removeInputs/removeOutputs all of one operator, and Operator::setInput/setOutput leave exactly the given layer; nothing else changes.", "quantifier": "all reachable environments, operators and layers", "why_tests_cant": "exactness over all operator graphs", "anchors": ["src/core/Environment.cpp: addInput, addOutput, removeInput, removeOutput, removeInputs, removeOutputs", "src/core/Operator.cpp: setInput, setOutput"]}
{"id": "C66", "title": "An attached map has a place", "statement": "Attaching an unattached map with a frame node places it on that node (attaching the node if needed), without one on the root node; the placement of all other maps and all other links stay the same.", "quantifier": "all reachable environments, maps and nodes", "why_tests_cant": "exactness over all environments", "anchors": ["src/core/Environment.cpp: attachItem(CartesianMap*, FrameNode*), setFrameNode"]}
{"id": "C67", "title": "Content changes are local", "statement": "Changing the content of an item (e.g. FrameNode::setTransform) stores exactly the new value and changes no other item and no link, whether or not the item is attached.", "quantifier": "all reachable worlds and items", "why_tests_cant": "all histories", "anchors": ["src/core/FrameNode.cpp: setTransform", "src/core/Environment.cpp: itemModified"]}
{"id": "C68", "title": "Smart pointers destroy exactly unreferenced items", "statement": "Copying a smart pointer changes nothing observable; when one goes away the item is destroyed exactly if it was the last reference and the item is not attached, and nothing else changes.", "quantifier": "all reachable worlds", "why_tests_cant": "reference counts depend on the whole history", "anchors": ["src/core/EnvironmentItem.hpp: intrusive_ptr_add_ref", "src/core/Environment.cpp: intrusive_ptr_release"]}
{"id": "C69", "title": "A new environment contains only its root", "statement": "A newly created environment contains exactly one item, a root frame with id /0, no links, no handlers and the prefix /, and creating it does not affect any other environment or item.", "quantifier": "all worlds", "why_tests_cant": "independence from everything that exists already", "anchors": ["src/core/Environment.cpp: Environment::Environment"]}
{"id": "C70", "title": "Cutting a point cloud keeps exactly the wanted points", "statement": "After CutPointcloud::updateAll the output holds exactly the vertices of the input that are outside all excluding boxes and inside all including ones, transformed into the frame of the output, in their order, each once, with the normals, colours, attributes and variances of these vertices; whatever the output held before is gone. The boxes of the operator form a set.", "quantifier": "all point clouds with complete vertex data, all lists of boxes, all transforms, all previous contents of the output", "why_tests_cant": "the interplay of boxes, optional vertex data and previous contents has unboundedly many cases", "anchors": ["src/operators/CutPointcloud.cpp: addBox, removeBox, isIncluded, updateAll", "src/maps/Pointcloud.hpp: clear, getVertexData"]}
{"id": "C71", "title": "Merging point clouds loses and reorders nothing", "statement": "After MergePointcloud::updateAll the output holds the transformed vertices of all inputs in their order, and as many normals and colours, in the same order; its previous content is kept in front exactly if clearing is switched off. If only some of the inputs have normals the merge is refused.", "quantifier": "all lists of input clouds, all transforms, all previous contents", "why_tests_cant": "any number of inputs and any combination of optional data", "anchors": ["src/operators/MergePointcloud.cpp: updateAll, setClearOutput"]}
{"id": "C72", "title": "Extents of a point cloud are the tightest box", "statement": "Pointcloud::getExtents contains every vertex, each of its faces contains a vertex, and the box of an empty cloud is empty.", "quantifier": "all point clouds with representable coordinates", "why_tests_cant": "universal over clouds of any size", "anchors": ["src/maps/Pointcloud.cpp: getExtents"]}
{"id": "C73", "title": "Transformed extents contain the transformed map", "statement": "Map::getExtentsTransformed contains the image of every point of getExtents in the target frame and each of its faces contains such an image. For two dimensional maps this holds for all transforms that do not mix the height into the plane.", "quantifier": "all boxes, all affine transforms", "why_tests_cant": "universal over real valued boxes and transforms", "anchors": ["src/Core.hpp: Map::getExtentsTransformed"]}
{"id": "C74", "title": "Elevation between cell centres", "statement": "The elevation returned for a position is the value of its cell at the centre of the cell, and for a grid that samples a plane it is the height of the plane at every position in a cell that is not at the border. Positions outside of the grid raise an exception.", "quantifier": "every grid geometry, every plane, every position", "why_tests_cant": "needs all planes, cells and positions; tests sample a few", "anchors": ["src/maps/ElevationGrid.cpp: getNormal, getElevation"]}
{"id": "C75", "title": "Reading a band", "statement": "Reading a band at a position returns the value of the cell that contains the position and raises an exception outside of the grid; reading an elevation grid with unit cells and no offset at a cell returns the value of this cell.", "quantifier": "every grid geometry, band, position and cell", "why_tests_cant": "needs every position, including the borders of cells", "anchors": ["src/maps/Grid.hpp: get; src/maps/ElevationGrid.hpp: get"]}
{"id": "C76", "title": "Projecting point clouds", "statement": "After a projection every cell of the two elevation bands holds the largest and the smallest height of the input vertices above the cell, whatever the order of the inputs; cells without vertices hold infinity; vertices outside have no effect. Heights are those in the frame of the grid, moved by the transform of the root node.", "quantifier": "every list of clouds, every transform, every grid", "why_tests_cant": "orders and positions are unbounded", "anchors": ["src/operators/Projection.cpp: updateElevationMap"]}
{"id": "C77", "title": "Heights of a surface map", "statement": "Copying a surface map to a grid of the same shape gives every cell with patches the mean of its highest patch and leaves the others unchanged; grids that differ in both dimensions or both scales are refused.", "quantifier": "every surface map and every grid", "why_tests_cant": "needs every shape and content", "anchors": ["src/operators/MLSToGrid.cpp: updateAll"]}
{"id": "C78", "title": "Projecting classes", "statement": "A class projection writes to every cell the image of the class of the cell at the same place in the input, and raises an exception if a class has no image. The alignment test passes for grids of the same shape in the same frame, and for no grids of different dimensions or offsets or whose frames are shifted against each other by more than half a unit.", "quantifier": "every class map, every pair of grids", "why_tests_cant": "needs every grid content and every pair of geometries", "anchors": ["src/operators/ClassGridProjection.hpp: updateAll; src/maps/GridBase.cpp: isAlignedWith"]}
{"id": "C79", "title": "Smallest and largest value", "statement": "The minimum and maximum reported for a band are values of the band that bound all others, provided that no value is above the largest number of the type and some value is not below numeric_limits::min().", "quantifier": "every content of the band", "why_tests_cant": "needs every content", "anchors": ["src/maps/Grid.hpp: getMinMaxValues"]}
{"id": "C80", "title": "Coinciding cells", "statement": "For frames that are not turned against each other the test for coinciding cells succeeds exactly for grids whose cells have the same size and whose cells are those of the other grid up to a shift of the numbering.", "quantifier": "every pair of grids and frames", "why_tests_cant": "needs every pair of geometries and frames", "anchors": ["src/maps/GridBase.cpp: isCellAlignedWith"]}
{"id": "C81", "title": "Elevation lookup", "statement": "Looking up elevations in a single elevation grid whose frame is only moved, not turned out of the horizontal, returns for every position of any sequence of lookups the value of the cell below the position moved by the height of the frame, and fails exactly outside of the grid. A first lookup among several grids answers from the first grid that covers the position.", "quantifier": "every grid geometry, frame, and sequence of positions", "why_tests_cant": "needs every geometry, frame and history of lookups", "anchors": ["src/maps/GridAccess.cpp: GridAccess::getElevation"]}
{"id": "C82", "title": "Finding a patch in a cell", "statement": "The distance of two patches of which at least one is flat is the gap between their spans and zero when they overlap. Looking for a patch in a cell returns the first one within the given number of standard deviations that does not stand for free space, and nothing exactly if there is none.", "quantifier": "every pair of patches and every cell content", "why_tests_cant": "needs every list of patches and every real number", "anchors": ["src/maps/MLSPatch.hpp: distance; src/maps/MLSGrid.cpp: get"]}
{"id": "C83", "title": "Surface lookup", "statement": "Looking up a surface at a position of a surface grid returns mean and deviation of a patch in the cell that contains the position and that is within three standard deviations of the asked height, and fails exactly if this cell has none or the position is outside. The lookup through the access object agrees as long as the frame of the grid is not raised or tilted.", "quantifier": "every grid geometry, content, position", "why_tests_cant": "needs every geometry and content", "anchors": ["src/maps/MLSGrid.cpp: get; src/maps/GridAccess.cpp: MLSAccess::getElevation"]}
{"id": "C84", "title": "Patches of a map of grids", "statement": "Asking a map of several surface grids for a patch returns a matching patch of one of the grids if any grid has one at the position, and fails otherwise, for any sequence of questions between which no grid moves; with no earlier question the newest such grid answers.", "quantifier": "every list of grids, every frame, every history of questions", "why_tests_cant": "needs every number of grids and every history of the cache", "anchors": ["src/maps/MLSMap.cpp: getPatch"]}
{"id": "C85", "title": "Grids of a map", "statement": "A grid created in a map is placed at the requested position rounded down to whole cells, so that its cells coincide with those of the active grid when created relative to it in an upright frame. Selecting the active grid takes the nearest one below the threshold, and otherwise creates one at the requested position up to one cell.", "quantifier": "every list of grids, every frame and threshold", "why_tests_cant": "needs all positions and numbers of grids", "anchors": ["src/maps/MLSMap.cpp: createGrid, selectActiveGrid"]}
{"id": "C86", "title": "Parts of a map segment", "statement": "The part chosen for a pose is a nearest one, the best map one of largest positive weight, and the transform that of the part with largest weight, for whole-number weights.", "quantifier": "every list of parts and weights", "why_tests_cant": "needs every list", "anchors": ["src/maps/MapSegment.cpp: getMapForPose, getBestMap, getTransform"]}
{"id": "C87", "title": "Projecting clouds into surface grids", "statement": "Projecting a point cloud puts, for every point in the area of interest, a patch at the height of the transformed point into exactly the cell below it, in the order of the points; other cells and points outside have no effect. With uncertain transforms the patches gathered per cell become, with adapted deviation, the content of the cell of an empty grid, and are put into the cell otherwise. No measurement is lost: the patches of a cell together stand for the old and the new measurements of the cell.", "quantifier": "every cloud, transform, area of interest, grid content and way of merging patches", "why_tests_cant": "needs every order and position of points and every content", "anchors": ["src/operators/MLSProjection.cpp: projectPointcloud, projectPointcloudWithUncertainty; src/maps/MLSGrid.cpp: update"]}
{"id": "C88", "title": "Merging surface grids", "statement": "Merging surface grids puts every patch of the inputs, at its height in the frame of the output, into exactly the cell of the output that contains the centre of its cell; patches outside are left out. The merge of one grid into another agrees with that for frames that are not tilted, the reverse mode of the operator puts into every cell the patches of the input cells that contain its centre, and for frames at the same height with the right heights.", "quantifier": "every list of inputs, their contents and frames", "why_tests_cant": "needs every content and frame", "anchors": ["src/operators/MergeMLS.cpp: updateAll; src/maps/MLSGrid.cpp: merge"]}
{"id": "C89", "title": "Filling a surface grid from an elevation grid", "statement": "Filling a surface grid from a grid of the same shape in the same frame puts the value of each cell into the cell at the same place; in general a cell receives the value of the cell that contains its transformed corner.", "quantifier": "every grid content and shape", "why_tests_cant": "needs every content and geometry", "anchors": ["src/operators/GridFloatToMLS.cpp: convert"]}
{"id": "C90", "title": "Surface grids as point clouds", "statement": "The point cloud made from a surface grid in a frame that is not tilted consists of points at the centres of the cells, at heights covered by the patches of the cell; each horizontal patch gives a point at its mean, vertical patches give points that are at most the mean cell size apart, patches for free space none; the computation terminates.", "quantifier": "every content of the grid and every frame that is not tilted", "why_tests_cant": "needs every content", "anchors": ["src/operators/MLSToPointCloud.cpp: updateAll"]}
{"id": "C91", "title": "Composing uncertain transforms yields valid covariances", "statement": "Composing two uncertain transforms multiplies the transforms, marks the result uncertain exactly if one of the two is uncertain, and gives a covariance (symmetric, no negative variance in any direction) whenever the arguments have covariances; transforming a point and taking the relative transform along any chain of frames does so too, and enlarging an argument's covariance never shrinks the result's. If only the translations are uncertain, their covariances are turned and added exactly; for unturned transforms rotations and translations are propagated by the linear map that moves the right position by the cross product.", "quantifier": "All transforms with orthogonal rotation parts and all covariances over an ordered field; all chains of frames of any length.", "why_tests_cant": "Positive semi-definiteness and monotonicity range over all matrices; a test can only sample some.", "anchors": ["src/core/Transform.cpp TransformWithUncertainty::composition, operator*, inverse", "src/core/Environment.cpp relativeTransformWithUncertainty"]}
{"id": "C92", "title": "Removing an uncertain transform undoes composing with it", "statement": "compositionInv and preCompositionInv recover the other factor: composing with a transform and then removing it gives back the transform and the covariance of the other operand, and removing a transform and then composing with it gives back the original transform and covariance, wherever the derivative of the composed rotation by the unknown one is invertible. (That the result of removing is a covariance for arbitrary arguments is false; the counterexample is proved.)", "quantifier": "All pairs of transforms with invertible derivatives, all covariances.", "why_tests_cant": "An algebraic identity of 6x6 matrices over all transforms.", "anchors": ["src/core/Transform.cpp TransformWithUncertainty::compositionInv, preCompositionInv"]}
{"id": "C93", "title": "Sample statistics are the weighted mean and covariance", "statement": "Inserting any sequence of samples with non-negative weights into the statistics and updating gives exactly the weighted mean and the weighted covariance of the samples (in exact arithmetic), the latter is a valid covariance, and there is no result exactly if the total weight is zero.", "quantifier": "All finite sequences of weighted samples in any dimension.", "why_tests_cant": "All sequences of samples; the incremental formula must agree with the definition for each.", "anchors": ["src/tools/GaussianMixture.hpp Gaussian::Stats::insert, Gaussian::Stats::update"]}
{"id": "C94", "title": "Mixture weights are normalized; an EM step fits components to responsibilities", "statement": "Normalizing a non-empty mixture makes the weights add up to one, keeping their proportions unless they are almost all zero. A step of the expectation maximization keeps the components that explain at least 1e-4 of the sample weights and gives each of them the weighted mean and covariance of the samples under its responsibilities and non-negative weights that add up to at most one, and to exactly one if no component is removed.", "quantifier": "All mixtures, all weighted samples, all non-negative densities.", "why_tests_cant": "Quantifies over all mixtures and samples, including degenerate ones.", "anchors": ["src/tools/GaussianMixture.hpp GaussianMixture::normalize, GaussianMixture::eval, Gaussian::eval", "src/tools/ExpectationMaximization.hpp ExpectationMaximization::step"]}
{"id": "C95", "title": "k-means terminates in a local optimum", "statement": "The k-means run starts from different samples (in their order) and stops for every input after at most as many rounds as there are assignments (plus three). If it delivers a result, every sample belongs to a nearest centre, every centre is the weighted mean of its samples (unless the first centres were already final), no reassignment or (in the former case) movement of centres lowers the sum of squared distances, and the result is at least as good as the initial centres.", "quantifier": "All samples, all non-negative weights, all numbers of classes, every tie-breaking of the nearest neighbour search that is a function of the centres and the point; exact arithmetic.", "why_tests_cant": "Termination for all inputs is a well-foundedness argument, not a test.", "anchors": ["src/tools/ExpectationMaximization.hpp KMeans::initialize, KMeans::calcMeans, KMeans::associateSamples, KMeans::run"]}
{"id": "C96", "title": "Trimming keeps the closest pairs", "statement": "After adding point pairs to an empty set of pairs and trimming it to n, the set stands for min(n, number added) of exactly the added pairs; no pair that was dropped has a smaller distance than a pair that was kept, and the value returned is the largest kept distance. Pairs may not be added after trimming: they then stand for other points (shown by a counterexample).", "quantifier": "all lists of pairs, all n, all ways in which the sort may order equal distances", "why_tests_cant": "Tests sort one list with distinct distances; index bookkeeping errors show only for other orders.", "anchors": ["icp/icp.cpp: Pairs::add, Pairs::trim, Pairs::size", "icp/icp.hpp: Pairs"]}
{"id": "C97", "title": "The aligning transform is rigid with the best translation", "statement": "For at least three pairs the transform returned for a set of pairs is a rotation (determinant one) with a translation, and no other translation with the same rotation gives a smaller sum of squared distances; the mean square error is the mean of the squared distances stored with the pairs (before the transform). With fewer than three pairs an exception is thrown. That the rotation itself is the best one is false: ten points turned by a quarter turn are not brought back (shown by a counterexample).", "quantifier": "all sets of pairs, all eigenvector solvers that return a non-zero vector; the counterexample holds for every correct solver", "why_tests_cant": "Optimality over all translations is a claim about infinitely many alternatives; the unit test only perturbs by small angles.", "anchors": ["icp/icp.cpp: Pairs::getTransform, Pairs::getMeanSquareError"]}
{"id": "C98", "title": "A cloud read with reduced density", "statement": "Reading a point cloud with density d > 0 yields the vertices at positions floor(k/d) for k = 0, 1, ... and ends after ceil(n*d) of n vertices, so for d = 1 every vertex once in order, and for d < 1 no vertex twice; the announced size is that number or one less. A density of zero never ends.", "quantifier": "all clouds and all positive rational densities", "why_tests_cant": "The relation between two roundings must hold for every size and density; tests use one or two.", "anchors": ["icp/icp.hpp: PointcloudAdapter::next, hasNext, size"]}
{"id": "C99", "title": "Iterative alignment is a sequence of justified rounds", "statement": "Aligning a cloud to a model performs at most max_iter rounds; each keeps the closest matches of the moved points (searched within twice the largest distance kept before, at first without limit) and applies a rigid motion with the best translation for them. The total transform is the composition of the rounds' transforms and is rigid; the reported error is the last round's; a further round is made only while the error is above the minimum and has decreased by more than the minimum difference, and it stops only for these reasons, at max_iter, or when fewer than three pairs are found. Applying the result moves every point, seen from the root, by exactly that transform.", "quantifier": "all clouds, all nearest-neighbour searches, sorts and solvers, all parameters", "why_tests_cant": "The claim is about every sequence of rounds; a test runs one pair of clouds.", "anchors": ["icp/icp.hpp: Trimmed::_align, FindPairsKDTree::findPairs, PointcloudAdapter::applyTransform, setOffsetTransform"]}
{"id": "C100", "title": "The search for the best overlap ends and returns the best value seen", "statement": "For a positive interval and a positive accuracy the search for the best overlap ends after finitely many evaluations, evaluates only inside the interval, including its middle, and returns the best of all evaluated results, whatever the evaluated function is. That it finds the minimum of a function with a single minimum is false, however small the accuracy, and for an interval that starts at zero it need not end (both shown by counterexamples).", "quantifier": "all functions, intervals and accuracies", "why_tests_cant": "Termination for every function cannot be tested; the wrong point is only visible for minima in part of the interval.", "anchors": ["icp/icp.hpp: GoldenBracket::findMin, SHIFT3, Trimmed::align"]}
{"id": "C101", "title": "Random sample consensus reports a best supported model", "statement": "The random sample consensus ends after at most hardIterLimit rounds. With a positive limit, success means that a model is reported that was fitted to one of the random choices; its inliers are exactly the samples with an error below the threshold, in increasing order, and no other model that was tried has more. Failure means that hardIterLimit choices in a row had no model. The choices are distinct valid indices; a fitted transform is rigid and brings each chosen sample within the threshold. With limit zero it reports success without a model, and on failure it may have replaced the caller's model (both shown by counterexamples).", "quantifier": "all fitting and testing functions, all sequences of random choices, all estimates of the number of rounds", "why_tests_cant": "The result must hold for every random sequence; tests see one.", "anchors": ["icp/ransac.hpp: ransacSingleModel, pickRandomIndex, FitTransform::fitModel, FitTransform::testSample"]}
{"id": "C102", "title": "The order of measurements in a surface patch does not matter", "statement": "With the update models SUM and SLOPE: if measurements end up in one surface patch, the patch does not depend on the order in which they were merged; measurements that are pairwise closer than the gap size always end up in one patch, in any order. The patch counts the measurements and spans from the lowest to the highest one; with SUM (and with SLOPE for at most three measurements) its height is the mean of the heights weighted with the inverse variances, and is raised by d if all measurements are raised by d. The deviation, in contrast, depends on the height above the origin: two equal measurements at height 10 have a deviation of 14, at height 0 one of 0.001.", "quantifier": "all non-empty lists of measurements with positive deviations, all permutations of them, all gap sizes, all plane solvers", "why_tests_cant": "a test merges a few measurements in one order; the claim is about all lists and all orders", "anchors": ["src/maps/MLSPatch.hpp: SurfacePatch::SurfacePatch, updateSum, updatePlane, mergeSum, mergePlane, merge"]}
{"id": "C103", "title": "A binary message delivers the item it was made from", "statement": "An item that is added or updated is sent as a binary message; applying the message gives the receiver an item of the same class with the same id and content, whatever earlier messages did, provided that the class reads what it writes, its streams have different names and its properties fit into 10000 bytes. Sending the events of a queue as messages and applying the messages has exactly the same effect on the receiver as applying the events themselves; so a replica fed with messages agrees with its source as in C21. Properties that do not fit are cut off without notice and the receiver throws; the streams of a message that failed are used for later messages.", "quantifier": "all items, classes, YAML libraries that read what they write, lists of events, receivers and histories of the source", "why_tests_cant": "a test sends a few items; the claim is about all classes, all contents and all sequences of messages", "anchors": ["src/core/Serialization.cpp: BinarySerialization::applyEvents, applyEvent, unserializeBinaryEvent, serializeBinaryEvent, SynchronizationEventHandler::addBinaryEvent", "src/core/EventTypes.hpp: EnvireBinaryEvent"]}
{"id": "C104", "title": "Context updates let any receiver place the map", "statement": "With context updates and without copied events, the event that announces or updates a map is followed by events that bring any consistent receiver (nobody listening there, shared ids used for items of the same class), whatever it knows or missed, to contain the map and all frames above it with the content of the source, the map placed on its frame and every frame below its parent as in the source; all other items, links and placements of the receiver stay as they are. If somebody listens at the receiver, an unknown frame is undefined behaviour; if the queue copies the items for use in another thread, an assertion fails.", "quantifier": "all reachable states of the source, all maps in it, all consistent states of the receiver", "why_tests_cant": "a test uses one map and one receiver; the claim is about all frame trees and all states of the receiver", "anchors": ["src/core/Serialization.cpp: SynchronizationEventHandler::process, handle, useContextUpdates", "src/core/Event.cpp: Event::ref, ApplyEventHelper", "src/core/Layer.cpp: CartesianMap::getFrameNode"]}
{"id": "C105", "title": "Bands are independent and keep what is stored", "statement": "After any sequence of creating bands, storing cells, setting nodata values and copying bands from other grids, a grid has exactly the bands that were created, written or copied; each cell of a band holds what was last stored or copied there, or zero, whatever happened to other bands and cells; reading a band that does not exist throws; the nodata value of a band is the one last set for it, for all bands at once, or by a copy from a band with one. Operations inside of the grid, with sources of the same size, do not fail. A cell outside of the grid is undefined behaviour, a copy from a grid of another size fails an assertion, and copying a band without nodata value keeps the old nodata value.", "quantifier": "all sizes, cell types, band names, operation sequences and source grids", "why_tests_cant": "a test stores a few cells of one or two bands; the claim is about all interleavings of operations on all bands", "anchors": ["src/maps/Grid.hpp: Grid::getGridData, createBand, hasBand, getFromRaster, setNoData, getNoData, copyBandFrom", "src/core/Layer.hpp: Layer::getData"]}
{"id": "C106", "title": "Imported rasters keep their georeference", "statement": "Reading a band of a raster file as a new grid gives, whichever way the two axes of the file point, a grid and a transform such that the value of every pixel is found in the cell whose centre is at the place where the file puts the pixel; the size, the cell type and the nodata value are those of the file. A band of a grid that is written to a file and read again is found at the same places of the world if the frame of the grid is not turned. Files whose axes are turned by more than the tolerance are refused; the tolerance is per line, so that pixels of an accepted file can be misplaced by many cells, and the direction of the axes is ignored for a grid that knows its scale.", "quantifier": "all raster sizes, contents, bands, origins, scales and directions of the axes; all grids and frames without rotation", "why_tests_cant": "a test reads one or two files; the claim is about all sizes and orientations, including the copy in place that mirrors lines", "anchors": ["src/maps/Grid.hpp: Grid::readGridData, writeGridData, checkBandType", "src/maps/GridBase.cpp: GridBase::readGridFromGdal, fromGrid"]}
{"id": "C107", "title": "Saved grids are loaded with the same bands", "statement": "A grid with cells and a scale, saved as one file per band or as one file for all bands and loaded again, has the same size, scale, offset, bands, cells and nodata values, whatever else is in the directory, and no other files are changed. Written to the streams of a message and read again it has the same size, scale, offset, bands and cells, but no nodata values. The files of two grids with different ids can have the same name, so that loading one gives the cells of the other; a grid without cells cannot be saved.", "quantifier": "all grids, sets of bands, cell contents, paths, frames and other files", "why_tests_cant": "a test saves a few grids; the claim is about all sets of bands and contents", "anchors": ["src/maps/Grid.hpp: Grid::serialize, unserialize, writeGridData, readGridData, getFullPath", "src/maps/GridBase.cpp: GridBase::serialize, unserialize", "src/core/Layer.cpp: Layer::getMapFileName"]}
{"id": "C108", "title": "Images are copied to the cells at their pixels", "statement": "Copying an image with the width of an image grid and at most its height puts the three colours of pixel (x, y) into cell (x, y) of the three bands and keeps all other cells and bands; the same holds for the distances of a distance image of the size of the grid, and for the image made from a band. Copying one grid to another converts the cells that both have and keeps the rest. An image that is larger is written past the end of the bands; a distance image of another width is mixed up, a smaller one read past its end.", "quantifier": "all sizes, contents, bands and conversions", "why_tests_cant": "a test copies one image; the claim is about all sizes, and about what is not changed", "anchors": ["src/maps/Grids.hpp: ImageRGB24::copyFromFrame, copyGridToGrid", "src/maps/Grids.cpp: DistanceGrid::copyFromDistanceImage", "src/maps/Grid.hpp: Grid::convertToFrame"]}
{"id": "C109", "title": "Meshing a scan gives one vertex per accepted reading, with its data", "statement": "If every line of a laser scan has the announced number of readings, and remissions are there for all lines or for none (or are not used), meshing succeeds and the vertices are exactly the readings that pass the filters, in the order of the scan, each with its variance, with the mark for the edge of the scan exactly if it is in the first or last line or column, and with the colour of its remission if there are remissions. Whatever the scan is, a mesh that is returned has as many variances, attributes and normals as vertices, colours for all vertices or none, and its faces refer to three different vertices of it that are closer to each other than the limit. Recording a line of another length is accepted but makes meshing write past or read uninitialised parts of an array; mixed remissions fail an assertion; a scan without lines is undefined behaviour; and the first vertex is in no face.", "quantifier": "all scans, filters, geometry and limits", "why_tests_cant": "a test meshes one scan; the claim is about all numbers of lines and readings, all patterns of missing readings and lines of different length", "anchors": ["src/operators/ScanMeshing.cpp: ScanMeshing::updateAll", "src/maps/LaserScan.cpp: LaserScan::addScanLine"]}
{"id": "C110", "title": "The faces of a meshed scan tile the quads between neighbouring readings", "statement": "For a scan with lines of equal length, the faces of the mesh are, in the order of the scan, the triangles of the quads between neighbouring lines and columns: each face leaves out one corner of a quad whose three other corners are vertices closer to each other than the limit, with the orientation reversed on the other half of the sphere; a quad has at most two faces, and two of them leave out opposite corners, so that they do not overlap; a quad with three usable corners has a face, a quad of which any three corners are usable has two. The first vertex of the mesh is never usable, and after a line that is shorter than the others faces can connect lines that are not neighbours.", "quantifier": "all scans with lines of equal length, patterns of missing readings, geometries and limits", "why_tests_cant": "a test looks at the faces of one scan; the claim is about all patterns of missing and distant readings in every quad", "anchors": ["src/operators/ScanMeshing.cpp: ScanMeshing::updateAll"]}
{"id": "C111", "title": "Normals of a mesh belong to its faces", "statement": "Calculating the normals of a mesh whose faces refer to existing vertices gives each vertex the normal of the last face it is in, brought to unit length, and zero to a vertex that is in no face. It is not an average over the faces, so the result depends on their order.", "quantifier": "all meshes with valid faces, and all functions for the normal of three points", "why_tests_cant": "a test calculates the normals of one mesh; the claim is about all meshes", "anchors": ["src/maps/TriMesh.cpp: TriMesh::calcVertexNormals"]}
{"id": "C112", "title": "Steps of a surface map are the greatest rises to known neighbours", "statement": "With a configuration all of whose members are set and output of the size of the surface map, computing the slopes succeeds. A cell is known if its highest patch has the required number of measurements. The step of a known cell inside of the grid is the greatest rise - difference of heights, plus both deviations if these are used - to the known neighbours it is compared with, if at least five are; the corrected step is that step if it reaches the threshold, and otherwise the greatest of the corrections for the four pairs of opposite neighbours, which is not greater than the step. Other cells and the border are marked as unknown, whatever the output held before. Cells from the third row to the last row but two are compared with all eight neighbours; in the second row and the last row but one some neighbours are overlooked. The corrected step depends on the direction of the step, negative deviations are cut off at 0 by unknown neighbours, output that differs in one dimension only is not rejected but leads to an access outside, and the constructors with two or three arguments leave members unset that are read.", "quantifier": "all sizes of grids, surface maps, configurations, former contents of the output and cells", "why_tests_cant": "tests look at a few cells of a few maps; the claim is about all sizes, all patterns of unknown cells and the order in which the loops visit pairs of cells", "anchors": ["src/operators/MLSSlope.cpp: MLSSlope::updateAll", "src/operators/MLSSlope.cpp: updateGradient", "src/operators/MLSSlope.hpp: MLSSlope"]}
{"id": "C113", "title": "Slopes of a surface map come from a plane through the surrounding surface", "statement": "With a configuration all of whose members are set and output of the size of the surface map, the slope of a known cell inside of the grid is that of the plane fitted to the highest patches of the other cells of the window around it, clipped at the grid, each taken once with its offset and its difference in height, if there are at least five; the slope of all other cells is marked as unknown. Patches with too few measurements are used for the fit although they are not used for steps.", "quantifier": "all sizes of grids and windows, surface maps, configurations and cells", "why_tests_cant": "tests use one window size on one map; the claim is about all windows, also those that reach over the border of the grid", "anchors": ["src/operators/MLSSlope.cpp: MLSSlope::updateAll"]}
{"id": "C114", "title": "Cloning a map copies it, its content and the frames above it, and nothing else", "statement": "Cloning a map that is attached and whose frame hangs below the root node to any environment (also to its own) succeeds as long as numbers for unique ids are left. Afterwards the target has one more map with the content of the original and one new frame for each frame between the original and its root, with the same content and in the same order, the topmost below the root of the target; the copy is on the last of them, so its transform to the root is that of the original. No other item, link or placement in any environment changes, and layer and operator links are not copied. The copy gets a new unique id made of the prefix and a number. A map whose frame does not hang below the root node, or that is not attached, leads to a call on the null pointer. Maps on one frame do not share the frame after cloning.", "quantifier": "all reachable worlds, maps, frame trees of any depth, target environments and transforms", "why_tests_cant": "tests clone one map with one frame to an empty environment; the claim is about every depth, content of the target and history of both environments", "anchors": ["src/core/Layer.cpp: CartesianMap::cloneTo", "src/core/Environment.cpp: EnvironmentItem::EnvironmentItem", "src/core/EnvironmentItem.hpp: ENVIRONMENT_ITEM"]}
{"id": "C115", "title": "Illumination looks at the cells between a cell and the light", "statement": "For each cell the illumination operator walks through the grid and ends after at most as many steps as the grid has columns and rows; it never looks at the cell itself, at the cell of the light or outside the grid. If the light is not in the row of centres of the cell, not above the cell itself and, when it is above the grid, not above the border of a cell, then the cells it looks at are without repetition, each of them meets the straight way from the cell's centre to the light, and every cell whose interior the way crosses is among them, whether the light is above the grid or outside. (In the same row of centres, exactly above a corner, or above the cell itself, the walk leaves the way.)", "quantifier": "all grids, scales, offsets, cells and lights inside and outside of the grid", "why_tests_cant": "the walk depends on the relative position of cell and light in a continuous space, for grids of any size; tests see a few lights", "anchors": ["src/operators/GridIllumination.cpp: updateAll"]}
{"id": "C116", "title": "The light of a cell is the part of the lamp seen above the cells in between", "statement": "Running the illumination operator with an output band other than that of the heights sets every cell of the band to a number between 0 and 1 and changes nothing else. For a lamp with an extent the number is the least part of the lamp seen above one of the cells looked at, measured between the straight lines from the cell's surface to the lower and upper end of the lamp, with lengths between the centres of cells. It is 1 exactly if none of these cells is above the line to the lower end and 0 exactly if one reaches the line to the upper end (is above it, for a lamp without extent). Raising other cells never gives more light; exactly below the lamp the light is 1. For a light in general position (C115) a cell is therefore fully lit only if no cell crossed by the way to the light is above the line. (A wall in the same row of centres is ignored; with the band of the heights as output the result is computed from lights.)", "quantifier": "all grids, heights, lamps of non-negative extent and cells; heights are real numbers", "why_tests_cant": "the light depends on all heights between a cell and the lamp, real numbers; quotients by zero give infinities and NaN that tests with one lamp do not meet", "anchors": ["src/operators/GridIllumination.cpp: updateAll, setLightSource, setOutputBand"]}
{"id": "C117", "title": "Point clouds and meshes survive saving and loading", "statement": "A point cloud or mesh with as many normals and colours as vertices (if it has any) and colours from 0 to 1 can be saved to a PLY file. Reading the file into any object appends vertices and normals (the same numbers with double precision; with single precision the nearest float, which is one if the coordinate is in the range of float), colours as multiples of 1/255 not above the saved ones and less than 1/255 (and a rounding error) below them, and, if both are meshes, the faces. Without colours and other data a new object of the same kind becomes equal to the saved one. Saving what was loaded gives the same bytes, so nothing more is lost however often this is done. What earlier reads have left behind has no influence. A file that misses bytes at the end is never accepted: reading throws. With a different number of normals or colours than vertices saving throws. (Variances and other data are lost; colours outside 0 to 1 are undefined behaviour; a cloud copied from a sample without colours cannot be saved; in files of other programs the order of coordinates and the number of corners matter.)", "quantifier": "all point clouds and meshes, both precisions, all objects read into, all values left by earlier reads, all points of truncation", "why_tests_cant": "all doubles, including NaN, infinities and denormals, all sizes and all lengths of incomplete files", "anchors": ["src/tools/PlyFile.cpp: serialize, unserialize, vector_property_callback, list_property_element_callback", "src/maps/Pointcloud.cpp: writePly, readPly, copyFrom", "src/maps/TriMesh.cpp: serialize, unserialize"]}
{"id": "C118", "title": "A distance image becomes the points on the rays through its cells", "statement": "Running the distance image operator replaces the cloud by one vertex for every cell whose distance is a normal number below the limit, column by column: the point at this distance (along the axis) on the ray through the cell's centre in the image plane at distance one, transformed to the frame of the cloud. Its variance is the distance times the uncertainty factor; with an image that covers the distance image its colour is that of the pixel of the same cell, scaled to 0 to 1. Seen from the frame of the image every vertex projects back into the cell it came from, whose distance it has. The result has one variance and one colour for each vertex if the cloud had no normals and attributes, and no colours if there is no image. (Negative distances are accepted; a smaller image or a missing distance image is undefined behaviour; without an image an empty list of colours may remain.)", "quantifier": "all grids, distances, images, transforms, limits and previous contents of the cloud", "why_tests_cant": "the assignment of points to cells must hold for every size, scale and offset of the grid and every pattern of missing distances", "anchors": ["src/operators/DistanceGridToPointcloud.cpp: updateAll"]}
{"id": "C119", "title": "Thinning a point cloud keeps normals and colours with their points", "statement": "Running the simplification operator on a cloud with a normal and a colour for each vertex (or none at all) appends the remaining vertices to the output. Each comes from another vertex of the input, at its place unless smoothing is on, and has the normal and colour of this vertex, whatever the library removes or moves. An empty output becomes a complete cloud of at most as many vertices; with all steps switched off the input is copied. (The output is not cleared, variances are not copied, and with too few normals an exception leaves a vertex without normal.)", "quantifier": "all clouds, all choices of points by the library, all combinations of steps", "why_tests_cant": "which points remain is decided by the library, for every order and subset the data must stay together", "anchors": ["src/operators/SimplifyPointcloud.cpp: updateAll"]}
{"id": "C120", "title": "Polygon sets answer for the current poses of the polygons that are asked about", "statement": "Fill sets with polygons, and then ask one of them about any polygons, moving polygons that are in no set in between, in any order and as often as you like. Then every answer is right for the poses at the moment of the question, although a repeated question is answered from memory: isIntersecting is true exactly if a member whose area's box overlaps that of the polygon touches it; the minimal distance is below the limit of touching if one does, otherwise the least distance to the members whose boxes overlap, or the largest float if there are none. If the areas cover the polygons, isIntersecting is true exactly if some member is touched. isInside is false if no member is touched; if one is, it tests every vertex as given against this member in the pose of the polygon. (Asking a second set after a move, adding to a set or setting an area after a question, and moving a member give stale answers; isInside is wrong for a polygon that was moved and for one that touches two members.)", "quantifier": "all polygons and poses, all orders of visits, all histories of moves and questions", "why_tests_cant": "the remembered answer depends on the whole history of moves and questions; a test sees some of them only", "anchors": ["src/maps/PolygonMap.cpp: Polygon::move, Polygon::setDistanceCalculationArea, PolygonSet::add, PolygonSet::doQuery, PolygonSet::getMinimalDistance, PolygonSet::isIntersecting, PolygonSet::isInside, PolygonSetData::QueryCallback"]}
{"id": "C121", "title": "The drawing of an environment shows its items and links", "statement": "For every environment that API calls can produce, the graph written by GraphViz has exactly one node for each item, labelled with its unique id and of a form for its kind, and exactly one edge for each link: from child frames to parents, from parent layers to children, from inputs to operators, from operators to outputs and from frames to maps. If no two ids become equal when slashes are replaced by underscores, different items are different nodes, and there is an edge between the nodes of two items exactly if they are linked. (Otherwise items are merged in the drawing.)", "quantifier": "all environments reachable by legal API calls", "why_tests_cant": "environments grow without bound; that each link is drawn once between the right nodes must hold for all of them", "anchors": ["src/tools/GraphViz.cpp: GraphViz::writeToFile, dot_id"]}
{"id": "C122", "title": "Reading point clouds from text keeps the chosen lines", "statement": "Reading a text file of lines with three numbers (or four with a remission value), possibly followed by white space and more text, of at most 254 characters each, with or without a newline at the end, appends one vertex for each chosen line, in their order, with the numbers as the stream converts them, and with remission values one colour for each. Without sampling all lines are chosen, otherwise those for which the random number is a multiple of the sample parameter. A cloud with vertices that is written as text and read into an empty one has its vertices again, rounded to the precision of the stream; everything else is lost. (An empty file, an empty line at the end and a line with column names give undefined values, a letter instead of the last number may be read forever, the rest of a line of more than 255 ignored characters counts as another line, and remission values become shades of red.)", "quantifier": "all files of such lines, numbers, additional texts, random numbers and previous contents of the cloud", "why_tests_cant": "the loop ends by the states of the stream, which depend on every character up to the end; a test covers some files only", "anchors": ["src/maps/Pointcloud.cpp: Pointcloud::writeText, Pointcloud::readText"]}
{"id": "C123", "title": "Histograms of match distances", "statement": "Of a sorted, non-empty list of distances, with m >= 1 bins (an integral number), positive area and positive sigma, computing the normalized histogram gives m + 2 heights. The m inner bins divide the interval of length area around the mean, in units of sigma, into equal parts; two outer ones take the rest; every distance lies in exactly one. The height of a bin is the share of distances in it over a divisor: for the highest bin that has a distance its own width (for an outer bin this may be how far the extreme value is from the mean), for lower ones the whole area. The classification is computed if there are at least seven bins; otherwise it throws. (Without distances the behaviour is undefined; unsorted ones are counted in wrong bins; bins of one width with as many distances may differ in height; without normalization no histogram is computed and the classification throws.)", "quantifier": "all numbers of bins, areas, means, deviations and sorted lists of distances", "why_tests_cant": "the loop over distances and bins ends in three ways, depending on where the distances lie; a test covers some lists only", "anchors": ["icp/stability.cpp: Histogram::calculateNormalizedHistogram, Histogram::calculateHistogram, Histogram::calcSVMValue"]}
{"id": "C124", "title": "Clusters of poses", "statement": "Clustering poses with removal of outliers and at least one point required always ends. Points are removed one at a time, while there are enough and the length of the vector of variances of the positions, or else the square of the difference of the first angle from the mean one, exceeds its limit; the one removed is the first whose distance from the origin, or else whose angle, differs most from that of the mean. The remaining points keep their order. On success enough are left, they are within both limits, and mean and covariances are theirs. Without success there were too few at first and mean and covariances stay (those of a new clustering: no mean, and covariances of zero), or one too few are left now and mean and covariances are those before the last was removed. Without removal of outliers the points are kept, and success means that there are enough. If Cholesky factors are lower triangular, the limits that are set are not negative, as is assumed. (The removed point need not be the farthest from the mean; angles that differ by more than the limit are accepted, as only the first counts; the limit for the orientation comes from the covariance of the position; before limits are set the behaviour is undefined; of no points, if none are required, there is a cluster without a mean.)", "quantifier": "all lists of poses, configurations, limits and previous states", "why_tests_cant": "outliers are removed until the limits hold, and that they do at the end, whatever the points, is a fact about means and lengths; a test covers some points only", "anchors": ["icp/stability.cpp: Clustering::cluster, Clustering::removeOutliers, Clustering::calcMean, Clustering::calcVariance, Clustering::defOutlinerRegion"]}
{"id": "C125", "title": "Samples around a pose", "statement": "The columns of the sigma points of a covariance have a length of at most the maximum and, if the minimum is not negative nor above the maximum, of at least the minimum; they are the multiples of the columns of the Cholesky factor where these are within the limits. After a search region is set, whatever was done before and with any other offsets in between, the sigma offsets returned are in order: none, the first two columns for the position, the length of the third for the orientation as an angle about z, these three with the other sign, and then none forever. Random offsets are horizontal, the sums of the columns with the random factors, and for factors in [-1, 1] within the sum of the lengths of the columns, and the angle within that length. (Before a region is set the behaviour is undefined; sigma offsets can have a vertical part.)", "quantifier": "all covariances, configurations, previous histories and sequences of requests", "why_tests_cant": "the offset depends on how many were asked for since the last region was set; a test covers some sequences only", "anchors": ["icp/stability.hpp: SigmaPoints::calcSigmaPoints, Sampling", "icp/stability.cpp: Sampling::defSearchRegion, Sampling::getUniformSample, Sampling::getSigmaSample, Sampling::calcSigmaSamples"]}
{"id": "C126", "title": "Laser scans collected into point clouds", "statement": "After initializing with n >= 1 lines (below 2^31) and any sequence of scans and point clouds that begins with a scan, the window has the newest n, in their order, of the scans that were taken. A scan is taken if it is the first, or if it differs from each of the newest n taken: the body moved far enough between the two, or the directions of the lasers' y axes differ enough. There is a new point cloud if and only if more than n scans were taken, and more than the minimum since the last point cloud. The vertices of a point cloud are the points of the scans in the window, in order, and the last scan's transform of body to odometry takes each to where the odometry of its own scan puts it; the cloud's own transform is that of the last scan to the world. An offset for a sample turns the cloud about its own origin and moves it. (With no lines or before the first scan a point cloud is undefined; with a negative number nothing is ever removed; the direction compared with is that of the last scan, shifted by a difference of positions, so that a scan that is in the window can be added again.)", "quantifier": "all numbers of lines, minima, thresholds and sequences of scans and point clouds", "why_tests_cant": "which scans are in the window depends on the whole history, as a scan is compared with those that were taken before; a test covers some sequences only", "anchors": ["icp/icpLocalization.cpp: IcpLocalization::initializePointCloud, addLaserScan, addScanLineToPointCloud, hasNewPointCloud, generatePointcloud, generatePointcloudSample"]}
{"id": "C127", "title": "Matching a point cloud in an environment", "statement": "Let a point cloud be just made, and let there be room for two more unique ids in the environment. Matching it succeeds, and the result has the transform that the matching gave to its frame if and only if there were pairs. If the cloud is saved and a path for debugging is set, it is in the environment under a new number, on a new frame below the root with that transform; all other items and links are as before; and removing the last saved cloud makes items, links and contents those before the cloud was made. If it is not saved, or no path is set, this holds right after the match. (A cloud that is not saved is destroyed, although its address remains in the caller's data: matching it again or removing it is undefined.)", "quantifier": "all reachable environments, contents, transforms, numbers of pairs and flags", "why_tests_cant": "the environment may have any items and links, and nothing of them may change; a test covers some environments only", "anchors": ["icp/icpLocalization.cpp: ICPLocalization::doScanMatch, ICPLocalization::removeLastSavedPointCloud", "src/core/Environment.cpp: Environment::attachItem, detachItem, addChild, setFrameNode"]}
{"id": "C128", "title": "Classifying terrain by slopes and steps", "statement": "Let a traversability operator have a band of slopes that are numbers, a positive maximum slope and between 1 and 253 classes (at most 252 if passages are closed), and let its inputs be at least as large as the output. A cell whose step is known and above a ground clearance that is not zero is an obstacle; otherwise a cell without a slope is unknown; a cell with a slope (in either direction) above the maximum is an obstacle; any other has the class 2 + n - i for n classes, where i is the integer nearest to n times the slope divided by the maximum. If a minimal width is set, obstacles nearer to each other than it become connected by chains of obstacles; if a clearance is set, every cell nearer to an obstacle than it becomes an obstacle; no other cell changes. The probability is 255 for all cells that are known, and zero for the others except for closed passages. (Without slopes or without a maximum slope, cells keep the class of an earlier update; slopes that are not numbers and smaller inputs are undefined.)", "quantifier": "all maps of slopes and steps of any size, all values for missing data, all configurations and all previous contents of the output", "why_tests_cant": "maps, configurations and rounding have unboundedly many cases, and cells change by interaction over any distance", "anchors": ["src/operators/SimpleTraversability.cpp: SimpleTraversability::updateAll", "src/operators/SimpleTraversability.hpp: SimpleTraversabilityConfig"]}
{"id": "C129", "title": "Drivability of classified terrain", "statement": "If there are at least five classes, or the output map has a class 7 already, the update succeeds. Then obstacles have the drivability zero, the class 2 + i of n classes has 1/n + (1 - 1/n) i/n, and classes above 2 + n are as before. Unknown terrain has the class nearest to the mean of all cells that are known, or the drivability of class 7 if all cells are unknown or the mean is nearer to that of an obstacle. Of two cells with a slope the one with the gentler slope has at least the drivability of the other, unless it has become an obstacle, and flat terrain has the drivability one. (With fewer classes and a new map the update throws after it has written the map.)", "quantifier": "all maps, configurations and previously registered classes", "why_tests_cant": "order and mean relate all pairs of cells, and the classes registered before are arbitrary", "anchors": ["src/operators/SimpleTraversability.cpp: SimpleTraversability::updateAll", "src/maps/TraversabilityGrid.cpp: setTraversabilityClass, getTraversabilityClass"]}
{"id": "C130", "title": "Parameters of operators in files", "statement": "Saving an operator that classifies terrain and loading the file gives the same slope band, step band and their layers (for those inputs that have both), maximum slope, number of classes, ground clearance, minimal width and output band. A scan meshing operator keeps the largest length of edges and the least range; the conversions between grids and surface grids keep their band or layer name. This holds whatever the parameters of the loading object were, and a parameter that is missing in the file keeps its value. (The clearance around obstacles is not saved, so terrain next to obstacles is not an obstacle any more after loading; and the file has the length of edges in the place of the remission factor.)", "quantifier": "all parameters, names, ids, labels, and all previous parameters of the loading operator", "why_tests_cant": "parameters and names are arbitrary, and each combination of missing inputs writes another file", "anchors": ["src/operators/SimpleTraversability.cpp: serialize, unserialize", "src/operators/ScanMeshing.cpp: serialize, unserialize", "src/operators/GridFloatToMLS.cpp: serialize, unserialize", "src/operators/MLSToGrid.cpp: serialize, unserialize", "src/core/Serialization.cpp: Serialization::read, Serialization::write"]}
{"id": "C131", "title": "Difference in height of two surface maps", "statement": "For two surface maps with the same number of cells whose own patches have positive deviations, the difference in height is the mean of the distances between each patch of the other map and the closest patch of this map in the same cell, weighted by the inverse of the sum of their variances; the variance that is returned is the inverse of the sum of the weights, is positive and not above that of any of the pairs. The difference lies between the bounds of these distances. If the other map is a map with one flat surface raised by d, the result is the absolute value of d. (So a map that is lower gives the same result as one that is higher; maps without a common cell, or with patches without any deviation, give something that is not a number.)", "quantifier": "all surface maps, patches and cells; all offsets", "why_tests_cant": "the result depends on all patches of all cells of both maps at once, so examples cannot establish the weights or the bounds", "anchors": ["src/maps/MLSGrid.cpp: MLSGrid::matchHeight, getNearestPatch", "src/maps/MLSPatch.hpp: SurfacePatch::distance"]}
{"id": "C132", "title": "Matching a surface map into another", "statement": "For a positive sampling number k and tolerance sigma, matching an indexed surface map into another one considers every k-th cell of the index that has patches and whose transformed centre lies on the other map. The result is the share of these in which at least one patch, raised by the offset, is within sigma deviations of a patch of the other map that does not stand for free space; it is 1 if there are no such cells, and always between 0 and 1. A map matches into itself with the result 1 (if each non-empty cell has a patch with positive deviation that does not stand for free space). A larger tolerance never lowers the result. A map without an index is refused with an exception. (The height of the transform is ignored; it is the share of cells, not of patches; a sampling number of zero is undefined.)", "quantifier": "all maps, indices, transforms, offsets, sampling numbers and tolerances", "why_tests_cant": "the share depends on all cells, the transform and the set of sampled cells; the relation between different tolerances concerns all maps", "anchors": ["src/maps/MLSGrid.cpp: MLSGrid::match, MLSGrid::get", "src/maps/GridBase.cpp: toGrid, fromGrid"]}
{"id": "C133", "title": "Paths laid onto the surface of a map", "statement": "A path given by cells of a surface map is returned with the same cells in the same order; its height begins with the given one, in each cell goes to the top (mean plus two deviations) of the patch that is closest to the last height, and is kept in cells without patches; the given offset is added to each height. The same holds for the points of a spline, except that points off the map keep their height and do not change the last one. (A cell off the map is undefined; patches that stand for free space count as surfaces.)", "quantifier": "all maps, sequences of cells or points, initial heights and offsets", "why_tests_cant": "each height depends on all cells before it, and paths have any length", "anchors": ["src/maps/MLSGrid.cpp: MLSGrid::projectPointsOnSurface, MLSGrid::projectSplineOnSurface", "src/maps/MLSPatch.hpp: SurfacePatch::getMaxZ"]}
{"id": "C134", "title": "A rectangle and the border around it", "statement": "forEachInRectangles, called for two rectangles with the same centre and orientation, the inner one with positive sizes that do not exceed those of the outer one, on a grid of up to 71 million cells per axis: it returns false, without calling anything, exactly if a corner of one of the rectangles is not on the grid. Otherwise, unless the inner rectangle rises to the right by so little that its upper side stays within a tenth of a cell: no cell is called twice; the inner callback is called for exactly the cells of the grid between two points of the outline of the inner rectangle in the same row; the outer callback is called for exactly the cells between the outlines in rows that both have, and between points of the outer outline in the other rows. So every cell between points of the outer outline gets exactly one call. For an inner rectangle that rises by less than a tenth of a cell, cells in the middle of the outer one are missed (finding); an inner rectangle larger than the outer one is never reported (finding).", "quantifier": "every grid, centre, orientation and pair of sizes, corners within the range in which cell coordinates do not wrap", "why_tests_cant": "The rows in which the two outlines start and end depend on sizes, angle and position in infinitely many ways; the missed cells only appear for tilts below a tenth of a cell.", "anchors": ["src/maps/GridBase.cpp:forEachInRectangles", "src/maps/GridBase.cpp:getRectPoints", "src/maps/TraversabilityGrid.cpp:computeStatistic"]}
{"id": "C135", "title": "Transforms of frames in files", "statement": "Saving a frame and loading it gives a frame with the same sixteen entries of the transform and, if it had one, the same covariance; a frame saved without a covariance leaves that of the loading frame as it is. Reading a sequence of numbers as a square matrix of k rows puts them in row by row if there are k*k of them, and ends with an exception if there are fewer. With more, the first surplus number is written outside of the matrix (finding), and without the key a null pointer is followed (finding).", "quantifier": "every transform and covariance, every sequence of numbers in the file", "why_tests_cant": "The entries can be any numbers and the files any files; a test fixes a handful of matrices, and a swap of rows and columns is invisible for symmetric ones.", "anchors": ["src/core/Serialization.cpp:write", "src/core/Serialization.cpp:read", "src/core/FrameNode.cpp:serialize", "src/core/FrameNode.cpp:unserialize"]}
{"id": "C136", "title": "Descriptions of grids in files", "statement": "The description of a grid (numbers of cells, scales and offsets, id, label, flag) is read back as saved, whatever else an item writes under other keys, and a program of an older version finds width and height; a file with only width and height is read. A surface grid that was saved and is loaded as a new one has the same id, label, flag, description, colour setting, update model and the same patches in every cell, also if its stream only exists under the name of the old class; without a stream of either name loading ends with an exception. GridBase::create gives a surface grid with the given description, without patches, id or label. Asked for a class with other required entries (a frame), it follows a null pointer (finding).", "quantifier": "every description, every surface grid reached by any operations, every additional entry, every stored file", "why_tests_cant": "It must hold for every combination of sizes, settings, patches and additional entries, and for files of both versions.", "anchors": ["src/maps/GridBase.cpp:serialize", "src/maps/GridBase.cpp:unserialize", "src/maps/GridBase.cpp:create", "src/maps/MLSGrid.cpp:serialize", "src/maps/MLSGrid.cpp:unserialize", "src/maps/MLSGrid.cpp:writeMap", "src/maps/MLSGrid.cpp:readMap"]}
{"id": "C137", "title": "Filling the gaps of an elevation map", "statement": "Interpolating a band leaves every known height as it is. A cell without a height that lies in the rows and columns between known ones (the last row and column excluded) and in a triangle of known cells gets the height of the plane through three known cells, not on a line, whose triangle it is in; that height is between the least and the largest known one, and on the plane if all known heights are on one. Cells outside of that box, and all cells if the known ones are on a line, stay unknown. After updateAll, the band of the maxima is the highest vertex above each cell and interpolated from those elsewhere, while the band of the minima is not interpolated. The last row and column of known cells is never filled, even between two known ones (finding); a cell in the box but in no triangle of known cells is filled with the help of the uninitialised coordinates of a vertex and can get any height (finding).", "quantifier": "every grid, every content of the band, every cell; every point location in a triangulation that meets the stated contract", "why_tests_cant": "The shape of the triangulation depends on which cells are known; a test sees a few patterns, and the results with uninitialised coordinates differ from run to run.", "anchors": ["src/operators/Projection.cpp:interpolateMap", "src/operators/Projection.cpp:updateAll", "src/operators/Projection.cpp:updateElevationMap"]}
{"id": "C138", "title": "Statistics of a rectangle in a traversability grid", "statement": "On a grid with square cells, for a rectangle that is at least eight cells large, inside of the grid, in any orientation for which C34's cells are exact: computeStatistic counts the class of each cell of the rectangle once, with the distance between the middle of that cell and that of the cell the centre is in; so number, least distance and highest class are those of the cells. getWorstTraversabilityClassInRectangle returns the class of a cell of the rectangle, and no cell of it has a class of a smaller drivability. getWorstProbabilityInRectangle returns the least probability of the cells. If a corner is outside of the grid, the statistic stays empty, the worst class is an exception, but the worst probability is 1, the best one (finding). For a rectangle of about the size of a cell, or cells that are not square, distances are read outside of the table (finding).", "quantifier": "every grid, every content, every position and orientation, every size within the stated bounds", "why_tests_cant": "Which cells are covered and which entries of the table are read depends on orientation and position; tests see a few poses.", "anchors": ["src/maps/TraversabilityGrid.cpp:computeStatistic", "src/maps/TraversabilityGrid.cpp:StatisticHelper", "src/maps/TraversabilityGrid.cpp:getWorstTraversabilityClassInRectangle", "src/maps/TraversabilityGrid.cpp:getWorstProbabilityInRectangle"]}
{"id": "C139", "title": "Cells of several traversability grids", "statement": "Whatever the order of calls on several traversability grids (creation, destruction, assignment, set and get of traversability and probability, access to the bands through getGridData, copies, removal of bands), each grid has its own cells per band: a value read is the last one written to that cell of that band of that grid, or inherited by the last assignment or copy, or 0; a band that was never accessed is an exception for a constant grid only. Restriction: the copy constructor and clone are only used on, and removeData only applied to, grids whose cells were not accessed with set or get since they were made or assigned to. Without it: a value set in a clone is set in the original and not in the clone, and after the destruction of the original the clone's cells are read from freed memory (finding); the same for a band that was removed (finding).", "quantifier": "every finite sequence of calls on any number of grids of any size", "why_tests_cant": "The pointers to the arrays outlive copies, assignments and removals; only some orders of calls show it, and reads of freed memory often return the old value.", "anchors": ["src/maps/TraversabilityGrid.cpp:operator=", "src/maps/TraversabilityGrid.cpp:setTraversabilityArray", "src/maps/TraversabilityGrid.cpp:setProbabilityArray", "src/maps/TraversabilityGrid.hpp:TraversabilityGrid", "src/core/EnvironmentItem.hpp:clone", "src/core/Layer.cpp:removeData"]}
{"id": "C140", "title": "Free space between the sensor and the surface", "statement": "A point cloud projected with negative information into a surface grid that has patches: the points are first gathered in an empty grid; then each patch of that grid, in the order of the cells, is merged into its cell, and after it one free patch into each other cell of the straight line of cells to the sensor, none into the cell of the patch itself. At the k-th of n steps to the sensor, the free patch spans, at the fraction f = (n-k)/n of the way from the sensor to the patch, from the line to the lower end of the patch to the line to its mean raised by the rise over one cell, with f times the deviation; if the sensor is not below the patch, this contains the line of sight to the mean. A sensor outside of the grid is an exception that leaves the grid as it was. Findings: with the sensor below the patch the free patch can miss the line of sight; in a grid without patches, free patches are taken for surfaces in turn, so that one hit can make 2^k free patches in a cell k steps further.", "quantifier": "every grid of at most 715827882 cells per axis, point cloud, transform, position of the sensor, rule for merging patches, and content of the grid", "why_tests_cant": "Lines of cells of any slope and length, all positions of sensor and points; that the free patches lie on the line of sight is a relation of all fractions.", "anchors": ["src/operators/MLSProjection.cpp:projectPointcloudWithUncertainty", "src/operators/MLSProjection.hpp:useNegativeInformation", "src/maps/MLSPatch.hpp:getMinZ", "src/maps/MLSPatch.hpp:getMaxZ"]}
{"id": "C141", "title": "Surface maps in files of any version", "statement": "A file of a surface grid of version 1.0, 1.1, 1.2 or 1.3 is read into a grid: each record becomes one patch, added at the end of its cell in the order of the file, with what was there before untouched, and bytes behind the last whole record are ignored. A record of an old version becomes a single measurement with its mean, deviation, height, kind and index, whose extent is its mean, and the colour of the record if the version has one. A file with any other first line, version, record size or format, or with a line of these that is too long, is an exception that leaves the grid as it was. Findings: a record with a position outside of the grid is undefined behaviour in every version; the colour of a patch of version 1.0 is not determined.", "quantifier": "every file as a sequence of bytes, grid and content before, size and layout of the records of each version", "why_tests_cant": "Maps written by any earlier release, and damaged files: lines of any length, NUL characters, unfinished lines and records, and any number of records.", "anchors": ["src/maps/MLSGrid.cpp:readMap", "src/maps/MLSGrid.cpp:SurfacePatchStore10", "src/maps/MLSGrid.cpp:SurfacePatchStore11", "src/maps/MLSGrid.cpp:SurfacePatchStore12", "src/maps/MLSGrid.cpp:SurfacePatchStore13"]}
{"id": "C142", "title": "Filters of event handlers", "statement": "A handler in which no filter was set receives exactly the events sent to it, once and in order. Otherwise the filter that was set last decides about each event; what the filter passes on by itself meanwhile is received before the event, and by the handler in which that filter was set last. If every filter is set in one handler only, what a handler receives does not depend on operations on other handlers and their filters. A filter that was replaced can go on passing events to the handler. Findings: a filter set in two handlers passes events that were sent to the first one to the second one; there is no way to remove a filter, as a null pointer is dereferenced, so that a handler whose filter was deleted cannot be used any more.", "quantifier": "every history of sending events, setting filters, filters passing events by themselves, and deleting handlers and filters, and every behaviour of filters with a memory", "why_tests_cant": "Histories of any length over any number of handlers and filters; filters are code of the user that may hold back, drop, or invent events.", "anchors": ["src/core/EventHandler.cpp:EventHandler::receive", "src/core/EventHandler.cpp:EventHandler::setFilter", "src/core/EventHandler.cpp:EventFilter::handle", "src/core/EventHandler.hpp:EventFilter::setHandler"]}
{"id": "C143", "title": "Event queues between threads", "statement": "Any number of threads hand events over to one queue and flush it. Whatever the interleaving, no two threads are in a call at the same time, and there is an order of all calls that have ended, which agrees with the order of each thread, such that whenever no thread is in a call, the pending events and the events processed are those of the same calls made one after the other; pending events are always the merged ones (C20) of the last events handed over. If processing does not throw, no event is processed more often than it was handed over, and they are processed in that order; if it does not call the queue again, some thread can always go on, and all calls end if each thread gets its turn again and again. Findings: if processing calls the queue again, which happens when the queue is registered with the environment it is applied to, all threads wait forever; if processing throws, the event and all others stay pending, and those before it are processed again by the next flush.", "quantifier": "every number of threads, sequence of calls of each, interleaving of the steps within the calls, and behaviour of the processing code", "why_tests_cant": "Schedules cannot be enumerated: the number of interleavings grows exponentially, and a test sees only those of its machine.", "anchors": ["src/core/EventHandler.cpp:EventQueue::handle", "src/core/EventHandler.cpp:EventQueue::flush", "src/core/EventHandler.cpp:EventProcessor::process", "src/core/EventHandler.hpp:EventQueue"]}
{"id": "C144", "title": "Queues that do not copy items", "statement": "A queue that has not been told to allow multithreading hands over the items themselves. When an event that announces or updates an item of one environment is applied to another one, then, if the receiver has an item with this id, that item gets the content if the classes agree, nothing else changes in any environment, and nobody listening to the source is told anything. Finding: if the receiver has no item with this id, the item itself goes over to the receiver. The source loses it with all links to and from it, and all those listening to the source are told of its removal, among them the queue that is being flushed, which then waits for itself (C143).", "quantifier": "every reachable state, pair of environments, item and set of listeners", "why_tests_cant": "Tests of the queue allow multithreading, or look at the receiver only; the loss at the source, its links and its listeners depends on the history of both environments.", "anchors": ["src/core/Event.cpp:Event::ref", "src/core/Event.cpp:Event::apply", "src/core/EventHandler.hpp:allowMultithreading", "src/core/Environment.cpp:Environment::attachItem"]}
{"id": "C145", "title": "Scaling the weights of surface patches", "statement": "MLSGrid::scalePatchWeights( f ) multiplies the weight of every patch of the map by f, once, and changes nothing else that can be read from the patches or the map; doing so with f and then g is the same as with f g. Measurements merged afterwards are averaged with those before with the weights 1/deviation^2, of which those before are multiplied by f > 0. If all patches are scaled by the same f > 0, the same patches merge as without scaling, to patches of the same mean, extent, type and number of measurements, with the weight multiplied by f; the deviation is the same too for the update model SLOPE from four measurements on. Finding: for SUM the deviation changes, although scaling is documented not to affect it.", "quantifier": "every map, factor, list of measurements before and after, and plane solver that depends on the weights only up to a common factor", "why_tests_cant": "The effect shows only after later merges and depends on all real values involved.", "anchors": ["src/maps/MLSGrid.cpp:MLSGrid::scalePatchWeights", "src/maps/MLSPatch.hpp:SurfacePatch::scaleWeight", "src/maps/MLSPatch.hpp:SurfacePatch::getWeight", "src/maps/MLSPatch.hpp:SurfacePatch::updateSum", "src/maps/MLSPatch.hpp:SurfacePatch::updatePlane"]}
{"id": "C146", "title": "Importing scans and point clouds from files", "statement": "LaserScan::importScanFile, when it returns, has added to the environment of the given frame exactly a new map with the content of the file and a new frame with the transform of the file; the map is on the new frame, which is a child of the given one. Pointcloud::importCsv has added exactly a new map on the given frame. All other items keep their class, id and content, and all other links stay. If the scan file cannot be parsed, the frame belongs to no environment, or the point cloud file cannot be read, an exception is thrown and nothing has changed. Findings: a scan file that cannot be opened leaks the new scan, and importing a point cloud to a frame without environment is undefined.", "quantifier": "every reachable state of any number of environments, frame, file content and transform", "why_tests_cant": "Tests import one file into an almost empty environment; the claim is about every history before.", "anchors": ["src/maps/LaserScan.cpp:LaserScan::importScanFile", "src/maps/Pointcloud.cpp:Pointcloud::importCsv", "src/core/Environment.cpp:Environment::attachItem", "src/core/Environment.cpp:Environment::addChild", "src/core/Environment.cpp:Environment::setFrameNode"]}
{"id": "C147", "title": "Saving and loading point clouds and meshes", "statement": "A point cloud or mesh with as many normals and colours as vertices (if it has any), and colours from 0 to 1, can be saved, and loading what was saved into a new object of its class gives the same id, label, immutable flag, origin of the sensor, vertices, normals and faces, and colours rounded down to a multiple of 1/255; without colours and other vertex data the data is exactly the same. A file without an origin of the sensor gives the identity. With a different number of normals or colours, saving throws. Loading only ever succeeds if there is a complete ply stream under the name made of the class and the id: one that is missing, cut short or not a ply file never gives a cloud. Finding: the fallback to the old text format is never reached, so that clouds in that format cannot be loaded.", "quantifier": "every point cloud and mesh, every set of streams, every damage of the stream that cuts it short, and whatever earlier files have left in static variables", "why_tests_cant": "Tests save and load one cloud; the claim is about all data, including special numbers, and all truncated files.", "anchors": ["src/maps/Pointcloud.cpp:Pointcloud::serialize", "src/maps/Pointcloud.cpp:Pointcloud::unserialize", "src/maps/TriMesh.cpp:TriMesh::serialize", "src/maps/TriMesh.cpp:TriMesh::unserialize", "src/tools/PlyFile.cpp:PlyFile::error_callback", "src/core/Layer.cpp:Layer::getMapFileName"]}
