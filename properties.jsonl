{"id": "C01", "title": "Generated names are fresh and minimal", "statement": "GetNextDefName(base, type), the net-name generator behind CreateNet/merge, the layer-name generator and the padstack-instance-name generator always return, and return a name that is not used in the collection; if the requested base name is free it is returned unchanged, otherwise the result is base followed by the smallest positive number that is free.", "quantifier": "every base name and every finite set of names already in use, including adversarial ones such as {a, a1, a2, ..., a99}", "why_tests_cant": "A test picks a handful of existing names; termination and freshness must hold for every finite set of used names.", "anchors": ["src/basic/ECollection.h:EUnorderedMapCollection::NextKey", "src/design/EDatabase.cpp:EDatabase::GetNextDefName", "src/collection/ENetCollection.cpp:ENetCollection::NextNetName", "src/collection/ELayerCollection.cpp:ELayerCollection::GetNextLayerName", "src/extension/xfl/ECadExtXflHandler.cpp:GetNextPadstackInstName"]}
{"id": "C02", "title": "A net collection behaves as a finite map from names to nets", "statement": "After any sequence of create, add, clear and find calls on a layout's net collection, FindNetByName(n) returns a net iff a net of that name was created/added since the last clear, CreateNet on an existing name returns no net and changes nothing, and the iterator/Size agree with the set of names.", "quantifier": "every finite history of net operations with arbitrary names", "why_tests_cant": "Requires all interleavings of creation, insertion, clearing and lookup; unit tests exercise one or two histories.", "anchors": ["src/collection/ENetCollection.cpp:CreateNet", "src/collection/ENetCollection.cpp:AddNet", "src/collection/ENetCollection.cpp:FindNetByName", "src/collection/ENetCollection.cpp:Clear"]}
{"id": "C03", "title": "Net ids are unique and FindNetByNetId agrees with them", "statement": "In every reachable net collection no two nets have the same net id, and FindNetByNetId(id) returns exactly the net whose GetNetId() is id (or nothing if there is none).", "quantifier": "every finite history of create/add/clear/clone/lookup operations", "why_tests_cant": "Clone-then-create and lookup-then-mutate histories are unbounded; the failing one (clone, then create) is not in the test-suite.", "anchors": ["src/collection/ENetCollection.cpp:FindNetByNetId", "src/collection/ENetCollection.cpp:BuildNetIdLUT", "src/collection/ENetCollection.cpp:operator=", "src/basic/EUidGenerator.h:GetNextUid"]}
{"id": "C04", "title": "Material ids are dense, unique and resolvable", "statement": "After any sequence of material creations, the k-th created material has id k, no two materials share an id, and FindMaterialDefById(id) returns that very material; the same holds on a clone of the database.", "quantifier": "every finite history of CreateMaterialDef (fresh and duplicate names), lookup, clear and clone", "why_tests_cant": "Histories are unbounded and the clone step drops the index.", "anchors": ["src/collection/EMaterialDefCollection.cpp:AddDefinition", "src/collection/EMaterialDefCollection.cpp:FindMaterialDefById", "src/collection/EMaterialDefCollection.cpp:operator=", "src/design/EDatabase.cpp:CreateMaterialDef"]}
{"id": "C05", "title": "A layer's id is its position", "statement": "After any sequence of AppendLayer/AppendLayers/AddDefaultDielectricLayers the i-th layer of the layout has layer id i, ids returned by AppendLayer are the ids under which FindLayerByLayerId later finds that layer, and layers are never reordered.", "quantifier": "every finite history of layer appends, dielectric insertions and ordering calls", "why_tests_cant": "An invariant over unbounded histories and stack-up sizes.", "anchors": ["src/collection/ELayerCollection.cpp:AppendLayer", "src/collection/ELayerCollection.cpp:AppendLayers", "src/collection/ELayerCollection.cpp:MakeLayerIdOrdered", "src/collection/ELayerCollection.cpp:FindLayerByLayerId"]}
{"id": "C06", "title": "Default dielectric insertion separates conductors and reports the exact id map", "statement": "AddDefaultDielectricLayers leaves no two vertically adjacent conducting stack-up layers, keeps all existing layers in their order, inserts only dielectric layers with fresh names, and the returned layer map sends every old layer id to the id of the same layer afterwards (and back).", "quantifier": "every non-empty stack-up of any size and any pattern of conducting/dielectric layers", "why_tests_cant": "Patterns of layers are unbounded; the returned map has to be right for each of them.", "anchors": ["src/collection/ELayerCollection.cpp:AddDefaultDielectricLayers", "src/collection/ELayerCollection.cpp:GetDefaultLayerMap", "src/collection/ELayerCollection.cpp:GetNextLayerName"]}
{"id": "C07", "title": "Layer map stays a bijection and never silently retargets a layer", "statement": "After any sequence of SetMapping calls, GetMappingForward and GetMappingBackward are mutually inverse on mapped layers, unmapped layers give the no-layer id, an accepted mapping is never changed by later calls, and the two reserved ids (noLayer, ComponentLayer) always map to themselves.", "quantifier": "every finite history of SetMapping calls with arbitrary layer ids", "why_tests_cant": "Conflicting SetMapping sequences are unbounded.", "anchors": ["src/design/ELayerMap.cpp:SetMapping", "src/design/ELayerMap.cpp:GetMappingForward", "src/design/ELayerMap.cpp:GetMappingBackward", "src/design/ELayerMap.cpp:ELayerMap"]}
{"id": "C08", "title": "Composing layer maps composes their lookups", "statement": "MappingLeft/MappingRight with another layer map yields a map whose lookups are the composition of the two lookups on exactly the layers both define, and the result is again a bijection.", "quantifier": "every pair of layer maps", "why_tests_cant": "Quantifies over all pairs of partial bijections.", "anchors": ["src/design/ELayerMap.cpp:MappingLeft", "src/design/ELayerMap.cpp:MappingRight"]}
{"id": "C09", "title": "The database registry is a map from names to live databases", "statement": "For any sequence of CreateDatabase/OpenDatabase/RemoveDatabase/ShutDown calls, CreateDatabase(n) succeeds iff n is not registered, OpenDatabase(n) returns the database created last under n that was not removed (otherwise nothing), and operations on one name never affect another.", "quantifier": "every finite history over arbitrary names", "why_tests_cant": "Refinement to an abstract map over all histories.", "anchors": ["src/EDataMgr.cpp:CreateDatabase", "src/EDataMgr.cpp:OpenDatabase", "src/EDataMgr.cpp:RemoveDatabase", "src/EDataMgr.cpp:ShutDown"]}
{"id": "C10", "title": "Definition collections never lose or replace a definition", "statement": "Creating a cell, material, component, padstack or layer-map definition under a used name returns nothing and leaves the existing one in place; under a free name it adds exactly one definition of exactly that kind; names are independent between kinds; and definition counts equal the number of successful creations.", "quantifier": "every finite history of definition creations of the five kinds", "why_tests_cant": "All interleavings of five kinds of definitions and arbitrary names.", "anchors": ["src/design/EDatabase.cpp:CreateCircuitCell", "src/design/EDatabase.cpp:CreateMaterialDef", "src/collection/EDefinitionCollection.cpp:AddDefinition", "src/collection/EDefinitionCollection.cpp:GetNextDefName"]}
{"id": "C11", "title": "Iterators enumerate every element exactly once", "statement": "Repeatedly calling Next() on the iterator of a collection yields each stored element exactly once and then the null result forever after.", "quantifier": "every collection content, including empty sub-collections in any position", "why_tests_cant": "Needs all sizes and all placements of empty sub-collections.", "anchors": ["src/basic/ECollection.h:EUnorderedMapCollectionIterator", "src/basic/ECollection.h:EVectorCollectionIterator", "src/basic/ECollection.h:complex iterator", "src/collection/EHierarchyObjCollection.cpp:Current", "src/collection/EConnObjCollection.cpp:Next"]}
{"id": "C12", "title": "Appending transforms composes them, independently of prior reads", "statement": "For transforms t1, t2: after t1.Append(t2), applying t1 to any point equals applying the old t1 and then t2, regardless of whether GetTransform was called on either before; reading a transform never changes what it later does.", "quantifier": "every pair of transform chains, every point, and every interleaving of reads, appends and field edits", "why_tests_cant": "Histories of reads/appends/edits are unbounded, and the cached read changes later behaviour.", "anchors": ["src/basic/ETransform.h:ETransform2D::Append", "src/basic/ETransform.h:ETransform2D::GetTransform", "src/basic/ETransform.h:ETransformData2D::GetTransform"]}
{"id": "C13", "title": "Saving and loading a transform preserves it", "statement": "Serializing an ETransform2D and loading it back gives a transform that moves every point as the original did.", "quantifier": "every transform reachable by any history of construction, reads, appends and edits", "why_tests_cant": "Depends on the history of cached reads before the save.", "anchors": ["src/basic/ETransform.h:ETransform2D::serialize", "src/basic/ETransform.h:ETransform2D::Append"]}
{"id": "C14", "title": "Lookup tables interpolate within their samples", "statement": "Lookup(x) is exactly the stored value at every sample, clamps to the end samples outside the range, lies between the two neighbouring samples inside it, equals their linear interpolation, and is monotone when the samples are.", "quantifier": "every table with any number of samples and every query point", "why_tests_cant": "A statement about all reals and all tables.", "anchors": ["src/basic/ELookupTable.h:ELookupTable1D::Lookup", "src/basic/ELookupTable.h:ELookupTable1D::AddSample"]}
{"id": "C15", "title": "Setting a keyed value twice: which write wins", "statement": "For keyed setters (lookup-table samples, material properties, uniform boundary conditions, grid table samples) the value read back after a history of sets is determined by the history: a user who sets a property twice reads the second value.", "quantifier": "every finite history of sets on arbitrary keys", "why_tests_cant": "Only histories that set the same key twice expose it.", "anchors": ["src/basic/ELookupTable.h:ELookupTable1D::AddSample", "src/design/EMaterialDef.cpp:SetProperty", "src/model/thermal/EThermalModel.cpp:SetUniformBC", "src/model/thermal/EGridThermalModel.cpp:EGridDataTable::AddSample"]}
{"id": "C16", "title": "Material property getters return the declared component", "statement": "GetSimpleProperty/GetAnisotropicProperty/GetTensorProperty of constant and polynomial properties return success exactly for the declared dimensionality (a lower-dimensional property answering higher-dimensional queries with isotropic/diagonal extension), the value of a polynomial property at T is the sum of coefficient_i * T^i, and a failed query leaves the output unchanged.", "quantifier": "every property, coefficient list, temperature, row and column", "why_tests_cant": "Quantifies over all coefficient lists, temperatures and indices.", "anchors": ["src/design/EMaterialProp.cpp:EMaterialPropValue", "src/design/EMaterialProp.cpp:EMaterialPropPolynomial"]}
{"id": "C17", "title": "Version numbers round-trip through their integer form and keep their order", "statement": "For a version with both numbers below 100, fromInt(toInt(v)) = v and v < w iff toInt(v) < toInt(w); comparison of versions is a strict total order.", "quantifier": "all pairs of versions", "why_tests_cant": "All pairs of versions, and the failing boundary at 100.", "anchors": ["src/basic/ECadVersion.h:EVersion"]}
{"id": "C18", "title": "Bondwire endpoints always have exactly one resolvable placement", "statement": "After any sequence of endpoint setters on a bondwire, each endpoint is either attached to a component pin (then its layer is resolved through that component) or to an explicit layer with no component, and querying the start/end layer never dereferences a missing component.", "quantifier": "every finite history of SetStart*/SetEnd* calls", "why_tests_cant": "Setter histories are unbounded and some leave a half-set endpoint.", "anchors": ["src/design/EPrimitive.cpp:EBondwire::SetStartLayer", "src/design/EPrimitive.cpp:EBondwire::SetStartComponent", "src/design/EPrimitive.cpp:EBondwire::GetStartLayer"]}
{"id": "C19", "title": "Padstack pad parameters: get returns what was set, per layer", "statement": "After SetLayers and any sequence of SetPadParameters, GetPadParameters(layer) returns the last parameters successfully set for that layer, other layers are unaffected, an id that names no layer (too large, or negative) is rejected without effect, and access by layer name reaches the first layer with that name.", "quantifier": "every layer list and every finite history of pad settings, every layer id", "why_tests_cant": "Histories and ids are unbounded; ids below -1 index out of the array.", "anchors": ["src/design/EPadstackDefData.cpp:SetPadParameters", "src/design/EPadstackDefData.cpp:GetPadParameters", "src/design/EPadstackDefData.cpp:SetLayers"]}
{"id": "C20", "title": "Flattening neither loses nor duplicates geometry", "statement": "Flattening a database whose cell instances form a hierarchy of any depth gives each top cell exactly the primitives it contains, once per instantiation path, with the composed transform, and no remaining instance; the contents of a cell are the same whether a cell is flattened before or after its siblings.", "quantifier": "every acyclic cell hierarchy, of any depth and sharing pattern", "why_tests_cant": "Depth and sharing are unbounded; the number of paths is exponential.", "anchors": ["src/utility/EFlattenUtility.cpp:Flatten", "src/utility/EFlattenUtility.cpp:FlattenOneCell", "src/utility/ELayoutMergeUtility.cpp:Merge", "src/design/ELayoutView.cpp:Flatten"]}
{"id": "C21", "title": "Flattening terminates exactly on acyclic hierarchies", "statement": "Flatten returns for every database whose instance graph is acyclic; on a cyclic instance graph it never returns.", "quantifier": "every finite instance graph", "why_tests_cant": "Termination over all graphs.", "anchors": ["src/utility/EFlattenUtility.cpp:ScheduleFlattenTasks", "src/utility/EFlattenUtility.cpp:BuildCellNodeMap"]}
{"id": "C22", "title": "Flatten result does not depend on task scheduling", "statement": "Whatever order the flatten tasks are executed in by the thread pool, subject to the submitted dependencies, the flattened layouts are the same up to the order of objects.", "quantifier": "every linear extension of the task dependency order", "why_tests_cant": "Schedules cannot be enumerated by tests.", "anchors": ["src/utility/EFlattenUtility.cpp:ScheduleFlattenTasks", "src/utility/EFlattenUtility.cpp:FlattenOneCell"]}
{"id": "C23", "title": "Top cells are exactly the cells nobody instantiates", "statement": "GetTopCells returns each cell that is not the definition of any instance in the database, once, and no other cell.", "quantifier": "every finite instance graph", "why_tests_cant": "All graphs, including empty and cyclic ones.", "anchors": ["src/utility/EFlattenUtility.cpp:GetTopCells", "src/design/EDatabase.cpp:GetTopCells"]}
{"id": "C24", "title": "Merging one layout into another keeps net identity", "statement": "After merging layout B into A, every object of A is unchanged, every primitive of B appears in A exactly once, two primitives of B share a net in A iff they shared a net in B, none of them joins a net that A had before unless the generated name coincides, and primitives without net stay without net.", "quantifier": "every pair of layouts and every prefix", "why_tests_cant": "Quantifies over all net-name collisions between two layouts.", "anchors": ["src/utility/ELayoutMergeUtility.cpp:Merge", "src/collection/ENetCollection.cpp:CreateNet"]}
{"id": "C25", "title": "Equal settings mean interchangeable models", "statement": "If two extraction-settings values compare equal then they agree on every field that influences the extracted model, so a cached model that Match()es may be returned instead of re-extracting.", "quantifier": "all pairs of settings values", "why_tests_cant": "All pairs of settings; the offending pairs differ in a single field.", "anchors": ["src/basic/ECadSettings.h:EMetalFractionMappingSettings::operator==", "src/basic/ECadSettings.h:EThermalModelExtractionSettings::operator==", "src/design/ELayoutView.cpp:ExtractThermalModel"]}
{"id": "C26", "title": "Model cache returns a model for the requested settings", "statement": "For any sequence of extraction requests, the model returned by ExtractThermalModel was built from settings equal to the requested ones, re-requesting the same settings without force does not rebuild, and force always rebuilds.", "quantifier": "every finite sequence of requests with arbitrary settings and force flags", "why_tests_cant": "Histories of requests are unbounded.", "anchors": ["src/design/ELayoutView.cpp:ExtractThermalModel", "src/design/ELayoutView.cpp:ExtractLayerCutModel", "src/collection/EModelCollection.cpp:AddModel"]}
{"id": "C27", "title": "The assembled conductance matrix is a valid thermal network", "statement": "For every thermal network the assembled G matrix is symmetric, off-diagonals are non-positive, each row sums to the node's heat-transfer coefficient, it is diagonally dominant when HTCs are non-negative, and total heat into boundary equals total injected power at any steady-state solution.", "quantifier": "every network: any number of nodes, edges and boundary conditions", "why_tests_cant": "A statement about every network and every solution vector.", "anchors": ["src/solver/thermal/network/ThermalNetwork.h:makeMNA", "src/solver/thermal/network/ThermalNetwork.h:SetR"]}
{"id": "C28", "title": "Resistor insertion order is irrelevant and parallel resistors add as conductances", "statement": "The conductance between two nodes after any sequence of SetR calls is the sum of the reciprocals of the (clamped) resistances given for that pair in either node order; it does not depend on the order of calls.", "quantifier": "every finite sequence of SetR calls, every permutation of it", "why_tests_cant": "All permutations of arbitrary call sequences.", "anchors": ["src/solver/thermal/network/ThermalNetwork.h:SetR"]}
{"id": "C29", "title": "Right-hand-side assembly variants agree", "statement": "The dense source vector scattered by B equals the full right-hand side when boundary sources are included; the source projection of heat flows plus the boundary vector equals the full right-hand side; the number of sources equals the number of columns of B.", "quantifier": "every network and reference temperature", "why_tests_cant": "Every distribution of sources/boundaries over nodes.", "anchors": ["src/solver/thermal/network/ThermalNetwork.h:makeRhs", "src/solver/thermal/network/ThermalNetwork.h:makeFullRhs", "src/solver/thermal/network/ThermalNetwork.h:makeBondsRhs", "src/solver/thermal/network/ThermalNetwork.h:makeSourceProjMatrix", "src/solver/thermal/network/ThermalNetwork.h:Source"]}
{"id": "C30", "title": "Grid indices and flat node numbers are in bijection", "statement": "GetFlattenIndex and GetGridIndex of a grid thermal model are mutually inverse between valid 3-D indices and 0..TotalGrids-1, and every neighbour query returns either a valid in-range neighbour or the invalid index, symmetrically.", "quantifier": "every grid size and layer count, every index", "why_tests_cant": "All sizes and indices.", "anchors": ["src/model/thermal/EGridThermalModel.h:GetFlattenIndex", "src/model/thermal/EGridThermalModel.h:GetGridIndex", "src/solver/thermal/utils/EGridThermalNetworkBuilder.cpp:GetNeighbor"]}
{"id": "C31", "title": "The grid network connects exactly face-adjacent cells, once", "statement": "The network built from a grid model has a resistor between two cells iff they share a face, and each such resistor is stamped exactly once.", "quantifier": "every grid size", "why_tests_cant": "All grid sizes.", "anchors": ["src/solver/thermal/utils/EGridThermalNetworkBuilder.cpp:Build"]}
{"id": "C32", "title": "In a uniform medium the x and y resistances follow the same law", "statement": "For a homogeneous isotropic model the resistance between adjacent cells is pitch/(k*face area) in every direction, so swapping the roles of x and y leaves the network unchanged.", "quantifier": "every uniform model", "why_tests_cant": "A law over all geometries; tests only look at end temperatures.", "anchors": ["src/solver/thermal/utils/EGridThermalNetworkBuilder.cpp:Build", "src/solver/thermal/utils/EGridThermalNetworkBuilder.cpp:GetRes"]}
{"id": "C33", "title": "All applied power reaches the network", "statement": "The total heat flow of the network built from a model equals the sum of all power models, heat-flux boundaries and Joule heats applied to it, and equals the builder's reported input minus output heat flow.", "quantifier": "every combination of power models and boundary conditions", "why_tests_cant": "Overlaps of power models and BCs are combinatorial.", "anchors": ["src/solver/thermal/utils/EGridThermalNetworkBuilder.cpp:ApplyUniformBoundaryConditionForLayer", "src/solver/thermal/utils/EGridThermalNetworkBuilder.cpp:ApplyBlockBoundaryConditionForLayer", "src/solver/thermal/network/ThermalNetwork.h:SetHF", "src/solver/thermal/utils/EPrismThermalNetworkBuilder.cpp:BuildPrismElement"]}
{"id": "C34", "title": "A block power model distributes exactly its total power", "statement": "Summing Query over all cells of a block power model gives the total power looked up at that temperature, and zero outside the block.", "quantifier": "every block, table and temperature", "why_tests_cant": "All blocks and tables.", "anchors": ["src/model/thermal/EThermalModel.cpp:EBlockPowerModel::Query", "src/model/thermal/EThermalModel.cpp:EBlockPowerModel::Size"]}
{"id": "C35", "title": "Model reduction preserves totals and stays within bounds", "statement": "Halving a power grid by accumulation preserves the total power for any grid size (odd sizes included); averaging gives each coarse cell a value between the minimum and maximum of its fine cells; maximum/minimum reduction gives the maximum/minimum of its fine cells; block indices of a reduced model stay inside the reduced grid; and reduction terminates.", "quantifier": "every grid size, content, and reduction order", "why_tests_cant": "All sizes, contents and orders.", "anchors": ["src/model/thermal/utils/EThermalModelReduction.cpp:EThermalModelReduction::Reduce", "src/model/thermal/utils/EThermalModelReduction.cpp:EGridThermalModelReduction::Reduce"]}
{"id": "C36", "title": "Layer slicing keeps the stack contiguous and terminates", "statement": "Slicing over-thick layers of a layer-cut model only adds cut heights, keeps the total height range and all original heights, leaves layers contiguous with positive thickness, and terminates for every transition ratio above one.", "quantifier": "every list of heights and every ratio > 1", "why_tests_cant": "All stacks and ratios; non-termination shows only for particular thickness ratios.", "anchors": ["src/model/geometry/ELayerCutModel.cpp:SliceOverheightLayers", "src/model/geometry/ELayerCutModel.cpp:BuildLayerPolygonLUT"]}
{"id": "C37", "title": "Layer-cut layers partition the height range of the geometry", "statement": "The layers of a layer-cut model are the consecutive intervals between the distinct heights of the added shapes, each shape is listed in exactly the layers its height range covers, and looking up a layer by any height in range returns the layer containing it.", "quantifier": "every collection of shapes with arbitrary height ranges", "why_tests_cant": "All collections of ranges.", "anchors": ["src/model/geometry/ELayerCutModel.cpp:BuildLayerPolygonLUT", "src/model/geometry/ELayerCutModel.cpp:GetLayerIndexByHeight", "src/model/geometry/ELayerCutModel.cpp:GetLayerHeightThickness", "src/model/geometry/utils/ELayerCutModelBuilder.cpp:AddPolygon"]}
{"id": "C38", "title": "A component and its solder bumps sit on their layer without gap or overlap", "statement": "For a component placed on a stack-up layer, the bump region and the body are adjacent, the bump region touches the placement layer's outer face, and the body lies above the layer if not flipped and below it if flipped.", "quantifier": "every component height, bump thickness, stack-up and flip state", "why_tests_cant": "All dimensions and stack-ups.", "anchors": ["src/utility/ELayoutRetriever.cpp:GetComponentHeightThickness", "src/utility/ELayoutRetriever.cpp:GetComponentBallBumpThickness"]}
{"id": "C39", "title": "Bondwire refinement by segment count keeps the wire", "statement": "Refining a bondwire to at least n points terminates, gives at least n points, keeps both end points and all original points in order, and heights and points have equal length.", "quantifier": "every wire of at least two points and every n", "why_tests_cant": "All n and all wires.", "anchors": ["src/utility/ELayoutRetriever.cpp:GetBondwireSegmentsWithMinSeg"]}
{"id": "C40", "title": "Bondwire refinement by maximal length terminates and bounds segment length", "statement": "Refining with a maximal segment length terminates for every positive length and yields a polyline with the same ends whose segments are all at most that long and have non-zero length.", "quantifier": "every wire and every positive maximal length", "why_tests_cant": "Termination over all integer geometries.", "anchors": ["src/utility/ELayoutRetriever.cpp:GetBondwireSegmentsWithMaxLen"]}
{"id": "C41", "title": "Replacing merged polygons leaves exactly kept and merged primitives", "statement": "After merging layer polygons back into the layout, the layout's primitives are exactly the untouched primitives plus the merged polygons, whatever order the removed indices are visited in.", "quantifier": "every set of removed indices, every number of merged polygons, every iteration order of the hash set", "why_tests_cant": "Hash-set iteration orders are implementation-defined.", "anchors": ["src/utility/ELayoutPolygonMerger.cpp:FillPolygonsBackToLayout", "src/collection/EPrimitiveCollection.cpp:PopBack", "src/collection/EPrimitiveCollection.cpp:SetPrimitive"]}
{"id": "C42", "title": "GDSII integers decode as big-endian two's complement", "statement": "A 2- or 4-byte integer record payload decodes to the signed values it encodes, for every value of the type, and any number of values per record.", "quantifier": "every 16/32-bit value and every payload length", "why_tests_cant": "2^32 values times all lengths.", "anchors": ["src/extension/gds/EGdsParser.cpp:INTEGER_2", "src/extension/gds/EGdsParser.cpp:INTEGER_4"]}
{"id": "C43", "title": "GDSII 8-byte reals decode to their exact excess-64 value", "statement": "An 8-byte real decodes to sign * mantissa/2^56 * 16^(exponent-64) for every bit pattern.", "quantifier": "all 2^64 bit patterns", "why_tests_cant": "2^64 bit patterns.", "anchors": ["src/extension/gds/EGdsParser.cpp:REAL_8"]}
{"id": "C44", "title": "A well-formed GDSII stream is parsed record by record, whatever the read-buffer boundaries", "statement": "For every sequence of well-formed records, reading the file delivers exactly these records in order to the reader and then reports success, independently of how the file is split into read buffers.", "quantifier": "every record sequence and every buffer size/split", "why_tests_cant": "All splits of all streams.", "anchors": ["src/extension/gds/EGdsParser.cpp:EGdsParser::operator()", "src/extension/gds/EGdsParser.cpp:Parse"]}
{"id": "C45", "title": "A malformed GDSII stream is rejected", "statement": "A stream that is truncated or has an illegal record length is reported as a failure and never makes the parser read outside the record or loop.", "quantifier": "every byte string", "why_tests_cant": "All byte strings.", "anchors": ["src/extension/gds/EGdsParser.cpp:EGdsParser::operator()", "src/extension/gds/EGdsParser.cpp:Parse"]}
{"id": "C46", "title": "GDSII element state does not leak between elements", "statement": "Every element added to a cell depends only on the records between its begin and end, so reading a concatenation of elements gives the concatenation of the elements read separately.", "quantifier": "every sequence of elements", "why_tests_cant": "All sequences.", "anchors": ["src/extension/gds/EGdsFileIO.cpp:ReadBeginEnd", "src/extension/gds/EGdsFileIO.cpp:Reset"]}
{"id": "C47", "title": "KiCad S-expressions parse back to the tree they print", "statement": "For every tree of atoms and quoted strings, parsing its textual form (with any legal white space) gives that tree.", "quantifier": "every tree and every white-space layout", "why_tests_cant": "All trees.", "anchors": ["src/extension/kicad/EKiCadParser.cpp:ReadTree", "src/extension/kicad/EKiCadParser.cpp:ReadString", "src/extension/kicad/EKiCadParser.cpp:ReadQuotedString"]}
{"id": "C48", "title": "The KiCad parser terminates on every file", "statement": "Parsing any file, including truncated ones, returns.", "quantifier": "every byte string", "why_tests_cant": "All byte strings; truncated inputs loop.", "anchors": ["src/extension/kicad/EKiCadParser.cpp:ReadString", "src/extension/kicad/EKiCadParser.cpp:ReadQuotedString", "src/extension/kicad/EKiCadParser.cpp:ReadNodeName"]}
{"id": "C49", "title": "Encrypted CTM numbers decrypt to what was written", "statement": "For every layer name and number text, decrypting the encrypted text with the same layer name gives the text back; and a CTM header written with encryption is recognised as encrypted when read.", "quantifier": "every text, every layer-name length", "why_tests_cant": "All texts and name lengths.", "anchors": ["src/model/thermal/io/EChipThermalModelIO.cpp:ParseCTMv1HeaderFile", "src/model/thermal/io/EChipThermalModelIO.cpp:WriteCTMv1HeaderFile"]}
{"id": "C50", "title": "CTM stack-up is contiguous", "statement": "The layer stack-up derived from a CTM header lists layers from top to bottom with strictly decreasing elevations, each layer's thickness being the distance to the next elevation; and resolving a via layer's height terminates.", "quantifier": "every header", "why_tests_cant": "All headers, including self-referencing via layers.", "anchors": ["src/model/thermal/EChipThermalModel.cpp:BuildLayerStackup", "src/model/thermal/EChipThermalModel.cpp:GetLayerHeightThickness"]}
{"id": "C51", "title": "Prism element numbering is a bijection", "statement": "GlobalIndex and PrismLocalIndex of a prism model are mutually inverse between (layer, element) pairs and 0..TotalPrismElements-1, including models with empty layers; line elements get the following numbers in order.", "quantifier": "every model", "why_tests_cant": "All layer sizes.", "anchors": ["src/model/thermal/EPrismThermalModel.h:GlobalIndex", "src/model/thermal/EPrismThermalModel.h:PrismLocalIndex", "src/model/thermal/EPrismThermalModel.cpp:AddLineElement"]}
{"id": "C52", "title": "A stack-up prism without contact on a side is a boundary prism", "statement": "A prism of a stack-up prism model has a top (bottom) neighbour marker iff it is in contact with at least one prism of the layer above (below), so an uncovered prism receives the full top (bottom) boundary condition.", "quantifier": "every stack-up prism model", "why_tests_cant": "All contact patterns.", "anchors": ["src/model/thermal/utils/EStackupPrismThermalModelBuilder.cpp:BuildPrismInstanceTopBotNeighbors", "src/solver/thermal/utils/EStackupPrismThermalNetworkBuilder.cpp:BuildPrismElement"]}
{"id": "C53", "title": "Parallel network construction covers every prism exactly once and is schedule independent", "statement": "Building the prism network with any number of threads processes every prism exactly once and yields the same network under every interleaving of the workers.", "quantifier": "every thread count, prism count and interleaving", "why_tests_cant": "Schedules cannot be enumerated.", "anchors": ["src/solver/thermal/utils/EPrismThermalNetworkBuilder.cpp:Build", "src/solver/thermal/utils/EPrismThermalNetworkBuilder.cpp:BuildPrismElement"]}
{"id": "C54", "title": "The static thermal iteration stops within the configured count", "statement": "The static solver performs at most max(1, iteration) network builds for every residual behaviour.", "quantifier": "every residual sequence and every iteration setting", "why_tests_cant": "All residual sequences; iteration = 0 wraps around.", "anchors": ["src/solver/thermal/EThermalNetworkSolver.cpp:Solve"]}
{"id": "C55", "title": "Probe results are returned for the requested probes", "statement": "Reordering probe indices for the solver and permuting results back returns, at position i, the value for the i-th requested probe, for every (possibly repeating) request.", "quantifier": "every list of probe indices", "why_tests_cant": "All lists incl. duplicates.", "anchors": ["src/solver/thermal/EThermalNetworkSolver.cpp:GetProbsAndPermutation"]}
{"id": "C56", "title": "Transient simulation produces ordered samples and ends", "statement": "A transient run records samples with increasing time stamps spaced by at least the sampling window, and ends for every positive step and duration.", "quantifier": "every step, duration, window and minimum sample count", "why_tests_cant": "All parameters; zero step never ends.", "anchors": ["src/solver/thermal/EThermalNetworkSolver.cpp:Solve transient", "src/solver/thermal/network/ThermalNetworkSolver.h:Sampler"]}
{"id": "C57", "title": "Metal fractions are fractions and grid lookups stay in range", "statement": "Every metal-fraction value is between 0 and 1, and the grid index computed for a point inside the mapped region is inside the grid.", "quantifier": "every layout region, grid and point", "why_tests_cant": "All points incl. the region's upper boundary.", "anchors": ["src/utility/EMetalFractionMapping.cpp", "src/utility/EMetalFractionMapping.h:GetIndex"]}
{"id": "C58", "title": "Re-computing elevations makes the stack contiguous", "statement": "After the modifier recomputes layer elevations each layer's elevation is the previous layer's elevation minus its thickness, the first elevation and all thicknesses are unchanged.", "quantifier": "every stack-up", "why_tests_cant": "All stack-ups.", "anchors": ["src/utility/ELayoutModifier.cpp"]}
{"id": "C59", "title": "Boundary-node reduction conserves heat transfer", "statement": "Replacing per-node heat-transfer coefficients by shared boundary nodes leaves, for each node, the same total conductance to ambient, and touches no other part of the network.", "quantifier": "every network and every bucket count", "why_tests_cant": "All networks.", "anchors": ["src/solver/thermal/network/BoundaryNodeReduction.h"]}
{"id": "C60", "title": "Coordinates convert to units and back without loss", "statement": "Converting a coordinate to user units and back returns the same coordinate for every coordinate in range and every unit.", "quantifier": "every 64-bit coordinate and unit", "why_tests_cant": "2^64 coordinates; truncation only shows for particular values.", "anchors": ["src/basic/ECadUnits.h:ECoordUnits::toCoord", "src/basic/ECadUnits.h:ECoordUnits::toUnit"]}
{"id": "C61", "title": "Model append keeps grid layers consistent", "statement": "After any sequence of AppendLayer calls on a grid thermal model all layers have the model's grid size and non-negative thickness, rejected layers change nothing, and each layer's top/bottom neighbour names are its actual neighbours.", "quantifier": "every finite sequence of AppendLayer calls", "why_tests_cant": "All sequences.", "anchors": ["src/model/thermal/EGridThermalModel.cpp:AppendLayer"]}
{"id": "C62", "title": "DMC outlines keep their points", "statement": "Importing a DMC file assigns every coordinate record to the shape whose header precedes it.", "quantifier": "every sequence of shape records", "why_tests_cant": "All sequences; leading hole records shift the rest.", "anchors": ["src/extension/dmcdom/ECadExtDmcDomHandler.cpp"]}
{"id": "C63", "title": "XFL hole grouping", "statement": "Importing a route turns each non-void shape together with the maximal run of void shapes on the same layer that follows it into one primitive; void shapes never become primitives and the loop ends for every route.", "quantifier": "every list of route objects", "why_tests_cant": "All lists of objects.", "anchors": ["src/extension/xfl/ECadExtXflHandler.cpp:ImportConnObjs"]}
{"id": "C64", "title": "XFL layer ids and elevations", "statement": "Importing n XFL layers gives layout layers with ids 0..n-1 in file order, contiguous elevations starting at zero, metal numbers 1,2,... mapped in order to exactly the non-dielectric layers.", "quantifier": "every layer list", "why_tests_cant": "All layer lists.", "anchors": ["src/extension/xfl/ECadExtXflHandler.cpp:ImportLayers"]}
{"id": "C65", "title": "Grid table queries always use the current samples", "statement": "After any history of AddSample and Query calls on a grid data table, Query answers from exactly the samples accepted so far: the end samples outside the key range, an interpolation over all of them inside it, failure for cells outside the table or an empty table; a sample of the wrong size is refused and changes nothing.", "quantifier": "every table size, every finite history of samples and queries, every key and cell", "why_tests_cant": "The interpolator is cached between queries, so only histories interleaving samples and queries can expose staleness.", "anchors": ["src/model/thermal/EGridThermalModel.cpp:EGridDataTable::Query", "src/model/thermal/EGridThermalModel.cpp:EGridDataTable::AddSample"]}
{"id": "C66", "title": "Merge settings choose which layers are merged", "statement": "Merging with settings that exclude dielectric layers, or the outermost dielectric layers, leaves the primitives of those layers untouched.", "quantifier": "every layout, every settings object", "why_tests_cant": "All combinations of settings and stack-ups.", "anchors": ["src/utility/ELayoutPolygonMerger.cpp:ELayoutPolygonMerger", "src/utility/ELayoutPolygonMerger.cpp:SetLayoutMergeSettings", "src/design/ELayoutView.cpp:MergeLayerPolygons"]}
{"id": "C67", "title": "Importing a GDSII library places every shape and reference as drawn", "statement": "CreateDatabaseFromGds makes one cell per structure; each layer of a cell holds exactly the shapes whose GDS layer number the layer map assigns to it, once each; without a layer map no shape is lost whatever order the layers are walked in; each reference becomes an instance with the scale, orientation and place of the file, arrays one instance per lattice point; a failed import leaves no database behind.", "quantifier": "every GDSII library the reader accepts, every layer map, every hash order of the layers and every state of the database registry", "why_tests_cant": "Libraries, layer maps and hash orders are unbounded.", "anchors": ["src/extension/gds/ECadExtGdsHandler.cpp:ECadExtGdsHandler::CreateDatabase", "src/extension/gds/ECadExtGdsHandler.cpp:ECadExtGdsHandler::ImportOneCellRefArray", "src/extension/gds/EGdsLayerMap.cpp:EGdsLayerMapParser"]}
{"id": "C69", "title": "Chip thermal model tables survive their files", "statement": "The power and density tables of a chip thermal model written to a package and read back hold the same value for every tile and layer; a damaged file does not silently change values.", "quantifier": "every table size, number of layers, table contents and file", "why_tests_cant": "All table shapes; transposition shows only for tables that are not symmetric.", "anchors": ["src/model/thermal/io/EChipThermalModelIO.cpp:ParseCTMv1DensityFile", "src/model/thermal/io/EChipThermalModelIO.cpp:WriteCTMv1DensityFile", "src/model/thermal/io/EChipThermalModelIO.cpp:ParseCTMv1PowerFile"]}
{"id": "C70", "title": "Corner points of prisms", "statement": "After a prism thermal model is built, every prism's six corners are the three vertices of its template triangle at the elevation of its layer and the same three vertices at the elevation of the level below, and two prisms refer to the same point number exactly when they share the template vertex and the level.", "quantifier": "every model with a common template, any number of layers and elements, any scale", "why_tests_cant": "A test compares a few corners of one mesh; a wrong sharing rule only shows on particular combinations of layers and triangles.", "anchors": ["src/model/thermal/EPrismThermalModel.cpp: EPrismThermalModel::BuildPrismModel", "src/model/thermal/EPrismThermalModel.cpp: EPrismThermalModel::GetPoint"]}
{"id": "C71", "title": "Adjacency of the extracted prism mesh", "statement": "Extraction creates one element per triangle and layer that holds solid material, edge neighbours are the elements of the neighbouring triangles in the same layer, top and bottom neighbours are the elements of the same triangle in the adjacent layers, and contact is mutual.", "quantifier": "every triangulation, every number of layers and every distribution of materials", "why_tests_cant": "The neighbour relation must hold for all element pairs of all meshes; tests look at totals.", "anchors": ["src/extraction/thermal/EThermalModelExtraction.cpp: EThermalModelExtraction::GeneratePrismThermalModel"]}
{"id": "C72", "title": "Boundary conditions and couplings of prism networks", "statement": "The network node of a prism exchanges with the ambient the sum over its exposed faces of coefficient times face area, receives its power plus the flux of its exposed faces, block boundary conditions reach exactly the exposed prisms inside the block, and two touching prisms are coupled exactly once.", "quantifier": "every prism model, neighbour structure, power assignment and combination of boundary conditions", "why_tests_cant": "Combinations of power, flux and coefficients on the same prism are too many to enumerate, and each failing one changes temperatures silently.", "anchors": ["src/solver/thermal/utils/EPrismThermalNetworkBuilder.cpp: EPrismThermalNetworkBuilder::BuildPrismElement", "src/solver/thermal/utils/EStackupPrismThermalNetworkBuilder.cpp: EStackupPrismThermalNetworkBuilder::BuildPrismElement"]}
{"id": "C73", "title": "Layer of a monitored height", "statement": "Looking up the layer of a height returns the layer whose vertical interval contains it, the top layer for heights at or above the top surface and the bottom layer for heights below the stack.", "quantifier": "every gapless stack of layers and every height", "why_tests_cant": "Boundary heights are single values out of a continuum.", "anchors": ["src/model/thermal/utils/EPrismThermalModelQuery.cpp: EPrismThermalModelQuery::NearestLayer", "src/model/thermal/utils/EStackupPrismThermalModelQuery.cpp: EStackupPrismThermalModelQuery::NearestLayer"]}
{"id": "C74", "title": "Imported XFL vias show the pads the file gives them", "statement": "Every via of the file whose padstack, shape and material are known becomes a padstack definition, and an instance of it shows on each layout layer of its span the pad the file puts on that layer, or the via shape if there is none.", "quantifier": "all XFL files: any number of layers of any kind, vias, padstacks and pads, and every layer of every instance", "why_tests_cant": "stack-ups and pad lists are unbounded; a test covers one stack-up, and stacks without dielectric layers hide the error", "anchors": ["src/extension/xfl/ECadExtXflHandler.cpp:ImportPadstackDefs", "src/design/EPadstackInst.cpp:GetLayerShape"]}
{"id": "C75", "title": "Imported XFL shapes have the size of the file", "statement": "A shape of the file is imported with its extents times the file scale, up to one coordinate step per edge.", "quantifier": "all shapes, sizes and scales", "why_tests_cant": "sizes and scales are unbounded and every shape kind converts on its own path", "anchors": ["src/extension/xfl/EXflObjects.h:EShapeGetter"]}
{"id": "C76", "title": "Every well-formed XFL file imports with its outline", "statement": "Importing a well-formed XFL file ends well, with all its layers, nets and known vias, and with its outline as the layout boundary.", "quantifier": "all parsed XFL files", "why_tests_cant": "files combine any number of sections; undefined reads show up only for particular combinations and builds", "anchors": ["src/extension/xfl/ECadExtXflHandler.cpp:CreateDatabase", "src/extension/xfl/ECadExtXflHandler.cpp:ImportBoardGeom", "src/extension/xfl/EXflObjects.h:EXflDB"]}
{"id": "C68", "title": "A KiCad board imports with its nets and layers", "statement": "Importing a KiCad board gives a layout with exactly the declared nets, one per name, and exactly the declared physical layers, each with the type, thickness and material of its stack-up entries, lying one below the other with consecutive layer ids; other sections of the file and the order hash maps are walked in make no difference to this.", "quantifier": "all boards (layer, stack-up and net declarations of any number), all other content between them, all walk orders of the hash maps", "why_tests_cant": "boards have arbitrarily many declarations and the hash order differs between library versions", "anchors": ["src/extension/kicad/ECadExtKiCadHandler.cpp:ExtractLayer", "src/extension/kicad/ECadExtKiCadHandler.cpp:ExtractStackup", "src/extension/kicad/ECadExtKiCadHandler.cpp:ExtractNet", "src/extension/kicad/ECadExtKiCadHandler.cpp:CreateEcadLayers", "src/extension/kicad/ECadExtKiCadHandler.cpp:CreateEcadNets"]}
{"id": "C77", "title": "A KiCad import keeps the stack-up and fails cleanly", "statement": "The imported layers stand in the order of the board from top to bottom, every entry of the stack-up is imported, and an import that fails leaves no database behind.", "quantifier": "all boards, all walk orders of the hash maps, all unreadable files", "why_tests_cant": "the order depends on the hash function, and a failure is visible only in a later call", "anchors": ["src/extension/kicad/ECadExtKiCadHandler.cpp:CreateDatabase", "src/extension/kicad/ECadExtKiCadHandler.cpp:CreateEcadLayers", "src/extension/kicad/ECadExtKiCadHandler.cpp:ExtractStackup"]}
{"id": "C78", "title": "Connectivity extraction puts exactly the connected objects on one net", "statement": "After connectivity extraction two geometries, labels or padstack instances have the same net exactly if they are connected through pieces that touch on the same layer or on neighbouring stack-up layers; their net exists, and is called after a label connected to them; the nets of before are gone.", "quantifier": "all layouts with a non-empty stack-up, any number of primitives and padstack instances, any touching relation, any order in which components are found", "why_tests_cant": "connectivity is a transitive closure over unboundedly many objects", "anchors": ["src/utility/ELayoutConnectivity.cpp:ConnectivityExtraction", "src/collection/ENetCollection.cpp:NextNetName"]}
{"id": "C79", "title": "Connectivity extraction leaves no object on a wrong net", "statement": "Everything connected to any shape of a via is on the net of the via, and no object keeps a net of before; a layout without layers is handled.", "quantifier": "all layouts", "why_tests_cant": "whether a stale net number meets a new net depends on the number of nets before and after", "anchors": ["src/utility/ELayoutConnectivity.cpp:ConnectivityExtraction"]}
{"id": "C80", "title": "A padstack instance shows the right pad on each layer", "statement": "The shape reported for a layer is that of the pad the instance's layer map leads to, or of the via if that pad has no shape; it is absent exactly outside the layer range or where nothing is defined; each outline point is moved by the placement and the pad's own offset and rotation.", "quantifier": "all padstack definitions, layer maps, ranges in either order, transforms and layer ids from -1 on", "why_tests_cant": "range, map, pad list and via interact for every combination", "anchors": ["src/design/EPadstackInst.cpp:GetLayerShape", "src/design/EPadstackDefData.cpp:GetPadParameters"]}
{"id": "C81", "title": "Pads lie where the placement of their padstack puts them", "statement": "A pad's own rotation and offset place it inside its padstack; the instance's transform then places the padstack. The reported shape is the pad moved by both in this order.", "quantifier": "all pads, all instance transforms including rotation, scaling and mirroring", "why_tests_cant": "only pads off the centre under a turned or mirrored instance tell the orders apart", "anchors": ["src/design/EPadstackInst.cpp:GetLayerShape"]}
{"id": "C82", "title": "Mapping the layers of padstack instances moves their shapes to the mapped layers", "statement": "After a layer mapping that keeps or reverses the layer order, every instance shows on the image of a layer exactly what it showed on that layer before; the layer maps of before are unchanged and instances that shared a layer map share the new one, which is in the database under a name of its own.", "quantifier": "all collections of instances, any sharing of layer maps, any layer mapping", "why_tests_cant": "sharing patterns and order-reversing maps are unbounded", "anchors": ["src/collection/EPadstackInstCollection.cpp:Map", "src/design/ELayerMap.cpp:MappingLeft"]}
{"id": "C83", "title": "Mapped padstack instances appear on no other layer", "statement": "After a layer mapping an instance shows nothing on layers that are not the image of a layer of its range.", "quantifier": "all instances and layer mappings, including mappings that leave out an end of the range", "why_tests_cant": "depends on which layers a mapping leaves out", "anchors": ["src/collection/EPadstackInstCollection.cpp:Map", "src/design/EPadstackInst.cpp:GetLayerShape"]}
{"id": "C84", "title": "Pins and boundary of a component move together", "statement": "Whatever the history of placements and flips, pin locations and boundary of a component are the images of those of its definition under one and the same map; a pin name denotes the first pin created with it, an unknown name leaves the caller's point alone.", "quantifier": "all component definitions and all histories of placement calls", "why_tests_cant": "histories are unbounded", "anchors": ["src/design/EComponent.cpp:GetPinLocation", "src/design/EComponent.cpp:GetBoundary", "src/collection/EComponentDefPinCollection.cpp:FindPinByName"]}
{"id": "C85", "title": "Pins of a component are where its placement puts them", "statement": "A pin is at its place in the definition, mirrored if the component is flipped, and then moved by every transform set or added since, in order.", "quantifier": "all histories of setting, adding and reading placements and of flipping", "why_tests_cant": "a read in between changes what a later call does", "anchors": ["src/design/EComponent.cpp:GetPinLocation", "src/basic/protocol/Transformable.h:AddTransform", "src/basic/ETransform.h:Append"]}
{"id": "C86", "title": "The heat capacity of a grid cell is that of its materials", "statement": "In the network built from a grid thermal model every cell has the heat capacity volume times the mix, by its share of metal, of specific heat times density of metal and dielectric; other nodes have none.", "quantifier": "all grid models, temperatures and cells", "why_tests_cant": "the value depends on every layer, resolution and metal share; no test compares it with material data", "anchors": ["src/solver/thermal/utils/EGridThermalNetworkBuilder.cpp:Build", "src/solver/thermal/utils/EGridThermalNetworkBuilder.cpp:GetCompositeMatC"]}
{"id": "C87", "title": "The path of a bond wire follows its type", "statement": "A bond wire starts and ends at its two points at the heights of what it is bonded to, rises by its height on the side the bonded face looks to, and bends one eighth from its ends (simple) or rises straight up and bends after one eighth (JEDEC4); it has a path exactly if both ends have a height.", "quantifier": "all wires, points, heights, flip states and stack-ups", "why_tests_cant": "coordinates of either sign and any distance, where rounding matters", "anchors": ["src/utility/ELayoutRetriever.cpp:GetBondwireSegments", "src/utility/ELayoutRetriever.cpp:GetSimpleBondwireSegments", "src/utility/ELayoutRetriever.cpp:GetJedec4BondwireSegments"]}
{"id": "C88", "title": "An extracted layer power is the loss at the temperature it is stored for", "statement": "At every temperature the power model of a layer of an extracted grid model is sampled at, its cells hold what the components of the layer lose at that temperature.", "quantifier": "all components, loss tables, placements and layers", "why_tests_cant": "loss tables are arbitrary functions of the temperature; a constant table hides a wrong unit", "anchors": ["src/extraction/thermal/EThermalModelExtraction.cpp:GenerateGridThermalModel", "src/design/EComponent.cpp:GetLossPower"]}
{"id": "C89", "title": "Extraction to a grid keeps layers and losses", "statement": "The grid model extracted from a layout has the stack-up layers in their order with their names, thicknesses and metal maps; each lossy component adds an equal part of its loss to every cell its box meets, on its placement layer only; the cells of a layer add up to the losses of its components, and a layer without lossy components has no power model. Components that are not placed in the region stop the extraction.", "quantifier": "all stack-ups and lists of components in the mapped region", "why_tests_cant": "sums over unboundedly many components that overlap in any way", "anchors": ["src/extraction/thermal/EThermalModelExtraction.cpp:GenerateGridThermalModel", "src/model/thermal/EGridThermalModel.cpp:AppendLayer"]}
{"id": "C90", "title": "A block boundary condition applies to the cells under the block", "statement": "The boundary condition of a block of an extracted grid model is set on exactly the cells the block meets; a block outside the layout is rejected.", "quantifier": "all blocks, regions and grids", "why_tests_cant": "blocks of any size and place, in particular on the edges of the region", "anchors": ["src/extraction/thermal/EThermalModelExtraction.cpp:GenerateGridThermalModel", "src/model/thermal/EGridThermalModel.cpp:AddBlockBC"]}
{"id": "C91", "title": "A bond wire joins the cells it is bonded to", "statement": "Every bond wire of the layout becomes one connection between the cells of the grid model below its two ends, on the layer it is bonded to; a wire that ends outside the mapped region is rejected.", "quantifier": "all wires, layers and regions", "why_tests_cant": "wires between any two points and layers", "anchors": ["src/extraction/thermal/EThermalModelExtraction.cpp:GenerateGridThermalModel", "src/model/thermal/EGridThermalModel.cpp:AppendJumpConnection"]}
{"id": "C92", "title": "A point query answers the innermost polygon of the layer", "statement": "Searching a layer of a layer cut model for a point answers a smallest polygon that contains the point among the polygons whose heights cover the layer, or none exactly if there is none.", "quantifier": "all polygons, heights, layers, points, and orders in which the tree and the queue answer", "why_tests_cant": "nesting of any depth and any order of results", "anchors": ["src/model/geometry/utils/ELayerCutModelQuery.cpp:SearchPolygon", "src/model/geometry/utils/ELayerCutModelQuery.cpp:ELayerCutModelQuery"]}
{"id": "C93", "title": "Prism elements follow the mesh and the materials", "statement": "Every layer of an extracted prism model has one element for each triangle of its mesh that lies in a solid polygon, in mesh order and numbered from 0, with the material and net of that polygon; triangles in no polygon, or in one without material or of a fluid, have none; an element has power exactly in the layer that begins at the top of the power block of its polygon.", "quantifier": "all meshes, polygons, materials and layer cut models without gaps", "why_tests_cant": "meshes of any size", "anchors": ["src/extraction/thermal/EThermalModelExtraction.cpp:GeneratePrismThermalModel", "src/extraction/thermal/EThermalModelExtraction.cpp:GenerateStackupPrismThermalModel", "src/model/thermal/EPrismThermalModel.h:AddElement"]}
{"id": "C94", "title": "All of a power block is in the prism model, once", "statement": "The shares of the power of a component or solder joint that the elements of an extracted prism model carry add up to one.", "quantifier": "all blocks, meshes and layer cut models", "why_tests_cant": "depends on nesting, rounding of heights and ties between polygons", "anchors": ["src/extraction/thermal/EThermalModelExtraction.cpp:GeneratePrismThermalModel", "src/extraction/geometry/EGeometryModelExtraction.cpp:GenerateLayerCutModel", "src/model/geometry/utils/ELayerCutModelBuilder.cpp:AddPowerBlock"]}
{"id": "C95", "title": "Every layer is meshed with its own polygons", "statement": "In a stack-up prism model each layer is given a mesh made of the polygons of the layer, of no others without imprinting, and with imprinting also of those of the layer above; layers that share their polygons share the mesh.", "quantifier": "all numbers of layers and all sharing patterns", "why_tests_cant": "any number of layers", "anchors": ["src/extraction/thermal/EThermalModelExtraction.cpp:GenerateStackupPrismThermalModel"]}
{"id": "C96", "title": "A grid cell exchanges with the ambient through its exposed faces", "statement": "In the network built from a grid model every cell of the top and bottom layer exchanges with the ambient the sum over its exposed faces of face area times the coefficient in force there (a block condition overrides the uniform one, a later block an earlier one), and inner cells exchange nothing.", "quantifier": "every grid model, block list and combination of boundary conditions", "why_tests_cant": "All grid sizes and overlaps of blocks; a lost face only shifts temperatures.", "anchors": ["src/solver/thermal/utils/EGridThermalNetworkBuilder.cpp:ApplyUniformBoundaryConditionForLayer", "src/solver/thermal/utils/EGridThermalNetworkBuilder.cpp:ApplyBlockBoundaryConditionForLayer"]}
{"id": "C97", "title": "A KiCad board is imported exactly if its drawings are well-formed, and they have no say in layers and nets", "statement": "Importing a KiCad board whose layer and net declarations are sound returns a layout if and only if every segment, zone, via, pad, arc, line, polygon and circle, on the board or inside a footprint, has in each of its entries the values the reader takes from it; two boards with the same declarations give the same layers and nets whatever is drawn on them.", "quantifier": "all parsed board files, any nesting of footprints, all number oracles, all walk orders of the hash maps", "why_tests_cant": "the number of malformed shapes is unbounded and a single one anywhere in the file decides; undefined behaviour need not show in a test run", "anchors": ["src/extension/kicad/ECadExtKiCadHandler.cpp:57-62,114-333", "ECadExtKiCadHandler::CreateDatabase"]}
{"id": "C98", "title": "A layer cut model holds every object of the layout once", "statement": "The layer cut model extracted from a layout holds, in this order, the layout boundary for each stack-up layer in the layer's dielectric, the body of each component and the filling under it, each geometry in the conducting material of its layer with its holes in the dielectric, the solder joints of bond wires, and the pads of each padstack instance on every layer of its range, each with its net, material and heights rounded to the precision; outlines that round to no thickness are left out, solids run counterclockwise and holes clockwise; bond wires and circle centres are kept. The extraction succeeds exactly if every material, height and pad it needs exists.", "quantifier": "all layouts with any number of layers, components, primitives, padstack instances and boxes; all precisions", "why_tests_cant": "the lists are built side by side through caches and early returns over unboundedly many objects, an index off by one mixes up nets or materials of later objects only", "anchors": ["src/extraction/geometry/EGeometryModelExtraction.cpp:GenerateLayerCutModel", "src/model/geometry/utils/ELayerCutModelBuilder.cpp:AddShape", "src/model/geometry/utils/ELayerCutModelBuilder.cpp:AddPolygon", "src/model/geometry/utils/ELayerCutModelBuilder.cpp:AddComponent"]}
{"id": "C99", "title": "A power block of a layer cut model lies within its polygon", "statement": "Every power block of an extracted layer cut model belongs to an existing polygon of positive height, and its heights lie between those of the polygon.", "quantifier": "all layouts, precisions, thicknesses and loss tables", "why_tests_cant": "rounding and the interplay of both indices for arbitrary heights", "anchors": ["src/model/geometry/utils/ELayerCutModelBuilder.cpp:AddPowerBlock", "src/model/geometry/ELayerCutModel.h:GetAllPowerBlocks"]}
{"id": "C100", "title": "The layers of an extracted layer cut model are those of its shapes", "statement": "Extraction of a layer cut model never fails for want of a layer: polygons without material, as the holes of the boundary, share the heights of one with a material; imprint boxes change no layer and are in none.", "quantifier": "all layouts whose materials have ids; all lists of imprint boxes", "why_tests_cant": "at() throws only for particular combinations of heights and materials", "anchors": ["src/model/geometry/ELayerCutModel.cpp:BuildLayerPolygonLUT", "src/model/geometry/utils/ELayerCutModelBuilder.cpp:AddImprintBox", "src/extraction/geometry/EGeometryModelExtraction.cpp:GenerateLayerCutModel"]}
{"id": "C101", "title": "The boundary of a layer cut model is that of the layout", "statement": "The layout boundary a layer cut model answers is the outline of the layout it was extracted from.", "quantifier": "all layouts and precisions", "why_tests_cant": "depends on whether thin layers are dropped by rounding", "anchors": ["src/model/geometry/ELayerCutModel.cpp:GetLayoutBoundary", "src/extraction/geometry/EGeometryModelExtraction.cpp:GenerateLayerCutModel"]}
{"id": "C102", "title": "A solder joint of a bond wire is in the layer cut model once, on the net of the wire", "statement": "Each solder joint of a bond wire becomes one polygon of the layer cut model, on the net of the wire, whether or not the wire carries a current.", "quantifier": "all wires, currents and joints", "why_tests_cant": "both ends are handled by separate code, tests look at one wire", "anchors": ["src/extraction/geometry/EGeometryModelExtraction.cpp:GenerateLayerCutModel"]}
{"id": "C103", "title": "A grid thermal model is exported to a chip thermal model as it is", "statement": "A grid model is exported exactly if its resolutions in x and y are equal and its layer names are distinct. The chip model then has its tiles, scale and resolution, the layers from top to bottom at the heights their thicknesses add up to, metal layers and via layers by their flag, via layers naming their neighbours, and the metal fraction of each layer.", "quantifier": "all grid models", "why_tests_cant": "any number of layers and any thicknesses; a wrong height shows only when the file is read back", "anchors": ["src/model/thermal/io/EThermalModelIO.cpp:makeChipThermalModelV1FromGridThermalModel"]}
{"id": "C104", "title": "Exporting a grid model to a chip model keeps its power", "statement": "At every temperature the power table of the exported chip model holds for each tile what all power models of the grid model give there together; power blocks inside the grid add up to their totals.", "quantifier": "all grid models, power models, tiles and temperatures", "why_tests_cant": "sums over any number of layers and power models", "anchors": ["src/model/thermal/io/EThermalModelIO.cpp:makeChipThermalModelV1FromGridThermalModel", "src/model/thermal/EThermalModel.cpp:EBlockPowerModel"]}
{"id": "C105", "title": "A grid model survives the way through a chip model", "statement": "A grid model in which every layer that is not metal lies between two metal layers comes back from its chip model with the same grid, scale, resolution, and layers with their names, thicknesses and metal fractions, and with the same power in every tile column.", "quantifier": "all such grid models, all orders in which hash sets are walked, all interpolations that meet their samples", "why_tests_cant": "depends on heights of unboundedly many layers that are derived from each other", "anchors": ["src/model/thermal/io/EThermalModelIO.cpp:makeChipThermalModelV1FromGridThermalModel", "src/model/thermal/io/EThermalModelIO.cpp:makeGridThermalModelFromCTMv1Model", "src/model/thermal/EChipThermalModel.cpp:GetLayerHeightThickness"]}
{"id": "C106", "title": "A grid model made of a chip model has the layers of its stack-up", "statement": "The grid model has the tiles, scale and resolution of the chip model and its layers are the stack-up layers that fit, each with the density of its only layer or the sum, at most 1, of the densities of the layers merged into it; the power table is on the lowest layer that holds metal. There is none exactly if the stack-up holds no metal layer.", "quantifier": "all chip models whose stack-up can be built, all orders in which hash sets are walked", "why_tests_cant": "layers merge at any height and any number, densities may be missing or of another size", "anchors": ["src/model/thermal/io/EThermalModelIO.cpp:makeGridThermalModelFromCTMv1Model", "src/model/thermal/EChipThermalModel.cpp:GetLastMatelLayerInStackup", "src/model/thermal/EGridThermalModel.cpp:AppendLayer"]}
{"id": "C107", "title": "A monitored point is attached to the nearest element of the layer it lies in", "statement": "For every monitored point the simulation picks one element: of the layer around its height (the first above the stack, the last below), and no element of that layer is nearer to the point; a point inside an element is attached to that element, and a point on the top surface to the top layer.", "quantifier": "all prism models, all points, all answers of the spatial index among equally near entries", "why_tests_cant": "depends on the shape of every triangle and the height of every layer; ties and surfaces are measure-zero inputs tests miss", "anchors": ["src/model/thermal/utils/EPrismThermalModelQuery.cpp:SearchNearestPrismInstance", "src/model/thermal/utils/EStackupPrismThermalModelQuery.cpp:SearchNearestPrismInstance", "src/model/thermal/EPrismThermalModel.cpp:SearchElementIndices"]}
{"id": "C108", "title": "Searching elements does not depend on how the index was built", "statement": "The per layer index may be filled in any order and by any number of threads before the search: the elements found are the same. An area query of a layer, or of the model, returns exactly the elements whose key lies in the area, once each.", "quantifier": "all models, all schedules of the index construction, all areas", "why_tests_cant": "schedules and models are unbounded; the index is a cache hidden from the caller", "anchors": ["src/model/thermal/utils/EPrismThermalModelQuery.cpp:BuildLayerIndexTree, SearchPrismInstances, BuildIndexTree", "src/model/thermal/utils/EStackupPrismThermalModelQuery.cpp:BuildLayerIndexTree"]}
{"id": "C109", "title": "A simulation returns one temperature for every monitored point", "statement": "A static run returns the least and the greatest temperature and, in order, the temperature of the element of every monitored point, for every kind of thermal model; without a valid result it returns no temperatures; a transient run samples at those elements.", "quantifier": "all layouts, models, monitor lists and settings", "why_tests_cant": "the combination of model kind, settings kind and monitors is open ended, and failures must leave nothing behind", "anchors": ["src/simulation/thermal/EThermalSimulation.cpp", "src/design/ELayoutView.cpp:RunThermalSimulation", "src/solver/thermal/EThermalNetworkSolver.cpp"]}
{"id": "C110", "title": "A copied layout has the same content and its own wires", "statement": "Copying a layout gives new objects with the same content; every bond wire of the copy that was attached to a component is attached, with the same pin, to the copy's component of the same name, and answers the same side.", "quantifier": "all layouts and all components, instances, primitives, pads and models in them", "why_tests_cant": "any mix of components and wires, renamed or not, can be in the layout", "anchors": ["src/design/ELayoutView.cpp:operator=", "src/design/EPrimitive.cpp:SetStartComponent", "src/basic/ECollection.h:operator=", "src/design/EComponent.h:SetName"]}
{"id": "C111", "title": "A copied database stands on its own", "statement": "The objects of a copied database are new and refer to each other only: definitions to the new database, layouts to the new cells, instances to the new layouts; removing the original leaves the copy usable.", "quantifier": "all databases and all references between their objects", "why_tests_cant": "the pointers of a copy are only used much later, after any edits or removal of the original", "anchors": ["src/design/EDatabase.cpp:operator=", "src/design/ECell.cpp:operator=", "src/design/ECellInst.h:CloneImp", "src/design/EComponent.h:CloneImp", "src/design/EPadstackInst.h:CloneImp"]}
{"id": "C112", "title": "Models in a copied layout keep their type", "statement": "The models stored with a layout are in its copy, with the same data and of the same type, so asking the copy for a model gives one of the type asked for.", "quantifier": "all layouts and all models stored with them", "why_tests_cant": "every kind of model has its own way of being copied", "anchors": ["src/collection/EModelCollection.cpp", "src/model/thermal/EPrismThermalModel.h:CloneImp", "src/model/thermal/EStackupPrismThermalModel.h", "src/design/ELayoutView.cpp:ExtractThermalModel"]}
{"id": "C113", "title": "A database can be saved after any history", "statement": "Whatever models were extracted before, saving a database to a file that can be opened succeeds, and a failed attempt leaves what was there.", "quantifier": "all histories of extractions and clearing over all layouts, all files", "why_tests_cant": "the outcome depends on the models left by any earlier history", "anchors": ["src/design/EDatabase.cpp:Save", "src/collection/EModelCollection.cpp:AddModel", "src/model/thermal/EGridThermalModel.h", "src/model/thermal/EChipThermalModel.h"]}
{"id": "C114", "title": "Saving and loading restores every data member", "statement": "Loading an archive restores every data member of every saved object, whatever the target held before; an archive that was cut off is refused with an exception and never taken for a whole one.", "quantifier": "all objects of all classes, all previous contents of the target, all points at which an archive is cut off", "why_tests_cant": "every class has its own list of members to write, and a forgotten one shows only after a restart", "anchors": ["src/design/EDatabase.cpp:Save", "src/design/EDatabase.cpp:Load", "src/design/ELayoutView.cpp:serialize", "src/design/EObject.cpp:serialize", "src/design/EPrimitive.cpp:serialize", "src/basic/ECadSerialization.h"]}
{"id": "C115", "title": "Every object has an identity of its own", "statement": "Objects compare equal to themselves and to no other object, after any history of creating, assigning, renaming, copying and moving them; copies and moved objects keep the name.", "quantifier": "all histories of operations on objects", "why_tests_cant": "identities must stay distinct over any sequence of operations", "anchors": ["src/design/EObject.cpp", "src/design/EObject.h"]}
{"id": "C116", "title": "Transforming a shape moves it", "statement": "Transforming a shape any number of times, with any queries in between, gives the shape whose points are the old ones moved by the transforms in order: contour, holes, radius and width.", "quantifier": "all shapes, all sequences of transforms and queries", "why_tests_cant": "holds for every shape, every transform history and every interleaving of queries", "anchors": ["src/basic/EShape.cpp", "src/basic/EShape.h"]}
{"id": "C117", "title": "The box of a shape is its bounding box", "statement": "The bounding box of a valid shape holds every point of its contour, and no smaller box does; an invalid shape from a template has an empty box.", "quantifier": "all shapes, templates nested to any depth, all transforms", "why_tests_cant": "holds for every shape and transform", "anchors": ["src/basic/EShape.cpp"]}
{"id": "C118", "title": "A shape read from an archive is the shape that was written", "statement": "Writing a shape to an archive and reading it back gives a shape with the same contour, holes and validity, whatever was done with the shape before.", "quantifier": "all shapes and all histories of transforms and queries", "why_tests_cant": "depends on the history of the shape before it is written", "anchors": ["src/basic/EShape.cpp", "src/basic/ETransform.h"]}
{"id": "C119", "title": "The boundary of a layout is the bounding box of what is in it", "statement": "The boundary of a layout is the smallest box around its geometries and around those of the layouts placed in it at any depth, for the contents the layout has when asked.", "quantifier": "all layouts, hierarchies of any depth, all orders of layers", "why_tests_cant": "holds for every hierarchy and every order in which hashed layers are walked", "anchors": ["src/utility/ELayoutRetriever.cpp:CalculateLayoutBoundaryShape", "src/design/ELayoutView.cpp:GetBoundary"]}
{"id": "C120", "title": "The boundary stays until another one is set", "statement": "Once asked for or set, the boundary of a layout is the same at every later call, until a boundary is set for that layout.", "quantifier": "all histories of edits, boundary queries and SetBoundary calls over all layouts", "why_tests_cant": "holds over every history of calls", "anchors": ["src/design/ELayoutView.cpp:GetBoundary", "src/design/ELayoutView.cpp:SetBoundary"]}
{"id": "C121", "title": "The picture of a layout shows what is selected", "statement": "Without a selection, the picture shows the boundary, every component and every geometry with its holes and every bond wire; with selected nets or layers it shows those that are selected.", "quantifier": "all layouts and all selections of nets and layers", "why_tests_cant": "holds for every layout and selection", "anchors": ["src/utility/ELayoutViewRenderer.cpp"]}
{"id": "C122", "title": "A SPICE netlist written for a thermal network describes the same circuit", "statement": "A circuit simulator that reads the netlist finds the temperatures the network's own equations give, at rest and while they change; every element has a name of its own and connects existing nodes; a node with a given temperature has that temperature.", "quantifier": "all networks built with the public calls, all reference temperatures, all temperature histories", "why_tests_cant": "the equivalence is between two systems of equations of any size", "anchors": ["src/solver/thermal/network/utils/ThermalNetlistWriter.h WriteSpiceNetlist", "src/solver/thermal/network/ThermalNetwork.h"]}
{"id": "C123", "title": "A mesh file written for a prism model shows the model and its temperatures", "statement": "Any reader of legacy VTK files gets one wedge per prism and one line per wire, each with the corners of that element in metres (times the scale), in the order of the model's numbering, and, when a temperature per element is given, that temperature for that cell; a list of another length gives a file without temperatures.", "quantifier": "all built prism models, all layers and wires, all temperature lists, all printing functions that print words", "why_tests_cant": "the counts, offsets and indices in the file must agree for every number of layers, prisms and wires", "anchors": ["src/model/thermal/io/EPrismThermalModelIO.cpp GenerateVTKFile"]}
{"id": "C124", "title": "A density profile can be read back", "statement": "The profile written for a layout or for a grid model lists the die, the number of tiles, the layers by name and, for each tile, its number, its box and the density of every layer there; a call that fails says so.", "quantifier": "all grids, all numbers of layers and tiles, all layer names", "why_tests_cant": "row-major numbering, boxes and columns must agree for every size of the grid", "anchors": ["src/utility/EMetalFractionMapping.cpp WriteThermalProfile", "src/model/thermal/io/EGridThermalModelIO.cpp GenerateTxtProfile"]}
{"id": "C125", "title": "A layout exported as a chip model keeps its densities", "statement": "The chip thermal model made from a layout has the resolution asked for, one layer per stack-up layer with its name and thickness, and for each layer and tile the part of that tile (of the size the model names) covered by the shapes of the selected nets on that layer; an export without a place to write to, or of layers of the same name, fails.", "quantifier": "all layouts, regions, resolutions, stack-ups and selections of nets; any polygon coverage function", "why_tests_cant": "the agreement of tile sizes and the sums over shapes must hold for every region and shape list", "anchors": ["src/utility/ELayout2CtmUtility.cpp GenerateCTMv1File", "src/utility/EMetalFractionMapping.cpp GenerateMetalFractionMapping", "src/model/thermal/io/EThermalModelIO.cpp makeChipThermalModelV1FromGridThermalModel"]}
{"id": "C126", "title": "Exporting a layout leaves the layout as it was", "statement": "After an export the layout has the same outline, stack-up and shapes.", "quantifier": "all layouts and settings", "why_tests_cant": "a frame condition over every layout", "anchors": ["src/utility/ELayout2CtmUtility.cpp GenerateCTMv1File", "src/utility/EMetalFractionMapping.cpp GenerateMetalFractionMapping"]}
{"id": "C127", "title": "A chip model exported from a layout comes back as a grid model of the layout", "statement": "Importing the exported chip model gives a grid model with the tiles and the resolution asked for, and for every stack-up layer in order its name, thickness and densities.", "quantifier": "all layouts, all regions, all stack-ups, all orders of walking sets of names", "why_tests_cant": "composition of three conversions over stack-ups of any height", "anchors": ["src/utility/ELayout2CtmUtility.cpp GenerateCTMv1File", "src/model/thermal/io/EThermalModelIO.cpp"]}
{"id": "C128", "title": "An XFL file is read as what its words say", "statement": "For every file made of the elements of the format, however the words are spread over lines, whatever comments stand between them and in whatever letter case the keywords are, each element arrives exactly once, in the order of the file, with the values its words stand for, and reading reports success; so no text has two meanings, and layout does not matter.", "quantifier": "all lists of elements, all nesting and lengths, all layouts of blanks, tabs, line ends and comments, all letter cases of keywords, all number texts", "why_tests_cant": "the alternatives of the grammar are ordered and do not backtrack; whether one of them takes what belongs to another depends on every possible text", "anchors": ["src/extension/xfl/EXflParser.h EXflGrammar", "src/extension/xfl/EXflParser.h EXflReader", "src/extension/xfl/EXflParser.h SkipperGrammar"]}
{"id": "C129", "title": "Reading an XFL text ends", "statement": "Every turn of every repetition of the grammar takes at least one character of the text, so that reading ends for every text and a repetition goes on exactly as long as its body can be read.", "quantifier": "all texts, also ones that are no XFL files", "why_tests_cant": "termination must hold for every text", "anchors": ["src/extension/xfl/EXflParser.h EXflGrammar"]}
{"id": "C130", "title": "What a reader hands over is well formed whatever the text", "statement": "Whatever the text: integers handed over fit in 32 bits, names are not empty and hold no quotes, types and mirrors are letters of the format, and outlines with arcs start at a point.", "quantifier": "all texts", "why_tests_cant": "must hold for every text, also broken ones", "anchors": ["src/extension/xfl/EXflParser.h EXflGrammar"]}
{"id": "C131", "title": "Every element the format has can be read", "statement": "Each kind of element for which the reader has a rule and the database a class arrives as that kind.", "quantifier": "all elements of the format", "why_tests_cant": "which rule takes a text depends on the order of all alternatives", "anchors": ["src/extension/xfl/EXflParser.h arc", "src/extension/xfl/EXflParser.h instDiamond", "src/extension/xfl/EXflObjects.h"]}
{"id": "C132", "title": "Successful reading of an XFL file means that nothing was lost", "statement": "If reading reports success, every element of the file has arrived; if all of the file was read, it reports success.", "quantifier": "all texts", "why_tests_cant": "must hold for every text, also ones cut off anywhere", "anchors": ["src/extension/xfl/EXflParser.h unknownSection", "src/extension/xfl/EXflParser.h EXflReader"]}
{"id": "C133", "title": "Which XFL texts become a database", "statement": "A text becomes a database exactly if it is read to its end, gives a scale and a unit, has no two vias of one name whose padstack, shape and material it has, and its last outline is not the number of one of its templates; in particular every complete file does, in every layout of its words.", "quantifier": "all texts", "why_tests_cant": "the condition is over every text and every combination of its elements", "anchors": ["src/extension/xfl/ECadExtXflHandler.cpp CreateDatabase", "src/extension/xfl/EXflParser.h EXflReader"]}
{"id": "C134", "title": "The database of an XFL text holds what the text says", "statement": "If a text becomes a database, its layers are those of the text in order with name, kind, thickness and elevation in coordinates and the material made for the first one of the name the layer says; every material of the text is there with a name of its own; its padstack definitions are the complete vias; it has exactly the nets named; and its boundary is the last outline.", "quantifier": "all texts that become a database", "why_tests_cant": "composition of reading and importing over every text", "anchors": ["src/extension/xfl/ECadExtXflHandler.cpp ImportMaterialDefs", "src/extension/xfl/ECadExtXflHandler.cpp ImportLayers", "src/extension/xfl/EXflParser.h LayerHandle"]}
{"id": "C135", "title": "Lengths of an XFL text are taken in the unit it names", "statement": "The unit of the database is the one the text names last.", "quantifier": "all texts that become a database, all names of units", "why_tests_cant": "every name of a unit is possible", "anchors": ["src/extension/xfl/EXflParser.h UnitHandle"]}
{"id": "C136", "title": "A DMC and a DOM text become the database they describe", "statement": "For texts whose lines are the records and points of figures, CreateDatabase makes a database of that name holding these figures on their layers and nets, with vias between the layers they name, in nanometres, and the boundary of all outlines.", "quantifier": "all pairs of texts with any spacing, empty lines and number formats, all lists of figures, all registries", "why_tests_cant": "texts, spacings and number formats are unbounded", "anchors": ["src/extension/dmcdom/ECadExtDmcDomHandler.cpp CreateDatabase", "src/extension/dmcdom/ECadExtDmcDomHandler.cpp ParseDomFile", "src/extension/dmcdom/ECadExtDmcDomHandler.cpp ParseDmcFile"]}
{"id": "C137", "title": "A DMC or DOM text that cannot be read is refused without a trace", "statement": "If the name is in use, a file is missing or a record is incomplete, no database is made and the registry is as before.", "quantifier": "all pairs of texts, all registries, every place a record can break off", "why_tests_cant": "a record can break off anywhere in any file", "anchors": ["src/extension/dmcdom/ECadExtDmcDomHandler.cpp ParseDmcLine", "src/extension/dmcdom/ECadExtDmcDomHandler.cpp ParseDomLine", "src/extension/dmcdom/ECadExtDmcDomHandler.cpp CreateDatabase"]}
{"id": "C138", "title": "Merged polygons written as DMC and DOM texts are read back as they were", "statement": "The polygons of known layers and nets that are written to a DMC and a DOM file are the polygons of the database made from these files, in the same order, on layers and nets of the same names, with the same coordinates.", "quantifier": "all lists of merged polygons with holes, all coordinates of double precision, all names of one word", "why_tests_cant": "coordinates, polygons and names are unbounded", "anchors": ["src/utility/ELayoutPolygonMerger.cpp WriteDomDmcFiles", "src/utility/ELayoutPolygonMerger.cpp WriteDomDmcForOneLayer", "src/extension/dmcdom/ECadExtDmcDomHandler.cpp CreateDatabase"]}
{"id": "C139", "title": "Shapes and placements made from lengths have the coordinates of these lengths", "statement": "Rectangles, boxes, circles, paths, polygons and placement offsets created from lengths in the user unit have coordinates within one and a half data units of these lengths, point for point in the order given; longer lengths never get smaller coordinates and mirrored lengths get mirrored ones, so a rectangle given by its lower left and upper right corner is valid; a flat list of coordinates makes the same polygon as the list of its pairs.", "quantifier": "all unit pairs, all lengths up to 2^48 data units, all point lists", "why_tests_cant": "lengths and lists are unbounded and the conversion rounds twice", "anchors": ["src/EDataMgr.cpp CreateShapeRectangle", "src/EDataMgr.cpp CreateShapeCircle", "src/EDataMgr.cpp CreateShapePath", "src/EDataMgr.cpp CreateShapePolygon", "src/EDataMgr.cpp CreateBox", "src/EDataMgr.cpp CreateTransform2D", "src/basic/ECadUnits.h toCoord"]}
{"id": "C140", "title": "A component pin is reported where it was created and placed", "statement": "A pin created at a location given in the user unit, on a component placed with an offset in the user unit, mirrored or flipped, is reported at that location moved by the placement; the first pin of a name is the one reported; without pin or component the answer is false and the caller's point is untouched.", "quantifier": "all pin lists, all locations and offsets up to 2^48 data units, all mirrors, both sides, all unit pairs", "why_tests_cant": "pins, locations and units are unbounded", "anchors": ["src/EDataMgr.cpp CreateComponentDefPin", "src/EDataMgr.cpp GetComponentPinLocation", "src/EDataMgr.cpp CreateTransform2D", "src/design/EComponent.cpp GetPinLocation", "src/basic/ECadUnits.h toUnit"]}
{"id": "C141", "title": "Shapes made from lengths keep their size", "statement": "A shape given in the user unit has the same size wherever it is put, a size of whole data units is kept exactly, and a positive radius or width makes a valid circle or path.", "quantifier": "all unit pairs, all lengths up to 2^48 data units", "why_tests_cant": "lengths are unbounded and truncation depends on where the shape is", "anchors": ["src/EDataMgr.cpp CreateShapeRectangle", "src/EDataMgr.cpp CreateShapeCircle", "src/EDataMgr.cpp CreateShapePath", "src/basic/ECadUnits.h toCoord"]}
{"id": "C142", "title": "A chip thermal model survives its package", "statement": "A complete chip thermal model that is written to a package and read again has the same power table at every header temperature and the same metal density for every header layer, whatever the folder and an older package held before.", "quantifier": "all chip thermal models, all earlier contents of the folder and package", "why_tests_cant": "the number of temperatures, layers and tiles and the leftovers on disk are unbounded", "anchors": ["src/model/thermal/io/EChipThermalModelIO.cpp makeChipThermalModelFromCTMv1File", "src/model/thermal/io/EChipThermalModelIO.cpp GenerateCTMv1FileFromChipThermalModelV1", "src/model/thermal/EGridThermalModel.cpp AddSample"]}
{"id": "C143", "title": "Writing a package is refused or done as a whole", "statement": "A chip thermal model is accepted exactly if its tables are complete; a refusal, or a stop between two files, leaves the older package as it was.", "quantifier": "all chip thermal models, all earlier disk contents, all points of interruption", "why_tests_cant": "every prefix of the writes is a possible crash point", "anchors": ["src/model/thermal/io/EChipThermalModelIO.cpp GenerateCTMv1FileFromChipThermalModelV1", "src/model/thermal/io/EChipThermalModelIO.cpp WriteCTMv1DensityFile", "src/model/thermal/io/EChipThermalModelIO.cpp GenerateCTMv1Package"]}
{"id": "C144", "title": "Pictures of a chip thermal model", "statement": "Every power table at a header temperature and every metal density gets one picture, power pictures share one scale, and shades grow with the values from 0 to 1.", "quantifier": "all chip thermal models, all values", "why_tests_cant": "which tables are missing is arbitrary", "anchors": ["src/model/thermal/io/EChipThermalModelIO.cpp GenerateCTMv1ImageProfiles", "src/model/thermal/io/EGridThermalModelIO.cpp GenerateImageProfile"]}
{"id": "C145", "title": "Range of a table and need for interpolation", "statement": "The range of a grid table holds every value of every sample and both ends occur; interpolation is needed exactly if two samples differ.", "quantifier": "all tables", "why_tests_cant": "tables are unbounded", "anchors": ["src/model/thermal/EGridThermalModel.cpp GetRange", "src/model/thermal/EGridThermalModel.cpp NeedInterpolation"]}
{"id": "C146", "title": "Building a stack-up prism model", "statement": "Building a stack-up prism model with one triangulation per layer gives one prism for every element, in the order of layers and elements, with six points of its own at the corners of its triangle on the upper and lower level of its layer, and with the numbers of its side neighbours; layers and triangulations are kept.", "quantifier": "all stacks with a triangulation per layer, all orders of the turns", "why_tests_cant": "numbers of layers, elements and orders are unbounded", "anchors": ["src/model/thermal/utils/EStackupPrismThermalModelBuilder.cpp BuildPrismModel"]}
{"id": "C147", "title": "Contacts of a stack-up prism model", "statement": "The contacts of a prism with the layers above and below are the prisms there it has a common area with, each once, with the part of its area; they are mutual; and whatever the number of threads and the interleaving of the layer tasks, prisms and contacts are those of the sequential build.", "quantifier": "all stacks, all interleavings of the layer tasks", "why_tests_cant": "schedules cannot be enumerated by tests", "anchors": ["src/model/thermal/utils/EStackupPrismThermalModelBuilder.cpp BuildPrismInstanceTopBotNeighbors", "src/model/thermal/utils/EStackupPrismThermalModelQuery.cpp IntersectsPrismInstances"]}
{"id": "C148", "title": "Bond wires of a stack-up prism model", "statement": "A bond wire with both ends on upper planes of layers with elements becomes a chain of lines, numbered on from the prisms and earlier lines, through the points of the wire, with the ends connected to the nearest prisms of these layers; any other wire of several points is refused.", "quantifier": "all built stacks, all lists of wires", "why_tests_cant": "points, heights and stacks are unbounded", "anchors": ["src/model/thermal/utils/EStackupPrismThermalModelBuilder.cpp AddBondWiresFromLayerCutModel", "src/model/geometry/ELayerCutModel.cpp GetLayerIndexByHeight"]}
{"id": "C149", "title": "Metal fraction mapping of a layout", "statement": "The mapping covers the box of the layout with its extensions, cut into the number of tiles asked for, and holds for every stack-up layer in order the part of each tile that the metal of the selected nets covers, between 0 and 1, with name, kind, elevation and thickness of the layer; it reports failure exactly if a result file is asked for and can not be opened, and gives the maps all the same.", "quantifier": "all layouts, boxes, extensions, layer lists, selections of nets and primitives", "why_tests_cant": "layouts, tiles and selections are unbounded", "anchors": ["src/utility/EMetalFractionMapping.cpp GenerateMetalFractionMapping", "src/utility/EMetalFractionMapping.h EMetalFractionInfo"]}
{"id": "C150", "title": "The result file of a metal fraction mapping can be read back", "statement": "The result file tells the layers, the box, the region, the tiles and their size in units of the layout and for every tile the values of all layers, as a reader of its words gets them.", "quantifier": "all mappings with a result file, all layer names, all tile sizes", "why_tests_cant": "names, numbers of layers and tiles and sizes are unbounded", "anchors": ["src/utility/EMetalFractionMapping.cpp WriteResult2File"]}
{"id": "C151", "title": "Every layer of a metal fraction mapping gets its picture", "statement": "After a mapping with a result file the picture with the number of a layer and the picture with its name show the map of this layer.", "quantifier": "all mappings with a result file, all lists of layer names", "why_tests_cant": "later pictures replace earlier ones of the same name, for any list of names", "anchors": ["src/utility/EMetalFractionMapping.cpp GenerateMetalFractionMapping", "src/utility/EMetalFractionMapping.cpp WriteResult2File"]}
{"id": "C152", "title": "A KiCad board text becomes the layout it declares", "statement": "Importing the text of a KiCad board, however it is laid out, quoted and surrounded, gives a layout with exactly the nets and the physical layers the board declares, and only what the text says matters, not how it is written.", "quantifier": "all boards, all their texts with any white space and quoting, anything after them and anything without a parenthesis before them, any walking order of hash maps", "why_tests_cant": "texts, nestings and numbers of declarations are unbounded", "anchors": ["src/extension/kicad/ECadExtKiCadHandler.cpp CreateDatabase", "src/extension/kicad/ECadExtKiCadHandler.cpp ExtractKiCadObjects", "src/extension/kicad/EKiCadParser.cpp"]}
{"id": "C153", "title": "A KiCad file that is no complete board is refused", "statement": "A file that is empty, breaks off or holds another list than a board makes the import return without a layout.", "quantifier": "all files that are no complete board", "why_tests_cant": "a file can break off at any place", "anchors": ["src/extension/kicad/ECadExtKiCadHandler.cpp CreateDatabase", "src/extension/kicad/EKiCadParser.cpp"]}
{"id": "C154", "title": "A GDSII file and its layer map file become the database they describe", "statement": "Importing the bytes of a GDSII library with the text of a layer map gives one cell per structure with the layers of the map, each holding exactly the shapes of its number, and the placements of the references, in the units of the library; without a map there is a layer for every number that is used. A file that can not be read completely is refused, and no other database is touched.", "quantifier": "all libraries with distinct structure names, all texts of a layer map, any order the layer numbers are walked in, all buffer sizes", "why_tests_cant": "numbers of structures, elements, layers and bytes are unbounded", "anchors": ["src/extension/gds/ECadExtGdsHandler.cpp CreateDatabase", "src/extension/gds/EGdsLayerMap.cpp EGdsLayerMapParser", "src/extension/gds/EGdsParser.cpp", "src/extension/gds/EGdsFileIO.cpp"]}
{"id": "C155", "title": "Thermal models have the true lengths of the layout", "statement": "The scale of a prism model is the length of a user unit in metres, so that its edges, the tiles of a grid model of the same layout and the resistance of solder joints come out as in metres.", "quantifier": "all coordinate units, all coordinates and sizes", "why_tests_cant": "units are doubles and coordinates 64 bit integers", "anchors": ["src/extraction/thermal/EThermalModelExtraction.cpp GeneratePrismThermalModel", "src/extraction/thermal/EThermalModelExtraction.cpp GenerateStackupPrismThermalModel", "src/extraction/geometry/EGeometryModelExtraction.cpp GenerateLayerCutModel", "src/model/thermal/EPrismThermalModel.h CoordScale2Meter UnitScale2Meter", "src/basic/ECadUnits.h"]}
{"id": "C156", "title": "Assigning to a settings attribute in Python sets that setting", "statement": "An assignment to an attribute of a settings object gives the C++ member of the same name the value and changes nothing else; adding a block condition adds it to the side named.", "quantifier": "all states of a Python program, all settings objects, attributes and values", "why_tests_cant": "every sequence of statements and every value is possible", "anchors": ["py.pybind11/PyEcadBasic.hpp ecad_init_basic", "src/basic/ECadSettings.h EThermalModelExtractionSettings"]}
{"id": "C157", "title": "What a Python program reads from settings", "statement": "Reading an attribute gives the member of the same name; changing what was read changes the settings it was read from; no statement changes an object it is not applied to.", "quantifier": "all Python programs made of construction, reading, assignment, appending and block conditions", "why_tests_cant": "programs are unbounded and alias objects arbitrarily", "anchors": ["py.pybind11/PyEcadBasic.hpp ecad_init_basic"]}
{"id": "C158", "title": "The extraction settings of a simulation made in Python", "statement": "A simulation keeps the extraction settings it was given as they were at the time; those obtained from it are its own; they are always those of a prism model.", "quantifier": "all Python programs", "why_tests_cant": "histories of statements are unbounded", "anchors": ["py.pybind11/PyEcadBasic.hpp set_extraction_settings", "src/basic/ECadSettings.h EThermalSimulationSetup"]}
{"id": "C159", "title": "Points from a list of coordinates in Python", "statement": "coord_to_point2d and coord_to_fpoint2d make a point of every two coordinates in their order and never read beyond the list.", "quantifier": "all lists", "why_tests_cant": "lists are unbounded", "anchors": ["py.pybind11/PyEcadBasic.hpp Coord2Point2D"]}
{"id": "C160", "title": "Calls of the data manager from Python reach it", "statement": "A call with arguments of the types of one of the functions of a name runs this function with these arguments and gives its result, on the class and on an instance.", "quantifier": "all functions, all arguments", "why_tests_cant": "arguments are unbounded, and any function of a name may take them", "anchors": ["py.pybind11/PyEcad.cpp ecad_init_datamgr"]}
{"id": "C161", "title": "A new settings object in Python has the documented attributes", "statement": "In every state a settings object can be made, and every attribute of it and of the objects in it, along every chain of attributes, can be read and has the documented default or the value computed from the constructor's arguments (an empty working directory becomes the current one, the threads reach the polygon merging settings); a new simulation comes with prism extraction settings as if made from the same arguments.", "quantifier": "every program state, every constructor and its arguments, every documented chain of attributes", "why_tests_cant": "The defaults must be right for every argument and in every program state; tests read a few of them.", "anchors": ["py.pybind11/PyEcadBasic.hpp", "src/basic/ECadSettings.h"]}
{"id": "C162", "title": "A handle stays good until its database is removed", "statement": "A Python handle of a database, cell, layout, component definition, layer map or component keeps denoting the same object, with the same name, owner and definition, through every sequence of calls (flattening included) that does not remove its database or shut the manager down; after that no call on the handle succeeds, whatever happens in between, also when a database of the same name is made again.", "quantifier": "every program, every handle and every later sequence of calls", "why_tests_cant": "Objects are deleted behind the back of the holder; only an argument over all later calls shows that a handle survives or dies.", "anchors": ["py.pybind11/PyEcad.cpp", "py.pybind11/PyEcadDesign.hpp", "src/EDataMgr.cpp EDataMgr::RemoveDatabase", "src/design/ELayoutView.cpp ELayoutView::Flatten"]}
{"id": "C163", "title": "Calls on existing objects are never undefined behaviour", "statement": "In a program whose components, instances and layer maps refer to objects of their own database and whose layouts do not contain each other in a circle, a call on objects that exist is never undefined behaviour and comes back, flattening of any hierarchy included.", "quantifier": "every program and every next call", "why_tests_cant": "Undefined behaviour of a plain pointer shows, if at all, long after the deletion that caused it, and only on some histories.", "anchors": ["src/design/ELayoutView.cpp ELayoutView::Flatten", "src/utility/ELayoutMergeUtility.cpp", "src/design/EComponent.cpp EComponent::GetBoundary", "py.pybind11/PyEcadDesign.hpp"]}
{"id": "C164", "title": "Names lead to the object they were given to", "statement": "A cell, component definition, component or database made under a name is found by this name as the same object, and making another one of the kind under the name gives None and changes nothing, after any calls that do not remove the database; a database made again after its removal is a new, empty object.", "quantifier": "every program, every name and every sequence of calls in between", "why_tests_cant": "Requires that no later creation, removal or flattening touches an existing entry, for all histories.", "anchors": ["src/design/EDatabase.cpp", "src/collection/EComponentCollection.cpp", "src/EDataMgr.cpp EDataMgr::CreateDatabase", "py.pybind11/PyEcad.cpp"]}
{"id": "C165", "title": "The steady state exists and is unique", "statement": "For every network built through the public calls whose coefficients are not negative and whose nodes all reach the ambient through resistors, the system handed to the static solver has one solution and no other, at every ambient temperature. A part of a network without a way to the ambient has no solution unless its powers cancel, and then its temperature level is not determined.", "quantifier": "every network, every power assignment, every ambient temperature", "why_tests_cant": "A solver run on some networks shows that those have a solution; existence and uniqueness for all of them is a theorem about the matrix the code assembles.", "anchors": ["src/solver/thermal/network/ThermalNetwork.h", "src/solver/thermal/network/ThermalNetworkSolver.h"]}
{"id": "C166", "title": "Steady temperatures follow the laws of heat conduction", "statement": "In such a network all temperatures move with the ambient; the rises of two power assignments add up and scale; more power at a node heats it and cools no node; a larger coefficient to the ambient heats no node; a watt at one node heats another as much as a watt there heats the first; the hottest temperature above the ambient is at a node with power; some node is at least, and some node at most, as hot as the total power over the total coefficient.", "quantifier": "every network, every pair of nodes and every change of power or coefficient", "why_tests_cant": "Monotony, reciprocity and superposition compare all pairs of inputs; no finite set of runs covers them.", "anchors": ["src/solver/thermal/network/ThermalNetwork.h"]}
{"id": "C167", "title": "Every cooled grid model has exactly one steady state", "statement": "A grid model with layers, with power blocks inside the grid whose corners are in order, and whose top or bottom face has a positive coefficient everywhere, is turned into a network that has exactly one steady state, whatever the metal fractions, jump connections, power tables and block boundary conditions are; the heat leaving it is the power of the model. Without any coefficient there is none unless heat in and out cancel.", "quantifier": "every grid model and temperature table", "why_tests_cant": "The connectivity of the built network has to be shown for all grid sizes, layer counts and power models.", "anchors": ["src/solver/thermal/utils/EGridThermalNetworkBuilder.cpp EGridThermalNetworkBuilder::Build", "src/model/thermal/EGridThermalModel.cpp", "src/model/thermal/EThermalModel.cpp EBlockPowerModel"]}
{"id": "C168", "title": "A static simulation returns the steady state of the grid model", "statement": "For every cooled grid model whose powers are tables, every solver type offered and every iteration count of at least one, the static simulation ends within the count. The first network is built for the ambient temperature and each other for the temperatures of the one before. The temperatures returned, in the unit asked for, are the steady state of the last network, and agree with the temperatures it was built for unless the count is used up. If no power depends on the temperature, at most two networks are built and the result is the one steady state of the model.", "quantifier": "every grid model, solver type, ambient temperature, settings; every exact linear solver", "why_tests_cant": "The claim joins model, network, linear solve and iteration; a run shows it for one model and one set of numbers.", "anchors": ["src/solver/thermal/EThermalNetworkSolver.cpp EThermalNetworkStaticSolver::Solve", "src/solver/thermal/network/ThermalNetworkSolver.h ThermalNetworkSolver::Solve", "src/solver/thermal/utils/EGridThermalNetworkBuilder.cpp"]}
{"id": "C169", "title": "Powers given as blocks can be simulated", "statement": "A cooled grid model with powers given as blocks inside the grid has a static simulation that returns temperatures.", "quantifier": "every grid model with a block power and all settings", "why_tests_cant": "The failure occurs for every such model; a test without block powers does not meet it.", "anchors": ["src/model/thermal/EThermalModel.cpp EBlockPowerModel", "src/solver/thermal/EThermalNetworkSolver.cpp CalculateResidual", "src/solver/thermal/network/ThermalNetworkSolver.h ThermalNetworkSolver::Solve"]}
{"id": "C170", "title": "Results and files of a static grid simulation", "statement": "The two numbers returned are the lowest and the highest temperature, and each monitor gets the temperature of its cell. With a work directory, static.txt holds the monitors' temperatures when results are asked for, and with pictures asked for there is one per layer, named by the layer's number; in a layer whose temperatures differ the coldest cell has shade 0, the hottest shade 1 and the others lie in proportion. Nothing else is written, and nothing at all without a work directory.", "quantifier": "every grid model, temperature field, monitor list and combination of output settings", "why_tests_cant": "The position of every cell in the pictures must be right for all grid sizes.", "anchors": ["src/solver/thermal/EThermalNetworkSolver.cpp EGridThermalNetworkStaticSolver::Solve", "src/simulation/thermal/EThermalSimulation.cpp EGridThermalSimulator::RunStaticSimulation", "src/basic/ECadSettings.h"]}
{"id": "C171", "title": "Bond wires in the thermal network", "statement": "Every segment of a bond wire is one node of the network, with the heat capacity of the segment, its scenario, the heat its current produces at the segment's own temperature and no exchange with the ambient; it is coupled to each prism at one of its ends through half of its length.", "quantifier": "every prism model with well connected wires, all material laws and temperature fields", "why_tests_cant": "Holds for all numbers of segments and prisms and all orders of connection.", "anchors": ["src/solver/thermal/utils/EPrismThermalNetworkBuilder.cpp BuildLineElement", "src/solver/thermal/utils/EPrismThermalNetworkBuilder.cpp GetLineJouleHeat", "src/model/thermal/EPrismThermalModel.h LineElement"]}
{"id": "C172", "title": "Coupling of consecutive wire segments", "statement": "Two segments of a bond wire that meet are coupled through half of each, every half as conductive as its own temperature makes it.", "quantifier": "every prism model with wires, all temperature dependent conductivities and temperature fields", "why_tests_cant": "The error needs a conductivity that depends on the temperature and segments at different temperatures.", "anchors": ["src/solver/thermal/utils/EPrismThermalNetworkBuilder.cpp BuildLineElement"]}
{"id": "C173", "title": "Steady state of prism models with wires", "statement": "If every prism and every segment is in contact, over any number of others, with a face that exchanges heat with the ambient, the network has exactly one steady state, and in it the heat leaving through these faces equals the powers of the prisms plus the heat produced by the currents.", "quantifier": "every connected and cooled prism model, with any number of wires, and every temperature field the materials are evaluated at", "why_tests_cant": "Existence and uniqueness range over all connection patterns.", "anchors": ["src/solver/thermal/utils/EPrismThermalNetworkBuilder.cpp EPrismThermalNetworkBuilder::Build", "src/solver/thermal/utils/EPrismThermalNetworkBuilder.cpp ApplyBlockBCs", "src/solver/thermal/network/ThermalNetwork.h"]}
{"id": "C174", "title": "The static simulation of a prism model returns its steady state", "statement": "For a prism model, bond wires included, in which everything is in contact with a face exchanging heat with the ambient, and an exact linear solver, the static simulation ends within the allowed number of networks; the temperatures returned are the steady state of the last network, whose materials and powers were evaluated at temperatures that agree with them unless the count was used up. The heat leaving at these temperatures is the heat produced. With laws that do not depend on the temperature at most two networks are built and the result is the only steady state. An unknown solver is refused.", "quantifier": "every coolable prism model, all material laws, settings and ambient temperatures", "why_tests_cant": "Convergence and balance range over all models and laws.", "anchors": ["src/solver/thermal/EThermalNetworkSolver.cpp EThermalNetworkStaticSolver::Solve", "src/solver/thermal/EThermalNetworkSolver.cpp EPrismThermalNetworkStaticSolver::Solve", "src/model/thermal/traits/EThermalModelTraits.h", "src/simulation/thermal/EThermalSimulation.cpp EPrismThermalSimulator::RunStaticSimulation"]}
{"id": "C175", "title": "Results and files of a static prism simulation", "statement": "The two numbers returned are the lowest and the highest temperature of all prisms and segments, and each monitor gets the temperature of its element. With a work directory, static.txt holds the monitors' temperatures when results are asked for; a map asked for is written to hotmap.vtk with the temperature of every element, also when the work directory is empty. Nothing else is written.", "quantifier": "every prism model, temperature field, monitor list and combination of output settings", "why_tests_cant": "All combinations of settings and all monitor lists.", "anchors": ["src/solver/thermal/EThermalNetworkSolver.cpp EPrismThermalNetworkStaticSolver::Solve", "src/simulation/thermal/EThermalSimulation.cpp EPrismThermalSimulator::RunStaticSimulation"]}
{"id": "C176", "title": "A stack-up model in contact with a cooled prism has exactly one steady state", "statement": "In a stack-up prism model every element of which is in contact, over any number of side neighbours, stacked prisms and wires, with a prism that exchanges heat with the ambient on the part of its top or bottom nothing covers, the network built has exactly one steady state, and in it the heat leaving is the sum of powers and wire losses. Block boundary conditions have no effect on the network of a stack-up model: a model cooled by them only has no steady state unless nothing heats it.", "quantifier": "every well connected stack-up prism model with wires, all coefficients, powers, material laws and temperatures", "why_tests_cant": "The statement is about solvability of the network of every model.", "anchors": ["src/solver/thermal/utils/EStackupPrismThermalNetworkBuilder.cpp BuildPrismElement, ApplyBlockBCs", "src/solver/thermal/utils/EPrismThermalNetworkBuilder.cpp Build, BuildLineElement"]}
{"id": "C177", "title": "The static simulation of a stack-up model returns its steady state", "statement": "For a stack-up prism model as in C176 and an exact linear solver, the static simulation ends within the allowed number of networks; the temperatures returned are the steady state of the last network, whose materials and powers were evaluated at temperatures that agree with them unless the count was used up. The heat leaving at these temperatures is the heat produced. With laws that do not depend on the temperature at most two networks are built and the result is the only steady state. A prism marked with the number of another prism stops the simulation.", "quantifier": "every coolable stack-up model, all material laws, settings and ambient temperatures", "why_tests_cant": "Convergence and balance range over all models and laws.", "anchors": ["src/solver/thermal/EThermalNetworkSolver.cpp EThermalNetworkStaticSolver::Solve", "src/solver/thermal/EThermalNetworkSolver.cpp EStackupPrismThermalNetworkStaticSolver::Solve", "src/simulation/thermal/EThermalSimulation.cpp EStackupPrismThermalSimulator::RunStaticSimulation"]}
{"id": "C178", "title": "Results and files of a static stack-up simulation", "statement": "The two numbers returned are the lowest and the highest temperature of all prisms and segments, and each monitor gets the temperature of its element. With a work directory, static.txt holds the monitors' temperatures when results are asked for; a map asked for is written to hotmap.vtk with the temperature of every element, also when the work directory is empty. Nothing else is written.", "quantifier": "every stack-up model, temperature field, monitor list and combination of output settings", "why_tests_cant": "All combinations of settings and all monitor lists.", "anchors": ["src/solver/thermal/EThermalNetworkSolver.cpp EStackupPrismThermalNetworkStaticSolver::Solve", "src/simulation/thermal/EThermalSimulation.cpp EStackupPrismThermalSimulator::RunStaticSimulation"]}
{"id": "C179", "title": "Areas, lengths and volumes of prisms fit together", "statement": "The area of the horizontal faces of a prism is that of its triangle in square metres and vanishes only when the corners lie on a line; the parts of the face between its centre and its sides are each a third of it; two prisms of a layer that share a side agree on its area; cutting a prism by a vertical plane through a corner leaves the total volume unchanged.", "quantifier": "every triangle, scale and thickness", "why_tests_cant": "Real geometry of arbitrary triangles.", "anchors": ["src/solver/thermal/utils/EPrismThermalNetworkBuilder.cpp GetPrismTopBotArea, GetPrismCenterDist2Side, GetPrismEdgeLength, GetPrismSideArea, GetPrismVolume"]}
{"id": "C180", "title": "The resistance between side neighbours is positive and does not depend on their order", "statement": "Between two prisms of a layer that share a side the network gets a positive resistance, at least that of the two perpendicular ways from the centres to the side and equal to it when the line through the centres crosses the side at a right angle; it does not depend on which of the two comes first in the model.", "quantifier": "every pair of adjacent triangles, all conductivities, scales and thicknesses", "why_tests_cant": "Real geometry of arbitrary meshes.", "anchors": ["src/solver/thermal/utils/EPrismThermalNetworkBuilder.cpp BuildPrismElement", "src/solver/thermal/utils/EStackupPrismThermalNetworkBuilder.cpp BuildPrismElement"]}
{"id": "C181", "title": "The rates of a transient simulation follow the heat equation of the network", "statement": "At every moment each node that stores heat changes its temperature by the heat it receives from its neighbours, from the ambient and from its own source times the excitation of its scenario, divided by its capacity; nodes without capacity keep theirs. The heat stored by all nodes together is what the sources deliver minus what leaves to the ambient; with unit excitation the temperatures at rest are exactly the steady states; unheated hottest nodes above ambient do not heat up; two temperature fields under the same excitation keep their order and, where every node reaches the ambient, approach each other.", "quantifier": "every network, excitation, time and temperature field", "why_tests_cant": "All networks and fields; the laws are statements about infinitely many states.", "anchors": ["src/solver/thermal/network/ThermalNetworkSolver.h ThermalNetworkTransientSolver::Intermidiate, Solver::operator()", "src/solver/thermal/network/ThermalNetwork.h makeInvCandNegG, makeBondsRhs, makeSourceProjMatrix"]}
{"id": "C182", "title": "The excitation is evaluated for the scenario of each source", "statement": "In a transient simulation the heat of every source is multiplied by the value of the excitation for the scenario given to its node, and the full and the reduced solver agree on it.", "quantifier": "every network, scenario number and excitation", "why_tests_cant": "All scenario numbers; sources without scenario.", "anchors": ["src/solver/thermal/network/ThermalNetworkSolver.h Intermidiate::scen, Solver::operator()", "src/solver/thermal/utils/EGridThermalNetworkBuilder.cpp Build", "src/solver/thermal/EThermalNetworkSolver.h Scalar"]}
{"id": "C183", "title": "A transient simulation of a grid model integrates its network", "statement": "For every grid model the transient simulation integrates the network of the model from the ambient temperature and returns the extremes of the sampled temperatures.", "quantifier": "every grid model, power description and setting", "why_tests_cant": "All models; all integrators.", "anchors": ["src/solver/thermal/EThermalNetworkSolver.cpp EThermalNetworkTransientSolver::Solve, EGridThermalNetworkTransientSolver::Solve", "src/solver/thermal/network/ThermalNetworkSolver.h Solve, SolveAdaptive, StateSize"]}
{"id": "C184", "title": "Heat, scenario and storage of every element of a prism model during a transient simulation", "statement": "In the transient simulation of a prism model with bond wires every prism and every wire segment is one node with its own power (or the heat of its current), its own scenario and its own heat capacity; at every time and temperature the heat all elements take up is what they produce under their scenarios minus what leaves through the cooled faces.", "quantifier": "every well connected prism model, temperature, time and excitation", "why_tests_cant": "All models, temperatures and excitations.", "anchors": ["src/solver/thermal/utils/EPrismThermalNetworkBuilder.cpp BuildPrismElement, BuildLineElement, Build", "src/solver/thermal/network/ThermalNetworkSolver.h Solver::operator()"]}
{"id": "C185", "title": "A transient simulation of a prism model integrates its network", "statement": "For every well connected prism model with accepted settings the transient simulation integrates the network of the model at every step, completes, and returns the extremes of the temperatures sampled in the window.", "quantifier": "every well connected prism model, setting and integrator that takes a step", "why_tests_cant": "All models; all integrators.", "anchors": ["src/solver/thermal/EThermalNetworkSolver.cpp EThermalNetworkTransientSolver::Solve, EPrismThermalNetworkTransientSolver::Solve", "src/solver/thermal/network/ThermalNetworkSolver.h Solve, StateSize", "src/model/thermal/traits/EThermalModelTraits.h Size"]}
{"id": "C186", "title": "The transient simulation of stack-up prism models", "statement": "For every well connected stack-up prism model every element is one node with its heat, scenario and capacity, heat is balanced at every time, and the simulation integrates the network, completes and returns the extremes of the sampled temperatures.", "quantifier": "every well connected stack-up prism model, setting, excitation and integrator that takes a step", "why_tests_cant": "All models, temperatures and integrators.", "anchors": ["src/solver/thermal/utils/EStackupPrismThermalNetworkBuilder.cpp BuildPrismElement", "src/solver/thermal/EThermalNetworkSolver.cpp EStackupPrismThermalNetworkTransientSolver::Solve"]}
{"id": "C187", "title": "Transient simulations of prism models settle at the steady state", "statement": "For every cooled prism or stack-up prism model whose elements all store heat: under nominal powers exactly one field of temperatures is at rest in the transient equations, and it is the steady state of the static equations; under whatever excitation any two different temperature fields approach each other, so that the initial temperature is forgotten.", "quantifier": "every cooled model (prism and stack-up), temperature field at which the network is built, excitation and pair of temperature fields", "why_tests_cant": "The long-run behaviour of a simulation cannot be observed in finitely many steps; all models and initial temperatures.", "anchors": ["src/solver/thermal/EThermalNetworkSolver.cpp EPrismThermalNetworkTransientSolver::Solve, EStackupPrismThermalNetworkTransientSolver::Solve, EPrismThermalNetworkStaticSolver::Solve", "src/solver/thermal/network/ThermalNetworkSolver.h Solver::operator(), SolveEquation", "src/solver/thermal/utils/EPrismThermalNetworkBuilder.cpp Build", "src/solver/thermal/utils/EStackupPrismThermalNetworkBuilder.cpp Build"]}
{"id": "C188", "title": "Merging layers in parallel gives the layers merged one by one", "statement": "For every number of threads and every order in which the threads work: the parallel merge of the layers is never stuck, ends whenever every layer can be merged on its own, and leaves every layer as merging it alone does; with one thread per layer the result does not depend on the number of threads, and no more threads than asked for work at a time.", "quantifier": "every layout, number of threads, setting and schedule of the threads", "why_tests_cant": "Schedules: a test sees one interleaving.", "anchors": ["src/utility/ELayoutPolygonMerger.cpp ELayoutPolygonMerger::MergeLayers, MergeOneLayer", "src/basic/ECadSettings.h ELayoutPolygonMergeSettings"]}
