# Formal model of 0x0-bwu/ecad in Rocq

## 1. Method

The sources under `/repo/src` were read as text; nothing is compiled or run. Each area of the code has
up to four Coq files in `rocq/theories/`:

* `<Area>_Model.v` – total, computable Gallina transcriptions of the C++ functions. Every definition has a
  comment with the file and lines it models and where it simplifies.
* `<Area>_Spec.v` – a small specification that does not use the model's helpers (finite maps as
  functions, permutations, inductive relations, arithmetic over Z/Q).
* `<Area>_Proofs.v` – lemmas.
* `<Area>_Props.v` – only the property theorems (`exact lemma`), an `Example` that their hypotheses are
  met by a concrete non-trivial case, and `Print Assumptions`.

Conventions

* Undefined behaviour and exceptions are separate outcomes (`UB`, `Throw` of the `res` type in `Base.v`),
  never folded into a default value.
* A loop whose termination is in question is modelled with fuel; running out of fuel is a distinct
  outcome. Termination = "there is a fuel with which the result is not out-of-fuel"; divergence = "for
  every fuel the result is out-of-fuel".
* `std::unordered_map/set` iteration order is an arbitrary order (a parameter, or a permutation over which
  the theorem quantifies) whenever it can be observed.
* `double`/`float` are idealised as rationals `Q` (or integers `Z` where the code only adds/compares);
  rounding, NaN and infinities are outside the model unless stated.
* Integers are unbounded except where wrap-around is the subject (then `mod 2^64` etc. is explicit).
* `3rdparty/generic` (geometry kernel, `mna::Stamp`, taskflow, thread pool), Boost and Eigen are not in the
  repository. Their contract is written down where used, as an explicit definition or a section parameter.

Naming: a theorem `Cnn_...` proves the full statement of property Cnn or one conjunct of it; `..._partial`
proves a restricted statement; `..._refuted` proves, with a witness, that the statement is false of the
(faithful) model, i.e. of the code. Where a statement is refuted, a guarded positive theorem is given next
to it whenever there is one, and the manifest status of the property is `partial`.

## 2. Plan per property

| id | what is modelled | how it is proved |
|----|------------------|------------------|
| C01 | `NextKey`, `GetNextLayerName`, `NextNetName`, padstack-instance names over arbitrary finite name sets | pigeonhole on an injective enumeration of candidates; minimality by induction on the search |
| C02 | net collection as state machine | refinement to `name -> option net` |
| C03 | same, with uid generator, lazy id index and clone | invariant over histories; refutation witness for clone |
| C04 | material collection with id index and clone | invariant; refutation witness for clone |
| C05 | layer vector, append, dielectric insertion, `MakeLayerIdOrdered` | invariant over histories |
| C06 | `AddDefaultDielectricLayers` and returned map | induction over the stack-up |
| C07, C08 | layer map as the two-sided unique relation of `boost::bimap` | invariant over histories; composition law |
| C09 | data manager registry | refinement to a map |
| C10 | the five definition collections | refinement to a product of maps |
| C11 | vector/map iterators, nested iterator, hierarchy/connection iterators | induction on remaining elements; refutations for the nested iterator with an empty sub-collection and the hierarchy iterator |
| C12, C13 | `ETransform2D` as sequence + cache over an abstract monoid action, instantiated with rational affine maps | invariants over histories; refutations |
| C14 | lookup table over Q | induction over sorted samples |
| C15 | keyed setters | history theorem (first write wins), refutation of last-write-wins |
| C16 | material property values | case analysis and induction on coefficients |
| C17 | version integer codec | arithmetic |
| C18 | bondwire endpoint state machine | invariant; refutation |
| C19 | padstack definition data with UB on negative ids | refinement to a map per layer |
| C20–C23 | cell graph, flatten, top cells, tasks | well-founded induction on acyclic graphs; permutation invariance; divergence on cycles |
| C24 | layout merge | induction over nets and primitives |
| C25, C26 | settings records with the comparison operators as written; view cache | record equality; history invariant; refutation |
| C27–C29 | thermal network and MNA assembly over Q | sums over finite edge lists |
| C30–C34 | grid model, grid network builder, block power | arithmetic and enumeration lemmas; refutations |
| C35 | model reduction | sums over index pairs; refutations |
| C36, C37 | layer-cut model | induction; fuel for slicing; refutation |
| C38–C40 | layout retriever | arithmetic; fuel; refutation |
| C41 | polygon replacement loop with arbitrary visiting order | induction for descending order; refutation for others |
| C42–C46 | GDS codec, record framing, buffered reader, element state machine | round-trip; refinement; refutations |
| C47, C48 | KiCad S-expression reader over a character stream | round-trip by induction on trees; divergence |
| C49, C50 | CTM encryption and stack-up | modular arithmetic; induction; refutations |
| C51–C53 | prism model numbering, stack-up contacts, parallel building | induction over offsets; commuting updates |
| C54–C56 | solver loops, probes, sampler | loop invariants; wrap-around witness |
| C57 | metal fraction map: region, strides, index, clamp | arithmetic and counting; refutation at the upper boundary |
| C58 | elevation recomputation | induction |
| C59 | boundary node reduction | induction |
| C60 | unit conversion with IEEE double rounding written out (`fl`) | error bounds on rounding; refutation through truncation |
| C61 | grid model append | invariant |
| C62 | DMC/DOM importer over the parsed records | induction with a grouping invariant; refutations |
| C63, C64 | XFL importer loops for routes and layers | induction over the object/layer list; refutations |
| C65 | grid table look-ups (interpolation between sampled tables) | refinement to piecewise interpolation |
| C66 | polygon merger settings and layer selection | case analysis; refutation |
| C67 | GDS import into cells (structures, boundaries, references, layer map) | induction over elements; refutations |
| C68 | KiCad import of layers, stack-up and nets | extraction as folds; permutation invariance under the walk order of hash maps |
| C69 | CTM density and power tables | round trip; refutations for storage order |
| C70, C71 | prism corners and mesh adjacency | induction; inverse relation of neighbours |
| C72, C73 | prism boundary conditions, couplings, nearest layer | sums over faces; refutations |
| C74–C76 | XFL padstacks, shape templates, whole file import | arithmetic with truncation; induction; refutations |
| C77 | KiCad import order, completeness, failure | refutations with general negative theorems |
| C78, C79 | connectivity extraction over abstract shapes and an abstract component finder (shown realisable) | invariant of the numbering loops; partition argument; refutations |
| C80, C81 | layer shape of a padstack instance over outlines of points | case analysis against a relational description; algebra of point maps; refutations |
| C82, C83 | layer mapping of a collection over a heap of layer maps | loop invariant on the table of new maps, composition of C08; refutation |
| C84, C85 | component pins and boundary over histories of placement calls | induction over the history; refutations |
| C86 | heat capacity of the nodes of a grid network | induction over the calls; refutation |
| C87 | bond wire path over integer points | truncation bounds of the eighths |
| C88, C89 | grid model extraction over lists of layers and components | invariant over the components, sums exchanged; refutation |
| C90, C91 | index of a point on an axis, blocks and wires of the grid model | arithmetic of tiles; refutations |
| C92, C93 | point query and element loop over abstract polygons and triangles | invariant over layers and triangles; contract of the priority queue |
| C94 | shares of a power block | sums over the elements of all layers; refutations |
| C95 | meshes of the layers of a stack-up prism model | induction over the layers |
| C96 | coefficient of every node after the builder's calls | last write per node over the call list; refuted for one layer |
| C97 | outcome of extracting KiCad drawings (segments, zones, vias, pads, arcs, lines, polygons, circles) | equivalence with a table of the values each entry needs, by induction on nested footprints |
| C98–C102 | building a layer cut model from a layout (builder and extraction loop) over abstract outlines | refinement to a list of placed shapes without indices and caches; refutations |
| C103–C106 | conversions between grid and chip thermal models, on top of the stack-up (C50), table (C65) and AppendLayer (C61) models | invariants over the layer list, inversion of the export by the import; refutation for temperatures outside the samples |
| C107, C108 | spatial queries of prism models over an index oracle; threads as a schedule of layer insertions | invariant of the index cache over any schedule, layer rule from C73, numbering from C51; refutations by concrete triangles |
| C109 | static and transient runs of a layout: from monitors to temperatures | case analysis over the outcomes, on top of C55, C56 and C107 |
| C110–C112 | copy assignments of layouts, cells, databases and collections over objects with addresses | induction over collections, name lookup in the cloned map, fresh address ranges; refutations by renamed components, instances and stack-up models |
| C113 | the model collection as a state machine and the outcome of Save | invariant over all calls, equivalence with "a model without serialization is left" |
| C114 | the `serialize` functions and data members of all 87 classes as a table; saving and loading as one traversal | general round trip lemma by induction over table and steps, completeness of the table by computation over all classes; refutation for layout names |
| C115 | `EObject`: names and identities under construction, copy, move, assignment | invariant over histories; refutation for copies |
| C116–C118 | all shapes with boxes, contours, holes, validity, transforms and archives, over rational coordinates with a rounding function | induction over histories and nested templates, linear maps take their extremes at corners; refutations by rotated rectangles, scaled circles and paths, transforms appended to after a read |
| C119, C120 | GetBoundary over a heap of layouts with kept boundaries, as a state machine | inductive specification of the boundary of a hierarchy, refinement by induction over fuel and instances, invariant over histories; divergence for recursive placement |
| C121 | the list of polygons handed to the picture writer | induction over components and primitives; refutation by selection |
| C122 | WriteSpiceNetlist as a list of named elements; a circuit simulator as laws per element and Kirchhoff's current law (`Netlist_Spec.v`) | the sum of currents at a node is the node's row of the assembled system, by induction over nodes and neighbours; refutations by a heated network and by a node with a temperature |
| C123 | GenerateVTKFile as the text it writes, number printing an oracle | a reader of legacy VTK text (`Vtk_Spec.v`) applied to the text returns the intended mesh, by induction over points and cells; refutation of exactness by six printed digits |
| C124 | WriteThermalProfile and GenerateTxtProfile as texts | a reader (`Profile_Spec.v`) applied to the text returns die, tiles, names and rows, by induction over rows and columns; refutation by a blank layer name |
| C125–C127 | GenerateCTMv1File: tiles, merging, mapping, appending of layers, conversion | composition of C57 (densities), C61/C89 (appending), C103/C105 (conversion); the axis of a region of whole tiles by arithmetic; refutations by a region of 14 with tiles of 10 and by a merge |
| C128–C132 | the Qi grammar of XFL files as parser combinators over texts (`Qi_Model.v`, `XflText_Model.v`), giving the list of handler calls; what a text of words with gaps is, as inductive relations (`XflText_Spec.v`) | each rule reads its words and each repetition stops where it should, by induction over words; progress of every rule; an invariant of the handed-over elements; refutations by short texts |
| C133–C135 | the handlers as a fold over the calls of the reader, the materials with their names, conversion of the parsed objects to the importer's, CreateDatabase from text to database (`XflLoad_Model.v`) | the lists kept are the elements of each kind and the last unit, scale and outline, by induction over calls; composition of C130 (what arrives is well formed), C64 and C76; refutation by `.unit um` |
| C136–C137 | stream extraction of integers, doubles and words from lines, both parsers, CreateDatabase with the registry (`DmcText_Model.v`); what a text of lines of words and a decimal number are, as relations (`DmcText_Spec.v`) | each extraction takes its word and stops at the blank behind it, by induction over characters; rounding of doubles from C60; composition with C62; refutations by 1.001, by `1.5` as layer number and by a DOM line without numbers |
| C138 | the writer of DMC and DOM files as the texts it makes, doubles with six digits behind the point | the printed decimal is exactly the coordinate in micrometres up to 2^40; the texts meet the hypotheses of C136, by induction over polygons; refutations by 1001 nanometres and a layout in millimetres |
| C139 | the shape creators of EDataMgr over real doubles, stored coordinates as whole numbers | rounding to 53 bits, multiplication and truncation are monotone and symmetric (exponents compared through 2^52 and 2^53); the factors of all 49 unit pairs computed, then relative errors added up; lists by induction |
| C140 | pins and placement made from lengths, the component of C84/C85, the location read back as a double | the placement maps whole points to whole points for every mirror and flip; the errors of the three conversions are added |
| C141 | the same creators | bounds from C139; refutations by boxes half a unit apart, 31e-9 metres and a radius below one data unit |
| C142–C143 | the writer as a list of steps on a disk (folder and package), the reader of a package; header and table words from C49 and C69 (`CtmPack_Model.v`) | what the folder holds after the steps by induction over temperatures, densities by name by induction over layers; composition with C49 and C69; crash points as prefixes of the steps |
| C144–C145 | the list of pictures and shades, range and comparison of samples | the list by cases; sampled temperatures without repetition are no more than the samples; range by induction over values; refutation by a header whose first temperature has no table |
| C146–C148 | the stack-up prism builder: placing, contact turns in any order, bond wires | placing by induction over the elements; every turn does the same whatever the others did, since models differ in marks only and cached trees are those of the layers; interleavings are permutations; wires by the chain lemma of C51 |
| C149–C151 | the mapping of a whole layout on top of the layer maps of C57, the text of its result file character by character, the list of picture writes | layers by induction; values by C57; the text by the words lemmas of C124 and padding to width 12; refutations: a width of 12 characters is glued to RESOLUTION, names with blanks, a layer named like a number |
| C152–C153 | the board text read by the parser of C47 and imported as in C68, in one call | the round trip of C47 for any rendering composed with C68 and C97; cut off texts by induction over their sections; refutations by a board cut in front of its second net and by files that end in a name |
| C154 | the GDSII import as one call: bytes through the reader of C46, the text of the layer map line by line, the import of C67, the registry | C46 and C67 composed, structure by structure; the map text by induction over its lines; cut off files by C45; refutation by the first half of a library |
| C155 | the metre scale `toUnit(toCoord(1), Meter)` in doubles, the lengths and joint resistances made from it | bounds of rounded products and quotients; the 49 pairs of units by computation; refutations: a user unit finer than the data unit gives zero, inches on centimetres, 93 data units to a unit |
| C156–C158 | settings objects as trees of members, the table of attributes of the bindings, references, copies and statements of a Python program | laws of reading and writing at paths of members; the table by computation; frames and the class of extraction settings by induction over programs; refutations: `bot_block_bc` is the member of the top, lists and corners are copies |
| C159–C160 | the coordinate loop; the functions bound to each name with their parameter types and the choice among them | induction over lists; parameter lists of one name are apart, by computation, for all arguments; refutations: no function can be called on an instance, a failed save gives None |
| C161 | the constructors and chains of attribute reads | a chain read from any state reaches what the bound members lead to, by induction on the chain; then the table of documented defaults by computation on symbolic arguments |
| C162–C164 | the objects of databases with owners, collections and plain pointers, flattening, and programs of calls on Python handles | an invariant of ownership and registration kept by all calls, objects only added, changed in place or cleared by elementary steps; for C163 a second invariant, references stay in the database, and induction on the rank of layouts with a frame condition; refutations: flattening deletes instances that are held, a library database removed under a component |
| C165–C167 | the conductance matrix and right hand side of C27–C29, the calls of the grid builder of C30–C34 | more unknowns than equations by elimination, by induction on the equations; a discrete minimum principle for matrices with row sums not negative; every cell reaches the cooled face along its column, every block node a cell; refutation: a power block with swapped corners is a node without resistors |
| C168–C170 | one linear solve (matrices of C27–C29, the linear solver a parameter assumed exact), the loop over the grid builder, the report and the files | the loop is that of C54 with a step that C167 makes total; constant powers make the second residual zero; maps by induction over the cells with the bijection of C30; an elimination over the rationals shows the assumption on the solver can be met; refutation: block powers add nodes, and the comparison of fields of different size throws |
| C171–C173 | the whole build of a prism network: prisms of C72, segments of bond wires, block boundary conditions | every call is classified once; a node is the effect of the calls it owns, a coupling the sum over the calls of C28; only the calls of one segment own it or couple it; every contact has a resistor, so contacts carry the dissipation of C165; refutation: the neighbour's conductivity is taken at the wrong temperature |
| C174–C175 | the loop over any builder, the build of C171–C173, the report and the files | the loop is that of C54 with a step that C173 makes total; laws that do not depend on the temperature give equal networks, so that the second residual is zero; the report is that of C55; the linear solver is a parameter assumed exact, as in C168 |
| C176 | the network of stack-up models: the prism and block functions of PrismNet, the wires of WireNet | the calls are those of the side-only model plus contacts and uncovered shares; every contact is a resistor, every uncovered cooled share a positive exchange, so that the network dissipates (C165); no call comes from a block |
| C177–C178 | the loop of C174 over the stack-up builder, the report and the files | the loop lemmas of PrismSim instantiated with C176 |
| C179–C180 | lengths, areas and volumes of prisms over the reals, the resistance set between side neighbours | the distance of the centroid from a side is a third of the height over it; centres on different sides of a line are at least as far apart as the sum of their distances from it (Cauchy–Schwarz), with equality at a right angle; order dependence refuted on two triangles |
| C181 | the right-hand side of the transient solver: the products with the inverse capacities, the boundary column, the projected sources | the products are diagonal, so each rate is the node's balance over its capacity; laws from the row sums, signs and the quadratic form of G (C27, C165) |
| C182 | scenario ids stored as 32 bit floats and converted back | exact up to 2^24; refuted at 2^24 + 1; a source without scenario (every source of a grid model) is converted from 2^64, which is undefined |
| C183 | the size check of the transient solver on a grid model, inside the loop of C56 | tables: the network has the size of the state and is integrated; blocks add nodes, so that no step is taken and no result returned |
| C184 | the calls of the prism builder of C171–C173 read as scenario, heat and capacity of every element; the rates of C181 | each call writes one node (C53), so the last scenario and the sum of the heats of a node are its own; heat balance from C181; a prism heated only by a heat flux has no scenario, which is undefined |
| C185 | the transient loop of C56 over the prism network | the network has one node per value of the state, so every step is integrated; at least one step, so a range is returned |
| C186 | as C184 and C185 for the stack-up builder of C176 | as C184 and C185 |
| C187 | the networks of C184 and C186 at a fixed temperature field | the networks dissipate (C173, C176), so C165 gives one steady state and C181 identifies it with the state at rest; approach from the contraction of C181, strict because every element is connected to a cooled face. The network is the one built at one temperature field: rebuilding it between steps is C185/C186 |
| C188 | the pool of threads as a queue, a set of layers being merged and one state per layer; a schedule is a list of events (a worker takes a task, a layer makes one step of the runner), a run to completion per layer without a pool | invariant over every schedule: waiting layers untouched, running ones on their way, others finished; a measure that every event decreases; threads x threads when not one thread per layer, refuted |

## 3. Trusted base

* Coq 8.16.1's kernel, including its conversion by `vm_compute`.
* Axioms: `Print Assumptions` stands after every property theorem (in the `_Props.v` files). Every one
  prints "Closed under the global context" except those of C179 and C180 (`PrismGeom_Props.v`), which are about lengths
  and use the real numbers of the standard library; they print its axioms `ClassicalDedekindReals.sig_not_dec`,
  `ClassicalDedekindReals.sig_forall_dec` and `FunctionalExtensionality.functional_extensionality_dep`. No other file
  loads `Reals`. No axiom is declared, no file uses `Admitted`, `Variable` or `Hypothesis`
  outside a section (`Context` inside sections only). Loading the standard library's `ssreflect` files
  (through `QArith`/`Lqa`) brings the seven opaque constants `Coq.ssr.ssrunder.Under_rel.*` into the
  environment; no theorem depends on them.
* The reading of the C++ sources: the models are transcriptions by hand, each definition citing file and lines.
* The contracts of code that is not in the repository, taken as parameters (`Context`) or written as
  definitions:
  * `3rdparty/generic` geometry (polygon boolean operations, containment, areas, triangulation, R-tree queries,
    arc polylines): arbitrary functions; theorems hold for every such function, with the contract needed stated
    as a hypothesis of the theorem.
  * Eigen (linear solves), Boost odeint (time integration), Boost serialization (an archive gives back the
    fields written, in order), Boost Spirit (its parsers are modelled as combinators, see below).
  * `std::stoi`, `std::stod`, `std::stringstream` extraction, `str::Split`: arbitrary functions, except in the GDS,
    KiCad parser and CTM models, where the characters are modelled.
  * `std::unordered_map/set` walk order: an arbitrary permutation.
  * Threads: the pool has at least one thread and its destructor waits for all tasks; tasks interleave in any order
    (C53). `mna::Stamp` adds its four entries to the matrix (C27).
  * `double` arithmetic is exact rational arithmetic, except in C43 (GDS reals) and C60 (unit conversion), where
    rounding is modelled.
  * Polygons have an area, a membership test and a bounding box that holds them; `std::priority_queue` answers a
    smallest element, any of several (C92-C94).
  * C104, C105: the interpolation meets its samples when there are at least four of them.
  * C107, C108: the R-tree answers one entry at the least distance, any of several, and for an area every entry that
    matches once; the thread pool runs every task once and waits for them; triangle centres and boxes are functions.
  * C113: Boost throws when it has to write an object behind a base class pointer whose class was not exported; opening a
    file for writing empties it.
  * C114: Boost reads values back as they were written, restores what pointers and containers lead to, and throws when
    values are missing; a value is written whole or not at all.
  * C116–C118: `matrix * box` is the polygon of the four moved corners, `Extent` the smallest box, `toPolygon(box)` its four
    corners; moved coordinates are rounded by a monotone function (exact where stated); outlines of paths (`stroke`) are
    arbitrary, those of circles (`inscribed`) lie in the circle.
  * C119: an empty box is neutral for `|=`; its polygon (`nobox`) is arbitrary.
  * C122: the simulator (laws of R, C, I and V, currents add up to nothing at every node but ground) is the specification; numbers are
    printed exactly, the control lines `.ic` and `.tran` are left out.
  * C123, C124: `operator<<` for floating point numbers (`show`, with `std::fixed` `showf`) prints some word without blanks whose value is
    `rnd` of the number; colours (`RGBFromScalar`) and the conversion to micrometres are arbitrary.
  * C125–C127: `GetGridMapSize` gives the fewest tiles that cover the region; the coverage of tiles by polygons and the merging of shapes
    are arbitrary functions; coordinates convert to metres by a factor.
  * C128–C132: `qi::double_` makes some number (`value`) of the text it takes; `inf` and `nan`, which it also takes, are left out, as are the die
    names of bond wires.  Run by `vm_compute` on `test/data/xfl/test.xfl` and `fccsp.xfl`, the model reads both to the end.
  * C136–C138: `str::Split` cuts a text of two numbers at the minus sign; `geometry::Extent` keeps boxes of small polygons small; stream
    extraction is that of libstdc++ in the C locale; doubles have no smallest or largest exponent.
  * C139–C141: `RoundCorners` is an arbitrary function of points, radius and division; the rounding of a transformed point keeps whole numbers.
  * C142–C145: `tar` packs and unpacks all files of the folder, in one go; files and folders can be opened; `MaxOccupancy(std::less)` is the
    smallest and `MaxOccupancy(std::greater)` the largest value.  All densities are written with the shape of the first; reading replaces the
    folder of the package's name, which is not modelled.
  * C146–C148: areas and intersections of triangles are arbitrary functions, symmetric where said; the spatial index returns the entries whose
    boxes meet (and one nearest entry); triangles with a common area have boxes that meet; a turn of the contact loop is one step, the cache of
    trees being behind a mutex.
  * C162–C164: the name of a merged component and the name taken instead of a used one are functions of which nothing is assumed; a
    handle is a plain pointer to the object (pybind11's reference policy), numbers of objects are never used again, so an access to a
    deleted object is seen as undefined behaviour even when its memory has been given to another one.
  * C156–C160: what pybind11 does with attributes, arguments, references and overloads is taken from its documentation (it is not in the
    repository); it is written down at the head of `PyApi_Model.v` and `PyCall_Model.v`.
  * C179–C180: `Triangle2D::Center` is the centroid, `PointLineDistanceSq` the squared distance to the line through two points,
    `Distance` and `Norm2` are Euclidean, `Triangle3D::Area` is half the length of the vector product; floating-point numbers
    are idealised as reals
  * C181–C187: `boost::numeric::odeint` (`integrate_const`, `integrate_adaptive`) is an arbitrary function of network, start,
    length and state; Eigen products are the products of the matrices' entries; the excitation is an arbitrary function
  * C188: one step of generic's `PolygonMergeRunner` on a layer is an arbitrary function of the merger of that layer and the
    number of threads it is given; generic's `ThreadPool` runs at most the given number of tasks at a time, in the order they were
    submitted, and its destructor waits for all of them.

## 4. What is modelled and what is not

Modelled (file under `/repo/src` unless a path starts with `py.`, areas of `rocq/theories`):

| code | area | left out |
|------|------|----------|
| `basic/ECollection.h`, `collection/*Collection.cpp` | Names, Net, Layers, Database, Iterators | serialization of single fields |
| `basic/ETransform.h` | Transform | floating point error of the matrices |
| `extraction/thermal/EThermalModelExtraction.cpp` 287-289, 448-452, `model/thermal/EPrismThermalModel.h` 235-243, joint losses of `extraction/geometry/EGeometryModelExtraction.cpp` | Scale | infinities and NaN |
| `basic/ELookupTable.h`, `basic/ECadUnits.h`, `basic/ECadSettings.h`, `utilities` version | LookupTable, Keyed, Units, Settings, Version | printing |
| `design/ELayerMap.cpp`, `ELayer.cpp`, `EMaterial*.cpp`, `EPadstackDefData.cpp`, `EPrimitive.cpp` (bondwire) | LayerMap, Layers, MatProp, Padstack, Bondwire | shapes' geometry |
| `design/ECell*.cpp`, `ELayoutView.cpp`, `utility/EFlattenUtility.cpp`, `ELayoutMergeUtility.cpp` | Flatten, Merge, ModelCache | clone of geometry |
| `utility/ELayoutPolygonMerger.cpp`, `ELayoutRetriever.cpp`, `ELayoutModifier.cpp`, `EMetalFractionMapping.cpp` | Merger, Retriever, Fraction | polygon boolean operations |
| `model/geometry/*` | LayerCut | polygon clipping |
| `model/thermal/*`, `model/thermal/utils/*`, `model/thermal/io/EChipThermalModelIO.cpp` | Grid, Reduction, Prism, PrismNet, CtmStack, Ctm, CtmTable, Vtk, Profile | the colour scale |
| `solver/thermal/**` | ThermalNetwork, NodeReduction, Grid, PrismNet, WireNet, Solver, Steady, GridSim, PrismGeom, PrismSim, StackNet, StackSim | the numerical solve itself (assumed exact in C168, C174 and C177), the dump of matrices |
| `extension/gds/*` | Gds, GdsReader, GdsImport, GdsFile | the counts and messages of unsupported records |
| `extension/kicad/*` | KiCad, KiCadImport, KiCadText | the contents of segments, zones, vias, pads (read by the code, then dropped); only whether reading them succeeds |
| `extension/xfl/*` | Qi, XflText, Xfl, XflGeom, XflFile, XflLoad | what `qi::double_` makes of `inf` and `nan` |
| `extension/dmcdom/*`, `utility/ELayoutPolygonMerger.cpp` 262-322 | Dmc, DmcText | opening of files; infinities and overflow of doubles |
| `EDataMgr.cpp` 228-234, 248-344, 353-357, `basic/ECadUnits.h` 238-259 | Lengths | infinities, NaN and overflow of doubles |
| `utility/ELayoutConnectivity.cpp` | Connect | the extractor of `3rdparty/generic` (contract in `Connect_Spec.v`) |
| `design/EPadstackInst.cpp`, `collection/EPadstackInstCollection.cpp` | PadInst | serialisation; conversion of circles and boxes to polygons when transformed |
| `design/EComponent.cpp`, `collection/EComponentDefPinCollection.cpp` | Component | losses and scenarios are in Keyed/Retriever; printing only as a read of the matrix |
| `extraction/thermal/EThermalModelExtraction.cpp` 33-160, `model/thermal/EGridThermalModel.cpp` 316-364 | GridExtract | dump of the density file; the metal maps are those of Fraction; lengths already in metres |
| `model/geometry/utils/ELayerCutModelQuery.cpp`, `extraction/thermal/EThermalModelExtraction.cpp` 207-260 and 343-435, solder joints of `extraction/geometry/EGeometryModelExtraction.cpp` | PrismExtract | meshing itself (3rdparty/generic); boost R-tree as a filter by bounding box |
| `solver/thermal/utils/EGridThermalNetworkBuilder.cpp` 103-113, 135-193 | GridBc (model in Grid) | heat flux conditions are in C33 |
| `extraction/geometry/EGeometryModelExtraction.cpp`, `model/geometry/utils/ELayerCutModelBuilder.cpp` | CutBuild | lookups of materials and heights are inputs (models of their own: Retriever, PadInst, BondPath); the joint's loss formula is in Scale |
| `model/thermal/io/EThermalModelIO.cpp` 17-185 | CtmGrid | reduceOrder = 0 (reductions: Reduction), single precision clipping is exact |
| `model/thermal/utils/EPrismThermalModelQuery.cpp`, `EStackupPrismThermalModelQuery.cpp`, `model/thermal/E*ThermalModel.cpp` SearchElementIndices | Monitor | the R-tree itself, `GetPrismInstanceTemplate` details |
| `simulation/thermal/EThermalSimulation.cpp`, `design/ELayoutView.cpp` RunThermalSimulation | Monitor | the working directory is a flag, the solver is an oracle (own models: Solver, ThermalNetwork) |
| `design/ELayoutView.cpp`, `ECell.cpp`, `EDatabase.cpp`, `basic/ECollection.h`, `basic/EObject.cpp` copy assignments; `CloneImp` of objects and models | Copy | members without pointers are one opaque value; the cached boundary and layers, nets are part of it (C03, C04 cover their maps) |
| `design/EDatabase.cpp` Save, `collection/EModelCollection.cpp` | Copy | the bytes of an archive are not modelled |
| all `serialize` functions under `src` (design, collection, basic, model) | Archive | the table was extracted from the headers and sources; values behind pointers and in containers are opaque, Boost's tracking of pointers is trusted; class versions are not used by the code |
| `design/EObject.cpp` | Archive | the random generator never repeats |
| `basic/EShape.cpp`, `EShape.h` | Shape | integer coordinates are rationals with a rounding function; convex hulls and printing are not modelled |
| `utility/ELayoutRetriever.cpp` 279-320, `design/ELayoutView.cpp` GetBoundary, SetBoundary | Boundary | that asking a template shape for its box keeps its matrix is left out here (C118 has it) |
| `utility/ELayoutViewRenderer.cpp` | Boundary | the picture file itself |
| `solver/thermal/network/utils/ThermalNetlistWriter.h` | Netlist | column padding, number of printed digits, control lines, creating the directory |
| `model/thermal/io/EPrismThermalModelIO.cpp` | Vtk | colours of the lookup table are arbitrary numbers |
| `utility/EMetalFractionMapping.cpp` 250-308, `model/thermal/io/EGridThermalModelIO.cpp` 16-72 | Profile | number of printed digits |
| `utility/ELayout2CtmUtility.cpp` | LayoutCtm | the file itself is in Ctm; error texts |
| `model/thermal/io/EChipThermalModelIO.cpp` 15-135, 138-156, 471-528, `model/thermal/io/EGridThermalModelIO.cpp` 78-90, `model/thermal/EGridThermalModel.cpp` 27-34, 70-98 | CtmPack | shell commands, error texts, colours |
| `model/thermal/utils/EStackupPrismThermalModelBuilder.cpp`, `model/geometry/ELayerCutModel.cpp` 127-142 | StackBuild | materials, radii and currents of wires |
| `utility/EMetalFractionMapping.cpp` 98-248 | FracFile | the merge before the mapping, coverage of tiles by polygons, digits of printed numbers, pixels of pictures; whether opening the result file replaces or extends an older one (3rdparty) |
| `py.pybind11/PyEcadBasic.hpp` 39-46, 182-232, 277-411, `src/basic/ECadSettings.h` constructors, 406-429 | PyApi | enumerations, integer and spatial points and boxes (alike), derived objects assigned to base members, Python classes derived from the bound ones |
| `py.pybind11/PyEcad.cpp` | PyCall | what the data manager does (models of its own); bindings of the design classes (`PyEcadDesign.hpp`) hand their arguments on |
| `py.pybind11/PyEcadDesign.hpp` 6-13, 17-20, 26-27, 58-61, 70, 110-116, `src/EDataMgr.cpp` 38-64 and the design objects behind them | Handles | nets, layers, primitives, padstacks and pins (they behave like components without a definition), layer iterators, a cell and its layout are one object |
| `src/solver/thermal/network/ThermalNetworkSolver.h` 181-259, 401-417, `src/solver/thermal/EThermalNetworkSolver.cpp` 101-145, 264-272 | Rates | the integrators; rounding of temperatures and rates (only the scenario ids are rounded); the reduced system matrices |
| `src/solver/thermal/EThermalNetworkSolver.cpp` 101-145, 305-319, 352-365, `src/model/thermal/traits/EThermalModelTraits.h` 21-33 | PrismRates | the integrators, the reduced solver |
| `src/utility/ELayoutPolygonMerger.cpp` 100-122 | MergeSched | the runner of generic and its threads inside one layer; exceptions thrown by a task |
| as PrismRates and StackNet | Settle | the steps of the integrators |

## 5. Where the code does not do what the property says

Each line is a theorem of the model: `_refuted` ones contradict the property as stated, the others describe
inputs on which a call is undefined, throws or does not end. Where there is a restricted statement that does
hold, it is the neighbouring `_partial` theorem.

* `C02_rename_refuted` – Finding: the statement fails when a caller renames a net it obtained (INet::SetName is public): the net keeps being found under its old name and not under its new one.
* `C03_net_ids_unique_refuted` – Finding: a clone restarts its id counter, so a net created on the clone reuses an id.
* `C04_clone_lookup_refuted` – Finding: on a clone the ids are kept but FindMaterialDefById finds nothing.
* `C06_empty_stackup_is_ub` – Finding: on a layout without layers the call is undefined behaviour.
* `C08_mapping_right_refuted` – Finding: without the restriction to layer ids >= 0 (and the two reserved ones) on the source side the composition is wrong: an unmapped layer below noLayer takes the place of the reserved entry.
* `C08_mapping_left_refuted` – The same on the target side of MappingLeft.
* `C10_add_definition_duplicate_material_is_ub` – Finding: adding a material definition object directly to the material collection under a used name is undefined behaviour (the object is destroyed, then read).
* `C11_hierarchy_current_refuted` – Finding: the hierarchy-object iterator's Current() returns nothing while components are left.
* `C11_nested_iterator_refuted` – Finding: an empty inner container hides everything behind it.
* `C12_reads_invisible_refuted` – Finding: a read does change what the object later does – read, append, edit loses the appended part.
* `C12_append_composes_refuted` – Finding: appending an object that itself was read and then appended to loses that part.
* `C12_self_append_diverges` – Finding: appending an uncached transform to itself never terminates, unless it is the identity.
* `C13_save_load_refuted` – Finding: what was appended after a read is not saved.
* `C15_material_property_last_set_refuted` – Findings: setting again has no effect.
* `C15_invalid_bc_sticks_refuted` – In particular an invalid first boundary condition can never be repaired: no later call makes one readable.
* `C15_grid_table_last_sample_refuted` – A second sample at a temperature of a grid table is dropped.
* `C15_lookup_table_last_write_refuted` – Finding: the second write to a key is dropped.
* `C16_value_tensor_off_diagonal_refuted` – Findings: off-diagonal tensor queries of a simple or anisotropic property answer the diagonal value instead of 0 (full coupling between axes), and an anisotropic query of a tensor answers its first column, not its diagonal.
* `C16_value_anisotropic_of_tensor_refuted` – An anisotropic query of a tensor property answers the first column, not the diagonal.
* `C16_polynomial_range_refuted` – Findings: polynomial getters do not check their indices as constant properties do – a bad row throws on an anisotropic property and succeeds on a simple one – and an empty coefficient list is undefined behaviour.
* `C16_polynomial_simple_range_refuted` – On a simple polynomial property a row out of range is answered.
* `C16_polynomial_empty_is_ub` – Evaluating an empty coefficient list is undefined behaviour.
* `C17_total_refuted` – Finding: from 100 on distinct versions compare equal and newer ones compare older.
* `C17_order_refuted` – From 100 on a newer version may compare older.
* `C18_null_deref_refuted` – Findings: a null component, the component layer id given as an explicit layer, or the plain primitive layer setter leave the end without a component and the layer query dereferences null.
* `C18_one_placement_refuted` – The primitive layer setter – what layer mapping uses – on a component-attached start leaves both placements set.
* `C19_negative_id_refuted` – Finding: an id below -1 – such as the component layer id – indexes out of the array.
* `C21_cycle_diverges` – recursive hierarchies recurse for ever – the guard "layout == other" in Merge is never reached
* `C24_merge_into_clone_refuted` – After cloning, the id counter of the clone restarts at 0: merging into a cloned layout then makes B's primitive join a net the layout had before.
* `C25_grid_settings_equal_refuted` – ECadSettings.h:118: the selected nets are compared with themselves.
* `C26_failed_build_refuted` – A request that cannot be built returns the old model of that kind, whose settings do not match.
* `C26_force_reuses_stale_layer_cut_refuted` – A forced prism extraction after an edit still uses the layer cut model extracted before the edit.
* `C32_isotropy_refuted` – The conductance in x is computed with the wrong extent, so a uniform cube conducts differently in x and in y.
* `C33_second_power_model_overwrites_refuted` – A second table power model on a cell replaces the first instead of adding to it.
* `C33_heat_flux_boundary_erases_power_refuted` – A heat flux boundary on a cell erases the power put there.
* `C35_minimum_refuted` – On all-positive data the minimum is never found: every coarse cell is 0; and the maximum of all-negative data is 0.
* `C35_maximum_refuted` – The maximum of all-negative data is 0.
* `C35_block_leaves_grid_refuted` – A block touching the last line of a grid with an even number of lines is reduced to one outside the grid.
* `C35_grid_model_powers_refuted` – Reducing a grid model keeps the powers of the fine grid beside the reduced ones, or appends to the vector while walking it, which is undefined.
* `C35_grid_model_reduction_is_ub` – On a vector without spare capacity the walk over the powers is invalidated.
* `C36_zero_layer_diverges` – Once a layer of zero thickness appears in a stack of positive height the loop never ends, whatever the ratio.
* `C36_termination_refuted` – Slicing does not end for every ratio.
* `C37_inner_height_refuted` – A height strictly inside a layer is not found.
* `C37_gap_throws` – Shapes that leave a gap build without slicing, but with the default ratio the build throws.
* `C37_shape_without_material_throws` – A valid shape without material whose height no other shape has makes the build throw.
* `C37_empty_model_throws` – A model without shapes throws.
* `C39_single_point_diverges` – A wire handed in with one point cannot be refined: the recursion does not end.
* `C39_no_points_is_ub` – A wire without points is read beyond its end as soon as any point is asked for.
* `C40_short_wire_throws` – A wire of fewer than two points is rejected with an exception, whatever the limit.
* `C40_termination_refuted` – With a limit of one unit a short diagonal wire is halved for ever: the midpoint rounds to the far end.
* `C40_last_segment_zero_refuted` – The last point is always written twice, so the last segment has length zero.
* `C41_order_refuted` – In the order 1, 0, 2 a merged-away polygon stays and the merged one is lost.
* `C43_real8_exact_refuted` – Not every real is delivered exactly: 1 - 2^-56 becomes 1.
* `C45_truncation_reported_refuted` – Truncation is never reported.
* `C45_length_one_diverges` – A record length of one makes the capacity loop run forever (the capacity overflows to 0).
* `C45_terminates_refuted` – So the parser does not end on every byte string.
* `C45_reads_inside_record_refuted` – A record whose length does not fit its data is not rejected: the value delivered contains a byte of the next record.
* `C45_short_record_throws` – A record of length two or three makes the parser throw or read uninitialised memory.
* `C45_leading_zeros_is_ub` – A zero length before any record dereferences a null record pointer.
* `C46_duplicate_structure_refuted` – A structure whose name was used before is merged into the structure read last: its elements land in a cell of another name.
* `C46_long_padding_is_ub` – Trailing zero padding longer than the buffer is read past its end.
* `C46_element_outside_structure_is_ub` – An element before any structure writes to the last cell of an empty list.
* `C46_short_pair_throws` – A COLROW, SPACING or UNITS record with fewer than two values is rejected with an exception.
* `C47_adjacent_list_refuted` – A list that directly follows a name or an atom is swallowed by it.
* `C47_trailing_backslash_refuted` – A quoted string that ends with an escaped backslash swallows what follows, up to the next quote.
* `C47_escapes_decoded_refuted` – The value of a quoted string is its raw text: escapes are kept, so a string with a quote in it is never read as its contents.
* `C48_name_at_end_diverges` – A file that ends inside a name makes the reader loop for ever, as does a file without any parenthesis, such as an empty one.
* `C48_open_quote_diverges` – A file that ends inside a quoted string makes the reader loop for ever.
* `C48_terminates_refuted` – So the parser does not terminate on every file.
* `C49_recognised_refuted` – The default header does not start with the mark the reader looks for, so a written file is not recognised as encrypted.
* `C49_origin_refuted` – The origin is overwritten by the size.
* `C49_long_name_refuted` – A name that fills its column runs into the next one.
* `C49_cipher_blank_refuted` – With a layer name of 244 characters the decimal point is enciphered as a blank, and the file is rejected.
* `C49_none_refuted` – A via without a neighbour comes back with a neighbour called None.
* `C49_layer_count_is_ub` – A layer count of -2^63 passes the size check and lets the reader run past the end of the line.
* `C49_bad_count_throws` – A count which does not start like a number throws.
* `C50_terminates_refuted` – A via layer that is its own neighbour makes the height query recurse for ever.
* `C50_cache_refuted` – A changed header keeps being answered from the stack-up built first.
* `C51_line_number_is_ub` – Asking for the layer of a number that is not a prism (for instance a line) reads past the end of the offsets.
* `C51_rebuild_refuted` – Building the same model twice keeps the prisms of the first build, so there are more prisms than prism numbers; what was missing from C51_first_build_partial.
* `C52_marker_refuted` – A prism inside the stack that touches nothing above it still carries the top neighbour marker (and likewise for the bottom).
* `C53_summary_refuted` – The reported total heat is not: two tasks adding to the shared member can lose an addition. (In C++ the unsynchronised access is a data race.)
* `C54_zero_iterations_refuted` – An allowance of zero iterations wraps around to 2^64 builds.
* `C55_bad_probe_throws` – A probe outside the field is refused, an empty field is undefined behaviour.
* `C55_empty_field_is_ub` – An empty field is undefined behaviour.
* `C56_bad_step_diverges` – A step that is not positive never completes.
* `C56_no_probes_is_ub` – No probes: nothing can have been recorded by a run that returns.
* `C56_no_window_throws` – The default settings (no sampling window, no interval) stop at an assertion, and an interval of zero is undefined behaviour.
* `C56_no_interval_is_ub` – A sampling interval of zero is undefined behaviour.
* `C56_reduced_restart_is_ub` – The reduced solver hands only the probe values to the next build of a temperature dependent run: unless the probes are as many as the nodes the second build fails and its null result is dereferenced.
* `C57_upper_bound_refuted` – The upper bound of every region counts as inside and gets a tile past the last.
* `C57_region_short_refuted` – ... but it need not reach the layout's own edge: with tiles rounded down the last shapes fall outside the map.
* `C57_flat_tiles_is_ub` – More than two tiles per coordinate: tiles of no width, and every look-up divides by zero.
* `C57_power_edge_is_ub` – A component that reaches the upper edge of the region writes outside the grid.
* `C58_empty_stack_is_ub` – Without layers the recomputation reads the first element of an empty vector.
* `C59_full_vector_is_ub` – A full node vector (for instance the one a network is constructed with): as soon as some node is in range, the node vector is reallocated under the reference the loop still reads.
* `C59_per_node_conductance_refuted` – One node with coefficient 1 to ambient; afterwards it reaches ambient only through the added resistor of 0.01 in series with the shared coefficient.
* `C60_default_refuted` – Default units (micrometres, nanometre coordinates).
* `C60_metre_refuted` – Metres: one nanometre becomes zero.
* `C60_named_unit_refuted` – The conversions that name the unit, default units, to metres.
* `C60_drift_refuted` – Successive conversions keep losing: two round trips lose two.
* `C60_large_refuted` – Beyond 53 bits even the same unit loses.
* `C60_maximum_is_ub` – The largest coordinate is not representable and converting it back is undefined.
* `C62_leading_hole_refuted` – Holes before the first outline are skipped without their points, so that later shapes get the wrong ones.
* `C62_missing_points_is_ub` – A DOM file with too few points is read past its end.
* `C62_shared_net_name_is_ub` – Two net numbers that share a name dereference a null net.
* `C62_open_via_throws` – A via between signal layers without shapes, such as one whose field is a bare "V", throws.
* `C62_empty_is_ub` – Without any shape outside vias there are no layers, and inserting dielectrics reads past the end.
* `C63_unknown_template_refuted` – A void with an unknown template ends the run: the voids after it are lost and the primitive is solid there.
* `C63_annular_refuted` – Voids after an annular ring are dropped.
* `C66_dielectric_settings_refuted` – The settings that leave dielectric layers out of the merge have no effect: the layers are chosen before the settings are set.
* `C67_array_lattice_refuted` – An array reference is not imported as the lattice it stands for.
* `C67_orientation_refuted` – A reference turned by 90 degrees gets the rotation 90 where the transform takes radians (a right angle lies between 1.57 and 1.58), and its reflection bit is dropped.
* `C67_failed_import_leaves_no_trace_refuted` – A layer map file that cannot be parsed: no database is returned, yet its name is taken from then on, so that importing again with a good layer map fails.
* `C67_layer_map_bad_number_throws` – A line of five fields with a layer, data type or thickness that is no number throws out of the whole import, after any number of good lines.
* `C67_duplicate_cell_is_ub` – Two structures of the same name in a GDS file: the second cell cannot be created and the null pointer is used.
* `C69_density_row_order_refuted` – With tables stored row by row the tiles are exchanged.
* `C69_density_empty_is_ub` – An empty density file makes the reader store an uninitialised number.
* `C72_flux_erases_power_refuted` – A heat flux through an exposed face erases the power of the prism.
* `C72_two_faces_refuted` – A prism exposed on both sides (a one-layer model) keeps only the bottom coefficient.
* `C72_stack_bottom_flux_refuted` – In stack-up models a bottom heat flux enters each bottom prism as it is, not times its area.
* `C72_stack_marker_throws` – A stack-up prism whose top or bottom marker names another prism than itself is refused.
* `C73_top_surface_refuted` – A monitor exactly on the top surface of a prism model is looked up in the bottom layer.
* `C74_same_name_refuted` – Two vias of the same name: the import is undefined or throws, whatever else the file holds.
* `C74_same_name_is_ub` – Which of the two: the layer map of the second via of a name was not created, so placing a pad on it is undefined; with no pad to place, the missing definition stops the import with an assertion. The vias before have all different names.
* `C74_pads_refuted` – With a dielectric between two signal layers the pad of the lower one is lost: the layer map is set in the wrong direction.
* `C75_rectangle_refuted` – A rectangle template comes out at half its size.
* `C75_unscaled_refuted` – Squares, diamonds and circles ignore the scale of the file.
* `C75_arc3_refuted` – A composite with a three point arc is undefined, an empty one too, one that starts with an arc throws.
* `C75_empty_composite_is_ub` – A composite with nothing in it has no first point to read; one that starts with an arc is refused.
* `C75_arc_first_throws` – arc first throws
* `C76_import_refuted` – What a file must have for the import to end well: without scale or unit, with an outline from a template it has, with a three point arc in any template, or with two vias of a name, it never does.
* `C76_no_scale_is_ub` – Without scale or unit the first thing the import does is undefined, whatever else the file holds.
* `C76_template_outline_is_ub` – In a file that would be importable with no outline, one from a template it has is undefined.
* `C77_layer_order_refuted` – The order of the layers is not that of the board: the hash order decides, so the bottom copper may lie on top.
* `C77_dielectrics_dropped` – A stack-up entry which is no declared layer, such as every dielectric of a KiCad board, never reaches the layout.
* `C77_stackup_complete_refuted` – So not every entry of the stack-up is imported.
* `C77_failed_import_blocks_name` – A file which cannot be read leaves its database registered, so that importing under the same name again gives nothing, whatever the file then contains.
* `C77_failed_import_refuted` – An unreadable file leaves a database behind.
* `C77_bad_layer_throws` – A layer whose id is no number ends the import in an exception, again after the database was registered.
* `C77_short_layer_throws` – short layer throws
* `C77_short_net_throws` – short net throws
* `C77_empty_setting_is_ub` – A setting of a declared layer without a value reads past the end of an empty list.
* `C77_unnamed_layer_is_ub` – A stackup layer, or a footprint, without a name is undefined too; whatever follows it in the file.
* `C79_gap_refuted` – gap refuted
* `C79_bondwire_refuted` – bondwire refuted
* `C79_no_layers_is_ub` – A layout without stack-up layers makes the extraction read past the end of the layer list.
* `C80_component_layer_is_ub` – Finding: a range that reaches the component layer indexes the pads with a negative number.
* `C81_mirrored_instance_refuted` – Finding: in general the pad's own offset and rotation are applied after the instance's placement instead of before it. A mirrored instance does not mirror the offset of its pads.
* `C81_rotated_instance_refuted` – Turning an instance by a right angle leaves a pad that sits beside the centre where it was.
* `C83_unmapped_end_refuted` – Finding: if the upper or lower end of an instance's range is not mapped, that end becomes -1, and the instance then shows its via on layers that none of its layers is mapped to.
* `C83_no_layer_map_is_ub` – Finding: an instance without a layer map makes the layer mapping of its collection dereference null.
* `C84_no_definition_is_ub` – Finding: without a component definition both calls dereference null.
* `C85_added_transform_refuted` – Finding: a transform added after the placement was read (printed, say) is lost for pins and boundary, while the placement itself reports it.
* `C85_flip_mirror_image_refuted` – Finding: flipping a component turns it by half a turn in its plane (both axes mirrored) instead of giving its mirror image: a triangle of pins keeps its sense of rotation.
* `C86_dielectric_capacity_refuted` – A cell of dielectric only does not store volume times specific heat times density of the dielectric: it stores more than three times as much.
* `C87_no_type_throws` – no type throws
* `C88_power_at_temperature_refuted` – It is not so in general: SetLossPower takes kelvins, the losses are read at 25, 50, ... 125 - degrees Celsius taken as kelvins - and stored under 298.15 K, ... 398.15 K. A component that loses 1 W at 298.15 K and 2 W at 398.15 K is given 1 W at 398.15 K.
* `C89_bad_layer_throws` – A layer of negative thickness or with a map of another size stops the extraction.
* `C89_unplaced_throws` – A lossy component on a layer the stack-up does not have, without a boundary or with a corner outside the region stops the extraction.
* `C90_block_cells_refuted` – A block that reaches the upper edge of the region - as one over the whole layout does - also sets the condition on a cell it does not meet: the index of the edge is one past the last tile and is taken for the first cell of the next column.
* `C91_jump_refuted` – A wire bonded on another layer is still joined to the first one.
* `C92_gap_throws` – A layer without polygons - an air gap between two shapes - stops the construction of the query.
* `C94_power_refuted` – A smaller polygon inside the block takes its part of the power away: of a die with a pad on a quarter of it, three quarters of the power are in the model.
* `C94_thin_block_refuted` – A shape so thin that the top of its block rounds to its own bottom has no layer with its power: none of it is in the model.
* `C94_end_joint_refuted` – end joint refuted
* `C96_single_layer_refuted` – single layer refuted
* `C97_malformed_drawing_is_ub` – A malformed drawing may crash the import: a polygon without points, a via with a single layer.
* `C98_missing_pad_is_ub` – A padstack instance that spans a layer without a pad shape is dereferenced as null.
* `C98_missing_definition_is_ub` – So is a padstack instance without a definition; one whose definition has no data is left out, and one without material is refused.
* `C101_boundary_refuted` – C101 is false of the code in general: without a layer that is thick enough the boundary of some other object, here a component, is taken for that of the layout.
* `C101_no_polygon_is_ub` – With no polygon at all, asking for the boundary is undefined.
* `C102_joints_refuted` – C102 is false of the code: with a current the joint at the start of a wire is in the model without the net of the wire, and the one at the end is there twice, as a power block and as a shape on the net.
* `C104_other_temperatures_refuted` – other temperatures refuted
* `C105_outer_via_dropped` – An outermost layer that is not metal has no place in the stack-up, so it is missing from the grid model made of the chip model.
* `C106_small_density_is_ub` – Merging layers reads every density over all tiles without looking at its size: one that is smaller, or missing, makes the conversion undefined.
* `C107_empty_layer_is_ub` – A monitor at the height of a layer without elements is undefined.
* `C107_index_is_ub` – In a model whose layers do not belong to its index, building the index of a layer may be undefined; then so is making the query object, in whatever order the layers are built.
* `C107_containing_prism_refuted` – A monitor inside a prism may be attached to another one of the layer: for a prism model the centre of the other is nearer, for a stack-up model both boxes contain the point.
* `C107_top_surface_refuted` – On the top surface a prism model looks in the bottom layer, a stack-up model in the top one.
* `C108_own_triangulation_refuted` – If the layers had triangulations of their own, the query of the whole model would still use that of layer 0.
* `C109_grid_monitors_refuted` – A grid model ignores the monitors: the same run without them, and no temperature.
* `C109_grid_transient_refuted` – A transient run on a grid model has no probes whatever the monitors are, so one that returns has recorded nothing ([C56_no_probes_is_ub]).
* `C110_renamed_refuted` – C110. Not if a component was given another name: the wire of the copy ends nowhere, and asking for its side is undefined although the original answers.
* `C110_exchanged_names_refuted` – C110. If two components have exchanged their names, the copy of a wire ends at the other one.
* `C110_dead_component_is_ub` – C110. A wire whose component is gone cannot be copied.
* `C111_removed_original_is_ub` – C111. Once the original is gone, asking an instance of the copy for what it instantiates is undefined.
* `C111_self_contained_refuted` – C111. So a copied database is not one of its own: the instance in the copy refers to the layout in the original.
* `C112_stackup_refuted` – stackup refuted
* `C113_saved_refuted` – C113. So after one extraction of a grid model the database cannot be saved any more, and the attempt destroys the archive there was.
* `C114_layout_name_dropped` – C114. A layout that was loaded does not have the name of the one that was saved, nor its identity: it keeps those it was made with.
* `C114_layout_name_refuted` – layout name refuted
* `C114_cut_off_archive_throws` – C114. An archive cut off after any number of values, as by a crash while it was written, is never taken for a whole one: loading it throws, and then the database is empty. A file that cannot be opened or is no archive leaves it alone.
* `C115_copy_is_ub` – C115. The identity of a copied object is never set: whatever happened before, comparing the copy, even with itself, is undefined.
* `C115_copied_identity_refuted` – copied identity refuted
* `C115_moved_name_dropped` – C115. A moved object has the identity but not the name of the object it was made from.
* `C116_rectangle_refuted` – C116 is false of the code. A rectangle turned by an angle and turned back is larger than it was.
* `C116_scaled_refuted` – A circle or a path that is scaled keeps its radius or width; the same circle as a template is scaled.
* `C116_template_refuted` – Given a transform that was appended to after its matrix had been asked for, a polygon follows the matrix but a shape made from that polygon follows the items.
* `C117_box_refuted` – C117 is false of the code: the box of a turned shape made from a template is the box of its turned box.
* `C118_archived_refuted` – C118 is false of the code: a move after the points were asked for is lost in the archive.
* `C119_objects_refuted` – C119 is false of the code: bond wires do not count, and neither does a geometry on a layer the layout does not have.
* `C119_stale_refuted` – And once asked for, it stays what it was when geometries are added.
* `C119_recursive_diverges` – Layouts placed in each other, or in themselves: the call does not return.
* `C119_no_layout_is_ub` – Asking for the boundary of a layout that does not exist, or that has an instance of one, is undefined.
* `C119_no_definition_is_ub` – A cell instance without a definition layout is dereferenced.
* `C121_selection_refuted` – C121 is false of the code: what is selected is what is left out.
* `C121_no_shape_is_ub` – A geometry without a shape is dereferenced, if it is not left out.
* `C122_heated_refuted` – heated refuted
* `C122_temperature_refuted` – temperature refuted
* `C123_wrong_size_dropped` – A list of temperatures of another size is left out without a word: the call still succeeds.
* `C123_unbuilt_is_ub` – unbuilt is ub
* `C123_digits_refuted` – digits refuted
* `C124_blank_name_refuted` – The name of a layer is free, but one with a blank takes two columns: the file can not be read any more.
* `C125_tile_refuted` – The region is 14 long and tiles of 10 are asked for. The chip model says that its two tiles are 10 wide, but its densities are those of two tiles of 7: the strip from 8 to 9, which lies in the first tile, shows up in the second.
* `C126_layout_refuted` – layout refuted
* `C127_outer_dielectric_refuted` – outer dielectric refuted
* `C131_arc3_refuted` – "ARC" is tried before "ARC3", so that the 3 is taken for a coordinate; the whole section is lost.
* `C131_diamond_refuted` – A diamond is read as a square of the same width.
* `C131_route_diamond_refuted` – In a route it is not read at all: the routes of this and of all later nets of the section are lost.
* `C131_bondwire_refuted` – A bond wire without the names of its dies takes the next two words for them.
* `C131_pin_names_refuted` – A pin without padstacks whose successor is named by a number takes that name for its padstack.
* `C131_empty_name_refuted` – A layer without conductor: an empty name is not read, and the section ends there.
* `C132_half_section_refuted` – half section refuted
* `C132_half_material_refuted` – A dielectric with a loss tangent but without the number of its model keeps the tangent and loses the section.
* `C132_stray_end_refuted` – A stray end of a section is passed over as single lines.
* `C132_cut_file_refuted` – A file that breaks off in a section is read with success too; the section is then read a second time, as single lines.
* `C133_no_scale_is_ub` – Without a scale or a unit the import is undefined.
* `C135_unit_refuted` – Only inches are told apart: micrometers and mils are read as millimeters.
* `C136_exact_refuted` – 1.001 micrometres are 1001 nanometres, but arrive as 1000.
* `C137_nine_words_refuted` – Not everything that is no record is refused: nine words can be one (a number is read as far as it goes) …
* `C137_net_name_throws` – A net name of two words makes the importer throw: the second word is read as signal layer.
* `C137_negative_points_is_ub` – A negative number of points runs over the end of the points.
* `C138_exact_refuted` – The coordinate 1001 comes back as 1000.
* `C138_units_refuted` – Numbers are written in the units of the layout and read in micrometres: what is a millimetre in a layout in millimetres comes back as a micrometre.
* `C138_no_net_dropped` – Polygons of no net are not written.
* `C139_odd_coordinate_dropped` – Finding: the last of an odd number of coordinates is dropped without a sign.
* `C139_too_long_is_ub` – Finding: a length that does not fit the coordinate type is undefined behaviour, not an error.
* `C140_exact_refuted` – Finding: the location reported is not the location given: with metres as user unit a pin made at 31e-9 on a component placed at the origin is reported nine tenths of a nanometre and more away.
* `C141_same_size_refuted` – Finding: two boxes of the same width, half a nanometre apart, get different widths, because coordinates are truncated towards zero.
* `C141_whole_size_refuted` – Finding: with metres as user unit a square 31 nanometres wide, given by the double nearest to 31e-9, is stored 30 nanometres wide.
* `C141_small_refuted` – Finding: a circle of positive radius, or a path of positive width, below one data unit is an invalid shape and no error is reported.
* `C144_powers_refuted` – A table at a later temperature gets no picture if an earlier temperature has no table.
* `C149_no_tiles_is_ub` – No tiles in a direction: a length is divided by zero.
* `C150_wide_tiles_refuted` – There is no blank between RESOLUTION and the width of a tile: a width that is printed with 12 characters or more - 10 units or more - is glued to the word before, and the file can not be read.
* `C150_blank_name_refuted` – A name with a blank takes two words.
* `C151_picture_lost_refuted` – A layer named like the number of another: its picture shows the other layer.
* `C153_never_returns_refuted` – A file without an opening parenthesis, such as an empty one, and one that ends in its first name: the call never returns.
* `C153_cut_off_refuted` – A complete board with two nets, and its first part, which breaks off in front of the second: imported, with one net.
* `C154_cut_off_refuted` – The claim that a file which is cut off is refused is false: the sample without its second structure is imported as if it were complete, also if it ends in the middle of a record.
* `C155_fine_user_unit_refuted` – With a user unit finer than the data unit the scale is zero: every prism has no size and joints no finite resistance.
* `C155_inch_refuted` – The claim is false of units that are no whole multiples: a database in inches on centimetres. An edge of 100 centimetres is 787 millimetres long in a prism model, a tile of a grid model of the same size a metre.
* `C155_whole_ratio_refuted` – It is even false of whole multiples set by hand or read from a file: 93 data units of a nanometre to a user unit are taken for 92, since the quotient is rounded before it is cut off.
* `C156_bottom_blocks_refuted` – C156: [bot_block_bc] is the member of the blocks on the top: whatever is assigned replaces these, and the blocks at the bottom stay as they were; reading it gives the blocks on the top.
* `C157_change_of_copy_refuted` – C157: lists, sets, numbers and the corners of a box are read as copies: whatever is then done to what was read, to append to a list of blocks or to move a corner, no object that existed before changes.
* `C158_none_is_ub` – C158: None in the place of extraction settings is a null pointer that is followed.
* `C158_stale_is_ub` – C158: but a reference taken before the settings are replaced points to a deleted object; any use of it is undefined.
* `C160_instance_call_refuted` – C160: called on an instance of the class, the only thing its constructor suggests, no function of the data manager can be run: the instance is taken for the first argument and TypeError is raised, whatever the function and the arguments.
* `C160_save_refuted` – C160: a saving that fails looks like one that succeeds.
* `C160_no_shape_is_ub` – C160: a shape that is None is followed.
* `C162_removed_is_ub` – C162: and asking it for its name is undefined behaviour: Python is not told that the object is gone.
* `C162_instance_refuted` – C162: a handle of a cell instance is the exception: flattening the layout deletes the instance, and the next call on the handle is undefined behaviour although nothing was removed.
* `C163_other_database_refuted` – C163: without the restriction to one database it is false: a component whose definition comes from a library database dangles when the library is removed, and asking the living component for its boundary is undefined behaviour.
* `C163_library_layout_is_ub` – C163: the same happens in flattening a layout with an instance of a layout of a removed library,
* `C163_library_map_is_ub` – and through a layer map of a removed library.
* `C163_no_definition_is_ub` – C163: nor is a component without definition noticed when it is made; its boundary is undefined behaviour.
* `C163_cycle_diverges` – C163: a layout with an instance of itself can be made, flattening it does not come back (the program's stack overflows).
* `C167_swapped_corners_refuted` – A power block whose corners are in the wrong order puts its power on a node without resistors, and the system has no solution.
* `C169_block_power_refuted` – Every static simulation of a grid model with a power given as a block throws: the block adds a node, and the solver compares temperature lists of different sizes.
* `C172_neighbour_temperature_refuted` – The conductivity of the next segment of a wire is looked up at the temperature of the wrong segment.
* `C176_blocks_dropped` – ** Block boundary conditions never take effect: the network is the one without them,
* `C177_foreign_marker_throws` – A prism whose face is marked with the number of another prism stops the simulation.
* `C180_order_refuted` – Between prisms of different materials the resistance depends on which of them comes first in the model: the part of the way that leads along the side is always counted in the material of the second.
* `C182_scenario_refuted` – A scenario above 2^24 reaches the excitation rounded to a 32 bit float: scenario 16777217 is asked for as 16777216.
* `C182_missing_scenario_is_ub` – A source without a scenario makes every evaluation undefined: its id 2^64 - 1 becomes the float 2^64.
* `C182_heated_grid_is_ub` – No node of a grid model has a scenario, so a heated grid model cannot be simulated over time.
* `C183_block_power_refuted` – As soon as one power is given as a block, no step is ever taken and the simulation has no result: the network has more nodes than the initial state.
* `C184_flux_is_ub` – A prism heated only by the flux through its boundary has no scenario, and the simulation is undefined.
* `C188_threads_refuted` – When the threads are not to be spent on layers, they are spent twice: all layers are merged at a time, each with all threads.

Found while reading, not stated as a theorem:

* `GetProbsAndPermutation` of the transient solver is never used (`ThermalNetworkSolver.h`).
* `mergeGeomBeforeMapping` changes the caller's layout, and the metal fraction mapping ignores
  `settings.polygonMergeSettings` (`EMetalFractionMapping.cpp:102-107`).
* The prism network's line builder takes a neighbour's conductivity at the temperature of the prism itself
  (`EPrismThermalNetworkBuilder.cpp:186`).
* KiCad footprints all end up in one component, because the name is moved from before it is used as key
  (`EKiCadObjects.cpp:87-91`); the import then drops components anyway.
* Seeded bugs (`seeded/LOG.jsonl`) are made by a script that edits one token of a model and recompiles every dependent
  file, replacing each proof that fails by an assumption. A theorem counts as failed when its proof, or a lemma it rests on,
  no longer goes through within 30 s per command. That shows the proof depends on the edited code; it does not by itself
  show the claim false, and the claims in the log are inferred this way, not reviewed one by one. Edits that do not type
  check are left out. Survivors carry a reason only where it was checked against the model.
  A theorem counts as failed if its proof no longer goes through or if it depends on such a proof; the axioms of the reals
  that the theorems about prism geometry use anyway do not count.
