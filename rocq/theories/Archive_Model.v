(** Which members the archive of a database holds: the [serialize] functions of all classes, and the life of names and
    identities of objects (src/design/EObject.cpp).

    Boost runs the [serialize] function of a class in both directions: saving appends the values of the members it lists, in
    order, loading assigns the values read to them, in the same order.  Pointers and containers are values here; that Boost
    restores what they lead to is trusted. *)
From Verif Require Import Base.
Open Scope res_scope.
Open Scope string_scope.
Open Scope list_scope.

Inductive sstep := SBase (c : string) | SField (m : string).
Record klass := mkClass { k_bases : list string; k_members : list string; k_ser : list sstep }.
Definition table := list (string * klass).

(** All classes with a [serialize] function, derived ones before their bases: base classes with data, data members from the
    header, and what [serialize] lists.  Interfaces, ECadSettings and EShape have no data.  A collection is written by its base
    class template. *)
Definition classes : table := [
  (* model/thermal/EPrismThermalModel.h 84, 99-102; model/thermal/EPrismThermalModel.h 89-96 *)
  ("PrismLayer", mkClass [] ["id"; "elevation"; "thickness"; "elements"]
    [SField "id"; SField "elevation"; SField "thickness"; SField "elements"]);
  (* model/thermal/EPrismThermalModel.h 139, 154-158; model/thermal/EPrismThermalModel.h 144-152 *)
  ("PrismInstance", mkClass [] ["layer"; "element"; "vertices"; "neighbors"; "contactInstances"]
    [SField "layer"; SField "element"; SField "vertices"; SField "neighbors"; SField "contactInstances"]);
  (* model/thermal/EPrismThermalModel.h 54, 72-81; model/thermal/EPrismThermalModel.h 59-70 *)
  ("PrismElement", mkClass [] ["netId"; "matId"; "powerRatio"; "id"; "templateId"; "powerScenario"; "powerLut"; "neighbors"]
    [SField "netId"; SField "matId"; SField "powerRatio"; SField "id"; SField "templateId"; SField "powerScenario"; SField "powerLut"; SField "neighbors"]);
  (* model/geometry/ELayerCutModel.h 38, 52-55; model/geometry/ELayerCutModel.h 43-50 *)
  ("PowerBlock", mkClass [] ["polygon"; "range"; "scen"; "power"]
    [SField "polygon"; SField "range"; SField "scen"; SField "power"]);
  (* model/thermal/EPrismThermalModel.h 26, 44-51; model/thermal/EPrismThermalModel.h 31-42 *)
  ("LineElement", mkClass [] ["netId"; "matId"; "radius"; "current"; "id"; "scenario"; "endPoints"; "neighbors"]
    [SField "netId"; SField "matId"; SField "radius"; SField "current"; SField "id"; SField "scenario"; SField "endPoints"; SField "neighbors"]);
  (* model/geometry/ELayerCutModel.h 18, 30-31; model/geometry/ELayerCutModel.h 23-28 *)
  ("LayerRange", mkClass [] ["high"; "low"]
    [SField "high"; SField "low"]);
  (* design/ELayer.h 69, 81-82; design/ELayer.cpp 158-165 *)
  ("EViaLayer", mkClass ["ELayer"] ["m_upperRefLyr"; "m_lowerRefLyr"]
    [SBase "ELayer"; SField "m_upperRefLyr"; SField "m_lowerRefLyr"]);
  (* design/EPadstackDefData.h 7, 18-20; design/EPadstackDefData.cpp 13-19 *)
  ("EVia", mkClass [] ["rotation"; "offset"; "shape"]
    [SField "rotation"; SField "offset"; SField "shape"]);
  (* basic/EUidGenerator.h 7, 25-25; basic/EUidGenerator.h 13-19 *)
  ("EUidGenerator", mkClass [] ["m_uid"]
    [SField "m_uid"]);
  (* basic/ETransform.h 10, 14-17; basic/ETransform.h 39-46 *)
  ("ETransformData2D", mkClass [] ["scale"; "rotation"; "mirror"; "offset"]
    [SField "scale"; SField "rotation"; SField "mirror"; SField "offset"]);
  (* basic/ETransform.h 50, 118-119; basic/ETransform.h 56-61 *)
  ("ETransform2D", mkClass [] ["m_transform"; "m_sequence"]
    [SField "m_sequence"]);
  (* basic/ECadSettings.h 228, 242-243; basic/ECadSettings.h 233-238 *)
  ("EThermalBoundaryCondition", mkClass [] ["type"; "value"]
    [SField "type"; SField "value"]);
  (* design/EPrimitive.h 143, 162-163; design/EPrimitive.cpp 420-427 *)
  ("EText", mkClass ["EPrimitive"] ["m_text"; "m_transform"]
    [SBase "EPrimitive"; SField "m_text"; SField "m_transform"]);
  (* basic/ECadUnits.h 113, 115-116; basic/ECadUnits.h 138-143 *)
  ("ETemperature", mkClass [] ["value"; "unit"]
    [SField "value"; SField "unit"]);
  (* model/thermal/EStackupPrismThermalModel.h 16; model/thermal/EStackupPrismThermalModel.cpp 12-16 *)
  ("EStackupPrismThermalModel", mkClass ["EPrismThermalModel"] []
    [SBase "EPrismThermalModel"]);
  (* design/ELayer.h 34, 63-66; design/ELayer.cpp 67-76 *)
  ("EStackupLayer", mkClass ["ELayer"] ["m_elevation"; "m_thickness"; "m_conductingMat"; "m_dielectricMat"]
    [SBase "ELayer"; SField "m_elevation"; SField "m_thickness"; SField "m_conductingMat"; SField "m_dielectricMat"]);
  (* basic/ECadUnits.h 61, 63-65; basic/ECadUnits.h 103-109 *)
  ("ESize3D", mkClass [] ["x"; "y"; "z"]
    [SField "x"; SField "y"; SField "z"]);
  (* basic/ECadUnits.h 14, 16-17; basic/ECadUnits.h 52-57 *)
  ("ESize2D", mkClass [] ["x"; "y"]
    [SField "x"; SField "y"]);
  (* basic/EShape.h 156, 160-161; basic/EShape.cpp 73-79 *)
  ("EShapeFromTemplate", mkClass [] ["m_transform"; "m_template"]
    [SField "m_template"; SField "m_transform"]);
  (* basic/EShape.h 34, 38-38; basic/EShape.cpp 19-24 *)
  ("ERectangle", mkClass [] ["shape"]
    [SField "shape"]);
  (* basic/ECadSettings.h 358, 372-374; basic/ECadSettings.h 363-370 *)
  ("EPrismThermalModelExtractionSettings", mkClass ["EThermalModelExtractionSettings"] ["meshSettings"; "polygonMergeSettings"; "layerCutSettings"]
    [SBase "EThermalModelExtractionSettings"; SField "meshSettings"; SField "polygonMergeSettings"; SField "layerCutSettings"]);
  (* model/thermal/EPrismThermalModel.h 164, 221-232; model/thermal/EPrismThermalModel.cpp 16-31 *)
  ("EPrismThermalModel", mkClass ["EThermalModel"] ["layers"; "m_scaleH2Unit"; "m_scale2Meter"; "m_layout"; "m_settings"; "m_points"; "m_lines"; "m_prisms"; "m_indexOffset"; "m_blockBCs"; "m_prismTemplates"]
    [SBase "EThermalModel"; SField "layers"; SField "m_scaleH2Unit"; SField "m_scale2Meter"; SField "m_layout"; SField "m_settings"; SField "m_points"; SField "m_lines"; SField "m_prisms"; SField "m_indexOffset"; SField "m_blockBCs"; SField "m_prismTemplates"]);
  (* model/thermal/EThermalModel.h 19, 31-31; model/thermal/EThermalModel.cpp 10-15 *)
  ("EThermalModel", mkClass [] ["m_uniformBC"]
    [SField "m_uniformBC"]);
  (* basic/ECadSettings.h 157, 173-176; basic/ECadSettings.h 162-170 *)
  ("EPrismMeshSettings", mkClass ["EMeshSettings"] ["iteration"; "dumpMeshFile"; "genMeshByLayer"; "imprintUpperLayer"]
    [SBase "EMeshSettings"; SField "iteration"; SField "dumpMeshFile"; SField "genMeshByLayer"; SField "imprintUpperLayer"]);
  (* collection/EPrimitiveCollection.h 12; collection/EPrimitiveCollection.cpp 12-17 *)
  ("EPrimitiveCollection", mkClass ["EVectorCollection"] []
    [SBase "EVectorCollection"]);
  (* basic/EShape.h 135, 139-139; basic/EShape.cpp 63-68 *)
  ("EPolygonWithHoles", mkClass [] ["shape"]
    [SField "shape"]);
  (* basic/EShape.h 110, 114-114; basic/EShape.cpp 53-58 *)
  ("EPolygon", mkClass [] ["shape"]
    [SField "shape"]);
  (* basic/EShape.h 58, 62-65; basic/EShape.cpp 29-36 *)
  ("EPath", mkClass [] ["m_type"; "m_width"; "shape"]
    [SField "shape"; SField "m_type"; SField "m_width"]);
  (* collection/EPadstackInstCollection.h 11; collection/EPadstackInstCollection.cpp 14-19 *)
  ("EPadstackInstCollection", mkClass ["EVectorCollection"] []
    [SBase "EVectorCollection"]);
  (* design/EPadstackInst.h 9, 48-52; design/EPadstackInst.cpp 13-24 *)
  ("EPadstackInst", mkClass ["EConnObj"] ["m_def"; "m_layerMap"; "m_topLyr"; "m_botLyr"; "m_transform"; "m_isLayoutPin"]
    [SBase "EConnObj"; SField "m_def"; SField "m_layerMap"; SField "m_topLyr"; SField "m_botLyr"; SField "m_transform"; SField "m_isLayoutPin"]);
  (* design/EPadstackDefData.h 57, 96-99; design/EPadstackDefData.cpp 47-55 *)
  ("EPadstackDefData", mkClass [] ["m_material"; "m_solderBumpBall"; "m_pads"; "m_via"]
    [SField "m_material"; SField "m_solderBumpBall"; SField "m_pads"; SField "m_via"]);
  (* collection/EPadstackDefCollection.h 10; collection/EPadstackDefCollection.cpp 11-17 *)
  ("EPadstackDefCollection", mkClass ["EUnorderedMapCollection"] []
    [SBase "EUnorderedMapCollection"]);
  (* design/EPadstackDef.h 7, 32-32; design/EPadstackDef.cpp 10-17 *)
  ("EPadstackDef", mkClass ["EDefinition"] ["m_data"]
    [SBase "EDefinition"; SField "m_data"]);
  (* design/EPadstackDefData.h 23, 34-37; design/EPadstackDefData.cpp 24-31 *)
  ("EPad", mkClass [] ["lyr"; "rotation"; "offset"; "shape"]
    [SField "lyr"; SField "rotation"; SField "offset"; SField "shape"]);
  (* collection/ENetCollection.h 10, 44-45; collection/ENetCollection.cpp 10-16 *)
  ("ENetCollection", mkClass ["EUnorderedMapCollection"] ["m_uidGen"; "m_netIdNameMap"]
    [SBase "EUnorderedMapCollection"; SField "m_uidGen"]);
  (* design/ENet.h 6, 24-24; design/ENet.cpp 9-15 *)
  ("ENet", mkClass ["EObject"] ["m_netId"]
    [SBase "EObject"; SField "m_netId"]);
  (* collection/EModelCollection.h 9; collection/EModelCollection.cpp 10-15 *)
  ("EModelCollection", mkClass ["EUnorderedMapCollection"] []
    [SBase "EUnorderedMapCollection"]);
  (* basic/ECadSettings.h 74, 95-104; basic/ECadSettings.h 79-93 *)
  ("EMetalFractionMappingSettings", mkClass [] ["threads"; "outFile"; "regionExtTop"; "regionExtBot"; "regionExtLeft"; "regionExtRight"; "mergeGeomBeforeMapping"; "grid"; "selectNets"; "polygonMergeSettings"]
    [SField "threads"; SField "outFile"; SField "regionExtTop"; SField "regionExtBot"; SField "regionExtLeft"; SField "regionExtRight"; SField "mergeGeomBeforeMapping"; SField "grid"; SField "selectNets"; SField "polygonMergeSettings"]);
  (* basic/ECadSettings.h 124, 140-143; basic/ECadSettings.h 129-137 *)
  ("EMeshSettings", mkClass [] ["minAlpha"; "minLen"; "maxLen"; "tolerance"]
    [SField "minAlpha"; SField "minLen"; SField "maxLen"; SField "tolerance"]);
  (* design/EMaterialProp.h 25, 58-58; design/EMaterialProp.cpp 21-27 *)
  ("EMaterialPropValue", mkClass ["EMaterialProp"] ["m_values"]
    [SBase "EMaterialProp"; SField "m_values"]);
  (* design/EMaterialProp.h 61, 85-86; design/EMaterialProp.cpp 32-39 *)
  ("EMaterialPropTable", mkClass ["EMaterialProp"] ["m_dependency"; "m_values"]
    [SBase "EMaterialProp"; SField "m_dependency"; SField "m_values"]);
  (* design/EMaterialProp.h 89, 113-113; design/EMaterialProp.cpp 44-50 *)
  ("EMaterialPropPolynomial", mkClass ["EMaterialProp"] ["m_coefficients"]
    [SBase "EMaterialProp"; SField "m_coefficients"]);
  (* design/EMaterialProp.h 12; design/EMaterialProp.cpp 12-16 *)
  ("EMaterialProp", mkClass [] []
    []);
  (* collection/EMaterialDefCollection.h 10, 42-42; collection/EMaterialDefCollection.cpp 12-19 *)
  ("EMaterialDefCollection", mkClass ["EUnorderedMapCollection"] ["m_idLut"]
    [SBase "EUnorderedMapCollection"; SField "m_idLut"]);
  (* design/EMaterialDef.h 7, 34-36; design/EMaterialDef.cpp 9-17 *)
  ("EMaterialDef", mkClass ["EDefinition"] ["m_id"; "m_type"; "m_properties"]
    [SBase "EDefinition"; SField "m_id"; SField "m_type"; SField "m_properties"]);
  (* basic/ELookupTable.h 60, 90-90; basic/ELookupTable.h 66-70 *)
  ("ELookupTable1D", mkClass [] ["m_data"]
    [SField "m_data"]);
  (* design/ELayoutView.h 10, 134-135; design/ELayoutView.cpp 41-48 *)
  ("ELayoutView", mkClass ["ECollectionCollection"; "EObject"] ["m_boundary"; "m_cell"]
    [SBase "ECollectionCollection"; SField "m_boundary"; SField "m_cell"]);
  (* basic/ECadSettings.h 31, 51-57; basic/ECadSettings.h 37-48 *)
  ("ELayoutPolygonMergeSettings", mkClass [] ["threads"; "outFile"; "mtByLayer"; "includePadstackInst"; "includeDielectricLayer"; "skipTopBotDielectricLayers"; "selectNets"]
    [SField "threads"; SField "outFile"; SField "mtByLayer"; SField "includePadstackInst"; SField "includeDielectricLayer"; SField "skipTopBotDielectricLayers"; SField "selectNets"]);
  (* collection/ELayerMapCollection.h 10; collection/ELayerMapCollection.cpp 12-18 *)
  ("ELayerMapCollection", mkClass ["EUnorderedMapCollection"] []
    [SBase "EUnorderedMapCollection"]);
  (* design/ELayerMap.h 7, 36-36; design/ELayerMap.cpp 10-16 *)
  ("ELayerMap", mkClass ["EDefinition"] ["m_layerIdMap"]
    [SBase "EDefinition"; SField "m_layerIdMap"]);
  (* basic/ECadSettings.h 191, 208-212; basic/ECadSettings.h 196-205 *)
  ("ELayerCutModelExtractionSettings", mkClass [] ["dumpSketchImg"; "layerCutPrecision"; "layerTransitionRatio"; "addCircleCenterAsSteinerPoint"; "imprintBox"]
    [SField "dumpSketchImg"; SField "layerCutPrecision"; SField "layerTransitionRatio"; SField "addCircleCenterAsSteinerPoint"; SField "imprintBox"]);
  (* model/geometry/ELayerCutModel.h 11, 121-133; model/geometry/ELayerCutModel.cpp 11-27 *)
  ("ELayerCutModel", mkClass [] ["m_settings"; "m_nets"; "m_ranges"; "m_bondwires"; "m_materials"; "m_polygons"; "m_steinerPoints"; "m_powerBlocks"; "m_lyrPolygons"; "m_height2Index"; "m_layerOrder"; "m_vScale2Int"]
    [SField "m_settings"; SField "m_nets"; SField "m_ranges"; SField "m_bondwires"; SField "m_materials"; SField "m_polygons"; SField "m_steinerPoints"; SField "m_powerBlocks"; SField "m_lyrPolygons"; SField "m_height2Index"; SField "m_layerOrder"; SField "m_vScale2Int"]);
  (* collection/ELayerCollection.h 9; collection/ELayerCollection.cpp 12-17 *)
  ("ELayerCollection", mkClass ["EVectorCollection"] []
    [SBase "EVectorCollection"]);
  (* design/ELayer.h 8, 25-26; design/ELayer.cpp 11-18 *)
  ("ELayer", mkClass ["EObject"] ["m_layerId"; "m_layerType"]
    [SBase "EObject"; SField "m_layerId"; SField "m_layerType"]);
  (* collection/EHierarchyObjCollection.h 9; collection/EHierarchyObjCollection.cpp 15-20 *)
  ("EHierarchyObjCollection", mkClass ["ECollectionCollection"] []
    [SBase "ECollectionCollection"]);
  (* basic/ECadSettings.h 319, 337-340; basic/ECadSettings.h 324-332 *)
  ("EGridThermalModelExtractionSettings", mkClass ["EThermalModelExtractionSettings"] ["dumpHotmaps"; "dumpDensityFile"; "dumpTemperatureFile"; "metalFractionMappingSettings"]
    [SBase "EThermalModelExtractionSettings"; SField "dumpHotmaps"; SField "dumpDensityFile"; SField "dumpTemperatureFile"; SField "metalFractionMappingSettings"]);
  (* basic/ECadSettings.h 259, 281-288; basic/ECadSettings.h 264-276 *)
  ("EThermalModelExtractionSettings", mkClass [] ["forceRebuild"; "threads"; "workDir"; "topUniformBC"; "botUniformBC"; "topBlockBC"; "botBlockBC"; "envTemperature"]
    [SField "forceRebuild"; SField "threads"; SField "workDir"; SField "topUniformBC"; SField "botUniformBC"; SField "topBlockBC"; SField "botBlockBC"; SField "envTemperature"]);
  (* design/EPrimitive.h 42, 65-65; design/EPrimitive.cpp 121-127 *)
  ("EGeometry2D", mkClass ["EPrimitive"] ["m_shape"]
    [SBase "EPrimitive"; SField "m_shape"]);
  (* design/EDatabase.h 8, 75-76; design/EDatabase.cpp 23-36 *)
  ("EDatabase", mkClass ["EDefinitionCollection"; "EObject"] ["m_coordUnits"; "m_version"]
    [SBase "EDefinitionCollection"; SBase "EObject"; SField "m_coordUnits"]);
  (* collection/EDefinitionCollection.h 7; collection/EDefinitionCollection.cpp 11-16 *)
  ("EDefinitionCollection", mkClass ["ECollectionCollection"] []
    [SBase "ECollectionCollection"]);
  (* basic/ECadUnits.h 147, 149-150; basic/ECadUnits.h 155-160 *)
  ("ECoordUnits", mkClass [] ["unit"; "precision"]
    [SField "unit"; SField "precision"]);
  (* collection/EConnObjCollection.h 9; collection/EConnObjCollection.cpp 16-21 *)
  ("EConnObjCollection", mkClass ["ECollectionCollection"] []
    [SBase "ECollectionCollection"]);
  (* collection/EComponentDefPinCollection.h 9; collection/EComponentDefPinCollection.cpp 10-15 *)
  ("EComponentDefPinCollection", mkClass ["EVectorCollection"] []
    [SBase "EVectorCollection"]);
  (* design/EComponentDefPin.h 7, 34-37; design/EComponentDefPin.cpp 10-19 *)
  ("EComponentDefPin", mkClass ["EObject"] ["m_type"; "m_location"; "m_padstackDef"; "m_layer"]
    [SBase "EObject"; SField "m_type"; SField "m_location"; SField "m_padstackDef"; SField "m_layer"]);
  (* collection/EComponentDefCollection.h 10; collection/EComponentDefCollection.cpp 12-18 *)
  ("EComponentDefCollection", mkClass ["EUnorderedMapCollection"] []
    [SBase "EUnorderedMapCollection"]);
  (* design/EComponentDef.h 10, 55-60; design/EComponentDef.cpp 12-24 *)
  ("EComponentDef", mkClass ["EDefinition"; "ECollectionCollection"] ["m_type"; "m_boundary"; "m_height"; "m_solderHeight"; "m_material"; "m_solderFillingMaterial"]
    [SBase "ECollectionCollection"; SBase "EDefinition"; SField "m_type"; SField "m_boundary"; SField "m_height"; SField "m_solderHeight"; SField "m_material"; SField "m_solderFillingMaterial"]);
  (* collection/EComponentCollection.h 9; collection/EComponentCollection.cpp 10-15 *)
  ("EComponentCollection", mkClass ["EUnorderedMapCollection"] []
    [SBase "EUnorderedMapCollection"]);
  (* design/EComponent.h 7, 50-54; design/EComponent.cpp 13-23 *)
  ("EComponent", mkClass ["EHierarchyObj"] ["m_compDef"; "m_placement"; "m_lossPower"; "m_scenario"; "m_flipped"]
    [SBase "EHierarchyObj"; SField "m_compDef"; SField "m_placement"; SField "m_lossPower"; SField "m_flipped"; SField "m_scenario"]);
  (* collection/ECollectionCollection.h 25; collection/ECollectionCollection.cpp 26-30 *)
  ("ECollectionCollection", mkClass ["EUnorderedMapCollection"] []
    [SBase "EUnorderedMapCollection"]);
  (* design/ECell.h 41; design/ECell.cpp 85-89 *)
  ("ECircuitCell", mkClass ["ECell"] []
    [SBase "ECell"]);
  (* basic/EShape.h 85, 90-92; basic/EShape.cpp 41-48 *)
  ("ECircle", mkClass [] ["r"; "o"; "div"]
    [SField "o"; SField "r"; SField "div"]);
  (* collection/ECellInstCollection.h 9; collection/ECellInstCollection.cpp 11-16 *)
  ("ECellInstCollection", mkClass ["EVectorCollection"] []
    [SBase "EVectorCollection"]);
  (* basic/ECollection.h 236, 290-290; basic/ECollection.h 242-247 *)
  ("EVectorCollection", mkClass ["ECollection"] ["m_collection"]
    [SBase "ECollection"; SField "m_collection"]);
  (* design/ECellInst.h 9, 38-39; design/ECellInst.cpp 12-19 *)
  ("ECellInst", mkClass ["EHierarchyObj"] ["m_defLayout"; "m_layerMap"]
    [SBase "EHierarchyObj"; SField "m_defLayout"; SField "m_layerMap"]);
  (* design/EHierarchyObj.h 8, 26-27; design/EHierarchyObj.cpp 12-19 *)
  ("EHierarchyObj", mkClass ["EObject"] ["m_refLayout"; "m_transform"]
    [SBase "EObject"; SField "m_refLayout"; SField "m_transform"]);
  (* collection/ECellCollection.h 10; collection/ECellCollection.cpp 11-16 *)
  ("ECellCollection", mkClass ["EUnorderedMapCollection"] []
    [SBase "EUnorderedMapCollection"]);
  (* basic/ECollection.h 40, 94-94; basic/ECollection.h 46-51 *)
  ("EUnorderedMapCollection", mkClass ["ECollection"] ["m_collection"]
    [SBase "ECollection"; SField "m_collection"]);
  (* basic/ECollection.h 8; basic/ECollection.h 14-18 *)
  ("ECollection", mkClass [] []
    []);
  (* design/ECell.h 8, 37-38; design/ECell.cpp 12-19 *)
  ("ECell", mkClass ["EDefinition"] ["m_cellType"; "m_layoutView"]
    [SBase "EDefinition"; SField "m_cellType"; SField "m_layoutView"]);
  (* design/EDefinition.h 7, 29-29; design/EDefinition.cpp 10-16 *)
  ("EDefinition", mkClass ["EObject"] ["m_database"]
    [SBase "EObject"]);
  (* design/EPadstackDefData.h 40, 51-53; design/EPadstackDefData.cpp 36-42 *)
  ("EBump", mkClass [] ["thickness"; "shape"; "material"]
    [SField "thickness"; SField "shape"; SField "material"]);
  (* design/EPrimitive.h 68, 129-140; design/EPrimitive.cpp 190-207 *)
  ("EBondwire", mkClass ["EPrimitive"] ["m_material"; "m_endLayer"; "m_mountComp"; "m_connectedPin"; "m_location"; "m_flipped"; "m_radius"; "m_height"; "m_current"; "m_scenario"; "m_solderJoints"; "m_bondwireType"]
    [SBase "EPrimitive"; SField "m_material"; SField "m_endLayer"; SField "m_mountComp"; SField "m_connectedPin"; SField "m_location"; SField "m_flipped"; SField "m_radius"; SField "m_height"; SField "m_current"; SField "m_scenario"; SField "m_solderJoints"; SField "m_bondwireType"]);
  (* design/EPrimitive.h 8, 38-39; design/EPrimitive.cpp 20-27 *)
  ("EPrimitive", mkClass ["EConnObj"] ["m_layer"; "m_type"]
    [SBase "EConnObj"; SField "m_layer"; SField "m_type"]);
  (* design/EConnObj.h 6, 22-22; design/EConnObj.cpp 11-17 *)
  ("EConnObj", mkClass ["EObject"] ["m_net"]
    [SBase "EObject"; SField "m_net"]);
  (* design/EObject.h 14, 40-41; design/EObject.cpp 9-16 *)
  ("EObject", mkClass [] ["m_name"; "m_uuid"]
    [SField "m_name"; SField "m_uuid"]);
  (* model/thermal/EPrismThermalModel.h 120, 132-133; model/thermal/EPrismThermalModel.h 125-130 *)
  ("ContactInstance", mkClass [] ["index"; "ratio"]
    [SField "index"; SField "ratio"]);
  (* model/geometry/ELayerCutModel.h 60, 77-83; model/geometry/ELayerCutModel.h 65-75 *)
  ("Bondwire", mkClass [] ["netId"; "radius"; "matId"; "current"; "scenario"; "heights"; "pt2ds"]
    [SField "netId"; SField "radius"; SField "matId"; SField "current"; SField "scenario"; SField "heights"; SField "pt2ds"])
].

Section Archive.
  Context {V : Type}.

  (** An object: the values of its members, by the class that declares them *)
  Definition obj := string * string -> V.
  Definition assign (x : string * string) (v : V) (o : obj) : obj :=
    fun y => if String.eqb (fst y) (fst x) && String.eqb (snd y) (snd x) then v else o y.

  (** Saving: [ar & member] and [ar & base_object] in order *)
  Fixpoint save_as (t : table) (c : string) (o : obj) : list V :=
    match t with
    | [] => []
    | (n, k) :: t' =>
        if String.eqb n c
        then flat_map (fun s => match s with SField m => [o (c, m)] | SBase b => save_as t' b o end) (k_ser k)
        else save_as t' c o
    end.
  (** Loading into an object; an exception when the archive ends too early *)
  Fixpoint load_as (t : table) (c : string) (o : obj) (vs : list V) : res (obj * list V) :=
    match t with
    | [] => Ok (o, vs)
    | (n, k) :: t' =>
        if String.eqb n c
        then (fix go (ss : list sstep) (o : obj) (vs : list V) : res (obj * list V) :=
                match ss with
                | [] => Ok (o, vs)
                | SField m :: r => match vs with v :: vs' => go r (assign (c, m) v o) vs' | [] => Throw end
                | SBase b :: r => ov <- load_as t' b o vs ;; go r (fst ov) (snd ov)
                end) (k_ser k) o vs
        else load_as t' c o vs
    end.

  (** EDatabase.cpp 104-127, 22-36: the file cannot be opened; it does not start like an archive, so that the reader
      throws; or values are read, after the database was emptied *)
  Inductive stream := NoStream | BadHeader | Values (vs : list V).
  Definition load_db (emptied : obj -> obj) (s : stream) (o : obj) : res bool * obj :=
    match s with
    | NoStream => (Ok false, o)
    | BadHeader => (Throw, o)
    | Values vs =>
        match load_as classes "EDatabase" (emptied o) vs with
        | Ok (o', _) => (Ok true, o')
        | _ => (Throw, emptied o)
        end
    end.
End Archive.
Arguments obj : clear implicits.
Arguments stream : clear implicits.

(** EObject: a name and a uuid.  A uuid that was never set is [None]; [boost::uuids::uuid] is an aggregate without
    initialisation (zeros since Boost 1.86). *)
Record eobj := mkObj { o_name : string; o_id : option nat }.
Definition store := list eobj.
(** The objects and the number of identities drawn so far; the random generator never repeats *)
Record world := mkWorld { w_objs : store; w_next : nat }.

Inductive oop :=
| New (name : string)        (* EObject.cpp 21-30 *)
| CopyOf (i : nat)           (* EObject.cpp 37-40: the copy constructor assigns *)
| Assign (i j : nat)         (* EObject.cpp 42-46: object i takes the value of j *)
| MoveOf (i : nat)           (* EObject.cpp 48-51 *)
| MoveAssign (i j : nat)     (* EObject.cpp 53-57 *)
| SetName (i : nat) (name : string).  (* EObject.h *)

Definition copy_ctor (o : eobj) : eobj := mkObj (o_name o) None.
Definition copy_assign (o other : eobj) : eobj := mkObj (o_name other) (o_id o).
Definition move_ctor (o : eobj) : eobj := mkObj "" (o_id o).
Definition move_assign (o other : eobj) : eobj := mkObj (o_name o) (o_id other).
Definition set_at (i : nat) (o : eobj) (l : store) : store :=
  match nth_error l i with Some _ => firstn i l ++ o :: skipn (S i) l | None => l end.

Definition ostep (w : world) (op : oop) : world :=
  let l := w_objs w in
  let n := w_next w in
  match op with
  | New name => mkWorld (l ++ [mkObj name (Some n)]) (S n)
  | CopyOf i => match nth_error l i with Some o => mkWorld (l ++ [copy_ctor o]) n | None => w end
  | Assign i j => match nth_error l i, nth_error l j with Some a, Some b => mkWorld (set_at i (copy_assign a b) l) n | _, _ => w end
  | MoveOf i => match nth_error l i with Some o => mkWorld (l ++ [move_ctor o]) n | None => w end
  | MoveAssign i j => match nth_error l i, nth_error l j with Some a, Some b => mkWorld (set_at i (move_assign a b) l) n | _, _ => w end
  | SetName i name => match nth_error l i with Some a => mkWorld (set_at i (mkObj name (o_id a)) l) n | None => w end
  end.
Definition orun (ops : list oop) : world := fold_left ostep ops (mkWorld [] 0).

(** EObject::operator==, EObject.cpp 59-62; reading a uuid that was never set is undefined *)
Definition same (a b : eobj) : res bool :=
  match o_id a, o_id b with Some x, Some y => Ok (x =? y)%nat | _, _ => UB end.
