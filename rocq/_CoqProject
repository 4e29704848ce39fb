-Q theories Verif
theories/Base.v
theories/Names_Model.v
theories/Names_Spec.v
theories/Names_Proofs.v
theories/Names_Props.v
theories/Net_Model.v
theories/Net_Spec.v
theories/Net_Proofs.v
theories/Net_Props.v
theories/Database_Model.v
theories/Database_Spec.v
theories/Database_Proofs.v
theories/Database_Props.v
theories/LayerMap_Model.v
theories/LayerMap_Spec.v
theories/LayerMap_Proofs.v
theories/LayerMap_Props.v
theories/Layers_Model.v
theories/Layers_Spec.v
theories/Layers_Proofs.v
theories/Layers_Props.v
theories/Iterators_Model.v
theories/Iterators_Spec.v
theories/Iterators_Proofs.v
theories/Iterators_Props.v
theories/Transform_Model.v
theories/Transform_Spec.v
theories/Transform_Proofs.v
theories/Transform_Props.v
theories/LookupTable_Model.v
theories/LookupTable_Spec.v
theories/LookupTable_Proofs.v
theories/LookupTable_Props.v
theories/Keyed_Model.v
theories/Keyed_Spec.v
theories/Keyed_Proofs.v
theories/Keyed_Props.v
theories/MatProp_Model.v
theories/MatProp_Spec.v
theories/MatProp_Props.v
theories/Version_Model.v
theories/Version_Props.v
theories/Bondwire_Model.v
theories/Bondwire_Spec.v
theories/Bondwire_Props.v
theories/Padstack_Model.v
theories/Padstack_Spec.v
theories/Padstack_Props.v
theories/Flatten_Model.v
theories/Flatten_Spec.v
theories/Flatten_Proofs.v
theories/Flatten_Props.v
theories/Merge_Model.v
theories/Merge_Spec.v
theories/Merge_Proofs.v
theories/Merge_Props.v
theories/Settings_Model.v
theories/Settings_Spec.v
theories/Settings_Props.v
theories/ModelCache_Model.v
theories/ModelCache_Props.v
theories/QSum.v
theories/ThermalNetwork_Model.v
theories/ThermalNetwork_Spec.v
theories/ThermalNetwork_Proofs.v
theories/ThermalNetwork_Props.v
theories/NodeReduction_Props.v
theories/Grid_Model.v
theories/Grid_Spec.v
theories/Grid_Proofs.v
theories/Grid_Props.v
theories/Reduction_Model.v
theories/Reduction_Spec.v
theories/Reduction_Proofs.v
theories/Reduction_Props.v
theories/LayerCut_Model.v
theories/LayerCut_Spec.v
theories/LayerCut_Proofs.v
theories/LayerCut_Props.v
theories/Retriever_Model.v
theories/Retriever_Spec.v
theories/Retriever_Proofs.v
theories/Retriever_Props.v
theories/Merger_Model.v
theories/Merger_Spec.v
theories/Merger_Props.v
theories/Gds_Model.v
theories/Gds_Spec.v
theories/Gds_Proofs.v
theories/Gds_Props.v
theories/GdsReader_Model.v
theories/GdsReader_Spec.v
theories/GdsReader_Proofs.v
theories/GdsReader_Props.v
theories/GdsImport_Model.v
theories/GdsImport_Spec.v
theories/GdsImport_Proofs.v
theories/GdsImport_Props.v
theories/KiCad_Model.v
theories/KiCad_Spec.v
theories/KiCad_Proofs.v
theories/KiCad_Props.v
theories/CtmStack_Model.v
theories/CtmStack_Spec.v
theories/CtmStack_Proofs.v
theories/CtmStack_Props.v
theories/Ctm_Model.v
theories/Ctm_Spec.v
theories/Ctm_Proofs.v
theories/Ctm_Props.v
theories/CtmTable_Model.v
theories/CtmTable_Spec.v
theories/CtmTable_Proofs.v
theories/CtmTable_Props.v
theories/Prism_Model.v
theories/Prism_Spec.v
theories/Prism_Proofs.v
theories/Prism_Props.v
theories/PrismNet_Model.v
theories/PrismNet_Spec.v
theories/PrismNet_Proofs.v
theories/PrismNet_Props.v
theories/Solver_Model.v
theories/Solver_Spec.v
theories/Solver_Proofs.v
theories/Solver_Props.v
theories/Fraction_Model.v
theories/Fraction_Spec.v
theories/Fraction_Proofs.v
theories/Fraction_Props.v
theories/Units_Model.v
theories/Units_Spec.v
theories/Units_Proofs.v
theories/Units_Props.v
theories/Dmc_Model.v
theories/Dmc_Spec.v
theories/Dmc_Proofs.v
theories/Dmc_Props.v
theories/Xfl_Model.v
theories/Xfl_Spec.v
theories/Xfl_Proofs.v
theories/Xfl_Props.v
theories/XflGeom_Model.v
theories/XflGeom_Spec.v
theories/XflGeom_Proofs.v
theories/XflGeom_Props.v
theories/XflFile_Model.v
theories/XflFile_Spec.v
theories/XflFile_Proofs.v
theories/XflFile_Props.v
theories/KiCadImport_Model.v
theories/KiCadImport_Spec.v
theories/KiCadImport_Proofs.v
theories/KiCadImport_Props.v
theories/Connect_Model.v
theories/Connect_Spec.v
theories/Connect_Proofs.v
theories/Connect_Props.v
theories/Connect_Comps.v
theories/PadInst_Model.v
theories/PadInst_Spec.v
theories/PadInst_Proofs.v
theories/PadInst_Props.v
theories/Component_Model.v
theories/Component_Spec.v
theories/Component_Props.v
theories/GridCap_Props.v
theories/BondPath_Model.v
theories/BondPath_Props.v
theories/NodeShare_Props.v
theories/GridExtract_Model.v
theories/GridExtract_Spec.v
theories/GridExtract_Proofs.v
theories/GridExtract_Props.v
theories/PrismExtract_Model.v
theories/PrismExtract_Spec.v
theories/PrismExtract_Proofs.v
theories/PrismExtract_Props.v
theories/GridBc_Props.v
theories/CutBuild_Model.v
theories/CutBuild_Spec.v
theories/CutBuild_Proofs.v
theories/CutBuild_Props.v
theories/CtmGrid_Model.v
theories/CtmGrid_Spec.v
theories/CtmGrid_Proofs.v
theories/CtmGrid_Props.v
theories/Monitor_Model.v
theories/Monitor_Spec.v
theories/Monitor_Proofs.v
theories/Monitor_Props.v
theories/Copy_Model.v
theories/Copy_Spec.v
theories/Copy_Proofs.v
theories/Copy_Props.v
theories/Archive_Model.v
theories/Archive_Spec.v
theories/Archive_Props.v
theories/Shape_Model.v
theories/Shape_Spec.v
theories/Shape_Proofs.v
theories/Shape_Props.v
theories/Boundary_Model.v
theories/Boundary_Spec.v
theories/Boundary_Proofs.v
theories/Boundary_Props.v
theories/Netlist_Model.v
theories/Netlist_Spec.v
theories/Netlist_Proofs.v
theories/Netlist_Props.v
theories/Text_Spec.v
theories/Text_Proofs.v
theories/Vtk_Model.v
theories/Vtk_Spec.v
theories/Vtk_Proofs.v
theories/Vtk_Props.v
theories/Profile_Model.v
theories/Profile_Spec.v
theories/Profile_Proofs.v
theories/Profile_Props.v
theories/LayoutCtm_Model.v
theories/LayoutCtm_Spec.v
theories/LayoutCtm_Props.v
theories/Qi_Model.v
theories/XflText_Model.v
theories/XflText_Spec.v
theories/XflText_Proofs.v
theories/XflText_Reads.v
theories/XflText_File.v
theories/XflText_Gives.v
theories/XflText_Props.v
theories/XflLoad_Model.v
theories/XflLoad_Spec.v
theories/XflLoad_Proofs.v
theories/XflLoad_Props.v
theories/DmcText_Model.v
theories/DmcText_Spec.v
theories/DmcText_Proofs.v
theories/DmcText_Props.v
theories/Lengths_Model.v
theories/Lengths_Spec.v
theories/Lengths_Proofs.v
theories/Lengths_Props.v
theories/CtmPack_Model.v
theories/CtmPack_Spec.v
theories/CtmPack_Proofs.v
theories/CtmPack_Props.v
theories/StackBuild_Model.v
theories/StackBuild_Spec.v
theories/StackBuild_Proofs.v
theories/StackBuild_Props.v
theories/FracFile_Model.v
theories/FracFile_Spec.v
theories/FracFile_Proofs.v
theories/FracFile_Props.v
theories/KiCadText_Model.v
theories/KiCadText_Spec.v
theories/KiCadText_Props.v
theories/GdsFile_Model.v
theories/GdsFile_Spec.v
theories/GdsFile_Props.v
theories/Scale_Model.v
theories/Scale_Spec.v
theories/Scale_Proofs.v
theories/Scale_Props.v
theories/PyApi_Model.v
theories/PyApi_Spec.v
theories/PyApi_Props.v
theories/PyCall_Model.v
theories/PyCall_Spec.v
theories/PyCall_Props.v
theories/Handles_Model.v
theories/Handles_Spec.v
theories/Handles_Proofs.v
theories/Handles_Props.v
theories/Steady_Spec.v
theories/Steady_Proofs.v
theories/Steady_Props.v
theories/SteadyGrid_Props.v
theories/GridSim_Model.v
theories/GridSim_Spec.v
theories/GridSim_Proofs.v
theories/GridSim_Props.v
theories/WireNet_Model.v
theories/WireNet_Spec.v
theories/WireNet_Proofs.v
theories/WireNet_Props.v
theories/PrismSim_Model.v
theories/PrismSim_Spec.v
theories/PrismSim_Proofs.v
theories/PrismSim_Props.v
theories/StackNet_Model.v
theories/StackNet_Spec.v
theories/StackNet_Props.v
theories/StackSim_Model.v
theories/StackSim_Spec.v
theories/StackSim_Props.v
theories/PrismGeom_Model.v
theories/PrismGeom_Spec.v
theories/PrismGeom_Props.v
theories/Rates_Model.v
theories/Rates_Spec.v
theories/Rates_Proofs.v
theories/Rates_Props.v
theories/PrismRates_Model.v
theories/PrismRates_Spec.v
theories/PrismRates_Proofs.v
theories/PrismRates_Props.v
theories/Settle_Spec.v
theories/Settle_Props.v
theories/MergeSched_Model.v
theories/MergeSched_Spec.v
theories/MergeSched_Props.v
