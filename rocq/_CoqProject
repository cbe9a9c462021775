-Q theories Verif
theories/Base.v
theories/Chunk_Model.v
theories/Chunk_Spec.v
theories/Chunk_Proofs.v
theories/Chunk_Props.v
theories/EngineRun_Model.v
theories/EngineRun_Spec.v
theories/EngineRun_Proofs.v
theories/EngineRun_Props.v
theories/EngineLife_Model.v
theories/EngineLife_Proofs.v
theories/EngineLife_Props.v
theories/ModelLife_Model.v
theories/ModelLife_Spec.v
theories/ModelLife_Proofs.v
theories/ModelLife_Props.v
theories/ChunkStore_Model.v
theories/ChunkStore_Spec.v
theories/ChunkStore_Proofs.v
theories/ChunkStore_Props.v
theories/Order_Spec.v
theories/Order_Model.v
theories/Order_Proofs.v
theories/Order_Props.v
theories/FarmWakes_Model.v
theories/FarmWakes_Spec.v
theories/FarmWakes_Proofs.v
theories/FarmIter_Proofs.v
theories/IterLoop_Model.v
theories/IterLoop_Spec.v
theories/IterLoop_Proofs.v
theories/FarmWakes_Witness.v
theories/FarmWakes_Props.v
theories/Controller_Model.v
theories/Controller_Spec.v
theories/Controller_Proofs.v
theories/Controller_Props.v
theories/RBase.v
theories/WindDir_Model.v
theories/WindDir_Proofs.v
theories/Conv_Model.v
theories/Conv_Spec.v
theories/Conv_Proofs.v
theories/WindDir_Props.v
theories/Superp_Model.v
theories/Superp_Proofs.v
theories/Superp_Spec.v
theories/Superp_Props.v
theories/Circles_Model.v
theories/Circles_Spec.v
theories/Circles_Proofs.v
theories/Circles_Props.v
theories/Induction_Model.v
theories/Induction_Spec.v
theories/Induction_Proofs.v
theories/Cubic_Model.v
theories/Cubic_Spec.v
theories/Cubic_Proofs.v
theories/Cubic_Props.v
theories/Induction_Props.v
theories/Rotor_Model.v
theories/Rotor_Spec.v
theories/Rotor_Proofs.v
theories/Rotor_Props.v
theories/Profiles_Model.v
theories/Profiles_Proofs.v
theories/Profiles_Props.v
theories/Geom_Model.v
theories/Geom_Spec.v
theories/Geom_Proofs.v
theories/Geom_Proofs2.v
theories/Geom_Props.v
theories/FarmEval_Model.v
theories/FarmEval_Proofs.v
theories/FarmEval_Props.v
theories/Curves_Model.v
theories/Curves_Spec.v
theories/Curves_Proofs.v
theories/Curves_Props.v
theories/Factory_Model.v
theories/Factory_Spec.v
theories/Factory_Proofs.v
theories/Factory_Proofs2.v
theories/Factory_Props.v
theories/States_Model.v
theories/States_Proofs.v
theories/States_Props.v
theories/Farm_Model.v
theories/Farm_Proofs.v
theories/Farm_Props.v
theories/Data_Model.v
theories/Data_Proofs.v
theories/Data_Props.v
theories/GetData_Model.v
theories/GetData_Proofs.v
theories/GetData_Props.v
theories/ModelList_Model.v
theories/ModelList_Proofs.v
theories/ModelList_Props.v
theories/WakeK_Model.v
theories/WakeK_Props.v
theories/Mirror_Model.v
theories/Mirror_Proofs.v
theories/Mirror_Props.v
theories/Axiwake_Model.v
theories/Axiwake_Spec.v
theories/Axiwake_Proofs.v
theories/Axiwake_Props.v
theories/Yaw_Model.v
theories/Yaw_Spec.v
theories/Yaw_Proofs.v
theories/Yaw_Props.v
theories/TiWake_Model.v
theories/TiWake_Proofs.v
theories/TiWake_Props.v
theories/TiWake_Spec.v
theories/Blockage_Model.v
theories/Blockage_Proofs.v
theories/Blockage_Props.v
theories/Centreline_Model.v
theories/Centreline_Proofs.v
theories/Centreline_Spec.v
theories/Centreline_Props.v
theories/DynWakes_Model.v
theories/DynWakes_Spec.v
theories/DynWakes_Proofs.v
theories/DynWakes_Settle.v
theories/DynWakes_Coos.v
theories/DynWakes_Props.v
theories/PointWakes_Model.v
theories/PointWakes_Spec.v
theories/PointWakes_Proofs.v
theories/Partial_Model.v
theories/Partial_Proofs.v
theories/Combine_Model.v
theories/Combine_Proofs.v
theories/PointWakes_Witness.v
theories/PointWakes_Props.v
theories/Partial_Props.v
theories/Combine_Props.v
theories/Select_Model.v
theories/Select_Proofs.v
theories/Select_Props.v
theories/OnePoint_Model.v
theories/OnePoint_Proofs.v
theories/OnePoint_Props.v
theories/Timelines_Model.v
theories/Timelines_Proofs.v
theories/Timelines_Spec.v
theories/Timelines_Props.v
theories/Stream_Model.v
theories/Stream_Proofs.v
theories/Stream_Props.v
theories/Seq_Model.v
theories/Seq_Proofs.v
theories/Seq_Props.v
theories/SetVars_Model.v
theories/SetVars_Proofs.v
theories/SetVars_Props.v
theories/FieldNC_Model.v
theories/FieldNC_Proofs.v
theories/FieldNC_Props.v
theories/Heights_Model.v
theories/Heights_Proofs.v
theories/Heights_Props.v
theories/Lookup_Model.v
theories/Lookup_Proofs.v
theories/Lookup_Props.v
theories/Wrg_Model.v
theories/Wrg_Proofs.v
theories/Wrg_Props.v
theories/Grid_Model.v
theories/Grid_Spec.v
theories/Grid_Proofs.v
theories/Grid_Props.v
theories/Rose_Model.v
theories/Rose_Spec.v
theories/Rose_Proofs.v
theories/Rose_Props.v
theories/Writer_Model.v
theories/Writer_Spec.v
theories/Writer_Proofs.v
theories/Writer_Props.v
theories/Params_Model.v
theories/Params_Spec.v
theories/Params_Proofs.v
theories/Params_Props.v
theories/Labels_Model.v
theories/Labels_Spec.v
theories/Labels_Proofs.v
theories/Labels_Props.v
theories/Paths_Model.v
theories/Paths_Spec.v
theories/Paths_Props.v
theories/WindIO_Model.v
theories/WindIO_Spec.v
theories/WindIO_Proofs.v
theories/WindIO_Props.v
theories/Dask_Model.v
theories/Dask_Spec.v
theories/Dask_Props.v
theories/LayoutIO_Model.v
theories/LayoutIO_Spec.v
theories/LayoutIO_Proofs.v
theories/LayoutIO_Props.v
theories/NcOut_Model.v
theories/NcOut_Props.v
theories/TypeName_Model.v
theories/TypeName_Spec.v
theories/TypeName_Proofs.v
theories/TypeName_Props.v
theories/TurbType_Model.v
theories/TurbType_Proofs.v
theories/TurbType_Spec.v
theories/TurbType_Props.v
theories/Book_Model.v
theories/Book_Spec.v
theories/Book_Proofs.v
theories/Book_Props.v
theories/AnyOrder_Model.v
theories/AnyOrder_Spec.v
theories/AnyOrder_Proofs.v
theories/AnyOrder_Props.v
theories/TMod_Model.v
theories/TMod_Spec.v
theories/TMod_Proofs.v
theories/TMod_Props.v
theories/RandData_Model.v
theories/RandData_Spec.v
theories/RandData_Proofs.v
theories/RandData_Props.v
theories/ExecPy_Model.v
theories/ExecPy_Spec.v
theories/ExecPy_Proofs.v
theories/ExecPy_Props.v
theories/DBook_Model.v
theories/DBook_Spec.v
theories/DBook_Proofs.v
theories/DBook_Props.v
theories/Symm_Model.v
theories/Symm_Spec.v
theories/Symm_Proofs.v
theories/Symm_Props.v
theories/Shared_Model.v
theories/Shared_Spec.v
theories/Shared_Proofs.v
theories/Shared_Props.v
theories/CalcPars_Model.v
theories/CalcPars_Props.v
theories/Reflect_Props.v
theories/Shp_Model.v
theories/Shp_Spec.v
theories/Shp_Proofs.v
theories/Shp_Props.v
theories/LookupN_Model.v
theories/LookupN_Proofs.v
theories/LookupN_Props.v
theories/Cli_Model.v
theories/Cli_Props.v
theories/Sliced_Model.v
theories/Sliced_Props.v
theories/URelax_Model.v
theories/URelax_Props.v
theories/Parked_Spec.v
theories/Parked_Proofs.v
theories/Parked_Props.v
theories/Scale_Spec.v
theories/Scale_Proofs.v
theories/Scale_Props.v
theories/Float_Model.v
theories/Float_Proofs.v
theories/Float_Compute.v
theories/Float_Props.v
theories/Anim_Model.v
theories/Anim_Spec.v
theories/Anim_Proofs.v
theories/Anim_Props.v
theories/Slices_Model.v
theories/Slices_Props.v
theories/Fig_Model.v
theories/Fig_Spec.v
theories/Fig_Props.v
theories/Plots_Model.v
theories/Plots_Spec.v
theories/Plots_Props.v
theories/Apart_Spec.v
theories/Apart_Proofs.v
theories/Apart_Props.v
theories/FloatSum_Model.v
theories/FloatSum_Spec.v
theories/FloatSum_Proofs.v
theories/FloatSum_Props.v
theories/WsScale_Spec.v
theories/WsScale_Proofs.v
theories/WsScale_Props.v
theories/Contract_Spec.v
theories/Contract_Proofs.v
theories/Contract_Props.v
theories/Sens_Spec.v
theories/Sens_Proofs.v
theories/Sens_Props.v
theories/ClassTree_Model.v
theories/ClassTree_Spec.v
theories/ClassTree_Proofs.v
theories/ClassTree_Props.v
theories/AreaPic_Model.v
theories/AreaPic_Proofs.v
theories/AreaPic_Spec.v
theories/AreaPic_Props.v
theories/Whole_Model.v
theories/Whole_Spec.v
theories/Whole_Proofs.v
theories/Whole_Props.v
theories/YieldRun_Model.v
theories/YieldRun_Spec.v
theories/YieldRun_Proofs.v
theories/YieldRun_Props.v
theories/Both_Model.v
theories/Both_Spec.v
theories/Both_Proofs.v
theories/Both_Props.v
theories/Flow_Model.v
theories/Flow_Spec.v
theories/Flow_Proofs.v
theories/Flow_Props.v
theories/More_Spec.v
theories/More_Proofs.v
theories/More_Props.v
theories/Recover_Proofs.v
theories/Recover_Props.v
theories/Default_Model.v
theories/Default_Props.v
theories/Rotors_Model.v
theories/Rotors_Spec.v
theories/Rotors_Proofs.v
theories/Rotors_Props.v
theories/Ground_Model.v
theories/Ground_Spec.v
theories/Ground_Proofs.v
theories/Ground_Props.v
theories/LayoutFile_Model.v
theories/LayoutFile_Spec.v
theories/LayoutFile_Props.v
theories/Misal_Model.v
theories/Misal_Spec.v
theories/Misal_Proofs.v
theories/Misal_Props.v
theories/TextFmt_Model.v
theories/TextFmt_Spec.v
theories/TextFmt_Proofs.v
theories/TextFmt_Props.v
theories/TiFirst_Spec.v
theories/TiFirst_Proofs.v
theories/TiFirst_Props.v
theories/PointMod_Model.v
theories/PointMod_Spec.v
theories/PointMod_Proofs.v
theories/PointMod_Props.v
theories/IoOut_Model.v
theories/IoOut_Spec.v
theories/IoOut_Proofs.v
theories/IoOut_Props.v
theories/UpWake_Model.v
theories/UpWake_Spec.v
theories/UpWake_Proofs.v
theories/UpWake_Props.v
theories/Joint_Model.v
theories/Joint_Spec.v
theories/Joint_Proofs.v
theories/Joint_Props.v
theories/Calculator_Model.v
theories/Calculator_Spec.v
theories/Calculator_Proofs.v
theories/Calculator_Props.v
