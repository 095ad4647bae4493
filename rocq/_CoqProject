-Q theories Verif
theories/Base.v
theories/Str.v
theories/Step1_Model.v
theories/Step1_Spec.v
theories/Step1_Proofs.v
theories/Step1_Props.v
theories/Step2_Model.v
theories/Step2_Spec.v
theories/Step2_Proofs.v
theories/Step2_Match.v
theories/Step2_GeoSpec.v
theories/Step2_Geometry.v
theories/Step2_Props.v
theories/Step2_GeoProps.v
theories/Pipeline_Model.v
theories/Pipeline_Props.v
theories/Images_Model.v
theories/Images_Spec.v
theories/Images_Props.v
theories/Step3_Model.v
theories/Step3_Spec.v
theories/Step3_Props.v
theories/Restart_Model.v
theories/Restart_Props.v
theories/Format_Model.v
theories/Format_Proofs.v
theories/Format_Props.v
theories/Table_Model.v
theories/Table_Spec.v
theories/Table_Proofs.v
theories/Table_Props.v
theories/Correction_Model.v
theories/Correction_Props.v
theories/Layers_Model.v
theories/Layers_Spec.v
theories/Layers_Props.v
theories/Analysis_Model.v
theories/Analysis_Props.v
theories/Solver_Model.v
theories/Solver_Props.v
theories/Stable_Props.v
theories/Nnls_Props.v
theories/End_Model.v
theories/End_Props.v
theories/End_Props2.v
theories/Coordinates_Model.v
theories/Coordinates_Props.v
theories/Config_Model.v
theories/Config_Props.v
theories/Cli_Model.v
theories/Cli_Props.v
theories/Substr.v
theories/Sim_Model.v
theories/Sim_Props.v
theories/Sim2_Props.v
theories/Renamer_Model.v
theories/Renamer_Props.v
theories/Raw_Model.v
theories/Raw_Props.v
theories/Demo_Model.v
theories/Demo_Props.v
theories/Fit_Model.v
theories/Fit_Props.v
theories/Ini_Model.v
theories/Ini_Facts.v
theories/Ini_Props.v
theories/Ini_Props2.v
theories/Avg_Model.v
theories/Avg_Props.v
theories/Read_Model.v
theories/Read_Props.v
theories/Params_Model.v
theories/Params_Props.v
theories/Percent_Model.v
theories/Percent_Props.v
theories/Main_Model.v
theories/Main_Props.v
theories/Minimiser_Props.v
theories/Extract_Props.v
theories/CorrTab_Model.v
theories/CorrTab_Props.v
theories/Photos_Props.v
theories/Todo_Model.v
theories/Todo_Props.v
theories/Widman_Model.v
theories/Widman_Props.v
theories/Calendar_Model.v
theories/Calendar_Props.v
theories/Edges_Model.v
theories/Edges_Props.v
theories/Separate_Proofs.v
theories/Separate_Props.v
theories/Cache_Model.v
theories/Cache_Props.v
theories/Extractor_Model.v
theories/Extractor_Props.v
theories/CoordFile_Model.v
theories/CoordFile_Props.v
theories/CoordEnd_Props.v
theories/Capture_Model.v
theories/Capture_Props.v
theories/Dialogue_Model.v
theories/Dialogue_Props.v
theories/ArrayFile_Model.v
theories/ArrayFile_Props.v
theories/Warn_Model.v
theories/Warn_Props.v
theories/Linear_Proofs.v
theories/Linear_Props.v
theories/Rows_Props.v
theories/Linear_Photos.v
theories/Profile_Props.v
theories/Profile_Photos.v
theories/NonLinear_Proofs.v
theories/NonLinear_Props.v
theories/NonLinear_End.v
theories/NonLinear_Photos.v
theories/NonLinear_Fail.v
theories/Rounding_Model.v
theories/Rounding_Props.v
theories/Machine_Model.v
theories/Machine_Props.v
theories/Mean_Model.v
theories/Mean_Props.v
theories/MachineEnd_Model.v
theories/MachineEnd_Props.v
theories/MachineSolver_Model.v
theories/MachineSolver_Props.v
theories/Object_Model.v
theories/Object_Props.v
theories/Nearly_Props.v
theories/Dir_Model.v
theories/Dir_Props.v
theories/Arg_Model.v
theories/Arg_Props.v
theories/Arg_Props2.v
theories/Main_Props2.v
theories/OldFiles_Model.v
theories/OldFiles_Props.v
theories/MachineNonLinear_Model.v
theories/MachineNonLinear_Proofs.v
theories/MachineNonLinear_Props.v
theories/Whole_Props.v
theories/Merged_Props.v
theories/Descending_Props.v
theories/Skip_Props.v
theories/Invariance_Props.v
theories/Units_Props.v
theories/Units2_Props.v
theories/Amount_Props.v
theories/Resolution_Props.v
theories/Shift_Props.v
theories/Ground_Props.v
theories/Saturation_Props.v
theories/Reference_Props.v
theories/Supplements_Props.v
theories/Supplements2_Props.v
