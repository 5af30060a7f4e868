-Q theories Verif
theories/Py.v
theories/Py_Proof.v
theories/Grid_Model.v
theories/Grid_Spec.v
theories/Grid_Proof.v
theories/Grid_Props.v
theories/Dtype_Model.v
theories/Dtype_Spec.v
theories/Dtype_Proof.v
theories/Dtype_Props.v
theories/Profile_Model.v
theories/Profile_Spec.v
theories/Profile_Proof.v
theories/Profile_Props.v
theories/Validate_Model.v
theories/Validate_Spec.v
theories/Validate_Proof.v
theories/Validate_Props.v
theories/Flt.v
theories/Remap_Model.v
theories/Remap_Spec.v
theories/Remap_Proof.v
theories/Remap_Props.v
theories/Dem_Model.v
theories/Dem_Spec.v
theories/Dem_Proof.v
theories/Dem_Props.v
theories/Files_Model.v
theories/Files_Spec.v
theories/Files_Proof.v
theories/Files_Props.v
theories/Params_Model.v
theories/Params_Spec.v
theories/Params_Proof.v
theories/Params_Props.v
theories/Factory_Model.v
theories/Factory_Spec.v
theories/Factory_Proof.v
theories/Factory_Props.v
theories/Mat.v
theories/Rot_Model.v
theories/Rot_Spec.v
theories/Rot_Proof.v
theories/Rot_Props.v
theories/Frame_Model.v
theories/Frame_Spec.v
theories/Frame_Proof.v
theories/Frame_Props.v
theories/Undist_Model.v
theories/Undist_Spec.v
theories/Undist_Proof.v
theories/Undist_Props.v
theories/Bound_Model.v
theories/Bound_Spec.v
theories/Bound_Proof.v
theories/Bound_Props.v
theories/Rpc_Model.v
theories/Rpc_Spec.v
theories/Rpc_Proof.v
theories/Rpc_Props.v
theories/Fit_Model.v
theories/Fit_Spec.v
theories/Fit_Proof.v
theories/Fit_Props.v
theories/Pan_Model.v
theories/Pan_Spec.v
theories/Pan_Proof.v
theories/Pan_Props.v
theories/PanGrid_Model.v
theories/PanGrid_Spec.v
theories/PanGrid_Proof.v
theories/PanGrid_Props.v
theories/Read_Model.v
theories/Read_Spec.v
theories/Read_Proof.v
theories/Read_Props.v
theories/Str.v
theories/Exif_Model.v
theories/Exif_Spec.v
theories/Exif_Proof.v
theories/Exif_Props.v
theories/Csv_Model.v
theories/Csv_Spec.v
theories/Csv_Proof.v
theories/Csv_Props.v
theories/Cli_Model.v
theories/Cli_Spec.v
theories/Cli_Proof.v
theories/Cli_Props.v
theories/Ortho_Model.v
theories/Ortho_Spec.v
theories/Ortho_Proof.v
theories/Ortho_Props.v
theories/Sharpen_Model.v
theories/Sharpen_Spec.v
theories/Sharpen_Proof.v
theories/Sharpen_Props.v
theories/Tags_Spec.v
theories/Tags_Proof.v
theories/Tags_Props.v
theories/Res_Model.v
theories/Res_Spec.v
theories/Res_Proof.v
theories/Res_Props.v
theories/Load_Model.v
theories/Load_Spec.v
theories/Load_Proof.v
theories/Load_Props.v
theories/Cmd_Model.v
theories/Cmd_Spec.v
theories/Cmd_Proof.v
theories/Cmd_Props.v
theories/Cam_Model.v
theories/Cam_Spec.v
theories/Cam_Proof.v
theories/Cam_Props.v
theories/Proj_Spec.v
theories/Proj_Proof.v
theories/Proj_Props.v
theories/Rcam_Model.v
theories/Rcam_Spec.v
theories/Rcam_Proof.v
theories/Rcam_Props.v
theories/Make_Model.v
theories/Make_Spec.v
theories/Make_Proof.v
theories/Make_Props.v
theories/Scene_Model.v
theories/Scene_Spec.v
theories/Scene_Proof.v
theories/SceneDoc_Proof.v
theories/Scene_Props.v
theories/Simple_Model.v
theories/Simple_Spec.v
theories/Simple_Proof.v
theories/Simple_Props.v
theories/Whole_Model.v
theories/Whole_Spec.v
theories/Whole_Proof.v
theories/WholeDoc_Proof.v
theories/Rscene_Model.v
theories/Rscene_Spec.v
theories/Rscene_Proof.v
theories/WholeRpc_Proof.v
theories/Whole_Props.v
theories/Photo_Model.v
theories/Photo_Spec.v
theories/Photo_Proof.v
theories/Photo_Props.v
theories/Table_Model.v
theories/Table_Spec.v
theories/Table_Proof.v
theories/Table_Props.v
theories/Adjust_Model.v
theories/Adjust_Spec.v
theories/Adjust_Proof.v
theories/Adjust_Props.v
theories/Distort_Model.v
theories/Distort_Spec.v
theories/Distort_Proof.v
theories/Distort_Props.v
theories/Recon_Model.v
theories/Recon_Spec.v
theories/Recon_Proof.v
theories/Recon_Props.v
theories/Survey_Spec.v
theories/Survey_Proof.v
theories/Survey_Props.v
theories/Chain_Spec.v
theories/Chain_Proof.v
theories/Chain_Props.v
theories/Aerial_Spec.v
theories/Aerial_Proof.v
theories/Aerial_Props.v
theories/Sheet_Proof.v
theories/Sheet_Props.v
theories/Names_Model.v
theories/Names_Proof.v
theories/Names_Props.v
