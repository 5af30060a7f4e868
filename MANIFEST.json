{
 "claims": [
  {
   "property": "C01",
   "status": "proved",
   "theorems": [
    "C01_block_windows_partition",
    "C01_block_windows_bounds",
    "C01_first_block_is_largest"
   ],
   "note": ""
  },
  {
   "property": "C02",
   "status": "proved",
   "theorems": [
    "C02_ortho_pixelwise",
    "C02_block_size_independent",
    "C02_schedule_independent"
   ],
   "note": ""
  },
  {
   "property": "C03",
   "status": "proved",
   "theorems": [
    "C03_failed_tile_raises"
   ],
   "note": ""
  },
  {
   "property": "C04",
   "status": "proved",
   "theorems": [
    "C04_tile_grids"
   ],
   "note": ""
  },
  {
   "property": "C05",
   "status": "proved",
   "theorems": [
    "C05_expand_contains",
    "C05_expand_minimal"
   ],
   "note": ""
  },
  {
   "property": "C06",
   "status": "proved",
   "theorems": [
    "C06_dem_window",
    "C06_outside_dem",
    "C06_errors"
   ],
   "note": ""
  },
  {
   "property": "C07",
   "status": "proved",
   "theorems": [
    "C07_crop",
    "C07_nothing_left",
    "C07_coverage_warning"
   ],
   "note": ""
  },
  {
   "property": "C08",
   "status": "proved",
   "theorems": [
    "C08_convert_to_integer",
    "C08_nearest_even_unique",
    "C08_convert_nearest",
    "C08_convert_to_float",
    "C08_convert_representable",
    "C08_convert_monotone"
   ],
   "note": ""
  },
  {
   "property": "C09",
   "status": "proved",
   "theorems": [
    "C09_profile_accepted",
    "C09_unsupported_dtype",
    "C09_jpeg_dtype",
    "C09_mask_or_nodata",
    "C09_profile_contents"
   ],
   "note": ""
  },
  {
   "property": "C10",
   "status": "proved",
   "theorems": [
    "C10_options_only",
    "C10_compress_ignored_refuted",
    "C10_jpeg_option_mask_refuted"
   ],
   "note": "The parts that are false of the code, as the statement says: C10_compress_ignored_refuted, C10_jpeg_option_mask_refuted."
  },
  {
   "property": "C11",
   "status": "proved",
   "theorems": [
    "C11_overview_levels",
    "C11_overviews_increasing",
    "C11_limits",
    "C11_minimum_refuted"
   ],
   "note": "The parts that are false of the code, as the statement says: C11_minimum_refuted."
  },
  {
   "property": "C12",
   "status": "proved",
   "theorems": [
    "C12_utm_zone",
    "C12_utm_zone_unique"
   ],
   "note": ""
  },
  {
   "property": "C13",
   "status": "proved",
   "theorems": [
    "C13_validate_iff_conforms",
    "C13_validate_errors",
    "C13_empty_list_rejected"
   ],
   "note": ""
  },
  {
   "property": "C14",
   "status": "proved",
   "theorems": [
    "C14_history_keeps_files",
    "C14_history_confined",
    "C14_existing_rejected",
    "C14_existing_raster_rejected",
    "C14_bad_object_rejected",
    "C14_write_succeeds",
    "C14_concurrent_calls_refuted",
    "C14_failed_overwrite_keeps_old_refuted"
   ],
   "note": "The parts that are false of the code, as the statement says: C14_concurrent_calls_refuted, C14_failed_overwrite_keeps_old_refuted."
  },
  {
   "property": "C15",
   "status": "proved",
   "theorems": [
    "C15_success_writes_both",
    "C15_failure_leaves_interior",
    "C15_atomic_refuted"
   ],
   "note": "The parts that are false of the code, as the statement says: C15_atomic_refuted."
  },
  {
   "property": "C16",
   "status": "proved",
   "theorems": [
    "C16_int_round_trip",
    "C16_camera_id_refuted",
    "C16_empty_refuted"
   ],
   "note": "The parts that are false of the code, as the statement says: C16_camera_id_refuted, C16_empty_refuted."
  },
  {
   "property": "C17",
   "status": "proved",
   "theorems": [
    "C17_ext_round_trip",
    "C17_geojson",
    "C17_projected",
    "C17_empty_refuted"
   ],
   "note": "The parts that are false of the code, as the statement says: C17_empty_refuted."
  },
  {
   "property": "C18",
   "status": "proved",
   "theorems": [
    "C18_gcp_round_trip",
    "C18_empty_lists_refuted",
    "C18_no_gcps_refuted"
   ],
   "note": "The parts that are false of the code, as the statement says: C18_empty_lists_refuted, C18_no_gcps_refuted."
  },
  {
   "property": "C19",
   "status": "proved",
   "theorems": [
    "C19_rpc_round_trip",
    "C19_integer_refuted"
   ],
   "note": "The parts that are false of the code, as the statement says: C19_integer_refuted."
  },
  {
   "property": "C20",
   "status": "proved",
   "theorems": [
    "C20_opk_is_rotation",
    "C20_rpy_is_rotation",
    "C20_opk_order",
    "C20_rpy_order"
   ],
   "note": ""
  },
  {
   "property": "C21",
   "status": "proved",
   "theorems": [
    "C21_rotation_round_trip",
    "C21_angles_round_trip",
    "C21_gimbal_lock",
    "C21_gimbal_lock_refuted"
   ],
   "note": "The parts that are false of the code, as the statement says: C21_gimbal_lock_refuted."
  },
  {
   "property": "C22",
   "status": "proved",
   "theorems": [
    "C22_opencv_pose_preserved",
    "C22_angle_axis"
   ],
   "note": ""
  },
  {
   "property": "C23",
   "status": "proved",
   "theorems": [
    "C23_rpy_chain",
    "C23_level",
    "C23_level_looks_down"
   ],
   "note": ""
  },
  {
   "property": "C24",
   "status": "proved",
   "theorems": [
    "C24_pixel_round_trip",
    "C24_world_round_trip",
    "C24_pinhole_inverts",
    "C24_undistorted_pinhole",
    "C24_behind_camera_refuted"
   ],
   "note": "The parts that are false of the code, as the statement says: C24_behind_camera_refuted."
  },
  {
   "property": "C25",
   "status": "proved",
   "theorems": [
    "C25_intrinsic_with_sensor",
    "C25_intrinsic_without_sensor",
    "C25_errors",
    "C25_portrait_refuted"
   ],
   "note": "The parts that are false of the code, as the statement says: C25_portrait_refuted."
  },
  {
   "property": "C26",
   "status": "proved",
   "theorems": [
    "C26_off_image_nodata",
    "C26_ortho_off_image_nodata"
   ],
   "note": ""
  },
  {
   "property": "C27",
   "status": "proved",
   "theorems": [
    "C27_mask_iff_nodata",
    "C27_dilation",
    "C27_ortho_dilated",
    "C27_kernel_spans_5_source_pixels",
    "C27_block_size_independence_refuted"
   ],
   "note": "The parts that are false of the code, as the statement says: C27_block_size_independence_refuted."
  },
  {
   "property": "C28",
   "status": "proved",
   "theorems": [
    "C28_dataset_mask",
    "C28_per_band_mask_agrees_iff",
    "C28_per_band_mask_same_refuted"
   ],
   "note": "The parts that are false of the code, as the statement says: C28_per_band_mask_same_refuted."
  },
  {
   "property": "C29",
   "status": "proved",
   "theorems": [
    "C29_rpc00b",
    "C29_undefined",
    "C29_crs",
    "C29_nan",
    "C29_crs_heights"
   ],
   "note": ""
  },
  {
   "property": "C30",
   "status": "proved",
   "theorems": [
    "C30_moves",
    "C30_zero_mean",
    "C30_single",
    "C30_idempotent",
    "C30_input_unchanged",
    "C30_factory_input_refuted"
   ],
   "note": "The parts that are false of the code, as the statement says: C30_factory_input_refuted."
  },
  {
   "property": "C31",
   "status": "proved",
   "theorems": [
    "C31_affine",
    "C31_normal",
    "C31_optimal",
    "C31_exact"
   ],
   "note": ""
  },
  {
   "property": "C32",
   "status": "proved",
   "theorems": [
    "C32_get_never_stale",
    "C32_refine_visible",
    "C32_stem_request_refuted"
   ],
   "note": "The parts that are false of the code, as the statement says: C32_stem_request_refuted."
  },
  {
   "property": "C33",
   "status": "proved",
   "theorems": [
    "C33_get_right_camera",
    "C33_names",
    "C33_get_error",
    "C33_shared_cameras"
   ],
   "note": ""
  },
  {
   "property": "C34",
   "status": "proved",
   "theorems": [
    "C34_never_stale",
    "C34_pinhole",
    "C34_settings"
   ],
   "note": ""
  },
  {
   "property": "C35",
   "status": "proved",
   "theorems": [
    "C35_alpha_one",
    "C35_rectangles",
    "C35_alpha_zero",
    "C35_inner_seen",
    "C35_no_distortion",
    "C35_alpha_clipped"
   ],
   "note": ""
  },
  {
   "property": "C36",
   "status": "proved",
   "theorems": [
    "C36_brown_is_opencv",
    "C36_brown_zero_is_pinhole",
    "C36_truncation_length",
    "C36_truncation_same_model",
    "C36_fisheye_is_opencv",
    "C36_fisheye_axis_refuted"
   ],
   "note": "The parts that are false of the code, as the statement says: C36_fisheye_axis_refuted."
  },
  {
   "property": "C37",
   "status": "proved",
   "theorems": [
    "C37_no_horizon",
    "C37_horizon_seen"
   ],
   "note": ""
  },
  {
   "property": "C38",
   "status": "proved",
   "theorems": [
    "C38_default",
    "C38_points",
    "C38_negative",
    "C38_count_refuted",
    "C38_empty_refuted",
    "C38_corner_refuted",
    "C38_undistorted_in_image",
    "C38_alpha_one"
   ],
   "note": "The parts that are false of the code, as the statement says: C38_count_refuted, C38_empty_refuted, C38_corner_refuted."
  },
  {
   "property": "C39",
   "status": "proved",
   "theorems": [
    "C39_first_intersection",
    "C39_sample_range",
    "C39_spacing",
    "C39_frame_rays",
    "C39_vertical_refuted"
   ],
   "note": "The parts that are false of the code, as the statement says: C39_vertical_refuted."
  },
  {
   "property": "C40",
   "status": "proved",
   "theorems": [
    "C40_area",
    "C40_preserves_area",
    "C40_image_area",
    "C40_nadir"
   ],
   "note": ""
  },
  {
   "property": "C41",
   "status": "proved",
   "theorems": [
    "C41_stats",
    "C41_failure",
    "C41_few_refuted"
   ],
   "note": "The parts that are false of the code, as the statement says: C41_few_refuted."
  },
  {
   "property": "C42",
   "status": "proved",
   "theorems": [
    "C42_injection",
    "C42_gain",
    "C42_identity"
   ],
   "note": ""
  },
  {
   "property": "C43",
   "status": "proved",
   "theorems": [
    "C43_norm"
   ],
   "note": ""
  },
  {
   "property": "C44",
   "status": "proved",
   "theorems": [
    "C44_uncorrelated"
   ],
   "note": ""
  },
  {
   "property": "C45",
   "status": "proved",
   "theorems": [
    "C45_weights",
    "C45_user",
    "C45_estimate",
    "C45_proportion",
    "C45_zero_refuted"
   ],
   "note": "The parts that are false of the code, as the statement says: C45_zero_refuted."
  },
  {
   "property": "C46",
   "status": "proved",
   "theorems": [
    "C46_valid",
    "C46_error"
   ],
   "note": ""
  },
  {
   "property": "C47",
   "status": "proved",
   "theorems": [
    "C47_grids",
    "C47_tight",
    "C47_pairs",
    "C47_ms_not_georef",
    "C47_pan_not_georef_refuted",
    "C47_errors",
    "C47_units_refuted"
   ],
   "note": "The parts that are false of the code, as the statement says: C47_pan_not_georef_refuted, C47_units_refuted."
  },
  {
   "property": "C48",
   "status": "proved",
   "theorems": [
    "C48_intrinsic",
    "C48_camera",
    "C48_fisheye"
   ],
   "note": ""
  },
  {
   "property": "C49",
   "status": "proved",
   "theorems": [
    "C49_fit_counts",
    "C49_fit_error",
    "C49_exterior_counts",
    "C49_unequal_refuted",
    "C49_slope_refuted",
    "C49_rpc_counts"
   ],
   "note": "The parts that are false of the code, as the statement says: C49_unequal_refuted, C49_slope_refuted."
  },
  {
   "property": "C50",
   "status": "proved",
   "theorems": [
    "C50_rpc",
    "C50_gcps",
    "C50_exif",
    "C50_schedules",
    "C50_ends"
   ],
   "note": ""
  },
  {
   "property": "C51",
   "status": "proved",
   "theorems": [
    "C51_precedence",
    "C51_error",
    "C51_dewarp",
    "C51_portrait_refuted",
    "C51_last",
    "C51_zoom_refuted"
   ],
   "note": "The parts that are false of the code, as the statement says: C51_portrait_refuted, C51_zoom_refuted."
  },
  {
   "property": "C52",
   "status": "proved",
   "theorems": [
    "C52_xmp",
    "C52_exif",
    "C52_none",
    "C52_reference",
    "C52_gimbal"
   ],
   "note": ""
  },
  {
   "property": "C53",
   "status": "proved",
   "theorems": [
    "C53_exif",
    "C53_osfm",
    "C53_v2_refuted"
   ],
   "note": "The parts that are false of the code, as the statement says: C53_v2_refuted."
  },
  {
   "property": "C54",
   "status": "proved",
   "theorems": [
    "C54_format",
    "C54_error",
    "C54_set",
    "C54_unknown"
   ],
   "note": ""
  },
  {
   "property": "C55",
   "status": "proved",
   "theorems": [
    "C55_user",
    "C55_user_only",
    "C55_refused",
    "C55_rule",
    "C55_utm",
    "C55_missing",
    "C55_projected",
    "C55_prj",
    "C55_prj_refuted",
    "C55_antimeridian_refuted"
   ],
   "note": "The parts that are false of the code, as the statement says: C55_prj_refuted, C55_antimeridian_refuted."
  },
  {
   "property": "C56",
   "status": "proved",
   "theorems": [
    "C56_names",
    "C56_outputs",
    "C56_confined",
    "C56_fresh",
    "C56_completes",
    "C56_stops",
    "C56_no_crs",
    "C56_exists",
    "C56_camera",
    "C56_export",
    "C56_dem",
    "C56_dem_error",
    "C56_own_crs_refuted",
    "C56_same_stem_refuted",
    "C56_odm"
   ],
   "note": "The parts that are false of the code, as the statement says: C56_own_crs_refuted, C56_same_stem_refuted."
  },
  {
   "property": "C57",
   "status": "proved",
   "theorems": [
    "C57_resolution",
    "C57_resolution_error",
    "C57_creation",
    "C57_creation_error",
    "C57_case_refuted",
    "C57_level",
    "C57_weights",
    "C57_weights_error",
    "C57_indexes",
    "C57_indexes_error"
   ],
   "note": "The parts that are false of the code, as the statement says: C57_case_refuted."
  },
  {
   "property": "C58",
   "status": "proved",
   "theorems": [
    "C58_frame_arrays",
    "C58_rpc_arrays",
    "C58_rpc_one_height_refuted"
   ],
   "note": "The parts that are false of the code, as the statement says: C58_rpc_one_height_refuted."
  },
  {
   "property": "C59",
   "status": "proved",
   "theorems": [
    "C59_ortho_early_failure",
    "C59_pan_early_failure",
    "C59_ortho_late_failure",
    "C59_bad_argument_leaves_output_refuted"
   ],
   "note": "The parts that are false of the code, as the statement says: C59_bad_argument_leaves_output_refuted."
  },
  {
   "property": "C60",
   "status": "proved",
   "theorems": [
    "C60_default_nodata_refuted",
    "C60_explicit_nodata_used"
   ],
   "note": "The parts that are false of the code, as the statement says: C60_default_nodata_refuted."
  },
  {
   "property": "C61",
   "status": "proved",
   "theorems": [
    "C61_window_nested",
    "C61_land",
    "C61_low_land_refuted"
   ],
   "note": "The parts that are false of the code, as the statement says: C61_low_land_refuted."
  },
  {
   "property": "C62",
   "status": "proved",
   "theorems": [
    "C62_pixel",
    "C62_mask",
    "C62_nodata",
    "C62_dark_refuted"
   ],
   "note": "The parts that are false of the code, as the statement says: C62_dark_refuted."
  },
  {
   "property": "C63",
   "status": "proved",
   "theorems": [
    "C63_read_int_sound",
    "C63_syntax",
    "C63_type",
    "C63_type_case",
    "C63_errors_are_param_errors_refuted"
   ],
   "note": "The parts that are false of the code, as the statement says: C63_errors_are_param_errors_refuted."
  },
  {
   "property": "C64",
   "status": "proved",
   "theorems": [
    "C64_undistorted_consistent"
   ],
   "note": ""
  },
  {
   "property": "C65",
   "status": "proved",
   "theorems": [
    "C65_exterior",
    "C65_names",
    "C65_fit",
    "C65_fisheye_refuted"
   ],
   "note": "The parts that are false of the code, as the statement says: C65_fisheye_refuted."
  },
  {
   "property": "C66",
   "status": "proved",
   "theorems": [
    "C66_gcps",
    "C66_none"
   ],
   "note": ""
  },
  {
   "property": "C67",
   "status": "proved",
   "theorems": [
    "C67_row",
    "C67_rows",
    "C67_basename_refuted",
    "C67_unused_refuted"
   ],
   "note": "The parts that are false of the code, as the statement says: C67_basename_refuted, C67_unused_refuted."
  },
  {
   "property": "C68",
   "status": "proved",
   "theorems": [
    "C68_outputs",
    "C68_folder_refuted",
    "C68_level"
   ],
   "note": "The parts that are false of the code, as the statement says: C68_folder_refuted."
  },
  {
   "property": "C69",
   "status": "proved",
   "theorems": [
    "C69_remap_shapes"
   ],
   "note": ""
  },
  {
   "property": "C70",
   "status": "proved",
   "theorems": [
    "C70_grid",
    "C70_pixels",
    "C70_dilated",
    "C70_outside",
    "C70_creates",
    "C70_succeeds"
   ],
   "note": ""
  },
  {
   "property": "C71",
   "status": "proved",
   "theorems": [
    "C71_crs",
    "C71_camera",
    "C71_crs_missing",
    "C71_resolution",
    "C71_off_dem",
    "C71_dem_interp"
   ],
   "note": ""
  },
  {
   "property": "C72",
   "status": "proved",
   "theorems": [
    "C72_calls",
    "C72_view"
   ],
   "note": ""
  },
  {
   "property": "C73",
   "status": "proved",
   "theorems": [
    "C73_grid"
   ],
   "note": ""
  },
  {
   "property": "C74",
   "status": "proved",
   "theorems": [
    "C74_pixels",
    "C74_convert"
   ],
   "note": ""
  },
  {
   "property": "C75",
   "status": "proved",
   "theorems": [
    "C75_creates",
    "C75_succeeds",
    "C75_order"
   ],
   "note": ""
  },
  {
   "property": "C76",
   "status": "proved",
   "theorems": [
    "C76_sensor",
    "C76_no_sensor",
    "C76_values",
    "C76_orientation",
    "C76_sensefly",
    "C76_pix4d",
    "C76_no_angles",
    "C76_dewarp",
    "C76_no_dewarp",
    "C76_name",
    "C76_exterior",
    "C76_exterior_iff"
   ],
   "note": ""
  },
  {
   "property": "C77",
   "status": "proved",
   "theorems": [
    "C77_cameras",
    "C77_names",
    "C77_camera_iff",
    "C77_shots",
    "C77_type_error_refuted"
   ],
   "note": "The parts that are false of the code, as the statement says: C77_type_error_refuted."
  },
  {
   "property": "C78",
   "status": "proved",
   "theorems": [
    "C78_nothing_left",
    "C78_success",
    "C78_caller",
    "C78_history",
    "C78_sharpen_command",
    "C78_sharpen_command_refuted",
    "C78_remote_refuted"
   ],
   "note": "The parts that are false of the code, as the statement says: C78_sharpen_command_refuted, C78_remote_refuted."
  },
  {
   "property": "C79",
   "status": "proved",
   "theorems": [
    "C79_load",
    "C79_unsupported",
    "C79_geojson_options_refuted",
    "C79_no_interior_refuted",
    "C79_refine",
    "C79_refine_unread",
    "C79_refine_empty_refuted"
   ],
   "note": "The parts that are false of the code, as the statement says: C79_geojson_options_refuted, C79_no_interior_refuted, C79_refine_empty_refuted."
  },
  {
   "property": "C80",
   "status": "proved",
   "theorems": [
    "C80_frame",
    "C80_cameras",
    "C80_loaded_camera",
    "C80_no_crs",
    "C80_rpc",
    "C80_no_gcps"
   ],
   "note": ""
  },
  {
   "property": "C81",
   "status": "proved",
   "theorems": [
    "C81_options",
    "C81_options_refuted",
    "C81_own_parameters",
    "C81_own_results",
    "C81_caller_refuted",
    "C81_shared_refuted"
   ],
   "note": "The parts that are false of the code, as the statement says: C81_options_refuted, C81_caller_refuted, C81_shared_refuted."
  },
  {
   "property": "C82",
   "status": "proved",
   "theorems": [
    "C82_frame",
    "C82_frame_geojson_refuted",
    "C82_exif",
    "C82_odm",
    "C82_odm_band",
    "C82_odm_options",
    "C82_odm_refuted",
    "C82_rpc"
   ],
   "note": "The parts that are false of the code, as the statement says: C82_frame_geojson_refuted, C82_odm_refuted."
  },
  {
   "property": "C83",
   "status": "proved",
   "theorems": [
    "C83_frame",
    "C83_exif",
    "C83_odm",
    "C83_rpc",
    "C83_sharpen",
    "C83_sharpen_ok",
    "C83_sharpen_exists",
    "C83_frame_reading",
    "C83_exif_reading",
    "C83_odm_reading",
    "C83_odm_input",
    "C83_rpc_reading",
    "C83_rpc_refining",
    "C83_export_refuted"
   ],
   "note": "The parts that are false of the code, as the statement says: C83_export_refuted."
  },
  {
   "property": "C84",
   "status": "proved",
   "theorems": [
    "C84_crs",
    "C84_crs_error",
    "C84_lla_crs",
    "C84_image_refuted",
    "C84_text_refuted",
    "C84_sources",
    "C84_folder",
    "C84_folder_error",
    "C84_root_refuted",
    "C84_odm_folder",
    "C84_gcp_tags",
    "C84_gcp_file"
   ],
   "note": "The parts that are false of the code, as the statement says: C84_image_refuted, C84_text_refuted, C84_root_refuted."
  },
  {
   "property": "C85",
   "status": "proved",
   "theorems": [
    "C85_frame",
    "C85_exif",
    "C85_odm",
    "C85_rpc",
    "C85_rpc_export",
    "C85_sharpen"
   ],
   "note": ""
  },
  {
   "property": "C86",
   "status": "proved",
   "theorems": [
    "C86_frame",
    "C86_exif",
    "C86_odm",
    "C86_rpc"
   ],
   "note": ""
  },
  {
   "property": "C87",
   "status": "proved",
   "theorems": [
    "C87_history",
    "C87_position",
    "C87_refused",
    "C87_uninitialised",
    "C87_initialised",
    "C87_pose_irrelevant"
   ],
   "note": ""
  },
  {
   "property": "C88",
   "status": "proved",
   "theorems": [
    "C88_world_to_pixel",
    "C88_pixel_to_world",
    "C88_remap",
    "C88_largest_image_refuted",
    "C88_im_size_refuted"
   ],
   "note": "The parts that are false of the code, as the statement says: C88_largest_image_refuted, C88_im_size_refuted."
  },
  {
   "property": "C89",
   "status": "proved",
   "theorems": [
    "C89_surface",
    "C89_surface_refuted",
    "C89_errors",
    "C89_integer_surface_refuted"
   ],
   "note": "The parts that are false of the code, as the statement says: C89_surface_refuted, C89_integer_surface_refuted."
  },
  {
   "property": "C90",
   "status": "proved",
   "theorems": [
    "C90_distorted",
    "C90_undistorted_refuted"
   ],
   "note": "The parts that are false of the code, as the statement says: C90_undistorted_refuted."
  },
  {
   "property": "C91",
   "status": "proved",
   "theorems": [
    "C91_world_to_pixel",
    "C91_brown",
    "C91_nan",
    "C91_pixel_to_world"
   ],
   "note": ""
  },
  {
   "property": "C92",
   "status": "proved",
   "theorems": [
    "C92_remap",
    "C92_default_nodata_refuted"
   ],
   "note": "The parts that are false of the code, as the statement says: C92_default_nodata_refuted."
  },
  {
   "property": "C93",
   "status": "proved",
   "theorems": [
    "C93_made",
    "C93_not_made",
    "C93_world_to_pixel",
    "C93_pixel_to_world",
    "C93_heights_refuted",
    "C93_round_trip"
   ],
   "note": "The parts that are false of the code, as the statement says: C93_heights_refuted."
  },
  {
   "property": "C94",
   "status": "proved",
   "theorems": [
    "C94_boundary_height",
    "C94_boundary_surface",
    "C94_remap",
    "C94_remap_refused",
    "C94_gcp_round_trip",
    "C94_gcp_dicts_refuted"
   ],
   "note": "The parts that are false of the code, as the statement says: C94_gcp_dicts_refuted."
  },
  {
   "property": "C95",
   "status": "proved",
   "theorems": [
    "C95_frame_camera",
    "C95_refused",
    "C95_joined",
    "C95_rpc_camera"
   ],
   "note": ""
  },
  {
   "property": "C96",
   "status": "proved",
   "theorems": [
    "C96_documents",
    "C96_dictionaries"
   ],
   "note": ""
  },
  {
   "property": "C97",
   "status": "proved",
   "theorems": [
    "C97_jobs",
    "C97_sources",
    "C97_order",
    "C97_images",
    "C97_complete",
    "C97_empty_section_refuted",
    "C97_own_outputs_refuted"
   ],
   "note": "The parts that are false of the code, as the statement says: C97_empty_section_refuted, C97_own_outputs_refuted."
  },
  {
   "property": "C98",
   "status": "proved",
   "theorems": [
    "C98_no_config",
    "C98_inputs",
    "C98_rows",
    "C98_write_conf",
    "C98_writes",
    "C98_folder",
    "C98_fails"
   ],
   "note": ""
  },
  {
   "property": "C99",
   "status": "proved",
   "theorems": [
    "C99_refused",
    "C99_documents"
   ],
   "note": ""
  },
  {
   "property": "C100",
   "status": "proved",
   "theorems": [
    "C100_documents",
    "C100_refused",
    "C100_unknown"
   ],
   "note": ""
  },
  {
   "property": "C101",
   "status": "proved",
   "theorems": [
    "C101_reader",
    "C101_ends",
    "C101_schedules",
    "C101_order",
    "C101_one_zone",
    "C101_meridian_refuted"
   ],
   "note": "The parts that are false of the code, as the statement says: C101_meridian_refuted."
  },
  {
   "property": "C102",
   "status": "proved",
   "theorems": [
    "C102_pixels",
    "C102_undistorted",
    "C102_success",
    "C102_errors",
    "C102_needs"
   ],
   "note": ""
  },
  {
   "property": "C103",
   "status": "proved",
   "theorems": [
    "C103_pixels",
    "C103_success"
   ],
   "note": ""
  },
  {
   "property": "C104",
   "status": "proved",
   "theorems": [
    "C104_shift",
    "C104_refined",
    "C104_drift",
    "C104_loads",
    "C104_refused",
    "C104_tags"
   ],
   "note": ""
  },
  {
   "property": "C105",
   "status": "proved",
   "theorems": [
    "C105_image",
    "C105_refused",
    "C105_pinhole",
    "C105_round_trip",
    "C105_distort_pixels",
    "C105_undistort_pixels",
    "C105_pixels_refused"
   ],
   "note": ""
  },
  {
   "property": "C106",
   "status": "proved",
   "theorems": [
    "C106_pixels",
    "C106_landscape",
    "C106_portrait_refuted",
    "C106_errors"
   ],
   "note": "The parts that are false of the code, as the statement says: C106_portrait_refuted."
  },
  {
   "property": "C107",
   "status": "proved",
   "theorems": [
    "C107_shows",
    "C107_succeeds",
    "C107_built",
    "C107_inside",
    "C107_fits"
   ],
   "note": ""
  },
  {
   "property": "C108",
   "status": "proved",
   "theorems": [
    "C108_ortho"
   ],
   "note": ""
  },
  {
   "property": "C109",
   "status": "proved",
   "theorems": [
    "C109_ortho",
    "C109_undistorted"
   ],
   "note": ""
  },
  {
   "property": "C110",
   "status": "proved",
   "theorems": [
    "C110_ortho"
   ],
   "note": ""
  },
  {
   "property": "C111",
   "status": "proved",
   "theorems": [
    "C111_frame",
    "C111_rpc",
    "C111_folder_refuted"
   ],
   "note": "The parts that are false of the code, as the statement says: C111_folder_refuted."
  }
 ]
}
