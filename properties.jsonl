{"id": "C01", "title": "Block windows tile the image", "statement": "The block windows generated for a raster cover every pixel of it exactly once, never reach outside it, are never larger than the block shape, and the first one starts at the top left and is at least as large as every other.", "quantifier": "every image height and width (including 0 and sizes that are not multiples of the block) and every positive block shape", "why_tests_cant": "A unit test samples a few shapes; off-by-one errors show only for particular remainders.", "anchors": ["orthority/common.py:block_windows", "orthority/ortho.py:Ortho._remap", "orthority/pan_sharp.py:PanSharpen.process"]}
{"id": "C02", "title": "Ortho raster does not depend on tile schedule", "statement": "If every tile succeeds, the bands of the written ortho are the same for every order in which worker threads finish and for every positive block size: each pixel of each band is written once, and holds the value obtained by remapping the source at that pixel's own world coordinates.  (The exception, neighbourhood mask dilation, is C27.)", "quantifier": "every interleaving (permutation) of tile completions, every ortho size, block size, band count and per-band setting", "why_tests_cant": "Thread schedules cannot be enumerated by tests.", "anchors": ["orthority/ortho.py:Ortho._remap", "orthority/ortho.py:Ortho._remap_tile", "orthority/common.py:block_windows"]}
{"id": "C03", "title": "A failed tile fails the orthorectification", "statement": "Processing reports success only if every tile of every band group was remapped and written; if any tile raises, process raises RuntimeError, whatever the schedule.", "quantifier": "every assignment of success or failure to tiles and every completion order", "why_tests_cant": "The failing tile and schedule are arbitrary.", "anchors": ["orthority/ortho.py:Ortho._remap"]}
{"id": "C04", "title": "Tile coordinate grids are the ortho geotransform", "statement": "For every tile, the world coordinate used at each tile pixel is the ortho transform applied to the centre of the corresponding ortho pixel.", "quantifier": "every affine transform, every window, every pixel of the window", "why_tests_cant": "Grid arithmetic errors depend on position and transform terms a test may leave at zero.", "anchors": ["orthority/ortho.py:Ortho._remap_tile", "orthority/ortho.py:Ortho._remap"]}
{"id": "C05", "title": "Expanded windows contain the requested window and are minimal", "statement": "expand_window_to_grid returns a window with integer offsets and sizes that contains the given (fractional) window grown by the number of expansion pixels on each side, and no smaller pixel-aligned window does.", "quantifier": "every rational offset and size and every integer expansion", "why_tests_cant": "Fractional positions are a continuum; boundary cases (exact integers, tiny fractions) are where ceil/floor errors occur.", "anchors": ["orthority/common.py:expand_window_to_grid", "orthority/ortho.py:Ortho._get_init_dem", "orthority/pan_sharp.py:PanSharpen._get_vrt_profiles"]}
{"id": "C06", "title": "DEM read window is in range and keeps its geolocation", "statement": "The DEM sub-array used for orthorectification is cropped with in-range indices, has the shape of its window, and its transform maps each of its pixels to the same world position as the same DEM pixel under the DEM's own transform; if the DEM and image do not overlap an OrthorityError is raised.", "quantifier": "every DEM size, every pair of requested windows and every affine transform", "why_tests_cant": "Index arithmetic between two nested windows has many boundary cases.", "anchors": ["orthority/ortho.py:Ortho._get_init_dem", "orthority/common.py:expand_window_to_grid"]}
{"id": "C07", "title": "DEM crop keeps exactly the valid bounding box", "statement": "Cropping and masking the reprojected DEM never discards a DEM pixel that is inside the image boundary and valid, sets every pixel outside it to nodata, is the smallest such crop, and the cropped transform keeps every pixel at its world position; if nothing remains OrthorityError is raised.", "quantifier": "every DEM validity pattern, every boundary mask, every affine transform", "why_tests_cant": "Validity patterns are arbitrary 2D sets.", "anchors": ["orthority/ortho.py:Ortho._mask_dem"]}
{"id": "C08", "title": "Image data type conversion saturates and rounds to nearest", "statement": "Converting values to an integer image type gives the nearest representable integer (ties to even) clamped to the range of the type; values already representable are unchanged; conversion is monotone; conversion to a floating type does not round or clip.", "quantifier": "every rational pixel value and every source/destination type pair", "why_tests_cant": "Value space is unbounded; wrap-around shows only beyond the type limits.", "anchors": ["orthority/common.py:convert_array_dtype", "orthority/pan_sharp.py:PanSharpen._process_tile"]}
{"id": "C09", "title": "Output profile decision rules", "statement": "create_profile accepts exactly the supported data types; JPEG compression is accepted only for uint8 and uint16 (then with NBITS=12); by default uint8 is JPEG and other types deflate; an internal mask is written exactly when asked for, or when unspecified and the compress argument in force is JPEG; nodata is set exactly when no mask is written and has the value documented for the type; YCBCR is used only for 3 band JPEG GTiff; the requested size, count and type appear in the profile.", "quantifier": "every combination of driver, dtype, compress, write_mask, creation options, size, count", "why_tests_cant": "The product of the option spaces (with arbitrary creation options) is infinite.", "anchors": ["orthority/common.py:create_profile"]}
{"id": "C10", "title": "Creation options and the compress argument", "statement": "When creation options are given no compression or layout option other than theirs reaches the profile.  The documented \"compress is ignored\" nevertheless fails for the mask decision: the compress argument still decides write_mask, and a JPEG creation option does not.", "quantifier": "every creation option dictionary and compress value", "why_tests_cant": "Needs the whole decision table, including the counterexample to the documentation.", "anchors": ["orthority/common.py:create_profile"]}
{"id": "C11", "title": "Overview levels", "statement": "build_overviews requests the powers of two 2..2^n in order with n at most 8, every requested overview is at least 256 pixels on its shorter side, no further level (up to the limit) would be, and none is requested for small images. With other limits given, at most that number of levels is requested, and the same holds for a minimum that is a power of two; a minimum that is not one is rounded down to a power of two, so that overviews smaller than the minimum that was asked for can be requested, though never by half (proved as a refutation).", "quantifier": "every image shape", "why_tests_cant": "Threshold behaviour at powers of two over all shapes.", "anchors": ["orthority/common.py:build_overviews"]}
{"id": "C12", "title": "UTM zone contains the position", "statement": "The CRS chosen for a position is EPSG:326zz or 327zz with zz the 1..60 UTM zone whose 6 degree band contains the longitude modulo 360, north for latitude >= 0 and south otherwise.", "quantifier": "every rational latitude and longitude, including out-of-range longitudes", "why_tests_cant": "Zone edges and wrap-around at +-180.", "anchors": ["orthority/common.py:utm_crs_from_latlon"]}
{"id": "C13", "title": "Parameter file validation", "statement": "validate_collection accepts a collection exactly when it conforms to the template under the documented rules (dict keys present, nested values conform, type membership, literal equality), and otherwise raises KeyError, TypeError or ValueError; empty lists never conform to a list template.", "quantifier": "every nested collection and every well formed template", "why_tests_cant": "Collections and templates are arbitrarily nested.", "anchors": ["orthority/common.py:validate_collection"]}
{"id": "C14", "title": "Existing files are never overwritten without overwrite", "statement": "No sequence of parameter or raster writing calls made without overwrite changes the content of a file that existed when the call was made; the call raises FileExistsError instead; and a rejected write leaves the file system as it was. This is for calls made one after the other: two concurrent calls can both create the same new file; and with overwrite, a document that can not be serialised costs the old file.", "quantifier": "every history of write calls, every initial file system", "why_tests_cant": "Histories are unbounded.", "anchors": ["orthority/common.py:Open", "orthority/common.py:OpenRaster", "orthority/param_io.py:write_int_param", "orthority/param_io.py:write_ext_param", "orthority/param_io.py:write_gcps", "orthority/param_io.py:write_rpc_param"]}
{"id": "C15", "title": "Frame camera parameter export is not atomic", "statement": "FrameCameras.write_param writes both files or raises; when it raises because the CRS is missing or the second file exists, the interior parameter file has nevertheless been written.  Without overwrite no pre-existing file is changed even then.", "quantifier": "every initial file system, CRS state and parameter set", "why_tests_cant": "Concerns every failure point of a two-step write.", "anchors": ["orthority/factory.py:FrameCameras.write_param"]}
{"id": "C16", "title": "Frame interior parameter round trip", "statement": "Interior parameters written with write_int_param and read with read_oty_int_param come back unchanged, for every non-empty dictionary of valid cameras none of which has the ID \"camera\"; for the ID \"camera\" and for an empty dictionary the round trip fails.", "quantifier": "every set of camera IDs and parameters", "why_tests_cant": "Arbitrary dictionaries; the failing IDs are not ones a tester picks.", "anchors": ["orthority/param_io.py:write_int_param", "orthority/param_io.py:read_oty_int_param"]}
{"id": "C17", "title": "Frame exterior parameter round trip", "statement": "Exterior parameters written with write_ext_param and read with OtyReader come back unchanged (filenames, camera IDs, xyz, opk, CRS) for every non-empty dictionary; an empty one is rejected on reading.", "quantifier": "every exterior parameter dictionary", "why_tests_cant": "Arbitrary dictionaries.", "anchors": ["orthority/param_io.py:write_ext_param", "orthority/param_io.py:OtyReader"]}
{"id": "C18", "title": "GCP round trip", "statement": "GCPs written with write_gcps and read with read_oty_gcps come back unchanged, grouped by image and in order, for every non-empty dictionary of non-empty GCP lists; images with no GCPs are lost.", "quantifier": "every GCP dictionary", "why_tests_cant": "Arbitrary sizes and orders.", "anchors": ["orthority/param_io.py:write_gcps", "orthority/param_io.py:read_oty_gcps"]}
{"id": "C19", "title": "RPC parameter round trip", "statement": "RPC parameters written with write_rpc_param and read with read_oty_rpc_param come back unchanged for every dictionary with the required keys and float values; an integer valued RPC coefficient or offset makes the written file unreadable.", "quantifier": "every RPC parameter dictionary", "why_tests_cant": "Arbitrary dictionaries.", "anchors": ["orthority/param_io.py:write_rpc_param", "orthority/param_io.py:read_oty_rpc_param"]}
{"id": "C20", "title": "Orientation angles define a proper rotation", "statement": "The matrix made from (omega, phi, kappa) or (roll, pitch, yaw) is orthonormal with determinant 1 and equals the product of the elementary axis rotations in the documented order.", "quantifier": "all real angles", "why_tests_cant": "Continuum of angles.", "anchors": ["orthority/param_io.py:_opk_to_rotation", "orthority/param_io.py:_rpy_to_rotation"]}
{"id": "C21", "title": "Rotation to angles and back", "statement": "Extracting (omega, phi, kappa) from a rotation matrix and rebuilding the matrix is the identity for every rotation with |R[0][2]| < 1, and angles in (-pi,pi] x (-pi/2,pi/2) x (-pi,pi] are recovered exactly; at |R[0][2]| = 1 (gimbal lock) the rotation is lost.", "quantifier": "every rotation matrix", "why_tests_cant": "Continuum; the singular set has measure zero and tests miss it.", "anchors": ["orthority/param_io.py:_rotation_to_opk", "orthority/param_io.py:_opk_to_rotation"]}
{"id": "C22", "title": "OpenCV exterior conversion preserves the projection", "statement": "A frame camera set up with the position and angles converted from an OpenCV pose sees every world point at the same camera coordinates as the OpenCV pose does.", "quantifier": "every rotation (off gimbal lock), translation, reference offset and world point", "why_tests_cant": "Continuum.", "anchors": ["orthority/param_io.py:_cv_ext_to_oty_ext", "orthority/camera.py:FrameCamera._get_extrinsic", "orthority/fit.py:fit_frame_exterior"]}
{"id": "C23", "title": "Roll/pitch/yaw conversion", "statement": "For a level camera at heading yaw in a north aligned world CRS the converted angles are (0, 0, -yaw), so the camera looks straight down with image up along the heading; in general the converted angles reproduce the product of the three documented rotations whenever the CRS transform is horizontal.", "quantifier": "all yaw angles, all roll/pitch/yaw and local CRS directions off gimbal lock", "why_tests_cant": "Continuum.", "anchors": ["orthority/param_io.py:_rpy_to_opk"]}
{"id": "C24", "title": "Pixel to world to pixel is the identity (frame)", "statement": "For an initialised frame camera, projecting the world point found for a pixel at height z gives the pixel back, and the point found for the pixel of a world point at that point's height is that point; the returned height is exactly z.  Holds for every distortion model whose undistortion inverts its distortion, with and without distort. World to pixel to world is for points in front of the camera: a point behind it has the pixel of its mirror image.", "quantifier": "every camera position, orientation, interior, pixel and height off the degenerate set", "why_tests_cant": "Continuum.", "anchors": ["orthority/camera.py:FrameCamera.world_to_pixel", "orthority/camera.py:FrameCamera.pixel_to_world_z"]}
{"id": "C25", "title": "Interior parameters give the documented intrinsic matrix", "statement": "The focal length in pixels is focal_len / sensor_size * im_size per axis and the principal point is the image centre plus the normalised offset times the larger image dimension; without a sensor size the focal length is scaled by the image width only, which differs from the documented larger dimension for portrait images.", "quantifier": "all sizes, focal lengths, offsets", "why_tests_cant": "Continuum of parameters.", "anchors": ["orthority/camera.py:FrameCamera._get_intrinsic"]}
{"id": "C26", "title": "Non-finite coordinates become nodata", "statement": "Any world coordinate that is NaN (e.g. DEM nodata) gives a pixel coordinate that is outside the image, so every band of the remapped pixel is nodata and its mask is set; every pixel that maps outside the source image is nodata too.", "quantifier": "every image, grid, camera model and NaN pattern", "why_tests_cant": "NaN patterns are arbitrary.", "anchors": ["orthority/camera.py:Camera.remap", "orthority/camera.py:FrameCamera.world_to_pixel", "orthority/camera.py:RpcCamera.world_to_pixel"]}
{"id": "C27", "title": "Mask and nodata agree after remap, and dilation", "statement": "A remapped pixel is masked exactly when all its bands are nodata, also after the dilation used for undistorted images; dilation only grows the mask, by exactly the kernel neighbourhood (in an ortho the smallest kernel, of at least 3 pixels, that spans 5 source pixels), and leaves unmasked pixels unchanged.  Dilation is done per tile, so with distort=False the ortho depends on the tiling.", "quantifier": "every image, mask and kernel size", "why_tests_cant": "Masks are arbitrary 2D sets.", "anchors": ["orthority/camera.py:Camera.remap", "orthority/camera.py:FrameCamera.remap"]}
{"id": "C28", "title": "Internal mask written with per-band processing", "statement": "Without per-band processing the dataset mask is unset exactly where all bands are nodata; with per-band processing it is decided by band 1 alone; the two agree exactly when band 1 is nodata only where all bands are.", "quantifier": "every multi-band image", "why_tests_cant": "Needs pixels with valid data equal to nodata in one band.", "anchors": ["orthority/ortho.py:Ortho._remap_tile", "orthority/ortho.py:Ortho._remap"]}
{"id": "C29", "title": "RPC projection is the RPC00B rational polynomial", "statement": "world_to_pixel of an RPC camera is the RPC00B model: normalised coordinates, 20 term cubic polynomials in the standard term order, ratio, and denormalisation, for line and sample.", "quantifier": "every RPC and every world coordinate", "why_tests_cant": "Continuum; swapped terms can be invisible for small coefficients.", "anchors": ["orthority/camera.py:RpcCamera.world_to_pixel"]}
{"id": "C30", "title": "RPC shift refinement", "statement": "Refining an RPC model by shift moves every projected pixel by the mean GCP residual, leaves a zero mean residual, is exact for a single GCP, changes nothing when repeated, and does not modify the given RPC parameters. A camera factory that is refined does replace the model in the dictionary it was given.", "quantifier": "every RPC, every non-empty GCP list, every world point with non-zero denominators", "why_tests_cant": "Continuum.", "anchors": ["orthority/fit.py:refine_rpc"]}
{"id": "C31", "title": "RPC shift-drift refinement is least squares", "statement": "Refining by shift-drift maps every projected normalised pixel coordinate by one affine function per axis; residuals sum to zero and are orthogonal to the original projection; no other affine correction has a smaller sum of squared residuals.", "quantifier": "every RPC and GCP list for which the least squares solver returns a solution of the normal equations", "why_tests_cant": "Optimality over a continuum.", "anchors": ["orthority/fit.py:refine_rpc"]}
{"id": "C32", "title": "RPC refinement is visible through RpcCameras.get", "statement": "After RpcCameras.refine, get returns a camera with the refined parameters for every file requested by the name its parameters are stored under, whatever the history of earlier calls; for a file requested with an extension when parameters are stored by stem, a camera cached earlier is returned unrefined.", "quantifier": "every history of get and refine calls", "why_tests_cant": "Histories are unbounded.", "anchors": ["orthority/factory.py:RpcCameras.refine", "orthority/factory.py:RpcCameras.get"]}
{"id": "C33", "title": "FrameCameras.get returns the right camera", "statement": "get returns a camera with the interior parameters of the image's camera ID and the exterior parameters of that image, for every history of calls, or raises ParamError exactly when there are none; because cameras are shared by ID, a camera returned earlier for another image with the same ID changes to the new image's exterior parameters.", "quantifier": "every history of get calls and parameter dictionaries", "why_tests_cant": "Histories are unbounded and aliasing is invisible to single-call tests.", "anchors": ["orthority/factory.py:FrameCameras.get"]}
{"id": "C34", "title": "Undistortion maps are never stale", "statement": "For every history of alpha changes, position updates and reads, the intrinsic matrix and pixel maps used for undistortion are those of the current alpha.", "quantifier": "every history of operations on a frame camera", "why_tests_cant": "Histories are unbounded.", "anchors": ["orthority/camera.py:FrameCamera.alpha", "orthority/camera.py:FrameCamera._undistort_im", "orthority/camera.py:FrameCamera.update"]}
{"id": "C35", "title": "Alpha limits of the undistorted image", "statement": "With alpha=1 every source sampling point maps inside the undistorted image, with alpha=0 the undistorted image contains only pixels inside the inner source rectangle, alpha outside [0,1] acts as the nearest limit, and with no distortion the undistorted intrinsics equal the intrinsics for every alpha.", "quantifier": "every distortion function, image size and alpha", "why_tests_cant": "Continuum and arbitrary distortion.", "anchors": ["orthority/camera.py:FrameCamera._get_undistort_intrinsic"]}
{"id": "C36", "title": "Distortion models reduce to each other", "statement": "Brown distortion is the 5 coefficient OpenCV model and is the pinhole projection when coefficients are zero; dropping trailing zero coefficients of the OpenCV model never drops a non-zero one; the two coefficient fisheye model is the four coefficient one with zeros.  A world point on the optical axis of a fisheye camera projects to NaN.", "quantifier": "all coefficients and camera coordinates", "why_tests_cant": "Continuum; the axis is a measure zero set.", "anchors": ["orthority/camera.py:BrownCamera", "orthority/camera.py:OpenCVCamera", "orthority/camera.py:FisheyeCamera"]}
{"id": "C37", "title": "No horizon in the boundary means none in the image", "statement": "If the horizon check passes for a pinhole camera then every ray through the image points below the horizontal, so every image pixel has a finite world position in front of the camera at every height below it.", "quantifier": "every pinhole camera, pixel and height", "why_tests_cant": "Only 8 rays are checked; the claim is about all pixels.", "anchors": ["orthority/camera.py:FrameCamera._horizon_fov", "orthority/camera.py:FrameCamera.pixel_to_world_z", "orthority/camera.py:FrameCamera.world_boundary"]}
{"id": "C38", "title": "Image boundary points", "statement": "Boundary points lie on the rectangle through the centres of the corner pixels; by default they are the corners and side mid-points; with num_pts they are spread along the sides, differ in number from num_pts by at most 2, and the exact number is not always returned. For 2 points on a square image there are none, and a thin image can lose a corner.", "quantifier": "every image size and num_pts", "why_tests_cant": "Rounding behaviour over all sizes.", "anchors": ["orthority/camera.py:Camera.pixel_boundary"]}
{"id": "C39", "title": "Ray marching returns the first surface intersection", "statement": "Each boundary ray sample returned is the highest sample at or below the surface, all earlier ones being above it; samples are no more than one DEM pixel apart; rays without intersection return the lowest sample, which for a vertical ray is at the maximum height instead of the minimum.", "quantifier": "every surface, ray and height range", "why_tests_cant": "Surfaces are arbitrary.", "anchors": ["orthority/camera.py:Camera._pixel_to_world_surf"]}
{"id": "C40", "title": "Ground sampling distance preserves area", "statement": "The automatic resolution squared times the source image area in pixels is the area of its world footprint, is positive for non-degenerate footprints, and for a nadir pinhole camera over flat ground equals camera height above ground divided by the focal length in pixels.", "quantifier": "every footprint polygon; every nadir camera", "why_tests_cant": "Continuum.", "anchors": ["orthority/ortho.py:Ortho._get_gsd"]}
{"id": "C41", "title": "Pan-sharpening statistics do not depend on tiling or schedule", "statement": "Means and covariances accumulated from tiles equal the mean and unbiased covariance of all jointly valid pixels, for every tiling and every completion order. With fewer than two valid pixels nothing is raised although there is no unbiased covariance.", "quantifier": "every list of tiles, every order, every pixel data", "why_tests_cant": "Schedules and tilings cannot be enumerated.", "anchors": ["orthority/pan_sharp.py:PanSharpen._get_stats"]}
{"id": "C42", "title": "Pan-sharpening injects pan detail and nothing else", "statement": "Each sharpened band is the upsampled band plus its Gram-Schmidt gain times (normalised pan minus weighted band sum); so where the normalised pan equals the weighted sum the output is the input.", "quantifier": "every coefficient set and every pixel", "why_tests_cant": "Continuum.", "anchors": ["orthority/pan_sharp.py:PanSharpen._process_tile_array"]}
{"id": "C43", "title": "Pan normalisation matches mean and variance", "statement": "Scaled with the estimated gain and bias, the pan band has the mean and variance of the simulated pan band, and sharpening leaves the mean of each multispectral band unchanged.", "quantifier": "every data set with non-constant pan", "why_tests_cant": "Continuum.", "anchors": ["orthority/pan_sharp.py:PanSharpen._get_params"]}
{"id": "C44", "title": "Gram-Schmidt coefficients orthogonalise", "statement": "The components built from the estimated coefficients are mutually uncorrelated.", "quantifier": "every positive definite covariance matrix of any number of bands and every weights vector", "why_tests_cant": "Any number of bands.", "anchors": ["orthority/pan_sharp.py:PanSharpen._get_params"]}
{"id": "C45", "title": "Weights are non-negative and sum to one", "statement": "The multispectral weights used are non-negative and sum to one, one per band, unless all are zero; all-zero user weights are accepted and then divide by zero.", "quantifier": "every user weights list and every least squares estimate", "why_tests_cant": "Continuum.", "anchors": ["orthority/pan_sharp.py:PanSharpen._get_params", "orthority/pan_sharp.py:PanSharpen._validate_pan_ms_params"]}
{"id": "C46", "title": "Band index and weight validation", "statement": "Pan-sharpening parameters are accepted exactly when all indexes exist in the images and weights (if any) are non-negative and one per multispectral band; default indexes are the non-alpha bands.", "quantifier": "every index list, weight list and image", "why_tests_cant": "Infinite input space.", "anchors": ["orthority/pan_sharp.py:PanSharpen._validate_pan_ms_params"]}
{"id": "C47", "title": "Pan and multispectral grids", "statement": "The window of the pan image used lies inside the pan image and covers the overlap with the multispectral image; for un-georeferenced multispectral images the assigned transform gives it exactly the extent of the pan image; source and destination of each pair share one grid. A pan image that is not georeferenced leaves the sharpened image without a CRS, and pixel sizes are compared as numbers whatever the units of the two CRSs.", "quantifier": "every pair of image sizes and transforms", "why_tests_cant": "Continuum.", "anchors": ["orthority/pan_sharp.py:PanSharpen._get_vrt_profiles"]}
{"id": "C48", "title": "Fitted intrinsics survive conversion", "statement": "Camera parameters exported from a fitted OpenCV intrinsic matrix rebuild exactly that matrix in a frame camera.", "quantifier": "every intrinsic matrix and image size", "why_tests_cant": "Continuum.", "anchors": ["orthority/fit.py:_fit_frame", "orthority/camera.py:FrameCamera._get_intrinsic"]}
{"id": "C49", "title": "GCP count rules", "statement": "Fitting is refused exactly when there are fewer GCPs than the documented minimum, per image and in total; images with differing GCP counts that satisfy the minimum still fail in fit_frame. Co-planar GCPs on a slope are refused as not co-planar.", "quantifier": "every GCP dictionary and camera type", "why_tests_cant": "Infinite input space.", "anchors": ["orthority/fit.py:_fit_frame", "orthority/fit.py:fit_frame_exterior", "orthority/fit.py:refine_rpc"]}
{"id": "C50", "title": "Parameters read from images keep file order and first error", "statement": "Reading parameters from many images with threads gives the same dictionary for every completion order, in file order, later files of the same name replacing earlier ones; if some files fail the error raised is that of the first failing file in file order.", "quantifier": "every list of files and every schedule", "why_tests_cant": "Schedules cannot be enumerated.", "anchors": ["orthority/param_io.py:read_im_rpc_param", "orthority/param_io.py:read_im_gcps", "orthority/param_io.py:ExifReader"]}
{"id": "C51", "title": "Exif interior parameter precedence", "statement": "Exif interior parameters use DewarpData, else focal length with sensor size, else 35mm equivalent, else raise ParamError; DewarpData of an image at its tagged size gives exactly its pixel focal lengths and centre offsets; the interior parameters of images sharing a camera ID are those of the last one. So a zoomed image gets the focal length of a later one; and with only a 35mm equivalent focal length, a portrait image has a shorter focal length without a tagged sensor size than with one.", "quantifier": "every combination of present and absent tags", "why_tests_cant": "Tag combinations and values are unbounded.", "anchors": ["orthority/param_io.py:_read_exif_int_param", "orthority/param_io.py:ExifReader"]}
{"id": "C52", "title": "Exif position", "statement": "The position is the XMP one when all its keys are present, else the EXIF one; EXIF degrees/minutes/seconds become decimal degrees with sign by hemisphere.", "quantifier": "every tag dictionary", "why_tests_cant": "Unbounded values.", "anchors": ["orthority/exif.py:Exif"]}
{"id": "C53", "title": "Images read by ExifReader resolve to a camera", "statement": "Every exterior parameter read from image Exif or from an OpenSfM reconstruction refers to a camera ID present in the interior parameters read from the same source when the source file does so, so that get succeeds for it. IDs that only differ by a leading \"v2 \" are merged.", "quantifier": "every list of images or reconstruction", "why_tests_cant": "Arbitrary sets of IDs.", "anchors": ["orthority/param_io.py:ExifReader", "orthority/param_io.py:OsfmReader", "orthority/param_io.py:_create_exif_cam_id"]}
{"id": "C54", "title": "CSV format recognition", "statement": "The CSV format depends only on the set of field names; it is accepted exactly when filename, a full position triple and a full orientation triple are present, x/y/z taking precedence over lat/lon/alt and omega/phi/kappa over roll/pitch/yaw; unknown fields never matter.", "quantifier": "every field name list", "why_tests_cant": "Infinite input space.", "anchors": ["orthority/param_io.py:CsvReader._parse_fieldnames"]}
{"id": "C55", "title": "CSV CRS rule", "statement": "A user CRS always wins; otherwise x/y/z files use the .prj CRS if any, lat/lon/alt with roll/pitch/yaw uses the UTM zone of the mean position, and formats that need a CRS to convert raise CrsMissingError; geographic CRSs are refused. The mean of positions on either side of the 180 degree meridian is on the other side of the earth, and the .prj file of a file without an extension is looked for under a name without its last character. A dot in a directory name is also taken for the extension.", "quantifier": "every combination of format, user CRS and .prj file", "why_tests_cant": "Decision table with arbitrary CRSs.", "anchors": ["orthority/param_io.py:CsvReader._get_crs", "orthority/param_io.py:FrameReader._parse_crss"]}
{"id": "C56", "title": "Command line ortho naming and CRS", "statement": "Each source produces <stem>_ORTHO.tif in the output directory and nothing else is written, so outputs are distinct exactly when stems are, and without the overwrite option a run succeeds only for distinct stems with no output in place; an error stops the run at its source and leaves earlier outputs finished; an image without a CRS option and camera CRS gets the CRS of the first image in the command that has one, not its own. With the overwrite option, sources with the same stem replace each other's output without an error.", "quantifier": "every list of source files and CRSs", "why_tests_cant": "Lists are unbounded.", "anchors": ["orthority/cli.py:_ortho"]}
{"id": "C57", "title": "Command line option parsing", "statement": "Resolution accepts at most two values (one is square), creation options are split at the first \"=\" with keys and values lower-cased and stripped, the last of repeated keys wins, options without \"=\" are refused, the log level is INFO less one step per unit of verbosity but never below DEBUG, negative weights and band indexes outside the images are refused. The case of option values is lost.", "quantifier": "every option string", "why_tests_cant": "Infinite input space.", "anchors": ["orthority/cli.py:_resolution_cb", "orthority/cli.py:_creation_option_cb", "orthority/cli.py:_configure_logging"]}
{"id": "C58", "title": "Vector broadcasting of pixel and height inputs", "statement": "pixel_to_world_z with N pixels and N heights, one height, or one pixel gives one world point per pair, and other length combinations are rejected; the RPC camera fails for several pixels with a length-1 height array although validation accepts it.", "quantifier": "all input lengths", "why_tests_cant": "Unbounded lengths.", "anchors": ["orthority/camera.py:Camera._validate_z", "orthority/camera.py:FrameCamera.pixel_to_world_z", "orthority/camera.py:RpcCamera.pixel_to_world_z"]}
{"id": "C59", "title": "Failed orthorectification before remapping leaves no output", "statement": "If process fails on its arguments, CRS, DEM coverage or profile, the output file is neither created nor changed; once the output is opened a tile failure leaves a partial file; for pan-sharpening the output is already open when statistics are computed. A bad interpolation argument is found only after the output was opened, and so destroys an output that was to be overwritten.", "quantifier": "every failure point", "why_tests_cant": "Crash points.", "anchors": ["orthority/ortho.py:Ortho.process", "orthority/pan_sharp.py:PanSharpen.process"]}
{"id": "C60", "title": "Default remap nodata", "statement": "Remapping with an explicit nodata uses it; the documented automatic nodata (nodata omitted) raises instead.", "quantifier": "every data type", "why_tests_cant": "No test calls remap without nodata; the claim is about every type.", "anchors": ["orthority/camera.py:Camera.remap", "orthority/camera.py:FrameCamera.remap"]}
{"id": "C61", "title": "DEM window shrinks with better heights", "statement": "For a pinhole camera below which the terrain lies, the DEM window found for the actual height range is contained in the window found for the conservative range, so the second crop never leaves the pixels that were read. This is for terrain no lower than the conservative range: land below it (e.g. the Dead Sea) gives a second window that is larger than the first, of which only the first was read.", "quantifier": "every pinhole camera and nested height ranges", "why_tests_cant": "Continuum.", "anchors": ["orthority/ortho.py:Ortho._get_init_dem"]}
{"id": "C62", "title": "Sharpened validity", "statement": "A sharpened pixel holds data exactly when the pan and all multispectral bands are valid there, otherwise nodata; but without an internal mask a valid pixel that saturates at the nodata value is indistinguishable from nodata.", "quantifier": "every pixel and type", "why_tests_cant": "Value space is unbounded.", "anchors": ["orthority/pan_sharp.py:PanSharpen._process_tile"]}
{"id": "C63", "title": "Interior parameter files are read into usable cameras", "statement": "Whatever document an Orthority interior parameter file holds, if read_oty_int_param returns, every camera it returns has a frame camera type, an image size tuple and a focal length, and otherwise only optional parameters its type supports.  A file that is not read is not always reported as a ParamError: other exceptions leave the reader for some malformed documents.", "quantifier": "every YAML document", "why_tests_cant": "The space of documents is unbounded.", "anchors": ["orthority/param_io.py:read_oty_int_param"]}
{"id": "C64", "title": "Undistorted image and undistorted model agree", "statement": "With distort=False, the source pixel from which the undistorted image takes the value of a pixel is the pixel that the distorted camera model projects the same world point to.", "quantifier": "every lens, undistorted intrinsic matrix, pose and world point in front of or behind the camera", "why_tests_cant": "Continuum of points, and arbitrary distortion.", "anchors": ["orthority/camera.py:FrameCamera._undistort_im", "orthority/camera.py:FrameCamera.world_to_pixel", "orthority/camera.py:BrownCamera._get_undistort_maps", "orthority/camera.py:FisheyeCamera._get_undistort_maps"]}
{"id": "C65", "title": "Fitted poses project as OpenCV projects", "statement": "A camera made from fitted exterior parameters sees every world point at the pixel where OpenCV projects it with the pose and camera it fitted, so that residuals of the fit are those of the camera; each image gets its own parameters. For fisheye cameras exterior fitting gives the coefficients to a solver of a different model and this fails.", "quantifier": "every camera type, GCP dictionary, solver result and world point", "why_tests_cant": "Continuum of poses and points; the solver result is not controllable in a test.", "anchors": ["orthority/fit.py:fit_frame_exterior", "orthority/fit.py:_fit_frame", "orthority/param_io.py:_cv_ext_to_oty_ext"]}
{"id": "C66", "title": "Ground control points read from image tags are the image's own", "statement": "The ground control points read from an image keep the image's order, column and row (as x, y pixel coordinates), ID and info; their positions are the tagged ones when they are already in the standard geographic CRS, and their transformed values otherwise; an image without any is a ParamError.", "quantifier": "every image, number of ground control points, CRS and transformation", "why_tests_cant": "Tests read a few images with a fixed set of points; order and pairing must hold for any number of points and any CRS.", "anchors": ["orthority/param_io.py:read_im_gcps"]}
{"id": "C67", "title": "CSV rows", "statement": "Every row of a CSV file gives the pose under its columns for its file's base name, in the format of the file, with angles in degrees converted to radians, and the camera ID if there is one; the last row of a base name is kept, so images with the same name in different directories replace each other, and a recognised column that the format does not use still has to hold numbers.", "quantifier": "every column order, row list and format", "why_tests_cant": "Unbounded tables and column orders.", "anchors": ["orthority/param_io.py:CsvReader.read_ext_param", "orthority/param_io.py:CsvReader._convert"]}
{"id": "C68", "title": "Legacy command outputs", "statement": "The legacy command orthorectifies each image with the position and orientation of its stem, and writes <stem>_ORTHO.tif in the given directory, or (contrary to its help) in the directory of the first image for all images; verbosity 1 to 4 is DEBUG to ERROR.", "quantifier": "every list of images, pose table and directory option", "why_tests_cant": "Unbounded lists over several directories.", "anchors": ["orthority/cli.py:_simple_ortho"]}
{"id": "C69", "title": "Remapping only takes grids of one shape", "statement": "Remapping an image with x, y and z grids of different shapes raises ValueError; with grids of one shape it gives one array per band and a mask, all of that shape.", "quantifier": "every image, camera and grid shapes", "why_tests_cant": "Tests use a few shapes.", "anchors": ["orthority/camera.py:Camera.remap"]}
{"id": "C70", "title": "An ortho image shows the source image on the surface, pixel by pixel", "statement": "An ortho image that process() writes is in the world CRS, with pixels of the requested size (the ground sampling distance by default), the bands and colour interpretation of the source and the requested data type. Every pixel of every band is the source image, interpolated where the camera sees the centre of the pixel at the height of the (reprojected) DEM there, or nodata where the DEM has no data or is outside of the image boundary. No DEM pixel inside the image boundary is left out. This does not depend on block size, threads, or per_band. When nodata is dilated (undistorted source, integer type), pixels outside are still nodata. A dataset is made exactly when the pixel size fits the DEM, some of the image is on the DEM and the output format is allowed.", "quantifier": "every camera, DEM, CRS, resolution, interpolation, data type, block size and schedule of the tile tasks", "why_tests_cant": "Tests compare a few ortho images with a tolerance; the claim is about every pixel for every DEM, camera and schedule.", "anchors": ["orthority/ortho.py:Ortho.process", "orthority/ortho.py:Ortho._reproject_dem", "orthority/ortho.py:Ortho._mask_dem", "orthority/ortho.py:Ortho._remap"]}
{"id": "C71", "title": "World CRS, resolution and coverage errors of an ortho", "statement": "The world CRS is the one given, or that of the source image; if neither exists the error is CrsMissingError, which has no other cause. A pixel size larger than the DEM, and an image without any part on the DEM, are Orthority errors; an unknown DEM interpolation is a ValueError. All are raised before a file is made.", "quantifier": "every crs argument, source image, DEM, camera and process argument", "why_tests_cant": "Tests use one example of each error; the claim says which inputs cause which error and that no others do.", "anchors": ["orthority/ortho.py:Ortho.__init__", "orthority/ortho.py:Ortho._parse_crs", "orthority/ortho.py:Ortho._reproject_dem", "orthority/errors.py"]}
{"id": "C72", "title": "Calls to process on one Ortho object don't affect each other", "statement": "Any sequence of process() calls on one Ortho object, with any arguments and whether or not they fail, gives what each call gives on a new object, although each call masks its DEM array in place.", "quantifier": "every sequence of calls and their arguments", "why_tests_cant": "Tests make one or two calls per object; the claim is about every call history.", "anchors": ["orthority/ortho.py:Ortho.process", "orthority/ortho.py:Ortho._reproject_dem", "orthority/ortho.py:Ortho._mask_dem"]}
{"id": "C73", "title": "The pan-sharpened image is on the pan grid with the chosen bands", "statement": "The output of PanSharpen.process has the CRS of the pan image and a grid that is a part of the pan image's pixel grid (the pan image's size when either image is not georeferenced). It has one band for each chosen multispectral band in the order chosen, with its colour interpretation, and the data type asked for or by default that of the multispectral image.", "quantifier": "every pair of north-up images, band choice and data type", "why_tests_cant": "Tests use one pair of images with aligned extents; the claim covers all overlaps and band choices.", "anchors": ["orthority/pan_sharp.py:PanSharpen.process", "orthority/pan_sharp.py:PanSharpen._get_vrt_profiles"]}
{"id": "C74", "title": "Every pixel of the pan-sharpened image is the Gram-Schmidt value for the statistics of the whole images", "statement": "When PanSharpen.process succeeds, each output pixel where the pan and all chosen bands have values holds, in each band, the multispectral value plus the pan detail (pan matched to the mean and standard deviation of the simulated pan, less the simulated pan) in proportion to the regression of the band on the simulated pan, rounded and clipped to the output type. All statistics are those of all common pixels, not of tiles. Every other pixel holds the fill value, and a written mask tells the two apart. Thread order, tile size and file block shape play no part.", "quantifier": "all images, weights, band choices, thread schedules and block shapes; for data with linearly independent bands and a pan that varies", "why_tests_cant": "Tests compare statistics of small images in one tile; the claim covers any number of tiles, in any order.", "anchors": ["orthority/pan_sharp.py:PanSharpen.process", "orthority/pan_sharp.py:PanSharpen._process_tile", "orthority/pan_sharp.py:PanSharpen._get_stats"]}
{"id": "C75", "title": "When pan-sharpening succeeds, and that threads can't change its result", "statement": "PanSharpen.process creates its output exactly when the grids match and the interpolation, band indexes, weights, data type, compression and driver are valid. After that it succeeds exactly when no tile task fails, and raises a RuntimeError otherwise. The file left and the result are the same for all orders in which tasks complete, failed or not.", "quantifier": "all arguments, sets of failing tasks and completion orders", "why_tests_cant": "The schedules and failures can't be enumerated by tests.", "anchors": ["orthority/pan_sharp.py:PanSharpen.process", "orthority/pan_sharp.py:PanSharpen._validate_params", "orthority/pan_sharp.py:PanSharpen._get_stats"]}
{"id": "C76", "title": "What the tags of an image mean", "statement": "The sensor size read from an image is its pixel size over the focal plane resolution, in mm for each unit EXIF defines, and unknown without one of the tags or for other units. The make, model, serial number, focal lengths and tagged image size are those of their tags. Roll, pitch and yaw come from DJI, else senseFly, else Pix4D tags; with none, reading exterior parameters fails with a ParamError. Dewarp values are the comma separated numbers after the date. The camera is named by its given make, model and serial number. The exterior parameters of an image file are its own position and angles transformed to the world CRS, and reading succeeds exactly when every image has both.", "quantifier": "all image tags, XMP documents, number parsers and lists of images", "why_tests_cant": "Tests read the tags of a few image files; wrong units, missing tags and repeated file names need other files.", "anchors": ["orthority/exif.py:Exif", "orthority/param_io.py:_read_exif_ext_param", "orthority/param_io.py:_create_exif_cam_id", "orthority/param_io.py:ExifReader.read_ext_param"]}
{"id": "C77", "title": "What the cameras and shots of an OpenSfM reconstruction mean", "statement": "Each camera of a reconstruction gives the interior parameters of its ID without any 'v2 ' prefix: the camera type of its projection type, its width and height, its focal length (or both, if they differ), its principal point, and the distortion coefficients its type supports, unchanged; nothing else. A camera can be read exactly when it has a known projection type, a size, a focal length and no unsupported keys. The exterior parameters are exactly those of the shots: each image has the pose of its own shot, and its own camera. A \"cx\" or \"cy\" takes the place of \"c_x\" or \"c_y\", and projection types that are not text raise AttributeError.", "quantifier": "all reconstructions", "why_tests_cant": "Tests read one reconstruction with one camera; projection types, key combinations and several cameras are not enumerable.", "anchors": ["orthority/param_io.py:_read_osfm_int_param", "orthority/param_io.py:OsfmReader", "orthority/enums.py:CameraType.from_odm"]}
{"id": "C78", "title": "Nothing is left open, and the caller's objects are left alone", "statement": "Any call that reads or writes files (reading an image with a camera, making and running an orthorectification or a pan-sharpening, reading or writing parameter files, and the commands built on them) closes every file, dataset, warped dataset and thread pool that it opened and waits for every task it started, whether it returns or raises, at whichever operation the failure occurs. Datasets and file objects that the caller passed in are open or closed afterwards exactly as before. No dataset is closed while a worker task may still use it. Known exceptions: a file on a file system that GDAL does not read itself stays open if GDAL fails to open its content, and 'oty sharpen' leaves the panchromatic image open if the multispectral one cannot be opened.", "quantifier": "every call, every file argument, every set of handles and tasks the caller has, every operation that fails, and every history of calls", "why_tests_cant": "A test exercises a few failure points; the claim is about a failure at any operation of any call, with any nesting of exit stacks and any number of tiles and tasks.", "anchors": ["orthority/common.py:OpenRaster", "orthority/common.py:Open", "orthority/ortho.py:Ortho.process", "orthority/ortho.py:Ortho._remap", "orthority/pan_sharp.py:PanSharpen.process", "orthority/pan_sharp.py:PanSharpen._get_stats", "orthority/camera.py:Camera.read", "orthority/param_io.py:read_im_rpc_param", "orthority/cli.py:_ortho", "orthority/cli.py:sharpen"]}
{"id": "C79", "title": "A factory holds what its arguments say", "statement": "FrameCameras(int_param, ext_param, io_kwargs) succeeds exactly when both arguments can be read, and then holds the interior parameters of the interior argument (or, when both arguments are the same OpenSfM file or the interior ones are empty, those of the OpenSfM exterior file), the exterior parameters of the exterior argument, and the CRS of the exterior file or else of the 'crs' option. Each file is read with the reader for its extension, in upper or lower case, and an already open file object given for both is read once. Other extensions are a ParamError. RpcCameras.refine uses the GCPs of its images, file or dictionary. (Refuted parts: no option, not even crs, is used with an Orthority exterior file; empty interior parameters with a CSV or Orthority exterior file, and an empty list of GCP images, raise AttributeError.)", "quantifier": "all interior and exterior arguments (paths, OpenFile objects, file objects, dictionaries), options, file systems, and file contents", "why_tests_cant": "tests load a few of the combinations of formats, letter cases, object identities and CRS options; the rule must hold for every combination and file content", "anchors": ["orthority/factory.py:FrameCameras.__init__", "orthority/factory.py:FrameCameras._read_param", "orthority/factory.py:RpcCameras.refine", "orthority/common.py:get_filename"]}
{"id": "C80", "title": "Exported parameters give the same cameras when they are loaded", "statement": "A camera factory made from the files that write_param() of another factory wrote has the same parameters and CRS, whatever the reader options, and gives the same camera for every request of every history of get() calls. For RPC factories the RPC parameters and the GCPs they were refined with both come back, and no GCP file is written when there are no GCPs.", "quantifier": "all valid non-empty parameter dictionaries, directories, file systems, overwrite settings, text encoders that give back what they were given, and histories of requests", "why_tests_cant": "the composition of two writers, the extension dispatch and two readers must be the identity for every parameter set, not only for the few in test fixtures", "anchors": ["orthority/factory.py:FrameCameras.write_param", "orthority/factory.py:RpcCameras.write_param", "orthority/factory.py:FrameCameras._read_param", "orthority/param_io.py:write_int_param", "orthority/param_io.py:write_ext_param"]}
{"id": "C81", "title": "Factories do not affect each other", "statement": "Calls on one RPC factory never change what another one gives, whatever the history of calls, when their parameter dictionaries are distinct objects; and FrameCameras.from_images leaves the caller's options dictionary as it is when it is absent, empty or has a CRS. (Refuted parts: a non-empty options dictionary without a CRS gets that of the first images, and the next factory made with it uses that CRS for images anywhere; refining changes the dictionaries the factory was made from, so two factories made from one dictionary and refined once each have their models refined twice.)", "quantifier": "all histories of get and refine calls on any number of factories, all parameter dictionaries, GCPs, options and readers that use the CRS they are given", "why_tests_cant": "aliasing shows only in particular histories over several factories; tests use each factory on its own", "anchors": ["orthority/factory.py:FrameCameras.from_images", "orthority/factory.py:RpcCameras.refine", "orthority/factory.py:RpcCameras.get"]}
{"id": "C82", "title": "Ortho images are made in the CRS of the camera positions", "statement": "After a successful run of 'oty frame', 'oty exif', 'oty odm' or 'oty rpc', every source image was orthorectified with the camera that its own file name selects, and in the CRS that the camera positions (or RPC coordinates) are in; the ortho image is at the output path named after the source. (Refuted parts: 'oty frame --crs X' with a '.geojson' exterior file makes ortho images in X with camera positions in the CRS of the file; 'oty odm' with a DSM that has no CRS, and no option, places cameras in the CRS found for the reconstruction and makes ortho images in the CRS of the first source.)", "quantifier": "all parameter files, CRS options, sources, DEMs, and readers that use the CRS option they are given", "why_tests_cant": "the CRS is passed along two separate routes, and a mismatch shows only for some combinations of file type, options and image metadata; outputs then look right but are misplaced", "anchors": ["orthority/cli.py:frame", "orthority/cli.py:exif", "orthority/cli.py:odm", "orthority/cli.py:rpc", "orthority/cli.py:_ortho"]}
{"id": "C83", "title": "Commands report user errors", "statement": "A missing file, or bad camera parameters or CRS, met while the commands read parameters and make cameras, is reported as a click usage, parameter or missing parameter error, and changes no file; the only Orthority and missing file errors that escape are those raised while opening the DEM or a source (for reasons other than a missing file), by a missing file inside a camera or the processing of an image, or by the export of parameters. 'oty sharpen' succeeds just when its inputs open, its band indexes exist and processing succeeds, and an existing output file is a click error. (Refuted part: exporting parameters whose CRS is not projected is a raw CrsError, after the interior parameter file was written.)", "quantifier": "all parameter files, options, sources, file systems, readers and failures of processing", "why_tests_cant": "each error can be raised at many points of a run, with every state of the file system; tests try a few of them", "anchors": ["orthority/cli.py:frame", "orthority/cli.py:exif", "orthority/cli.py:odm", "orthority/cli.py:rpc", "orthority/cli.py:sharpen", "orthority/cli.py:_ortho"]}
{"id": "C84", "title": "CRS, folder, source and GCP options", "statement": "A CRS option is the CRS of an image (with a .tif or .tiff extension in any case), of a text file or URI, or of the text itself, and is refused otherwise; '--lla-crs' has to be geographic. Source arguments give at least one file. A folder option is a folder, whatever slashes it ends with; 'oty odm' has a default one in the dataset. '--gcp-refine' is 'tags' in any case, or a file. (Refuted parts: '--crs' with an image that has no CRS is ignored and '--lla-crs' with one is an AttributeError; a CRS text that the file system cannot test as a path is refused; the root folder is taken as the empty path.)", "quantifier": "all option texts, file systems and CRS parsers", "why_tests_cant": "option texts are any strings, and what they mean depends on the file system", "anchors": ["orthority/cli.py:_read_crs", "orthority/cli.py:_crs_cb", "orthority/cli.py:_lla_crs_cb", "orthority/cli.py:_src_files_cb", "orthority/cli.py:_dir_cb", "orthority/cli.py:_odm_out_dir_cb", "orthority/cli.py:_gcp_refine_cb"]}
{"id": "C85", "title": "Commands write only their outputs and keep existing files", "statement": "Whatever happens, including when it fails part way, each command writes no file but its outputs: with --export-params the parameter files in the output directory, otherwise the ortho images of the source files (or the one pan-sharpened image). It deletes no file, and without --overwrite it changes no file that was there before.", "quantifier": "every command line, set of files and file contents, and every point at which reading, camera creation or writing fails", "why_tests_cant": "Tests look at the files they expect and at a few failures; that nothing else is touched must hold for every failure point, name and mix of existing files.", "anchors": ["orthority/cli.py: frame, exif, odm, rpc, sharpen, _ortho", "orthority/ortho.py: Ortho.process", "orthority/pan_sharp.py: PanSharpen.process", "orthority/utils.py: OpenRaster", "orthority/param_io.py: write_int_param, write_ext_param, write_rpc_param, write_gcps"]}
{"id": "C86", "title": "Exported parameters are those that were read", "statement": "With --export-params, 'oty frame', 'oty exif' and 'oty odm' succeed exactly when their parameters can be read and written, and what they write are the interior and exterior parameters that were read together with the CRS these are in; 'oty rpc' writes its RPC models as refined with the GCPs, and the GCPs themselves. The DEM, its band and the ortho options play no part.", "quantifier": "every set of parameter files, CRS options, source files and output files", "why_tests_cant": "Tests compare the exported files of one dataset; that the exported parameters are the ones that orthorectification would use must hold for every file and CRS option.", "anchors": ["orthority/cli.py: _ortho, frame, exif, odm, rpc", "orthority/factory.py: FrameCameras.write_param, RpcCameras.write_param"]}
{"id": "C87", "title": "A frame camera behaves as a new one with its last settings", "statement": "After any sequence of calls on a frame camera (update, setting alpha or distort, projections, boundaries, reads, remaps, whether they succeed or raise), every call gives what it would give on a newly created camera with the last alpha, the last distort and the last accepted exterior parameters; exterior parameters of wrong length are a ValueError and leave the camera as it was. The position is that of the exterior parameters, or None when one of them is missing. A camera without exterior parameters raises CameraInitError from world_to_pixel, pixel_to_world_z and world_boundary whatever their arguments, and never remaps an image; one with them never raises it. Image boundaries and reading do not depend on the exterior parameters.", "quantifier": "every frame camera, every finite sequence of calls with any arguments, and every call after it", "why_tests_cant": "Cached undistortion maps and intrinsics can go stale after some order of property changes, updates and reads; tests try one or two orders.", "anchors": ["orthority/camera.py: FrameCamera.__init__, update, alpha, distort, pos, _test_init, _get_extrinsic, _get_undistort_maps, _undistort_im"]}
{"id": "C88", "title": "Camera calls accept exactly the arrays they document", "statement": "world_to_pixel accepts exactly 3-by-N float64 arrays and pixel_to_world_z exactly 2-by-N arrays with heights that broadcast with them; each output column is what the column gives on its own, and everything else is a ValueError. remap accepts exactly images of an OpenCV data type with sides up to 32767 and float grids of one shape, and gives one band per image band and a mask in the grid's shape; everything else is a ValueError. Refuted parts: images with a side of exactly 32767 pass this check but are OpenCV's own error, as are grids with a side of 32767 or more and empty grids; and an image size with more than two values is accepted (its further values are ignored), although a check for that is there.", "quantifier": "every camera with exterior parameters, every array type, shape and contents", "why_tests_cant": "Tests pass a few wrong shapes and types; that no other array slips through, and that the limits of OpenCV are caught beforehand, ranges over all of them.", "anchors": ["orthority/camera.py: Camera._validate_world_coords, _validate_pixel_coords, _validate_z, _validate_image, remap; FrameCamera.world_to_pixel, pixel_to_world_z, remap, _get_intrinsic"]}
{"id": "C89", "title": "World boundary on a surface", "statement": "world_boundary of a frame camera with a floating point surface and an interpolation type gives one point for each image boundary pixel, in order, on the ray of that pixel and between the surface's minimum and its maximum (the camera's height, if clipped and lower): the first of the ray's samples that is under the surface, or the lowest if there is none. It is an OrthorityError when the camera sees the horizon, and a ValueError when the heights are neither a number nor a 2D array, the transform is missing, the surface has no values or is above the camera. For one height it is the projection of the boundary pixels to that height (or the camera's). Refuted parts: for an integer surface, boundary points outside it are not at its minimum, but at its maximum when that is not above the integer that NaN is converted to; a ray of more than 32765 surface pixels is OpenCV's own error, since the limit on the number of samples is too large; and an interpolation given by name, as documented, is an AttributeError.", "quantifier": "every camera, surface, transform, interpolation, number of points and clip option", "why_tests_cant": "The intersection depends on the whole surface and ray; tests use smooth float surfaces that are larger than the footprint.", "anchors": ["orthority/camera.py: Camera.world_boundary, _pixel_to_world_surf; FrameCamera.world_boundary, _horizon_fov, pixel_boundary"]}
{"id": "C90", "title": "Reading images through a frame camera", "statement": "With distort, read gives the bands asked for in the order asked for (all of them by default), converted to the data type asked for (by default that of the first band); a band the file does not have is an IndexError. Without distort, after any history of calls, each output pixel is the distorted image at the pixel where the distorted camera images what the undistorted one images there, or nodata outside of the image; a pinhole camera gives the image as it is, and images OpenCV can not take are a ValueError. Refuted parts: without distort the default nodata, documented as chosen by the data type, is a KeyError; and an image that does not have the size of the camera is not refused, but comes back as nodata only.", "quantifier": "every camera, history of calls, image file, band selection, data type, nodata and interpolation", "why_tests_cant": "Tests read one image with its own camera, with nodata given; wrong maps after changes of alpha, other sizes and defaults are not met.", "anchors": ["orthority/camera.py: Camera.read, FrameCamera.read, FrameCamera._undistort_im, _get_undistort_maps"]}
{"id": "C91", "title": "Frame cameras project by the parameters they are made with", "statement": "world_to_pixel of a frame camera gives, for every world point, the pixel of the collinearity equations with the position, angles (omega, phi, kappa in that order), focal length, sensor size, principal point and image size (width, height) the camera was made with: through the distortion of its class, or as an ideal pinhole with its undistorted intrinsics when distort is off; a Brown camera follows the OpenCV model. Points level with the camera and NaN coordinates give NaN. pixel_to_world_z gives the point at the asked height on the ray of the pixel under the same model, and no point when the ray is level.", "quantifier": "every set of constructor arguments of every camera class, every world point, pixel and height", "why_tests_cant": "Tests compare projections with the same code's inverse or with a few stored values; that every argument enters the equations in its right place must hold for all values.", "anchors": ["orthority/camera.py: FrameCamera.__init__, _get_intrinsic, _get_extrinsic, world_to_pixel, pixel_to_world_z; BrownCamera._camera_to_pixel"]}
{"id": "C92", "title": "Contents of remapped images", "statement": "After any history of calls, each pixel of an image remapped by a frame camera is the source image interpolated where the camera sees that grid point, or nodata where OpenCV has no value there; the mask is true exactly where no band has a value. When the image may have been blurred with nodata (camera without distort that is not a pinhole, interpolation other than nearest, nodata not NaN) pixels with such a place under the kernel centred on them are nodata and masked too, and no others are changed. Refuted part: the default nodata, documented as chosen by the data type, is a KeyError for every usable image and grid.", "quantifier": "every camera, history of calls, image, grids, nodata value, interpolation and kernel size", "why_tests_cant": "Tests remap one image on a regular grid; the rule for each pixel, with NaN and unseen points and any kernel, ranges over all inputs.", "anchors": ["orthority/camera.py: Camera.remap, FrameCamera.remap"]}
{"id": "C93", "title": "RPC cameras: construction and projection of arrays", "statement": "An RPC camera is made from an RPC object or from a dictionary that has all the RPC parameters and no unknown names (otherwise TypeError); its CRS is the one asked for, which must keep ellipsoidal heights 0 and 1 at the centre of the model (otherwise OrthorityError), or the geographic CRS of RPC coordinates. Each column of world_to_pixel is the RPC00B pixel of that column's own point, transformed from the camera's CRS; a point with a NaN gives a NaN pixel, and does not affect any other column. Each column of pixel_to_world_z is the position of its own pixel and height, in the camera's CRS, and NaN when one of them is NaN. Projecting pixels to the world and back gives the pixels, wherever GDAL's position of a pixel is seen at it and its CRS transforms are inverses. Refuted part: heights given as an array of an integer type are a ValueError, even when they are as many as the pixels, and an array of one height for several pixels is an IndexError, although both are documented.", "quantifier": "every RPC model, CRS, array of points or pixels, with NaNs anywhere, and every height argument", "why_tests_cant": "Tests project a few points with one RPC model; the placement of results around removed NaN columns must hold for every pattern of NaNs, and the round trip for every model.", "anchors": ["orthority/camera.py: RpcCamera"]}
{"id": "C94", "title": "Boundary and remapping of RPC cameras, and GCP cameras", "statement": "The world boundary of an RPC camera at a height is pixel_to_world_z of the pixel boundary of its image. On a surface, each boundary point lies on the (not necessarily straight) ray of its boundary pixel, between the lowest and highest value of the surface, and is the first of a number of samples, at least as many steps as the ends of the ray are surface pixels apart, that is at or below the surface, or the last one if there is none. Each pixel of an image remapped by an RPC camera is the source image interpolated where the RPC model sees that grid point (at its row and column of the grid), or nodata; the mask is true exactly where all bands are nodata. A GCP camera keeps the GCP objects it is given, and projecting pixels to the world and back gives the pixels where GDAL's GCP transforms are inverses. Refuted part: GCPs given as dictionaries, which is documented, are always a ValueError.", "quantifier": "every RPC or GCP camera, height or surface, image, grid, nodata value and interpolation", "why_tests_cant": "Tests have one surface, one image and one grid; the order of grid cells in the flattened arrays, NaNs and rays that are not straight range over all inputs. The GCP camera has no tests.", "anchors": ["orthority/camera.py: Camera.world_boundary, Camera._pixel_to_world_surf, Camera.remap, RpcCamera, GcpCamera"]}
{"id": "C95", "title": "Cameras made from named parameters", "statement": "create_camera with a type (the enumeration member or its name) and named parameters makes a frame camera whose world_to_pixel, after any history of calls on it, gives each point the pixel that these parameters describe: the point seen from the last pose, distorted by the lens model of the type with the coefficients given by name (those not given being zero, whichever subset is given), with focal lengths and principal point in pixels from the image size, focal length (number or pair), sensor size and principal point offsets; points beside the camera give NaN; without distortion it is a pinhole camera: for the pinhole type the one described, for others the one between the rectangle with image data everywhere (alpha 0) and that with all image data (alpha 1) for the last alpha. An RPC type with an RPC dictionary makes the RPC camera with those parameters and the CRS asked for. A missing or unknown type, a name the type does not have, or a missing image size, focal length or RPC is a TypeError (ValueError for the unknown type), as is a name that is both a parameter and an option.", "quantifier": "every camera type, set and order of named parameters, number format (integer or float, list or tuple) and history of calls", "why_tests_cant": "Tests make one camera per type with one set of parameters; which coefficient ends in which place of the lens model, for each subset of optional names, ranges over exponentially many dictionaries.", "anchors": ["orthority/camera.py: create_camera, FrameCamera, OpenCVCamera, BrownCamera, FisheyeCamera, RpcCamera"]}
{"id": "C96", "title": "From parameter files to pixels", "statement": "For interior and exterior parameters in orthority format, and any file name that has a shot (with its name, or else its name without extension), the camera that get() returns images world points, with distortion on, by that shot's own pose and the lens parameters of the shot's camera ID (or of the only camera, for a shot without ID): its world_to_pixel gives the pixel that the numbers of the two documents describe, and NaN for points beside the camera. This holds whatever images were asked for before and whatever calls were made on their cameras, and lasts through later calls until another image with the same camera ID is asked for or this camera is updated (camera objects are shared by camera ID). All forms of the interior document are covered: cameras by ID, one camera with or without a name, and the old format with a 'camera' section.", "quantifier": "every pair of documents, camera options, file name, world point, and history of get() and camera calls before and after", "why_tests_cant": "Tests read a few fixed files and check parameters, not pixels; that no history of requests on shared cameras mixes poses or lenses ranges over unbounded histories and documents.", "anchors": ["orthority/factory.py: FrameCameras.__init__, FrameCameras.get", "orthority/param_io.py: read_oty_int_param, OtyReader", "orthority/camera.py: create_camera, FrameCamera.update, FrameCamera.world_to_pixel"]}
{"id": "C97", "title": "Legacy command from its files to pixels", "statement": "For every image that the legacy command orthorectifies, whether or not the run ends well, the camera handed to Ortho images world points, throughout that image's orthorectification, by the lens and size of the camera section of the configuration and by the pose of the last row of the pose file whose name is the stem of the image, with angles taken in degrees; with full_remap off, by the undistorted intrinsics for the configured alpha. The one camera object is moved from image to image, and nothing of an earlier image is left in it. CRS and DEM band are those configured (none and 1 by default); the options of process() are exactly the remaining settings, with 'cubic_spline' replaced by 'cubic' and the outdated ones left out; the size warning is given exactly for images that do not have the configured size; outputs are in the given folder or, without one, in that of the first image. A run that ends well has orthorectified the files that match, in order, one call for each match; one that fails has done so up to some file. It ends well whenever the files are there, every file that matches has a row and can be opened, and orthorectification succeeds. Refuted part: outputs in the folder of the images can match a later pattern, are then taken for images, and the run fails (C97_own_outputs_refuted); an ortho section that is there but empty is an AttributeError, not the defaults (C97_empty_section_refuted).", "quantifier": "every configuration document, pose file, list of patterns, file system answer and failure of orthorectification", "why_tests_cant": "Tests run one configuration and image; that each image gets its own pose from a shared camera, under any configuration and order of files and after any failure, ranges over unbounded inputs.", "anchors": ["orthority/cli.py: _simple_ortho", "orthority/camera.py: create_camera, FrameCamera.update, FrameCamera.world_to_pixel"]}
{"id": "C98", "title": "Legacy command refuses bad inputs before it writes", "statement": "When the configuration file is missing, or the DEM, the pose file or any file for one of the patterns is, the legacy command fails without orthorectifying an image, making a folder or writing a file. When a row of the pose file (other than an empty one) is too short or has a value that is not a number, it fails without orthorectifying any image, even if no image goes with that row. With the option to write the configuration it writes the configuration it read to that file and does nothing else, whatever the other arguments. A folder is made only if it was given, does not exist, and all inputs are there. When orthorectification of an image fails, the run fails with the same error and no later image is processed.", "quantifier": "every argument, file system answer, pose file and failure of orthorectification", "why_tests_cant": "Tests cover single failures; no sequence of checks and actions may act before a check fails, for any combination of inputs.", "anchors": ["orthority/cli.py: _simple_ortho"]}
{"id": "C99", "title": "Interior and exterior parameter files to ortho pixels", "statement": "For an image whose camera and pose are read from an interior and an exterior parameter file, with distortion kept (the default), after any history of other cameras being got and used: an ortho object made with a DEM holds exactly a part of the DEM band, which (for a north-up DEM) has every DEM cell under the box of the image boundary at the lowest and highest DEM heights, and its default resolution makes as many pixels as are inside of the boundary of an image of more than one row and column cover the area of the boundary at the median DEM height; with a DEM that lies under the image, the object is made and has all of the DEM; when some cell of the surface is inside of the image outline and the image can be read and written, an ortho dataset is made, of a size and profile that do not depend on how tiles are scheduled; and for every schedule of tiles, each pixel of the dataset is the image band interpolated at the pixel where a camera with exactly the parameters in the files sees the centre of the ortho pixel at the DEM height, and nodata outside of the outline, where there is no height, or where the camera sees nothing; the dataset has all cells of the surface inside of the outline. Without a CRS, a valid DEM band, a camera pose, or a DEM under the image, the documented errors are raised.", "quantifier": "All interior and exterior documents, shots, camera types and parameters, request histories, DEMs, images, ortho arguments, tile schedules and block shapes; all pixels of the result.", "why_tests_cant": "Tests compare a few rectified images with references; they cannot relate every output pixel to the numbers in the parameter files, for every DEM, schedule and history.", "anchors": ["orthority/ortho.py:Ortho.__init__", "orthority/ortho.py:Ortho.process", "orthority/ortho.py:Ortho._get_init_dem", "orthority/ortho.py:Ortho._get_gsd", "orthority/factory.py:FrameCameras", "orthority/param_io.py", "orthority/camera.py:FrameCamera"]}
{"id": "C100", "title": "RPC parameter file to ortho pixels", "statement": "For an image whose RPC model is read from an RPC parameter file, after any history of other cameras being got, with or without a CRS for the camera: the camera that is got has the size and RPC model in the file; an ortho object made with it has the part of the DEM under the image and the default resolution as for C99; with a DEM under the image the object is made with all of it; where an ortho can be made it is; and for every schedule of tiles each pixel of the dataset is the image band interpolated at the pixel that the RPC model in the file has for the centre of the ortho pixel at the DEM height (transformed from the camera's CRS to WGS84 if there is one), or nodata. Without a valid DEM band or a DEM under the image the documented error is raised. An image that is in the file neither under its name nor its name without extension has no camera: ParamError is raised and the factory is unchanged.", "quantifier": "All RPC parameter documents as the library writes them, image names, request histories, camera CRSs, DEMs, images, ortho arguments, tile schedules and block shapes; all pixels of the result.", "why_tests_cant": "Tests rectify one RPC image; they cannot relate every output pixel to the coefficients in the file for every model, DEM and schedule.", "anchors": ["orthority/factory.py:RpcCameras.get", "orthority/param_io.py:read_oty_rpc", "orthority/camera.py:RpcCamera", "orthority/ortho.py:Ortho.process"]}
{"id": "C101", "title": "Reader of tagged images and its world CRS", "statement": "Making an ExifReader of any list of image files ends, for every schedule of its threads, with the same outcome: a CRS argument that is not a CRS, not projected (crs) or not geographic (lla_crs) is a CrsError; else the first file that cannot be read is its error; else the reader has the tags of every file by name, and the world CRS is the one asked for, or without one that of the UTM zone (6 degree zones from 180 W, 326xx north and 327xx south) of the mean position, and ParamError if an image has no position. The CRSs do not depend on the order of the files, and images all in one zone and hemisphere get that zone. Refuted part: images either side of the 180 degree meridian get the CRS of zone 31, on the other side of the earth.", "quantifier": "All lists of files, tags, CRS arguments, thread schedules and orders of the files.", "why_tests_cant": "Tests read a few images of one place in one order; they cannot cover every thread schedule, order and set of positions.", "anchors": ["orthority/param_io.py:ExifReader.__init__", "orthority/param_io.py:ExifReader._read_exif", "orthority/param_io.py:ExifReader._find_utm_crs", "orthority/common.py:utm_crs_from_latlon"]}
{"id": "C102", "title": "Tagged images to pixels", "statement": "For a camera factory made with FrameCameras.from_images, after any history of requests, the camera that is got for an image takes every world point that is at (right, down, forward) coordinates v in the axes of a camera at the tagged position, mounted looking down with its top to the front of a body with the tagged roll, pitch and yaw (degrees), to the pixel that the tagged focal length, sensor size or dewarp data give for v, whichever of the documented sources the image has. With distortion switched off and dewarp data, the pixel is that of the undistorted image, whose intrinsic parameters follow from the tagged coefficients and the alpha option. Making the factory succeeds when every image has a position, angles and what its interior parameters need, and only then.", "quantifier": "All lists of files, tags, CRSs and CRS transforms, request histories, camera options (distortion on or off, alpha) and world points in front of or behind the camera.", "why_tests_cant": "Tests compare a few images of one dataset with stored values; they cannot relate pixels to tags for all attitudes, sources of focal length and histories of a shared camera object.", "anchors": ["orthority/factory.py:FrameCameras.from_images", "orthority/factory.py:FrameCameras.get", "orthority/param_io.py:_read_exif_int_param", "orthority/param_io.py:_read_exif_ext_param", "orthority/camera.py:FrameCamera.world_to_pixel"]}
{"id": "C103", "title": "CSV exterior file to pixels", "statement": "For a camera factory made from an interior parameter file and a CSV exterior parameter file, the camera that is got for an image takes every world point to the pixel that the position and angles in the last row of that image (named by its file name, with or without extension), and the interior parameters of the camera named in that row, give for it; whatever was asked of the factory before, and until another image of the same camera is asked for or the camera is updated. Positions and angles that are not (x, y, z) and (omega, phi, kappa) in radians are first converted with the CRSs of the reader, (latitude, longitude) in longitude, latitude order. The factory has the CRS of the reader, and is made exactly when every row is for an image.", "quantifier": "All interior parameter documents, CSV rows, field names, formats, user CRSs, CRS transforms and number parsers, request histories, later calls and world points.", "why_tests_cant": "Tests read a few CSV files and compare a dictionary; they cannot relate pixels to cells for every format, order of rows, repeated name and history of a shared camera.", "anchors": ["orthority/factory.py:FrameCameras", "orthority/factory.py:FrameCameras.get", "orthority/param_io.py:CsvReader.read_ext_param", "orthority/camera.py:FrameCamera.world_to_pixel"]}
{"id": "C104", "title": "RPC image files and GCPs to refined pixels", "statement": "For an RPC camera factory made from image files, after any sequence of get and refine calls that did not fail, the camera that is got for an image has the size and RPC model of the last file with that name, in the CRS asked for. If all refinements of the image were shifts, the camera sees each world point at the pixel of the tags' RPC model, moved by the mean difference between the GCPs of the image's last refinement and where the tags' RPC model sees them: earlier refinements do not count, and an image that was never refined is not moved. With other methods the pixel is an affine function per axis of that of the tags, the residuals of the last GCPs sum to zero, and when the last refinement is a shift and drift after shifts at most, no other affine functions have a smaller sum of squares. Files that all open and have valid RPC tags always make a factory, and calls do not fail when each image's GCPs are seen and are enough for the method. GCPs read from image tags refine an image with its own GCPs.", "quantifier": "All lists of files and their tags, schedules of reading threads, CRSs and CRS transforms, histories of get and refine calls with any GCPs and methods, and world points.", "why_tests_cant": "Tests refine a factory once with a few GCPs; they cannot relate pixels to image tags for every history of refinements, cached cameras, repeated names, GCPs and reading schedule.", "anchors": ["orthority/factory.py:RpcCameras.from_images", "orthority/factory.py:RpcCameras.refine", "orthority/factory.py:RpcCameras.get", "orthority/param_io.py:read_im_rpc_param", "orthority/param_io.py:read_im_gcps", "orthority/fit.py:refine_rpc", "orthority/camera.py:RpcCamera.world_to_pixel"]}
{"id": "C105", "title": "Distorting images and pixels simulates the camera", "statement": "Distorting an image with a frame camera keeps its data type and size, and puts at each pixel where the camera sees a world point the value of the image at the position where the camera without distortion sees that point (rounded to float32), or nodata when OpenCV finds that position outside the image. A pinhole camera leaves the image as it is, whatever was done with the camera before. Reading the distorted image back without distortion gives the pixels of the first image wherever a world point is seen at whole pixels of both. Distorting (undistorting) pixel coordinates gives the pixels where the camera sees the same world points with (without) distortion, moved to the nearest pixel of the image when clipped. Images of another size are refused with ValueError, unknown interpolations with KeyError, and pixels that are not a 2 by N array with ValueError.", "quantifier": "all frame cameras (any lens, history of calls, image size OpenCV can take), all images, interpolations, nodata values, world points and pixels; OpenCV's sampling is any function (exact at whole pixels for the two identities), and its inverse lens is assumed right at the pixels looked at", "why_tests_cant": "a test distorts a few images with a few cameras and compares with tolerances; the statement is about every camera, pixel and world point", "anchors": ["orthority/common.py:distort_image", "orthority/camera.py:FrameCamera._distort_pixel", "orthority/camera.py:FrameCamera._undistort_pixel", "orthority/camera.py:FrameCamera.read"]}
{"id": "C106", "title": "OpenSfM reconstructions are imaged as they were reconstructed", "statement": "Cameras of an OpenSfM reconstruction file are those of its first reconstruction, in the projected CRS that is given, or else the UTM CRS of the reference position. For each of its images, whatever was asked of the factory before, the camera that is got sees world points at the place (right, down, forward) that OpenSfM's rotation and translation give from the reference position, and images them with the focal length, principal point and distortion of the image's camera; points beside the camera are NaN; and without distortion the intrinsics are those of the undistorted image. When the image is not higher than wide these pixels are OpenSfM's own; when it is higher than wide they differ from OpenSfM's everywhere except at the principal point, as focal lengths are taken relative to the width, not the larger side (proved as a refutation). A CRS of the wrong kind is a CRS error whatever the file, and a file that does not have the format a parameter error.", "quantifier": "all reconstruction documents with any number of reconstructions, cameras and images, all rotations except those where the world x axis is along the optical axis, all reference positions, CRSs, camera options, histories of image requests and world points; PROJ's transform is any function, OpenCV's Rodrigues and projection are assumed to be what they are documented to be", "why_tests_cant": "a test compares a few poses of one reconstruction; the statement is about every pose, camera and point", "anchors": ["orthority/param_io.py:OsfmReader", "orthority/param_io.py:_read_osfm_int_param", "orthority/param_io.py:_cv_ext_to_oty_ext", "orthority/factory.py:FrameCameras", "orthority/camera.py:FrameCamera.world_to_pixel"]}
{"id": "C107", "title": "An ortho image shows what its frame camera reads, with or without distortion", "statement": "For every frame camera, in whatever state earlier calls left it, an ortho image that is made without an error lies on the surface made of the object's DEM, covers all of that surface which is inside the boundary of the image, and each of its pixels has the value of the band that the camera reads from the source, at the pixel where the camera sees the point of the surface; pixels outside of the boundary or without a height are nodata. When the camera removes distortion of a lens, the image that it reads is the undistorted one, and with an interpolation and an integer type pixels within the kernel of a nodata pixel of the same block are nodata too. The object holds the part of the DEM that the camera sees, and its default resolution is that of the image the camera reads. A DEM inside the image is used whole, and images that can be processed, of sizes that OpenCV can remap, are processed whatever the order of blocks. An ortho image is never made when its source, or one of its blocks, has 32767 or more rows or columns, which is too many rows or columns for OpenCV.", "quantifier": "all frame cameras and states of them, images, DEMs, options, block sizes and orders of blocks", "why_tests_cant": "Tests run a few cameras, images and block sizes; where every pixel comes from, with maps made or cached, for all states of the camera and orders of blocks, needs a proof.", "anchors": ["orthority/ortho.py: Ortho.__init__, Ortho.process, Ortho._remap, Ortho._remap_tile, Ortho._get_gsd, Ortho._get_init_dem, Ortho._mask_dem", "orthority/camera.py: FrameCamera.read, FrameCamera.remap, FrameCamera.world_boundary, FrameCamera.pixel_boundary, FrameCamera._undistort_im"]}
{"id": "C108", "title": "Images of an OpenSfM reconstruction are rectified where OpenSfM's transform sees the ground", "statement": "From an OpenSfM reconstruction file, each image gets a camera, whatever was asked of the factory before, whose ortho image, when made without an error in the world CRS of the file, lies on the surface made of the DEM, covers all of it that is inside the boundary of the image, and has in each pixel the value of the source image at the pixel where OpenSfM's rotation and translation from the reference position, with the image camera's focal length, principal point and distortion, place that point of the surface; pixels outside of the boundary or without a height are nodata. With distortion off it shows the undistorted copy of the image, at the pixel of the undistorted intrinsics. The object holds the part of the DEM that the camera sees.", "quantifier": "all reconstruction documents, reference positions, rotations except those where the world x axis is along the optical axis, camera options, histories of image requests, source images, DEMs, ortho options, block sizes and orders of blocks", "why_tests_cant": "Tests rectify a few images of one reconstruction; where every pixel of every ortho image comes from needs a proof.", "anchors": ["orthority/param_io.py:OsfmReader", "orthority/factory.py:FrameCameras", "orthority/ortho.py:Ortho.__init__, Ortho.process", "orthority/camera.py:FrameCamera"]}
{"id": "C109", "title": "Images with EXIF / XMP tags are rectified where their tags place the camera", "statement": "From a set of tagged images, each image gets a camera, whatever was asked of the factory before, that sees every point of the world at the pixel where the position, roll, pitch and yaw, focal length and dewarp tags of the image place it, and nowhere when the point is beside the camera. An ortho image that is made without an error with that camera, in the CRS that the factory gives, shows in each pixel the value of the source image at the pixel where its point of the DEM surface is seen, covers all of the surface that is inside the boundary of the image, and is nodata elsewhere. With distortion switched off, images with dewarp tags are shown undistorted, at the pixels of the undistorted intrinsics. The object holds the part of the DEM that the camera sees.", "quantifier": "all sets of tagged images that share a camera name only if they share a camera, orders in which tags are read, tags, except those where the world x axis is along the optical axis, transformations of CRS for which north is horizontal, camera options, histories of image requests, source images, DEMs, ortho options, block sizes and orders of blocks", "why_tests_cant": "Tests rectify a few tagged images; where every pixel of every ortho image comes from, for all tags, histories and orders of blocks, needs a proof.", "anchors": ["orthority/exif.py:Exif", "orthority/param_io.py:ExifReader", "orthority/factory.py:FrameCameras.from_images", "orthority/ortho.py:Ortho.__init__, Ortho.process", "orthority/camera.py:FrameCamera"]}
{"id": "C110", "title": "Images of a CSV file are rectified where their rows place the camera", "statement": "For an image of a CSV exterior parameter file and a YAML interior parameter file, in any of the formats of position and angles, an ortho object made with the image's camera, whatever was asked of the factory before, holds the part of the DEM under the image, and all of a DEM that is under it. With pixels to show an ortho image is made, and each of its pixels is the image at the pixel where the last row of that image, with the interior parameters and distortion of the camera in that row, places the point of the DEM surface, interpolated; pixels outside of the boundary of the image or without a height are nodata.", "quantifier": "all CSV files, headers and formats, interior parameter files, histories of image requests, source images, DEMs, ortho options, block sizes and orders of blocks", "why_tests_cant": "Tests rectify a few images with a few CSV files; where every pixel of every ortho image comes from needs a proof.", "anchors": ["orthority/param_io.py:CsvReader", "orthority/param_io.py:read_oty_int_param", "orthority/factory.py:FrameCameras", "orthority/ortho.py:Ortho.__init__, Ortho.process", "orthority/camera.py:FrameCamera"]}
{"id": "C111", "title": "The file names a camera factory lists are those that get cameras, except names with folders", "statement": "After any requests and refinements a camera factory lists the names it was made with. A path gets a camera only if its file name, with or without its extension, is listed, and then it does, if the listed images have interior parameters from which a camera can be made; otherwise the request is refused with a parameter error. The documented claim that each listed name has a camera is false: a name that is stored with its folder (as Orthority exterior and RPC parameter files, OpenSfM reconstructions and dictionaries can have) is listed but refused, unless it is also stored without the folder.", "quantifier": "all frame and RPC camera factories, histories of requests and refinements, and paths", "why_tests_cant": "Tests ask for names of a few data sets without folders, after few other requests.", "anchors": ["orthority/factory.py:FrameCameras.filenames, FrameCameras.get", "orthority/factory.py:RpcCameras.filenames, RpcCameras.get, RpcCameras.refine", "orthority/common.py:get_filename"]}
