# Formal model of orthority in Rocq (Coq 8.16.1)

This directory holds a hand-written, machine-checked model of the Python package in `/repo/orthority`
and theorems about it.  The English properties are in `properties.jsonl` (C01, C02, ...), the status
of each is in `MANIFEST.json`, mutation experiments are in `seeded/LOG.jsonl`.

## Layout

`rocq/theories/` has, per area `X`:

* `X_Model.v` - the code, function by function, as total Gallina functions.  Each definition cites the
  file and lines it models, and says what it simplifies.  No proofs.
* `X_Spec.v` - a small, independent vocabulary for the theorem statements (where one is needed).
* `X_Proof.v` - lemmas.
* `X_Props.v` - only the property theorems, each closed by `exact`, each followed by
  `Print Assumptions`, and examples that concrete non-trivial cases meet the hypotheses.

`Py.v` has the shared Python vocabulary: exceptions as values, insertion ordered dictionaries.

## Modelling conventions

* Exceptions are values: `res A := Ok a | Err e`.  Exceptions carry their class only, not the message.
* Python dictionaries are association lists in insertion order, with Python's update rule (an existing key
  keeps its place, the value is replaced).
* Pixel indices and sizes are `Z`.  Floating point numbers that only take part in comparisons, `floor`, `ceil` and
  rounding are rationals `Q` (every finite float is one).  Geometry and statistics use the reals `R`.
  Rounding error of float arithmetic is not modelled.  Where the code relies on NaN, values
  carry an explicit NaN constructor with NaN-propagating operations; division by zero gives that
  constructor too (infinities are not told apart from NaN, which is noted where it matters).
* External numerical routines (OpenCV `remap`, `undistortPoints`, `fillPoly`, `Rodrigues`, `lstsq`, PROJ
  transforms, GDAL warps) are function arguments of the model.  A theorem that needs a
  contract from one has it as a hypothesis in its statement.  They are never axioms.
* What `Cam_Model` takes OpenCV's `remap` to refuse is read from its source, not from /repo: it asserts that all sides
  of the source and of the maps are under 32767 (`SHRT_MAX`), and that the maps are not empty; a destination array
  of other size than the maps is replaced by a new one, so the array passed in keeps its fill.  Assigning NaN to an
  element of an integer array gives the platform's conversion, here a function of the data type.
* Threads: a pool is a set of tasks; an execution is any order (permutation) of their completion. Critical
  sections guarded by a lock are atomic, as in the code.  Results collected by iterating over
  futures in submission order and by `as_completed` are modelled as such.
* Where a property a user would expect is false of the code, the model proves the true part, and
  a theorem `..._refuted` gives the counterexample.  See "Findings".

## Plan per property

| id | model | proof |
|----|-------|-------|
| C01 | `block_windows` as lists of integer windows | counting by induction over block starts |
| C02 | tile tasks as raster updates, a schedule as a permutation | commuting updates of disjoint windows; uses C01, C04 |
| C03 | task results as `res`, futures awaited in order | induction over tasks |
| C04 | grid slicing and offset arithmetic over R | ring |
| C05 | `expand_window_to_grid` over Q | floor/ceiling inequalities |
| C06 | `_get_init_dem` windows and slices over Q/Z | from C05 and lattice facts on windows |
| C07 | `_mask_dem` crop over lists of lists of booleans | first/last index lemmas |
| C08 | `convert_array_dtype` branch by branch over Q/Z | nearest-even rounding lemma, case split on types |
| C09, C10 | `create_profile` branch by branch, option dictionaries | case analysis; refutation of the doc claim |
| C11 | `build_overviews` levels with `Z.log2` | log2 inequalities |
| C12 | `utm_crs_from_latlon` over Q | floor/mod inequalities |
| C13 | `validate_collection` on a JSON-like tree and template type | mutual induction against a declarative relation |
| C14, C15 | file system as a map, writers as state transformers | invariant by induction over histories |
| C16-C19 | writers/readers over JSON/YAML trees (text encoding trusted) | round trip by induction over dictionaries |
| C20-C23 | rotation matrices over R | trigonometric identities, atan2 facts |
| C24 | frame projection over R with abstract distortion maps | field algebra from orthonormality |
| C25 | `_get_intrinsic` | algebra; refutation for portrait images |
| C26 | NaN-propagating projection, remap with a sampling oracle | propagation lemmas |
| C27, C28 | masks as boolean functions on pixels, dilation | set reasoning; counterexamples computed |
| C29 | Horner form against the 20 term polynomial | ring |
| C30, C31 | `refine_rpc` | algebra on coefficient lists; least squares optimality from normal equations |
| C32, C33 | factories as state machines with object identity | invariant over call histories |
| C34 | camera state machine with cached maps | invariant over histories |
| C35 | sampling grid extrema and alpha blending | min/max over lists |
| C36 | distortion formulas | ring, list lemmas |
| C37 | horizon test at boundary points | convexity |
| C38 | boundary points, rounding | arithmetic |
| C39 | ray marching search | induction on samples |
| C40 | shoelace area | algebra |
| C41 | parallel covariance merge | induction over tiles, permutation invariance |
| C42-C44 | Gram-Schmidt forward/reverse, gain/bias, coefficients | algebra and induction over bands |
| C45, C46 | weights and validation | sign and sum lemmas |
| C47 | VRT profile arithmetic | affine algebra |
| C48, C49 | `_fit_frame` conversion and guards | algebra; case analysis |
| C50 | futures per file, dictionary update | permutation invariance |
| C51-C53 | Exif decisions | case analysis, list induction |
| C54, C55 | CSV decisions | case analysis |
| C56, C57 | CLI loops and callbacks | induction over arguments |
| C58 | broadcasting of vectors | list lemmas |
| C59 | step sequence of `process` with failure points | case analysis over steps |
| C60 | dictionary lookup by key kind | computation |
| C61 | pinhole boundary at two heights | convexity |
| C62 | tile masking | case analysis |
| C63 | `read_oty_int_param` on arbitrary documents | case analysis over documents |
| C64 | undistortion maps and projections over R | algebra of the two projections |
| C65 | `fit_frame_exterior` pose conversion | composition with C48, algebra |
| C66 | GCP tags as lists | list induction |
| C67 | CSV rows | dictionary and list induction |
| C68 | legacy command | case analysis, induction over images |
| C69 | shapes of `Camera.remap` grids | case analysis |
| C70 | `Ortho.process` over the models of its parts; `reproject`, polygon filling, block shape and schedule are arguments | composition of the crop, profile and remap theorems; real arithmetic for positions |
| C71 | `Ortho.__init__`, `_parse_crs`, `_reproject_dem` | case analysis |
| C72 | calls on one object with DEM arrays in a memory by address | induction over calls with the invariant that the object's DEM is unchanged |
| C73 | `pan_sharpen` = grids, argument checks, profile, statistics tiles and output tiles composed (pan_sharp.py 69-80, 591-667) | inversion of a call into its parts; C47's grid lemma |
| C74 | the same; warped images, block shape and completion orders arbitrary; real statistics; output conversion over reals, equal to C08's on rationals | tiles partition the images, so tiled statistics equal those of all pixels (C41); Gram-Schmidt closed form (C43, C44); fold over written tiles |
| C75 | the same, with failing statistics and output tasks | decision of each check; commutation of tile writes and of statistics accumulation |
| C76 | the Exif model; tags of a dataset, an XMP tree and number parsers are arguments | inversion of the constructor; lemmas on splitting texts |
| C77 | the OpenSfM reader over loaded JSON values; pose conversion is an argument | a closed form of the camera dictionary; last item of a name |
| C78 | Exit stacks, thread pools and the context managers of `OpenRaster`/`Open` as programs over a state of handles (`Res_Model`): every operation may raise, by an arbitrary oracle; tasks record the handles they use. | Hoare triples over an invariant (new open handles are on the stack; tasks only use handles closed after their pool), `with` as unwinding; induction over tiles, images and histories. Two `_refuted` leaks. |
| C79 | `Load_Model`: `_read_param` with file arguments that have names, identities and text, and file objects that can be read once; CSV and OpenSfM readers are function arguments, the Orthority ones are those of `Params_Model` | equivalence of the reader with a relation (`loads`) that says which file gives which parameters; extensions by a lemma on `Path.suffix` |
| C80 | `Load_Model`: both `write_param` with the writers of `Params_Model`, on the file system of `Files_Model` | composition of the C16 - C19 round trips through the extension dispatch; simulation of two factories with equal dictionaries |
| C81 | `Load_Model`: `from_images` with the caller's dictionaries by reference; RPC factories with parameter dictionaries as objects on a heap | simulation: with disjoint objects, the view of one factory runs as `Factory_Model` does on its own calls |
| C82 | `Cmd_Model`: the frame, exif, odm and rpc commands, on `Load_Model`, `Factory_Model` and the loop of `Cli_Model`; readers, camera construction and processing are arguments | composition of C79 (what is loaded), C33 (cameras) and the loop invariant of C56 |
| C83 | `Cmd_Model`: the same commands and `sharpen`, exceptions as values | case analysis of where an exception can arise, by induction on the sources |
| C84 | `Cmd_Model`: option callbacks over an abstract file system and CRS parser | inversion of each callback against a relational specification |
| C85 | The commands of C82 as actions on a map from paths to contents, over the writers of C14 and C59. | Each writer only writes its own path and respects the overwrite flag; the commands are sequences and loops of writers (induction over the source files), whatever the result. |
| C86 | The export branch of the commands, with the loaders of C79 and the writers of C18 and C63; the state of the RPC factory after refinement. | Unfolding the branch, with the specification of the loaders (`loads`); refinement by induction over the GCP dictionary. |
| C87 | `Cam_Model`: a frame camera as a record of fixed parameters and mutable state, its public calls with exceptions as values, and runs of calls. | Induction over the calls: the state is always that of a camera initialised with the settings that `Cam_Spec` computes from the history. |
| C88 | `Cam_Model`: arrays with dtype, shape and data; the validation functions, and the sizes OpenCV takes as a condition of its `remap`. | Case analysis of the checks; columns by the projections of C36. |
| C89 | `Cam_Model`: `world_boundary` over the ray tracing of C39, with OpenCV's samples of the surface, and what an integer array makes of NaN, as functions. | The specification names the first sample under the surface; the vectorised code is shown to choose it by induction over the samples and pixels. |
| C90 | `Cam_Model`: rasterio's `read` as selection and conversion of bands, undistortion through the maps of C35. | Unfolding, with the state invariant of C87 and the map specification of C35. |
| C91 | The camera objects of `Cam_Model` over the projections of `Frame_Model`. | From the constructor arguments to pixels: rotation matrices against elementary rotations (C20), intrinsics against their formulas. |
| C92 | `remap` of `Cam_Model`, for any history. | The state invariant of C87 and the remapping lemmas of C26 and C27, restated in terms of `world_to_pixel` of single points. |
| C93 | `Rcam_Model`: RPC camera objects, from the constructor's arguments to `world_to_pixel` and `pixel_to_world_z` of arrays, with NaN columns gathered and scattered around the batch calls of GDAL. | Scattering the image of what was gathered is a pointwise map (induction over the columns); then C29's RPC00B lemma per column. GDAL is assumed to work pointwise; the round trip assumes that it inverts the model. |
| C94 | `Rcam_Model`: the base class boundary and `remap` as RPC cameras use them, with flattened grids, and `GcpCamera`. | The first intersection lemma of C40 without straight rays; the index of a cell in the flattened grid by induction over rows. |
| C95 | `Make_Model`: `create_camera`, the constructors of the frame classes and of `RpcCamera` with Python's binding of keyword arguments, defaults, and the coefficient arrays they build; OpenCV's functions are arguments. | The described camera is related to the keyword dictionary by name, the array of coefficients is shown to mean the same by name for each prefix, and C87 and C91 give the pixels. |
| C96 | `Scene_Model`: `FrameCameras.get` on real parameter dictionaries and real camera objects (Make_Model, Cam_Model) in a heap, shared by camera ID; documents read by Params_Model. | An invariant relates each heap object to the calls made on it; the last pose is that of the last `get`; documents are related to dictionaries by name, and C95 gives the pixels. |
| C97 | `Simple_Model`: `_simple_ortho` with the YAML document, CSV rows, patterns and real camera objects (Make_Model, Cam_Model); orthorectification of an image is an argument that may fail and makes any calls on the camera that leave its pose and settings. | The configuration is related to keyword arguments by name (C95 then gives the pixels); an invariant of the loop relates the camera to the calls made on it; induction over patterns and files for order. |
| C98 | same | case analysis on the checks; induction over files for the last call. |
| C99 | `Ortho.__init__` and `process` with a camera got from a pair of parameter files: DEM window, default resolution, surface, outline, reading, remapping of tiles, written pixels (`Whole_Model.v`, on the models of C70-C72, C87-C90, C95, C96) | composition: documents give a camera that images by the files' parameters (C96); a view of the camera is what ortho.py calls; `init_dem`, `gsd`, `process` are proved against boxes, medians and areas of the spec; completeness from a DEM under the image; schedules by permutation (C02, C71) |
| C100 | `RpcCameras.get` of a parameter file, then the same ortho model with the RPC camera's calls (`Rscene_Model.v`, `Whole_Model.v`) | reading of the document gives the RPC model; C93 has where the camera sees a point; the rest as C99 |
| C101 | `ExifReader.__init__`, `_find_utm_crs` and `utm_crs_from_latlon` over the thread pool of C50 (`Photo_Model.v`) | an inductive list of outcomes (`Photo_Spec.v`), case analysis, the pool lemmas of C50, and averages that do not depend on order |
| C102 | `FrameCameras.from_images` and `get`: reader, tags, factory, camera objects and their pixels (`Photo_Model.v`) | composition of C101, C51, C53, C23 and C91: tags give intrinsics (`sees_by`) and a rotation, the factory gives the object with them |
| C103 | `FrameCameras` of a YAML and a CSV file: `CsvReader` with its CRSs, entries, factory and camera objects (`Table_Model.v`) | composition of C54, C55, C67 and C96: rows give shots (`row_shot`), the last of each name counts (`finals`) |
| C104 | `RpcCameras.from_images`, `refine`, `get` and `refine_rpc` on real RPC dictionaries and camera objects (`Adjust_Model.v`) | composition of C17, C30, C31, C32 and C93: the dictionaries of an image form a chain of refined models (`calls_chain`), each an affine function of the tags' model (`chain_affine`), for shifts with the offset of the last one only (`chain_shift`) |
| C105 | `Distort_Model.v`: `distort_image` and the private `_distort_pixel`/`_undistort_pixel`, on the camera objects of `Cam_Model.v`; OpenCV's sampling and rounding to float32 are arguments | the direction of a world point is the same with and without distortion, so a pixel and its undistorted pixel are two images of one point; the maps of `read` after any history are those of a new camera (`Cam_Proof.like`) |
| C106 | `Recon_Model.v`: a factory of an OpenSfM reconstruction, from the JSON document to camera objects, on `osfm_reader` (`Exif_Model.v`), `cv_ext_to_oty_ext` (`Rot_Model.v`) and `make_frame` (`Make_Model.v`); PROJ's transform and OpenCV's `Rodrigues` are arguments | documents in `Recon_Spec.v`'s format pass the schema and are read item by item; Rodrigues' formula is shown to be a rotation, so converted angles see points where OpenSfM does (`cv_ext_preserves`), and `made_images` gives pixels |
| C107 | Any frame camera object with the ortho model of C99, its reads with undistortion maps made or cached, its boundary, and the tiles with dilation | The view that the ortho code has of a frame camera is its calls (`frame_calls`); the theorems of C70 on tiles are restated by what the camera reads and sees (`frame_shows`), and its conditions for success and for its DEM and resolution likewise |
| C108 | The chain of C106 (reconstruction document to camera) and C107/C99 (camera to ortho image) | Composition: the cameras of C106 have the settings and size of their document (`recon_settings`), and a frame camera known to see points somewhere is rectified there (`frame_rectified`) |
| C109 | The chain of C102 (tags to camera) and C107/C99 (camera to ortho image) | Composition: the cameras of C102 have the size and lens of their tags (`photo_settings`, `object_settings`), see every point (`photo_images_total`) and are rectified there (`frame_rectified`) |
| C110 | The chain of C103 (CSV rows to camera) and C99 (camera to ortho image) | Composition: the camera of an image in a table (`table_image_full`) is one that C99 rectifies (`scene_ortho`) |
| C111 | `filenames` and `get` of a path, on the factories of C32 and C33 | Requests and refinements keep the keys of the parameters (`refine_keys`, `run_inv`); look-up by name or stem against the declarative `found` |

## What is modelled and what is not

Lines of `/repo/orthority` cited by the model files, written by `tools/design.py`.

<!-- code -->
| Source | Model | Lines |
|---|---|---|
| camera.py | `Bound_Model` | 103-165, 200-243, 894-906, 940-958, 1005-1013 |
| camera.py | `Cam_Model` | 46-49, 64-69, 72-75, 87-101, 103-165, 245-285, 287-317, 594-614, 616-619, 697-715, 717-720, 800-814, 816-841, 843-880, 908-938, 940-958, 960-1018, 1020-1057, 1059-1116 |
| camera.py | `Distort_Model` | 882-906 |
| camera.py | `Fit_Model` | 608, 697-715, 789, 1491-1511 |
| camera.py | `Frame_Model` | 77-85, 491-511, 653-694, 722-734, 789-798, 816-841, 843-880, 1222-1229, 1346-1364, 1457-1482 |
| camera.py | `Make_Model` | 420-434, 594-605, 607, 669, 1222-1229, 1343-1364, 1444-1488, 1491-1514 |
| camera.py | `Photo_Model` | 1491-1511 |
| camera.py | `Rcam_Model` | 204-285, 319-399, 420-434, 436-439, 441-448, 450-489, 491-511, 524-531, 533-539, 541-557 |
| camera.py | `Remap_Model` | 319-399, 1059-1116 |
| camera.py | `Res_Model` | 287-317 |
| camera.py | `Rot_Model` | 697-715 |
| camera.py | `Rpc_Model` | 441-448, 450-489 |
| camera.py | `Simple_Model` | 609 |
| camera.py | `Undist_Model` | 594-614, 628-630, 645-650, 736-781, 908-922, 1235-1241 |
| camera.py | `Whole_Model` | 87-101, 319-399, 429, 717-720 |
| cli.py | `Cli_Model` | 133, 210-218, 239-256, 284-291, 294-372, 841-844, 1187-1202, 1268, 1334-1367 |
| cli.py | `Cmd_Model` | 141-155, 158-165, 168-182, 185-195, 198-207, 221-236, 259-272, 275-281, 637-693, 721-773, 814-890, 942-1021, 1142-1211 |
| cli.py | `Res_Model` | 139-155, 327-369, 851-890, 1174-1211 |
| cli.py | `Simple_Model` | 1214-1371 |
| common.py | `Distort_Model` | 97-128 |
| common.py | `Dtype_Model` | 58-60, 501-529 |
| common.py | `Files_Model` | 241-247, 270-334, 370-403 |
| common.py | `Grid_Model` | 82-89, 156-161, 532-556, 568-582 |
| common.py | `Load_Model` | 223-237 |
| common.py | `Names_Model` | 223-238 |
| common.py | `Photo_Model` | 156-161, 223-236 |
| common.py | `Profile_Model` | 58-60, 416-498 |
| common.py | `Read_Model` | 223-236 |
| common.py | `Remap_Model` | 58-60, 92-94 |
| common.py | `Res_Model` | 267-334, 338-347, 368-403 |
| common.py | `Sharpen_Model` | 501-529 |
| common.py | `Validate_Model` | 164-220 |
| enums.py | `Cam_Model` | 82-109 |
| enums.py | `Csv_Model` | 123-143 |
| enums.py | `Exif_Model` | 70-79 |
| enums.py | `Fit_Model` | 38-79 |
| enums.py | `Ortho_Model` | 82-109 |
| enums.py | `Params_Model` | 38-70 |
| enums.py | `Rpc_Model` | 146 |
| enums.py | `Whole_Model` | 82-109 |
| exif.py | `Exif_Model` | 35-75, 83-99, 111-138, 222-230, 246-251, 253-286, 305-328, 330-337, 339-348, 350-357 |
| exif.py | `Res_Model` | 111-138 |
| factory.py | `Adjust_Model` | 279-302, 304-306, 374 |
| factory.py | `Cmd_Model` | 205-234 |
| factory.py | `Exif_Model` | 178-197 |
| factory.py | `Factory_Model` | 205-234, 308-362, 364-376 |
| factory.py | `Files_Model` | 236-248, 378-394 |
| factory.py | `Load_Model` | 111-140, 151-203, 206-232, 236-248, 308-362, 364-376, 378-394 |
| factory.py | `Names_Model` | 146-148, 205-234, 304-306, 308-362, 364-376 |
| factory.py | `Photo_Model` | 111-140, 227-232 |
| factory.py | `Recon_Model` | 98-109, 229, 232 |
| factory.py | `Rpc_Model` | 269-272, 342-362 |
| factory.py | `Rscene_Model` | 264-276, 364-376 |
| factory.py | `Scene_Model` | 98-109, 205-234 |
| factory.py | `Table_Model` | 98-109 |
| fit.py | `Adjust_Model` | 49-130 |
| fit.py | `Fit_Model` | 39, 41, 133-155, 158-296, 299-360 |
| fit.py | `Rpc_Model` | 49-130 |
| ortho.py | `Bound_Model` | 79-83, 156-173, 207-232 |
| ortho.py | `Dem_Model` | 127-205, 292-343 |
| ortho.py | `Files_Model` | 556-628 |
| ortho.py | `Ortho_Model` | 85-105, 112-125, 234-290, 314-315, 401-482, 556-628 |
| ortho.py | `Remap_Model` | 345-399, 401-482 |
| ortho.py | `Res_Model` | 112-125, 401-482, 556-628 |
| ortho.py | `Whole_Model` | 85-105, 127-205, 207-232, 305-310, 556-628 |
| pan_sharp.py | `Files_Model` | 587-670 |
| pan_sharp.py | `PanGrid_Model` | 82-184, 480-515, 610-611 |
| pan_sharp.py | `Pan_Model` | 186-226, 242-271, 274-309, 311-416, 418-478, 631-641 |
| pan_sharp.py | `Res_Model` | 69-80, 228-309, 591-667 |
| pan_sharp.py | `Sharpen_Model` | 69-80, 252-264, 405-416, 418-478, 480-515, 517-532, 591-667 |
| param_io.py | `Adjust_Model` | 365 |
| param_io.py | `Csv_Model` | 860-1157 |
| param_io.py | `Exif_Model` | 71-203, 1184-1263, 1346-1352, 1354-1362 |
| param_io.py | `Files_Model` | 570-726 |
| param_io.py | `Fit_Model` | 56-64 |
| param_io.py | `Params_Model` | 56-64, 222-251, 253-283, 414-434, 436-448, 539-548, 550-567, 586-597, 619-645, 663-670, 689-700, 1377-1425 |
| param_io.py | `Photo_Model` | 197-200, 1266-1362 |
| param_io.py | `Read_Model` | 332-394, 451-519, 1303-1332 |
| param_io.py | `Recon_Model` | 1195-1196, 1229-1230 |
| param_io.py | `Res_Model` | 205-283, 332-390, 961-996 |
| param_io.py | `Rot_Model` | 703-713, 716-727, 730-736, 739-835, 838-856 |
| param_io.py | `Table_Model` | 753-835, 1126-1128, 1137-1138, 1143-1157 |
<!-- end code -->

Not modelled:

* Log messages, warnings' texts, progress bars, docstrings, `__init__.py`, `version.py`, `errors.py` (the classes are the
  constructors of `Py.exn`).
* cli.py: option declarations and help texts, `RstCommand` (67-138), the wiring of options to functions where it only
  passes values on.
* The insides of external routines: OpenCV, GDAL / rasterio (including the pixels of a warp and the bytes of a file),
  PROJ, numpy's linear algebra, the YAML, JSON, XML and CSV parsers, fsspec.
* Rounding errors of floating point arithmetic, and memory use.
* Time outs and signals in the middle of a call, other than as an exception at a modelled step (C14, C15, C59, C78).

## Findings

Statements a user could expect that are false of the code, with a theorem for each that says when and how.  Written by
`tools/design.py` from the comments of the theorems.

<!-- findings -->
* `C101_meridian_refuted`: Images either side of the 180 degree meridian (in zones 60 and 1) get the CRS of zone 31, on the other side of the earth.
* `C106_portrait_refuted`: For images that are higher than wide they are not, except at the principal point.
* `C10_compress_ignored_refuted`: "compress is ignored with creation options" is false for the mask decision: two calls differing in compress only give different results ...
* `C10_jpeg_option_mask_refuted`: ... and "a mask is written by default when JPEG compression is used" is false for a JPEG creation option.
* `C111_folder_refuted`: But not each name that is listed gets a camera: one that is stored with its folder is listed, and refused, unless it is also stored without.
* `C11_minimum_refuted`: For each minimum that is not a power of two there are images with an overview below it.
* `C14_concurrent_calls_refuted`: The guarantee is for calls made one after the other. Two concurrent calls without overwrite can both succeed on the same new path, the second replacing the first one's file.
* `C14_failed_overwrite_keeps_old_refuted`: With overwrite, a document that can not be serialised costs the old file: it is truncated first.
* `C15_atomic_refuted`: So it is not all or nothing.
* `C16_camera_id_refuted`: A camera with the ID "camera" comes back as "unknown", and every other camera is lost.
* `C16_empty_refuted`: With no cameras the file that is written can not be read.
* `C17_empty_refuted`: With no images the file that is written is rejected.
* `C18_empty_lists_refuted`: Images without GCPs are dropped.
* `C18_no_gcps_refuted`: And with no GCPs at all the file is rejected.
* `C19_integer_refuted`: One integer among the offsets and scales makes the whole written file unreadable.
* `C21_gimbal_lock_refuted`: ... so the round trip fails there, for angles a user can give.
* `C24_behind_camera_refuted`: World to pixel to world does not tell the two sides of the camera apart: a point behind the camera has the pixel of its mirror image in front.
* `C25_portrait_refuted`: The documentation has focal lengths normalised by the larger dimension; they are scaled by the width, which differs for every portrait image.
* `C27_block_size_independence_refuted`: Block size independence fails when dilation applies.
* `C28_per_band_mask_same_refuted`: And they can disagree.
* `C30_factory_input_refuted`: But a camera factory that is refined replaces the RPC model in the parameter dictionary it was given.
* `C32_stem_request_refuted`: Not so for a file with an extension whose parameters are stored by stem: get "im.tif" before refining still gives the unrefined camera after.
* `C36_fisheye_axis_refuted`: Not on the optical axis, where OpenCV gives the principal point: e.g. the point right under a nadir fisheye camera is projected to NaN.
* `C38_corner_refuted`: The number of points is never exact for odd numbers; for 2 points on a square image there are none; and thin images lose corners with the 400 points that are used for the ortho boundary.
* `C38_count_refuted`: The number of points is never exact for odd numbers; for 2 points on a square image there are none; and thin images lose corners with the 400 points that are used for the ortho boundary.
* `C38_empty_refuted`: The number of points is never exact for odd numbers; for 2 points on a square image there are none; and thin images lose corners with the 400 points that are used for the ortho boundary.
* `C39_vertical_refuted`: A vertical ray has one sample, so its point is at the maximum height and not on the surface (or the minimum, as documented for points outside the DEM).
* `C41_few_refuted`: C41, finding: with fewer than two valid pixels nothing is raised; the covariance is zero, or NaN.
* `C45_zero_refuted`: C45, finding: all-zero user weights are accepted, and give NaN.
* `C47_pan_not_georef_refuted`: And a pan image that is not georeferenced gets the extent of the multispectral image; but, a finding, the sharpened image then has no CRS, although the warning says that the CRS is assumed to match.
* `C47_units_refuted`: C47, finding: pixel sizes are compared as numbers, whatever the units of the CRSs. Images of one extent, the multispectral one with fewer pixels, are refused when it is in degrees and the pan image in metres.
* `C49_slope_refuted`: Co-planar GCPs on a slope are refused as not co-planar.
* `C49_unequal_refuted`: The documented minimums are not sufficient: flat GCPs that meet them are refused when image counts differ.
* `C51_portrait_refuted`: With only a 35mm equivalent focal length, the pixel focal length is that of a sensor of 36 mm along the longest image side if the sensor size is tagged (square pixels), and along the image width if it is not. So the two differ for portrait images: the same lens is given a shorter focal length when there is no sensor size.
* `C51_zoom_refuted`: So an image taken with another focal length of the same camera is given the focal length of a later image.
* `C53_v2_refuted`: Cameras whose IDs only differ by a leading "v2 " are merged: the shot of the first one is given the parameters of the second.
* `C55_antimeridian_refuted`: Positions on either side of the 180 degree meridian have a mean on the other side of the earth, where the zone does not cover any of them.
* `C55_prj_refuted`: ... but not for files without an extension, whose last character is dropped (and [C55_prj] shows a dot in the name of a directory being taken for the extension: then the .prj file is not in the directory).
* `C56_own_crs_refuted`: A source that has its own CRS is orthorectified in the CRS of another one, that comes before it.
* `C56_same_stem_refuted`: With overwriting, sources with the same stem replace each other's output, without an error.
* `C57_case_refuted`: The case of values is lost: options that only differ in it are the same.
* `C58_rpc_one_height_refuted`: ... which passes validation and then raises IndexError for any other number of pixels.
* `C59_bad_argument_leaves_output_refuted`: Not all arguments are checked before that: a bad 'interp' destroys an output that was to be overwritten.
* `C60_default_nodata_refuted`: No data type has an automatic nodata: the call raises KeyError for every well shaped input.
* `C61_low_land_refuted`: Heights below the first range (land lower than 106.71 below the reference surface, e.g. the Dead Sea) give a larger window, of which only the first is read: here 22 by 22 of 86 by 86 pixels.
* `C62_dark_refuted`: C62, finding: so a valid dark pixel reads back as nodata.
* `C63_errors_are_param_errors_refuted`: A bad file is not always reported as a ParamError.
* `C65_fisheye_refuted`: Not for fisheye cameras: a pose that reprojects every GCP exactly gives a camera that does not see them there, as the solver is given the fisheye coefficients as those of another distortion model.
* `C67_basename_refuted`: Rows of different images with the same name in different directories replace each other.
* `C67_unused_refuted`: A recognised field that the format does not use still has to hold numbers: an empty one stops the reading of the file.
* `C68_folder_refuted`: So without the option, outputs are not in the folders of their images.
* `C77_type_error_refuted`: A "cx" or "cy" of a camera takes the place of its "c_x" or "c_y", and other types of values than text as projection type raise AttributeError rather than ParamError.
* `C78_remote_refuted`: A remote file stays open if GDAL can not open what is in it.
* `C78_sharpen_command_refuted`: It does leave the pan image open if the multispectral image can not be opened.
* `C79_geojson_options_refuted`: But no option, not even the CRS, changes what is loaded with an Orthority exterior file.
* `C79_no_interior_refuted`: And with no interior parameters and an exterior file without them, an AttributeError is raised.
* `C79_refine_empty_refuted`: But an empty list of images is an AttributeError, and the GCPs that were there are lost.
* `C81_caller_refuted`: But refining changes the dictionaries that the factory was made from.
* `C81_options_refuted`: Other options get the CRS that was found for the first images, so that it is used for the next ones, wherever they are.
* `C81_shared_refuted`: So that two factories made from one dictionary, each refined once, refine it twice.
* `C82_frame_geojson_refuted`: With the option and a '.geojson' file, the ortho images are in the CRS of the option, although the camera positions are those of the file, in its CRS, whatever the option is.
* `C82_odm_refuted`: With a DSM without a CRS, camera positions are in the CRS that is found for the reconstruction, and the ortho images in that of the first source.
* `C83_export_refuted`: But exporting parameters whose CRS is not a projected one is a raw CrsError, once the interior parameters are written.
* `C84_image_refuted`: But with an image that has no CRS, '--crs' is taken as if it was not there, and '--lla-crs' is a raw AttributeError.
* `C84_root_refuted`: So the root folder is taken as the empty path.
* `C84_text_refuted`: And a text for which the file system refuses to say if it is a file is refused, whatever CRS it is.
* `C88_im_size_refuted`: The image size is cut to its first two values before its length is checked, so more values are not an error.
* `C88_largest_image_refuted`: So an image of 32767 rows passes the check for images that are too large, which should let through smaller ones only, and is OpenCV's error.
* `C89_integer_surface_refuted`: With an integer surface the points outside it are not at its minimum, but at its maximum if that is not above the integer that NaN is converted to.
* `C89_surface_refuted`: There is such a boundary for usable arguments and rays of less than 32766 surface pixels. A longer ray is OpenCV's error (the limit on the number of samples is larger than what OpenCV takes), and an interpolation given by name, as documented, is an AttributeError.
* `C90_undistorted_refuted`: Without it, and after any history, each pixel is the distorted image at the pixel where the distorted camera images what the undistorted one images there, or nodata outside the image; a pinhole camera gives the image as it is. But the default nodata is a KeyError, and an image that does not have the camera's size comes back as nodata only.
* `C92_default_nodata_refuted`: The default nodata, documented as chosen by the data type, is a KeyError for every usable image and grid.
* `C93_heights_refuted`: But heights of an integer type are refused, also when they are as many as the pixels, and so is an array of one height for several pixels.
* `C94_gcp_dicts_refuted`: GCP objects are kept as they are; but GCPs given as dictionaries, as documented, are always a ValueError.
* `C97_empty_section_refuted`: An empty ortho section is not one without settings: the run fails.
* `C97_own_outputs_refuted`: An output that is in the folder of the images can match a later pattern; then it is taken for an image, and the run fails, though every file that was there has its row.
<!-- end findings -->

## Trusted base

* The kernel of Coq 8.16.1 (and, for `coqchk -o`, its checker).  No kernel check is switched off; there is no axiom,
  `Admitted`, functor, module type, plugin or native computation in `rocq/theories`.
* Axioms of the standard library, in the theorems listed below only: `ClassicalDedekindReals.sig_forall_dec`,
  `ClassicalDedekindReals.sig_not_dec` and `FunctionalExtensionality.functional_extensionality_dep` (the real
  numbers), and `Classical_Prop.classic` (real analysis).  No other library is used.
* That the model says what the code does: it was written by reading `/repo` as text.  Each definition cites its lines.
* The meaning given to the external routines, where a theorem has it as a hypothesis.

### What Print Assumptions lists for each theorem

Written by `tools/assumptions.py`.

<!-- assumptions -->

**No axioms (closed under the global context)** - 223 theorems:

`C01_block_windows_bounds`, `C01_block_windows_partition`, `C01_first_block_is_largest`, `C05_expand_contains`, `C05_expand_minimal`, `C08_convert_monotone`, `C08_convert_nearest`, `C08_convert_representable`, `C08_convert_to_float`, `C08_convert_to_integer`, `C08_nearest_even_unique`, `C09_jpeg_dtype`, `C09_mask_or_nodata`, `C09_profile_accepted`, `C09_profile_contents`, `C09_unsupported_dtype`, `C104_refused`, `C10_compress_ignored_refuted`, `C10_jpeg_option_mask_refuted`, `C10_options_only`, `C111_folder_refuted`, `C111_frame`, `C111_rpc`, `C11_limits`, `C11_minimum_refuted`, `C11_overview_levels`, `C11_overviews_increasing`, `C12_utm_zone`, `C12_utm_zone_unique`, `C13_empty_list_rejected`, `C13_validate_errors`, `C13_validate_iff_conforms`, `C14_bad_object_rejected`, `C14_concurrent_calls_refuted`, `C14_existing_raster_rejected`, `C14_existing_rejected`, `C14_failed_overwrite_keeps_old_refuted`, `C14_history_confined`, `C14_history_keeps_files`, `C14_write_succeeds`, `C15_atomic_refuted`, `C15_failure_leaves_interior`, `C15_success_writes_both`, `C16_camera_id_refuted`, `C16_empty_refuted`, `C16_int_round_trip`, `C17_empty_refuted`, `C17_ext_round_trip`, `C17_geojson`, `C17_projected`, `C18_empty_lists_refuted`, `C18_gcp_round_trip`, `C18_no_gcps_refuted`, `C19_integer_refuted`, `C19_rpc_round_trip`, `C32_get_never_stale`, `C32_refine_visible`, `C32_stem_request_refuted`, `C33_get_error`, `C33_get_right_camera`, `C33_names`, `C33_shared_cameras`, `C47_errors`, `C47_grids`, `C47_ms_not_georef`, `C47_pairs`, `C47_pan_not_georef_refuted`, `C47_tight`, `C47_units_refuted`, `C50_ends`, `C50_exif`, `C50_gcps`, `C50_rpc`, `C50_schedules`, `C53_osfm`, `C53_v2_refuted`, `C54_error`, `C54_format`, `C54_set`, `C54_unknown`, `C55_antimeridian_refuted`, `C55_missing`, `C55_prj`, `C55_prj_refuted`, `C55_projected`, `C55_refused`, `C55_rule`, `C55_user`, `C55_user_only`, `C55_utm`, `C56_camera`, `C56_completes`, `C56_confined`, `C56_dem`, `C56_dem_error`, `C56_exists`, `C56_export`, `C56_fresh`, `C56_names`, `C56_no_crs`, `C56_odm`, `C56_outputs`, `C56_own_crs_refuted`, `C56_same_stem_refuted`, `C56_stops`, `C57_case_refuted`, `C57_creation`, `C57_creation_error`, `C57_indexes`, `C57_indexes_error`, `C57_level`, `C57_resolution`, `C57_resolution_error`, `C57_weights`, `C57_weights_error`, `C58_frame_arrays`, `C58_rpc_arrays`, `C58_rpc_one_height_refuted`, `C59_bad_argument_leaves_output_refuted`, `C59_ortho_early_failure`, `C59_ortho_late_failure`, `C59_pan_early_failure`, `C62_dark_refuted`, `C62_mask`, `C62_nodata`, `C62_pixel`, `C63_errors_are_param_errors_refuted`, `C63_read_int_sound`, `C63_syntax`, `C63_type`, `C63_type_case`, `C66_gcps`, `C66_none`, `C67_basename_refuted`, `C67_row`, `C67_rows`, `C67_unused_refuted`, `C68_folder_refuted`, `C68_level`, `C68_outputs`, `C71_camera`, `C71_crs`, `C71_crs_missing`, `C76_exterior`, `C76_exterior_iff`, `C76_name`, `C77_camera_iff`, `C77_cameras`, `C77_names`, `C77_shots`, `C77_type_error_refuted`, `C78_caller`, `C78_history`, `C78_nothing_left`, `C78_remote_refuted`, `C78_sharpen_command`, `C78_sharpen_command_refuted`, `C78_success`, `C79_geojson_options_refuted`, `C79_load`, `C79_no_interior_refuted`, `C79_refine`, `C79_refine_empty_refuted`, `C79_refine_unread`, `C79_unsupported`, `C80_cameras`, `C80_frame`, `C80_loaded_camera`, `C80_no_crs`, `C80_no_gcps`, `C80_rpc`, `C81_caller_refuted`, `C81_options`, `C81_options_refuted`, `C81_own_parameters`, `C81_own_results`, `C81_shared_refuted`, `C82_exif`, `C82_frame`, `C82_frame_geojson_refuted`, `C82_odm`, `C82_odm_band`, `C82_odm_options`, `C82_odm_refuted`, `C82_rpc`, `C83_exif`, `C83_exif_reading`, `C83_export_refuted`, `C83_frame`, `C83_frame_reading`, `C83_odm`, `C83_odm_input`, `C83_odm_reading`, `C83_rpc`, `C83_rpc_reading`, `C83_rpc_refining`, `C83_sharpen`, `C83_sharpen_exists`, `C83_sharpen_ok`, `C84_crs`, `C84_crs_error`, `C84_folder`, `C84_folder_error`, `C84_gcp_file`, `C84_gcp_tags`, `C84_image_refuted`, `C84_lla_crs`, `C84_odm_folder`, `C84_root_refuted`, `C84_sources`, `C84_text_refuted`, `C85_exif`, `C85_frame`, `C85_odm`, `C85_rpc`, `C85_rpc_export`, `C85_sharpen`, `C86_exif`, `C86_frame`, `C86_odm`, `C86_rpc`, `C94_gcp_dicts_refuted`, `C95_joined`

**`ClassicalDedekindReals.sig_forall_dec`** - 12 theorems:

`C06_errors`, `C06_outside_dem`, `C07_coverage_warning`, `C07_nothing_left`, `C105_refused`, `C27_dilation`, `C27_mask_iff_nodata`, `C60_default_nodata_refuted`, `C60_explicit_nodata_used`, `C69_remap_shapes`, `C93_heights_refuted`, `C93_pixel_to_world`

**`ClassicalDedekindReals.sig_forall_dec`, `ClassicalDedekindReals.sig_not_dec`, `Classical_Prop.classic`, `FunctionalExtensionality.functional_extensionality_dep`** - 58 theorems:

`C100_documents`, `C100_unknown`, `C102_errors`, `C102_needs`, `C102_pixels`, `C102_success`, `C102_undistorted`, `C103_pixels`, `C106_errors`, `C106_landscape`, `C106_pixels`, `C106_portrait_refuted`, `C108_ortho`, `C109_ortho`, `C109_undistorted`, `C110_ortho`, `C21_angles_round_trip`, `C21_gimbal_lock`, `C21_gimbal_lock_refuted`, `C21_rotation_round_trip`, `C22_angle_axis`, `C22_opencv_pose_preserved`, `C23_level`, `C23_rpy_chain`, `C36_fisheye_axis_refuted`, `C36_fisheye_is_opencv`, `C48_camera`, `C48_fisheye`, `C49_exterior_counts`, `C49_fit_counts`, `C49_fit_error`, `C49_slope_refuted`, `C49_unequal_refuted`, `C51_dewarp`, `C65_exterior`, `C65_fisheye_refuted`, `C65_fit`, `C65_names`, `C95_frame_camera`, `C95_refused`, `C95_rpc_camera`, `C96_dictionaries`, `C96_documents`, `C97_complete`, `C97_empty_section_refuted`, `C97_images`, `C97_jobs`, `C97_order`, `C97_own_outputs_refuted`, `C97_sources`, `C98_fails`, `C98_folder`, `C98_inputs`, `C98_no_config`, `C98_rows`, `C98_write_conf`, `C98_writes`, `C99_documents`

**`ClassicalDedekindReals.sig_forall_dec`, `ClassicalDedekindReals.sig_not_dec`, `FunctionalExtensionality.functional_extensionality_dep`** - 48 theorems:

`C100_refused`, `C105_distort_pixels`, `C105_image`, `C105_pinhole`, `C105_round_trip`, `C105_undistort_pixels`, `C107_built`, `C107_inside`, `C107_shows`, `C107_succeeds`, `C20_opk_is_rotation`, `C20_opk_order`, `C20_rpy_is_rotation`, `C20_rpy_order`, `C23_level_looks_down`, `C40_nadir`, `C40_preserves_area`, `C42_gain`, `C43_norm`, `C73_grid`, `C74_pixels`, `C75_creates`, `C75_order`, `C75_succeeds`, `C87_history`, `C87_initialised`, `C87_pose_irrelevant`, `C87_position`, `C87_refused`, `C87_uninitialised`, `C88_im_size_refuted`, `C88_largest_image_refuted`, `C88_pixel_to_world`, `C88_remap`, `C88_world_to_pixel`, `C89_errors`, `C89_integer_surface_refuted`, `C89_surface`, `C89_surface_refuted`, `C90_distorted`, `C90_undistorted_refuted`, `C91_brown`, `C91_nan`, `C91_pixel_to_world`, `C91_world_to_pixel`, `C92_default_nodata_refuted`, `C92_remap`, `C99_refused`

**`ClassicalDedekindReals.sig_forall_dec`, `FunctionalExtensionality.functional_extensionality_dep`** - 143 theorems:

`C02_block_size_independent`, `C02_ortho_pixelwise`, `C02_schedule_independent`, `C03_failed_tile_raises`, `C04_tile_grids`, `C06_dem_window`, `C07_crop`, `C101_ends`, `C101_meridian_refuted`, `C101_one_zone`, `C101_order`, `C101_reader`, `C101_schedules`, `C103_success`, `C104_drift`, `C104_loads`, `C104_refined`, `C104_shift`, `C104_tags`, `C105_pixels_refused`, `C107_fits`, `C24_behind_camera_refuted`, `C24_pinhole_inverts`, `C24_pixel_round_trip`, `C24_undistorted_pinhole`, `C24_world_round_trip`, `C25_errors`, `C25_intrinsic_with_sensor`, `C25_intrinsic_without_sensor`, `C25_portrait_refuted`, `C26_off_image_nodata`, `C26_ortho_off_image_nodata`, `C27_block_size_independence_refuted`, `C27_kernel_spans_5_source_pixels`, `C27_ortho_dilated`, `C28_dataset_mask`, `C28_per_band_mask_agrees_iff`, `C28_per_band_mask_same_refuted`, `C29_crs`, `C29_crs_heights`, `C29_nan`, `C29_rpc00b`, `C29_undefined`, `C30_factory_input_refuted`, `C30_idempotent`, `C30_input_unchanged`, `C30_moves`, `C30_single`, `C30_zero_mean`, `C31_affine`, `C31_exact`, `C31_normal`, `C31_optimal`, `C34_never_stale`, `C34_pinhole`, `C34_settings`, `C35_alpha_clipped`, `C35_alpha_one`, `C35_alpha_zero`, `C35_inner_seen`, `C35_no_distortion`, `C35_rectangles`, `C36_brown_is_opencv`, `C36_brown_zero_is_pinhole`, `C36_truncation_length`, `C36_truncation_same_model`, `C37_horizon_seen`, `C37_no_horizon`, `C38_alpha_one`, `C38_corner_refuted`, `C38_count_refuted`, `C38_default`, `C38_empty_refuted`, `C38_negative`, `C38_points`, `C38_undistorted_in_image`, `C39_first_intersection`, `C39_frame_rays`, `C39_sample_range`, `C39_spacing`, `C39_vertical_refuted`, `C40_area`, `C40_image_area`, `C41_failure`, `C41_few_refuted`, `C41_stats`, `C42_identity`, `C42_injection`, `C44_uncorrelated`, `C45_estimate`, `C45_proportion`, `C45_user`, `C45_weights`, `C45_zero_refuted`, `C46_error`, `C46_valid`, `C48_intrinsic`, `C49_rpc_counts`, `C51_error`, `C51_last`, `C51_portrait_refuted`, `C51_precedence`, `C51_zoom_refuted`, `C52_exif`, `C52_gimbal`, `C52_none`, `C52_reference`, `C52_xmp`, `C53_exif`, `C61_land`, `C61_low_land_refuted`, `C61_window_nested`, `C64_undistorted_consistent`, `C70_creates`, `C70_dilated`, `C70_grid`, `C70_outside`, `C70_pixels`, `C70_succeeds`, `C71_dem_interp`, `C71_off_dem`, `C71_resolution`, `C72_calls`, `C72_view`, `C74_convert`, `C76_dewarp`, `C76_no_angles`, `C76_no_dewarp`, `C76_no_sensor`, `C76_orientation`, `C76_pix4d`, `C76_sensefly`, `C76_sensor`, `C76_values`, `C93_made`, `C93_not_made`, `C93_round_trip`, `C93_world_to_pixel`, `C94_boundary_height`, `C94_boundary_surface`, `C94_gcp_round_trip`, `C94_remap`, `C94_remap_refused`

<!-- /assumptions -->
