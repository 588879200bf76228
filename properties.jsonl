{"id": "C01", "title": "Bilinear interpolation never reads outside the raster", "statement": "For every raster with at least 2 rows and 2 columns and every finite query position (inside or outside the raster), interpol_bilin, interpol_bilin_grid and the vectorised variant only read cells whose indices are inside the raster, so no IndexError is raised and no negative index silently wraps around.", "quantifier": "all raster sizes >= 2x2, all real positions", "why_tests_cant": "the position is an unbounded real and the raster size is arbitrary", "anchors": ["shareloc/math_utils.py: interpol_bilin, interpol_bilin_grid, interpol_bilin_vectorized, inter", "shareloc/bindings/dtm_intersection.cpp: DTMIntersection::interpolate"]}
{"id": "C02", "title": "Interpolation is exact at the nodes and stays between the surrounding samples", "statement": "At an integer position (r,c) of the raster the interpolated value is the sample [r,c]; at any position inside the raster hull it lies between the minimum and the maximum of the four samples of a cell containing the position.", "quantifier": "all rasters, all nodes, all positions inside the hull", "why_tests_cant": "the inputs are real numbers: no finite set of samples covers the claim", "anchors": ["shareloc/math_utils.py: interpol_bilin"]}
{"id": "C03", "title": "Interpolation reproduces affine surfaces everywhere and is continuous across cell borders", "statement": "If the samples are a + b*row + c*col then the interpolation returns a + b*r + c*x at every position, including positions outside the raster; and for any raster the formulas of two neighbouring cells agree on their common edge, so the interpolated surface has no jump.", "quantifier": "all rasters, all real positions", "why_tests_cant": "the inputs are real numbers: no finite set of samples covers the claim", "anchors": ["shareloc/math_utils.py: interpol_bilin"]}
{"id": "C04", "title": "The scalar, multi-layer, vectorised and C++ interpolators agree", "statement": "For the same raster and position the scalar interpolation, the multi-layer one, every entry of the vectorised one, and the C++ DTMIntersection.interpolate on the flattened raster return the same value.", "quantifier": "all rasters, all positions, all batch sizes", "why_tests_cant": "the inputs are real numbers: no finite set of samples covers the claim", "anchors": ["shareloc/math_utils.py: interpol_bilin, interpol_bilin_grid, interpol_bilin_vectorized", "shareloc/bindings/dtm_intersection.cpp: interpolate"]}
{"id": "C05", "title": "Pixel index and ground coordinates are inverse of each other", "statement": "For every geotransform with non-zero determinant, converting an index (row,col) to a physical point and back returns (row,col), and converting a physical point to an index and back returns the point; index (0,0) maps to the centre of the first pixel. The C++ DTM twin performs the same two conversions.", "quantifier": "all invertible affine transforms, all real positions", "why_tests_cant": "the inputs are real numbers: no finite set of samples covers the claim", "anchors": ["shareloc/proj_utils.py: transform_index_to_physical_point, transform_physical_point_to_index", "shareloc/geofunctions/dtm_intersection.py: ter_to_index, index_to_ter", "shareloc/bindings/dtm_intersection.cpp: ter_to_index, index_to_ter, constructor"]}
{"id": "C06", "title": "Invalid geographic coordinates are blanked row by row", "statement": "check_lonlat returns an array of the same length in which a row is all NaN exactly when the input row had |lon|>180, |lat|>90 or a NaN coordinate, and every other row is returned unchanged; applying it twice changes nothing more.", "quantifier": "all arrays of (lon,lat,h) with NaNs anywhere", "why_tests_cant": "the inputs are real numbers: no finite set of samples covers the claim", "anchors": ["shareloc/geomodels/geomodel_template.py: check_lonlat"]}
{"id": "C07", "title": "RPC polynomials of the Python and C++ implementations are the same cubic form", "statement": "The Python polynomial_equation, the C++ polynomial_equation applied to pre_polynomial_equation, and the sum over the monomial table of coef*X^i*Y^j*Z^k are equal for all coefficients and arguments.", "quantifier": "all 20-coefficient vectors, all normalised coordinates", "why_tests_cant": "the inputs are real numbers: no finite set of samples covers the claim", "anchors": ["shareloc/geomodels/rpc.py: polynomial_equation, RPC.__init__ monomes", "shareloc/bindings/rpc.cpp: pre_polynomial_equation, polynomial_equation"]}
{"id": "C08", "title": "The analytic RPC derivatives are the true derivatives", "statement": "The values returned by compute_loc_inverse_derivates (Python and C++) are the partial derivatives, with respect to longitude and latitude, of the column and row returned by inverse_loc, wherever the denominators do not vanish; the tabulated monomes_deriv_1/2 agree with them.", "quantifier": "all RPC models with non-zero scales, all ground points where the denominators are non-zero", "why_tests_cant": "the inputs are real numbers: no finite set of samples covers the claim", "anchors": ["shareloc/geomodels/rpc.py: compute_loc_inverse_derivates, compute_loc_inverse_derivates_numba, derivative_polynomial_latitude, derivative_polynomial_longitude, monomes_deriv_1, monomes_deriv_2", "shareloc/bindings/rpc.cpp: compute_loc_inverse_derivates"]}
{"id": "C09", "title": "RPC inverse localization treats each point of a batch independently", "statement": "The i-th (row,col,alt) returned by inverse_loc on a batch is what inverse_loc returns for the i-th point alone; a NaN or out-of-range point yields NaN for itself only; a scalar altitude is used for every point.", "quantifier": "all batches of any length, all models", "why_tests_cant": "the inputs are real numbers: no finite set of samples covers the claim", "anchors": ["shareloc/geomodels/rpc.py: inverse_loc, compute_rational_function_polynomial"]}
{"id": "C10", "title": "Iterative RPC direct localization stops and returns a point that re-projects on the pixel", "statement": "direct_loc_inverse_iterative performs at most nb_iter_max refinements and, unless it used all of them or met a NaN, the ground point it returns for (row,col,alt) is re-projected by inverse_loc within 1e-6 pixel of (row,col).", "quantifier": "all models, all pixels, all altitudes, all iteration budgets", "why_tests_cant": "the inputs are real numbers: no finite set of samples covers the claim", "anchors": ["shareloc/geomodels/rpc.py: direct_loc_inverse_iterative", "shareloc/bindings/rpc.cpp: direct_loc_inverse_iterative"]}
{"id": "C11", "title": "Iterative RPC direct localization of a batch equals the point-by-point result", "statement": "The ground point returned by direct_loc_inverse_iterative for one pixel of a batch does not depend on the other pixels of the batch, and is the one the C++ twin computes for that pixel alone.", "quantifier": "all batches, all altitudes per point", "why_tests_cant": "batches of arbitrary length and the histories of their iterations cannot be enumerated", "anchors": ["shareloc/geomodels/rpc.py: direct_loc_inverse_iterative", "shareloc/bindings/rpc.cpp: direct_loc_inverse_iterative"]}
{"id": "C12", "title": "Direct localization keeps the batch shape, the altitude, and the NaN policy", "statement": "direct_loc_h returns one point per pixel, whose altitude is the requested one (scalar altitudes are broadcast) whenever the point is valid; a pixel with a NaN coordinate gives NaN, or the scene centre when fill_nan is set, without affecting the other pixels.", "quantifier": "all batches with NaNs anywhere", "why_tests_cant": "the inputs are real numbers: no finite set of samples covers the claim", "anchors": ["shareloc/geomodels/rpc.py: direct_loc_h, filter_coordinates"]}
{"id": "C13", "title": "Lines of sight span exactly the requested altitude interval and stay on the model's line", "statement": "los_extrema(row,col,alt_min,alt_max) returns for each pixel first a point of altitude alt_max then a point of altitude alt_min; when the interval exceeds the RPC domain both points lie on the straight line through the two localizations at the model's own altitudes. With no bounds the model's altitudes are used.", "quantifier": "all models with non-zero altitude scale, all pixels, all altitude bounds", "why_tests_cant": "the inputs are real numbers: no finite set of samples covers the claim", "anchors": ["shareloc/geomodels/rpc.py: los_extrema, get_alt_min_max", "shareloc/bindings/rpc.cpp: los_extrema"]}
{"id": "C14", "title": "DTM cell bounds enclose the interpolated surface", "statement": "For every cell the stored minimum and maximum altitudes bracket the interpolated altitude at every position of the (closed) cell, and the DTM global minimum/maximum bracket all of them.", "quantifier": "all DTMs, all cells, all positions", "why_tests_cant": "the inputs are real numbers: no finite set of samples covers the claim", "anchors": ["shareloc/geofunctions/dtm_intersection.py: init_min_max, interpolate", "shareloc/bindings/dtm_intersection.cpp: init_min_max"]}
{"id": "C15", "title": "Cube intersection returns the first point of the line of sight in the DTM cube", "statement": "When intersect_dtm_cube succeeds the returned point lies on the line of sight at the returned position index, belongs to a face of the DTM cube and to the cube; for a two-point line of sight no earlier point of it is inside the cube; and for a two-point line of sight whose end points are outside the cube, it succeeds whenever some point of the segment is strictly inside.", "quantifier": "all DTM cubes, all lines of sight with any number of vertices", "why_tests_cant": "the inputs are real numbers: no finite set of samples covers the claim", "anchors": ["shareloc/geofunctions/dtm_intersection.py: intersect_dtm_cube, eq_plan", "shareloc/bindings/dtm_intersection.cpp: intersect_dtm_cube"]}
{"id": "C16", "title": "A vertex of the line of sight lying on a face is reported at its own index", "statement": "The position index reported by intersect_dtm_cube is always in [0, number of vertices - 1], also when the first vertex of the line of sight lies exactly on a face plane.", "quantifier": "all lines of sight", "why_tests_cant": "the failing inputs are a measure-zero set of reals", "anchors": ["shareloc/geofunctions/dtm_intersection.py: intersect_dtm_cube"]}
{"id": "C17", "title": "The DTM intersection returned as found is on the surface and on the line of sight", "statement": "When intersection reports success, the returned ground point, expressed in DTM index coordinates, lies on the straight line of the current segment of the line of sight, inside the DTM, and its altitude differs from the interpolated DTM altitude by at most tol_z.", "quantifier": "all DTMs, all lines of sight, all entry points", "why_tests_cant": "the inputs are real numbers: no finite set of samples covers the claim", "anchors": ["shareloc/geofunctions/dtm_intersection.py: intersection"]}
{"id": "C18", "title": "The DTM intersection always terminates", "statement": "The three nested loops of intersection (vertices, cells, altitude refinement) terminate for every DTM and every line of sight; the number of cells visited per segment is bounded by the number of rows plus columns and the refinement by the cell twist divided by tol_z.", "quantifier": "all DTMs, all lines of sight", "why_tests_cant": "termination is a statement about every execution", "anchors": ["shareloc/geofunctions/dtm_intersection.py: intersection"]}
{"id": "C19", "title": "No crossing is skipped by the cell walk", "statement": "The walk visits consecutive cells sharing an edge or a corner, each visited stretch of the line of sight lies in its cell, and when a cell is skipped by the altitude test the whole stretch is strictly on one side of the surface; consequently the walk reports failure only if the line of sight is above the surface at every cell border it crosses.", "quantifier": "all DTMs, all lines of sight", "why_tests_cant": "unbounded geometry", "anchors": ["shareloc/geofunctions/dtm_intersection.py: intersection"]}
{"id": "C20", "title": "A missed surface is reported as NaN", "statement": "intersection_n_los_dtm (and therefore direct_loc_dtm) returns NaN for every line of sight that does not hit the DTM surface.", "quantifier": "all DTMs, all batches of lines of sight", "why_tests_cant": "the inputs are real numbers: no finite set of samples covers the claim", "anchors": ["shareloc/geofunctions/dtm_intersection.py: intersection_n_los_dtm, intersection"]}
{"id": "C21", "title": "Python and C++ DTM intersections agree", "statement": "For the same DTM and line of sight the Python and C++ intersection return the same result.", "quantifier": "all DTMs, all lines of sight", "why_tests_cant": "the inputs are real numbers: no finite set of samples covers the claim", "anchors": ["shareloc/geofunctions/dtm_intersection.py: intersection", "shareloc/bindings/dtm_intersection.cpp: intersection"]}
{"id": "C22", "title": "The first crossing with the surface is the one returned", "statement": "The point returned by intersection is the first point, along the line of sight from its top, where the line of sight meets the DTM surface (up to tol_z).", "quantifier": "all DTMs, all lines of sight", "why_tests_cant": "the inputs are real numbers: no finite set of samples covers the claim", "anchors": ["shareloc/geofunctions/dtm_intersection.py: intersection"]}
{"id": "C23", "title": "Triangulation returns the common point of concurrent lines of sight", "statement": "When all the lines of sight of a match pass through one ground point and at least two of them are not parallel, n_view_triangulation returns exactly that point and the residues are zero.", "quantifier": "any number of views, all sights", "why_tests_cant": "the inputs are real numbers: no finite set of samples covers the claim", "anchors": ["shareloc/geofunctions/triangulation.py: n_view_triangulation, los_triangulation, n_view_distance"]}
{"id": "C24", "title": "Triangulation minimises the sum of squared distances to the lines of sight", "statement": "For unit viewing directions not all parallel, the returned point is the unique minimiser over all ground points of the sum of the squared distances to the lines of sight; when all are parallel no solution is returned.", "quantifier": "any number of views, all sights", "why_tests_cant": "the inputs are real numbers: no finite set of samples covers the claim", "anchors": ["shareloc/geofunctions/triangulation.py: los_triangulation, n_view_triangulation"]}
{"id": "C25", "title": "Triangulation residues are the distances to the lines of sight", "statement": "The residue reported for each view is the Euclidean distance of the triangulated point to that view's line; it is zero exactly when the point is on the line.", "quantifier": "all points, all lines", "why_tests_cant": "the inputs are real numbers: no finite set of samples covers the claim", "anchors": ["shareloc/geofunctions/triangulation.py: distance_point_los, n_view_distance"]}
{"id": "C26", "title": "Each match is triangulated independently and NaN matches stay NaN", "statement": "The result for a match of a batch depends only on the lines of sight of that match; matches with NaN give NaN and do not disturb the others.", "quantifier": "all batches", "why_tests_cant": "the inputs are real numbers: no finite set of samples covers the claim", "anchors": ["shareloc/geofunctions/triangulation.py: n_view_triangulation"]}
{"id": "C27", "title": "Disparity maps are turned into matches pixel by pixel", "statement": "transform_disp_to_matches pairs pixel (row,col) of the left epipolar image with (row, col+disparity) of the right one, with the pixel offset of the disparity grid, for all and only the unmasked pixels, in row-major order.", "quantifier": "all disparity maps, all masks", "why_tests_cant": "arbitrary raster sizes and masks", "anchors": ["shareloc/geofunctions/triangulation.py: transform_disp_to_matches, epipolar_triangulation"]}
{"id": "C28", "title": "LOS objects hold unit viewing vectors through the sensor's ground points", "statement": "For every valid sensor position LOS stores the ECEF localizations at the highest and lowest altitudes and a unit vector v such that the high point is the low point + t*v with t>0; positions without two distinct finite localizations get a NaN vector.", "quantifier": "all positions", "why_tests_cant": "the inputs are real numbers: no finite set of samples covers the claim", "anchors": ["shareloc/geomodels/los.py: LOS.los_creation"]}
{"id": "C29", "title": "The epipolar angle is the direction of the local epipolar line", "statement": "For two distinct points, cos and sin of the returned angle are the column and row components of the unit vector from start to end; the angle is in [-pi/2, 3pi/2); the C++ twin returns the same angle.", "quantifier": "all pairs of distinct points", "why_tests_cant": "the inputs are real numbers: no finite set of samples covers the claim", "anchors": ["shareloc/geofunctions/rectification.py: compute_epipolar_angle", "shareloc/bindings/rectification.cpp: compute_epipolar_angle"]}
{"id": "C30", "title": "Moving along the grid axes makes steps of the requested length in orthogonal directions", "statement": "moving_along_axis moves every left node by epi_step*spacing pixels, along the epipolar direction for axis 1 and orthogonally to it for axis 0, keeps the altitude, takes the right node from the colocation of the moved left node, and rejects other axes.", "quantifier": "all nodes, angles, spacings, steps", "why_tests_cant": "the inputs are real numbers: no finite set of samples covers the claim", "anchors": ["shareloc/geofunctions/rectification.py: moving_along_axis", "shareloc/bindings/rectification.cpp: moving_along_axis"]}
{"id": "C31", "title": "Epipolar strips have exactly the requested size and start at the given points", "statement": "compute_strip_of_epipolar_grid (constant spacing) returns strips of exactly strip_size nodes whose first node is the input, every following node being one step away from the previous one, with right nodes colocated with left nodes; the C++ twin yields the same grid.", "quantifier": "all strip sizes, all geometric models, all starting rows or columns", "why_tests_cant": "the strip length is unbounded and each node depends on all previous ones", "anchors": ["shareloc/geofunctions/rectification.py: compute_strip_of_epipolar_grid", "shareloc/bindings/rectification.cpp: compute_strip_of_epipolar_grid"]}
{"id": "C32", "title": "The mean baseline ratio is the mean of the local ratios of the grid", "statement": "The global ratio returned by the stereo-rectification is the mean of the local baseline-to-altitude ratios of the grid nodes; in particular when the local ratio is the same everywhere that value is returned.", "quantifier": "all grid sizes", "why_tests_cant": "the inputs are real numbers: no finite set of samples covers the claim", "anchors": ["shareloc/geofunctions/rectification.py: compute_stereorectification_epipolar_grids, compute_strip_of_epipolar_grid"]}
{"id": "C33", "title": "Adaptive strips fit their buffer", "statement": "With an adaptive spacing the number of nodes generated never exceeds the allocated buffer, whatever the evolution of the local distance ratio.", "quantifier": "all histories of local ratios", "why_tests_cant": "depends on the whole history of ratios along a strip", "anchors": ["shareloc/geofunctions/rectification.py: compute_strip_of_epipolar_grid"]}
{"id": "C34", "title": "The rectification grid covers the rectified image, and the rectified image covers the input image", "statement": "In the epipolar frame anchored at the centre of the first pixel, the epipolar box contains the centre of every pixel of the left image, the rectified size is the size of this box in mean pixels (rounded down), and the grid has as many nodes as needed at its step and no more: (nodes-2-2*margin)*step <= size <= (nodes-1-2*margin)*step. When the epipolar direction is constant, every pixel centre lies inside the grid.", "quantifier": "all images, angles, spacings, steps", "why_tests_cant": "the inputs are real numbers: no finite set of samples covers the claim", "anchors": ["shareloc/geofunctions/rectification.py: get_epipolar_extent, prepare_rectification, init_inputs_rectification"]}
{"id": "C35", "title": "Displacement grids and position grids are the same information", "statement": "A position grid converted to displacements and read back with RectificationGrid interpolates to the original positions: exactly at the nodes, and bilinearly in between.", "quantifier": "all grids, all steps and origins", "why_tests_cant": "the inputs are real numbers: no finite set of samples covers the claim", "anchors": ["shareloc/geofunctions/rectification.py: positions_to_displacement_grid, write_epipolar_grid", "shareloc/geofunctions/rectification_grid.py: RectificationGrid"]}
{"id": "C36", "title": "Grid models order their altitude layers from top to bottom with their own bands", "statement": "After reading a multi-layer grid the altitudes are in decreasing order and each altitude still carries the row/column bands it had in the file.", "quantifier": "any number and order of layers in the file", "why_tests_cant": "permutations of an unbounded number of layers", "anchors": ["shareloc/geomodels/grid.py: Grid.read, parse_metadata_alti"]}
{"id": "C37", "title": "Grid altitude lookup brackets the requested altitude", "statement": "return_grid_index returns two consecutive layers (top, bottom) that enclose every altitude within the range of the grid, and the first or the last pair outside it; direct_loc_h interpolates trilinearly the longitude and latitude bands: between the two layers around the altitude, and within the cell around the pixel, extrapolating with the nearest ones outside; it is exact on the layers and on the nodes, and blanks the geographic positions out of range.", "quantifier": "all decreasing altitude lists with at least two layers, all altitudes", "why_tests_cant": "the inputs are real numbers: no finite set of samples covers the claim", "anchors": ["shareloc/geomodels/grid.py: return_grid_index, direct_loc_h, interpolate_grid_in_altitude"]}
{"id": "C38", "title": "The grid inverse localization uses the inverse of the local direct matrix", "statement": "inverse_partial_derivative returns the exact inverse of the finite-difference matrix of the grid cell, and NaN exactly when the sides of the cell are parallel; with a grid whose layers are affine, one correction yields the exact pixel; the loop makes at most the maximum number of iterations and, if it stops before, the pixel before the returned one re-projects within the tolerance; every point of a batch gets what it gets alone.", "quantifier": "all grids, all ground points", "why_tests_cant": "the inputs are real numbers: no finite set of samples covers the claim", "anchors": ["shareloc/geomodels/grid.py: inverse_partial_derivative, inverse_loc"]}
{"id": "C39", "title": "Grid lines of sight cover the DTM altitude range", "statement": "The lines of sight that direct_loc_dtm intersects with the DTM go down strictly, through all the layers, from above the highest altitude of the DTM to below its lowest one, and each vertex is the ground position of the pixel at its altitude.", "quantifier": "all grids, all DTMs", "why_tests_cant": "the inputs are real numbers: no finite set of samples covers the claim", "anchors": ["shareloc/geomodels/grid.py: compute_los, los_extrema, direct_loc_dtm"]}
{"id": "C40", "title": "All RPC readers deliver the same pixel convention", "statement": "For every file format, the column/row offsets delivered by rpc_reader refer to a common pixel convention: the same geometry described in DIMAP v1, v2, v3, OSSIM keyword list or GeoTIFF/RPB tags gives the same model parameters, and topleftconvention shifts both offsets by exactly half a pixel.", "quantifier": "all parameter values, all supported versions", "why_tests_cant": "the inputs are real numbers: no finite set of samples covers the claim", "anchors": ["shareloc/geomodels/rpc_readers.py: rpc_reader_dimap_v23, rpc_reader_dimap_v1, rpc_reader_ossim_kwl, rpc_reader_via_rasterio, convert_rio_rpc_to_rpc_dict"]}
{"id": "C41", "title": "Writing an RPC and reading it back preserves the inverse model", "statement": "For every RPC with inverse coefficients, rpc_writer followed by rpc_reader (GeoTIFF tags, RPB or JSON through rasterio keys) returns the same offsets, scales and inverse coefficients.", "quantifier": "all parameter dictionaries", "why_tests_cant": "the inputs are real numbers: no finite set of samples covers the claim", "anchors": ["shareloc/geomodels/rpc_writers.py: rpc_writer, rpc_dict_to_rio_rpcs, write_rio_rpc_as_rpb, write_rio_rpc_as_json", "shareloc/geomodels/rpc_readers.py: convert_rio_rpc_to_rpc_dict"]}
{"id": "C42", "title": "rpc_writer never overwrites silently", "statement": "rpc_writer leaves an existing file untouched unless override is set, writes only the supported formats, and raises otherwise.", "quantifier": "all file system states, all formats, both override values", "why_tests_cant": "all file system states", "anchors": ["shareloc/geomodels/rpc_writers.py: rpc_writer, geotiff_rpc_updater"]}
{"id": "C43", "title": "The RPC driver is selected by a fixed order of tests on the file", "statement": "rpc_reader uses the RPCs of the raster library when the file has some. Otherwise, when the file name ends with XML in any case and the document is DIMAP, a version below 2 goes to the version 1 reader, a version of at least 2 to the version 2/3 reader, and a version that is not a number raises ValueError. Otherwise the OSSIM reader is used when the type keyword starts with ossim, and ValueError is raised when it does not. The reported driver is the one that was used.", "quantifier": "all files", "why_tests_cant": "all file contents", "anchors": ["shareloc/geomodels/rpc_readers.py: rpc_reader, identify_dimap, identify_ossim_kwl"]}
{"id": "C44", "title": "The geomodel factory is a last-registration-wins registry", "statement": "After any sequence of registrations, GeoModel(path, type) builds the class most recently registered under that type, and raises KeyError for types never registered.", "quantifier": "all histories of registrations", "why_tests_cant": "arbitrary histories", "anchors": ["shareloc/geomodels/geomodel.py: GeoModel"]}
{"id": "C45", "title": "Localization applies elevation sources with a fixed precedence", "statement": "Localization.direct uses the given altitude when there is one, otherwise the DTM, otherwise the default elevation; the result is converted exactly when the requested EPSG differs from the one of the computation; image coordinates are converted with the image geotransform exactly when requested.", "quantifier": "all configurations and inputs", "why_tests_cant": "combinatorial configurations times real inputs", "anchors": ["shareloc/geofunctions/localization.py: Localization.direct, Localization.inverse"]}
{"id": "C46", "title": "Inverse localization undoes direct localization through the Localization API", "statement": "If the model's inverse_loc undoes its direct_loc_h at altitude h, then Localization.inverse undoes Localization.direct at h, in index or physical coordinates, for every EPSG whose conversion is invertible.", "quantifier": "all models, images, positions", "why_tests_cant": "the inputs are real numbers: no finite set of samples covers the claim", "anchors": ["shareloc/geofunctions/localization.py: Localization"]}
{"id": "C47", "title": "Colocation is inverse localization in the second image of the direct localization in the first", "statement": "coloc(m1,m2,row,col,elevation) equals m2.inverse_loc of m1's direct localization (DTM or constant altitude); arrays of different lengths are rejected; colocation of a model with itself is the identity wherever inverse undoes direct. The C++ twin composes the same calls.", "quantifier": "all pairs of models, all positions", "why_tests_cant": "the inputs are real numbers: no finite set of samples covers the claim", "anchors": ["shareloc/geofunctions/localization.py: coloc", "shareloc/bindings/localization.cpp: coloc"]}
{"id": "C48", "title": "An image read with a region of interest stays inside the file and covers the region", "statement": "For every ROI intersecting the image the window read is inside the raster, contains every pixel of the ROI that is in the raster (index or physical coordinates), and the resulting geotransform maps window pixels to the same ground points as the full image; a ROI outside the image raises.", "quantifier": "all geotransforms, all ROIs, all image sizes", "why_tests_cant": "the inputs are real numbers: no finite set of samples covers the claim", "anchors": ["shareloc/image.py: Image.__init__"]}
{"id": "C49", "title": "Filling DTM nodata leaves valid cells unchanged", "statement": "After fill_nodata with any strategy, each cell that was valid keeps its altitude (plus geoid when requested), and with the constant, min, max, mean and median strategies every nodata cell gets a value within the announced bounds.", "quantifier": "all DTMs, all nodata patterns", "why_tests_cant": "all rasters", "anchors": ["shareloc/dtm_reader.py: fill_nodata, dtm_reader.__init__"]}
{"id": "C50", "title": "Geoid heights are interpolated at the right longitude for any longitude convention", "statement": "interpolate_geoid_height returns the same height for longitudes differing by 360 degrees, with the column index always inside the (wrapped) geoid raster, for a global geoid.", "quantifier": "all positions", "why_tests_cant": "the inputs are real numbers: no finite set of samples covers the claim", "anchors": ["shareloc/dtm_reader.py: interpolate_geoid_height"]}
{"id": "C51", "title": "A per-point failure of the Newton inverse stays local (RPC batches)", "statement": "A pixel of a batch that cannot be localized (NaN altitude, divergence out of the valid longitude/latitude range) does not change the result of the other pixels of the batch.", "quantifier": "all batches", "why_tests_cant": "arbitrary batches and iteration histories", "anchors": ["shareloc/geomodels/rpc.py: direct_loc_inverse_iterative"]}
{"id": "C52", "title": "Each call of the numba-parallel loops is schedule independent", "statement": "The parallel loops of compute_rational_function_polynomial and compute_loc_inverse_derivates_numba write each output cell exactly once from inputs only, so every order of execution of the iterations gives the same arrays.", "quantifier": "all schedules (permutations) of the iterations", "why_tests_cant": "thread schedules cannot be enumerated by tests", "anchors": ["shareloc/geomodels/rpc.py: compute_rational_function_polynomial, compute_loc_inverse_derivates_numba"]}
{"id": "C53", "title": "No line of sight makes a whole batch of DTM intersections fail", "statement": "Intersecting a batch of lines of sight with a DTM returns one position (or NaN) per line of sight; no line of sight of finite coordinates makes the whole call raise an exception.", "quantifier": "all DTMs and batches of lines of sight", "why_tests_cant": "lines of sight that meet the surface exactly on cell borders are never drawn by tests", "anchors": ["shareloc/geofunctions/dtm_intersection.py: intersection_n_los_dtm, intersection"]}
{"id": "C54", "title": "The position returned by the DTM intersection lies between the ends of the line of sight", "statement": "A position returned as the intersection of a line of sight with the DTM lies on the line of sight between its first and last vertices, never on its extension.", "quantifier": "all DTMs and lines of sight", "why_tests_cant": "holds for every geometry of entry and exit of the DTM cube", "anchors": ["shareloc/geofunctions/dtm_intersection.py: intersect_dtm_cube, intersection"]}
{"id": "C55", "title": "RPC direct localization on a DTM returns surface points of the pixel's line of sight", "statement": "Each position returned by direct_loc_dtm of an RPC model is NaN, or is a point of the line of sight of that pixel between the altitude just above the highest and just below the lowest DTM altitude and lies on the DTM surface (1e-4 m); one position per pixel; in a geographic DTM it is a valid longitude/latitude.", "quantifier": "all RPC models, DTMs, batches of pixels and coordinate conversions that shift altitudes by a constant", "why_tests_cant": "quantifies over all models and terrains", "anchors": ["shareloc/geomodels/rpc.py: direct_loc_dtm, los_extrema", "shareloc/geomodels/geomodel_template.py: get_dtm_alt_offset"]}
{"id": "C56", "title": "The localization extent encloses the whole image", "statement": "Localization.extent returns a box that contains the ground position, at altitude 0, of every point of the image.", "quantifier": "all geometric models, images and points of the image", "why_tests_cant": "the claim ranges over every point of every image and over every model; tests compare one box with stored numbers", "anchors": ["shareloc/geofunctions/localization.py: Localization.extent"]}
{"id": "C57", "title": "The epipolar extent encloses the ground footprint of the rectification", "statement": "get_epipolar_extent returns (lat_min, lon_min, lat_max, lon_max): the smallest box around the altitude-0 ground positions of the four corners of the rectification footprint, enlarged by the requested margin. For a camera whose ground positions are affine in row and column, it encloses the ground position of every point of the footprint.", "quantifier": "all models, images, steps, margins and points of the footprint", "why_tests_cant": "the box must enclose a continuum of points for every pair of models", "anchors": ["shareloc/geofunctions/rectification.py: get_epipolar_extent, prepare_rectification"]}
{"id": "C58", "title": "The rectification footprint contains the nodes of the grid", "statement": "Every node of the left rectification grid lies in the footprint that prepare_rectification returns for the same inputs.", "quantifier": "all images, steps, margins and nodes", "why_tests_cant": "the claim couples two computations over all pixel sizes and steps; the tests only use unit spacing", "anchors": ["shareloc/geofunctions/rectification.py: prepare_rectification, compute_stereorectification_epipolar_grids"]}
{"id": "C59", "title": "Grid direct localization on a DTM returns points of the surface on the line of sight", "statement": "direct_loc_dtm of a grid gives, for each pixel, a point of the DTM surface which is on the line of sight of that pixel, or NaN; NaN pixels give NaN and do not disturb the others; a DTM in another reference system is accepted.", "quantifier": "all grids with at least two layers, all DTMs, all batches of pixels", "why_tests_cant": "the surface and the pixels are arbitrary real data", "anchors": ["shareloc/geomodels/grid.py: direct_loc_dtm, compute_los", "shareloc/geofunctions/dtm_intersection.py: intersection_n_los_dtm"]}
{"id": "C60", "title": "Sampling a grid on the image is localizing each pixel", "statement": "Every node of direct_loc_grid_h (at a constant altitude) and of direct_loc_grid_dtm (on a DTM) is the direct localization of the pixel of the node.", "quantifier": "all grids, DTMs, origins, steps and sizes", "why_tests_cant": "unbounded sizes and real-valued data", "anchors": ["shareloc/geomodels/grid.py: direct_loc_grid_h, direct_loc_grid_dtm"]}
{"id": "C61", "title": "No geoid height is made up outside of the geoid raster", "statement": "interpolate_geoid_height gives NaN for a position that the geoid raster does not cover, whatever the longitude convention, instead of a height interpolated from unrelated cells.", "quantifier": "all geoid rasters, regional or global, all positions", "why_tests_cant": "the inputs are real numbers and the tests only use one global geoid", "anchors": ["shareloc/dtm_reader.py: interpolate_geoid_height"]}
{"id": "C62", "title": "Converting an RPC keeps its inverse model and touches only its target", "statement": "When the input can be read and the output is an image without RPCs, or override is set, rpc_converter to geotiff succeeds and reading the output gives the offsets, scales and inverse coefficients that reading the input gave. An exception leaves every file as it was, an unreadable input raises the exception of the reader, and the input file is unchanged unless it is the target.", "quantifier": "all input files of every format, all file system states, all output formats, both override values", "why_tests_cant": "all file contents and all real parameter values", "anchors": ["shareloc/rpc_converter.py: rpc_converter", "shareloc/geomodels/rpc_readers.py: rpc_reader", "shareloc/geomodels/rpc_writers.py: rpc_writer"]}
{"id": "C63", "title": "The two pixel conventions differ by half a pixel, in every request", "statement": "Loading a model with the convention where the first pixel corner is (0,0) instead of its centre gives a model that answers every request (inverse_loc, direct_loc_h, los_extrema, direct_loc_dtm) identically up to a shift of half a pixel of every row and column, and one loads exactly when the other does.", "quantifier": "all files of every format, all coordinates including NaN, all altitudes, all DTMs, batches of any length", "why_tests_cant": "the reader, the polynomial evaluation, the iterative inversion and the DTM walk all have to commute with the shift for every input", "anchors": ["shareloc/geomodels/rpc_readers.py: rpc_reader", "shareloc/geomodels/rpc.py: RPC.load", "shareloc/geomodels/rpc.py: RPC.inverse_loc", "shareloc/geomodels/rpc.py: RPC.direct_loc_h", "shareloc/geomodels/rpc.py: RPC.los_extrema", "shareloc/geomodels/rpc.py: RPC.direct_loc_dtm"]}
{"id": "C64", "title": "A converted or rewritten model localizes as the original", "statement": "The model loaded from the file that rpc_converter or rpc_writer produced (geotiff, rpb, geotiff_rpb) gives the same answers as the model loaded from the original file, for every request.", "quantifier": "all input files, all file system states, all requests", "why_tests_cant": "all parameter values and all requests", "anchors": ["shareloc/rpc_converter.py: rpc_converter", "shareloc/geomodels/rpc_writers.py: rpc_writer", "shareloc/geomodels/rpc.py: RPC.load"]}
{"id": "C65", "title": "The file format of a model is irrelevant", "statement": "The same geometry stored as raster metadata, DIMAP V1, V2 or V3 or OSSIM keyword list is loaded as models that answer every request that does not ask for direct coefficients identically; when both formats carry the direct coefficients the models are equal, and the loaded inverse model is the one of the geometry.", "quantifier": "all geometries, all pairs of files of supported formats that hold the geometry, both pixel conventions", "why_tests_cant": "all parameter values in five file formats with different pixel numbering", "anchors": ["shareloc/geomodels/rpc_readers.py: rpc_reader", "shareloc/geomodels/rpc.py: RPC.load"]}
{"id": "C66", "title": "The compiled model class computes the same inverse localization", "statement": "RPCoptim.inverse_loc and RPC.inverse_loc, built from the same parameters, return the same rows, columns and altitudes for the same longitudes, latitudes and altitudes.", "quantifier": "all parameters from which both objects can be built, all batches of ground points, NaN and out of range points included", "why_tests_cant": "two implementations compared on all polynomials, all points and all batch sizes", "anchors": ["shareloc/geomodels/rpc_optim.py: RPCoptim.inverse_loc", "shareloc/bindings/rpc.cpp: RPC::inverse_loc", "shareloc/geomodels/rpc.py: RPC.inverse_loc"]}
{"id": "C67", "title": "The two RPC classes hold the same model", "statement": "RPCoptim and RPC built from the same parameters (or loaded from the same file) have the same normalisation, the same coefficients and the same flags; RPCoptim can be built exactly when at least one set of coefficients is given, each given polynomial has 20 coefficients and the first numerator of the set is not all zero.", "quantifier": "all parameter dictionaries, all files", "why_tests_cant": "all parameter values and all combinations of present and absent coefficient sets", "anchors": ["shareloc/geomodels/rpc_optim.py: RPCoptim.__init__", "shareloc/geomodels/rpc_optim.py: RPCoptim.load", "shareloc/bindings/rpc.cpp: RPC::RPC"]}
{"id": "C68", "title": "The compiled model class computes the same direct localization", "statement": "RPCoptim.direct_loc_h and RPC.direct_loc_h, built from the same parameters, return the same array; in RPCoptim the result of a pixel never depends on the other pixels of the batch.", "quantifier": "all parameters, all batches of pixels (NaN pixels included), with the direct and with the inverse coefficients", "why_tests_cant": "an iterative batch algorithm compared with a pointwise one on all models and batches", "anchors": ["shareloc/geomodels/rpc_optim.py: RPCoptim.direct_loc_h", "shareloc/bindings/rpc.cpp: RPC::direct_loc_inverse_iterative", "shareloc/geomodels/rpc.py: RPC.direct_loc_h"]}
{"id": "C69", "title": "Lines of sight and DTM localization of the compiled model class", "statement": "RPCoptim.los_extrema gives for every pixel a line of sight whose ends are at the two requested altitudes; RPCoptim.direct_loc_dtm gives for every pixel NaN or a position of that line of sight that is on the surface of the DTM.", "quantifier": "all models, all batches of pixels, all altitude bounds, all DTMs", "why_tests_cant": "all models, bounds and terrains; the result goes through two iterative algorithms", "anchors": ["shareloc/geomodels/rpc_optim.py: RPCoptim.los_extrema", "shareloc/geomodels/rpc_optim.py: RPCoptim.direct_loc_dtm", "shareloc/bindings/rpc.cpp: RPC::direct_loc_dtm"]}
{"id": "C70", "title": "A pickled DTM is restored identically", "statement": "The C++ DTM object restored from its pickled state has all the members of the original, whatever the memory held, and gives the same intersection for every line of sight; a state of another size is rejected.", "quantifier": "all DTM objects, all contents of uninitialised memory, all lines of sight, all state tuples", "why_tests_cant": "all objects and all possible contents of uninitialised members", "anchors": ["shareloc/bindings/bind.cpp: pickle", "shareloc/bindings/dtm_intersection.hpp: DTMIntersection"]}
{"id": "C71", "title": "A ground point seen in two images is recovered by sensor_triangulation", "statement": "When a ground point is on the line of sight of its pixel in both images and the two lines of sight are not parallel, sensor_triangulation returns this point for the match, in ECEF and in WGS84, with a zero residue; in general the ECEF result minimises the sum of the squared distances to the two lines of sight, the WGS84 result is its conversion, and the residue is the distance to the left line.", "quantifier": "all pairs of geometric models, all batches of matches, all altitude ranges", "why_tests_cant": "all models and real inputs, through localization, conversion and linear algebra", "anchors": ["shareloc/geofunctions/triangulation.py: sensor_triangulation", "shareloc/geomodels/los.py: LOS.los_creation", "shareloc/geomodels/rpc.py: RPC.direct_loc_h"]}
{"id": "C72", "title": "The predictor of the grid inverse localization is the least-squares fit, and exact for quadratic inverses", "statement": "At the highest and at the lowest altitude of a grid, the row and the column predicted by the estimated predictor are the polynomials of degree two of (longitude, latitude) that minimise the sum of squared differences with the pixels spread over the grid, at their ground positions. When the pixels are such polynomials, the prediction is exact at both altitudes and linear in altitude in between. For a grid with affine layers the inverse localization with the estimated predictor gives back exactly the pixel.", "quantifier": "all grids, numbers of sampled rows and columns, ground points and altitudes", "why_tests_cant": "all real data cubes, a minimum over all polynomials", "anchors": ["shareloc/geomodels/grid.py: Grid.estimate_inverse_loc_predictor", "shareloc/geomodels/grid.py: Grid.inverse_loc_predictor", "shareloc/geomodels/grid.py: Grid.inverse_loc"]}
{"id": "C73", "title": "A grid colocation node is the homologous pixel through the DTM", "statement": "Every node of coloc(src, dst, dtm, origin, step, size) is the inverse localization in dst of the DTM localization in src of the pixel origin + index * step; when the layers of dst are affine it is the pixel of dst that sees the ground point found on the DTM, with its altitude.", "quantifier": "all pairs of grids, DTMs, origins, steps and sizes", "why_tests_cant": "all grids and DTMs", "anchors": ["shareloc/geomodels/grid.py: coloc"]}
{"id": "C74", "title": "Resampling a grid gives the ground positions of the resampled pixels", "statement": "Node (k, i, j) of interpolate_grid_in_altitude is the ground position of the pixel of row i and column j (evenly spread over the grid) at the k-th altitude (evenly spread, or the altitudes of the layers), NaN when it is out of range; with the size of the grid and its own altitudes it is the node of the grid.", "quantifier": "all grids, sizes and numbers of altitudes", "why_tests_cant": "all data cubes and sizes", "anchors": ["shareloc/geomodels/grid.py: Grid.interpolate_grid_in_altitude"]}
{"id": "C75", "title": "Rectified images of affine sensors have no vertical parallax, and the disparity gives the altitude", "statement": "For two sensors whose image coordinates are affine functions of the ground coordinates, rectified over a plane, every ground point at any altitude is seen at exactly one pixel of each epipolar image, through the grids written to disk and interpolated; the two pixels have the same row, and the difference of their columns is minus the altitude above the plane times the baseline ratio, divided by the mean pixel size.", "quantifier": "all pairs of affine sensors with a non-zero baseline ratio, planes, images, steps, margins, elevation offsets and ground points", "why_tests_cant": "all sensors and ground points, exact equality over the reals", "anchors": ["shareloc/geofunctions/rectification.py: compute_stereorectification_epipolar_grids", "shareloc/geofunctions/rectification.py: positions_to_displacement_grid", "shareloc/geofunctions/rectification_grid.py: RectificationGrid.interpolate"]}
{"id": "C76", "title": "A disparity map is triangulated to the ground points its pixels see", "statement": "When, for each selected pixel of a disparity map, the left and right image positions read in the rectification grids (the right one at the column plus the disparity) are both on lines of sight through one ground point, epipolar_triangulation returns this ground point at the place of the pixel, in WGS84 and ECEF, with residue 0, and zeros at the masked pixels; it never fails.", "quantifier": "all sizes of disparity maps, masks, rectification grids, sensor models (in particular RPC models) and scenes", "why_tests_cant": "all scenes, sizes and masks; bookkeeping between pixels, matches and points", "anchors": ["shareloc/geofunctions/triangulation.py: epipolar_triangulation", "shareloc/geofunctions/triangulation.py: transform_disp_to_matches", "shareloc/geofunctions/triangulation.py: sensor_triangulation"]}
{"id": "C77", "title": "A grid that the library writes can be opened again", "statement": "The readers of rectification grids and of multi-altitude grids compute, in binary64, as many node coordinates along each axis as the file has nodes, so that opening a grid that the library has written never raises an exception, for every step and every size.", "quantifier": "all binary64 steps and origins, and all numbers of nodes", "why_tests_cant": "the number of coordinates depends on the rounding of each (step, size) pair; tests use steps of whole pixels", "anchors": ["shareloc/geofunctions/rectification_grid.py: RectificationGrid.__init__", "shareloc/geofunctions/rectification.py: positions_to_displacement_grid", "shareloc/geomodels/grid.py: Grid.__init__"]}
{"id": "C78", "title": "What the epipolar grids with an adaptive step are", "statement": "Whenever the computation of the epipolar grids with an adaptive step returns, the left grid starts at the prepared start, each node is reached from the previous one along (or, in the first column, across) the local epipolar direction by the plain step divided by the factor of the terrain slope between the two ends of the plain step, each right node makes the same part of the way to the position homologous to the plain step, all the lines (and the first column) are at least as long as the plain ones, and the grids stop as soon as they are.", "quantifier": "all sensors that handle each point by itself, all terrains, images, steps, margins, scale factors and maximum ratios", "why_tests_cant": "the steps depend on the terrain met all along each line; tests compare one pair with recorded grids", "anchors": ["shareloc/geofunctions/rectification.py: compute_stereorectification_epipolar_grids", "shareloc/geofunctions/rectification.py: compute_strip_of_epipolar_grid", "shareloc/geofunctions/rectification.py: compute_epipolar_gsd"]}
{"id": "C79", "title": "The left and right nodes of an adaptive grid see the same ground", "statement": "In epipolar grids computed with an adaptive step, each right node is the position at which the right image sees the ground position of the left node, on every terrain.", "quantifier": "all sensors, terrains, images and steps", "why_tests_cant": "it fails only where the terrain bends inside a step", "anchors": ["shareloc/geofunctions/rectification.py: compute_strip_of_epipolar_grid", "shareloc/geofunctions/rectification.py: compute_stereorectification_epipolar_grids"]}
{"id": "C80", "title": "The grids cover the rectified images of the announced size", "statement": "The pixels of rectified images of the size returned with the epipolar grids are between the first and the last node along each axis, with a fixed or an adaptive step.", "quantifier": "all images, steps, margins, sensors and terrains", "why_tests_cant": "the size with an adaptive step is half a step too large, which the truncation hides for small steps and a margin hides for all of them", "anchors": ["shareloc/geofunctions/rectification.py: compute_stereorectification_epipolar_grids", "shareloc/geofunctions/rectification.py: prepare_rectification"]}
{"id": "C81", "title": "On flat ground an adaptive step changes nothing in the grids", "statement": "When all the ground positions have the same altitude, the computation with an adaptive step succeeds and returns exactly the left grid, the right grid and the mean baseline ratio of the computation with the fixed step.", "quantifier": "all sensors, images, steps, margins, scale factors and maximum ratios, over ground of one altitude", "why_tests_cant": "the two computations use different buffers, counters and normalisations; equality must hold for all sizes", "anchors": ["shareloc/geofunctions/rectification.py: compute_stereorectification_epipolar_grids", "shareloc/geofunctions/rectification.py: compute_strip_of_epipolar_grid"]}
{"id": "C82", "title": "The direct localization of an RPC model converges", "statement": "When a ground position seen exactly by a pixel at an altitude lies in a square around which the model is well conditioned (a displacement on the ground is at most gsd times its image by the derivative, the derivatives vary by at most bend times the distance, and twice gsd*bend*half-width is at most one half) and the square contains the model's ground offset, direct localization with the inverse coefficients converges within its ten iterations: it returns a position that is seen within 1e-6 pixel of the pixel and that is within 2e-6*gsd of the exact ground position, which is the only one in the square; the compiled version does the same.", "quantifier": "all RPC models with inverse coefficients, all batches of pixels at one altitude, all squares and bounds meeting the condition", "why_tests_cant": "convergence depends on the curvature of the model and on the distance to the start; tests localize a few pixels of recorded models", "anchors": ["shareloc/geomodels/rpc.py: RPC.direct_loc_h", "shareloc/geomodels/rpc.py: RPC.direct_loc_inverse_iterative", "shareloc/bindings/rpc.cpp: RPC::direct_loc_inverse_iterative"]}
{"id": "C83", "title": "The inverse localization of a grid converges", "statement": "When the ground positions of the nodes at an altitude form a parallelogram mesh up to a deviation (bend), a displacement in the grid is at most density times the displacement on the ground, and 10*density*bend is at most one, the inverse localization of the ground position of a pixel succeeds whenever the predictor starts in a square around the pixel covered by the grid: each correction divides the distance to the true pixel by at least two (by 1/(5*density*bend)); when it stops before the last iteration the result is within 5*density*bend times the grid distance that corresponds to one millimetre on the ground; and a ground position has only one pixel.", "quantifier": "all grids of any size, step (also negative) and number of layers, all altitudes, pixels, predictors and numbers of iterations meeting the condition", "why_tests_cant": "convergence depends on how much the mesh bends and on the start; tests invert a few pixels of recorded grids", "anchors": ["shareloc/geomodels/grid.py: Grid.inverse_loc", "shareloc/geomodels/grid.py: Grid.inverse_partial_derivative", "shareloc/geomodels/grid.py: Grid.direct_loc_h"]}
{"id": "C84", "title": "How far the triangulated position can be from the true one", "statement": "When two of the lines of sight of a point make an angle whose cosine is at most c (in absolute value), for every position x the squared distance from x to the triangulated position, times 1 - c, is at most the decrease of the sum of the squared distances to the lines from x to the triangulated position; in particular when the n lines all pass within eps of the true position the result is within eps*sqrt(n/(1-c)) of it, and this factor is reached. The same bound holds for the ECEF positions of a match triangulated by two sensors, for the lines through the converted localizations at the two ends.", "quantifier": "all numbers of views, all unit lines of sight of which two are not parallel, all positions x; all pairs of models, conversions, lists of matches", "why_tests_cant": "the precision depends on the angle between the views and on the errors of the localizations, over a continuum of configurations; tests triangulate a few matches with fixed angles", "anchors": ["shareloc/geofunctions/triangulation.py: n_view_triangulation", "shareloc/geofunctions/triangulation.py: sensor_triangulation"]}
{"id": "C85", "title": "Interpolation in binary64", "statement": "Computed in binary64, operation by operation, the bilinear interpolation at a position inside the raster is finite and within 2^-48*M of the exact bilinear interpolation (M a bound of the samples); at a node it is the sample, without any error; it stays between the samples of its cell.", "quantifier": "all rasters of finite binary64 samples (2x2 up to 2^53 in each direction), all binary64 positions inside", "why_tests_cant": "the rounding depends on each position and samples; tests compare a few values with a tolerance", "anchors": ["shareloc/math_utils.py: interpol_bilin", "shareloc/bindings/dtm_intersection.cpp: DTMIntersection::interpolate"]}
{"id": "C86", "title": "A line of sight that enters a DTM from above is never taken for one that comes from below", "statement": "In binary64, the entry position of a line of sight in the DTM cube is refused as being below the terrain only if it is below the terrain; in particular a line of sight that crosses the top face of the cube inside the terrain is never refused.", "quantifier": "all rasters of finite binary64 altitudes, all lines of sight and entry positions", "why_tests_cant": "the outcome depends on the last bit of the interpolated altitude at the entry position", "anchors": ["shareloc/geofunctions/dtm_intersection.py: DTMIntersection.intersection", "shareloc/geofunctions/dtm_intersection.py: DTMIntersection.intersect_dtm_cube", "shareloc/bindings/dtm_intersection.cpp: DTMIntersection::intersection"]}
{"id": "C87", "title": "Localization on a DTM in another vertical reference", "statement": "Direct localization on a DTM whose altitudes are in another vertical reference than the model (a geoid height that varies over the DTM) looks for the terrain on a line of sight that goes from above all the DTM to below all of it: each position is NaN or a point of the terrain on the line of sight of its pixel, and a pixel that sees the terrain is localized.", "quantifier": "all RPC models and their compiled variants, all DTMs, all conversions between the two systems that move each point by a height of its own, all batches of pixels", "why_tests_cant": "the altitude bounds come from the four corners of the DTM only; whether they are enough depends on the heights everywhere else", "anchors": ["shareloc/geomodels/geomodel_template.py: GeoModelTemplate.get_dtm_alt_offset", "shareloc/geomodels/rpc.py: RPC.direct_loc_dtm", "shareloc/geomodels/rpc_optim.py: RPCoptim.direct_loc_dtm"]}
{"id": "C88", "title": "Rounding of the RPC rational functions, whatever the compiler's order", "statement": "The row and column (or longitude and latitude) computed by an RPC model in double precision are finite and close to the exact rational function of the model: within 1.2e-8 pixel for an ordinary model (coefficients that sum to at most 2, a denominator of at least 1/2, an image of at most 1e5 rows and columns) and 2e-13 degree for direct coefficients, whatever order, fused operations and inverses the compiler chooses. So RPC and RPCoptim differ by at most 2.4e-8 pixel.", "quantifier": "all double precision coefficients, scales, offsets and points of the validity domain, all evaluation orders that reassociation, distribution, contraction and division by multiplication allow", "why_tests_cant": "a test sees one compiler, one machine and a few points; the Python functions are compiled with fastmath, so the order of the operations is not even fixed by the source", "anchors": ["shareloc/geomodels/rpc.py: polynomial_equation, compute_rational_function_polynomial", "shareloc/bindings/rpc.cpp: polynomial_equation, compute_rational_function_polynomial"]}
{"id": "C89", "title": "Epipolar grids where the ground is not found", "statement": "Where a node of the epipolar grids has no ground position (it looks outside the DTM, or into a hole of it), the node is not a number in both grids, the grids keep the size asked for, and the other nodes are those that would be computed without it.", "quantifier": "all geometric models that treat points one by one, all DTMs and sets of unlocalized positions, lines of starting nodes, axes, steps, spacings, offsets and sizes, with constant and adaptive steps", "why_tests_cant": "the tests rectify images wholly inside the DTM; which nodes are lost depends on the terrain and on the path of each line", "anchors": ["shareloc/geofunctions/rectification.py: compute_strip_of_epipolar_grid, moving_along_axis, compute_local_epipolar_line, compute_epipolar_angle"]}
{"id": "C90", "title": "The compiled intersection stays inside of its buffers", "statement": "Building the compiled DTM object and intersecting an array of lines of sight with it never accesses memory outside of its tables and arrays: the call returns or throws. The table of each cell holds the largest integer under its corners and the smallest over them, each line of sight is computed from its own vertices, and row i of the result is the position of the line of sight i.", "quantifier": "all tables of altitudes of any size, all transforms, all arrays of any number of lines of sight of any number of vertices, all iteration bounds", "why_tests_cant": "an access outside of a buffer is silent; it depends on where each line of sight leaves its cells, and on the sizes of the table and of the array", "anchors": ["shareloc/bindings/dtm_intersection.cpp: DTMIntersection, init_min_max, interpolate, intersect_dtm_cube, intersection, intersection_n_los_dtm"]}
{"id": "C91", "title": "An interrupted RPC export never leaves another model", "statement": "If rpc_writer is interrupted at any point of an export to rpb, geotiff_rpb or json (kill, full disk), then no file but the target has changed, and the target is the file that was there or the complete new one. If it is neither, it is at least never read as a model that differs from the exported one: an RPB file with all of its fields holds exactly the exported numbers, and a partial JSON file is not a JSON object.", "quantifier": "all dictionaries and coefficient lists of any length, all file systems, all targets, all points where the execution stops, inside of a write as well", "why_tests_cant": "the crash points are all the prefixes of a text of unbounded length; a test stops at none of them", "anchors": ["shareloc/geomodels/rpc_writers.py: rpc_writer, write_rio_rpc_as_rpb, write_rio_rpc_as_json, geotiff_rpc_updater"]}
{"id": "C92", "title": "A call leaves the arrays of its caller as they were", "statement": "Calling interpolate_geoid_height, positions_to_displacement_grid, the filter of ground positions or an inverse localization does not change the arrays given by the caller, so that the same call again gives the same result. When an array is changed, it still designates the same positions after any number of calls, and no array that was not given is changed.", "quantifier": "all geoids, positions, grids and steps; all sequences of calls, on any arrays, the same array twice included, and whatever exceptions are raised", "why_tests_cant": "a change in the array of the caller shows only in later calls; the sequences of calls and the ways to share an array are unbounded", "anchors": ["shareloc/dtm_reader.py: interpolate_geoid_height", "shareloc/geofunctions/rectification.py: positions_to_displacement_grid", "shareloc/geomodels/geomodel_template.py: check_lonlat", "shareloc/geomodels/rpc.py: inverse_loc"]}
{"id": "C93", "title": "The compiled strip computation stays inside of its arrays and gives the grids of the Python function", "statement": "bindings_cpp.compute_strip_of_epipolar_grid never reads or writes outside of the arrays it is given or creates. For starting positions in one row (axis 0) or one column (axis 1) the arrays it returns hold, at the same indices, the grids, angles, mean baseline ratio and number of NaNs of the Python function. The arrays of starting positions are left as they were, so that the same call again gives the same result.", "quantifier": "all geometric models, starting positions, shapes, strip sizes, angles and elevations", "why_tests_cant": "an access outside of a buffer depends on the sizes, which are unbounded, and often goes unnoticed; a changed input shows only in later calls", "anchors": ["shareloc/bindings/rectification.cpp: compute_strip_of_epipolar_grid"]}
{"id": "C94", "title": "The compiled localization of vectors reads inside of the vectors and uses coefficients that were given", "statement": "The functions of the compiled RPC model on vectors (inverse_loc, direct_loc_h, direct_loc_dtm) and the methods of RPCoptim that call them never read outside of the vectors they are given, whatever the lengths, never use coefficients the model does not have, and give each point its own altitude. When lengths do not match, or the coefficients needed are missing, the call fails.", "quantifier": "all models, all vectors of coordinates and altitudes, of any lengths, with NaN anywhere", "why_tests_cant": "reads outside of a vector or of uninitialised members depend on the lengths and on the positions of NaN, which are unbounded, and mostly go unnoticed", "anchors": ["shareloc/bindings/rpc.cpp: check_sizes, compute_rational_function_polynomial, inverse_loc, direct_loc_h, direct_loc_inverse_iterative, direct_loc_dtm", "shareloc/geomodels/rpc_optim.py: RPCoptim.inverse_loc, RPCoptim.direct_loc_h"]}
{"id": "C95", "title": "The text of an exported JSON model is a JSON document that holds the model, and an exported file can be read again", "statement": "The text rpc_writer writes for the json format, read by any reader of JSON, is an object whose fields give back the inverse model that was exported; when the export is interrupted, the file is the one that was there, the complete one, or no JSON text. The files rpc_writer makes (json, rpb) can be read again by rpc_reader.", "quantifier": "all models, any numbers of coefficients, all ways of printing numbers that can be read back, all points where the writer can stop", "why_tests_cant": "a separator or bracket missing for one number of coefficients, or a cut at one byte that leaves a text which still parses, is not seen by a test on one model", "anchors": ["shareloc/geomodels/rpc_writers.py: rpc_writer, write_rio_rpc_as_json, write_rio_rpc_as_rpb", "shareloc/geomodels/rpc_readers.py: rpc_reader, identify_ossim_kwl"]}
{"id": "C96", "title": "The intersection of a line of sight with a DTM ends, in machine arithmetic", "statement": "For every DTM of binary64 altitudes and every finite line of sight, the call that intersects them returns after finitely many steps when every operation is rounded to binary64, whatever the rounding errors.", "quantifier": "all rasters and altitudes, all lines of sight of any number of vertices, all rounding errors", "why_tests_cant": "a loop whose test depends on rounded numbers ends on the usual data; only one altitude or one slope for which the rounded position stops moving shows that it may run for ever", "anchors": ["shareloc/geofunctions/dtm_intersection.py: DTMIntersection.intersection, DTMIntersection.intersect_dtm_cube, DTMIntersection.intersection_n_los_dtm"]}
{"id": "C97", "title": "The point where a line of sight meets the DTM is on the surface, in machine arithmetic", "statement": "For every DTM of binary64 altitudes and every line of sight, the point that the intersection returns has finite coordinates, and its altitude is the altitude of the DTM at its position up to 0.1 mm, when every operation is rounded to binary64.", "quantifier": "all rasters and altitudes, all lines of sight of any number of vertices, all rounding errors", "why_tests_cant": "the refinement divides by a difference of rounded numbers; a test on some lines of sight does not meet the one for which this difference is zero, or for which the rounded point leaves the surface", "anchors": ["shareloc/geofunctions/dtm_intersection.py: DTMIntersection.intersection, DTMIntersection.interpolate", "shareloc/math_utils.py: interpol_bilin"]}
{"id": "C98", "title": "The positions of the DTM intersection are on the line of sight, in machine arithmetic", "statement": "For every DTM of binary64 altitudes and every line of sight whose coordinates are usual numbers, when every operation is rounded to binary64: the entry in the box of the DTM is exactly inside of it and on the line of sight, the positions of the walk over the cells are on the segment that is walked, and the point that is returned is on it, up to 1e-9 cell (or metre) for each vertex and each iteration.", "quantifier": "all rasters and altitudes, all lines of sight of any number of vertices, all rounding errors, all lengths of the walk and numbers of iterations", "why_tests_cant": "each position is computed by a division by a component of the direction, which may be as small as one likes; only a bound on the rounding errors for all directions shows that the position does not leave the line", "anchors": ["shareloc/geofunctions/dtm_intersection.py: DTMIntersection.intersect_dtm_cube, DTMIntersection.intersection"]}
{"id": "C99", "title": "The DTM intersection skips no cell in which the line of sight crosses the ground, in machine arithmetic", "statement": "For every DTM of usual binary64 altitudes: when the walk of a segment over the cells comes to a cell which the segment enters more than 1 mm above the ground and leaves more than 1 mm below it, the intersection returns a point of the surface and does not go on to another cell; so a segment that is walked to its end without a point crosses the ground in none of the cells. Each move goes to a neighbour of the cell, over the line between the two, and the walk starts in the cell of its first position.", "quantifier": "all rasters and altitudes, all segments, all positions and lengths of the walk, all rounding errors", "why_tests_cant": "the quick test that skips a cell compares rounded altitudes with the rounded extremes of the cell; a wrong comparison only loses points for some altitudes, which a test has to guess", "anchors": ["shareloc/geofunctions/dtm_intersection.py: DTMIntersection.intersection, DTMIntersection.init_min_max"]}
{"id": "C100", "title": "Indices and physical coordinates are converted, and converted back, up to a few roundings", "statement": "For every georeferenced raster without rotation: the physical coordinates of an index, and the index of physical coordinates, are those of the geotransform up to 2^-50 and 2^-49 times the number of cells to the origin of the coordinates; converting one into the other and back gives the starting values up to 2^-48 times this number.", "quantifier": "all binary64 geotransforms without rotation with cells between 1e-9 and 1e9, all indices and coordinates up to 1e9 cells from the origins, all rounding errors", "why_tests_cant": "the inverse transform is rounded at each step (determinant, its inverse, the coefficients, the origin); a test measures the error of some rasters at some positions", "anchors": ["shareloc/proj_utils.py: transform_index_to_physical_point, transform_physical_point_to_index", "shareloc/bindings/dtm_intersection.cpp: DTMIntersection constructor, ter_to_index, index_to_ter", "shareloc/image.py: Image"]}
{"id": "C101", "title": "A ground position in physical coordinates is on the DTM at its own longitude and latitude, in machine arithmetic", "statement": "For every DTM of usual binary64 altitudes and every geotransform without rotation: when the intersection of a line of sight given in physical coordinates returns a position with finite coordinates over the DTM, the altitude of this position is the bilinear altitude of the DTM at exactly this longitude and latitude, up to the tolerance of 0.1 mm and the rounding of the conversions (2^-47 cell times the number of cells to the origin, times the slope).", "quantifier": "all rasters and altitudes, all geotransforms without rotation, all lines of sight, all rounding errors", "why_tests_cant": "the intersection works in the frame of the indices and converts at both ends; a shift of half a cell, or an exchange of rows and columns in one conversion only, is invisible on flat or symmetric test data", "anchors": ["shareloc/geofunctions/dtm_intersection.py: DTMIntersection.intersection_n_los_dtm, ter_to_index, index_to_ter", "shareloc/proj_utils.py: transform_index_to_physical_point, transform_physical_point_to_index"]}
{"id": "C102", "title": "The C++ and Python DTM intersections give the same bits", "statement": "For the same DTM, geotransform and line of sight, the compiled and the interpreted implementations of the DTM intersection return the same longitude, latitude and altitude bit for bit (or both find nothing).", "quantifier": "all rasters of at most 2^18 rows and columns and less than 2^31 cells, all usual altitudes, all six-number geotransforms, all lines of sight of usual coordinates, all rounding errors", "why_tests_cant": "tests compare the two implementations with a tolerance on a few lines of sight; they differ in index arithmetic (int casts, unchecked reads, products by a reciprocal) and only a proof covers every double", "anchors": ["shareloc/bindings/dtm_intersection.cpp: DTMIntersection::intersect_dtm_cube, intersection, interpolate, ter_to_index, index_to_ter", "shareloc/geofunctions/dtm_intersection.py: DTMIntersection.intersect_dtm_cube, intersection, interpolate, ter_to_index, index_to_ter"]}
{"id": "C103", "title": "A ground position found by the iterative RPC localization is seen in its pixel, in machine arithmetic", "statement": "When the iterative direct localization of an RPC model (the default one, which inverts the inverse coefficients) ends with its precision before its last iteration, at one altitude, every longitude and latitude it returns in the domain of an ordinary model is seen by the exact model within 1.02e-6 pixel of its pixel, whatever the compiler did with the rational functions and whatever the derivatives were; so it is within 2.04e-6 pixel, measured on the ground, of the position that the pixel sees exactly, and the Python and compiled classes are within twice that of each other.", "quantifier": "all binary64 coefficients, offsets and scales of an ordinary model, all batches of pixels at one altitude with or without NaN, all numbers of iterations, all evaluation orders and rounding errors, all computed derivatives", "why_tests_cant": "the loop tests rounded residues of functions whose order of operations is chosen by the compiler, on the maximum of a batch; a test sees one machine and one batch, and a tolerance of a test hides a residue of another position or of another pixel", "anchors": ["shareloc/geomodels/rpc.py: RPC.direct_loc_inverse_iterative, RPC.inverse_loc, RPC.filter_coordinates", "shareloc/bindings/rpc.cpp: RPC::direct_loc_inverse_iterative, RPC::inverse_loc"]}
{"id": "C104", "title": "The iterative RPC localization reaches its precision within six iterations, in machine arithmetic", "statement": "When the iterative direct localization of an RPC model starts, at its offsets, in a well-conditioned square around the ground point that a pixel sees exactly, it reaches its precision within six iterations of binary64 arithmetic (the default limit is ten), so it never returns an unconverged position: the result is seen within 1.02e-6 pixel of the pixel and is within 2.04e-6 pixel, measured on the ground, of that ground point. This holds for every pixel of the C++ version and for every batch at one altitude of the Python version. With several altitudes in a Python batch, seven iterations are enough, and a pixel may keep the start of the loop when the start is seen in it at the altitude of the first pixel.", "quantifier": "all binary64 coefficients, offsets and scales of an ordinary model of a gentle curvature and a condition number of at most 500, all finite pixels whose ground point is in the central part of the domain, all batches at one altitude with or without NaN pixels, all limits of at least six iterations, all evaluation orders and roundings of the polynomials and of their derivatives", "why_tests_cant": "the convergence depends on the rounding errors of the residues, of the four derivatives and of the solution of the 2x2 system at each iteration, for every model and pixel; a test runs a few models on one machine, and a loop that stagnates just above its tolerance would only be seen on other ones", "anchors": ["shareloc/geomodels/rpc.py: RPC.direct_loc_inverse_iterative, RPC.compute_loc_inverse_derivates, derivative_polynomial_latitude, derivative_polynomial_longitude, compute_loc_inverse_derivates_numba", "shareloc/bindings/rpc.cpp: RPC::direct_loc_inverse_iterative, RPC::compute_loc_inverse_derivates, derivative_polynomial_latitude, derivative_polynomial_longitude"]}
{"id": "C105", "title": "The ends of a line of sight of an RPC model are seen in their pixel, in machine arithmetic", "statement": "In binary64 arithmetic, the two ends that los_extrema gives for a pixel of an ordinary RPC model are valid ground positions, of exactly the altitudes asked for (or of the middle half of the altitude range when none is), and the model sees each of them within 1.02e-6 pixel of the pixel. When an altitude is out of the range of the model, the two ends are on the straight line through the positions of the middle half of the range, within 1e-9 degree, and their altitudes are the ones asked for within 1e-9 metre. Each pixel of a batch gets its own two ends, and a pixel without a row or a column gets NaN ones.", "quantifier": "all ordinary binary64 models, all batches of finite or NaN pixels whose ground points at the two altitudes are in well-conditioned squares around the start, all altitude bounds within 900 times the altitude scale, all evaluation orders of the polynomials, fused or separate operations, both implementations", "why_tests_cant": "the ends are results of an iterative computation and of a quotient of rounded differences that can amplify errors when the altitudes are far from the range; tests compare a few lines of sight of a few products with a tolerance", "anchors": ["shareloc/geomodels/rpc.py: RPC.los_extrema, RPC.get_alt_min_max, RPC.direct_loc_h, RPC.direct_loc_inverse_iterative", "shareloc/geomodels/geomodel_template.py: GeoModelTemplate.check_lonlat", "shareloc/bindings/rpc.cpp: RPC::los_extrema, RPC::get_alt_min_max, RPC::direct_loc_h"]}
{"id": "C106", "title": "The direct localization of an RPC model on a DTM gives positions on the ground, in machine arithmetic", "statement": "In binary64 arithmetic, each position that direct_loc on a DTM gives for a pixel of an ordinary RPC model is a valid longitude and latitude, and its altitude is the bilinear altitude of the DTM at that place, within 0.1 mm plus the rounding of the conversion to indices. It comes from the line of sight of that pixel: the altitudes of its two ends are one metre (within 1e-9) above and below all the altitudes of the DTM, and the model sees the two ends, or two points of the same line when the DTM is out of the altitude range of the model, within 1.02e-6 pixel of the pixel. Each pixel of a batch gets its own result, and a pixel without a row or a column gets a NaN position.", "quantifier": "all ordinary binary64 models, all batches of finite or NaN pixels whose ground points are in well-conditioned squares around the start, all north-up DTMs of 2 to 2^18 rows and columns with altitudes up to 16384 m, all evaluation orders of the polynomials, fused or separate operations, both implementations (C++ for the lines of sight where C102 makes it agree with Python)", "why_tests_cant": "the result chains an iterative localization, a prolongation, two conversions of coordinates and a walk with a dichotomy, all rounded; tests compare a few pixels on a few DTMs with a tolerance", "anchors": ["shareloc/geomodels/rpc.py: RPC.direct_loc_dtm, RPC.los_extrema", "shareloc/geomodels/geomodel_template.py: GeoModelTemplate.get_dtm_alt_offset, GeoModelTemplate.check_lonlat", "shareloc/geofunctions/dtm_intersection.py: DTMIntersection.intersection_n_los_dtm", "shareloc/bindings/rpc.cpp: RPC::direct_loc_dtm"]}
{"id": "C107", "title": "The window read for a region of interest covers the region and keeps its georeference, in machine arithmetic", "statement": "In binary64 arithmetic, an image opened with a region of interest in physical space reads a window which is always inside the file. Up to the rounding of the conversion to indices, the window holds all the part of the region that is in the file, and less than one pixel more on each side, whichever way the rows go. A region that meets the file, its columns given in the order of the file, is never refused. The geotransform of the window has the pixel sizes of the file, and puts each pixel of the window where the geotransform of the file puts it, up to a rounding of a few units in the last place. The coordinates computed for the pixels of the opened image are the ones of the same pixels of the file up to rounding, their ordinates being counted in the vertical direction asked for.", "quantifier": "all north-up binary64 geotransforms (either sign of the pixel sizes), all file sizes, all regions with finite corners up to 1e9 pixels away; the inclusion in the file for all geotransforms and all binary64 corners, NaN and infinities included", "why_tests_cant": "the floor and ceiling of a rounded index can go to the next pixel when a bound of the region is on a limit of pixels; tests open a few files with one or two regions", "anchors": ["shareloc/image.py: Image.__init__", "shareloc/proj_utils.py: transform_physical_point_to_index"]}
{"id": "C108", "title": "Each position of the Earth has a geoid height, in machine arithmetic", "statement": "In binary64 arithmetic, interpolate_geoid_height of a geoid that covers all the longitudes gives a height for each position of the Earth: the bilinear height, up to rounding errors, at the latitude and at the longitude modulo 360 degrees. Latitudes beyond a pole are refused, and only these.", "quantifier": "all geoids with finite binary64 geotransforms and heights, whose columns cover 360 degrees up to a billionth of a degree from a first column between -180 and 0 degree, all batches of binary64 positions up to a turn out of the range of the geoid, all formulas of the interpolation with a bounded rounding error", "why_tests_cant": "a rounded index can be out of the raster by an unit in the last place, for some pixel sizes and some longitudes only; the tests use one geoid, whose pixel size is a power of two", "anchors": ["shareloc/dtm_reader.py: interpolate_geoid_height", "shareloc/proj_utils.py: transform_physical_point_to_index"]}
{"id": "C109", "title": "The altitudes of a DTM read with a geoid are the ones of the file plus the heights of its own cells, in machine arithmetic", "statement": "In binary64 arithmetic, a DTM in degrees opened with a geoid that covers all the longitudes is read without an error, and the altitude of each cell is the altitude of this cell in the file plus the height of the geoid at the centre of this cell, up to the rounding of the centre (a few units in the last place) and of the sum. A cell without an altitude or without a height is a NaN. A DTM with a row beyond a pole is refused.", "quantifier": "all north-up binary64 geotransforms of DTMs whose cells are a billionth of a degree away from the poles, all sizes, all binary64 altitudes, all global geoids of C108", "why_tests_cant": "the centres and the heights are rounded for every cell of the DTM; tests compare a few cells of one DTM", "anchors": ["shareloc/dtm_reader.py: DTMReader.__init__, interpolate_geoid_height", "shareloc/proj_utils.py: transform_index_to_physical_point"]}
