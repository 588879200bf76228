# Formal model of CNES/shareloc

## Scope and method

The model is written in Coq 8.16.1, in `rocq/theories`. It follows the source of
`/repo/shareloc` function by function. Each definition carries a comment citing the
file and lines it models, with the simplifications made.

* Files named `*Model.v` hold only definitions (the programs).
* Files named `*Spec.v` hold the small independent specifications (when one is needed).
* Files named `*Proofs.v` hold the lemmas.
* Files named `Properties*.v` hold the statements of the theorems listed in
  `MANIFEST.json`, one concrete non-trivial instance beside each, and `Print Assumptions`.

### Numbers

Floating-point numbers are modelled as exact real numbers (stdlib `R`).
**Rounding, overflow and signed zeros are not modelled**, except in `FloatModel.v` (C77: the number of
coordinates of a grid depends on the rounding), `FloatInterpModel.v` (C85, C86: the interpolation and
the first test of the DTM intersection), `FloatWalkModel.v` (C96-C99: the whole DTM intersection),
`FloatGeoModel.v` and `FloatTerModel.v` (C100, C101: indices and physical coordinates), `FloatCppModel.v` (C102: the C++ DTM intersection), `FloatNewtonModel.v` and `FloatConvModel.v` (C103, C104: the iterative RPC localization), `FloatLosModel.v` (C105: the lines of sight of an RPC model), `FloatDirectModel.v` (C106: the direct localization of an RPC model on a DTM), `FloatImageModel.v` (C107: the window of an image read with a region of interest), `FloatGeoidModel.v` and `FloatEllipsoidModel.v` (C108, C109: the heights of a geoid and the altitudes of a DTM read with it) and `FloatRpcModel.v` (C88: the RPC rational functions), which use the binary64 operations of Flocq.
The functions of `rpc.py` lines 626-860 are compiled by numba with `fastmath=True`: the compiler may change
the order of the operations (C88 covers all the orders) and may assume that there is no NaN and no
infinity. The exact model propagates a NaN coordinate through these functions; this is what the generated code
does when it only consists of arithmetic operations, but the compiler does not promise it.
Where NaN matters, values are `option R` (`None` is NaN; an infinite value is merged with NaN).
Comparisons with NaN are false, arithmetic propagates NaN, and a division by zero gives `None`.
(The numba loops are compiled with numpy's division: a zero denominator gives an infinity or a NaN, as
in numpy. This is how numba compiles a parallel loop, the default of shareloc; with
`SHARELOC_NUMBA_PARALLEL=False` numba's own default would raise `ZeroDivisionError` for the whole call,
which is not modelled.)
Integers are `Z`; list positions are `nat`.

### Loops and errors

`while` loops are structural recursion on a fuel argument. Running out of fuel is a distinct
result, and the statements exclude it (or prove that it cannot happen).
Python exceptions and C++ undefined reads are explicit results (`None` or a constructor).

### External code

rasterio, numpy, scipy, xarray and pyproj calls are replaced by their documented meaning (list and
matrix operations), or are arguments of the model (coordinate conversion, geometric models, files).

## Trusted base

* Coq's kernel.
* The stdlib axioms of the reals, reported by `Print Assumptions`:
  `ClassicalDedekindReals.sig_forall_dec`, `ClassicalDedekindReals.sig_not_dec`,
  `FunctionalExtensionality.functional_extensionality_dep`, and `Classical_Prop.classic` where
  the analysis part of the stdlib uses it.
* `rocq/theories/Assumptions.v` (last module of the build) runs `Print Assumptions` on every theorem of
  `MANIFEST.json`; its output in the build log is the exact list for each theorem. No theorem depends on
  anything but the four axioms above.
* The correspondence between the Python/C++ text and the Coq definitions (by reading).

## What is modelled and what is not

Every function of `/repo/shareloc` is modelled, except the following.

| code | why |
|------|-----|
| `proj_utils.coordinates_conversion` | calls pyproj: it is an argument of the model (a function of two EPSG codes and an array). |
| the log messages, `rpc_converter.setup_logging`, the command line parser | no effect on results. |
| `Image.set_metadata` | assigns attributes, called by no other function. |
| `config.py`, property getters (`LOS.starting_points`, `DTMIntersection.get_epsg`...), `rectification.init_inputs_rectification` | configuration, plain attribute reads, and a wrapper of the modelled `prepare_rectification` used by the tests. |
| rasterio, xarray and numpy file access | files are arguments (arrays, tags, geotransforms, text lines); the readers and writers are modelled on their contents. |
| `RegularGridInterpolator` (rectification grid, geoid) | replaced by its definition: multilinear interpolation, extrapolated from the border cells or NaN out of bounds as the call asks. |
| float32/float64 rounding, overflow | see Numbers (modelled for C77, C85, C86 and C88). |
| thread scheduling in `prange` | modelled as an arbitrary interleaving of the stores of the iterations (C52). |
| pybind11 conversions | modelled where they fail (`None` given for a `double`), otherwise the identity. |

The C++ files `rpc.cpp`, `dtm_intersection.cpp`, `rectification.cpp`, `localization.cpp` and the pickling
code of `bind.cpp` are modelled separately from the Python files they mirror.

## Plan per property

| id | property | model and proof plan |
|----|----------|----------------------|
| C01 | Bilinear interpolation never reads outside the raster | Model the index selection over Z and R (floor = Int_part); rasters are functions Z->Z->R together with their size, and every read is checked (option). Prove no read fails. |
| C02 | Interpolation is exact at the nodes and stays between the surrounding samples | Algebra on the bilinear weights; convexity lemma by nra. |
| C03 | Interpolation reproduces affine surfaces everywhere and is continuous across cell borders | ring on affine data; common-edge lemma for neighbouring cells. |
| C04 | The scalar, multi-layer, vectorised and C++ interpolators agree | Model the four interpolators separately (C++ on a flat list with row*nb_columns+col index) and prove them equal. |
| C05 | Pixel index and ground coordinates are inverse of each other | Affine composition over R, field. |
| C06 | Invalid geographic coordinates are blanked row by row | Rows are triples of NaN-able numbers (option R); induction on the list of rows. |
| C07 | RPC polynomials of the Python and C++ implementations are the same cubic form | Three independent definitions (Python formula, C++ array product, fold over the monomial table); ring. |
| C08 | The analytic RPC derivatives are the true derivatives | stdlib derivable_pt_lim of the inverse localization; derivation rules. |
| C09 | RPC inverse localization treats each point of a batch independently | Batch function over lists vs point function: map/nth lemmas. |
| C10 | Iterative RPC direct localization stops and returns a point that re-projects on the pixel | Invariant of the Newton loop: the stored residual is the residual of the stored ground point. |
| C11 | Iterative RPC direct localization of a batch equals the point-by-point result | Refinement batch loop -> per point loop by induction on the iterations; counterexample (refuted) for per-point altitudes. |
| C12 | Direct localization keeps the batch shape, the altitude, and the NaN policy | List lemmas on the mask/scatter operations. |
| C13 | Lines of sight span exactly the requested altitude interval and stay on the model's line | Algebra over R, per pair of consecutive rows. |
| C14 | DTM cell bounds enclose the interpolated surface | min/max/floor/ceil lemmas plus convexity of C02. |
| C15 | Cube intersection returns the first point of the line of sight in the DTM cube | Model per face the first crossing along the polyline, then sort and filter. Invariants: every candidate is on the LOS and on its face; sort is a permutation; first retained is minimal. |
| C16 | A vertex of the line of sight lying on a face is reported at its own index | Refuted: witness with a first vertex on a face plane (index -1); proved under the hypothesis that the first vertex is off the six planes. |
| C17 | The DTM intersection returned as found is on the surface and on the line of sight | Invariant of the three loops (point on the line, inside its cell). |
| C18 | The DTM intersection always terminates | Explicit variant for the cell walk; for the refinement loop the false-position iterates on a quadratic move one end only, so the steps sum to at most 1. Polylines by induction on the vertices, the current point being on the segment or above its first vertex. A line of sight with a hidden vertex for which the refinement is a cycle. |
| C19 | No crossing is skipped by the cell walk | Invariant of the walk; C14 for the skip test. |
| C20 | A missed surface is reported as NaN | Refuted by a witness; the part that holds (cube missed => NaN) is proved. |
| C21 | Python and C++ DTM intersections agree | Model both; refuted by a witness entering on a cell border (C++ resets the cell index to 1); proved equal under the hypothesis that no entry point is on such a border. |
| C22 | The first crossing with the surface is the one returned | Refuted by a saddle cell where a line of sight dips under the surface and re-emerges; the part that holds is proved (C19). |
| C23 | Triangulation returns the common point of concurrent lines of sight | 3x3 symmetric matrices over R, explicit inverse by cofactors. |
| C24 | Triangulation minimises the sum of squared distances to the lines of sight | Quadratic form identity: sum of squared distances = value at the solution + (x-p)^T S (x-p); S positive definite iff two directions are not parallel. |
| C25 | Triangulation residues are the distances to the lines of sight | Lagrange identity. |
| C26 | Each match is triangulated independently and NaN matches stay NaN | Lists with filter/scatter. |
| C27 | Disparity maps are turned into matches pixel by pixel | Lists: row-major enumeration, mask and scatter. |
| C28 | LOS objects hold unit viewing vectors through the sensor's ground points | Algebra over R with sqrt. |
| C29 | The epipolar angle is the direction of the local epipolar line | cos/sin of atan (stdlib). |
| C30 | Moving along the grid axes makes steps of the requested length in orthogonal directions | cos^2+sin^2=1, shift by pi/2. |
| C31 | Epipolar strips have exactly the requested size and start at the given points | Loop invariants over fuel; column-major C++ traversal vs lock-step Python loop. |
| C32 | The mean baseline ratio is the mean of the local ratios of the grid | Refuted: the two strips are weighted with swapped sizes; exact formula for the returned value proved and equality when the grid is square. |
| C33 | Adaptive strips fit their buffer | Refuted by a constant-ratio history; safe bound proved. |
| C34 | The rectification grid covers the rectified image, and the rectified image covers the input image | Algebra and floor lemmas. |
| C35 | Displacement grids and position grids are the same information | Bilinear interpolation of C03 applied to the displacement plus the affine identity part; scipy's interpolator is modelled as bilinear interpolation. |
| C36 | Grid models order their altitude layers from top to bottom with their own bands | Insertion sort / argsort as permutation of the bands. |
| C37 | Grid altitude lookup brackets the requested altitude | Model the loop on the altitude list; induction. |
| C38 | The grid inverse localization uses the inverse of the local direct matrix | 2x2 inverse by field; loop invariant. |
| C39 | Grid lines of sight cover the DTM altitude range | List invariants on the extrapolated vertex lists. |
| C40 | All RPC readers deliver the same pixel convention | Readers as functions on abstract parsed parameters. |
| C41 | Writing an RPC and reading it back preserves the inverse model | Dictionary round trip; RPB text printing/parsing at token level. |
| C42 | rpc_writer never overwrites silently | File system as a map; writer as a state transformer. |
| C43 | The RPC driver is selected by a fixed order of tests on the file | Case analysis on the identification results. |
| C44 | The geomodel factory is a last-registration-wins registry | Registry as association map; induction on histories. |
| C45 | Localization applies elevation sources with a fixed precedence | Definitions with external model/conversion functions as Section variables; case analysis. |
| C46 | Inverse localization undoes direct localization through the Localization API | Composition of inverse functions. |
| C47 | Colocation is inverse localization in the second image of the direct localization in the first | As C46. |
| C48 | An image read with a region of interest stays inside the file and covers the region | Integer/real floor arithmetic for the window. |
| C49 | Filling DTM nodata leaves valid cells unchanged | List map lemmas. |
| C50 | Geoid heights are interpolated at the right longitude for any longitude convention | Integer shift arithmetic. |
| C51 | A per-point failure of the Newton inverse stays local (RPC batches) | Refuted by a batch with one NaN altitude; the part that holds is C11's refinement. |
| C52 | Each call of the numba-parallel loops is schedule independent | Permutation of writes to distinct indices: fold over any permutation gives the same array. |
| C53 | The DTM intersection never fails on a batch | Case analysis of the refinement step; refuted by a segment lying on the surface at both ends; proved otherwise. |
| C54 | The intersection lies between the ends of the line of sight | Invariant of the walk; refuted when the last vertex is above the surface inside the cube. |
| C55 | RPC localization over a DTM returns a point of the DTM on the line of sight, or NaN | Composition of C13 (LOS) and C17 (intersection). |
| C56 | The localization extent encloses the whole image | Monotone/affine models; refuted by a rotated image (two corners only). |
| C57 | The epipolar extent encloses the ground footprint of the rectification | min/max of four corners; affine functions reach their extrema at corners. |
| C58 | The rectification footprint contains the nodes of the grid | Frame coordinates; refuted for pixels larger than one unit. |
| C59 | Grid direct localization on a DTM returns points of the surface on the line of sight | Reduce to C15/C17 per pixel with the lines of C39; refuted for a DTM in another system. |
| C60 | Sampling a grid on the image is localizing each pixel | List lemmas on the row-major sampling; counterexample for layers above the DTM. |
| C61 | A geoid height is given only where the raster covers the position | Inversion of the lookup; counterexample on a regional raster (the wrap column). |
| C62 | Converting an RPC keeps its inverse model and touches only its target | Composition of the reader and writer models over a map of files. |
| C63 | The two pixel conventions differ by half a pixel, in every request | C40 gives the shift of the offsets; each localization function commutes with it (induction on the loops). |
| C64 | A converted or rewritten model localizes as the original | C41/C62 give equal inverse models; no request without direct coefficients reads anything else. Refuted for the direct coefficients, which no writer keeps. |
| C65 | The file format of a model is irrelevant | C40/C43 per format give the same parameters; the rest as C64. |
| C66 | The compiled model class computes the same inverse localization | OptimModel over CppRpcModel; the vector function is a map with exceptions, compared point by point with the numba loop. Refuted for a zero denominator and for one altitude for several points. |
| C67 | The two RPC classes hold the same model | Constructor modelled as a partial function of the parameters (arrays of 20, all-zero test); field by field comparison. |
| C68 | The compiled model class computes the same direct localization | Both sides are related to the specification of Newton's method (RpcConverse gives the converse of C11). Refuted for mixed altitudes. |
| C69 | Lines of sight and DTM localization of the compiled model class | Composition of C13 (C++), CppLine (every value of the C++ walk is on the line and on the surface) and C21/C19. |
| C70 | A pickled DTM is restored identically | The object as a record of its 16 members, setters as updates of an arbitrary initial object. |
| C71 | A ground point seen in two images is recovered by sensor_triangulation | Composition of C12 (RPC localization), C28 (lines of sight), C23/C24 (normal equations) through sensor_triangulation; two unit sights through the ends of each line. |
| C72 | The predictor of the grid inverse localization is the least-squares fit, and exact for quadratic inverses | Normal equations of the least-squares fit solved with a two-sided inverse; normalisation as a change of polynomial; sampled nodes through C60; composition with C38 for affine layers. |
| C73 | A grid colocation node is the homologous pixel through the DTM | Loop over nodes; composition of C59 and C72/C38. |
| C74 | Resampling a grid gives the ground positions of the resampled pixels | C60 at each altitude; values of the nodes of a layer. |
| C75 | Rectified images of affine sensors have no vertical parallax, and the disparity gives the altitude | Transfer between the images as an affine map, epipolar direction constant, the nodes of the grid form a lattice (induction on the nodes), bilinear interpolation of a lattice is affine; then linear algebra in the plane. |
| C76 | A disparity map is triangulated to the ground points its pixels see | C27 for the bookkeeping, the list of the selected pixels rebuilt from their ranks, C71 for the points. |
| C77 | A grid that the library writes can be opened again | Binary64 model with Flocq; exact operations on a dyadic lattice, relative error bound of the product for the general case, monotonicity of rounding; counterexamples by computation in the kernel. |
| C78 | What the epipolar grids with an adaptive step are | Induction on the loop of the strips: the state is the image under awalk of a list of nodes with their sums of inverse factors; the sum is the length of the path over the step. |
| C79 | The left and right nodes of an adaptive grid see the same ground | Counterexample: one bend under the first step. Part: induction along the column, then along the lines, from C78. |
| C80 | The grids cover the rectified images of the announced size | From the sizes of prepare_rectification for the fixed step; from the number of nodes of C78 otherwise. |
| C81 | On flat ground an adaptive step changes nothing in the grids | The factor of each step is 1; the loop with larger buffers returns the same values, and no ratio is NaN. |
| C82 | The direct localization of an RPC model converges | Mean value theorem along the two sides of a rectangle gives the quadratic error bound of a Newton step; induction on the iterations; then C12 (direct localization is the Newton run of each pixel). |
| C83 | The inverse localization of a grid converges | The bilinear interpolation is Lipschitz along each axis around the mesh (induction over the cells between two positions); a correction with the cell's matrix then leaves at most 5*density*bend of the error; induction on the iterations. |
| C84 | How far the triangulated position can be from the true one | The sum of squared distances is quadratic with the normal matrix; its smallest eigenvalue is at least 1 - c because no vector is close to two directions that differ (Cauchy-Schwarz). |
| C85 | Interpolation in binary64 | Rounding error of each binary64 operation (Flocq), composed along the formula; the shifts are exact because a fractional part of a binary64 number is one; case analysis at the corners; counterexample computed by the kernel. |
| C86 | A line of sight that enters a DTM from above is never taken for one that comes from below | The first test of the intersection on top of the binary64 interpolation; counterexample computed by the kernel; error bound from C85. |
| C87 | Localization on a DTM in another vertical reference | Composition of C13, C17, C54 and C19 with the offsets computed at the corners (least and greatest of the four heights); counterexample with a parabolic height. |
| C88 | Rounding of the RPC rational functions, whatever the compiler's order | FloatRpcModel: the results of all the orders of operations as an inductive relation over expanded polynomials (Flocq binary64). Induction over the evaluation: at most (terms - 1) + (longest term - 1) roundings reach a term. Then the normalisation, the quotient and the offset. |
| C89 | Epipolar grids where the ground is not found | Models of the strip loop as before, with geometric models over `num` that may answer NaN (`RectHoleSpec.v`). A strip with constant steps is the iteration of one function on each node (`RectHole.qstrip`), which gives independence; an unlocalized node has NaN ends, hence the angle 0. Counterexamples computed on a terrain that stops at a row. |
| C90 | The compiled intersection stays inside of its buffers | Second model of `dtm_intersection.cpp`, with vectors as lists and checked `read`/`write` at integer indices; a call returns, throws, is undefined or does not end (`CppMemModel.v`). Loops over the buffers are proved equal to the list functions of the first model by induction on their prefixes (`CppMem.v`); the tables of the cells and the layout of the arrays are specified in `CppMemSpec.v`. |
| C91 | An interrupted RPC export never leaves another model | Second model of the writers as a list of `open`/`write` calls over the map of files, with a relation for all the states where an execution may stop (`WriteCrashModel.v`); the states are beginnings of the text by induction on the calls, and the words of a beginning are the words of the text, the last one perhaps cut (`WriteCrash.v`). |
| C92 | A call leaves the arrays of its caller as they were | Model of the functions that assign to arrays of their caller as transformers of a store of arrays, statement by statement (`AliasModel.v`); invariants over sequences of calls by induction, and the heights from C50. |
| C93 | The compiled strip computation stays inside of its arrays and gives the grids of the Python function | Model of the C++ function on flat buffers with checked reads and writes, the arrays of the caller in a store; induction on the points of a strip and on the starting positions with the buffers as functions of the index; the converse from the sizes of the buffers, which the loops keep. |
| C94 | The compiled localization of vectors reads inside of the vectors and uses coefficients that were given | Model of the loops over the points with checked reads, a flag for coefficients the constructor has set; induction on the points against the model without checks (CppRpcModel); the converse from the reads each point makes. |
| C95 | The text of an exported JSON model is a JSON document that holds the model, and an exported file can be read again | Specification of a JSON reader (values, lists, objects, blanks) by recursive descent with fuel; induction on the fields and lists that the writer prints; an object without its closing brace is refused whatever its content; symbolic run of rpc_reader on the first line of the texts. |
| C96 | The intersection of a line of sight with a DTM ends, in machine arithmetic | Binary64 model of dtm_intersection.py in the index frame. A measure (cells left in the direction of the segment) decreases at each move of the walk, by cases on the comparisons that rounding keeps; list induction for the vertices. Refinement: Lipschitz bound of the surface, absolute error of each operation, and a measure (distance of the two ends weighted by the slope, plus a penalty for each end that is near the surface) that decreases by 1/20000 at each iteration; a repeated state for the refutation, computed in the kernel. |
| C97 | The point where a line of sight meets the DTM is on the surface, in machine arithmetic | Induction on the loops of the binary64 model (every point that is returned passed the test of the tolerance), rounding of the difference of altitudes, error bound of the interpolation, invariant of C96 for the finite coordinates; the refutation is computed in the kernel. |
| C98 | The positions of the DTM intersection are on the line of sight, in machine arithmetic | Backward error of each operation of the moves (a position on a grid line is exact along one axis; along the others the error is a multiple of the last bit of the coordinate), invariant of the walk for a direction along an axis, weights of the crossing of a plane, invariant of the refinement: its parameter is larger than 1 only while the lower end is the first one, so that the errors do not grow. |
| C99 | The DTM intersection skips no cell in which the line of sight crosses the ground, in machine arithmetic | Bounds of the bilinear surface in a cell, Lipschitz constant for positions slightly outside of the cell, exact integers for the rounded extremes, sign of a product of rounded differences; case analysis of the moves; induction on the walk. |
| C100 | Indices and physical coordinates are converted, and converted back, up to a few roundings | Relative error of the three roundings of the inverse of a cell size, absolute error in cells of the origin, of the products and of the sums; terms multiplied by the zero rotation coefficients are exact zeros. |
| C101 | A ground position in physical coordinates is on the DTM at its own longitude and latitude, in machine arithmetic | The finite result bounds the index behind it (inverted rounding bounds), C100 gives the distance between this index and the exact index of the result, C97 and the Lipschitz constant of the surface give the altitude. |
| C102 | The C++ and Python DTM intersections give the same bits | Binary64 model of the C++ with its int casts, unchecked reads and exceptions; the two models are shown equal function by function, the loops by induction on their fuel, under the invariant that the index of the entry stays in the line of sight. |
| C103 | A ground position found by the iterative RPC localization is seen in its pixel, in machine arithmetic | Relational binary64 model of the loop over the evaluations of C88 with any correction; invariant: the residues of each state are those of its position; the maximum of residues that are not NaN bounds each of them; C88 bounds the distance to the exact model and the condition of C82 the distance on the ground. |
| C104 | The iterative RPC localization reaches its precision within six iterations, in machine arithmetic | Binary64 model of the derivatives and of the correction (FloatConvModel.v) in the loop of C103. Forward error of the ten-term derivative polynomials, of the quotient rule and of the 2x2 system; inexact Newton step; six explicit radii, after which the computed residues are below the tolerance; induction on the iterations left. |
| C105 | The ends of a line of sight of an RPC model are seen in their pixel, in machine arithmetic | Binary64 model of los_extrema and direct_loc_h (FloatLosModel.v) over the iterations of C104. C104_batch with the altitudes interleaved as the code does; forward error of the prolongation (difference, quotient, product, sum, fused or not). |
| C106 | The direct localization of an RPC model on a DTM gives positions on the ground, in machine arithmetic | Binary64 model of direct_loc_dtm of an RPC model (FloatDirectModel.v) over the models of C105, C101 and C102. The altitudes of the DTM and their extrema by induction on the raster; the offset of the mean altitudes is exactly zero; composition of the theorems. |
| C107 | The window read for a region of interest covers the region and keeps its georeference, in machine arithmetic | Binary64 model of the window and of its geotransform (FloatImageModel.v) over FloatGeoModel.v. Error bound of the indices (C100), then floor, ceiling and the limits of the file; rounding error of the composition of the translation with the geotransform. |
| C108 | Each position of the Earth has a geoid height, in machine arithmetic | Binary64 model of the wrapping of the longitudes and of the indices (FloatGeoidModel.v) over FloatGeoModel.v. Error bounds of each operation, case analysis of the two comparisons, error bound of the indices (C100); a geoid computed by the kernel for the refutation. |
| C109 | The altitudes of a DTM read with a geoid are the ones of the file plus the heights of its own cells, in machine arithmetic | Binary64 model of the centres of the cells and of the sum (FloatEllipsoidModel.v) over C100 and C108; position of each cell in the flattened array, error bound of the centres, composition. |

## Findings

Statements of `properties.jsonl` that are false of the code at this commit. Each one is a theorem ending in
`_refuted` that exhibits the failing case in the model; the part that does hold is proved beside it.

* **RPC localization.** The first residual of `direct_loc_inverse_iterative` uses the altitude of the first
  pixel for all of them (C10, C11, C68; also the lower ends of `los_extrema`). A NaN altitude ends the
  iterations of the whole batch (C51). A list of altitudes of the wrong length is silently replaced by its
  first value (C09). `RPC.direct_loc_grid_h` always raises (C55).
* **RPCoptim.** No range check of the coordinates (C09, C66). A zero denominator makes the whole batch fail
  (C66); one altitude for several points is rejected (C66). `los_extrema` in the system 4326 fails for the
  default bounds and for several pixels (C69). `direct_loc_dtm`
  returns an uninitialised position when the surface is missed (C69).
* **DTM intersection.** `intersection_n_los_dtm` ignores the "found" flag: a missed surface gives (0, 0, 0)
  (C20, C55, C59). A first vertex on a face of the cube gives the index -1 (C16). A vertex of a line of
  sight that is below the surface of a saddle cell which the extended segment leaves above the surface is
  not noticed: the next refinement is started below the surface, and it may stop at a point outside of the
  DTM (C17) or never stop (C18: the iterates go to and fro between two points, all of them binary
  fractions, so the rounding of floats does not help). In binary64
  the refinement also runs for ever in a cell with an altitude of -3.4e38, the usual mark of missing data in
  simple precision when it is not declared in the file (C96): the rounded position stops moving before the
  altitude is within the tolerance. A line of sight that is one bit above the surface at the entry of a cell
  and on it at the exit gives a division by zero: infinite coordinates are returned as a found point (C97). A vertical segment (C17), a line of sight along the last row or column (C19), a double crossing inside one saddle cell (C22)
  and a line of sight with both ends of a cell on the surface (C53, an exception for the whole batch) are
  not handled. The last vertex above the surface inside the cube: an intersection after the end may be
  returned (C54). The C++ twin assigns 1 instead of subtracting 1 when the line of sight starts on a cell
  border and decreases (C21). In binary64 the interpolated altitude of a flat terrain can exceed its
  samples by a last bit (C85); a line of sight that enters by the top face is then taken for one that
  comes from below and its localization is NaN (C86, a terrain at 100 m everywhere). With a DTM in another
  vertical reference the altitudes are converted at the four corners of the DTM only: where the height of
  the reference leaves the range of the corners, the line of sight is looked for under or over the terrain
  and the pixel is not localized (C87). In binary64 as in real numbers, C++ starts a segment that goes down from a line between
  cells in the wrong cell, and can miss a surface that Python finds (C102); on all other lines of sight off the faces of the box
  the two results are identical bit for bit.
* **Triangulation.** One match with parallel lines of sight makes the whole batch raise (C26). The pixels
  that are masked in a disparity map get the position (0, 0, 0) (C27).
* **Rectification.** The mean baseline ratio does not weight the strips by their nodes (C32). The buffer of
  the strips with an adaptive step overflows (C33). A left node without ground is not NaN: its direction is
  taken as 0, and it goes on along a row or a column; with an adaptive step the strip stops there (C89). The box ignores the rotation of the geotransform and is
  anchored at the centre of the first pixel (C34). The footprint is extended by the step in metres, not in
  pixels (C58). NaN points: Python gives the angle 0, C++ NaN (C29). With an adaptive step, the right nodes
  are interpolated and are not homologous to the left ones where the terrain bends (C79), and the announced
  size of the rectified images is half a step larger than the grid (C80).
* **Grids.** `return_grid_index` gives (-1, 0) for one layer (C37). `direct_loc_grid_dtm` does not extend the
  lines of sight to the DTM (C39, C60). `direct_loc_dtm` with a DTM in another system always fails (C59).
  The coordinates of the nodes are computed with `np.arange` on binary64 bounds: for some fractional steps
  there is one coordinate too many and opening the grid raises (C77, also `RectificationGrid`).
  A layer without an ALTITUDE tag is read at altitude 0, and a rotation in the geotransform is ignored (C36). `inverse_loc` applies the longitude/latitude
  check whatever the system, and a zero determinant raises for the whole batch (C38).
* **Compiled intersection, memory.** `dtm_intersection.cpp` reads outside of its buffers for a DTM of one row or one
  column, an array of lines of sight without vertices or without a third coordinate, and where the refinement gives
  0 / 0 (a line of sight in the surface), because nothing checks the shapes or the quotient (C90).
* **Compiled RPC, vectors.** `inverse_loc` of the bindings does not look at the inverse coefficients: in a model with
  direct coefficients only it uses members that the constructor never set, so `RPCoptim.inverse_loc` gives arbitrary
  numbers instead of an error. A NaN point without an altitude of its own is read outside of the altitudes, and so is
  the first altitude of an empty vector. The vector `direct_loc_dtm` reads as many columns as there are rows.
  `RPCoptim.direct_loc_h` with fewer rows than columns locates every point at the first altitude (C94).
* **Exported files.** `rpc_reader` raises `ValueError` on every json and rpb text that `rpc_writer` makes, so an
  export in these formats cannot be read again by the package alone (C95).
* **Arrays of the caller.** `interpolate_geoid_height` rewrites the longitudes of the array it is given, and
  `positions_to_displacement_grid` overwrites the positions with the displacements; with one array for both
  grids it subtracts the nominal positions twice (C92). The compiled `compute_strip_of_epipolar_grid` works in the
  arrays of starting positions it is given and leaves the last points of the strips in them; it does not check their
  shapes, and writes outside of its grids for any shape but one row (axis 0) or one column (axis 1) (C93).
* **Readers and writers.** The converter and the writers drop the direct coefficients (C41, C64). All formats
  but geotiff overwrite an existing file without `override` (C42); a missing or unreadable geotiff is
  ignored without an exception (C42). The target is emptied before the new text is written, so an interrupted
  export loses the old file (C91); converting an RPB file onto itself can lose the only copy.
* **Localization.** `extent` uses two corners (C56). A position over a DTM in another system is sent to the
  inverse localization without conversion (C46, C47).
* **Images, DTM and geoid.** A physical region of an image whose columns go west or that is rotated (C48);
  a region beyond the last row gives an empty image (C48). NaN cells are left by the default strategy when the
  file has no nodata value, and by `constant` without a value (C49). A file of integers holds the integer part of the statistic or of the
  fill value, and refuses `constant` without a value; a region of a single row or column is refused (C49). The geoid is read at the wrong place when
  its first longitude is positive (C50), and regional geoids get the wrap column (C61). In binary64, a geoid
  with pixels of 0.3 degree and a first column at the longitude 0 has no height (NaN) on its first meridian, because the
  column is rounded to -5.6e-17, and a geoid with pixels of ten minutes written with sixteen digits has no height at a pole
  (C108).
