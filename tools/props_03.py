P("C54","Inserted rows and columns","add-row (add-column) inserts exactly one zero row (column) at the requested index and keeps every other row in order; the index follows Python conventions in [-n, n] and raises outside.","every image of every shape and every integer index","gap panels are repaired with these ops at arbitrary positions; tests use one position",["hexrd/core/imageseries/process.py:ProcessedImageSeries._add_row","hexrd/core/imageseries/process.py:ProcessedImageSeries._add_col"])
P("C55","Frame-cache metadata round trip","Metadata saved with an npz frame cache comes back under the same keys with the same values (nested dictionaries excepted), and saving metadata never changes the image data or the number of frames.","every metadata dictionary, every series and every writer schedule","metadata keys are free text chosen by users; the writer and the frames share one namespace",["hexrd/core/imageseries/save.py:WriteFrameCache._process_meta","hexrd/core/imageseries/save.py:WriteFrameCache._write_frames_npz","hexrd/core/imageseries/load/framecache.py:FrameCacheImageSeriesAdapter._load_cache_npz_arrays"])
P("C56","Lazy loading is thread safe","However many threads index a frame-cache series at once, each sees the completely loaded frames, the file is loaded at most once, and no thread blocks forever, even if a load attempt raises.","every number of threads, every interleaving, every pattern of failing loads","data races and lost wake-ups appear only under rare schedules",["hexrd/core/imageseries/load/framecache.py:FrameCacheImageSeriesAdapter._load_framelist_if_needed"])
P("C57","Shared frame lists are never stale","Opening a frame-cache file returns the file's current content although loaded frame lists are shared through a small cache.","every history of rewriting and loading any number of files","depends on the order of writes and loads and on file time stamps",["hexrd/core/imageseries/load/framecache.py:_load_framecache_npz","hexrd/core/imageseries/load/framecache.py:_load_framecache_fch5","hexrd/core/imageseries/load/framecache.py:_stat_identity"])
P("C58","Iteration yields every frame","Iterating over an image series yields frames 0..n-1 in order, each exactly once, and an error while reading a frame is raised to the caller.","every series length, frame accessor and failing frame","an error inside a frame read may be confused with the end of the series for particular frames only",["hexrd/core/imageseries/imageseriesiter.py:ImageSeriesIterator.__next__"])
P("C59","Concurrent reads of one raw file","Threads that read frames of one raw image series at the same time each get the bytes of their own frame, whatever the interleaving, and no thread blocks forever.","every number of threads, every set of keys, every interleaving","the shared seek position is a race that appears only under particular schedules",["hexrd/core/imageseries/load/rawimage.py:RawImageSeriesAdapter.__getitem__"])
P("C60","Saving and reopening a configuration","Opening a configuration, saving it and opening the saved file gives the same sections.","every multi-document configuration","sections interact through inheritance on reload; tests use one document",["hexrd/core/config/__init__.py:save","hexrd/core/config/__init__.py:open"])
P("C61","Storing a dictionary in HDF5 always finishes","Writing any Python dictionary of dictionaries to HDF5 terminates, also when dictionaries are shared or contain themselves.","every finite graph of dictionary objects","termination for all object graphs, including cyclic ones",["hexrd/core/utils/hdf5.py:unwrap_dict_to_h5"])
P("C62","Tolerance grids cover the window evenly","make_tolerance_grid returns equally spaced values centred on zero that span the (possibly enlarged) window exactly, with spacing no larger than the bin width divided by the number of subdivisions; the one-sided form is symmetric with spacing equal to the bin width and covers the window up to one bin.","every positive bin and window width and every number of subdivisions","rounding of the number of divisions depends on the ratio of real-valued widths",["hexrd/core/gridutil.py:make_tolerance_grid"])
P("C63","Calibration picks survive being saved and restored","Reading a calibrator's picks as a dictionary of hkl strings and assigning that dictionary back loses no pick: every reflection keeps its picks in order.","every list of picks, every integer hkl, any number of picks per reflection","collisions appear only when two picks share a reflection",["hexrd/core/fitting/calibration/powder.py:PowderCalibrator.calibration_picks","hexrd/core/fitting/calibration/abstract_grain.py:AbstractGrainCalibrator.calibration_picks"])
P("C64","Assigning a calibrator's two-theta tolerance takes effect","After assigning a two-theta tolerance to a powder calibrator, reading it gives the assigned value.","every previous width and every assigned value","a setter that ignores its argument passes every test that assigns the current value",["hexrd/core/fitting/calibration/powder.py:PowderCalibrator.tth_tol"])
P("C65","The number of reflections is up to date","PlaneData.nHKLs equals the number of reflections that getHKLs lists, after any sequence of assignments, and getSymHKLs never fails.","every history of exclusions, maximum two-theta and lattice changes","depends on the order of assignments",["hexrd/core/material/crystallography.py:PlaneData.getSymHKLs","hexrd/core/material/crystallography.py:PlaneData.tThMax","hexrd/core/material/crystallography.py:PlaneData.exclusions"])
P("C66","Lookup by hkl identifier respects exclusions","getHKLs(id) returns the reflection with that identifier if it is not excluded and raises RuntimeError if it is.","every order of reflections, every exclusion, every identifier","depends on the sort permutation",["hexrd/core/material/crystallography.py:PlaneData.getHKLs","hexrd/core/material/crystallography.py:PlaneData._getHKLID"])
P("C67","Merged two-theta ranges are the union of the ranges","getMergedRanges puts every listed reflection in exactly one group, groups are the maximal runs of overlapping neighbours, and the merged ranges cover exactly the points covered by the individual ranges.","every number of reflections and every pair of monotone range ends","all overlap patterns",["hexrd/core/material/crystallography.py:PlaneData.getMergedRanges"])
P("C68","Hexagonal direction indices convert without changing the direction","Converting a three-index hexagonal direction to Miller-Bravais indices and back gives a positive multiple of the direction; the redundant third index is minus the sum of the first two.","every direction and every number of directions","depends on signs of remainders and on the number of rows",["hexrd/core/material/crystallography.py:convert_Miller_direction_to_MillerBravias","hexrd/core/material/crystallography.py:convert_MillerBravias_direction_to_Miller"])
P("C69","Skew matrices, axial vectors and symmetric parts","skewMatrixOfVector(w) times x is w cross x and vectorOfSkewMatrix inverts it; symm and skew give the unique symmetric and skew parts of a matrix and leave their argument alone; nrmlProjOfVecMV gives n.A.n; the inverse stretch returned by ale3dStrainOutToV is the inverse of the stretch.","every vector, matrix and strain output","identities over the reals",["hexrd/core/matrixutil.py:skewMatrixOfVector","hexrd/core/matrixutil.py:vectorOfSkewMatrix","hexrd/core/matrixutil.py:symm","hexrd/core/matrixutil.py:skew","hexrd/core/matrixutil.py:nrmlProjOfVecMV","hexrd/core/matrixutil.py:ale3dStrainOutToV"])
P("C70","solve_wahba returns the best-fitting rotation","solve_wahba returns a proper rotation, and no other rotation maps the first vectors closer (in weighted least squares) to the second.","every number of vectors, every vectors and weights, also mirror-image and coplanar data","optimality is a statement about all rotations",["hexrd/core/matrixutil.py:solve_wahba"])
P("C71","Block-diagonal and dyadic matrices","blockSparseOfMatArray puts every block on the diagonal and zero elsewhere; rankOneMatrix gives every product of entries.","every number and shape of blocks, every vectors","index arithmetic for all sizes",["hexrd/core/matrixutil.py:blockSparseOfMatArray","hexrd/core/matrixutil.py:rankOneMatrix"])
P("C72","toFundamentalRegion picks the equivalent orientation closest to the reference","toFundamentalRegion returns a symmetry-equivalent unit quaternion with non-negative scalar part and the least rotation angle among all equivalents; equivalent inputs get the same angle.","every unit quaternion, every symmetry group","all orientations",["hexrd/core/rotations.py:toFundamentalRegion"])
P("C73","Changing the units of Euler angles does not change the rotation","Assigning units to a RotMatEuler object rescales its angles so that its rotation matrix stays the same, for every accepted unit name.","every angles, every accepted spelling of the unit","the spelling and the angles interact",["hexrd/core/rotations.py:RotMatEuler.units","hexrd/core/rotations.py:RotMatEuler.rmat","hexrd/core/rotations.py:RotMatEuler.__init__"])
P("C74","Constrained detectors end where the final parameters say","With relative constraints, the detector poses after a fit are determined by the initial poses and the final parameter values, whatever values the optimiser tried in between.","every sequence of parameter values, every panels and groups, every rotation centre","depends on the history of evaluations of an optimiser",["hexrd/core/fitting/calibration/lmfit_param_handling.py:_update_constrained_detector_parameters","hexrd/core/fitting/calibration/lmfit_param_handling.py:update_group_constrained_detector_parameters","hexrd/core/fitting/calibration/relative_constraints.py:RelativeConstraintsGroup.center_of_rotation"])
P("C75","Angles give the right diffraction and G vectors","angles_to_dvec returns, in the crystal frame, the unit direction with the given two theta and azimuth; angles_to_gvec returns the unit vector that makes the angle of the Bragg condition with the beam and mirrors the beam into that direction.","every angles, tilt, crystal orientation, beam and eta reference vectors","an identity over the reals in nine variables",["hexrd/core/transforms/xfcapi.py:angles_to_gvec","hexrd/core/transforms/xfcapi.py:angles_to_dvec","hexrd/core/transforms/cpp_sublibrary/src/transforms.cpp:anglesToGvec"])
P("C76","Angles and detector coordinates of a flat panel convert both ways","angles_to_cart returns the point where the ray with the given angles meets the panel, cart_to_angles returns the angles of the ray to a point, and each undoes the other.","every panel pose, sample rotation, crystal position, angles and point","every geometry; agreement at tested geometries says nothing about signs elsewhere",["hexrd/core/instrument/planar_detector.py:PlanarDetector.angles_to_cart","hexrd/core/instrument/planar_detector.py:PlanarDetector.cart_to_angles","hexrd/core/instrument/planar_detector.py:PlanarDetector.cart_to_dvecs"])
P("C77","beam_position is where the beam meets the panel","beam_position returns the panel coordinates of the point where the direct beam through the origin meets the panel, and nothing when it does not.","every panel pose and beam vector","all geometries",["hexrd/core/instrument/planar_detector.py:PlanarDetector.beam_position"])
P("C78","makeGVector returns unit plane normals","Each column of the result of makeGVector is the unit vector along the reciprocal lattice vector of its hkl.","every B matrix and list of hkls","depends on the number of reflections",["hexrd/core/transforms/xfcapi.py:makeGVector"])
P("C79","Vectors are rotated about the given axes","rotate_vecs_about_axis rotates each vector by its angle about its axis, which need not have unit length; a single angle or axis applies to all.","every number of vectors, all angles and non-zero axes","all broadcasting combinations",["hexrd/core/transforms/xfcapi.py:rotate_vecs_about_axis"])
P("C80","quat_distance is the smallest misorientation","quat_distance returns the smallest angle of the misorientation over the symmetry-equivalent forms of the second quaternion.","every pair of unit quaternions and every list of symmetry quaternions","a minimum over all equivalents",["hexrd/core/transforms/xfcapi.py:quat_distance"])
P("C81","Lattice planes have the right normals, spacings and Bragg angles","latticePlanes returns for every hkl the unit normal and the spacing of that family of lattice planes, the two-theta that satisfies Bragg's law (NaN when the wavelength is too long), and with a strain magnitude the two-theta of the stretched and compressed spacing, which bracket it.","every lattice type and parameters, every hkl, wavelength and strain","identities over the reals and range limits of the arc sine",["hexrd/core/material/crystallography.py:latticePlanes"])
P("C82","A unit cell's matrices describe the same cell as latticeVectors","The metric tensors, volume and structure matrices of a unitcell object are those of the vectors that latticeVectors builds from the same six parameters.","every possible cell","two independent implementations agree for all real parameters",["hexrd/core/material/unitcell.py:unitcell.calcmatrices","hexrd/core/material/crystallography.py:latticeVectors"])
P("C83","Changing the space of a vector does not change the vector","TransSpace gives the components of the same vector in direct, reciprocal or Cartesian space; CalcDot, CalcLength, NormVec, CalcAngle and CalcCross (with the volume factor) give the product, length, direction, angle and cross product of the vectors whatever the space.","every possible cell, pair of vectors and choice of spaces","all cells and vectors; tolerances act only near special values",["hexrd/core/material/unitcell.py:unitcell.TransSpace","hexrd/core/material/unitcell.py:unitcell.CalcDot","hexrd/core/material/unitcell.py:unitcell.CalcLength","hexrd/core/material/unitcell.py:unitcell.NormVec","hexrd/core/material/unitcell.py:unitcell.CalcAngle","hexrd/core/material/unitcell.py:unitcell.CalcCross"])
P("C84","Rhombohedral parameters describe the obverse cell","rhombohedralParametersFromHexagonal returns the edge and angle of the rhombohedral cell inside the hexagonal cell, which has a third of its volume; convert_Miller_direction_to_cartesian gives the Cartesian direction of [uv.w].","every positive a and c, every direction","identities over the reals",["hexrd/core/material/crystallography.py:rhombohedralParametersFromHexagonal","hexrd/core/material/crystallography.py:convert_Miller_direction_to_cartesian"])
P("C85","Every space group gets its symmetry operations","For each of the 230 space groups and either origin setting, GenerateSGSym returns a complete space group: it contains the identity first, is closed under composition and inverse up to lattice translations, has no operation twice, consists of products of the tabulated generators, has exactly the pure translations of the centring letter, and the screw sense of its symbol. The second setting is the same group from another origin, a centre of inversion whenever one exists. Other numbers are rejected.","all space-group numbers and settings","group closure is a statement about all products",["hexrd/core/material/symmetry.py:GenerateSGSym","hexrd/core/material/symmetry.py:MakeGenerators","hexrd/core/constants.py:SYM_GL"])
P("C86","Point group, Laue group and flags of a space group","The point group consists of the rotation parts of the operations, is a group of the crystal class named for the space group, the Laue group adds the inversion, and the centrosymmetric and symmorphic flags are right.","all space groups and settings","every group has to be right, tests look at a few",["hexrd/core/material/symmetry.py:GeneratePGSym","hexrd/core/material/symmetry.py:GeneratePGSym_Laue","hexrd/core/material/unitcell.py:unitcell.GetPgLg","hexrd/core/material/spacegroup.py:_pgDict"])
P("C87","Point groups named by Schoenflies symbol are complete","GeneratePGSYM returns a group of the named crystal class for each of the 32 symbols.","all 32 symbols","closure under all products",["hexrd/core/material/symmetry.py:GeneratePGSYM"])
P("C88","Exactly the systematically absent reflections are removed","Allowed_HKLs keeps a reflection if and only if no symmetry operation of the space group leaves it unchanged while shifting its phase.","all space groups, both settings, all hkl in Z^3 and all lists","infinitely many reflections",["hexrd/core/material/spacegroup.py:Allowed_HKLs","hexrd/core/material/spacegroup.py:omitscrewaxisabsences","hexrd/core/material/spacegroup.py:omitglideplaneabsences","hexrd/core/constants.py:SYS_AB"])
P("C89","Removed reflections are those that no atom can produce","A reflection is removed by Allowed_HKLs if and only if the structure factor of the images of every point of the cell vanishes for it, so atoms anywhere with any scattering factors give it zero intensity.","all space groups, all hkl, all atom positions and scattering factors","a statement about all real positions",["hexrd/core/material/spacegroup.py:Allowed_HKLs","hexrd/core/material/symmetry.py:GenerateSGSym"])
P("C90","Symmetry-equivalent reflections are the star of a reflection","For a unit cell whose lattice parameters fit its space group, the reciprocal-space operations hexrd derives by rounding act on plane indices exactly as the direct-space operations act on planes; CalcStar lists every symmetry-equivalent reflection once (with opposite ones if the Laue group is asked for) and nothing else, all with the same plane spacing; the number listed times the number of operations that leave the reflection alone is the order of the group.","every space group, cell, reflection and setting, after any changes of dmin","rounding of a product of real matrices must be right for every cell",["hexrd/core/material/unitcell.py:unitcell.GenerateRecipPGSym","hexrd/core/material/unitcell.py:unitcell.CalcStar","hexrd/core/material/unitcell.py:_calcstar"])
P("C91","The list of reflections is complete and has no duplicates","getHKLs(dmin) returns, sorted by plane spacing, exactly one member of each Laue class of non-extinct reflections with spacing at least dmin, the one with the largest sum of indices; it works for every positive dmin.","every space group, cell, dmin and history of dmin changes","completeness over infinitely many reflections and all cell shapes",["hexrd/core/material/unitcell.py:unitcell.getHKLs","hexrd/core/material/unitcell.py:unitcell.ChooseSymmetric","hexrd/core/material/unitcell.py:unitcell.SortHKL","hexrd/core/material/unitcell.py:unitcell.CalcMaxGIndex","hexrd/core/material/unitcell.py:unitcell.dmin"])
P("C92","Pixel and cartesian coordinates of a panel agree","pixelToCart and cartToPixel undo each other; integer pixel coordinates are the centres of the pixels; with pixels=True the pixel returned is the one the point lies in (one it touches, for points on a pixel border), and exists for every point of the open sensor.","every panel shape and pixel size, every point","all positions, including the borders where rounding acts",["hexrd/core/instrument/detector.py:Detector.cartToPixel","hexrd/core/instrument/detector.py:Detector.pixelToCart"])
P("C93","Clipping keeps exactly the points on the panel","clip_to_panel returns, in order, the points on the sensor that the panel buffer does not exclude, and a mask that says which: with two borders those at least that far from the edges, with a mask those in a pixel marked True. A stored mask is cut by the region of interest. The mask made from two borders accepts the same pixels.","every list of points, panel and buffer","every point, in particular on edges and pixel borders",["hexrd/core/instrument/detector.py:Detector.clip_to_panel","hexrd/core/instrument/detector.py:Detector.panel_buffer","hexrd/core/instrument/detector.py:Detector.roi","hexrd/core/utils/panel_buffer.py:panel_buffer_as_2d_array","hexrd/core/utils/panel_buffer.py:panel_buffer_from_str"])
P("C94","Bilinear interpolation blends the four surrounding pixels","interpolate_bilinear gives for each accepted point the bilinear blend of the four pixels around it, the image being continued by its border pixels, and the fill value for the others; so it reproduces pixel values at pixel centres, never leaves the range of the image and is exact for images that vary linearly.","every panel, image and list of points","every position; the cell is found by rounding in a different way from the weights",["hexrd/core/instrument/detector.py:Detector.interpolate_bilinear","hexrd/core/instrument/detector.py:Detector._generate_bilinear_interp_dict","hexrd/core/instrument/detector.py:_interpolate_bilinear_in_place"])
P("C95","Nearest interpolation gives the pixel a point is in","interpolate_nearest gives for each accepted point the value of the pixel that contains it.","every panel, image and list of points","every position",["hexrd/core/instrument/detector.py:Detector.interpolate_nearest"])
P("C96","A bent panel is a rolled-up sheet","The position of the point (x, y) of a cylindrical detector lies on the tube of the given radius, at height y and at arc length x from the line where the tube touches the flat panel: the sheet is rolled without stretching and covers the tube once. Sheet coordinates of a position on the tube are recovered exactly, and the pixel normals are unit vectors away from the axis.","every panel pose, radius and point, any sample position","a geometric identity over the reals; the inverse has to take the right branch everywhere",["hexrd/core/instrument/cylindrical_detector.py:CylindricalDetector.cart_to_dvecs","hexrd/core/instrument/cylindrical_detector.py:CylindricalDetector.local_normal","hexrd/hed/xrdutil/utils.py:_warp_to_cylinder","hexrd/hed/xrdutil/utils.py:_dewarp_from_cylinder"])
P("C97","Angles and positions on a bent panel correspond","cart_to_angles gives the scattering angles of the direction from the sample to the point; angles_to_cart gives the point of the panel that the ray with these angles meets, and NaN if it meets none; the two undo each other; beam_position is where the beam meets the panel.","every panel pose, radius, sample position and orientation, every list of angles","all rays, including those that leave the tube twice or miss the panel",["hexrd/core/instrument/cylindrical_detector.py:CylindricalDetector.cart_to_angles","hexrd/core/instrument/cylindrical_detector.py:CylindricalDetector.angles_to_cart","hexrd/core/instrument/cylindrical_detector.py:CylindricalDetector.beam_position","hexrd/core/instrument/cylindrical_detector.py:CylindricalDetector.pixel_angles","hexrd/hed/xrdutil/utils.py:_project_on_detector_cylinder","hexrd/hed/xrdutil/utils.py:_unitvec_to_cylinder","hexrd/hed/xrdutil/utils.py:_clip_to_cylindrical_detector","hexrd/hedm/xrdutil/utils.py:_dvec_to_angs"])
P("C98","An old module name and its new name are one module","Importing an old module name gives the very module object of its new name, in whatever order and however often names were imported before; no import loses, rebinds or changes anything already imported; the names merged into the module come from the other new modules of that old name, in order, and never replace existing ones; among several new files the one in core is chosen, otherwise the first.","every table, file tree, sequence of imports and name","all import orders",["hexrd/module_map.py:ModuleAliasImporter","hexrd/module_map.py:ModuleAliasImporter.load_module","hexrd/module_map.py:module_map"])
P("C99","Every old module name still works","Every Python module named in hexrd/file_table.tsv can be imported under its old name, whatever was imported before, and importing an old name does not change how other code behaves.","all 148 old names, all import histories and all contents of the modules","all import orders and histories",["hexrd/module_map.py:ModuleAliasImporter","hexrd/file_table.tsv","hexrd/module_map.py:path_to_module"])
P("C100","Angle ranges select exactly the angles in them","paintGrid takes any list of omega or eta ranges that do not overlap, in any order and at any turn, and counts a predicted spot only if its angle, up to full turns, lies in one of the ranges.","every list of ranges, every start of the period, every angle","the ranges are wrapped, sorted and searched; every combination of wrapping matters",["hexrd/hedm/indexer.py:_normalize_ranges","hexrd/hedm/indexer.py:_find_in_range","hexrd/hedm/indexer.py:_map_angle"])
P("C101","Each predicted spot is looked up in the right pixel","A predicted spot counts if its angles lie in the ranges and in the maps; it is looked up in the column and row whose edges enclose its angles (up to full turns), enlarged by the tolerances rounded to whole pixels; in all other cases it is ignored.","every orientation, reflection, map size, edges, ranges and tolerances","every angle, in particular on edges and across full turns",["hexrd/hedm/indexer.py:_angle_is_hit","hexrd/hedm/indexer.py:paintgrid_init","hexrd/hedm/indexer.py:paintGridThis"])
P("C102","A spot is hit if a pixel within the tolerance is bright","A predicted spot is a hit exactly if some pixel within the tolerances is above the threshold; NaN pixels make it uncounted.","every map, position, tolerance and threshold","all positions near borders, all placements of NaN",["hexrd/hedm/indexer.py:_check_dilated"])
P("C103","The score of an orientation is the fraction of counted spots that are hit","paintGrid's score of an orientation is the number of hits divided by the number of counted predictions over all symmetric reflections, each compared with the map and threshold of its own family; it is between 0 and 1, and 0 if nothing is counted; raising the threshold never raises it.","every orientation, list of families, maps and thresholds","all numbers and sizes of families",["hexrd/hedm/indexer.py:_filter_and_count_hits","hexrd/hedm/indexer.py:paintGridThis","hexrd/hedm/indexer.py:paintGrid"])
P("C104","Many processes give the scores that one gives","With several processes paintGrid returns the same list of scores as with one, whichever process finishes first.","every number of orientations and processes, every order of completion","all schedules",["hexrd/hedm/indexer.py:paintGrid"])
P("C105","The elastic constants asked for are those the symmetry leaves free","For each Laue group MakeStiffnessMatrix turns the list of independent constants into a symmetric 6x6 matrix for which no rotation of that group changes the elastic energy of any strain; every matrix with that symmetry is obtained, from exactly one list, the one Required_C reads off it.","every Laue group, list of constants, matrix and strain","linear identities over all constants and strains for all 82 rotations; the converse quantifies over all matrices",["hexrd/core/material/unitcell.py:unitcell.MakeStiffnessMatrix","hexrd/core/material/unitcell.py:unitcell.Required_C","hexrd/core/material/unitcell.py:_StiffnessDict"])
P("C106","Stored elastic constants are the ones entered","After MakeStiffnessMatrix the stiffness holds the constants entered; a compliance assigned is the one read back and is the inverse of the stiffness in the stated units; a refused list changes nothing.","every list of constants and matrix","all matrices; exceptions in the middle of the update",["hexrd/core/material/unitcell.py:unitcell.MakeStiffnessMatrix","hexrd/core/material/unitcell.py:unitcell.compliance"])
P("C107","Pressure and volume of a material obey one equation of state","calc_pressure is the third order Birch-Murnaghan pressure with the bulk modulus and derivative of the given temperature, zero with slope -k/v at the reference volume; calc_volume returns the largest volume not above the reference one that has the pressure asked for, and the two functions are inverse to each other.","every equation of state, pressure, volume and temperature","real-valued inputs, existence and uniqueness of roots of a polynomial of degree nine",["hexrd/core/material/material.py:Material.calc_pressure","hexrd/core/material/material.py:Material.calc_volume","hexrd/core/material/material.py:Material.vt","hexrd/core/material/material.py:Material.kt","hexrd/core/material/material.py:Material.ktp"])
P("C108","The cell at a pressure and temperature has the volume of the equation of state","calc_lp_at_PT keeps the angles and the ratios of the lengths, gives a cell whose volume is the one calc_volume returns, and does not depend on how compressed the present cell is.","every cell, equation of state, pressure and temperature","real-valued inputs; all shapes of cells",["hexrd/core/material/material.py:Material.calc_lp_at_PT","hexrd/core/material/material.py:Material.calc_lp_factor","hexrd/core/material/material.py:Material.lparms0","hexrd/core/material/material.py:Material.pt_lp_factor"])
P("C109","A material, its unit cell and its plane data never disagree","After any sequence of assignments to a Material the unit cell has its lattice parameters (in the form its space group requires), space group, setting, atoms, dmin and beam energy, and the plane data lists exactly the reflections of that cell at their two-thetas for that beam energy.","every material and every sequence of assignments, also after failed ones","all histories of the object, including exceptions in the middle of an update",["hexrd/core/material/material.py:Material._newUnitcell","hexrd/core/material/material.py:Material._newPdata","hexrd/core/material/material.py:Material.sgnum","hexrd/core/material/material.py:Material.latticeParameters","hexrd/core/material/material.py:Material.dmin","hexrd/core/material/material.py:Material.beamEnergy","hexrd/core/material/material.py:Material._set_atomdata","hexrd/core/material/crystallography.py:PlaneData.set_laue_and_lparms"])
P("C110","Exclusions follow the reflections when the list changes","When an assignment to a Material changes the list of reflections, every reflection listed before stays excluded or not as it was, wherever it is listed now, and the new ones are excluded; if this left none, all but those of the file or the first five are excluded, as in a new material.","every material, history, pair of lists and mask","all pairs of lists, orders and histories",["hexrd/core/material/material.py:Material._newPdata","hexrd/core/material/material.py:Material.set_default_exclusions","hexrd/core/material/material.py:hkls_match","hexrd/core/material/material.py:map_hkls_to_new"])
P("C111","Structure factors read are those of the present material","The structure factors read from the plane data of a Material are those of its present unit cell, one for each reflection that is not excluded, in the present order, whatever was read and assigned before.","every material and every sequence of assignments and reads","cached values: all interleavings of reads and assignments",["hexrd/core/material/crystallography.py:PlaneData.structFact","hexrd/core/material/crystallography.py:PlaneData.invalidate_structure_factor","hexrd/core/material/material.py:Material.invalidate_structure_factor"])
P("C112","The symmetric reflections of plane data are the family of planes","makePlaneData gives one entry per reflection, in the order given, and lists as its symmetric reflections exactly once each the planes that a rotation of the Laue group makes of it, and the opposite ones; the normals are theirs, all planes of a family have the spacing and two-theta of the entry, two reflections get the same list if they are symmetric and lists without a common plane otherwise; the multiplicity divides the order of the Laue group, and an entry is marked centrosymmetric exactly if a rotation turns it into its opposite.","every Laue group, lattice, reflection and list","rounding and comparison of rotated real vectors must be right for every lattice and every hkl",["hexrd/core/material/crystallography.py:PlaneData.makePlaneData","hexrd/core/rotations.py:applySym","hexrd/core/matrixutil.py:findDuplicateVectors","hexrd/core/rotations.py:quatOfLaueGroup","hexrd/core/rotations.py:ltypeOfLaueGroup"])
P("C113","Plane data built for a space group has every reflection of the crystal once","The symmetric reflections of plane data built with the Laue group of a space group are the ones equivalent under the operations of the space group; those of all the reflections of a unit cell together are all the reflections the crystal can show, each once.","every space group, setting, cell, dmin and reflection","infinitely many reflections and two independent descriptions of the symmetry, by quaternions and by integer matrices",["hexrd/core/material/crystallography.py:PlaneData.makePlaneData","hexrd/core/material/unitcell.py:unitcell.getHKLs","hexrd/core/material/unitcell.py:unitcell.GetPgLg"])
P("C114","The number of an hkl is that of its reflection","getHKLID of an hkl is the place of the reflection it is symmetric to among those shown, or with master=True its id; RuntimeError if none is.","every plane data object a caller can reach and every hkl","all histories of exclusions and orders",["hexrd/core/material/crystallography.py:PlaneData.getHKLID","hexrd/core/material/crystallography.py:PlaneData.getSymHKLs"])
P("C115","getFriedelPair gives the smallest rotation to the Friedel pair","For each reflection getFriedelPair returns the rotation angle and azimuth at which the opposite planes reflect, after the smallest rotation from the reference angle, in the chosen convention and for any inclination of the rotation axis; one value may be given for several reflections; NaN if there is none.","every Bragg angle, azimuth, reference angle, inclination and convention","a statement about all rotations; trigonometric equation over the reals",["hexrd/core/material/crystallography.py:getFriedelPair"])
P("C116","Orientations on a fiber turn the crystal direction into the sample direction","discreteFiber returns ndiv unit quaternions in even steps about the crystal direction, each turning that direction (with a symmetry: an equivalent one) into the sample direction; every orientation that does so is within 180/ndiv degrees of one returned; for a spot, each orientation brings an equivalent plane into position to send the beam to the spot.","every pair of directions, B matrix, number of divisions, crystal symmetry and spot","a geometric statement about all directions and all orientations",["hexrd/core/rotations.py:discreteFiber","hexrd/hedm/findorientations.py:discretefiber_reduced","hexrd/core/matrixutil.py:nullSpace"])
P("C117","distanceToFiber is the angle to the nearest orientation of the fiber","distanceToFiber returns the smallest angle between the sample direction and the directions that the orientation gives to the equivalents of the crystal direction; it is zero exactly for the orientations on the fiber.","every direction, orientation, symmetry group, with and without inversion","a minimum over all equivalents for all real inputs",["hexrd/core/rotations.py:distanceToFiber","hexrd/core/rotations.py:applySym"])
P("C118","uniqueVectors keeps one vector of each group of duplicates, in order","uniqueVectors returns vectors taken from the input, in dictionary order with the last coordinate first, any two differing by more than the tolerance in some coordinate, such that each input vector is near one returned; without tolerance exactly the input vectors, once each.","every list of vectors, dimension and tolerance","all arrays; chains of near duplicates",["hexrd/core/matrixutil.py:uniqueVectors"])
P("C119","The average of orientations is the middle of their symmetric copies","quatAverageCluster of one orientation is that orientation; of two it is half way along the smallest rotation from the first to a copy of the second; of more it is, up to crystal symmetry, the orientation with the greatest sum of quaternion dot products with the representatives near the first, lies in the fundamental region, is no farther from the first than the farthest of the others, and is equivalent to the inputs if they are equivalent.","every list of orientations and every symmetry group","an extremum over all orientations, for all real inputs",["hexrd/core/rotations.py:quatAverageCluster"])
P("C120","Every orientation above the threshold goes into exactly one result or is noise","run_cluster uses exactly the orientations whose completeness exceeds the threshold; each is noise or in exactly one cluster, no cluster is empty, and the orientations returned are the averages of the clusters, after merging the averages found to be duplicates; the algorithm used is the configured one or its documented fallback.","every list of completenesses and orientations, clustering result, algorithm and option","all partitions the external clustering routines can return",["hexrd/hedm/findorientations.py:run_cluster"])
P("C121","Every cell of an eta-omega map is the sum of the intensities of its pixels","Each cell of the map of a ring and a frame is the sum of the intensities (those below the threshold counted as zero) of exactly the pixels, of all detectors, whose two-theta lies in the ring's range and whose azimuth lies in the bin, and NaN if there are none; whatever the number of worker threads and the order in which they run; the azimuthal edges are the multiples of the step from the start of the period.","every set of detectors, ring ranges, step, threshold, number of workers and interleaving","all schedules of the threads and all pixel positions",["hexrd/core/instrument/hedm_instrument.py:HEDMInstrument.extract_polar_maps","hexrd/core/instrument/hedm_instrument.py:_run_histograms","hexrd/hedm/instrument/generate_eta_omega_maps.py:GenerateEtaOmeMaps"])
P("C122","The rows of a map of several wedges are the frames at their omega","For images taken in several omega wedges the maps have one row for every step of the common grid from the first to the last wedge; a row covered by a frame is labelled with the centre of that frame and holds its data, the others are NaN.","every list of wedges and every step","all numbers, sizes and positions of wedges",["hexrd/hedm/instrument/generate_eta_omega_maps.py:GenerateEtaOmeMaps"])
P("C123","Maps are made of exactly the reflections asked for","Making eta-omega maps uses the reflections asked for in the call, or else those in the configuration, or else all that are not excluded; a request with repeated or excluded reflections is refused; each map is made from the two-theta range of its own reflection, in the order of the request.","every request, configuration and set of active reflections","all combinations of requests and exclusions",["hexrd/hedm/findorientations.py:generate_eta_ome_maps","hexrd/core/instrument/hedm_instrument.py:HEDMInstrument.extract_polar_maps"])
P("C124","Saved maps mean the same reflections when they are read again","Reading an archive of eta-omega maps gives the reflections, order, exclusions and reflection ids that were saved, and each id names the same reflection as before; maps that are read, or made because the file is missing, are filtered as configured.","every plane data that can be reached by assignments and every list of ids","all histories of exclusions and all orders of reflections",["hexrd/hedm/xrdutil/utils.py:EtaOmeMaps","hexrd/hedm/findorientations.py:load_eta_ome_maps"])
P("C125","Cleaning leaves the excess over the median, filtering makes the medians zero","clean_map replaces each value by its excess over the median of the map, and by zero if it is not above the median or NaN; filtering subtracts the median of each azimuthal column, after which that median is zero and filtering again changes nothing.","every map with any pattern of NaNs","all real arrays and patterns of missing values",["hexrd/hedm/findorientations.py:clean_map","hexrd/hedm/findorientations.py:_filter_eta_ome_maps","hexrd/hedm/findorientations.py:filter_maps_if_requested"])
P("C126","Every peak of a map makes one seed at its angles","Each peak found in the map of a seed ring makes exactly one seed, in order, with the reflection and two-theta of its ring; its omega and azimuth are those of its pixel position, the centre of pixel (i, j) being at the angles of that pixel; peaks that are NaN make none.","every list of rings, peaks and uniform grid","all real positions and grids",["hexrd/hedm/findorientations.py:generate_orientation_fibers"])
P("C127","Phase transformation variants: one per class, as many as predicted","For two crystals with given parallel planes and directions, the variants are the copies by the operations of the parent of the rotation that makes them parallel, exactly one for each class under the operations of the child; their number is the number of operations of the parent divided by that of the operations both crystals share, and is the number predicted.","every pair of point groups and of plane and direction lying in it","all finite groups, planes and directions",["hexrd/phase_transition/variants.py:getPhaseTransformationVariants","hexrd/phase_transition/variants.py:getOR","hexrd/phase_transition/variants.py:expected_num_variants"])
P("C128","A convolution is the weighted sum, and over gaps the weighted mean of what is there","convolve gives at every place the sum of the values under the reversed kernel, divided by its sum if normalised; beyond the ends values are filled, repeated or wrapped as asked; where values are masked or NaN, they are filled or left out and the result is the mean of the numbers under the kernel; with weights that are not negative the result lies between the lowest and highest value used; even kernels, kernels that cannot be normalised or do not fit are refused.","every one-dimensional array with any pattern of NaNs, mask, kernel and options","all arrays, kernels and patterns of gaps",["hexrd/core/convolution/convolve.py:convolve","hexrd/core/convolution/src/convolve.c:convolve1d_c"])
P("C129","The SNIP background lies below the data and is independent of the workers","snip1d gives every pixel above the threshold a background between the lowest visible value of its row and its own value, so that a flat row is its own background; hidden pixels and NaNs get the threshold; the background is that of the passes of the peak clipping algorithm in the log-log space; shifting the image shifts the background; the order in which workers finish does not matter.","every image with any pattern of NaNs, threshold, window and number of passes, every order of the workers","all images and schedules",["hexrd/core/imageutil.py:snip1d","hexrd/core/imageutil.py:_run_snip1d_row","hexrd/core/imageutil.py:_scale_image_snip","hexrd/core/imageutil.py:fast_snip1d"])
P("C130","Each grain is fitted from its own row, whatever the schedule","fit_grains returns for every grain, in the order of the table, its number, completeness, chi squared and parameters as fitting that row alone would, in one process or with any distribution over workers; a finite chi squared belongs to the parameters returned and to more than 12 reflections found with the last tolerances, an infinite one means that too few were found with the parameters returned","all tables numbered by row, all sequences of tolerances, all distributions of chunks over workers, all instruments, images and optimisers","the workers update their own copies of the table in place, so whether one grain's fit can leak into another depends on the distribution of the chunks; tests run one",["hexrd/hedm/fitgrains.py:fit_grains","hexrd/hedm/fitgrains.py:fit_grain_FF_reduced","hexrd/hedm/fitting/grains.py:fitGrain"])
P("C131","The reflections used in a fit are those found, unsaturated and within the tolerances","determine_valid_reflections keeps, in order, the spots that were found and are below the saturation level of their panel, counts those found and gives their fraction; refine_valid_reflections keeps those whose measured position and omega are within the tolerances of the calculated ones","all panels, spots, intensities (also NaN), saturation levels and tolerances","the selection must be right for every combination of missing, saturated and displaced spots",["hexrd/hedm/fitgrains.py:determine_valid_reflections","hexrd/hedm/fitgrains.py:refine_valid_reflections"])
P("C132","The residuals of a grain compare every reflection with its nearer calculated position","objFuncFitGrain gives three residuals for every reflection, panel by panel: the calculated position at the one of the two omegas that is nearer to the measured omega around the circle, less the measured position with the distortion undone, and the distance of the omegas; matchOmegas chooses that omega; chi squared is the sum of squares divided by the degrees of freedom, not negative, and zero only for a perfect fit","all reflections, measured omegas, omega periods, panels and numbers of reflections","which of two angles is nearer goes wrong only for particular combinations of scan start and reflection",["hexrd/hedm/fitting/grains.py:objFuncFitGrain","hexrd/hedm/fitting/grains.py:matchOmegas"])
P("C133","Peak functions have the height, centre and widths of their parameters","Gaussian, Lorentzian, pseudo-Voigt and split pseudo-Voigt peaks on a linear background take their full height at the centre, half of it half a full width away on each side, rise up to the centre and fall after it, and are symmetric (the split one on each side with its own width); the step goes from its height to zero around its centre; the two-dimensional ones, also rotated, and the three-dimensional one are the products along their own axes","all heights, centres, non-zero widths, mixtures, angles, backgrounds and positions","agreement at some positions does not show that the widths mean full widths at half maximum at all parameters",["hexrd/core/fitting/peakfunctions.py"])
P("C134","The Jacobians are the partial derivatives","The analytic derivatives of the Gaussian and Lorentzian peaks, and of the straight lines used for backgrounds, are the partial derivatives of the functions with respect to each parameter","all parameters with non-zero width and all positions","a wrong derivative still lets some fits converge; only the limit definition settles it for all parameters",["hexrd/core/fitting/peakfunctions.py:gaussian1d_deriv","hexrd/core/fitting/peakfunctions.py:lorentzian1d_deriv","hexrd/core/fitting/fitpeak.py:lin_fit_jac","hexrd/core/fitting/fitpeak.py:quad_fit_jac"])
P("C135","A multipeak model is the sum of its peaks and its background","mpeak_1d gives at every position the sum of the single peaks and the background polynomial, whatever the order of the peaks; too few parameters are refused; the Thompson-Cox-Hastings mixture is a proper mixture of which the limits are the pure shapes and that does not depend on the unit","all numbers of peaks, peak types, parameters, backgrounds and positions, all pairs of widths","the number of peaks is unbounded and the reshaping of parameters goes wrong only for some counts",["hexrd/core/fitting/peakfunctions.py:mpeak_1d","hexrd/core/fitting/peakfunctions.py:_mixing_factor_pv","hexrd/core/fitting/peakfunctions.py:_gaussian_pink_beam"])
P("C136","Peak fits minimise the difference to the data within their bounds, from a sensible guess","The residuals of a peak fit are zero exactly for parameters that reproduce the data, and for bounded types lie within the bounds; the first guess stands at the highest point above the background line, passes through it, and has positive widths; the guess for several peaks has one peak at each given position in order and lies within its bounds; the factors of goodness of fit are not negative and vanish only for agreement","all data on increasing positions, parameters, peak types, background fits and optimisers","the guess depends on where the maximum lies and on ties; bounds bind only for particular data",["hexrd/core/fitting/fitpeak.py:estimate_pk_parms_1d","hexrd/core/fitting/fitpeak.py:estimate_mpk_parms_1d","hexrd/core/fitting/fitpeak.py:fit_pk_parms_1d","hexrd/core/fitting/fitpeak.py:fit_pk_obj_1d_bnded","hexrd/core/fitting/fitpeak.py:goodness_of_fit"])
P("C137","The grid of a polar view covers its angular ranges","The directions of a polar view are the middles of equal intervals that follow each other from the lower limits, their number is that of the pixels in the ranges to within half a pixel, the extent used for drawing is the union of the pixels, tth_to_pixel gives the pixel an angle is in, and no sequence of settings makes a range empty","all limits, pixel sizes and sequences of settings, failing ones included","rounding of the number of pixels and half-pixel offsets go wrong only for particular ranges",["hexrd/core/projections/polar.py:PolarView.angular_grid","hexrd/core/projections/polar.py:PolarView.extent","hexrd/core/projections/polar.py:PolarView.tth_to_pixel"])
P("C138","A warped image is the sum of the interpolated detector images where the directions meet the panels","Every value of the polar view is the sum over all detectors of the bilinear interpolation of their images where the direction of the pixel meets the used part of the panel; a pixel is masked unless it meets a panel away from excluded pixels; padding puts NaN exactly at masked pixels; the order of detectors does not matter and a cached mapping gives the same image","all views, sets of detectors, buffers, projections and images, and all histories of warps","the number of detectors is unbounded and the mask depends on where points fall between excluded pixels",["hexrd/core/projections/polar.py:PolarView.warp_image","hexrd/core/projections/polar.py:PolarView._generate_nan_mask","hexrd/core/instrument/detector.py:_interpolate_bilinear_in_place"])
P("C139","Azimuthal bins of a polar view are means over the rows around their azimuth","bin_polar_view gives one spectrum per azimuthal interval, each value being the mean of the values that are not NaN in the rows whose middle is within the integration range of the azimuth of the spectrum","all polar images, intervals and ranges","the rows are selected by truncation, which is wrong only for particular ratios",["hexrd/core/projections/polar.py:bin_polar_view"])
P("C140","An orientation is in the fundamental zone of a point group exactly when no equivalent orientation is a smaller rotation","insideFZ accepts an orientation given as a Rodrigues vector only if none of its equivalents under the Laue group of the point group is a smaller rotation, and accepts every orientation all of whose other equivalents are larger; ro2qu gives the quaternion of the rotation","all point groups and all orientations, half turns included","the zones are polyhedra bounded by up to fourteen planes and errors show only near particular faces",["hexrd/hedm/sampleOrientations/rfz.py:insideFZ","hexrd/hedm/sampleOrientations/conversions.py:ro2qu","hexrd/core/constants.py:FZtypeArray"])
P("C141","Sampling returns the orientations of the grid points in the zone, whatever the threads do","sampleRFZ maps a cubic grid to rotations: the surface of each cube goes to a sphere in proportion, opposite points to opposite rotations; it returns exactly the orientations of the grid points in the zone, unit quaternions that are the smallest of their equivalents, with the inverse of each, and with the identity for the default grid; the result does not depend on the order in which the threads run","all point groups, spacings, kinds of grid and schedules of the parallel loops","grids have millions of points and the loops are parallel",["hexrd/hedm/sampleOrientations/sampleRFZ.py:_sample","hexrd/hedm/sampleOrientations/conversions.py:cu2ro","hexrd/hedm/sampleOrientations/conversions.py:cu2ho"])
P("C142","The orientations of a sampler belong to its settings","After a setting of a sampleRFZ is assigned the orientations are those of the current point group, kind of grid and spacing, and the other settings are unchanged; settings that cannot be sampled are refused","all sequences of assignments, failing ones included","histories of assignments are unbounded",["hexrd/hedm/sampleOrientations/sampleRFZ.py:sampleRFZ"])
P("C143","The confidence of an orientation at a point is the share of its reflections on the detector that are bright","In a near field reconstruction the confidence is the number of simulated reflections that fall on a bright pixel of their frame, divided by the number of those that fall on the panel and not behind the beam stop; reflections that miss the panel or have no position do not count, the order does not matter, the value is between 0 and 1, and 1 exactly if all are bright","all image stacks, panels, beam stops and reflections","edges of pixels and frames and the order of the tests matter for single reflections only",["hexrd/hedm/grainmap/nfutil.py:_quant_and_clip_confidence"])
P("C144","The table of confidences is complete and does not depend on chunks, processes or the order of results","test_orientations fills every cell of the table with the confidence of its grain at its point, whatever the chunk size, the number of processes and the order in which results come back; with a limit on the number of points it does so for the first points","all numbers of grains, points, processes and chunk sizes, and all schedules","schedules of worker processes cannot be enumerated",["hexrd/hedm/grainmap/nfutil.py:test_orientations","hexrd/hedm/grainmap/nfutil.py:multiproc_inner_loop","hexrd/hedm/grainmap/nfutil.py:_grand_loop_inner"])
P("C145","With several ranks every point is tested by one rank and the complete table is gathered","get_offset_size gives every point to exactly one rank; rank 0 hands the same complete table to its controller that a run without MPI gives, and returns it","all numbers of ranks, grains, points and processes","needs MPI runs of all sizes",["hexrd/hedm/grainmap/nfutil.py:get_offset_size","hexrd/hedm/grainmap/nfutil.py:gather_confidence"])
P("C146","The grain map names the best grain of every point","process_raw_confidence gives every point the first grain with the largest confidence and that confidence, or -1 if it is not above the threshold; with a table of names every grain gets its name","all tables of confidences, thresholds, shapes and tables of names","errors show only for particular grains of the table",["hexrd/hedm/grainmap/nfutil.py:process_raw_confidence"])
P("C147","The test grid of a near field reconstruction consists of the centres of the voxels","The points returned by gen_nf_test_grid are the centres of the cubic voxels that fill the cross section symmetrically about the axis and the layers between the vertical bounds, in the order of the reshaped arrays; equal bounds give one layer; gen_nf_test_grid_tomo gives the same points for a section of the same number of voxels; generate_test_grid gives evenly spaced samples with both ends","all sections, bounds, spacings and numbers of samples","half voxel shifts and extra rows depend on the ratio of section and spacing",["hexrd/hedm/grainmap/nfutil.py:gen_nf_test_grid","hexrd/hedm/grainmap/nfutil.py:gen_nf_test_grid_tomo","hexrd/hedm/grainmap/nfutil.py:generate_test_grid"])
P("C148","Every good far field grain is tried in the whole cube of misorientations, and each trial orientation carries its grain's number","gen_trial_exp_data keeps exactly the grains more complete and better fitting than the thresholds, tries each at all combinations of 2m+1 evenly spaced misorientations along the axes, and returns for each trial orientation the number of the far field grain it comes from","all grain lists, thresholds and misorientation bounds that are a whole number of spacings","depends on numbers of grains and steps",["hexrd/hedm/grainmap/nfutil.py:gen_trial_exp_data"])
P("C149","Stitching puts the layers of every volume in their place","output_grain_map returns arrays in which block i holds the layers of scan i (or, from the top down, of the scan that is i from the end), with Y moved by the shift of that block and all other arrays unchanged; the cells of the VTK file join the eight neighbouring points, and there are as many as announced","all numbers of scans, shapes, spacings and both orders","an error in the bookkeeping of layers shows for particular numbers of scans",["hexrd/hedm/grainmap/nfutil.py:output_grain_map"])
P("C150","The scan of a detector parameter tries the experiment with that parameter replaced and nothing else","Every trial of scan_detector_parm is evaluated with the given experiment in which only the chosen parameter has its trial value, whatever was tried before; the trial values are n+1 evenly spaced ones from the start to the end of the range; the experiment is as before afterwards","all experiments, parameters, ranges and evaluations","accumulated changes depend on the sequence of trials",["hexrd/hedm/grainmap/nfutil.py:scan_detector_parm"])
P("C151","A reflection is kept exactly if its azimuth and its rotation angle lie in the given ranges","Of the two solutions of every hkl, the filter keeps, in order and with their own hkl, exactly those whose azimuth is in one of the eta ranges and whose rotation angle is in one of the omega ranges, a decreasing omega range being read clockwise","all hkl lists, solutions (undefined ones included) and lists of ranges","the reading of a range depends on the ranges listed before it",["hexrd/hedm/xrdutil/utils.py:_filter_hkls_eta_ome"])
P("C152","A simulated rotation series lists exactly the reflections that hit the panel, with matching columns","For every grain, simulate_rotation_series returns ids, hkls, angles, positions and pixel sizes of the same length and in the same order: one entry for each solution in the eta and omega ranges whose position is defined and on the panel, its omega brought into the period, and none for others; it uses the given wavelength and refuses plane data with undefined two-theta; it does not change the plane data","all grains, plane data, ranges, periods, panels and projections","columns can shift against one another only when some rows miss the plane and others the panel",["hexrd/core/instrument/detector.py:simulate_rotation_series","hexrd/hed/xrdutil/utils.py:_project_on_detector_plane"])
P("C153","The energy correction is linear in the position, and simulateGVecs simulates","The corrected wavelength has the energy of the nominal one plus slope times the distance of the grain from the intercept along the chosen axis; without a correction nothing changes; simulateGVecs returns the reflections on the panel","all wavelengths, corrections and positions; all grains and ranges","unit and sign errors look plausible for single values",["hexrd/hedm/xrdutil/utils.py:apply_correction_to_wavelength","hexrd/hedm/xrdutil/utils.py:simulateGVecs"])
P("C154","A setting of a far field analysis is read as a valid value or reading it raises","For every configuration tree, reading the clustering algorithm, completeness, radius, omega period, fit tolerances, refit, flags, greatest two-theta, active hkls, seeds, search method, files, exclusion parameters and two-theta width returns the value in effect (a single number standing for two where two are needed) exactly if it is valid, and raises otherwise; files that are returned exist; exclusion parameters are the ones in effect","all configuration trees with any kind of value at any key, all file systems","the kinds of value a YAML file can hold at each key are endless, and defaults, nulls and types interact",["hexrd/hedm/config/findorientations.py","hexrd/hedm/config/fitgrains.py","hexrd/core/config/material.py","hexrd/core/config/utils.py:get_exclusion_parameters","hexrd/core/config/config.py:check_filename"])
P("C155","The azimuths searched avoid the poles by the mask, and the fiber divisions are the greatest not finer than the step","For every mask from 0 on, an azimuth is in one of the eta ranges exactly if it is at least the mask away from both poles; for every positive step, the number of divisions n satisfies n * step <= 360 < (n + 1) * step, and is exact if the step divides the circle; a zero step raises","all masks and steps","off-by-one and rounding at arbitrary rational steps",["hexrd/hedm/config/findorientations.py:EtaConfig","hexrd/hedm/config/findorientations.py:SeedSearchConfig"])
P("C156","Results of different analyses are put in different files","For every working directory, analysis name and material, the five results of an analysis are different files, and analyses with different names or materials use different files","all names and materials, both placements","collisions need particular pairs of names",["hexrd/core/config/root.py:analysis_id","hexrd/hedm/config/findorientations.py"])
P("C157","Image series and exclusion parameters are those of the configuration","For every history of settings and accesses, the image series are the ones listed (one for each panel) and the exclusion parameters those in effect; an access that fails fails again","all lists of image series, all histories of set and access","depends on the order of sets and first accesses, and on failures in between",["hexrd/core/config/root.py:image_series","hexrd/core/config/root.py:fit_grains","hexrd/hedm/config/fitgrains.py"])
P("C158","The chunks of a composite detector tile it","For every number and size of tiles and every gap, generate_chunks lists the chunks in order of rows and columns with labels row_column, no two alike; a pixel is in some chunk exactly if neither its row nor its column is in a gap, and then in one only","all numbers of tiles, tile sizes, gaps and pixels","a wrong boundary shows at particular pixels only",["hexrd/core/instrument/hedm_instrument.py:generate_chunks"])
P("C159","Cutting an instrument into chunks leaves every pixel where it is","For every instrument and list of chunks, chunk_instrument has one entry for each chunk of each panel; its shape is that of the chunk, its pixels are where they were on the panel, its mask is the part of the panel's mask and its region of interest starts at the chunk","all instruments, orientations, pixel sizes, masks and chunks","half a pixel is not seen on an image, and names may collide for particular panels",["hexrd/core/instrument/hedm_instrument.py:chunk_instrument","hexrd/core/instrument/detector.py:pixelToCart","hexrd/core/instrument/detector.py:config_dict"])
P("C160","Each panel gets its own images","For every dictionary of images, a panel gets those under its name, or else the part in its region of the shared images, of the only images whose name contains its own, or of its group's images, and an error otherwise; stacks of images are cut like single ones","all dictionaries, names, groups, regions, image series, images and stacks","depends on which names contain which",["hexrd/core/instrument/hedm_instrument.py:_parse_imgser_dict"])
P("C161","The beam direction and its azimuth and polar angle determine one another","For every azimuth and polar angle the beam vector is a unit vector against the direction they give; for every vector the angles of its direction give the direction back, and for every azimuth in (-180, 180] and polar angle in (0, 180) the angles are got back","all angles and all vectors","inverse trigonometric functions have quadrants and poles",["hexrd/core/instrument/hedm_instrument.py:calc_beam_vec","hexrd/core/instrument/hedm_instrument.py:calc_angles_from_beam_vec"])
P("C162","Wedges, edge centres and the greatest two-theta are what they say","angle_in_range returns the first wedge that contains the angle up to whole turns, and NaN exactly if there is none; centers_of_edge_vec returns the middle of each pair of neighbouring edges; max_tth is the greatest two-theta of all pixels","all angles, wedges, edges and panels","modular arithmetic at the ends of wedges",["hexrd/core/instrument/hedm_instrument.py:angle_in_range","hexrd/core/instrument/hedm_instrument.py:centers_of_edge_vec","hexrd/core/instrument/hedm_instrument.py:max_tth"])
P("C163","An instrument made into calibration parameters and updated from them is unchanged","For every instrument, angle convention and relative constraint, updating the instrument from the parameters created for it leaves every beam, the sample frame and every panel's position, orientation, radius and distortion as they were","all instruments, beams, panels, conventions and constraints","names are made from the panels' names, and conversions of angles lose particular orientations",["hexrd/core/fitting/calibration/lmfit_param_handling.py:create_instr_params","hexrd/core/fitting/calibration/lmfit_param_handling.py:update_instrument_from_params"])
P("C164","An update puts every beam, the frame and every panel where its parameters say","After a successful update without constraints every beam has the energy and direction of its parameters, chi and the frame's translation are theirs, each panel has the orientation of its angles, its translation and radius, and the direction of the active beam; names and groups are kept","all instruments and parameter values","each name must reach its own panel in its own units",["hexrd/core/fitting/calibration/lmfit_param_handling.py:update_instrument_from_params","hexrd/core/fitting/calibration/lmfit_param_handling.py:update_unconstrained_detector_parameters"])
P("C165","What the optimiser tried does not matter to the result","For every sequence of parameter sets tried during a calibration without constraints, the instrument, materials and grains at the end are those got by applying the answer to the state at the start","all sequences of trials and all answers","quantifies over histories",["hexrd/core/fitting/calibration/instrument.py:InstrumentCalibrator.run_calibration","hexrd/core/fitting/calibration/instrument.py:InstrumentCalibrator.update_all_from_params"])
P("C166","Material parameters are those of the lattice type and come back","A material has one parameter for each free lattice parameter of its lattice type with the refinement given for it in order; a material updated from parameters is a cell of its type with their values, from its own parameters the cell it was, and its beam energy is the instrument's","all lattice types, cells, refinements and values","seven lattice types with different free parameters and units",["hexrd/core/fitting/calibration/lmfit_param_handling.py:create_material_params","hexrd/core/fitting/calibration/lmfit_param_handling.py:update_material_from_params"])
P("C167","Fixed grain parameters and plate constraints hold","Fixing strain, translation or height forces exactly those parameters to their values, holds them and keeps their bounds around them; under the TARDIS constraint the distance of the two plates comes out in the allowed range, both are moved alike, and plates already in range stay","all parameter sets, bounds and plate positions","bounds may lie on either side of the forced value",["hexrd/core/fitting/calibration/abstract_grain.py:AbstractGrainCalibrator","hexrd/core/fitting/calibration/lmfit_param_handling.py:add_engineering_constraints"])
P("C168","All calibrators' parameters together have unique names and each calibrator gets its own back","For every set of calibrators the parameters have different names, the instrument's come first with their values, no two calibrators share a name, and a grain updated from its own parameters is the grain it was","all instruments, materials, grains and calibrators","names collide for particular combinations",["hexrd/core/fitting/calibration/instrument.py:InstrumentCalibrator.make_lmfit_params","hexrd/core/fitting/calibration/powder.py:PowderCalibrator.create_lmfit_params","hexrd/core/fitting/calibration/abstract_grain.py:AbstractGrainCalibrator.create_lmfit_params"])
P("C169","A spots file has one readable line for every spot dumped","For every sequence of spots dumped to a text file, its lines are the header and one line for each spot in order; split at blanks, a line is the texts of its seventeen values in the order of the header, with not-a-number for everything measured if nothing was; texts that fit their width stand under the names of the header","all sequences of spots, values and texts of any length","padding and separators must keep fields apart for texts of every length, and the file depends on the history of calls",["hexrd/core/instrument/hedm_instrument.py:PatchDataWriter"])
P("C170","A grains file or table has one row for every grain, with its strain","For every sequence of grains, the file has the header and one line for each, and a table gets one in each row from the first while rows beyond are left alone and a grain too many is refused; the values are id, completeness, chi squared, the twelve parameters and the components of the logarithm of the inverse of the symmetric matrix the last six stand for","all sequences of grains, tables and parameters","depends on the history of calls and on conventions for six-vectors",["hexrd/core/instrument/hedm_instrument.py:GrainDataWriter"])
P("C171","Spots of an archive have different names","Different spot numbers, however large, get different names in an archive, and a number written twice is refused","all sequences of spot numbers","numbers outgrow the padding",["hexrd/core/instrument/hedm_instrument.py:GrainDataWriter_h5"])
P("C172","A point of a panel mapped to another plane is where its line meets the plane","For every panel, plane and point, the mapped point is the one point of the plane on the line through the origin and the point, if the line is not parallel to the plane; mapping to the panel's own plane changes nothing, and mapping by way of a third plane gives the same","all rotations, translations and points","continuous geometry and compositions",["hexrd/core/instrument/detector.py:Detector.map_to_plane"])
P("C173","The angular size of a pixel is the largest along its sides","For every list of pixels and every geometry, each pixel gets the largest difference of two theta and the largest turn in eta between neighbouring corners, in the order given; whole turns of eta do not matter","all geometries, pixels, pitches and distortions","eta wraps around at a branch that may pass through any pixel",["hexrd/hedm/xrdutil/utils.py:angularPixelSize","hexrd/hedm/xrdutil/utils.py:_compute_max","hexrd/hedm/xrdutil/utils.py:_expand_pixels"])
P("C174","A frame cache has the frames asked for at their omegas","For every file of images, number of frames and first frame, the cache has that many frames, frame k being the processed raw frame first + k with the k-th of that many equal steps of omega; a range beyond the file is refused, and other caches are left alone","all files, ranges and omegas","the list of frames is only used for some numbers of frames",["hexrd/hedm/preprocess/preprocessors.py:PP_Base","hexrd/hedm/preprocess/preprocessors.py:PP_Eiger","hexrd/hedm/preprocess/preprocessors.py:preprocess"])
P("C175","Every panel's file is processed with its own options into its own cache","For every set of files with different stems, each with the name of one panel in its path, each is saved in the cache of its stem with the panel's options after the median of its first frames is subtracted, and the name of the panel","all sets of files and panels","names are matched anywhere in a path",["hexrd/hedm/preprocess/preprocessors.py:PP_Dexela","hexrd/hedm/preprocess/preprocessors.py:preprocess"])
P("C176","Settings of fit parameters by name reach exactly the parameters named","For every set of parameters and every text, setting refinement, bounds, boxes or ties by a text changes exactly the parameters with the text in their names, as asked, and leaves values and order; tied parameters are equal in every admissible state of a fit; a text no name has is refused for refinement and ties","all sets of parameters, texts and bounds","names are matched anywhere, and sets of names are open",["hexrd/core/fitting/utils.py:_set_refinement_by_name","hexrd/core/fitting/utils.py:_set_equality_constraints","hexrd/core/fitting/utils.py:_set_bound_constraints","hexrd/core/fitting/utils.py:_set_width_mixing_bounds"])
P("C177","Centres of fitted peaks stay in order, apart and in the window","For every set of parameters and separation, peaks closer than the separation are refused; otherwise in every admissible state of a fit the centres keep their order and are apart by at least the separation, and the fit may start from the values given","all sets of peaks and all values a fit may try","the states a fit passes through are a continuum",["hexrd/core/fitting/utils.py:_set_peak_center_bounds"])
P("C178","Radiographs are the attenuation of the images numbered","For every folder, first number and number of images, radiograph k is read from the file of number first + k, different numbers are different files, and at each pixel the bright beam times exp of minus the radiograph is the image, after the dark field is taken off; a bright field is the median of the images numbered","all names, numbers, widths of numbers and intensities","numbers may be wider than their padding, intensities are a continuum",["hexrd/hedm/grainmap/tomoutil.py:gen_bright_field","hexrd/hedm/grainmap/tomoutil.py:gen_median_image","hexrd/hedm/grainmap/tomoutil.py:gen_attenuation_rads"])
P("C179","Cleaning of a tomography layer removes small objects and closes small holes only","For every image and thresholds, every object below the size given is removed, every hole below its size is closed, and no other pixel changes","all images, labellings and sizes","an image may have any number of objects",["hexrd/hedm/grainmap/tomoutil.py:threshold_and_clean_tomo_layer"])
P("C180","Sinograms are cut around the rotation axis and layers around their middle","For every sinogram, centre and sample size, the columns kept are centred on the rotation axis and as many as the sample needs, up to one; for every layer, the pixels kept are the middle ones of the sample's size, within the circular mask if there is one","all sizes, centres and masks","offsets depend on rounding of quotients",["hexrd/hedm/grainmap/tomoutil.py:tomo_reconstruct_layer","hexrd/hedm/grainmap/tomoutil.py:crop_and_rebin_tomo_layer"])
P("C181","Every measured ring has one parameter of its own","For every set of beams and measurements, the parameters are one for each ring measured on some panel, with the mean of its angles, five degrees to both sides, and names that are different for different rings and beams","all names of beams, rings and panels","names are put together from parts that may contain each other",["hexrd/core/fitting/calibration/lmfit_param_handling.py:create_tth_parameters","hexrd/core/fitting/calibration/lmfit_param_handling.py:tth_parameter_prefixes"])
P("C182","Commands do not overwrite results unless told to, and start from what was asked for","Without --force or --clean, fit-grains and find-orientations change no file of results that exists, at whatever moment they stop; a fit-grains run that ends has fitted every analysis of the file, starting from its estimate if there is one and --clean is not given, and from the accepted orientations otherwise","all options, lists of analyses, states of the disk and moments of a crash","the disk may be in any state and the command may stop at any moment",["hexrd/hedm/cli/fit_grains.py:execute","hexrd/hedm/cli/fit_grains.py:write_results","hexrd/hedm/cli/find_orientations.py:execute","hexrd/hedm/cli/find_orientations.py:write_results","hexrd/hedm/config/fitgrains.py:FitGrainsConfig.estimate"])
P("C183","Tables of grains keep the grains whole","For every table of grains, selection by completeness and fit keeps the grains that meet both and no others, each with all its numbers and in order; grains written to a table or a file are read back as they were","all tables, thresholds and numbers of grains","tables have any number of grains",["hexrd/hedm/cli/fit_grains.py:GrainData"])
P("C184","The starting point of a grain is its accepted orientation","For every accepted orientation, the rotation vector written for it is the rotation of the quaternion found, with no translation and no stretch","all unit quaternions","orientations are a continuum",["hexrd/hedm/cli/find_orientations.py:write_results","hexrd/hedm/cli/fit_grains.py:execute"])
P("C185","Directions are mapped to the plane as the method says, one to one, without touching the input","For every list of angles or directions, tilt, matrix and method, each point is the stereographic or the equal-area image of the direction meant, in order; the mask tells which ones are kept; different directions have different images, discs of the equal-area map have the area of their caps, and the input is not changed","all angles, directions, matrices and options","directions are a continuum",["hexrd/hedm/xrdutil/utils.py:zproject_sph_angles"])
P("C186","A field of a layer of the physics package reads as last assigned","After any history of assignments, also ones that were refused, each attribute layer_field of a physics package reads as the value last assigned to it, or its initial value; the radius of the pinhole and its diameter are two names of one number; a cylinder has its thickness as diameter; only the type, a diameter of a sample and a radius that is no number are refused","all histories of assignments of any names and values","a value is kept in two places that must agree after every history",["hexrd/core/instrument/physics_package.py:AbstractPhysicsPackage","hexrd/core/instrument/physics_package.py:HEDPhysicsPackage","hexrd/core/instrument/physics_package.py:HEDMPhysicsPackage"])
P("C187","A saved physics package is read back whole","For every history of a package, what serialize gives names each field of each layer once with its value, and a package of the same type that deserializes it, whatever it held before, has the same values and saves the same","all histories of both packages","both packages may have any history",["hexrd/core/instrument/physics_package.py:AbstractPhysicsPackage.serialize","hexrd/core/instrument/physics_package.py:AbstractPhysicsPackage.deserialize"])
P("C188","Standoff and absorption are of the layers as assigned","After any history of assignments, the standoff of a layer is the sum of the thicknesses of the layers between it and the pinhole, and lengths of absorption are computed from the density of the layer asked for and its formula, or its material if it has none, one for each energy","all histories, layers and lists of energies","thicknesses and histories are unbounded",["hexrd/core/instrument/physics_package.py:HEDPhysicsPackage.layer_standoff","hexrd/core/instrument/physics_package.py:HEDPhysicsPackage.absorption_length","hexrd/core/instrument/physics_package.py:HEDPhysicsPackage.layer_thickness"])
P("C189","A layer of a detector reads as made, and as saved","For all arguments, a filter, coating or phosphor reads as it was made, with 0 for numbers not given; unknown arguments and phosphors without their two numbers are refused; a layer that deserializes what another layer of its class saved reads as that layer, whatever was assigned to either before","all arguments and histories of assignments","arguments and histories are unbounded",["hexrd/core/instrument/detector_coatings.py:AbstractLayer","hexrd/core/instrument/detector_coatings.py:Phosphor"])
P("C190","Colours keep hue, saturation and lightness","For every array of hues, saturations and lightnesses, each colour is that of its hue on the wheel of colours with the range its saturation and lightness give, all parts in [0, 1]; converting it back gives the same hue, saturation and lightness, and every colour converted there and back is itself; values outside of [0, 1] are refused, and the input is not changed","all arrays of colours","colours are a continuum, with six sectors that must fit at their borders",["hexrd/hedm/ipfcolor/colorspace.py:hsl2rgb","hexrd/hedm/ipfcolor/colorspace.py:rgb2hsl"])
P("C191","Cards of materials are read as written","For every JCPDS card, of either kind of file, each parameter is the one of the last line that gives it, the six lattice parameters are completed as the crystal system asks, the volume is that of the cell, and a file is refused if and only if a line has no first word or no number where there must be one","all files and all readings of words as numbers","files have any number of lines in any order",["hexrd/core/material/jcpds.py:JCPDS_extend.read_file","hexrd/core/material/jcpds.py:JCPDS_extend.calc_volume_unitcell"])
P("C192","Cards are written to and compared with materials of their own crystal system","For every card and material, lattice and equation of state are written to the material if both have the same crystal system, and nothing else is; otherwise nothing is written and an error is raised; a material matches the card if its lattice parameters do","all cards and materials","lattice parameters are a continuum",["hexrd/core/material/jcpds.py:JCPDS_extend.matches_material","hexrd/core/material/jcpds.py:JCPDS_extend.write_lattice_params_to_material","hexrd/core/material/jcpds.py:JCPDS_extend.write_pt_params_to_material"])
