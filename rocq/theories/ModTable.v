(** The rows of hexrd/file_table.tsv and the Python files and directories below hexrd/ (generated). *)
From Coq Require Import String.
From Verif Require Import Prelude ModModel.
Local Open Scope string_scope.

(** hexrd/file_table.tsv, all rows in order *)
Definition file_table : list row := [
(["setup.py"], ["setup.py"]);
(["docs"; "source"; "conf.py"], ["docs"; "source"; "conf.py"]);
(["scripts"; "install"; "install_build_dependencies.py"], ["scripts"; "install"; "install_build_dependencies.py"]);
(["hexrd"; "valunits.py"], ["hexrd"; "core"; "valunits.py"]);
(["hexrd"; "fitgrains.py"], ["hexrd"; "hedm"; "fitgrains.py"]);
(["hexrd"; "imageutil.py"], ["hexrd"; "core"; "imageutil.py"]);
(["hexrd"; "rotations.py"], ["hexrd"; "core"; "rotations.py"]);
(["hexrd"; "findorientations.py"], ["hexrd"; "hedm"; "findorientations.py"]);
(["hexrd"; "deprecation.py"], ["hexrd"; "core"; "deprecation.py"]);
(["hexrd"; "indexer.py"], ["hexrd"; "hedm"; "indexer.py"]);
(["hexrd"; "matrixutil.py"], ["hexrd"; "core"; "matrixutil.py"]);
(["hexrd"; "constants.py"], ["hexrd"; "core"; "constants.py"]);
(["hexrd"; "gridutil.py"], ["hexrd"; "core"; "gridutil.py"]);
(["hexrd"; "resources"; "__init__.py"], ["hexrd"; "core"; "resources"; "__init__.py"]);
(["hexrd"; "resources"; "detector_templates"; "__init__.py"], ["hexrd"; "core"; "resources"; "detector_templates"; "__init__.py"]);
(["hexrd"; "resources"; "instrument_templates"; "__init__.py"], ["hexrd"; "core"; "resources"; "instrument_templates"; "__init__.py"]);
(["hexrd"; "cli"; "help.py"], ["hexrd"; "hedm"; "cli"; "help.py"]);
(["hexrd"; "cli"; "find_orientations.py"], ["hexrd"; "hedm"; "cli"; "find_orientations.py"]);
(["hexrd"; "cli"; "fit_grains.py"], ["hexrd"; "hedm"; "cli"; "fit_grains.py"]);
(["hexrd"; "cli"; "__init__.py"], ["hexrd"; "hedm"; "cli"; "__init__.py"]);
(["hexrd"; "cli"; "main.py"], ["hexrd"; "hedm"; "cli"; "main.py"]);
(["hexrd"; "cli"; "test.py"], ["hexrd"; "hedm"; "cli"; "test.py"]);
(["hexrd"; "cli"; "pickle23.py"], ["hexrd"; "hedm"; "cli"; "pickle23.py"]);
(["hexrd"; "cli"; "documentation.py"], ["hexrd"; "hedm"; "cli"; "documentation.py"]);
(["hexrd"; "config"; "fitgrains.py"], ["hexrd"; "hedm"; "config"; "fitgrains.py"]);
(["hexrd"; "config"; "material.py"], ["hexrd"; "core"; "config"; "material.py"]);
(["hexrd"; "config"; "root.py"], ["hexrd"; "core"; "config"; "root.py"]);
(["hexrd"; "config"; "dumper.py"], ["hexrd"; "core"; "config"; "dumper.py"]);
(["hexrd"; "config"; "loader.py"], ["hexrd"; "hedm"; "config"; "loader.py"]);
(["hexrd"; "config"; "loader.py"], ["hexrd"; "core"; "config"; "loader.py"]);
(["hexrd"; "config"; "__init__.py"], ["hexrd"; "hedm"; "config"; "__init__.py"]);
(["hexrd"; "config"; "__init__.py"], ["hexrd"; "core"; "config"; "__init__.py"]);
(["hexrd"; "config"; "findorientations.py"], ["hexrd"; "hedm"; "config"; "findorientations.py"]);
(["hexrd"; "config"; "config.py"], ["hexrd"; "core"; "config"; "config.py"]);
(["hexrd"; "config"; "utils.py"], ["hexrd"; "core"; "config"; "utils.py"]);
(["hexrd"; "config"; "instrument.py"], ["hexrd"; "hedm"; "config"; "instrument.py"]);
(["hexrd"; "config"; "instrument.py"], ["hexrd"; "core"; "config"; "instrument.py"]);
(["hexrd"; "config"; "beam.py"], ["hexrd"; "core"; "config"; "beam.py"]);
(["hexrd"; "config"; "imageseries.py"], ["hexrd"; "core"; "config"; "imageseries.py"]);
(["hexrd"; "sampleOrientations"; "conversions.py"], ["hexrd"; "hedm"; "sampleOrientations"; "conversions.py"]);
(["hexrd"; "sampleOrientations"; "rfz.py"], ["hexrd"; "hedm"; "sampleOrientations"; "rfz.py"]);
(["hexrd"; "sampleOrientations"; "__init__.py"], ["hexrd"; "hedm"; "sampleOrientations"; "__init__.py"]);
(["hexrd"; "sampleOrientations"; "sampleRFZ.py"], ["hexrd"; "hedm"; "sampleOrientations"; "sampleRFZ.py"]);
(["hexrd"; "transforms"; "xf.py"], ["hexrd"; "core"; "transforms"; "xf.py"]);
(["hexrd"; "transforms"; "xfcapi.py"], ["hexrd"; "core"; "transforms"; "xfcapi.py"]);
(["hexrd"; "transforms"; "__init__.py"], ["hexrd"; "core"; "transforms"; "__init__.py"]);
(["hexrd"; "transforms"; "old_xfcapi.py"], ["hexrd"; "core"; "transforms"; "old_xfcapi.py"]);
(["hexrd"; "transforms"; "new_capi"; "xf_new_capi.py"], ["hexrd"; "core"; "transforms"; "new_capi"; "xf_new_capi.py"]);
(["hexrd"; "transforms"; "new_capi"; "reference.py"], ["hexrd"; "core"; "transforms"; "new_capi"; "reference.py"]);
(["hexrd"; "extensions"; "__init__.py"], ["hexrd"; "core"; "extensions"; "__init__.py"]);
(["hexrd"; "imageseries"; "imageseriesiter.py"], ["hexrd"; "core"; "imageseries"; "imageseriesiter.py"]);
(["hexrd"; "imageseries"; "process.py"], ["hexrd"; "core"; "imageseries"; "process.py"]);
(["hexrd"; "imageseries"; "stats.py"], ["hexrd"; "core"; "imageseries"; "stats.py"]);
(["hexrd"; "imageseries"; "baseclass.py"], ["hexrd"; "core"; "imageseries"; "baseclass.py"]);
(["hexrd"; "imageseries"; "__init__.py"], ["hexrd"; "core"; "imageseries"; "__init__.py"]);
(["hexrd"; "imageseries"; "imageseriesabc.py"], ["hexrd"; "core"; "imageseries"; "imageseriesabc.py"]);
(["hexrd"; "imageseries"; "omega.py"], ["hexrd"; "core"; "imageseries"; "omega.py"]);
(["hexrd"; "imageseries"; "save.py"], ["hexrd"; "core"; "imageseries"; "save.py"]);
(["hexrd"; "imageseries"; "load"; "hdf5.py"], ["hexrd"; "core"; "imageseries"; "load"; "hdf5.py"]);
(["hexrd"; "imageseries"; "load"; "eiger_stream_v1.py"], ["hexrd"; "core"; "imageseries"; "load"; "eiger_stream_v1.py"]);
(["hexrd"; "imageseries"; "load"; "framecache.py"], ["hexrd"; "core"; "imageseries"; "load"; "framecache.py"]);
(["hexrd"; "imageseries"; "load"; "imagefiles.py"], ["hexrd"; "core"; "imageseries"; "load"; "imagefiles.py"]);
(["hexrd"; "imageseries"; "load"; "rawimage.py"], ["hexrd"; "core"; "imageseries"; "load"; "rawimage.py"]);
(["hexrd"; "imageseries"; "load"; "array.py"], ["hexrd"; "core"; "imageseries"; "load"; "array.py"]);
(["hexrd"; "imageseries"; "load"; "__init__.py"], ["hexrd"; "core"; "imageseries"; "load"; "__init__.py"]);
(["hexrd"; "imageseries"; "load"; "function.py"], ["hexrd"; "core"; "imageseries"; "load"; "function.py"]);
(["hexrd"; "imageseries"; "load"; "registry.py"], ["hexrd"; "core"; "imageseries"; "load"; "registry.py"]);
(["hexrd"; "imageseries"; "load"; "trivial.py"], ["hexrd"; "core"; "imageseries"; "load"; "trivial.py"]);
(["hexrd"; "imageseries"; "load"; "metadata.py"], ["hexrd"; "core"; "imageseries"; "load"; "metadata.py"]);
(["hexrd"; "projections"; "polar.py"], ["hexrd"; "core"; "projections"; "polar.py"]);
(["hexrd"; "projections"; "__init__.py"], ["hexrd"; "core"; "projections"; "__init__.py"]);
(["hexrd"; "projections"; "spherical.py"], ["hexrd"; "core"; "projections"; "spherical.py"]);
(["hexrd"; "wppf"; "LeBailCalibration.py"], ["hexrd"; "powder"; "wppf"; "LeBailCalibration.py"]);
(["hexrd"; "wppf"; "spectrum.py"], ["hexrd"; "powder"; "wppf"; "spectrum.py"]);
(["hexrd"; "wppf"; "xtal.py"], ["hexrd"; "powder"; "wppf"; "xtal.py"]);
(["hexrd"; "wppf"; "derivatives.py"], ["hexrd"; "powder"; "wppf"; "derivatives.py"]);
(["hexrd"; "wppf"; "WPPF.py"], ["hexrd"; "powder"; "wppf"; "WPPF.py"]);
(["hexrd"; "wppf"; "RietveldHEDM.py"], ["hexrd"; "powder"; "wppf"; "RietveldHEDM.py"]);
(["hexrd"; "wppf"; "__init__.py"], ["hexrd"; "powder"; "wppf"; "__init__.py"]);
(["hexrd"; "wppf"; "wppfsupport.py"], ["hexrd"; "powder"; "wppf"; "wppfsupport.py"]);
(["hexrd"; "wppf"; "peakfunctions.py"], ["hexrd"; "powder"; "wppf"; "peakfunctions.py"]);
(["hexrd"; "wppf"; "texture.py"], ["hexrd"; "powder"; "wppf"; "texture.py"]);
(["hexrd"; "wppf"; "parameters.py"], ["hexrd"; "powder"; "wppf"; "parameters.py"]);
(["hexrd"; "wppf"; "phase.py"], ["hexrd"; "powder"; "wppf"; "phase.py"]);
(["hexrd"; "material"; "mksupport.py"], ["hexrd"; "core"; "material"; "mksupport.py"]);
(["hexrd"; "material"; "symmetry.py"], ["hexrd"; "core"; "material"; "symmetry.py"]);
(["hexrd"; "material"; "material.py"], ["hexrd"; "core"; "material"; "material.py"]);
(["hexrd"; "material"; "crystallography.py"], ["hexrd"; "core"; "material"; "crystallography.py"]);
(["hexrd"; "material"; "unitcell.py"], ["hexrd"; "core"; "material"; "unitcell.py"]);
(["hexrd"; "material"; "__init__.py"], ["hexrd"; "core"; "material"; "__init__.py"]);
(["hexrd"; "material"; "symbols.py"], ["hexrd"; "core"; "material"; "symbols.py"]);
(["hexrd"; "material"; "utils.py"], ["hexrd"; "core"; "material"; "utils.py"]);
(["hexrd"; "material"; "jcpds.py"], ["hexrd"; "core"; "material"; "jcpds.py"]);
(["hexrd"; "material"; "spacegroup.py"], ["hexrd"; "core"; "material"; "spacegroup.py"]);
(["hexrd"; "utils"; "profiler.py"], ["hexrd"; "core"; "utils"; "profiler.py"]);
(["hexrd"; "utils"; "hdf5.py"], ["hexrd"; "core"; "utils"; "hdf5.py"]);
(["hexrd"; "utils"; "progressbar.py"], ["hexrd"; "core"; "utils"; "progressbar.py"]);
(["hexrd"; "utils"; "warnings.py"], ["hexrd"; "core"; "utils"; "warnings.py"]);
(["hexrd"; "utils"; "concurrent.py"], ["hexrd"; "core"; "utils"; "concurrent.py"]);
(["hexrd"; "utils"; "multiprocess_generic.py"], ["hexrd"; "core"; "utils"; "multiprocess_generic.py"]);
(["hexrd"; "utils"; "__init__.py"], ["hexrd"; "core"; "utils"; "__init__.py"]);
(["hexrd"; "utils"; "json.py"], ["hexrd"; "core"; "utils"; "json.py"]);
(["hexrd"; "utils"; "compatibility.py"], ["hexrd"; "core"; "utils"; "compatibility.py"]);
(["hexrd"; "utils"; "yaml.py"], ["hexrd"; "core"; "utils"; "yaml.py"]);
(["hexrd"; "utils"; "hkl.py"], ["hexrd"; "core"; "utils"; "hkl.py"]);
(["hexrd"; "utils"; "decorators.py"], ["hexrd"; "core"; "utils"; "decorators.py"]);
(["hexrd"; "instrument"; "hedm_instrument.py"], ["hexrd"; "hed"; "instrument"; "hedm_instrument.py"]);
(["hexrd"; "instrument"; "hedm_instrument.py"], ["hexrd"; "hedm"; "instrument"; "hedm_instrument.py"]);
(["hexrd"; "instrument"; "hedm_instrument.py"], ["hexrd"; "laue"; "instrument"; "hedm_instrument.py"]);
(["hexrd"; "instrument"; "hedm_instrument.py"], ["hexrd"; "powder"; "instrument"; "hedm_instrument.py"]);
(["hexrd"; "instrument"; "hedm_instrument.py"], ["hexrd"; "core"; "instrument"; "hedm_instrument.py"]);
(["hexrd"; "instrument"; "physics_package.py"], ["hexrd"; "core"; "instrument"; "physics_package.py"]);
(["hexrd"; "instrument"; "detector.py"], ["hexrd"; "core"; "instrument"; "detector.py"]);
(["hexrd"; "instrument"; "cylindrical_detector.py"], ["hexrd"; "core"; "instrument"; "cylindrical_detector.py"]);
(["hexrd"; "instrument"; "__init__.py"], ["hexrd"; "core"; "instrument"; "__init__.py"]);
(["hexrd"; "instrument"; "planar_detector.py"], ["hexrd"; "core"; "instrument"; "planar_detector.py"]);
(["hexrd"; "instrument"; "detector_coatings.py"], ["hexrd"; "core"; "instrument"; "detector_coatings.py"]);
(["hexrd"; "instrument"; "constants.py"], ["hexrd"; "core"; "instrument"; "constants.py"]);
(["hexrd"; "fitting"; "fitpeak.py"], ["hexrd"; "core"; "fitting"; "fitpeak.py"]);
(["hexrd"; "fitting"; "spectrum.py"], ["hexrd"; "core"; "fitting"; "spectrum.py"]);
(["hexrd"; "fitting"; "grains.py"], ["hexrd"; "hedm"; "fitting"; "grains.py"]);
(["hexrd"; "fitting"; "__init__.py"], ["hexrd"; "core"; "fitting"; "__init__.py"]);
(["hexrd"; "fitting"; "peakfunctions.py"], ["hexrd"; "core"; "fitting"; "peakfunctions.py"]);
(["hexrd"; "fitting"; "utils.py"], ["hexrd"; "core"; "fitting"; "utils.py"]);
(["hexrd"; "fitting"; "calibration"; "laue.py"], ["hexrd"; "laue"; "fitting"; "calibration"; "laue.py"]);
(["hexrd"; "fitting"; "calibration"; "structureless.py"], ["hexrd"; "powder"; "fitting"; "calibration"; "structureless.py"]);
(["hexrd"; "fitting"; "calibration"; "powder.py"], ["hexrd"; "powder"; "fitting"; "calibration"; "powder.py"]);
(["hexrd"; "fitting"; "calibration"; "__init__.py"], ["hexrd"; "core"; "fitting"; "calibration"; "__init__.py"]);
(["hexrd"; "fitting"; "calibration"; "multigrain.py"], ["hexrd"; "hedm"; "fitting"; "calibration"; "multigrain.py"]);
(["hexrd"; "fitting"; "calibration"; "calibrator.py"], ["hexrd"; "powder"; "fitting"; "calibration"; "calibrator.py"]);
(["hexrd"; "fitting"; "calibration"; "lmfit_param_handling.py"], ["hexrd"; "powder"; "fitting"; "calibration"; "lmfit_param_handling.py"]);
(["hexrd"; "fitting"; "calibration"; "instrument.py"], ["hexrd"; "powder"; "fitting"; "calibration"; "instrument.py"]);
(["hexrd"; "fitting"; "calibration"; "laue.py"], ["hexrd"; "core"; "fitting"; "calibration"; "laue.py"]);
(["hexrd"; "fitting"; "calibration"; "structureless.py"], ["hexrd"; "core"; "fitting"; "calibration"; "structureless.py"]);
(["hexrd"; "fitting"; "calibration"; "powder.py"], ["hexrd"; "core"; "fitting"; "calibration"; "powder.py"]);
(["hexrd"; "fitting"; "calibration"; "multigrain.py"], ["hexrd"; "core"; "fitting"; "calibration"; "multigrain.py"]);
(["hexrd"; "fitting"; "calibration"; "calibrator.py"], ["hexrd"; "core"; "fitting"; "calibration"; "calibrator.py"]);
(["hexrd"; "fitting"; "calibration"; "lmfit_param_handling.py"], ["hexrd"; "core"; "fitting"; "calibration"; "lmfit_param_handling.py"]);
(["hexrd"; "fitting"; "calibration"; "instrument.py"], ["hexrd"; "core"; "fitting"; "calibration"; "instrument.py"]);
(["hexrd"; "ipfcolor"; "sphere_sector.py"], ["hexrd"; "hedm"; "ipfcolor"; "sphere_sector.py"]);
(["hexrd"; "ipfcolor"; "colorspace.py"], ["hexrd"; "hedm"; "ipfcolor"; "colorspace.py"]);
(["hexrd"; "ipfcolor"; "__init__.py"], ["hexrd"; "hedm"; "ipfcolor"; "__init__.py"]);
(["hexrd"; "xrdutil"; "__init__.py"], ["hexrd"; "hedm"; "xrdutil"; "__init__.py"]);
(["hexrd"; "xrdutil"; "utils.py"], ["hexrd"; "hedm"; "xrdutil"; "utils.py"]);
(["hexrd"; "xrdutil"; "utils.py"], ["hexrd"; "hed"; "xrdutil"; "utils.py"]);
(["hexrd"; "xrdutil"; "utils.py"], ["hexrd"; "laue"; "xrdutil"; "utils.py"]);
(["hexrd"; "xrdutil"; "phutil.py"], ["hexrd"; "hed"; "xrdutil"; "phutil.py"]);
(["hexrd"; "distortion"; "ge_41rt.py"], ["hexrd"; "core"; "distortion"; "ge_41rt.py"]);
(["hexrd"; "distortion"; "identity.py"], ["hexrd"; "core"; "distortion"; "identity.py"]);
(["hexrd"; "distortion"; "dexela_2923.py"], ["hexrd"; "core"; "distortion"; "dexela_2923.py"]);
(["hexrd"; "distortion"; "__init__.py"], ["hexrd"; "core"; "distortion"; "__init__.py"]);
(["hexrd"; "distortion"; "registry.py"], ["hexrd"; "core"; "distortion"; "registry.py"]);
(["hexrd"; "distortion"; "distortionabc.py"], ["hexrd"; "core"; "distortion"; "distortionabc.py"]);
(["hexrd"; "distortion"; "utils.py"], ["hexrd"; "core"; "distortion"; "utils.py"]);
(["hexrd"; "distortion"; "nyi.py"], ["hexrd"; "core"; "distortion"; "nyi.py"]);
(["hexrd"; "grainmap"; "tomoutil.py"], ["hexrd"; "hedm"; "grainmap"; "tomoutil.py"]);
(["hexrd"; "grainmap"; "__init__.py"], ["hexrd"; "hedm"; "grainmap"; "__init__.py"]);
(["hexrd"; "grainmap"; "vtkutil.py"], ["hexrd"; "hedm"; "grainmap"; "vtkutil.py"]);
(["hexrd"; "grainmap"; "nfutil.py"], ["hexrd"; "hedm"; "grainmap"; "nfutil.py"]);
(["hexrd"; "convolution"; "__init__.py"], ["hexrd"; "core"; "convolution"; "__init__.py"]);
(["hexrd"; "convolution"; "utils.py"], ["hexrd"; "core"; "convolution"; "utils.py"]);
(["hexrd"; "convolution"; "convolve.py"], ["hexrd"; "core"; "convolution"; "convolve.py"]);
(["tests"; "test_material.py"], ["tests"; "test_material.py"]);
(["tests"; "test_graindata.py"], ["tests"; "test_graindata.py"]);
(["tests"; "test_utils_json.py"], ["tests"; "test_utils_json.py"]);
(["tests"; "test_utils_yaml.py"], ["tests"; "test_utils_yaml.py"]);
(["tests"; "common.py"], ["tests"; "common.py"]);
(["tests"; "test_rotations.py"], ["tests"; "test_rotations.py"]);
(["tests"; "test_inverse_distortion.py"], ["tests"; "test_inverse_distortion.py"]);
(["tests"; "conftest.py"], ["tests"; "conftest.py"]);
(["tests"; "test_absorption_correction.py"], ["tests"; "test_absorption_correction.py"]);
(["tests"; "test_memoize.py"], ["tests"; "test_memoize.py"]);
(["tests"; "test_transforms.py"], ["tests"; "test_transforms.py"]);
(["tests"; "test_matrix_utils.py"], ["tests"; "test_matrix_utils.py"]);
(["tests"; "fit_grains_check.py"], ["tests"; "fit_grains_check.py"]);
(["tests"; "test_fit-grains.py"], ["tests"; "test_fit-grains.py"]);
(["tests"; "find_orientations_testing.py"], ["tests"; "find_orientations_testing.py"]);
(["tests"; "test_concurrent.py"], ["tests"; "test_concurrent.py"]);
(["tests"; "test_find_orientations.py"], ["tests"; "test_find_orientations.py"]);
(["tests"; "config"; "test_material.py"], ["tests"; "config"; "test_material.py"]);
(["tests"; "config"; "test_instrument.py"], ["tests"; "config"; "test_instrument.py"]);
(["tests"; "config"; "test_fit_grains.py"], ["tests"; "config"; "test_fit_grains.py"]);
(["tests"; "config"; "common.py"], ["tests"; "config"; "common.py"]);
(["tests"; "config"; "test_root.py"], ["tests"; "config"; "test_root.py"]);
(["tests"; "config"; "__init__.py"], ["tests"; "config"; "__init__.py"]);
(["tests"; "config"; "test_find_orientations.py"], ["tests"; "config"; "test_find_orientations.py"]);
(["tests"; "config"; "test_image_series.py"], ["tests"; "config"; "test_image_series.py"]);
(["tests"; "transforms"; "test_rotate_vecs_about_axis.py"], ["tests"; "transforms"; "test_rotate_vecs_about_axis.py"]);
(["tests"; "transforms"; "test_quat_distance_from_file.py"], ["tests"; "transforms"; "test_quat_distance_from_file.py"]);
(["tests"; "transforms"; "test_angles_to_dvec_from_file.py"], ["tests"; "transforms"; "test_angles_to_dvec_from_file.py"]);
(["tests"; "transforms"; "test_xy_to_gvec_from_file.py"], ["tests"; "transforms"; "test_xy_to_gvec_from_file.py"]);
(["tests"; "transforms"; "test_make_detector_rmat_from_file.py"], ["tests"; "transforms"; "test_make_detector_rmat_from_file.py"]);
(["tests"; "transforms"; "common.py"], ["tests"; "transforms"; "common.py"]);
(["tests"; "transforms"; "test_validate_angle_ranges_from_file.py"], ["tests"; "transforms"; "test_validate_angle_ranges_from_file.py"]);
(["tests"; "transforms"; "test_gvec_to_xy.py"], ["tests"; "transforms"; "test_gvec_to_xy.py"]);
(["tests"; "transforms"; "test_make_sample_rmat_from_file.py"], ["tests"; "transforms"; "test_make_sample_rmat_from_file.py"]);
(["tests"; "transforms"; "test_angles_to_gvec_from_file.py"], ["tests"; "transforms"; "test_angles_to_gvec_from_file.py"]);
(["tests"; "transforms"; "test_gvec_to_xy_from_file.py"], ["tests"; "transforms"; "test_gvec_to_xy_from_file.py"]);
(["tests"; "transforms"; "test_make_rmat_of_expmap_from_file.py"], ["tests"; "transforms"; "test_make_rmat_of_expmap_from_file.py"]);
(["tests"; "transforms"; "test_make_beam_rmat_from_file.py"], ["tests"; "transforms"; "test_make_beam_rmat_from_file.py"]);
(["tests"; "transforms"; "test_unit_vector.py"], ["tests"; "transforms"; "test_unit_vector.py"]);
(["tests"; "transforms"; "test_xy_to_gvec.py"], ["tests"; "transforms"; "test_xy_to_gvec.py"]);
(["tests"; "unitcell"; "test_vec_math.py"], ["tests"; "unitcell"; "test_vec_math.py"]);
(["tests"; "planedata"; "test_init.py"], ["tests"; "planedata"; "test_init.py"]);
(["tests"; "planedata"; "test_exclusion.py"], ["tests"; "planedata"; "test_exclusion.py"]);
(["tests"; "planedata"; "test_with_data.py"], ["tests"; "planedata"; "test_with_data.py"]);
(["tests"; "planedata"; "test_misc.py"], ["tests"; "planedata"; "test_misc.py"]);
(["tests"; "matrix_util"; "test_strain_stress_reps.py"], ["tests"; "matrix_util"; "test_strain_stress_reps.py"]);
(["tests"; "matrix_util"; "test_norms.py"], ["tests"; "matrix_util"; "test_norms.py"]);
(["tests"; "matrix_util"; "test_vector_and_matrix_math.py"], ["tests"; "matrix_util"; "test_vector_and_matrix_math.py"]);
(["tests"; "imageseries"; "test_stats.py"], ["tests"; "imageseries"; "test_stats.py"]);
(["tests"; "imageseries"; "common.py"], ["tests"; "imageseries"; "common.py"]);
(["tests"; "imageseries"; "test_formats.py"], ["tests"; "imageseries"; "test_formats.py"]);
(["tests"; "imageseries"; "__init__.py"], ["tests"; "imageseries"; "__init__.py"]);
(["tests"; "imageseries"; "test_omega.py"], ["tests"; "imageseries"; "test_omega.py"]);
(["tests"; "imageseries"; "test_process.py"], ["tests"; "imageseries"; "test_process.py"]);
(["tests"; "imageseries"; "test_properties.py"], ["tests"; "imageseries"; "test_properties.py"]);
(["tests"; "rotations"; "test_eulers.py"], ["tests"; "rotations"; "test_eulers.py"]);
(["tests"; "rotations"; "test_quat_math.py"], ["tests"; "rotations"; "test_quat_math.py"]);
([".codecov.yml"], [".codecov.yml"]);
([".gitattributes"], [".gitattributes"]);
([".github"; "workflows"; "container_build.sh"], [".github"; "workflows"; "container_build.sh"]);
([".github"; "workflows"; "package.yml"], [".github"; "workflows"; "package.yml"]);
([".github"; "workflows"; "test.yml"], [".github"; "workflows"; "test.yml"]);
([".gitignore"], [".gitignore"]);
([".readthedocs.yml"], [".readthedocs.yml"]);
(["conda.recipe"; "bld.bat"], ["conda.recipe"; "bld.bat"]);
(["conda.recipe"; "build.sh"], ["conda.recipe"; "build.sh"]);
(["conda.recipe"; "conda_build_config.yaml"], ["conda.recipe"; "conda_build_config.yaml"]);
(["conda.recipe"; "meta.yaml"], ["conda.recipe"; "meta.yaml"]);
(["docs"; "Makefile"], ["docs"; "Makefile"]);
(["docs"; "README.md"], ["docs"; "README.md"]);
(["docs"; "requirements.txt"], ["docs"; "requirements.txt"]);
(["docs"; "run_apidoc.sh"], ["docs"; "run_apidoc.sh"]);
(["docs"; "run_sphinx.sh"], ["docs"; "run_sphinx.sh"]);
(["docs"; "source"; ".gitignore"], ["docs"; "source"; ".gitignore"]);
(["docs"; "source"; "dev"; ".gitignore"], ["docs"; "source"; "dev"; ".gitignore"]);
(["docs"; "source"; "users"; "transforms.md"], ["docs"; "source"; "users"; "transforms.md"]);
(["docs"; "source"; "_static"; "transforms.pdf"], ["docs"; "source"; "_static"; "transforms.pdf"]);
(["environment.yml"], ["environment.yml"]);
(["hexrd"; "convolution"; "src"; "convolve.c"], ["hexrd"; "core"; "convolution"; "src"; "convolve.c"]);
(["hexrd"; "convolution"; "src"; "convolve.h"], ["hexrd"; "core"; "convolution"; "src"; "convolve.h"]);
(["hexrd"; "copyright.py"], ["hexrd"; "copyright.py"]);
(["hexrd"; "fitting"; "calibration"; "relative_constraints.py"], ["hexrd"; "core"; "fitting"; "calibration"; "relative_constraints.py"]);
(["hexrd"; "resources"; "Anomalous.h5"], ["hexrd"; "core"; "resources"; "Anomalous.h5"]);
(["hexrd"; "resources"; "BBXRD_IMAGE-PLATE-BACK_bnd.txt"], ["hexrd"; "core"; "resources"; "BBXRD_IMAGE-PLATE-BACK_bnd.txt"]);
(["hexrd"; "resources"; "BBXRD_IMAGE-PLATE-BOTTOM_bnd.txt"], ["hexrd"; "core"; "resources"; "BBXRD_IMAGE-PLATE-BOTTOM_bnd.txt"]);
(["hexrd"; "resources"; "BBXRD_IMAGE-PLATE-LEFT_bnd.txt"], ["hexrd"; "core"; "resources"; "BBXRD_IMAGE-PLATE-LEFT_bnd.txt"]);
(["hexrd"; "resources"; "BBXRD_IMAGE-PLATE-RIGHT_bnd.txt"], ["hexrd"; "core"; "resources"; "BBXRD_IMAGE-PLATE-RIGHT_bnd.txt"]);
(["hexrd"; "resources"; "BBXRD_IMAGE-PLATE-TOP_bnd.txt"], ["hexrd"; "core"; "resources"; "BBXRD_IMAGE-PLATE-TOP_bnd.txt"]);
(["hexrd"; "resources"; "characteristic_xray_energies.h5"], ["hexrd"; "core"; "resources"; "characteristic_xray_energies.h5"]);
(["hexrd"; "resources"; "detector_templates"; "dexela-2923-detector-subpanel.yml"], ["hexrd"; "core"; "resources"; "detector_templates"; "dexela-2923-detector-subpanel.yml"]);
(["hexrd"; "resources"; "detector_templates"; "dexela-2923-detector.yml"], ["hexrd"; "core"; "resources"; "detector_templates"; "dexela-2923-detector.yml"]);
(["hexrd"; "resources"; "detector_templates"; "GE-detector.yml"], ["hexrd"; "core"; "resources"; "detector_templates"; "GE-detector.yml"]);
(["hexrd"; "resources"; "detector_templates"; "Hydra_Feb19.yml"], ["hexrd"; "core"; "resources"; "detector_templates"; "Hydra_Feb19.yml"]);
(["hexrd"; "resources"; "detector_templates"; "Pilatus3X_2M-detector.yml"], ["hexrd"; "core"; "resources"; "detector_templates"; "Pilatus3X_2M-detector.yml"]);
(["hexrd"; "resources"; "detector_templates"; "Pixirad2-detector.yml"], ["hexrd"; "core"; "resources"; "detector_templates"; "Pixirad2-detector.yml"]);
(["hexrd"; "resources"; "detector_templates"; "Varex_4343CT-detector.yml"], ["hexrd"; "core"; "resources"; "detector_templates"; "Varex_4343CT-detector.yml"]);
(["hexrd"; "resources"; "instrument_templates"; "dcs.yml"], ["hexrd"; "core"; "resources"; "instrument_templates"; "dcs.yml"]);
(["hexrd"; "resources"; "instrument_templates"; "dual_dexelas.yml"], ["hexrd"; "core"; "resources"; "instrument_templates"; "dual_dexelas.yml"]);
(["hexrd"; "resources"; "instrument_templates"; "rigaku.yml"], ["hexrd"; "core"; "resources"; "instrument_templates"; "rigaku.yml"]);
(["hexrd"; "resources"; "instrument_templates"; "varex.yml"], ["hexrd"; "core"; "resources"; "instrument_templates"; "varex.yml"]);
(["hexrd"; "resources"; "mu_en.h5"], ["hexrd"; "core"; "resources"; "mu_en.h5"]);
(["hexrd"; "resources"; "pinhole_materials.h5"], ["hexrd"; "core"; "resources"; "pinhole_materials.h5"]);
(["hexrd"; "resources"; "PXRDIP_IMAGE-PLATE-B_bnd.txt"], ["hexrd"; "core"; "resources"; "PXRDIP_IMAGE-PLATE-B_bnd.txt"]);
(["hexrd"; "resources"; "PXRDIP_IMAGE-PLATE-D_bnd.txt"], ["hexrd"; "core"; "resources"; "PXRDIP_IMAGE-PLATE-D_bnd.txt"]);
(["hexrd"; "resources"; "PXRDIP_IMAGE-PLATE-L_bnd.txt"], ["hexrd"; "core"; "resources"; "PXRDIP_IMAGE-PLATE-L_bnd.txt"]);
(["hexrd"; "resources"; "PXRDIP_IMAGE-PLATE-R_bnd.txt"], ["hexrd"; "core"; "resources"; "PXRDIP_IMAGE-PLATE-R_bnd.txt"]);
(["hexrd"; "resources"; "PXRDIP_IMAGE-PLATE-U_bnd.txt"], ["hexrd"; "core"; "resources"; "PXRDIP_IMAGE-PLATE-U_bnd.txt"]);
(["hexrd"; "resources"; "pxrdip_reference_config.yml"], ["hexrd"; "core"; "resources"; "pxrdip_reference_config.yml"]);
(["hexrd"; "resources"; "surface_harmonics.h5"], ["hexrd"; "core"; "resources"; "surface_harmonics.h5"]);
(["hexrd"; "resources"; "tardis_2xrs_reference_config.yml"], ["hexrd"; "core"; "resources"; "tardis_2xrs_reference_config.yml"]);
(["hexrd"; "resources"; "TARDIS_IMAGE-PLATE-2_bnd.txt"], ["hexrd"; "core"; "resources"; "TARDIS_IMAGE-PLATE-2_bnd.txt"]);
(["hexrd"; "resources"; "TARDIS_IMAGE-PLATE-3_bnd.txt"], ["hexrd"; "core"; "resources"; "TARDIS_IMAGE-PLATE-3_bnd.txt"]);
(["hexrd"; "resources"; "TARDIS_IMAGE-PLATE-3_bnd_cropped.txt"], ["hexrd"; "core"; "resources"; "TARDIS_IMAGE-PLATE-3_bnd_cropped.txt"]);
(["hexrd"; "resources"; "TARDIS_IMAGE-PLATE-4_bnd.txt"], ["hexrd"; "core"; "resources"; "TARDIS_IMAGE-PLATE-4_bnd.txt"]);
(["hexrd"; "resources"; "tardis_reference_config.yml"], ["hexrd"; "core"; "resources"; "tardis_reference_config.yml"]);
(["hexrd"; "resources"; "window_materials.h5"], ["hexrd"; "core"; "resources"; "window_materials.h5"]);
(["hexrd"; "transforms"; "cpp_sublibrary"; "Makefile"], ["hexrd"; "core"; "transforms"; "cpp_sublibrary"; "Makefile"]);
(["hexrd"; "transforms"; "cpp_sublibrary"; "src"; "inverse_distortion.cpp"], ["hexrd"; "core"; "transforms"; "cpp_sublibrary"; "src"; "inverse_distortion.cpp"]);
(["hexrd"; "transforms"; "debug_helpers.h"], ["hexrd"; "core"; "transforms"; "debug_helpers.h"]);
(["hexrd"; "transforms"; "Makefile"], ["hexrd"; "core"; "transforms"; "Makefile"]);
(["hexrd"; "transforms"; "new_capi"; "angles_to_dvec.c"], ["hexrd"; "core"; "transforms"; "new_capi"; "angles_to_dvec.c"]);
(["hexrd"; "transforms"; "new_capi"; "angles_to_gvec.c"], ["hexrd"; "core"; "transforms"; "new_capi"; "angles_to_gvec.c"]);
(["hexrd"; "transforms"; "new_capi"; "gvec_to_xy.c"], ["hexrd"; "core"; "transforms"; "new_capi"; "gvec_to_xy.c"]);
(["hexrd"; "transforms"; "new_capi"; "make_beam_rmat.c"], ["hexrd"; "core"; "transforms"; "new_capi"; "make_beam_rmat.c"]);
(["hexrd"; "transforms"; "new_capi"; "make_binary_rmat.c"], ["hexrd"; "core"; "transforms"; "new_capi"; "make_binary_rmat.c"]);
(["hexrd"; "transforms"; "new_capi"; "make_detector_rmat.c"], ["hexrd"; "core"; "transforms"; "new_capi"; "make_detector_rmat.c"]);
(["hexrd"; "transforms"; "new_capi"; "make_rmat_of_expmap.c"], ["hexrd"; "core"; "transforms"; "new_capi"; "make_rmat_of_expmap.c"]);
(["hexrd"; "transforms"; "new_capi"; "make_sample_rmat.c"], ["hexrd"; "core"; "transforms"; "new_capi"; "make_sample_rmat.c"]);
(["hexrd"; "transforms"; "new_capi"; "module.c"], ["hexrd"; "core"; "transforms"; "new_capi"; "module.c"]);
(["hexrd"; "transforms"; "new_capi"; "ndargs_helper.c"], ["hexrd"; "core"; "transforms"; "new_capi"; "ndargs_helper.c"]);
(["hexrd"; "transforms"; "new_capi"; "ndargs_helper.h"], ["hexrd"; "core"; "transforms"; "new_capi"; "ndargs_helper.h"]);
(["hexrd"; "transforms"; "new_capi"; "new_func.c"], ["hexrd"; "core"; "transforms"; "new_capi"; "new_func.c"]);
(["hexrd"; "transforms"; "new_capi"; "oscill_angles_of_HKLs.c"], ["hexrd"; "core"; "transforms"; "new_capi"; "oscill_angles_of_HKLs.c"]);
(["hexrd"; "transforms"; "new_capi"; "quat_distance.c"], ["hexrd"; "core"; "transforms"; "new_capi"; "quat_distance.c"]);
(["hexrd"; "transforms"; "new_capi"; "README.md"], ["hexrd"; "core"; "transforms"; "new_capi"; "README.md"]);
(["hexrd"; "transforms"; "new_capi"; "rotate_vecs_about_axis.c"], ["hexrd"; "core"; "transforms"; "new_capi"; "rotate_vecs_about_axis.c"]);
(["hexrd"; "transforms"; "new_capi"; "transforms_prototypes.h"], ["hexrd"; "core"; "transforms"; "new_capi"; "transforms_prototypes.h"]);
(["hexrd"; "transforms"; "new_capi"; "transforms_types.h"], ["hexrd"; "core"; "transforms"; "new_capi"; "transforms_types.h"]);
(["hexrd"; "transforms"; "new_capi"; "transforms_utils.h"], ["hexrd"; "core"; "transforms"; "new_capi"; "transforms_utils.h"]);
(["hexrd"; "transforms"; "new_capi"; "unit_row_vector.c"], ["hexrd"; "core"; "transforms"; "new_capi"; "unit_row_vector.c"]);
(["hexrd"; "transforms"; "new_capi"; "validate_angle_ranges.c"], ["hexrd"; "core"; "transforms"; "new_capi"; "validate_angle_ranges.c"]);
(["hexrd"; "transforms"; "new_capi"; "xy_to_gvec.c"], ["hexrd"; "core"; "transforms"; "new_capi"; "xy_to_gvec.c"]);
(["hexrd"; "transforms"; "stdbool.h"], ["hexrd"; "core"; "transforms"; "stdbool.h"]);
(["hexrd"; "transforms"; "transforms_CAPI.c"], ["hexrd"; "core"; "transforms"; "transforms_CAPI.c"]);
(["hexrd"; "transforms"; "transforms_CAPI.h"], ["hexrd"; "core"; "transforms"; "transforms_CAPI.h"]);
(["hexrd"; "transforms"; "transforms_CFUNC.c"], ["hexrd"; "core"; "transforms"; "transforms_CFUNC.c"]);
(["hexrd"; "transforms"; "transforms_CFUNC.h"], ["hexrd"; "core"; "transforms"; "transforms_CFUNC.h"]);
(["hexrd"; "__init__.py"], ["hexrd"; "__init__.py"]);
(["LICENSE"], ["LICENSE"]);
(["NOTICE"], ["NOTICE"]);
(["pyproject.toml"], ["pyproject.toml"]);
(["README.md"], ["README.md"]);
(["tests"; "calibration"; "test_2xrs_calibration.py"], ["tests"; "calibration"; "test_2xrs_calibration.py"]);
(["tests"; "calibration"; "test_calibration.py"], ["tests"; "calibration"; "test_calibration.py"]);
(["tests"; "calibration"; "test_relative_constraints.py"], ["tests"; "calibration"; "test_relative_constraints.py"]);
(["tests"; "data"; "calibration_expected.npy"], ["tests"; "data"; "calibration_expected.npy"]);
(["tests"; "data"; "gvec_to_xy.json"], ["tests"; "data"; "gvec_to_xy.json"]);
(["tests"; "data"; "ideal_tardis_transmissions.npy"], ["tests"; "data"; "ideal_tardis_transmissions.npy"]);
(["tests"; "data"; "inverse_distortion_in_out.json"], ["tests"; "data"; "inverse_distortion_in_out.json"]);
(["tests"; "data"; "materials"; "Ag(TeMo)6.cif"], ["tests"; "data"; "materials"; "Ag(TeMo)6.cif"]);
(["tests"; "data"; "materials"; "Al2SiO5.cif"], ["tests"; "data"; "materials"; "Al2SiO5.cif"]);
(["tests"; "data"; "materials"; "AlCuO2.cif"], ["tests"; "data"; "materials"; "AlCuO2.cif"]);
(["tests"; "data"; "materials"; "C.cif"], ["tests"; "data"; "materials"; "C.cif"]);
(["tests"; "data"; "materials"; "Cs.cif"], ["tests"; "data"; "materials"; "Cs.cif"]);
(["tests"; "data"; "materials"; "Mg.cif"], ["tests"; "data"; "materials"; "Mg.cif"]);
(["tests"; "data"; "materials"; "Si.cif"], ["tests"; "data"; "materials"; "Si.cif"]);
(["tests"; "data"; "materials"; "U.cif"], ["tests"; "data"; "materials"; "U.cif"]);
(["tests"; "data"; "plane_data_test.npy"], ["tests"; "data"; "plane_data_test.npy"]);
(["tests"; "data"; "testmat.h5"], ["tests"; "data"; "testmat.h5"]);
(["tests"; "data"; "test_correct_angles_to_dvec.npy"], ["tests"; "data"; "test_correct_angles_to_dvec.npy"]);
(["tests"; "data"; "test_correct_angles_to_gvec.npy"], ["tests"; "data"; "test_correct_angles_to_gvec.npy"]);
(["tests"; "data"; "test_correct_gvec_to_xy.npy"], ["tests"; "data"; "test_correct_gvec_to_xy.npy"]);
(["tests"; "data"; "test_correct_make_beam_rmat.npy"], ["tests"; "data"; "test_correct_make_beam_rmat.npy"]);
(["tests"; "data"; "test_correct_make_detector_rmat.npy"], ["tests"; "data"; "test_correct_make_detector_rmat.npy"]);
(["tests"; "data"; "test_correct_make_rmat_of_expmap.npy"], ["tests"; "data"; "test_correct_make_rmat_of_expmap.npy"]);
(["tests"; "data"; "test_correct_make_sample_rmat.npy"], ["tests"; "data"; "test_correct_make_sample_rmat.npy"]);
(["tests"; "data"; "test_correct_quat_distance.npy"], ["tests"; "data"; "test_correct_quat_distance.npy"]);
(["tests"; "data"; "test_correct_validate_angle_ranges.npy"], ["tests"; "data"; "test_correct_validate_angle_ranges.npy"]);
(["tests"; "data"; "test_correct_xy_to_gvec.npy"], ["tests"; "data"; "test_correct_xy_to_gvec.npy"]);
(["tests"; "data"; "test_polar_view_expected.npy"], ["tests"; "data"; "test_polar_view_expected.npy"]);
(["tests"; "imageseries"; "test_pickleable.py"], ["tests"; "imageseries"; "test_pickleable.py"]);
(["tests"; "requirements-dev.txt"], ["tests"; "requirements-dev.txt"]);
(["tests"; "rotations"; "test_utilities.py"], ["tests"; "rotations"; "test_utilities.py"]);
(["tests"; "test_polar_view.py"], ["tests"; "test_polar_view.py"]);
(["file_table.tsv"], ["file_table.tsv"]);
(["hexrd\core\config\__init__.py"], ["hexrd\core\config\__init__.py"]);
(["hexrd\core\config\beam.py"], ["hexrd\core\config\beam.py"]);
(["hexrd\core\config\config.py"], ["hexrd\core\config\config.py"]);
(["hexrd\core\config\dumper.py"], ["hexrd\core\config\dumper.py"]);
(["hexrd\core\config\imageseries.py"], ["hexrd\core\config\imageseries.py"]);
(["hexrd\core\config\instrument.py"], ["hexrd\core\config\instrument.py"]);
(["hexrd\core\config\loader.py"], ["hexrd\core\config\loader.py"]);
(["hexrd\core\config\material.py"], ["hexrd\core\config\material.py"]);
(["hexrd\core\config\root.py"], ["hexrd\core\config\root.py"]);
(["hexrd\core\config\utils.py"], ["hexrd\core\config\utils.py"]);
(["hexrd\core\constants.py"], ["hexrd\core\constants.py"]);
(["hexrd\core\convolution\__init__.py"], ["hexrd\core\convolution\__init__.py"]);
(["hexrd\core\convolution\convolve.py"], ["hexrd\core\convolution\convolve.py"]);
(["hexrd\core\convolution\src\convolve.c"], ["hexrd\core\convolution\src\convolve.c"]);
(["hexrd\core\convolution\src\convolve.h"], ["hexrd\core\convolution\src\convolve.h"]);
(["hexrd\core\convolution\utils.py"], ["hexrd\core\convolution\utils.py"]);
(["hexrd\core\deprecation.py"], ["hexrd\core\deprecation.py"]);
(["hexrd\core\distortion\__init__.py"], ["hexrd\core\distortion\__init__.py"]);
(["hexrd\core\distortion\dexela_2923.py"], ["hexrd\core\distortion\dexela_2923.py"]);
(["hexrd\core\distortion\distortionabc.py"], ["hexrd\core\distortion\distortionabc.py"]);
(["hexrd\core\distortion\ge_41rt.py"], ["hexrd\core\distortion\ge_41rt.py"]);
(["hexrd\core\distortion\identity.py"], ["hexrd\core\distortion\identity.py"]);
(["hexrd\core\distortion\nyi.py"], ["hexrd\core\distortion\nyi.py"]);
(["hexrd\core\distortion\registry.py"], ["hexrd\core\distortion\registry.py"]);
(["hexrd\core\distortion\utils.py"], ["hexrd\core\distortion\utils.py"]);
(["hexrd\core\extensions\__init__.py"], ["hexrd\core\extensions\__init__.py"]);
(["hexrd\core\fitting\__init__.py"], ["hexrd\core\fitting\__init__.py"]);
(["hexrd\core\fitting\calibration\__init__.py"], ["hexrd\core\fitting\calibration\__init__.py"]);
(["hexrd\core\fitting\calibration\relative_constraints.py"], ["hexrd\core\fitting\calibration\relative_constraints.py"]);
(["hexrd\core\fitting\fitpeak.py"], ["hexrd\core\fitting\fitpeak.py"]);
(["hexrd\core\fitting\peakfunctions.py"], ["hexrd\core\fitting\peakfunctions.py"]);
(["hexrd\core\fitting\spectrum.py"], ["hexrd\core\fitting\spectrum.py"]);
(["hexrd\core\fitting\utils.py"], ["hexrd\core\fitting\utils.py"]);
(["hexrd\core\gridutil.py"], ["hexrd\core\gridutil.py"]);
(["hexrd\core\imageseries\__init__.py"], ["hexrd\core\imageseries\__init__.py"]);
(["hexrd\core\imageseries\baseclass.py"], ["hexrd\core\imageseries\baseclass.py"]);
(["hexrd\core\imageseries\imageseriesabc.py"], ["hexrd\core\imageseries\imageseriesabc.py"]);
(["hexrd\core\imageseries\imageseriesiter.py"], ["hexrd\core\imageseries\imageseriesiter.py"]);
(["hexrd\core\imageseries\load\__init__.py"], ["hexrd\core\imageseries\load\__init__.py"]);
(["hexrd\core\imageseries\load\array.py"], ["hexrd\core\imageseries\load\array.py"]);
(["hexrd\core\imageseries\load\eiger_stream_v1.py"], ["hexrd\core\imageseries\load\eiger_stream_v1.py"]);
(["hexrd\core\imageseries\load\framecache.py"], ["hexrd\core\imageseries\load\framecache.py"]);
(["hexrd\core\imageseries\load\function.py"], ["hexrd\core\imageseries\load\function.py"]);
(["hexrd\core\imageseries\load\hdf5.py"], ["hexrd\core\imageseries\load\hdf5.py"]);
(["hexrd\core\imageseries\load\imagefiles.py"], ["hexrd\core\imageseries\load\imagefiles.py"]);
(["hexrd\core\imageseries\load\metadata.py"], ["hexrd\core\imageseries\load\metadata.py"]);
(["hexrd\core\imageseries\load\rawimage.py"], ["hexrd\core\imageseries\load\rawimage.py"]);
(["hexrd\core\imageseries\load\registry.py"], ["hexrd\core\imageseries\load\registry.py"]);
(["hexrd\core\imageseries\load\trivial.py"], ["hexrd\core\imageseries\load\trivial.py"]);
(["hexrd\core\imageseries\omega.py"], ["hexrd\core\imageseries\omega.py"]);
(["hexrd\core\imageseries\process.py"], ["hexrd\core\imageseries\process.py"]);
(["hexrd\core\imageseries\save.py"], ["hexrd\core\imageseries\save.py"]);
(["hexrd\core\imageseries\stats.py"], ["hexrd\core\imageseries\stats.py"]);
(["hexrd\core\imageutil.py"], ["hexrd\core\imageutil.py"]);
(["hexrd\core\instrument\__init__.py"], ["hexrd\core\instrument\__init__.py"]);
(["hexrd\core\instrument\constants.py"], ["hexrd\core\instrument\constants.py"]);
(["hexrd\core\instrument\cylindrical_detector.py"], ["hexrd\core\instrument\cylindrical_detector.py"]);
(["hexrd\core\instrument\detector.py"], ["hexrd\core\instrument\detector.py"]);
(["hexrd\core\instrument\detector.py"], ["hexrd\hed\instrument\detector.py"]);
(["hexrd\core\instrument\detector.py"], ["hexrd\hedm\instrument\detector.py"]);
(["hexrd\core\instrument\detector.py"], ["hexrd\laue\instrument\detector.py"]);
(["hexrd\core\instrument\detector.py"], ["hexrd\powder\instrument\detector.py"]);
(["hexrd\core\instrument\detector_coatings.py"], ["hexrd\core\instrument\detector_coatings.py"]);
(["hexrd\core\instrument\hedm_instrument.py"], ["hexrd\core\instrument\hedm_instrument.py"]);
(["hexrd\core\instrument\physics_package.py"], ["hexrd\core\instrument\physics_package.py"]);
(["hexrd\core\instrument\planar_detector.py"], ["hexrd\core\instrument\planar_detector.py"]);
(["hexrd\core\material\__init__.py"], ["hexrd\core\material\__init__.py"]);
(["hexrd\core\material\crystallography.py"], ["hexrd\core\material\crystallography.py"]);
(["hexrd\core\material\jcpds.py"], ["hexrd\core\material\jcpds.py"]);
(["hexrd\core\material\material.py"], ["hexrd\core\material\material.py"]);
(["hexrd\core\material\mksupport.py"], ["hexrd\core\material\mksupport.py"]);
(["hexrd\core\material\spacegroup.py"], ["hexrd\core\material\spacegroup.py"]);
(["hexrd\core\material\symbols.py"], ["hexrd\core\material\symbols.py"]);
(["hexrd\core\material\symmetry.py"], ["hexrd\core\material\symmetry.py"]);
(["hexrd\core\material\unitcell.py"], ["hexrd\core\material\unitcell.py"]);
(["hexrd\core\material\utils.py"], ["hexrd\core\material\utils.py"]);
(["hexrd\core\matrixutil.py"], ["hexrd\core\matrixutil.py"]);
(["hexrd\core\projections\__init__.py"], ["hexrd\core\projections\__init__.py"]);
(["hexrd\core\projections\polar.py"], ["hexrd\core\projections\polar.py"]);
(["hexrd\core\projections\spherical.py"], ["hexrd\core\projections\spherical.py"]);
(["hexrd\core\resources\__init__.py"], ["hexrd\core\resources\__init__.py"]);
(["hexrd\core\resources\Anomalous.h5"], ["hexrd\core\resources\Anomalous.h5"]);
(["hexrd\core\resources\BBXRD_IMAGE-PLATE-BACK_bnd.txt"], ["hexrd\core\resources\BBXRD_IMAGE-PLATE-BACK_bnd.txt"]);
(["hexrd\core\resources\BBXRD_IMAGE-PLATE-BOTTOM_bnd.txt"], ["hexrd\core\resources\BBXRD_IMAGE-PLATE-BOTTOM_bnd.txt"]);
(["hexrd\core\resources\BBXRD_IMAGE-PLATE-LEFT_bnd.txt"], ["hexrd\core\resources\BBXRD_IMAGE-PLATE-LEFT_bnd.txt"]);
(["hexrd\core\resources\BBXRD_IMAGE-PLATE-RIGHT_bnd.txt"], ["hexrd\core\resources\BBXRD_IMAGE-PLATE-RIGHT_bnd.txt"]);
(["hexrd\core\resources\BBXRD_IMAGE-PLATE-TOP_bnd.txt"], ["hexrd\core\resources\BBXRD_IMAGE-PLATE-TOP_bnd.txt"]);
(["hexrd\core\resources\characteristic_xray_energies.h5"], ["hexrd\core\resources\characteristic_xray_energies.h5"]);
(["hexrd\core\resources\detector_templates\__init__.py"], ["hexrd\core\resources\detector_templates\__init__.py"]);
(["hexrd\core\resources\detector_templates\dexela-2923-detector-subpanel.yml"], ["hexrd\core\resources\detector_templates\dexela-2923-detector-subpanel.yml"]);
(["hexrd\core\resources\detector_templates\dexela-2923-detector.yml"], ["hexrd\core\resources\detector_templates\dexela-2923-detector.yml"]);
(["hexrd\core\resources\detector_templates\GE-detector.yml"], ["hexrd\core\resources\detector_templates\GE-detector.yml"]);
(["hexrd\core\resources\detector_templates\Hydra_Feb19.yml"], ["hexrd\core\resources\detector_templates\Hydra_Feb19.yml"]);
(["hexrd\core\resources\detector_templates\Pilatus3X_2M-detector.yml"], ["hexrd\core\resources\detector_templates\Pilatus3X_2M-detector.yml"]);
(["hexrd\core\resources\detector_templates\Pixirad2-detector.yml"], ["hexrd\core\resources\detector_templates\Pixirad2-detector.yml"]);
(["hexrd\core\resources\detector_templates\Varex_4343CT-detector.yml"], ["hexrd\core\resources\detector_templates\Varex_4343CT-detector.yml"]);
(["hexrd\core\resources\instrument_templates\__init__.py"], ["hexrd\core\resources\instrument_templates\__init__.py"]);
(["hexrd\core\resources\instrument_templates\dcs.yml"], ["hexrd\core\resources\instrument_templates\dcs.yml"]);
(["hexrd\core\resources\instrument_templates\dual_dexelas.yml"], ["hexrd\core\resources\instrument_templates\dual_dexelas.yml"]);
(["hexrd\core\resources\instrument_templates\rigaku.hexrd"], ["hexrd\core\resources\instrument_templates\rigaku.hexrd"]);
(["hexrd\core\resources\instrument_templates\rigaku.yml"], ["hexrd\core\resources\instrument_templates\rigaku.yml"]);
(["hexrd\core\resources\instrument_templates\varex.yml"], ["hexrd\core\resources\instrument_templates\varex.yml"]);
(["hexrd\core\resources\mu_en.h5"], ["hexrd\core\resources\mu_en.h5"]);
(["hexrd\core\resources\pinhole_materials.h5"], ["hexrd\core\resources\pinhole_materials.h5"]);
(["hexrd\core\resources\PXRDIP_IMAGE-PLATE-B_bnd.txt"], ["hexrd\core\resources\PXRDIP_IMAGE-PLATE-B_bnd.txt"]);
(["hexrd\core\resources\PXRDIP_IMAGE-PLATE-D_bnd.txt"], ["hexrd\core\resources\PXRDIP_IMAGE-PLATE-D_bnd.txt"]);
(["hexrd\core\resources\PXRDIP_IMAGE-PLATE-L_bnd.txt"], ["hexrd\core\resources\PXRDIP_IMAGE-PLATE-L_bnd.txt"]);
(["hexrd\core\resources\PXRDIP_IMAGE-PLATE-R_bnd.txt"], ["hexrd\core\resources\PXRDIP_IMAGE-PLATE-R_bnd.txt"]);
(["hexrd\core\resources\PXRDIP_IMAGE-PLATE-U_bnd.txt"], ["hexrd\core\resources\PXRDIP_IMAGE-PLATE-U_bnd.txt"]);
(["hexrd\core\resources\pxrdip_reference_config.yml"], ["hexrd\core\resources\pxrdip_reference_config.yml"]);
(["hexrd\core\resources\surface_harmonics.h5"], ["hexrd\core\resources\surface_harmonics.h5"]);
(["hexrd\core\resources\tardis_2xrs_reference_config.yml"], ["hexrd\core\resources\tardis_2xrs_reference_config.yml"]);
(["hexrd\core\resources\TARDIS_IMAGE-PLATE-2_bnd.txt"], ["hexrd\core\resources\TARDIS_IMAGE-PLATE-2_bnd.txt"]);
(["hexrd\core\resources\TARDIS_IMAGE-PLATE-3_bnd.txt"], ["hexrd\core\resources\TARDIS_IMAGE-PLATE-3_bnd.txt"]);
(["hexrd\core\resources\TARDIS_IMAGE-PLATE-3_bnd_cropped.txt"], ["hexrd\core\resources\TARDIS_IMAGE-PLATE-3_bnd_cropped.txt"]);
(["hexrd\core\resources\TARDIS_IMAGE-PLATE-4_bnd.txt"], ["hexrd\core\resources\TARDIS_IMAGE-PLATE-4_bnd.txt"]);
(["hexrd\core\resources\tardis_reference_config.yml"], ["hexrd\core\resources\tardis_reference_config.yml"]);
(["hexrd\core\resources\window_materials.h5"], ["hexrd\core\resources\window_materials.h5"]);
(["hexrd\core\rotations.py"], ["hexrd\core\rotations.py"]);
(["hexrd\core\transforms\__init__.py"], ["hexrd\core\transforms\__init__.py"]);
(["hexrd\core\transforms\cpp_sublibrary\Makefile"], ["hexrd\core\transforms\cpp_sublibrary\Makefile"]);
(["hexrd\core\transforms\cpp_sublibrary\src\inverse_distortion.cpp"], ["hexrd\core\transforms\cpp_sublibrary\src\inverse_distortion.cpp"]);
(["hexrd\core\transforms\debug_helpers.h"], ["hexrd\core\transforms\debug_helpers.h"]);
(["hexrd\core\transforms\Makefile"], ["hexrd\core\transforms\Makefile"]);
(["hexrd\core\transforms\new_capi\angles_to_dvec.c"], ["hexrd\core\transforms\new_capi\angles_to_dvec.c"]);
(["hexrd\core\transforms\new_capi\angles_to_gvec.c"], ["hexrd\core\transforms\new_capi\angles_to_gvec.c"]);
(["hexrd\core\transforms\new_capi\gvec_to_xy.c"], ["hexrd\core\transforms\new_capi\gvec_to_xy.c"]);
(["hexrd\core\transforms\new_capi\make_beam_rmat.c"], ["hexrd\core\transforms\new_capi\make_beam_rmat.c"]);
(["hexrd\core\transforms\new_capi\make_binary_rmat.c"], ["hexrd\core\transforms\new_capi\make_binary_rmat.c"]);
(["hexrd\core\transforms\new_capi\make_detector_rmat.c"], ["hexrd\core\transforms\new_capi\make_detector_rmat.c"]);
(["hexrd\core\transforms\new_capi\make_rmat_of_expmap.c"], ["hexrd\core\transforms\new_capi\make_rmat_of_expmap.c"]);
(["hexrd\core\transforms\new_capi\make_sample_rmat.c"], ["hexrd\core\transforms\new_capi\make_sample_rmat.c"]);
(["hexrd\core\transforms\new_capi\module.c"], ["hexrd\core\transforms\new_capi\module.c"]);
(["hexrd\core\transforms\new_capi\ndargs_helper.c"], ["hexrd\core\transforms\new_capi\ndargs_helper.c"]);
(["hexrd\core\transforms\new_capi\ndargs_helper.h"], ["hexrd\core\transforms\new_capi\ndargs_helper.h"]);
(["hexrd\core\transforms\new_capi\new_func.c"], ["hexrd\core\transforms\new_capi\new_func.c"]);
(["hexrd\core\transforms\new_capi\oscill_angles_of_HKLs.c"], ["hexrd\core\transforms\new_capi\oscill_angles_of_HKLs.c"]);
(["hexrd\core\transforms\new_capi\quat_distance.c"], ["hexrd\core\transforms\new_capi\quat_distance.c"]);
(["hexrd\core\transforms\new_capi\README.md"], ["hexrd\core\transforms\new_capi\README.md"]);
(["hexrd\core\transforms\new_capi\reference.py"], ["hexrd\core\transforms\new_capi\reference.py"]);
(["hexrd\core\transforms\new_capi\rotate_vecs_about_axis.c"], ["hexrd\core\transforms\new_capi\rotate_vecs_about_axis.c"]);
(["hexrd\core\transforms\new_capi\transforms_prototypes.h"], ["hexrd\core\transforms\new_capi\transforms_prototypes.h"]);
(["hexrd\core\transforms\new_capi\transforms_types.h"], ["hexrd\core\transforms\new_capi\transforms_types.h"]);
(["hexrd\core\transforms\new_capi\transforms_utils.h"], ["hexrd\core\transforms\new_capi\transforms_utils.h"]);
(["hexrd\core\transforms\new_capi\unit_row_vector.c"], ["hexrd\core\transforms\new_capi\unit_row_vector.c"]);
(["hexrd\core\transforms\new_capi\validate_angle_ranges.c"], ["hexrd\core\transforms\new_capi\validate_angle_ranges.c"]);
(["hexrd\core\transforms\new_capi\xf_new_capi.py"], ["hexrd\core\transforms\new_capi\xf_new_capi.py"]);
(["hexrd\core\transforms\new_capi\xy_to_gvec.c"], ["hexrd\core\transforms\new_capi\xy_to_gvec.c"]);
(["hexrd\core\transforms\old_xfcapi.py"], ["hexrd\core\transforms\old_xfcapi.py"]);
(["hexrd\core\transforms\stdbool.h"], ["hexrd\core\transforms\stdbool.h"]);
(["hexrd\core\transforms\transforms_CAPI.c"], ["hexrd\core\transforms\transforms_CAPI.c"]);
(["hexrd\core\transforms\transforms_CAPI.h"], ["hexrd\core\transforms\transforms_CAPI.h"]);
(["hexrd\core\transforms\transforms_CFUNC.c"], ["hexrd\core\transforms\transforms_CFUNC.c"]);
(["hexrd\core\transforms\transforms_CFUNC.h"], ["hexrd\core\transforms\transforms_CFUNC.h"]);
(["hexrd\core\transforms\xf.py"], ["hexrd\core\transforms\xf.py"]);
(["hexrd\core\transforms\xfcapi.py"], ["hexrd\core\transforms\xfcapi.py"]);
(["hexrd\core\utils\__init__.py"], ["hexrd\core\utils\__init__.py"]);
(["hexrd\core\utils\compatibility.py"], ["hexrd\core\utils\compatibility.py"]);
(["hexrd\core\utils\concurrent.py"], ["hexrd\core\utils\concurrent.py"]);
(["hexrd\core\utils\decorators.py"], ["hexrd\core\utils\decorators.py"]);
(["hexrd\core\utils\hdf5.py"], ["hexrd\core\utils\hdf5.py"]);
(["hexrd\core\utils\hkl.py"], ["hexrd\core\utils\hkl.py"]);
(["hexrd\core\utils\json.py"], ["hexrd\core\utils\json.py"]);
(["hexrd\core\utils\multiprocess_generic.py"], ["hexrd\core\utils\multiprocess_generic.py"]);
(["hexrd\core\utils\profiler.py"], ["hexrd\core\utils\profiler.py"]);
(["hexrd\core\utils\progressbar.py"], ["hexrd\core\utils\progressbar.py"]);
(["hexrd\core\utils\warnings.py"], ["hexrd\core\utils\warnings.py"]);
(["hexrd\core\utils\yaml.py"], ["hexrd\core\utils\yaml.py"]);
(["hexrd\core\valunits.py"], ["hexrd\core\valunits.py"]);
(["hexrd\hed\instrument\hedm_instrument.py"], ["hexrd\hed\instrument\hedm_instrument.py"]);
(["hexrd\hed\xrdutil\phutil.py"], ["hexrd\hed\xrdutil\phutil.py"]);
(["hexrd\hed\xrdutil\utils.py"], ["hexrd\hed\xrdutil\utils.py"]);
(["hexrd\cli\preprocess.py"], ["hexrd\hedm\cli\preprocess.py"]);
(["hexrd\module_map.py"], ["hexrd\module_map.py"]);
(["hexrd\preprocess\argument_classes_factory.py"], ["hexrd\hedm\preprocess\argument_classes_factory.py"]);
(["hexrd\preprocess\preprocessors.py"], ["hexrd\hedm\preprocess\preprocessors.py"]);
(["hexrd\preprocess\profiles.py"], ["hexrd\hedm\preprocess\profiles.py"]);
(["hexrd\preprocess\yaml_internals.py"], ["hexrd\hedm\preprocess\yaml_internals.py"]);
(["hexrd\preprocess\__init__.py"], ["hexrd\hedm\preprocess\__init__.py"]);
(["tests\test_preprocess.py"], ["tests\test_preprocess.py"]);
(["tests\test_polar_view.py"], ["tests\test_polar_view.py"]);
(["hexrd\transforms\new_capi"], ["hexrd\core\transforms\new_capi"]);
(["hexrd\transforms\cpp_sublibrary"], ["hexrd\core\transforms\cpp_sublibrary"]);
(["hexrd\transforms\cpp_sublibrary\src"], ["hexrd\core\transforms\cpp_sublibrary\src"]);
(["hexrd\convolution\src"], ["hexrd\core\convolution\src"]);
(["hexrd\distortion\dexela_2923_quad.py"], ["hexrd\core\distortion\dexela_2923_quad.py"]);
(["hexrd\resources\instrument_templates\rigaku.hexrd"], ["hexrd\core\resources\instrument_templates\rigaku.hexrd"]);
(["hexrd\transforms\cpp_sublibrary\src\transforms.cpp"], ["hexrd\core\transforms\cpp_sublibrary\src\transforms.cpp"]);
(["hexrd\utils\panel_buffer.py"], ["hexrd\core\utils\panel_buffer.py"]);
(["tests\test_distortion.py"], ["tests\test_distortion.py"]);
(["tests\transforms\test_make_binary_rmat.py"], ["tests\transforms\test_make_binary_rmat.py"])].
(** the tree below hexrd/: for each directory its subdirectories (packages, true) and its Python files (false); a directory without
    __init__.py is a namespace package *)
Definition tree : list (string * list (string * bool)) := [
("hexrd", [("core", true); ("hed", true); ("hedm", true); ("laue", true); ("phase_transition", true); ("powder", true); ("copyright", false); ("module_map", false)]);
("hexrd/core", [("config", true); ("convolution", true); ("distortion", true); ("extensions", true); ("fitting", true); ("imageseries", true); ("instrument", true); ("material", true); ("projections", true); ("resources", true); ("transforms", true); ("utils", true); ("constants", false); ("deprecation", false); ("gridutil", false); ("imageutil", false); ("matrixutil", false); ("rotations", false); ("valunits", false)]);
("hexrd/core/config", [("beam", false); ("config", false); ("dumper", false); ("imageseries", false); ("instrument", false); ("loader", false); ("material", false); ("root", false); ("utils", false)]);
("hexrd/core/convolution", [("src", true); ("convolve", false); ("utils", false)]);
("hexrd/core/distortion", [("dexela_2923", false); ("dexela_2923_quad", false); ("distortionabc", false); ("ge_41rt", false); ("identity", false); ("nyi", false); ("registry", false); ("utils", false)]);
("hexrd/core/fitting", [("calibration", true); ("fitpeak", false); ("peakfunctions", false); ("special", false); ("spectrum", false); ("utils", false)]);
("hexrd/core/fitting/calibration", [("abstract_grain", false); ("calibrator", false); ("instrument", false); ("laue", false); ("lmfit_param_handling", false); ("powder", false); ("relative_constraints", false); ("structureless", false)]);
("hexrd/core/imageseries", [("load", true); ("baseclass", false); ("imageseriesabc", false); ("imageseriesiter", false); ("omega", false); ("process", false); ("save", false); ("stats", false)]);
("hexrd/core/imageseries/load", [("array", false); ("eiger", false); ("eiger_stream_v1", false); ("eiger_stream_v2", false); ("framecache", false); ("function", false); ("hdf5", false); ("imagefiles", false); ("metadata", false); ("rawimage", false); ("registry", false); ("trivial", false)]);
("hexrd/core/instrument", [("constants", false); ("cylindrical_detector", false); ("detector", false); ("detector_coatings", false); ("hedm_instrument", false); ("physics_package", false); ("planar_detector", false)]);
("hexrd/core/material", [("crystallography", false); ("jcpds", false); ("material", false); ("mksupport", false); ("spacegroup", false); ("symbols", false); ("symmetry", false); ("unitcell", false); ("utils", false)]);
("hexrd/core/projections", [("polar", false); ("spherical", false)]);
("hexrd/core/resources", [("detector_templates", true); ("instrument_templates", true); ("panel_buffers", true)]);
("hexrd/core/transforms", [("cpp_sublibrary", true); ("new_capi", true); ("xfcapi", false)]);
("hexrd/core/transforms/cpp_sublibrary", [("src", true)]);
("hexrd/core/utils", [("compatibility", false); ("concurrent", false); ("decorators", false); ("hdf5", false); ("hkl", false); ("json", false); ("logger", false); ("multiprocess_generic", false); ("panel_buffer", false); ("profiler", false); ("progressbar", false); ("warnings", false); ("yaml", false)]);
("hexrd/hed", [("instrument", true); ("xrdutil", true)]);
("hexrd/hed/xrdutil", [("phutil", false); ("utils", false)]);
("hexrd/hedm", [("cli", true); ("config", true); ("fitting", true); ("grainmap", true); ("instrument", true); ("ipfcolor", true); ("preprocess", true); ("sampleOrientations", true); ("xrdutil", true); ("findorientations", false); ("fitgrains", false); ("indexer", false)]);
("hexrd/hedm/cli", [("documentation", false); ("find_orientations", false); ("fit_grains", false); ("help", false); ("main", false); ("pickle23", false); ("preprocess", false); ("test", false)]);
("hexrd/hedm/config", [("findorientations", false); ("fitgrains", false)]);
("hexrd/hedm/fitting", [("calibration", true); ("grains", false)]);
("hexrd/hedm/fitting/calibration", [("grain", false)]);
("hexrd/hedm/grainmap", [("nfutil", false); ("tomoutil", false); ("vtkutil", false)]);
("hexrd/hedm/instrument", [("generate_eta_omega_maps", false)]);
("hexrd/hedm/ipfcolor", [("colorspace", false); ("sphere_sector", false)]);
("hexrd/hedm/preprocess", [("argument_classes_factory", false); ("preprocessors", false); ("profiles", false); ("yaml_internals", false)]);
("hexrd/hedm/sampleOrientations", [("conversions", false); ("rfz", false); ("sampleRFZ", false)]);
("hexrd/hedm/xrdutil", [("utils", false)]);
("hexrd/laue", [("fitting", true); ("instrument", true); ("simulation", false)]);
("hexrd/laue/fitting", [("calibration", true)]);
("hexrd/laue/fitting/calibration", [("laue", false)]);
("hexrd/phase_transition", [("texture", true); ("variants", false)]);
("hexrd/phase_transition/texture", [("evaluation", false); ("kernels", false); ("uniform_odf", false); ("unimodal_odf", false)]);
("hexrd/powder", [("fitting", true); ("instrument", true); ("wppf", true)]);
("hexrd/powder/fitting", [("calibration", true)]);
("hexrd/powder/fitting/calibration", [("instrument", false); ("powder", false); ("structureless", false)]);
("hexrd/powder/wppf", [("LeBailCalibration", false); ("RietveldHEDM", false); ("WPPF", false); ("amorphous", false); ("derivatives", false); ("peakfunctions", false); ("phase", false); ("spectrum", false); ("tds", false); ("texture", false); ("wppfsupport", false); ("xtal", false)])].
