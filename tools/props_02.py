P("C51","Memoised functions called from several threads","Calls of a memoised function made concurrently from several threads return the function's values and raise nothing that the function does not raise, for every interleaving.","every set of concurrent calls and every interleaving of their cache operations","interleavings are unbounded",["hexrd/core/utils/decorators.py:memoize"])
P("C52","Cached results cannot be altered by callers","No sequence of in-place writes by callers to arrays they received from a memoised function changes what later calls receive.","every sequence of writes by callers","aliasing faults depend on what callers do with the result",["hexrd/core/utils/decorators.py:memoize","hexrd/core/instrument/planar_detector.py:_pixel_angles"])
P("C53","Pixel angles follow the current distortion parameters","After the parameters of a detector's distortion are assigned (as calibration does), pixel_angles / pixel gradients are those of the new parameters.","every history of parameter assignments and pixel-angle queries","staleness depends on the history of queries and assignments",["hexrd/core/instrument/planar_detector.py:_pixel_angles","hexrd/core/utils/decorators.py:_make_hashable","hexrd/core/fitting/calibration/lmfit_param_handling.py:update_instrument_from_params"])
