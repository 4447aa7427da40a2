{
 "C07": {
  "note": "Proved for all indices except index == GetNBins(), where the property is false: the bounds check is '>' so the access is undefined behaviour (C07_boundary_index_refuted).",
  "status": "partial"
 },
 "C10": {
  "note": "Proved for one free axis with fixed bins in range. False with two or more free axes (bins stored first-axis-fastest, read last-axis-fastest) and for out-of-range fixed bins, both refuted by witness; C10_slice_actual_layout says what the slice holds in general.",
  "status": "partial"
 },
 "C100": {
  "note": "gaps, FindBin and edge errors proved for every rounding; last edge = maximum and non-empty bins refuted",
  "status": "partial"
 },
 "C101": {
  "note": "exact up to 2^53 proved; saturation beyond refutes the unrestricted claim",
  "status": "partial"
 },
 "C102": {
  "note": "error bounds proved for every rounding; exactly 1 after Normalise refuted",
  "status": "partial"
 },
 "C103": {
  "note": "settings with few bits proved equal to the exact search; end point and termination refuted otherwise",
  "status": "partial"
 },
 "C104": {
  "note": "exact below 2^64 cells proved; overflow beyond refuted",
  "status": "partial"
 },
 "C105": {
  "note": "all texts characterised for signed integers and doubles; refused trailing text and negative numbers for unsigned types are refuted",
  "status": "partial"
 },
 "C106": {
  "note": "the value is proved for pdfs all DIRECT or all INDIRECT, every pdf accepted; the identity part is proved without Barlow-Beeston and for DIRECT pdfs, refuted for INDIRECT pdfs whose integral is not 1 (C106_identity_refuted); a refused AddPdf makes every evaluation throw (C106_refused_refuted)",
  "status": "partial"
 },
 "C107": {
  "note": "DIRECT pdfs must come before INDIRECT ones: C107_order_refuted",
  "status": "partial"
 },
 "C108": {
  "note": "cuts set after the first answer are ignored: C108_late_cuts_refuted",
  "status": "partial"
 },
 "C109": {
  "note": "background names distinct, data sets not empty; otherwise C109_own_error_refuted; unwritable files are not reported: C109_saved_refuted; stale percentages: C109_percentages_refuted",
  "status": "partial"
 },
 "C110": {
  "note": "holds where reserved vector storage may be used; by the standard undefined: C110_standard_refuted; switching on late: C110_late_refuted; branch names: C110_branch_refuted; Var: C110_variance_refuted",
  "status": "partial"
 },
 "C111": {
  "note": "the claim fails for every program: C111_value_refuted, C111_parameters_refuted, C111_grid_refuted; what holds: C111_data, C111_kept",
  "status": "partial"
 },
 "C112": {
  "note": "the response is characterised for every function; conservation is proved when each filled bin's image is in range in order, or within one bin. It fails for content that a decreasing function reverses across a bin edge: that content is lost (C112_reversed, C112_reversed_refuted)",
  "status": "partial"
 },
 "C113": {
  "note": "Systematic objects are not shared between the likelihoods; a flat sum (nested sums flatten by C36); configurations as in C97.",
  "status": "proved"
 },
 "C114": {
  "note": "Proved as far as it holds: C114_reports_refuted shows that GetNGroups before the first systematic reads an uninitialised member and GetNSystematicsInGroup of an unknown group dereferences end() instead of throwing.",
  "status": "partial"
 },
 "C16": {
  "note": "The code violates the property (refuted by witness: SetParameters is not atomic); proved exactly which parameters change on rejection.",
  "status": "partial"
 },
 "C17": {
  "note": "Valid renames and unknown names proved for all components; collision rejection holds for ParameterManager and is refuted for Shape/ScaleFunction/Renorm/SpectralFitDist. Gaussian: see C51.",
  "status": "partial"
 },
 "C18": {
  "note": "Proved for Shift, Scale, ParameterManager-based and spectral components; refuted for Shape/ScaleFunction/Renorm (they absorb every dictionary key and never report a missing one).",
  "status": "partial"
 },
 "C19": {
  "note": "Get/SetParameters/names proved; SetParameter is refuted: it overwrites the name string, never a bin.",
  "status": "partial"
 },
 "C21": {
  "note": "SetDatum(index) out of range does not throw NotFoundError as its handler announces but writes outside the vector (C21_set_datum_out_of_range_refuted, beyond the statement).",
  "status": "proved"
 },
 "C24": {
  "note": "Holds for any sequence of parameter changes and Construct calls on one configuration (Shift/Scale/ScaleFunction, Shape, Convolution); false when SetTransformationObs/SetAxes change the configuration after a Construct (the cached bin map is never invalidated): refuted silently and with a spurious exception.",
  "status": "partial"
 },
 "C25": {
  "note": "Shape fully; Renorm once SetScaleFactor was called. Before that (e.g. only its fit parameter set) the factor is uninitialised: C25_renorm_unset_factor_refuted.",
  "status": "proved"
 },
 "C26": {
  "note": "Proved for transformed observables listed in axis order and every kernel whose integrals are finite (negative integrals are dropped, i.e. clipped at 0); refuted for other orders: wrong entries when all axes are transformed, an Armadillo exception for a subset.",
  "status": "partial"
 },
 "C27": {
  "note": "",
  "status": "proved"
 },
 "C28": {
  "note": "Proved for distinct names and DIRECT pdfs added before INDIRECT ones, with any reads in between; refuted for a DIRECT pdf after an INDIRECT one (wrong pdf's normalisation is used) and for SetNormalisations on INDIRECT pdfs (silently ignored).",
  "status": "partial"
 },
 "C29": {
  "note": "Shrinking itself proved for every axis collection, buffers and both modes (fewer than 2^31 bins); the ValueError for covering buffers holds unless the two sizes add up to 2^32 or more (C29_covering_buffers_refuted: std::length_error)",
  "status": "partial"
 },
 "C30": {
  "note": "Proved for statistics without systematics, buffers or projections (any history); refuted with buffers: second evaluation throws, changes value, or reads out of bounds after new data.",
  "status": "partial"
 },
 "C31": {
  "note": "Value for every configuration given the bin expectations; full value from pdfs and parameters without systematics/buffers; minimum.",
  "status": "proved"
 },
 "C32": {
  "note": "Proved for mu*sigma^2 < 1; for mu*sigma^2 >= 1 the code uses minus the root and returns NaN (refuted).",
  "status": "partial"
 },
 "C34": {
  "note": "Holds for valid parameters; refuted: bivariate accepts |corr|>=1 in part and zero widths; ratio constraint with denominator below 1e-8 is penalised at its nominal ratio.",
  "status": "partial"
 },
 "C35": {
  "note": "Proved inside the outermost centres; refuted at the border (out-of-range reads / wrong bins).",
  "status": "partial"
 },
 "C37": {
  "note": "distinctness proved for all histories; 'asking for more than remain throws' refuted: only asking for more than the whole set throws, otherwise an out-of-range vector index",
  "status": "partial"
 },
 "C38": {
  "note": "exact order proved; whole-set claim refuted for every size >= 2 (event 1 twice, event 0 never)",
  "status": "partial"
 },
 "C39": {
  "note": "partition proved for random draws without replacement; reported count is one too small; refuted before any draw and after sequential draws",
  "status": "partial"
 },
 "C40": {
  "note": "a+a (aliasing) never terminates and the left operand is modified too; for distinct operands the result is the concatenation",
  "status": "partial"
 },
 "C42": {
  "note": "Round trip proved below the limits of the format; empty data sets, 10000+ observables, 2^32+ values and names over 64 characters refuted.",
  "status": "partial"
 },
 "C43": {
  "note": "Only even numbers of parameters work, and then without the all-minima corner and, for four or more, without the later parameters; exact zeros and the sign when maximising refuted.",
  "status": "partial"
 },
 "C45": {
  "note": "C45_best_refuted: StepAccepted compares the current value before moving and Optimise does not compare after the loop, so a best point reached by the last accepted step is not reported; C45_best_partial proves everything else",
  "status": "partial"
 },
 "C46": {
  "note": "zero thinning factor (UB) and burn-in >= 2^31 (wraps) are refuted separately",
  "status": "proved"
 },
 "C48": {
  "note": "False as stated: a start on a wall moving outwards, a step landing exactly on a wall, two walls reached at the same moment and a parameter with an empty name all leave the box (refuted). Proved whenever no step starts out through a wall and no two parameters reach walls simultaneously: termination, exact billiard motion, kinetic energy kept, every step inside.",
  "status": "partial"
 },
 "C50": {
  "note": "False as stated: the interpolation is done in the bin two above the one where the level is reached (exact characterisation proved; on a flat posterior the answer is two bins too high, levels reached in the last two bins throw, cl > 1 reads out of bounds).",
  "status": "partial"
 },
 "C51": {
  "note": "GetParameter(name) throws NotFoundError for every parameter of a dimension above the first (distance computed with the wrong sign), and RenameParameter(x,x) never returns; both proved as _refuted. Everything else in the statement is proved (writing, reading back with GetParameters, renaming to a different name).",
  "status": "partial"
 },
 "C52": {
  "note": "Relative to any monotone U with values in [0,1] for gsl_cdf_ugaussian_P and positive widths; C52_negative_width_refuted shows SetParameter can make the width negative.",
  "status": "proved"
 },
 "C53": {
  "note": "Shoot and UniformRange proved; VonNeumannSample always returns 0 (loop condition false initially), proved as _refuted.",
  "status": "partial"
 },
 "C54": {
  "note": "Parsing, Load and ListSections fully characterised for every text; number conversion is C105. Two findings proved as _refuted: indented comments are rejected, and a failing re-Open leaves a deleted parser behind.",
  "status": "partial"
 },
 "C55": {
  "note": "Counts, efficiency and background sums proved for one CountBackgrounds call on non-empty data sets; refuted: a second CountBackgrounds call doubles the expectation, an empty background makes it NaN.",
  "status": "partial"
 },
 "C56": {
  "note": "The claim about probabilities, integrals, Normalise and clones is proved; a separate theorem shows a composite's clone loses a name given by SetName",
  "status": "proved"
 },
 "C57": {
  "note": "Proved for pdfs with as many bins as the first and random numbers in (0,1]; refuted: binning of the other pdfs is never compared with the first's",
  "status": "partial"
 },
 "C58": {
  "note": "Effects, order and range checks of SetScale/SetCorrection proved; refuted: SetParameter/SetParameters accept any value (zero or negative scale).",
  "status": "partial"
 },
 "C59": {
  "note": "",
  "status": "proved"
 },
 "C60": {
  "note": "holds for histories that do not copy or assign lazy data sets; refuted for copies (not registered) and assignments (loaded data leaks)",
  "status": "partial"
 },
 "C61": {
  "note": "One histogram per name/pair, fills, projections and slices proved; refuted: keys first_second can clash so a pair is lost (C61_hist_per_pair_refuted), and 2-D histograms get no 2-D projection.",
  "status": "partial"
 },
 "C62": {
  "note": "Everything but two parts is proved; refuted parts: SetUpperContourEdge never reaches the minimiser, a parameter without limits gets (0,0) when others have limits and the next Optimise is refused; also parameters of an earlier fit leak into the next statistic",
  "status": "partial"
 },
 "C64": {
  "note": "Proved for histograms with unit integral; false otherwise because the sums are never divided by the integral (refuted by witness).",
  "status": "partial"
 },
 "C65": {
  "note": "Proved for the constructor; false for SetAxes on a used histogram (refuted by witness).",
  "status": "partial"
 },
 "C66": {
  "note": "holds for data sets never written by a copy or sum; refuted for those",
  "status": "partial"
 },
 "C68": {
  "note": "Unique at registration and when no named group grows afterwards; refuted for later Adds to a named group; a legitimate global Add is refused when another systematic is in two groups.",
  "status": "partial"
 },
 "C69": {
  "note": "Proved unless the added pdf is the first one that is not DIRECT; refuted in that case (the value is reset to 0).",
  "status": "partial"
 },
 "C70": {
  "note": "Proved when all pdfs have the same fitted status; refuted for unfitted pdfs (likelihood NaN).",
  "status": "partial"
 },
 "C71": {
  "note": "last event never drawn with replacement (refuted for every size >= 2); every other event reachable; counts proved",
  "status": "partial"
 },
 "C72": {
  "note": "Round trip proved for axis names (and latex names) of at most 64 characters together; longer ones refuted.",
  "status": "partial"
 },
 "C79": {
  "note": "Copy construction proved; operator= tests the target's own pointer: refuted when exactly one side has a space",
  "status": "partial"
 },
 "C80": {
  "note": "any number of axes; the total is the integral over the whole range whenever the pdf's integral is additive over boxes, which is proved of the Gaussian",
  "status": "proved"
 },
 "C81": {
  "note": "the property ranges over touching bins of positive width; C81_overlapping_bins_refuted shows what happens to overlapping ones, which BinAxis accepts. ROOT's TAxis::FindBin and TH::Fill are modelled from their documentation",
  "status": "proved"
 },
 "C82": {
  "note": "contents and names are proved; bin edges are kept only for evenly spaced bins (C82_uneven_bins_refuted), and two axes with the same title are rejected (C82_equal_titles_refuted)",
  "status": "partial"
 },
 "C83": {
  "note": "Probability, add, set-normalisations and set-parameter proved for every history; naming needs distinct, kept names and no renames (refuted otherwise).",
  "status": "partial"
 },
 "C84": {
  "note": "Proved for one-dimensional kernels: every event moved by one draw with parameters at its own values, whatever came before; errors; SetPDF and SetConditionalPDF copy; copies draw alike. False and refuted: SetConditionalPDF does not check dimensions (undefined read), the input observables are never read; the copy loses its name (so the copy theorem is _partial).",
  "status": "partial"
 },
 "C85": {
  "note": "Proved: SetDependance, SetParameters/GetParameters of all, names, one parameter where all functions share its name (C85_one_partial), destruction frees exactly the functions. False and refuted: single-parameter calls with two differently named functions, the count with shared names, independence of copies.",
  "status": "partial"
 },
 "C87": {
  "note": "Proved for trees with one leaf per branch, of the branch's name, and fewer than 2^32 entries, over a model of ROOT's documented behaviour; IOError cases. False and refuted: leaves named differently (null pointer or another branch's values), 2^32 entries.",
  "status": "partial"
 },
 "C88": {
  "note": "Projection and slice act consistently on events when the observables carry the axis names, as C88_projection_partial and C88_slice_partial assume; C88_observables_refuted shows that otherwise a projection cannot evaluate events the original can. Slices with two or more free axes have their bins in the wrong order (C10).",
  "status": "partial"
 },
 "C89": {
  "note": "C89_value proves the claim for systematics told apart by their names and registered after the last AddSystematic; C89_same_name_refuted and C89_late_refuted show that without either condition SetParameters is accepted but leaves a systematic at its old value.",
  "status": "partial"
 },
 "C90": {
  "note": "C90_function proves it for systematics with single, container or spectral parameters and C90_outcome gives every outcome; C90_dict_refuted shows a systematic whose parameters are a dictionary keeps foreign names from an earlier SetParameters, so GetParameters depends on the history.",
  "status": "partial"
 },
 "C91": {
  "note": "Holds for every form of AddPdfs/AddSystematics when the lists match, and mismatching groups/statuses are refused without effect; refuted for rate lists (never checked) and for statuses in the form with groups and rates: std::out_of_range after some pdfs were added.",
  "status": "partial"
 },
 "C92": {
  "note": "Expectation, event probability and normalisations carry over (C92_same_expectation); the fit parameters do not, because ParameterManager's assignment copies nothing (C92_parameters_refuted).",
  "status": "partial"
 },
 "C93": {
  "note": "Proved for programs that avoid the statements the code gets wrong (copying a CompositeED, Convolution, EDManager, VaryingCDF; assigning an AnalyticED, FitResult ...; self-assigning a CutCollection); each of those is refuted, as is freedom from leaks for replaced parts.",
  "status": "partial"
 },
 "C94": {
  "note": "Proved for every reachable statistic: a copy has the same value and parameters, and evaluating either leaves the other's value. Independent fitting is refuted: SetParameters on the copy changes the original only, re-registering loses the pdf normalisations, and destroying the original leaves the copy undefined.",
  "status": "partial"
 },
 "C95": {
  "note": "Proved for an even number of grid parameters, no buffers, no Barlow-Beeston, systematics with distinct names, a finite value at every grid point, no visited value exactly 0. The corner point is not visited (C43). The statistic is left at the last visited point, not at the best (refuted).",
  "status": "partial"
 },
 "C96": {
  "note": "Minimum and uniqueness proved without buffers and Barlow-Beeston. The grid search part needs an even number of grid parameters, the truth among the visited points and no visited value exactly 0; a truth at the lower corner of the grid is never reported (refuted).",
  "status": "partial"
 },
 "C97": {
  "note": "For systematics with single, container or spectral parameters, distinct names, no buffers and no Barlow-Beeston (C90_dict_refuted and C30_*_refuted show the need).",
  "status": "proved"
 },
 "C98": {
  "note": "C98_value: at least one systematic and every pdf registered with the systematic manager and on the same axes as the data. C98_one_axis: no systematics, data of one axis. Some buffer not empty, no Barlow-Beeston; the totals that a normalisation divides by are assumed not zero. Buffers on more axes without systematics are refuted: C30_*_refuted.",
  "status": "partial"
 },
 "C99": {
  "note": "C99_value: proved without buffers and without Barlow-Beeston; with systematics every pdf must be registered with the systematic manager. Buffers together with a projection are refuted (C99_buffers_refuted): the buffer bins are subtracted from the bins of the unprojected pdf and every evaluation fails.",
  "status": "partial"
 }
}