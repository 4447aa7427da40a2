# Formal model of snoplus/oxsx in Rocq (Coq 8.16.1)

## 1. Shape of the development

    rocq/theories/Base/    result type, exact numbers, list and string-map library (no repo content)
    rocq/theories/Model/   executable Gallina model of the C++ code, one file per area; no proofs
    rocq/theories/Spec/    small, independent specifications the theorems refer to
    rocq/theories/Proofs/  lemmas and proofs
    rocq/theories/Props/   the property theorems only, closed by `exact`, each with `Print Assumptions`
                           and a non-vacuity `Example`

Conventions
* Every C++ call returns `res A`: `Ok a`, `Throw e` (which exception class), `UB` (undefined
  behaviour: out-of-bounds `operator[]`, dereferencing `end()`, NULL), `NonFinite` (a double division
  by zero: the C++ goes on with inf/nan, the model stops and says so) and `Diverge` (a loop that never
  ends). Theorems speak about these outcomes explicitly.
* `double` is modelled as an exact rational (`Qc`, canonical rationals of the standard library, no
  axioms) or, where `log`, `exp`, `sqrt` are needed, as `R` (standard library reals). Rounding,
  overflow, signed zero, inf and nan are *not* modelled, except division by zero via `NonFinite` and
  where a comment says so.
* `size_t`/`unsigned` are `nat`/`N` without overflow except where wrap-around decides the behaviour
  (lattice points, event generator, shrinker buffers, file offsets): there the wrap is explicit.
* `std::map<std::string,_>` is a sorted association list (Base/SMap.v), iteration order = key order.
* Mutating member functions return the new object. Virtual calls and external libraries (ROOT random
  numbers, Armadillo, HDF5, GSL, Minuit2) are function parameters or plain list operations; the random
  generator is an arbitrary stream of values in [0,1).
* When the code does not have a property, the theorem is named `..._refuted : exists x, ...` and gives a witness;
  what does hold is proved beside it.

## 2. Trusted base
Coq's kernel; `Print Assumptions` output as recorded in section 5; the reading of the C++ documented in
the comments of `Model/*.v`. No axioms of our own, no kernel check disabled.

## 3. Plan per property
(see section 4 for the status; the plan below was written before the proofs)

| Property | Model | Proof method |
|---|---|---|
| C01, C02 | Model/Axis.v: BinAxis constructors, FindBin as first-high-edge search | induction on the edge list |
| C03, C04, C05 | Model/Axis.v: AxisCollection, flatten/unflatten, AddAxis | mixed-radix induction; invariant over AddAxis histories |
| C06-C12 | Model/Hist.v: Histogram | induction over contents / fill histories; reindexing of sums |
| C13, C14 | Model/Cut.v | invariant over event histories |
| C15-C17, C20 | Model/Param.v: ParameterManager, ComponentManager | refinement to a finite map |
| C17-C19 | Model/Syst.v, Model/Param.v (SpectralFitDist) parameter interfaces | case analysis, witnesses |
| C21 | Model/Event.v: ObsSet, Event | induction |
| C22, C23, C25 | Model/Syst.v: Shift, Scale, Shape, Renorm Construct | telescoping sums over contiguous bins |
| C24 | Model/Syst.v: cached state | witness + invariant for the histories that are fine |
| C26 | Model/Syst.v: Convolution | permutation / block argument |
| C27 | Model/SystMan.v | induction over the systematics list; matrix algebra |
| C28, C29, C30 | Model/EDMan.v, Model/Shrink.v | induction over pdf list; witnesses for mixed statuses |
| C31, C32 | Model/NLLH.v over R | calculus-free: ln x <= x - 1, quadratic formula |
| C33, C34 | Model/Constraint.v | invariant over call histories; nonlinear arithmetic |
| C35 | Model/Hist.v lattice points, Model/Constraint.v | induction on dimension |
| C36 | Model/Sum.v: StatisticSum | induction |
| C37-C39 | Model/Gen.v | permutation invariant over draw histories, arbitrary random stream |
| C40-C42 | Model/Data.v, Model/IO.v | induction; wrap-around arithmetic in N |
| C43 | Model/Grid.v | mixed-radix counter invariant; witnesses |
| C44-C46 | Model/MCMC.v | invariant over iterations for arbitrary streams |
| C47-C49 | Model/HMC.v | algebra; induction on steps |
| C50 | Model/Bayes.v | loop characterisation; witness |
| C51, C52, C53 | Model/Gauss.v, Model/Rand.v | induction; arbitrary cdf function with stated properties |
| C54 | Model/Ini.v | induction over lines |
| C55, C58, C59 | Model/Count.v, Model/Fill.v | induction over events |
| C56, C57 | Model/ED.v, Model/Comp.v, Model/Gen.v | nested induction over distributions |
| C60 | Model/Data.v | invariant over access histories |
| C61 | Model/HistTools.v | induction |
| C62 | Model/Minuit.v: configuration handed to Minuit2 as data | case analysis; the minimiser itself is external and not modelled |
| C63 | Model/Matrix.v | index arithmetic |
| C64, C65 | Model/Hist.v: means, variances, SetAxes | sums over bins; witnesses |
| C66, C67 | Model/Data.v | invariant over operation histories on a heap |
| C68 | Model/SystMan.v | invariant over registrations |
| C69, C70 | Model/EDMan.v, Model/NLLH.v | case analysis over fit statuses |
| C71 | Model/Gen.v | reachability of each index |
| C72, C73 | Model/IO.v | padding / truncation of fixed-width strings |
| C74, C75 | Model/MCMC.v: samples, autocorrelation | induction over the chain |
| C76 | Model/Sigmoid.v over R | monotone ln and exp |
| C77 | Model/BayesPoisson.v over R | partial sums of the exponential series |
| C78 | Model/Gauss.v: names and renames | fuel-bounded loop, count of occurrences |
| C79 | Model/Minuit.v: FitResult | heap of pointers |
| C80-C82 | Model/DistTools.v: ToHist both ways | telescoping products over axes; witnesses |
| C83 | Model/EDM.v: EDManager | invariant over call histories |
| C84 | Model/Smear.v: EventConvolution, sampling | induction over events, arbitrary draws |
| C85 | Model/Vary.v: VaryingCDF parameters | heap of function objects |
| C86 | Model/Density.v over R | product of exponentials, monotonicity |
| C87 | Model/Root.v: ROOTNtuple, ROOTTree over documented ROOT behaviour | induction over branches |
| C88 | Model/BedOps.v: BinnedED arithmetic, padding, FindBin(event), GetSlice | closure of reachable histograms under Marginalise and GetSlice; the per-axis bins of an event commute with projection |
| C89 | Model/NLLH.v with Model/SystMan.v, Model/EDMan.v, Model/Param.v: the systematics of the statistic are a table of names, fit components and response builders; Spec/NLLHSysSpec.v reads groups, action order and expectation off the history | invariants over arbitrary call histories (NLLHS1-NLLHS4), one evaluation reduced to the distorted expectation (NLLHS5-NLLHS6), induction over repeated evaluations (NLLHS7); two refuted variants by concrete histories |
| C90 | same models as C89; `outcome` in Spec/NLLHSysSpec.v is the value of Evaluate as a total function of data, expectation and constraint result | loop over the bins shown equal to `outcome` (NLLHS6-NLLHS7); tuning calls leave every descriptor of the history unchanged, so two runs meet in the same outcome (NLLHS8) |
| C91-C92 | Model/Bulk.v: AddPdfs, AddSystematics, SetPdfManager on the statistic of Model/NLLH.v | bulk calls shown equal to folded single calls; the handed-over manager's observations compared with the original's; witnesses |
| C93 | Model/Own.v: a store of objects with owned parts and programs over them (make, copy, clone, assign, give a part, set a parameter, destroy) | representation invariant (each variable owns a disjoint tree of cells) preserved by every allowed statement; refinement to variables that are values; each excluded statement refuted by a program |
| C94 | The implicit copy as a pair of statistics sharing systematics, with the copy's component pointers into the original's pdf manager (Model/Twin.v); commutation of Evaluate with a change of parameter pointers | partial: same value, evaluation order irrelevant; setting, registering, destroying refuted |
| C95 | `Model/Fit.v` (GridSearch::Optimise driving the live BinnedNLLH of Model/NLLH.v: register, get, key check, SetParameters/Evaluate per point, sign and best-so-far) | simulation of the search over a constant statistic (C43) with C90 giving the value at every point from any earlier history; the statistic left at the last point is a refutation |
| C96 | Model/NLLH.v and Model/Fit.v as they are | the value at every point by C90, the Poisson inequality bin by bin, linear independence for uniqueness, and C95 for the search; a truth at the lower grid corner is refuted |
| C97 | Model/NLLH.v; programs as trees of calls in `Spec/ClientSpec.v` | induction on the program with C90 at every look, whatever was called before |
| C98 | Model/NLLH.v, EDMan.v, Shrink.v; `Spec/BufferSpec.v` says what a histogram without its buffers is | the state with the working pdfs set aside satisfies the invariant of C89; the evaluation is distort, shrink, normalise from the originals each time; shrinking by C29 |
| C99 | Model/NLLH.v, EDMan.v, Hist.v; `Spec/ProjSpec.v`, projection of C61's `Spec/HistToolsSpec.v` | one generic argument (`Proofs/ProjP2.v`, `ProjP3.v`) for any last step of the evaluation (project, cut) that either starts from freshly distorted pdfs or recognises its own output; instantiated with the projection here and with one-axis buffers in C98 |
| C100 | BinAxis constructor with every operation passed through a rounding function r (`Model/Float.v`); `b64` is IEEE double, shown equal to Flocq's `round` | monotonicity of r gives ordered edges, then the explicit-edges theorem of C02 applies; error by composing four relative errors; last edge and empty bins refuted by computed examples |
| C101 | Fill and Integral with rounding | induction over the fills: partial sums are whole numbers up to 2^53 |
| C102 | Integral and Normalise with rounding | induction over the bins with (1-u)^n, (1+u)^n as invariants |
| C103 | GridSearch with rounding | invariant: every parameter is minimum + j steps, on which r is the identity; then the C43 theorems apply; refutations by computed runs |
| C104 | CountBins, FlattenIndices, UnflattenIndex, UnpackIndices, FindBin modulo 2^64 | every wrapped value is the exact one modulo 2^64; below 2^64 they agree; refutation with an abstract five-axis collection of 2^65 cells |
| C105 | ConfigLoader::Load into numbers, Converter, operator>> of istringstream as in libstdc++ | the scanner splits every text into space, number and rest; digit rows against an inductive numeral; composed with the C54 theorem on entries |
| C106 | BinnedNLLH with Barlow-Beeston and systematics (no new model: NLLH, EDMan, SystMan) | the C89 invariant extended by the normalisations after ApplySystematics and the rates stored by AddPdf, then the C32 bin lemma; identity response by matrix algebra; refutations with empty data, where the scale is rational |
| C107 | `Spec/OrderSpec`: when two configuration calls may be exchanged; the histories of `Spec/NLLHSpec` | the exchanged history means the same (pdfs up to order, groups of systematics, data, constraints), so value and parameters agree at every point; then the client theorem of C97. Refuted for INDIRECT before DIRECT |
| C108 | `Spec/EventsSpec`: programs that do not replace data or cuts | simulation between the statistic waiting to bin its events and the one with the binned data, for every call; binning counts do not depend on order. Refuted: cuts set after the first answer |
| C109 | `Model/Report`, `Spec/ReportSpec`: the table of a log accounts for a list of events | the counting loops are `run_cuts`; prefix sums of the counts; std::sort as any sorting rearrangement. Refuted: same names, unwritable files, stale percentages |
| C110 | `Model/Chain`, `Spec/ChainSpec`: the rows tell the history of Fill calls | induction over the calls, the chain rides on `sFill`. Refuted: reserved storage is not elements, switching on late, branch names, Var |
| C111 | `Model/ChiSq` (Evaluate in full), `Spec/ChiSqSpec`: all public calls in any order | invariant: the private managers are those of a new object, so Evaluate stops at GetOriginalPdf(0) and nothing has parameters. Refuted: the value, the parameters, any grid search |
| C112 | `Model/Syst` (w_construct with KFunc), `Spec/WarpSpec` | the response entry by entry for any function, by cases on the order of the images; column sums; witness of a reversing function that loses content in range |
| C113 | Model/Sum.v over the statistics of Model/NLLH.v; programs as trees of calls in `Spec/JointSpec.v` | induction on the program; invariant: every part is its configured likelihood after some tuning calls, resp. after SetParameters and evaluations; C97's lemma at each part |
| C114 | sm_count, sm_nGroups, sm_nInGroup, sm_namesIn over the histories of C27 | keys and contents of the group map are those of the accepted additions (run_keys, run_find); the total is the sum over its distinct keys |

## 4. Status per property
(generated by tools/gen_design.py from MANIFEST.json)

| Property | Title | Status | Theorems | Note |
|---|---|---|---|---|
| C01 | Axis bin lookup is total, in range and picks the containing bin | proved | 3 |  |
| C02 | Equal-width axes are a gap-free partition | proved | 2 |  |
| C03 | Flattening multi-dimensional bin indices is a bijection | proved | 1 |  |
| C04 | Multi-dimensional FindBin returns the box containing the point | proved | 1 |  |
| C05 | Axis collections never hold two axes with one name | proved | 2 |  |
| C06 | Filling conserves weight | proved | 3 |  |
| C07 | Bin access is bounds-checked | partial | 2 | Proved for all indices except index == GetNBins(), where the property is false: the bounds check is '>' so the access is undefined behaviour (C07_boundary_index_refuted). |
| C08 | Normalise yields unit integral and keeps shape | proved | 1 |  |
| C09 | Marginalising sums out exactly the dropped axes | proved | 3 |  |
| C10 | Slicing returns the bins at the fixed indices | partial | 6 | Proved for one free axis with fixed bins in range. False with two or more free axes (bins stored first-axis-fastest, read last-axis-fastest) and for out-of-range fixed bins, both refuted by witness; C10_slice_actual_layout says what the slice holds in general. |
| C11 | Histogram arithmetic is bin-wise and guarded | proved | 2 |  |
| C12 | Ranged 1-D integral is the sum of the covered bins | proved | 1 |  |
| C13 | Cuts accept exactly their documented region | proved | 3 |  |
| C14 | Cut logs account for every event exactly once | proved | 2 |  |
| C15 | ParameterManager set/get refines a name-value map | proved | 5 |  |
| C16 | A rejected SetParameters changes nothing | partial | 2 | The code violates the property (refuted by witness: SetParameters is not atomic); proved exactly which parameters change on rejection. |
| C17 | Renaming a fit parameter keeps its value and the parameter count | partial | 3 | Valid renames and unknown names proved for all components; collision rejection holds for ParameterManager and is refuted for Shape/ScaleFunction/Renorm/SpectralFitDist. Gaussian: see C51. |
| C18 | Setting parameters of a systematic never invents or drops parameters | partial | 4 | Proved for Shift, Scale, ParameterManager-based and spectral components; refuted for Shape/ScaleFunction/Renorm (they absorb every dictionary key and never report a missing one). |
| C19 | Spectral fit parameters are the bin contents | partial | 4 | Get/SetParameters/names proved; SetParameter is refuted: it overwrites the name string, never a bin. |
| C20 | Component aggregation broadcasts and merges by name | proved | 3 |  |
| C21 | Event projection follows the requested observable order | proved | 5 | SetDatum(index) out of range does not throw NotFoundError as its handler announces but writes outside the vector (C21_set_datum_out_of_range_refuted, beyond the statement). |
| C22 | Shift systematics conserve what stays in range | proved | 5 |  |
| C23 | Scale systematics conserve what stays in range | proved | 6 |  |
| C24 | Systematic responses reflect the current configuration | partial | 7 | Holds for any sequence of parameter changes and Construct calls on one configuration (Shift/Scale/ScaleFunction, Shape, Convolution); false when SetTransformationObs/SetAxes change the configuration after a Construct (the cached bin map is never invalidated): refuted silently and with a spurious exception. |
| C25 | Shape and Renorm are diagonal re-weightings | proved | 5 | Shape fully; Renorm once SetScaleFactor was called. Before that (e.g. only its fit parameter set) the factor is uninitialised: C25_renorm_unset_factor_refuted. |
| C26 | Convolution moves content only along the convolved axes with kernel weights | partial | 5 | Proved for transformed observables listed in axis order and every kernel whose integrals are finite (negative integrals are dropped, i.e. clipped at 0); refuted for other orders: wrong entries when all axes are transformed, an Armadillo exception for a subset. |
| C27 | Systematics are applied in order of addition | proved | 4 |  |
| C28 | Expected bin content is the normalisation-weighted sum | partial | 5 | Proved for distinct names and DIRECT pdfs added before INDIRECT ones, with any reads in between; refuted for a DIRECT pdf after an INDIRECT one (wrong pdf's normalisation is used) and for SetNormalisations on INDIRECT pdfs (silently ignored). |
| C29 | Shrinking removes exactly the buffer bins | partial | 4 | Shrinking itself proved for every axis collection, buffers and both modes (fewer than 2^31 bins); the ValueError for covering buffers holds unless the two sizes add up to 2^32 or more (C29_covering_buffers_refuted: std::length_error) |
| C30 | Evaluating a test statistic twice gives the same answer | partial | 5 | Proved for statistics without systematics, buffers or projections (any history); refuted with buffers: second evaluation throws, changes value, or reads out of bounds after new data. |
| C31 | The binned likelihood is the extended Poisson negative log likelihood plus constraints | proved | 4 | Value for every configuration given the bin expectations; full value from pdfs and parameters without systematics/buffers; minimum. |
| C32 | Barlow-Beeston scale is the physical root | partial | 4 | Proved for mu*sigma^2 < 1; for mu*sigma^2 >= 1 the code uses minus the root and returns NaN (refuted). |
| C33 | A parameter is constrained at most one way | proved | 9 |  |
| C34 | Constraint penalties are non-negative and vanish at the nominal values | partial | 9 | Holds for valid parameters; refuted: bivariate accepts /corr/>=1 in part and zero widths; ratio constraint with denominator below 1e-8 is penalised at its nominal ratio. |
| C35 | Interpolated constraints reproduce the table and never overshoot | partial | 3 | Proved inside the outermost centres; refuted at the border (out-of-range reads / wrong bins). |
| C36 | A statistic sum is the sum of its parts | proved | 8 |  |
| C37 | Drawing without replacement never repeats an event | partial | 5 | distinctness proved for all histories; 'asking for more than remain throws' refuted: only asking for more than the whole set throws, otherwise an out-of-range vector index |
| C38 | Sequential drawing enumerates events without repeats | partial | 3 | exact order proved; whole-set claim refuted for every size >= 2 (event 1 twice, event 0 never) |
| C39 | Drawn plus remaining events partition the data set | partial | 4 | partition proved for random draws without replacement; reported count is one too small; refuted before any draw and after sequential draws |
| C40 | Concatenating data sets appends the events | partial | 2 | a+a (aliasing) never terminates and the left operand is modified too; for distinct operands the result is the concatenation |
| C41 | Name lists survive the file format | proved | 3 |  |
| C42 | Saved data sets are written completely, each event once | partial | 10 | Round trip proved below the limits of the format; empty data sets, 10000+ observables, 2^32+ values and names over 64 characters refuted. |
| C43 | Grid search evaluates every grid point and returns the best one | partial | 9 | Only even numbers of parameters work, and then without the all-minima corner and, for four or more, without the later parameters; exact zeros and the sign when maximising refuted. |
| C44 | The Markov chain never leaves the fit region | proved | 6 |  |
| C45 | MCMC reports the best point visited | partial | 2 | C45_best_refuted: StepAccepted compares the current value before moving and Optimise does not compare after the loop, so a best point reached by the last accepted step is not reported; C45_best_partial proves everything else |
| C46 | Burn-in and thinning keep exactly the promised steps | proved | 7 | zero thinning factor (UB) and burn-in >= 2^31 (wraps) are refuted separately |
| C47 | Leap-frog integration is time reversible | proved | 5 |  |
| C48 | Reflective leap-frog stays inside the walls | partial | 6 | False as stated: a start on a wall moving outwards, a step landing exactly on a wall, two walls reached at the same moment and a parameter with an empty name all leave the box (refuted). Proved whenever no step starts out through a wall and no two parameters reach walls simultaneously: termination, exact billiard motion, kinetic energy kept, every step inside. |
| C49 | The numerical gradient is exact for quadratics | proved | 2 |  |
| C50 | Bayesian upper limit has the requested coverage | partial | 9 | False as stated: the interpolation is done in the bin two above the one where the level is reached (exact characterisation proved; on a flat posterior the answer is two bins too high, levels reached in the last two bins throw, cl > 1 reads out of bounds). |
| C51 | Gaussian parameters are readable and writable by name | partial | 10 | GetParameter(name) throws NotFoundError for every parameter of a dimension above the first (distance computed with the wrong sign), and RenameParameter(x,x) never returns; both proved as _refuted. Everything else in the statement is proved (writing, reading back with GetParameters, renaming to a different name). |
| C52 | Gaussian integrals are additive probabilities | proved | 9 | Relative to any monotone U with values in [0,1] for gsl_cdf_ugaussian_P and positive widths; C52_negative_width_refuted shows SetParameter can make the width negative. |
| C53 | Random helpers return values in their documented range | partial | 8 | Shoot and UniformRange proved; VonNeumannSample always returns 0 (loop condition false initially), proved as _refuted. |
| C54 | Config files parse to a section/key map | partial | 15 | Parsing, Load and ListSections fully characterised for every text; number conversion is C105. Two findings proved as _refuted: indented comments are rejected, and a failing re-Open leaves a deleted parser behind. |
| C55 | Counting experiments count passing events | partial | 4 | Counts, efficiency and background sums proved for one CountBackgrounds call on non-empty data sets; refuted: a second CountBackgrounds call doubles the expectation, an empty background makes it NaN. |
| C56 | Event distribution probabilities are normalised products | proved | 13 | The claim about probabilities, integrals, Normalise and clones is proved; a separate theorem shows a composite's clone loses a name given by SetName |
| C57 | Asimov and Poisson toys have the requested composition | partial | 6 | Proved for pdfs with as many bins as the first and random numbers in (0,1]; refuted: binning of the other pdfs is never compared with the first's |
| C58 | Event systematics compose in order and touch one observable | partial | 8 | Effects, order and range checks of SetScale/SetCorrection proved; refuted: SetParameter/SetParameters accept any value (zero or negative scale). |
| C59 | Filling distributions counts passing, systematically shifted events | proved | 4 |  |
| C60 | At most one lazy data set is loaded | partial | 5 | holds for histories that do not copy or assign lazy data sets; refuted for copies (not registered) and assignments (loaded data leaks) |
| C61 | Projection helpers cover all axes and pairs once | partial | 10 | One histogram per name/pair, fills, projections and slices proved; refuted: keys first_second can clash so a pair is lost (C61_hist_per_pair_refuted), and 2-D histograms get no 2-D projection. |
| C62 | Minuit settings reach the minimiser | partial | 13 | Everything but two parts is proved; refuted parts: SetUpperContourEdge never reaches the minimiser, a parameter without limits gets (0,0) when others have limits and the next Optimise is refused; also parameters of an earlier fit leak into the next statistic |
| C63 | Packed symmetric matrices unpack symmetrically | proved | 5 |  |
| C64 | Means and variances are the moments of the binned distribution | partial | 2 | Proved for histograms with unit integral; false otherwise because the sums are never divided by the integral (refuted by witness). |
| C65 | A histogram given axes starts empty | partial | 2 | Proved for the constructor; false for SetAxes on a used histogram (refuted by witness). |
| C66 | Events are read under their data set's names | partial | 2 | holds for data sets never written by a copy or sum; refuted for those |
| C67 | A data set is the list of the events added | proved | 2 |  |
| C68 | No systematic acts twice on a distribution | partial | 4 | Unique at registration and when no named group grows afterwards; refuted for later Adds to a named group; a legitimate global Add is refused when another systematic is in two groups. |
| C69 | Adding a pdf leaves the parameters already set alone | partial | 2 | Proved unless the added pdf is the first one that is not DIRECT; refuted in that case (the value is reset to 0). |
| C70 | Monte Carlo uncertainty counts every pdf | partial | 2 | Proved when all pdfs have the same fitted status; refuted for unfitted pdfs (likelihood NaN). |
| C71 | Generated data sets can contain every event | partial | 6 | last event never drawn with replacement (refuted for every size >= 2); every other event reachable; counts proved |
| C72 | Histograms survive the file format | partial | 3 | Round trip proved for axis names (and latex names) of at most 64 characters together; longer ones refuted. |
| C73 | The file extension selects the format | proved | 1 |  |
| C74 | MCMC accepts a proposal with the Metropolis probability | proved | 2 |  |
| C75 | The auto-correlation estimate is the windowed lagged covariance ratio | proved | 1 |  |
| C76 | Soft walls push outwards points up and leave inside points almost alone | proved | 3 |  |
| C77 | The counting upper limit search ends and is accurate to the tolerance | proved | 5 |  |
| C78 | Conditional pdfs depend on the displacement and do not remember | proved | 5 |  |
| C79 | Copies of fit results are faithful | partial | 4 | Copy construction proved; operator= tests the target's own pointer: refuted when exactly one side has a space |
| C80 | Histogramming an analytic PDF | proved | 3 | any number of axes; the total is the integral over the whole range whenever the pdf's integral is additive over boxes, which is proved of the Gaussian |
| C81 | Conversion to ROOT histograms keeps every bin | proved | 4 | the property ranges over touching bins of positive width; C81_overlapping_bins_refuted shows what happens to overlapping ones, which BinAxis accepts. ROOT's TAxis::FindBin and TH::Fill are modelled from their documentation |
| C82 | Conversion from ROOT histograms | partial | 5 | contents and names are proved; bin edges are kept only for evenly spaced bins (C82_uneven_bins_refuted), and two axes with the same title are rejected (C82_equal_titles_refuted) |
| C83 | The un-normalised sum of distributions weights each with its own normalisation | partial | 10 | Probability, add, set-normalisations and set-parameter proved for every history; naming needs distinct, kept names and no renames (refuted otherwise). |
| C84 | An event convolution moves each event by its own draw from the kernel | partial | 7 | Proved for one-dimensional kernels: every event moved by one draw with parameters at its own values, whatever came before; errors; SetPDF and SetConditionalPDF copy; copies draw alike. False and refuted: SetConditionalPDF does not check dimensions (undefined read), the input observables are never read; the copy loses its name (so the copy theorem is _partial). |
| C85 | A varying kernel passes its fit parameters to its dependences | partial | 9 | Proved: SetDependance, SetParameters/GetParameters of all, names, one parameter where all functions share its name (C85_one_partial), destruction frees exactly the functions. False and refuted: single-parameter calls with two differently named functions, the count with shared names, independence of copies. |
| C86 | The Gaussian density is the product of normal densities | proved | 7 |  |
| C87 | Data sets read from ROOT files give the stored rows | partial | 7 | Proved for trees with one leaf per branch, of the branch's name, and fewer than 2^32 entries, over a model of ROOT's documented behaviour; IOError cases. False and refuted: leaves named differently (null pointer or another branch's values), 2^32 entries. |
| C88 | Binned distributions combine, project and slice consistently with the events they describe | partial | 7 | Projection and slice act consistently on events when the observables carry the axis names, as C88_projection_partial and C88_slice_partial assume; C88_observables_refuted shows that otherwise a projection cannot evaluate events the original can. Slices with two or more free axes have their bins in the wrong order (C10). |
| C89 | The binned likelihood with systematics is the Poisson likelihood of the distorted expectation at the parameters last set | partial | 3 | C89_value proves the claim for systematics told apart by their names and registered after the last AddSystematic; C89_same_name_refuted and C89_late_refuted show that without either condition SetParameters is accepted but leaves a systematic at its old value. |
| C90 | A configured binned likelihood is a function of its parameters | partial | 3 | C90_function proves it for systematics with single, container or spectral parameters and C90_outcome gives every outcome; C90_dict_refuted shows a systematic whose parameters are a dictionary keeps foreign names from an earlier SetParameters, so GetParameters depends on the history. |
| C91 | Configuring a statistic in bulk is the same as configuring it one call at a time | partial | 4 | Holds for every form of AddPdfs/AddSystematics when the lists match, and mismatching groups/statuses are refused without effect; refuted for rate lists (never checked) and for statuses in the form with groups and rates: std::out_of_range after some pdfs were added. |
| C92 | A pdf manager handed to a statistic with SetPdfManager is used as it is | partial | 2 | Expectation, event probability and normalisations carry over (C92_same_expectation); the fit parameters do not, because ParameterManager's assignment copies nothing (C92_parameters_refuted). |
| C93 | Objects that hold other objects through pointers behave like values | partial | 13 | Proved for programs that avoid the statements the code gets wrong (copying a CompositeED, Convolution, EDManager, VaryingCDF; assigning an AnalyticED, FitResult ...; self-assigning a CutCollection); each of those is refuted, as is freedom from leaks for replaced parts. |
| C94 | A copy of a statistic evaluates to the same value and can be fitted independently | partial | 6 | Proved for every reachable statistic: a copy has the same value and parameters, and evaluating either leaves the other's value. Independent fitting is refuted: SetParameters on the copy changes the original only, re-registering loses the pdf normalisations, and destroying the original leaves the copy undefined. |
| C95 | A grid search over a live likelihood reports the visited point with the smallest value | partial | 2 | Proved for an even number of grid parameters, no buffers, no Barlow-Beeston, systematics with distinct names, a finite value at every grid point, no visited value exactly 0. The corner point is not visited (C43). The statistic is left at the last visited point, not at the best (refuted). |
| C96 | Fitting data that equal the expectation gives back the parameters | partial | 5 | Minimum and uniqueness proved without buffers and Barlow-Beeston. The grid search part needs an even number of grid parameters, the truth among the visited points and no visited value exactly 0; a truth at the lower corner of the grid is never reported (refuted). |
| C97 | No program can tell a configured likelihood from a function of its parameters | proved | 1 | For systematics with single, container or spectral parameters, distinct names, no buffers and no Barlow-Beeston (C90_dict_refuted and C30_*_refuted show the need). |
| C98 | Buffers act on the distorted pdfs, every time | partial | 2 | C98_value: at least one systematic and every pdf registered with the systematic manager and on the same axes as the data. C98_one_axis: no systematics, data of one axis. Some buffer not empty, no Barlow-Beeston; the totals that a normalisation divides by are assumed not zero. Buffers on more axes without systematics are refuted: C30_*_refuted. |
| C99 | Data with fewer observables than the pdfs: the likelihood compares them with the projected pdfs, every time | partial | 2 | C99_value: proved without buffers and without Barlow-Beeston; with systematics every pdf must be registered with the systematic manager. Buffers together with a projection are refuted (C99_buffers_refuted): the buffer bins are subtracted from the bins of the unprojected pdf and every evaluation fails. |
| C100 | Axes built with double arithmetic still have no gaps | partial | 7 | gaps, FindBin and edge errors proved for every rounding; last edge = maximum and non-empty bins refuted |
| C101 | Counting events in doubles is exact below 2^53 | partial | 2 | exact up to 2^53 proved; saturation beyond refutes the unrestricted claim |
| C102 | Rounding error of Integral and Normalise | partial | 3 | error bounds proved for every rounding; exactly 1 after Normalise refuted |
| C103 | Grid search in double arithmetic | partial | 4 | settings with few bits proved equal to the exact search; end point and termination refuted otherwise |
| C104 | Bin numbers in 64-bit arithmetic | partial | 2 | exact below 2^64 cells proved; overflow beyond refuted |
| C105 | Numbers in configuration files | partial | 8 | all texts characterised for signed integers and doubles; refused trailing text and negative numbers for unsigned types are refuted |
| C106 | Barlow-Beeston together with systematics | partial | 5 | the value is proved for pdfs all DIRECT or all INDIRECT, every pdf accepted; the identity part is proved without Barlow-Beeston and for DIRECT pdfs, refuted for INDIRECT pdfs whose integral is not 1 (C106_identity_refuted); a refused AddPdf makes every evaluation throw (C106_refused_refuted) |
| C107 | The order of configuration calls does not matter | partial | 2 | DIRECT pdfs must come before INDIRECT ones: C107_order_refuted |
| C108 | Data given as events are the data given as their histogram | partial | 3 | cuts set after the first answer are ignored: C108_late_cuts_refuted |
| C109 | The report of a counting experiment shows each data set's own account | partial | 7 | background names distinct, data sets not empty; otherwise C109_own_error_refuted; unwritable files are not reported: C109_saved_refuted; stale percentages: C109_percentages_refuted |
| C110 | A saved chain tells every step and changes nothing else | partial | 8 | holds where reserved vector storage may be used; by the standard undefined: C110_standard_refuted; switching on late: C110_late_refuted; branch names: C110_branch_refuted; Var: C110_variance_refuted |
| C111 | The chi-squared statistic | partial | 5 | the claim fails for every program: C111_value_refuted, C111_parameters_refuted, C111_grid_refuted; what holds: C111_data, C111_kept |
| C112 | A scale function moves each bin's content to where it takes the bin | partial | 4 | the response is characterised for every function; conservation is proved when each filled bin's image is in range in order, or within one bin. It fails for content that a decreasing function reverses across a bin edge: that content is lost (C112_reversed, C112_reversed_refuted) |
| C113 | A joint fit is a function of its parameters | proved | 1 | Systematic objects are not shared between the likelihoods; a flat sum (nested sums flatten by C36); configurations as in C97. |
| C114 | The systematic manager reports what was added to it | partial | 2 | Proved as far as it holds: C114_reports_refuted shows that GetNGroups before the first systematic reads an uninitialised member and GetNSystematicsInGroup of an unknown group dereferences end() instead of throwing. |

## 5. Print Assumptions
(generated; every theorem of MANIFEST.json)

* Closed under the global context (no axioms): 447 theorems, all those not named below.
* Standard library axioms `ClassicalDedekindReals.sig_forall_dec`, `FunctionalExtensionality.functional_extensionality_dep`: C36_evaluate, C36_operators, C36_value, C36_self, C55_signal_efficiency, C100_axis_partial, C100_edge_error_partial, C101_counts_partial, C102_integral_partial, C102_normalise_partial, C103_exact_steps_partial.
* Standard library axioms `ClassicalDedekindReals.sig_forall_dec`, `ClassicalDedekindReals.sig_not_dec`, `FunctionalExtensionality.functional_extensionality_dep`: C32_root_partial, C55_backgrounds_partial, C55_backgrounds_refuted, C77_zero_tolerance, C86_density, C86_errors, C86_jump, C86_varying, C86_square_root, C109_same_counts, C109_report_partial, C109_own_error_refuted, C109_saved_refuted.
* Standard library axioms `ClassicalDedekindReals.sig_forall_dec`, `ClassicalDedekindReals.sig_not_dec`, `Classical_Prop.classic`, `FunctionalExtensionality.functional_extensionality_dep`: C30_repeat_partial, C30_new_data_partial, C30_repeat_refuted, C30_same_value_refuted, C30_new_data_refuted, C31_finite_answer, C31_value, C31_dataset, C31_minimum, C32_value_partial, C32_root_refuted, C32_empty_bin_refuted, C36_likelihoods, C70_every_pdf_counts_partial, C70_every_pdf_counts_refuted, C76_penalty, C76_failure, C76_no_walls, C77_terminates, C77_interval, C77_tends_to_one, C77_above_one, C86_order, C86_maximum, C89_value, C89_same_name_refuted, C89_late_refuted, C90_function, C90_outcome, C90_dict_refuted, C91_addPdfs_partial, C91_systematics, C91_rates_refuted, C92_parameters_refuted, C94_same_value_partial, C94_evaluate_both_partial, C94_stale_refuted, C94_gone_refuted, C95_search_partial, C95_left_at_last_refuted, C96_minimum, C96_rates, C96_grid_partial, C96_truth_partial, C96_corner_refuted, C97_cannot_tell, C98_value, C98_one_axis, C99_value, C99_buffers_refuted, C100_double, C100_double_rounding, C100_double_error, C103_few_bits_partial, C106_value, C106_identity_partial, C106_identity_refuted, C106_refused_refuted, C107_calls_partial, C107_order_refuted, C108_histogram_partial, C108_order, C108_late_cuts_refuted, C113_joint_fit.

## 6. What is modelled and what is not
Modelled (each definition cites file and lines): everything in src/histogram, src/cut, src/constraint, src/data, src/dist, src/fitutil,
src/systematic, src/eventSystematic, src/count, src/interval, src/rand, src/function except Heaviside, src/teststat,
src/optimise, src/core (parameters, components, matrices, combinations, container tools as far as used), the parser of src/config/ini.hpp and ConfigLoader.

Not modelled
* `src/plot/ROOTMultiPlot.*` (drawing), text printing (`Print`, `AsString` layouts other than those named in properties), console output.
* `src/function/Heaviside.*` (no concrete class implements its abstract members, so no object can exist).
* `src/core/TypeTraits.hpp`, `Exceptions.h`, `Formatter.hpp`: compile-time selection, exception classes (only which class is thrown matters) and message texts.
* Floating-point rounding (except in C100-C103, `Model/Float.v`), overflow, signed zeros, infinities and NaNs (see section 1); memory exhaustion; threads (the library has none).
* External libraries: ROOT, HDF5, Armadillo, GSL, Minuit2 are represented by their documented results (each model file says how).
* The lifetime of the vector of names an `Event` points to, except in Model/Data.v.

## 7. Testing the theorems
`tools/mut.py` edits a scratch copy of the model and rebuilds; `seeded/LOG.jsonl` records every edit, the claim it breaks, the lemmas or theorems that
failed and the theorems tightened because an edit survived.
