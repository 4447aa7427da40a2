{"id": "C01", "title": "Axis bin lookup is total, in range and picks the containing bin", "statement": "For every BinAxis, FindBin(x) returns an index smaller than GetNBins(); on an axis whose bins are contiguous, a value inside the axis range is put in the one bin with GetBinLowEdge(i) <= x < GetBinHighEdge(i), a value below the range goes to bin 0 and a value at or above the top edge goes to the last bin. The result is monotone in x.", "quantifier": "every axis (equal-width or user-supplied edges) and every real value x", "why_tests_cant": "The claim ranges over all edge vectors and all reals, including every exact edge value; tests sample a few points of one axis.", "anchors": ["src/histogram/BinAxis.cpp: BinAxis::FindBin, BinAxis::BinAxis", "src/histogram/BinAxis.h"]}
{"id": "C02", "title": "Equal-width axes are a gap-free partition", "statement": "BinAxis(name,min,max,n) throws LogicError exactly when min >= max or n == 0; otherwise it has n bins, bin 0 starts at min, bin n-1 ends at max, each bin's high edge is the next bin's low edge, all widths are (max-min)/n and each centre is the midpoint of its edges. The variable-bin constructor accepts a pair of edge vectors exactly when they are non-empty, of equal length, with non-decreasing low edges and low <= high in every bin.", "quantifier": "every min, max, bin count and every pair of edge vectors", "why_tests_cant": "Needs all bin counts and ranges; tests check single literals.", "anchors": ["src/histogram/BinAxis.cpp: constructors, GetBinLowEdge, GetBinHighEdge, GetBinCentre, GetBinWidth"]}
{"id": "C03", "title": "Flattening multi-dimensional bin indices is a bijection", "statement": "For every AxisCollection with at least one axis, FlattenIndices followed by UnflattenIndex returns the same per-axis indices for all in-range indices, UnflattenIndex followed by FlattenIndices is the identity on [0,GetNBins()), flattened ids are < GetNBins(), and the last axis varies fastest. A wrong number of indices throws DimensionError.", "quantifier": "every number of axes, every bin count per axis, every index", "why_tests_cant": "Unbounded dimensions and bin counts; tests use one 2-D or 3-D shape.", "anchors": ["src/histogram/AxisCollection.cpp: FlattenIndices, UnflattenIndex, CountBins"]}
{"id": "C04", "title": "Multi-dimensional FindBin returns the box containing the point", "statement": "AxisCollection::FindBin(values) is < GetNBins() and, axis by axis, UnflattenIndex of it equals that axis's FindBin of that coordinate; so for contiguous axes the point lies in the box given by GetBinLowEdges/GetBinHighEdges of the returned bin whenever it is inside the axis ranges.", "quantifier": "every axis collection, every point", "why_tests_cant": "Composition of two unbounded maps; only samples can be tested.", "anchors": ["src/histogram/AxisCollection.cpp: FindBin, GetBinLowEdges, GetBinHighEdges"]}
{"id": "C05", "title": "Axis collections never hold two axes with one name", "statement": "After any sequence of AddAxis/AddAxes calls, axis names are pairwise distinct, GetAxisIndex(name) is the position of that axis, GetNBins() is the product of the axes' bin counts; a rejected AddAxis (ValueError for a duplicate name) leaves the collection unchanged and AddAxes stops at the first duplicate keeping the axes added before it.", "quantifier": "every history of AddAxis / AddAxes calls", "why_tests_cant": "An invariant over unbounded histories including failing calls.", "anchors": ["src/histogram/AxisCollection.cpp: AddAxis, AddAxes, GetAxisIndex, HasAxis"]}
{"id": "C06", "title": "Filling conserves weight", "statement": "After any sequence of Fill(values,weight) on a Histogram, each bin's content is its initial content plus the weights of exactly the entries whose FindBin is that bin, and Integral() increases by the sum of the weights (under- and overflow included). Fill by name map uses the value for each axis name in axis order and throws when a name is missing or the number of values is wrong, leaving the histogram unchanged.", "quantifier": "every histogram, every fill history, every weight", "why_tests_cant": "Conservation over unbounded histories and all under/overflow points.", "anchors": ["src/histogram/Histogram.cpp: Fill, Integral, FindBin"]}
{"id": "C07", "title": "Bin access is bounds-checked", "statement": "Histogram::GetBinContent/SetBinContent/AddBinContent on an index outside [0,GetNBins()) throws NotFoundError and on an index inside reads or writes exactly that bin.", "quantifier": "every histogram and every index", "why_tests_cant": "The violating index is a single boundary value; undefined behaviour need not show up in a run.", "anchors": ["src/histogram/Histogram.cpp: GetBinContent, SetBinContent, AddBinContent"]}
{"id": "C08", "title": "Normalise yields unit integral and keeps shape", "statement": "If Integral() is non-zero, Normalise() makes Integral() equal 1, keeps all bin ratios, and a second Normalise() changes nothing. A zero integral produces non-finite contents, without exception.", "quantifier": "every histogram with non-zero integral", "why_tests_cant": "All contents vectors of all lengths.", "anchors": ["src/histogram/Histogram.cpp: Normalise, Scale"]}
{"id": "C09", "title": "Marginalising sums out exactly the dropped axes", "statement": "Marginalise(names) on distinct known axis names returns a histogram with the named axes in the requested order whose every bin is the sum of the original bins having those indices; Integral() is preserved. Unknown axis names throw NotFoundError and repeated names throw ValueError.", "quantifier": "every histogram, every list of axis names", "why_tests_cant": "All shapes and axis selections.", "anchors": ["src/histogram/Histogram.cpp: Marginalise"]}
{"id": "C10", "title": "Slicing returns the bins at the fixed indices", "statement": "GetSlice(fixed) returns a histogram over the free axes whose bin (j1..jk) equals the original bin with those free indices and the fixed ones.", "quantifier": "every histogram, every set of fixed axes and bins", "why_tests_cant": "Index bookkeeping is right for one free axis and for symmetric examples, so small tests pass.", "anchors": ["src/histogram/Histogram.cpp: GetSlice, Recurse"]}
{"id": "C11", "title": "Histogram arithmetic is bin-wise and guarded", "statement": "Add/Multiply/Divide require equal axes (ValueError otherwise, receiver unchanged) and act bin by bin; Add(other,w) changes the integral by w times other's integral; Scale(k) multiplies the integral by k; Empty() zeroes every bin; AddPadding(p) changes exactly the zero bins.", "quantifier": "every pair of histograms and every weight", "why_tests_cant": "All shapes and contents.", "anchors": ["src/histogram/Histogram.cpp: Add, Multiply, Divide, Scale, Empty, AddPadding"]}
{"id": "C12", "title": "Ranged 1-D integral is the sum of the covered bins", "statement": "Integral(min,max) on a 1-D histogram is the sum of contents of the bins FindBin(min)..FindBin(max) inclusive when max > min and 0 otherwise; on other dimensionalities it throws; integrals over [a,b] never exceed the total for non-negative contents.", "quantifier": "every 1-D histogram and every interval", "why_tests_cant": "All edge coincidences.", "anchors": ["src/histogram/Histogram.cpp: Integral(double,double)"]}
{"id": "C13", "title": "Cuts accept exactly their documented region", "statement": "BoxCut passes iff lower < x < upper; LineCut 'lower' passes iff x > limit, 'upper' iff x < limit, any other side is rejected at construction with ValueError; BoolCut passes iff x equals its value; a cut on an observable the event lacks throws NotFoundError. A CutCollection passes an event iff all its cuts do.", "quantifier": "every cut, event and value (including exact limits)", "why_tests_cant": "Boundary values over all reals, all cut lists.", "anchors": ["src/cut/BoxCut.cpp", "src/cut/LineCut.cpp", "src/cut/BoolCut.cpp", "src/cut/CutCollection.cpp"]}
{"id": "C14", "title": "Cut logs account for every event exactly once", "statement": "Over any sequence of PassesCuts(event,log) calls, number of passes plus the sum of per-cut rejection counts equals the number of events logged; an event is charged to the first cut in order that it fails; CalculateMeta gives remaining counts that decrease from cut to cut and end at the number of passing events.", "quantifier": "every cut list and every event history", "why_tests_cant": "Invariant over unbounded histories.", "anchors": ["src/cut/CutLog.cpp", "src/cut/CutCollection.cpp: PassesCuts"]}
{"id": "C15", "title": "ParameterManager set/get refines a name-value map", "statement": "After any successful sequence of Add/AddContainer/SetParameter/SetParameters/Rename calls, GetParameter(name) returns the last value set under that name, GetParameterNames/Count agree with the registered names, SetParameters with a missing name throws ParameterError, extra keys are ignored, and values reach the registered variables.", "quantifier": "every history of registration, set and rename calls", "why_tests_cant": "Refinement over unbounded histories.", "anchors": ["src/core/ParameterManager.cpp", "src/core/ParameterManager.hpp"]}
{"id": "C16", "title": "A rejected SetParameters changes nothing", "statement": "If ParameterManager::SetParameters throws ParameterError because a registered name is missing from the dictionary, no registered parameter has changed.", "quantifier": "every manager state and every dictionary", "why_tests_cant": "Partial writes depend on the alphabetical position of the missing key.", "anchors": ["src/core/ParameterManager.cpp: SetParameters"]}
{"id": "C17", "title": "Renaming a fit parameter keeps its value and the parameter count", "statement": "RenameParameter(old,new) with old registered and new unused moves old's value to new and keeps every other parameter; unknown old names and collisions are rejected. This should hold for every fit component (ParameterManager, Shift, Scale, ScaleFunction, Shape, Renorm, SpectralFitDist, Gaussian).", "quantifier": "every component state and every pair of names", "why_tests_cant": "Includes old == new and collisions, over all states.", "anchors": ["src/core/ParameterManager.cpp: RenameParameter", "src/systematic/Shape.cpp: RenameParameter", "src/systematic/ScaleFunction.cpp", "src/dist/SpectralFitDist.cpp", "src/function/GaussianFitter.cpp"]}
{"id": "C18", "title": "Setting parameters of a systematic never invents or drops parameters", "statement": "SetParameters on Shift/Scale/Renorm/Shape/ScaleFunction updates exactly its own parameters from the dictionary (throwing ParameterError when one is missing) and leaves GetParameterNames() unchanged even when the dictionary holds other components' parameters.", "quantifier": "every component state and every dictionary containing foreign keys", "why_tests_cant": "Depends on which dictionary reaches which component in a fit.", "anchors": ["src/systematic/Shift.cpp", "src/systematic/Scale.cpp", "src/systematic/Shape.cpp", "src/systematic/ScaleFunction.cpp", "src/systematic/Renorm.cpp"]}
{"id": "C19", "title": "Spectral fit parameters are the bin contents", "statement": "For a SpectralFitDist, GetParameter/SetParameter/SetParameters for the i-th parameter name read and write bin i's content and nothing else, and leave the parameter names unchanged.", "quantifier": "every distribution, parameter name and value", "why_tests_cant": "All bin counts and names; the single-parameter setter is not exercised by the bulk API used in fits.", "anchors": ["src/dist/SpectralFitDist.cpp"]}
{"id": "C20", "title": "Component aggregation broadcasts and merges by name", "statement": "ComponentManager: SetParameters gives every component the dictionary; GetParameters is the union of the components' parameters (first component wins on a clash) and GetParameterCount/GetTotalParameterCount count them; a parameter shared by two components with the same name always receives the same value in a fit.", "quantifier": "every list of components and every dictionary", "why_tests_cant": "All component lists and overlaps.", "anchors": ["src/core/ComponentManager.cpp", "src/teststat/StatisticSum.cpp"]}
{"id": "C21", "title": "Event projection follows the requested observable order", "statement": "Event::ToObsSet(obs) returns the event's values in obs's order (throws when one is missing); ObsSet::GetRelativeIndices gives positions such that projecting by them equals ToObsSet; GetDatum out of range throws NotFoundError. SetDatum(name) and SetDatum(index) change exactly the addressed value (NotFoundError for an unknown name), and GetDataMap maps every observable name to its value.", "quantifier": "every event, name list and observable subset", "why_tests_cant": "All permutations and subsets.", "anchors": ["src/data/ObsSet.cpp", "src/data/Event.cpp"]}
{"id": "C22", "title": "Shift systematics conserve what stays in range", "statement": "A constructed Shift response on a contiguous axis moves bin content by the overlap fraction of the shifted bin with each destination bin: all entries are in [0,1], each column sums to the fraction of the shifted source bin that is inside the axis range (1 if wholly inside, 0 if wholly outside), a zero shift is the identity, and other axes' indices are untouched.", "quantifier": "every axis collection, every shift value", "why_tests_cant": "All real shifts, including exact multiples of bin widths and shifts beyond the range.", "anchors": ["src/systematic/Shift.cpp: Construct, GetBinContribution", "src/systematic/Systematic.cpp"]}
{"id": "C23", "title": "Scale systematics conserve what stays in range", "statement": "A constructed Scale response (factor > 0, applied about zero or the scale centre) has entries in [0,1] whose column sums are the fraction of the scaled source bin inside the axis range; factor 1 is the identity; factor <= 0 throws ValueError.", "quantifier": "every axis collection, every positive scale factor", "why_tests_cant": "All real factors.", "anchors": ["src/systematic/Scale.cpp: Construct, GetBinContribution"]}
{"id": "C24", "title": "Systematic responses reflect the current configuration", "statement": "After any history of SetAxes/SetTransformationObs/SetDistributionObs/set-parameter calls followed by Construct(), the response equals that of a fresh systematic with the same final configuration.", "quantifier": "every configuration history", "why_tests_cant": "Cache staleness appears only for particular call orders.", "anchors": ["src/systematic/Shift.cpp: fCachedBinMapping", "src/systematic/Scale.cpp", "src/systematic/Shape.cpp", "src/systematic/Convolution.cpp", "src/systematic/Systematic.cpp: SetAxes"]}
{"id": "C25", "title": "Shape and Renorm are diagonal re-weightings", "statement": "Shape multiplies each bin by the shape function at that bin's transformed-axes centre and throws ValueError for a negative weight; Renorm multiplies every bin by one factor; neither moves content between bins.", "quantifier": "every axis collection, shape function and contents", "why_tests_cant": "All shapes and functions.", "anchors": ["src/systematic/Shape.cpp: Construct", "src/systematic/Renorm.cpp: Construct"]}
{"id": "C26", "title": "Convolution moves content only along the convolved axes with kernel weights", "statement": "A constructed Convolution maps bin j to bin i with weight equal to the kernel's integral over i's sub-box given j's sub-centre if i and j agree on all other axes, and 0 otherwise; so if the kernel's integrals over a sub-grid sum to at most 1 the total content does not increase.", "quantifier": "every axis collection, every choice and order of transformed observables, every kernel", "why_tests_cant": "Depends on axis subset and order.", "anchors": ["src/systematic/Convolution.cpp: Construct, BlockedBinningIndex, CacheCompatibleBins"]}
{"id": "C27", "title": "Systematics are applied in order of addition", "statement": "SystematicManager::Construct builds for each group the composition of its systematics in the order they were added, and DistortEDs applies to each registered distribution the global group first (unless listed explicitly), then its groups in listed order; the result equals applying the systematics one after another.", "quantifier": "every list of systematics, groups, registrations and distributions", "why_tests_cant": "All orders and group assignments.", "anchors": ["src/fitutil/SystematicManager.cpp"]}
{"id": "C28", "title": "Expected bin content is the normalisation-weighted sum", "statement": "BinnedEDManager::BinProbability(b) equals the sum over pdfs of normalisation times the pdf's content in b, where each pdf uses the normalisation set under its own name; SetNormalisations/SetParameters with the wrong count or missing names throws.", "quantifier": "every list of pdfs, every assignment of norm-fitting statuses, every bin", "why_tests_cant": "Depends on mixed statuses and their order.", "anchors": ["src/fitutil/BinnedEDManager.cpp: BinProbability, ReassertNorms, RegisterParameters"]}
{"id": "C29", "title": "Shrinking removes exactly the buffer bins", "statement": "BinnedEDShrinker::ShrinkDist keeps every non-buffer bin's content at the same axis edges; without overflow mode buffer contents are dropped, with overflow mode they are added to the nearest kept bin so the integral is preserved; buffers covering the whole axis throw ValueError.", "quantifier": "every axis collection, every buffer sizes, both modes", "why_tests_cant": "All shapes, buffers and the unsigned-overflow corner.", "anchors": ["src/fitutil/BinnedEDShrinker.cpp"]}
{"id": "C30", "title": "Evaluating a test statistic twice gives the same answer", "statement": "BinnedNLLH::Evaluate() called repeatedly with unchanged parameters and data returns the same value (and never fails the second time), whatever buffers and dimensions are configured; after new data is supplied the result is that of a fresh statistic with that data.", "quantifier": "every configuration and call history", "why_tests_cant": "History property: depends on dimensionality, buffers and earlier calls.", "anchors": ["src/teststat/BinnedNLLH.cpp: Evaluate", "src/fitutil/BinnedEDManager.cpp: ApplyShrink"]}
{"id": "C31", "title": "The binned likelihood is the extended Poisson negative log likelihood plus constraints", "statement": "BinnedNLLH::Evaluate() equals the sum over bins of (mu_i - n_i log mu_i) plus the constraint terms, throws if a bin's expectation is zero, and as a function of the expectations is minimal exactly at mu_i = n_i.", "quantifier": "every data and expectation vector", "why_tests_cant": "All vectors of all lengths.", "anchors": ["src/teststat/BinnedNLLH.cpp: Evaluate"]}
{"id": "C32", "title": "Barlow-Beeston scale is the physical root", "statement": "The MC-statistics scale factor beta used in Evaluate solves beta^2 + (mu*sigma^2 - 1) beta - n sigma^2 = 0, is non-negative for n >= 0, and equals 1 when n = mu.", "quantifier": "every mu, sigma, n with sigma > 0", "why_tests_cant": "Real-analytic claim over a continuum.", "anchors": ["src/teststat/BinnedNLLH.cpp: BarlowBeeston section"]}
{"id": "C33", "title": "A parameter is constrained at most one way", "statement": "After any history of SetConstraint calls on a ConstraintManager, no parameter is both individually constrained and in a correlated pair, and none is in two pairs; rejected calls (LogicError) leave the state unchanged; Evaluate is the sum of all active terms and 0 with none.", "quantifier": "every history of constraint calls", "why_tests_cant": "Invariant over histories including rejected calls.", "anchors": ["src/constraint/ConstraintManager.cpp"]}
{"id": "C34", "title": "Constraint penalties are non-negative and vanish at the nominal values", "statement": "Quadratic, asymmetric quadratic, ratio, fractional and correlated bivariate constraints evaluate to a non-negative penalty which is zero at the nominal value(s); the asymmetric one uses the upper width above the mean and the lower width below; with zero correlation the bivariate penalty is the sum of two quadratic ones. Invalid parameters are rejected at construction.", "quantifier": "every mean, width, correlation and value", "why_tests_cant": "Continuum of arguments, including |correlation| >= 1.", "anchors": ["src/constraint/QuadraticConstraint.h", "src/constraint/BivariateQuadraticConstraint.h", "src/constraint/RatioConstraint.h", "src/constraint/FractionalConstraint.h"]}
{"id": "C35", "title": "Interpolated constraints reproduce the table and never overshoot", "statement": "ShapeInterpConstraint on an n-D grid of bin centres returns the tabulated value at every centre and otherwise a value between the minimum and maximum of the surrounding lattice points, for points inside the outermost centres; outside it must not read other bins.", "quantifier": "every grid and every point", "why_tests_cant": "All dimensions and the half-bin border.", "anchors": ["src/constraint/ShapeInterpConstraint.cpp", "src/histogram/Histogram.cpp: GetLatticePointValues"]}
{"id": "C36", "title": "A statistic sum is the sum of its parts", "statement": "StatisticSum::Evaluate equals the sum of the components' Evaluate plus its own constraints, SetParameters reaches each component, and nested sums flatten.", "quantifier": "every list of statistics", "why_tests_cant": "All lists.", "anchors": ["src/teststat/StatisticSum.cpp"]}
{"id": "C37", "title": "Drawing without replacement never repeats an event", "statement": "DataSetGenerator random draws without replacement from a data set return pairwise distinct events across any sequence of calls since the last Reset, as long as enough events remain; asking for more than remain throws.", "quantifier": "every data set size, random stream and call history", "why_tests_cant": "Quantifies over random streams and histories.", "anchors": ["src/data/DataSetGenerator.cpp: RandomDrawsNoReplacement"]}
{"id": "C38", "title": "Sequential drawing enumerates events without repeats", "statement": "SequentialDrawsNoReplacement over the whole data set returns every event exactly once.", "quantifier": "every data set size and draw count", "why_tests_cant": "An off-by-one visible only at particular sizes.", "anchors": ["src/data/DataSetGenerator.cpp: SequentialDrawsNoReplacement"]}
{"id": "C39", "title": "Drawn plus remaining events partition the data set", "statement": "After any draws without replacement, AllRemainingEvents returns exactly the events not drawn so far, and reports how many.", "quantifier": "every data set size and history", "why_tests_cant": "Histories and random streams.", "anchors": ["src/data/DataSetGenerator.cpp: AllRemainingEvents"]}
{"id": "C40", "title": "Concatenating data sets appends the events", "statement": "For OXSXDataSet a and b, a + b holds a's events followed by b's and terminates, including for a + a.", "quantifier": "every pair of data sets", "why_tests_cant": "Non-termination on aliasing arguments.", "anchors": ["src/data/OXSXDataSet.cpp: operator+"]}
{"id": "C41", "title": "Name lists survive the file format", "statement": "Unpacking a flattened name list returns the original list for every non-empty list of names without the delimiter, and distinct lists give distinct strings.", "quantifier": "every list of names", "why_tests_cant": "All strings.", "anchors": ["src/data/IO.cpp: FlattenStringVector, UnpackString"]}
{"id": "C42", "title": "Saved data sets are written completely, each event once", "statement": "SaveDataSet writes slabs that partition the event range: every event of the data set appears exactly once and in order, for every data set size and number of observables, and saving then loading returns the same events.", "quantifier": "every number of events and observables", "why_tests_cant": "Depends on divisibility and thresholds far above test sizes.", "anchors": ["src/data/IO.cpp: SaveDataSetH5, LoadDataSet"]}
{"id": "C43", "title": "Grid search evaluates every grid point and returns the best one", "statement": "GridSearch::Optimise evaluates the statistic at every point of the grid spanned by minima, maxima and steps, and reports the smallest (largest when maximising) value found and its parameters.", "quantifier": "every number of parameters, bounds, steps and statistics", "why_tests_cant": "All dimensions and value patterns, including value 0 and the starting corner.", "anchors": ["src/optimise/GridSearch.cpp: Optimise, Increment"]}
{"id": "C44", "title": "The Markov chain never leaves the fit region", "statement": "Starting inside the minima/maxima box, every current step of MCMC stays inside it for every proposal sequence and random stream, rejected steps repeat the current point, and fixed parameters never move under Metropolis proposals.", "quantifier": "every statistic, proposal stream, uniform stream and number of iterations", "why_tests_cant": "Invariant over unbounded random histories.", "anchors": ["src/optimise/MCMC.cpp: Optimise, StepAccepted", "src/optimise/MetropolisSampler.cpp"]}
{"id": "C45", "title": "MCMC reports the best point visited", "statement": "The best fit reported by MCMC::Optimise has the largest statistic value among all points the chain visited.", "quantifier": "every statistic and random stream", "why_tests_cant": "Depends on where in the chain the maximum falls.", "anchors": ["src/optimise/MCMC.cpp: StepAccepted, Optimise"]}
{"id": "C46", "title": "Burn-in and thinning keep exactly the promised steps", "statement": "MCMCSamples records step i (counting from 0) exactly when i is past burn-in and a multiple of the thinning factor, the acceptance rate is accepted/total, and the number of recorded samples is the corresponding count.", "quantifier": "every burn-in, thinning factor and number of steps", "why_tests_cant": "Unbounded step counts.", "anchors": ["src/optimise/MCMCSamples.cpp: Fill, GetAcceptanceRate"]}
{"id": "C47", "title": "Leap-frog integration is time reversible", "statement": "Running LeapFrog::Hamiltonian for n steps, negating the momenta and running n steps again returns to the starting positions with negated starting momenta, for any gradient function; this is what makes HMC proposals valid.", "quantifier": "every gradient function, masses, step size, number of steps and starting point", "why_tests_cant": "All gradient functions and step counts.", "anchors": ["src/optimise/LeapFrog.hpp: Hamiltonian"]}
{"id": "C48", "title": "Reflective leap-frog stays inside the walls", "statement": "With minima/maxima given, the reflecting Hamiltonian integration started inside the box ends every step inside the box.", "quantifier": "every starting point in the closed box, momenta and gradient", "why_tests_cant": "Corner and exact-wall cases are measure zero and missed by random tests.", "anchors": ["src/optimise/LeapFrog.cpp: FirstIntersectionTime", "src/optimise/LeapFrog.hpp"]}
{"id": "C49", "title": "The numerical gradient is exact for quadratics", "statement": "Gradient evaluates a central difference: for any statistic that is a polynomial of degree at most two in each coordinate it returns the exact partial derivatives, for every epsilon.", "quantifier": "every quadratic statistic, point and epsilon != 0", "why_tests_cant": "Continuum of inputs.", "anchors": ["src/optimise/Gradient.hpp"]}
{"id": "C50", "title": "Bayesian upper limit has the requested coverage", "statement": "BayesIntervalCalc::UpperBound(posterior, cl) returns x such that the posterior probability below x is cl (linear interpolation inside a bin), for every 1-D histogram with positive contents and 0 < cl < 1.", "quantifier": "every posterior histogram and cl", "why_tests_cant": "All shapes and levels.", "anchors": ["src/interval/BayesIntervalCalc.cpp: UpperBound"]}
{"id": "C51", "title": "Gaussian parameters are readable and writable by name", "statement": "For an n-D Gaussian, SetParameter(name,v) followed by GetParameter(name) returns v for every parameter name, other parameters are unchanged, and RenameParameter terminates and renames every occurrence.", "quantifier": "every dimension, name and value", "why_tests_cant": "Dimensions above one and old == new.", "anchors": ["src/function/GaussianFitter.cpp"]}
{"id": "C52", "title": "Gaussian integrals are additive probabilities", "statement": "Gaussian::Integral over a box is in [0,1], is additive over a split of any one dimension's interval, is monotone under inclusion, and vanishes on empty boxes; Cdf is monotone with the cut-off.", "quantifier": "every Gaussian and every box", "why_tests_cant": "Continuum.", "anchors": ["src/function/Gaussian.cpp: Cdf, Integral"]}
{"id": "C53", "title": "Random helpers return values in their documented range", "statement": "Rand::Shoot(n) is in [0,n), UniformRange(min,max) in (min,max], and VonNeumannSample(f,xmin,xmax,ymax) returns a draw in [xmin,xmax) accepted with probability proportional to f.", "quantifier": "every argument and every random stream", "why_tests_cant": "Quantifies over random streams.", "anchors": ["src/rand/Rand.cpp"]}
{"id": "C54", "title": "Config files parse to a section/key map", "statement": "Loading a section/field from a parsed ini file returns the trimmed text after the first '=' of the line with that key under that section; comments and blank lines are ignored; duplicate keys or sections, lines without '=' and over-deep sections are errors; missing sections or fields are reported as such.", "quantifier": "every text file", "why_tests_cant": "All files.", "anchors": ["src/config/ini.hpp: Parser::parse, trim", "src/config/ConfigLoader.cpp"]}
{"id": "C55", "title": "Counting experiments count passing events", "statement": "CountingExperiment: observed counts equal the number of events that pass all cuts after all event systematics in order; expected background is the sum over backgrounds of rate times pass fraction, with error rate*sqrt(passed)/total in quadrature; signal efficiency lies in [0,1].", "quantifier": "every data set, cut list, systematic list", "why_tests_cant": "All lists.", "anchors": ["src/count/CountingExperiment.cpp", "src/count/CountingResult.cpp"]}
{"id": "C56", "title": "Event distribution probabilities are normalised products", "statement": "BinnedED::Probability of an event is its bin's content divided by the integral; CompositeED's probability is the product of its parts' and its integral the product of integrals; normalised parts give a normalised product.", "quantifier": "every distribution and event", "why_tests_cant": "All nestings.", "anchors": ["src/dist/BinnedED.cpp", "src/dist/CompositeED.cpp", "src/dist/AnalyticED.cpp"]}
{"id": "C57", "title": "Asimov and Poisson toys have the requested composition", "statement": "BinnedEDGenerator::ExpectedRatesED's total is the sum of the requested rates' counts, drawn only from bins with non-zero probability; inverse-cdf bin draws pick bin b exactly for uniforms in (cdf(b-1), cdf(b)].", "quantifier": "every list of pdfs, rates and random stream", "why_tests_cant": "Quantifies over random streams.", "anchors": ["src/dist/BinnedEDGenerator.cpp"]}
{"id": "C58", "title": "Event systematics compose in order and touch one observable", "statement": "EventSystematicManager applies systematics in order of addition; EventShift adds its shift, EventScale multiplies by its factor, EventReconvolution maps to truth + c(reco-truth), each leaving every other observable unchanged; a negative or zero scale is rejected whichever setter is used.", "quantifier": "every event, systematic list and value", "why_tests_cant": "All lists and setters.", "anchors": ["src/eventSystematic/EventShift.cpp", "src/eventSystematic/EventScale.cpp", "src/eventSystematic/EventReconvolution.cpp", "src/fitutil/EventSystematicManager.cpp"]}
{"id": "C59", "title": "Filling distributions counts passing, systematically shifted events", "statement": "DistFiller::FillDist adds weight 1 per event among the requested ones that passes the cuts after event systematics and nothing else, so the integral rises by the number of passing events.", "quantifier": "every data set, cuts, systematics and event limit", "why_tests_cant": "All lists and limits.", "anchors": ["src/dist/DistFiller.cpp"]}
{"id": "C60", "title": "At most one lazy data set is loaded", "statement": "Whatever sequence of accesses is made to registered LazyOXSXDataSets, at most one has its data in memory at a time and each access returns the event of the accessed set.", "quantifier": "every access history", "why_tests_cant": "Invariant over histories.", "anchors": ["src/data/LazyOXSXDataSet.cpp"]}
{"id": "C61", "title": "Projection helpers cover all axes and pairs once", "statement": "HistTools::GetVisualisableProjections/MakeAllHists produce one histogram per axis and one per unordered pair of distinct axes; FillAllHists fills each with the matching values so every projection has the same integral; Get1DSlices returns one slice per combination of the other axes' bins.", "quantifier": "every axis collection and fill history", "why_tests_cant": "All dimensions.", "anchors": ["src/histogram/HistTools.cpp", "src/core/Combinations.hpp"]}
{"id": "C62", "title": "Minuit settings reach the minimiser", "statement": "Limits configured by SetMinima/SetMaxima apply to the parameters named, Fix/Release affect exactly the named parameters, SetUpperContourEdge is the error definition used by Optimise, mismatching dictionaries are rejected with LogicError, and maximisation minimises the negated statistic and reports its un-negated value.", "quantifier": "every configuration", "why_tests_cant": "All configurations.", "anchors": ["src/optimise/Minuit.cpp", "src/optimise/MinuitFCN.cpp"]}
{"id": "C63", "title": "Packed symmetric matrices unpack symmetrically", "statement": "DenseMatrix::SetSymmetricMatrix of n(n+1)/2 packed values gives a matrix equal to its transpose whose (j,k), k<=j, entry is packed value j(j+1)/2+k; other lengths are rejected. Applying a matrix product to a vector equals applying the factors one after the other.", "quantifier": "every size and contents", "why_tests_cant": "All sizes.", "anchors": ["src/core/DenseMatrix.cpp", "src/core/SparseMatrix.cpp"]}
{"id": "C64", "title": "Means and variances are the moments of the binned distribution", "statement": "Histogram::Means() and Variances() return, per axis, the content-weighted mean of the bin centres and the corresponding variance; for non-negative contents the variance is non-negative.", "quantifier": "every histogram with non-zero integral", "why_tests_cant": "Needs all contents and binnings, normalised or not; tests check a single normalised histogram.", "anchors": ["src/histogram/Histogram.cpp: Means, Variances"]}
{"id": "C65", "title": "A histogram given axes starts empty", "statement": "A histogram constructed on, or switched with SetAxes to, an axis collection has that binning and zero content in every bin.", "quantifier": "every axis collection and every history of the histogram before SetAxes", "why_tests_cant": "Stale contents appear only for particular histories of use.", "anchors": ["src/histogram/Histogram.cpp: Histogram::Histogram, SetAxes"]}
{"id": "C66", "title": "Events are read under their data set's names", "statement": "An event obtained from a data set answers GetDatum(name) according to that data set's current observable names, for as long as the data set lives.", "quantifier": "every history of constructing, filling, naming, copying, adding and destroying data sets", "why_tests_cant": "Events share a pointer to a name vector; which object owns it depends on the history.", "anchors": ["src/data/OXSXDataSet.cpp: AddEntry, operator+", "src/event/Event.cpp: GetDatum"]}
{"id": "C67", "title": "A data set is the list of the events added", "statement": "AddEntry appends exactly the given event (rejecting, without change, empty events and events of another dimension); GetEntry(i) returns the i-th event added and throws NotFoundError past the end.", "quantifier": "every history and every event and index", "why_tests_cant": "All histories and dimensions.", "anchors": ["src/data/OXSXDataSet.cpp: AddEntry, GetEntry"]}
{"id": "C68", "title": "No systematic acts twice on a distribution", "statement": "After any history of accepted Add and AddDist calls on a SystematicManager, the list of systematics that DistortEDs applies to a registered distribution (global group and its own groups) contains no name twice; adding a global systematic is refused only if that systematic is already in some group.", "quantifier": "all histories of Add/AddDist calls, all group assignments", "why_tests_cant": "the check depends on the order in which groups and distributions were registered; tests register in one order only", "anchors": ["src/fitutil/SystematicManager.cpp: Add, AddDist, UniqueSystematics, checkAllOtherGroups"]}
{"id": "C69", "title": "Adding a pdf leaves the parameters already set alone", "statement": "After BinnedEDManager::AddPdf, GetParameter returns the value set before for every normalisation that was already a fit parameter, and the new pdf's normalisation parameter starts at 0.", "quantifier": "every history of AddPdf/AddPdfs/SetParameter(s)/SetNormalisations calls, every status", "why_tests_cant": "The storage behind the parameters moves when the mixture of statuses changes, which depends on the history.", "anchors": ["src/fitutil/BinnedEDManager.cpp: AddPdf, RegisterParameters"]}
{"id": "C70", "title": "Monte Carlo uncertainty counts every pdf", "statement": "With Barlow-Beeston switched on, the squared relative MC uncertainty used for a bin is the sum over all added pdfs of normalisation/(generated rate * expectation^2), whatever the fitting status of each pdf.", "quantifier": "every list of rated pdfs and statuses", "why_tests_cant": "Depends on the status bookkeeping of every mixture of pdfs.", "anchors": ["src/teststat/BinnedNLLH.cpp: Evaluate", "src/fitutil/BinnedEDManager.cpp: ReassertNorms"]}
{"id": "C71", "title": "Generated data sets can contain every event", "statement": "DataSetGenerator draws with replacement return exactly the requested number of events, all from the data set, and every event of the data set is drawn for some random number; AllValidEvents returns every event of every data set.", "quantifier": "every data set size, random stream and call history", "why_tests_cant": "Which events can ever be drawn is a statement about all random streams.", "anchors": ["src/data/DataSetGenerator.cpp: RandomDrawsWithReplacement, AllValidEvents", "src/rand/Rand.cpp: Shoot"]}
{"id": "C72", "title": "Histograms survive the file format", "statement": "Saving a histogram to HDF5 and loading it returns the same histogram: same axes (names, latex names, edges, centres, widths), same contents.", "quantifier": "every histogram with at least one axis, built by any sequence of calls, equal or variable bins", "why_tests_cant": "All axes, contents and names; depends on string lengths and on how axes are rebuilt.", "anchors": ["src/data/IO.cpp: SaveHistogramH5, LoadHistogram"]}
{"id": "C73", "title": "The file extension selects the format", "statement": "Saving a data set or histogram uses HDF5 for .h5, ROOT for .root (1-2 dimensional histograms only) and raises IOError, writing nothing, for every other extension or no extension; the extension is what follows the last dot.", "quantifier": "every path", "why_tests_cant": "All strings.", "anchors": ["src/data/IO.cpp: GetExt, SaveDataSet, SaveHistogram"]}
{"id": "C74", "title": "MCMC accepts a proposal with the Metropolis probability", "statement": "A proposal outside the fit region is refused; inside it, with a uniform number u<1, MCMC accepts exactly when u <= min(1, r), r the ratio of the proposed to the current value (or exp of the difference plus the sampler's correction for a logged statistic), moving to the proposal with its value, and the acceptance thresholds of a forward and backward move between positive values satisfy detailed balance.", "quantifier": "every statistic, current state, proposal and uniform number", "why_tests_cant": "The rule must hold for every state and random number, not a statistical sample.", "anchors": ["src/optimise/MCMC.cpp: StepAccepted"]}
{"id": "C75", "title": "The auto-correlation estimate is the windowed lagged covariance ratio", "statement": "After any history of recorded values, AutoCorrelationCalc::Get gives one number per lag: the sum over the history of (newest-mean)(value i back - mean) divided by the sum of (newest-mean)^2, means over a sliding window of the queue length; lag zero is exactly one.", "quantifier": "every queue length and history of values", "why_tests_cant": "Unbounded histories; the window slides.", "anchors": ["src/optimise/AutoCorrelationCalc.cpp: Fill, Get, Mean"]}
{"id": "C76", "title": "Soft walls push outwards points up and leave inside points almost alone", "statement": "With SigmoidBoundary around an energy, the reported energy is never below the original one; at a point outside the walls it is at least the original plus mu times the total distance outside, and inside the walls it exceeds the original by at most log 2 per wall. Without walls it is the original energy, and a failing energy evaluation stays a failure.", "quantifier": "every energy function, wall maps, mu >= 0 and point", "why_tests_cant": "Continuum of points, all wall maps.", "anchors": ["src/optimise/SigmoidBoundary.hpp: Evaluate, SetParameters"]}
{"id": "C77", "title": "The counting upper limit search ends and is accurate to the tolerance", "statement": "BayesIntervalCalc::UpperBound(expected, observed, cl, tolerance) ends for every expected background >= 0, observed count, tolerance > 0 and level 0 <= cl < 1, and returns the first multiple of the tolerance at which the flat-prior Poisson posterior probability (what OneSidedUpperInterval reports, a number in [0,1)) is within the tolerance of cl; the answer never covers more than cl when cl exceeds the tolerance.", "quantifier": "every background, count, level in [0,1) and tolerance > 0", "why_tests_cant": "Termination and accuracy over a continuum of arguments.", "anchors": ["src/interval/BayesIntervalCalc.cpp: UpperBound, OneSidedUpperInterval"]}
{"id": "C78", "title": "Conditional pdfs depend on the displacement and do not remember", "statement": "JumpPDF's integral over [mins,maxs] given x2 is its Gaussian's integral over the box moved by -x2, so it is unchanged when everything is translated and lies in [0,1]; VaryingCDF evaluates its kernel with exactly the parameters its functions give at x2, other parameters untouched, and one evaluation never influences a later one.", "quantifier": "every Gaussian, box, conditioning point and set of parameter functions", "why_tests_cant": "translation invariance and history independence range over all points and all sequences of evaluations", "anchors": ["src/function/JumpPDF.cpp", "src/function/VaryingCDF.cpp"]}
{"id": "C79", "title": "Copies of fit results are faithful", "statement": "A FitResult copied by construction or assigned from another reports the same best fit, extreme value, validity, covariance and statistic space as the original, and GetStatSpace returns the space last set.", "quantifier": "every pair of fit results, with or without a statistic space", "why_tests_cant": "The outcome depends on whether source and target each carry a space; a test usually tries one combination.", "anchors": ["src/optimise/FitResult.cpp: operator=, copy constructor, SetStatSpace, GetStatSpace"]}
{"id": "C80", "title": "Histogramming an analytic PDF", "statement": "DistTools::ToHist(pdf, axes) returns a histogram on exactly the given axes whose every bin content is the pdf's Integral over that bin's box; it throws DimensionError if the pdf and the axes differ in dimension. On contiguous axes the total equals the integral over the whole range, so no probability is lost or counted twice; for a Gaussian with positive widths all contents are non-negative and the total is at most 1.", "quantifier": "every axis collection of any number of axes and bins, every pdf integral", "why_tests_cant": "The equality of the sum over all bins and the integral over the range must hold for every binning and number of dimensions; a test fixes one.", "anchors": ["src/dist/DistTools.cpp: ToHist(const PDF&, const AxisCollection&)", "src/function/Gaussian.cpp: Integral"]}
{"id": "C81", "title": "Conversion to ROOT histograms keeps every bin", "statement": "ToTH1D, ToTH2D and ToTH3D throw DimensionError unless the histogram has 1, 2 or 3 dimensions; otherwise the ROOT histogram has the same bin edges, the latex names as axis titles, every bin's content in the corresponding ROOT bin and nothing in any other bin, under- and overflow included. With width correction ToTH1D stores content divided by bin width.", "quantifier": "every histogram with touching bins of positive width, every bin", "why_tests_cant": "Contents are moved by filling at bin centres: that each lands in its own bin must hold for every binning.", "anchors": ["src/dist/DistTools.cpp: ToTH1D, ToTH2D, ToTH3D"]}
{"id": "C82", "title": "Conversion from ROOT histograms", "statement": "ToHist of a TH1D, TH2D or TH3D returns a histogram with one axis per ROOT axis, named by its title, with the same bin edges, and the content of every ROOT bin in the corresponding bin; under- and overflow are dropped. Converting a histogram to ROOT and back gives the same binning and contents.", "quantifier": "every ROOT histogram of 1 to 3 dimensions and every histogram", "why_tests_cant": "Binnings and titles are unbounded; tests use equally spaced bins with distinct titles.", "anchors": ["src/dist/DistTools.cpp: ToHist(const TH1D&), ToHist(const TH2D&), ToHist(const TH3D&)"]}
{"id": "C83", "title": "The un-normalised sum of distributions weights each with its own normalisation", "statement": "An EDManager's Probability of an event is the sum over the distributions added, in order, of normalisation times the distribution's probability. Adding keeps the normalisations already set and starts the new one at 0; a distribution with another number of dimensions is refused with DimensionError and leaves the manager unchanged, and adding a list keeps those before the first misfit. SetNormalisations of the wrong length throws DimensionError and changes nothing. The fit parameters are the normalisations, one per distribution and named after it; setting one changes that normalisation only. (False when two distributions share a name, after a parameter was renamed and another distribution added, and for a composite given its own name.)", "quantifier": "all sequences of AddDist, AddDists, SetNormalisations, SetParameter(s), RenameParameter, all events and all distributions nested to any depth", "why_tests_cant": "call sequences, names and distributions are unbounded", "anchors": ["src/fitutil/EDManager.cpp:EDManager::AddDist", "src/fitutil/EDManager.cpp:EDManager::Probability", "src/fitutil/EDManager.cpp:EDManager::RegisterParameters"]}
{"id": "C84", "title": "An event convolution moves each event by its own draw from the kernel", "statement": "Applied to events one after the other, an EventConvolution adds to the event's first output observable one draw of the kernel, with the kernel's parameters evaluated at that event's own values, and leaves every other observable unchanged; what earlier events were does not matter. No kernel: NULLPointerAccessError; no output observable: std::out_of_range; an event lacking one: NotFoundError. SetPDF copies the pdf, refuses one that is not one-dimensional with DimensionError and then changes nothing. A copy draws as the original does. (False: SetConditionalPDF accepts kernels of any dimension, the input observables are never read, and a copy loses its name.)", "quantifier": "all sequences of events, all kernels with or without dependences, all random draws", "why_tests_cant": "event sequences, kernels and random draws are unbounded", "anchors": ["src/eventSystematic/EventConvolution.cpp:EventConvolution::operator()", "src/eventSystematic/EventConvolution.cpp:EventConvolution::SetPDF", "src/function/JumpPDF.cpp:JumpPDF::Sample", "src/function/VaryingCDF.cpp:VaryingCDF::Sample", "src/function/Gaussian.cpp:Gaussian::Sample"]}
{"id": "C85", "title": "A varying kernel passes its fit parameters to its dependences", "statement": "The fit parameters of a VaryingCDF are those of the functions set with SetDependance. SetParameters sets every one of them and GetParameters then returns exactly those values; a missing one throws ParameterError. Setting or renaming one parameter changes that one only. (False with two functions of different parameter names: SetParameter, GetParameter and RenameParameter throw ParameterError for a name that exists. The count counts a shared name twice. Copies share the function objects, so that setting a parameter of the copy sets the original's, and destroying both is undefined.)", "quantifier": "all sequences of SetDependance and all parameter names and values", "why_tests_cant": "numbers of functions, names and values are unbounded", "anchors": ["src/function/VaryingCDF.cpp:VaryingCDF::SetParameter", "src/function/VaryingCDF.cpp:VaryingCDF::SetParameters", "src/function/VaryingCDF.cpp:VaryingCDF::VaryingCDF", "src/function/SquareRootScale.cpp:SquareRootScale::SetParameter"]}
{"id": "C86", "title": "The Gaussian density is the product of normal densities", "statement": "Evaluating a Gaussian with positive widths at a point gives the product over its dimensions of the normal density with that dimension's mean and standard deviation: positive, decreasing with the distance from the mean in any dimension, equal for points at equal distances, and greatest at the mean only. A point of the wrong dimension throws DimensionError; a zero width gives no finite value. A JumpPDF's density depends on the difference of the points only; a VaryingCDF's uses the parameters its dependences give at the second point, whatever was asked before. SquareRootScale is its gradient times the square root of the absolute first value.", "quantifier": "all Gaussians of any dimension, points, kernels, dependences and histories of evaluations", "why_tests_cant": "dimensions, points and parameters range over infinite sets", "anchors": ["src/function/Gaussian.cpp:Gaussian::operator()", "src/function/JumpPDF.cpp:JumpPDF::ConditionalProbability", "src/function/VaryingCDF.cpp:VaryingCDF::ConditionalProbability", "src/function/SquareRootScale.cpp:SquareRootScale::operator()"]}
{"id": "C87", "title": "Data sets read from ROOT files give the stored rows", "statement": "Opening an ntuple or tree that exists gives a data set with as many entries as the tree; its observables are the branches in order, and entry i has for each branch the value stored in row i. An index past the end throws NotFoundError. A missing or unreadable file, a missing object and one of the wrong type throw IOError. (False for a ROOTTree whose leaves are not called like their branches: undefined behaviour or another branch's values; and for 2^32 entries or more.)", "quantifier": "all files, trees, numbers of branches and entries, and indices", "why_tests_cant": "file contents and indices are unbounded", "anchors": ["src/data/ROOTNtuple.cpp:ROOTNtuple::ROOTNtuple", "src/data/ROOTNtuple.cpp:ROOTNtuple::Assemble", "src/data/ROOTTree.cpp:ROOTTree::Assemble", "src/data/ROOTTree.cpp:ROOTTree::GatherObservableNames"]}
{"id": "C88", "title": "Binned distributions combine, project and slice consistently with the events they describe", "statement": "For every binned distribution and event: FindBin(event) gives the row-major bin of the cell the event's observables fall into, RepresentationError when the number of observables differs from the number of axes and NotFoundError when the event lacks one; Add, Multiply and Divide act bin by bin, keep name, observables and binning, and reject a different binning with ValueError and no change; AddPadding replaces exactly the zero bins; Marginalise returns a distribution with the same total in which the event falls into the projected cell, with probability the sum over the integrated-out axes; GetSlice at the event's own fixed bins gives the event its own bin's content.", "quantifier": "all histograms reachable through the public interface with any number of axes, all events, all lists of axis names, all fixed bins, all weights", "why_tests_cant": "A test compares a few bins of one 2-d example; that the projection of a distribution and the projection of a cell agree must hold for every shape, axis order and event.", "anchors": ["src/dist/BinnedED.cpp", "src/histogram/Histogram.cpp", "BinnedED::FindBin", "BinnedED::Marginalise", "BinnedED::GetSlice", "BinnedED::Add"]}
{"id": "C89", "title": "The binned likelihood with systematics is the Poisson likelihood of the distorted expectation at the parameters last set", "statement": "After any sequence of AddSystematic, AddPdf, SetDataDist, SetConstraint, RegisterFitComponents, SetParameters and Evaluate calls (including refused ones), SetParameters hands every pdf normalisation and every parameter of every systematic its value; each later Evaluate, however often it is repeated, equals the sum over bins of the Poisson term for the data against the expectation in which each pdf has first been acted on by the response matrices of the systematics of its groups (global group first, then in listed order) built at those parameter values, plus the constraints; if a bin expects exactly nothing Evaluate throws; GetParameters returns the values set.", "quantifier": "every history of calls without buffers or Barlow-Beeston, every systematic, group layout, pdf, data distribution and parameter dictionary", "why_tests_cant": "a finite test fixes one group layout, one order of calls and one parameter point, while state is carried over in the pdf manager, the cached response matrices and the component manager between calls", "anchors": ["src/teststat/BinnedNLLH.cpp: BinnedNLLH::Evaluate, AddSystematic, AddPdf, RegisterFitComponents, SetParameters, GetParameters", "src/systematic/SystematicManager.cpp: DistortEDs, Construct, GetSystematicsNamesInGroup", "src/fitutil/BinnedEDManager.cpp: ApplySystematics, BinProbability", "src/fitutil/ComponentManager.cpp"]}
{"id": "C90", "title": "A configured binned likelihood is a function of its parameters", "statement": "Once pdfs, data, systematics and constraints are in place and the fit components are registered, SetParameters(d) followed by any number of Evaluate calls has one outcome (a value, an error, or not a number) and one GetParameters result that depend on d only: no earlier SetParameters (accepted or refused), Evaluate, SetNormalisations or RegisterFitComponents call changes it.  The outcome for every expectation is given: an error when some bin expects exactly nothing, otherwise the failure of the constraints, otherwise not a number when some expectation is negative, otherwise the Poisson sum plus constraints.", "quantifier": "every configuration history, every sequence of tuning calls in between, every parameter dictionary and number of repetitions", "why_tests_cant": "optimisers call the statistic millions of times; a test compares a handful of points while working pdfs, response caches, normalisation vectors and parameter tables are all mutated by each call", "anchors": ["src/teststat/BinnedNLLH.cpp: Evaluate, SetParameters, GetParameters, RegisterFitComponents, SetNormalisations", "src/fitutil/BinnedEDManager.cpp: ReassertNorms, ApplySystematics, BinProbability", "src/systematic/SystematicManager.cpp: Construct, DistortEDs"]}
{"id": "C91", "title": "Configuring a statistic in bulk is the same as configuring it one call at a time", "statement": "AddPdfs (in its four forms) leaves the statistic, and answers, exactly as the calls AddPdf(pdf i, groups i, rate i, status i) made in order and stopped at the first one that is refused; AddSystematics likewise for AddSystematic.  Lists whose lengths do not match are refused with DimensionError and nothing changes.", "quantifier": "every statistic state, every list of pdfs, groups, rates, statuses and systematics, matching or not, including calls that fail half way", "why_tests_cant": "the equivalence is between two call sequences on an arbitrary state and over lists of any length; tests compare one configuration", "anchors": ["src/teststat/BinnedNLLH.cpp: AddPdfs", "src/teststat/TestStatistic.cpp: AddSystematics"]}
{"id": "C92", "title": "A pdf manager handed to a statistic with SetPdfManager is used as it is", "statement": "After SetPdfManager(m) the statistic's expectation for every bin and event and its normalisations are those of m, and the fit parameters of m are parameters of the statistic.", "quantifier": "every statistic state and every pdf manager, however they were built", "why_tests_cant": "assignment of managers that hold pointers into themselves goes wrong only for particular histories of source and target", "anchors": ["src/teststat/BinnedNLLH.cpp: SetPdfManager", "src/fitutil/BinnedEDManager.h: BinnedEDManager", "src/fitutil/ParameterManager.h: operator="]}
{"id": "C93", "title": "Objects that hold other objects through pointers behave like values", "statement": "A copy or clone of a JumpPDF, AnalyticED, CompositeED, EventConvolution, CutCollection, FitResult, VaryingCDF, Convolution or EDManager is equal to and independent of its original: setting parameters on, giving new parts to, assigning or destroying one leaves every other unchanged and usable, an assignment makes the target equal to the source, and when all are destroyed everything is freed exactly once.", "quantifier": "every program, of any length, that makes, copies, clones, assigns, combines, sets parameters on and destroys such objects, nested to any depth", "why_tests_cant": "whether two objects secretly share a part, or a part is freed twice, depends on the whole history of copies and assignments", "anchors": ["src/dist/AnalyticED.cpp: AnalyticED, Clone", "src/dist/CompositeED.cpp: CompositeED, Clone, ~CompositeED", "src/fitutil/EDManager.cpp: AddDist, ~EDManager", "src/function/JumpPDF.cpp: JumpPDF, operator=, Clone", "src/function/VaryingCDF.cpp: VaryingCDF, operator=, SetKernel, SetDependance", "src/systematic/Convolution.cpp: SetFunction, SetConditionalPDF, ~Convolution", "src/eventSystematic/EventConvolution.cpp: operator=, SetPDF", "src/cut/CutCollection.cpp: operator=, AddCut", "src/optimise/FitResult.cpp: operator=, SetStatSpace"]}
{"id": "C94", "title": "A copy of a statistic evaluates to the same value and can be fitted independently", "statement": "Copying a BinnedNLLH gives a statistic that evaluates to the same value and reports the same parameters as the original; evaluating either one leaves the value of the other unchanged; and setting parameters, registering components or destroying one of them has no effect on the other.", "quantifier": "every sequence of calls building the original, every parameter set, every order of evaluating, setting, registering and destroying", "why_tests_cant": "A test copies one statistic and compares one value; whether parameter pointers of the copy still refer to the original shows only after particular later calls (setting, registering, destroying the original).", "anchors": ["src/teststat/BinnedNLLH.h: BinnedNLLH", "src/teststat/TestStatistic.h: TestStatistic", "src/core/ComponentManager.h: ComponentManager", "src/core/ParameterManager.h: ParameterManager(const ParameterManager&)", "src/fitutil/BinnedEDManager.h: BinnedEDManager"]}
{"id": "C95", "title": "A grid search over a live likelihood reports the visited point with the smallest value", "statement": "Optimise of a grid search over a configured binned likelihood registers and reads the parameters, visits each of its points once in an order that does not depend on the statistic, gives each point exactly the value a freshly configured statistic has there (nothing carries over from earlier points, earlier fits or evaluations) and reports a visited point with the smallest value together with that value; afterwards the statistic should sit at the reported point.", "quantifier": "every configuration of pdfs, systematics in groups, data, constraints and earlier calls; every grid with an even number of parameters; every number of points", "why_tests_cant": "the value at a point depends on the whole history of points before it; a test sees one grid and one configuration", "anchors": ["src/optimise/GridSearch.cpp: Optimise", "src/teststat/BinnedNLLH.cpp: Evaluate, SetParameters, RegisterFitComponents"]}
{"id": "C96", "title": "Fitting data that equal the expectation gives back the parameters", "statement": "When the data of a binned likelihood are its expectation at some parameters and the constraints are no better elsewhere, the likelihood is smallest at those parameters; with linearly independent pdfs and no systematics it is as small nowhere else; and a grid search that includes those parameters reports them.", "quantifier": "every configuration of pdfs, systematics, constraints and earlier calls; every set of true parameters with positive expectations; every alternative parameter set; every even-dimensional grid", "why_tests_cant": "a closure test checks one pseudo-experiment with one optimiser run, not that no other parameter set does as well", "anchors": ["src/teststat/BinnedNLLH.cpp: Evaluate, SetParameters", "src/optimise/GridSearch.cpp: Optimise", "src/fitutil/BinnedEDManager.cpp: BinProbability"]}
{"id": "C97", "title": "No program can tell a configured likelihood from a function of its parameters", "statement": "An optimiser, sampler or user loop that sets parameters, reads them back and evaluates a configured binned likelihood any number of times, with any other fit calls in between (registering, setting any parameters or normalisations, failed calls) and deciding every step by what it has seen, ends with the same answer as if GetParameters and Evaluate were fixed functions of the parameters set last.", "quantifier": "every configuration of pdfs, systematics, data and constraints without buffers and Barlow-Beeston; every adaptive program of any length", "why_tests_cant": "tests run a few fixed call sequences; the property is about every adaptive sequence of calls", "anchors": ["src/teststat/BinnedNLLH.cpp: Evaluate, SetParameters, GetParameters", "src/optimise/GridSearch.cpp: Optimise", "src/optimise/Minuit.cpp: Optimise", "src/optimise/MetropolisSampler.cpp"]}
{"id": "C98", "title": "Buffers act on the distorted pdfs, every time", "statement": "A binned likelihood with systematics and buffer bins: systematics act on the whole pdf, and only then are its buffer bins dropped (or, with buffers used as overflow, added to the nearest kept bin); a DIRECT pdf is normalised again over the kept bins. The data lose their buffers once. The value after SetParameters is the Poisson sum over the kept bins for this expectation, however often and at whatever parameters the statistic was evaluated before.", "quantifier": "every order of setting up, every buffer sizes smaller than the axes, every later history of parameters, registrations and evaluations, every number of repeated evaluations", "why_tests_cant": "buffer trimming happens at the first evaluation and again in every later one; a test sees a few evaluations of one configuration, while drift or double trimming depends on the history", "anchors": ["src/teststat/BinnedNLLH.cpp: Evaluate, SetBuffer, SetBufferAsOverflow", "src/fitutil/BinnedEDManager.cpp: ApplyShrink, Normalise", "src/fitutil/SystematicManager.cpp: DistortEDs", "src/dist/BinnedEDShrinker.cpp: ShrinkDist"]}
{"id": "C99", "title": "Data with fewer observables than the pdfs: the likelihood compares them with the projected pdfs, every time", "statement": "A binned likelihood whose pdfs have several observables and whose data distribution is binned in only some of them (or in another order) evaluates to the Poisson sum over the bins of the data, the expectation of a bin being the sum over the pdfs of normalisation times the content of that bin of the pdf projected on the observables of the data; systematics act on the whole pdf before it is projected; evaluating again, or after other parameter values were tried, gives the same value. This also holds when buffers are set.", "quantifier": "all pdfs (any number, dimensions and contents), data over any subset of their axes in any order, systematics and groups, orders of the setting-up calls, later histories of parameter changes and evaluations, parameter values and numbers of repeated evaluations", "why_tests_cant": "the projection replaces the working pdfs inside the evaluation, so whether a second evaluation projects again, projects the already projected pdf, or lets a matrix act on a pdf of the wrong size depends on the whole history of calls and cannot be settled by evaluating a few examples", "anchors": ["src/teststat/BinnedNLLH.cpp: Evaluate", "src/fitutil/BinnedEDManager.cpp: AssertDimensions, ApplySystematics, ApplyShrink", "src/dist/BinnedED.cpp: Marginalise"]}
{"id": "C100", "title": "Axes built with double arithmetic still have no gaps", "statement": "With every operation rounded to double, an equal-width axis starts exactly at its minimum, its bins leave no gaps and do not overlap, each bin contains its centre, FindBin returns the one bin containing a value (or the first or last bin), and each edge is within four roundings of its exact position.  (The last edge need not equal the maximum and bins can be empty.)", "quantifier": "every monotone rounding that keeps 0 and the whole numbers up to the number of bins (IEEE round-to-nearest double in particular), every range, number of bins and value, without overflow", "why_tests_cant": "rounding errors depend on the particular range and number of bins; tests compare a handful of edges with tolerances", "anchors": ["src/histogram/BinAxis.cpp:BinAxis,FindBin"]}
{"id": "C101", "title": "Counting events in doubles is exact below 2^53", "statement": "Filling a histogram with whole-number weights and integrating it gives exactly the mathematical counts as long as the total does not exceed 2^53.  (Beyond that, filling single events changes nothing.)", "quantifier": "every histogram with whole contents, every sequence of fills with whole weights, total at most 2^53", "why_tests_cant": "needs every history of fills; totals near 2^53 cannot be reached in a test", "anchors": ["src/histogram/Histogram.cpp:Fill,Integral"]}
{"id": "C102", "title": "Rounding error of Integral and Normalise", "statement": "For nonnegative contents the computed integral is within a factor (1-u)^n..(1+u)^n of the true sum, where n is the number of bins and u the relative error of one operation, and after Normalise the integral is within the corresponding factors of 1 and every bin of its exact share.  (The integral after Normalise need not be exactly 1.)", "quantifier": "every histogram with nonnegative contents, every rounding with relative error at most u < 1 per operation (2^-53 for double without underflow)", "why_tests_cant": "a bound over all contents and sizes; tests check closeness for a few", "anchors": ["src/histogram/Histogram.cpp:Integral,Normalise"]}
{"id": "C103", "title": "Grid search in double arithmetic", "statement": "If the minimum, maximum and step of every parameter are multiples of a power of two with at most 53 bits, the grid search in doubles evaluates the same points in the same order and reports the same result as with exact arithmetic.  (Otherwise the end point can be missed, and a step below the spacing of the doubles makes the search run forever.)", "quantifier": "every well formed grid with such settings, every statistic", "why_tests_cant": "accumulated rounding depends on the settings; non-termination cannot be observed by a test", "anchors": ["src/optimise/GridSearch.cpp:Optimise,Increment"]}
{"id": "C104", "title": "Bin numbers in 64-bit arithmetic", "statement": "As long as the product of the numbers of bins of the axes is below 2^64, the number of bins, index flattening, unflattening and bin search of an axis collection, computed with wrapping 64-bit unsigned integers, are the exact row-major ones.  (AddAxis does not check the product: beyond 2^64 different cells share a bin number and the number of bins is wrong.)", "quantifier": "every axis collection built through the interface, all indices and all values", "why_tests_cant": "overflow needs collections too large to test", "anchors": ["src/histogram/AxisCollection.cpp:CountBins,FlattenIndices,UnflattenIndex,UnpackIndices,FindBin,AddAxis"]}
{"id": "C105", "title": "Numbers in configuration files", "statement": "Loading a field into a signed integer gives the whole number its text starts with (after white space), into a double the correctly rounded value of the decimal number it starts with; if the text does not start with a number, or the number does not fit the type, a ValueError is thrown and the variable keeps its value.  Every representable number can be written so that it is read back.  (Text after the number is ignored without an error, and a negative number loaded into an unsigned type wraps around.)", "quantifier": "every field text, every integer type range, every rounding of strtod, every file", "why_tests_cant": "the set of texts is infinite", "anchors": ["src/config/ConfigLoader.hpp:Load,Converter::operator()"]}
{"id": "C106", "title": "Barlow-Beeston together with systematics", "statement": "With Barlow-Beeston on and systematics present, every evaluation, however often repeated and whatever was done before, is the sum over bins of the Poisson term at beta*mu plus (beta-1)^2/(2 sigma^2), where mu is the expectation after the systematics of each pdf have acted, sigma^2 adds N/(G mu^2) over the pdfs (N fitted events, G generated events) and beta is the largest root of the Barlow-Beeston equation; a systematic whose response is the identity changes nothing.", "quantifier": "every history of calls without buffers, every systematics (any number, groups, response matrices), pdfs, data and parameter values with mu sigma^2 < 1", "why_tests_cant": "the value depends on all systematics, pdfs, data and the history of calls; tests evaluate one configuration without systematics", "anchors": ["src/teststat/BinnedNLLH.cpp: Evaluate, AddPdf", "src/fitutil/BinnedEDManager.cpp: ApplySystematics, GetNormalisations", "src/fitutil/SystematicManager.cpp: DistortEDs"]}
{"id": "C107", "title": "The order of configuration calls does not matter", "statement": "Exchanging the calls that configure a BinnedNLLH (AddPdf of differently named pdfs, SetDataDist, SetConstraint, AddSystematic, RegisterFitComponents ...) any number of times, as long as pdfs with normalisations fitted directly are added before those fitted indirectly, leaves every later program using the statistic with the same answers. Adding an indirectly fitted pdf before a directly fitted one breaks this: a finite likelihood becomes an exception.", "quantifier": "all configurations, all sequences of exchanges, all programs that afterwards set parameters, read them back and evaluate", "why_tests_cant": "a test tries a few orders of a few calls with one fixed use afterwards", "anchors": ["src/teststat/BinnedNLLH.cpp:AddPdf", "src/fitutil/BinnedEDManager.cpp:AddPdf", "src/fitutil/BinnedEDManager.cpp:ReassertNorms", "src/fitutil/SystematicManager.cpp:AddDist"]}
{"id": "C108", "title": "Data given as events are the data given as their histogram", "statement": "SetDataSet with SetCuts, after any calls whatever, is the same as SetDataDist with the histogram that counts, on the axes of the first pdf, the events passing the cuts: no program that makes any other calls can tell them apart. So the order of the events, the order of the cuts and repeated cuts do not matter. But cuts set after the first answer are ignored until a new data set is given.", "quantifier": "all histories, all event lists below 2^31 events, all lists of cuts, all programs not replacing data or cuts", "why_tests_cant": "a test compares one value for one data set", "anchors": ["src/teststat/BinnedNLLH.cpp:BinData", "src/teststat/BinnedNLLH.cpp:SetDataSet", "src/teststat/BinnedNLLH.cpp:SetCuts", "src/fitutil/DistFiller.cpp:FillDist"]}
{"id": "C109", "title": "The report of a counting experiment shows each data set's own account", "statement": "After the counting calls, CountingResult::AsString lists, for every background, the signal and the data, one line per cut in order: the cut's name, the number of events it is the first to reject, the number left after it, and both as percentages of the events of that data set. The summary lists every background with its own expected rate, by decreasing rate, the total, the signal efficiency and the observed count. But if two backgrounds have the same name both are shown with the error of the last; a file that cannot be written is not reported; percentages returned by a log may be out of date.", "quantifier": "all cuts, systematics, backgrounds, signals and data, all ways std::sort may order equal rates", "why_tests_cant": "a test prints one report", "anchors": ["src/count/CountingResult.cpp: CountingResult::AsString, CountingResult::SaveAs", "src/count/CountingExperiment.cpp: CountingExperiment::CountData, CountingExperiment::CountBackgrounds, CountingExperiment::CountSignal", "src/cut/CutLog.cpp: CutLog::AsString, CutLog::SaveAs"]}
{"id": "C110", "title": "A saved chain tells every step and changes nothing else", "statement": "With SetSaveChain(true), after any history of Fill calls on a fresh MCMCSamples that succeeds without it, histograms, rates and autocorrelations are the same as without, and the tree has one row per call: the value of the statistic, whether the step was accepted, its number, and every parameter's value in the branch named after it. But the parameter buffer is a vector whose storage is only reserved, so by the standard the first Fill is undefined; switching the chain on after the first Fill is undefined everywhere; parameters whose names differ by '-' and '_' share a branch name; and AutoCorrelationCalc::Var is not the variance.", "quantifier": "all configurations, all parameter sets, all histories of Fill calls", "why_tests_cant": "a test inspects one chain, and undefined behaviour usually goes unnoticed", "anchors": ["src/optimise/MCMCSamples.cpp: MCMCSamples::InitialiseHistograms, MCMCSamples::Fill, MCMCSamples::SetSaveChain, MCMCSamples::GetChain", "src/optimise/AutoCorrelationCalc.cpp: AutoCorrelationCalc::Var"]}
{"id": "C111", "title": "The chi-squared statistic", "statement": "ChiSquare::Evaluate should give the sum over the bins of (data - expected)^2 / expected for the pdfs, systematics and data set of the object, and the object should expose the parameters of its components. Instead, because its managers shadow those of TestStatistic and no public call reaches them, after every sequence of public calls Evaluate throws std::out_of_range and changes nothing, there are no parameters, and every dictionary given to SetParameters is accepted without effect; no optimiser can evaluate a point. GetDataSet gives the data set given last to ChiSquare itself; one given through TestStatistic is kept apart.", "quantifier": "all sequences of public calls of ChiSquare and TestStatistic with any arguments", "why_tests_cant": "a test tries one sequence of calls; that no sequence works is a statement about all of them", "anchors": ["src/teststat/ChiSquare.cpp: ChiSquare::Evaluate, ChiSquare::BinData, ChiSquare::RegisterFitComponents, ChiSquare::SetParameters, ChiSquare::SetDataSet", "src/teststat/ChiSquare.h: ChiSquare", "src/teststat/TestStatistic.cpp: TestStatistic::AddSystematic, TestStatistic::SetDataSet"]}
{"id": "C112", "title": "A scale function moves each bin's content to where it takes the bin", "statement": "A constructed ScaleFunction response, for whatever function it was given, has entries that tell which part of each bin goes where: if the function keeps the order of a bin's edges, the fraction of the image inside each bin; otherwise the whole content if one bin holds both images, and nothing anywhere else. Content whose image lies inside the axis range is conserved.", "quantifier": "every function of one value, every axis collection of touching non-empty bins, every histogram on it", "why_tests_cant": "Functions and axes are arbitrary; the loop over the bins between the two images is empty when the images are reversed, which no test with a growing function shows.", "anchors": ["src/systematic/ScaleFunction.cpp: Construct, GetBinContribution"]}
{"id": "C113", "title": "A joint fit is a function of its parameters", "statement": "Summing the configured binned likelihoods of several experiments with StatisticSum, registering the sum, and then running any program on it - an optimiser, sampler or user loop that sets parameters, reads them back, evaluates any number of times, makes other calls on the sum or directly on one of the likelihoods in between, and decides every step by what it has seen - ends with the same answer as two fixed functions of the parameters set last: GetParameters is the part of them that belongs to some experiment, Evaluate is the total of what each experiment's likelihood alone evaluates to there plus the sum's constraints; one outcome that throws ends the evaluation, and one that is not finite spoils it.", "quantifier": "every number of experiments and their configurations without buffers and Barlow-Beeston, with systematics of their own; every constraint manager; every adaptive program of any length", "why_tests_cant": "tests evaluate a sum of toy statistics a few times; the property is about every adaptive sequence of calls on real likelihoods that share parameters", "anchors": ["src/teststat/StatisticSum.cpp: Evaluate, SetParameters, GetParameters, RegisterFitComponents", "src/teststat/BinnedNLLH.cpp: Evaluate, SetParameters, GetParameters, RegisterFitComponents", "src/constraint/ConstraintManager.cpp: Evaluate"]}
{"id": "C114", "title": "The systematic manager reports what was added to it", "statement": "After any history of calls, GetNSystematics is the number of systematics added without an error, GetNGroups is the number of groups they were added to counting the global one, GetNSystematicsInGroup and GetSystematicsNamesInGroup (and GetGroup) give the number and the names, oldest first, of those added to a group, and asking about a group nothing was added to throws NotFoundError.", "quantifier": "every table of systematics, every history of additions (accepted or refused), registrations, parameter changes and constructions", "why_tests_cant": "the counts are kept separately from the groups, so they must agree after every history; a test sees one history", "anchors": ["src/fitutil/SystematicManager.cpp: GetNSystematics, GetNGroups, GetNSystematicsInGroup, GetSystematicsNamesInGroup, GetGroup, Add", "src/fitutil/SystematicManager.h: fNGroups"]}
