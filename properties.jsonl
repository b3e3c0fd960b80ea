{"id": "C01", "title": "Attribute.set is all-or-nothing", "statement": "Attribute<T>::set(v) either throws domain_error and leaves the stored value, the changed flag and the listener call count exactly as they were, or makes get() return exactly v, raises changed and calls the registered listener exactly once, unless silently=true, in which case it calls it zero times.", "quantifier": "every value type with an order test, every value, every pair of limits, every listener registration and every prior history of operations", "why_tests_cant": "the space of values, limits and histories is infinite; a test only samples", "anchors": ["src/core/common/xmmAttribute.hpp: Attribute::set, Attribute::get, checkLimits", "src/core/common/xmmAttribute.cpp: checkLimits specialisations"]}
{"id": "C02", "title": "An attribute value is inside its limits", "statement": "After any history of set calls, an attribute with an ordered, NaN-free value type whose limits were not tightened below its current value holds a value v with limit_min <= v <= limit_max. The unconditional version (any history including setLimits) is false: setLimits never re-checks the stored value.", "quantifier": "every history of set / setLimitMin / setLimitMax / setLimits operations of any length", "why_tests_cant": "requires induction over arbitrary operation histories", "anchors": ["src/core/common/xmmAttribute.hpp: Attribute::set, setLimitMin, setLimitMax, setLimits"]}
{"id": "C03", "title": "Floating point attributes reject out-of-range numbers", "statement": "A float/double attribute with limits [lo,hi] never holds a value that is not in [lo,hi] after an accepted set. False for NaN: the check is `value < min || value > max`, which NaN passes.", "quantifier": "every IEEE-754 value, including NaN and infinities, and every pair of limits", "why_tests_cant": "test suites rarely enumerate special values, and the claim is over all doubles", "anchors": ["src/core/common/xmmAttribute.cpp: checkLimits<float>, checkLimits<double>"]}
{"id": "C04", "title": "Assigning an attribute does not transfer its listener", "statement": "After `a = b` on two attributes of the same type, a later a.set(v) notifies the listener that was registered on a (the documentation of operator= states the listener is not copied). False: the template operator= is never chosen for equal types, the implicit copy assignment copies callback_ and changed.", "quantifier": "every pair of attributes and listeners", "why_tests_cant": "depends on overload resolution and object identity, visible only when a listener outlives or differs from its source", "anchors": ["src/core/common/xmmAttribute.hpp: Attribute::operator=, Attribute::Attribute(Attribute const&), callback_"]}
{"id": "C05", "title": "Fixed-size vector attributes keep their size and element limits", "statement": "A vector attribute with fixed size n>0 only accepts vectors of n elements all inside the limits; at(i) returns element i exactly when i < n; after any history of accepted sets and resizes size() equals the last fixed size.", "quantifier": "every vector, size, limit pair and history", "why_tests_cant": "induction on histories of set/resize", "anchors": ["src/core/common/xmmAttribute.hpp: Attribute<std::vector<T>>::set, at, resize, size"]}
{"id": "C06", "title": "Event generator delivers each event exactly once per registered owner", "statement": "After any history of addListener/removeListener/removeListeners, notifyListeners(e) calls exactly the callbacks of the owners currently registered, each exactly once with e, and the callback kept for an owner registered several times is the first one since its last removal.", "quantifier": "every history of listener operations and every event", "why_tests_cant": "unbounded histories", "anchors": ["src/core/common/xmmEvents.hpp: EventGenerator::addListener, removeListener, removeListeners, notifyListeners"]}
{"id": "C07", "title": "Circular buffer holds exactly the most recent values", "statement": "After n pushes on a cleared buffer of length L>=1, size_t() is min(n,L), the values readable through operator()(c,i) for i<size_t() are, as a multiset, exactly the last min(n,L) pushed values (value number k sits in slot k mod L), reading any other index throws out_of_range, and no push writes out of bounds.", "quantifier": "every buffer length L>=1, every sequence of pushed values of any length, every channel count", "why_tests_cant": "wrap-around behaviour must hold for all n and L", "anchors": ["src/core/common/xmmCircularbuffer.hpp: CircularBuffer::push, operator(), size_t, clear"]}
{"id": "C08", "title": "Circular buffer mean is the mean of the window", "statement": "mean() of a non-empty buffer is the arithmetic mean of the last min(n,L) pushed values of each channel.", "quantifier": "every L>=1, every non-empty sequence of values", "why_tests_cant": "sums over arbitrary windows", "anchors": ["src/core/common/xmmCircularbuffer.hpp: CircularBuffer::mean"]}
{"id": "C09", "title": "Resizing a circular buffer keeps the most recent values", "statement": "Enlarging a buffer never loses the values it holds. False: a full buffer of length L enlarged to L'>L forgets every value at or after its write index (all of them if it was filled exactly).", "quantifier": "every buffer state and new length", "why_tests_cant": "needs a specific wrapped state", "anchors": ["src/core/common/xmmCircularbuffer.hpp: CircularBuffer::resize"]}
{"id": "C10", "title": "Matrix transpose and product are the mathematical ones", "statement": "product() returns the row-by-column product when inner dimensions agree and throws otherwise; transpose()(j,i)=m(i,j); (A*B)^T = B^T*A^T and transpose is an involution.", "quantifier": "all matrix sizes and entries (exact arithmetic)", "why_tests_cant": "universal over sizes and entries", "anchors": ["src/core/common/xmmMatrix.hpp: Matrix::product, Matrix::transpose"]}
{"id": "C11", "title": "Gauss-Jordan inversion returns a two-sided inverse", "statement": "Whenever gauss_jordan_inverse (or pinv on a square matrix) returns without throwing, result*M = M*result = I.", "quantifier": "all square matrices of all sizes (exact arithmetic)", "why_tests_cant": "algebraic identity over all matrices; numeric tests check a few", "anchors": ["src/core/common/xmmMatrix.hpp: Matrix::gauss_jordan_inverse, Matrix::pinv"]}
{"id": "C12", "title": "Inversion refuses every singular matrix", "statement": "If M has a non-zero kernel vector then gauss_jordan_inverse throws; consequently a returned inverse implies M regular.", "quantifier": "all square matrices (exact arithmetic)", "why_tests_cant": "universal over matrices", "anchors": ["src/core/common/xmmMatrix.hpp: Matrix::gauss_jordan_inverse"]}
{"id": "C13", "title": "The determinant reported by the inversion is the determinant", "statement": "The value stored through det by pinv/gauss_jordan_inverse always has the right absolute value, and equals det(M) when every leading principal minor is at least 1e-9 times the previous one (no row is then exchanged). False in general: a row exchange does not flip the sign.", "quantifier": "all invertible square matrices of all sizes (exact arithmetic)", "why_tests_cant": "needs the algebra of determinants", "anchors": ["src/core/common/xmmMatrix.hpp: Matrix::gauss_jordan_inverse, swap_lines"]}
{"id": "C14", "title": "Non-square pseudo-inverse is a one-sided inverse", "statement": "For a non-square matrix pinv() returns, when it does not throw, a left inverse if there are more rows than columns and a right inverse otherwise.", "quantifier": "all non-square matrices (exact arithmetic)", "why_tests_cant": "universal over sizes and entries", "anchors": ["src/core/common/xmmMatrix.hpp: Matrix::pinv"]}
{"id": "C15", "title": "JSON array helpers round-trip and check sizes", "statement": "json2vector(vector2json(v), w, v.size()) leaves w equal to v for every vector; an array of another size or a non-array is rejected with the documented JsonException before anything is written. The rejection is false for an expected size of 0: the float, double, bool and string readers then accept any JSON value.", "quantifier": "every vector of every length, every JSON value", "why_tests_cant": "universal over lengths and JSON values", "anchors": ["src/core/common/xmmJson.hpp: vector2json, array2json, json2array, json2vector", "src/core/common/xmmJson.cpp: json2vector, json2array specialisations"]}
{"id": "C16", "title": "A phrase records and returns exactly what was recorded", "statement": "For an own-memory phrase, after any history of record / record_input / record_output / clear / clearInput / clearOutput with any number of frames, size() is the number of complete frames, getValue(t,d) returns the d-th value of the t-th recorded frame (of its modality), every other index throws out_of_range, and no access leaves the allocated blocks (across all 256-frame reallocations).", "quantifier": "every history of recording operations of any length, every dimension and input dimension", "why_tests_cant": "unbounded recordings crossing reallocation boundaries in both modalities", "anchors": ["src/core/trainingset/xmmPhrase.cpp: Phrase::record, record_input, record_output, clear, clearInput, clearOutput, getValue, trim, reallocateLength"]}
{"id": "C17", "title": "Rejected recordings change nothing", "statement": "record/record_input/record_output with a vector of the wrong size, on a shared-memory phrase, or in the wrong modality throws and leaves every observable of the phrase unchanged.", "quantifier": "every phrase state and every argument", "why_tests_cant": "universal over states", "anchors": ["src/core/trainingset/xmmPhrase.cpp: Phrase::record, record_input, record_output"]}
{"id": "C18", "title": "A phrase says it is empty exactly when it holds no frame", "statement": "empty() == (no frame of any modality is stored), for every history of recording and clearing. Holds for bimodal phrases, and for unimodal phrases that are not cleared by modality; false for unimodal phrases after clearInput()/clearOutput().", "quantifier": "every history of operations", "why_tests_cant": "history dependent flag", "anchors": ["src/core/trainingset/xmmPhrase.cpp: Phrase::empty, clearInput, clearOutput, trim"]}
{"id": "C19", "title": "Phrase JSON round trip", "statement": "For every own-memory phrase whose modalities have equal length, fromJson(toJson(p)) gives a phrase with the same dimension, input dimension, column names, label, size and values; if the modalities have different lengths exactly the complete frames survive, and the result can be recorded into. Two exceptions: a phrase without frames comes back with indeterminate data pointers (recording into it or destroying it is undefined), and some dimension pairs that the attributes accept are refused by fromJson.", "quantifier": "every phrase contents, size and dimension", "why_tests_cant": "universal over contents", "anchors": ["src/core/trainingset/xmmPhrase.cpp: Phrase::toJson, Phrase::fromJson, Phrase::Phrase(Json::Value const&)"]}
{"id": "C20", "title": "Changing a phrase dimension erases its data consistently", "statement": "After dimension.set or dimension_input.set on an own-memory phrase, size() is 0, empty() holds, every getValue throws, and recording frames of the new size afterwards works as on a fresh phrase.", "quantifier": "every phrase state and every new dimension", "why_tests_cant": "state must be consistent after arbitrary histories", "anchors": ["src/core/trainingset/xmmPhrase.cpp: Phrase::onAttributeChange"]}
{"id": "C21", "title": "Copying a phrase gives an independent equal phrase", "statement": "The copy of an own-memory phrase has the same observable contents and later operations on one do not affect the other. Holds for phrases that allocated memory; false for all others (nothing recorded since the dimensions were last set): the copy keeps uninitialised data pointers, and recording into it or destroying it is undefined behaviour.", "quantifier": "every phrase state and every later history on either side", "why_tests_cant": "aliasing and uninitialised memory do not show in value-level tests", "anchors": ["src/core/trainingset/xmmPhrase.cpp: Phrase::Phrase(Phrase const&), Phrase::operator="]}
{"id": "C22", "title": "Phrase statistics are exact", "statement": "mean(), standardDeviation() and minmax() of a non-empty phrase return per dimension the arithmetic mean, the population standard deviation and the exact minimum and maximum of the recorded values.", "quantifier": "every phrase contents (exact arithmetic)", "why_tests_cant": "universal over data", "anchors": ["src/core/trainingset/xmmPhrase.cpp: Phrase::mean, standardDeviation, minmax"]}
{"id": "C23", "title": "Rescaling maps every value affinely", "statement": "rescale(offset,gain) replaces every value x of dimension d by (x-offset[d])*gain[d] and touches nothing else. Holds for unimodal phrases. False for bimodal phrases: the output modality is indexed with the global dimension, so wrong values (and memory out of the buffer) are rescaled.", "quantifier": "every phrase contents and every offset/gain", "why_tests_cant": "index arithmetic bug only visible for bimodal data", "anchors": ["src/core/trainingset/xmmPhrase.cpp: Phrase::rescale"]}
{"id": "C24", "title": "Training set labels and classes mirror the phrases", "statement": "After any history of addPhrase, removePhrase, removePhrasesOfClass, clear and label changes, labels() is exactly the set of labels of the stored phrases, and getPhrasesOfClass(l) contains exactly the phrases labelled l, with their indices and identities (null if none).", "quantifier": "every history of training-set operations", "why_tests_cant": "unbounded histories with listener-driven updates", "anchors": ["src/core/trainingset/xmmTrainingSet.cpp: TrainingSet::update, addPhrase, removePhrase, removePhrasesOfClass, clear, labels, getPhrasesOfClass, onPhraseEvent"]}
{"id": "C25", "title": "Copies of a training set are independent", "statement": "Assigning a training set copies the phrases, so later changes to one set or its phrases never show in the other. False for the copy constructor, which shares the phrases.", "quantifier": "every training set and later history", "why_tests_cant": "aliasing", "anchors": ["src/core/trainingset/xmmTrainingSet.cpp: TrainingSet::TrainingSet(TrainingSet const&), operator="]}
{"id": "C26", "title": "Training set JSON round trip", "statement": "fromJson(toJson(ts)) restores dimension, input dimension, column names and, index by index, every phrase of an own-memory training set.", "quantifier": "every training set contents", "why_tests_cant": "universal over contents", "anchors": ["src/core/trainingset/xmmTrainingSet.cpp: TrainingSet::toJson, fromJson, TrainingSet::TrainingSet(Json::Value const&)"]}
{"id": "C27", "title": "Training set statistics and normalisation", "statement": "mean/standardDeviation/minmax are those of the concatenation of all frames of all phrases; after normalize() of a unimodal set every non-constant dimension has mean 0 and standard deviation 1.", "quantifier": "every training set contents (exact arithmetic)", "why_tests_cant": "universal over data", "anchors": ["src/core/trainingset/xmmTrainingSet.cpp: TrainingSet::mean, standardDeviation, minmax, rescale, normalize"]}
{"id": "C28", "title": "Reducing the dimension of a bimodal training set keeps it usable", "statement": "After a bimodal training set's dimension is changed, phrases can still be added. False: dimension_input is left above its new limit, so the next addPhrase throws domain_error.", "quantifier": "every pair of old and new dimensions", "why_tests_cant": "needs a specific order of attribute changes", "anchors": ["src/core/trainingset/xmmTrainingSet.cpp: TrainingSet::onAttributeChange, update"]}
{"id": "C29", "title": "Gaussian likelihoods are positive and equal the density", "statement": "likelihood(x) is the multivariate normal density computed from the stored inverse covariance and determinant, floored at 1e-180; it is always >= 1e-180 and throws exactly when the determinant is 0.", "quantifier": "every mean, covariance, observation and dimension (exact arithmetic)", "why_tests_cant": "universal over parameters and inputs", "anchors": ["src/core/distributions/xmmGaussianDistribution.cpp: GaussianDistribution::likelihood, updateInverseCovariance"]}
{"id": "C30", "title": "Bimodal likelihood is the joint likelihood", "statement": "likelihood_bimodal(in,out) equals likelihood(in ++ out), and the input likelihood is the likelihood of the input sub-model.", "quantifier": "every bimodal Gaussian and observation", "why_tests_cant": "algebraic identity over all dimensions", "anchors": ["src/core/distributions/xmmGaussianDistribution.cpp: GaussianDistribution::likelihood_bimodal, likelihood_input"]}
{"id": "C31", "title": "Diagonal and full covariance modes agree on diagonal covariances", "statement": "For a diagonal covariance, the inverse, the determinant, every likelihood, the regression and the output covariance computed in Diagonal mode equal those of Full mode on the embedded matrix. Holds for variances of at least 1e-9; false for smaller positive variances, which Full mode refuses.", "quantifier": "every dimension and every positive diagonal (exact arithmetic)", "why_tests_cant": "must hold for every dimension", "anchors": ["src/core/distributions/xmmGaussianDistribution.cpp: GaussianDistribution::updateInverseCovariance, likelihood, onAttributeChange"]}
{"id": "C32", "title": "Gaussian regression is the conditional mean", "statement": "regression(x) returns mean_out + Cov_oi * Cov_ii^{-1} * (x - mean_in) in Full mode and mean_out in Diagonal mode, and the reported output covariance is the Schur complement.", "quantifier": "every bimodal Gaussian and input (exact arithmetic)", "why_tests_cant": "universal over parameters", "anchors": ["src/core/distributions/xmmGaussianDistribution.cpp: GaussianDistribution::regression, updateOutputCovariance"]}
{"id": "C33", "title": "Gaussian JSON round trip", "statement": "fromJson(toJson(g)) restores a Gaussian. For Full covariance it restores the mean, covariance, inverses, determinants and dimensions but not the output covariance nor the attribute limits; a Diagonal covariance with dimension > 1, or a unimodal Gaussian with a non-zero input dimension, cannot be read back (JsonValueError).", "quantifier": "every Gaussian distribution", "why_tests_cant": "mode-dependent size", "anchors": ["src/core/distributions/xmmGaussianDistribution.cpp: GaussianDistribution::toJson, GaussianDistribution::GaussianDistribution(Json::Value const&)"]}
{"id": "C34", "title": "Assigned Gaussians and shared parameters keep reacting to their own attributes", "statement": "After g1 = g2 (or fromJson), g1.dimension.set(n) reallocates g1. False: the assignment copies g2's listener, so g1 is not reallocated (and the listener dangles after fromJson).", "quantifier": "every pair of objects and later attribute change", "why_tests_cant": "object identity and lifetime", "anchors": ["src/core/distributions/xmmGaussianDistribution.cpp: GaussianDistribution::operator=, fromJson", "src/core/model/xmmModelSharedParameters.cpp: SharedParameters::operator=, fromJson"]}
{"id": "C35", "title": "Shared parameters stay consistent", "statement": "After any history of attribute changes (refused ones included) dimension >= 1, dimension >= 2 when bimodal, the EM settings are within their limits and there are no column names or exactly dimension of them. After every history in which no call throws, dimension stays above dimension_input and dimension_input is left alone while unimodal, a bimodal set has 1 <= dimension_input < dimension and a unimodal one dimension_input = 0. None of these conditions can be dropped: shrinking a bimodal set can leave dimension_input >= dimension, a unimodal set accepts a dimension_input, switching bimodal off after it was on always throws half way, and switching it on can throw half way after a redundant switch off.", "quantifier": "every history of attribute assignments", "why_tests_cant": "interaction of limits and listeners over histories", "anchors": ["src/core/model/xmmModelSharedParameters.cpp: SharedParameters::onAttributeChange"]}
{"id": "C36", "title": "EM training terminates and reports one outcome", "statement": "train() performs at most 1000 EM updates and emits a sequence of Run events (one per completed update) followed by exactly one of Done, Error or Cancel, whatever values the initialisation and the updates return or throw and whenever a cancel request arrives; afterwards isTraining() is false and the training lock is released. False for an exception raised by allocate(), which runs outside the try: the lock stays held and isTraining() stays true.", "quantifier": "every behaviour of the update step (any log-likelihood sequence incl. NaN, any exception raised by the initialisation or an update), every cancel schedule, every iteration setting", "why_tests_cant": "all numeric behaviours and all cancellation points", "anchors": ["src/core/model/xmmModelSingleClass.cpp: SingleClassProbabilisticModel::train, emAlgorithmHasConverged, cancelTrainingIfRequested, emAlgorithmTerminate"]}
{"id": "C37", "title": "EM stopping rule", "statement": "With max_iterations >= min_iterations, a training that neither fails nor is cancelled performs exactly min(max_iterations,1000) updates; otherwise it performs at least min_iterations (capped at 1000) and stops at the first step whose relative change is at most the threshold.", "quantifier": "every parameter setting and log-likelihood sequence", "why_tests_cant": "universal over sequences", "anchors": ["src/core/model/xmmModelSingleClass.cpp: emAlgorithmHasConverged, train"]}
{"id": "C38", "title": "Training progression is a fraction", "statement": "The progression reported with each Run event is in (0,1]. Holds when max_iterations >= min_iterations; false otherwise, because it keeps dividing by min_iterations after passing it.", "quantifier": "every parameter setting and log-likelihood sequence", "why_tests_cant": "depends on run length", "anchors": ["src/core/model/xmmModelSingleClass.cpp: SingleClassProbabilisticModel::train"]}
{"id": "C39", "title": "Parallel training joins all classes for every schedule", "statement": "In Parallel mode, for every interleaving of the class threads, when train() returns training() is false, every class thread has finished, the model contains exactly the labels whose training ended with Done, and Alldone was emitted exactly once, after every other event; train() does return if every thread keeps getting turns. False if compare_exchange_weak fails spuriously, as C++ allows: train() then returns while the classes train.", "quantifier": "every number of classes, every interleaving, every outcome of each class", "why_tests_cant": "thread schedules", "anchors": ["src/core/model/xmmModel.hpp: Model::train, joinTraining, onTrainingEvent"]}
{"id": "C40", "title": "Sequential training gives the same result as parallel training", "statement": "Sequential and Parallel training end with the same set of classes and the same final notification. False: Sequential keeps classes whose training failed and never emits Alldone.", "quantifier": "every training set and outcome", "why_tests_cant": "mode-dependent bookkeeping", "anchors": ["src/core/model/xmmModel.hpp: Model::train, joinTraining"]}
{"id": "C41", "title": "Background training announces completion once, after all classes", "statement": "In Background mode Alldone is emitted exactly once and only after every class has finished. False in general: a class that finishes before the next one is launched triggers an early join; holds for every schedule in which all classes are launched before the first one finishes and nobody cancels.", "quantifier": "every interleaving of the launching thread, class threads and joining thread", "why_tests_cant": "races need rare schedules", "anchors": ["src/core/model/xmmModel.hpp: Model::train, onTrainingEvent, joinTraining"]}
{"id": "C42", "title": "Cancelling leaves only finished classes", "statement": "After cancelTraining() returns, no class is training, training() is false and the classes in the model are exactly those that finished with Done. Holds for every schedule in which no class thread has started a joining thread, in particular if the cancellation is requested before any class finishes; false otherwise: cancelTraining() may return while the model or a class is still training.", "quantifier": "every interleaving of the class threads with the cancelling thread", "why_tests_cant": "cancellation points", "anchors": ["src/core/model/xmmModel.hpp: Model::cancelTraining, joinTraining"]}
{"id": "C43", "title": "A failed train call leaves the model usable", "statement": "If train(ts) throws because the training set does not fit the model, training() is false afterwards. False: is_training_ is set before the attributes are checked.", "quantifier": "every model/training set mismatch", "why_tests_cant": "exception path", "anchors": ["src/core/model/xmmModel.hpp: Model::train"]}
{"id": "C44", "title": "Class configuration overrides defaults", "statement": "Each trained class uses the parameters configured for its label if there are any and the default parameters otherwise, for every history of configuration edits.", "quantifier": "every configuration history and label set", "why_tests_cant": "histories", "anchors": ["src/core/model/xmmModel.hpp: Model::addModelForClass", "src/core/model/xmmModelConfiguration.hpp: Configuration::operator[], includes, reset"]}
{"id": "C45", "title": "Copied or loaded models own their shared parameters", "statement": "After copying (or fromJson), changing copy.shared_parameters (e.g. likelihood_window) changes the behaviour of the copy's classes. False: the classes of the copy keep pointing at the source's parameters.", "quantifier": "every model and later change", "why_tests_cant": "aliasing", "anchors": ["src/core/model/xmmModel.hpp: Model::Model(Model const&), operator=, fromJson", "src/core/model/xmmModelSingleClass.cpp: SingleClassProbabilisticModel(SingleClassProbabilisticModel const&)"]}
{"id": "C46", "title": "K-Means never increases the distortion", "statement": "Each update of the centers does not increase the sum over all frames of the squared distance to the nearest center, so training ends with a distortion no larger than that of its initialisation.", "quantifier": "every data set, number of clusters, dimension and initial centers (exact arithmetic)", "why_tests_cant": "universal over data", "anchors": ["src/models/kmeans/xmmKMeans.cpp: KMeans::updateCenters, train"]}
{"id": "C47", "title": "K-Means centers are the means of their frames", "statement": "After an update every center is the mean of the frames whose nearest previous center (lowest index on ties) it was, or the origin if there are none; each frame is counted in exactly one cluster.", "quantifier": "every data set and previous centers (exact arithmetic)", "why_tests_cant": "universal over data", "anchors": ["src/models/kmeans/xmmKMeans.cpp: KMeans::updateCenters"]}
{"id": "C48", "title": "K-Means classifies to the nearest center", "statement": "After reset(), filter(x) reports the distances to all centers and the lowest index among the nearest ones (as soon as one distance is below the largest float), and rejects observations of the wrong size. Without reset() after the number of clusters was set it writes outside its results.", "quantifier": "every set of centers and observation (exact arithmetic)", "why_tests_cant": "universal over inputs", "anchors": ["src/models/kmeans/xmmKMeans.cpp: KMeans::filter, euclidean_distance"]}
{"id": "C49", "title": "Copies of a K-Means classify like the original", "statement": "A copy of a trained KMeans filters like the original. False: the copy has no shared parameters (null pointer) and an assigned one keeps its old dimension.", "quantifier": "every trained KMeans", "why_tests_cant": "object graph", "anchors": ["src/models/kmeans/xmmKMeans.cpp: KMeans::KMeans(KMeans const&), operator="]}
{"id": "C50", "title": "GMM mixture weights form a distribution", "statement": "After initialisation and after every EM update the mixture coefficients are non-negative and sum to one, and the responsibilities of every frame are positive and sum to one.", "quantifier": "every training set with at least one frame, every parameter state, every number of updates (exact arithmetic)", "why_tests_cant": "universal over data and iterations", "anchors": ["src/models/gmm/xmmGmmSingleClass.cpp: SingleClassGMM::emAlgorithmUpdate, initParametersToDefault, normalizeMixtureCoeffs"]}
{"id": "C51", "title": "GMM M-step computes weighted moments", "statement": "An EM update sets every mean to the responsibility-weighted mean of the frames and every covariance to the weighted covariance plus the regularisation on its diagonal; Full covariances are symmetric and positive definite. With a regularisation below the pivot threshold 1e-9, a Full update may throw instead.", "quantifier": "every training set and parameter state (exact arithmetic)", "why_tests_cant": "universal over data", "anchors": ["src/models/gmm/xmmGmmSingleClass.cpp: SingleClassGMM::emAlgorithmUpdate, addCovarianceOffset", "src/core/distributions/xmmGaussianDistribution.cpp: regularize"]}
{"id": "C52", "title": "Class posteriors are normalised and the likeliest class is the argmax", "statement": "After filter() on a model with at least one class, instant and smoothed normalised likelihoods are in [0,1] and sum to one, and likeliest is the first class in label order with maximal smoothed log-likelihood.", "quantifier": "every number of classes, every observation and history (exact arithmetic)", "why_tests_cant": "universal over inputs", "anchors": ["src/models/gmm/xmmGmm.cpp: GMM::updateResults, filter", "src/models/hmm/xmmHierarchicalHmm.cpp: HierarchicalHMM::updateResults"]}
{"id": "C53", "title": "Smoothed log-likelihood is the window mean since reset", "statement": "After reset() and n calls of filter(), the smoothed log-likelihood of a class is the mean of the logarithms of its last min(n, likelihood_window) instantaneous likelihoods.", "quantifier": "every window length, every number of frames", "why_tests_cant": "window wrap-around for all n", "anchors": ["src/models/gmm/xmmGmmSingleClass.cpp: SingleClassGMM::updateResults, likelihood", "src/core/model/xmmModelSingleClass.cpp: reset"]}
{"id": "C54", "title": "Regression outputs are convex combinations", "statement": "GMM regression returns the likelihood-weighted mean of the component regressions (weights non-negative, sum one); the multi-class Mixture estimator returns the posterior-weighted mean of class outputs, so every output lies between the extreme component outputs.", "quantifier": "every model and input (exact arithmetic)", "why_tests_cant": "universal over inputs", "anchors": ["src/models/gmm/xmmGmmSingleClass.cpp: SingleClassGMM::regression", "src/models/gmm/xmmGmm.cpp: GMM::filter"]}
{"id": "C55", "title": "Multi-class regression respects per-class covariance modes", "statement": "filter() of a bimodal GMM with per-class covariance modes never reads out of bounds. False: the combined covariance uses the default mode, so a Diagonal class under a Full default is read out of bounds.", "quantifier": "every configuration", "why_tests_cant": "configuration interaction", "anchors": ["src/models/gmm/xmmGmm.cpp: GMM::filter"]}
{"id": "C56", "title": "HMM forward variables are the filtering distribution", "statement": "After each filter() the state probabilities are non-negative, sum to one and equal the posterior of the current state given the observations, i.e. path sums normalised over all state sequences.", "quantifier": "every number of states, transition matrix, observation-likelihood sequence of any length (exact arithmetic)", "why_tests_cant": "exponentially many paths, any length", "anchors": ["src/models/hmm/xmmHmmSingleClass.cpp: SingleClassHMM::forward_init, forward_update, filter"]}
{"id": "C57", "title": "HMM likelihoods multiply to the sequence likelihood", "statement": "The product of the instantaneous likelihoods returned by filter() over a sequence equals the sum over all state sequences of prior * transitions * observation likelihoods.", "quantifier": "every model and every sequence of any length (exact arithmetic)", "why_tests_cant": "path sums of any length", "anchors": ["src/models/hmm/xmmHmmSingleClass.cpp: SingleClassHMM::filter, forward_init, forward_update"]}
{"id": "C58", "title": "Baum-Welch occupancies are consistent", "statement": "In one E-step, for every phrase the state occupancies of each frame sum to one, and the transition occupancies out of a state at a frame sum to its occupancy (for all but the last frame).", "quantifier": "every phrase length, number of states, transition matrix (exact arithmetic)", "why_tests_cant": "universal over lengths", "anchors": ["src/models/hmm/xmmHmmSingleClass.cpp: SingleClassHMM::baumWelch_forwardBackward, baumWelch_backward_update, backward_init"]}
{"id": "C59", "title": "Trained transition matrices are stochastic", "statement": "After training, each transition row is non-negative and sums to one, and a left-right model only has self and next-state transitions with none out of the last state. Holds for LeftRight; false for Ergodic when all phrases have one frame (0/0).", "quantifier": "every training set and number of updates (exact arithmetic)", "why_tests_cant": "universal over data", "anchors": ["src/models/hmm/xmmHmmSingleClass.cpp: SingleClassHMM::normalizeTransitions, baumWelch_estimateTransitions, emAlgorithmTerminate, setLeftRight, setErgodic"]}
{"id": "C60", "title": "Resetting does not change a trained model", "statement": "reset() only restarts filtering; the model's transition probabilities stay stochastic. False in non-hierarchical mode: reset() writes 0.05 into the last row without renormalising.", "quantifier": "every trained model with at least two states", "why_tests_cant": "side effect on parameters", "anchors": ["src/models/hmm/xmmHmmSingleClass.cpp: SingleClassHMM::reset, addCyclicTransition"]}
{"id": "C61", "title": "Time progression is a normalised position", "statement": "progress is in [0,1] after every filter() in which the window mass is positive; likeliest_state is the argmax. Holds in non-hierarchical mode; false in hierarchical mode, where the exit mass is only counted in the numerator.", "quantifier": "every model and observation sequence (exact arithmetic)", "why_tests_cant": "depends on distribution of mass over states", "anchors": ["src/models/hmm/xmmHmmSingleClass.cpp: SingleClassHMM::updateAlphaWindow, updateResults"]}
{"id": "C62", "title": "Windowed regression is a weighted mean around the likeliest state", "statement": "The Windowed estimator averages state regressions with weights summing to one over a window containing the likeliest state. False for odd boundaries: with one state the window is empty and the output is always zero.", "quantifier": "every number of states and distribution", "why_tests_cant": "boundary case", "anchors": ["src/models/hmm/xmmHmmSingleClass.cpp: SingleClassHMM::updateAlphaWindow, regression"]}
{"id": "C63", "title": "Hierarchical forward variables are normalised", "statement": "After a hierarchical filter() the forward variables over all classes, states and exit levels are non-negative and sum to one, and each class's exit_ratio is in [0,1]. Holds from the second frame after a reset, and from the first for models of LeftRight classes (exit_ratio from the second). False on the first frame with an Ergodic class: it adds the likelihood it reported before the reset, and the sum is below one.", "quantifier": "every number of classes and states, every observation sequence (exact arithmetic)", "why_tests_cant": "universal over structure and length", "anchors": ["src/models/hmm/xmmHierarchicalHmm.cpp: HierarchicalHMM::forward_init, forward_update, likelihoodAlpha"]}
{"id": "C64", "title": "Reset makes hierarchical filtering history-independent", "statement": "After reset(), the results of filtering a sequence do not depend on what was filtered before. Holds for LeftRight classes; false for Ergodic classes, whose first instantaneous likelihood accumulates onto the stale one, and, for all classes, false for the exit likelihood and ratio after a single frame, which are those from before the reset.", "quantifier": "every two histories before the reset and every sequence after it", "why_tests_cant": "history dependence", "anchors": ["src/models/hmm/xmmHierarchicalHmm.cpp: HierarchicalHMM::reset, forward_init"]}
{"id": "C65", "title": "Class priors and transitions follow the set of classes", "statement": "After any history of adding and removing classes, the class-level prior, transition and exit vectors have one entry per class and are uniform distributions.", "quantifier": "every history of class additions and removals", "why_tests_cant": "histories", "anchors": ["src/models/hmm/xmmHierarchicalHmm.cpp: HierarchicalHMM::updateTransitionParameters, addModelForClass, removeClass, clear"]}
{"id": "C66", "title": "Non-hierarchical smoothing uses each frame once", "statement": "In non-hierarchical mode the smoothed log-likelihood averages the last likelihood_window frames. False: each frame is pushed twice, so only half the window is used.", "quantifier": "every window and sequence", "why_tests_cant": "needs a count over frames", "anchors": ["src/models/hmm/xmmHierarchicalHmm.cpp: HierarchicalHMM::filter", "src/models/hmm/xmmHmmSingleClass.cpp: SingleClassHMM::filter, updateResults"]}
{"id": "C67", "title": "HMM configuration round trip", "statement": "Assigning or loading HMM class parameters copies every parameter. False: hierarchical is not copied by operator=, so fromJson(toJson()) loses it.", "quantifier": "every parameter set", "why_tests_cant": "one dropped field among many", "anchors": ["src/models/hmm/xmmHmmParameters.cpp: ClassParameters<HMM>::operator=, fromJson, toJson"]}
{"id": "C68", "title": "Inversion succeeds on invertible matrices", "statement": "An invertible square matrix is inverted rather than refused. False in general (the pivot threshold is absolute, 1e-9); true, with the exact positive determinant and a two-sided inverse, for every matrix with x'Ax >= rho*|x|^2, rho >= 1e-9.", "quantifier": "all square matrices of all sizes (exact arithmetic)", "why_tests_cant": "needs a proof about pivots over all matrices", "anchors": ["src/core/common/xmmMatrix.hpp: Matrix::gauss_jordan_inverse"]}
{"id": "C69", "title": "Changing the covariance mode keeps the distribution", "statement": "covariance_mode.set keeps the mean and the variances and leaves consistent inverses and determinants. Holds when the mode actually changes; false when it is set to its current value: Full to Full replaces the covariance by a diagonal matrix made of its first row, Diagonal to Diagonal reads outside the covariance.", "quantifier": "every distribution with a listener of its own and every mode (exact arithmetic)", "why_tests_cant": "attribute side effects over all states", "anchors": ["src/core/distributions/xmmGaussianDistribution.cpp: GaussianDistribution::onAttributeChange"]}
{"id": "C70", "title": "Confidence ellipses describe the covariance and can be read back", "statement": "toEllipse gives the eigenvalues and the main axis of the two-dimensional covariance, and fromEllipse(toEllipse(d1,d2)) restores the distribution. Holds for correlated dimensions; false for axis-aligned ellipses, for which fromEllipse computes 0/0 and stores NaN without throwing.", "quantifier": "every distribution and pair of dimensions (exact arithmetic; binary64 for the counterexample)", "why_tests_cant": "needs an algebraic identity and a division by zero", "anchors": ["src/core/distributions/xmmGaussianDistribution.cpp: GaussianDistribution::toEllipse, fromEllipse, covariance2ellipse"]}
{"id": "C71", "title": "Shared parameters survive JSON", "statement": "Writing shared parameters to JSON and reading them back restores every value (the percentage rounded to a float) for every set with dimension_input < dimension and one name per dimension. Names set before any dimension cannot be written: toJson throws out_of_range.", "quantifier": "every parameter set in range and every target object", "why_tests_cant": "universal over values", "anchors": ["src/core/model/xmmModelSharedParameters.cpp: SharedParameters::toJson, fromJson, SharedParameters(Json::Value const&)"]}
{"id": "C72", "title": "Configurations survive JSON and assignment", "statement": "Reading back the JSON form of a configuration, or assigning it, restores the default and all class parameters (regularizations rounded to float by JSON). Holds for GMM. False for HMM: the flag hierarchical keeps the value it had in the target, so a non-hierarchical model comes back hierarchical. False also for the smallest allowed regularization, which JSON rounds below its limit so that loading throws.", "quantifier": "every configuration in range, any number of classes", "why_tests_cant": "universal over configurations", "anchors": ["src/core/model/xmmModelConfiguration.hpp: Configuration::toJson, fromJson, operator=", "src/models/hmm/xmmHmmParameters.cpp: ClassParameters<HMM>::operator=, fromJson", "src/models/gmm/xmmGmmParameters.cpp: ClassParameters<GMM>::operator=, toJson, fromJson"]}
{"id": "C73", "title": "K-Means initialisation", "statement": "Biased initialisation puts center k at the mean of the k-th of equally long consecutive segments of the first phrase (all at the origin if it has fewer frames than clusters); Random initialisation puts every center in the box of half-width the standard deviation around the origin, wherever the frames are.", "quantifier": "every phrase, number of clusters, dimension and random sequence (exact arithmetic)", "why_tests_cant": "universal over data and random draws", "anchors": ["src/models/kmeans/xmmKMeans.cpp: KMeans::initClustersWithFirstPhrase, randomizeClusters"]}
{"id": "C74", "title": "GMM initialisation", "statement": "Initialisation gives every component of a class the same weight, the center of a K-Means clustering of the training set as mean, and the covariance of its segment of every phrase plus the regularisation. If no phrase has as many frames as there are components, the covariances are NaN and no error is reported.", "quantifier": "every training set, parameters and number of components (exact arithmetic; NaN in binary64)", "why_tests_cant": "universal over data", "anchors": ["src/models/gmm/xmmGmmSingleClass.cpp: SingleClassGMM::emAlgorithmInit, initParametersToDefault, initMeansWithKMeans, initCovariances"]}
{"id": "C75", "title": "Baum-Welch update computes the re-estimation formulas", "statement": "One training update returns the sum of the log-likelihoods of the phrases, computed as path sums, and sets every mean, covariance, mixture weight, prior and transition to the expected counts given the phrases under the previous parameters (state occupancies, component occupancies and transition occupancies defined by path sums), plus the regularisation on the covariances.", "quantifier": "every usable model and every training set of non-empty phrases (exact arithmetic)", "why_tests_cant": "path sums over exponentially many state sequences", "anchors": ["src/models/hmm/xmmHmmSingleClass.cpp: SingleClassHMM::emAlgorithmUpdate, baumWelch_forwardBackward, baumWelch_gmmEstimateMixture, baumWelch_estimateMeans, baumWelch_estimateCovariances, baumWelch_estimatePrior, baumWelch_estimateTransitions"]}
{"id": "C76", "title": "Operations on the classes of a hierarchical model succeed", "statement": "Adding, removing, retraining, joining and clearing classes throw nothing (but for the removal of an unknown label) and leave exactly the expected labels. Holds in hierarchical mode; false in non-hierarchical mode, where adding a class to others, removing one of several, and a training in which one of several classes fails all throw after having changed the model.", "quantifier": "every model, every operation, every history", "why_tests_cant": "histories and modes", "anchors": ["src/models/hmm/xmmHierarchicalHmm.cpp: HierarchicalHMM::addModelForClass, removeClass, clear, joinTraining, updateExitProbabilities, updateTransitionParameters", "src/models/hmm/xmmHmmSingleClass.cpp: SingleClassHMM::updateExitProbabilities", "src/core/model/xmmModel.hpp: Model::addClass, removeClass, clear, joinTraining"]}
{"id": "C77", "title": "Hierarchical filtering is filtering of one flat hidden Markov model", "statement": "The forward variables of the hierarchical model after any observations are the posterior probabilities, as sums over all paths, of the states of a single hidden Markov model whose states are class, state and exit level; the normalised instantaneous likelihoods are the posterior probabilities of the classes, and the instantaneous likelihoods of LeftRight classes sum to the likelihood of the last observation given the previous ones; smoothed likelihoods, likeliest class and regression follow from them.", "quantifier": "every number of classes and states, every topology, every observation sequence (exact arithmetic)", "why_tests_cant": "path sums over exponentially many state sequences", "anchors": ["src/models/hmm/xmmHierarchicalHmm.cpp: HierarchicalHMM::forward_init, forward_update, likelihoodAlpha, filter"]}
{"id": "C78", "title": "Hierarchical likelihoods do not exceed the densities of the states", "statement": "The likelihood of an observation given the previous ones is at most the largest density of the observation over all states. Holds when the transitions and the exit probability of each state sum to at most one; false for trained classes, whose rows sum to one before the exit probability is added: from the last state of a LeftRight class the total weight is 10/9, from a state of an Ergodic class it is 1/(1-exit).", "quantifier": "every model and every observation sequence (exact arithmetic)", "why_tests_cant": "normalisation over all paths", "anchors": ["src/models/hmm/xmmHierarchicalHmm.cpp: HierarchicalHMM::forward_update", "src/models/hmm/xmmHmmSingleClass.cpp: SingleClassHMM::normalizeTransitions, updateExitProbabilities"]}
{"id": "C79", "title": "Switching a trained model to non-hierarchical mode", "statement": "After setting hierarchical to false and reset(), a trained model can filter. Holds for LeftRight classes; false for Ergodic classes, whose forward variable was emptied by the hierarchical reset: the first filter writes out of bounds.", "quantifier": "every model of classes trained in hierarchical mode, every observation", "why_tests_cant": "mode change", "anchors": ["src/models/hmm/xmmHierarchicalHmm.cpp: HierarchicalHMM::reset, filter", "src/models/hmm/xmmHmmSingleClass.cpp: SingleClassHMM::reset, forward_init"]}
{"id": "C80", "title": "Saved and loaded GMMs recognise like the original", "statement": "A trained GMM written with toJson and read back, by the constructor or by fromJson into any model, reports after reset() exactly what the original reports after reset(), for every observation sequence: likelihoods, smoothed log-likelihoods, likeliest class and regression outputs. Holds for Full covariances and for one dimension. False for Diagonal covariances in two or more dimensions, which can be written but not read (JsonException, target unchanged); and a model constructed from JSON that filters before reset() writes outside its results.", "quantifier": "every trained model, any number of classes and components, every observation sequence, any arithmetic", "why_tests_cant": "universal over models and sequences; needs equality of whole behaviours", "anchors": ["src/models/gmm/xmmGmmSingleClass.cpp: SingleClassGMM(shared_ptr, Json::Value const&), toJson, fromJson", "src/core/model/xmmModel.hpp: Model(Json::Value const&), toJson, fromJson, operator=", "src/models/gmm/xmmGmm.cpp: GMM::GMM(Json::Value const&), filter, reset"]}
{"id": "C81", "title": "Copies of GMMs recognise like the original", "statement": "A GMM made by copy construction or assignment reports after reset() exactly what the original reports after reset(), for every observation sequence. Before reset() this is false: the copied classes have a likelihood buffer of length one, so that the log-likelihood they report is that of the last observation, whatever likelihood_window.", "quantifier": "every model ready to filter, any number of classes, every observation sequence, any arithmetic", "why_tests_cant": "universal over models and sequences; needs equality of whole behaviours", "anchors": ["src/models/gmm/xmmGmmSingleClass.cpp: SingleClassGMM(SingleClassGMM const&), operator=", "src/core/model/xmmModelSingleClass.cpp: SingleClassProbabilisticModel(SingleClassProbabilisticModel const&)", "src/models/gmm/xmmGmm.cpp: GMM(GMM const&), operator="]}
{"id": "C82", "title": "Saved and loaded hierarchical HMMs recognise like the original", "statement": "A trained HierarchicalHMM with LeftRight classes written with toJson and read back, by the constructor or by fromJson into any hierarchical model, reports after reset() exactly what the original reports after reset(), for every observation sequence: likelihoods, smoothed log-likelihoods, progress, likeliest states and class, regression outputs. So does a non-hierarchical one read by fromJson into a non-hierarchical one. False for a non-hierarchical model read by the constructor, which always gives a hierarchical one; false for Diagonal covariances in two or more dimensions, which can be written but not read (JsonException, target unchanged); and a model constructed from JSON cannot filter any observation before reset().", "quantifier": "every trained model, any number of classes, states and components, every observation sequence, any arithmetic", "why_tests_cant": "universal over models and sequences; needs equality of whole behaviours", "anchors": ["src/models/hmm/xmmHierarchicalHmm.cpp: HierarchicalHMM(Json::Value const&), toJson, fromJson, operator=", "src/models/hmm/xmmHmmSingleClass.cpp: SingleClassHMM(shared_ptr, Json::Value const&), toJson, fromJson", "src/core/model/xmmModel.hpp: Model(Json::Value const&), toJson, fromJson, operator="]}
{"id": "C83", "title": "Copies of hierarchical HMMs recognise like the original", "statement": "A HierarchicalHMM made by copy construction, or by assignment to a model in the same mode (hierarchical or not), reports after reset() exactly what the original reports after reset(), for every observation sequence. Holds for LeftRight classes, and in non-hierarchical mode for Ergodic ones. False for an assignment to a model in the other mode, which keeps its own mode.", "quantifier": "every model ready to filter, any number of classes and states, every observation sequence, any arithmetic", "why_tests_cant": "universal over models and sequences; needs equality of whole behaviours", "anchors": ["src/models/hmm/xmmHierarchicalHmm.cpp: HierarchicalHMM(HierarchicalHMM const&), operator=", "src/models/hmm/xmmHmmSingleClass.cpp: SingleClassHMM(SingleClassHMM const&), operator=", "src/models/hmm/xmmHmmParameters.cpp: ClassParameters<HMM>::operator="]}
{"id": "C84", "title": "HMM initialisation", "statement": "Before the first update every phrase is cut into as many pieces of equal length as there are states (the frames after the last full piece are not used), and each state takes the means and covariances, but not the weights (which stay equal), of a mixture trained on its piece of every phrase: with one Gaussian per state, the mean and regularised covariance of these frames. Transitions are 1/N everywhere (Ergodic) or 1/2 to stay and 1/2 to advance (LeftRight, the last state stays), the prior is 1/N or the first state. False when no phrase has as many frames as there are states: the states cannot evaluate any frame and the first update of a training throws.", "quantifier": "every training set, topology, number of states and components, number of updates made per state (exact arithmetic)", "why_tests_cant": "universal over data", "anchors": ["src/models/hmm/xmmHmmSingleClass.cpp: SingleClassHMM::emAlgorithmInit, initParametersToDefault, initMeansCovariancesWithGMMEM, setErgodic, setLeftRight"]}
{"id": "C85", "title": "EM updates raise the penalised likelihood", "statement": "An update of a mixture returns the log-likelihood of the training data before it, and never lowers the log-likelihood minus the regularisation part (half the sum, over components and dimensions, of responsibility mass * regularisation * inverse covariance diagonal), as long as no density is below the floor 1e-180; below it, the loss is at most the floored excess, weighted by the responsibilities. Without regularisation the log-likelihood itself never goes down. With regularisation it can: from one update of a training to the next the returned log-likelihood may drop, but by at most half the dimension per frame.", "quantifier": "every training set, any number of components and dimensions, both covariance modes, any number of previous updates (exact arithmetic)", "why_tests_cant": "an inequality over all data and all states of the training", "anchors": ["src/models/gmm/xmmGmmSingleClass.cpp: SingleClassGMM::emAlgorithmUpdate, addCovarianceOffset"]}
{"id": "C86", "title": "Baum-Welch updates raise the likelihood up to three named losses", "statement": "A training update of an HMM class returns the log-likelihood of the phrases before it (as path sums). After it the log-likelihood minus the covariance regularisation part is at least what it was before, minus the part of the density floor (zero when no density is below 1e-180) and a part of the transitions. While the transition rows sum to at most one, which holds throughout the training of an ergodic model or of a single phrase, the part of the transitions is at most 1 per phrase plus 2e-5 per state; so from the second update on the returned log-likelihood drops by at most half the dimension per frame plus that. It is false that it never drops: with one state and one Gaussian every training set with a phrase of two frames lowers it at the first update, because the transitions are divided by the visits of all frames, the last one of each phrase included.", "quantifier": "every training set, topology, number of states, components and previous updates as long as transition rows keep a total of 1e-100 (always in LeftRight up to 1e90 frames) (exact arithmetic)", "why_tests_cant": "an inequality between path sums over all data and all states of the training", "anchors": ["src/models/hmm/xmmHmmSingleClass.cpp: SingleClassHMM::emAlgorithmUpdate, baumWelch_forwardBackward, baumWelch_estimateTransitions, baumWelch_estimatePrior, baumWelch_estimateMeans, baumWelch_estimateCovariances"]}
{"id": "C87", "title": "Recordings, training and recognition work end to end", "statement": "A user who sets the dimensions of a training set, adds labelled phrases and records frames gets a set that holds exactly these recordings. train() of a GMM then gives one class per label, in alphabetical order, which is what initialisation followed by the number of EM updates fixed by the stopping rule (never more than 1000) makes of the recordings with that label and of the parameters configured for it: nothing of the other classes, of the order of recordings of different labels, or of what the model learned before matters. Configuration and training settings stay, and the model can be trained again. After reset() every sequence of observations is filtered without error, the posteriors are distributions given by the learned mixtures, and the likeliest label is one of those recorded.", "quantifier": "every set of recordings in which each class has a phrase with as many frames as Gaussians, both modalities, every configuration with regularisations of at least 1e-9 (one covariance mode if bimodal outputs are mixed), every multithreading mode once joined, every observation sequence (exact arithmetic)", "why_tests_cant": "composition of all the layers over all data", "anchors": ["src/core/model/xmmModel.hpp: Model::train, addModelForClass, joinTraining", "src/core/trainingset/xmmTrainingSet.cpp: TrainingSet::addPhrase, getPhrasesOfClass, update", "src/core/trainingset/xmmPhrase.cpp: Phrase::record, getPointer, getValue", "src/core/model/xmmModelSingleClass.cpp: SingleClassProbabilisticModel::train", "src/models/gmm/xmmGmm.cpp: GMM::reset, filter"]}
{"id": "C88", "title": "A trained model is ready to filter", "statement": "After train() (once joined) filter() can be called without reset(). Holds in the Parallel and Background modes, where the join resets the model: another reset() changes nothing. False in the Sequential mode: whatever the recordings, the first filter() after train() writes outside the result vectors.", "quantifier": "every set of recordings, configuration and observation, both modalities (exact arithmetic)", "why_tests_cant": "depends on the multithreading mode", "anchors": ["src/core/model/xmmModel.hpp: Model::train, joinTraining", "src/models/gmm/xmmGmm.cpp: GMM::reset, filter"]}
{"id": "C89", "title": "Hidden Markov models work end to end", "statement": "train() of a HierarchicalHMM with a set of recordings gives one class per label, in alphabetical order, which is what the initialisation on pieces of the phrases followed by the number of Baum-Welch updates fixed by the stopping rule (never more than 1000, also for the mixtures trained inside the initialisation) makes of the recordings with that label and of the parameters configured for it: nothing of the other classes, of the order of recordings of different labels, or of what the model learned before matters. Priors and transitions between classes are even. After reset() every sequence of observations is filtered without error; the reports are the ones of the single flat hidden Markov model (hierarchical mode) or of each class by itself (non-hierarchical mode, LeftRight classes); in hierarchical mode the normalised likelihoods are distributions over the classes; and the likeliest label is one of those recorded.", "quantifier": "every set of recordings without empty phrases in which each class has a phrase with as many frames as Gaussians in all its states, both modalities, every configuration with regularisations of at least 1e-9 (one covariance mode if bimodal outputs are mixed) whose transition rows keep a total of 1e-100 during training (always for LeftRight classes up to 1e90 frames and for Ergodic classes with one state), non-negative uninitialised likelihoods if a class is Ergodic, every multithreading mode once joined, every observation sequence (exact arithmetic)", "why_tests_cant": "composition of all the layers over all data", "anchors": ["src/core/model/xmmModel.hpp: Model::train, addModelForClass, joinTraining", "src/models/hmm/xmmHierarchicalHmm.cpp: HierarchicalHMM::addModelForClass, updateTransitionParameters, reset, filter", "src/models/hmm/xmmHmmSingleClass.cpp: SingleClassHMM::emAlgorithmInit, emAlgorithmUpdate, emAlgorithmTerminate", "src/core/model/xmmModelSingleClass.cpp: SingleClassProbabilisticModel::train", "src/core/trainingset/xmmTrainingSet.cpp: TrainingSet::getPhrasesOfClass"]}
{"id": "C90", "title": "A trained hidden Markov model is ready to filter", "statement": "After train() (once joined) filter() can be called without reset(). Holds in the Parallel and Background modes in hierarchical mode, and in non-hierarchical mode for LeftRight classes; another reset() changes nothing. False in the Sequential mode: whatever the recordings, the first filter() of a hierarchical model after train() writes outside the result vectors. False in non-hierarchical mode with an Ergodic class: whatever the recordings and the multithreading mode, even after reset() the first filter() accesses forward variables outside their bounds.", "quantifier": "every set of recordings, configuration and observation, both modalities (exact arithmetic)", "why_tests_cant": "depends on the multithreading mode and on the topology", "anchors": ["src/core/model/xmmModel.hpp: Model::train, joinTraining", "src/models/hmm/xmmHierarchicalHmm.cpp: HierarchicalHMM::reset, filter", "src/models/hmm/xmmHmmSingleClass.cpp: SingleClassHMM::reset, forward_init"]}
{"id": "C91", "title": "One class can be trained by itself", "statement": "train(set, label) of a GMM throws for a label that the set does not have and for a set with other dimensions than the existing classes, without changing the model. Otherwise the class becomes what training makes of a new class and the recordings with that label, whatever the class had learned before; the other classes stay as they are, up to the reset that ends a training in threads. Training all the labels one by one, in any order and any number of times, recognises like one train(set); and when the recordings of one class changed, training that class alone recognises like training everything again. Once reset, a model stays ready to filter: false in the Sequential mode, where a class added to a model makes the next filter() write outside the result vectors until reset() is called.", "quantifier": "every set of recordings in which each class has a phrase with as many frames as Gaussians, every model with any classes and history, every label, order and repetition, both modalities, every multithreading mode once joined (exact arithmetic)", "why_tests_cant": "histories of trainings; equality of whole behaviours", "anchors": ["src/core/model/xmmModel.hpp: Model::train(TrainingSet*, std::string const&), addModelForClass, joinTraining", "src/core/model/xmmModelSingleClass.cpp: SingleClassProbabilisticModel::train", "src/models/gmm/xmmGmm.cpp: GMM::reset, filter"]}
{"id": "C92", "title": "Classes can be cancelled, retrained and removed while others are training", "statement": "While a Background training runs, the thread that started it may call cancelTraining(label), train(set, label) or removeClass(label) on one class of the model while other classes are still training. cancelTraining(label) returns with the class stopped and all classes kept; the other classes then train as planned, Alldone is announced once, at the end, and the class is in the model only if it had finished by itself. Each of the three calls ends unless all other classes end first. False of train(set, label): whatever the interleaving, as long as another class is training the call cannot return: it ends the program (std::terminate), because the old thread of the class was not joined. False of removeClass(label): as long as another class is training it cannot return but throws after having erased the class, whose thread may still use it. And cancelTraining(label) can lose the end of the training: if the last other class ends before the request is cleared, nobody joins, Alldone is never announced and the model stays training.", "quantifier": "every number of classes, updates and outcomes, every interleaving (started before the first class ends), every class and call", "why_tests_cant": "interleavings of threads", "anchors": ["src/core/model/xmmModel.hpp: Model::cancelTraining(std::string const&), train(TrainingSet*, std::string const&), removeClass, onTrainingEvent, joinTraining", "src/core/model/xmmModelSingleClass.cpp: SingleClassProbabilisticModel::train, cancelTraining"]}
{"id": "C93", "title": "One class of a hidden Markov model can be trained by itself", "statement": "train(set, label) of a HierarchicalHMM throws for a label that the set does not have and for a set with other dimensions than the existing classes, without changing the model. Otherwise, in hierarchical mode, the states, priors and transitions of the class become what training makes of a new class and the recordings with that label, whatever the class had learned before; the other classes stay as they are, up to the reset that ends a training in threads. A new class makes the parameters between the classes even and the exit probability of the last state of every class 0.1; an existing one leaves them. Training all the labels one by one, in any order and any number of times, recognises like one train(set), and when the recordings of one class changed, training that class alone recognises like training everything again: both for LeftRight classes with the number of states of the configuration and without exit points added by the user. The exit probabilities are those of a new class: false when the number of states was raised, a middle state keeps the exit probability of the former last state. Once reset, a model stays ready to filter: false in the Sequential mode, where a class added to a model makes the next filter() write outside the result vectors until reset() is called. False altogether in non-hierarchical mode after a reset(): adding a class throws, leaves the untrained class in the model and the model marked as training; reset() and train(set, label) then write outside the transitions of that class.", "quantifier": "every set of recordings in which each class can be learned, any model at rest, any sequence of labels, any configuration and multithreading mode, both modalities (exact arithmetic)", "why_tests_cant": "histories of partial trainings; equality of whole behaviours", "anchors": ["src/core/model/xmmModel.hpp: Model::train(TrainingSet*, std::string const&), addModelForClass, cancelTraining(std::string const&), joinTraining", "src/models/hmm/xmmHierarchicalHmm.cpp: HierarchicalHMM::addModelForClass, updateTransitionParameters, updateExitProbabilities", "src/models/hmm/xmmHmmSingleClass.cpp: SingleClassHMM::emAlgorithmInit, updateExitProbabilities, addCyclicTransition"]}
{"id": "C94", "title": "Posteriors are right in double precision", "statement": "In binary64 arithmetic, with every operation rounded, the instantaneous and smoothed normalised likelihoods that a GMM reports are numbers between 0 and 1, never NaN: they are the reported likelihoods divided by their sum, up to one relative rounding error per class plus one and a possible underflow. This holds after any number of observations whose values may be anything, NaN and infinities included: no likelihood is ever zero, negative or NaN, no sum overflows, and an invalid observation does not spoil later ones. Holds for Diagonal covariances. For Full covariances the likelihoods are never zero, negative or NaN either, and the instantaneous posteriors are right unless the sum of the likelihoods overflows. Normalising the mixture weights always gives weights that can be used, even if all are null.", "quantifier": "every mixture of doubles with inverse variances that are not negative and any determinants, any number of classes and components up to the range of unsigned int, every window, every sequence of frames of doubles, every exp and log with coarse bounds", "why_tests_cant": "all doubles and all sequences of them; accumulated rounding errors", "anchors": ["src/models/gmm/xmmGmmSingleClass.cpp: SingleClassGMM::likelihood, updateResults, normalizeMixtureCoeffs", "src/models/gmm/xmmGmm.cpp: GMM::filter, updateResults", "src/core/distributions/xmmGaussianDistribution.cpp: GaussianDistribution::likelihood, likelihood_input"]}
{"id": "C95", "title": "Initial variance of a dimension that never changes", "statement": "A GMM can be trained on recordings in which a dimension never changes: its initial variance is zero and regularisation makes it positive. Holds for values whose square is a single precision number, in particular those of at most 12 significant bits. False in general: the squares of the values are rounded to single precision while the square of the mean is not, so the initial variance is the rounding error of the square, exactly, whatever the number of phrases, frames and components. It can be negative, and when it is not compensated by the regularisation the training with Diagonal covariances throws, whatever the other dimensions hold: with the default regularisation a dimension constantly at 200.3 is enough.", "quantifier": "every training set with a constant dimension (below 2^59 in magnitude and with no bit below 2^-50), any number of phrases, components and frames below 2^29, single and double precision arithmetic with every operation rounded", "why_tests_cant": "depends on the bits of a value in mixed precision", "anchors": ["src/models/gmm/xmmGmmSingleClass.cpp: SingleClassGMM::initCovariances_fullyObserved, addCovarianceOffset, updateInverseCovariances, emAlgorithmInit", "src/core/distributions/xmmGaussianDistribution.cpp: GaussianDistribution::updateInverseCovariance, regularize"]}
{"id": "C96", "title": "Hierarchical recognition in double precision", "statement": "With the rounding, overflow and underflow of doubles, a hierarchical HMM with LeftRight classes and Diagonal covariances goes on recognising for ever: after any number of observations whose values may be anything, NaN and infinities included, every forward variable is a number between 0 and 1 and at least one of them is not small, so that the scaling never divides by zero, and the instantaneous posteriors are numbers between 0 and 1 equal to the likelihoods divided by their sum up to one relative rounding error per class plus one and a possible underflow. False for the smoothed likelihoods and posteriors: a class whose forward variables underflow has a null likelihood; its logarithm stays in the likelihood window and the smoothed likelihood is zero for as long as the window holds it, even if the class is recognised again. When every class has had such a frame, all the smoothed posteriors are NaN. The progress of such a class and its exit ratio are NaN too.", "quantifier": "every hierarchical model of doubles with LeftRight classes whose transitions are in [0,1], not all extremely small, and with inverse variances that are not negative, any number of classes, states, components up to 2^32, every sequence of frames of doubles, every exp and log with coarse bounds", "why_tests_cant": "all doubles and all sequences of them; accumulated rounding errors and underflow", "anchors": ["src/models/hmm/xmmHierarchicalHmm.cpp: HierarchicalHMM::filter, forward_init, forward_update, updateResults", "src/models/hmm/xmmHmmSingleClass.cpp: SingleClassHMM::updateResults"]}
{"id": "C97", "title": "Recognition with separate hidden Markov models in double precision", "statement": "With the rounding, overflow and underflow of doubles, an HMM that is not in hierarchical mode, with Diagonal covariances, goes on recognising for ever: after any number of observations whose values may be anything, NaN and infinities included, the forward variables of every class are numbers between 0 and 1, at least one of which is not small, so that the scaling never divides by zero; the likelihood of every class is a positive number between 2^-790 and 2^790, its smoothed log-likelihood a number between -600 and 600, its progress a number between 0 and 1 (up to 2^-18); and both the instantaneous and the smoothed posteriors are numbers between 0 and 1 equal to the likelihoods divided by their sum up to one relative rounding error per class plus one and a possible underflow. The loss of the smoothed posteriors in hierarchical mode does not happen here.", "quantifier": "every non-hierarchical model of doubles, LeftRight or Ergodic, whose transitions are in [0,1], not all extremely small, and with inverse variances that are not negative, any number of classes, states, components and any window up to 2^32, every sequence of frames of doubles that is filtered without error, every exp and log with coarse bounds", "why_tests_cant": "all doubles and all sequences of them; accumulated rounding errors and underflow", "anchors": ["src/models/hmm/xmmHmmSingleClass.cpp: SingleClassHMM::filter, forward_init, forward_update, updateAlphaWindow, updateResults", "src/models/hmm/xmmHierarchicalHmm.cpp: HierarchicalHMM::filter, updateResults"]}
{"id": "C98", "title": "Training of mixtures in double precision", "statement": "With the rounding, overflow and underflow of doubles, and the single precision deviations of the code, an EM update of a mixture with Diagonal covariances that does not throw gives a usable class: the weights are numbers between 0 and 1 whose sum is 1 up to rounding, no inverse variance is negative, and the log-likelihood that the stopping rule uses is a number. This holds whatever the values of the frames, NaN and infinities included, after the initialisation and any number of updates, so that recognition with the classes gives right posteriors. When the values of the frames are numbers of at most 2^b (b up to 100) and the regularisation is neither tiny nor huge, every component has means of at most 2^b and variances between the regularisation and 2^(2b+3), however many frames there are and whatever the class was before; or its weight is zero and its mean and variance are NaN, and then the next update gives it numbers and a positive weight again. The second case does happen.", "quantifier": "every class with Diagonal covariances (any number of components below 2^32, of dimensions), every sequence of 1 to 2^32 frames, any number of updates, every exponential and logarithm with the stated weak properties", "why_tests_cant": "a sum of rounding errors over all frames, and underflow for extreme values, cannot be covered by tests on samples", "anchors": ["src/models/gmm/xmmGmmSingleClass.cpp: SingleClassGMM::emAlgorithmInit, emAlgorithmUpdate, obsProb, addCovarianceOffset, updateInverseCovariances", "src/core/distributions/xmmGaussianDistribution.cpp: regularize, updateInverseCovariance", "src/models/kmeans/xmmKMeans.cpp: KMeans::train"]}
{"id": "C99", "title": "Regression with mixtures in double precision", "statement": "With the rounding of doubles and of the single precision outputs, regression with GMMs with Diagonal covariances predicts values inside the hull of what was learned, for ever and whatever is input, NaN and infinities included: if the mean of every component for an output is between lo and hi, of at most 2^b, then after any number of frames that output is a number between lo - e and hi + e, where e is 2^(b-20) for each component of a class (of the largest number of components plus twice the number of classes, for a model), with the Likeliest and the Mixture regression estimators, and the output variance is a number between 0 and the largest variance plus e. With classes from the training on values of at most 2^b this bound always applies, except that a component left without a mean by the training makes every output of its class NaN for every input although its weight is zero; with the Mixture estimator it makes the outputs of the whole model NaN.", "quantifier": "every class and model with Diagonal covariances (up to 2^20 components and classes, any number of dimensions), every sequence of frames of doubles, any training data of 1 to 2^32 frames, every exponential and logarithm with the stated weak properties", "why_tests_cant": "all doubles and all sequences of them; accumulated rounding errors in two precisions", "anchors": ["src/models/gmm/xmmGmmSingleClass.cpp: SingleClassGMM::regression, filter, emAlgorithmUpdate", "src/models/gmm/xmmGmm.cpp: GMM::filter", "src/core/distributions/xmmGaussianDistribution.cpp: regression, updateOutputCovariance"]}
{"id": "C100", "title": "Regression with hidden Markov models in double precision", "statement": "With the rounding of doubles and of the single precision outputs, regression with HMMs that are not in hierarchical mode, with Diagonal covariances, predicts values inside the hull of what was learned, for ever and whatever is input, NaN and infinities included: if the mean of every component of every state for an output is between lo and hi, of at most 2^b, then after any number of frames that output of every class is a number between lo - e and hi + e, where e is 2^(b-20) times the largest number of components plus twice the largest number of states; the same holds for the model with three more units for each class. Holds with the Full, the Windowed and the Likeliest regression estimators of the classes, with the Likeliest and the Mixture estimators of the model, for LeftRight and Ergodic classes. The output variances are numbers between 0 and the largest variance, up to e. False with the Windowed estimator and classes of one state: the outputs are exactly 0 whatever was learned and whatever is input.", "quantifier": "every non-hierarchical model with Diagonal covariances (up to 2^20 classes, states and components, any number of dimensions) whose transitions are in [0,1], not all extremely small, every sequence of frames of doubles that is filtered without error, every exponential and logarithm with the stated weak properties", "why_tests_cant": "all doubles and all sequences of them; accumulated rounding errors in two precisions", "anchors": ["src/models/hmm/xmmHmmSingleClass.cpp: SingleClassHMM::regression, filter, updateAlphaWindow", "src/models/hmm/xmmHierarchicalHmm.cpp: HierarchicalHMM::filter, forward_init", "src/core/distributions/xmmGaussianDistribution.cpp: regression"]}
{"id": "C101", "title": "Hierarchical regression stays inside what was learned", "statement": "In hierarchical mode, the outputs of every class and of the model lie between the extreme component outputs, after any sequence of observations. Holds with the Likeliest estimator, and with the Windowed estimator from two states. False with the Full estimator, the default: the forward variables that weight the states are normalised over all the classes and not divided by their sum, so the outputs of a class are multiplied by a factor W_c, with the W_c summing to at most one. With two classes or more that learned the same positive value v for an output, every class and the model output less than v, and the outputs of the classes sum to at most v. With the Windowed estimator and one state the outputs are 0.", "quantifier": "for every bimodal hierarchical model, every sequence of observations of the right dimension, every estimator of the classes and of the model, every output and every pair of bounds", "why_tests_cant": "The bias depends on the posteriors of the classes and vanishes with one class and no exit, the usual test; a bound for every model and sequence needs the forward recursion", "anchors": ["src/models/hmm/xmmHmmSingleClass.cpp: SingleClassHMM::regression, updateAlphaWindow, updateResults", "src/models/hmm/xmmHierarchicalHmm.cpp: HierarchicalHMM::forward_init, forward_update, filter"]}
{"id": "C102", "title": "K-Means in single precision", "statement": "With the rounding, overflow and underflow of the single precision numbers that K-Means computes with, filter() answers for every observation and all centers, NaN and infinities included: the likeliest cluster is one of the clusters, and no reported distance is smaller than its distance. When the values are numbers of magnitude at most 2^41 the distances are numbers, their squares are the squared distances up to a relative error of 2^-24 for each dimension plus five, and the likeliest cluster is the nearest one up to twice that error. A training from the first phrase, on at most 2^22 frames of magnitude at most B (up to 2^40), ends with centers that are numbers: the center of a cluster with n frames is their mean up to B((1+2^-24)^(n+2) - 1), about n B 2^-24, and the origin if it has none, and each frame is in the cluster of the nearest previous center up to rounding. The error does grow with the frames: a cluster of 2^25 frames or more that are all equal to 1 has its center at 1/2 or below. The training does not survive a value that is not a number: with one NaN in one frame and two iterations or more, the first center is NaN, all the others are at the origin, and every observation is in the second cluster.", "quantifier": "every number of clusters, every dimension below 2^24, every training set and threshold and maximum number of iterations, every observation of single precision numbers", "why_tests_cant": "all floats and all sets of them; accumulated rounding errors; the many frames of the last but one claim take half an hour at the usual rates", "anchors": ["src/models/kmeans/xmmKMeans.cpp: KMeans::train, initClustersWithFirstPhrase, updateCenters, filter, reset, euclidean_distance"]}
{"id": "C103", "title": "Life of a K-Means object", "statement": "Any sequence of calls on one K-Means object (settings, with the exceptions for values out of range caught, training with recordings, reset(), filter(), loading a file) is safe except for one case, and then always wrong: filter() with an observation of the right size while the number of clusters is larger than at the last training or at the last reset() reads outside the centers or writes outside the distances; in particular a new object must be trained and reset before. Observations of another size throw and change nothing. Otherwise filter() gives the distances to the centers and a nearest cluster. A training uses the last settings and starts from the recordings only: what was learned before does not matter, and the centers are the result of updates, each of which assigns the frames to the nearest center and averages, until the relative change is below the threshold or the number of iterations is reached. When all the centers are equal, where the relative change is no number, further updates change nothing.", "quantifier": "every sequence of calls, every training set made of recordings, every setting and observation (exact arithmetic)", "why_tests_cant": "histories of calls of any length; memory accesses that may go unnoticed", "anchors": ["src/models/kmeans/xmmKMeans.cpp: KMeans::train, reset, filter, updateCenters, initClustersWithFirstPhrase, randomizeClusters", "src/models/kmeans/xmmKMeansParameters.cpp: ClassParameters<KMeans>", "src/core/common/xmmAttribute.hpp: Attribute::set"]}
{"id": "C104", "title": "K-Means settings and models survive JSON", "statement": "The settings of K-Means written to JSON and read back are the same, for all settings that can be made, numbers of clusters above the range of int included, and whatever the settings of the target were. A document is either rejected with an exception and changes nothing or gives settings inside their limits. A document without the number of clusters is rejected; one without the threshold is accepted and sets it to 0. A trained K-Means model written to JSON and read back gives the same answers: false, nothing is written and nothing is read, so that a new object that loads the file of a trained one accesses memory outside its vectors at the first filter().", "quantifier": "every reachable setting, every JSON document, every model and observation", "why_tests_cant": "all settings and all documents", "anchors": ["src/models/kmeans/xmmKMeansParameters.cpp: ClassParameters<KMeans>::toJson, fromJson, constructors, operator=", "src/models/kmeans/xmmKMeans.cpp: KMeans::toJson, fromJson, filter"]}
{"id": "C105", "title": "Regression with hierarchical models in double precision", "statement": "With the rounding of doubles and of the single precision outputs, regression with hierarchical HMMs with Diagonal covariances and LeftRight classes, whose learned output means are numbers of at most 2^b, gives numbers for ever and whatever is input, NaN and infinities included: after any number of frames every output of every class is a number of magnitude at most 2^(b+3) times the largest number of states, and, with the Likeliest regression estimator of the class, between the smallest and the largest learned mean up to 2^(b-20) times the number of components. The same bound, with two more units for each state, holds with the Windowed estimator from two states, if some state of the class has at least 2^-33 of the forward probabilities. With the Full estimator the outputs of a class are between P times the smallest and P times the largest learned mean, up to rounding, where P is the part of the forward probabilities that the class has. With the Likeliest estimator the model outputs what its likeliest class outputs. The output variances of the classes, if their learned ones are between 0 and 2^b, and those of the model with the Likeliest estimator are numbers between 0 and 2^(b+4) times the largest number of states, and exactly 0 for a class with the Likeliest regression estimator. Up to rounding they are at most the largest learned variance times P with the Windowed estimator, under the same conditions as above, and times the square of P with the Full estimator. A class none of whose states has a part of the forward probabilities outputs exactly 0 with the Full and Windowed estimators, whatever it learned. It follows that two further claims are false. The outputs of the model are not always near what was learned: the likeliest class is chosen over the last frames and may have no part of the probabilities at the last one, then the model outputs 0. With the Mixture estimator the outputs are not always numbers: when every class has had a frame of likelihood 0 in its likelihood window, every output is NaN, for every model.", "quantifier": "every hierarchical model with Diagonal covariances and LeftRight classes (up to 2^20 states and components, b up to 77), every sequence of frames of doubles, every exponential and logarithm within weak bounds", "why_tests_cant": "rounding, overflow, NaN and infinities for all models and all sequences", "anchors": ["src/models/hmm/xmmHierarchicalHmm.cpp: HierarchicalHMM::filter, forward_init, forward_update", "src/models/hmm/xmmHmmSingleClass.cpp: SingleClassHMM::regression, updateAlphaWindow, updateResults"]}
{"id": "C106", "title": "The output covariances are those of the output", "statement": "The outputs of a trained HMM class are a combination of the outputs of its states, with coefficients that depend on the regression estimator; results.output_covariance is the covariance of this combination, the states and the components of each being independent: the sum of the squared coefficients times the covariances. True with the Full estimator, for every entry and both covariance modes. With the Windowed estimator (two states or more) what is reported is the covariance of the output multiplied by M, the probability that the state is in the window (0 < M <= 1): the weights are divided by M, their squares too but not by its square, so the less likely the window is the smaller the reported covariances. False with the Likeliest estimator: all entries are 0, although the variances of the output are positive if those of the components are.", "quantifier": "every usable single-class HMM (Full and Diagonal covariances, Ergodic and LeftRight), every sequence of observations of the right dimension, every entry; exact arithmetic", "why_tests_cant": "the factor depends on the probabilities of the states after every sequence; it is 1 when the window has all the states that have a part of the probability, the usual test", "anchors": ["src/models/hmm/xmmHmmSingleClass.cpp: SingleClassHMM::regression, updateAlphaWindow", "src/models/gmm/xmmGmmSingleClass.cpp: SingleClassGMM::regression"]}
{"id": "C107", "title": "The output covariances of mixtures are those of their outputs", "statement": "The outputs of a bimodal GMM are a combination: of the outputs of the components in each class, with the posterior probabilities, and of the outputs of the classes in the model. The output covariances that each class reports are those of this combination for independent components, the sum of the squared probabilities times the covariances of the components. With the Likeliest estimator the model reports those of the class whose output it reports. False with the Mixture estimator: the outputs of the classes are weighted with the normalised smoothed likelihoods and the covariances too, with the same weights and not with their squares. With two classes or more and positive variances, every reported variance is strictly larger than that of the output, after every sequence of observations. Models of several HMMs, in hierarchical mode or not, do the same with what their classes report: they copy the output and the covariances of the likeliest class, or average both with the same weights, so that the reported variances are at least those of the average and strictly larger if one of them is positive.", "quantifier": "every usable bimodal GMM and HierarchicalHMM (any number of classes, Full and Diagonal covariances), every sequence of observations of the right dimension, every entry; exact arithmetic", "why_tests_cant": "the weights depend on the whole sequence; with one class the two formulas agree, and no test can compare them for all sequences", "anchors": ["src/models/gmm/xmmGmm.cpp: GMM::filter", "src/models/gmm/xmmGmmSingleClass.cpp: SingleClassGMM::filter, regression", "src/models/hmm/xmmHierarchicalHmm.cpp: HierarchicalHMM::filter"]}
