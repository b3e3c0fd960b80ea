# Design of the formal model of xmm

Source: /repo (Ircam-RnD/xmm, C++), read as text.  Model and proofs: `rocq/theories`.

## Method

* The model is a set of total Gallina functions that follow the C++ function by
  function.  Each definition cites the file and lines it models and names every
  simplification.
* C++ exceptions and undefined behaviour are explicit outcomes of the model
  (`Throw e`, `UB`), never default values.
* Code that computes with numbers is written once, polymorphically over a record
  `arith` of operations (`Arith.v`).  Two instances are used:
  * `RA`: the reals of the standard library.  Universal numeric theorems are about
    this instance, so they are statements about exact arithmetic, not rounding.
  * `FA`: IEEE binary64 written in plain Gallina (`SpecFloat` of the standard
    library).  Refutation witnesses that need NaN, infinities or rounding run here, and the theorems about
    rounding (C94-C100, C102, C105) quantify over it; their proofs show that its operations are those of the Flocq library,
    which are correctly rounded.
* `float`/`double` mixing (but for C95), and wrap-around of `unsigned`, are not modelled (sizes are `nat`).
* Concurrency is an interleaving semantics over atomic steps, one per access to a
  shared variable of `Model`.
* For each module: `Model_*.v` (definitions only), `Spec_*.v` (independent
  specification), `Proofs_*.v` (lemmas), `Props_*.v` (property theorems, each closed by
  `exact`, followed by `Print Assumptions`, with examples meeting the hypotheses).
* When a claim is false of the code, the theorem `..._refuted` exhibits a concrete
  counterexample of the faithful model, and the part that holds is proved beside it.

## Plan per property

| id | what is modelled | how it is settled |
|----|------------------|-------------------|
| C01 | `Attribute<T>` record with value, limits, changed flag, listener; op log of listener calls | case analysis on `set`, for every comparison function |
| C02 | op histories on an attribute | invariant by induction; refutation for tightening |
| C03 | `checkLimits<double>` on binary64 | refutation with NaN; proof for ordered values |
| C04 | implicit copy assignment of an attribute | refutation |
| C05 | vector attribute | invariant over histories |
| C06 | listener map as association list sorted by owner | refinement to "first since last removal" |
| C07 | ring buffer as physical array + index + full flag | refinement to the last L values |
| C08 | `mean()` over physical slots | permutation argument on the reals |
| C09 | `resize` | refutation, partial theorem for non-full buffers |
| C10 | row-major `Matrix`, `product`, `transpose` | index algebra with finite sums |
| C11, C12 | `gauss_jordan_inverse`, `pinv` | row operations preserve the solution set |
| C13 | `det` output | determinant by row expansion, defined and developed in `Spec_Det.v`/`Proofs_DetFacts.v`; refutation for the sign |
| C14 | non-square `pinv` | from C11 and product laws |
| C15 | JSON values, `vector2json`, `json2vector` | induction on lists |
| C16-C18 | `Phrase` with explicit allocated blocks; out-of-block access is `UB` | refinement to a list of frames by induction over op histories |
| C19 | `toJson`/JSON constructor | round trip by computation on lists |
| C20 | `onAttributeChange` | same refinement extended with attribute ops |
| C21 | copy constructor with uninitialised pointers as a block state | refutation + proof for allocated phrases |
| C22, C23 | statistics, `rescale` | finite sums on the reals; refutation for bimodal rescale |
| C24-C26, C28 | `TrainingSet` over a heap of phrases shared by reference | invariant over histories |
| C27 | statistics over all phrases | finite sums |
| C29-C32 | `GaussianDistribution` | algebra on the reals, C11 for the inverse |
| C33, C34 | JSON and assignment of a Gaussian | round trip / refutation |
| C35 | `SharedParameters::onAttributeChange` | invariant over histories, refutation for toggling |
| C36-C38 | EM driver with an arbitrary update oracle and cancel schedule | induction on fuel 1000, event grammar |
| C39-C43 | `Model` training protocol as an interleaving transition system | inductive invariant over all schedules; refuting schedules |
| C44 | `Configuration` and `addModelForClass` | map lemmas over histories |
| C45 | shared-pointer graph of model and classes | refutation |
| C46-C49, C73 | `KMeans` | standard Lloyd descent argument on the reals |
| C50-C55, C74 | single-class and multi-class GMM | finite sums, quadratic forms |
| C56-C62, C75 | single-class HMM with Gaussian-mixture states | path-sum induction |
| C85 | progress of EM on mixtures | Jensen and Gibbs inequalities; trace and determinant of positive definite matrices by conjugate directions |
| C86 | progress of Baum-Welch on single-class HMMs | Jensen's inequality on path sums; every state stays visited and keeps a positive definite covariance |
| C87, C88 | `GMM::train` on a `TrainingSet`, then `reset` and `filter` | composition of the layers: training set histories, training driver, EM, filtering; learning is shown to be a function of the recordings of the class |
| C89, C90 | `HierarchicalHMM::train` on a `TrainingSet`, then `reset` and `filter`, both modes | the same composition, down to the mixtures trained inside the initialisation; refinement to the flat HMM for recognition; idempotence of `reset` |
| C91 | `GMM::train(set, label)` on new and existing classes, joined | simulation between a class that starts from arbitrary learned values and a new one; induction over the sequence of labels; equality of recognition |
| C92 | `cancelTraining(label)`, `train(set, label)` and `removeClass(label)` called while threads of `Model_Life` run | invariant of the threads and of the place of the caller that holds as long as another class is pending; ranking function for fairness; refutations by the invariant and by schedules |
| C93 | `HierarchicalHMM::train(set, label)` on new and existing classes, joined | simulation between a class that starts from arbitrary learned values and a new one, exit probabilities apart; induction over the sequence of labels; equality of recognition |
| C94 | recognition of a GMM in binary64, exp and log arbitrary functions with coarse bounds | sign and magnitude analysis of every operation, error of sums by induction, invariant of the likelihood window over the frames |
| C95 | `SingleClassGMM::emAlgorithmInit` with products of `float` | exactness of sums of equal values and of the difference (Sterbenz), inversion of the initialisation |
| C96 | recognition of a hierarchical HMM with LeftRight classes in binary64 | lower bound of the scaled forward variables over the frames (the observation probabilities are at least the floor of the densities); refutation for the smoothed posteriors |
| C97 | recognition of HMMs without hierarchical mode in binary64 | per class: lower bound of the scaled forward variables, magnitude of the scaling factors, of the likelihood window and of the progress, invariant over the frames |
| C98 | EM training of mixtures in binary64 | validity of every member through K-Means, initialisation and updates; shares and weights sum to one by error bounds; sums of at most 2^b times the weights are at most 2^b times the sum of the weights (scaling by powers of two commutes with rounding); zero mass gives NaN, zero weight gives mass |
| C99 | GMM regression in binary64 with binary32 outputs | error of a weighted sum accumulated in single precision over the exact convex combination; weights from C94; filter keeps the learned members; NaN is absorbing in sums |
| C100 | HMM regression in binary64 with binary32 outputs, non-hierarchical | forward variables sum to 1 up to rounding (from the scaling); window weights divided by their sum; C99's accumulation over states, then over classes; filter keeps the learned members |
| C101 | hierarchical regression in real arithmetic | weights of the states from the exact filtering of C77; their sum over all the classes is at most 1; convexity |
| C102 | K-Means in binary32 | the functions of `Model_KMeans` at the binary32 arithmetic; generic characterisation of distances, labels and centers; order of floats with infinities and NaN; errors by factors between 1/(1+2^-24) and 1+2^-24; NaN and saturated sums by induction |
| C103-C104 | a K-Means object through any calls; its settings | `Model_KMeans2` (settings, JSON, calls, training from a training set) against the sizes that `Spec_KMeans2` keeps (`view_step`); updates as a relation (`run_updates`); settings in any arithmetic |
| C105 | hierarchical regression in binary64 with binary32 outputs | C96's forward variables; a weight times an output divided by the constant is bounded even when the weights underflow (`term_bound`); `hier_inv` over frames; a null likelihood window makes the mixed outputs NaN; the likeliest state is in the window, so its constant is not small if the class is heard (`class_windowed`); the sum over all the states is the mass of the class times the hull (`class_full`); the square of a weight is at most twice the weight, so the variances are bounded by the same argument (`class_var`), and by the mass or its square (`class_var_windowed`, `class_var_full`) |
| C106 | output covariances of HMM classes | the loop invariants of regression with the covariances (`hregression_ocov`), against the variance of a combination of independent variables (`comb_var`) |
| C107 | output covariances of GMMs and of models of HMMs | the same specification for classes (`filter1_ocov`) and for the model (`filters_gcov`); for HMMs, what the last step does with the results of the classes (`hh_filter_inv`, `mix_outputs_cov_ok`) |
| C84 | initialisation of a single-class HMM | index algebra on the pieces; closed form of EM with one component |
| C63-C66, C76-C79 | hierarchical HMM, both modes | refinement to the filter of one flat HMM (path sums); invariants over histories of class operations |
| C67 | HMM parameters | field-by-field refutation |
| C69 | `covariance_mode` listener | both switches proved, same-mode sets refuted |
| C71 | shared parameters JSON | round trip proved; early names refuted |
| C72 | `Configuration` JSON and `operator=` | generic over the class parameters, instances GMM and HMM |
| C82, C83 | JSON form, copy constructor and assignment of hierarchical HMMs | relational simulation over any arithmetic, at class and model level; training proved to establish the hypotheses |
| C80, C81 | JSON form, copy constructor and assignment of GMMs | relational (two-run) simulation over any arithmetic; training proved to establish the hypotheses |
| C70 | ellipses | algebra with `atan`/`tan` of the reals; refutation in binary64 |

## Trusted base

* The Coq 8.16.1 kernel (and `vm_compute`, used in the examples and in refutations that run on literals).
* Axioms: only those of the standard library's real numbers, `ClassicalDedekindReals.sig_forall_dec`,
  `ClassicalDedekindReals.sig_not_dec`, `FunctionalExtensionality.functional_extensionality_dep` and
  `Classical_Prop.classic`.  Theorems about reals, and C94-C100, C102, C105 which compare floats with reals, use some or all of them;
  theorems about any arithmetic, the other ones about binary64 and about everything that does not compute with numbers
  use none.  The proofs of C94 to C100, C102 and C105 use the Flocq library, which has no axioms of its own.  `ASSUMPTIONS.md` lists them theorem by theorem.
* The correspondence between the C++ text and the definitions, as cited in their comments.  Nothing was compiled or run.

### What is modelled

Line numbers are in the comments of the `Model_*.v` files.

| source (src/) | definitions | not modelled |
|---------------|-------------|--------------|
| core/common/xmmAttribute.{hpp,cpp} | `Model_Attribute`, `Model_Config` (limits) | `operator=` between attributes of different types |
| core/common/xmmCircularbuffer.hpp | `Model_Ring` (any number of channels, any length) | |
| core/common/xmmEvents.hpp | `Model_Events` | |
| core/common/xmmJson.{hpp,cpp} | `Model_Json`: values, typed readers, arrays | jsoncpp itself: parsing and printing of text, number formatting; the text of exceptions |
| core/common/xmmMatrix.hpp | `Model_Matrix` | printing, ownership of the data |
| core/distributions/xmmGaussianDistribution.* | `Model_Gaussian`, `Model_Ellipse` | |
| core/model/xmmModelSharedParameters.* | `Model_Shared` | |
| core/model/xmmModelConfiguration.hpp, *Parameters.cpp | `Model_Config` | KMeans parameters as a configuration |
| core/model/xmmModelSingleClass.* | `Model_Train` | the busy wait of the destructor |
| core/model/xmmModel.hpp | `Model_Model` (train, join, cancel, threads), `Model_Life` (shared pointers), `Model_Reload` (JSON, copies), `Model_Workflow`, `Model_Workflow2` (train on a training set), `Model_Workflow3`, `Model_Workflow4` (train one class), `Model_Life2` (calls on one class during a training) | real memory model of threads: accesses to shared variables are atomic steps |
| core/trainingset/xmmPhrase.* | `Model_Phrase` | |
| core/trainingset/xmmTrainingSet.* | `Model_TrainingSet` | reverse iterators |
| models/kmeans | `Model_KMeans`, `Model_KMeans2` | the deviation of the training set is computed for the random initialisation only; `0/0` in the stopping test (see C103_equal) |
| models/gmm | `Model_GMM`, `Model_Single`, `Model_Single2`, `Model_Reload` | |
| models/hmm/xmmHmmSingleClass.* | `Model_HMM`, `Model_Reload` | `initMeansWithAllPhrases`, `initCovariances_fullyObserved`, `backward_update`, `argmax`: never called |
| models/hmm/xmmHierarchicalHmm.* | `Model_HHMM`, `Model_Reload` | |

### Simplifications

* Sizes and indices are `nat`: no wrap-around of `unsigned`, except where a subtraction can go below zero (`usub`, an
  explicit undefined outcome) and where the code converts to `int`.
* `float` and `double` are one type of numbers: no loss when a `float` attribute is computed with.  JSON readers that go
  through `float` do round (`as_float`).  The products of `initCovariances_fullyObserved` are in single precision in C95
  (`Model_Single`, without excess precision, FLT_EVAL_METHOD 0); `gm_init` with the product of the arithmetic is the instance used elsewhere.  Likewise the
  deviations of the Diagonal covariance update, which the code stores in a `float` (xmmGmmSingleClass.cpp 495-498), are a parameter of
  `gm_update_with` (`Model_Single2`): C98 rounds them, the real-number theorems use `gm_update`, which does not.
* The predicted outputs and output covariances are vectors of `float`.  `g_regression_with`, `gm_regression_with`, `mix_outputs_with` and
  `gm_filter_with` (`Model_Single3`) convert at every store, as C99 does; with the identity as conversion they are the functions of the other theorems.
  `hm_regression_with`, `hm_filter_with`, `hh_forward_with` and `hh_filter_with` (`Model_Single4`) do the same for hidden Markov models (C100, and C105 for the hierarchical mode);
  `hh_filter_with_id` shows that without conversion they are `hh_filter`.
* All the numbers of K-Means are `float`: C102 takes `Model_KMeans` at the binary32 arithmetic `SA` (`Model_Single5`), with no excess precision and no
  fused operations.  The random initialisation is computed in double and is left out of C102.
* Standard deviations of the training set reach the initialisations as a parameter (`dev`), and the number of updates made
  by an EM loop as a number, so that the theorems hold for every value; that the loop ends is C36/C37, and C87 and C89 put
  the pieces together.  The mixture that `initMeansCovariancesWithGMMEM` trains for a state is a model with one class: its
  training is the training of that class (`init_state`), since the rest of it (label, thread mode, reset) is thrown away.
* Random numbers of K-Means are an arbitrary function.
* Pseudo-random or uninitialised memory: reading an uninitialised number gives an arbitrary value (`junk`), reading an
  uninitialised pointer is undefined.
* The `std::map` of classes is a list sorted by label; the label inside a class is its key.
* Callbacks of attributes are followed where a property is about them (C04, C34, C45) and left out of the numeric models.
* `exp`, `log`, `sqrt`, `pow`, `atan` are those of the reals in `RA`; in `FA`, exp and log are arbitrary functions
  (C94 assumes that they take doubles to doubles and a few bounds on their values, `libm_f64`).

## Findings

Places where the code does not do what the property first asked for.  Each has a `_refuted` theorem.

* Attributes: `checkLimits` accepts NaN; tightening a limit leaves the value outside it; copy
  assignment of an attribute keeps the old listener owner.
* Circular buffer: `resize` of a full buffer loses the order of the values.
* Matrix inversion: the pivot threshold is absolute (1e-9); NaN pivots pass the test; the sign of
  the determinant is not flipped by row swaps; `pinv` of a non-square matrix reports determinant 0.
* JSON readers (`float`, `double`, `bool`, `string`): size 0 accepts any JSON value.
* Phrase:
  * `clearInput`/`clearOutput` on a unimodal phrase leave `empty()` false with `size()` 0;
  * copying, assigning or loading a phrase that has no allocated data leaves the data pointers
    indeterminate; destroying the result or recording into it is undefined;
  * changing a dimension releases arrays with scalar `delete`;
  * a bimodal phrase whose dimension is set below its input dimension overruns on `record`;
  * some dimension pairs that the attributes accept are refused by the JSON constructor;
  * `rescale` of a bimodal phrase uses the global index in the output block: it leaves values
    unscaled and, at the end of the allocation, accesses memory outside it.
* Training set:
  * the copy constructor shares the phrases with its source, and is undefined when a phrase has no
    data;
  * a destroyed set, or a set a phrase was removed from, stays registered as listener: changing
    the label of such a phrase after the set's destruction calls a dead object;
  * reducing the dimension below the input dimension leaves the input dimension above its limit;
    then the next `addPhrase`, `removePhrase` or label change throws `domain_error` and leaves the
    classes incomplete;
  * a change of dimension does not resize the column names of the classes.
* Gaussian distribution:
  * Full mode refuses variances below 1e-9 that Diagonal mode accepts;
  * a Diagonal distribution of dimension > 1 cannot be read back from its JSON form; a Full one
    loses its output covariance (GMM regression then reads outside it) and its attribute limits;
  * assignment and `fromJson` copy the listeners of the source: the target is not reallocated
    when its dimension changes, or calls a destroyed object;
  * setting the covariance mode to its current value destroys the covariance (Full) or reads
    outside it (Diagonal);
  * `fromEllipse` of an axis-aligned ellipse stores NaN.
- **Shared parameters (C35).** `bimodal.set(false)` after the object was bimodal always throws `domain_error`
  half way (the lower limit 1 of `dimension_input` is never lowered), leaving `bimodal = false` and a
  `dimension_input` that can no longer be set. `bimodal.set(true)` throws half way after a redundant
  `bimodal.set(false)` on an object with dimension >= 2 (its `dimension_input` limit is 0).
  A bimodal dimension can be lowered below `dimension_input`; a unimodal object accepts a `dimension_input`.
- **Listeners (C34).** `SharedParameters::operator=` and `fromJson` copy the callbacks of the source: changes are
  not propagated any more, and after `fromJson` every accepted assignment calls a destroyed object.
- **Early column names (C71).** `column_names` set before any dimension change make `toJson` throw `out_of_range`.
- **`hierarchical` is not assigned (C44, C72).** `ClassParameters<HMM>::operator=` forgets it: loading or assigning
  a non-hierarchical configuration keeps the target's flag, and `configuration[label]` always starts from `true`.
- **Regularization limit (C72).** 1e-20 is accepted, but JSON reads it back as a float, just below the limit: loading throws.
- **Training driver (C36, C38).** `allocate()` runs outside the `try` of `train`: an exception there leaves the training
  lock held and `isTraining()` true. With `max_iterations < min_iterations` (the default) the progression divides by
  `min_iterations` and passes 1.
- **Training protocol (C39-C42).** `joinTraining` uses `compare_exchange_weak` without a loop: on a spurious failure
  `train` returns while the classes train. In Background mode a class that finishes before the next one is started
  finds the counter at 0 and starts a joining thread: Alldone is announced early, later failures stay in the model
  and `cancelTraining` does nothing; with another timing Alldone is announced twice (`onTrainingEvent` clears
  `is_joining_` before it starts the thread). `is_joining_` is cleared before `is_training_`, so that
  `cancelTraining` may return with `training()` still true. Sequential mode keeps failed classes and never announces
  Alldone. `is_training_`, `cancel_training_` of the classes and `models_still_training_` are plain variables that
  several threads write: a data race, outside the sequentially consistent model used here.
- **Failed `train` (C43).** `is_training_` is set before the attributes are checked: a training set that does not fit
  makes `train` throw `domain_error` with `training()` true, no classes, and `reset`, `filter` and copies refused;
  `cancelTraining` repairs it but announces Alldone.
- **Shared parameters of copies (C45).** The classes of a copied, assigned or loaded model keep the pointer to the
  source's (or the temporary's) parameters: changing `likelihood_window` of the copy does nothing, changing that of
  the source changes the copy. The likelihood buffer of a class is not copied either.
- **K-Means (C48, C49, C73).** A copied `KMeans` has a null `shared_parameters`: `filter` and `train` dereference it. An
  assigned one keeps its old dimension. `filter` before `reset` writes outside `results.distances`. With one cluster the
  stopping test divides 0 by 0 (it then never stops early). Random initialisation is centered at the origin, not at the data.
- **GMM (C51, C55, C74).** The regularisation is accepted down to 1e-20 but an EM update of a Full class with a regularisation
  below the pivot threshold 1e-9 can throw on data without spread. If every phrase has fewer frames than the class has components,
  the initial covariances are 0/0: all likelihoods are then floored and the components stay identical. In a bimodal model with
  the Mixture estimator the covariances of the outputs are combined with the default covariance mode: a class configured as
  Diagonal under a Full default is read out of bounds.
- **HMM class (C59, C60, C62).** Ergodic transitions become 0/0 when every phrase has one frame. `reset` in non-hierarchical
  mode adds 0.05 to the last row (again idempotent, but the row sums to more than one). With one state the Windowed estimator
  always returns 0. Between EM iterations transition rows are not normalised. `exit_probabilities_.resize` keeps the old entry
  0.1 of the former last state when the number of states grows on retraining. `baumWelch_estimatePrior` reads the first frame of
  an empty phrase. After a hierarchical `reset` the vector alpha is empty: switching an Ergodic class to non-hierarchical mode
  without allocating writes outside it. If no phrase has as many frames as the class has states, the states keep default
  Gaussians that were never inverted.
- **Hierarchical HMM (C61, C63, C64, C77, C78).** The numerator of the progress counts the exit mass and the denominator does
  not: progress passes 1. Ergodic classes add their first likelihood to the value they reported before the reset (uninitialised
  memory the first time), so that the first frame depends on the past and the forward variables sum to less than one; the
  second-frame likelihoods are scaled accordingly. The class priors are ignored when Ergodic classes start. The exit likelihood
  and ratio are not updated on the first frame. Trained rows sum to one before the exit probability is added: the flat model is
  not a probability model (weight 10/9 or 1/(1-exit) out of some states). The transition of the first state to itself is not
  divided by one minus its exit probability.
- **Non-hierarchical mode (C66, C76, C79).** Each frame is pushed twice in the likelihood buffers. Adding a class to others,
  removing one of several or losing one in training throws `runtime_error` after the change was made: `updateExitProbabilities`
  refuses classes that are not hierarchical; after `train` this leaves `training()` true. Ergodic classes trained in hierarchical
  mode are filtered with an empty forward variable: out of bounds. Switching back to hierarchical mode keeps the cyclic
  transition 0.05 written by `reset`.
- **Exit probabilities.** Every change in the number of classes resets the exit probability of the last state of all classes
  to 0.1, and loses nothing else that was set with `addExitPoint`.
- **Saved and copied models (C80, C81).** A GMM with Diagonal covariances in two dimensions or more is written to JSON but cannot
  be read back. A GMM constructed from JSON has empty result vectors: `filter` before `reset` writes outside them. The likelihood
  buffer of a copied or loaded class has length one until `reset`. The same holds for hierarchical HMMs (C82, C83), which also lose
  their mode: `operator=` of the parameters does not copy `hierarchical`, so a model constructed from JSON is hierarchical whatever
  the file says, and a model assigned to, or loaded into, keeps its own mode.
- **HMM initialisation (C84).** The weights of the mixtures trained for the states are dropped. If every phrase is shorter than the
  number of states, the states keep a determinant of 0 and the first update throws `runtime_error`.
- **Progress of training (C85).** The covariance offset added after every update is not part of what EM maximises: the log-likelihood
  returned by one update can be lower than the one returned before it (two components, frames -1 and 1, absolute regularisation 0.5).
  The stopping rule uses the absolute value of the change, so a drop counts like a rise.
- **Progress of HMM training (C86).** Expected transitions are divided by the expected visits of all frames, the last frame of each
  phrase included, plus 2e-5; rows therefore sum to less than one until `emAlgorithmTerminate` normalises them (and to more than one
  for some LeftRight models trained on several phrases, where 1e-5 is added once per phrase). The returned log-likelihood can drop:
  with one state and one Gaussian it always drops at the first update, if a phrase has two frames.
- **Filtering after training (C88).** In the Sequential mode `train` does not call `reset` after the classes are trained (the join does it
  in the other modes): the result vectors still have the size `clear()` gave them, zero, and the first `filter` writes outside.
  The same holds for hierarchical HMMs (C90). Without the hierarchical mode, a trained model with an Ergodic class cannot filter at
  all: its classes are made hierarchical, the first of the two resets in `HierarchicalHMM::reset` empties the forward variables, and
  the reset that follows the change of mode does not size them again.
- **Adding a class (C91).** `train(set, label)` in the Sequential mode adds a class but does not reset the model: a model that was ready
  to filter now has result vectors that are one class too short, and the next `filter` writes outside them.
- **Training one class of a hidden Markov model (C93).** `SingleClassHMM::allocate` resizes the exit probabilities but never clears
  them: a class that is trained again with more states keeps the 0.1 of its former last state in the middle. Without the hierarchical
  mode, once the model has been reset, adding a class throws in `updateExitProbabilities` of an existing class after the new class was
  inserted and `is_training_` was set: the untrained class stays, and the next `reset`, or the join that the next `train(set, label)`
  calls, writes into its empty transitions. The result vectors are too short as for C91.
- **Calls during a training (C92).** In Background mode `train(set, label)` on a class of a model whose other classes are training ends
  the program: `cancelTraining(label)` joins only when no class is counted any more, so that `training_threads_[label]` still holds a
  joinable thread when the new one is assigned. `removeClass(label)` erases the class (its thread may still be inside it) and then
  throws in `reset`. `cancelTraining(label)` itself can swallow the end of the training: if the last other class ends between the test
  of `models_still_training_` and `cancel_required_ = false`, nobody joins.
- **Constant dimensions in mixed precision (C95).** `initCovariances_fullyObserved` squares the values as `float` and subtracts the
  square of a `double` mean: the initial variance of a constant dimension is the rounding error of the square (about 1e-7 of it), which
  can be negative and larger than the regularisation. With Diagonal covariances `emAlgorithmInit` then throws: a dimension constantly at
  200.3 cannot be trained with the default regularisation.
- **Null likelihoods (C96).** In a hierarchical HMM the likelihood of a class is the sum of its scaled forward variables, which can
  underflow to 0 when another class explains the observations much better. Its logarithm, minus infinity, then stays in the likelihood
  window: the smoothed likelihood of the class is 0 until the window has forgotten the frame, even if the class is recognised by the
  instantaneous posteriors, and when all the classes have had such a frame all the smoothed posteriors are NaN. The progress and the
  exit ratio of the class, which are divided by the same sum, are NaN at the frame. With the default window of one frame only
  the frames themselves are concerned.
* EM updates of mixtures in double precision (C98): a component whose weight times the density floor 1e-180 is a denormal number gets no part of
  any frame that another component explains with a density over 1, and its mean and variance become NaN (0/0) while `updateInverseCovariance`, which
  only refuses values less than or equal to 0, accepts the NaN. A product that underflows to exactly 0 is replaced by 1e-100, which is more than
  the products that do not underflow: the weight of the component goes up again at the next update. Until then, bimodal regression with the class
  would give NaN.
* Regression in double precision (C99): a component that training left without a mean (C98) has a null weight, but its NaN mean is still multiplied by
  its weight and summed, so every output of its class is NaN for every input; the Mixture estimator spreads it to the whole model
  (`C99_trained`, `C99_lost`).
* Regression with hidden Markov models (C100): with the Windowed estimator and one state, `updateAlphaWindow` selects the states from the likeliest one
  included to the likeliest one excluded, so that the outputs of the class are 0 for every input (`C100_one_state_refuted`).  With the Likeliest
  estimator the output variances are always 0.
* Hierarchical regression (C101): `SingleClassHMM::regression` with the Full estimator, which is the default, adds the outputs of the states weighted by
  `alpha_h[0] + alpha_h[1]` and divides by 1.  In hierarchical mode these variables are normalised over all the classes (and those of the third level are
  left out), so the output of a class is multiplied by at most its posterior probability.  With two classes or more the outputs of all the classes, and
  of the model, are biased towards 0 (`C101_full`, `C101_full_refuted`); the Mixture estimator multiplies by the probabilities of the classes a second
  time.  The Windowed estimator divides by the sum of the weights and is not affected.
* K-Means in single precision (C102): `updateCenters` adds up the frames of a cluster in `float`.  The sum of more than 2^24 equal values stops growing,
  and 2^25 frames equal to 1 give a center at 1/2 (`C102_many_refuted`).  One NaN in one frame of the training set moves all the centers but the first to
  the origin and the first to NaN, because every comparison with the NaN distance is false; `filter` then reports the second cluster for every
  observation (`C102_nan_refuted`).
* Life of a K-Means object (C103): `filter` uses the current number of clusters with the centers of the last training and the distances of the last
  `reset`.  Raising `clusters` without training and resetting, and filtering after a training without `reset`, access memory outside the vectors
  (`C103_calls`, an exact characterisation).
* K-Means files (C104): the bodies of `KMeans::toJson` and `fromJson` are commented out: a model is not saved, nothing is loaded and nothing is
  reported (`C104_model_refuted`).  A settings document without `relative_distance_threshold` is accepted and sets the threshold to 0
  (`C104_missing`).
* Regression with hierarchical models in double precision (C105): with the Likeliest estimator, the model outputs the output of the class whose
  smoothed likelihood is the largest, computed with the forward variables of the last frame only.  When the gesture changes, that class can have no
  forward mass left, and the model outputs 0 although all classes learned other values (`C105_learned_refuted`).  With the Mixture estimator, a frame
  of likelihood 0 in the window of every class makes all outputs NaN until the window has passed (`C105_mixture_refuted`).
* Output covariances (C106): `SingleClassHMM::regression` returns with the Likeliest estimator before it sets `output_covariance`, which stays 0.
  With the Windowed estimator it divides the squared weights by the mass of the window, not by its square: the covariances are multiplied by the
  probability of the window, so that they decrease when the window is less likely.
* Output covariances of models (C107): with the Mixture estimator, `GMM::filter`, like `HierarchicalHMM::filter`, weights the covariances of the classes like their outputs, although
  `SingleClassGMM::regression` squares the weights for the components: the variances are larger than those of the output with two classes or more
  (`C107_mixture_refuted`).
