# Design of the kerch model

The code base is a Python/PyTorch toolbox (`/repo/kerch`). The model is a set of
small total Gallina functions, one per Python function that matters for a
property, in `rocq/theories`. Every definition cites the file and the lines it
models and says what it simplifies. Exceptions are values (`result`).

## Layout

* `*.v` model files: definitions only (no proofs).
* `*Spec.v`: what the properties mean, independently of the model's helpers.
* `*Proofs.v`: lemmas.
* `Properties*.v`: the property theorems, followed by `Print Assumptions`, and by
  `Example`s (`Cnn_nontrivial`) showing that the hypotheses can be met.

Three styles of model are used:

* **A, discrete**: lists, strings, `nat`, `Z`: caches, module trees, index
  selections, histories, name resolution, data splits, optimiser groups.
* **B, real analysis**: Coq's `R` and `list R`: kernels with `exp`, `sin`,
  `cos`, `sqrt`, transforms fitted on a sample, pre-image methods.
* **C, linear algebra**: mathcomp matrices over an arbitrary `realFieldType`
  or `rcfType`: Gram matrices, centering, KPCA, LS-SVM, Nyström, Stiefel.

## Reading of "refuted"

The pinned code violates several properties a user would rely on. For these
the full English statement stays in `properties.jsonl`; the model proves
`…_refuted` (a concrete execution of the faithful model on which the statement
fails) together with the strongest fragment that does hold (`…_partial`, or a
theorem whose hypothesis names exactly the excluded case). Such properties are
`partial` in `MANIFEST.json`, with a note naming the refutation.

## Trusted base

* Coq 8.16.1's kernel (`coqc`, `coqchk`), and `vm_compute` where used.
* The axioms `Print Assumptions` lists, theorem by theorem in the last section: none for
  style A and C; for style B those of Coq's real numbers and of classical logic in Coq's
  standard library. No other axioms.
* The reading of the Python source: the code is not run; each definition cites
  its source lines so that it can be compared by eye.
* Idealisations: floating point numbers are exact reals (or elements of an
  ordered field), except in `Rounding.v`, where every operation is followed by
  an arbitrary rounding; tensors are lists/matrices without device or dtype, except
  where a property is about identity, aliasing or dtype; logging and printing
  have no effect; `torch` primitives (`mean`, `std`, `eigh`, `randperm`,
  `linalg.solve`, `argsort`/`topk`…) are given by their documented result: either a
  Gallina function or a universally quantified argument with the documented
  property as hypothesis (an eigendecomposition, a permutation, an allocator
  of object identities).
* Python semantics used: dictionaries are insertion-ordered association
  lists; iterating over a list while popping is by index; strings are iterable by
  character; attribute lookups on missing names raise.

## Modelled and not modelled

Modelled, as far as the definitions that cite them go (each definition cites its lines):

* `data/_LearningSet.py`: DataSplit, Datasets
* `data/datasets.py`: DataSplit, Datasets, Precision
* `data/factory.py`: Factory, Script, Watcher
* `feature/cache.py`: Abstract, Cache, CacheReader, Classes, KeptSpec, KernelState, ModuleTree, NystromState, Options, TransformTree
* `feature/logger.py`: Abstract, Classes, Logger, Options
* `feature/module.py`: Abstract, Classes, Hparams, Logger, Params, Plot
* `feature/sample.py`: Abstract, Classes, Errors, Hparams, KernelState, ModelForward, ModelState, NystromState, Options, Params, Precision, Sample, Shared, Stack, StackR, StateDict, TransformR
* `feature/stochastic.py`: Abstract, Classes, Ctor, ModelForward, ModuleTree, NystromState, Sample, Stack
* `kernel/_base_kernel.py`: Abstract, Classes, Errors, ErrorsSpec, Hparams, Kappa, KernelMethod, KernelState, KpcaM, Lazy, ParamKernel, PreCall, Preimage, PropertiesErrors
* `kernel/_factory.py`: Factory, Lazy
* `kernel/distance/_distance.py`: Abstract, Errors, Hparams, HparamsSpec, KernelR, KernelState, Lazy, OptStep, Options, Params, Precision, PropertiesClasses, Rounding, Shared, Units
* `kernel/distance/chebyshev.py`: Abstract, KernelR, Lazy, Rounding
* `kernel/distance/distance.py`: Abstract, CacheRefutations, KernelR, KernelState, Lazy, Rounding, Shared, Units
* `kernel/distance/distance_squared.py`: Abstract, KernelR, KernelState, Lazy, OptStep, Rounding, Shared, Units
* `kernel/distance/euclidean.py`: Abstract, KernelR, Lazy, Rounding
* `kernel/distance/manhattan.py`: Abstract, KernelR, Lazy, Rounding
* `kernel/distance/minkowski.py`: Abstract, KernelR, Lazy, Options, Rounding, Shared
* `kernel/distance/select_distance.py`: Abstract, Classes, KernelR, Lazy, NamesSpec, Shared
* `kernel/distance/wasserstein.py`: Abstract, KernelR, Lazy
* `kernel/explicit.py`: Abstract, Lazy, PreCall, Shared
* `kernel/generic/cosine.py`: Abstract, Corr, Hparams, Lazy
* `kernel/generic/laplacian.py`: Abstract, Classes, Hparams, KernelR, KernelRSpec, Lazy, Options, Shared
* `kernel/generic/linear.py`: Abstract, Hparams, Lazy, PreCall
* `kernel/generic/polynomial.py`: Abstract, Copies, Errors, Hparams, HparamsSpec, Lazy, OptStep, Options, ParamKernelInst, Params, Poly, PreCall, Shared
* `kernel/generic/rbf.py`: Abstract, Classes, Hparams, KernelR, KernelRSpec, Lazy, Options, Shared
* `kernel/generic/sigmoid.py`: Abstract, Copies, DocumentedSpec, Hparams, HparamsSpec, Lazy, OptStep, Options, Params, Shared, TimeR
* `kernel/generic/wasserstein.py`: Abstract, Hparams, KernelR, Options, Shared
* `kernel/implicit.py`: Abstract, Errors, ErrorsProofs, Lazy, PreCall, PropertiesErrors
* `kernel/kernel.py`: Abstract, Beautify, Classes, Corr, Errors, Factory, Hparams, Kappa, KernelR, KernelState, KpcaM, Lazy, NystromState, Options, ParamKernel, PreCall, Preimage, Shared, Stack, TransformR
* `kernel/network/explicit_nn.py`: Abstract, DocumentedSpec, Errors, ErrorsSpec, Hparams, Lazy, Options, Params, PreCall, PropertiesErrors, Shared
* `kernel/network/implicit_nn.py`: Abstract, Hparams, Lazy, Options, Params, Shared
* `kernel/nystrom.py`: Abstract, Classes, Errors, Factory, Hparams, Lazy, NystromM, NystromState, Options, PreCall, Precision, Shared
* `kernel/random_features/random_features.py`: Abstract, Errors, Hparams, HparamsSpec, Lazy, OptStep, Options, ParamKernelInst, Params, PreCall, Precision, RandomFeaturesR, Shared, Stack, StackR
* `kernel/random_features/rf_arcsinh.py`: Abstract, Hparams, Lazy, RandomFeaturesR
* `kernel/random_features/rf_hyperbola.py`: Abstract, Hparams, Lazy, Options, RandomFeaturesR, Shared
* `kernel/random_features/rf_lrelu.py`: Abstract, Errors, Hparams, Lazy, Options, ParamKernelInst, RandomFeaturesR, Shared
* `kernel/random_features/rf_stacked.py`: Abstract, Hparams, Lazy, Options, PreCall, Shared, Stack, StackR
* `kernel/random_features/rff.py`: Abstract, Hparams, Lazy, Precision, RandomFeaturesR
* `kernel/statistics/epanechnikov.py`: Abstract, Hparams, KernelR, Lazy, Rounding
* `kernel/statistics/exponential.py`: Abstract, Hparams, KernelR, Lazy, Options, Precision, Rounding, Shared
* `kernel/statistics/logistic.py`: Abstract, Hparams, KernelR, Lazy, Rounding
* `kernel/statistics/quartic.py`: Abstract, Hparams, KernelR, Lazy, Rounding
* `kernel/statistics/silverman.py`: Abstract, Hparams, KernelR, Lazy, Rounding
* `kernel/statistics/triangular.py`: Abstract, Hparams, KernelR, Lazy, Rounding
* `kernel/statistics/tricube.py`: Abstract, Hparams, KernelR, Lazy, Rounding
* `kernel/statistics/triweight.py`: Abstract, Hparams, KernelR, Lazy, Rounding
* `kernel/statistics/uniform.py`: Abstract, Hparams, KernelR, Lazy, Rounding
* `kernel/time/hat.py`: Abstract, Hparams, HparamsSpec, Lazy, OptStep, Options, ParamKernelInst, Params, Precision, Shared, TimeR
* `kernel/time/indicator.py`: Abstract, Hparams, HparamsSpec, Lazy, OptStep, Options, ParamKernelInst, Params, Precision, Shared, TimeR
* `kernel/vision/additive_chi_2.py`: Abstract, Hparams, Lazy, Precision, TimeR, TimeRSpec
* `kernel/vision/skewed_chi_2.py`: Abstract, Hparams, HparamsSpec, Lazy, OptStep, Options, ParamKernelInst, Params, Precision, Shared, TimeR, TimeRSpec
* `level/_KPCA.py`: Abstract, GenerateM, KpcaM, Lazy, LevelCache, ModelState, Options, Params, Precision, Rebuild, Shared, TotalVariance, ViewState
* `level/_Level.py`: Abstract, Ctor, Hparams, Lazy, LevelCache, ModelState, Options, Precision, Shared, ViewState
* `level/_PPCA.py`: Abstract, Lazy, Options, Params, PpcaM, Precision, Shared
* `level/_View.py`: Abstract, Cache, Ctor, DocumentedSpec, Errors, ErrorsSpec, Hparams, Kappa, KpcaM, LevelCache, LssvmM, ModelState, Options, Precision, Rebuild, RidgeM, Shared, StateDict, ViewState
* `level/factory.py`: Factory, Lazy, ModelState, Watcher
* `level/multi_view/MVKPCA.py`: Abstract, Lazy, MultiView, MultiViewR, MvProjectM
* `level/multi_view/MVLevel.py`: Abstract, Lazy
* `level/multi_view/MultiView.py`: Abstract, Ctor, Lazy, MultiView, MultiViewR, StateDict, ViewsM
* `level/single_view/KPCA.py`: Abstract, Lazy, Rebuild, Shared
* `level/single_view/LSSVM.py`: Abstract, Center, Ctor, HparamsSpec, Lazy, LssvmM, OptStep, Options, Params, Precision, Shared
* `level/single_view/Level.py`: Abstract, Ctor, Lazy
* `level/single_view/PPCA.py`: Abstract, Lazy, PpcaM, Shared
* `level/single_view/Ridge.py`: Abstract, Ctor, Lazy, Options, Precision, RidgeM, Shared
* `level/single_view/View.py`: Abstract, Classes, Ctor, Errors, Kappa, Lazy, LevelCache, LssvmM, ModelState, MultiViewR, Options, Params, Plot, Precision, Rebuild, RidgeM, Shared, ViewState, ViewsM
* `level/single_view/WPCA.py`: Abstract
* `method/_iterative.py`: IterativeM, Method, PreCall, Preimage
* `method/_knn.py`: KernelMethod, Method, PreCall
* `method/_smoother.py`: KernelMethod, Method, PreCall
* `model/KPCA.py`: Lazy, Rebuild
* `model/LSSVM.py`: Ctor, Lazy, LssvmM, OptStep, Precision, Shared
* `model/Model.py`: Errors, Lazy, ModelForward, ModelState, Params, Reports, StateDict
* `model/RKM.py`: Errors, Lazy, ModelState
* `model/_view.py`: Errors
* `model/factory.py`: Factory, Lazy, Script, Watcher
* `monitor/Plotter.py`: Watcher
* `monitor/Saver.py`: Watcher
* `monitor/WandB.py`: Watcher
* `monitor/Watcher.py`: StateDict, Watcher
* `monitor/factory.py`: Factory, Watcher
* `monitor/module.py`: Abstract, Logger, Params, Plot
* `opt/Optimizer.py`: Lazy, ModelState, OptStep, Params, Trainer
* `opt/stiefel/gutils.py`: Stiefel
* `opt/stiefel/stiefel_optimizer.py`: OptStep, Stiefel, Trainer
* `opt/stiefel/utils.py`: Stiefel
* `opt/stiefel_old/gutils.py`: Stiefel
* `opt/stiefel_old/stiefel_optimizer.py`: OptStep, Stiefel, Trainer
* `plot/matplotlib.py`: Plot
* `preimage/iterative.py`: OldPreimage
* `preimage/knn.py`: OldPreimage
* `preimage/ridge_regression.py`: OldPreimage
* `preimage/smoother.py`: OldPreimage
* `script/_parser.py`: Script
* `script/expe.py`: Script
* `script/main.py`: Script
* `train/Trainer.py`: Lazy, ModelState, Script, Trainer, Watcher
* `transform/Transform.py`: Errors, ErrorsSpec, KernelState, ModuleTree, ParamKernel, TransformTree
* `transform/TransformTree.py`: Beautify, KernelState, ModuleTree, ParamKernel, StackR, TransformTree
* `transform/all/MeanCentering.py`: CenterM, StackR, TransformR, TransformTree
* `transform/all/MinMaxNormalization.py`: Precision, TransformR, TransformTree
* `transform/all/MinimumCentering.py`: TransformR, TransformTree
* `transform/all/Sphere.py`: Precision, TransformR, TransformTree
* `transform/all/Variance.py`: Precision, StackR, TransformR, TransformTree
* `utils/cast.py`: Cast, Errors, Precision, Rebuild, Sample
* `utils/decorators.py`: Options
* `utils/defaults.py`: Cache, Classes, Factory, Precision, TotalVariance, TransformSpec
* `utils/errors.py`: Errors
* `utils/math.py`: Eigs, NystromM, NystromState
* `utils/tensor.py`: TransformR
* `utils/type.py`: Precision, RVec

Not modelled: GPU and device handling beyond C10; autograd (gradients are opaque values);
plotting, wandb, downloading data, command line scripts; numerical stability and rounding.
Files without a definition of their own in the model (older copies that nothing imports, scripts,
plots, or classes whose behaviour is inherited from a modelled one):
`_cache.py`, `_dataholder.py`, `_logger.py`, `_module.py`, `_sample.py`, `_stochastic.py`, `kernel/generic/negative_distance.py`, `model/_kpca.py`, `model/_level.py`, `model/level.py`, `model/ridge.py`, `model/view.py`, `monitor/Local.py`, `monitor/model.py`, `monitor/rkm.py`, `opt/stiefel/grassmann_optimizer.py`, `opt/stiefel_old/utils_cayley.py`, `script/version.py`, `train/Hyper.py`, `utils/arch.py`, `utils/dict.py`.

## Plan per property

| id | model | theorem shape | proved in |
|----|-------|---------------|-----------|
| C01 | `Cache.v`: `_get`, `_save`, `_reset_cache`, `_clean_cache`, `_remove_from_cache`, level setter as `step` on an ordered dictionary; the world (the value each key would compute to) is part of the state and may change together with an invalidation | invariant over all op lists: every entry equals its fresh value; corollary: every read returns the fresh value | `PropertiesCache.v` |
| C02 | `Cache.v` | invariant for histories without forced writes and without lowering; refuted in general by a lowering history | `PropertiesCache.v` |
| C03 | `Cache.v` | characterisation of lookup after `_clean_cache`, all contents | `PropertiesCache.v` |
| C04 | `Cache.v` | characterisation of lookup after `_reset_cache`, including `avoid_classes` | `PropertiesCache.v` |
| C05 | `Cache.v`, `Tree.v`, `ModuleTree.v`: rose tree of modules | structural induction; default-argument claim refuted | `PropertiesCache.v` |
| C06 | `Cache.v`: removal iterates over characters when given a string | list form proved, string form refuted and characterised | `PropertiesCache.v` |
| C07 | `Cache.v` | refuted (hit path and string removal) | `PropertiesCache.v` |
| C08 | `Cache.v`: level values are ints or strings | refuted; known names proved | `PropertiesCache.v` |
| C09 | `Cache.v`, `Tree.v`, `ModuleTree.v`: entries may hold nested caches | refuted; the setter characterised | `PropertiesCache.v` |
| C10 | `Cache.v`, `Tree.v`, `ModuleTree.v`: count of applications per tensor | count is 2^depth for all trees (general theorem), hence refuted; idempotent functions proved | `PropertiesCache.v` |
| C11 | `Cache.v`, `Tree.v`, `ModuleTree.v`: rational proportions, banker's rounding, permutation as argument | distinctness, range, count for every permutation; non-emptiness refuted | `PropertiesCache.v` |
| C12 | `Cache.v`, `Tree.v`, `ModuleTree.v` on rose trees | induction on trees | `PropertiesCache.v` |
| C13 | `Cache.v`, `Tree.v`, `ModuleTree.v` | state after each rejected request; validation refuted | `PropertiesCache.v` |
| C14 | `Sample.v`: row writes, last write wins | pointwise characterisation | `PropertiesSample.v` |
| C15 | `Sample.v`: exception point between write and reset | refuted; non-trainable case proved | `PropertiesSample.v` |
| C16 | `Sample.v`: heap of storages, `castf` returns the same storage or a copy | refuted for float32 tensors, proved for copies | `PropertiesSample.v` |
| C17 | `Sample.v` | invariant over op lists | `PropertiesSample.v` |
| C18 | `KernelState.v`: kernel object = sample + idx + sigma + cache, built on `Cache.v` | coherence invariant over all op lists; refinement: `K` reads equal the pure kernel matrix | `PropertiesSample.v` |
| C19 | `KernelState.v` | characterisation of the sigma setter, counter of distance computations | `PropertiesSample.v` |
| C20 | `KernelState.v` | refuted; proved for the first read after construction | `PropertiesSample.v` |
| C21 | `Cache.v`, `ParamKernel.v`, `ParamKernelInst.v` | refuted; proved with an explicit reset in between | `PropertiesParam.v` |
| C22 | `Cache.v`, `ParamKernel.v`, `ParamKernelInst.v` | refuted | `PropertiesParam.v` |
| C23 | `Cache.v`, `Beautify.v`, `TransformTree.v`: memoisation by object identity with an allocator | proved when identities determine values; refuted by mutation and by identity reuse | `PropertiesTransform.v` |
| C24 | `Cache.v` level table with the keys used by the callers | refuted | `PropertiesKept.v`, `PropertiesKeptLevel.v`, `PropertiesTransform.v` |
| C25 | `Beautify.v`: index-based loop with pops | identity on lists without equal neighbours, correct for one final repetition; refuted in general | `PropertiesKept.v`, `PropertiesTransform.v` |
| C26 | `TransformR.v` (style B): explicit chain fitted on the sample, apply and revert | induction over chains | `PropertiesTransformR.v` |
| C27 | `TransformR.v` | column statistics of the transformed sample | `PropertiesTransformR.v` |
| C28 | `TransformR.v` | norm computations | `PropertiesTransformR.v` |
| C29 | `Cache.v`, `Beautify.v`, `TransformTree.v`, `RVec.v`, `TransformR.v`, `TransformRTree.v`, `TransformRCenter.v` (style C, rcfType) | induction over chains, under the norm guard; refuted below the guard | `PropertiesTransformR.v` |
| C30 | `Cache.v`, `Beautify.v`, `TransformTree.v`, `RVec.v`, `TransformR.v`, `TransformRTree.v`, `TransformRCenter.v` (style C) | matrix sums | `PropertiesTransformR.v` |
| C31 | `Beautify.v`/`Cache.v`, `Beautify.v`, `TransformTree.v`: lists in a heap | refuted | `PropertiesTransform.v` |
| C32 | `Cache.v`, `Beautify.v`, `TransformTree.v`, `RVec.v`, `TransformR.v`, `TransformRTree.v`, `TransformRCenter.v` | Gram matrices | `PropertiesTransformR.v` |
| C33 | `KernelR.v` (style B) | real analysis | `PropertiesKernelR.v` |
| C34 | `KernelR.v` | per class; refuted for Silverman | `PropertiesKernelR.v`, `PropertiesNames.v` |
| C35 | `KernelR.v` | real analysis | `PropertiesKernelR.v` |
| C36 | `Beautify.v`, `RVec.v`, `KernelR.v`, `Psd.v` | metric axioms by induction over coordinates; Minkowski refuted (raises) | `PropertiesKernelR.v` |
| C37 | `Poly.v` (style C, any rcfType) | multinomial theorem by induction over the dimension | `PropertiesPoly.v` |
| C38 | `Poly.v` | counting by induction | `PropertiesPoly.v` |
| C39 | `Poly.v` | refuted | `PropertiesPoly.v` |
| C40 | `TimeR.v` | proved on integers, refuted on reals | `PropertiesTimeR.v` |
| C41 | `TimeR.v`/`RVec.v`, `KernelR.v`, `Psd.v`, `TimeR.v` (style C) | diagonal dominance by sums of squares; refuted after a lag change | `PropertiesTimeR.v` |
| C42 | `RVec.v`, `KernelR.v`, `Psd.v`, `TimeR.v` | real analysis | `PropertiesTimeR.v` |
| C43 | `RVec.v`, `KernelR.v`, `RandomFeaturesR.v` (style B) | trigonometric identities | `PropertiesRandomFeaturesR.v` |
| C44 | `RVec.v`, `KernelR.v`, `RandomFeaturesR.v` | inverse functions; rejected parameters | `PropertiesRandomFeaturesR.v` |
| C45 | `RVec.v`, `KernelR.v`, `RandomFeaturesR.v` (style C) | least squares with full column rank | `PropertiesRandomFeaturesR.v` |
| C46 | `Factory.v` (strings) | characterisation | `PropertiesFactory.v` |
| C47 | `Factory.v`/`Factory.v` | refuted | `PropertiesFactory.v` |
| C48 | `Corr.v` (style C) | Cauchy–Schwarz | `PropertiesCorr.v` |
| C49 | `NystromM.v`, `NystromState.v` (style C) | algebra on an eigendecomposition | `PropertiesNystrom.v`, `PropertiesNystromState.v` |
| C50 | `RVec.v`, `KernelR.v`, `Method.v`, `Sample.v`, `Preimage.v` | selection property | `PropertiesMethod.v` |
| C51 | `RVec.v`, `KernelR.v`, `Method.v`, `Sample.v`, `Preimage.v` | convexity; refuted when all coefficients vanish | `PropertiesMethod.v` |
| C52 | `RVec.v`, `KernelR.v`, `Method.v`, `Sample.v`, `Preimage.v` | refuted on failure, proved on success | `PropertiesMethod.v` |
| C53 | `TotalVariance.v` | general formula of the n-th read; refuted | `PropertiesVariance.v` |
| C54 | `NystromM.v`, `KpcaM.v`, `RVec.v`, `TotalVariance.v` (style C) | spectrum sums; refuted in dual | `PropertiesKpca.v`, `PropertiesVariance.v` |
| C55 | `NystromM.v`, `KpcaM.v` | trace identities | `PropertiesKpca.v` |
| C56 | `NystromM.v`, `KpcaM.v` | projection; dual factor n refuted | `PropertiesKpca.v` |
| C57 | `ViewState.v` | identity selection proved, permutations refuted, subsets raise | `PropertiesView.v` |
| C58 | `ViewState.v` | refuted | `PropertiesVariableOrder.v`, `PropertiesView.v` |
| C59 | `ViewState.v` | refuted; proved after reset | `PropertiesLevelCache.v`, `PropertiesLevelMemory.v` |
| C60 | `Cache.v`, `LevelCache.v` | refuted | `PropertiesLevelCache.v` |
| C61 | `KpcaM.v`, `LssvmM.v` (style C) | block linear system | `PropertiesLssvm.v` |
| C62 | `KpcaM.v`, `LssvmM.v` | refuted by a 1×1 example; corrected primal system proved equivalent | `PropertiesLssvm.v` |
| C63 | `RVec.v`, `Center.v`, `Ctor.v` | one output proved; refuted for more | `PropertiesCtor.v` |
| C64 | `Ctor.v` | refuted (every construction raises) | `PropertiesCtor.v` |
| C65 | `MultiView.v` | partition by induction; prediction refuted | `PropertiesMultiView.v` |
| C66 | `ModelState.v` | invariant for appends, refuted by solve | `PropertiesModel.v` |
| C67 | `ModelState.v` | induction over levels | `PropertiesModel.v` |
| C68 | `ModelState.v` | refuted | `PropertiesStateDict.v` |
| C69 | `ModelState.v` | refuted | `PropertiesModel.v` |
| C70 | `ViewState.v`/`ModelState.v` | refuted | `PropertiesModel.v` |
| C71 | `Trainer.v` | list induction | `PropertiesTrainer.v` |
| C72 | `Trainer.v` | closed form of the accumulated gradient; refuted | `PropertiesTrainer.v` |
| C73 | `Watcher.v` | directory as a finite set of epochs; last state refuted when the period does not divide | `PropertiesTrainer.v` |
| C74 | `Watcher.v` | refuted | `PropertiesTrainer.v` |
| C75 | `DataSplit.v`, `Logger.v`, `Cast.v` | permutation slices | `PropertiesData.v` |
| C76 | `Stiefel.v` (style C) | skew-symmetry, Cayley isometry, contraction | `PropertiesStiefel.v` |
| C77 | `Stiefel.v` | refuted: step independent of history | `PropertiesStiefel.v` |
| C78 | `Params.v` | list induction on trees | `PropertiesOptimised.v` |
| C79 | `Logger.v` | refuted; different classes proved | `PropertiesData.v` |
| C80 | `Cast.v` | case analysis on shapes | `PropertiesData.v` |
| C81 | `Cache.v`, `Tree.v`, `ModuleTree.v`, `Sample.v`, `ViewState.v`: rounding of a proportion of the points | non-empty when the rounded count is positive; refuted for small proportions | `PropertiesCache.v`, `PropertiesVariableOrder.v` |
| C82 | `Sample.v`: rows of the gradient | refuted; rows outside the selection proved untouched | `PropertiesSample.v` |
| C83 | `Sample.v`: exception point inside the setter | refuted by the state left behind | `PropertiesSample.v` |
| C84 | `Sample.v`: exception point inside `init_sample` | refuted by the state left behind | `PropertiesSample.v` |
| C85 | `Sample.v`: `dim_input` and `num_sample` setters | one order proved, the other refuted | `PropertiesSample.v` |
| C86 | `Cache.v`, `ParamKernel.v`, `ParamKernelInst.v`: setters and cache of every hyperparameter | read after write, all values and histories | `PropertiesParam.v` |
| C87 | `ParamKernelInst.v`: constructor with weights | refuted for every given weight and history; usable after a number is assigned | `PropertiesParam.v`, `PropertiesRfGiven.v` |
| C88 | `KernelR.v`: median heuristic | positive when enough distances differ; refuted for two points | `PropertiesKernelR.v` |
| C89 | `KernelR.v`, `Psd.v` | power series of the exponential, Schur products and limits of positive semi-definite matrices | `PropertiesKernelR.v` |
| C90 | `Psd.v`, `Poly.v` | Schur products | `PropertiesPoly.v` |
| C91 | `TimeR.v` | hat function as an integral of products of indicators | `PropertiesTimeR.v` |
| C92 | `TimeR.v` | bounds for all inputs, and a two-point witness against definiteness | `PropertiesTimeR.v` |
| C93 | `RandomFeaturesR.v` | closed form on the diagonal; refuted at the origin | `PropertiesRandomFeaturesR.v` |
| C94 | `KernelR.v` | equality with separately written formulas, all inputs | `PropertiesKernelR.v`, `PropertiesNames.v` |
| C95 | `TimeR.v` | the same for the chi-squared kernels; the skewed one refuted outside its domain | `PropertiesTimeR.v` |
| C96 | `Factory.v`: names as strings | guard proved; refuted by spellings with underscores | `PropertiesFactory.v` |
| C97 | `Factory.v` | all strings, by case analysis on the lookup tables | `PropertiesFactory.v` |
| C98 | `Factory.v` | refuted: every name fails | `PropertiesFactory.v` |
| C99 | `Corr.v` (style C) | matrix identities; refuted out of sample | `PropertiesCorr.v` |
| C100 | `NystromState.v`: histories of cache levels | invariant for levels above none; refuted for none | `PropertiesNystromState.v` |
| C101 | `NystromState.v` | refuted for the default dimension; small dimensions proved | `PropertiesNystromState.v` |
| C102 | `NystromState.v` | histories of changes of the base kernel | `PropertiesNystromState.v` |
| C103 | `NystromState.v` | default proved; requested refuted | `PropertiesNystromState.v` |
| C104 | `Method.v`: selection of the nearest points | own points proved under injectivity; refuted for the linear kernel | `PropertiesMethod.v` |
| C105 | `Method.v` | shape analysis | `PropertiesMethod.v` |
| C106 | `Method.v`: aliasing of the starting tensor | refuted for float inputs | `PropertiesMethod.v` |
| C107 | `TotalVariance.v`: heap of storages | refuted by an in-place division | `PropertiesVariance.v` |
| C108 | `KpcaM.v` (style C) | non-zero spectra of A'A and AA' | `PropertiesKpca.v` |
| C109 | `KpcaM.v` | exact factor; refuted | `PropertiesKpca.v` |
| C110 | `ViewState.v` | histories of solving with fewer components | `PropertiesView.v` |
| C111 | `ViewState.v` | unset and read back | `PropertiesView.v` |
| C112 | `ViewState.v` | dimension after every assignment | `PropertiesView.v` |
| C113 | `ViewState.v`: identity of parameter objects | proved in dual; refuted in primal | `PropertiesView.v` |
| C114 | `ViewState.v`: constructor order | refuted, exact conditions | `PropertiesView.v` |
| C115 | `ViewState.v`: attachment | refuted: detaching changes nothing | `PropertiesView.v` |
| C116 | `LevelCache.v`: cache keyed by identity | refuted in primal | `PropertiesLevelCache.v`, `PropertiesLevelMemory.v` |
| C117 | `LevelCache.v` | distinct identities proved; reused identity refuted | `PropertiesLevelCache.v`, `PropertiesLevelMemory.v` |
| C118 | `Ctor.v`, `LssvmM.v` | refuted by a shape error | `PropertiesCtor.v` |
| C119 | `Ctor.v` | refuted by a missing attribute | `PropertiesCtor.v` |
| C120 | `LssvmM.v` (style C) | exact minimiser; refuted against the reported loss | `PropertiesLssvm.v` |
| C121 | `LssvmM.v` | closed form of the residual | `PropertiesLssvm.v` |
| C122 | `Ctor.v` | refuted: no path adds the bias | `PropertiesCtor.v` |
| C123 | `Ctor.v` | histories of two solutions | `PropertiesCtor.v` |
| C124 | `MultiView.v` | sum over views, induction on the list | `PropertiesMultiView.v` |
| C125 | `MultiView.v` | case analysis on keys | `PropertiesKnown.v`, `PropertiesMultiView.v` |
| C126 | `MultiView.v` | invariance under permutations of the list of views | `PropertiesMultiView.v` |
| C127 | `ModelState.v`, `Params.v` | exact set of parameters given to the optimiser | `PropertiesModel.v` |
| C128 | `ModelState.v` | refuted: nothing is returned | `PropertiesModel.v` |
| C129 | `ModelState.v` | invariant over every sequence of trainings | `PropertiesModel.v`, `PropertiesRows.v` |
| C130 | `ModelForward.v` | induction on the levels | `PropertiesModel.v` |
| C131 | `Reports.v` | injectivity of the prefixed keys, all numbers of levels | `PropertiesModel.v` |
| C132 | `Watcher.v` | refuted: the option is ignored | `PropertiesTrainer.v` |
| C133 | `Logger.v` | histories of objects and changes of the default | `PropertiesData.v` |
| C134 | `Cast.v` | case analysis on shapes | `PropertiesData.v`, `PropertiesRows.v` |
| C135 | `Cast.v`: names of representations | all strings | `PropertiesData.v` |
| C136 | `Stiefel.v` (style C) | Gram-Schmidt; refuted for dependent rows | `PropertiesStiefel.v` |
| C137 | `Stiefel.v` | first-order change is minus a sum of squares | `PropertiesStiefel.v` |
| C138 | `OptStep.v` | closed form over all steps; momentum refuted | `PropertiesOpt.v` |
| C139 | `OptStep.v` | shapes of gradients; scalars refuted | `PropertiesOpt.v` |
| C140 | `OptStep.v` | aliasing of gradient storages | `PropertiesOpt.v` |
| C141 | `OptStep.v` | all groups, all steps | `PropertiesOpt.v` |
| C142 | `Cast.v`, `OptStep.v` | all names | `PropertiesOpt.v` |
| C143 | `Eigs.v` (style C) | any decomposition returned by the library | `PropertiesEigs.v` |
| C144 | `Eigs.v` | exact for commuting matrices; refuted otherwise | `PropertiesEigs.v` |
| C145 | `Eigs.v` | case analysis on the hints | `PropertiesEigs.v` |
| C146 | `KpcaOptimal.v` (style C) | every orthonormal competitor (Ky Fan), by the spectral bound | `PropertiesOptimal.v` |
| C147 | `Kappa.v` (style C) | histories of changes of the scale | `PropertiesKappa.v` |
| C148 | `ViewState.v`, `ModelState.v` | exact condition on the shapes | `PropertiesModel.v` |
| C149 | `ModelState.v` | induction on the tree of modules | `PropertiesModel.v` |
| C150 | `OptStep.v` | shape of the parameter decides the rule | `PropertiesOpt.v` |
| C151 | `Classes.v`: C3 linearisation, classes made at run time | soundness of the merge for all class lists, closed form for every kernel and level class | `PropertiesClasses.v` |
| C152 | `Classes.v`: `copy.deepcopy`, `pickle` | class of the copy in closed form | `PropertiesClasses.v` |
| C153 | `Copies.v`: heap of objects with functions that capture them | two parts of the heap that do not refer to each other, all later assignments | `PropertiesCopies.v` |
| C154 | `Hparams.v`: dictionary displays along the resolution order | last writer of every key, all class tables | `PropertiesHparams.v` |
| C155 | `Hparams.v` | the same | `PropertiesHparams.v` |
| C156 | `KernelR.v` | closure of positive semi-definite functions under products and limits; inverse and square root as limits of mixtures of exponentials; Silverman by an energy that decreases along the sorted points | `PropertiesPsd.v` |
| C157 | `TimeR.v` | Cauchy matrices as limits of mixtures of exponentials | `PropertiesPsd.v` |
| C158 | `KernelR.v` | equivalence; explicit integer quadratic forms for the failures | `PropertiesPsd.v` |
| C159 | `Units.v`, `KernelR.v` | algebraic law (invariance under affine changes of units), permutation invariance | `PropertiesUnits.v` |
| C160 | `NystromM.v` | quadratic-form inequality (Schur-complement test vector); monotonicity | `PropertiesRegularised.v` |
| C161 | `LssvmM.v` | monotonicity of the solution path; inequality against constants | `PropertiesRegularised.v` |
| C162 | `LssvmM.v` | algebraic laws (linearity, shift, permutation, scale) | `PropertiesRegularised.v` |
| C163 | `Abstract.v`, `Classes.v` | invariant over class declarations (the recorded abstract names are the missing ones); refinement kernel -> level | `PropertiesAbstract.v` |
| C164 | `Abstract.v`, `Classes.v` | refutation for every kernel; exhaustive computation over kernels and distances of kerch | `PropertiesAbstract.v` |
| C165 | `Lazy.v` | invariant over histories: the reachable states of the package (a finite set, closed under every use), exact characterisation by the order of the uses | `PropertiesLazy.v` |
| C166 | `Lazy.v` | invariant over histories, exact characterisation by the order of the uses | `PropertiesLazy.v` |
| C167 | `Lazy.v` | induction on the rank of a file in an acyclic table of imports; every state | `PropertiesLazy.v` |
| C168 | `KernelR.v` | Lipschitz bounds with explicit constants, from the triangle inequality and elementary bounds of exp, sin and powers | `PropertiesLipschitz.v` |
| C169 | `TransformR.v`, `TransformTree.v` | exact values of the two-step chains in every reached state; equivariance of mean, deviation and extrema | `PropertiesTransformUnits.v` |
| C170 | `KernelR.v`, `Units.v`, `Poly.v`, `TimeR.v` | orthonormal maps preserve inner products and distances; kernels are functions of these | `PropertiesRotation.v` |
| C171 | `KpcaM.v`, `NystromM.v` | the kept components are a filtered prefix of the ranked ones; sums of decreasing gains | `PropertiesMore.v` |
| C172 | `KernelR.v`, `Poly.v` | product of positive semi-definite functions; the exponential of a function telling the points apart annihilates all products of affine functions; elimination for the system | `PropertiesDefinite.v` |
| C173 | `NystromM.v` | variational form of the out-of-sample kernel: best combination of the sample points; both differences positive | `PropertiesLandmark.v` |
| C174 | `KpcaM.v`, `NystromM.v` | functions of a symmetric matrix do not depend on its decomposition; counting eigenvalues by traces | `PropertiesSolver.v` |
| C175 | `Precision.v` (new) | invariant over histories of setters and module loads; first-load decomposition of the history | `PropertiesPrecision.v` |
| C176 | `LssvmM.v` | the fitted values as a symmetric smoother with spectrum in [0, 1]: energy identity of the optimality conditions | `PropertiesStable.v` |
| C177 | `LssvmM.v` | uniqueness of the optimality conditions on a subset of the points, and extension by zero | `PropertiesStable.v` |
| C178 | `Shared.v` (table of attributes, properties and options of all classes) | one dictionary refines two exactly when the names are disjoint; table by computation; counterexamples for all options | `PropertiesShared.v` |
| C179 | `Errors.v` (texts of errors, all places where one is raised) | binding of arguments by computation; text for all objects and messages; table of places | `PropertiesErrors.v` |
| C180 | `Plot.v` | exact effect on the axes, for all matrices | `PropertiesPlot.v` |
| C181 | `Options.v` (constructors of all classes as layers) | induction on the chain of constructors; the chains of kerch by computation | `PropertiesOptions.v` |
| C182 | `Options.v` | exact condition of success, by induction on the chain | `PropertiesOptions.v` |
| C183 | `KpcaM.v` (style C) | Courant-Fischer by a dimension argument, any decomposition | `PropertiesInterlace.v` |
| C184 | `LssvmM.v` (style C) | optimality conditions and Cauchy-Schwarz, all points and targets | `PropertiesLimit.v` |
| C185 | `LssvmM.v` (style C) | difference of the optimality conditions, Cauchy-Schwarz | `PropertiesPerturb.v` |
| C186 | `LssvmM.v`, `NystromM.v` (style C) | spectral form of what is left out, then C185 | `PropertiesPerturb.v` |
| C187 | `KpcaM.v`, `NystromM.v` (style C) | rotation into both eigenbases, entry by entry; Weyl bound of C183 | `PropertiesSubspace.v` |
| C188 | `Options.v` | documentation table against the chain of constructors; options that nobody reads by induction | `PropertiesDocumented.v` |
| C189 | `LssvmM.v` (style C) | positivity of the kernel along the difference of the two solutions; superposition and uniqueness for a single point | `PropertiesLeaveOut.v` |
| C190 | `Datasets.v`, `DataSplit.v` (style B) | trigonometry of the generators; distance to the centre tells the points of the spirals apart; transfer to the three sets by permutation | `PropertiesDatasets.v` |
| C191 | `CenterM.v`, `LssvmM.v` (style C) | means of a kernel with another origin; congruence of the two training systems; quadratic form on vectors that sum to zero | `PropertiesOrigin.v` |
| C192 | `CenterM.v`, `KpcaM.v` (style C) | eigenvector equations; orthogonality to the constant vector; sortedness of the kept components | `PropertiesOrigin.v` |
| C193 | `Script.v`, `Lazy.v`, `Trainer.v`, `Factory.v` (style A) | trace of a failing computation; inversion and construction of successful runs; simulation between verbose and quiet runs | `PropertiesScript.v` |
| C194 | `NystromM.v`, `KpcaM.v` (style C) | spectrum of the Nystrom kernel matrix; uniqueness of spectral functions under separation | `PropertiesNystromKpca.v` |
| C195 | `LssvmM.v`, `KpcaM.v`, `CenterM.v` (style C) | incidence matrix of the copies; functions of a matrix that vanish at zero; counting eigenvalues by traces | `PropertiesRepeat.v` |
| C196 | `KernelMethod.v`, `Method.v` (style B) | algebraic laws: equivariance under affine maps and permutations, uniqueness of the selection without ties | `PropertiesEquivariant.v` |
| C197 | `GenerateM.v`, `KpcaM.v` (style C) | second moments of linear images; exact factor in dual | `PropertiesGenerate.v` |
| C198 | `MvProjectM.v`, `KpcaM.v` (style C) | least-squares characterisation, exactness on the range, exact condition for singularity; witness family in dual | `PropertiesMvProject.v` |
| C199 | `IterativeM.v` (style C) | invariant of the schedule over the steps; descent and convexity inequalities by induction on the run; exact error in one dimension | `PropertiesIterative.v` |
| C200 | `Sample.v`: `init_sample`, `set_trainable`, histories | invariant over operation lists: last word and last gradient | `PropertiesSampleFlag.v` |
| C201 | `Stack.v` (any transforms and features) | invariant over operation lists: the layers are the chain fitted to the last initialisation; refutations by concrete stacks | `PropertiesStack.v` |
| C202 | `Stack.v`, `StackR.v` over `RandomFeaturesR.v` | induction over the layers; each stage undone exactly, instance over the reals | `PropertiesStack.v` |
| C203 | `ViewsM.v` over `KpcaM.v` | inequalities between eigenvalues of sums and blocks (interlacing, maximum of a trace) | `PropertiesViews.v` |
| C204 | `LssvmM.v`, `KpcaM.v`, `NystromM.v` | inequalities on quadratic forms of the joint kernel matrix (Cauchy-Schwarz, energy of the training system) | `PropertiesNear.v` |
| C205 | `RidgeM.v`, `LssvmM.v` | uniqueness of a linear system, gap identity of the objective, equivalence with the LS-SVM system | `PropertiesRidge.v` |
| C206 | `RidgeM.v` | identity between the two systems, exact condition and witness | `PropertiesRidge.v` |
| C207 | `Method.v` (any optimiser and any choice among ties) | the result is that of the iterations from a point of largest value; strict decrease of the kernels for own points | `PropertiesStart.v` |
| C208 | `PpcaM.v` | matrix identities from the eigendecomposition, exact conditions and witnesses | `PropertiesPpca.v` |
| C209 | `PpcaM.v` | equivalence with inequalities on the spectrum, scaling of the decomposition, witness | `PropertiesPpca.v` |
| C210 | `PpcaM.v` | gap identity of the objective (completion of squares), uniqueness | `PropertiesPpca.v` |
| C211 | `PpcaM.v` | second moments, normal triangular matrices are diagonal (induction on columns), witness | `PropertiesPpca.v` |
| C212 | `PreCall.v`, `Classes.v` | attribute resolution over every class order, case analysis on all names | `PropertiesPreCall.v` |
| C213 | `KernelMethod.v`, `Method.v` | exchange of sums by symmetry, variance decomposition of each row, exact loss of spread | `PropertiesSmooth.v` |
| C214 | `OldPreimage.v`, `Method.v` | sums over picked positions against scattered rows; agreement tested on unit vectors; witnesses for all coefficients | `PropertiesOldPreimage.v` |
| C215 | `Rounding.v` | every operation followed by an arbitrary odd monotone rounding; structural proofs on summation trees; refinement to `KernelR.v` without rounding | `PropertiesRounding.v` |
| C216 | `Rounding.v`, `KernelR.v` | interval of relative errors closed under sums, products, roots and maxima; s exp(-s) bounded; perturbation of positive semi-definite matrices | `PropertiesRounding.v` |
| C217 | `Cache.v` | invariant over operation lists (no duplicate name), filters of lists | `PropertiesKeys.v` |
| C218 | `NystromM.v` | orthogonal projection on the columns of a competitor, weights between 0 and 1, kernel vectors (Eckart-Young in both norms) | `PropertiesBest.v` |
| C219 | `Rebuild.v`, `KpcaM.v` | invariant over operation lists (the attribute stays unset), spectral truncation, Eckart-Young for the matrices and for the rows of the features | `PropertiesRebuild.v` |
| C220 | `TransformTree.v`, `TransformR.v`, `NystromM.v`, `KpcaM.v`, `LssvmM.v`, `CenterM.v`, `Method.v` | induction on the list of transforms (a table of a function of two points), transported to every reached state; block matrices | `PropertiesBatch.v`, `PropertiesBatchM.v` |
| C221 | `IterativeM.v` | the rates of the first steps (C199), induction on the steps, row by row | `PropertiesBatchStep.v` |
| C222 | `KernelR.v` | bounds on each kernel's shape at zero and at infinity; induction on pairs of samples for a common bandwidth | `PropertiesExtreme.v` |
| C223 | `KernelR.v`, `Method.v` | the ratio of the exponential weights to that of the nearest sample; deviations from the mean sum to zero | `PropertiesExtremeSmooth.v` |
| C224 | `LssvmM.v` | the solution for the limit matrices in closed form, then the perturbation bounds of C185 | `PropertiesLssvmBand.v` |
| C225 | `Stiefel.v` plain steps and the state of the second optimiser | closed forms by induction over the list of gradients | `PropertiesMomentum.v` |

## What `Print Assumptions` lists for each theorem

* none: "Closed under the global context".
* R2: `ClassicalDedekindReals.sig_forall_dec`, `FunctionalExtensionality.functional_extensionality_dep`.
* R3: `ClassicalDedekindReals.sig_forall_dec`, `ClassicalDedekindReals.sig_not_dec`, `FunctionalExtensionality.functional_extensionality_dep`.
* R4: `ClassicalDedekindReals.sig_forall_dec`, `ClassicalDedekindReals.sig_not_dec`, `Classical_Prop.classic`, `FunctionalExtensionality.functional_extensionality_dep`.

| id | theorems |
|----|----------|
| C01 | none: `C01_cached_reads_are_fresh`, `C01_caching_never_changes_results` |
| C02 | none: `C02_level_bound_partial`, `C02_cleaning_restores_bound_partial`, `C02_level_bound_refuted`, `C02_level_bound_forced_refuted` |
| C03 | none: `C03_clean_exact`, `C03_clean_none_empties` |
| C04 | none: `C04_reset_exact`, `C04_full_reset_empties` |
| C05 | none: `C05_recursive_reset_partial`, `C05_recursive_reset_keeps_persisting_partial`, `C05_nonrecursive_reset_spares_children`, `C05_default_reset_refuted`, `C05_plain_module_in_between_refuted` |
| C06 | none: `C06_remove_list_exact`, `C06_remove_name_refuted`, `C06_remove_name_exactly`, `C06_remove_name_removes_others_refuted` |
| C07 | none: `C07_destroy_hit_refuted`, `C07_destroy_miss_refuted`, `C07_exactly`, `C07_one_letter_partial` |
| C08 | none: `C08_known_levels_partial`, `C08_unknown_levels_refuted` |
| C09 | none: `C09_level_change_leaves_transforms`, `C09_level_propagation_refuted`, `C09_exactly_partial` |
| C10 | none: `C10_porting_counts`, `C10_idempotent_porting_partial`, `C10_porting_once_refuted`, `C10_porting_transforms_refuted` |
| C11 | none: `C11_proportional_selection`, `C11_whole_proportion`, `C11_bad_proportion_rejected` |
| C12 | none: `C12_selection_reaches_descendants`, `C12_evaluation_selects_everything`, `C12_uninitialised_in_between_refuted` |
| C13 | none: `C13_rejected_request_partial`, `C13_invalid_indices_refuted`, `C13_any_indices_refuted` |
| C14 | none: `C14_update_writes_addressed_rows`, `C14_update_frame`, `C14_wrong_count_rejected`, `C14_valid_update_accepted`, `C14_empty_sample` |
| C15 | none: `C15_failed_update_refuted`, `C15_every_refuted`, `C15_rejected_update_changes_nothing_partial` |
| C16 | none: `C16_shared_sample_refuted`, `C16_converted_sample_isolated_partial` |
| C17 | none: `C17_dimensions_agree`, `C17_dimensions_not_reassigned` |
| C18 | none: `C18_kernel_matrix_reflects_state`, `C18_selected_points` |
| C19 | none: `C19_bandwidth_change_reuses_distances_partial`, `C19_no_cache_refuted` |
| C20 | none: `C20_first_reading_partial`, `C20_bandwidth_frozen`, `C20_default_bandwidth_refuted` |
| C21 | none: `C21_new_weights_refuted`, `C21_new_weights_out_of_sample_refuted`, `C21_number_of_weights_refuted`, `C21_replace_and_reset_partial` |
| C22 | none: `C22_degree_assignment_refuted`, `C22_number_assignment_refuted`, `C22_offset_assignment_refuted`, `C22_feature_map_refuted`, `C22_readings_follow_parameters_partial` |
| C23 | none: `C23_values_partial`, `C23_any_object_light_partial`, `C23_modified_object_refuted`, `C23_modified_object_centered_refuted`, `C23_modified_object_kernel_refuted` |
| C24 | none: `C24_kinds_partial`, `C24_outputs_partial`, `C24_primal_outputs_partial`, `C24_losses_partial`, `C24_projected_partial`, `C24_outputs_refuted`, `C24_losses_refuted`, `C24_data_kept_at_normal_refuted`, `C24_kept_only_partial` |
| C25 | none: `C25_kernel`, `C25_drops_a_transform_refuted`, `C25_keeps_repeats_refuted`, `C25_part_of_the_request_partial`, `C25_no_repeats_partial`, `C25_single_repeat_partial`, `C25_exactly` |
| C26 | R3: `C26_revert_undoes`, `C26_revert_undoes_sample`, `C26_single_point_refuted` |
| C27 | R3: `C27_mean_centering`, `C27_minimum_centering`, `C27_unit_variance`, `C27_standardize`, `C27_minmax_rescaling`, `C27_minmax_spread` |
| C28 | R3: `C28_unit_vectors`, `C28_not_reverted` |
| C29 | R3: `C29_same_matrix`, `C29_small_norms_refuted` |
| C30 | R3: `C30_sample_sums`, `C30_new_points_sums`, `C30_center_twice`, `C30_center_twice_new_points`, `C30_columns_refuted` |
| C31 | none: `C31_arguments_unchanged_partial`, `C31_constructor_unchanged_partial`, `C31_cosine_refuted`, `C31_cosine_result_changes_refuted`, `C31_flags_refuted` |
| C32 | R3: `C32_symmetric_psd`, `C32_transposed` |
| C33 | R4: `C33_similarity`, `C33_decreasing`; R3: `C33_negative_bandwidth_refuted` |
| C34 | R4: `C34_normalised_partial`; R3: `C34_silverman_refuted`, `C34_silverman_value`; none: `C34_announced_partial` |
| C35 | R3: `C35_support` |
| C36 | R3: `C36_metric_partial`, `C36_ordered`, `C36_minkowski_refuted`; none: `C36_wasserstein_refuted` |
| C37 | R3: `C37_features_realise_kernel`, `C37_degree_zero_refuted` |
| C38 | R3: `C38_announced_dimension`; none: `C38_value`, `C38_monomials` |
| C39 | R3: `C39_second_argument_refuted`, `C39_first_argument_twice_partial`, `C39_negative_offset_refuted` |
| C40 | R2: `C40_documented_profile_partial`, `C40_integers`, `C40_between_refuted`, `C40_single_point_refuted` |
| C41 | R2: `C41_default_psd_partial`, `C41_any_diagonal`, `C41_lag_changed_refuted`, `C41_trainable_refuted`; none: `C41_diagonal_frozen` |
| C42 | R2: `C42_additive`; R3: `C42_skewed`, `C42_skewed_diagonal`, `C42_skewed_empty_bin_refuted` |
| C43 | R4: `C43_fourier`; R3: `C43_infinite` |
| C44 | R4: `C44_inverse_undoes`, `C44_activation_undoes`, `C44_negative_slope_refuted`, `C44_unchecked_alpha_refuted`; R2: `C44_constructed_hyperbola`; R3: `C44_rejected` |
| C45 | R4: `C45_preimage_of_features`, `C45_features_of_preimage` |
| C46 | none: `C46_class_of_the_name`, `C46_rejects_partial`, `C46_only_public`, `C46_documented_names`, `C46_factory_refuted` |
| C47 | none: `C47_unknown_refuted`, `C47_known_partial` |
| C48 | R3: `C48_covariance`, `C48_no_points`, `C48_correlation` |
| C49 | none: `C49_sample_features`, `C49_sample_features_error`, `C49_out_of_sample`, `C49_kernel_with_sample`, `C49_below_base`, `C49_indefinite_refuted`, `C49_selection_partial`, `C49_selection_refuted`, `C49_permutation_refuted` |
| C50 | R2: `C50_nearest`, `C50_range`, `C50_constant`, `C50_accepted` |
| C51 | R2: `C51_convex_partial`, `C51_range`, `C51_constants`, `C51_zero_row_refuted`; R4: `C51_kernel_smoother` |
| C52 | R2: `C52_success_partial`, `C52_success_explicit_partial`, `C52_failure_refuted` |
| C53 | R2: `C53_value`, `C53_stable_partial`, `C53_normalised_refuted` |
| C54 | none: `C54_primal_partial`, `C54_primal_all_partial`, `C54_primal_exact_partial`, `C54_dual_refuted`, `C54_dual_all`; R2: `C54_history_refuted` |
| C55 | none: `C55_primal`, `C55_dual`, `C55_solved` |
| C56 | none: `C56_primal_partial`, `C56_primal_sample_partial`, `C56_dual_scaled`, `C56_dual_refuted`, `C56_dual_sample_refuted` |
| C57 | none: `C57_whole_partial`, `C57_value`, `C57_order_refuted`, `C57_subset_refuted` |
| C58 | none: `C58_primal_history_partial`, `C58_primal_assigned_partial`, `C58_dual_assigned_refuted`, `C58_dual_updated_refuted` |
| C59 | none: `C59_outputs_frozen_refuted`, `C59_outputs_follow_refuted`, `C59_uncached_partial`, `C59_careful_partial`, `C59_exactly` |
| C60 | none: `C60_before_step_frozen_refuted`, `C60_losses_refreshed_refuted`, `C60_uncached_partial`, `C60_careful_partial` |
| C61 | none: `C61_solution_meets_conditions`, `C61_unique`, `C61_residual`, `C61_optimal` |
| C62 | none: `C62_differ_refuted`, `C62_singular_refuted`, `C62_scale_refuted`, `C62_centered_value`, `C62_single_point_partial`, `C62_unscaled_partial` |
| C63 | R2: `C63_other_sizes_refuted`, `C63_square_refuted`, `C63_single_output_partial` |
| C64 | none: `C64_lssvm_refuted`, `C64_ridge_refuted`, `C64_ridge_errors_refuted`, `C64_no_points_refuted`, `C64_primal_refuted`, `C64_multiview_refuted`, `C64_lssvm_dual_partial`, `C64_created_partial`, `C64_solved_partial` |
| C65 | none: `C65_slices_partial`, `C65_duplicate_refuted`, `C65_second_refuted`, `C65_single_partial`, `C65_dimensions_partial` |
| C66 | none: `C66_histories_partial`, `C66_rejected`, `C66_misfit`, `C66_solve_refuted` |
| C67 | none: `C67_evaluation`, `C67_composition`, `C67_training_rows`, `C67_training_first`, `C67_training_last`, `C67_training_parameters`, `C67_training_model` |
| C68 | none: `C68_nothing_saved_refuted`, `C68_nothing_restored_refuted`, `C68_object_partial`, `C68_shape_refuted` |
| C69 | none: `C69_second_refuted`, `C69_single_level_partial` |
| C70 | none: `C70_exactly`, `C70_refuted`, `C70_trained_partial` |
| C71 | none: `C71_batches`, `C71_rejected`, `C71_epochs` |
| C72 | none: `C72_accumulated`, `C72_own_gradient_refuted`, `C72_single_batch_partial` |
| C73 | none: `C73_last_checkpoint_partial`, `C73_constructed_partial`, `C73_final_state_refuted`, `C73_foreign_refuted` |
| C74 | none: `C74_by_name_refuted`, `C74_saver_refuted` |
| C75 | none: `C75_indices_partial`, `C75_sets_partial`, `C75_generated_partial`, `C75_too_much_refuted`, `C75_files_partial`, `C75_negative_refuted`, `C75_from_end_refuted`, `C75_separate_test_refuted` |
| C76 | none: `C76_exact`, `C76_sgd`, `C76_adam`, `C76_history` |
| C77 | none: `C77_momentum_refuted`, `C77_forgetful_refuted`, `C77_adam_partial` |
| C78 | none: `C78_listed_once`, `C78_groups`, `C78_complete_partial`, `C78_never_fails_partial`, `C78_sigmoid_refuted`, `C78_random_features_refuted`, `C78_explicit_nn_refuted`, `C78_lssvm_primal_refuted`, `C78_lssvm_gamma_refuted`, `C78_ppca_refuted` |
| C79 | none: `C79_read_back_partial`, `C79_independent_partial`, `C79_shared_refuted`, `C79_classes_partial`, `C79_class_level_refuted` |
| C80 | none: `C80_scalar`, `C80_vector`, `C80_matrix`, `C80_rejected`, `C80_idempotent`, `C80_well_formed` |
| C81 | none: `C81_nonempty_selection_partial`, `C81_nonempty_selection_refuted`, `C81_exactly` |
| C82 | none: `C82_gradient_untouched`, `C82_exactly`, `C82_gradient_cleared_refuted` |
| C83 | none: `C83_rejected_bandwidth_refuted`, `C83_exactly`, `C83_defined_partial` |
| C84 | none: `C84_rejected_initialisation_refuted`, `C84_exactly`, `C84_readable_partial` |
| C85 | none: `C85_number_alone_refuted`, `C85_dimension_alone_partial` |
| C86 | none: `C86_setters_take_effect` |
| C87 | none: `C87_given_weights_refuted`, `C87_no_reading_refuted`, `C87_after_number_partial` |
| C88 | R3: `C88_positive_partial`, `C88_two_points_refuted`, `C88_zero_bandwidth` |
| C89 | R3: `C89_rbf_psd` |
| C90 | R2: `C90_polynomial_psd` |
| C91 | R2: `C91_hat_psd`, `C91_hat_symmetric` |
| C92 | R3: `C92_sigmoid_bounded`; R4: `C92_sigmoid_not_psd` |
| C93 | R4: `C93_slope_one_is_linear`, `C93_diagonal_partial`, `C93_symmetric`, `C93_origin_refuted` |
| C94 | R3: `C94_documented_formulas`, `C94_distances_exist`; none: `C94_distance_names` |
| C95 | R2: `C95_additive`; R3: `C95_skewed_partial`, `C95_skewed_refuted` |
| C96 | none: `C96_guard_partial`, `C96_underscores_refuted` |
| C97 | none: `C97_levels`, `C97_levels_rejected`, `C97_models_partial`, `C97_datasets_partial` |
| C98 | none: `C98_watchers_refuted` |
| C99 | R3: `C99_sample_partial`, `C99_out_of_sample_refuted`, `C99_cosine_refuted` |
| C100 | none: `C100_levels_partial`, `C100_no_cache_refuted` |
| C101 | none: `C101_default_dimension_refuted`, `C101_small_dimension_partial` |
| C102 | none: `C102_sample_features_refuted`, `C102_other_features_partial` |
| C103 | none: `C103_default_dimension_partial`, `C103_requested_dimension_refuted` |
| C104 | R4: `C104_own_points_partial`; R2: `C104_features_partial`, `C104_linear_refuted` |
| C105 | R2: `C105_dimensions_refuted`, `C105_square_partial` |
| C106 | none: `C106_converted_partial`, `C106_value`, `C106_float_refuted` |
| C107 | R2: `C107_returned_refuted`, `C107_returned_partial` |
| C108 | none: `C108_same_spectrum` |
| C109 | none: `C109_scaled`, `C109_outputs_refuted` |
| C110 | none: `C110_primal_partial`, `C110_dual_partial`, `C110_dual_refuted`, `C110_dual_one_refuted` |
| C111 | none: `C111_dual_partial`, `C111_primal_refuted` |
| C112 | none: `C112_dual_partial`, `C112_primal_refuted`, `C112_initialised` |
| C113 | none: `C113_dual_partial`, `C113_primal_square_partial`, `C113_primal_refuted` |
| C114 | none: `C114_hidden_refuted`, `C114_weight_refuted`, `C114_weight_dual_refuted`, `C114_hidden_partial` |
| C115 | none: `C115_attached_partial`, `C115_once_partial`, `C115_detach_refuted`, `C115_forever_refuted` |
| C116 | none: `C116_first_dual_partial`, `C116_first_primal_refuted`, `C116_every_refuted` |
| C117 | none: `C117_contents_refuted`, `C117_distinct_partial`, `C117_every_refuted` |
| C118 | none: `C118_selection_refuted`, `C118_all_partial` |
| C119 | none: `C119_loss_refuted`, `C119_errors_refuted` |
| C120 | none: `C120_not_minimal_refuted`, `C120_loss_value`, `C120_minimal_partial` |
| C121 | none: `C121_kappa_refuted`, `C121_residual_value`, `C121_default_partial` |
| C122 | none: `C122_bias_refuted`, `C122_request_refuted`, `C122_forced_refuted`, `C122_asked_partial` |
| C123 | none: `C123_other_size_refuted`, `C123_stale_target_refuted`, `C123_same_size_partial` |
| C124 | R3: `C124_kernel` |
| C125 | none: `C125_exactly`, `C125_errors`, `C125_numbers_refuted`, `C125_ignored_refuted`, `C125_name_partial` |
| C126 | R3: `C126_scores`; R2: `C126_kernel` |
| C127 | none: `C127_exactly`, `C127_refuted`, `C127_default_partial` |
| C128 | none: `C128_returns_refuted`, `C128_mode_partial` |
| C129 | none: `C129_stale_refuted`, `C129_first_partial`, `C129_for_ever_refuted` |
| C130 | none: `C130_full_pass`, `C130_model_pass` |
| C131 | none: `C131_reported`, `C131_nothing_else` |
| C132 | none: `C132_options_refuted`, `C132_period_partial` |
| C133 | none: `C133_default_read`, `C133_new_objects`, `C133_existing_objects`, `C133_only_default` |
| C134 | none: `C134_dimensions_refuted`, `C134_row_refuted`, `C134_matrix_partial`, `C134_exactly`, `C134_entries` |
| C135 | none: `C135_representation`, `C135_error` |
| C136 | none: `C136_orthonormal_partial`, `C136_fixed`, `C136_dependent_refuted` |
| C137 | none: `C137_descent`, `C137_stationary` |
| C138 | none: `C138_momentum_refuted`, `C138_descent_partial`, `C138_average_partial` |
| C139 | none: `C139_scalar_refuted`, `C139_first_refuted`, `C139_hyperparameters`, `C139_proper_partial` |
| C140 | none: `C140_gradients_refuted`, `C140_kept_partial` |
| C141 | none: `C141_reduce`, `C141_step` |
| C142 | none: `C142_silent_refuted`, `C142_name_partial`, `C142_closure` |
| C143 | none: `C143_largest`, `C143_all`, `C143_bounds`, `C143_negative_refuted` |
| C144 | none: `C144_commuting_partial`, `C144_singular_partial`, `C144_refuted` |
| C145 | none: `C145_positive_partial`, `C145_singular_refuted`, `C145_plain_partial`, `C145_unsorted_refuted` |
| C146 | none: `C146_primal`, `C146_dual`, `C146_requested`, `C146_variance` |
| C147 | none: `C147_created_partial`, `C147_negative_partial`, `C147_setter_refuted`, `C147_predictions_refuted`, `C147_sample_refuted`, `C147_total_variance_partial`, `C147_bias_partial` |
| C148 | none: `C148_exact_partial`, `C148_primal_partial`, `C148_points_refuted`, `C148_pruned_refuted` |
| C149 | none: `C149_evaluation`, `C149_training` |
| C150 | none: `C150_wide_partial`, `C150_tall_refuted` |
| C151 | none: `C151_order`, `C151_level`, `C151_kernel`, `C151_below`, `C151_level_first`, `C151_kerch` |
| C152 | none: `C152_kernel_partial`, `C152_level_partial`, `C152_classes_refuted`, `C152_slow_refuted`, `C152_pickle_refuted` |
| C153 | none: `C153_same_partial`, `C153_independent_partial`, `C153_sigmoid_refuted` |
| C154 | none: `C154_exact`, `C154_named_partial`, `C154_level_partial`, `C154_derived_refuted`, `C154_user_refuted`, `C154_method_refuted`, `C154_dropped_refuted` |
| C155 | none: `C155_kernel_partial`, `C155_features_refuted`, `C155_level_refuted` |
| C156 | R4: `C156_laplacian_psd`, `C156_exponential_manhattan_psd`, `C156_logistic_psd`, `C156_silverman_psd` |
| C157 | R4: `C157_additive_psd`, `C157_skewed_psd`; R2: `C157_small_features` |
| C158 | R3: `C158_compact_kernels` |
| C159 | R3: `C159_default_bandwidth`, `C159_bandwidth_unit`, `C159_given_bandwidth`, `C159_sample_order` |
| C160 | none: `C160_never_above`, `C160_more_components` |
| C161 | none: `C161_training_error`, `C161_norm`, `C161_better_than_constants`, `C161_sum` |
| C162 | none: `C162_linear`, `C162_shift`, `C162_order`, `C162_scale` |
| C163 | none: `C163_rule`, `C163_kernel_in_level`, `C163_levels`, `C163_kernels`, `C163_not_a_kernel` |
| C164 | none: `C164_exported_refuted`, `C164_kerch_refuted`, `C164_others_partial`, `C164_missing_partial` |
| C165 | none: `C165_refuted`, `C165_lssvm`, `C165_factory`, `C165_others_partial`, `C165_level_refuted`, `C165_models_import`, `C165_stable`, `C165_unknown` |
| C166 | none: `C166_model`, `C166_factory`, `C166_refuted`, `C166_others_partial`, `C166_trainer_refuted` |
| C167 | none: `C167_offered`, `C167_files`, `C167_unknown` |
| C168 | R4: `C168_data`, `C168_bandwidth`, `C168_predictions`; R3: `C168_uniform_jumps`, `C168_uniform_steady` |
| C169 | R3: `C169_standardize`, `C169_rescale`, `C169_threshold`, `C169_standardize_twice`, `C169_rescale_twice`, `C169_normalize` |
| C170 | R3: `C170_euclidean`, `C170_euclidean_default`, `C170_inner`, `C170_order`, `C170_order_default`, `C170_order_inner`, `C170_axes` |
| C171 | none: `C171_first`, `C171_variance`, `C171_loss`, `C171_diminishing`, `C171_share` |
| C172 | R4: `C172_distance`; R2: `C172_polynomial`, `C172_polynomial_limit` |
| C173 | none: `C173_more_points`, `C173_error`, `C173_same_points`, `C173_all_components_needed` |
| C174 | none: `C174_primal`, `C174_dual`, `C174_sign`, `C174_separation_needed` |
| C175 | none: `C175_refuted`, `C175_through_partial`, `C175_copied_partial`, `C175_copies`, `C175_early_partial`, `C175_kerch_partial`, `C175_frame_partial`, `C175_solve_partial` |
| C176 | none: `C176_contraction`, `C176_leverage`, `C176_mutual` |
| C177 | none: `C177_leave_out`, `C177_add` |
| C178 | none: `C178_separate_partial`, `C178_table_partial`, `C178_indicator_refuted`, `C178_indicator_partial`, `C178_hyperbola_refuted` |
| C179 | none: `C179_text_partial`, `C179_none_refuted`, `C179_sites_partial`, `C179_refuted` |
| C180 | none: `C180_matrix_partial`, `C180_labels_refuted`, `C180_eigenvalues_refuted`, `C180_scatter_refuted` |
| C181 | none: `C181_chain`, `C181_kerch` |
| C182 | none: `C182_exact_partial`, `C182_refuted` |
| C183 | none: `C183_selection`, `C183_primal`, `C183_larger`, `C183_stable` |
| C184 | none: `C184_interpolates`, `C184_flat`, `C184_smooth`, `C184_needed` |
| C185 | none: `C185_solution`, `C185_predictions`, `C185_entries` |
| C186 | none: `C186_exact`, `C186_close` |
| C187 | none: `C187_subspace`, `C187_component`, `C187_entries`, `C187_needed` |
| C188 | none: `C188_read_partial`, `C188_misnamed_refuted`, `C188_dimensions_refuted` |
| C189 | none: `C189_error`, `C189_others`, `C189_one` |
| C190 | R3: `C190_moons_counts_partial`, `C190_moons_circles_partial`, `C190_moons_range_partial`, `C190_moons_labels_partial`, `C190_moons_labels_refuted`, `C190_spiral_labels_partial`, `C190_spiral_counts_partial`, `C190_spiral_labels_refuted`, `C190_spiral_range_refuted`, `C190_spiral_range_partial` |
| C191 | none: `C191_centering`, `C191_features`, `C191_explicit`, `C191_lssvm`, `C191_lssvm_centered`, `C191_lssvm_moved`, `C191_conditional`, `C191_distances` |
| C192 | none: `C192_dual`, `C192_primal`, `C192_order` |
| C193 | none: `C193_arguments`, `C193_accepted`, `C193_refuted`, `C193_ordered`, `C193_missing`, `C193_verbose`, `C193_followed_partial`, `C193_runs_partial`, `C193_training_partial`, `C193_twice_refuted`, `C193_no_file_refuted`, `C193_name_partial`, `C193_name_refuted` |
| C194 | none: `C194_variances`, `C194_outputs`, `C194_spectrum` |
| C195 | none: `C195_lssvm`, `C195_primal`, `C195_dual`, `C195_centered` |
| C196 | R2: `C196_coordinates`, `C196_observation_order`, `C196_domain_order`, `C196_scale`, `C196_ties_refuted` |
| C197 | none: `C197_latent_partial`, `C197_moment_partial`, `C197_recovered_partial`, `C197_posterior`, `C197_dual`, `C197_dual_refuted` |
| C198 | none: `C198_least_squares_partial`, `C198_exact_partial`, `C198_undefined_partial`, `C198_dual_inverted`, `C198_dual_refuted` |
| C199 | none: `C199_rates`, `C199_steps`, `C199_descent`, `C199_linear`, `C199_too_fast` |
| C200 | none: `C200_handed_over`, `C200_last_word`, `C200_last_gradient` |
| C201 | none: `C201_exactly_partial`, `C201_initialised_partial`, `C201_in_sample`, `C201_update_refuted`, `C201_refused_refuted`, `C201_no_sample` |
| C202 | R4: `C202_recovers`, `C202_defined` |
| C203 | none: `C203_dual`, `C203_at_most`, `C203_loss`, `C203_primal`, `C203_features` |
| C204 | none: `C204_predictions`, `C204_trained`, `C204_reached`, `C204_components_dual`, `C204_components_primal`, `C204_same` |
| C205 | none: `C205_solution`, `C205_minimum`, `C205_lssvm`, `C205_centered`, `C205_contracts`, `C205_bounded` |
| C206 | none: `C206_factor`, `C206_solutions`, `C206_exactly`, `C206_refuted`, `C206_single_partial` |
| C207 | R2: `C207_kernel_values`, `C207_features`; R4: `C207_own_points` |
| C208 | none: `C208_kept_variances`, `C208_noise_is_mean_of_left_out`, `C208_total_variance_exactly`, `C208_primal_exactly`, `C208_total_variance_refuted`, `C208_primal_refuted` |
| C209 | none: `C209_solvable_exactly`, `C209_small_noise`, `C209_units_exactly`, `C209_every_unit_refuted` |
| C210 | none: `C210_most_likely_dual`, `C210_most_likely_primal`, `C210_reconstructions_agree` |
| C211 | none: `C211_draws_exactly`, `C211_draws_refuted`, `C211_drawn_from_latent` |
| C212 | none: `C212_kernel_values`, `C212_features_partial`, `C212_own_exactly`, `C212_no_features_refuted`, `C212_polynomial_refuted` |
| C213 | R2: `C213_mean_and_spread`, `C213_only_constants`, `C213_never_reverses`; R4: `C213_distance_kernels` |
| C214 | R2: `C214_few_partial`, `C214_agree_iff`, `C214_totals_partial`, `C214_smoother_refuted`, `C214_none_refuted`; none: `C214_others_refuted` |
| C215 | R3: `C215_symmetric`, `C215_similarity`, `C215_decreasing`, `C215_distance`, `C215_exact` |
| C216 | R4: `C216_error`, `C216_tolerance`, `C216_matrices` |
| C217 | none: `C217_listing_is_what_is_stored`, `C217_public_within_full`, `C217_removal`, `C217_read` |
| C218 | none: `C218_error`, `C218_entries`, `C218_operator`, `C218_features`, `C218_requested` |
| C219 | none: `C219_missing_refuted`, `C219_kernel_partial`, `C219_scale_refuted`, `C219_dual_partial`, `C219_primal_partial` |
| C220 | R3: `C220_features`, `C220_kernel`, `C220_kernel_sample`; R2: `C220_smoother`, `C220_neighbours`; none: `C220_predictions`, `C220_components`, `C220_nystrom` |
| C221 | none: `C221_batch_refuted`, `C221_steps_partial`, `C221_alone_partial`, `C221_linear_partial` |
| C222 | R4: `C222_large`, `C222_small`, `C222_matrix_small`, `C222_matrix_large`, `C222_predictions_small`, `C222_predictions_large`; R3: `C222_large_uniform` |
| C223 | R4: `C223_nearest`, `C223_ties`, `C223_mean` |
| C224 | none: `C224_small_solution`, `C224_small_fit`, `C224_small_predictions`, `C224_large_solution`, `C224_large_predictions` |
| C225 | none: `C225_descent`, `C225_momentum`, `C225_second_moment`, `C225_corrected` |
