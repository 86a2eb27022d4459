## 3. What is modelled and what is not

### Modelled

Every function and class of `mizarlabs/` outside `tests/` except those listed below; the definitions of the model cite
their lines.

| source | model |
|---|---|
| `model/model_selection.py` | `CV_Model` (splits, purging, embargo, which rows go to which path), `Paths_Model` (fitting, predictions and the returned frames), `LogUniform_Model` |
| `model/bootstrapping.py` | `Boot_Model` |
| `model/sequentially_bootstrapped_bagging_classifier.py` | `Bag_Model` (one fit, out-of-bag score), `BagState_Model` (a history of fits, caches, set_params) |
| `model/pipeline.py` | `Wrap_Model` (pipeline and feature-union subclasses, prediction features), `Pipe_Model` (signal pipeline, trader), `Strat_Model` and `Flow_Model` (the pieces connected with the sizer, the labels and the cross-validator) |
| `structural_breaks/*.py` | `OLS_Model` (the shared regression), `Break_Model` |
| `transformers/targets/labeling.py` | `Label_Model`, `DailyVol_Model` |
| `transformers/targets/trend_scanning.py` | `Trend_Model` |
| `transformers/sample_weights/__init__.py`, `transformers/sampling/*.py` | `Weights_Model`, `Boot_Model` (average uniqueness), `Cusum_Model` |
| `transformers/trading/bet_sizing.py` | `Bet_Model` |
| `transformers/features/*.py`, `transformers/microstructural_features/*.py`, `transformers/technical/*.py` | `Feat_Model`, `TAFactory_Model` (argument handling of the TA-Lib factory) |
| constructors and scikit-learn's parameter protocol of all of these | `Params_Model` |

### Not modelled

* `setup.py`, `docs/`, `mizarlabs/tests/` (the literal tests are replayed in `Conformance.v`), imports and re-exports.
* `TAFactory.get_function_groups` and `get_functions` (lists of names of TA-Lib); TA-Lib itself is a function argument.
* `ClosingPositionsModel` (an abstract class; a closing model is a function argument), `_cast_nan_to_none` (unused), the
  abstract `_check_output` hooks (empty, or an assertion on the type of the result the method has just built).
* Python typing errors for arguments of a wrong type, unless a check of the code is what rejects them; logging, tqdm,
  warnings, plotting, pickling, memory use and running time.
* Floating-point rounding, signed zeros and overflow, except where noted: the double division of C02/C10/C11, and every
  theorem stated for an arbitrary arithmetic. Numerical stability (for instance of pandas' incremental rolling sums) is
  outside the model: rolling and exponential statistics are their exact values.
* Numba's compilation and its race conditions, except the order of the parallel loop iterations of the barrier search
  (C26) and the uninitialised memory of trend scanning (C33); joblib's scheduling is an arbitrary permutation of the
  jobs (C48).
* The internals of scikit-learn's estimators and of numpy's random generator: both are arbitrary functions.
* pandas beyond the operations used: see `Series.v` and the comments of `Pipe_Model.v` for what each operation is taken to do.

### Simplifications

As stated beside the definitions:

@SIMPLIFICATIONS@

## 4. Trusted base

* Coq 8.16.1's kernel, and its `vm_compute` conversion for some `Example`s.
* The model: that the definitions in `*_Model.v` do what the cited lines do, with the simplifications above, and that
  numpy, pandas and scikit-learn do what `Prelude.v`, `Num.v`, `Series.v` and the comments say.
* The statements: `*_Props*.v` and the vocabulary in `*_Spec.v`.
* Axioms: only those of Coq's standard library listed below, which come with the classical real numbers and
  `Classical_Prop`. The development declares none, contains no admitted proof, and no theorem rests on more than the
  four axioms named here. The list is the output of `Print Assumptions` for each theorem
  (`tools/assumptions.py`).

@ASSUMPTIONS@

## 5. Testing the theorems

`tools/mutate.py` rebuilds a scratch copy of the development with one definition of the model edited and reports which
lemmas and theorems no longer prove; `tools/automut.py` generates such edits at random. Every attempt is a line of
`seeded/LOG.jsonl`, with the theorems that failed and those that were tightened because they did not.
`Conformance.v` checks in the other direction that the model reproduces the project's own literal test cases.
