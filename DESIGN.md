# Formal model of radvel: design

Source: `/repo` (California-Planet-Search/radvel, pinned commit), read as text, never executed.
Prover: Rocq/Coq 8.16.1; the development is `rocq/theories`.

## 1. Conventions

* A Python `float` is a Coq real number `R`. Rounding, overflow and signed zero are **not**
  modelled, except
  - where the code branches on or returns `inf`, `-inf`, `nan`: there the type `Py.ext`
    (`Fin x`, `PInf`, `NInf`, `NaN`) is used;
  - in `Dates.v`, where binary64 is the point of the property: there Flocq's
    `round radix2 (FLT_exp (-1074) 53) ZnearestE` is used for every operation.
* numpy arrays are lists; the shape checks and broadcasting rules on which the code relies
  are explicit (e.g. a one-row matrix that broadcasts, `Gp.v`).
* Exceptions are values: `res A := Ok a | Err exn`, with Python's exception classes as
  constructors of `exn`. A statement executed before the exception is visible in the returned
  state where the code keeps that state.
* Dictionaries with insertion order are association lists (`Py.dict`): an update keeps the
  position, a new key goes last, a deletion closes the gap.
* Mutable objects are state records threaded through the functions. Where aliasing is
  observable (shared `Parameter` objects, `copy.copy`, in-place array writes, mutable default
  arguments) the sharing is modelled explicitly and said so in the comment.
* Loops without a bound in the source are recursion on fuel that returns the error
  `OutOfFuel`; theorems are about every run that returns, with separate termination theorems.
* External code is an argument of the model (an oracle), never an axiom; theorems quantify
  over it. Assumptions made about an oracle are visible hypotheses (e.g. "argsort returns a
  sorting permutation").
* Every definition of a model file has a comment with the file and lines it models.
* Files named `XSpec.v` hold specifications that do not mention the model.

## 2. File layout

`Py.v`, `PyFacts.v` (exceptions, dictionaries, extended numbers); `PyFloat.v` (int/float
literals); one or more model files per source module (table below); `…Proofs.v`, `…Thms.v`,
`…Main.v` etc. hold lemmas; `Ex*.v` hold the concrete objects used in the examples.
`Properties*.v` contain only the property theorems, each closed by `exact`, followed by
`Print Assumptions`, with an `Example` beside them.

| Properties file | claims |
|---|---|
| `PropertiesAnno.v` | C80 |
| `PropertiesBasis.v` | C08, C09, C10, C11, C12, C13, C14, C15, C16 |
| `PropertiesChainPlot.v` | C79 |
| `PropertiesCli.v` | C84 |
| `PropertiesCompCells.v` | C96 |
| `PropertiesCompText.v` | C93 |
| `PropertiesDataDir.v` | C90 |
| `PropertiesDecorr.v` | C63 |
| `PropertiesDerivTab.v` | C68 |
| `PropertiesDerive.v` | C66 |
| `PropertiesDriver.v` | C46, C47, C48, C52 |
| `PropertiesFastBin.v` | C71 |
| `PropertiesFigure.v` | C77 |
| `PropertiesFit.v` | C39, C40, C59 |
| `PropertiesFitText.v` | C83 |
| `PropertiesGp.v` | C30, C31, C32 |
| `PropertiesGpFigure.v` | C95 |
| `PropertiesGpLike.v` | C69 |
| `PropertiesGpPlot.v` | C78 |
| `PropertiesGpPred.v` | C70 |
| `PropertiesIc.v` | C62 |
| `PropertiesLike.v` | C17, C18, C19, C20, C21, C51 |
| `PropertiesLoading.v` | C91, C92 |
| `PropertiesMcmc.v` | C33, C34, C35, C36, C37, C38 |
| `PropertiesNested.v` | C29, C56, C57, C58 |
| `PropertiesOrbit.v` | C01, C02, C03, C04, C05, C06, C07 |
| `PropertiesPanel.v` | C76 |
| `PropertiesParTable.v` | C64 |
| `PropertiesParallel.v` | C86 |
| `PropertiesParamText.v` | C94 |
| `PropertiesPipeline.v` | C60, C61 |
| `PropertiesPostProc.v` | C65 |
| `PropertiesPrior.v` | C18, C22, C23, C24, C25, C26, C27, C28 |
| `PropertiesPriorTab.v` | C73 |
| `PropertiesPriorText.v` | C89 |
| `PropertiesProgress.v` | C88 |
| `PropertiesRepChains.v` | C74 |
| `PropertiesReportFile.v` | C82 |
| `PropertiesReturn.v` | C87 |
| `PropertiesRvTab.v` | C72 |
| `PropertiesSetup.v` | C55 |
| `PropertiesStart.v` | C85 |
| `PropertiesTabRun.v` | C81 |
| `PropertiesTelPlot.v` | C75 |
| `PropertiesTex.v` | C67 |
| `PropertiesUtils.v` | C41, C42, C43, C44, C45, C49, C50, C53, C54 |

## 3. What is modelled

| source | modelled (model file) | not modelled |
|---|---|---|
| `src/kepler.c`, `src/_kepler.pyx` | all (`Kepler.v`): `sign(int)` truncation, 30-step cap with `exit(-1)` as an error, `rv_drive`, array wrappers | printing |
| `kepler.py` | 20-110: `rv_drive`, `kepler` with the mask bookkeeping (`Kepler.v`) | `profile` (113-182) |
| `orbit.py` | all (`Kepler.v`), scalar arguments plus the array case of the secondary-eclipse test | |
| `basis.py` | all: `_print_valid_basis` excepted; `Basis.v`, `Params.v`, `ModelComp.v` (`get_eparams`, `get_circparams`) | unit strings, printing |
| `model.py` | all: `Parameter`, `Parameters` (with `__reduce__`), `Vector`, `GeneralRVModel`, `RVModel` (`Params.v`, `RVModel.v`, `Phase.v`), `tex_labels` (`TexLabels.v`), `__repr__` (`ParamText.v`) | `__float__` |
| `likelihood.py` | `Likelihood`, `CompositeLikelihood`, `RVLikelihood`, `loglike_jitter` (`Likelihood.v`); `GPLikelihood`, `CeleriteLikelihood` (`Gp.v`), `GPLikelihood.residuals` (`GpResid.v`), `__repr__` (`FitText.v`; the format `g` is an oracle) | `predict` output of celerite |
| `gp.py` | all four kernels; celerite kernel coefficients and the arguments given to `GP.compute` (`Gp.v`), `__repr__` (`ParamText.v`) | celerite itself (oracle) |
| `prior.py` | all priors of the file (`Prior.v`), `NumericalPrior` with the KDE as oracle, `UserDefinedPrior` with arbitrary functions; `__str__`, and `__repr__` (`PriorTab.v`, `PriorText.v`) |  |
| `posterior.py` | construction, `logprob`, `check_proper_priors`, `prior_transform`, likelihood-for-nested-sampling guard, `bic`, `aic` (`Posterior.v`); `load` and `writeto` not modelled; `__repr__` (`FitText.v`) | |
| `fitting.py` | `maxlike_fitting` (`Fitting.v`), `model_comp` (`ModelComp.v`) | printing; the optimiser (oracle) |
| `mcmc.py` | `mcmc`, `convergence_check`, `convergence_calculate`, Gelman-Rubin, chain collection (`Mcmc.v`, `McmcRows.v`); HDF5 save and resume (`McmcSave.v`); scales and starting positions of walkers, with what emcee asks of them (`Start.v`; the draws and the condition number are oracles); rounds in one process and in several with posteriors as objects (`Parallel.v`; emcee is any deterministic program that calls the posterior, pickling copies); status and closing messages (`Progress.v`; clock and number formats are arguments) | multiprocessing and signal handling, curses, autocorrelation estimator (oracle), emcee's proposal (oracle) |
| `nested_sampling.py` | the four back ends as drivers, `run`, `load_results` (`Nested.v`) over a file-system state | the samplers (oracles) |
| `utils.py` | 21-48 `load_module_from_file`, 406-409 `cmd_exists` (`Loading.v`), 50-143 `initialize_posterior` (`Setup.v`), 146-219 rounding and formatting (`Format.v`), 222-306 `timebin`, `bintels` (`Timebin.v`), 309-342 `fastbin` (`FastBin.v`), 345-383 phases, 643-668 draws (`Phase.v`), 385-403 (`Workdir.v`), 412-441 (`Dates.v`), 444-479 (`Stats.v`), 481-640 (`Mass.v`) | Python 2 branch of `load_module_from_file`, `date2jd` of sub-microsecond inputs |
| `driver.py` | 314-340 keyword strings (`Kwargs.v`), 540-563 `_pick_sampler`, 759-798 status file with `configparser` reading and writing (`Status.v`) 31-250, 343-537, 566-757: the commands as far as they read and write files and the status file (`Pipeline.v`); 398-459: `ic_compare` (`IcCompare.v`); 253-311: `sampling_postprocessing` (`PostProc.v`); 593-676: numbers of `derive` (`Derive.v`); 458-459, 513, 733: the text of a comparison (`CompText.v`) | figures |
| `report.py` | 448-524 `tab_comparison`: rows (`CompTable.v`), cells, head and column definitions (`CompCells.v`) ; 67-70 basis of the reported parameters, 196-273 `_row`, `_data`, 342-370 `tab_params` (`ParTable.v`); 410-446 `tab_derived` with `DerivedPlot`, plot/mcmc_plots.py 181-227, 257-271 (`DerivTab.v`); `tab_rv`, `tab_crit` (`RvTab.v`); `tab_prior_summary` with `__str__` of the priors (`PriorTab.v`); 67-87 samples and quantiles (`RepChains.v`); several tables in one run and the document of a report (`TabRun.v`); the files of a report, `compile` (`ReportFile.v`; the compiler is an oracle) | LaTeX templates, PDF compilation |
| `cli.py`, `__init__.py`, `plot/*` | the search for the example data in __init__.py (`DataDir.v`); `main` of cli.py with the parsing of the installed argparse (`Cli.v`; `int`, `float` and `eval` of a text are oracles); `DerivedPlot.__init__` and `texlabel` of plot/mcmc_plots.py (`DerivTab.v`) ; `telplot`, `mtelplot` of plot/__init__.py (`TelPlot.v`); `MultipanelPlot.__init__` (the parts on data), `plot_timeseries`, `plot_residuals`, `plot_phasefold` of plot/orbit_plots.py (`Panels.v`); `MultipanelPlot.plot_multipanel` and `labelfig` (`Figure.v`: panels, cells, letters; no sizes); `GPMultipanelPlot.plot_gp_like` and `plot_timeseries` (`GpPlot.v`); `TrendPlot`, `AutoPlot`, `CornerPlot` and `DerivedPlot.plot` as far as data and texts are handed over (`ChainPlot.v`); the text of a phase panel (`Anno.v`); `GPMultipanelPlot.plot_multipanel` (`GpFigure.v`: panels, cells, letters; no sizes) | help and version texts, all other plotting |

### Oracles

`np.argsort` (any sorting permutation), `scipy.optimize.minimize` (any sequence of
evaluations and any returned value), `scipy.optimize.root`, `scipy.stats.norm.ppf`
(hypothesis: quantile function, proved to exist), KDE of `NumericalPrior`, Cholesky
(`scipy.linalg.cho_factor`: the specification "succeeds iff positive definite, solves the
system" is not needed by the theorems: the model takes the solved quantities as functions of
the matrix), celerite `GP`, emcee steps, autocorrelation times, random choices, the nested
samplers, `Decimal(str(x))`, `str(float)`, `'%.2f'`. h5py is an exact store whose single
dataset operations are atomic. `configparser` and `int()`/`float()` syntax are **not**
oracles: they are modelled.

## 4. Proof methods

| id | how |
|----|-----|
| C01 | strict monotonicity of E - e sin E, intermediate value theorem, exit-condition invariant; Danby step contraction for e <= 0.3 (all e <= 0.99: C87) |
| C02 | induction on iterations: masked vector state = map of scalar states |
| C03, C04 | half-angle identities, Lipschitz bound of the velocity in E, floor arithmetic |
| C05-C07 | case analysis, atan/tan half-angle facts, counterexamples |
| C08, C09, C12 | symbolic evaluation of all nine bases, atan2 identities; classification of the 81 pairs |
| C10, C11, C15 | frame lemmas by induction over planets, histories of conversions |
| C13, C14 | injectivity of slot arithmetic, induction over keys |
| C16 | induction over planets |
| C17, C18 | state machines; invariants over histories of calls |
| C19-C21 | permutation induction; completing the square; Gaussian integral proved in `GaussInt.v` |
| C22-C24 | Coquelicot integrals, improper ones as limits |
| C25-C28 | list induction, permutation invariance, exact characterisations |
| C29, C56-C58 | file-system state machine |
| C30 | positive semidefiniteness through power series of kernels (`PsdProofs.v`) |
| C31, C32 | histories of evaluations; alignment under permutations |
| C33-C38 | invariants over rounds of an arbitrary sampler; crash points of the save routine |
| C39, C40, C59 | arbitrary optimiser; enumeration of subsets |
| C41, C42 | strong induction over bins |
| C43-C45, C49, C50, C53, C54 | algebra, Flocq error analysis for dates, stack discipline for directories |
| C46-C48, C52 | string functions, round trip of the status file, sorted row lists |
| C55 | dictionary iteration semantics (deletion while iterating), induction over instruments, invariant between dictionary, indices and array for success with kernels or decorrelation |
| C60, C61 | simulation of the commands by a small state machine; histories of commands |
| C62 | induction over the list of fitted models; label multisets related to free parameters |
| C63 | induction over the decorrelation terms; completing the square for the marginalised offset |
| C64 | induction over the loop of rows with caught KeyError; string lemmas on removal of a suffix and on join/split |
| C65 | loop invariants for fixed columns, medians and elements; conversion and fit theorems (C08, C39) reused; quantile as interpolated order statistic |
| C66 | inversion of the planet loop with a frame for the columns of other planets; laws of the mass properties reused per sample |
| C67 | the last matching table entry decides (fold lemma); substring search over concrete heads and arbitrary instrument names; brace depth |
| C68 | the loops as a fold over (name, planet) pairs with distinct keys; sort commutes with scaling for the quantiles; first maximum by a scan invariant; the rows as a permutation of the labels for every order of the set |
| C69 | Cholesky factorisation by rows: existence for positive definite matrices (back substitution gives the vector that shows the pivot positive), uniqueness; r . K^-1 r = sum z^2 with L z = r; density of L z for standard normal z; the kernels' matrices from C30 |
| C70 | expected square error of w exceeds that of the solution y of K y = k(x) by the quadratic form of w - y; the error is the quadratic form of the kernel on the data and the new point plus noise, so not negative; compute_covmatrix(0.) leaves finite matrices unchanged |
| C71 | floor of (x-lo)/w gives the bin, edges are strictly increasing; sum of squared deviations = sum of squares - n m^2; permutation invariance of filtered sums |
| C72 | digits of a number are read back by Horner's rule; n = 10^d (n/10^d) + n mod 10^d; error of rounding to nearest |
| C73 | labels from C67, densities from C22; induction over planets and parameters; str[:-5] removes the last separator |
| C74 | the conversion theorems of C08-C10 for the parameters; induction over parameters and planets for the columns, keys being injective |
| C75 | induction over the instruments with the number of colours handed out as invariant; the formats of an instrument are changed only when it is drawn |
| C76 | the rows of the array after the conversion to the synth basis are related to the orbital elements; the likelihoods' residuals leave all rows but the marginalised offsets as they are, so the model's values at any later call are sums of one curve per planet and the trend; panels then follow by arithmetic on tables indexed by data set and row, C75 and the binning theorem |
| C77 | induction over the planets' cells; the formats are unchanged from the second panel on (C75), so any two later panels are drawn with the same formats |
| C78 | an invariant on the array of model values (which members' means it has been given, how often) over the loop of likelihoods; panels then follow as in C76 |
| C79 | the rows of the returned table are walker-major (as in C54), thinning keeps every t-th row; a counting argument shows that the pieces of reshape begin on walkers' first steps; an invariant over rounds on the recorded checks |
| C80 | sigfig is idempotent on what the driver's summary holds (rounding to a coarser decimal grid twice); quantiles scale with the unit; the entry of DerivedPlot for a column carries its own label and unit (C79) |
| C81 | invariant of a run: all shared dictionaries agree, off the derived names, with those at the start (names of parameters begin differently); a second conversion to the print basis adds no parameter, so fills no column |
| C82 | what is recorded after any plots is one entry per kind plotted; each recorded name is that of a file in the output directory, kept by plots and by reports |
| C83 | a text of lines without line breaks splits into them, a padded line into its words; the values of derived lines by C08's conversion |
| C84 | the parser goes over the words one by one: a block of one option closes the option before it and leaves the settings entered in order; the spellings classify to the same option |
| C85 | induction over the varied rows: each row keeps its value and takes its scale; a column of starts is constant exactly if its scale is zero or its draws are equal |
| C86 | simulation: both ways are simulated by a run without posteriors, by induction over rounds, samplers and calls of the log-probability, with the invariant that every posterior in the heap is in a state of equal answers |
| C87 | verified subdivision of the (e, E) plane: interval arithmetic on primitive 63-bit integers proved to enclose the real step (`Enclose.v`, `DanbyBoxProofs.v`), a capture region around the root whose distance shrinks by a proved factor, equivariance of the iteration under whole turns and change of sign (`DanbyAll.v`), and one evaluation of the checker (`DanbyRun.v`) |
| C88 | monotone rounding of quotients for the bar, accounting of C33 for the numbers, invariant on acceptance counts over rounds, induction over the loop for the announcements, history of tests of C34 for the verdict |
| C89 | cutting a text at the first comma, blank or newline, injectivity of each kind's format, distinct first characters across kinds, lines of C83 for the posterior |
| C90 | dirname of a path with one name after a plain directory, splitting the list of places at the first that exists |
| C91 | invariant over histories: the compiled copy comes from an edit with its time and size |
| C92 | pieces of a text between separators, joining of paths by cases |
| C93 | parser with fuel run on printed text, generic lemma for lists of printed items with errors, invariant of one-line texts for the status file |
| C94 | texts cut at their first comma, injectivity field by field |
| C95 | closed form of the loops by induction, cells of a grid are distinct by division with remainder |
| C96 | columns as a relation, unique by cutting at the first &; induction over entries with the open column as prefix |


## 5. Result per claim

`proved`: the statement of `properties.jsonl` in full. `partial`: the statement is false of
the code (a `_refuted` theorem exhibits an input) and the strongest true form is proved
(`_partial`), or a part is missing, as noted.

| id | status | note |
|----|--------|------|
| C01 | proved | *Kepler solver returns the eccentric anomaly.* Existence and uniqueness of the root, accuracy 1e-12/(1-e) of every returned value for both solvers, and the cap on the C solver's corrections are proved for all M and all e in [0,1). Beyond the claim, both solvers are shown to return for 0<=e<=0.3 (C01_solvers_terminate_low_eccentricity), and for all e<=0.99 in C87; between 0.99 and 1 the C solver is bounded by construction and the NumPy loop's termination is neither claimed nor proved. |
| C02 | proved | *Vectorised Kepler solver is element-wise.* All parts proved. An empty time array makes the NumPy solver raise (recorded as C02_empty_array_raises). |
| C03 | proved | *rv_drive is the Keplerian radial velocity.* Keplerian form (within the solver tolerance), periodicity, linearity and bounds hold for every returned value. Beyond the claim, rv_drive is shown to return for e<=0.3 (C03_rv_drive_returns_low_eccentricity), and for all e in C87. |
| C04 | proved | *C kernel, NumPy fallback and circular shortcut agree.* Back ends agree within a bound derived from the solver tolerance. |
| C05 | partial | *Out-of-domain orbital elements are clamped.* Clamps hold on the eccentric path. Refuted for e == 0 with a negative period: the circular shortcut does not clamp the period (C05_negative_period_circular_refuted). |
| C06 | proved | *Transit time and periastron time conversions are inverse and mean what they say.* Round trip, conjunction and periodicity proved. |
| C07 | partial | *Secondary eclipse is the first one after periastron.* The returned instant is a superior conjunction. That it is the first one after periastron is refuted when cos(omega) <= 0, and the array form raises ValueError in those cases. |
| C08 | partial | *Basis conversion round trip.* Conversion between any two of the nine bases keeps the orbit (period, e, k exactly; omega and tp exactly for e>0 or when the basis stores them); basis->synth->basis reproduces every value; synth->basis->synth proved up to the circular case. Refuted at e=0: tp moves by half a period for omega=pi (C08_circular_tp_refuted). |
| C09 | proved | *Dictionary and vector basis conversions agree.* All nine bases, any number of planets, to synth, from synth and any-to-any; the vector conversion agrees slot by slot with the dictionary conversion. |
| C10 | proved | *Basis conversion does not disturb anything else.* Parameter objects, the caller's dictionary and the non-orbital entries are unchanged; each planet is converted from its own values. The caller's basis NAME can be rewritten by from_synth: this is treated under C11. |
| C11 | partial | *Basis conversion is repeatable.* Holds for histories of conversions to the four bases whose from_synth branch leaves self.name alone (C11_repeatable_partial). Refuted for the other five: after one conversion every further conversion of the same object raises KeyError. |
| C12 | partial | *A converted parameter set describes the same orbit when used in a model.* Of the 81 ordered pairs, 37 give a model with the same elements and velocities; 42 give a set from which no Vector can be built (ValueError) and 2 give a model that reads the transit time as periastron time. |
| C13 | proved | *Parameter dictionary <-> vector round trip.* Round trip, slots, write-back for all layouts (sets holding exactly the parameters of one basis per planet, plus extras). |
| C14 | proved | *Vector row names match row indices.* Names agree with slot indices for complete layouts. Sets lacking an orbital parameter shift the names (not covered by the layout hypothesis). |
| C15 | partial | *Parameters survive copy and pickling.* Every entry survives copy/deepcopy/pickle. Refuted for sets from which a basis parameter was deleted (it returns with value None) and for sets once converted with a renaming basis. |
| C16 | proved | *Multi-planet RV model is the superposition of its planets plus trend.* Superposition over all planets or a chosen one; pointwise in time; zero amplitudes; the call returns for e<=0.3 here and for all e in C87. |
| C17 | partial | *set_vary_params/get_vary_params are a lens.* Holds whenever the cached list of varied rows is absent or up to date (set/get lens, restoring, wrong lengths, fast=False). Refuted when flags are edited after the list was cached and the number of varied parameters is unchanged: a fixed parameter is overwritten. |
| C18 | partial | *logprob_array depends only on its argument.* Proved from the constructors for RV likelihoods and composites, linear or ordinary offsets, with decorrelation; for posteriors with any library prior not attached to a marginalised offset. Refuted for a prior on a marginalised (linear) gamma: its value depends on the previous call. |
| C19 | proved | *RV log-likelihood is the Gaussian log density of the data.* All parts proved, order independence for the actual RV model. |
| C20 | proved | *Analytic gamma marginalisation.* The stored offset minimises chi-squared and logprob is the log of the (improper) integral over gamma; Gaussian integral proved. |
| C21 | partial | *Information criteria.* bic and aic formulas proved for likelihoods and Posterior.bic. Refuted for Posterior.aic, which raises TypeError. |
| C22 | proved | *Named priors are normalised densities.* All four priors, through their constructors, improper integrals over the real line. |
| C23 | proved | *Prior transforms are the quantile functions of the priors.* All four priors; norm.ppf is a function argument assumed to be the standard normal quantile function (one is proved to exist). |
| C24 | partial | *Eccentricity and positive-K priors.* Eccentricity prior in all nine bases. PositiveKPrior holds when k is a parameter; refuted with logk: the index dictionary contains k for every planet, so log K is tested and K<1 is rejected. |
| C25 | proved | *Posterior combines priors and likelihood.* All parts proved; a prior that raises makes logprob raise (lemma post_raises). |
| C26 | proved | *check_proper_priors accepts exactly the proper configurations.* Exact characterisation; otherwise ValueError. |
| C27 | proved | *prior_transform maps the cube coordinate-wise.* Both modes. |
| C28 | partial | *Nested-sampling target times prior equals the posterior.* Holds for the library's named priors and the two constraints with a finite keyword. Refuted: SecondaryEclipsePrior raises TypeError; priors attached through param_list are in neither factor. |
| C29 | partial | *Nested-sampling results are never overwritten unless asked.* Guard and improper-prior parts proved; 'kwargs are not modified' is false for non-empty dictionaries (refuted): the back ends write resume/checkpoint_file/... into the caller's dictionary, so a second call with it raises. Proved: only the managed keys change. |
| C30 | partial | *GP covariance matrices are covariance matrices.* SqExp and Per: proved for all times, errors and non-zero length scales and periods (with length 0 the code yields nan). QuasiPer: entries proved; definiteness refuted because exponents are clipped at -100 (indefinite matrix with all errors positive), proved when err^2 > 2 n amp^2 e^-100 or when no exponent is clipped. The branch for a zero hyper-parameter returns diag(err^2), which contradicts the diagonal claim for amp > 0. |
| C31 | partial | *GP log-likelihood depends only on current parameters.* Refuted: QuasiPer with a zero hyper-parameter does not assign kernel.covmatrix, so logprob uses the matrix of the previous evaluation; a predict() that raises leaves the distances of its own grid. Proved for all other histories: any sequence of logprob() calls and of predict() calls that returned, SqExp, Per, and QuasiPer with non-zero hyper-parameters. |
| C32 | partial | *Data stay aligned with times in the celerite likelihood.* Refuted for unsorted input: the solver receives the times in the given order and the variances and residuals in time order. Proved for input in time order (ties allowed, any argsort), and for predict() in any order. |
| C33 | partial | *MCMC step accounting.* Steps, ncomplete and burn-in count proved for every round of every new run with checkinterval >= 2 and any convergence history; the number of rounds is nrun/(checkinterval-1) rounded. Refuted: nrun is not an upper bound on the steps per walker (2 requested, 3 taken; 10000 requested with the defaults means 204 rounds of 50). checkinterval = 1 divides by zero (modelled). |
| C34 | proved | *MCMC stops early only after two consecutive passed tests.* All histories of test outcomes. |
| C35 | partial | *Stored chains are sampler trajectories after burn-in.* Refuted twice: the second stored sample of every round restarts from the position before the round's first sample; and when burn-in ends in the last executed round the returned table consists of the burn-in samples. The partial theorem says exactly which transitions the stored chains consist of. |
| C36 | proved | *Chain rows keep parameters and log-probabilities together.* Includes the whole run: the table returned by mcmc(). |
| C37 | proved | *Gelman-Rubin statistic.* Exact algebra over the reals. |
| C38 | partial | *Saved MCMC state can be resumed.* Refuted: a crash between two ensembles of a later save leaves a file that resumes with chains of different rounds; a file left by a run with more ensembles makes later complete saves unusable. Proved: a complete save resumes with the same chains, log-probabilities, acceptance counts, burn-in count and autocorrelation history; other settings are refused; crashes inside the update of one ensemble are refused; in a first save crashes are refused at every point. Single dataset deletions and creations are taken as atomic. |
| C39 | partial | *maxlike_fitting leaves the posterior at the optimum found.* Refuted: maxlike_fitting drops the optimiser's result and keeps the last point at which the objective was evaluated (counterexample ends at log-probability -inf although the start was reported). Proved: for any optimiser the last evaluated point is kept, dictionary and vector agree, fixed parameters unchanged; full claim for optimisers evaluating the start first and the reported solution last. print(post) is not modelled. |
| C40 | partial | *Model comparison enumerates the documented models.* Proved for all vary flags, planet numbers and combinations of e, nplanets, trend, jit: models fitted, their order, counts 2^m-1, caller's posterior untouched, list extended. Refuted: for [] (and gp) the caller's posterior itself is fitted; calls without mc_list share the default list, so results depend on earlier calls. In the trend comparison the full model starts from zero trend. |
| C41 | proved | *timebin partitions the data.* Real arithmetic; any argsort. For binsize<=0 the loop is proved never to end. |
| C42 | proved | *bintels never mixes instruments.* Order of first appearance specified by the inductive relation firsts. |
| C43 | partial | *Orbital phase folding.* t_to_phase proved. t_to_phase_vector uses the time of periastron as the reference time where t_to_phase uses the time of conjunction: refuted with a witness, and what it does compute is proved. |
| C44 | partial | *Calendar date <-> Julian date.* Exact arithmetic: round trip, value, day shift. Binary64 (Flocq): the round trip is refuted (2000-01-01 12:00:01) and proved within 61 microseconds; strictly increasing proved in binary64. |
| C45 | proved | *Mass and semi-amplitude formulas are inverse.* Linearity in K and inversion in the low-mass branch, as claimed. In the high-mass branch the root finder is an oracle: if it returns positive zeros the result is the unique solution of the two-body relation; existence proved. |
| C46 | partial | *Pipeline status file keeps earlier stages.* configparser (RawConfigParser reading and writing) is modelled concretely. Proved for every readable file and every sequence of saves of names, keys and values a status file can hold (save_ok). False as stated: a crash while saving can lose everything (C46_crash_refuted); values with surrounding blanks, keys with delimiters are altered or make the file unreadable. |
| C47 | proved | *Sampler selection for derived products.* All status files and request strings, and combined with any sequence of saves. |
| C48 | proved | *Command-line keyword strings.* All ASCII strings; int() and float() syntax modelled with underscores, signs, white space; floats kept as exact decimals (rounding to double not modelled). The empty list has no text: '' raises, None gives {}. |
| C49 | partial | *Posterior predictive draws follow the chain.* Refuted: array_to_params writes the parameter dictionary but the model reads its vector. Proved: all returned rows equal the model before the call. |
| C50 | partial | *Percentile error bars.* Non-negativity, quantile characterisation, equivariance (angular=False), order independence proved. 'Does not modify the caller's array' refuted for angular=True. |
| C51 | proved | *Composite likelihood is the sum of its parts.* Sum, order, alignment of all arrays, refusal of disagreeing members. The stored y has the offset subtracted for all members but the first (modelled, not part of the claim). |
| C52 | partial | *Model comparison table labels.* Rows handed to the template are characterised exactly for lists without NaN; cell formatting and the template are oracles. False as stated for more than 50 models, of which only 50 are listed (C52_omitted_refuted). |
| C53 | proved | *Number formatting.* Decimal rounding in exact arithmetic; decimal representations are oracle arguments of sigfig. |
| C54 | partial | *Working directory is restored.* Refuted if the block removes the original directory; proved otherwise, for any block and nesting. |
| C55 | partial | *Configuration loading.* Proved: basis check, data required for every named instrument, offset and jitter from the setup file, one likelihood per instrument from exactly its rows, class selection, composite content, parameters kept, agreement with direct construction, and a success theorem. Partial because the conversion of logjit is false in general: it raises RuntimeError unless the logjit key is the last key (C55_logjit_refuted); converted correctly when last (C55_logjit_partial). Success is proved for setups without kernels (C55_complete), with a kernel for every instrument (C55_complete_gp) and with decorrelation (C55_complete_decorr); hyper-parameters for only some instruments are refused (C55_mixed_refused), and a declared decorrelation coefficient raises IndexError (C55_declared_refuted). Beside kernels, --decorr has no effect at all (C55_gp_ignores_decorr). |
| C56 | proved | *Saved nested-sampling results are the ones returned.* run/load_results; HDF5 storage modelled as an exact store of the results. |
| C57 | partial | *A nested-sampling run without output directory leaves existing files alone.* Refuted: MultiNest without output_dir uses ./tmpdir and removes it, with any files the user had there. Proved for the other back ends, assuming the packages themselves leave the file system alone. |
| C58 | partial | *overwrite=True accepts an existing output directory.* Refuted: dynesty raises FileExistsError from os.makedirs when the directory exists without sampler.save. |
| C59 | partial | *The gp comparison fits a model without the Gaussian process.* Refuted: the copy meant to be without GP gets its hyperparameters set to 0 but their vary flags kept (fitting.py:193 writes column 0), so they are fitted; the caller's posterior is fitted in place. Proved: exactly which models are fitted. |
| C60 | proved | *Pipeline commands demand exactly what they need and find every file.* Refinement of the commands (status text, files) to a small state machine, plus the prerequisites stated on the history of commands. Paths and texts must be ones the status file can hold (C46). Found: mcmc, ic and plot without a fit raise NoSectionError, so the branch of mcmc that starts from the setup file and the assertion messages are not reached. |
| C61 | partial | *Tables and reports combine the results of one run.* Refuted: fit and mcmc write the same posterior file, so a fit after mcmc makes tables combine its posterior with the old samples (the params table then raises AttributeError); derived samples survive a new sampler run and are shared by both samplers. Proved: ns tables always come from the last ns run; mcmc tables from the last mcmc run if no fit follows; derived samples match as long as their sampler is not run again. |
| C62 | partial | *radvel ic reports every compared model once.* Partial because the full statement is false (theorems _refuted): without -t the default is the text 'trend', which is taken apart into characters and always raises AssertionError; --fixjitter has no effect (flags are changed on the dictionary, not on the vector); models that differ only in parameters without label are taken for the same; a second call in one process repeats earlier models. Proved: labels agree exactly if the labelled free parameters agree; un-mixed comparisons report the first model of each kind, in order; mixed comparisons report the combined comparison. The fit itself is an oracle. |
| C63 | partial | *Decorrelation subtracts one centred linear term per variable.* Partial because the full statement is false (theorems _refuted): a variable whose name occurs in another coefficient's name picks up that coefficient and the correction becomes a polynomial of higher degree; a variable with an underscore raises KeyError; the marginalised offset ignores the correction, so logprob is below the integral (exact difference proved); likelihoods with a Gaussian process drop the decorrelation. Proved for names that keep the terms apart: residuals, logprob, zero mean of the correction, invariance under constants added to columns. Columns hold finite numbers. |
| C64 | partial | *The parameter table shows every parameter once with its own numbers and unit.* Partial because the full statement is false (theorems _refuted): the group for the fitting parameters always repeats the orbital elements (C64_fitting_rows); an instrument named like another one plus '1' has the other's row in place of its own; an instrument called curv or dvdt displaces the curvature or slope; with a single instrument of more than one letter the units of its offset and jitter are lost, likewise if one instrument name starts another; decorrelation coefficients are never listed. Proved: all cells of a row belong to one parameter; the planets' rows are exactly the listed parameters in order; the third group is exact if no name has a namesake with '1' appended; units are right when one suffix occurs only at the end. Statistics and number formatting are oracles. |
| C65 | partial | *The summary of a sampling run reports every parameter and element from its own samples.* Partial because the full statement is false (theorems _refuted): medians of angles ignore the period, so samples on both sides of the cut give a median in the opposite direction; an analytically marginalised offset is reported with the value it had before the fit, uncertainty 0, beside its best value. Proved: complete set of keys; every entry is made from the parameter's own samples (fixed: its value) and its value after the fit; elements sample by sample; fixed parameters unchanged; the fit starts at the medians; quantiles are linear interpolation of order statistics. Samples are real numbers; minus infinity in a log-value (driver.py:295-296) and columns with e >= 1 are outside the model; decimal formatting oracles as in C45. |
| C66 | partial | *Derived masses, axes and densities follow from the elements of the same sample.* Partial because the full statement is false (C66_density_positive_refuted): negative draws of the radius are used with their sign and give negative densities, while negative stellar masses are reflected. Proved: masses, axes, ratios and densities sample by sample against the physical laws (two-body relation for all samples as soon as one is massive, provided the root finder finds roots); the stellar mass is the absolute value of the draw; list of output columns and their quantiles; chain columns kept; nothing derived without stellar parameters. Samples for which period, amplitude, mass are not positive or e is outside [0,1) are outside the hypotheses; the fallback to the set-up file for planets the posterior lacks is not modelled; reading and writing files: see the pipeline properties. |
| C67 | partial | *TeX labels name the right parameter, planet and instrument.* Partial because the full statement is false (theorems _refuted): only the last digit is taken as the planet's number, so from the tenth planet on labels show the wrong letter and no symbol, and with planet_letters given KeyError is raised; instrument names containing another parameter's name and the hyperparameters B, C, L of one instrument give labels with unmatched braces; hyperparameters of an instrument whose name ends in a digit are labelled as a planet's; the symbol listed for logjit is never used. Proved for the first nine planets and names free of such substrings. Characters are bytes. |
| C68 | partial | *The table of derived parameters shows each derived parameter once, in the unit named.* Partial because the full statement is false (theorems _refuted): with ten planets the names are cut after the last digit, so the first planet's rows are repeated (ten copies); more than ten planets without planet_letters raise KeyError; the samples are rescaled in place, so a second table from the same samples (radvel table -t derived derived) shows Jupiter masses called Earth masses; the branch for solar masses is unreachable. Proved for any number of planets (labels, units, columns) and up to nine planets (table). Statistics and number formatting are arguments. |
| C69 | partial | *The Gaussian process likelihood is the multivariate normal density of the residuals.* Partial: with the quasi-periodic kernel the covariance is that of the kernel as computed, with exponents cut off at -100 (C69_quasiper_clipped, for all positive hyper-parameters; within 2e^-100 of the documented kernel, and equal to it where nothing is cut off, C69_quasiper_partial); that matrix need not be positive definite (C30_quasiper_refuted), negative hyper-parameters raise (C69_quasiper_refused), and with a zero hyper-parameter the old covariance is used (C31_stale_covariance_refuted). Linear algebra is an argument required to be exact (exact_linalg); ref_la, a Cholesky algorithm proved exact, shows the requirement can be met. cho_factor's behaviour on an empty matrix is left open (data <> []). |
| C70 | partial | *The Gaussian process prediction is the best linear estimate of the correlated noise.* Partial: with the quasi-periodic kernel the estimate is the best under the kernel as computed, with exponents cut off at -100 (C70_quasiper_clipped, for all positive hyper-parameters), which need not be a covariance, so that the uncertainty is nan where the error is negative; under the documented kernel where no exponent is cut off (C70_quasiper_partial). A zero hyper-parameter uses the old covariance (C31_stale_covariance_refuted). Linear algebra is an argument required to be exact (exact_predict), with ref_la as a proved instance. Empty lists of times are not covered. |
| C71 | partial | *Binned points of the phase plot are means of the right points.* Partial because the full statement is false (C71_kept_refuted): bins whose centre is not positive are dropped; the phase plot adds 1 to phases from 0 so it loses none (C71_phase_plot). Exact arithmetic; np.histogram is modelled by its edges. |
| C72 | partial | *The tables of velocities and criteria show every value to the decimals printed.* Partial because the full statement is false: with fewer velocities than lines the note says that only the first 50 are displayed (C72_note_refuted), a negative number of lines drops rows at the end (C72_negative_refuted), and a name with two underscores gives unbalanced braces (C72_instrument_refuted). Titles and templates are not modelled; formatting is exact. |
| C73 | partial | *The table of priors describes the priors that are applied.* Partial because the full statement is false: descriptions use the default letters instead of those of the fit (C73_letters_refuted), and an eccentricity prior on a tenth planet makes the table fail (C73_tenth_planet_refuted). Number formatting is an arbitrary function. |
| C74 | proved | *The samples behind a report are the sampled orbits.* All chains; samples with e >= 1 are outside the model (see C65). The basis named in the set-up file is that of the posterior. |
| C75 | partial | *Every panel of a figure shows every measurement once, under its own instrument.* Refuted: with formats that name no colour, the first panel writes colours into the user's formats and the next panel counts colours differently, so an instrument changes its colour and shares it with another one. Refuted: more than nine instruments without colour give IndexError. Proved for formats with colours, and from the second panel on. |
| C76 | partial | *The panels of an orbit plot show the fit that was made.* Refuted only in that every fit can be plotted: without dvdt or curv among the parameters, which the model takes as zero, the constructor raises KeyError. All that is drawn is proved, and that a plot is drawn when the parameters are complete, whatever the eccentricities. |
| C77 | partial | *The figure of an orbit plot has one panel for each planet, in order, all of the same fit.* Refuted only in that a figure is drawn with any options: with letter_labels=False and a planet the local variable pltletter is unbound (UnboundLocalError), with phase_ncols=0 or fewer cells than planets an exception is raised too. C77_made_partial: drawn in all other cases. |
| C78 | partial | *The panels of a fit with Gaussian processes show the velocities as wanted, with each process beside its own data.* C78_panel: the upper panel of a fresh plot. Refuted: drawing again (means are added in place to self.rvmod, so they are added once more by every drawing); separate panels (the velocities of likelihoods still to come lack their means); colours of bands of unknown instruments; the curve of a likelihood without process when orbits are taken off; drawing with separate_orbit_gp and subtract_gp_mean_model together (ValueError) or with formats without colour (KeyError). |
| C79 | partial | *The plots of a sampling run show the chains, the free parameters and the recorded convergence checks.* Corner plots hold in full. C79_trend_partial, C79_trend_drawn_partial: what a trend plot shows if drawn, and exactly when it is drawn. Refuted: a run whose thinning does not fit raises ValueError in reshape; a run with no check after burn-in has an empty table of autocorrelation times and the plot raises KeyError. |
| C80 | partial | *The text in a planet's panel shows the planet's elements and mass with their uncertainties, labels and units.* The three elements hold in full (C80_elements, C80_written, C80_summary). C80_mass_partial: the mass shown is that of the chain in the unit shown, under the default letter. Refuted: the planet letters of the setup file do not reach the mass label; a mass column with gaps raises IndexError; more than ten planets KeyError; without a status file the mass has neither label nor unit. |
| C81 | partial | *Tables made in one run, or in a report, are those made one at a time.* Holds for all tables but the derived one (C81_alone_partial) whose parameters have names beginning unlike those of derived columns, and for the derived one asked for once and before a comparison (C81_derived_partial). Refuted: asked for twice it shows Jupiter masses as Earth masses; asked for after ic_compare it is empty. C81_again, C81_made, C81_document, C81_figures, C81_document_made hold in full. |
| C82 | partial | *A report is made of the plots recorded and changes no other file.* C82_place, C82_written, C82_failed, C82_kept hold in full; success and figures hold after successful plots without saveplot and with a compiler (C82_made_partial, C82_shown_partial). Refuted: a plot saved under another name is left out, one saved elsewhere makes every report fail, as does the absence of plots; without a compiler the command ends normally beside an older report; a failure or a missing compiler leaves the temporary directory. |
| C83 | partial | *The text of a fit shows every parameter of the vector, once, and its orbit.* C83_text_partial: for numbers that leave a blank in their columns; C83_priors and C83_again hold in full; C83_quiet_partial: parameters that agree with the vector. Refuted: an uncertainty of ten characters is joined to the value; printing overwrites parameters that differ from the vector; a composite likelihood has no uncertainties. |
| C84 | partial | *A command line calls its command with the last value given to every option, or its default.* C84_given, C84_made, C84_order, C84_valid, C84_refused, C84_left, the spellings and the status file hold in full; C84_help_partial: the help of mcmc but for two defaults. Refuted: --serial False is true; without a setup file TypeError is raised; plot and table without a type are called with None; two stated defaults differ from the real ones; setup files of one name up to the first dot share their directory and status file; -t=a b is refused. |
| C85 | partial | *The walkers of a sampling run start around the fit, each at a point of its own.* C85_starts, C85_usual, C85_near, C85_spread and C85_again hold in full. Refuted: around a period of one day (or a logarithm of zero, or a period that is not positive) walkers are not spread and the sampler raises ValueError whatever the draws; a value changed after a run keeps the scale of the old value; an eccentricity of 0.95 starts beyond one. |
| C86 | partial | *Sampling in one process and in several gives the same chains.* C86_same holds for every posterior whose value does not depend on earlier points, and C86_posterior_partial for RV posteriors without a prior on a marginalised offset. Refuted: with such a prior the chains differ after one round; the posterior given is left at a point that was tried, the last one in serial, one of the first steps in parallel (C86_left, C86_left_refuted). |
| C87 | proved | *The Kepler solvers, rv_drive and a model's call always return.* Over exact real numbers. Every correction is followed by a verified interval computation over a subdivision of eccentricity and eccentric anomaly, from the first guess of either solver into a neighbourhood of the root in which the iteration converges; the computation is run by vm_compute on Coq's primitive integers, whose standard-library axioms are listed. |
| C88 | partial | *What is shown while sampling is what was done.* C88_bar, C88_bar_grows, C88_line, C88_same, C88_accepted, C88_discard and C88_verdict hold in full. Refuted: a run that is not stopped early makes more steps than its total, so the percentage passes 100 and the bar leaves its frame (C88_beyond_refuted, C88_bar_refuted); the speed counts one step per round too few (C88_speed_refuted). Exact arithmetic; the format of numbers other than the percentage is an argument. |
| C89 | partial | *The text of a posterior tells its priors.* C89_identifies_partial and C89_posterior_partial hold for the six kinds whose description names everything they are made of, across kinds; C89_eccentricities in full. Refuted for the rest: PositiveKPrior does not say of how many planets, SecondaryEclipsePrior not of which planet, NumericalPrior and UserDefinedPrior not which function. The format of numbers is an argument, required to tell the floats apart. |
| C90 | partial | *The example data are those the user names, or those of the package.* The order of the search is proved in full (C90_named, C90_found, C90_home). That a source tree uses its own data is refuted: the path called the source directory is one level above the tree, and the working directory comes before the tree (C90_own_refuted, C90_elsewhere_refuted; C90_own_partial). That the import succeeds without data is refuted where HOME is unset (C90_import_refuted, C90_no_home) and in a removed working directory (C90_gone). |
| C91 | partial | *A command works on the setup file as it is.* Proved for all histories in which texts of one size are not exchanged within one second (C91_edits_partial), and for missing files (C91_missing). Refuted in general: such an exchange makes the command run the older text from Python's compiled copy (C91_edits_refuted); a name without a suffix Python knows gives AttributeError (C91_suffix_refuted). Under Python 4 or later nothing is loaded (C91_version). What Python's importlib does is modelled with the code. |
| C92 | partial | *cmd_exists tells whether there is such a program.* Proved if no directory of that name is on the way (C92_program_partial); a directory is taken for a program (C92_directory_refuted); KeyError without PATH (C92_no_path). The function is not used in the package. |
| C93 | partial | *The comparison in tables and reports is the one that was made.* Proved for all comparisons without nan (C93_read_back_partial), also through the status file of C46 (C93_status_file_partial). With nan, tables and report raise NameError: driver.py imports inf but not nan (C93_nan_refuted). Numbers are their texts; eval() is modelled on texts of this shape. |
| C94 | partial | *The text of a parameter or kernel tells what it is.* The text of a parameter tells exactly what _equals compares (C94_parameter_partial); neither tells whether it is linear (C94_linear_refuted). Kernels: proved in full (C94_kernel, C94_kernel_total, C94_celerite). |
| C95 | partial | *The figure of a fit with Gaussian processes has the panels asked for.* Proved with a panel for each likelihood (C95_separate_partial). False otherwise: with all likelihoods in one panel nophase is ignored and nothing is returned (C95_together_partial, C95_nophase_refuted); without planets GridSpec refuses zero rows (C95_no_planets_refuted); a second figure returns the axes of the first too (C95_again_refuted). Contents of panels: C76, C78. |
| C96 | partial | *The rows of the comparison table have the columns of its head.* Proved for entries without & (C96_rows_partial, C96_head, C96_letters, C96_one_way), with the rows of the whole table (CompTable.v). False of the free parameters: the offsets are listed whether they are free or not (C96_gamma_refuted). |

## 6. Defects found in the source

Found while modelling; those marked with a claim have a machine-checked witness.

* `Posterior.aic` always raises `TypeError` (`raise` of a float) (C21).
* `PositiveKPrior` tests `k` rows even when the basis has `logk`: K < 1 is rejected (C24).
* A circular orbit with a negative period is not clamped (C05); `sign(int)` in the C kernel
  truncates its argument, so its first guess is always M unless |sin M| = 1 (modelled).
* `timetrans_to_timeperi(..., secondary=True)` is not the first eclipse after periastron for
  cos(omega) <= 0, and raises for arrays (C07).
* e = 0 conversions through sqrt(e)cos(omega) lose omega and move `tp` (C08).
* `from_synth` rewrites `self.name` for five bases: later conversions raise `KeyError` (C11, C15);
  many basis pairs give sets that no `Vector` accepts (C12).
* `__reduce__` re-adds deleted parameters (C15).
* A stale `vary_params` cache writes values into a fixed parameter (C17).
* A prior on a marginalised gamma sees the offset of the previous call (C18).
* `SecondaryEclipsePrior` raises `TypeError` in nested sampling; priors without `.param` are
  skipped by the transform and by the likelihood used there (C28).
* Nested sampling back ends write managed keys into the caller's dictionary: the second call
  with it fails (C29); MultiNest without an output directory deletes `./tmpdir` (C57); dynesty
  refuses an existing directory even with overwrite (C58).
* `QuasiPer`: clipping of exponents loses positive definiteness (C30); a zero hyper-parameter
  leaves the previous covariance in use (C31); a raising `predict` leaves its distances (C31).
* `CeleriteLikelihood` pairs times in input order with errors in time order (C32).
* MCMC: `nrun` is not an upper bound (C33); the second stored sample of a round restarts from
  the position before the first, and burn-in samples can be returned (C35); `checkinterval=1`
  divides by zero; crash during a later save mixes rounds on resume, leftover ensembles make
  a file unusable (C38); `num_run=0` and the `minAfactor` spelling (modelled).
* `maxlike_fitting` discards the optimiser's result (C39).
* `model_comp`: mutable default list, caller's posterior fitted in place for `[]` and `gp`,
  GP "off" model still fits hyper-parameters (C40, C59).
* `t_to_phase_vector` uses `tp` where `t_to_phase` uses `tc` (C43).
* `jd2date(date2jd(d))` is off by microseconds (C44).
* A crash while saving the status file loses it; values with outer blanks or keys with `=`/`:`
  are altered or make the file unreadable (C46).
* `draw_models_from_chain` returns identical rows (C49); `geterr(angular=True)` changes the
  caller's array (C50).
* The comparison table silently omits models after the fiftieth (C52).
* `working_directory` fails on exit if the block removed the original directory (C54).
* `initialize_posterior`: a `logjit` entry that is not last raises `RuntimeError`; conversion
  drops `mcmcscale`/`linear`; instruments not listed are ignored; GP likelihoods drop
  decorrelation; duplicated instrument names overwrite (C55).
* The first member of a composite keeps its gamma in `composite.y` (modelled, C51).
* `radvel mcmc`, `ic`, `plot` without a previous fit raise `NoSectionError` (`getboolean` on a
  missing section): the branch of `mcmc` that starts from the setup file is dead code (C60).
* `fit` and `mcmc` share one posterior file and derived samples are never invalidated: tables
  can combine results of different runs (C61).
* `radvel ic` without `-t` always raises `AssertionError` (the default `'trend'` is iterated by
  characters); `--fixjitter` has no effect; un-mixed comparisons drop models whose plot labels
  coincide although their free parameters differ (C62).
* Decorrelation coefficients are selected by a substring test: with variables `air` and `airmass`
  the correction for `air` is quadratic; a variable with an underscore raises `KeyError`; the
  analytically marginalised offset ignores the correction; Gaussian-process likelihoods ignore the
  decorrelation request without warning (C63).
* The table group "Modified MCMC Step Parameters" never shows the fitting parameters: the report
  has converted the posterior to the print basis before the table reads its basis name (C64).
* A name is looked up with a "1" appended first, so for instruments `j` and `j1` the row of `gamma_j`
  shows `gamma_j1`; with one instrument, `suffixes` is a string and is taken apart into letters, so
  the units of `gamma_hires` and `jit_hires` are lost (C64).
* Medians of `w` are taken without regard to the period: samples near +pi and -pi give a median near 0;
  a marginalised offset is summarised by the value it had before the fit, with uncertainty 0 (C65).
* Drawn radii are not made positive (drawn stellar masses are), so densities can be negative; a stellar mass
  drawn as 0 stays 0; the percentage in the warning is a fraction (C66).
* `tex_labels` takes the last digit for the planet's number: planets from the tenth on are mislabelled, and with
  `planet_letters` KeyError is raised; several labels have unmatched braces (C67).
* `tab_derived` repeats the first planet's rows from ten planets on; `DerivedPlot` rescales masses in the caller's
  samples, so building the table twice shows Jupiter masses called Earth masses; solar masses are never used (C68).
* `fastbin` drops bins with a centre that is not positive (utils.py:338), whatever they contain (C71_kept_refuted).
* `tab_rv` always says "Only the first 50 of n RVs are displayed", also for n < 50 where all are (report.py:318-319), and closes one brace for any number of underscores in the name of an instrument (report.py:327-329) (C72_note_refuted, C72_instrument_refuted).
* `Prior.__str__` builds its own `Parameters(9)` and so ignores the planet letters of the fit: with `planet_letters = {1: 'c', 2: 'b'}` a prior on planet c is listed as one on planet b; `tab_prior_summary` computes the right labels and does not use them (report.py:282) (C73_letters_refuted).
* `EccentricityPrior.__str__` raises KeyError for a tenth planet, so `radvel report` fails (C73_tenth_planet_refuted).
* `mtelplot` stores the colours it hands out in the user's `telfmts` (plot/__init__.py:121). In the next panel these instruments no longer count, so instruments without format get other colours than before, colours that are already taken. More than nine instruments without colour: IndexError (C75_panels_refuted, C75_colours_refuted).
* `MultipanelPlot.__init__` reads `params['dvdt']` and `params['curv']` (orbit_plots.py:125-126, 172-179): a fit without them, which the model accepts and takes as zero, cannot be plotted (C76_trend_refuted).
* The times of a plot are not reduced by the epoch if any of them is small (orbit_plots.py:161-163); the axis label still says so.
* `plot_multipanel(letter_labels=False)` raises UnboundLocalError as soon as there is a planet (orbit_plots.py:472-487, 511: `pltletter` is set only with letters but always passed on) (C77_made_refuted).
* `GPMultipanelPlot.plot_timeseries` adds the mean of each process in place to `self.rvmod` (`orbit_model4data = self.rvmod`, orbit_plots.py): each further drawing, and each further panel of `plot_likelihoods_separately`, shows velocities with the means once more on top, or lacking (C78_again_refuted, C78_separate_refuted).
* In the same class the bands of unknown instruments take colours in the order of the likelihoods, points in the order of names (C78_colours_refuted); a telfmts entry without `color` raises KeyError, `separate_orbit_gp` with `subtract_gp_mean_model` raises ValueError (C78_made_refuted); `nophase` is ignored.
* `TrendPlot` raises ValueError (`reshape`) when the thinned table has no whole number of rows for each walker of each ensemble (C79_trend_drawn_partial says exactly when); its axis `Step Number` counts kept samples, not steps, when thinned.
* `AutoPlot` raises KeyError (`auto['factor'][0]`) for a run with no check after burn-in (C79_auto_refuted).
* The mass in a phase panel is labelled with the default letter of its number, not that of `planet_letters`: `DerivedPlot` is handed the posterior, which has no such attribute (C80_letters_refuted); a derived column with gaps raises IndexError (`np.where(...)[0][0]`, C80_gaps_refuted), more than ten planets KeyError (C80_eleven_refuted); without a status file the mass is written without label and unit (C80_unit_refuted).
* `radvel table -t derived derived` multiplies the masses by the Jupiter factor in place twice: the second table has Jupiter masses with the Earth unit (C81_twice_refuted). `radvel table -t ic_compare derived` writes an empty derived table, since the report made for the comparison has `derived=False` (C81_after_refuted).
* `radvel plot --plotkw saveplot` under another name leaves the velocity plot out of the report, in another directory it makes `radvel report` fail (C82_name_refuted, C82_elsewhere_refuted). Without a LaTeX compiler `radvel report` returns normally and an older PDF stays beside the new document (C82_nocompiler_refuted). The temporary directory is left after each failure (C82_temp_refuted).
* Printing a likelihood or posterior copies the vector into the parameters: a value assigned to `post.params[...]` and not yet copied to the vector is lost by `print(post)` (C83_quiet_refuted). `CompositeLikelihood.__init__` assigns the result of `dict.update`, None: uncertainties of several likelihoods are lost, those of the first are changed, and a second without uncertainties raises TypeError (C83_composite_refuted). An uncertainty of ten characters is printed without a blank after the value (C83_joined_refuted).
* `--serial` of `radvel mcmc` has type bool: `--serial False` is true, and `--serial` alone is refused (C84_serial_refuted). `radvel plot` or `table` without `-t` raises TypeError in the driver, `radvel` without a setup file raises TypeError in `os.path.basename`, and `radvel` without a command raises AttributeError (C84_type_refuted, C84_setup_refuted, C84_empty_refuted). The help of `radvel mcmc` states 50 and 0.07 for `--minAfactor` and `--maxArchange`, the defaults are 40 and 0.03 (C84_help_refuted). The output directory and status file are named after the setup file up to its first dot, so `a/star.py` and `b/star.old.py` overwrite each other's results (C84_shared_refuted).
* `mcmc` spreads walkers around a period by `abs(val * 1e-5 * log10(val))`, which is zero for a period of one day and nan for one that is not positive, and around `logper` by `abs(1e-5 * val)`, zero for one day: emcee then raises ValueError (C85_period_refuted). The scale is written into the vector and used again by the next run although the value may be another (C85_stale_refuted). Starts are above the value only, by up to a tenth: an eccentricity of 0.95 starts up to 1.045 (C85_domain_refuted).
* With a prior on an offset that is marginalised, `mcmc(serial=True)` and `mcmc(serial=False)` give different chains from the same random states: the prior sees the offset of the last point evaluated by any ensemble that shares the posterior (C86_prior_refuted). The posterior given to `mcmc` is left at a point that was tried (C86_left_refuted).
* The progress of `mcmc` passes 100 % (102 % with the defaults) and its bar grows beyond fifty places, because a round makes `checkinterval` steps and the number of rounds is computed with `checkinterval - 1`; the steps per second shown leave one step of every round out (C88_bar_refuted, C88_speed_refuted).
* The description of `PositiveKPrior` does not say how many planets it covers, that of `SecondaryEclipsePrior` not which planet, and those of `NumericalPrior` and `UserDefinedPrior` not the function, so posteriors that differ print alike (C89_amplitudes_refuted, C89_eclipse_refuted, C89_function_refuted).
* The first place `__init__.py` looks for example data, called the source directory, is the directory above the source tree; it and the working directory come before the tree's own data (C90_own_refuted, C90_elsewhere_refuted). Without example data and without `HOME` the import raises `KeyError` (C90_import_refuted), and in a removed working directory `FileNotFoundError` (C90_gone).
* A setup file that lists a decorrelation coefficient such as `c1_bis_a` among its parameters, which is the only way to give it a starting value, fails with `IndexError` under `--decorr`: `init_index_dict` gives the key no index while `dict_to_vector` counts it in the length of the array, so `Likelihood.__init__` places it beyond the end (C55_declared_refuted). Hyper-parameters for only some of the instruments are refused as well (C55_mixed_refused).
* Setup files are loaded through Python's compiled copies, which are told by second and size: an edit that keeps the size, saved in the second of the last one, is not seen by the next command (C91_edits_refuted). A setup file without a known suffix raises `AttributeError` (C91_suffix_refuted).
* `cmd_exists` takes a directory for a program (C92_directory_refuted) and raises `KeyError` without `PATH` (C92_no_path).
* A model comparison with a value that is not a number makes `radvel tables` and `radvel report` raise `NameError`: the text is read with `eval()` and `driver.py` imports `inf` but not `nan` (C93_nan_refuted).
* Neither the text of a parameter nor `Parameter._equals` tells whether the parameter is linear (C94_linear_refuted).
* `GPMultipanelPlot.plot_multipanel` ignores `nophase` and returns nothing unless the likelihoods are plotted separately (C95_nophase_refuted); plotted separately, a fit without planets raises `ValueError` (C95_no_planets_refuted); `ax_list` grows with every figure made (C95_again_refuted).
* The comparison table lists the offsets among the free parameters of every model, free or not (C96_gamma_refuted).


## 7. Mutation testing

`seeded/LOG.jsonl`: one line per deliberately wrong model. Each was built in a scratch copy;
lemmas that no longer prove are admitted there one after another and the property theorems
that then depend on an admitted lemma (or fail themselves) are recorded as failed. Edits that
no theorem noticed led to the tightened theorems named in the log.

## 8. Trusted base

1. Coq's kernel (8.16.1); the development is re-checked with `coqchk`. No plugin, no
   `native_compute`, no axiom of its own, no `Admitted`.
2. Axioms of the standard library, all from the classical real numbers and classical logic:
   `ClassicalDedekindReals.sig_forall_dec`, `ClassicalDedekindReals.sig_not_dec`,
   `FunctionalExtensionality.functional_extensionality_dep`, `Classical_Prop.classic`.
   The theorems of C87 also use Coq's primitive 63-bit integers: the constants of `PrimInt63` and
   the specifications of their operations in `Coq.Numbers.Cyclic.Int63` (`Uint63`, `Sint63`). The
   computation of `DanbyRun.v` is checked by `vm_compute` (and again by `coqchk` without it).
   The table below is generated from `Print Assumptions` of every property theorem.
3. The hand translation of the source into Gallina (section 3), the reading of library
   behaviour (numpy, h5py, configparser, datetime, itertools) stated in the comments, and the
   formal statements themselves as renderings of the English claims.
4. Libraries whose theorems are used (kernel-checked, no axioms beyond those listed):
   Coquelicot, Flocq, mathcomp (through Coquelicot).

### Axioms per theorem

**Closed under the global context** (155 theorems):

`C02_empty_array_raises`, `C13_slot_positions`, `C13_slots_distinct`, `C13_vector_to_dict`, `C14_names_match_indices`, `C15_copy_partial`, `C16_planets_summed`, `C17_set_back_partial`, `C17_set_then_get_partial`, `C17_set_with_dictionary`, `C17_wrong_length`, `C21_posterior_aic_refuted`, `C26_check`, `C26_otherwise_raises`, `C29_guard`, `C29_improper`, `C29_kwargs_managed_partial`, `C29_kwargs_partial`, `C29_second_call`, `C29_unknown`, `C33_rounds`, `C36_row_order`, `C36_rows`, `C36_thin`, `C40_count`, `C42_instruments`, `C42_select`, `C46_altered_refuted`, `C46_crash_leaves`, `C46_crash_refuted`, `C46_default`, `C46_key_refuted`, `C46_one`, `C46_raises`, `C46_saves_partial`, `C46_stable`, `C46_unreadable_refuted`, `C47_after_saves`, `C47_complete`, `C47_damaged`, `C47_sound`, `C48_accepts`, `C48_inverts`, `C48_refuses`, `C48_types`, `C50_caller_partial`, `C54_nested`, `C54_removed_refuted`, `C54_restores_partial`, `C55_logjit_name`, `C56_contents`, `C56_saved`, `C57_multinest_removes`, `C57_untouched_partial`, `C58_dynesty_refuses`, `C60_derive_needs_samples`, `C60_fit_always`, `C60_ic_needs_fit`, `C60_mcmc_needs_fit`, `C60_no_missing_file`, `C60_ns_always`, `C60_plot_derived`, `C60_plots_need_fit`, `C60_refines`, `C60_refused_unchanged`, `C60_table_ic`, `C60_tables_need_samples`, `C61_derived_partial`, `C61_mcmc_partial`, `C61_ns_partial`, `C61_one_run_refuted`, `C62_firsts`, `C62_labels`, `C64_curvature_refuted`, `C64_extra_names`, `C64_namesake_refuted`, `C64_planets`, `C64_rows_own`, `C64_table_partial`, `C64_unit_one_instrument_refuted`, `C64_unit_own`, `C64_unit_prefix_refuted`, `C64_unit_suffix_partial`, `C67_braces_refuted`, `C67_complete_partial`, `C67_distinct_partial`, `C67_hyperparameters_partial`, `C67_instruments_partial`, `C67_letters_refuted`, `C67_planets_partial`, `C67_symbol_refuted`, `C67_tenth_planet_refuted`, `C72_instrument_partial`, `C72_instrument_refuted`, `C73_eccentricity_partial`, `C73_eclipse`, `C73_letters_refuted`, `C73_numerical`, `C73_rows`, `C73_tenth_planet_refuted`, `C79_corner`, `C82_elsewhere_refuted`, `C82_failed`, `C82_kept`, `C82_made_partial`, `C82_nocompiler_refuted`, `C82_noplots_refuted`, `C82_place`, `C82_saveplot`, `C82_temp_refuted`, `C82_written`, `C83_composite_refuted`, `C84_empty_refuted`, `C86_left`, `C86_same`, `C88_bar`, `C88_bar_grows`, `C88_beyond_refuted`, `C89_eccentricities`, `C90_elsewhere_refuted`, `C90_found`, `C90_gone`, `C90_home`, `C90_import_refuted`, `C90_named`, `C90_no_home`, `C90_own_partial`, `C90_own_refuted`, `C91_always`, `C91_edits_partial`, `C91_edits_refuted`, `C91_missing`, `C91_suffix_refuted`, `C91_version`, `C92_absolute`, `C92_directory_refuted`, `C92_found`, `C92_no_path`, `C92_program_partial`, `C93_nan_refuted`, `C93_read_back_partial`, `C93_status_file_partial`, `C94_celerite`, `C94_kernel`, `C94_kernel_total`, `C95_again_refuted`, `C95_no_planets_refuted`, `C95_nophase_refuted`, `C95_separate_partial`, `C95_together_partial`, `C96_gamma_refuted`, `C96_head`, `C96_letters`, `C96_one_way`, `C96_row_made`

**`ClassicalDedekindReals.sig_forall_dec`** (15 theorems):

`C13_round_trip`, `C13_slots_in_range`, `C13_vector_holds_parameters`, `C29_kwargs_refuted`, `C32_celerite_predict`, `C38_crash_inside_partial`, `C38_first_save_crash`, `C39_last_evaluation`, `C39_optimum_partial`, `C40_built`, `C57_untouched_refuted`, `C58_overwrite_refuted`, `C63_underscore_refuted`, `C86_left_refuted`, `C89_function_refuted`

**`ClassicalDedekindReals.sig_forall_dec`, `Classical_Prop.classic`** (1 theorems):

`C59_no_gp_free`

**`ClassicalDedekindReals.sig_forall_dec`, `FunctionalExtensionality.functional_extensionality_dep`** (116 theorems):

`C17_stale_cache_refuted`, `C21_aic`, `C40_history_partial`, `C40_history_refuted`, `C40_in_place_refuted`, `C40_models_partial`, `C40_single`, `C43_errors`, `C43_periodic`, `C43_phase`, `C43_phase_unique`, `C43_reference`, `C44_day_shift`, `C44_round_trip_partial`, `C44_value`, `C50_rank_unique`, `C51_disagreement_refused`, `C51_order`, `C52_contiguous`, `C52_empty`, `C52_omitted_refuted`, `C52_one_group`, `C52_permutation`, `C52_raises`, `C52_rows_partial`, `C52_sorted`, `C52_stable`, `C52_thresholds`, `C53_nearest`, `C53_time`, `C59_models_partial`, `C59_no_gp_refuted`, `C62_again_refuted`, `C62_default_type_refuted`, `C62_distinct_refuted`, `C62_fixjitter_ignored`, `C62_fixjitter_refuted`, `C62_mixed`, `C62_unmixed_general`, `C62_unmixed_partial`, `C63_centred`, `C63_gp_refuted`, `C63_names_refuted`, `C63_residuals_partial`, `C63_shift`, `C65_median`, `C65_quantile`, `C68_keeps_partial`, `C68_labels_partial`, `C68_letters_refuted`, `C68_quantiles`, `C68_sun_refuted`, `C68_table_partial`, `C68_tenth_refuted`, `C68_twice_refuted`, `C68_units_partial`, `C70_bounds`, `C70_interpolates`, `C71_kept_partial`, `C71_mean_between`, `C71_one_bin`, `C71_phase_plot`, `C72_all_rows`, `C72_criteria`, `C72_distinct_rows`, `C72_first_rows`, `C72_negative_refuted`, `C72_note_partial`, `C72_note_refuted`, `C74_quantiles`, `C75_colours`, `C75_colours_refuted`, `C75_legend`, `C75_panels_partial`, `C75_panels_refuted`, `C75_points`, `C75_settles_partial`, `C79_derived`, `C81_after_refuted`, `C81_derived_partial`, `C81_document`, `C81_document_made`, `C81_figures`, `C81_twice_refuted`, `C81_velocities`, `C82_name_refuted`, `C82_shown_partial`, `C83_columns`, `C83_joined_refuted`, `C84_attached`, `C84_dot`, `C84_doubtful`, `C84_equals`, `C84_given`, `C84_help_partial`, `C84_help_refuted`, `C84_left`, `C84_made`, `C84_many_refuted`, `C84_named`, `C84_order`, `C84_refused`, `C84_serial_refuted`, `C84_setup_refuted`, `C84_shared_refuted`, `C84_shortened`, `C84_slash`, `C84_slash_status`, `C84_status`, `C84_status_same`, `C84_together`, `C84_type_refuted`, `C84_valid`, `C94_linear_refuted`, `C94_parameter_partial`, `C96_rows_partial`

**`ClassicalDedekindReals.sig_forall_dec`, `ClassicalDedekindReals.sig_not_dec`, `FunctionalExtensionality.functional_extensionality_dep`** (92 theorems):

`C01_c_solver_at_most_29_corrections`, `C02_array_equals_single_calls`, `C02_array_terminates_with_its_elements`, `C02_solver_elementwise`, `C30_quasiper_zero_partial`, `C30_zero_branch_refuted`, `C30_zero_length_refuted`, `C32_celerite_sorted_partial`, `C32_celerite_unsorted_refuted`, `C33_accounting_partial`, `C33_requested_refuted`, `C34_stop`, `C35_burn_in_refuted`, `C35_second_sample_refuted`, `C35_trajectory_partial`, `C36_returned`, `C37_bound`, `C37_formula`, `C37_invariant`, `C37_relabel`, `C37_reported`, `C38_crash_between_refuted`, `C38_leftover_refuted`, `C38_other_settings`, `C38_resume_partial`, `C41_inverse_variance`, `C41_nonpositive`, `C41_partition`, `C42_separate`, `C45_density`, `C45_density_scaling`, `C50_affine`, `C50_caller_refuted`, `C50_nonneg`, `C50_order`, `C50_quantiles`, `C50_turns`, `C55_basis`, `C55_basis_accepted`, `C55_builds`, `C55_class`, `C55_complete`, `C55_complete_decorr`, `C55_complete_gp`, `C55_composite`, `C55_data_required`, `C55_declared_refuted`, `C55_decorr_refused`, `C55_decorr_terms`, `C55_gp_ignores_decorr`, `C55_hyper_required`, `C55_logjit_gone`, `C55_logjit_last`, `C55_logjit_partial`, `C55_logjit_refuted`, `C55_missing_data`, `C55_mixed_refused`, `C55_offset_required`, `C55_one_likelihood`, `C55_own_rows`, `C55_params_kept`, `C69_factor`, `C70_per_partial`, `C70_quasiper_partial`, `C70_residuals`, `C70_sqexp_partial`, `C71_bins`, `C71_kept_refuted`, `C71_order`, `C78_again_refuted`, `C78_colours_partial`, `C78_colours_refuted`, `C78_curve_refuted`, `C78_made_partial`, `C78_made_refuted`, `C78_panel`, `C78_separate_partial`, `C78_separate_refuted`, `C79_auto_partial`, `C79_auto_refuted`, `C79_auto_window_partial`, `C79_trend_drawn_partial`, `C79_trend_partial`, `C79_trend_refuted`, `C88_accepted`, `C88_bar_refuted`, `C88_discard`, `C88_line`, `C88_numbers`, `C88_same`, `C88_speed_refuted`, `C88_verdict`

**`ClassicalDedekindReals.sig_forall_dec`, `ClassicalDedekindReals.sig_not_dec`, `Classical_Prop.classic`, `FunctionalExtensionality.functional_extensionality_dep`** (188 theorems):

`C01_c_solver_accurate`, `C01_kepler_equation_unique_solution`, `C01_python_solver_accurate`, `C01_solvers_terminate_low_eccentricity`, `C03_bounded`, `C03_circular_orbit_exact`, `C03_linear_in_K`, `C03_periodic_in_omega`, `C03_periodic_in_time`, `C03_periodic_in_tp`, `C03_rv_drive_is_keplerian`, `C03_rv_drive_returns_low_eccentricity`, `C03_velocity_is_unique`, `C04_back_ends_agree`, `C04_c_and_numpy_formulas_equal`, `C04_circular_shortcut`, `C05_clamped_partial`, `C05_negative_e_is_circular_partial`, `C05_negative_period_circular_refuted`, `C06_omega_modulo_2pi`, `C06_periastron_of_transit`, `C06_round_trip`, `C06_transit_means_conjunction`, `C06_transit_means_conjunction_everywhere`, `C06_transit_within_half_period`, `C06_unbound_returns_input`, `C07_array_error_refuted`, `C07_array_partial`, `C07_first_after_periastron_partial`, `C07_first_after_periastron_refuted`, `C07_range_partial`, `C07_secondary_means_superior_conjunction`, `C08_basis_to_synth_and_back`, `C08_circular_tp_refuted`, `C08_conversion_keeps_elements`, `C08_synth_to_basis_and_back_partial`, `C09_from_synth_agrees`, `C09_to_any_basis_agrees`, `C09_to_synth_agrees`, `C10_planet_from_own_elements`, `C10_to_any_basis_frame`, `C10_to_synth_frame`, `C11_repeatable_partial`, `C11_repeatable_refuted`, `C12_no_model_refuted`, `C12_same_elements_partial`, `C12_same_velocities_partial`, `C12_wrong_tp_refuted`, `C15_after_conversion_refuted`, `C15_deleted_key_refuted`, `C16_call_returns`, `C16_pointwise`, `C16_returns_at_moderate_eccentricity`, `C16_superposition`, `C16_zero_amplitude_contributes_nothing`, `C18_likelihood_history`, `C18_linear_gamma_prior_refuted`, `C18_posterior_history_partial`, `C19_combine`, `C19_gaussian`, `C19_order`, `C19_residuals`, `C20_marginalisation`, `C21_bic`, `C21_posterior_bic`, `C22_gaussian`, `C22_gaussian_shape`, `C22_hard_bounds`, `C22_jeffreys`, `C22_modified_jeffreys`, `C23_gaussian`, `C23_hard_bounds`, `C23_jeffreys`, `C23_modified_jeffreys`, `C24_eccentricity`, `C24_positive_k_logk_partial`, `C24_positive_k_logk_refuted`, `C24_positive_k_partial`, `C25_order`, `C25_rejects`, `C25_sum`, `C27_transform`, `C28_dropped_prior_refuted`, `C28_factorisation_partial`, `C28_never_infinite`, `C28_outside`, `C28_outside_is_finite`, `C28_secondary_eclipse_refuted`, `C30_per`, `C30_quasiper_partial`, `C30_quasiper_refuted`, `C30_quasiper_unclipped_partial`, `C30_sqexp`, `C31_failed_predict_refuted`, `C31_gp_history_partial`, `C31_stale_covariance_refuted`, `C39_built`, `C39_optimum_refuted`, `C43_vector_partial`, `C43_vector_refuted`, `C44_binary64_partial`, `C44_binary64_refuted`, `C44_increasing`, `C45_inverse`, `C45_linear`, `C45_massive`, `C45_massive_solution`, `C45_third_law`, `C45_units`, `C49_draws_partial`, `C49_draws_refuted`, `C51_alignment`, `C51_sum`, `C53_round_sig`, `C53_sigfig`, `C53_sigfig_value`, `C53_zero`, `C63_logprob_partial`, `C63_marginal_partial`, `C63_marginal_refuted`, `C64_fitting_refuted`, `C64_fitting_rows`, `C65_angle_refuted`, `C65_elements`, `C65_fixed`, `C65_offset_refuted`, `C65_reported_partial`, `C65_start`, `C66_columns`, `C66_density_partial`, `C66_density_positive_refuted`, `C66_no_star`, `C66_values_partial`, `C69_nan`, `C69_per_partial`, `C69_quasiper_clipped`, `C69_quasiper_partial`, `C69_quasiper_refused`, `C69_sqexp_partial`, `C69_white`, `C70_quasiper_clipped`, `C73_bounds`, `C73_gaussian`, `C73_jeffreys`, `C73_modified_jeffreys`, `C74_columns`, `C74_derived`, `C74_fitted`, `C76_curve`, `C76_drawn`, `C76_panels`, `C76_trend_refuted`, `C77_alike`, `C77_figure`, `C77_letters`, `C77_made_partial`, `C77_made_refuted`, `C80_elements`, `C80_eleven_refuted`, `C80_gaps_refuted`, `C80_letters_refuted`, `C80_mass_partial`, `C80_summary`, `C80_unit_refuted`, `C80_written`, `C81_again`, `C81_alone_partial`, `C81_made`, `C83_again`, `C83_missing`, `C83_priors`, `C83_quiet_partial`, `C83_quiet_refuted`, `C83_text_partial`, `C85_again`, `C85_domain_refuted`, `C85_near`, `C85_period_refuted`, `C85_spread`, `C85_stale_refuted`, `C85_starts`, `C85_usual`, `C86_posterior_partial`, `C86_prior_refuted`, `C89_amplitudes_refuted`, `C89_eclipse_refuted`, `C89_identifies_partial`, `C89_posterior_partial`

**`ClassicalDedekindReals.sig_forall_dec`, `ClassicalDedekindReals.sig_not_dec`, `Classical_Prop.classic`, `FunctionalExtensionality.functional_extensionality_dep`, `PrimInt63.add`, `PrimInt63.asr`, `PrimInt63.divs`, `PrimInt63.eqb`, `PrimInt63.int`, `PrimInt63.land`, `PrimInt63.leb`, `PrimInt63.lesb`, `PrimInt63.lor`, `PrimInt63.lsl`, `PrimInt63.lsr`, `PrimInt63.ltb`, `PrimInt63.ltsb`, `PrimInt63.mul`, `PrimInt63.sub`, `Sint63.asr_spec`, `Sint63.div_spec`, `Sint63.leb_spec`, `Sint63.ltb_spec`, `Uint63.add_spec`, `Uint63.eqb_correct`, `Uint63.eqb_refl`, `Uint63.leb_spec`, `Uint63.lor_spec`, `Uint63.lsl_spec`, `Uint63.lsr_spec`, `Uint63.ltb_spec`, `Uint63.mul_spec`, `Uint63.of_to_Z`, `Uint63.sub_spec`** (8 theorems):

`C76_made`, `C87_back_ends_return_and_agree`, `C87_c_solver_solves`, `C87_model_call_returns`, `C87_python_solver_solves`, `C87_rv_drive_returns`, `C87_solvers_return`, `C87_velocities`

