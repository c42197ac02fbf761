{"id": "C01", "title": "Kepler solver returns the eccentric anomaly", "statement": "For 0<=e<1 Kepler's equation E - e sin E = M has exactly one solution E*, and whenever kepler(M,e) (Python, or the C kernel) returns, the returned E satisfies |E - E*| <= 1e-12/(1-e); it never returns an unconverged value, and the C kernel never performs more than 30 corrections.", "quantifier": "all real M, all e in [0,1), any number of loop iterations", "why_tests_cant": "M and e range over a continuum and the number of Danby corrections is data dependent; a test samples a few grid points and compares with another numerical solver.", "anchors": ["radvel/kepler.py:kepler", "src/kepler.c:kepler"]}
{"id": "C02", "title": "Vectorised Kepler solver is element-wise", "statement": "kepler(Marr, eccarr) returns at every index exactly what the solver would return for that element alone: the mask bookkeeping over unconverged elements never mixes elements, never re-iterates a converged element and never leaves an unconverged one, and the array length and order are preserved (a length-1 input returns a scalar).", "quantifier": "all array lengths, all inputs, all interleavings of per-element convergence times", "why_tests_cant": "The masking history depends on how many iterations every other element needs; tests exercise a handful of mask histories.", "anchors": ["radvel/kepler.py:kepler"]}
{"id": "C03", "title": "rv_drive is the Keplerian radial velocity", "statement": "For 0<e<=0.99, per>0 and a solved eccentric anomaly, rv_drive(t,[per,tp,e,om,K]) = K[cos(nu+om)+e cos om] where nu is the true anomaly (cos nu = (cos E - e)/(1-e cos E), sin nu = sqrt(1-e^2) sin E/(1-e cos E)); it is periodic in t with period per, unchanged by tp -> tp+per and om -> om+2pi, linear in K and bounded by |K|(1+e).", "quantifier": "all times t, all orbital elements in the domain", "why_tests_cant": "Equalities over a continuum of real inputs.", "anchors": ["radvel/kepler.py:rv_drive", "radvel/orbit.py:true_anomaly"]}
{"id": "C04", "title": "C kernel, NumPy fallback and circular shortcut agree", "statement": "Given the same eccentric anomaly the C expression (ratio/fac form) and the NumPy expression are equal; the circular e==0 shortcut equals the general formula evaluated at e=0; hence results do not depend on whether the C extension is importable (up to solver tolerance).", "quantifier": "all t and all elements with 0<=e<1, both back ends", "why_tests_cant": "Two independently written closed forms are compared on a continuum; the profile test only times them.", "anchors": ["radvel/kepler.py:rv_drive", "src/kepler.c:rv_drive", "radvel/orbit.py:true_anomaly"]}
{"id": "C05", "title": "Out-of-domain orbital elements are clamped", "statement": "rv_drive never evaluates the orbit with per<0, e<0 or e>0.99: such inputs give exactly the velocity of the nearest admitted elements (per:=1e-4, e:=0, e:=0.99), whatever the other elements.", "quantifier": "all real orbital elements including invalid ones", "why_tests_cant": "Needs every combination of out-of-range values, including e exactly 0 where an early return is taken.", "anchors": ["radvel/kepler.py:rv_drive"]}
{"id": "C06", "title": "Transit time and periastron time conversions are inverse and mean what they say", "statement": "For 0<=e<1, timeperi_to_timetrans and timetrans_to_timeperi with the same (per,e,omega) are exact inverses in both orders; at the returned transit time the planet's true anomaly plus omega equals pi/2 modulo 2pi; both depend on omega only modulo 2pi; for e>=1 both return their input.", "quantifier": "all real times, periods, omega, all e", "why_tests_cant": "Identity and geometric meaning over a continuum with branch points of tan/arctan.", "anchors": ["radvel/orbit.py:timetrans_to_timeperi", "radvel/orbit.py:timeperi_to_timetrans"]}
{"id": "C07", "title": "Secondary eclipse is the first one after periastron", "statement": "timeperi_to_timetrans(..., secondary=True) returns a time at which true anomaly + omega = 3pi/2 (mod 2pi) and, as its comment promises, one lying in [tp, tp+per) for per>0.", "quantifier": "all tp, per>0, 0<=e<1, all omega", "why_tests_cant": "Branch adding 2pi is wrong for half of the omega range only; depends on continuous omega and scalar/array input type.", "anchors": ["radvel/orbit.py:timeperi_to_timetrans"]}
{"id": "C08", "title": "Basis conversion round trip", "statement": "For every fitting basis b, converting synth elements (per>0, k>0, 0<=e<1) to b and back with to_synth gives the same per, tp, e, k and the same omega modulo 2pi (omega arbitrary when e=0); and for a parameter set expressed in b within range, to_synth followed by from_synth(b) reproduces the values.", "quantifier": "all nine bases, all real element values in the domain, any number of planets", "why_tests_cant": "Value domain is a continuum and includes arctan2 quadrants; the existing test checks one point and uses a one-sided comparison.", "anchors": ["radvel/basis.py:Basis.to_synth", "radvel/basis.py:Basis.from_synth"]}
{"id": "C09", "title": "Dictionary and vector basis conversions agree", "statement": "v_to_synth on the vector of a parameter set and to_synth on the dictionary give the same synth values for every planet; likewise v_from_synth and from_synth.", "quantifier": "all nine fitting bases, any number of planets, all values", "why_tests_cant": "Two 100+ line hand-unrolled copies of the same formulas; equality must hold for all values and planets.", "anchors": ["radvel/basis.py:Basis.v_to_synth", "radvel/basis.py:Basis.to_synth", "radvel/basis.py:Basis.v_from_synth", "radvel/basis.py:Basis.from_synth"]}
{"id": "C10", "title": "Basis conversion does not disturb anything else", "statement": "to_synth/to_any_basis never change the caller's parameter dictionary, never change a non-orbital parameter (gamma, jit, dvdt, curv, gp_*), and convert each planet from that planet's own elements only.", "quantifier": "all parameter dictionaries, any number of planets, all extra keys", "why_tests_cant": "Frame conditions quantify over every other key and planet.", "anchors": ["radvel/basis.py:Basis.to_synth", "radvel/basis.py:Basis.from_synth", "radvel/basis.py:_copy_params"]}
{"id": "C11", "title": "Basis conversion is repeatable", "statement": "Calling params.basis.to_any_basis(params, new) twice (or for two different targets in sequence) on the same Parameters object gives the same answer as calling it on a fresh object.", "quantifier": "all histories of conversion calls on one object", "why_tests_cant": "Depends on hidden mutation of the Basis object by earlier calls.", "anchors": ["radvel/basis.py:Basis.from_synth", "radvel/basis.py:Basis.to_any_basis"]}
{"id": "C12", "title": "A converted parameter set describes the same orbit when used in a model", "statement": "Building an RV model (Vector) from to_any_basis(params,new) gives the same orbital elements as building it from params.", "quantifier": "all ordered pairs of the nine fitting bases, all values, any number of planets", "why_tests_cant": "Depends on dictionary insertion order, leftover keys and last-writer-wins slots for each of 81 basis pairs and every value.", "anchors": ["radvel/basis.py:Basis.from_synth", "radvel/model.py:Vector.dict_to_vector", "radvel/basis.py:_copy_params"]}
{"id": "C13", "title": "Parameter dictionary <-> vector round trip", "statement": "For a parameter set whose keys occupy distinct slots, dict_to_vector followed by vector_to_dict restores every value; distinct parameters get distinct slots, every slot index is inside the vector, and each planet's parameters occupy exactly rows 5(n-1)..5n-1 in basis order with trend rows 5N,5N+1.", "quantifier": "all numbers of planets, all nine bases, any instruments and GP hyperparameters in any insertion order", "why_tests_cant": "Unbounded number of planets/instruments and key orders.", "anchors": ["radvel/model.py:Vector.init_index_dict", "radvel/model.py:Vector.dict_to_vector", "radvel/model.py:Vector.vector_to_dict"]}
{"id": "C14", "title": "Vector row names match row indices", "statement": "vector.names[vector.indices[key]] == key for every parameter key, so names reported for varied rows are the names of the parameters those rows hold.", "quantifier": "all parameter sets with hole-free layout; any number of planets and instruments", "why_tests_cant": "names is compacted by dropping unused rows; correctness depends on global absence of holes.", "anchors": ["radvel/model.py:Vector.vector_names", "radvel/likelihood.py:Likelihood.name_vary_params"]}
{"id": "C15", "title": "Parameters survive copy and pickling", "statement": "Pickling/deep-copying a Parameters object gives an object with the same keys, the same values and the same basis, num_planets and planet_letters.", "quantifier": "all Parameters objects reachable through the API (including deleted keys)", "why_tests_cant": "Requires all key sets and insertion orders, e.g. after a basis conversion.", "anchors": ["radvel/model.py:Parameters.__reduce__", "radvel/basis.py:_copy_params"]}
{"id": "C16", "title": "Multi-planet RV model is the superposition of its planets plus trend", "statement": "mod(t) = sum over planets of rv_drive(t, planet elements) + dvdt (t-time_base) + curv (t-time_base)^2; mod(t,planet_num=n) uses only planet n; a planet with K=0 contributes nothing; the model is evaluated point by point (restricting t restricts the output).", "quantifier": "any number of planets, any t array, all parameters", "why_tests_cant": "Unbounded number of planets and continuous inputs.", "anchors": ["radvel/model.py:_standard_rv_calc", "radvel/model.py:GeneralRVModel.__call__"]}
{"id": "C17", "title": "set_vary_params/get_vary_params are a lens", "statement": "After set_vary_params(v) with v of the right length, get_vary_params() returns v, every fixed parameter and every non-value column is unchanged, and setting back the old values restores the old state; a wrong length raises.", "quantifier": "all vectors, all vary masks, all value arrays", "why_tests_cant": "Quantifies over all masks and all histories of vary flag changes (cached index list).", "anchors": ["radvel/likelihood.py:Likelihood.set_vary_params", "radvel/likelihood.py:Likelihood.get_vary_params", "radvel/likelihood.py:Likelihood.list_vary_params"]}
{"id": "C18", "title": "logprob_array depends only on its argument", "statement": "logprob_array(v) returns the same number whatever sequence of logprob_array/residuals calls (with any arguments) was made before on the same object.", "quantifier": "all histories of evaluations, all arguments, linear or ordinary gamma, RV likelihoods and posteriors with priors", "why_tests_cant": "Samplers call it millions of times in data-dependent order on one mutable object; hidden state (cached gamma) can leak between calls.", "anchors": ["radvel/likelihood.py:Likelihood.logprob_array", "radvel/likelihood.py:RVLikelihood.residuals", "radvel/posterior.py:Posterior.logprob_array"]}
{"id": "C19", "title": "RV log-likelihood is the Gaussian log density of the data", "statement": "RVLikelihood.logprob is the sum over data points of the log normal density of (y - gamma - model) with variance yerr^2+jit^2; it does not depend on the order of the data points, and combining datasets adds log-likelihoods.", "quantifier": "any number of data points, all values with yerr^2+jit^2>0, all permutations and splits", "why_tests_cant": "Unbounded data sizes and all orders.", "anchors": ["radvel/likelihood.py:loglike_jitter", "radvel/likelihood.py:RVLikelihood.logprob", "radvel/likelihood.py:CompositeLikelihood.logprob"]}
{"id": "C20", "title": "Analytic gamma marginalisation", "statement": "With gamma linear and not varied (no decorrelation), the offset used minimises chi^2 over all offsets, and logprob equals the log of the integral over gamma in (-inf,inf) of the likelihood.", "quantifier": "all data sets of size >=1, all model values, all jitters", "why_tests_cant": "An integral over the real line for every dataset.", "anchors": ["radvel/likelihood.py:RVLikelihood.residuals", "radvel/likelihood.py:RVLikelihood.logprob"]}
{"id": "C21", "title": "Information criteria", "statement": "bic() = k ln n - 2 ln L; aic() = 2k - 2 ln L + 2k(k+1)/(n-k-1) when n-k-1>0 and +inf otherwise, where k counts the free parameters; Posterior.bic/aic return the likelihood's values.", "quantifier": "all n, k, and likelihood values", "why_tests_cant": "All sizes; and the error path of the delegating method.", "anchors": ["radvel/likelihood.py:Likelihood.bic", "radvel/likelihood.py:Likelihood.aic", "radvel/posterior.py:Posterior.aic"]}
{"id": "C22", "title": "Named priors are normalised densities", "statement": "exp of HardBounds, Jeffreys, ModifiedJeffreys and Gaussian priors integrates to 1 over the allowed range for admissible bounds, and the prior is -inf exactly outside the documented support.", "quantifier": "all admissible bounds/means/widths, all x", "why_tests_cant": "Integrals over a continuum for all hyper-parameters.", "anchors": ["radvel/prior.py:HardBounds", "radvel/prior.py:Jeffreys", "radvel/prior.py:ModifiedJeffreys", "radvel/prior.py:Gaussian"]}
{"id": "C23", "title": "Prior transforms are the quantile functions of the priors", "statement": "For HardBounds, Jeffreys and ModifiedJeffreys, transform(u) for u in (0,1) lies in the support (prior finite there), is increasing in u, and the prior mass below transform(u) is u.", "quantifier": "all u in (0,1), all admissible hyper-parameters", "why_tests_cant": "Integral identity for every u; the test compares one distribution with scipy.", "anchors": ["radvel/prior.py:HardBounds.transform", "radvel/prior.py:Jeffreys.transform", "radvel/prior.py:ModifiedJeffreys.transform"]}
{"id": "C24", "title": "Eccentricity and positive-K priors", "statement": "EccentricityPrior is -inf (or -1e100 with finite=True) iff some listed planet has eccentricity outside [0,upperlim], in every basis; PositiveKPrior is -inf iff some planet's semi-amplitude K is negative, in every basis.", "quantifier": "all bases, all planets, all values", "why_tests_cant": "Depends on which alias of a shared slot is read in which basis, for all values.", "anchors": ["radvel/prior.py:EccentricityPrior.__call__", "radvel/prior.py:PositiveKPrior.__call__"]}
{"id": "C25", "title": "Posterior combines priors and likelihood", "statement": "Posterior.logprob is the sum of log priors plus log likelihood; it is -inf as soon as one prior is -inf (the likelihood then is not evaluated, so no exception of the model can escape), and does not depend on the order of the priors.", "quantifier": "all lists of priors, all permutations, all states", "why_tests_cant": "All orders and all lists.", "anchors": ["radvel/posterior.py:Posterior.logprob"]}
{"id": "C26", "title": "check_proper_priors accepts exactly the proper configurations", "statement": "check_proper_priors returns without error iff every free parameter has exactly one transformable prior attached by name and no transformable prior is attached to a fixed parameter.", "quantifier": "all prior lists and all sets of free parameters", "why_tests_cant": "All combinations of priors and parameters.", "anchors": ["radvel/posterior.py:Posterior.check_proper_priors", "radvel/posterior.py:Posterior.get_prior_dict"]}
{"id": "C27", "title": "prior_transform maps the cube coordinate-wise", "statement": "After a successful check, prior_transform(u)[i] = transform of the i-th free parameter's prior applied to u[i] only; inplace=True writes the same values into the caller's array and inplace=False leaves it unchanged.", "quantifier": "all cubes, all prior orders", "why_tests_cant": "All permutations of prior order versus parameter order; aliasing behaviour.", "anchors": ["radvel/posterior.py:Posterior.prior_transform"]}
{"id": "C28", "title": "Nested-sampling target times prior equals the posterior", "statement": "When check_proper_priors succeeds, for every parameter vector inside the support log(NS likelihood) + sum of the log densities of the transformed priors = logprob_array, and outside every extra constraint the NS likelihood is finite (very negative), never -inf/NaN from the priors.", "quantifier": "all parameter vectors, all prior lists made of the library's priors", "why_tests_cant": "Must hold for all prior lists including priors without .param and constraint priors that do not accept finite=.", "anchors": ["radvel/posterior.py:Posterior.likelihood_ns_array", "radvel/posterior.py:Posterior.extra_likelihood", "radvel/prior.py:SecondaryEclipsePrior.__call__"]}
{"id": "C29", "title": "Nested-sampling results are never overwritten unless asked", "statement": "nested_sampling.run leaves an existing results.hdf5 untouched and raises when neither overwrite nor proceed is given, before any sampler is started; with an improper prior set nothing is run or written; sampler_kwargs/run_kwargs given by the caller are not modified.", "quantifier": "all file-system states, sampler names (any case), argument combinations", "why_tests_cant": "All combinations of flags, directory states and error points.", "anchors": ["radvel/nested_sampling.py:run"]}
{"id": "C30", "title": "GP covariance matrices are covariance matrices", "statement": "The SqExp, Per and QuasiPer kernels produce symmetric positive semi-definite matrices with diagonal amp^2+err^2 and off-diagonal entries bounded by amp^2; with errors>0 they are positive definite.", "quantifier": "any number of (possibly repeated) time stamps, all hyper-parameters", "why_tests_cant": "Positive semi-definiteness quantifies over all coefficient vectors and all point sets.", "anchors": ["radvel/gp.py:SqExpKernel", "radvel/gp.py:PerKernel", "radvel/gp.py:QuasiPerKernel"]}
{"id": "C31", "title": "GP log-likelihood depends only on current parameters", "statement": "GPLikelihood.logprob() is a function of the current parameter vector: evaluating other parameter vectors or predict() in between does not change it, including when hyper-parameters are zero ('no GP' comparison).", "quantifier": "all histories of logprob/predict calls and hyper-parameter values", "why_tests_cant": "Stale cached covariance appears only for particular call sequences.", "anchors": ["radvel/likelihood.py:GPLikelihood.logprob", "radvel/gp.py:QuasiPerKernel.compute_covmatrix", "radvel/likelihood.py:GPLikelihood.predict"]}
{"id": "C32", "title": "Data stay aligned with times in the celerite likelihood", "statement": "CeleriteLikelihood evaluates residuals and errors at the time stamps they belong to for data given in any time order.", "quantifier": "all data orders", "why_tests_cant": "Only permutations that are not sorted expose a misalignment.", "anchors": ["radvel/likelihood.py:CeleriteLikelihood.__init__", "radvel/gp.py:CeleriteKernel"]}
{"id": "C33", "title": "MCMC step accounting", "statement": "In a fresh run with checkinterval>=2, after r rounds every walker of every ensemble has advanced r*checkinterval stored steps, ncomplete equals r*checkinterval*nwalkers*ensembles whether or not burn-in ended meanwhile, and the requested number of steps nrun is an upper bound on the steps per walker.", "quantifier": "all nrun, checkinterval, walkers, ensembles, all convergence histories", "why_tests_cant": "Depends on the round at which burn-in ends and on rounding of nrun/(checkinterval-1).", "anchors": ["radvel/mcmc.py:mcmc", "radvel/mcmc.py:convergence_check"]}
{"id": "C34", "title": "MCMC stops early only after two consecutive passed tests", "statement": "The run stops before its last round only if the two most recent computed convergence tests both passed; the first computed test can never pass; every run stops after at most round(nrun/(checkinterval-1)) rounds.", "quantifier": "all sequences of convergence statistics", "why_tests_cant": "Quantifies over all histories of convergence outcomes.", "anchors": ["radvel/mcmc.py:convergence_check", "radvel/mcmc.py:mcmc", "radvel/mcmc.py:convergence_calculate"]}
{"id": "C35", "title": "Stored chains are sampler trajectories after burn-in", "statement": "The returned chain contains no sample drawn before burn-in completed, and each stored sample is obtained from the preceding stored sample of the same walker by one transition of the sampler.", "quantifier": "all rounds, ensembles, burn-in rounds", "why_tests_cant": "A structural property of every run and every transition kernel.", "anchors": ["radvel/mcmc.py:mcmc", "radvel/mcmc.py:_domcmc"]}
{"id": "C36", "title": "Chain rows keep parameters and log-probabilities together", "statement": "Each row of the returned DataFrame holds the parameter vector and the lnprobability of one and the same (ensemble, walker, step), every such triple appears exactly once (before thinning), and thinning keeps every thin-th row.", "quantifier": "any numbers of ensembles, walkers, steps, parameters; any thin>=1", "why_tests_cant": "Index arithmetic of dstack/hstack/reshape/transpose for all shapes.", "anchors": ["radvel/mcmc.py:mcmc"]}
{"id": "C37", "title": "Gelman-Rubin statistic", "statement": "The G-R statistic is unchanged when a parameter is shifted or rescaled and when chains are relabelled, and is at least sqrt(1-1/n) with equality iff all chain means are equal.", "quantifier": "any numbers of chains and samples, all values with positive within-chain variance", "why_tests_cant": "Algebraic identity over all chains.", "anchors": ["radvel/mcmc.py:convergence_calculate"]}
{"id": "C38", "title": "Saved MCMC state can be resumed", "statement": "After any saved round, restarting with proceed and the same settings restores chains, log-probabilities, burn-in count and autocorrelation history; a file from a run with other ensembles/walkers/parameters is refused; a crash during the save never leaves a file that resumes with wrong data.", "quantifier": "all rounds, ensemble counts, crash points during the save", "why_tests_cant": "Crash points inside the delete/create sequence and all ensemble counts.", "anchors": ["radvel/mcmc.py:mcmc"]}
{"id": "C39", "title": "maxlike_fitting leaves the posterior at the optimum found", "statement": "After maxlike_fitting the posterior's parameters equal the optimiser's reported solution, their log-probability is not lower than at the start, and fixed parameters are unchanged.", "quantifier": "all optimisers (any sequence of objective evaluations and reported result)", "why_tests_cant": "Depends on the optimiser's last evaluated point.", "anchors": ["radvel/fitting.py:maxlike_fitting"]}
{"id": "C40", "title": "Model comparison enumerates the documented models", "statement": "model_comp with ['nplanets'] fits the full model and one model for every non-empty set of (varying) planets removed, ['e'] likewise for circularised planets, ['trend'] the full, no-curvature and no-trend models, ['jit'] with and without jitter; the input posterior's parameters are unchanged; results do not depend on earlier calls.", "quantifier": "any number of planets, any vary flags, any history of calls", "why_tests_cant": "2^N-1 subsets for all N and call histories (mutable default argument).", "anchors": ["radvel/fitting.py:model_comp"]}
{"id": "C41", "title": "timebin partitions the data", "statement": "For binsize>0 timebin terminates, every point contributes to exactly one bin, points in a bin span less than binsize, each binned time/measurement lies between the min and max of its points, each binned error is at most every member's error, and total inverse variance is preserved.", "quantifier": "any number of points in any order, with ties, all positive errors", "why_tests_cant": "Loop over data-dependent bin sizes.", "anchors": ["radvel/utils.py:timebin"]}
{"id": "C42", "title": "bintels never mixes instruments", "statement": "bintels output is the concatenation, in order of first appearance, of timebin applied to each instrument's own points, labelled with that instrument.", "quantifier": "any data, any instrument interleaving", "why_tests_cant": "All interleavings of instruments.", "anchors": ["radvel/utils.py:bintels"]}
{"id": "C43", "title": "Orbital phase folding", "statement": "t_to_phase returns values in [0,1), equal for times one period apart, equal to 0 at the reference time, and cat=True appends the same phases plus one.", "quantifier": "all real t, per>0", "why_tests_cant": "Continuum of inputs.", "anchors": ["radvel/utils.py:t_to_phase", "radvel/utils.py:t_to_phase_vector"]}
{"id": "C44", "title": "Calendar date <-> Julian date", "statement": "jd2date(date2jd(d)) = d for every datetime with whole seconds, date2jd is strictly increasing on whole seconds and translation-equivariant in days.", "quantifier": "all dates", "why_tests_cant": "All dates; microsecond handling.", "anchors": ["radvel/utils.py:date2jd", "radvel/utils.py:jd2date"]}
{"id": "C45", "title": "Mass and semi-amplitude formulas are inverse", "statement": "Msini(semi_amplitude(m,P,M,e),P,M,e) = m in the low-mass branch; Msini is linear in K and semi_major_axis obeys a^3 = G M P^2/(4 pi^2); density scales as m/r^3.", "quantifier": "all positive masses, periods, 0<=e<1", "why_tests_cant": "Real identities over a continuum.", "anchors": ["radvel/utils.py:Msini", "radvel/utils.py:semi_amplitude", "radvel/utils.py:semi_major_axis", "radvel/utils.py:density"]}
{"id": "C46", "title": "Pipeline status file keeps earlier stages", "statement": "save_status(file, section, vars) followed by load_status returns the saved options and leaves all other sections and options unchanged, for any sequence of saves; a crash while saving never loses previously saved stages.", "quantifier": "all sequences of saves, sections and options; all crash points", "why_tests_cant": "All histories and crash points.", "anchors": ["radvel/driver.py:save_status", "radvel/driver.py:load_status"]}
{"id": "C47", "title": "Sampler selection for derived products", "statement": "_pick_sampler returns a sampler only if its results are recorded as run in the status file, 'auto' prefers MCMC, and any other request raises.", "quantifier": "all status files, all requested names", "why_tests_cant": "All combinations.", "anchors": ["radvel/driver.py:_pick_sampler"]}
{"id": "C48", "title": "Command-line keyword strings", "statement": "_process_kwargs_str inverts formatting 'k1=v1 k2=v2 ...' for keys and values without spaces or '='; values are typed int, then float, then bool, then str; a malformed item raises instead of being dropped.", "quantifier": "all strings", "why_tests_cant": "All strings.", "anchors": ["radvel/driver.py:_process_kwargs_str", "radvel/driver.py:_cast_str_arg"]}
{"id": "C49", "title": "Posterior predictive draws follow the chain", "statement": "draw_models_from_chain returns for each drawn row the model evaluated at that row's parameters.", "quantifier": "all chains, all draws", "why_tests_cant": "Depends on mutable aliasing between Parameters and Vector.", "anchors": ["radvel/utils.py:draw_models_from_chain", "radvel/model.py:GeneralRVModel.array_to_params"]}
{"id": "C50", "title": "Percentile error bars", "statement": "geterr returns non-negative lower and upper errors, is equivariant under shifts and positive scalings of the chain, does not depend on the order of the samples, and does not modify the caller's array.", "quantifier": "all non-empty samples of any length", "why_tests_cant": "Index arithmetic for all lengths; aliasing.", "anchors": ["radvel/utils.py:geterr"]}
{"id": "C51", "title": "Composite likelihood is the sum of its parts", "statement": "CompositeLikelihood.logprob/residuals/errorbars are the sum/concatenation of the members in the given order, the composite's x, yerr and telvec are aligned with the residuals, members that disagree on a shared parameter are refused.", "quantifier": "any number of member likelihoods", "why_tests_cant": "Unbounded number of members.", "anchors": ["radvel/likelihood.py:CompositeLikelihood"]}
{"id": "C52", "title": "Model comparison table labels", "statement": "tab_comparison labels each model by its AICc difference to the best one with the documented thresholds, every model with finite AICc is assigned exactly one label group, and models are ordered by AICc.", "quantifier": "any list of models with any AICc values", "why_tests_cant": "All lists and threshold boundary values.", "anchors": ["radvel/report.py:TexTable.tab_comparison"]}
{"id": "C53", "title": "Number formatting", "statement": "round_sig(x,sig) differs from x by at most half a unit of its last retained digit and keeps sign and zero; time_print preserves the represented duration; sigfig terminates for every non-zero median.", "quantifier": "all values", "why_tests_cant": "All magnitudes.", "anchors": ["radvel/utils.py:round_sig", "radvel/utils.py:sigfig", "radvel/utils.py:time_print"]}
{"id": "C54", "title": "Working directory is restored", "statement": "working_directory restores the caller's directory after normal or exceptional exit of the block, for any nesting; if entering fails the directory is unchanged.", "quantifier": "all block behaviours and nestings", "why_tests_cant": "All exceptional paths and nestings.", "anchors": ["radvel/utils.py:working_directory"]}
{"id": "C55", "title": "Configuration loading", "statement": "initialize_posterior refuses parameters not expressed in the fitting basis, converts deprecated logjit parameters to jit=exp(logjit), requires data for every named instrument, and builds one likelihood per instrument from that instrument's rows only.", "quantifier": "all configuration files, any number of instruments and parameters", "why_tests_cant": "All parameter orders and instrument splits; mutation while iterating.", "anchors": ["radvel/utils.py:initialize_posterior"]}
{"id": "C56", "title": "Saved nested-sampling results are the ones returned", "statement": "After a successful nested_sampling.run with an output directory, load_results of its results.hdf5 returns exactly the dictionary run returned: the back end's samples with a log-probability column evaluated at each sample, and its evidence with error; no other file is written after the back end returned.", "quantifier": "all back ends, samples, directories and file-system states", "why_tests_cant": "All back ends are external; holds for any behaviour of theirs.", "anchors": ["radvel/nested_sampling.py:run", "radvel/nested_sampling.py:load_results"]}
{"id": "C57", "title": "A nested-sampling run without output directory leaves existing files alone", "statement": "nested_sampling.run with output_dir=None changes no file that existed before the call, for every back end.", "quantifier": "all file-system states, back ends and arguments", "why_tests_cant": "Depends on files present beforehand.", "anchors": ["radvel/nested_sampling.py:run_multinest", "radvel/nested_sampling.py:run"]}
{"id": "C58", "title": "overwrite=True accepts an existing output directory", "statement": "nested_sampling.run with overwrite=True runs in an existing output directory for every back end.", "quantifier": "all file-system states and back ends", "why_tests_cant": "Depends on directory contents (presence of a checkpoint).", "anchors": ["radvel/nested_sampling.py:run_dynesty", "radvel/nested_sampling.py:run"]}
{"id": "C59", "title": "The gp comparison fits a model without the Gaussian process", "statement": "model_comp with 'gp' fits, besides the full model, a model whose GP hyperparameters are all fixed with zero amplitude, and leaves the input posterior's parameters unchanged.", "quantifier": "all kernels with a gp_amp hyperparameter, vary flags and further comparisons", "why_tests_cant": "Any combination of flags, hyperparameters and comparisons.", "anchors": ["radvel/fitting.py:model_comp"]}
{"id": "C60", "title": "Pipeline commands demand exactly what they need and find every file", "statement": "For every sequence of radvel commands (fit, mcmc, ns, derive, ic, table, plot, report) started in an empty output directory: fit and ns always run; mcmc, ic and plot run exactly if a fit succeeded before; derive and table run exactly if the requested sampler (or, with auto, any sampler) has results; the comparison table and the plot of derived parameters need their stage; no command ever fails because a recorded file is missing; and a fit, mcmc, ns, derive or ic command that raises has changed neither the files nor the status file.", "quantifier": "all command sequences, output names, samplers, failures of the computations in between", "why_tests_cant": "Tests run the commands in one order; the state left by any sequence of successes and failures is unbounded.", "anchors": ["radvel/driver.py:fit", "radvel/driver.py:mcmc", "radvel/driver.py:nested_sampling", "radvel/driver.py:derive", "radvel/driver.py:ic_compare", "radvel/driver.py:tables", "radvel/driver.py:plots", "radvel/driver.py:save_status", "radvel/driver.py:_pick_sampler"]}
{"id": "C61", "title": "Tables and reports combine the results of one run", "statement": "For every sequence of radvel commands, a table or report is made from a posterior, samples and derived samples that all belong to the same sampler run.", "quantifier": "all command sequences and samplers", "why_tests_cant": "Whether files of different runs are mixed depends on the whole order of the commands.", "anchors": ["radvel/driver.py:fit", "radvel/driver.py:mcmc", "radvel/driver.py:derive", "radvel/driver.py:tables", "radvel/driver.py:report"]}
{"id": "C62", "title": "radvel ic reports every compared model once", "statement": "For every fitted posterior and every choice of comparisons, radvel ic reports each model of the comparisons exactly once, where two models are the same if they have the same free parameters; without -t it uses the default comparison, and with --fixjitter no reported model has a free jitter term.", "quantifier": "all posteriors, comparison lists, fit results and earlier calls", "why_tests_cant": "Duplicates are recognised by lists of plot labels; whether the labels identify the model depends on names, basis and which parameters are fixed.", "anchors": ["radvel/driver.py:ic_compare", "radvel/fitting.py:model_comp"]}
{"id": "C63", "title": "Decorrelation subtracts one centred linear term per variable", "statement": "For any decorrelation variables, the residuals are y - gamma - model - sum over variables of c1_var * (column - mean of column); logprob is the Gaussian log density of these; a marginalised offset is integrated over with these terms included; the terms are used for every kind of likelihood.", "quantifier": "all variable names, columns, coefficients, data sizes and likelihood kinds", "why_tests_cant": "Coefficients are selected by substring tests on names; whether terms mix depends on all names together.", "anchors": ["radvel/likelihood.py:RVLikelihood.residuals", "radvel/likelihood.py:RVLikelihood.logprob", "radvel/likelihood.py:GPLikelihood.__init__", "radvel/utils.py:initialize_posterior"]}
{"id": "C64", "title": "The parameter table shows every parameter once with its own numbers and unit", "statement": "Every row of the parameter table shows label, credible interval and best value of one and the same parameter with that parameter's unit; the first group lists the parameters of the fitting basis, the second the orbital elements, the third every other parameter of the model; no parameter is listed twice within a group.", "quantifier": "all parameter names, instrument names, numbers of planets, sample tables", "why_tests_cant": "Names are looked up by appending and removing characters and by substring tests; whether rows are mixed up depends on all names together.", "anchors": ["radvel/report.py:TexTable._row", "radvel/report.py:TexTable._data", "radvel/report.py:TexTable.tab_params", "radvel/report.py:RadvelReport.__init__", "radvel/likelihood.py:CompositeLikelihood.__init__"]}
{"id": "C65", "title": "The summary of a sampling run reports every parameter and element from its own samples", "statement": "After sampling, for every parameter and every orbital element the median and the 68 per cent half width of its own samples are reported together with its value after a fit started at the medians; elements are computed sample by sample from the parameters of the same planet; fixed parameters are reported unchanged without uncertainty; the reported median lies where the samples are.", "quantifier": "all chains, parameter sets, fit bases, numbers of planets, posteriors and optimisers", "why_tests_cant": "The result depends on which parameters are fixed, sampled or computed, on the order of columns and on the optimiser; no finite set of chains covers the combinations.", "anchors": ["radvel/driver.py:sampling_postprocessing", "radvel/basis.py:Basis.to_synth", "radvel/fitting.py:maxlike_fitting", "radvel/utils.py:sigfig"]}
{"id": "C66", "title": "Derived masses, axes and densities follow from the elements of the same sample", "statement": "For every planet and every sample, minimum mass, semi-major axis, mass ratio and density are computed from the elements of that planet in that sample, the stellar mass drawn for it and the radius drawn for it; they fulfil the relation between semi-amplitude and mass, Kepler's third law and the definition of density, and are positive; the output lists exactly the derived columns with their quantiles.", "quantifier": "all chains, parameter sets, fit bases, numbers of planets, draws, physical constants and root finders", "why_tests_cant": "Which formula is used for a sample depends on all other samples; fixed and sampled parameters, the basis and the radii given per planet combine without bound.", "anchors": ["radvel/driver.py:derive", "radvel/utils.py:Msini", "radvel/utils.py:semi_major_axis", "radvel/utils.py:density", "radvel/basis.py:Basis.to_synth"]}
{"id": "C67", "title": "TeX labels name the right parameter, planet and instrument", "statement": "tex_labels gives every parameter one label; a planet's parameter is labelled with its symbol and the planet's letter, offsets, jitters and hyperparameters with their symbol and instrument; labels of different planet parameters differ and their braces match.", "quantifier": "all parameter lists, fit bases, planet letters, instrument names", "why_tests_cant": "Labels are made by repeated substring replacement whose result depends on every name in the table and on arbitrary instrument names.", "anchors": ["radvel/model.py:Parameters.tex_labels", "radvel/model.py:Parameters._planet_texlabel", "radvel/model.py:texdict"]}
{"id": "C68", "title": "The table of derived parameters shows each derived parameter once, in the unit named", "statement": "DerivedPlot and tab_derived give one row per derived parameter with samples, with the planet's symbol, a unit, and quantiles and best value of the samples in that unit; masses above 100 Earth masses are converted to Jupiter masses; nothing else changes.", "quantifier": "all numbers of planets, letters, sample tables, orders of set iteration", "why_tests_cant": "Unit changes depend on medians of arbitrary samples, rows on the iteration order of a set and on string slicing of arbitrary planet numbers.", "anchors": ["radvel/plot/mcmc_plots.py:DerivedPlot", "radvel/plot/mcmc_plots.py:texlabel", "radvel/report.py:TexTable.tab_derived"]}
{"id": "C69", "title": "The Gaussian process likelihood is the multivariate normal density of the residuals", "statement": "GPLikelihood.logprob is the log density of the residuals under zero-mean normal noise whose covariance is the kernel plus uncertainty and jitter on the diagonal; it is -inf exactly when that matrix cannot be factorised, and the independent-error likelihood when the amplitude is zero.", "quantifier": "all data sets, hyper-parameters, offsets, jitters, models, kernel states", "why_tests_cant": "The value depends on the factorisation of a matrix of any size built from real parameters.", "anchors": ["radvel/likelihood.py:GPLikelihood.logprob", "radvel/likelihood.py:GPLikelihood._resids", "radvel/gp.py:QuasiPerKernel.compute_covmatrix"]}
{"id": "C70", "title": "The Gaussian process prediction is the best linear estimate of the correlated noise", "statement": "GPLikelihood.predict gives for every requested time the linear combination of the residuals with least expected square error under the kernel and the noise, and the root of that error; residuals() subtracts it; the error never exceeds the amplitude nor the datum's own uncertainty, and a datum without uncertainty is reproduced.", "quantifier": "all data sets, prediction times, hyper-parameters, offsets, jitters, models, kernel states", "why_tests_cant": "Optimality is a statement about all other estimates, for matrices of any size.", "anchors": ["radvel/likelihood.py:GPLikelihood.predict", "radvel/likelihood.py:GPLikelihood.residuals", "radvel/gp.py:SqExpKernel.compute_covmatrix"]}
{"id": "C71", "title": "Binned points of the phase plot are means of the right points", "statement": "fastbin gives for every bin with three points or more the centre, the mean of exactly the points in it and its standard error; every point is in one bin; the order of points does not matter; no point is counted twice in a bin of the phase plot; no such bin is lost.", "quantifier": "all points, all numbers of bins, all phases", "why_tests_cant": "Edges, equal values and empty bins are special cases of real inputs; sums run over any number of points.", "anchors": ["radvel/utils.py:fastbin", "radvel/plot/orbit_plots.py:MultipanelPlot.plot_phasefold"]}
{"id": "C72", "title": "The tables of velocities and criteria show every value to the decimals printed", "statement": "tab_rv lists the observations wanted in order, each with its own time, velocity, uncertainty and instrument, every number reading back to within half a unit of its last decimal; observations that differ have different rows; the note says how many rows are shown; names of instruments are valid TeX; tab_crit gives each criterion its own value to three decimals.", "quantifier": "all observations, real numbers, names of instruments and numbers of lines", "why_tests_cant": "Rounding, carries, signs and leading zeros depend on the value; a test looks at some numbers and names only.", "anchors": ["radvel/report.py:TexTable.tab_rv", "radvel/report.py:TexTable.tab_crit"]}
{"id": "C73", "title": "The table of priors describes the priors that are applied", "statement": "tab_prior_summary gives one finished row for each prior, in order; the description of a prior shows the symbol of its parameter, as the other tables do, and the limits, or mean and standard deviation, of the density the prior applies; an eccentricity prior has one line per planet with its own limit; numerical priors name all their parameters.", "quantifier": "all priors, parameters, limits and planet letters", "why_tests_cant": "The text depends on names, letters and numbers of planets in any combination, and must agree with the density over all real values.", "anchors": ["radvel/prior.py:__str__", "radvel/report.py:TexTable.tab_prior_summary"]}
{"id": "C74", "title": "The samples behind a report are the sampled orbits", "statement": "A report can be made from every chain of the fit. For every planet its columns hold period, time of conjunction, time of periastron, eccentricity, argument of periastron and semi-amplitude, computed sample by sample from the fitted parameters of that planet and sample, with the best value for parameters held fixed; fitted parameters and derived parameters keep their samples; quantiles are those of the column of the same name.", "quantifier": "all bases, parameter sets, chains, numbers of planets and samples, any choice of sampled parameters", "why_tests_cant": "Which columns are present depends on what was held fixed, in any of nine bases; a wrong sample or planet in one column changes quantiles only slightly.", "anchors": ["radvel/report.py:RadvelReport.__init__", "radvel/basis.py:Basis.from_synth", "radvel/driver.py:report"]}
{"id": "C75", "title": "Every panel of a figure shows every measurement once, under its own instrument", "statement": "A panel of data from several instruments draws one series per instrument with exactly the times, velocities and errors of that instrument, in order. The legend shows the name the user gave the instrument, else the one the program has for it, else the name in the data, with the scatter of its residuals if asked for. Options and colours chosen by the user are used; known instruments have their own colours; others get different colours. An instrument looks the same in all panels of a figure.", "quantifier": "all data, any instruments and formats", "why_tests_cant": "Figures are looked at, not compared; formats are changed while panels are drawn, so that what a panel shows depends on the panels before it.", "anchors": ["radvel/plot/__init__.py:telplot", "radvel/plot/__init__.py:mtelplot"]}
{"id": "C76", "title": "The panels of an orbit plot show the fit that was made", "statement": "Of a fit with any number of planets and instruments, the upper panel shows the velocities less the offset and corrections of their instrument together with the curve of all planets and the trend; the second panel the likelihood's own residuals; the panel of a planet the velocities less everything but that planet, folded with its period about its conjunction (or periastron, if the fit has no conjunction), twice, with its own curve and the means of 25 equal bins of phase. Error bars contain the jitter. The times are reduced by the epoch. The highlighted point is the latest measurement. The scatter in the legend is that of the instrument's own residuals. Every fit can be plotted.", "quantifier": "all fits in all bases, numbers of planets, data sets, epochs and formats", "why_tests_cant": "Figures are looked at, not compared; a wrong planet taken off, a doubled trend or the phases of another reference look like a poor fit.", "anchors": ["radvel/plot/orbit_plots.py:MultipanelPlot.__init__", "radvel/plot/orbit_plots.py:MultipanelPlot.plot_timeseries", "radvel/plot/orbit_plots.py:MultipanelPlot.plot_residuals", "radvel/plot/orbit_plots.py:MultipanelPlot.plot_phasefold"]}
{"id": "C77", "title": "The figure of an orbit plot has one panel for each planet, in order, all of the same fit", "statement": "A figure has the panel of all velocities on top, the residuals below it and, unless phase plots are not wanted, exactly one panel for every planet, in the order of the planets' numbers, along the rows of a grid of the columns asked for, with as few rows as hold them; no two planets share a cell. Each panel shows what C76 says of one and the same fit. Panels are marked a, b, c, ... each with its own letter. An instrument has one look in all panels after the first, and in the first too when the user's formats have colours. A figure is drawn with any of these options.", "quantifier": "all fits, numbers of planets, columns and rows, formats and options", "why_tests_cant": "The tests make one figure of one layout and look at none; a planet in another's cell or a letter given twice raises nothing.", "anchors": ["radvel/plot/orbit_plots.py:MultipanelPlot.plot_multipanel", "radvel/plot/orbit_plots.py:MultipanelPlot.__init__", "radvel/plot/__init__.py:labelfig"]}
{"id": "C78", "title": "The panels of a fit with Gaussian processes show the velocities as wanted, with each process beside its own data", "statement": "The upper panel of a Gaussian-process plot shows every velocity less its offset and, as wanted, less the orbits and less the mean of its instrument's process, with error bars as in C76. Beside them, for each process, the sum of what was not taken off and a band of one standard deviation about it, on a fine grid over the times of its own data (or the limits given). Drawing again shows the same. With a panel for each likelihood all panels show the velocities as wanted. The band of an instrument has the colour of its points. Curves beside velocities less the orbits show no orbits. A panel is drawn with any options and formats.", "quantifier": "all sets of likelihoods with and without processes, data, options, formats, numbers of drawings", "why_tests_cant": "The tests draw Gaussian-process figures of one data set and look at none; means added twice to the velocities raise nothing.", "anchors": ["radvel/plot/orbit_plots.py:GPMultipanelPlot.plot_gp_like", "radvel/plot/orbit_plots.py:GPMultipanelPlot.plot_timeseries", "radvel/plot/orbit_plots.py:GPMultipanelPlot.plot_multipanel"]}
{"id": "C79", "title": "The plots of a sampling run show the chains, the free parameters and the recorded convergence checks", "statement": "The trend plot of every run has one page for each free parameter, in the order of names, with one line for each walker of each ensemble showing the steps of that walker. The corner plot has exactly the columns of the free parameters in the order of the parameters, each with its own label; that of derived parameters the derived columns that exist and are not null, in the units written beside the labels. The autocorrelation plot of every run shows each check made after burn-in at its number of samples, with the least, mean and greatest autocorrelation time, inside the limits of the axes; a check that found the chains mixed lies below the line.", "quantifier": "all sampling runs, numbers of walkers, ensembles, steps and thinnings, parameters, labels, null columns", "why_tests_cant": "The tests make the plots of one run with one thinning and look at none of them; lines mixing walkers raise nothing.", "anchors": ["radvel/plot/mcmc_plots.py:TrendPlot", "radvel/plot/mcmc_plots.py:AutoPlot", "radvel/plot/mcmc_plots.py:CornerPlot", "radvel/plot/mcmc_plots.py:DerivedPlot"]}
{"id": "C80", "title": "The text in a planet's panel shows the planet's elements and mass with their uncertainties, labels and units", "statement": "The text in the panel of every planet has three lines, for its period, amplitude and eccentricity: each has the label of that parameter, its unit and, without uncertainties, the value of the posterior, with uncertainties the median and uncertainty that the summary of the chain has for it, which are not rounded a second time. With derived parameters there is a fourth line with the median and half the 68 per cent interval of the planet's mass, in the unit written beside them, under the planet's letter.", "quantifier": "all parameters, labels, planet letters, values, uncertainties, chains, numbers of planets", "why_tests_cant": "The tests make a few plots and look at none of the texts; a factor missing from a unit conversion or a wrong letter raises nothing.", "anchors": ["radvel/plot/orbit_plots.py:MultipanelPlot.plot_phasefold", "radvel/utils.py:sigfig"]}
{"id": "C81", "title": "Tables made in one run, or in a report, are those made one at a time", "statement": "If several tables are asked for in one run, each file written is the table that is made if it alone is asked for, whatever the others are and whatever their order, and a run asked for tables that can be made one at a time makes them all; a further report made in the same run has the same samples and labels. The tables in a report are these tables, and its figures are exactly those of the three kinds that have been plotted.", "quantifier": "all lists of table types, chains, posteriors, labels, units, statistics, formatting functions, directories", "why_tests_cant": "The tests ask for the tables in one order each and look at no file; tables share dictionaries of labels, units and samples which some of them change, and a table made after another that is wrong or empty raises nothing.", "anchors": ["radvel/driver.py:tables", "radvel/report.py:RadvelReport.texdoc", "radvel/report.py:TexTable.tab_derived", "radvel/report.py:RadvelReport.__init__"]}
{"id": "C82", "title": "A report is made of the plots recorded and changes no other file", "statement": "A report ends where it was started, also after a failure. If it ends normally, the output directory has its document, made with exactly the plots recorded, and what three runs of the compiler in a directory of the document and these plots leave, and no other file has changed; if it fails, at most the document has. Plots made before are in the output directory, after any plots a report can be made if its tables can and the compiler runs, its figures are exactly the kinds plotted, and no temporary directory is left.", "quantifier": "all sequences of plot commands and types, names, directories, contents, documents, compilers", "why_tests_cant": "The tests compile one report after one sequence of plots with a compiler that is there; whether an older report or a plot made under another name is taken for the new one is seen only in the files.", "anchors": ["radvel/report.py:RadvelReport.compile", "radvel/driver.py:report", "radvel/driver.py:plots"]}
{"id": "C83", "title": "The text of a fit shows every parameter of the vector, once, and its orbit", "statement": "The text of a likelihood or posterior has a line for every parameter that has a value, in order, each with the value in the vector (a time above 10^6 less the model's time base), the uncertainty if there are any, and whether it varies, then a line for every orbital element that is not a parameter, with the value that gives the same orbit, and no other line; each line splits into its fields. The text of a posterior continues with its priors. Printing changes no parameter, and printing twice gives the same text. The uncertainties of several likelihoods are joined.", "quantifier": "all vectors, parameter sets in the nine fitting bases, numbers of planets, uncertainties, time bases, priors, formats of numbers", "why_tests_cant": "The tests print a posterior and look at nothing; a value taken from the parameters instead of the vector, or a line left out, raises no error.", "anchors": ["radvel/likelihood.py:Likelihood.__repr__", "radvel/posterior.py:Posterior.__repr__", "radvel/likelihood.py:CompositeLikelihood.__init__"]}
{"id": "C84", "title": "A command line calls its command with the last value given to every option, or its default", "statement": "A line of a command and options calls that command with every argument the last value that the line gives it, or else its default, which is the one that the help states; options can be given in any order, with an equals sign, shortened, attached or joined. It makes no more than the directory of the outputs, which is that given or that named after the setup file; the status file is of that directory and setup file, the same for every command, and different setup files have different status files. Any other line (no setup file, a missing value, a number that is none, a choice not offered, a word left over) ends with exit status 2 and changes nothing.", "quantifier": "all commands, lines, orders and spellings of options, values, directories and setup files, conversions of texts", "why_tests_cant": "The tests call the driver with a namespace made by hand and never parse a line; two setup files of one name, or a value of --serial, are not tried.", "anchors": ["radvel/cli.py:main", "radvel/driver.py:fit"]}
{"id": "C85", "title": "The walkers of a sampling run start around the fit, each at a point of its own", "statement": "Every walker of every ensemble starts with each parameter that varies within its scale of the value of the fit, the scale being the one given or else the usual one for the kind of parameter and its value, and positive; walkers are spread in every parameter, so the sampler takes the start; every start is in the domain of its parameters; no value and no fixed parameter changes, and a second run from the same posterior starts by the same rule.", "quantifier": "all vectors, sets of varied parameters, names, scales given or not, numbers of walkers and ensembles, draws", "why_tests_cant": "The tests run a few posteriors with random draws; a period of one day, or a value changed between two runs, is not among them.", "anchors": ["radvel/mcmc.py:mcmc"]}
{"id": "C86", "title": "Sampling in one process and in several gives the same chains", "statement": "For every posterior, sampler with its own random generator, number of ensembles and rounds, and rule between the rounds: sampling with serial=True and with a pool of processes returns the same samplers with the same chains, or raises in both; the posterior given is the same afterwards as before.", "quantifier": "all posteriors over RV likelihoods from the constructors, all deterministic samplers, all numbers of ensembles and rounds, all functions between the rounds", "why_tests_cant": "The chains of a test are random and are compared with nothing; a difference between the two ways needs equal random states and a posterior that remembers earlier points.", "anchors": ["radvel/mcmc.py:mcmc", "radvel/mcmc.py:_domcmc"]}
{"id": "C87", "title": "The Kepler solvers, rv_drive and a model's call always return", "statement": "For every mean anomaly and every eccentricity in [0, 0.99]: the loop of the NumPy solver ends after at most 29 passes, and the C solver converges before its cap of 30 corrections, at which it would end the process. So rv_drive returns for every five elements and every non-empty list of times with either back end, and an RV model over a valid parameter set returns for every planet asked for, whatever the eccentricities.", "quantifier": "all real mean anomalies, all eccentricities in [0, 0.99], all arrays of them, all orbital elements, all valid parameter sets in a fitting basis", "why_tests_cant": "Danby's iteration is not a contraction at high eccentricity and the first guess can be thrown far from the root near periastron; a test tries finitely many points of a two-dimensional continuum, and a loop without a cap that hangs for a small set of inputs is not seen.", "anchors": ["radvel/kepler.py:kepler", "radvel/kepler.py:rv_drive", "src/kepler.c:kepler", "radvel/model.py:RVModel.__call__"]}
{"id": "C88", "title": "What is shown while sampling is what was done", "statement": "In every round of every new run the status message shows the steps made of the total, a bar of fifty places filled in proportion, the percentage, the share of accepted proposals and the steps per second; showing it does not change the chains; the end of burn-in is announced once; and the last message says well-mixed, marginally mixed or not mixed according to the last convergence tests.", "quantifier": "all samplers, settings, numbers of rounds and clocks; all step counts, totals and widths of the bar", "why_tests_cant": "Screen output of a random, long run is not looked at by any test, and runs of a few rounds with headless=True, as tests use them, show nothing.", "anchors": ["radvel/mcmc.py:_progress_bar", "radvel/mcmc.py:_status_message_CLI", "radvel/mcmc.py:_status_message_NB", "radvel/mcmc.py:convergence_check", "radvel/mcmc.py:mcmc"]}
{"id": "C89", "title": "The text of a posterior tells its priors", "statement": "Priors whose descriptions are the same are the same prior, so that they have the same value everywhere; an eccentricity prior shows each of its planets with its limit; and the text of a posterior determines the list of its priors.", "quantifier": "all priors of all kinds, parameter names without comma or newline, all numbers that are each written in their own way; all posteriors", "why_tests_cant": "A test compares a few descriptions; that no two different priors share one is a claim over all pairs.", "anchors": ["radvel/prior.py:Gaussian.__repr__", "radvel/prior.py:EccentricityPrior.__repr__", "radvel/prior.py:HardBounds.__repr__", "radvel/prior.py:PositiveKPrior.__repr__", "radvel/prior.py:SecondaryEclipsePrior.__repr__", "radvel/posterior.py:Posterior.__repr__"]}
{"id": "C90", "title": "The example data are those the user names, or those of the package", "statement": "RADVEL_DATADIR is used if it is a directory; otherwise the first of the documented places that exists, without a warning; a package in its source tree uses the data of that tree; and where there are no example data the package can still be imported, with a warning.", "quantifier": "all states of the disk and of the environment, all places of the package, all working directories", "why_tests_cant": "A test runs in one place with one environment; which of several directories wins is a claim over all states of the disk.", "anchors": ["radvel/__init__.py:35-67"]}
{"id": "C91", "title": "A command works on the setup file as it is", "statement": "Whatever was edited, removed and loaded before, a command executes the text its setup file has at that moment; a file that is not there is reported with FileNotFoundError and one that cannot be loaded with ImportError, as load_module_from_file says.", "quantifier": "all histories of edits, removals and commands on a setup file, all texts, all names of files, all states of the compiled copy", "why_tests_cant": "A test loads a file once; that no history of edits makes a command run an older text is a claim over all histories.", "anchors": ["radvel/utils.py:load_module_from_file", "radvel/utils.py:initialize_posterior"]}
{"id": "C92", "title": "cmd_exists tells whether there is such a program", "statement": "cmd_exists answers yes exactly if one of the directories of PATH has a program of that name that may be executed.", "quantifier": "all values of PATH, all commands, all states of the disk", "why_tests_cant": "A test asks for one or two commands in the PATH of one machine.", "anchors": ["radvel/utils.py:cmd_exists"]}
{"id": "C93", "title": "The comparison in tables and reports is the one that was made", "statement": "The text radvel ic writes into the status file is read back by tables and report as the same list of models, with the same names, labels, numbers and descriptions in the same order, whatever the status file held before.", "quantifier": "all comparisons: any number of models, rows and labels, any texts of one line including quotes and backslashes, all numbers; all status files that can be read", "why_tests_cant": "The labels contain backslashes and dollars and the value goes through str(), configparser and eval(); a test tries one comparison.", "anchors": ["radvel/driver.py:458-459", "radvel/driver.py:513", "radvel/driver.py:733", "radvel/fitting.py:106-166"]}
{"id": "C94", "title": "The text of a parameter or kernel tells what it is", "statement": "Parameters with the same text are the same parameters, and kernels with the same text are of the same kind and have the same hyper-parameters.", "quantifier": "all parameters and kernels, with or without values; all ways of writing numbers in which different numbers are written differently, without comma or line break and never as None", "why_tests_cant": "A test compares the text of one object with one expected text; that no two objects share a text is about all pairs.", "anchors": ["radvel/model.py:55-66", "radvel/gp.py:111-114", "radvel/gp.py:194-200", "radvel/gp.py:283-293", "radvel/gp.py:441-451"]}
{"id": "C95", "title": "The figure of a fit with Gaussian processes has the panels asked for", "statement": "GPMultipanelPlot.plot_multipanel makes exactly the panels its options ask for (one for all data or one for each likelihood, the residuals, the planets unless nophase), in order, under successive letters, each in its own cell, and returns them.", "quantifier": "all numbers of likelihoods, planets, rows and columns with cells enough; all values of the options; any axes already listed", "why_tests_cant": "The numbers of likelihoods, planets and grid cells are unbounded, and tests of figures look at no panels.", "anchors": ["radvel/plot/orbit_plots.py:700-823", "radvel/plot/orbit_plots.py:432-520", "radvel/plot/orbit_plots.py:74-81"]}
{"id": "C96", "title": "The rows of the comparison table have the columns of its head", "statement": "Every row of the comparison table has one column for each entry of its model under the heading of that entry, reading what the entry says, the column of free parameters listing those of the model; head, rows and column definitions have the same number of columns.", "quantifier": "all comparisons: any number of models and entries, all values, messages and differences; all ways of writing numbers without &", "why_tests_cant": "The number of models and entries is unbounded and a table that is off by a column still compiles.", "anchors": ["radvel/report.py:466-478", "radvel/report.py:487-519"]}
