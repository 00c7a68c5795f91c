#!/usr/bin/env python3
"""Regenerates /verif/properties.jsonl.  Edit the list P below and re-run."""
import json, os
WB = "pyrichlet/weight_models/_base.py"
W = "pyrichlet/weight_models/"
MB = "pyrichlet/mixture_models/_base.py"
MU = "pyrichlet/mixture_models/_utils.py"
P = []
def p(title, statement, quantifier, why, anchors):
    P.append(dict(id="C%02d" % (len(P) + 1), title=title, statement=statement,
                  quantifier=quantifier, why_tests_cant=why, anchors=anchors))

H = "every sequence of API calls (random, complete, tail, fit, reset, assignation_log_likelihood, random_assignment) with any arguments, including calls that raise, and every sequence of generator draws"
# ---------------------------------------------------------------- weights
p("Weights are always a sub-probability vector",
  "For each of the ten weight models, after any history of calls starting from a freshly built object, get_weights() has no negative entry and its entries add up to at most 1 (BetaInBeta: provided the constructor argument p is in [0,1]).",
  "all ten classes, all constructor parameters, " + H,
  "depends on every possible sequence of draws and calls, including after exceptions",
  [WB+":BaseWeight", W+"_dirichlet_process.py:DirichletProcess", W+"_pitman_yor_process.py:PitmanYorProcess", W+"_beta_bernoulli.py:BetaBernoulli"])
p("Weights are the stick-breaking image of the stick lengths",
  "Whenever a stick-breaking model returns from random/complete/tail with a positive size, w[j] = v[j] * prod_{i<j}(1 - v[i]) for all j, so that sum(w) = 1 - prod(1 - v): the mass not yet assigned is exactly the product of the remaining sticks.",
  "all stick vectors of any length; all seven stick-breaking classes",
  "identity over all lengths and all draws", [W+"_dirichlet_process.py:random,complete", W+"_geometric_process.py:complete"])
p("complete(size) only appends",
  "On an object whose last draw succeeded with a positive size, complete(size) leaves every existing weight untouched, returns/stores at least `size` weights, never shortens, and complete(size) twice in a row equals once.  Exceptions that the theorem names: the fixed-size models (Dirichlet distribution, Equal, Frequency) ignore size; BetaBernoulli().complete(1) on a fresh object raises IndexError; BetaInDirichlet.complete returns None.",
  "all growing classes, all sizes, all coherent states, all draws", "all sizes, all histories", [WB+":BaseWeight.complete", W+"_dirichlet_process.py:complete", W+"_beta_bernoulli.py:complete", W+"_beta_in_dirichlet.py:complete"])
p("tail(x) reaches mass x",
  "For every class except GeometricProcess, if tail(x) returns then the stored weights sum to at least x, extend the weights present at the call (growing classes) and x was in [0,1); otherwise ValueError and the object is unchanged.  The documented strict inequality ('sum is greater than x') fails when a partial sum equals x.",
  "all x, all states, all draws, any number of loop iterations", "unbounded loop over random draws", [WB+":BaseWeight.tail"])
p("GeometricProcess.tail(x) reaches mass x",
  "Documented: after GeometricProcess.tail(x) the weights sum to more than x.  The code truncates log(1-x)/log(1-p) downwards, so the sum can fall short; what does hold is that adding the next geometric weight reaches x, and the full contract holds exactly when (1-p)^n = 1-x for an integer n or more weights than needed were already stored.",
  "all p in (0,1), all x in [0,1)", "needs all real x and p; a tolerance-based test hides it", [W+"_geometric_process.py:tail"])
p("tail(x) terminates exactly when the sticks eventually leave less than 1-x",
  "For the stick-breaking models tail(x) returns if some prefix of the draws leaves remaining mass at most 1-x, and loops for ever (for any number of iterations) if no prefix does, e.g. if every drawn stick is 0.  The fixed-size models return after zero or one iteration.",
  "all x in [0,1), all infinite draw sequences", "non-termination cannot be observed by a test", [WB+":BaseWeight.tail", W+"_dirichlet_process.py:complete"])
p("Slice truncation loses no component",
  "After tail(1 - min(u)) returns, any weight that could later be appended by complete is at most min(u): no component outside the truncation can have weight above any slice variable u_i, so restricting the assignment step to stored components is exact.",
  "all slice vectors, all later completions and draws", "quantifies over all infinite continuations of the weights", [MB+":_update_weights", WB+":tail"])
p("DirichletProcess posterior parameters",
  "After fit(d), random() requests exactly the draws V_j ~ Beta(1 + #{i: d_i = j}, alpha + #{i: d_i > j}), j = 0..max(d), in this order, and nothing else; with size <= max(d) the first `size` of them, with a larger size followed by size - max(d) - 1 prior draws Beta(1, alpha).",
  "all assignment vectors d of any length, all sizes, any prior state", "all inputs; tests only check moments of the prior", [W+"_dirichlet_process.py:random"])
p("PitmanYorProcess posterior parameters",
  "After fit(d), random() requests V_j ~ Beta(1 - pyd + n_j, alpha + j*pyd + n_{>j}) for j = 0..max(d); complete appends Beta(1 - pyd, alpha + j*pyd) with j the absolute index of the new stick.  The constructor accepts parameters (alpha in (-pyd, 0]) for which the first prior draw always raises ValueError.",
  "all d, all sizes, all parameters", "all inputs", [W+"_pitman_yor_process.py:random,complete,__init__"])
p("GeometricProcess posterior parameters",
  "After fit(d), random() requests the single draw p ~ Beta(a + len(d), b + sum(d)) and stores w_j = p (1-p)^j for j = 0..max(d) (or up to the requested size).",
  "all d, all sizes >= 1, all parameters, all draws", "all inputs", [W+"_geometric_process.py:random,complete"])
p("DirichletDistribution posterior parameters",
  "After fit(d) with max(d) < len(alpha), random() requests one Dirichlet(alpha_j + #{i: d_i = j}) draw of dimension len(alpha); if max(d) >= len(alpha) it raises ValueError and leaves the weights unchanged.",
  "all d, all alpha vectors", "all inputs", [W+"_dirichlet_distribution.py:random"])
p("BetaBinomial posterior parameters",
  "After fit(d), random() draws latent binomials B_0..B_{m+1} (m = max(d)) with parameters n and then V_j ~ Beta(1 + n_j + B_j + B_{j+1}, alpha + n_{>j} + 2n - B_j - B_{j+1}); these parameters are always positive when alpha > 0, so no draw can be rejected.",
  "all d, all n >= 0, alpha > 0, all draws", "all inputs and draws", [W+"_beta_binomial.py:random,_random_binomials"])
p("BetaInBeta with x = 0 is the Dirichlet process",
  "With x = 0, BetaInBeta issues the same Beta requests as DirichletProcess for every call and ends with the same weights, sticks and outcome given the same draws, in every history whose random() sizes are None or a Python int.  (Other sizes differ: random(np.int64(k)) works on BetaInBeta and raises TypeError on DirichletProcess.)",
  "all call histories and draws", "equivalence over all histories", [W+"_beta_in_beta.py:BetaInBeta"])
p("BetaInBeta with x = 1 is the geometric process",
  "Intended limit: with x = 1 all sticks are equal.  Violated: complete tests len(self.v == 0) (i.e. len(v)) instead of len(v) == 0, so on a fresh object the sticks are the initial p = 0 (all weights 0) and every later complete redraws p, giving unequal sticks.  What holds: one fitted random() gives equal sticks.",
  "all sizes and draws", "the violation needs a particular call sequence", [W+"_beta_in_beta.py:complete,random_p"])
p("BetaBernoulli limits p = 1 and p = 0",
  "With p = 1 every stick is a fresh independent Beta draw (Dirichlet process posterior); with p = 0 all sticks are equal to one Beta draw.",
  "all d, all sizes, all valid generators", "all inputs", [W+"_beta_bernoulli.py"])
p("BetaBernoulli.random never fails on valid parameters",
  "Documented domain: p in [0,1], alpha > 0, any fitted d.  Violated: for 0 < p < 1 and max(d) >= 2, whenever the generator proposes 0 for the last indicator, random() raises ValueError (binomial called with NaN, from inf/inf); random(0) raises IndexError and leaves the object unusable for random.  Whenever every label up to max(d) occurs, that is the only failure: if max(d) <= 1 or the last proposal is 1, random() succeeds; and it cannot fail for p = 0 or p = 1 with size >= 1 (C15).",
  "all d, all p, all draws", "needs reasoning about inf/NaN propagation over all draws", [W+"_beta_bernoulli.py:_random_bernoullis,random"])
p("BetaInDirichlet internal bookkeeping and a = 0 limit",
  "No call, from any state, raises IndexError.  After every successful random() on a fitted object there is one latent label per component, every label indexes an existing base stick, the counts list counts the labels per base stick, the sticks are the labelled base sticks, and with a = 0 all sticks share one value.  (Between draws labels of earlier draws may be left over and point outside.)  With a > 0 and all observations in group 0, random() always raises ValueError (maximum of an empty array).",
  "all histories, all draws", "history-dependent latent state", [W+"_beta_in_dirichlet.py:random,complete"])
p("Length of random(size)",
  "For every class the exact number of weights after random(size) is the documented `size` only for some classes: the theorem gives the exact length for each class, fitted or not, and for every size >= 1, and shows which classes ignore size.",
  "all classes, sizes, fitted vectors, draws", "all inputs", [W+"*.py:random", WB+":BaseWeight.random"])
p("random without size on an unfitted model raises and changes nothing",
  "For the seven stick-breaking classes, random() with no size and no fitted data raises ValueError and leaves all observable state unchanged; no draw is consumed.",
  "all states with empty d", "all states", [W+"*.py:random"])
p("Refitting replaces, reset forgets",
  "For DirichletProcess, PitmanYor, Geometric, DirichletDistribution, Equal, Frequency and BetaBinomial the outcome of random(size>=1) after fit(d) depends only on d, the parameters and the generator state, not on earlier calls; after reset() it is the prior draw.  BetaInDirichlet violates this: latent labels of earlier calls survive reset and refit.",
  "all pairs of histories ending in fit(d)", "relational property over all histories", [WB+":fit,reset", W+"_beta_in_dirichlet.py"])
p("random_assignment is exact inverse-CDF sampling",
  "In exact arithmetic each returned label j satisfies cum_{j-1} < u <= cum_j (with cum_{-1} = -1), is a valid component index, has positive weight whenever u > 0, and the set of u producing j is an interval of length w_j/sum(w).  In IEEE double arithmetic the label can be out of range (witness), and random_assignment() without size always raises.",
  "all non-negative weight vectors with positive sum, all u in [0,1)", "distributional statement over all u", [WB+":random_assignment,get_normalized_cumulative_weights"])
p("Normalised weights",
  "get_normalized_weights() is proportional to get_weights(), non-negative and sums to 1; get_normalized_cumulative_weights() is non-decreasing and ends in 1, whenever the weights have positive sum.",
  "all reachable weight vectors with positive sum", "all inputs", [WB+":get_normalized_weights,get_normalized_cumulative_weights"])
p("assignation_log_likelihood",
  "Returns sum_i log w[d_i] after extending the weights so that every d_i has one; it is -inf exactly when some assigned weight is 0, never positive otherwise, and for the growing classes never raises IndexError (except a fresh BetaBernoulli asked for label 0 only, which does).  For the fixed-size classes it raises IndexError when max(d) is beyond the size.",
  "all d, all states, all draws", "all inputs", [WB+":assignation_log_likelihood"])
p("Stick recovery in weighting_log_likelihood",
  "The sticks reconstructed from the weights by weighting_log_likelihood (v = w_j / prod_v) are exactly the sticks that generated the weights, whenever all sticks but the last are different from 1; so the value is sum_j log Beta-density(v_j) with the parameters of the class.  An earlier stick equal to 1 gives NaN; without weights IndexError is raised.",
  "all stick vectors of any length", "all lengths", [W+"_dirichlet_process.py:weighting_log_likelihood", W+"_pitman_yor_process.py:weighting_log_likelihood", W+"_beta_in_beta.py:weighting_log_likelihood"])
p("Generator argument",
  "rng=None, an int or a numpy Generator is accepted, everything else (bool, numpy integer, RandomState) raises TypeError.  A negative int raises ValueError.  A Generator is shared between mixture and weight model; an int seed gives both the same stream from the start, so the first mixture draw and the first weight draw use the same bits.",
  "all arguments", "all inputs", ["pyrichlet/utils/validators.py:rng_parser", "pyrichlet/mixture_models/_dirichlet_process_mixture.py"])
# ---------------------------------------------------------------- variational weights
p("Variational and Gibbs posteriors agree on hard assignments",
  "Fitting variationally with one-hot responsibilities of d gives the same Beta/Dirichlet parameters as the Gibbs draw after fit(d): true for DirichletProcess and DirichletDistribution; false for PitmanYor (second parameter larger by pyd) and GeometricProcess (first parameter smaller by 1).",
  "all d, all truncation levels above max(d)", "all inputs", [W+"_dirichlet_process.py:fit_variational", W+"_pitman_yor_process.py:fit_variational", W+"_geometric_process.py:fit_variational"])
p("Variational mean weights form a distribution",
  "After fit_variational the values variational_mean_w_j, j < k, are non-negative and sum to exactly 1 for DirichletProcess, DirichletDistribution, EqualWeighting and (with at least as many observations as groups) FrequencyWeighting; with fewer observations than groups FrequencyWeighting's values sum to the share of the first N rows only; for PitmanYor and Geometric they sum to 1 minus the explicitly given missing mass.",
  "all responsibility matrices with non-negative entries, all k >= 1", "all inputs and sizes", [W+"_dirichlet_process.py:variational_mean_w_j", W+"_pitman_yor_process.py:variational_mean_w_j"])
p("Variational mean weight outside the truncation",
  "Documented: w_j has mean 0 for j >= k.  Holds for DirichletProcess, Equal, and for Frequency from j = number of observations on (between the number of rows and the number of observations it raises IndexError); DirichletDistribution and PitmanYor raise IndexError at j = k; GeometricProcess returns 1.",
  "all j, all fitted states", "boundary for all k", [W+"*.py:variational_mean_w_j"])
p("Geometric variational mean weight is the expectation",
  "Documented: variational_mean_w_j is the expected j-th weight under q.  GeometricProcess returns E[p](1-E[p])^j, which equals E[p(1-p)^j] for j = 0, but for j = 1 is always strictly larger, by exactly the variance of p.",
  "all parameters and responsibilities", "analytic statement", [W+"_geometric_process.py:variational_mean_w_j"])
p("Variational mode weights",
  "variational_mode_w_j is in [0,1] whenever it returns a number, raises ValueError exactly in the multimodal cases, and for DirichletProcess the modes over j < k sum to 1.",
  "all parameters", "all inputs", [W+"*.py:variational_mode_w_j"])
p("Expected log weights are log-probabilities",
  "For any strictly increasing digamma, variational_mean_log_w_j <= 0 for DirichletProcess, PitmanYor, Geometric and DirichletDistribution, and variational_mean_log_p_d__w equals sum_j n_j * variational_mean_log_w_j for DirichletProcess, PitmanYor, DirichletDistribution.  Violations: EqualWeighting's variational_mean_log_p_d__w has the wrong sign; GeometricProcess drops the factor j; FrequencyWeighting returns the frequency instead of its logarithm; DirichletDistribution's value is not E log w_j (it is strictly smaller than psi(p_j) - psi(sum p), and negative even for n = 1 where w_0 = 1).",
  "all parameters and responsibilities", "all inputs", [W+"*.py:variational_mean_log_w_j,variational_mean_log_p_d__w"])
p("Variational statistics before fit_variational",
  "Before fit_variational: mean_log_w_j, mean_log_p_d__w, mean_log_p_w, mean_log_q_w raise NotFittedError for DirichletDistribution, DirichletProcess, PitmanYor, Geometric and Frequency; mean_w_j and mode_w_j raise TypeError instead; EqualWeighting answers, except that mean_log_p_d__w raises NotFittedError.  The other four models raise NotImplementedError for every variational call.",
  "all classes and arguments", "all inputs", [W+"*.py"])
# ---------------------------------------------------------------- mixtures
p("Number of saved Gibbs states",
  "A successful fit_gibbs(warm_start=False) leaves exactly ceil((total_iter - burn_in)/subsample_steps) saved states, and the lists behind get_sim_params, get_n_groups, get_n_theta and the saved-steps counter all have that length; warm starts add to it.",
  "all iteration settings (subsample_steps >= 1), all histories of fits, all draws", "all integers, all histories", [MB+":fit_gibbs,_save_params"])
p("Affinity matrix is the co-clustering frequency",
  "After a successful fit_gibbs(warm_start=False) on any object, followed by any warm starts and variational fits, successful or failing, gibbs_eap_affinity_matrix() has entry (i,k) = (number of saved states with d_i = d_k)/(number of saved states): symmetric, unit diagonal, entries in [0,1].  A failing fit_gibbs(warm_start=False) followed by a failing warm start breaks it: the object still counts as fitted, a state of the right size is saved, and the matrix is all NaN with the wrong size.",
  "all histories of fits and warm starts, all draws", "accumulated over all histories", [MB+":gibbs_eap_affinity_matrix,_save_params"])
p("MAP state is the best visited state",
  "After any successful fit_gibbs, the MAP log likelihood is the maximum of the one held before the fit (-inf for a new object) and the non-NaN log likelihoods of all states visited by the fit (initial state of a cold start and burn-in included), and the MAP parameters are those of the first visited state attaining it; if none exceeds the old one the old parameters stay, except that at -inf the last visited state is taken.",
  "all runs of any length, all likelihood sequences including NaN and -inf", "all likelihood traces", [MB+":_update_map_params,fit_gibbs"])
p("A fresh fit forgets earlier fits",
  "Documented: warm_start=False starts over and deletes saved states.  Holds for data, labels, atoms, slices, saved states, counters and affinity: the result of a successful cold fit does not depend on them.  Violated: the MAP state and its likelihood survive (a refit on other data can keep returning the old MAP), and priors derived from the first data set are reused.",
  "all pairs of fits", "relational over histories", [MB+":_initialize_gibbs_params,_initialize_common_params"])
p("Labels always index existing weights",
  "After every Gibbs sweep, for every weight model, every label d_i is smaller than the number of stored weights, so the next sweep's slice update w[d] and the likelihood never go out of range.  Not so in the first sweep of a refit: fit_gibbs on a larger data set after an earlier fit (FrequencyWeighting), and a warm start after fit_variational with fewer groups (EqualWeighting), can raise IndexError.",
  "all weight models, all sweeps, all draws", "invariant over unbounded runs", [MB+":_gibbs_step,_update_d,_update_weights"])
p("Assignments respect the slice",
  "In each sweep, an observation whose slice variable is below some component's weight is assigned to a component with w_j > u_i (finite component log densities).  Because the code draws u_i in [eps, w + eps) the slice can exceed every weight, in which case the label is 0 whatever its weight.",
  "all draws", "all draws; the violating region has measure ~1e-16", [MB+":_update_weights,_update_d,_d_log_likelihood_vector"])
p("Saved states are self-contained",
  "Every saved Gibbs state has an atom for each of its weights and labels below their number, so gibbs_eap_density (for components that exist in every saved state) and gibbs_eap_affinity_matrix(y) never raise KeyError.  The MAP state may not: if the initial state stays the best, gibbs_map_density and gibbs_map_cluster raise KeyError.",
  "all runs, all draws", "all histories", [MB+":_save_params,_get_run_params,_update_map_params", MU+":mixture_density"])
p("Atom bookkeeping",
  "During a run get_n_theta() is non-decreasing, get_n_groups()[t] <= get_n_theta()[t] and get_n_groups()[t] <= number of observations; each sweep redraws the atom of every occupied component from the posterior given exactly its observations, and leaves existing atoms of unoccupied components unchanged.",
  "all runs, all draws", "invariant over runs", [MB+":_update_atoms,_save_params"])
p("Conjugate normal-inverse-Wishart update",
  "Updating the prior with a batch equals updating sequentially with any split of it, does not depend on the order of observations, gives lambda+n, nu+n, adds the sum of the data to lambda*mu and the sum of outer products to psi+lambda*mu*mu^T, and keeps the scale matrix symmetric and positive definite.",
  "all data of any size and dimension, all priors with lambda > 0", "all sizes and dimensions", [MU+":posterior_norm_invw_params"])
p("Variational atom update equals the conjugate update",
  "For any responsibilities r_j with non-zero mass n_j, _update_var_theta gives group j the mean, lambda and degrees of freedom of the conjugate update with fractional counts r_j (with 0/1 responsibilities those of the posterior of the selected rows).  The matrix it inverts is psi + S/n_j + c|xbar-mu|^2 in every entry, instead of the conjugate psi + S + c(xbar-mu)(xbar-mu)^T: in dimension 1 it is right exactly when n_j = 1 or the group has no spread, and there are 2-dimensional data for which it is wrong.  It is symmetric, and positive definite when psi is and lambda > 0.  A group of mass zero gets NaN.  After a successful fit_variational on data with at least one row, with total_iter >= 1, every stored atom is that update of the stored responsibilities.",
  "all data and hard assignments", "all inputs", [MB+":_update_var_theta", MU+":posterior_norm_invw_params"])
p("EAP density",
  "gibbs_eap_density is the arithmetic mean over the last min(periods, saved) saved mixtures (all of them when periods is None) for periods >= 1, and each of these is the weighted sum of the component densities.  Densities (EAP and MAP) are non-negative after any history of fits.  The density of a mixture is the sum of what component=0, 1, ... return, and so is the average when all saved mixtures have the same number of components; asking for a component that one of the averaged states lacks fails.  periods=0 silently uses all saved states and periods=-k drops the k oldest.",
  "all periods, all saved histories, all density functions", "all inputs", [MB+":gibbs_eap_density", MU+":mixture_density"])
p("Clustering labels",
  "gibbs_map_cluster assigns every row its first most probable component (component 0 with a NaN uncertainty when all joint densities are zero), and returns contiguous labels 0..g-1 ordered like the component indices, equal exactly for equal components, with uncertainties one minus the probability of that component, in [0, 1 - 1/k].  The labels are ranks, not component indices (so using them to index components, as gibbs_map_pairplot does, picks wrong ones).  A single row always fails.  gibbs_eap_affinity_matrix(y) is the fraction of saved states whose clustering puts two rows in the same component.",
  "all numbers of components and observations", "all inputs", [MU+":cluster", MB+":gibbs_map_cluster,gibbs_map_pairplot"])
p("Size-biased k-means relabelling",
  "kmeans_cluster_size_biased renames the clusters bijectively to 0..g-1 so that larger clusters get smaller labels, whatever order ties are sorted in.",
  "all k-means outputs, every valid argsort", "all inputs and tie orders", [MU+":kmeans_cluster_size_biased"])
p("Gumbel-max sampling",
  "For log-probabilities that are finite or -inf and uniforms in (0,1), gumbel_max_sampling returns the winner of the exponential race with rates p_j = exp(logp_j) (first index among ties); hence an index with p_j > 0 if there is one, and the volume of the part of the unit cube mapped to index j is p_j / sum(p).  A NaN log-probability always wins, and a uniform equal to 0 (numpy draws from [0,1)) can select an impossible index.",
  "all log-probability vectors, all uniforms", "distributional statement", [MU+":gumbel_max_sampling"])
p("Fitted flags guard the queries",
  "Gibbs queries raise NotFittedError until a fit_gibbs has succeeded and never afterwards; the same for variational queries and fit_variational; neither kind of fit enables the other (except init_method='variational').",
  "all histories of fits (successful or failing) and queries", "all histories", [MB+":gibbs_*,var_*"])
p("A failing fit leaves earlier results usable",
  "Expected: an exception in fit_* leaves earlier results intact.  Violated: a cold fit_gibbs with an unknown init_method replaces the data and deletes saved states while gibbs_fitted stays True; fit_variational without n_groups replaces the data.  Data of an unsupported type change nothing.",
  "all states", "exception paths over all states", [MB+":fit_gibbs,fit_variational,_initialize_gibbs_params"])
p("Variational loop and convergence flag",
  "For a finite tol, fit_variational performs at least one (if total_iter >= 1) and at most total_iter iterations and stops at the first whose ELBO change is not greater than tol.  var_converged is True afterwards iff it was True before or fewer than total_iter iterations were made: a NaN ELBO counts as converged (if total_iter >= 2) and the flag is never reset.",
  "all ELBO sequences including NaN/inf, all tol and total_iter", "all traces", [MB+":fit_variational"])
p("Responsibilities are probability vectors",
  "For scores that are finite or -inf, at least one finite, _update_var_d returns strictly positive responsibilities with sum 1, each at least eps/(k(1+eps)), ordered as the scores and within k*eps of softmax; their argmax is the first best group.  For any other scores every responsibility is NaN.  The score is the expected log joint density exactly when the Frobenius norm of the precision equals its determinant (always in dimension 1).  The mean-centred variant of var_map_cluster(y) gives probabilities and the same label as long as no score exceeds the mean by more than the overflow threshold of exp; beyond it the label is the first overflowing group, which can be a wrong one, and entries are NaN.",
  "all score matrices, including infinite and NaN scores", "all inputs", [MB+":_update_var_d,var_map_cluster,var_eap_affinity_matrix"])
p("Variational affinity matrix",
  "After a successful fit_variational with k >= 1 groups and total_iter >= 1, var_eap_affinity_matrix() is symmetric, has entries in (0,1], its diagonal entry is at least 1/k, and it is positive semidefinite; var_eap_affinity_matrix(y) has the same properties for two-dimensional arrays and data frames and fails for list and one-dimensional inputs.",
  "all responsibility matrices", "all inputs", [MB+":var_eap_affinity_matrix"])
p("Variational MAP clustering",
  "After a successful fit_variational with k >= 1 groups and total_iter >= 1, var_map_cluster() returns for every row the first index of its largest responsibility; with full=True the second result is 1 minus that responsibility, in [0, 1-1/k].  For explicit y the labels are the first index of the largest entry of the responsibilities computed for y (see C50 for overflow), but the second result is a matrix (row i is row label_i of the responsibilities), not uncertainties.",
  "all responsibility matrices", "all inputs", [MB+":var_map_cluster"])
p("Variational densities are Gaussian/Student densities",
  "density_normal and density_students_t equal the normal and Student densities times sqrt(|P|_F/det P): they are right exactly when the Frobenius norm of the precision is its determinant (always in dimension 1; for the identity in dimension k >= 2 the value is too large by k^(1/4)).  With a list dim, var_map_density and var_eap_density return per row the sum over components of the weight times that density at the subvector of the mean and the submatrix of the precision; taking the submatrix of the precision is the right marginal of two coordinates exactly when they are uncorrelated.  var_eap_density without dim uses all columns.  var_map_density() with default dim, and both with an integer dim, always raise.",
  "all inputs", "analytic statement over all arguments", ["pyrichlet/utils/functions.py:density_normal,density_students_t", MB+":var_map_density,var_eap_density"])
p("Input shapes",
  "Lists and arrays (1-D or 2-D) and data frames are accepted for fitting and stored as an (n, d) matrix, 1-D input becoming one feature; any other type gives TypeError and changes nothing.  A pandas Series is accepted by type, but fitting it raises IndexError when nu_prior is None and variational fits of it (total_iter >= 1) never succeed; with nu_prior given a random-start fit_gibbs succeeds, yet all queries reject a Series.  A single observation makes fit_gibbs fail (when burn_in < total_iter).",
  "all input shapes", "all shapes", [MB+":_initialize_common_params,_cast_observations,_d_log_likelihood_vector", MU+":cluster"])
p("Dirichlet EPPF addition rule",
  "exp(dirichlet_log_eppf) is a consistent exchangeable partition probability function: symmetric in the block sizes, p(1) = 1 and p(n_1..n_k) = sum_j p(..n_j+1..) + p(n_1..n_k,1); it equals Ewens' formula alpha^k prod (n_j-1)! / (alpha(alpha+1)..(alpha+n-1)).",
  "all partitions, all alpha > 0, any Gamma function satisfying the recurrence", "all partitions", ["pyrichlet/utils/functions.py:dirichlet_log_eppf"])
p("Rejection sampling",
  "rejection_sample without size returns the x of the first proposal (x,y), drawn as a fresh pair, with y <= f(x), and runs for ever exactly if there is none; x is in [a,b).  With an integer size every returned x has a y in [0,max_y) with y <= f(x), but some accepted pairs were not drawn together (y kept from a rejected proposal).",
  "all f, all draws, any number of rejections", "unbounded loop", [MU+":rejection_sample"])
p("Iteration settings",
  "The constructor rejects total_iter <= burn_in; with integer settings and subsample_steps >= 1 at least one state is saved.  Settings are truncated towards zero: with fractional settings whose integer parts coincide nothing is saved, and with subsample_steps truncated to 0 no fit succeeds (unless nothing is to be saved).",
  "all settings", "all inputs", [MB+":__init__,fit_gibbs"])
p("Mixtures over models without variational support",
  "fit_variational on BetaInBeta, BetaInDirichlet, BetaBernoulli and BetaBinomial mixtures never succeeds when started cold or when total_iter truncates to at least 1 (AttributeError without n_groups; NotImplementedError for k-means initialisation with a valid n_groups) and then no history of fits marks the model as fitted.  With total_iter = 0, burn_in = -1 a warm start marks it as fitted.",
  "all arguments", "all inputs", [MB+":fit_variational,_initialize_variational_params", WB+":fit_variational"])
p("BetaBinomial weighting_log_likelihood",
  "For a BetaBinomial with two or more sticks the terms added are log BetaBinomial(b_0) and, for j >= 1, log Beta(v_j; 1+b_{j-1}, alpha+n-b_{j-1}) and log Binomial(b_j; n, v_j): the first stick is never looked at and every other stick is paired with the previous binomial, so the value is not the log-density of the chain; with one stick it is.",
  "all reachable states of any length", "all lengths", ["pyrichlet/weight_models/_beta_binomial.py:weighting_log_likelihood"])
p("BetaBernoulli weighting_log_likelihood",
  "For a BetaBernoulli the terms added are bernoulli_j*log(p) for every indicator, log Beta(v_0; 1, alpha), and log Beta(v_j; 1, alpha) for exactly the sticks that were copied (indicator 0); the sticks drawn anew contribute nothing.",
  "all reachable states of any length, all p <> 0", "all lengths", ["pyrichlet/weight_models/_beta_bernoulli.py:weighting_log_likelihood"])
p("Expected log-densities of the variational weights",
  "With any digamma and any log-gamma satisfying lgamma(1)=0, lgamma(x+1)=ln x+lgamma(x): variational_mean_log_q_w is the expected log-density of the fitted Beta/Dirichlet distribution for DirichletProcess (first k-1 sticks), PitmanYor, Geometric and DirichletDistribution (with the class's own expected logs).  variational_mean_log_p_w is the expected prior log-density for Geometric; for DirichletProcess it is too large by log(alpha), for PitmanYor too small by sum_j log(alpha+(j+1)pyd), and for DirichletDistribution it multiplies every expected log by sum(alpha)-1 instead of alpha_j-1.",
  "all parameters, all responsibility matrices", "analytic identity for all sizes", ["pyrichlet/weight_models/*.py:variational_mean_log_p_w,variational_mean_log_q_w"])
p("BetaInBeta draws for 0 < x < 1",
  "For 0 < x < 1 a fitted BetaInBeta draw renews p (not at all, from Beta(a,b), or from Beta(a+n, b+sum d), depending on p_method), draws stick j from Beta(1 + x/(1-x) p + n_j, alpha + x/(1-x)(1-p) + n_{>j}), renews p a second time, and draws the remaining sticks from Beta(1 + x/(1-x) p', alpha + x/(1-x)(1-p')).  An unfitted draw uses the stored p for all sticks; an unfitted complete() draws a new p for the new sticks only.",
  "all 0 < x < 1, all labels, all sizes >= 1, p_method static/independent/geometric", "all lengths and draws", ["pyrichlet/weight_models/_beta_in_beta.py:random,complete,random_p"])
p("BetaBernoulli chains for any p",
  "For any p in [0,1], BetaBernoulli.complete and the unfitted random draw one indicator per new stick and exactly one fresh Beta(1, alpha) per indicator 1 (plus one initial stick for random); each new stick equals its predecessor when its indicator is 0 and is the next fresh draw when it is 1.",
  "all p in [0,1], all sizes, all draws", "all lengths and draws", ["pyrichlet/weight_models/_beta_bernoulli.py:random,complete"])
p("Weights are sub-probabilities after any history",
  "After any history of fits (successful or not, any data) of any mixture class, the current weights, the weights of every saved state and those of the MAP state are non-negative with sum at most one.",
  "all classes and valid parameters, all histories, all draws", "all histories and draws", [MB+":fit_gibbs,fit_variational,get_sim_params", "pyrichlet/weight_models/*.py:random,complete,tail"])
p("Marginal densities look at the first column only",
  "With dim=i (an integer) the density methods evaluate the i-th marginal of every component at column 0 of the data instead of column i: all other columns are ignored, so the result is not the i-th marginal density of the data for i >= 1.",
  "all data matrices, all mixtures, all i", "all inputs", ["pyrichlet/mixture_models/_utils.py:mixture_density", MB+":gibbs_eap_density,gibbs_map_density"])
p("What the reported lower bound is",
  "For atoms whose precision has Frobenius norm equal to its determinant (always in dimension 1), groups of non-zero mass and finite weight terms, _calc_elbo differs from the evidence lower bound of the model by exactly sum_j T_j(1/n_j - 1) + (E log q(w) - E log p(w)) - sum_j (d + H_j/2), where T_j is the data term of group j, n_j its mass, H_j the entropy of its Wishart factor: every group's data term is divided by its mass, the weight terms cancel, and the entropy of the atoms has the wrong scale and constant.  The value does not depend on the expected log density of q(w), nor on that of p(w) if finite; if the latter is infinite or NaN the result is NaN.",
  "all data, responsibilities, atoms, priors and weight terms", "analytic identity for all sizes", [MB+":_calc_elbo,_e_q_log_p_x,_e_log_p_theta,_e_log_q_theta,_e_loq_q_w", MU+":entropy_wishart,log_wishart_normalization_term"])
p("Priors derived from the first data set",
  "A fit that gets usable data and has no mu_prior/psi_prior/nu_prior sets them to the column means, to the unbiased sample covariance and to the number of columns (a pandas Series, which is modelled as one-dimensional, is left out for nu); without rows the mean, and with at most one row the covariance, becomes NaN.  Explicit priors and lambda are never changed by any history.  The derived scale is symmetric positive semi-definite, its null directions are exactly those orthogonal to a hyperplane containing all rows, and it is therefore singular whenever there are at most as many rows as columns.  Derived priors do not depend on the order of the rows and transform with y -> a*y+b as mu -> a*mu+b, psi -> a^2*psi.",
  "all data sets and dimensions, all prior arguments, all histories", "all data sets and dimensions", [MB+":__init__,_initialize_common_params,fit_gibbs,fit_variational"])
p("An explicit array given to variational_mean_log_p_d__w",
  "With an explicit array D the stick-breaking classes and DirichletDistribution return sum_ij D_ji * E[log w_j] with the fitted expected logs and change nothing; if D has more rows than the fitted array, DirichletProcess returns -inf (NaN if one of the extra rows sums to 0), PitmanYor and DirichletDistribution raise IndexError.  Geometric gives every row the same log; EqualWeighting uses the number of columns of D only and the number of groups of the fit.  FrequencyWeighting ignores the fit, uses the frequencies of D itself, and keeps D in place of the fitted array, so later variational weights are those of D.  On unfitted objects DirichletProcess, PitmanYor and DirichletDistribution raise NotFittedError, Geometric TypeError, EqualWeighting answers, and FrequencyWeighting answers and counts as fitted for the same query but not for variational_mean_w_j.",
  "all classes, all states, all arrays D", "all arrays and states; the change of state is only visible in later calls", ["pyrichlet/weight_models/*.py:variational_mean_log_p_d__w"])
p("Gibbs fits and variational fits on one object",
  "A variational fit, whether it succeeds or raises, changes no result of an earlier Gibbs fit and none of the answers of the gibbs_ queries about given data and of the getters; queries without data answer for the data of the last fit of either kind.  A Gibbs fit that is not started with init_method='variational' changes no result of an earlier variational fit nor the answers of the variational queries about given data.  Two exceptions: a variational fit of an EqualWeighting mixture sets n of the weight model to the number of variational groups (so later Gibbs weights have another length), and a cold Gibbs fit started with init_method='variational' replaces the variational results.",
  "all classes, states, data, arguments and draws", "state interaction over all histories", [MB+":fit_gibbs,fit_variational,_initialize_gibbs_params", "pyrichlet/weight_models/_equal.py:fit_variational"])
p("The variational weight update is the conjugate one",
  "Given responsibilities D, the fitted Beta/Dirichlet factors of DirichletProcess (last weight takes the rest), PitmanYor and DirichletDistribution are exactly the optimal factors: for all weights, sum_ij D_ji log w_j + log prior kernel = log kernel of the fitted factor.  For DirichletProcess and PitmanYor no other positive Beta parameters give a larger value of the class's own E log p(d|w) + E log p(w) - E log q(w), for any digamma/log-gamma pair for which divergences between Beta distributions are non-negative.  GeometricProcess with at least one observation is short by one: its optimal factor is Beta(x+1, y), not the fitted Beta(x, y); without observations it is the prior.",
  "all parameters, all responsibility matrices, all weights, all alternative parameters", "optimality over a continuum of alternatives", ["pyrichlet/weight_models/*.py:fit_variational"])
p("The responsibilities are the best labels for the scores",
  "For finite scores the value sum_j r_j s_j - sum_j r_j log r_j over all distributions r is at most log sum_j exp(s_j), attained by the softmax; the responsibilities _update_var_d computes (with eps added to every entry) lose at most n*eps*(1+eps*exp(B)) of it, where n is the number of groups and B the spread of the scores.",
  "all scores, all distributions, all eps > 0", "optimality over a continuum of alternatives", [MB+":_update_var_d"])
p("What a pair plot shows",
  "When gibbs_map_pairplot succeeds the data have at least two features and the number u of clusters is not 11.  On the panel of feature i it fills, for every cluster label j < u, in the colour of the rows labelled j, w_j times the marginal normal density of coordinate i of component j of the MAP state on 100 equally spaced points reaching a quarter of the range beyond the data; in black the components u, u+1, ... whose values exceed 1e-4; and draws the marginal mixture density.  The other panels hold the two coordinates of every row and one line for the atom of each component j < u.  So the components shown for the clusters are those of the rows exactly when the components in use are the first ones (otherwise wrong, witness).  Cluster j has the j-th of the ten colours if there are at most ten clusters, else colour floor(10 j / u) (at most the last); so clusters have different colours exactly when there are at most 10.  With 11 clusters it raises IndexError, with any other number it succeeds (given densities and atoms of the right shape); one-feature data raise TypeError; before any fit, or after a Series, IndexError, and with data but no Gibbs fit NotFittedError.",
  "all constructors, histories of fits, oracles, density functions", "pictures are not compared by tests; needs particular numbers of clusters", [MB+":gibbs_map_pairplot"])
p("The dashed lines of a pair plot are contours only without correlation",
  "For every positive definite 2x2 covariance the 100 plotted points exist and the region inside has the area of the density contour at that radius, but all points lie on the contour (constant Mahalanobis distance) if and only if the covariance b is 0: the squared distance at angle t is r^2 (1 + 2 l cos t sin t + l^2 sin^2 t) with l = b/a, or the same with cos^2 t and l = b/c when LAPACK pivots.",
  "all positive definite covariances, means, radii", "geometric property over a continuum", [MB+":gibbs_map_pairplot"])
p("Thinning selects from one chain",
  "A successful fit_gibbs saves exactly the states after sweeps burn_in, burn_in + |subsample_steps|, burn_in + 2|subsample_steps|, ... (from 0) of the chain, never the initial state of a cold start; a warm start appends them to the states saved before.  The chain itself (its states, likelihoods and random requests) does not depend on burn_in and subsample_steps, and on total_iter only through its length: runs with other settings select from the same states, and a longer run extends a shorter one.  Exception: with init_method='variational' total_iter also bounds the variational iterations, so it can change the start of the chain (witness).",
  "all classes, data, objects, settings and random draws", "relates two runs with different settings", [MB+":fit_gibbs,_save_params,_initialize_gibbs_params"])
p("A warm start continues the chain",
  "After a successful fit_gibbs, a successful fit_gibbs(warm_start=True) on the same data (whatever its init_groups, init_method and changed iteration settings) visits exactly the states that a longer first fit would have visited next; its burn_in counts again from there.  So if burn_in is 0 and subsample_steps divides the number of sweeps of the first fit, the saved states, the final state and the random requests are those of one long fit; with burn_in > 0 states in the middle are missing (witness).",
  "all classes, data, objects, settings and random draws", "relates three runs", [MB+":fit_gibbs,_initialize_common_params,_save_params"])
p("Posterior draws follow the exact conditional laws",
  "On a weight model holding labels, every stick that random() draws comes from its exact conditional law: the log density (up to a constant) of the requested Beta law equals the log likelihood of the labels under the stick-breaking weights plus the log prior density.  This holds for DirichletProcess, PitmanYor, Geometric (its single p) and DirichletDistribution, and, given their latent variables, for BetaBinomial (given the counts), BetaInBeta (given p), BetaBernoulli (given the indicators) and BetaInDirichlet (given the base labels, where the sticks of the bases are drawn jointly).  Likewise a Gibbs sweep draws the covariance and mean of each component from the normal-inverse-Wishart law that is proportional to prior times likelihood of the observations of that component.",
  "all parameters, labels, sizes, states and draws", "an equality of densities on the whole unit interval", [W+"_dirichlet_process.py:random", W+"_pitman_yor_process.py:random", W+"_geometric_process.py:random", W+"_dirichlet_distribution.py:random", W+"_beta_binomial.py:random", W+"_beta_in_beta.py:random", W+"_beta_bernoulli.py:random", W+"_beta_in_dirichlet.py:random", MB+":_update_atoms"])
p("Latent updates that are not exact conditionals",
  "The latent variables of four weight models are not drawn from their conditional laws.  BetaInDirichlet: the scores of the base labels are proportional to the exact conditional probabilities (old base: count times v^a(1-v)^b; new base: a times the mean of v^a(1-v)^b under Beta(1, alpha)) if and only if alpha = 1; the stick of a newly opened base is drawn from the prior although positions already use it (witness).  BetaInBeta: with p_method 'geometric' or 'independent' the law of p is proportional neither to the conditional given the labels nor to the one given the labels and the stick.  BetaBinomial: for a single label 0 the first latent stick is drawn from its prior, which is not proportional to its conditional.  BetaBernoulli: an indicator is drawn with probability 12/13 where the conditional probability is 5/11, and the last indicator is never updated given the labels (witnesses).",
  "the scores and the first three negative claims: all parameters, states and draws; the others are witnesses", "compares laws, not samples", [W+"_beta_in_dirichlet.py:random", W+"_beta_in_beta.py:random_p", W+"_beta_binomial.py:random", W+"_beta_bernoulli.py:_random_bernoullis"])
p("The slice update of a label is reversible up to eps",
  "A Gibbs sweep requests, for each observation with label i, a slice uniform on (eps, w_i + eps), eps = 2^-52, and then picks the new label by Gumbel-max from scores that are the log likelihoods f_j of the components with w_j above the slice and -inf elsewhere; under i.i.d. uniforms the label j then has probability f_j / (sum of f over the components above the slice), and label 0 is taken when no weight lies above.  The kernel so defined is a probability (exists, unique, rows sum to one).  Were eps zero it would be reversible and leave the conditional law proportional to w_j f_j invariant.  With eps it is not: the flows between two components differ by at most eps times the larger likelihood, and one step moves the mass of a component by at most eps times the sum of the pairwise larger likelihoods; the flow from a lighter component other than 0 to a heavier one (of weight above eps) is strictly too large, with two components of weights w_1 < w_0 the target is strictly not invariant, and a component other than 0 whose weight is at most eps is never chosen at all.",
  "all numbers of components, positive weights and likelihoods, eps, states and oracles", "a statement on transition probabilities, with an error below any sampling noise", [MB+":_update_weights,_update_d,_d_log_likelihood_vector", MU+":gumbel_max_sampling"])
p("Mixtures over coinciding weight models fit identically",
  "BetaInBetaMixture with x=0 (any a, b, p, p_method) and PitmanYorProcessMixture with pyd=0 agree with DirichletProcessMixture of the same alpha, built with the same other arguments and the same generator: after any sequence of Gibbs fits (any data, init_groups, warm starts, exceptions caught) every fit ends in the same outcome after the same draws, and everything stored but the private state of the weight model is equal, as are its weights, labels and sticks; so all gibbs_* queries and get_* answers agree.  The weight models PitmanYorProcess(pyd=0) and DirichletProcess agree call by call as long as random is given None or a positive int.  Exceptions: random(0) empties the weights of PitmanYorProcess and leaves those of DirichletProcess as they were; init_method='variational' works for DirichletProcessMixture and raises NotImplementedError for BetaInBetaMixture.",
  "all parameters, data, oracles and sequences of fits", "equality of two programs over all random draws and call sequences", [MB+":fit_gibbs,_initialize_gibbs_params", W+"_pitman_yor_process.py:random,complete", W+"_beta_in_beta.py:random,complete", W+"_dirichlet_process.py:random,complete"])
p("Frequency weights never open a group",
  "In a Gibbs fit of FrequencyWeightedMixture (finite log-densities) the weights of a sweep are the shares of the current labels, whatever the draws; every new label was in use before the sweep, except that label 0 is given to an observation whose slice lies at or above every weight.  So a sweep adds at most the group 0, and no group at all if 0 was in use; along the saved states of a fit, and of a warm start after it, a lost label other than 0 never returns; after a k-means start no saved state uses a label or a number of groups beyond those of the k-means start, at most n.  If all observations share group 0, every later sweep of a warm start keeps them there.  DirichletProcessMixture does open groups.",
  "all data, oracles, numbers of groups and fits that end normally", "a reachability statement over all random draws", [MB+":_update_weights,_update_d,fit_gibbs", W+"_frequency.py:random,complete"])
p("Variational fits do not depend on the unit, the origin or the order of the data",
  "Take a variational fit (any weight model, any number of groups, iterations and tolerance) and repeat it for a x + t in place of every observation x, a not 0, with the rows in another order, the location priors and starting atoms moved and psi_prior multiplied by a^2, and the k-means labels of the reordered rows.  The second fit ends as the first: the same exception, or NaN again, or the same number of iterations, the same weight parameters, the responsibilities of the reordered rows, the atoms moved with their precisions divided by a^2, and the lower bound plus k (d - 1) / 4 ln(a^2).  With priors left to their defaults nothing but the data has to be changed.  The mirror image of the data (one coordinate with the opposite sign) has another fit in general, because the outer product of the update is written as an inner product.",
  "all data, priors, factors, shifts, permutations, starts and iteration counts, over the reals; np.linalg.inv exact", "relates two fits for every change of coordinates", [MB+":fit_variational,_initialize_variational_params,_maximize_variational,_update_var_theta,_update_var_d,_calc_elbo"])
p("A variational fit with k-means start is NaN exactly when k-means leaves a group empty",
  "For the weight models with a variational update, positive lambda_prior and positive definite psi_prior: if every one of the k groups has an observation after k-means, every later iterate has numbers: no exception is raised, the responsibilities of every observation are positive and sum to 1 and there are k atoms.  If a group is empty the fit has NaN in its atoms.  So with fewer distinct observations than groups the fit always has NaN, since equal observations get equal labels.",
  "all data, labels, priors, iteration counts, tolerances, over the reals", "an invariant of every number of iterations", [MB+":fit_variational,_initialize_variational_params,_update_var_theta,_update_var_d"])
p("How the query arguments y, dim and component are read",
  "A number, a one-dimensional list or array, a two-dimensional list or a data frame passed as y to a Gibbs query or a variational density gives the answer of the two-dimensional array with the same entries (one column for the one-dimensional forms); without y the stored data of two or more columns are used.  A Series or anything else raises TypeError in every fitted query.  Negative entries of dim count from the last coordinate in every density; an entry outside [-d, d) never gives a Gibbs density.  A negative component raises KeyError in the Gibbs densities.  In the variational densities it selects the atom counted from the end, but the weight is asked for at the negative index: the density is that of the component counted from the start whenever the weight model answers alike at both (see C84 for when it does).",
  "all fitted states, arguments and numeric back ends", "quantifies over every argument form, state and index", [MB+":gibbs_eap_density,gibbs_map_density,var_eap_density,var_map_density,gibbs_map_cluster,gibbs_eap_affinity_matrix,_cast_observations"])
p("Variational weights at a negative index",
  "After fit_variational with k groups, variational_mean_w_j, variational_mode_w_j and variational_mean_log_w_j at -i, 1 <= i <= k, are those of group k-i for DirichletDistribution, EqualWeighting and FrequencyWeighting (with at least as many observations as groups).  For PitmanYorProcess and DirichletProcess they are the mean, mode and mean logarithm of the single stick k-i without the product of the earlier remainders, so the mean exceeds the weight of group k-i when k-i > 0 (and, for DirichletProcess, i > 1).  For GeometricProcess the mean is p / (1-p)^i, more than every weight and possibly more than 1, the mode is m / (1-m)^i for the mode m < 1 of the stick and 0 for m = 1, and the mean logarithm is that of the first weight.  At -i with i > k the mean raises IndexError (DirichletProcess, PitmanYorProcess, DirichletDistribution, FrequencyWeighting), and EqualWeighting still answers 1/k.",
  "all responsibility matrices, parameters and indices, over the reals", "relates negative to non-negative indices for every fit", [W+"_dirichlet_process.py:variational_mean_w_j,variational_mode_w_j,variational_mean_log_w_j", W+"_pitman_yor_process.py:variational_mean_w_j,variational_mode_w_j", W+"_geometric_process.py:variational_mean_w_j", W+"_dirichlet_distribution.py:variational_mean_w_j", W+"_equal.py:variational_mean_w_j", W+"_frequency.py:variational_mean_w_j"])
p("What a variational fit returns and when it stops",
  "After at least one iteration every atom of var_theta is determined by its row r of responsibilities, of mass n: lambda_prior + n, nu_prior + n, the mean (lambda_prior mu_prior + sum r x) / (lambda_prior + n), and as precision the inverse of psi_prior plus the scatter divided by n plus lambda_prior n / (lambda_prior + n) times the squared distance of the group mean to mu_prior, added to every entry.  Without iterations the same holds for the k-means labels.  So after k-means with no empty group the lambdas sum to k lambda_prior + the number of observations, and the nus to k nu_prior + that number.  The fit runs the iterations one after another, at most total_iter, and stops before the first one where the previous change of the lower bound is not more than tol or is NaN; the bound before the first iteration is -inf.  var_converged is set to True exactly if such a change was seen before the last allowed iteration: a fit that meets the tolerance in its last iteration does not set it.  Default priors: the column means, the covariance with divisor n - 1, nu = d.",
  "all data, priors, weight models, starts, iteration counts and tolerances, over the reals; np.linalg.inv exact", "pins every number of the update for every input and iteration", [MB+":fit_variational,_maximize_variational,_update_var_theta,_initialize_variational_params"])
p("The number by which the MAP state is chosen",
  "For every visited state the number compared is the sum over the observations of log f(y_i | theta_{d_i}) + log w_{d_i}, computed from the atoms, weights and labels of the dictionary that is saved with it; every label has an atom and a weight there, also when the atom or weight was only drawn during the comparison.  The densities are summed group by group, which gives the same number, including infinite and NaN terms.  The priors of the weights and of the atoms are not part of it.  After a first cold fit_gibbs map_sim_params is a visited state for which no visited state has a larger such sum.",
  "all weight models, data, starts, random draws and numbers of sweeps; any log density computed row by row, any logarithm", "relates the number to the saved dictionary for every reachable state, not for sampled runs", [MB+":_update_map_params,_run_log_likelihood,_y_log_likelihood,_d_log_likelihood,_get_run_params", W+"_base.py:assignation_log_likelihood"])
p("Where a variational fit starts",
  "A cold k-means fit starts from the size-ordered k-means labels: responsibilities are 1 at the label and 0 elsewhere, the atoms are fitted to those, the responsibilities are recomputed from the atoms against weights fitted to empty groups, and the weights refitted.  A random start gives every group responsibility 1/k everywhere and draws each atom from the prior, keeping the inverse of the drawn covariance.  n_groups must be at least 1, and with k-means at most the number of observations; with the random start 0 is a ZeroDivisionError and a negative number a ValueError.  n_groups of another type is a TypeError and an unknown init_method an AttributeError; both leave the object without variational atoms but with its var_fitted flag as it was.",
  "all weight models, data, group counts, random draws, numpy argsort orders", "initial values are overwritten by the first iteration and not visible in results", [MB+":fit_variational,_initialize_variational_params"])
p("A warm start needs as many observations as there are labels",
  "A warm fit_gibbs on data of another length than the last labels raises IndexError in its first sweep, without a random draw; the object then holds the new data with the old labels, atoms, weights and saved states.  A warm fit_gibbs that does a sweep never succeeds on an object that has no labels.  Data of the same length is accepted.",
  "all weight models, data, labels, settings with at least one sweep", "lengths and states range over infinite sets", [MB+":fit_gibbs,_gibbs_step,_update_atoms"])
p("Where a Gibbs fit starts and which slices it draws",
  "A cold fit_gibbs first draws one slice per observation uniformly on (2^-52, 1), then extends the weights with tail(1 - least slice), or complete(init_groups) if that is given.  The first labels are: with kmeans, the labels of one k-means run, renumbered by size, on as many groups as the mixture was built with, else init_groups, else 2 (between 1 and the number of observations), and no other k-means run happens in the fit; with random, inverse-CDF draws from those weights; with variational, the likeliest groups of a variational fit on the same data with as many groups as weights and tolerance 1e-8; any other method fails.  Every sweep draws the slice of observation i uniformly on (2^-52, weight of its label + 2^-52).",
  "all mixtures built by their constructors, histories of fits, data, arguments, random draws", "the starting point is not visible in the results", [MB+":fit_gibbs,_initialize_gibbs_params,_update_weights"])
p("Labels when a density is NaN or infinite",
  "In every successful sweep the label of an observation is taken from its scores (log density of the atom plus 0, or minus infinity if the weight is not above the slice) as follows: the first NaN score if there is one; else the first score that is plus infinity; else a finite score; else, when all are minus infinity, label 0.  The slice does not protect against undefined densities: an atom whose log density is NaN, or is plus infinity while its weight is not above the slice, has a NaN score, and the label is then never larger than that atom.",
  "all sweeps, mixtures, data, densities, random draws", "tests use finite densities", [MB+":_update_d,_d_log_likelihood_vector", MU+":gumbel_max_sampling"])
p("A failed cold start can break a later warm start",
  "A cold fit_gibbs replaces the affinity matrix before the labels, so a cold fit that fails in between leaves a matrix and labels of different sizes.  A warm fit_gibbs from such a state (with at least one training iteration) never succeeds: the affinity matrix and the number of saved steps stay as they were, and if the sweeps themselves succeed it raises ValueError after sim_params and sim_params_n_groups have grown by one entry.  This happens: fit three observations, fail to fit four with init_groups=9, fit the three again with warm_start.",
  "all mixtures, states with different sizes, data, random draws", "needs a sequence of a successful, a failing and a warm fit", [MB+":fit_gibbs,_initialize_gibbs_params,_save_params"])
p("A mixture can be marked as fitted without a sweep",
  "fit_gibbs with warm_start on a mixture whose truncated settings leave no iteration (for example total_iter=0.9 and burn_in=0.5) succeeds on any data, sets gibbs_fitted, and leaves sim_params, the MAP state and the labels as they were.  On a new object gibbs_map_density and gibbs_map_cluster then raise TypeError instead of NotFittedError, and gibbs_eap_density returns NaN.",
  "all mixtures, data, query arguments", "fractional settings are accepted by the constructor", [MB+":__init__,fit_gibbs,gibbs_map_density,gibbs_map_cluster,gibbs_eap_density"])
p("Gibbs fits do not depend on the coordinates",
  "Take any sequence of calls on a mixture (constructor, cold or warm fit_gibbs with k-means or random initial labels, on data sets with the same number n of rows) and repeat it for A x + t in place of every observation x, for any matrix A and vector t, with given location priors moved the same way, given psi_prior replaced by A psi A^T, and the random numbers the same in the new coordinates.  Every fit of the second run ends as in the first (same success or exception) with the same weights, slices, labels, affinity matrix and counts; every atom (current, saved, MAP) is the image of the atom of the first run; the MAP criterion differs by n times the constant by which log densities change; defaults of the priors need no change.  gibbs_map_density and gibbs_eap_density of moved points are the densities of the first run times one factor; gibbs_map_cluster, gibbs_eap_affinity_matrix and gibbs_spectral answer the same.  (Variational fits have this property only for a x + t with a number a, see C81.)",
  "all matrices, data, priors, weight models, draws related by the change of coordinates, histories of Gibbs fits", "relates two fits for every change of coordinates", [MB+":fit_gibbs,_initialize_common_params,_initialize_gibbs_params,_update_atoms,_update_d,_update_map_params,gibbs_map_density,gibbs_eap_density,gibbs_map_cluster,gibbs_eap_affinity_matrix,gibbs_eap_spectral_consensus_cluster", MU+":posterior_norm_invw_params,random_normal_invw,mixture_density,cluster"])
p("When a fit finishes",
  "The only loop of a fit without an end in sight is BaseWeight.tail.  For DirichletDistribution (with a non-empty alpha), Equal, Frequency and Geometric mixtures every fit_gibbs and fit_variational ends, in any history of fits with exceptions caught.  For the other classes (BetaInBeta with x < 1): if no beta draw is below delta and (1 - delta)^N <= 2^-52, no call of tail in any fit of any sequence of returning fits needs more than N passes, whatever the data (slices are never below 2^-52).  If every stick is 0 the first fit of a DirichletProcess mixture never ends, on any data.  A fit that ends under one bound on the passes is the same fit under every larger bound.",
  "all data, arguments, histories of fits, draws, weight models", "termination for all draws, non-termination, and independence of a bound cannot be observed by running", [MB+":fit_gibbs,fit_variational,_initialize_gibbs_params,_update_weights", W+"_base.py:tail", W+"_geometric_process.py:tail"])
V = "pyrichlet/_version.py"
p("The version of a git checkout",
  "In a checkout where git describe prints TAG-NUM-gHEX with or without -dirty, __version__ is TAG if NUM is 0 and nothing changed, and otherwise TAG+NUM.gHEX[.dirty], with a dot for the plus sign if TAG has one already; whatever hyphens, digits or g's TAG contains.  Full hash, dirty flag and ISO date are those git printed (the date on the last line of git show, whatever stands above it).  Without tags the version is 0+untagged.COUNT.gHASH7[.dirty].  Other describe output with a hyphen gives 'unknown' and an error text.  The style git-describe-long reproduces git's text, and git-describe does without distance and hash on the tag itself.  The branch is git's answer, or on a detached HEAD master if that contains the commit and otherwise the first branch that does.  For tags without a plus sign, equal versions mean the same tag, distance, state and (unless exactly on the tag) commit; with the tag '0+untagged' this fails.",
  "all tags, distances, hashes, dates, systems (Windows or not)", "parsing a tag that contains the separators must be right for every tag; injectivity cannot be sampled", [V+":git_pieces_from_vcs,render_pep440,render_git_describe_long,render,get_versions,run_command", "pyrichlet/__init__.py:__version__"])
p("The version of an archive",
  "The expanded keyword lines of _version.py are read back exactly whatever other lines the file has.  The version is then the alphabetically first candidate starting with a digit (candidates: the texts after 'tag: ', or without any of these the refs with a digit in them), on every system, never dirty; without one it is 0+unknown with the error 'no suitable tags'.  So a release wins over every tag that extends its text, such as its release candidates; but the lower of two releases on one commit is picked, not the higher.",
  "all ref lists, hashes, dates, systems", "the choice among all sets of tags cannot be enumerated", [V+":git_get_keywords,git_versions_from_keywords,get_versions"])
p("No git, and failures while importing",
  "If one of the git commands rev-parse --git-dir, describe, rev-parse HEAD, rev-parse --abbrev-ref HEAD (or branch --contains on a detached HEAD) fails, the version is X for the nearest of the source directory and its two parents named pyrichlet-X, else 0+unknown; nothing is raised.  Without __file__ it is 0+unknown too.  Computing the version, hence importing the package, raises only in four cases, all with those commands succeeding: AttributeError (git show fails), IndexError (git show prints only white space), TypeError (rev-list --count fails), ValueError (the count is not a number).  Each of the four does raise: a git show that fails or prints only white space in a tagged checkout, a count that fails or has no digit in an untagged one.",
  "all directories, systems and outputs of git", "failures of a subprocess at import are not exercised by tests", [V+":get_versions,git_pieces_from_vcs,versions_from_parentdir,run_command", "pyrichlet/__init__.py:__version__"])
p("Versions are PEP 440",
  "If the tag is a normalized PEP 440 version, the configured style gives a PEP 440 version with the same epoch, release, pre, post and dev parts, and the local label extended by distance, hash and dirty.  pep440-pre gives the next post release as a development version if the tag has no dev and no local part.  pep440-branch is PEP 440 if the tag has no dev part or has a local part; pep440-post, -post-branch and -old if it has no post and no dev part or has a local part.  The parts are stated exactly (dev0 marks local changes or a branch other than master); a clean checkout of a tag is the tag in every style.  Without a tag all six styles give PEP 440 versions of release 0.  pep440-post on 1.0.post1, and pep440-branch and -pre on 1.0.dev2, are not PEP 440, and pep440-pre raises ValueError on 1.0.post1.dev2.",
  "all PEP 440 tags, distances, hashes, branches", "a grammar has infinitely many words", [V+":render_pep440,render_pep440_branch,render_pep440_pre,render_pep440_post,render_pep440_post_branch,render_pep440_old,pep440_split_post,plus_or_dot,render"])
p("The data loaders",
  "Any text of a table (fields plain or quoted, blank lines, with or without a last line feed) is read back as the table.  load_chaetocnema keeps every row: column 0 is the index, columns 1-6 the data, column 7 the labels, missing cells stay missing.  load_penguins keeps exactly the rows with nothing missing in columns 0 and 2-5 (a missing island or sex does not matter), in order and under their old row numbers, so data and labels stay together.  Both fail on tables with fewer columns.  From the shipped files: 74 rows of 6 measurements with 21, 31 and 22 labels ' A', ' B', ' C' (with the blank), and 342 rows of 4 with 151, 68 and 123 labels, rows 3 and 339 being dropped; no cell is missing in either.",
  "all tables and all their spellings", "alignment of data and labels for every pattern of missing cells", ["pyrichlet/utils/_loaders.py:load_chaetocnema,load_penguins"])
p("The prior of BetaInDirichlet is an urn",
  "random(n) without labels first draws one base stick and then n labels from an urn: an existing base j with weight the number of times it was seen, a new base with weight a; a new base gets a fresh Beta(1, alpha) stick, and each stick of the model is the stick of its base.  The first base counts as seen once although no stick uses it yet.  complete continues the same urn: after a draw without labels from the labels handed out plus that one, after a fitted draw from the max(d)+1 latent labels.  The probability of the labels is the product of the urn weights.  The extra count does not change the law: for a > 0 and every pattern of coincidences among the n sticks, the probabilities of all label lists with this pattern add up to its probability under the urn that starts empty, which is exp(dirichlet_log_eppf(a, block sizes)).  If the base sticks differ, weighting_log_likelihood adds one Beta(1, alpha) term for each base in use and dirichlet_log_eppf of the block sizes.",
  "all parameters, sizes, states, labels and draws", "the law concerns all label sequences, of which there are more than exponentially many", ["pyrichlet/weight_models/_beta_in_dirichlet.py:random,complete,weighting_log_likelihood", "pyrichlet/utils/functions.py:dirichlet_log_eppf"])
p("The means of the weights that random draws",
  "Under any law of the answers that is linear, concerns possible answers only and has the moments of the requested Beta, binomial, categorical and Dirichlet distributions, the mean of an observable of random(n) is determined, and: without labels DirichletProcess has E w_j = (1/(1+alpha)) (alpha/(1+alpha))^j with the corresponding products E w_i w_j; PitmanYorProcess has E w_j = (1-pyd)/(1-pyd+alpha+j pyd) prod_{i<j} (alpha+i pyd)/(1-pyd+alpha+i pyd), so that for pyd > 0 its first weight never has the mean (1-pyd)/(1+alpha) of the Pitman-Yor process with these parameters; BetaInBeta with 0 < x < 1 has the geometric means of its Beta prior given p; each stick of BetaBernoulli and BetaInDirichlet has the law of one Beta(1, alpha) draw, and sticks i < j are the same draw with probability (1-p)^(j-i) respectively 1/(1+a) and independent draws otherwise; each stick of BetaBinomial has mean 1/(1+alpha) and second moment 2/((1+alpha)(2+alpha)), and E w_1 = alpha(2+alpha+n)/((1+alpha)(2+alpha)(1+alpha+n)); GeometricProcess with any labels has E w_j and E w_i w_j the moments of its conjugate Beta posterior; DirichletDistribution has the Dirichlet means and products without labels and (alpha_j + n_j)/(sum alpha + n) with labels; a fitted DirichletProcess has E w_j = (1+n_j)/(1+alpha+n_j+n_{>j}) prod_{i<j} (alpha+n_{>i})/(1+alpha+n_i+n_{>i}).  The values 1/2, 1/12, -1/24 and 0 that the tests of the repository compare with are instances.",
  "all parameters, sizes, labels, laws and generators", "the tests of the repository compare sample means of 10^4 draws with one decimal place, which an error of 0.05 passes", ["pyrichlet/weight_models/*.py:random", "pyrichlet/tests/test_weight_models.py"])
p("The weights drawn on labels are the posterior of the weights drawn without labels",
  "Let random(n) be called on a model without labels, and random() or random(n) on the same model with labels d assigned (all below n), under any law of the answers with the moments of the requested distributions.  Then Bayes' rule holds for the two calls with the likelihood prod_i w_{d_i}: for every monomial psi in the sticks v_j and 1 - v_j, E[psi | labels] = E[prod_i w_{d_i} psi] / E[prod_i w_{d_i}], with a positive denominator, for DirichletProcess, for PitmanYorProcess, and for BetaInBeta with 0 < x < 1 and the static method for p; for every monomial in p and 1 - p for GeometricProcess; and for every monomial in the weights for DirichletDistribution.  Laws with these moments up to any degree exist.",
  "all parameters, labels, sizes, exponents and laws", "a test compares a few averages of a fitted model with numbers derived by hand; an off-by-one in a posterior parameter shifts them less than the tolerance", ["pyrichlet/weight_models/_dirichlet_process.py:random", "pyrichlet/weight_models/_pitman_yor_process.py:random", "pyrichlet/weight_models/_geometric_process.py:random", "pyrichlet/weight_models/_beta_in_beta.py:random", "pyrichlet/weight_models/_dirichlet_distribution.py:random"])
p("Fitted draws whose mean is not the posterior mean",
  "Let the label 0 be assigned.  For BetaInBeta with 0 < x < 1 and p drawn by random_p() before the sticks, the mean of the first weight that a fitted random() draws lies strictly below the posterior mean E[w_0^2]/E[w_0] when p_method is independent and strictly above it when p_method is geometric; for BetaBinomial with n >= 1 it lies strictly below.  So these calls do not draw from the posterior, for any parameters.  For x = 1 BetaInBeta does: on any labels every monomial in v_0 and 1 - v_0 has the posterior mean.",
  "all parameters and all laws with the moments of the requested distributions", "the bias is smaller than the tolerance of a Monte Carlo test", ["pyrichlet/weight_models/_beta_in_beta.py:random,random_p", "pyrichlet/weight_models/_beta_binomial.py:random"])
p("What the mixture constructors accept and where the arguments go",
  "A call C(k1=v1, ...) of one of the ten mixture classes returns an object exactly when every keyword is a parameter of C, the weight model accepts its arguments (rng is None, a generator or a Python int >= 0; n of DirichletDistribution is exactly a Python int; pyd + alpha > 0; a, b > 0 for GeometricProcess; p_method is one of the six names) and total_iter > burn_in are numbers.  The object then holds every given argument, or else its documented default, under its own name, with total_iter, burn_in and subsample_steps truncated to integers.  An unknown keyword is a TypeError (after the errors of the weight model, except in BetaInBetaMixture and BetaBinomialMixture where it comes first), total_iter <= burn_in is an AssertionError, the order of the keywords does not matter, and passing a default explicitly changes nothing.  Exceptions to what the documentation suggests: show_progress is refused by BetaInBetaMixture and BetaBinomialMixture; p and p_optim_max_steps of a BetaInBetaMixture are always 0 and 10; DirichletDistributionMixture does not compare the length of alpha with n, and silently loses an alpha that is a numpy scalar or any type other than int, float, list or array.",
  "all ten classes, all keyword lists and all argument values", "the argument space is unbounded and each class forwards its arguments by hand", ["pyrichlet/mixture_models/_base.py:__init__", "pyrichlet/mixture_models/_beta_in_beta_mixture.py:__init__", "pyrichlet/mixture_models/_beta_binomial_mixture.py:__init__", "pyrichlet/mixture_models/_dirichlet_distribution_mixture.py:__init__", "pyrichlet/weight_models/_dirichlet_distribution.py:__init__"])
p("The numbering of the components does not matter to the queries",
  "Let two fitted objects hold the same data, and let each saved state of one be a saved state of the other with its components renumbered (a different renumbering for each state is allowed).  Then gibbs_eap_density and gibbs_map_density without a component argument return the same values for every y, dim and periods, the density of component j is that of its new number, and the uncertainties of gibbs_map_cluster are the same.  When every row has a strictly most probable component, gibbs_map_cluster returns the same partition and gibbs_eap_affinity_matrix(y) the same matrix.  gibbs_eap_density over all periods does not depend on the order of the saved states either.  Exceptions: the label numbers of gibbs_map_cluster do follow the numbering, and the partition itself can change when a row is tied between two components or has density zero under all of them (such a row joins component 0).",
  "all states, data, densities and renumberings", "label switching produces one numbering per run", ["pyrichlet/mixture_models/_base.py:gibbs_eap_density,gibbs_map_density,gibbs_map_cluster,gibbs_eap_affinity_matrix", "pyrichlet/mixture_models/_utils.py:mixture_density,cluster"])
p("The queries treat the rows of y one by one",
  "Let the density functions evaluate each row of an array with k columns by itself, or raise for all such arrays.  For a fitted object and a non-empty array y with k columns, gibbs_eap_density, gibbs_map_density, var_eap_density and var_map_density either raise the same exception for every array (or are nan for every array), or return one number per row that depends on that row only: splitting, reordering or repeating rows splits, reorders or repeats the result.  gibbs_map_cluster assigns each row a component and an uncertainty that depend on that row only, and two rows share a label exactly when they share the component; with a single row it raises AxisError.  An entry of gibbs_eap_affinity_matrix(y) depends only on its two rows.  Exceptions: the number of a label depends on the other rows, and a dim that is neither None, int, list nor array makes the Gibbs densities return one number whatever the rows are.",
  "all objects, arrays, dim, component and periods arguments", "a test compares finitely many batches", ["pyrichlet/mixture_models/_base.py:gibbs_eap_density,gibbs_map_density,gibbs_map_cluster,gibbs_eap_affinity_matrix,var_eap_density,var_map_density", "pyrichlet/mixture_models/_utils.py:mixture_density,cluster"])
if __name__ == "__main__":
    out = os.path.join(os.path.dirname(os.path.dirname(os.path.abspath(__file__))), "properties.jsonl")
    with open(out, "w") as f:
        for o in P:
            f.write(json.dumps(o) + "\n")
    print(len(P))
