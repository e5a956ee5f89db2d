{"id": "C01", "title": "Censoring splits the observations without loss, duplication or mis-pairing", "statement": "DataHandling.filterCensoredData, called with a noise threshold strictly below the saturation threshold (either may be None) and signals that are finite doubles strictly inside the double range, sends every observation to exactly one of the three areas: noise iff signal <= noise threshold, saturation iff signal >= saturation threshold, uncensored otherwise. The three returned samples are order-preserving selections of the input rows, the sizes add up to the input size, and the k-th returned uncensored signal belongs to the k-th returned uncensored input row.", "quantifier": "every list of observations of any length, every pair of IEEE binary64 thresholds or None, every row type", "why_tests_cant": "the boundary values (signal equal to a threshold) and all interleavings of the three areas form an unbounded set; a test picks a handful of samples", "anchors": ["otpod/_math_tools.py:DataHandling.filterCensoredData"]}
{"id": "C02", "title": "Exactly when the censoring split fails to be a partition", "statement": "For arbitrary doubles (NaN and infinities included) and arbitrary thresholds, an observation is lost by filterCensoredData exactly when its signal (or a threshold it has to be compared with) is NaN, and is returned twice (noise and saturation) exactly when saturation <= signal <= noise. With one-sided censoring a signal at the end of the double range (+/-max or infinite) is still censored on the side that has no threshold.", "quantifier": "every IEEE double signal and every pair of thresholds", "why_tests_cant": "NaN, infinities and crossed thresholds are never combined in tests, and the claim is an equivalence over all doubles", "anchors": ["otpod/_math_tools.py:DataHandling.filterCensoredData"]}
{"id": "C03", "title": "Box-Cox never changes a detection decision", "statement": "Whatever lambda is chosen and whatever shift is applied, comparing a Box-Cox transformed shifted signal with the transformed shifted detection threshold gives the same answer as comparing the raw signal with the raw threshold, provided both shifted values are positive; the same holds for the noise and saturation thresholds, so that the set of detected / censored observations is unchanged by the boxCox option.", "quantifier": "every real lambda, every shift, every signal/threshold pair with positive shifted value", "why_tests_cant": "uncountably many lambdas; tests use the one lambda the optimiser returned", "anchors": ["otpod/_pod.py:POD._run", "otpod/_univariate_linear_model_pod.py:_computeLinearModel", "otpod/_univariate_linear_model_analysis.py:UnivariateLinearModelAnalysis._run"]}
{"id": "C04", "title": "The automatic Box-Cox shift", "statement": "With boxCox enabled, the signals are shifted by 100 - min when the smallest signal is negative and by 0 otherwise; all shifted signals are then strictly positive (>= 100 when a shift occurs) except in exactly one situation: the smallest signal is exactly 0, where the shift is 0 and the Box-Cox transformation is applied to a non positive value (finding). The shifted detection threshold is positive iff detection > -shift; in particular a detection threshold at least as large as the smallest signal is always positive once a shift took place. With censored data the noise threshold is transformed too, and the run fails (finding) when it is 0 or negative while the remaining signals are positive, or 100 or more below a negative smallest signal.", "quantifier": "every non-empty list of real signals and every detection threshold", "why_tests_cant": "the exceptional case min = 0 is a single point of a continuum that no existing test hits", "anchors": ["otpod/_pod.py:POD._run", "otpod/_univariate_linear_model_analysis.py:UnivariateLinearModelAnalysis._run"]}
{"id": "C05", "title": "Inverse Box-Cox round trip of the adaptive DOE", "statement": "AdaptiveSignalPOD.getOutputDOE returns, in order, exactly the (uncensored) signals given at construction followed by the physical model values at the points that were added, in the original (untransformed, unshifted) unit, whatever lambda and shift were used internally; the additions succeed exactly when all added values exceed minus the shift.", "quantifier": "every sample of signals, every lambda, every shift, every number of added points", "why_tests_cant": "needs the analytic identity invBoxCox(BoxCox(y)) = y for every lambda including 0 and over every growth history", "anchors": ["otpod/_adaptive_signal_pod.py:AdaptiveSignalPOD.getOutputDOE", "otpod/_adaptive_signal_pod.py:AdaptiveSignalPOD.run", "otpod/_pod.py:POD._run"]}
{"id": "C06", "title": "Which Box-Cox lambda is used", "statement": "UnivariateLinearModelAnalysis uses the lambda given by the user when boxCox is a float. Every POD class (finding) ignores the given value: whenever Box-Cox is enabled the lambda that is used and returned by getBoxCoxParameter is the optimised one, whatever float was passed; hence a POD built from an analysis (analysis=...) may use another lambda than that analysis. Box-Cox disabled always yields getBoxCoxParameter() = None and untransformed signals and threshold.", "quantifier": "every boxCox argument (True, False, None, any float), every data set, every optimiser result", "why_tests_cant": "tests only compare one dataset where the optimum happens to be what was asked for", "anchors": ["otpod/_pod.py:POD.__init__", "otpod/_pod.py:POD._run", "otpod/_univariate_linear_model_analysis.py:UnivariateLinearModelAnalysis._run", "otpod/_univariate_linear_model_pod.py:_computeLinearModel"]}
{"id": "C07", "title": "Constructor argument checking of the POD classes", "statement": "The constructors accept a pair of samples exactly when there are at least 3 observations, input and output sizes agree, the output is one-dimensional and the input dimension is 1 (linear and quantile regression) or at least 2 (kriging, adaptive signal); otherwise an AssertionError is raised, the first violated check deciding the message, and no object is created. Finding: the chaos and adaptive hit-miss classes do not check the input dimension and accept one-dimensional inputs. UnivariateLinearModelAnalysis accepts exactly the data accepted by UnivariateLinearModelPOD.", "quantifier": "every combination of sizes and dimensions", "why_tests_cant": "an unbounded grid of shapes; tests construct only valid objects", "anchors": ["otpod/_pod.py:POD.__init__", "otpod/_univariate_linear_model_pod.py:UnivariateLinearModelPOD.__init__", "otpod/_quantile_regression_pod.py:QuantileRegressionPOD.__init__", "otpod/_kriging_pod.py:KrigingPOD.__init__", "otpod/_polynomial_chaos_pod.py:PolynomialChaosPOD.__init__", "otpod/_adaptive_signal_pod.py:AdaptiveSignalPOD.__init__", "otpod/_adaptive_hitmiss_pod.py:AdaptiveHitMissPOD.__init__"]}
{"id": "C08", "title": "Building a linear POD from an analysis", "statement": "UnivariateLinearModelPOD(analysis=A, ...) succeeds iff every one of inputSample, outputSample, noiseThres, saturationThres, resDistFact is left to None and detection is given, and then the samples and thresholds are those of A, while without an analysis it succeeds iff inputSample and outputSample are given and have a valid shape. Findings: a missing detection is then accepted by the constructor, and a POD built from an analysis never has resDistFact None, hence is never the binomial one. No combination of conflicting arguments is silently accepted except boxCox, which is silently overridden.", "quantifier": "all 2^7 presence patterns of the arguments, every analysis", "why_tests_cant": "the conflict matrix is never enumerated by tests", "anchors": ["otpod/_univariate_linear_model_pod.py:UnivariateLinearModelPOD.__init__"]}
{"id": "C09", "title": "Detection size computation", "statement": "computeDetectionSize(p, gamma): if the POD curve brackets p on the defect interval the first returned value is a size inside the interval at which the POD curve equals p; if gamma is given and the confidence curve brackets p the second value solves the confidence curve; otherwise an exception is raised and nothing is returned, and an exception is raised only then. If the POD curve is strictly increasing and the confidence curve never exceeds it, the confidence detection size is never smaller than the detection size.", "quantifier": "every pair of continuous curves, every probability and confidence level, every interval", "why_tests_cant": "holds for all curves; tests check two numbers", "anchors": ["otpod/_pod.py:POD._computeDetectionSize"]}
{"id": "C10", "title": "Detection size labels", "statement": "The labels attached to the detection sizes are 'a' + int(100 p) and 'a' + int(100 p) + '/' + int(100 gamma) computed in double arithmetic. Among the levels k/100, k = 1..99, the label shows k except for k = 29, 57, 58 where double rounding makes it show k-1 (finding); two different levels can share a label.", "quantifier": "every probability level of the form k/100 in binary64 arithmetic", "why_tests_cant": "requires exact reasoning on IEEE rounding for every level; tests only read values, never labels", "anchors": ["otpod/_pod.py:POD._computeDetectionSize", "otpod/_quantile_regression_pod.py:QuantileRegressionPOD.computeDetectionSize"]}
{"id": "C11", "title": "The uncensored linear regression is the least squares solution", "statement": "For every data set with at least two distinct defect sizes, the intercept and slope used by the linear POD and by the analysis minimise the sum of squared residuals over all lines, uniquely; the reported residuals sum to zero and are orthogonal to the defects.", "quantifier": "every data set of reals with non constant defects", "why_tests_cant": "global optimality over a continuum of lines and every data set", "anchors": ["otpod/_univariate_linear_model_pod.py:_computeLinearModel", "otpod/_univariate_linear_model_analysis.py:UnivariateLinearModelAnalysis._run"]}
{"id": "C12", "title": "The binomial POD curve", "statement": "The POD curve of the binomial (Berens, no hypothesis) linear POD is at every defect size the proportion of the observed residuals that strictly exceed detection - (intercept + slope * size); it lies in [0,1], takes only multiples of 1/n, is non decreasing when slope >= 0, reaches 1 for large enough sizes and 0 for small enough sizes when slope > 0, and is non increasing in the detection threshold.", "quantifier": "every residual sample, every slope/intercept, every defect size and threshold", "why_tests_cant": "a statement about a step function at all points", "anchors": ["otpod/_univariate_linear_model_pod.py:UnivariateLinearModelPOD._PODbinomialModel"]}
{"id": "C13", "title": "The binomial confidence curve", "statement": "With k detections out of n residuals and confidence gamma, the binomial confidence POD for k < n is the unique p with P(Binomial(n,p) <= k) = gamma (one success more than the Clopper-Pearson lower bound); it increases with k < n and decreases with gamma. Findings: for k = n it is gamma^(1/n), which increases with gamma; for k = 0 it is 1 - gamma^(1/n) > 0, hence above the POD estimate 0; it is therefore not a valid lower confidence bound.", "quantifier": "every n >= 1, every k <= n, every gamma in (0,1), any quantile function of the Beta law", "why_tests_cant": "equivalence with a tail probability for all n, k and gamma", "anchors": ["otpod/_univariate_linear_model_pod.py:UnivariateLinearModelPOD._PODbinomialModelCl"]}
{"id": "C14", "title": "The Gaussian POD curve", "statement": "The Gaussian linear POD at size x is the probability that a normal variable with mean intercept + slope x and the prediction variance stderr^2 (1 + 1/n + (x - xbar)^2 / Sxx) exceeds the detection threshold; it lies in [0,1], equals at least 1/2 exactly where the regression line reaches the threshold, and with slope > 0 it is increasing at x exactly where (threshold - line at xbar) (x - xbar) > - slope (1+1/n) Sxx; it is not monotone in general (finding).", "quantifier": "every data set, every threshold, every pair of sizes, every symmetric increasing distribution function", "why_tests_cant": "monotonicity of a curve at all points and for all data", "anchors": ["otpod/_univariate_linear_model_pod.py:UnivariateLinearModelPOD._PODgaussModel"]}
{"id": "C15", "title": "Simulated confidence curves are ordered and bounded by the simulated curves", "statement": "For the Gaussian, bootstrap, kriging and chaos POD the curve at confidence gamma is at every point the empirical (1-gamma)-quantile of the simulated POD values: it lies between the smallest and the largest simulated value, never increases when gamma increases, does not depend on the order of the simulations, and lies in [0,1] when all simulated values do.", "quantifier": "every simulated sample, every pair of confidence levels", "why_tests_cant": "quantile ordering for every sample and level", "anchors": ["otpod/_univariate_linear_model_pod.py:UnivariateLinearModelPOD.getPODCLModel", "otpod/_kriging_tools.py:KrigingBase.getPODCLModel", "otpod/_polynomial_chaos_pod.py:PolynomialChaosPOD.getPODCLModel", "otpod/_adaptive_hitmiss_pod.py:AdaptiveHitMissPOD.getPODCLModel"]}
{"id": "C16", "title": "Simulation size changed after run", "statement": "For the linear POD the confidence curve evaluated after run uses as many simulated curves as the current simulation size: if it was decreased after run only a prefix of the simulations is used, if it was increased every evaluation raises IndexError (finding) until run is called again; if it was not changed all simulations are used. In every history of setSimulationSize (positive sizes) / run / evaluation calls an evaluation of a simulated (non binomial) confidence curve succeeds iff a run happened and the current size does not exceed the size at the last run.", "quantifier": "every history of setSimulationSize, run and curve evaluations", "why_tests_cant": "unbounded histories of API calls", "anchors": ["otpod/_pod.py:POD.setSimulationSize", "otpod/_univariate_linear_model_pod.py:UnivariateLinearModelPOD.getPODCLModel", "otpod/_univariate_linear_model_pod.py:UnivariateLinearModelPOD.run"]}
{"id": "C17", "title": "Start search of the censored maximum likelihood", "statement": "computeLinearParametersCensored draws a new random starting point only while the likelihood at the current one is infinite, never more than 100 times, and starts the optimiser from a point with finite likelihood whenever it does not raise. It raises iff the given start and the first 99 draws all have infinite likelihood, so (finding) it also raises when the 100th draw is good.", "quantifier": "every likelihood function and every infinite sequence of random draws", "why_tests_cant": "the failing schedule has 99 bad draws followed by a good one", "anchors": ["otpod/_math_tools.py:computeLinearParametersCensored"]}
{"id": "C18", "title": "The censored likelihood", "statement": "The function minimised for censored data is minus the log likelihood of the Gaussian linear model with left and right censored observations, it is +inf instead of NaN, it does not depend on the order of the observations, and when no observation is censored its minimum is reached exactly at the least squares line with the residual standard deviation computed with denominator n (not n-2).", "quantifier": "every data set, every parameter (intercept, slope, positive sigma), every distribution function", "why_tests_cant": "global optimality over a continuum", "anchors": ["otpod/_math_tools.py:MLE", "otpod/_math_tools.py:computeLinearParametersCensored"]}
{"id": "C19", "title": "Ranges of the regression quality figures", "statement": "For a least squares fit, R2 lies in [0,1] (residuals of another line, as the maximum likelihood line of the censored analysis, can give a negative R2), equals 1 iff all residuals are 0 and is invariant under a common affine rescaling of the signals; the Durbin-Watson statistic lies in [0,4]; the Harrison-McCabe statistic lies in [0,1] and does not decrease with the break ratio; its simulated p-value lies in [0,1] and is monotone in the statistic; the Breusch-Pagan statistic lies in [0,n].", "quantifier": "every residual / signal sample with non zero variance", "why_tests_cant": "inequalities over all samples", "anchors": ["otpod/_math_tools.py:computeR2", "otpod/_math_tools.py:computeDurbinWatsonTest", "otpod/_math_tools.py:computeHarrisonMcCabeTest", "otpod/_math_tools.py:computeBreuschPaganTest"]}
{"id": "C20", "title": "One-sided Durbin-Watson p-values", "statement": "The two-sided p-value lies in [0,1], depends only on the distance between the statistic and its mean and decreases with it. The one-sided variants should be complementary tails P(D <= d), P(D >= d); they sum to 1 but (finding) \"Less\" is always the larger of the two tails (>= 1/2) and \"Greater\" the smaller (<= 1/2) whatever the sign of d - mean, so neither is a fixed tail of the law.", "quantifier": "every statistic, mean, positive variance and every symmetric distribution function", "why_tests_cant": "the sign error is invisible to the tests, which never use the one-sided options", "anchors": ["otpod/_math_tools.py:computeDurbinWatsonTest"]}
{"id": "C21", "title": "Report tables put every figure next to its own label", "statement": "In the result tables of UnivariateLinearModelAnalysis (getResults / saveResults) every test value is in the row of the test it belongs to and in the column (uncensored / censored) of the data it was computed on, both with and without censoring. The file written by saveResults, read line by line and then at the tabulations, gives back every cell of both tables and the warnings.", "quantifier": "all values of all tests, both censoring states", "why_tests_cant": "tests do not read the tables; the row arithmetic with an inserted row has to be right for every row", "anchors": ["otpod/_univariate_linear_model_analysis.py:UnivariateLinearModelAnalysis._buildPrintResults", "otpod/_univariate_linear_model_analysis.py:UnivariateLinearModelAnalysis.saveResults"]}
{"id": "C22", "title": "Warnings printed by the analysis and values returned by its getters", "statement": "The analysis warns that hypothesis tests failed exactly when one of the stored figures is below 0.05 (finding: R2 counts as one of them), suggests Box-Cox exactly then if Box-Cox is off, and mentions the non normal distribution exactly when the distribution is not Normal. Every getter returns one value without censoring and two (uncensored, censored) with censoring, each being the stored one.", "quantifier": "all values of the figures, both censoring states, all Box-Cox states", "why_tests_cant": "the claim is an equivalence over all values", "anchors": ["otpod/_univariate_linear_model_analysis.py:UnivariateLinearModelAnalysis._printWarnings", "otpod/_univariate_linear_model_analysis.py:UnivariateLinearModelAnalysis._getResultValue"]}
{"id": "C23", "title": "Normal approximation of the Durbin-Watson statistic", "statement": "The matrix B built entry by entry in computeDurbinWatsonTest is the product of the tridiagonal Durbin-Watson differencing matrix A with the regression design, the residual statistic is the quadratic form e'Ae / e'e, and the constants 2(n-1) and 2(3n-4) are tr A and tr A^2; the mean and variance of the normal approximation are tr(MA)/(n-2) and 2 (tr((MA)^2) - tr(MA)^2/(n-2)) / (n (n-2)) with M the residual projector, for every sample of size n >= 2.", "quantifier": "every n >= 2 and every sample of defects and residuals", "why_tests_cant": "matrix identities for all sizes", "anchors": ["otpod/_math_tools.py:computeDurbinWatsonTest"]}
{"id": "C24", "title": "setQuantile is atomic and keeps the quantiles sorted in (0,1)", "statement": "QuantileRegressionPOD.setQuantile raises ValueError iff some value is outside the open interval (0,1), in which case getQuantile still returns the previous values; otherwise getQuantile returns the sorted given values. After every history of calls getQuantile is sorted and inside (0,1).", "quantifier": "every sequence of calls with every list of doubles", "why_tests_cant": "unbounded call histories", "anchors": ["otpod/_quantile_regression_pod.py:QuantileRegressionPOD.setQuantile", "otpod/_quantile_regression_pod.py:QuantileRegressionPOD.getQuantile"]}
{"id": "C25", "title": "The quantile regression POD curve", "statement": "The POD curve goes through (0,0), through (a_q, q) for every quantile level q (a_q = size where the (1-q) regression line meets the threshold) and through (largest defect, largest q) when the nodes are distinct; it stays in [0, max q], is non decreasing when the a_q are non decreasing in q, and evaluation outside the range of the nodes raises ValueError rather than extrapolating. Finding: if the a_q are not ordered as the levels (crossing regression lines) the POD curve decreases somewhere.", "quantifier": "every set of levels, every defect list, every evaluation point", "why_tests_cant": "all points of an interpolated curve and all node sets", "anchors": ["otpod/_quantile_regression_pod.py:QuantileRegressionPOD.run"]}
{"id": "C26", "title": "Quantile regression detection size", "statement": "computeDetectionSize(p[,gamma]) of the quantile regression POD returns a size of the defect range at which the (1-p)-quantile regression line equals the threshold, and with gamma also a size at which the confidence curve equals p; it raises exactly when one of them is not bracketed by the defect range. For p one of the levels but the largest, the second value is the gamma-quantile of the bootstrap sizes of that level. Findings: at the largest level every size between that quantile and the largest defect is a solution; no probability above the largest level can be asked with a confidence level; the first value does not in general solve the POD curve itself; negative bootstrap sizes, which the root search allows, make the confidence curve decrease. The confidence curve decreases with the confidence level when the confidence sizes are in order.", "quantifier": "every regression oracle, every level", "why_tests_cant": "all levels and regression lines", "anchors": ["otpod/_quantile_regression_pod.py:QuantileRegressionPOD.computeDetectionSize"]}
{"id": "C27", "title": "setDefectSizes: effect and failure", "statement": "On KrigingPOD, AdaptiveSignalPOD, AdaptiveHitMissPOD, PolynomialChaosPOD, SobolIndices and PLI objects setDefectSizes raises ValueError iff some size is outside the range of the input defects; when it succeeds getDefectSizes is the sorted version of the argument and the number of sizes is updated. Finding: when it raises, getDefectSizes already returns the rejected sizes while the stored number of sizes is still the old one. Every history of successful calls keeps sizes sorted, in range and counted correctly; a failed call can break this.", "quantifier": "every history of setDefectSizes calls with every list of doubles", "why_tests_cant": "the failure needs a caught exception in the history; tests never continue after one", "anchors": ["otpod/_kriging_tools.py:KrigingBase.setDefectSizes", "otpod/_polynomial_chaos_pod.py:PolynomialChaosPOD.setDefectSizes", "otpod/_adaptive_hitmiss_pod.py:AdaptiveHitMissPOD.setDefectSizes", "otpod/_sobol_indices.py:SobolIndices.setDefectSizes", "otpod/_pli_pod.py:PLIBase.setDefectSizes"]}
{"id": "C28", "title": "Interpolated POD curves", "statement": "The POD and confidence curves of the kriging, chaos and hit-miss POD are the piecewise linear interpolation of the values at the defect sizes: exact at each defect size, between the neighbouring values elsewhere, monotone if the values are, in [0,1] if the values are, and evaluation raises outside [smallest, largest defect size].", "quantifier": "every sorted list of sizes, every list of values, every evaluation point", "why_tests_cant": "all points of the curve", "anchors": ["otpod/_kriging_tools.py:KrigingBase.getPODCLModel", "otpod/_polynomial_chaos_pod.py:PolynomialChaosPOD.getPODCLModel", "otpod/_adaptive_hitmiss_pod.py:AdaptiveHitMissPOD.getPODModel", "otpod/_kriging_tools.py:KrigingBase.getPODModel"]}
{"id": "C29", "title": "Kriging POD simulation at one defect size", "statement": "At a defect size each of the M conditional realisations contributes one component to the mixture: Normal(p_m, sqrt(p_m(1-p_m)/N)) if 0 < p_m < 1, a Dirac at 0 if p_m = 0 and at 1 if p_m = 1, with p_m the fraction of the N values exceeding the threshold. p_m is in [0,1], is non increasing in the threshold and the variance is positive iff 0 < p_m < 1. Finding: because of the normal components the simulated POD values, hence the POD and confidence curves, are not confined to [0,1].", "quantifier": "every matrix of realisations, every threshold", "why_tests_cant": "case split over all matrices; range violation depends on a random draw", "anchors": ["otpod/_kriging_tools.py:KrigingBase._computePODSamplePerDefect"]}
{"id": "C30", "title": "Conditional realisations", "statement": "The M x N realisations used by the kriging POD have entry (i,j) = mean_j + z_i sqrt(var_j) with one normal draw per realisation; they are non decreasing in z_i at every point, equal to the mean when z_i = 0, and the induced POD p(z) is non decreasing in z and reaches 0 and 1 for extreme draws. Since one draw serves all the points, two realisations never cross. A conditional variance made negative by rounding makes its point undetected in every realisation.", "quantifier": "every mean and variance vector, every draw", "why_tests_cant": "holds for all vectors", "anchors": ["otpod/_kriging_tools.py:KrigingBase._randomVectorSampling"]}
{"id": "C31", "title": "Kriging leave-one-out shortcut", "statement": "The leave-one-out predictions used for the kriging Q2 (block inverse formula) are, for each observation, exactly the prediction of the kriging model (same covariance, same trend basis) built from the other observations; they are numbers exactly when that kriging is well posed. Q2 is 1 minus the sum of these squared errors over the total sum of squares, at most 1, and undefined only if all the outputs are equal.", "quantifier": "every number of observations, every covariance matrix and basis for which the matrix is invertible", "why_tests_cant": "an identity of linear algebra in every dimension", "anchors": ["otpod/_kriging_tools.py:KrigingBase._computeLOO", "otpod/_kriging_tools.py:KrigingBase._computeQ2"]}
{"id": "C32", "title": "Chaos leave-one-out shortcut", "statement": "The chaos Q2 uses residual_i / (1 - h_i) as leave-one-out error; this is the exact error at observation i of the least squares fit on the same basis without observation i. The leverages h_i are in [0,1]; at h_i = 1 the code divides 0 by 0. Q2 <= 1, and Q2 of the chaos uses the n-1 variance whereas Q2 of kriging uses the n variance, so for the same errors it is larger. Q2 <= R2 if the constants are in the span of the basis; finding: a sparse basis without them can give Q2 > R2.", "quantifier": "every design matrix with full column rank after deletion, every output vector", "why_tests_cant": "an identity of linear algebra in every dimension", "anchors": ["otpod/_polynomial_chaos_pod.py:PolynomialChaosPOD.getQ2"]}
{"id": "C33", "title": "Input normalisation of the kriging", "statement": "The transformation put in front of the kriging model maps the learning sample to a sample whose columns have mean 0, and standard deviation 1 for columns with standard deviation above 1e-12 (constant columns are mapped to 0); it is injective, so no two different points are confused, strictly increasing in every coordinate, and the normalised sample does not depend on the units of the inputs.", "quantifier": "every sample of any size and dimension", "why_tests_cant": "all samples, including degenerate columns", "anchors": ["otpod/_kriging_tools.py:KrigingBase._buildKrigingAlgo"]}
{"id": "C34", "title": "User supplied meta-models", "statement": "KrigingPOD.setKrigingResult followed by run should compute the POD from the supplied kriging; instead (finding) run always fails on the unbound transformation, for every input and every supplied result, while without a supplied result it does not fail there. PolynomialChaosPOD.setPolynomialChaosResult followed by run computes the POD with the given result iff a distribution is already there, from setDistribution or from an earlier run that fitted its own chaos: setting a chaos result alone always fails (finding). A chaos result given after a run makes the Sobol analysis put coefficients drawn for the old chaos on the basis of the new one (finding).", "quantifier": "every history of setter calls before run", "why_tests_cant": "the failing path is independent of data and is not exercised by the tests", "anchors": ["otpod/_kriging_pod.py:KrigingPOD.run", "otpod/_kriging_pod.py:KrigingPOD.setKrigingResult", "otpod/_polynomial_chaos_pod.py:PolynomialChaosPOD.run", "otpod/_polynomial_chaos_pod.py:PolynomialChaosPOD.setPolynomialChaosResult"]}
{"id": "C35", "title": "Each defect size is evaluated on its own block", "statement": "In the chaos, hit-miss, adaptive signal and Sobol computations the flattened evaluation over (defect size, Monte-Carlo point) is reshaped so that column i of the result contains exactly the values of the points whose first coordinate is the i-th defect size and whose remaining coordinates are those of the Monte-Carlo sample, in the same order. If the recorded number of sizes is out of date, the missing columns are evaluated at the zero point (finding).", "quantifier": "every number of defect sizes, every sample size, every sample and every model", "why_tests_cant": "index arithmetic for all shapes; tests use one shape and a tolerance", "anchors": ["otpod/_polynomial_chaos_pod.py:PolynomialChaosPOD._computePOD", "otpod/_adaptive_hitmiss_pod.py:AdaptiveHitMissPOD._computePOD", "otpod/_sobol_indices.py:PODaggrChaos._exec_sample", "otpod/_adaptive_signal_pod.py:AdaptiveSignalPOD._mergeDefectInX"]}
{"id": "C36", "title": "Adaptive signal enrichment adds exactly the requested points", "statement": "When AdaptiveSignalPOD.run returns normally the DOE is the initial DOE followed by exactly nMorePoints points, each of them a point of the candidate DOE, no candidate row used twice, each with its own physical model value, and at each step the chosen candidate is the first one that minimises the criterion among the remaining candidates. A second run enriches further by nMorePoints.", "quantifier": "every criterion function, every candidate list, every number of iterations and runs", "why_tests_cant": "all criterion values and all iteration counts", "anchors": ["otpod/_adaptive_signal_pod.py:AdaptiveSignalPOD.run"]}
{"id": "C37", "title": "Adaptive signal enrichment when candidates run out or criteria are unusable", "statement": "If at the first iteration no candidate has a criterion below 1e9 (all NaN or too large) run fails; at a later iteration (finding) the index selected at the previous iteration is silently reused, adding a point that was not selected; if more points are requested than candidates exist run fails after having consumed all of them, leaving a partially enriched DOE; the point is added to the input DOE before the physical model is evaluated, so a failing model leaves input and output DOEs of different sizes.", "quantifier": "every criterion sequence", "why_tests_cant": "needs NaN criteria or exhausted candidates at a precise iteration", "anchors": ["otpod/_adaptive_signal_pod.py:AdaptiveSignalPOD.run"]}
{"id": "C38", "title": "Predictions used by the adaptive criterion", "statement": "The signal value predicted for a candidate should come from the kriging model of the current DOE. Finding: the prediction function is built once before the loop, so at every iteration it is the one of the initial DOE, whatever has been learnt since, and so is the reference POD; only the covariance of the temporary krigings is the current one. The final POD uses the kriging and the normalisation of the final DOE; that kriging keeps the previous covariance parameters unless they give a Q2 below 0.95 on the final DOE, in which case they are optimised again.", "quantifier": "every number of iterations, every fitting procedure", "why_tests_cant": "the fitted object is internal; the staleness shows only through a history of at least two iterations", "anchors": ["otpod/_adaptive_signal_pod.py:AdaptiveSignalPOD.run"]}
{"id": "C39", "title": "Hit-miss enrichment adds exactly the requested points", "statement": "When AdaptiveHitMissPOD.run returns normally the DOE is the initial DOE followed by exactly nMorePoints rows, every added row is a candidate whose current detection probability was in [pmin, pmax), and its label is the physical model's answer at that row; the loop runs ceil(nMorePoints/5) times and therefore terminates.", "quantifier": "every classifier behaviour, every candidate list, every nMorePoints, pmin, pmax", "why_tests_cant": "all classifier outputs and all counts, in particular those not divisible by 5", "anchors": ["otpod/_adaptive_hitmiss_pod.py:AdaptiveHitMissPOD.run"]}
{"id": "C40", "title": "Hit-miss enrichment cost and duplicates", "statement": "The number of physical model evaluations is 5*ceil(nMorePoints/5), so it exceeds nMorePoints unless 5 divides it (finding); the five candidates of one iteration are the 0, 1/4, 1/2, 3/4 and last ranks of the sorted selection, pairwise different iff at least 5 candidates are selected, and candidates are never removed so the same point can be added several times (finding).", "quantifier": "every selection size and every count", "why_tests_cant": "counts over all loop lengths", "anchors": ["otpod/_adaptive_hitmiss_pod.py:AdaptiveHitMissPOD.run"]}
{"id": "C41", "title": "Hit-miss enrichment when no candidate is in the probability band", "statement": "If at some iteration no candidate has probability in [pmin, pmax) the code intends to widen the band. Finding: the widened condition (p < 0.1 and p >= 0.8) is unsatisfiable for every double, so run raises IndexError in that case for every data set, and the number of added points is left between 0 and nMorePoints; run succeeds iff every iteration has at least one candidate in the band.", "quantifier": "every classifier output, including NaN", "why_tests_cant": "needs the unsatisfiability of a condition over all doubles", "anchors": ["otpod/_adaptive_hitmiss_pod.py:AdaptiveHitMissPOD.run"]}
{"id": "C42", "title": "Confusion matrix and corrected classifier", "statement": "When every classifier predicts both classes at least once, the confusion matrix has non negative entries and columns summing to 1; the corrected classifier returns for every point two probabilities [1-p, p] with 0 <= p <= 1 and p non decreasing in the raw probability iff p11 > p10. When some class is never predicted the matrix is NaN.", "quantifier": "every list of labels and predictions, every raw probability", "why_tests_cant": "ranges over all label vectors", "anchors": ["otpod/_adaptive_hitmiss_pod.py:AdaptiveHitMissPOD.run"]}
{"id": "C43", "title": "History of classifiers in the hit-miss confusion matrix", "statement": "The confusion matrix is meant to be averaged over all the classifiers built so far. Finding: the corrected classifiers share the loop's variables, so from the third one on the average at iteration k is that of the initial classifier once and the most recent corrected classifier k times, for every data set.", "quantifier": "every sequence of fitted classifiers, every number of iterations", "why_tests_cant": "closure late binding is only visible over a history of at least three iterations", "anchors": ["otpod/_adaptive_hitmiss_pod.py:AdaptiveHitMissPOD.run"]}
{"id": "C44", "title": "Hit-miss labels are consistent", "statement": "With a detection threshold given, initial and added observations are labelled by the same strict rule signal > detection, and the POD values computed from classifier probabilities are in [0,1] at every defect size and confidence level.", "quantifier": "every sample, physical model and threshold", "why_tests_cant": "all thresholds including equality with a signal", "anchors": ["otpod/_adaptive_hitmiss_pod.py:AdaptiveHitMissPOD.__init__", "otpod/_adaptive_hitmiss_pod.py:AdaptiveHitMissPOD._computePOD"]}
{"id": "C45", "title": "pmin / pmax / classifier setters", "statement": "setPMin and setPMax raise iff the value is outside [0,1] and then leave the object unchanged; every history leaves both in [0,1] (or NaN, which is accepted), but pmin > pmax is accepted (finding) and makes every enrichment fail. setClassifierType raises iff the name is not 'svc' or 'rf' and otherwise installs the default parameters of that type.", "quantifier": "every history of setter calls with every double", "why_tests_cant": "unbounded call histories and all doubles", "anchors": ["otpod/_adaptive_hitmiss_pod.py:AdaptiveHitMissPOD.setPMin", "otpod/_adaptive_hitmiss_pod.py:AdaptiveHitMissPOD.setPMax", "otpod/_adaptive_hitmiss_pod.py:AdaptiveHitMissPOD.setClassifierType"]}
{"id": "C46", "title": "Sobol indices keep sizes and outputs aligned", "statement": "SobolIndices.run removes exactly the defect sizes whose POD output has a variance of exactly zero on the first N points, and after the removal the i-th remaining size is the one of the i-th remaining output; removed sizes never come back in later runs; if no size is left run raises ValueError and keeps the sizes. Finding: after setDefectSizes without a new run the plot pairs the new sizes with the old indices.", "quantifier": "every list of sizes and every output sample, every history of runs", "why_tests_cant": "all patterns of zero variance", "anchors": ["otpod/_sobol_indices.py:SobolIndices.run"]}
{"id": "C47", "title": "Negative kriging variance in the Sobol POD function", "statement": "Small negative variances should be repaired and large ones rejected. Finding: an error is raised exactly when all variances are negative, however small; if only some are negative none is repaired or rejected: all outputs are NaN if the first variance is negative, otherwise the negative ones are ignored.", "quantifier": "every variance vector", "why_tests_cant": "the condition is wrong for every vector with a negative entry; tests have none", "anchors": ["otpod/_sobol_indices.py:PODaggrKriging._exec"]}
{"id": "C48", "title": "The Sobol POD function evaluates the kriging POD", "statement": "The function whose sensitivity is computed should give, for parameters x and size a, the kriging POD 1 - Phi((threshold - m(a,x))/s(a,x)). Findings: the variance of the first defect size is used for every size (broadcast), and the kriging is evaluated at un-normalised inputs; hence the values agree with the kriging POD only if all variances are equal and the normalisation is the identity.", "quantifier": "every mean and variance vector, every normalisation", "why_tests_cant": "broadcasting error independent of data", "anchors": ["otpod/_sobol_indices.py:PODaggrKriging._exec"]}
{"id": "C49", "title": "Point and sample evaluation of the Sobol chaos function agree", "statement": "Evaluating the aggregated chaos POD function on a sample gives row by row the evaluation at each point (same residual draws), as long as the defect sizes of the Sobol object are those of the POD; after setDefectSizes on the Sobol object (finding) the point evaluation still uses the sizes of the POD.", "quantifier": "every sample, every defect list", "why_tests_cant": "two code paths compared on all inputs", "anchors": ["otpod/_sobol_indices.py:PODaggrChaos._exec", "otpod/_sobol_indices.py:PODaggrChaos._exec_sample"]}
{"id": "C50", "title": "Shape of the PLI index", "statement": "The PLI index is 0 iff the perturbed probability equals the reference one, has the sign of the difference, and 1 plus its absolute value is the ratio of the larger probability to the smaller one; it changes sign when the two probabilities are exchanged, increases with the perturbed probability and decreases with the reference one, and takes every real value. It is undefined (division by zero) exactly when one of the two probabilities is 0.", "quantifier": "every pair of probabilities", "why_tests_cant": "algebraic law for all pairs", "anchors": ["otpod/_pli.py:PLI._computePLIndices"]}
{"id": "C51", "title": "No perturbation means PLI index 0", "statement": "If the perturbed density equals the original density at every failure point, the perturbed probability equals the reference one, the index is 0 and its estimator has standard deviation 1e-30, provided the event uses a strict comparison. Finding: for LessOrEqual / GreaterOrEqual events the failure sample drops the points equal to the threshold, so the index can be negative or the analysis can fail without any perturbation. The likelihood ratio of a point is the quotient of the two densities of the perturbed parameter alone.", "quantifier": "every output sample, threshold and comparison operator", "why_tests_cant": "equality with the threshold is a measure-zero event never drawn in tests", "anchors": ["otpod/_pli.py:PLI._getFailureSample", "otpod/_pli.py:PLI._computePfdelta", "otpod/_pli.py:PLI._computePLIndices"]}
{"id": "C52", "title": "PLI confidence intervals", "statement": "The variance of the perturbed probability and the variance of the index estimator are never negative (so a confidence interval always exists when 0 < pf < 1 and the perturbed probability is positive), and the confidence interval at any level contains the index and grows with the level.", "quantifier": "every failure sample, every likelihood ratio, every level", "why_tests_cant": "Cauchy-Schwarz type inequality for all samples", "anchors": ["otpod/_pli.py:PLI._computeVariancePfdelta", "otpod/_pli.py:PLI._computeEstimatorDistribution", "otpod/_pli.py:PLI.computeConfidenceInterval"]}
{"id": "C53", "title": "Shape of the deltas", "statement": "Deltas given as a vector, or as a one-column matrix, are applied identically to all the parameters; a matrix with another number of columns is accepted iff it has one column per parameter and is then used column-wise; otherwise AttributeError. Scalars raise TypeError and empty sequences ValueError. Every accepted delta array has one column per parameter. Finding: a three dimensional array is not rejected, its matrices are stacked.", "quantifier": "every shape up to three dimensions and every value of the deltas", "why_tests_cant": "all shapes", "anchors": ["otpod/_pli.py:PLI.__init__", "otpod/_pli_pod.py:PLIBase.__init__"]}
{"id": "C54", "title": "Mean-perturbed densities", "statement": "The density used for a mean perturbation of a normal parameter is the original density moved so that its mean is the requested one, the variance being kept; that of a uniform parameter on [a,b] is an exponential tilt, positive on [a,b] and 0 outside, of total mass 1, and its mean is the requested one exactly when the tilt parameter solves the equation given to the root solver. That equation has exactly one solution when the requested mean is strictly inside (a,b) and none otherwise. Finding: requested means outside of (a,b) are not rejected although no density of the family has them; for sigma-scaled deltas d these are exactly the ones with |d| >= sqrt 3.", "quantifier": "every mean, every bounds, every tilt parameter", "why_tests_cant": "integral identities and existence of a root for all parameters", "anchors": ["otpod/_pli.py:PLIMeanBase._perturbedMarginalPDF", "otpod/_pli.py:PLIMeanBase.__init__"]}
{"id": "C55", "title": "Variance perturbation: checks and unit conversion", "statement": "PLIVariance rejects deltas exactly when they are not all positive and are not scaled by the mean, and converts scaled deltas d of parameter i to (d mean_i + std_i)^2 (not to d times the variance as documented: finding); PLIMean converts sigma-scaled deltas to mean_i + d std_i. A scaled delta of 0 is no perturbation; neither is any scaled variance delta of a parameter of mean 0 (finding).", "quantifier": "every delta matrix, means and standard deviations", "why_tests_cant": "all values", "anchors": ["otpod/_pli.py:PLIMeanBase.__init__", "otpod/_pli.py:PLIVarianceBase.__init__"]}
{"id": "C56", "title": "PLI over the defect sizes: bookkeeping", "statement": "After run, indices are available exactly for the defect sizes whose reference probability is strictly between 1e-3 and 0.999 and are NaN for the others; getPLIObject returns the PLI of that very size or raises; getIndices(delta, parameter, defect) with any of the three arguments omitted returns the corresponding slice, every entry being the index of that delta, parameter and size. Before any run getPLIObject raises AttributeError; an index outside of the array makes getIndices raise IndexError. Finding: after setDefectSizes without run, stale bookkeeping lets getPLIObject return a placeholder class instead of raising, and getIndices is 0 everywhere. Finding: a setDefectSizes that raises still replaces the sizes, and when there are more of them no later run succeeds.", "quantifier": "every list of probabilities, every combination of the three optional arguments, every history of run/setDefectSizes", "why_tests_cant": "all eight slicing modes on all shapes, and call histories", "anchors": ["otpod/_pli_pod.py:PLIBase.run", "otpod/_pli_pod.py:PLIBase.getIndices", "otpod/_pli_pod.py:PLIBase.getPLIObject", "otpod/_pli_pod.py:PLIBase.setDefectSizes"]}
{"id": "C57", "title": "PODSummary method activation", "statement": "setMethodActive raises NameError iff the name is unknown and ValueError iff the name is known and the flag is not a boolean, leaving everything unchanged in both cases, and otherwise changes exactly that flag. run succeeds iff the analysis and every active and applicable method succeed (kriging applies when the input has more than one column); each object is built with the simulation and sampling sizes in force. Each get...POD raises iff the method is not active, is kriging on one-dimensional data, or has no object; otherwise it returns the object built by the latest run that built one. Findings: when run raises, the accessor of the failing method returns an object that was never run; the dictionary returned by getMethodActive is the internal one, so that writing in it skips both checks.", "quantifier": "every history of setMethodActive / setSimulationSize / setSamplingSize / run calls, every pattern of failures", "why_tests_cant": "unbounded histories", "anchors": ["otpod/_pod_summary.py:PODSummary.setMethodActive", "otpod/_pod_summary.py:PODSummary.run", "otpod/_pod_summary.py:PODSummary.getKrigingPOD", "otpod/_pod_summary.py:PODSummary.getMethodActive"]}
{"id": "C58", "title": "PODSummary result table", "statement": "After a run the detection size table has the title row, one row per active and applicable method, in a fixed order under its own label, holding that method's rounded detection sizes, or -1, -1 when they cannot be computed; a failure of the detection sizes of one method changes no other row. The validation table has the R2 of the linear regression and the R2 / Q2 of the other active methods. Findings: the report raises iff a quality figure of an active quantile regression, chaos or kriging cannot be computed; activating such a method after the run always makes it raise, while a linear method activated after the run is reported as -1, -1.", "quantifier": "every history, every set of active methods, every failure pattern, all levels", "why_tests_cant": "2^6 activation patterns times failures", "anchors": ["otpod/_pod_summary.py:PODSummary._buildPrintResults", "otpod/_pod_summary.py:PODSummary.getResults"]}
{"id": "C59", "title": "Progress bar", "statement": "updateProgress(i, n) never divides by zero for n >= 1 and raises ZeroDivisionError for n = 0; over i = 0..n-1 the last call prints 100% and Done, the number of lines printed is bounded, printed progress is non decreasing, and the bar always has the full length.", "quantifier": "every n and i and flush count", "why_tests_cant": "all n; half-even rounding of n/flush", "anchors": ["otpod/_progress_bar.py:updateProgress"]}
{"id": "C60", "title": "Default defect sizes", "statement": "In double precision the default defect sizes of the kriging, adaptive signal, hit-miss and chaos POD (20 or 10 values of numpy.linspace) are as many as _defectNumber, sorted, inside the range of the uncensored defects, start at the smallest and end at the largest defect, each within 2^-49 times the largest magnitude of the exactly equally spaced value, and setDefectSizes accepts them and leaves them unchanged. Finding: on a range of a few times the smallest positive double they leave the range, are not sorted, and setDefectSizes refuses them.", "quantifier": "all finite bounds of magnitude at most 2^1021 whose difference is 0 or at least (n-1)*2^-1021, all n from 2 to 2^50", "why_tests_cant": "Rounding of every point for all pairs of doubles.", "anchors": ["otpod/_kriging_pod.py:135-140", "otpod/_adaptive_signal_pod.py:164-169", "otpod/_adaptive_hitmiss_pod.py:156-161", "otpod/_polynomial_chaos_pod.py:133-139"]}
{"id": "C61", "title": "Plot interval checks", "statement": "drawPOD of the kriging, chaos, hit-miss and quantile regression POD accepts an interval [defectMin, defectMax] only if both bounds are inside the range on which the curve is defined, so drawing never evaluates the curve outside its domain when defectMin <= defectMax; missing bounds are replaced by the ends of that range. Finding: for the quantile regression this needs non negative defects; with a negative defect the default interval leaves the domain of the curve.", "quantifier": "every pair of optional bounds", "why_tests_cant": "all bounds", "anchors": ["otpod/_kriging_tools.py:KrigingBase.drawPOD", "otpod/_quantile_regression_pod.py:QuantileRegressionPOD.drawPOD"]}
{"id": "C62", "title": "Dispatch of the linear POD on the residual hypothesis", "statement": "UnivariateLinearModelPOD.run computes the binomial POD when no distribution factory is given, the Gaussian POD for a NormalFactory and the bootstrap POD for any other factory; the confidence curve offered afterwards is of the same kind as the POD curve.", "quantifier": "every factory value and every history of runs", "why_tests_cant": "all factories", "anchors": ["otpod/_univariate_linear_model_pod.py:UnivariateLinearModelPOD.run", "otpod/_univariate_linear_model_pod.py:UnivariateLinearModelPOD.getPODCLModel"]}
{"id": "C63", "title": "Attributes missing from AdaptiveSignalPOD", "statement": "KrigingPOD and AdaptiveSignalPOD share drawValidationGraph, getKrigingResult and the PLI / Sobol analyses. For KrigingPOD they work after run (getKrigingResult returns None with a message before run); for AdaptiveSignalPOD (finding) drawValidationGraph and PLI raise AttributeError in every history, run or not, and getKrigingResult raises AttributeError before run.", "quantifier": "every history of public method calls on both classes", "why_tests_cant": "attribute presence over all histories", "anchors": ["otpod/_adaptive_signal_pod.py:AdaptiveSignalPOD.__init__", "otpod/_kriging_tools.py:KrigingBase.getKrigingResult", "otpod/_pli_pod.py:PLIBase.__init__", "otpod/_kriging_pod.py:KrigingPOD.run"]}
{"id": "C64", "title": "Documentation inheritance decorators", "statement": "keepingArgs changes no result and no exception of any call. A method decorated with DocInherit and accessed on an instance whose truth value is true is bound to that instance, keeps name and module, and has the docstring of the first class after the instance's class (not after the class that defines the method) in the resolution order that owns '_' + method name; NameError is raised when there is none. Accessed on a class it takes its arguments as they are, with the docstring of the first parent that has the attribute; in single inheritance this is the same docstring. All the decorated methods of the POD classes get the docstring of POD. Findings: any access to such a method on KrigingBase itself raises NameError; the method of an instance whose truth value is false is not bound to it; under multiple inheritance the class and its instances can show different docstrings.", "quantifier": "all class hierarchies, methods, instances, positional and keyword arguments", "why_tests_cant": "Needs odd hierarchies, subclasses with __len__ or __bool__, and all ways of passing arguments.", "anchors": ["otpod/_decorator.py:30-84"]}
{"id": "C65", "title": "Defect sizes changed after run", "statement": "For the kriging, adaptive signal, chaos and hit-miss POD, after setDefectSizes without a new run the POD curve remains the one of the sizes used by run, whereas (finding) the confidence curves pair the new sizes with the simulated values of the old ones: getPODCLModel raises ValueError when the number of sizes changed, and otherwise reports at the j-th new size the confidence value of the j-th old size, so that the confidence curve can exceed the POD curve.", "quantifier": "every pair of size lists, every simulated sample, every confidence level", "why_tests_cant": "tests never call setDefectSizes after run", "anchors": ["otpod/_kriging_tools.py:KrigingBase.getPODCLModel", "otpod/_kriging_tools.py:KrigingBase.setDefectSizes", "otpod/_polynomial_chaos_pod.py:PolynomialChaosPOD.getPODCLModel", "otpod/_adaptive_hitmiss_pod.py:AdaptiveHitMissPOD.getPODCLModel"]}
{"id": "C66", "title": "The zero mean test of the residuals", "statement": "The zero mean test returns a p-value in [0,1], the same for the residuals and their opposites. Finding: on the residuals of a least squares fit with a constant term (every uncensored analysis) the statistic is 0 and the p-value 1 whatever the data, so the test can never reject.", "quantifier": "every data set with non constant sizes, every distribution function symmetric and increasing", "why_tests_cant": "tests compare one p-value, vacuity needs all data sets", "anchors": ["otpod/_math_tools.py:computeZeroMeanTest"]}
{"id": "C67", "title": "Abscissas of the PLI graphs", "statement": "PLI.drawIndices draws index i of a parameter at delta i, or at the Hellinger value of delta i (with a minus sign iff the delta is below the original moment), when the deltas were given as a vector of floats. Finding: deltas given per parameter can never be drawn (ValueError for every matrix with at least two columns), and deltas given as integers truncate the Hellinger abscissas, so all the points with a Hellinger value below 1 are drawn at 0. The Hellinger value is the integral of (sqrt f - sqrt g)^2, between 0 and 2: the square of the distance, without its root (finding).", "quantifier": "every delta array, every Hellinger values and indices", "why_tests_cant": "tests never draw matrix deltas nor read the abscissas", "anchors": ["otpod/_pli.py:PLI.drawIndices"]}
{"id": "C68", "title": "Variance-perturbed densities", "statement": "The density used for a variance perturbation of a normal parameter is the normal density with the same mean and the requested variance; that of a uniform parameter is positive on [a,b], 0 outside and of mass 1 for every multiplier, gradH and hessianH are the exact first and second derivatives of the function H given to the optimiser, the Hessian is positive definite, the gradient vanishes exactly when the density has the original mean and the requested variance, and it vanishes for at most one multiplier. Finding: requested variances of at least three times the original one are not rejected although the gradient never vanishes for them.", "quantifier": "every mean, bounds, requested variance and multipliers", "why_tests_cant": "integral and derivative identities for all parameters", "anchors": ["otpod/_pli.py:PLIVarianceBase._perturbedMarginalPDF", "otpod/_pli.py:PLIVarianceBase.__init__"]}
{"id": "C69", "title": "File saved by PODSummary", "statement": "The file written by PODSummary.saveResults, read line by line and then at the tabulations, gives back every cell of the four tables in order. Finding: the title 'Model validation results' is never a line of the file, it is glued to the last cell of the last row of the residual table.", "quantifier": "all tables whose cells have neither tabulation nor new line", "why_tests_cant": "tests never read the file back", "anchors": ["otpod/_pod_summary.py:PODSummary.saveResults"]}
{"id": "C70", "title": "Graphs drawn by PODSummary", "statement": "PODSummary.drawGraphs returns, in a fixed order, the likelihood graph when Box-Cox is asked for, the graphs of the analysis (twice as many when censored) and, for every active and applicable method, its POD graph when it can be drawn and the graph of its model; it raises iff a graph other than a POD graph cannot be drawn. Findings: with the default probability level it always raises while the quantile regression is active (which is the default), and it always raises when a non null Box-Cox parameter is given as a float.", "quantifier": "every history, every failure pattern, all levels", "why_tests_cant": "tests call it with one configuration", "anchors": ["otpod/_pod_summary.py:PODSummary.drawGraphs", "otpod/_quantile_regression_pod.py:QuantileRegressionPOD.drawLinearModel", "otpod/_univariate_linear_model_analysis.py:UnivariateLinearModelAnalysis.drawBoxCoxLikelihood"]}
{"id": "C71", "title": "Defaults chosen by run", "statement": "KrigingPOD and PolynomialChaosPOD use the basis, covariance model, distribution, adaptive and projection strategy last given by the setters. Without any, the first run chooses a default, which the getters then return and every later run keeps: the default distribution does not follow later changes of the defect sizes, and (finding) the default adaptive strategy of the chaos is the one of the degree and distribution at the first run, so that setDegree afterwards changes getDegree but neither the strategy nor any later result.", "quantifier": "every history of setter calls and runs", "why_tests_cant": "needs two runs with a setter in between", "anchors": ["otpod/_polynomial_chaos_pod.py:PolynomialChaosPOD._buildChaosAlgo", "otpod/_polynomial_chaos_pod.py:PolynomialChaosPOD.setDegree", "otpod/_kriging_tools.py:KrigingBase._buildKrigingAlgo", "otpod/_kriging_pod.py:KrigingPOD.run"]}
{"id": "C72", "title": "Box-Cox parameter reported by QuantileRegressionPOD", "statement": "Before run, getBoxCoxParameter gives the float passed to the constructor and drawBoxCoxLikelihood raises AttributeError (an Exception when Box-Cox is off). With Box-Cox off getBoxCoxParameter is None after every history of calls. After a successful run with Box-Cox the POD curve is that of the data transformed with the parameter of the data, but (finding) getBoxCoxParameter and drawBoxCoxLikelihood give the parameter and graph of the last bootstrap sample, not those of the data, unless the simulation size is 0.", "quantifier": "all samples, all filters, optimisations and transformations (any of which may raise), all histories of setQuantile, setSimulationSize and successful or failed runs", "why_tests_cant": "The wrong parameter is a plausible number close to the right one, and changes at random with the bootstrap.", "anchors": ["otpod/_pod.py:290-348", "otpod/_pod.py:350-399", "otpod/_quantile_regression_pod.py:99-212"]}
{"id": "C73", "title": "Confidence curve of QuantileRegressionPOD after a run and after setQuantile", "statement": "After a successful run with at least one simulation, getPODCLModel(c) interpolates, at the quantile levels of the run, the c-quantiles over the bootstrap samples of the sizes found on each bootstrap sample. If setQuantile is called after the run, getPODModel is unchanged but (finding) getPODCLModel raises ValueError when the number of levels differs, and otherwise pairs the new levels with the sizes found for the old ones: the confidence curve can then be above the POD curve.", "quantifier": "all samples and solver results, all histories of calls before the run, all new levels, all confidence levels and sizes", "why_tests_cant": "Needs a setter called between run and the accessor, with as many levels as before.", "anchors": ["otpod/_quantile_regression_pod.py:153-212", "otpod/_quantile_regression_pod.py:226-252", "otpod/_quantile_regression_pod.py:276-290"]}
{"id": "C74", "title": "Standard deviation of the perturbation law indices", "statement": "With a strict comparison operator and positive probabilities, the two probabilities behind a PLI index are the means over the whole Monte Carlo sample of the failure indicator and of the indicator weighted by the likelihood ratio, and the standard deviation returned beside the index is the delta method on that sample: the sample size times its square is the empirical variance over the sample of g0*(indicator - pf) + g1*(weighted indicator - pfd), where g0 and g1 are the partial derivatives of the index (which is differentiable even where both probabilities are equal). It is 1e-30 when that variance is 0.", "quantifier": "all samples, thresholds, densities, perturbed densities, parameters", "why_tests_cant": "Tests compare with stored figures; the formula of the code only sums over failing points and groups terms, so that an error of grouping is not visible.", "anchors": ["otpod/_pli.py:166-281"]}
{"id": "C75", "title": "Number of detections used by the binomial confidence curve", "statement": "In double precision, UnivariateLinearModelPOD with binomial residuals computes the number of detections as trunc(size * proportion). When the proportion returned by the empirical distribution is within 2^-50 of k/n, the number used is k or k-1, never another, never negative, and k whenever the double is not below k/n; it is n when the proportion is 1. Finding: even when the double is the closest to k/n one detection can be lost (1 out of 49 counts as 0), and the confidence curve is then the one of k-1 detections.", "quantifier": "all sample sizes up to 2^40, all counts, all doubles", "why_tests_cant": "The loss depends on the last bit of a quotient for particular sizes; test samples do not hit it or only shift the curve slightly.", "anchors": ["otpod/_univariate_linear_model_pod.py:371-393"]}
{"id": "C76", "title": "Text printed by the linear analysis", "statement": "UnivariateLinearModelAnalysis.getResults returns a text whose lines are the two titles between bars, one line per row of each table in order, and one line per warning that is not empty. Every line shows the label, the uncensored and the censored cell in that order with at least one blank in between; the second column ends at column 61 and the third at column 75 as long as the cells have at most 13 characters. Finding: the row of the fitted distribution is longer than the others, so its last column is not aligned.", "quantifier": "all figures, both censoring states, all printed forms of numbers and distributions without tabulation or new line", "why_tests_cant": "tests never read the printed text", "anchors": ["otpod/_univariate_linear_model_analysis.py:347-388"]}
{"id": "C77", "title": "Text returned by PODSummary.getResults", "statement": "For every history of calls, PODSummary.getResults returns a text exactly when the tables can be built; its lines are the two titles between bars, one line per row of the validation and POD tables showing all the cells in order and separated, and, for censored data, one warning naming in order exactly the active and applicable methods among quantile regression, chaos and kriging. Finding: with only linear methods active the warning still appears and names no method.", "quantifier": "every history of activation, setters and runs, every failure pattern, all levels", "why_tests_cant": "tests never read the text", "anchors": ["otpod/_pod_summary.py:442-502"]}
{"id": "C78", "title": "Settings and result of SobolIndices", "statement": "After every history of calls, the method, distribution and simulation size of a SobolIndices object are the last accepted ones: setSensitivityMethod raises AttributeError iff the name is not one of the four, setDistribution raises ValueError iff the argument is not a JointDistribution and AttributeError iff its dimension is wrong, and a refused call changes nothing. getSensitivityResult raises iff no run succeeded, otherwise it is the object computed by the last successful run on the non constant outputs with the method, distribution, simulation size (chaos only) and sizes in force at that run. drawFirstOrderIndices and drawTotalOrderIndices raise AttributeError iff the labels are not as many as the parameters; they draw the indices of output i at the i-th size. Findings: before any successful run they draw an empty graph without an error (drawAggregatedIndices raises AttributeError), and the title names the method set last, which need not be the one that computed the indices.", "quantifier": "all histories of setters and runs, all outputs and failures of the external computations, all labels", "why_tests_cant": "Needs setters called between run and drawing; tests run once and draw at once.", "anchors": ["otpod/_sobol_indices.py:SobolIndices.setSensitivityMethod", "otpod/_sobol_indices.py:SobolIndices.setDistribution", "otpod/_sobol_indices.py:SobolIndices.run", "otpod/_sobol_indices.py:SobolIndices._drawIndices", "otpod/_sobol_indices.py:SobolIndices.getSensitivityResult"]}
{"id": "C79", "title": "Settings, run and graphs of PLIMean and PLIVariance", "statement": "After every history of calls the distribution, sampling size and integration algorithm of a PLIMean or PLIVariance object are the last accepted ones: setDistribution raises ValueError iff the argument is not a JointDistribution and AttributeError iff its dimension is wrong, setGaussKronrod raises AttributeError for an argument that cannot be copied, and refused calls change nothing. run estimates the probabilities with the distribution and sampling size in force and computes the indices of exactly the kept sizes with the integration algorithm in force; drawIndices(i) then draws the object of the i-th size under the name of that size, or raises when it was not kept. drawContourIndices raises AttributeError iff the parameter is at or above the dimension, IndexError below minus the dimension, TypeError with fewer than two kept sizes or deltas, and otherwise shows at row i and column j the index for delta i and the j-th kept size; the columns are at the kept sizes iff these are equally spaced, and likewise the rows. Findings: left out, the scaling flag is True though documented False (and then PLIVariance accepts non positive deltas); decreasing deltas are drawn upside down; after new sizes are accepted and before the next run the contour is drawn with zeros.", "quantifier": "all histories of setters and runs, all outputs of the external computations, all deltas, sizes, dimensions and requested parameters", "why_tests_cant": "Tests check one figure is produced on one set of increasing equally spaced deltas; the content and the histories are never read.", "anchors": ["otpod/_pli_pod.py:PLIBase.setDistribution", "otpod/_pli_pod.py:PLIBase.setGaussKronrod", "otpod/_pli_pod.py:PLIBase.run", "otpod/_pli_pod.py:PLIBase.drawIndices", "otpod/_pli_pod.py:PLIBase.drawContourIndices", "otpod/_pli_pod.py:PLIMean", "otpod/_pli_pod.py:PLIVariance"]}
{"id": "C80", "title": "Linear model POD from the data to the curve", "statement": "_computeLinearModel fits exactly the observations strictly between the given thresholds (all of them for uncensored data), in order, after one strictly increasing transformation applied to their signals, to the detection threshold and to the thresholds of the censored likelihood; the line is the least squares one, or the censored maximum likelihood started from it, and the residuals are those of that line. Berens' POD at size x is the part of these observations that would exceed the detection threshold if each were moved along the fitted line from its own size to x; at its own size an observation counts iff its signal exceeds the threshold. Without Box-Cox and censoring the binomial, Gaussian and bootstrap mean curves are unchanged by any change of unit or origin of sizes and signals, for every kind of data the curves do not depend on the order of the observations (when the optimisers do not), and Berens' curve is unchanged when every observation is repeated.", "quantifier": "all data, thresholds, detection thresholds, sizes, units, permutations, all outputs of the optimisers", "why_tests_cant": "Tests run one data set once; invariance and the meaning of the curve are relations between runs on arbitrary data.", "anchors": ["otpod/_univariate_linear_model_pod.py:_computeLinearModel", "otpod/_univariate_linear_model_pod.py:UnivariateLinearModelPOD.run", "otpod/_univariate_linear_model_pod.py:UnivariateLinearModelPOD._PODbinomialModel", "otpod/_univariate_linear_model_pod.py:UnivariateLinearModelPOD._PODgaussModel", "otpod/_univariate_linear_model_pod.py:UnivariateLinearModelPOD._PODbootstrapModel"]}
{"id": "C81", "title": "Bootstrap confidence collection of the linear model POD", "statement": "After a run of UnivariateLinearModelPOD with a residual distribution factory other than NormalFactory, the collection behind getPODCLModel has as many curves as the simulation size, and the i-th curve is the mean curve of a new object with the same settings run on the i-th bootstrap sample, whose rows are rows of the data with their own signal; each curve lies in [0,1] and is monotone in the sense of its own slope. run raises iff the fit, the factory or one of the samples raises, with the first of these exceptions; then the collection is the previous one while the mean curve is already the new one. With an empirical factory the mean curve is Berens' curve. With NormalFactory run succeeds iff the fit keeps at least three observations; the i-th of its simulationSize curves is the normal exceedance probability of the line moved by the i-th simulated pair and deviation; with fewer observations the mean curve is new and the collection old. Findings: the Box-Cox shift is recomputed on every sample, so one sample without the negative signals can make run fail although the data are fine; a function returned by getPODModel before another run combines the old residuals with the new line and threshold.", "quantifier": "all data, settings, simulation sizes, bootstrap draws, optimiser and factory outcomes, all histories of runs", "why_tests_cant": "Tests compare one number for one seed; a failing sample or a function kept over two runs never occurs in them.", "anchors": ["otpod/_univariate_linear_model_pod.py:UnivariateLinearModelPOD._PODbootstrapModelCl", "otpod/_univariate_linear_model_pod.py:UnivariateLinearModelPOD._PODbootstrapModel", "otpod/_univariate_linear_model_pod.py:UnivariateLinearModelPOD.run"]}
{"id": "C82", "title": "Box-Cox likelihood with a linear trend", "statement": "The value of ReducedLogLikelihood at lambda is, up to a constant that depends only on the number of observations, the maximum over all lines and all standard deviations of the log-likelihood of the signals whose Box-Cox transforms are normal around a line (density with the derivative of the transformation); the maximum is reached. So of two lambdas the one with the larger value has the larger maximum likelihood. Multiplying the signals by c > 0 and changing unit and origin of the defect sizes shifts every value by -N ln c. For sizes not all equal the evaluation raises iff a signal is not positive, or there are exactly two observations, or the transformed signals lie exactly on a line. The starting point of the search of LinearBoxCoxFactory is a point of its grid, inside the bounds, with the largest value of the grid, and the grid contains both bounds. computeBoxCox returns the parameter of the transformation built from the signals and the shift for each of the three interfaces of the library it supports, with an empty graph for the one that gives none, and passes on its exceptions.", "quantifier": "all data, lambdas, lines, deviations, units, bounds and grid sizes, libraries", "why_tests_cant": "A test can compare the value with another implementation for one sample; it cannot show that no line and deviation does better.", "anchors": ["otpod/_math_tools.py:ReducedLogLikelihood.__init__", "otpod/_math_tools.py:ReducedLogLikelihood._exec", "otpod/_math_tools.py:LinearBoxCoxFactory.build", "otpod/_math_tools.py:computeBoxCox"]}
{"id": "C83", "title": "Linear analysis from the data to its results, samples and graphs", "statement": "UnivariateLinearModelAnalysis uses exactly the observations whose signal is strictly between the given thresholds, in order, with the signals changed by one increasing function (none without Box-Cox); the uncensored line is their least squares line, the censored one is what the likelihood gives when started from it with the transformed thresholds and the sizes of the censored observations. getResiduals has one row per observation used and one named column per model, each row saying signal = line + residual; the first column sums to zero and is orthogonal to the sizes, the columns differ by a linear function of the size; getResidualsDistribution gives the law fitted to each column in the same order. UnivariateLinearModelPOD on the same data, arguments and optimisers has the same line, standard error, residuals and Box-Cox parameter (those of the censored model when a threshold is given), and its fit exists iff the shifted detection threshold is positive or Box-Cox is off. Thresholds that censor nothing leave the uncensored results unchanged. drawLinearModel and drawResiduals raise NameError iff the model asked for does not exist and otherwise show every observation used with the line of that model. Finding: the vertical axis is labelled 'Box Cox (signals)' for the censored model even without Box-Cox, and 'Signals' for the uncensored one even with it.", "quantifier": "all data, thresholds, Box-Cox arguments, optimiser, factory and test outcomes, model names", "why_tests_cant": "Tests compare numbers of two data sets; the agreement of the two classes and the content of the figures are not looked at.", "anchors": ["otpod/_univariate_linear_model_analysis.py:UnivariateLinearModelAnalysis._run", "otpod/_univariate_linear_model_analysis.py:UnivariateLinearModelAnalysis.getResiduals", "otpod/_univariate_linear_model_analysis.py:UnivariateLinearModelAnalysis.getResidualsDistribution", "otpod/_univariate_linear_model_analysis.py:UnivariateLinearModelAnalysis.drawLinearModel", "otpod/_univariate_linear_model_analysis.py:UnivariateLinearModelAnalysis.drawResiduals"]}
{"id": "C84", "title": "Content of the POD graph", "statement": "drawPOD of the linear, kriging, chaos, hit-miss and quantile regression classes draws the POD curve on the interval given (by default the range of the class); with a confidence level also the curve of getPODCLModel at this level on the same interval; with a probability level the horizontal line at this level over the interval and one vertical line up to it at each size returned by computeDetectionSize, in its order. It raises exactly when an interval bound is outside of the range (never in the linear class), or getPODCLModel raises, or computeDetectionSize raises. For the classes that solve on their whole range, with continuous curves, each vertical line stops on the curve of the same confidence level at the probability level, inside the range. Findings: a given interval is ignored by the detection size, so the vertical line may be outside of the figure; and in the linear class, which accepts an interval wider than the data, the method raises although the wider interval contains a size where the curve reaches the level.", "quantifier": "all classes, curves, levels, intervals, numbers of points", "why_tests_cant": "Tests only check that drawing does not fail for one interval.", "anchors": ["otpod/_pod.py:POD._drawPOD", "otpod/_univariate_linear_model_pod.py:UnivariateLinearModelPOD.drawPOD", "otpod/_kriging_tools.py:KrigingBase.drawPOD", "otpod/_polynomial_chaos_pod.py:PolynomialChaosPOD.drawPOD", "otpod/_adaptive_hitmiss_pod.py:AdaptiveHitMissPOD.drawPOD", "otpod/_quantile_regression_pod.py:QuantileRegressionPOD.drawPOD"]}
{"id": "C85", "title": "Validation, model and density graphs", "statement": "The validation graph needs as many predictions as signals and at least one; it shows all pairs, and no point is outside of the axes exactly when no signal nor prediction is negative (finding: the lowest point is outside of the axes when it is negative). drawPolynomialChaosModel raises iff the input dimension is not 1 and otherwise shows every observation and the chaos predictions at the same defects in increasing order. QuantileRegressionPOD.drawLinearModel(p) shows the data and the regression line of level 1-p at the defects; when the fit minimises its criterion, at least the share p of the observations is on or above this line and at most the share p strictly above. PLI.drawMarginal1DPDF draws the perturbed density for the delta of the given row and variable on regular points between xMin and xMax (default: quantiles 0.05 and 0.95 of the original density), the original density on the same points, and fails only for an index outside of the deltas.", "quantifier": "all data, predictions, models, levels, deltas, bounds", "why_tests_cant": "Tests only check that drawing does not fail.", "anchors": ["otpod/_pod.py:POD._drawValidationGraph", "otpod/_polynomial_chaos_pod.py:PolynomialChaosPOD.drawValidationGraph", "otpod/_kriging_tools.py:KrigingBase.drawValidationGraph", "otpod/_polynomial_chaos_pod.py:PolynomialChaosPOD.drawPolynomialChaosModel", "otpod/_quantile_regression_pod.py:QuantileRegressionPOD.drawLinearModel", "otpod/_pli.py:PLI.drawMarginal1DPDF"]}
{"id": "C86", "title": "Graphs and failures during the enrichment", "statement": "With setGraphActive(False) the graph options have no effect on run. With graphs that can be drawn, AdaptiveSignalPOD.run and AdaptiveHitMissPOD.run end in the state and with the outcome they have without graphs and save one file per iteration in the directory given; the signal class creates the directory when it does not exist. Finding: the hit-miss class does not, and its run stops with OSError after the physical model has been evaluated and the points of the first iteration have been added. A graph that cannot be drawn at some iteration stops run there, with the points of the iterations up to it kept and the graphs of the ones before saved. Whatever fails during the enrichment of AdaptiveSignalPOD (criterion, physical model, optimisation of the covariance, graph, candidates running out), every value computed by the physical model is kept beside its point, each candidate is used at most once, and the only point that can be without a value is the one at which the physical model failed. When the Q2 of the first iteration of a run is below 0.95 and the optimisation of the covariance fails, run stops with that error, the new point and its value kept and the kriging still the one before.", "quantifier": "all designs, candidates, numbers of points, directories, disks, physical models, classifiers, iterations at which something fails", "why_tests_cant": "Tests run one short enrichment without graphs; the failures happen only at particular iterations or with a directory that does not exist.", "anchors": ["otpod/_adaptive_signal_pod.py:AdaptiveSignalPOD.run", "otpod/_adaptive_signal_pod.py:AdaptiveSignalPOD.setGraphActive", "otpod/_adaptive_hitmiss_pod.py:AdaptiveHitMissPOD.run", "otpod/_adaptive_hitmiss_pod.py:AdaptiveHitMissPOD.setGraphActive"]}
{"id": "C87", "title": "Search of the covariance parameters", "statement": "With a positive initial start size the kriging is fitted from that many starting points, all inside of the bounds, and its covariance parameters are in [0.001, 50] and at least as likely as each starting point; the only failures of the settings are bounds that are not a box. With a size that is zero or negative the parameters are those of the covariance model given, whatever the data.", "quantifier": "all dimensions, sizes, starting parameters, likelihoods, bounds", "why_tests_cant": "Tests fix one size and compare with stored numbers.", "anchors": ["otpod/_kriging_tools.py:KrigingBase._estimKrigingTheta", "otpod/_kriging_pod.py:KrigingPOD.run", "otpod/_adaptive_signal_pod.py:AdaptiveSignalPOD.run"]}
{"id": "C88", "title": "Settings of the POD classes", "statement": "A setter (verbosity, simulation size, sampling size, initial start size, candidate size, distribution, graph options) succeeds iff the class has it and its arguments have the types it checks: a bool for the verbosity and the graph switch, a string or None for the directory, a JointDistribution for the distribution; sizes and levels are not checked. Otherwise it raises AttributeError (no such method), ValueError (distribution) or TypeError (the others) and changes nothing. After any sequence of calls with failures in between, each setting is what the last accepted call about it said, or the default of its class; the four graph options change together. The adaptive runs keep a distribution given by the user and set the default one otherwise, once. Finding: after a successful first run of AdaptiveHitMissPOD, getConfusionMatrix returns None and prints that run must be launched exactly when nMorePoints is 0.", "quantifier": "all classes, sequences of calls, arguments, runs", "why_tests_cant": "Tests call one setter with one value.", "anchors": ["otpod/_kriging_tools.py:KrigingBase.setVerbose", "otpod/_kriging_tools.py:KrigingBase.setDistribution", "otpod/_pod.py:POD.setSimulationSize", "otpod/_polynomial_chaos_pod.py:PolynomialChaosPOD.setSamplingSize", "otpod/_adaptive_signal_pod.py:AdaptiveSignalPOD.setGraphActive", "otpod/_adaptive_hitmiss_pod.py:AdaptiveHitMissPOD.getConfusionMatrix", "otpod/_pod_summary.py:PODSummary.setVerbose"]}
{"id": "C89", "title": "Law of the chaos coefficients", "statement": "PolynomialChaosPOD.run builds a law for the simulated coefficients exactly when the number of terms plus one is less than the number of observations and some residual is not zero; otherwise it raises. The mean of the law is the fitted coefficients and its covariance is one positive number times the inverse Gram matrix of the basis, symmetric positive definite; that number (sum of squared residuals over one chi-square realisation) is drawn once and shared by all simulations. The simulated values have the prediction as mean; at an observation their variance is the leverage times that number. With independent noise of variance s2, the least squares coefficients have covariance s2 times the inverse Gram matrix. Finding: the error variance is estimated with n - p - 1 degrees of freedom instead of n - p, so on average it exceeds s2 by the factor (n - p)/(n - p - 1).", "quantifier": "all bases, data, sizes, noises of finite support", "why_tests_cant": "Tests compare a simulated POD with reference numbers at a low precision.", "anchors": ["otpod/_polynomial_chaos_pod.py:PolynomialChaosPOD.run", "otpod/_polynomial_chaos_pod.py:PolynomialChaosPOD._buildChaosFunction", "otpod/_polynomial_chaos_pod.py:PolynomialChaosPOD.getCoefficientDistribution"]}
{"id": "C90", "title": "Pseudo R2 of the quantile regression", "statement": "QuantileRegressionPOD.getR2 raises AttributeError before a run. After it, when the regression minimises its criterion and the signals are not all equal, the value lies in [0, 1], no line has a better one at this level, and it is 1 exactly when all observations are on the line; when all signals are equal it is undefined. It does not depend on the units of the signals and defects. Finding: getR2(p), which PODSummary reports beside the detection size of level p, is about the regression of level p, whereas the detection size and drawLinearModel(p) use the regression of level 1 - p: the reported value can be 0.5, below the advised 0.6, when the regression used has 0.75, and conversely.", "quantifier": "all data, levels in ]0, 1[, minimising regressions", "why_tests_cant": "The tests compare getR2(0.9) with a stored number.", "anchors": ["otpod/_quantile_regression_pod.py:QuantileRegressionPOD.getR2", "otpod/_quantile_regression_pod.py:QuantileRegressionPOD.computeDetectionSize", "otpod/_quantile_regression_pod.py:QuantileRegressionPOD.drawLinearModel", "otpod/_pod_summary.py:PODSummary._buildPrintResults"]}
{"id": "C91", "title": "Data behind the objects of one PODSummary", "statement": "All objects of a PODSummary fit the same observations: those with a signal strictly between the given thresholds, in order, with the same transformed signals, detection threshold and Box-Cox parameter; the quantile regression and linear classes see the first column of the rows the chaos and kriging classes see. The preliminary treatment of the chaos, kriging and quantile regression classes succeeds for all of them or for none; the linear fit only fails with it, when no observation is left, or when its optimiser does. When boxCox is a flag, the last R2 of the validation table is getR2 of the regression of the three linear objects. Finding: when boxCox is a number the analysis uses it while the objects use the optimised one, so the reported R2 can be 1 although the regression the sizes come from does not fit.", "quantifier": "all samples, thresholds, boxCox arguments, optimisers", "why_tests_cant": "Tests build each class alone.", "anchors": ["otpod/_pod_summary.py:PODSummary.run", "otpod/_pod.py:POD._run", "otpod/_univariate_linear_model_pod.py:UnivariateLinearModelPOD.getR2", "otpod/_univariate_linear_model_analysis.py:UnivariateLinearModelAnalysis._computeTests"]}
{"id": "C92", "title": "Laws of the Monte Carlo points and expectation of the POD curves", "statement": "At each node the mean POD curve of KrigingPOD (and the final one of AdaptiveSignalPOD) is an unbiased estimate, for every simulation and sampling size, of the average over the parameters of the probability that the kriging signal exceeds the threshold, although all points of a realisation share one normal draw; the same holds for PolynomialChaosPOD with its residual draws and for AdaptiveHitMissPOD with the classifier probabilities. The law of the defect in the distribution given to setDistribution, and its dependence on the parameters, are never used. The kriging classes draw the parameters independently from their marginals; the chaos and hit-miss classes, and the reference POD of the adaptive criterion, draw them jointly; the two agree with one parameter and with independent coordinates. Findings: with dependent parameters the kriging POD (and the default law of the Sobol and PLI analyses) differs from the chaos POD for one and the same meta-model (1/4 against 1/2); with a parameter depending on the defect no class uses its law for the size considered.", "quantifier": "all distributions (expectations), dimensions, thresholds, meta-models, conditional variances >= 0, sizes N, M >= 1, all centred standard draws", "why_tests_cant": "an expectation over all random draws is never observed by a test, and the tests use independent uniform laws only", "anchors": ["otpod/_kriging_tools.py:KrigingBase._computePODSamplePerDefect", "otpod/_polynomial_chaos_pod.py:PolynomialChaosPOD._computePOD", "otpod/_adaptive_hitmiss_pod.py:AdaptiveHitMissPOD._computePOD", "otpod/_sobol_indices.py:SobolIndices.__init__"]}
{"id": "C93", "title": "The perturbed probability of the PLI as an importance sampling estimate", "statement": "When the Monte Carlo points are drawn from the product of the marginal densities, the perturbed failure probability of one marginal and one delta never fails to be computed and is, for every simulation size, an unbiased estimate of the probability of the (strict) failure event under the density with the perturbed marginal, restricted to the points where the original density is positive; this is the full perturbed probability as soon as the perturbed density vanishes with the original one at the failing points. The variance given to the estimator has expectation (N-1)/N times the variance of one weight, and the estimate itself has variance 1/N times the latter. Finding: when the perturbation moves the law outside of the original support the estimate misses these failures and can be 0 for every sample while the perturbed law always fails.", "quantifier": "all densities, dimensions, marginals, perturbed densities, performance functions, thresholds, the four operators, all simulation sizes N >= 1", "why_tests_cant": "expectations over all Monte Carlo samples are out of reach of tests, which compare one seeded run with a stored value", "anchors": ["otpod/_pli.py:PLI._computePfdelta", "otpod/_pli.py:PLI._computeVariancePfdelta", "otpod/_pli.py:PLI._computePerturbedPDF", "otpod/_pli.py:PLI._getFailureSample"]}
{"id": "C94", "title": "The confidence curve of the hit-miss POD is a share of the parameter points", "statement": "From the final classifier to the curves of AdaptiveHitMissPOD: at a defect size the POD curve is the mean, and the curve of getPODCLModel(c) the quantile 1 - c, of the class 1 probabilities the classifier gives to the Monte Carlo points at that size. Up to half a point, at most (1 - c) N of the points have a smaller probability than the confidence value and at most c N a larger one. For a classifier that decides every point (probability 0 or 1) the POD is the share of detected points while the confidence value is 0 as soon as more than (1 - c) N points are missed and 1 as soon as fewer are. Finding: the curve is therefore not a confidence bound on the POD; with a perfectly known classifier and 9 points out of 10 detected the POD is 0.9 at every size while the curve at confidence 0.95 is 0 for every sampling size 10 n, n >= 2, so that no amount of observations or sampling brings it near the POD.", "quantifier": "all classifiers, strictly increasing defect sizes, Monte Carlo points, confidence levels in [0, 1], all sampling sizes", "why_tests_cant": "tests compare the curve of one seeded run with a stored value, for one classifier, one sampling size and one confidence level", "anchors": ["otpod/_adaptive_hitmiss_pod.py:AdaptiveHitMissPOD._computePOD", "otpod/_adaptive_hitmiss_pod.py:AdaptiveHitMissPOD.getPODCLModel", "otpod/_adaptive_hitmiss_pod.py:AdaptiveHitMissPOD.run"]}
{"id": "C95", "title": "When QuantileRegressionPOD.run succeeds", "statement": "With the regression lines explicit and an exact root solver: in every history of calls, run succeeds exactly when the preliminary treatment succeeds on the data and on each of the simulationSize bootstrap samples, the line of every quantile level fitted on the data takes the value of the threshold between 0 and the largest defect, and the line of every level fitted on each bootstrap sample takes it at or below the largest defect of that sample. Then the nodes of the POD curve, and the rows behind the confidence curve, are the crossing points of these lines. An increasing line meets the threshold iff it is below it at the lower end and above it at the largest defect; a flat line only if it is the threshold. Finding: a single resample without large defects makes the whole run raise, although the data allow it: three observations exactly on a line, all resamples on the same line.", "quantifier": "all lines (any fit), thresholds, data, bootstrap draws, simulation sizes, levels and histories of calls; all solvers that satisfy the contract of root finding", "why_tests_cant": "tests run one seeded bootstrap on data that works; they do not explore the draws", "anchors": ["otpod/_quantile_regression_pod.py:QuantileRegressionPOD.run", "otpod/_quantile_regression_pod.py:QuantileRegressionPOD._buildModel"]}
{"id": "C96", "title": "Units of the data with Box-Cox and with censoring", "statement": "Multiplying all signals, the detection threshold and the censoring thresholds by c > 0, and changing unit and origin of the defect sizes, leaves the mean curves of UnivariateLinearModelPOD (binomial, Gaussian, bootstrap) unchanged, for censored and uncensored data, with and without Box-Cox, provided that the optimisers follow the units and that with Box-Cox no signal used is negative; without Box-Cox the origin of the signals may change too. The preliminary treatment of every class then gives the same Box-Cox parameter, the old sample and thresholds moved by one increasing affine function, and the same exceptions. The function minimised for censored data changes by the number of observations times a constant when parameters and data are moved together, so its minimisers move with the data. Finding: with Box-Cox and a negative signal the shift is 100 - min in whatever unit, so the curve depends on the unit of the signals: Berens' POD at one size is 1 in one unit and 0 in another one.", "quantifier": "all data, settings, unit changes, sizes, kinds of residual law; all optimisers that follow the units (the likelihood does)", "why_tests_cant": "tests compare figures of one data set in one unit", "anchors": ["otpod/_univariate_linear_model_pod.py:_computeLinearModel", "otpod/_univariate_linear_model_pod.py:UnivariateLinearModelPOD.run", "otpod/_pod.py:POD._run", "otpod/_math_tools.py:MLE"]}
{"id": "C97", "title": "The bounds named when defect sizes are refused", "statement": "When setDefectSizes refuses sizes, its message names two bounds with four decimals (binary64 arithmetic, defects up to 2^30 in absolute value). Each differs by less than 0.0001 from the smallest or largest defect. If these have at most four decimals, both bounds named are accepted, each is the extreme defect or the neighbour one unit of the fourth decimal inside, and a later call with sizes between the bounds named succeeds. In general a bound named is refused only when ten thousand times the defect is rounded to an integer on the wrong side. The message appears exactly when a size is out of range. Findings: with smallest defect 15.113100000000001 the message names 15.1131, which is refused; with 0.0051 it names 0.0052 although 0.0051 is accepted; with defects between 0.00012 and 0.00018 it says between 0.0002 and 0.0001, both refused.", "quantifier": "all finite extreme defects up to 2^30 in absolute value, all refused sizes, all earlier states", "why_tests_cant": "tests only check that an exception is raised; the wrong bounds need defects whose product with 10000 is rounded across an integer", "anchors": ["otpod/_kriging_tools.py:KrigingBase.setDefectSizes", "otpod/_adaptive_hitmiss_pod.py:AdaptiveHitMissPOD.setDefectSizes", "otpod/_pli_pod.py:PLIBase.setDefectSizes", "otpod/_polynomial_chaos_pod.py:PolynomialChaosPOD.setDefectSizes", "otpod/_sobol_indices.py:SobolIndices.setDefectSizes"]}
{"id": "C98", "title": "Who holds the designs of the adaptive classes", "statement": "The samples given to the constructors of AdaptiveSignalPOD and AdaptiveHitMissPOD are never changed by the object, and what the client does with them later has no effect on what the getters return. For AdaptiveSignalPOD a design obtained from getInputDOE at any time is the design of the object itself: after later runs, or changes made through another reference, it shows what getInputDOE would give then; the same for getOutputDOE without Box-Cox. With Box-Cox what getOutputDOE returns is a copy, it stays as it was and changing it has no effect on the object. As long as the client only reads, design and signals are the initial ones followed by what the runs added. For AdaptiveHitMissPOD what was read stays as it was whatever runs follow. Findings: designs read before run with Box-Cox do not fit together after run (inputs grown, signals not); a client erasing a point in the design it was given breaks the pairing inside the object; and after a run of AdaptiveHitMissPOD that failed in its loop (for instance because the graph directory is missing) every later run and every setDefectSizes raises AttributeError, because the design is left as a numpy array.", "quantifier": "all histories of runs, reads and changes by the client, all data, all outcomes of the runs, with or without Box-Cox, censoring, labels", "why_tests_cant": "tests look at the designs once, after one successful run", "anchors": ["otpod/_adaptive_signal_pod.py:AdaptiveSignalPOD.getInputDOE", "otpod/_adaptive_signal_pod.py:AdaptiveSignalPOD.getOutputDOE", "otpod/_adaptive_signal_pod.py:AdaptiveSignalPOD.run", "otpod/_adaptive_hitmiss_pod.py:AdaptiveHitMissPOD.getInputDOE", "otpod/_adaptive_hitmiss_pod.py:AdaptiveHitMissPOD.run", "otpod/_pod.py:POD._run"]}
{"id": "C99", "title": "Who holds the defect sizes and the indices of the sensitivity objects", "statement": "A POD object, the SobolIndices and PLI objects built from it and the client share arrays. As long as the client changes no array it was given: every object shows the sizes last given to itself (sorted; also those that were refused because of the range), a sensitivity object that was given none shows those the POD had when it was built, and every array of sizes that was read or passed stays as it was. Setting the sizes of one object never affects another one. With changes by the client: until one of them is given sizes, a sensitivity object and its POD always show the same sizes; after setDefectSizes an object has an array nobody else can reach until it hands it out; an array passed as an argument is never changed by the objects; the POD curve keeps the abscissas of its run whatever happens to the sizes. What PLI.getIndices returned is the table of the object: it follows every later run until setDefectSizes is accepted, and stays as it was after that. Findings: a client writing into the sizes a SobolIndices object gave it changes the sizes of the POD and gets past the check of the range; indices kept from a first run are overwritten by the second run.", "quantifier": "all histories of calls on a POD and any number of sensitivity objects, all sizes (also NaN), all changes by the client", "why_tests_cant": "tests build one sensitivity object, run it once and read it once", "anchors": ["otpod/_sobol_indices.py:SobolIndices.__init__", "otpod/_sobol_indices.py:SobolIndices.setDefectSizes", "otpod/_sobol_indices.py:SobolIndices.run", "otpod/_pli_pod.py:PLIBase.__init__", "otpod/_pli_pod.py:PLIBase.setDefectSizes", "otpod/_pli_pod.py:PLIBase.run", "otpod/_pli_pod.py:PLIBase.getIndices", "otpod/_kriging_tools.py:KrigingBase.getDefectSizes", "otpod/_polynomial_chaos_pod.py:PolynomialChaosPOD.getDefectSizes"]}
{"id": "C100", "title": "What a PLI object shows, before, during and after its runs", "statement": "An object of class PLI, PLIMeanBase or PLIVarianceBase is built exactly when the history of the Monte Carlo simulation is not empty, the parameters are independent and the deltas are accepted. Its getters always give tables with a row per delta and a column per marginal (the confidence intervals: a list per marginal of rows per delta). After a run that succeeds every entry is the perturbed probability, the index and the interval obtained from the density of that marginal perturbed by that delta; the index is the middle of its interval. The outcome of a run and, if it succeeds, all that can be read do not depend on what earlier runs left. When a run fails there is one entry at which it stopped: the entries before it, marginal by marginal, are new, those after it are untouched, and its own interval is the old one while its index is either the old one or not a finite number. An operator that is not known, the absence of any evaluation strictly beyond the threshold and the base class PLI, the only one exported, make run fail with NameError, ValueError and TypeError without writing anything. setGaussKronrod changes nothing that can be read and has no part in mean perturbations nor in variance perturbations without uniform marginal. Findings: before run the getters answer zeros and the intervals of a default distribution; after a run that failed midway the perturbed probability of a marginal never looked at reads 0.", "quantifier": "all classes, marginals, deltas, histories, operators, thresholds, answers of the solvers, all previous contents of the tables", "why_tests_cant": "tests run an object once and successfully, and look at one or two entries of its tables", "anchors": ["otpod/_pli.py:PLI.__init__", "otpod/_pli.py:PLI.run", "otpod/_pli.py:PLI.getIndices", "otpod/_pli.py:PLI.getPerturbedProbabilityEstimate", "otpod/_pli.py:PLI.computeConfidenceInterval", "otpod/_pli.py:PLI.getDeltaSample", "otpod/_pli.py:PLI.setGaussKronrod", "otpod/_pli.py:PLI.getOriginalDelta", "otpod/_pli.py:PLI._computePerturbedPDF"]}
{"id": "C101", "title": "PLIMean and PLIVariance, from the points drawn to the indices shown", "statement": "After a run of PLIMean or PLIVariance that succeeds, a defect size is kept exactly when the share of the points of its own simulation whose metamodel signal, the size put first, exceeds the detection threshold is strictly between 0.001 and 0.999; for each delta and each marginal getIndices then shows the index computed from these points with the current distribution, the deltas converted by the class and the current integration algorithm; for the other sizes it shows NaN. A run fails only at a kept size, because the parameters are dependent (class Exception), the deltas are refused, or the object of that size fails; that object never meets an empty failure sample. With independent normal parameters of positive deviation the analysis never fails, for any metamodel, threshold, points and solvers: PLIMean for every array of deltas of fitting shape, PLIVariance when the variances asked for are positive. Deltas of 0 under the default scaling give indices 0 at all kept sizes, for all laws with a density at the points drawn, and need no solver. Finding: dependent parameters are accepted by the constructor and by setDistribution, and are refused by run only if some size is kept.", "quantifier": "all metamodels, thresholds, points drawn, distributions, deltas, defect sizes, states of the object, answers of the solvers", "why_tests_cant": "tests check a few numbers of one random run on one metamodel with uniform or normal parameters", "anchors": ["otpod/_pli_pod.py:PLIBase.run", "otpod/_pli_pod.py:PLIBase._runMonteCarlo", "otpod/_pli_pod.py:PLIBase.getIndices", "otpod/_pli_pod.py:PLIMean._definePLIAlgorithm", "otpod/_pli_pod.py:PLIVariance._definePLIAlgorithm", "otpod/_pli.py:PLI.run"]}
{"id": "C102", "title": "Who holds the levels of QuantileRegressionPOD", "statement": "getQuantile of QuantileRegressionPOD returns the array of the object itself: until the next accepted setQuantile it shows the levels, and an assignment into it changes them without any check. setQuantile works on a sorted copy: its argument, and every array returned before, can be changed afterwards without effect. An array of the client that was not returned by getQuantile is never shared with anything. So if the client only changes its own arrays and gives no NaN, the levels are always sorted and strictly between 0 and 1, from the 21 default ones on. The POD curve keeps the levels of the last run that reached it; a confidence curve takes the levels of the moment getPODCLModel is called, with the rows of the run, and raises ValueError exactly when their number differs; functions already returned never change; before a run both getters raise AttributeError. Finding: after one assignment into the array of getQuantile the confidence curve is built, without an exception, on levels that setQuantile refuses, and the POD curve on other ones.", "quantifier": "all sequences of arrays made, getQuantile, setQuantile, run, getPODModel, getPODCLModel and assignments into arrays, all contents", "why_tests_cant": "tests set levels once and read them once; sharing shows only when an array is changed after it was returned or given", "anchors": ["otpod/_quantile_regression_pod.py:QuantileRegressionPOD.getQuantile", "otpod/_quantile_regression_pod.py:QuantileRegressionPOD.setQuantile", "otpod/_quantile_regression_pod.py:QuantileRegressionPOD.getPODModel", "otpod/_quantile_regression_pod.py:QuantileRegressionPOD.getPODCLModel"]}
{"id": "C103", "title": "A higher detection threshold never raises the POD", "statement": "For the same data, settings and random draws, raise the detection threshold. UnivariateLinearModelPOD: the regression, the residuals and the Box-Cox parameter are the same and the transformed threshold rises too; a run that succeeded still succeeds; the POD curve, each simulated curve and the confidence curve at every level are nowhere higher (binomial, Gauss and bootstrap). The binomial confidence curve never rises when the confidence is at least 1/2. QuantileRegressionPOD with rising regression lines: the size found at each level does not decrease, in the run and in every bootstrap sample, and the POD curve and the confidence curve are nowhere higher. PolynomialChaosPOD: no ordinate rises on the same draws, so no interpolated curve rises. KrigingPOD: the expected ordinate never rises. A lower curve gives a detection size that is not smaller. Findings: the binomial confidence curve rises for every confidence below 1/2 when the threshold first loses a detection; on given draws an ordinate of the kriging POD can rise with the threshold, above 1.", "quantifier": "all thresholds, data, censoring and Box-Cox settings, resamples, simulated laws, levels, confidences, sizes, points and draws", "why_tests_cant": "a comparison of two runs at one pair of thresholds; random draws differ between two test runs", "anchors": ["otpod/_univariate_linear_model_pod.py:UnivariateLinearModelPOD.run", "otpod/_univariate_linear_model_pod.py:UnivariateLinearModelPOD.getPODModel", "otpod/_univariate_linear_model_pod.py:UnivariateLinearModelPOD.getPODCLModel", "otpod/_quantile_regression_pod.py:QuantileRegressionPOD.run", "otpod/_kriging_pod.py:KrigingPOD.run", "otpod/_polynomial_chaos_pod.py:PolynomialChaosPOD.run", "otpod/_pod.py:POD._computeDetectionSize"]}
{"id": "C104", "title": "Classifiers of AdaptiveHitMissPOD and who holds their parameters", "statement": "AdaptiveHitMissPOD.run builds its classifiers, one at the start and one per iteration of the enrichment, all alike: of the type last accepted by setClassifierType (at first 'rf') and with the first value of each of the four lists of parameters in force; further values in the lists are not used. Nothing is checked before run: parameters that cannot be taken apart into lists, or another number of lists, raise TypeError there; an empty list raises IndexError. setClassifierParameters keeps the list it is given and getClassifierParameters returns the list of the object itself, so what the client changes in either is in force at the next run. An accepted setClassifierType puts the default parameters of that type in force, in a new list, even when the type is the one already set; a refused name changes nothing. As long as the client gives and leaves four lists that are not empty, run never fails on them. Findings: the two setters do not commute (parameters given before the type are lost; parameters are not checked against the type), and after one run that failed on its parameters every later run raises AttributeError, correct parameters or not.", "quantifier": "all sequences of lists made, getClassifierParameters, setClassifierParameters, setClassifierType, changes in place and runs; all types, parameters and numbers of iterations", "why_tests_cant": "tests set one valid list once; the effect of a shared list, of the order of the setters and of a run after a failed one needs histories of calls", "anchors": ["otpod/_adaptive_hitmiss_pod.py:AdaptiveHitMissPOD.run", "otpod/_adaptive_hitmiss_pod.py:AdaptiveHitMissPOD.getClassifierParameters", "otpod/_adaptive_hitmiss_pod.py:AdaptiveHitMissPOD.setClassifierParameters", "otpod/_adaptive_hitmiss_pod.py:AdaptiveHitMissPOD.setClassifierType"]}
{"id": "C105", "title": "Unit and origin of the signals in the kriging and chaos PODs", "statement": "Multiply all signals and the detection threshold by c > 0 and add d to both. If the trend of the kriging contains the constant, the kriging of the new signals predicts the old predictions moved in the same way, whatever the amplitude of the covariance; its conditional variance is multiplied by the amplitude ratio; the leave-one-out predictions of KrigingPOD move in the same way and Q2 is unchanged. With the amplitude multiplied by c squared and the same draws, the POD sample of every defect size is unchanged, hence every curve built on it. If the chaos basis contains the constant, the fitted values (and, for a free basis, the coefficients) move in the same way, residuals, leave-one-out errors and standard error are multiplied by c, R2, Q2 and, for the same draws, the POD at every size are unchanged. Finding: with a sparse basis that does not contain the constant the chaos POD depends on the origin of the signals: at one size it is 1 for one origin and 0 for another.", "quantifier": "all samples, bases, covariance matrices with an invertible kriging system, points, draws, c > 0 and d", "why_tests_cant": "tests use one data set in one unit; invariance compares two runs for every pair of units", "anchors": ["otpod/_kriging_tools.py:KrigingBase._computeLOO", "otpod/_kriging_tools.py:KrigingBase._computeQ2", "otpod/_kriging_tools.py:KrigingBase._computePODSamplePerDefect", "otpod/_polynomial_chaos_pod.py:PolynomialChaosPOD.run", "otpod/_polynomial_chaos_pod.py:PolynomialChaosPOD.getQ2"]}
{"id": "C106", "title": "Units in the quantile regression POD", "statement": "Multiply all signals and the detection threshold by c > 0, add d to both, and multiply all defects by g > 0. The regression lines of every level are the old lines drawn in the new units. If each line is the only regression line of its level and is not flat, run of QuantileRegressionPOD finds the old sizes multiplied by g, and raises exactly when it raised before. The rows of the bootstrap, whenever both are found, are multiplied by g (and move with the defects when their origin moves too); a row found in the old unit is found in the new one unless a size falls below the lowest number. The POD curve and every confidence curve take at g t the value of the old curve at t. Finding: the origin of the defects counts. run searches every size between 0 and the largest defect; for the same signals it raises when the size sought is negative (defects given by their logarithm, for example) and finds it, strictly between the smallest and the largest defect, after all defects are moved by a constant.", "quantifier": "all samples, levels, lines, solvers that find a root when the ends are on both sides and raise otherwise, thresholds, g > 0, c > 0, d", "why_tests_cant": "tests use one data set in one unit with positive defects; the claim compares two runs for every pair of units", "anchors": ["otpod/_quantile_regression_pod.py:QuantileRegressionPOD.run", "otpod/_quantile_regression_pod.py:QuantileRegressionPOD.getPODCLModel"]}
