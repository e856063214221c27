{"id": "C01", "title": "Flat prior support", "statement": "ThetaPriorFlat.log_prior(theta) is 0 exactly when every parameter marked free lies inside its closed bound interval, and -inf otherwise; fixed parameters never matter; a vector with fewer entries than there are free parameters raises IndexError, even when an entry it does have is out of bounds.", "quantifier": "every bounds table, every free/fixed pattern, every vector of float values including NaN and infinities", "why_tests_cant": "The claim ranges over an infinite input space; a test checks finitely many points.", "anchors": ["misfit/model/kin_classes.py:ThetaPriorFlat.log_prior"]}
{"id": "C02", "title": "Posterior gating", "statement": "lnprob returns -inf, without evaluating or changing the kinematic model, whenever the prior is not finite; otherwise it returns prior plus likelihood if that is finite and -inf if not; it never returns NaN or +inf to the sampler.", "quantifier": "every prior value, every likelihood value including NaN and infinities, every model state", "why_tests_cant": "The claim ranges over an infinite input space; a test checks finitely many points.", "anchors": ["misfit/fit/fit_core.py:lnprob", "misfit/fit/fit_core.py:lnlike"]}
{"id": "C03", "title": "Walkers start inside the prior", "statement": "Every initial walker position lies inside the prior bounds of every free parameter (so the prior is 0 at all of them), there is one coordinate per free parameter in parameter order, for any stream of uniform random numbers in [0,1) and any bounds with lower <= upper.", "quantifier": "every random stream, every bounds table, every free/fixed pattern, any number of walkers", "why_tests_cant": "Random draws: no finite set of seeds covers all streams.", "anchors": ["misfit/fit/fit_core.py:init_walker_pos", "misfit/general/general_utils.py:range_arrs"]}
{"id": "C04", "title": "Parameter packing round trip", "statement": "Writing a vector of free values into a model and reading the free values back returns the same vector, leaves every fixed parameter untouched, and the free values appear in parameter order.", "quantifier": "every parameter vector, every free/fixed pattern, every vector of free values of the right length", "why_tests_cant": "The claim ranges over an infinite input space; a test checks finitely many points.", "anchors": ["misfit/model/kin_model.py:KinModel2D.update_parameters", "misfit/fit/fit_core.py:initialize_fitting_theta"]}
{"id": "C05", "title": "Length guard", "statement": "make_model and update_model raise ValueError and change nothing whenever the number of supplied free values differs from the number of free parameters. Otherwise the free parameters take the supplied values and the fixed ones keep theirs, whether or not the evaluation that follows succeeds.", "quantifier": "every state and every length of input", "why_tests_cant": "The claim ranges over an infinite input space; a test checks finitely many points.", "anchors": ["misfit/model/kin_model.py:KinModel2D.make_model", "misfit/model/kin_model.py:KinModel2D.update_model"]}
{"id": "C06", "title": "Model evaluation does not depend on history", "statement": "When the redshift and the vertical offset are held fixed, the model produced by update_model(theta) after any sequence of earlier evaluations equals the one a freshly built model would produce for theta (so the likelihood the sampler sees is a function of theta alone).", "quantifier": "every sequence of earlier parameter vectors, including ones that switch the adaptive wavelength up-sampling on and off, and every final vector", "why_tests_cant": "The claim ranges over every sequence of calls; tests exercise a handful of short histories.", "anchors": ["misfit/model/kin_model.py:KinModel2D.update_model", "misfit/model/aper_model.py:AperModel2D.do_model_calcs", "misfit/model/aper_model.py:AperModel2D.check_do_upsample_wave", "misfit/model/aper_model.py:AperModel2D.downsample_to_real_wave"]}
{"id": "C07", "title": "Free redshift and vertical offset reach the model", "statement": "A free redshift or vertical offset influences the model when it changes. (Refuted: update_model ignores both after the first make_model, so update_model(theta) differs from a fresh make_model(theta).)", "quantifier": "every pair of parameter vectors differing in z or m0_shift", "why_tests_cant": "The claim ranges over every sequence of calls; tests exercise a handful of short histories.", "anchors": ["misfit/model/aper_model.py:AperModel2D.setup_model_grid", "misfit/model/aper_model.py:AperModel2D.update_model"]}
{"id": "C08", "title": "Adaptive wavelength grid", "statement": "When up-sampling by an integer factor f is triggered on a grid of N wavelengths the working grid has exactly N*f samples, each block of f samples is centred on its original pixel, and after the evaluation the grid, its length and its step are the originals again.", "quantifier": "every increasing grid, every factor, every dispersion", "why_tests_cant": "The claim ranges over an infinite input space; a test checks finitely many points.", "anchors": ["misfit/model/aper_model.py:AperModel2D.check_do_upsample_wave", "misfit/model/aper_model.py:AperModel2D.downsample_to_real_wave"]}
{"id": "C09", "title": "Rebinning conserves flux", "statement": "rebin(a, shape) conserves the total, every output cell is the sum of the input cells of its block, and it raises ValueError exactly when some axis length is not a multiple of the requested length.", "quantifier": "every array and every requested shape", "why_tests_cant": "The claim ranges over an infinite input space; a test checks finitely many points.", "anchors": ["misfit/model/kin_functions.py:rebin"]}
{"id": "C10", "title": "PSF convolution conserves flux", "statement": "PSF_convolve returns the cube unchanged when the PSF width is not positive; otherwise the total flux is unchanged whenever the raw convolution has non-zero total (as it has for any non-negative cube with light and a non-negative stamp), scaling the input by a constant scales the output, and a non-negative cube with a non-negative stamp stays non-negative. (Refuted for a cube without light: every output is nan.)", "quantifier": "every cube, every PSF stamp", "why_tests_cant": "The claim ranges over an infinite input space; a test checks finitely many points.", "anchors": ["misfit/model/kin_functions.py:PSF_convolve"]}
{"id": "C11", "title": "Instrument broadening", "statement": "With a constant non-zero instrumental width the spectral convolution conserves the total flux and non-negativity of any non-negative image with light; with a position-dependent width it always raises ValueError.", "quantifier": "every cube, every kernel, every option setting", "why_tests_cant": "The claim ranges over an infinite input space; a test checks finitely many points.", "anchors": ["misfit/model/kin_functions.py:inst_convol_complete", "misfit/model/kin_functions.py:convol_instconstfwhm", "misfit/model/kin_functions.py:convol_inst"]}
{"id": "C12", "title": "Zero-dispersion collapse conserves flux", "statement": "With zero velocity dispersion every voxel's flux is put into the wavelength bin nearest to its Doppler-shifted wavelength, so that for every line of sight the spectrum sums to the line-of-sight integral of the intensity; in velocity units the same call raises an unbound-variable error.", "quantifier": "every intensity cube, every velocity field, every wavelength grid", "why_tests_cant": "The claim ranges over an infinite input space; a test checks finitely many points.", "anchors": ["misfit/model/kin_functions.py:I_simple_collapse", "misfit/model/kin_functions.py:add_sigma_collapse_z"]}
{"id": "C13", "title": "Row scaling is the least-squares optimum", "statement": "scale_model multiplies each spatial row by the factor that minimises the error-weighted squared residual over the non-sky columns; the result does not depend on a non-zero rescaling of the row beforehand, applying it twice equals applying it once, and rows where the model vanishes are set to zero. (Refuted when a non-sky pixel has a nan flux: the whole model row becomes zero.)", "quantifier": "every data image, every error image with non-zero errors, every model image, every column set", "why_tests_cant": "The claim ranges over an infinite input space; a test checks finitely many points.", "anchors": ["misfit/model/kin_model.py:KinModel2D.scale_model"]}
{"id": "C14", "title": "Masked pixels do not influence the fit", "statement": "Chi-squared and the log-likelihood do not depend on finite data values of masked pixels. (Refuted for the scaled model: the row scaling uses every non-sky column, masked or not, so changing a masked pixel changes the model and hence the likelihood.)", "quantifier": "every pair of data sets that agree on the unmasked pixels", "why_tests_cant": "The claim ranges over an infinite input space; a test checks finitely many points.", "anchors": ["misfit/model/kin_model.py:KinModel2D.scale_model", "misfit/model/kin_model.py:KinModel2D._model_chisq", "misfit/model/kin_model.py:KinModel2D._model_llike"]}
{"id": "C15", "title": "Chi-squared is a squared distance", "statement": "With non-negative weights the chi-squared is non-negative, and it is zero exactly when the model matches the data on every unmasked pixel of non-zero weight.", "quantifier": "every data, error, mask, weight and model image of equal shape", "why_tests_cant": "The claim ranges over an infinite input space; a test checks finitely many points.", "anchors": ["misfit/model/kin_model.py:KinModel2D._model_chisq", "misfit/model/kin_model.py:KinModel2D._model_chisq_no_weight"]}
{"id": "C16", "title": "Likelihood orders models as chi-squared does", "statement": "For a 0/1 mask and fixed data the log-likelihood equals minus half the weighted chi-squared plus a constant that does not depend on the model, so one model is likelier than another exactly when its chi-squared is smaller. (The constant uses log10 where a normalised Gaussian needs the natural logarithm: refuted.)", "quantifier": "every pair of models, every data set", "why_tests_cant": "The claim ranges over an infinite input space; a test checks finitely many points.", "anchors": ["misfit/model/kin_model.py:KinModel2D._model_llike"]}
{"id": "C17", "title": "Sky-to-disc transform is a rotation", "statement": "transform_int_3d preserves distances and angles and orientation, has a unique inverse, is the identity at zero inclination and position angle, composing position angles is a rotation by their sum at zero inclination, and leaves the disc's major axis in place.", "quantifier": "every point and every pair of angles", "why_tests_cant": "The claim ranges over an infinite input space; a test checks finitely many points.", "anchors": ["misfit/model/kin_functions.py:transform_int_3d"]}
{"id": "C18", "title": "Inclination from axis ratio", "statement": "For 0<=q0<1 the inclination sine lies in [0,1] for q in [0,1], is 1 for q<=q0, is 0 at q=1, decreases with q, and is consistent with inclination_angle (sin^2+cos^2=1) for q0<=q<=1. Axis ratios above 1 give no inclination angle (NaN). (Refuted for q<q0: sin_i clips to edge-on while inclination_angle is NaN.)", "quantifier": "every axis ratio and intrinsic thickness", "why_tests_cant": "The claim ranges over an infinite input space; a test checks finitely many points.", "anchors": ["misfit/model/kin_functions.py:sin_i", "misfit/general/general_utils.py:inclination_angle"]}
{"id": "C19", "title": "Rotation curve", "statement": "For a positive turnover radius the arctan rotation curve is odd, is bounded strictly by the asymptotic velocity and approaches it, increases with radius for positive V_a, equals V_a/2 at the turnover radius, scales linearly with V_a; changing the sign of both parameters changes nothing.", "quantifier": "every radius and parameter pair", "why_tests_cant": "The claim ranges over an infinite input space; a test checks finitely many points.", "anchors": ["misfit/model/kin_classes.py:VelArctanProfile.vel"]}
{"id": "C20", "title": "Intensity profiles", "statement": "For Sersic index above about 0.162 the Sersic profile is positive, equals I_e at R_e and decreases with radius; the vertical factor is 1 in the midplane, falls to 1/e at the scale height, is even in z; in I_sersic the amplitude scales linearly. (Refuted for smaller indices: the approximated b_n is not positive and the profile rises.)", "quantifier": "every radius, height and positive parameters", "why_tests_cant": "The claim ranges over an infinite input space; a test checks finitely many points.", "anchors": ["misfit/model/kin_classes.py:IntProfileSersic", "misfit/model/kin_classes.py:IntProfileSersicExpZ", "misfit/model/kin_classes.py:IntProfileSersicExpZScale"]}
{"id": "C21", "title": "PSF full width at half maximum", "statement": "The Gaussian PSF stamp and, for beta>1, the Moffat stamp have value half their peak at distance FWHM/2 from the centre, are even in each coordinate, positive, and decrease with distance (no dithering). (Refuted for Moffat with beta<=1: the normalisation is not positive.)", "quantifier": "every FWHM>0, every beta>0, every position", "why_tests_cant": "The claim ranges over an infinite input space; a test checks finitely many points.", "anchors": ["misfit/instrument.py:PSF_stamp_gauss", "misfit/instrument.py:PSF_stamp_moffat"]}
{"id": "C22", "title": "Dithered PSF", "statement": "With a dither offset set, the Gaussian stamp gains two half-strength negative images at plus and minus the offset. (Refuted for Moffat: the offset never reaches the stamp.)", "quantifier": "every offset, every position, both PSF families", "why_tests_cant": "The claim ranges over an infinite input space; a test checks finitely many points.", "anchors": ["misfit/instrument.py:PSFGaussian.generate_conv_stamp", "misfit/instrument.py:PSFMoffat.generate_conv_stamp"]}
{"id": "C23", "title": "Stamp array layout", "statement": "The stamp has one row per y coordinate and one column per x coordinate and entry (j,i) is the profile evaluated at (x_i,y_j).", "quantifier": "every pair of coordinate arrays", "why_tests_cant": "Index arithmetic for all sizes.", "anchors": ["misfit/instrument.py:PSF_stamp_gauss", "misfit/instrument.py:PSF_stamp_moffat"]}
{"id": "C24", "title": "Model x and z grids", "statement": "The slit and line-of-sight grids are symmetric about zero, equally spaced by exactly the stated step, the step never exceeds the spatial step, and the untrimmed part tiles the slit width exactly.", "quantifier": "every slit width, pixel scale, oversampling and padding", "why_tests_cant": "The claim ranges over an infinite input space; a test checks finitely many points.", "anchors": ["misfit/model/aper_model.py:AperModel2D.setup_model_grid"]}
{"id": "C25", "title": "Model y grid spacing equals the pixel scale", "statement": "Successive samples of the spatial model grid are one (sub)pixel apart. (Refuted: the spacing is smaller by the factor (nY-1-nSub)/(nY-1), so structure is stretched on the detector; the grid centre is right.)", "quantifier": "every slit length, oversampling and padding", "why_tests_cant": "The claim ranges over an infinite input space; a test checks finitely many points.", "anchors": ["misfit/model/aper_model.py:AperModel2D.setup_model_grid"]}
{"id": "C26", "title": "Model image has the shape of the data", "statement": "After trimming the padding, collapsing the slit direction and rebinning, the model image has one row per spatial pixel and one column per wavelength, for every padding and oversampling.", "quantifier": "every grid size", "why_tests_cant": "Index arithmetic for all sizes.", "anchors": ["misfit/model/aper_model.py:AperModel2D.trim_downsample", "misfit/model/kin_functions.py:rebin"]}
{"id": "C27", "title": "1D aperture grid tiles the aperture", "statement": "The central window of the 1D aperture model grid has 2n+1 samples that tile the slit width (and extraction width) exactly, and it sits centrally in the padded grid.", "quantifier": "every n, every aperture", "why_tests_cant": "The claim ranges over an infinite input space; a test checks finitely many points.", "anchors": ["misfit/model/aper_model.py:AperModel1DDispBase.setup_model_grid", "misfit/model/kin_functions.py:sigma_aper_dispersion"]}
{"id": "C28", "title": "Round galaxies do not care about slit angle", "statement": "For axis ratio 1 the misaligned-slit dispersion model gives the same aperture correction as the circular model, for every position angle.", "quantifier": "every position angle, profile and grid", "why_tests_cant": "The claim ranges over an infinite input space; a test checks finitely many points.", "anchors": ["misfit/model/kin_functions.py:sigma_aper_dispersion_misalign", "misfit/model/kin_functions.py:sigma_aper_dispersion", "misfit/model/aper_model.py:AperModel1DDispMisalign"]}
{"id": "C29", "title": "Aperture dispersion is an average", "statement": "The light-weighted aperture dispersion lies between the smallest and largest local value inside the grid for any non-negative PSF stamp and weights, and equals sigma when sigma is constant and there is no rotation (V/sigma=0 gives correction exactly 1). With the position-dependent velocity shift switched on, the shift of each slit position adds to the line-of-sight speed there; without rotation a uniform shift d gives sqrt(d^2+sigma^2).", "quantifier": "every grid, PSF, intensity and weighting", "why_tests_cant": "The claim ranges over an infinite input space; a test checks finitely many points.", "anchors": ["misfit/model/kin_functions.py:sigma_aper_dispersion", "misfit/model/aper_model.py:AperModel1DRot.trim_sum_aperture"]}
{"id": "C30", "title": "Dispersion slope option", "statement": "The dispersion-slope setting d influences both dispersions entering the aperture ratio. (Refuted: the aperture dispersion always uses the default slope.)", "quantifier": "every pair of slopes", "why_tests_cant": "The claim ranges over an infinite input space; a test checks finitely many points.", "anchors": ["misfit/model/kin_functions.py:sigma_aper_dispersion", "misfit/model/kin_functions.py:disp_square", "misfit/model/kin_functions.py:sigma_e_dispersion"]}
{"id": "C31", "title": "Requested V/sigma is realised", "statement": "AperModel1DRot sets the dispersion so that rotation velocity at the reference radius over dispersion equals the requested ratio; None means zero dispersion; zero means no rotation.", "quantifier": "every ratio, velocity and turnover radius", "why_tests_cant": "The claim ranges over an infinite input space; a test checks finitely many points.", "anchors": ["misfit/model/aper_model.py:AperModel1DRot.update_kinProfile"]}
{"id": "C32", "title": "One position-angle convention", "statement": "The 1D elliptical radius and the 2D disc transform rotate in the same direction. (Refuted: they rotate in opposite directions; the radii agree only after flipping the sign of the angle.)", "quantifier": "every point and angle", "why_tests_cant": "The claim ranges over an infinite input space; a test checks finitely many points.", "anchors": ["misfit/model/kin_functions.py:r_int_ellip", "misfit/model/kin_functions.py:transform_int_3d"]}
{"id": "C33", "title": "Slit illumination stays in the slit", "statement": "The reported light offset never lies outside the slit for a non-negative fitted width, and light that overlaps the slit is reported with the width of the overlap, which is positive and at most the slit width and the fitted width. (Refuted in general for the width: a source off the left edge yields a negative width.)", "quantifier": "every fitted centre and width, every slit", "why_tests_cant": "The claim ranges over an infinite input space; a test checks finitely many points.", "anchors": ["misfit/model/kin_functions.py:check_slit_illum"]}
{"id": "C34", "title": "Runs of consecutive indices", "statement": "wh_continuous splits a strictly increasing index list into its maximal runs of consecutive integers: concatenation gives the input back, each run is consecutive, neighbouring runs are separated by a gap.", "quantifier": "every increasing index list", "why_tests_cant": "The claim ranges over an infinite input space; a test checks finitely many points.", "anchors": ["misfit/general/general_utils.py:wh_continuous"]}
{"id": "C35", "title": "Missing-data mask", "statement": "spec_mask_missing masks every pixel whose flux or error is not finite or whose weight is zero, never unmasks a pixel, and leaves other pixels alone; zero-error 1D pixels are masked when no error is NaN and some error is non-zero. (Refuted when an error is NaN: zero-error pixels then stay unmasked. Refuted for images with zero errors: one zero error masks its whole row.)", "quantifier": "every spectrum including NaN and infinities", "why_tests_cant": "The claim ranges over an infinite input space; a test checks finitely many points.", "anchors": ["misfit/general/galaxy_utils.py:spec_mask_missing"]}
{"id": "C36", "title": "Edge masking", "statement": "mask_edges_1D masks at least num_edge pixels inward of both ends of the valid range whenever the range does not reach the array end, changes nothing else, and never unmasks. (Refuted on the right when the last valid index is below num_edge+1: the slice start wraps and nothing is masked; and the two sides differ by two pixels.)", "quantifier": "every mask and edge width", "why_tests_cant": "Python slice wrap-around only shows for particular sizes.", "anchors": ["misfit/general/galaxy_utils.py:mask_edges_1D"]}
{"id": "C37", "title": "Sky-line columns", "statement": "The sky and non-sky column lists partition all columns; a column is sky exactly when its masked noise (root of the summed squared errors) is at least the cutoff times the reference level; masked columns are exactly the sky columns and no other pixel changes; unsupported units and a missing reference level are errors.", "quantifier": "every error image and cutoff", "why_tests_cant": "The claim ranges over an infinite input space; a test checks finitely many points.", "anchors": ["misfit/general/galaxy_utils.py:mask_skylines_2D"]}
{"id": "C38", "title": "Low signal-to-noise rows", "statement": "The signal-to-noise of a row is |sum of flux over unmasked pixels| / sqrt(sum of squared errors over unmasked pixels). Every row left unmasked has signal-to-noise at or above the cut and, unless the good rows form one block, lies in three consecutive good rows; the reported low rows are exactly the masked rows, sorted and distinct; the masks zero exactly those rows; a row inside three good rows is masked only together with everything out to the image edge. (The unmasked rows need not be contiguous: refuted.)", "quantifier": "every list of row signal-to-noise values and cut", "why_tests_cant": "The claim ranges over an infinite input space; a test checks finitely many points.", "anchors": ["misfit/general/galaxy_utils.py:mask_low_snr_rows_2D"]}
{"id": "C39", "title": "Fit weights", "statement": "Row weights are finite, non-negative, sum to one over the rows unless all are zero, vanish on masked rows, are constant along a row; an unknown weighting type raises an error. (Refuted: without weighting, masked rows get the same weight as the others; with a non-positive cut a zero-signal row gets a NaN weight.)", "quantifier": "every signal-to-noise list, mask and type", "why_tests_cant": "The claim ranges over an infinite input space; a test checks finitely many points.", "anchors": ["misfit/general/galaxy_utils.py:calculate_2D_fit_weights"]}
{"id": "C40", "title": "Wavelength trimming", "statement": "Trimming keeps exactly the pixels whose wavelength lies in the closed range, in order, with flux, error and mask (and weight, continuum images in 2-D) still aligned; trimming twice equals trimming once; an empty selection yields no arrays; without inplace the input object is unchanged. The range is recorded in the observed and the rest frame; a line name means the range of the parameter file, and asking for no range or for two raises ValueError and changes nothing. (Refuted in two corners: the non-inplace 2-D trim leaves flux_incl_cont and cont_model at their old width, and an empty selection leaves the observed wavelengths of the untrimmed spectrum in place.)", "quantifier": "every spectrum and range", "why_tests_cant": "The claim ranges over an infinite input space; a test checks finitely many points.", "anchors": ["misfit/general/galaxy_utils.py:trim_spectrum_1D", "misfit/general/galaxy_utils.py:trim_spectrum_2D_wavelength"]}
{"id": "C41", "title": "Trimming accepts an ordinary float redshift", "statement": "trim_spectrum_1D works for every finite redshift. (Refuted: a plain Python float redshift raises AttributeError when a rest-frame range is used.)", "quantifier": "every redshift value and numeric kind", "why_tests_cant": "Type-dependent behaviour hidden by tests using one kind.", "anchors": ["misfit/general/galaxy_utils.py:trim_spectrum_1D"]}
{"id": "C42", "title": "Spatial trimming", "statement": "After spatial trimming row i of every image is row i+l of the original and the recorded centre moves by the same l, so each pixel keeps its position relative to the object; l and the upper end stay inside the image when the window meets the image. (Refuted: all rows kept when there is no dither -- the last row is always dropped. Refuted: a window entirely below the image keeps no rows -- the negative bound wraps round and unrelated rows are kept.)", "quantifier": "every image, window and centre", "why_tests_cant": "The claim ranges over an infinite input space; a test checks finitely many points.", "anchors": ["misfit/general/galaxy_utils.py:trim_spectrum_2D_spatial"]}
{"id": "C43", "title": "Continuum decomposition", "statement": "After fit preparation the stored flux is the stored continuum-including flux minus the stored continuum model at every pixel, and the continuum model is a straight line in wavelength in every row, with one slope common to all rows.", "quantifier": "every data set and every fitted continuum", "why_tests_cant": "The claim ranges over an infinite input space; a test checks finitely many points.", "anchors": ["misfit/general/galaxy_utils.py:subtract_continuum_2D"]}
{"id": "C44", "title": "Bad pixels cannot poison the likelihood", "statement": "After masking and filling, every stored flux and error value is finite, so chi-squared is finite for every finite model provided no usable pixel had a zero error. (Refuted without the proviso: a zero error at a usable pixel is kept, and makes chi-squared of every model non-finite.)", "quantifier": "every data set including NaN and infinities", "why_tests_cant": "The claim ranges over an infinite input space; a test checks finitely many points.", "anchors": ["misfit/general/galaxy_utils.py:spec_nan_masking", "misfit/general/galaxy_utils.py:spec_mask_missing"]}
{"id": "C45", "title": "Fit preparation runs once", "statement": "Calling the fit preparation again on a prepared galaxy changes nothing (no double trimming). (Refuted across a failure: without an object position the call fails, but only after the last row has been cut off and without marking the spectrum, so that the next call starts from already trimmed data.)", "quantifier": "every number of repeated calls; every failure point", "why_tests_cant": "The claim ranges over every sequence of calls; tests exercise a handful of short histories.", "anchors": ["misfit/galaxy.py:ObsSpectrum2D.fit_prep_calcs", "misfit/fit/fit2D.py:FitEmissionLines2D.setup"]}
{"id": "C46", "title": "MCMC stopping rule", "statement": "Whenever a run reports n finished steps, its chain is n successive sampler steps taken after the burn-in; n is at most nSteps and is the first number of steps at which the run has converged, or nSteps if there is none. Converged means: limits are set and run-all-steps is off, at least 50 steps were taken, the acceptance fraction is strictly inside its limits, and the step index (steps minus one) exceeds nEff times the longest autocorrelation time. With a working sampler the run finishes; with nSteps<=0 the call fails.", "quantifier": "every trajectory of acceptance fractions and autocorrelation times, every option setting", "why_tests_cant": "Random trajectories.", "anchors": ["misfit/fit/fit_core.py:_run_mcmc_emcee_221", "misfit/fit/fit_core.py:_run_mcmc_emcee_3"]}
{"id": "C47", "title": "Convergence warning", "statement": "The caution message is logged only when the run has not converged. (Refuted: convergence exactly at the last allowed step still logs the caution.)", "quantifier": "every trajectory", "why_tests_cant": "Needs convergence at one particular step.", "anchors": ["misfit/fit/fit_core.py:_run_mcmc_emcee_3"]}
{"id": "C48", "title": "Single-process runs keep their chain", "statement": "A finished sampling run is saved whatever the number of processes asked for. (Refuted for emcee 2: with one process there is no pool, closing it raises, and the chain is lost.)", "quantifier": "every option setting", "why_tests_cant": "Depends on an external library version.", "anchors": ["misfit/fit/fit_core.py:_run_mcmc_emcee_221"]}
{"id": "C49", "title": "Flattened chain alignment", "statement": "Row k of the flattened chain and entry k of the flattened log-probability come from the same walker and step, burn-in steps are excluded, and the flattened length is walkers times kept steps.", "quantifier": "every chain shape and burn-in", "why_tests_cant": "Index arithmetic for all sizes.", "anchors": ["misfit/fit/fit_io.py:make_emcee_sampler_dict"]}
{"id": "C50", "title": "Derived velocity columns", "statement": "The analysis appends four columns whose row k is V(R_E), V(2.2), sigma(R_E), sigma(2.2) of the parameters of row k with fixed parameters at their fixed values, after the free columns; existing columns are unchanged and the parameter names match the columns one to one.", "quantifier": "every chain, every free/fixed pattern", "why_tests_cant": "The claim ranges over an infinite input space; a test checks finitely many points.", "anchors": ["misfit/fit/fit_core.py:add_v_re_22"]}
{"id": "C51", "title": "absvalsigma only touches sigma", "statement": "With absolute-value-sigma set only the dispersion column changes. (Refuted: when the dispersion is fixed, every parameter of the chain is replaced by its absolute value.)", "quantifier": "every chain, every free/fixed pattern", "why_tests_cant": "The claim ranges over an infinite input space; a test checks finitely many points.", "anchors": ["misfit/fit/fit_core.py:add_v_re_22"]}
{"id": "C52", "title": "Analysis can be repeated", "statement": "Running the analysis twice gives the same result as once. (Refuted: each run appends four more columns, so names and columns no longer match.)", "quantifier": "every number of repetitions", "why_tests_cant": "The claim ranges over every sequence of calls; tests exercise a handful of short histories.", "anchors": ["misfit/fit/fit_core.py:add_v_re_22", "misfit/fit/fit2D.py:FitEmissionLines2D.reload_results"]}
{"id": "C53", "title": "Posterior summaries", "statement": "For every chain the 2-sigma interval contains the 1-sigma interval, both lie within the sample range, lower plus upper error equals interval width, the opposite-sign percentage is in [0,100], and the first free entries of the best fit are what the model is set to.", "quantifier": "every non-empty chain", "why_tests_cant": "The claim ranges over an infinite input space; a test checks finitely many points.", "anchors": ["misfit/fit/fit_core.py:get_param_posterior_bestfits"]}
{"id": "C54", "title": "Linked posteriors", "statement": "Linked parameters get their joint peak, the other parameters keep theirs, and best-fit minus lower error is the lower limit. (Refuted for the second linked group: its 1-sigma errors are computed from the 2-sigma limits.)", "quantifier": "every chain, every list of linked groups", "why_tests_cant": "The claim ranges over an infinite input space; a test checks finitely many points.", "anchors": ["misfit/fit/fit_core.py:get_param_posterior_bestfits", "misfit/general/general_utils.py:get_bestfit_values_linked"]}
{"id": "C55", "title": "Instrument-corrected dispersion", "statement": "The corrected 1D dispersion is the non-negative number whose square plus the squared instrument width is the squared observed dispersion when the line is resolved, and zero otherwise; it never exceeds the observed value and is monotone in it.", "quantifier": "every observed dispersion and instrument width", "why_tests_cant": "The claim ranges over an infinite input space; a test checks finitely many points.", "anchors": ["misfit/fit/fit1D.py:FitEmissionLines1D.calculate_inst_corr_vel_disp"]}
{"id": "C56", "title": "1D fit returns errors", "statement": "A 1D fit of a galaxy with a numeric ID completes for valid input; with error estimation its errors span the central 68.27 per cent of the Monte Carlo values. (Refuted: with error estimation it always raises ValueError after storing the values, the file of Monte Carlo values and the errors, whatever the data; without error estimation it completes, a plot needing a file name and a mask name or field.)", "quantifier": "every data set, every option setting", "why_tests_cant": "The claim ranges over an infinite input space; a test checks finitely many points.", "anchors": ["misfit/fit/fit1D.py:FitEmissionLines1D.fit"]}
{"id": "C57", "title": "1D fit returns a physical solution", "statement": "The returned redshift is within its range and the returned dispersion and line fluxes are non-negative. (Refuted: only the quantity that was negative in the first pass is bounded in the second, so the other may come back negative, and only the first line set is looked at; the bounded one is non-negative.)", "quantifier": "every optimiser outcome respecting its bounds", "why_tests_cant": "Depends on optimiser outcomes.", "anchors": ["misfit/fit/fit1D.py:FitEmissionLines1D.fit"]}
{"id": "C58", "title": "Line template", "statement": "The largest sample of each line template equals flux/(sigma sqrt(2 pi)) whatever the grid, the template is linear in flux, on a grid containing the line centre it is the Gaussian carrying the flux, and lines, line sets and continuum add. (Refuted: value at a wavelength independent of which other wavelengths are sampled.)", "quantifier": "every grid, centre and width", "why_tests_cant": "The claim ranges over an infinite input space; a test checks finitely many points.", "anchors": ["misfit/model/emission_lines_model.py:EmissionLines1DModel.gaussian_line"]}
{"id": "C59", "title": "1D residuals", "statement": "Only pixels with mask exactly one enter, one residual each, non-finite residuals count as zero. (Refuted: a non-physical negative dispersion cannot look like a perfect fit -- all residuals become zero.)", "quantifier": "every spectrum and parameter set", "why_tests_cant": "The claim ranges over an infinite input space; a test checks finitely many points.", "anchors": ["misfit/model/emission_lines_model.py:residual1DProfile"]}
{"id": "C60", "title": "Attribute setting", "statement": "setAttr keeps an object's attribute names, sets exactly the existing attributes that were given to the given values and leaves all others alone; unknown names are silently ignored. After a chain of constructors an attribute has the given value if one was given and otherwise the default of the last class that assigns it.", "quantifier": "every object state and every keyword dictionary", "why_tests_cant": "The claim ranges over an infinite input space; a test checks finitely many points.", "anchors": ["misfit/galaxy.py:setAttr", "misfit/model/kin_model.py:KinModel2D.setAttr", "misfit/fit/fit2D.py:FitEmissionLines2D.setAttr"]}
{"id": "C61", "title": "Fit objects are independent", "statement": "Fitting one object does not change another's results. (Refuted: objects created without an explicit result object share one instance, so a second analysis overwrites the first's results; independent when result object, instrument and settings are their own and the light profile is unshared or every set-up succeeds, whatever kinematic profile is shared.)", "quantifier": "every interleaving of operations on two objects", "why_tests_cant": "The claim ranges over every sequence of calls; tests exercise a handful of short histories.", "anchors": ["misfit/fit/fit2D.py:FitEmissionLines2D.__init__", "misfit/model/kin_model.py:KinModel2D.__init__"]}
{"id": "C62", "title": "Models of different galaxies are independent", "statement": "Building a second model does not change what the first computes. (Refuted: with default profiles a second model re-points the shared intensity profile to its own galaxy before the first model builds its grid.)", "quantifier": "every interleaving of constructions and evaluations", "why_tests_cant": "The claim ranges over every sequence of calls; tests exercise a handful of short histories.", "anchors": ["misfit/model/kin_model.py:KinModel2D.__init__", "misfit/model/kin_classes.py:IntensityProfile.update_values"]}
{"id": "C63", "title": "Slit offset angle", "statement": "The slit offset angle lies in [-90,90] degrees, differs from galaxy angle minus slit angle plus image angle by a multiple of 180 degrees, and is unchanged when any of them changes by 180 (only the sign of a right angle may change); its magnitude is 90 exactly when the slit is perpendicular. For generated models the given offset is kept and only its magnitude is derived.", "quantifier": "every triple of angles", "why_tests_cant": "The claim ranges over an infinite input space; a test checks finitely many points.", "anchors": ["misfit/general/galaxy_utils.py:calculate_slit_offset_angles"]}
{"id": "C64", "title": "Object window", "statement": "The row window around the object is symmetric about the adopted centre and at least one row to each side (with dithering about half the separation of the images, otherwise 0.75 arcsec rounded up); the adopted row and shift stand for one position, which is the expected one or inside the image, and never more than two rows from a given position; without an expected position the result is a window of at least 5 rows that leaves 5, or TypeError -- TypeError exactly for poor windows. (With an expected position and pixels of 0.375 arcsec or more, images of up to ten rows raise ValueError and of 11 or 12 rows IndexError.)", "quantifier": "every image, wavelengths, expected position, pixel scale and optimiser that keeps to its limits", "why_tests_cant": "Depends on optimiser outcomes.", "anchors": ["misfit/general/galaxy_utils.py:vert_position"]}
{"id": "C65", "title": "Saved results can be reloaded", "statement": "Reloading completely saved results restores every saved attribute value (the galaxy without its image and the spectrum without its header) and touches no other attribute and no other file; failing saves and reloads change nothing; after an interrupted save the file is the old one, the new one or unreadable. (Refuted across a crash: an interruption between opening the file and its last byte always loses the previous results.)", "quantifier": "every results object, every crash point", "why_tests_cant": "Crash points are not tested.", "anchors": ["misfit/fit/fit2D.py:FitEmissionLines2D.save_bestfit_model", "misfit/fit/fit_io.py:dumppickle"]}
{"id": "C66", "title": "Line tables", "statement": "A table lookup returns the first matching row's value and raises ValueError when no row matches; the comma-separated list of a line group is split losslessly; every shipped line group's members have a positive rest wavelength and a flux ratio in (0,1], with exactly one strongest line; every shipped wavelength rounds to the number in its line's name; line, mask and full windows are nested and contain the line, and full windows reach between 60 and 130 angstrom to either side of it; every band's sky cutoff is listed. (Refuted: every shipped line group has a 1-D window: NII, SII and OII have none.)", "quantifier": "every key; every row of the shipped tables", "why_tests_cant": "The claim ranges over an infinite input space; a test checks finitely many points.", "anchors": ["misfit/general/io.py", "misfit/lib"]}
{"id": "C67", "title": "3D cube can be produced", "statement": "make_3D_int_model produces a cube for every padding and can be called repeatedly. (Refuted: it rebins an already trimmed cube to a padded shape, which works exactly when the padded size divides the fine grid and otherwise raises ValueError; a second call never returns; update_3D_int_model returns a cube of another size, before convolution with the PSF.)", "quantifier": "every padding and oversampling; every call sequence", "why_tests_cant": "The claim ranges over every sequence of calls; tests exercise a handful of short histories.", "anchors": ["misfit/model/kin_model.py:KinModel2D.make_3D_int_model"]}
{"id": "C68", "title": "Box integration downsampling", "statement": "Bins at least as wide as a pixel, meeting the image and with no end on a pixel edge, receive the mean surface brightness of the image in the bin, in one and two dimensions; bins covering the image conserve total flux. (Refuted in general: on the image's own grid every value is tripled, a bin inside one pixel is overestimated by the factor 1 + pixel/bin, bins outside the image receive negative flux, and debug=True always raises.)", "quantifier": "every pair of grids and every image", "why_tests_cant": "The claim ranges over an infinite input space; a test checks finitely many points.", "anchors": ["misfit/plot/plot_image_slit.py:box_integrate"]}
{"id": "C69", "title": "Plot rotations and angle signs", "statement": "Coordinate rotation about a centre is a rotation: it preserves distances to the centre, is undone by the opposite angle, and rotations compose. The y-sign of an angle is the sign of its cosine for angles in [-360,360] and the x-sign that of its sine for [-270,450]; a plain float above 180 degrees raises AttributeError. (Refuted beyond one turn.)", "quantifier": "every point and angle", "why_tests_cant": "The claim ranges over an infinite input space; a test checks finitely many points.", "anchors": ["misfit/plot/plot_utils.py:rot_coord_angle", "misfit/plot/plot_utils.py:sign_from_pos_angle"]}
{"id": "C70", "title": "Projected extent inside the slit", "statement": "The projected major-axis extent inside the slit is the largest offset along the slit of a point of the major axis inside the slit: it never exceeds the full projected extent, equals it when the galaxy fits, grows with slit width and galaxy size, and changes by no more than the size does.", "quantifier": "every radius, angle and slit width", "why_tests_cant": "The claim ranges over an infinite input space; a test checks finitely many points.", "anchors": ["misfit/general/general_utils.py:y_proj_major_inslit"]}
{"id": "C71", "title": "Mock dimensions", "statement": "A mock has at least the requested minimum number of rows, the fewest that hold the slit, its centre is the middle of the rows, it holds one column per wavelength, and is evaluated with exactly the given parameters.", "quantifier": "every slit length, pixel scale and minimum", "why_tests_cant": "The claim ranges over an infinite input space; a test checks finitely many points.", "anchors": ["misfit/mock/generate_basic.py:generate_mock_basis"]}
{"id": "C72", "title": "Pruned sampler copy", "statement": "The pruned copy handed to the sampler has every attribute its likelihood reads, gives the same likelihood as the original object, and sampling on it never changes the original.", "quantifier": "every state and every sequence of sampler calls", "why_tests_cant": "The claim ranges over every sequence of calls; tests exercise a handful of short histories.", "anchors": ["misfit/fit/fit_core.py:make_pruned_fitEmis2D_class"]}
{"id": "C73", "title": "Refitting with new settings", "statement": "After setting up again with a different free/fixed pattern, prior and model agree on which parameters are free. (Refuted: an existing flat prior keeps its old pattern while taking the new bounds.)", "quantifier": "every sequence of set-ups", "why_tests_cant": "The claim ranges over every sequence of calls; tests exercise a handful of short histories.", "anchors": ["misfit/fit/fit2D.py:FitEmissionLines2D.setup_model"]}
{"id": "C74", "title": "Effective instrument resolution option", "statement": "Turning on the effective instrument resolution changes the spectral broadening. (Refuted: without the position shift the image is the same with the option on or off; with the shift, an evaluation that succeeds has had no spectral broadening at all, and any positive smallest width makes it raise ValueError.)", "quantifier": "every model state", "why_tests_cant": "The claim ranges over an infinite input space; a test checks finitely many points.", "anchors": ["misfit/model/aper_model.py:AperModel2D.convolve_instrument_resolution"]}
{"id": "C75", "title": "Walker initialisation in IEEE double precision", "statement": "With the rounding of IEEE double precision every initial walker position is still finite and inside its closed bounds (so its prior is 0), provided each bound pair is finite, ordered and its width is in the range of doubles. (Refuted without the last condition: bounds whose width overflows give an infinite walker with prior minus infinity.)", "quantifier": "every pair of binary64 bounds, every binary64 draw in [0,1), any number of parameters and walkers", "why_tests_cant": "About 2^180 inputs; the claim depends on the rounding of three operations, with subnormal and power-of-two cases.", "anchors": ["misfit/fit/fit_core.py:init_walker_pos", "misfit/general/general_utils.py:range_arrs", "misfit/model/kin_classes.py:ThetaPriorFlat.log_prior"]}
{"id": "C76", "title": "A well-posed evaluation never raises", "statement": "make_model succeeds and yields an image of the right shape whenever there is at least one row and sub-pixel, sizes are positive, the wavelength grid is increasing with two samples or more, there is a flux ratio per line, the up-sampling factor is a whole number, and the PSF is absent or at least half a grid step wide.", "quantifier": "every configuration and parameter vector meeting these conditions, including non-finite profile parameters", "why_tests_cant": "The claim ranges over every configuration; the code has a dozen places that can raise.", "anchors": ["misfit/model/kin_model.py:KinModel2D.make_model", "misfit/model/aper_model.py:AperModel2D.do_model_calcs"]}
{"id": "C77", "title": "Row flux without blurring", "statement": "With no PSF, no instrumental broadening and zero dispersion, the sum over wavelengths of each detector row of the model equals the summed line ratios times the intensity integrated over the row's sub-pixels, the slit and the line of sight.", "quantifier": "every geometry, rotation curve, intensity profile and oversampling", "why_tests_cant": "The claim ranges over an infinite input space; a test checks finitely many points.", "anchors": ["misfit/model/aper_model.py:AperModel2D.do_model_calcs", "misfit/model/kin_functions.py:I_simple_collapse"]}
{"id": "C78", "title": "PSF blurring is centred on the source", "statement": "A point source blurred by the 2-D model's PSF peaks at its own position: each voxel of the result is the PSF profile at the distance from the source. (Refuted: true only when the object is in the middle row, the slit-centre offset is zero and both sample counts are odd; otherwise the light moves by the offset of the object from the slit centre, and by half a grid step for even counts.)", "quantifier": "every configuration, every source position, every positive PSF profile", "why_tests_cant": "The displacement depends on galaxy position, padding and parity together; a test fixes one combination.", "anchors": ["misfit/model/aper_model.py:AperModel2D.setup_calcs", "misfit/model/kin_functions.py:PSF_convolve"]}
{"id": "C79", "title": "Fit preparation and the caller's arrays", "statement": "Preparing a fit leaves the numpy arrays the caller passed in unchanged. (Refuted: after every successful preparation they contain no NaN or infinity, whatever they held before; with continuum subtraction off the finite flux values are kept.)", "quantifier": "every data set and every setting", "why_tests_cant": "The claim ranges over every data set; a test checks finitely many.", "anchors": ["misfit/galaxy.py:ObsSpectrum2D.fit_prep_calcs", "misfit/general/galaxy_utils.py:spec_nan_masking", "misfit/general/galaxy_utils.py:subtract_continuum_2D"]}
{"id": "C80", "title": "Well-formed data can be prepared", "statement": "Fit preparation of well-formed data (arrays of one shape, positive wavelengths, at least two different ones in both wavelength ranges, at least two rows left by the spatial trim, continuum fits and position fit that return) succeeds, keeps exactly the wavelengths inside both ranges, and leaves every image, the weighting profile and the weighting matrix with one common shape. Data with a usable row and column but only one row or one kept wavelength is never prepared, because the fitter rejects equal limits.", "quantifier": "every data set and every setting", "why_tests_cant": "The claim ranges over every data set; a test checks finitely many.", "anchors": ["misfit/galaxy.py:ObsSpectrum2D.fit_prep_calcs"]}
{"id": "C81", "title": "Saved chain is this run's", "statement": "The chain saved at the end of a run contains the sampling steps of this run only. (Refuted for emcee 3 with overwrite off: the steps already in the HDF file stay in front of the new ones and are analysed together with them.)", "quantifier": "every sampler, every option setting, every previous file content", "why_tests_cant": "Depends on the history of runs that shared the file; the claim is about every sampler trajectory.", "anchors": ["misfit/fit/fit_core.py:_run_mcmc_emcee_3"]}
{"id": "C82", "title": "Fits with fixed dispersion can be analysed", "statement": "A fit in which the dispersion is held fixed can be analysed like any other. (Refuted: the derived dispersion columns are then constant, and the analysis fails whenever the density estimate rejects constant samples, as scipy's gaussian_kde does.)", "quantifier": "every chain, every linked groups", "why_tests_cant": "The claim ranges over every chain and every density estimate.", "anchors": ["misfit/fit/fit_core.py:add_v_re_22", "misfit/fit/fit_core.py:get_param_posterior_bestfits"]}
{"id": "C83", "title": "Reduced chi-squared", "statement": "The reduced chi-squared is the (weighted or unweighted) chi-squared over the unmasked pixels divided by the number of unmasked pixels minus the number of free parameters; when these are equal the value is not finite. Pixels with an infinite error add nothing to the chi-squared but are still counted: with u unmasked pixels of infinite error among n and k free parameters the reduced chi-squared is (n-u-k)/(n-k) times the one with these pixels masked, hence lower if that is positive.", "quantifier": "every image, mask, weights, model and number of free parameters", "why_tests_cant": "Every image and setting; tests sample a handful.", "anchors": ["misfit/model/kin_model.py:KinModel2D.model_redchisq", "misfit/model/kin_model.py:KinModel2D.model_redchisq_no_weight", "misfit/model/kin_model.py:KinModel2D.model_redchisq_weight_ref"]}
{"id": "C84", "title": "Line profile of a voxel", "statement": "With non-zero dispersion the spectrum of a line of sight is the sum over lines and depth of Gaussians centred at lam0(1+V/c) with standard deviation lam0*sigma/c, weighted by intensity, depth step and line ratio (centred at V with width sigma in velocity units).", "quantifier": "every intensity, velocity and dispersion cube, wavelength grid, line list", "why_tests_cant": "Every image and setting; tests sample a handful.", "anchors": ["misfit/model/kin_functions.py:add_sigma_collapse_z"]}
{"id": "C85", "title": "Sign of the dispersion", "statement": "Nothing distinguishes a negative dispersion from a positive one except the sign of the light. Negating every dispersion negates every sample of the cube. Changing the sign of the dispersion parameter of KinModel2D gives the same image, its negative, or the same exception, for every setting of the floor, absolute-value, up-sampling, PSF and resolution options. With row scaling the stored models and all log-likelihoods along a fit are the same for either sign, so the data cannot determine it.", "quantifier": "every cube; every configuration whose dispersion profile changes sign with its parameter (the constant profile does), every option, parameter vector and sequence of evaluations", "why_tests_cant": "It relates two whole fits for all parameters and options; a stage that looks at the sign in one option would break it only there.", "anchors": ["misfit/model/kin_functions.py:add_sigma_collapse_z", "misfit/model/aper_model.py:AperModel2D.calculate_spectral_cube", "misfit/model/kin_model.py:KinModel2D.scale_model", "misfit/model/kin_classes.py:DispConstProfile"]}
{"id": "C86", "title": "Zero dispersion in part of the cube", "statement": "A voxel with zero dispersion still contributes its light. (Refuted: if any other voxel has non-zero dispersion, every sample of the line of sight through a zero-dispersion voxel is nan.) A voxel with a nan dispersion makes the cube come out exactly as if all dispersions were zero. (Refuted: that a nan dispersion shows as nan in the result; the cube can be finite everywhere.)", "quantifier": "every cube", "why_tests_cant": "Every image and setting; tests sample a handful.", "anchors": ["misfit/model/kin_functions.py:add_sigma_collapse_z"]}
{"id": "C87", "title": "Instrument kernel", "statement": "On an evenly spaced wavelength grid the instrumental broadening is the convolution of every column with a centred Gaussian whose standard deviation is the instrumental dispersion, cut at half the grid, times one overall factor.", "quantifier": "every image, grid and dispersion", "why_tests_cant": "Every image and setting; tests sample a handful.", "anchors": ["misfit/model/kin_functions.py:inst_convol_complete", "misfit/model/kin_functions.py:convol_instconstfwhm", "misfit/model/kin_functions.py:gaus_from_fwhm"]}
{"id": "C88", "title": "Default extraction width covers source and seeing", "statement": "When extraction_width is None the aperture models use twice the larger of the blurred minor axis and the projection on the slit of the blurred major axis (full widths, in quadrature with the PSF FWHM). The width is positive, at least twice the PSF FWHM, at least twice the galaxy's minor axis and at least twice the projected major axis, and never more than twice the blurred longest axis.", "quantifier": "every size, axis ratio, position angle and PSF width", "why_tests_cant": "The width is a maximum of two square roots depending on an angle; a table of cases cannot bound it over all geometries.", "anchors": ["misfit/model/aper_model.py:75-92", "misfit/model/aper_model.py:326-343", "misfit/general/general_utils.py:148-152"]}
{"id": "C89", "title": "Recalculating an aperture correction", "statement": "Calling calc_aper_correction again on a constructed AperModel1DRot leaves all its results unchanged. (Refuted when do_position_wave_shift or do_inst_res_conv_effective is on: the cache test reads self.inst_disp_wave, which is never set, so every recalculation raises AttributeError.)", "quantifier": "every object the constructor can build", "why_tests_cant": "It is a statement about every reachable object state and every option combination.", "anchors": ["misfit/model/aper_model.py:278-295", "misfit/model/aper_model.py:412-458"]}
{"id": "C90", "title": "Stored model is the fitted model", "statement": "On used pixels the stored best-fit spectrum is the model whose residuals were minimised. (Refuted when the pixel nearest to a line centre is masked: the residual model is normalised on the used pixels only; it holds when each line's nearest pixel is used.)", "quantifier": "every spectrum, mask and parameter set", "why_tests_cant": "Depends on the mask pattern relative to the line centres; a test sees finitely many masks.", "anchors": ["misfit/model/emission_lines_model.py:residual1DProfile", "misfit/fit/fit1D.py:FitEmissionLines1D.fit"]}
{"id": "C91", "title": "Errors of the corrected dispersion", "statement": "Errors of the instrument-corrected dispersion are estimated from the stored Monte Carlo values. (Refuted: the call never completes with error estimation, because an attribute no code sets is read; once that attribute is attached by hand, the errors span the 15.865-84.135 per cent range of the corrected samples and nothing else changes.)", "quantifier": "every fit state and file", "why_tests_cant": "The claim ranges over all states and samples.", "anchors": ["misfit/fit/fit1D.py:FitEmissionLines1D.calculate_inst_corr_vel_disp"]}
{"id": "C92", "title": "Spectrum set-up of a 1D fit", "statement": "The fitted spectrum holds exactly the pixels inside the window, in order, with flux and error unchanged, and its mask can only lose pixels. (Refuted for a first line set without shipped window: ValueError, and for a redshift given as a plain Python float: AttributeError.)", "quantifier": "every spectrum, redshift, window and table", "why_tests_cant": "The claim ranges over all spectra and windows.", "anchors": ["misfit/fit/fit1D.py:FitEmissionLines1D.setup_spectrum"]}
{"id": "C93", "title": "Line sets of different sizes", "statement": "Any combination of line sets can be fitted together and gets every line's rest wavelength. (Refuted with numpy 1.24 or later for sets of different sizes, e.g. Halpha with NII: ValueError; it holds for sets of one size, and for any sets with older numpy.)", "quantifier": "every list of names and every table", "why_tests_cant": "Depends on the version of a dependency and on the combination.", "anchors": ["misfit/fit/fit1D.py:FitEmissionLines1D.setAttr"]}
{"id": "C94", "title": "Changing the lines of a 1D fit", "statement": "After changing names_arr the fit uses the lines of the new names. (Refuted: lines and rest wavelengths once set are kept.)", "quantifier": "every table and pair of name lists", "why_tests_cant": "A statement about all sequences of settings.", "anchors": ["misfit/fit/fit1D.py:FitEmissionLines1D.setAttr"]}
{"id": "C95", "title": "Projected sizes", "statement": "The projected extent of an ellipse along the slit is the radius of the ellipse in that direction, lies between the minor and major axes, and the projected components of the major axis recompose to it; unprojecting undoes projection unless the slit is perpendicular.", "quantifier": "every size, angle and axis ratio", "why_tests_cant": "The claim ranges over an infinite input space; a test checks finitely many points.", "anchors": ["misfit/general/general_utils.py:y_proj_phys", "misfit/general/general_utils.py:r_unproj_major"]}
{"id": "C96", "title": "Image position angle", "statement": "The position angle derived from an image header is the direction of the image's y axis, and 0 when the header has no rotation. (Refuted when cd22 is zero and cd21 negative: 90 degrees is returned for both signs.)", "quantifier": "every header", "why_tests_cant": "The claim ranges over an infinite input space; a test checks finitely many points.", "anchors": ["misfit/plot/plot_utils.py:pstamp_position_angle"]}
{"id": "C97", "title": "Bearing between two sky positions", "statement": "The position angle between two sky positions is the bearing of the second seen from the first, depends only on the difference of the right ascensions, is the same direction in degrees and radians, and any other unit is rejected.", "quantifier": "every pair of positions that do not coincide, the second not at a pole", "why_tests_cant": "The claim ranges over an infinite input space; a test checks finitely many points.", "anchors": ["misfit/plot/plot_utils.py:pos_angle"]}
{"id": "C98", "title": "Dithered mocks", "statement": "Asking for dithering makes a dithered mock. (Refuted: the dither option of the mock generator is ignored for every input.)", "quantifier": "every input of the mock generator", "why_tests_cant": "That an option is ignored for all values of the other arguments cannot be established by examples.", "anchors": ["misfit/mock/generate_basic.py:generate_mock_basis"]}
{"id": "C99", "title": "Documented constructor parameters are honoured", "statement": "Every parameter that Galaxy and FitEmissionLines2D document is stored on the object when given, and otherwise has its default. (Refuted: Galaxy's documented deltPA, and FitEmissionLines2D's documented flux_arr, z, vel_disp, trim_restwave_range, trim_wave_paramfile and del_obs_lam, are silently ignored; the remaining ones are honoured.)", "quantifier": "every keyword dictionary", "why_tests_cant": "The claim ranges over every combination of keywords and values; ignored keywords raise no error that a test could see.", "anchors": ["misfit/galaxy.py:Galaxy.__init__", "misfit/fit/fit2D.py:FitEmissionLines2D.__init__"]}
{"id": "C100", "title": "Reloaded results can be saved again", "statement": "A fit object whose results were reloaded from file can be saved again. (Refuted: the saved galaxy has no pstamp attribute, so saving after reloading always fails with AttributeError and writes nothing.)", "quantifier": "every fit object that can be saved and every object its results are reloaded into", "why_tests_cant": "Save, reload and save again is a sequence of calls over arbitrary object states; tests exercise single steps.", "anchors": ["misfit/fit/fit2D.py:FitEmissionLines2D.make_pruned_fitEmis2D_result_class", "misfit/fit/fit2D.py:FitEmissionLines2D.reload_bestfit_model"]}
{"id": "C101", "title": "Sharing an instrument between models", "statement": "Two models may be given the same instrument object without affecting each other. (Refuted: building a model stores its PSF stamp on the instrument and every evaluation reads it from there, so a second model with another grid makes the first one's evaluation fail; sharing is harmless when PSF_FWHM is not positive.)", "quantifier": "every interleaving of constructions and evaluations, every pair of models", "why_tests_cant": "The claim ranges over every sequence of calls and every pair of grids; tests exercise a handful of short histories.", "anchors": ["misfit/model/aper_model.py:AperModel2D.setup_calcs", "misfit/model/aper_model.py:AperModel2D.do_model_calcs", "misfit/instrument.py:Instrument"]}
{"id": "C102", "title": "Settings survive evaluation", "statement": "A thetaSettings object given to KinModel2D keeps its parameter values, so several models can be made from one. (Refuted: the model uses the settings' array itself; every evaluation writes the free values into it and leaves the fixed ones, and a model with other free parameters made from the same settings changes the first one's image.)", "quantifier": "every free/fixed pattern, every parameter vector, every interleaving of calls", "why_tests_cant": "The claim ranges over every sequence of calls; tests exercise a handful of short histories.", "anchors": ["misfit/model/kin_model.py:KinModel2D.__init__", "misfit/model/kin_model.py:KinModel2D.update_parameters"]}
{"id": "C103", "title": "S/N of the object row", "statement": "The peak S/N reported with the object row is the S/N of that row (or of the nearest row of the image): without an expected position, with pixels below 0.375 arcsec without dithering, or for rows 5 to n-11. (Refuted otherwise: after the edges are cut the row is limited to the cut profile in the wrong coordinates, and the S/N of another row is reported.)", "quantifier": "every image, position and optimiser that keeps to its limits", "why_tests_cant": "The wrong row is taken silently, and only for some positions and pixel scales.", "anchors": ["misfit/general/galaxy_utils.py:vert_position"]}
{"id": "C104", "title": "Object row in the trimmed image", "statement": "After spatial trimming the recorded object row is a row of the trimmed image when the object is not in the last row; in particular whenever the expected position is at least 3 rows from the top. (Refuted for an object in the last row: the upper bound excludes it, and the recorded row is outside the image.)", "quantifier": "every image, expected position in the image, and optimiser that keeps to its limits", "why_tests_cant": "Depends on optimiser outcomes and on boundary rows.", "anchors": ["misfit/general/galaxy_utils.py:trim_spectrum_2D_spatial", "misfit/general/galaxy_utils.py:vert_position"]}
{"id": "C105", "title": "1D fit of an unlabelled galaxy", "statement": "A 1D fit does not depend on the galaxy's catalogue data (ID, field, mask name). (Refuted: with the default ID None it raises TypeError from a log message after storing the same best fit a numbered galaxy gets and before any error is estimated, whatever the options; with a plot requested and neither mask name nor field set it raises TypeError at the end.)", "quantifier": "every data set, option setting, and optimiser that answers within bounds", "why_tests_cant": "The shipped examples always set an ID; the claim is over all inputs.", "anchors": ["misfit/fit/fit1D.py:FitEmissionLines1D.fit", "misfit/galaxy.py:Galaxy.__init__"]}
{"id": "C106", "title": "The adopted position is the fitted one only if believable", "statement": "After fit preparation the shift of the object row is the fitted centre minus that row if the fitted centre lies in the image and within two rows of the expected position (or within two rows of the object row when its first fit moved by at most one row and had a peak S/N of at least 3), and zero otherwise; the line wavelength is the fitted one if it lies in the middle half of the kept range and within a quarter of it from the expected wavelength, and the expected one otherwise. Without a usable row or column neither fit is used.", "quantifier": "every prepared data set, every answer of the two fits", "why_tests_cant": "The fitter's answers are arbitrary; a test sees the ones of its data.", "anchors": ["misfit/general/galaxy_utils.py:get_m0_lam0_pos_2D"]}
{"id": "C107", "title": "Residuals of the helper fits", "statement": "The residuals the Gaussian, straight-line and triple-Gaussian helper fits minimise are (model - data)/error entry by entry, in the order of the rows kept, and zero where the error is zero or the entry is masked. The best fit of a profile is therefore the Gaussian closest to it. (Refuted: a width of zero is within the limits of the emission-size fit, makes the model NaN everywhere, and NaN residuals are replaced by zero, so width zero fits any data perfectly.)", "quantifier": "every parameter set of positive width, every finite data set, any choice of rows; the refutation for every data set and starting point", "why_tests_cant": "A test compares a few profiles; the degenerate optimum is missed by a local optimiser started elsewhere.", "anchors": ["misfit/general/general_utils.py:gaus_residual", "misfit/general/general_utils.py:gaus_residual_mask", "misfit/general/general_utils.py:weighted_linear_residual", "misfit/general/general_utils.py:vert_triple_gaus_residual", "misfit/general/galaxy_utils.py:fit_emission_y_profile"]}
{"id": "C108", "title": "Size of the emission along the slit", "statement": "fit_emission_y_profile on a prepared spectrum of two rows or more never raises. It either sets every attribute to -99 or to a measurement: an observed width no greater than that of a Gaussian whose full width fills the rows, an intrinsic width that adds in quadrature with the PSF's to the observed one (zero if the PSF is wider), a D50 equal to the intrinsic full width and never larger than the rows, and errors reaching from the value to the 15.865 and 84.135 per cent points of the 500 Monte Carlo values of the same quantity. Pixels masked as sky have no effect. An unprepared spectrum raises ValueError.", "quantifier": "every spectrum, pixel scale, PSF width, random numbers and optimiser that keeps its limits", "why_tests_cant": "The optimiser's answers and the random draws are arbitrary; each test sees one sequence.", "anchors": ["misfit/general/galaxy_utils.py:fit_emission_y_profile", "misfit/galaxy.py:ObsSpectrum2D.fit_emission_y_profile"]}
{"id": "C109", "title": "Plotting the size fit", "statement": "Asking fit_emission_y_profile for a plot does not change the measured size. (Refuted: this holds when the spectrum has a slitobjname attribute and the galaxy an integer ID; otherwise, as for every spectrum built by the package's own classes, writing the title raises inside the try block and the finished measurement is replaced by -99.)", "quantifier": "every spectrum, optimiser and draw sequence", "why_tests_cant": "The loss is silent: the result looks like a failed fit.", "anchors": ["misfit/general/galaxy_utils.py:fit_emission_y_profile"]}
{"id": "C110", "title": "The continuum does not depend on the emission line", "statement": "If two data sets differ only by finite light in the columns of the line's mask range or outside the full range, and continuum subtraction succeeds for one, it succeeds for the other, with the same continuum model, errors, masks and wavelengths; the added light of the line is kept in the flux (where the image was finite).", "quantifier": "every data set, range, redshift and added light; every outcome of the fits", "why_tests_cant": "The added light and the fit results are arbitrary.", "anchors": ["misfit/general/galaxy_utils.py:subtract_continuum_2D"]}
{"id": "C111", "title": "The sky mask of the continuum fit is temporary", "statement": "The 1-D continuum fit changes the 1-D spectrum in its mask only: columns whose masked error reaches the cutoff times the median become zero, the others keep their value. (Refuted as a temporary mask: spec_mask[:] is a view, so the zeros stay in galaxy.spec1D.spec_mask and in the array the caller handed over.)", "quantifier": "every 1-D spectrum, cutoff and median error", "why_tests_cant": "The columns taken for sky depend on the data.", "anchors": ["misfit/general/galaxy_utils.py:subtract_continuum_2D"]}
{"id": "C112", "title": "The model image is the light of a disc turning about an inclined axis", "statement": "Without blurring, every pixel of the image is the sum, over the sub-pixels of the row, the columns of the slit and the depth, of cell area times the intensity at the cell's distance from the axis and height over the disc, times the lines' Gaussian profile displaced by the line-of-sight component of the rotation velocity. The axis is a unit vector at the inclination given by the axis ratio, projected perpendicular to the major axis; distances, heights and velocities are the vector expressions for rotation about that axis. For the arctan curve the speed is 2/pi va atan(R/rt). The positions along the slit include the stretch of the row grid stated in the theorem.", "quantifier": "every galaxy, instrument geometry, sub-pixel count, slit offset, profile and parameter values with non-zero dispersion; blurring, refinement and dispersion options off", "why_tests_cant": "The equality of the code's chain of rotations with the vector picture holds for all angles and positions; an image test fixes a few.", "anchors": ["misfit/model/aper_model.py:do_model_calcs", "misfit/model/aper_model.py:calculate_spectral_cube", "misfit/model/aper_model.py:setup_model_grid", "misfit/model/kin_functions.py:transform_int_3d"]}
{"id": "C113", "title": "The line moves with the position of the light in the slit", "statement": "With do_position_wave_shift every row of the cube is the unshifted emission with one velocity added: the fitted light centre, moved to the nearest slit edge if outside, divided by the slit width, times the instrumental FWHM in km/s; the row's width scales with the effective light width in the same way. (Refuted: that the position is measured from the centre of the slit. The centre is fitted in coordinates from which the object offset xc was subtracted, against the comment that they must be unshifted, so an evenly lit slit is shifted by xc.)", "quantifier": "every geometry, profile, resolution, PSF and outcome of the Gaussian fits with non-negative width", "why_tests_cant": "The fit outcomes and light distributions are arbitrary.", "anchors": ["misfit/model/aper_model.py:calculate_spectral_cube", "misfit/model/kin_functions.py:calculate_effective_inst_res_lam_shift", "misfit/model/kin_functions.py:check_slit_illum"]}
{"id": "C114", "title": "Small dispersions: floor, absolute value and grid refinement", "statement": "The wavelength grid is refined exactly when the absolute dispersion is below the mean pixel in km/s divided by 2.35, and then by exactly the requested factor. The floor is that value, or three quarters of it over the factor when refinement is on. The cube with the floor and absolute-value options equals the cube of the model without them whose dispersion is the floor if the absolute dispersion is below it, else the (absolute) dispersion.", "quantifier": "every increasing wavelength grid, line wavelength, factor and dispersion, every velocity and intensity profile", "why_tests_cant": "The thresholds depend on grid, redshift and line; the equality is between whole cubes.", "anchors": ["misfit/model/aper_model.py:setup_calcs", "misfit/model/aper_model.py:check_do_upsample_wave", "misfit/model/aper_model.py:calculate_spectral_cube"]}
{"id": "C115", "title": "Which emission lines a 2-D fit models", "statement": "Given a tabulated line group and nothing else, FitEmissionLines2D models exactly the lines of that group, each with its tabulated wavelength and relative strength; an unknown group or line is an error. Lines already set on galaxy.spec2D always win over anything given to the fit. When only the names are set on the spectrum, wavelengths and strengths are those tabulated for these names. (Refuted: setting linenames_arr, restwave_arr and flux_ratio_arr on the fit, the documented alternative, never changes what is modelled: it fails with ValueError, or silently models the spectrum's own line group; and names given to the fit beside other names on the spectrum leave the spectrum with wavelengths that are not those of its lines.)", "quantifier": "every line table, group, set of lines on the fit and on the spectrum", "why_tests_cant": "Which of eight attributes on two objects is used depends on every combination of set and unset values and on the tables; the failure is a plausible model of the wrong line.", "anchors": ["misfit/fit/fit2D.py:setup", "misfit/galaxy.py:initialize_lineset", "misfit/general/io.py:read_line_names"]}
{"id": "C116", "title": "Results belong to the run that produced them", "statement": "A 2-D fit that finishes holds in memory, saves to filename_bestfit_model and models the analysis of the chain this call sampled, and filename_sampler holds that chain, whatever was there before. A failing plot loses nothing of this. A negative instrument resolution is rejected before anything changes, and sampling that fails leaves chain, results and files alone. In a new session reload_results gives the analysis of the chain on disk. (Refuted: reload_results on an object that holds a chain never reads the file; after a trace plot that failed, the file holds the new chain while reload_results reports, and resave_bestfit saves, the results of the earlier run.)", "quantifier": "every chain, analysis, file content and failing step", "why_tests_cant": "It relates memory and files over a sequence of calls, each step of which may raise.", "anchors": ["misfit/fit/fit2D.py:fit", "misfit/fit/fit2D.py:reload_results", "misfit/fit/fit2D.py:analyze_results", "misfit/fit/fit_core.py:run_mcmc"]}
{"id": "C117", "title": "The corner plot shows the analysed chain", "statement": "The corner plot of a 2-D fit shows the samples, best values and 1-sigma errors of every free parameter, V(R_E) and V_2.2 in the order of their names. The notes give V(R_E) with its 68.27% and 95.45% ranges, and call the galaxy rotating exactly when that range does not cross zero (or is zero); the opposite-sign share is that of the samples. For a linked group of the first and another parameter, with a profile proportional to the first (such as arctan), every point of the two curves gives, with the other parameters at the best fit, the best V(R_E) and V_2.2 at galaxy.re_arcsec and 2.2 scale lengths. (Refuted: the plot, and with it fit(), ends in an exception unless a free parameter is called sigma0, or when a linked group is 'all'; and V(R_E) is evaluated at galaxy.re_mass_arcsec while the curves use galaxy.re_arcsec, so that with different radii the curve misses the best fit.)", "quantifier": "every chain, kernel density estimate, profile, set of free parameters and axis limits", "why_tests_cant": "A wrong column, sign rule or radius gives a plausible figure; the rot/disp label is a statement about every posterior.", "anchors": ["misfit/plot/plot_mcmc.py:plot_param_corner", "misfit/fit/fit_core.py:get_chain_results"]}
{"id": "C118", "title": "The image panel shows stamp, slit and fit on one sky", "statement": "The image panel of plot_image_slit is consistent. Turned so that the slit is vertical, it shows at every pixel the stamp at the position that lies from the fitted centre as the pixel lies from the drawn centre. Slit outline, axes and ellipse of the turned panel are those of the unturned panel seen through this turn. The outline has the slit width and length of the instrument, the axes have the size and angle of the fit (with half the PSF width added in quadrature when convolved), the scale bar is 1 kpc, and the window is as high as the spectrum with the fitted centre at row m0. Down-sampled, the rows of the panel are the rows of the spectrum. (Refuted: when not down-sampled the slit is moved by yoffset divided by the pixel scale of the spectrograph but drawn in pixels of the imager; show_galfit=False, a galaxy without re_arcsec, the default slit_length=None, and a galaxy with only a 1-D spectrum all end in an exception.)", "quantifier": "every stamp, interpolation, position, angle, pixel scale, slit and number of rows", "why_tests_cant": "A figure with a wrong sign of an angle or a shifted slit looks plausible; that turned and unturned panels agree is a statement about all angles and positions.", "anchors": ["misfit/plot/plot_image_slit.py:plot_image_slit", "misfit/plot/plot_utils.py:rotate_pstamp"]}
{"id": "C119", "title": "The convolved stamp keeps the light in place", "statement": "convolve_rot_gal returns the turned stamp smeared with a Gaussian of width conv_sigma and keeps its total light. For an object in the middle of a stamp with odd sides every pixel is smeared around its own place. (Refuted: the kernel is centred on the catalogue position, turned by slit_PA rather than slit_PA - img_PA, so all light is moved by the distance of that point from the middle pixel: a point source then appears brightest elsewhere than where it is.)", "quantifier": "every stamp with non-negative light, position, angle, pixel scale and Gaussian width", "why_tests_cant": "Rests on the index conventions of a same-size convolution for all sizes, parities and positions.", "anchors": ["misfit/plot/plot_utils.py:convolve_rot_gal"]}
{"id": "C120", "title": "The panels of the best-fit figure show the same rows", "statement": "plot_bestfit_model shows the spectrum, the model and spectrum minus model, pixel by pixel, with grey limits that are the extremes of the spectrum outside the columns of sky lines. The solid line is at row m0 plus the fitted shift of the spatial centre, the dotted lines at the half-light radius (PSF added in quadrature) projected on the slit around it. In the image panels beside it the window covers the same rows, the centre of the fitted ellipse is at the solid line, and in the down-sampled panel the ends of its major axis lie on the dotted lines. A row is hatched iff it is of low S/N, and a dashed line separates two rows iff exactly one of them is. (Refuted: before a model exists the figure is never drawn although a layout without model is prepared, and a spectrum with masked sky columns is never drawn.)", "quantifier": "every spectrum, model, parameter vector, set of rows, stamp, angle, slit and pixel scale for which the figure is drawn", "why_tests_cant": "Image tests compare one picture; the agreement of the panels is a relation between two independently computed geometries for all angles and sizes.", "anchors": ["misfit/plot/plot_bestfit.py:plot_bestfit_model", "misfit/plot/plot_image_slit.py:plot_image_slit"]}
{"id": "C121", "title": "The trace figure shows every walker under the right name", "statement": "plot_trace draws one axis for each free parameter, in the order of theta, labelled with its nice name. The lines on axis k are the samples of column k of the chain of every walker, grey or coloured, and of no others.", "quantifier": "every pattern of free parameters, chain, number of walkers and choice of coloured walkers", "why_tests_cant": "A swapped or missing column gives a plausible picture; the claim is for all patterns of fixed parameters and all random choices.", "anchors": ["misfit/plot/plot_trace.py:plot_trace"]}
{"id": "C122", "title": "Which parameters a 2-D fit cannot tell apart", "statement": "With the arctan rotation curve, and light and dispersion that are the same above and below the disc, turning the galaxy by 180 degrees against the slit and reversing the sign of the first velocity parameter changes nothing: KinModel2D gives the same image or the same exception, and every log-likelihood along a fit is the same, for all options. Reversing the sign of rotation velocity and turnover radius together changes nothing either. The image of a face-on disc does not depend on the rotation at all. A disc centred on the slit that turns backwards, or is turned by 180 degrees on the sky, gives the same image with the rows in reverse order.", "quantifier": "every configuration, angle, parameter vector, option, PSF and sequence of evaluations; the reversed rows for every centred unblurred configuration", "why_tests_cant": "A symmetry relates two runs for all parameters; a wrong sign in the rotation, the projection or the grid gives images that look equally plausible one by one.", "anchors": ["misfit/model/aper_model.py:AperModel2D.calculate_spectral_cube", "misfit/model/kin_functions.py:transform_int_3d", "misfit/model/kin_model.py:KinModel2D", "misfit/model/kin_classes.py:VelArctanProfile"]}
{"id": "C123", "title": "Units of brightness and flux do not matter to a 2-D fit", "statement": "Multiplying the intensity profile by a positive number, or all flux ratios of a wavelength spectrum by a common positive number, multiplies the image of AperModel2D by that number and changes nothing else (the same PSF stamp, the same exceptions). With the default row scaling, KinModel2D then stores the very same image and returns the very same log-likelihoods along a whole fit. Giving flux and error of the data in a unit u times smaller makes the stored image u times larger and lowers every log-likelihood by log10(u) times the number of unmasked pixels, so that differences of log-likelihoods, and therefore the sampled posterior, stay the same.", "quantifier": "every positive factor, configuration, option, PSF, parameter vector, data set (including infinite and missing values) and sequence of evaluations; with light-position shifts for every Gaussian fitter whose centre and width do not depend on the brightness", "why_tests_cant": "It relates two runs for every data set and factor; an absolute threshold or a missing square in the scaling only shows for particular magnitudes.", "anchors": ["misfit/model/kin_model.py:KinModel2D.scale_model", "misfit/model/kin_model.py:KinModel2D._model_llike", "misfit/model/aper_model.py:AperModel2D.do_model_calcs", "misfit/model/kin_functions.py:add_sigma_collapse_z"]}
{"id": "C124", "title": "Preparing a spectrum does not depend on the unit of flux", "statement": "ObsSpectrum2D.fit_prep_calcs (fit preparation: masks, continuum, trims, sky lines, low S/N rows, weights, position of the trace) run on the same spectrum in a unit u times smaller raises the same exception, or leaves the same wavelengths, masks, weights, sky and low-S/N sets, limits, trace row and central wavelength; flux, error, continuum and median noise are converted, except for excluded pixels. A 2-D fit of the two then scales a model to converted images and to log-likelihoods with the same differences, provided no excluded pixel lies in the sky-free columns. (Refuted: this proviso cannot be dropped. A missing pixel is filled with flux and error -99 whatever the unit, KinModel2D.scale_model reads it although it is masked, and so the factor of its row, and differences of log-likelihoods, depend on the unit the user chose; with errors much larger than 99 the filled pixel dominates its row.)", "quantifier": "every positive factor, spectrum without given quality or sky mask (their default; with missing, infinite and zero values), weighting, option and outcome of the external fits, where these answer in the unit they are asked in", "why_tests_cant": "It relates two whole runs for every data set and factor; an absolute threshold in one of a dozen stages only shows for particular magnitudes.", "anchors": ["misfit/galaxy.py:ObsSpectrum2D.fit_prep_calcs", "misfit/general/galaxy_utils.py:subtract_continuum_2D", "misfit/general/galaxy_utils.py:mask_skylines_2D", "misfit/general/galaxy_utils.py:wh_skylines_1D", "misfit/general/galaxy_utils.py:spec_nan_masking", "misfit/model/kin_model.py:KinModel2D.scale_model"]}
{"id": "C125", "title": "The continuum fit uses both sides of the line and tilts only if both are usable", "statement": "subtract_continuum_2D fits a line to the 1-D spectrum from exactly the columns left and right of the line's mask range (their wavelengths, fluxes, errors, and the mask with sky columns set to zero). Its slope is free exactly when both sides have a column with a positive mask; otherwise a constant is fitted. Each row of the image is then fitted with that slope from its own pixels in the same columns; its continuum is slope times wavelength plus the fitted intercept, its flux the image minus that continuum, and no other row changes.", "quantifier": "every spectrum, window (possibly empty), mask without NaN and fit result", "why_tests_cant": "The windows, masks and fit results are arbitrary; a wrong threshold on the mask or a swapped window only shows when one side is masked.", "anchors": ["misfit/general/galaxy_utils.py:subtract_continuum_2D"]}
{"id": "C126", "title": "The unit and the frame of the wavelengths do not matter to a 2-D fit", "statement": "Let spec_type be 'wave'. If the wavelength array of the spectrum is multiplied by u > 0, the tabulated line wavelengths by v > 0, and the redshift changed to z' with v(1+z') = u(1+z) - in particular another unit (u = v, z' = z), or a spectrum brought to the rest frame (v = 1, u = 1/(1+z), z' = 0) - then a 2-D aperture model built from the same other parameters fails with the same error or gives the same image up to a constant factor, 1 or 1/u. With the redshift held fixed and the model scaled to the data (the default), KinModel2D gives the same model image, the same errors and the same log-likelihood for every sequence of trial parameters.", "quantifier": "every galaxy, instrument (PSF, slit, tilted slit, dispersion), option set with spec_type 'wave', kinematic profile, parameters, trial sequence, u, v > 0", "why_tests_cant": "Independence of units holds for all inputs through every branch (up-sampling, sigma floor, Gaussian or binned spectra, tilted slit); a single forgotten factor shows only in the branch that uses it.", "anchors": ["misfit/model/aper_model.py:AperModel2D", "misfit/model/kin_model.py:KinModel2D"]}
{"id": "C127", "title": "What the fits for the object's row are given, and the refit in a trimmed image", "statement": "vert_position fits, for each row, the sum of the flux along the wavelengths with the quadratic sum of the errors as error. Errors flagged -99 count as three times the median of the whole error image (the flags included). If the row with the largest S/N is the first or the last, its flux is given as 0. All rows are given, or all but five at each end when the first window was poor; a fit to all rows comes first, starting at the expected position or at the middle of the image. With refit=True the returned window is the whole image and the returned row, shift and S/N are those of the fitted position or, if that is more than two rows from the expected one and the check is not skipped, those of the expected one.", "quantifier": "every image, missing errors, expected position, median function and optimiser (for the refit: one that keeps to its limits)", "why_tests_cant": "The optimiser's answer is arbitrary; a fit fed with the wrong rows, errors or offsets still returns a plausible row.", "anchors": ["misfit/general/galaxy_utils.py:vert_position"]}
{"id": "C128", "title": "1-D aperture corrections depend only on ratios of lengths, except at 0.1 arcsec", "statement": "Multiply the galaxy's half-light and mass radii, the slit width, the PSF's FWHM and dither, and (where given) the extraction width, the reference radius, the centre offsets and, for the rotation model, the turnover radius and the scale of the light profile by one positive number. Then AperModel1DDisp and AperModel1DDispMisalign give the same sigma in the aperture, reference sigma and ratio, or the same exception, for an integrator that obeys the change of variable; AperModel1DRot (without velocity shift) gives the same sigma, V_RMS and ratio. The dispersion models need the size to lie on the same side of 0.1 before and after. (Refuted: 'the unit of angle does not matter': a size of 0.1 arcsec or less doubles nPixels, an absolute threshold, so the same ratios of lengths are sampled differently.)", "quantifier": "every galaxy, instrument, PSF family, option and positive factor; every integrator obeying the substitution rule", "why_tests_cant": "A homogeneity statement over all sizes and factors; a term in which a length is compared with a pixel number or an angle changes results by a few per cent only.", "anchors": ["misfit/model/aper_model.py:AperModel1DDispBase.setup_model_grid", "misfit/model/aper_model.py:AperModel1DRot", "misfit/model/kin_functions.py:sigma_aper_dispersion", "misfit/model/kin_functions.py:sigma_aper_dispersion_misalign", "misfit/instrument.py:PSF_stamp_moffat"]}
{"id": "C129", "title": "The unit of angle does not matter to a 2-D model or fit", "statement": "Express the slit width, the pixel scale, the PSF's FWHM and shape, the slit offset, the disc's light profile and the turnover radius in a unit of angle u times smaller (arcsec to arcmin, or to kpc). AperModel2D then raises the same exception or makes exactly u*u times the image, whatever the normalisation of the PSF, with sub-pixel grid, padding, PSF trimming, effective resolution, velocity shift and adaptive wavelength grid included; and KinModel2D, which scales the image to the data, stores the same image and returns the same log-likelihood at every step of a fit if the free lengths are converted. Gaussian and Moffat PSFs, the arctan rotation curve and both light profiles satisfy the conditions.", "quantifier": "every galaxy, instrument, options, parameter vector, sequence of trial parameters and positive factor; every Gaussian fitter that finds the same centre and width", "why_tests_cant": "A homogeneity statement through the whole pipeline for all inputs; an absolute length anywhere (a tolerance, a default, a rounding) would show for some factor only.", "anchors": ["misfit/model/aper_model.py:AperModel2D.setup_model_grid", "misfit/model/aper_model.py:AperModel2D.do_model_calcs", "misfit/model/kin_functions.py:check_slit_illum", "misfit/model/kin_functions.py:calculate_effective_inst_res_lam_shift", "misfit/model/kin_functions.py:PSF_convolve", "misfit/model/kin_model.py:KinModel2D.update_model"]}
{"id": "C130", "title": "Masking of the 1-D spectrum carries over to the image, and to nothing else", "statement": "When the continuum is subtracted the image's mask is first zeroed where flux or error is missing or the weight is zero (C35); then, unless subtraction is switched off, the 1-D spectrum's mask is brought up to date (missing values, edges: C35, C36) and exactly those columns in which it is zero are zeroed in the image, in every row; every other pixel keeps its mask. Masked pixels without a finite flux get -99, masked pixels without a finite or non-zero error get -99, every other pixel keeps its value, and the noise level used later is the median of the columns' masked noise. With subtraction switched off the 1-D spectrum is neither needed nor changed.", "quantifier": "every configuration, image, error, weight and mask and every 1-D spectrum for which the step completes", "why_tests_cant": "Says what is NOT changed for every pixel of every image; a test sees one image.", "anchors": ["misfit/general/galaxy_utils.py:subtract_continuum_2D", "misfit/general/galaxy_utils.py:mask_spec2D_from_1D", "misfit/general/galaxy_utils.py:spec_nan_masking"]}
{"id": "C131", "title": "Emission lines superpose", "statement": "Except for which line comes first, the order of the emission lines has no effect on a 2-D model, on a fit or on anything the objects store, and a line listed twice acts like one line with the sum of its positive flux ratios. Without PSF, instrumental broadening, dispersion floor and wavelength up-sampling the image of two sets of lines is pixel by pixel the sum of their images. (Refuted: that this holds with instrumental broadening, which is renormalised to the image's total flux; that every line is broadened by the instrument's velocity width: the width in wavelength is computed from the first line and used for all; that a line outside the wavelength range adds no light: with zero dispersion all of it goes into the edge wavelength.)", "quantifier": "all galaxies, instruments, options, profiles, parameters, numbers of lines, wavelengths and flux ratios; all sequences of likelihood calls", "why_tests_cant": "A statement about all orders and all splits of a list of lines, at every pixel; a test tries a few doublets.", "anchors": ["misfit/model/kin_functions.py:add_sigma_collapse_z", "misfit/model/kin_functions.py:I_simple_collapse", "misfit/model/kin_functions.py:convol_instconstfwhm", "misfit/model/aper_model.py:AperModel2D.convolve_instrument_resolution"]}
{"id": "C132", "title": "The summaries of a posterior depend neither on the order of the samples nor on the units", "statement": "The best fit, the errors, the derived columns and the percentages of opposite sign do not change when the samples of the flat chain are put in another order (for instance step by step instead of walker by walker), and an analysis that fails does so with the same exception. When the columns of the chain, the fixed parameters and the effective radius are expressed in other units of velocity and length, every best value and error is the old one in the new units and the percentages are the same. Both hold for every grouping of linked parameters, provided the kernel density estimate itself ignores the order of the samples or follows their units.", "quantifier": "all chains, numbers of samples and parameters, sets of free parameters, groups of linked parameters, orders, and positive unit factors; every density estimate with the stated property", "why_tests_cant": "A statement about all reorderings and all unit factors of all chains; a test compares a few shuffles up to rounding.", "anchors": ["misfit/fit/fit_core.py:get_param_posterior_bestfits", "misfit/fit/fit_core.py:add_v_re_22", "misfit/fit/fit_core.py:get_chain_results", "misfit/general/general_utils.py:get_bestfit_values_linked"]}
{"id": "C133", "title": "A 1-D line fit follows the units of wavelength and flux", "statement": "When the wavelengths of the spectrum, of the line table and the allowed shift are multiplied by one positive factor and the flux densities and their errors by another, FitEmissionLines1D.fit finds the same redshift and velocity dispersion; line fluxes, continuum coefficients, the model spectrum, all errors and the saved Monte Carlo realisations are the old ones in the new units, a bounded second fit is made in the same cases, and a fit that raises does so with the same exception. The instrument-corrected dispersion and its errors do not change. Multiplying only the flux errors by one factor leaves the best fit of a run without errors unchanged. This holds for every optimiser that itself follows the units (for the last part: that ignores a common factor of the residuals). When errors are reloaded, the saved matrix must not consist of a single column, which numpy would broadcast.", "quantifier": "all spectra, masks, line sets, line tables, continuum orders, options, random numbers, starting states and positive unit factors; every optimiser with the stated property", "why_tests_cant": "A relation between two runs for all inputs and all conversion factors; a test compares single runs up to rounding and optimiser tolerance.", "anchors": ["misfit/fit/fit1D.py:fit", "misfit/fit/fit1D.py:make_params", "misfit/fit/fit1D.py:calculate_inst_corr_vel_disp", "misfit/model/emission_lines_model.py:make1DProfile"]}
{"id": "C134", "title": "How far in wavelength the light of a rotating disc reaches", "statement": "In a 2-D model without PSF and instrumental broadening no element of the disc moves along the line of sight faster than its rotation speed times the sine of the inclination. So every pixel lies between the light of its row times the least and the greatest value the line spectrum takes at such velocities; a face-on disc, or one without rotation, shows the same line profile in every row, scaled by the light of the row; and with zero velocity dispersion a wavelength column that is not the nearest one to any line at a reachable velocity stays exactly dark, while the light of every cell goes to the (first) nearest columns. The arctangent curve never exceeds its asymptote.", "quantifier": "all discs, slit angles, inclinations, rotation and intensity profiles (finite), line lists, wavelength grids, sub-pixel settings and rows", "why_tests_cant": "An inequality and an exact zero for all discs and all grids; a test only samples single models.", "anchors": ["misfit/model/aper_model.py:do_model_calcs", "misfit/model/kin_functions.py:add_sigma_collapse_z", "misfit/model/kin_functions.py:I_simple_collapse", "misfit/model/kin_classes.py:VelArctanProfile"]}
{"id": "C135", "title": "The true parameters fit a noise-free observation best", "statement": "If the flux of an observation is the model image of some parameters, each row multiplied by any factor, then a fit whose free parameters are set to the true ones reproduces every unmasked pixel with chi-squared exactly zero, whatever was evaluated before; no other parameters have a higher likelihood; those with the same likelihood reproduce every unmasked pixel of nonzero weight; and with a flat prior whose bounds contain the truth the posterior is greatest there. The same holds for the image returned by generate_mock_slit_obs. (Refuted: that the maximum is unique - for a face-on disc every rotation speed attains it - and that it is found with a free redshift: an object first evaluated at another redshift keeps its old grid and gives the true redshift a strictly lower likelihood.)", "quantifier": "all galaxies, instruments, options, profiles, true parameters, row factors, errors, weights and masks; all other parameter vectors; all histories of earlier evaluations", "why_tests_cant": "A statement about the maximum over all parameter vectors after any history of evaluations; a test compares finitely many.", "anchors": ["misfit/mock/generate_basic.py:generate_mock_slit_obs", "misfit/fit/fit_core.py:lnlike", "misfit/fit/fit_core.py:lnprob", "misfit/model/kin_model.py:scale_model", "misfit/model/kin_model.py:KinModel2D.make_model"]}
{"id": "C136", "title": "A shining disc gives finite, non-negative images and a finite likelihood", "statement": "For a disc with positive intensity everywhere, finite velocities, positive line ratios and a dispersion that is not negative, every pixel of the model image is a finite number and not negative, and every row has light, whatever the PSF width, spectral resolution, dispersion floor, absolute-value option, wavelength up-sampling, padding and rebinning. Hence the likelihood is finite after any history of evaluations, the posterior is finite wherever the flat prior allows, and generate_mock_slit_obs returns such an image. (Refuted: for a negative dispersion parameter; without the absolute-value option every pixel of the image can be negative.)", "quantifier": "all galaxies, instruments, options, profiles and parameters satisfying the named conditions; all data with nonzero errors; all histories", "why_tests_cant": "One nan pixel anywhere makes a likelihood nan; a test cannot show its absence for all sizes, kernels and parameters.", "anchors": ["misfit/model/aper_model.py:AperModel2D.do_model_calcs", "misfit/model/kin_functions.py:add_sigma_collapse_z", "misfit/general_utils.py:PSF_convolve", "misfit/fit/fit_core.py:lnprob", "misfit/mock/generate_basic.py:generate_mock_slit_obs"]}
{"id": "C137", "title": "Images and likelihoods follow the parameters continuously", "statement": "If parameter vectors with the same offset and redshift approach a vector - their velocities at every position and their dispersions converge - then every pixel of the model image converges to the pixel at the limit, and so does the log-likelihood of KinModel2D after any history of evaluations, with and without row scaling, whatever the PSF, resolution, floor and padding. This needs a dispersion that is not zero (unless the floor is on) and, with adaptive up-sampling, not equal to the threshold at which up-sampling switches on. The arctangent curve satisfies it whenever the turnover radius is not zero. (Refuted: at zero dispersion without the floor, and where up-sampling sets in; there the image jumps.)", "quantifier": "all discs with positive intensity, all converging sequences of parameters, all data with nonzero errors, all histories of each evaluation", "why_tests_cant": "Continuity is a statement about limits of infinitely many evaluations.", "anchors": ["misfit/model/aper_model.py:AperModel2D.do_model_calcs", "misfit/model/kin_functions.py:add_sigma_collapse_z", "misfit/fit/fit_core.py:lnlike"]}
{"id": "C138", "title": "Adaptive up-sampling is a model on a finer grid with pixels added up", "statement": "When adaptive up-sampling by the factor f is triggered (and the dispersion is not below the floor), the image equals the image that the same model without up-sampling and floor gives on the wavelength grid with f samples per pixel, with each block of f columns added up; when it is not triggered the image equals that of the model without up-sampling. PSF, resolution, offsets and all other options are the same on both sides. With adaptive_upsample_wave the output is rebinned to detector rows even if rebin_output is False. (Refuted: that up-sampling leaves the brightness alone. The columns are added, not averaged: with the default options and factor 3 a pixel just below the threshold is more than twice as bright as at the threshold, so without row scaling the model jumps there.)", "quantifier": "all well-posed configurations and parameters with a finite dispersion, all increasing grids, all whole factors", "why_tests_cant": "The equality of two whole evaluations has to hold for every configuration and every grid.", "anchors": ["misfit/model/aper_model.py:AperModel2D.check_do_upsample_wave", "misfit/model/aper_model.py:AperModel2D.downsample_to_real_wave", "misfit/model/aper_model.py:AperModel2D.do_model_calcs"]}
{"id": "C139", "title": "A common factor of the error bars or weights", "statement": "Multiplying all errors of a 2-D fit by e > 0 and all fit weights by w leaves everything the model objects hold or raise unchanged, the scaled image included. Every log-likelihood becomes w/e^2 times the old one plus a number that does not depend on the parameters, so differences of log-likelihoods are multiplied by w/e^2 and the order of any two parameter vectors stays. Chi-squared and reduced chi-squared are multiplied by w/e^2, the unweighted reduced chi-squared by 1/e^2. The common factor of the errors with the highest log-likelihood is the one that makes chi-squared equal to the number of pixels divided by ln 10. (Refuted: that errors giving a reduced chi-squared of one are the likeliest.)", "quantifier": "all configurations and data, all positive factors, all points of a fit", "why_tests_cant": "The relation holds between two whole fits for every data set and every parameter vector.", "anchors": ["misfit/model/kin_model.py:KinModel2D.scale_model", "misfit/model/kin_model.py:_model_llike", "misfit/model/kin_model.py:_model_chisq", "misfit/fit/fit_core.py:lnlike"]}
{"id": "C140", "title": "How sharp the likelihood is", "statement": "With weighting_type 'none' the difference of the log-likelihoods of any two parameter vectors is the difference for independent Gaussian errors divided by the number of spatial rows, that is, the one for errors larger by the square root of the number of rows. With every weighting the weighted chi-squared is at most the unweighted one, with equality only if every pixel used is reproduced exactly or its row carries all the weight. (Refuted: that without weighting the likelihood is that of independent Gaussian errors; the weights are normalised to sum one over the rows.)", "quantifier": "all data with positive errors, all masks, all images and all points of a fit with finite likelihood", "why_tests_cant": "A statement about all pairs of parameter vectors; each single value looks plausible.", "anchors": ["misfit/general/galaxy_utils.py:calculate_2D_fit_weights", "misfit/model/kin_model.py:_model_llike", "misfit/fit/fit_core.py:lnlike"]}
{"id": "C141", "title": "Row scaling gives the best amplitude of each row", "statement": "If every row is masked altogether, has weight zero, or is used in exactly the columns free of sky lines, then the log-likelihood of a fit with row scaling is the maximum of the log-likelihood over all images whose rows are multiples of the rows of the model, and it is attained: a fit with scaling is a fit with one free amplitude per row. (Refuted when a pixel in a column free of sky lines is masked: the scaling still uses it, and another amplitude can be likelier.)", "quantifier": "all data with nonzero errors, all row weights that are not negative, all models and histories", "why_tests_cant": "A maximum over all amplitudes for every model and data set.", "anchors": ["misfit/model/kin_model.py:KinModel2D.scale_model", "misfit/model/kin_model.py:_model_llike", "misfit/fit/fit_core.py:lnlike"]}
{"id": "C142", "title": "The Gaussian fit of the light across the slit", "statement": "lmfit_gaussian without errors, on samples of a Gaussian at three or more different positions, returns the amplitude, centre and full width of that Gaussian if the optimiser returns a least-squares solution, so the effective instrumental dispersion of a row whose light is a Gaussian inside the slit is the nominal one times the ratio of the full width to the slit width, and its velocity offset is the centre over the slit width times the nominal full width in km/s. Multiplying the light by a positive number multiplies the amplitude and changes neither centre nor width. (Refuted: that any row can be measured. With two positions every width fits exactly; a row without light and a row with a single position have nan residuals at the starting values, so an optimiser that rejects nan raises ValueError.)", "quantifier": "all positions, amplitudes, centres and widths, all optimisers with the stated property, all grids and PSFs", "why_tests_cant": "Uniqueness of the solution and independence of the optimiser hold over all inputs and all optimisers; a test sees one run of one.", "anchors": ["misfit/model/kin_functions.py:lmfit_gaussian", "misfit/model/kin_functions.py:gaus_residual_FWHM", "misfit/model/kin_functions.py:calculate_effective_inst_res_lam_shift", "misfit/model/kin_functions.py:check_slit_illum"]}
{"id": "C143", "title": "A noise-free 1-D spectrum", "statement": "If the flux of the used pixels of a 1-D spectrum is the model of some parameters (any line sets and continuum), those parameters have a sum of squared residuals of exactly zero and no parameters have a smaller one; any parameters with positive dispersion that do as well give the same flux at every used pixel. For a set of a single line with at least three used pixels, FitEmissionLines1D.fit with any least-squares optimiser that finds the true continuum and a positive dispersion stores exactly the true redshift, dispersion and flux, also when the line centre is not sampled or pixels are masked. (Refuted without asking for a positive dispersion: a dispersion that is zero or negative has a sum of squares of zero for every data set, so it is as good as the truth.)", "quantifier": "all wavelengths, masks, errors, line tables, true parameters and optimisers", "why_tests_cant": "Uniqueness of the best fit over all parameters and all optimisers; a test runs one optimiser on one spectrum.", "anchors": ["misfit/fit/fit1D.py:FitEmissionLines1D.fit", "misfit/model/emission_lines_model.py:residual1DProfile", "misfit/model/emission_lines_model.py:gaussian_line"]}
{"id": "C144", "title": "One unusable pixel and the likelihood", "statement": "The log-likelihood of KinModel2D is a finite number exactly if at every pixel of the image - masked pixels included - the flux, the mask, the weight and the model are finite and the error is finite and not zero. So a single pixel with an error of zero, infinity or nan, or with a flux that is not finite, masked or not, makes lnprob minus infinity for every parameter vector and every prior, after any history of evaluations. Chi-squared treats pixels with infinite errors as masked ones. After a successful fit preparation the log-likelihood is finite for every finite model, mask and weights, whatever values were missing, provided no usable pixel had a zero error. (Refuted: that an infinite error, with or without masking the pixel, takes the pixel out of the likelihood as it takes it out of chi-squared.)", "quantifier": "all data, masks, weights, images, priors, parameter vectors and histories of evaluations", "why_tests_cant": "An equivalence over all data sets and a statement about all parameter vectors; a test sees that a few walkers have no probability, not that all have none.", "anchors": ["misfit/model/kin_model.py:_model_llike", "misfit/model/kin_model.py:_model_chisq", "misfit/fit/fit_core.py:lnprob"]}
{"id": "C145", "title": "Rows masked altogether", "statement": "Masking a whole spatial row takes it out of the fit: two 2-D data sets with the same mask that differ only in rows without an unmasked pixel - any finite flux, any weights, any errors other than zero - have exactly the same log-likelihood at every parameter vector for which it is finite, with and without row scaling, after any histories of evaluations, and the stored images agree in every other row. (This is false for single masked pixels with row scaling, C14.)", "quantifier": "all data sets, masks, sky columns, model configurations, parameter vectors and histories of evaluations", "why_tests_cant": "Equality of likelihood functions over all values in the masked rows and all parameter vectors; a test compares a few values.", "anchors": ["misfit/model/kin_model.py:_model_llike", "misfit/model/kin_model.py:KinModel2D.scale_model", "misfit/fit/fit_core.py:lnlike"]}
{"id": "C146", "title": "Leaving a pixel out of a 1-D fit", "statement": "In a 1-D line fit a used pixel whose flux is nan or infinite, or whose error is zero, infinite or nan, has a residual of exactly zero at all parameters, so the fitted parameters do not depend on what such pixels hold, whatever the optimiser. (Refuted: that leaving a pixel out by an infinite error and masking it are the same. A line is normalised by its largest value on the used pixels, so masking the pixel at the line centre changes the model at the other pixels: for noise-free data the true parameters have a sum of squares of zero with the infinite error and a positive one with the mask.)", "quantifier": "all spectra, masks, line tables, parameters and optimisers", "why_tests_cant": "The residual is zero at all parameters and the fit is the same for all optimisers; tests try one optimiser and a few values.", "anchors": ["misfit/model/emission_lines_model.py:residual1DProfile", "misfit/model/emission_lines_model.py:gaussian_line", "misfit/fit/fit1D.py:FitEmissionLines1D.fit"]}
{"id": "C147", "title": "Number of processes of a run", "statement": "A run uses one process if NoThread is set, otherwise nCPUs if given, otherwise the whole part of cpuFrac times the number of cores, and stores the number in its options. Afterwards every run with that options object uses the same number, until nCPUs is assigned or NoThread is set; what is done with fits that have other options objects does not matter. (Refuted: that later changes of cpuFrac or clearing NoThread take effect, and that fits are independent: fits created without mcmcOptions share one object, so a run of one with NoThread leaves all others with one process after NoThread is cleared.)", "quantifier": "all numbers of cores, option values, fits, and sequences of runs and assignments", "why_tests_cant": "The claim ranges over all sequences of runs and assignments to shared objects; tests run one fit once.", "anchors": ["misfit/fit/fit_core.py:_run_mcmc_emcee_221", "misfit/fit/fit_core.py:_run_mcmc_emcee_3", "misfit/fit/fit_core.py:MCMC2DOptions", "misfit/fit/fit2D.py:FitEmissionLines2D.__init__"]}
