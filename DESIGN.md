# Formal model of misfit: design and trusted base

The project under study is `sedonaprice/misfit` (python), read as text from `/repo`.
Nothing in `/repo` was run. The model is written in Rocq (Coq 8.16.1) under
`rocq/theories/` (logical name `Verif`).

## How the model is laid out

* `PyFloat.v`, `PyBase.v`, `PyNum.v`, `Arr.v`: the Python/numpy fragment used everywhere: floats
  (`fl`: a real number, `+inf`, `-inf` or `nan`, with IEEE-style propagation but exact
  arithmetic), exceptions as values (`res`), Python slices with negative indices,
  `np.where`, `np.setdiff1d`, sums, `linspace`, arrays as a shape and an index function.
* `M*.v`: model files, one per group of functions. Every definition cites the file and
  lines it transcribes and says what was simplified.
* `S*.v`: specification vocabulary, written without the model's helpers.
* `P*.v`: lemmas and proofs.
* `T*.v`: property theorems only. Each is closed by `exact lemma`, followed by
  `Print Assumptions`, and has an `Example` showing that its hypotheses are met.

| model file | code |
|---|---|
| `MParams`, `MFloat64` | parameter packing, flat prior, posterior gate, walker start (exact and in binary64) |
| `MKernels` | rebin, convolutions, line collapse, chi-squared, row scaling |
| `MProf` | rotation curve, intensity profiles, PSF stamps, sky-to-disc transform |
| `MAper2D`, `MCube3D` | `AperModel2D`/`KinModel2D` as a state machine over grids; 3-D entry points |
| `MAper1D` | 1-D aperture corrections |
| `MMask`, `MTrim`, `MPrep`, `MVert`, `MYprof` | masks, trims, fit preparation, object row, spatial profile fit |
| `MMcmc`, `MPost`, `MPipe` | sampler runs, analysis of the chain, and the calls of `fit`/`reload_results` over memory and files |
| `MFit1D`, `MIo`, `MLines2D` | 1-D line fits, shipped tables, line arrays of a 2-D fit |
| `MGeom` | slit geometry, plot rotations, box integration, mocks |
| `MMock` | `generate_mock_slit_obs` |
| `MCorner`, `MSlitPlot`, `MBestPlot` | the numbers and positions drawn in the corner plot, image panel, best-fit figure and trace |
| `MAttr`, `MShare` | attribute dictionaries, saved and reloaded results, objects shared between models |

`MANIFEST.json` maps every property of `properties.jsonl` to its theorems. Where the code
violates the property a user would rely on, the theorem is named `..._refuted` and gives a
witness; the part that does hold is proved beside it. `seeded/LOG.jsonl` records the wrong
programs tried against the theorems.

## Conventions

* Numbers. Finite floats are modelled by real numbers (stdlib `R`), so rounding and
  overflow are not modelled except in `TFloat64`, which uses IEEE binary64 itself. NaN and
  infinities are modelled wherever the code tests for them or can produce them.
  There is one zero (no signed zero); `x/0` is `+inf`/`-inf`/`nan` according to the sign of `x`.
* Exceptions. `res A := Ok a | Err e`. A function that raises after having mutated an
  object returns the mutated state together with the error.
* Mutation. A method that mutates `self` becomes a function on a record. Where aliasing
  matters (shared default arguments, views, arrays handed over by the caller) it is explicit.
* External code (lmfit, emcee, scipy's KDE and integrators, random numbers, matplotlib) is a
  parameter of the model: a function argument or record field. A theorem holds for every
  behaviour of it, or for every behaviour meeting a hypothesis written in the theorem
  (such as `respects`: the optimiser returns values inside the limits it was given).
* `fftconvolve` is idealised as the direct sum it approximates.

True by construction, so not claimed as properties: a trimmed copy shares nothing with its
original (deepcopy), a pruned result shares nothing with the fit it was made from, saving
leaves the object in memory unchanged.

## Plan per property

| property | modelled | how proved |
|---|---|---|
| C01 C02 | `log_prior` loop over free parameters on `fl`; `lnprob` on an abstract model state | induction on parameters; case analysis |
| C03 C04 | packing loops, `range_arrs`, walker construction | induction over the free/fixed pattern |
| C05 | length guard of `update_parameters` inside the 2-D model state | case analysis |
| C06-C08 | state record of the 2-D aperture model with its wavelength grid fields; the cube is computed from the fields the code reads | invariant over the list of evaluations; witness for C07 |
| C09 | `rebin` on index-function arrays with shapes | sums over blocks, div/mod |
| C10-C12 | direct 'same' convolution (`fftconvolve` idealised), renormalisation, nearest-bin collapse | finite sum manipulation |
| C13-C16 | `scale_model`, `_model_chisq`, `_model_llike` on `fl` images | algebra on R, completing the square |
| C17-C23 | closed-form real functions and PSF stamps | trigonometry, monotonicity, `Rpower` |
| C24-C26 | model grids (`linspace`), trimming and down-sampling to the data shape | field arithmetic; div/mod |
| C27-C32 | 1-D aperture models with the convolution in direct-sum form | linearity of sums, trigonometry |
| C33 | `check_slit_illum` branch by branch | case analysis; witness |
| C34-C39 | masks and weights over lists and images | induction on lists; witnesses |
| C40-C42 | trimming in wavelength and space, every attribute it touches | index arithmetic on slices; witnesses |
| C43-C45 C79 C80 | preparation as a state monad over 2-D spectrum, 1-D spectrum and the caller's arrays; fits are oracles | invariant through every step; inversion of a successful run; witnesses |
| C46-C49 C81 | run loops of both emcee versions as recursion over steps, sampler statistics an oracle; chain files | induction on steps; index arithmetic |
| C50-C54 C82 | chain arrays as nested lists; percentile by sorting and interpolation; KDE peak an oracle | index arithmetic; order statistics |
| C55-C59 C90-C94 C105 | 1-D fit control flow with optimiser oracle; templates on R | case analysis, algebra; witnesses |
| C60 C65 C99 C100 | attribute dictionaries; pickled results and chain files as a file system | invariants over operation lists; witnesses |
| C61 C62 C72 C73 C101 C102 | a heap of objects shared by models and fits | invariants over operation lists; witnesses |
| C63 C69 C70 C95-C97 | trigonometric functions of slit and image geometry | reals |
| C64 C103 C104 | `vert_position` with optimiser oracle; S/N of a row; the trimmed image | case analysis; order arguments |
| C66 | tables as data, lookup as list search | induction, finite check of the shipped tables |
| C67 C74 C76 C77 | 2-D model evaluation end to end, 3-D entry points, effective resolution option | success by stepping through the state machine; sums |
| C68 C71 C98 | `box_integrate` over pixel lists; mock set-up | sums; witnesses |
| C75 | `MFloat64`: Flocq binary64, round to nearest even; the code of `MParams` with every operation rounded | pred/ulp argument: the width rounds up by at most one place and a draw below 1 takes it back; overflow witness by evaluation |
| C78 | flat PSF convolution and stamps | symmetry of sums |
| C83-C87 | reduced chi-squared, line profile of a voxel, instrument kernel | algebra, sums; C85 also two runs of the whole 2-D model that agree up to one sign per intermediate array (`SSign`, `MAper2D`), stage by stage and over whole fits |
| C88 C89 | aperture widths and recalculation as a state machine | case analysis |
| C106 | `get_m0_lam0_pos_2D` at the end of preparation, both fits arbitrary | inversion of a successful preparation; exact characterisation of the chosen values |
| C107-C109 | `fit_emission_y_profile` and the residual functions of the helper fits; minimiser and normal draws are oracles | entrywise residuals; inversion of every branch; scaling of percentiles; witness |
| C110 C111 | `subtract_continuum_2D` on the state of preparation; fits and median are oracles | simulation of two runs step by step; inversion; witness |
| C112 | `AperModel2D` end to end with blurring off; the specification is vector geometry (`SLos.v`), written without the code's rotations | identification of the rotated coordinates with heights and distances from an axis; sums reordered |
| C113 | `calculate_effective_inst_res_lam_shift`, `check_slit_illum` and the shift in `calculate_spectral_cube`; Gaussian fit is an oracle | row-by-row inversion; witness for the off-centre slit |
| C114 | `setup_calcs` thresholds, `check_do_upsample_wave`, dispersion options | exact thresholds; simulation between two configurations |
| C115 | `FitEmissionLines2D.setup` (line arrays), `ObsSpectrum2D.initialize_lineset`, the table readers | case analysis over set/unset arrays; tables as association lists |
| C116 | `fit`, `reload_results`, `analyze_results`, `reload_sampler`, `save_bestfit_model`, end of `run_mcmc` as a state machine over memory and files; each step's outcome is an oracle | symbolic execution; two-call sequences for the refutations |
| C117 | `plot_param_corner`: numbers shown (samples, lines, titles, curves, notes); `corner.corner` and its axis limits are oracles | inversion of the plot; composition with the posterior quantiles of C53; algebra of the curve |
| C118 | `plot_image_slit`: image, positions, outline, axes, limits; world-to-pixel positions and spline interpolation are oracles; colours and titles left out | explicit values of every drawn position; plane rotations; reduction of angles modulo half turns |
| C119 | `convolve_rot_gal` with a Gaussian PSF without dither; `fftconvolve` as the exact convolution of mode same | convolution indices; positivity of the sums; single-pixel sums for the point source |
| C120 | `plot_bestfit_model`: panels, limits, marked rows, hatching; the image panels through `plot_image_slit`; printing, colours, titles left out | inversion of the figure; maximal runs of `wh_continuous`; both geometries computed explicitly and compared |
| C121 | `plot_trace`: labels and lines; the random walkers are an argument | induction over the pattern of free parameters |
| C122 | the 2-D pipeline of C112, from parameters to image and likelihood | a simulation, stage by stage, between two runs whose cells along the line of sight are in another order; sums and maxima do not depend on order; row reversal from the explicit image of C112 |
| C123 | the 2-D pipeline of C112 and the likelihood of C16 | the map that multiplies intensity, cube and image commutes with every stage; extended arithmetic with a positive factor has no exceptional case; the row factor cancels it |
| C124 | the preparation of C32-C40 (`MPrep.fit_prep`, continuum fits, median, vertical fit and weight fit as oracles that follow the unit) and the row scaling and likelihood of C16 | two-run simulation: a relation between the two states (equal without the unit; pixels converted, or excluded and filled) kept by each stage; a pixel with mask zero adds zero or NaN alike; the witness for the filling value is computed |
| C125 | `MPrep.cont_fit1`, `cont_row`, `cont_rows` (fits as oracles) | running the successful execution backwards; the maximum of a mask is positive iff one of its entries is; induction over the rows |
| C126 | `MAper2D.aper_new`, `aper_update`, `km_make`, `km_update`, `km_llike` | a relation between two runs: wavelengths times u, cubes times 1 or 1/u, velocity-space quantities equal; kept by each step of the model, then by scaling to the data and by the fit |
| C127 | `MVert.vert_position`, `vert_refit`, `fill_err`, `drop_edge`, `row_flux`, `row_err` | two optimisers that agree on the specified requests give the same result; the first maximum of the S/N by induction; slices by position |
| C128 | `MAper1D.disp_1D`, `disp_misalign_1D`, `rot_new` with `MProf.generate_conv_stamp` | each function is homogeneous: grids scale, profiles do not change, a Moffat stamp changes by 1/u^2, which cancels in the weighted ratio |
| C129 | `MAper2D.aper_new`, `km_make`, `km_llike` | simulation relation between the two objects (cubes times u, images times u*u, stamps times k), kept by every step; `scale_model` removes the factor |
| C130 | `MPrep.cont_masks`, `MMask.*` | symbolic run of the step; entries of each array read off |
| C131 | `MKernels.add_sigma_collapse_z`, `MAper2D.*`, `SLineset` | order and merging: the cube depends on the lines only through the sums over lines, everything else only on the first; sum: closed form of C112; refutations by witnesses |
| C132 | `MPost.chain_results`, `SOrder` | insertion sort of values without nan is independent of order, so percentiles are; the derived columns are computed row by row; units: percentiles, errors, signs and the arctangent profile are homogeneous |
| C133 | `MFit1D.fit`, `MFit1D.inst_corr`, `SUnits1D` | simulation of the run in the new units by the run in the old ones, step by step through the state monad; line profile, continuum, residuals and percentiles are homogeneous |
| C134 | `MAper2D.do_model_calcs`, `MKernels.add_sigma_collapse_z`, `SReach` | the image as a sum over cells (C109), the projected velocity bounded by Cauchy-Schwarz; for zero dispersion the collapse branch instead of the Gaussian one |
| C135 | `MAper2D.km_make`, `km_llike`, `MKernels.scale_model`, `model_llike`, `MParams.lnprob`, `MMock`, `STruth` | row scaling restores the data from a proportional image (C11); every likelihood term is at most the constant one; evaluation history does not matter (C06); witnesses from C134 and C07 |
| C136 | `MAper2D.do_model_calcs` with every stage, `MKernels`, `MMock`, `SFinite` | an invariant - no negative entry and a positive one in every spectrum - carried through cube (both branches), PSF convolution, trimming, broadening and both rebinnings; likelihood of finite images |
| C137 | `MAper2D.do_model_calcs`, `MKernels`, `MData`, `SLim` | a family of evaluations indexed by the naturals and the limit: every stage keeps `all entries positive, and convergent`; the two method switches are constant from some index on; the best row ratio is a quotient with positive denominator |
| C138 | `MAper2D.do_model_calcs`, `check_do_upsample_wave`, `downsample_to_real_wave`; `SFine` | simulation: the two objects agree on all attributes the stages read; stage by stage the same state and the same exception; the last rebinning is a block sum |
| C139 | `MKernels.scale_model`, `model_llike`, `model_chisq`, `MAper2D.km_llike`; `SNoise` | the factor cancels in the row ratio, for every float including nan and inf; term by term in the sums; maximum over e from ln u < u - 1 |
| C140 | `MMask.fit_weights`, `MKernels.model_llike`, `MAper2D.km_llike`; `SKernels.gauss_loglike`, `SNoise` | weights are 1/rows (C39); both likelihoods are chi-squared plus a constant; a finite likelihood forces a finite image; weights lie in [0,1] |
| C141 | `MKernels.scale_model`, `model_llike`, `MAper2D.km_llike`; `SNoise` | least-squares optimum of each row (C13) summed with the row weights; history independence (C06) |
| C142 | `MRowFit.gaus_residual_FWHM`, `lmfit_gaussian`, `MAper2D.eff_inst_res`; `SRowFit` | the logarithm of the ratio of two Gaussians is a quadratic, which has at most two zeros; a zero width gives nan or a positive sum of squares; row by row through the slit check (C33) |
| C143 | `MFit1D.fit`, `best_params`, `residual`, `spectrum_model`; `SClean1`, `SFit1D` | closed form of the model (C58); a line is a Gaussian with an amplitude that depends on the sampling, and three samples fix a Gaussian (C142); the true values are within the bounds of both passes |
| C144 | `MKernels.model_llike`, `model_chisq`, `MAper2D.km_llike`, `MParams.lnprob`; `SBad` | a sum, product or square is finite only if its parts are; the logarithm of the error is finite only for an error that is finite and not zero; a history of evaluations leaves the shape of the image (C139) |
| C145 | `MKernels.scale_model`, `model_llike`, `MAper2D.km_llike`; `SRows` | the factor of a row uses that row only; a masked row contributes zero as long as its terms are finite (C144); evaluation does not depend on the history (C06) |
| C146 | `MFit1D.residual`, `best_params`, `gaussian_line`; `SLeft1`, `SClean1` | every such quotient is not finite or zero, and is then replaced by zero; equal residual functions give equal fits; witness: three pixels of a noise-free H-alpha line |
| C147 | `MCpus`: the three attributes, options objects as a heap, runs and assignments; `SCpus` | induction over action lists with the stored number as invariant; `C147_sampler` ties it to `MMcmc.ncpus` |

## Findings

Expectations a user would have that the code does not meet. Each has a theorem ending in `_refuted`.

* C07, Free redshift and vertical offset reach the model. Refuted: update_model ignores both after the first make_model, so update_model(theta) differs from a fresh make_model(theta).
* C10, PSF convolution conserves flux. Refuted for a cube without light: every output is nan.
* C13, Row scaling is the least-squares optimum. Refuted when a non-sky pixel has a nan flux: the whole model row becomes zero.
* C14, Masked pixels do not influence the fit. Refuted for the scaled model: the row scaling uses every non-sky column, masked or not, so changing a masked pixel changes the model and hence the likelihood.
* C18, Inclination from axis ratio. Refuted for q<q0: sin_i clips to edge-on while inclination_angle is NaN.
* C20, Intensity profiles. Refuted for smaller indices: the approximated b_n is not positive and the profile rises.
* C21, PSF full width at half maximum. Refuted for Moffat with beta<=1: the normalisation is not positive.
* C22, Dithered PSF. Refuted for Moffat: the offset never reaches the stamp.
* C25, Model y grid spacing equals the pixel scale. Refuted: the spacing is smaller by the factor (nY-1-nSub)/(nY-1), so structure is stretched on the detector; the grid centre is right.
* C30, Dispersion slope option. Refuted: the aperture dispersion always uses the default slope.
* C32, One position-angle convention. Refuted: they rotate in opposite directions; the radii agree only after flipping the sign of the angle.
* C33, Slit illumination stays in the slit. Refuted in general for the width: a source off the left edge yields a negative width.
* C35, Missing-data mask. Refuted when an error is NaN: zero-error pixels then stay unmasked. Refuted for images with zero errors: one zero error masks its whole row.
* C36, Edge masking. Refuted on the right when the last valid index is below num_edge+1: the slice start wraps and nothing is masked; and the two sides differ by two pixels.
* C39, Fit weights. Refuted: without weighting, masked rows get the same weight as the others; with a non-positive cut a zero-signal row gets a NaN weight.
* C40, Wavelength trimming. Refuted in two corners: the non-inplace 2-D trim leaves flux_incl_cont and cont_model at their old width, and an empty selection leaves the observed wavelengths of the untrimmed spectrum in place.
* C41, Trimming accepts an ordinary float redshift. Refuted: a plain Python float redshift raises AttributeError when a rest-frame range is used.
* C42, Spatial trimming. Refuted: all rows kept when there is no dither -- the last row is always dropped. Refuted: a window entirely below the image keeps no rows -- the negative bound wraps round and unrelated rows are kept.
* C44, Bad pixels cannot poison the likelihood. Refuted without the proviso: a zero error at a usable pixel is kept, and makes chi-squared of every model non-finite.
* C45, Fit preparation runs once. Refuted across a failure: without an object position the call fails, but only after the last row has been cut off and without marking the spectrum, so that the next call starts from already trimmed data.
* C47, Convergence warning. Refuted: convergence exactly at the last allowed step still logs the caution.
* C48, Single-process runs keep their chain. Refuted for emcee 2: with one process there is no pool, closing it raises, and the chain is lost.
* C51, absvalsigma only touches sigma. Refuted: when the dispersion is fixed, every parameter of the chain is replaced by its absolute value.
* C52, Analysis can be repeated. Refuted: each run appends four more columns, so names and columns no longer match.
* C54, Linked posteriors. Refuted for the second linked group: its 1-sigma errors are computed from the 2-sigma limits.
* C56, 1D fit returns errors. Refuted: with error estimation it always raises ValueError after storing the values, the file of Monte Carlo values and the errors, whatever the data; without error estimation it completes, a plot needing a file name and a mask name or field.
* C57, 1D fit returns a physical solution. Refuted: only the quantity that was negative in the first pass is bounded in the second, so the other may come back negative, and only the first line set is looked at; the bounded one is non-negative.
* C58, Line template. Refuted: value at a wavelength independent of which other wavelengths are sampled.
* C59, 1D residuals. Refuted: a non-physical negative dispersion cannot look like a perfect fit -- all residuals become zero.
* C61, Fit objects are independent. Refuted: objects created without an explicit result object share one instance, so a second analysis overwrites the first's results; independent when result object, instrument and settings are their own and the light profile is unshared or every set-up succeeds, whatever kinematic profile is shared.
* C62, Models of different galaxies are independent. Refuted: with default profiles a second model re-points the shared intensity profile to its own galaxy before the first model builds its grid.
* C65, Saved results can be reloaded. Refuted across a crash: an interruption between opening the file and its last byte always loses the previous results.
* C66, Line tables. Refuted: every shipped line group has a 1-D window: NII, SII and OII have none.
* C67, 3D cube can be produced. Refuted: it rebins an already trimmed cube to a padded shape, which works exactly when the padded size divides the fine grid and otherwise raises ValueError; a second call never returns; update_3D_int_model returns a cube of another size, before convolution with the PSF.
* C68, Box integration downsampling. Refuted in general: on the image's own grid every value is tripled, a bin inside one pixel is overestimated by the factor 1 + pixel/bin, bins outside the image receive negative flux, and debug=True always raises.
* C69, Plot rotations and angle signs. Refuted beyond one turn.
* C73, Refitting with new settings. Refuted: an existing flat prior keeps its old pattern while taking the new bounds.
* C74, Effective instrument resolution option. Refuted: without the position shift the image is the same with the option on or off; with the shift, an evaluation that succeeds has had no spectral broadening at all, and any positive smallest width makes it raise ValueError.
* C75, Walker initialisation in IEEE double precision. Refuted without the last condition: bounds whose width overflows give an infinite walker with prior minus infinity.
* C78, PSF blurring is centred on the source. Refuted: true only when the object is in the middle row, the slit-centre offset is zero and both sample counts are odd; otherwise the light moves by the offset of the object from the slit centre, and by half a grid step for even counts.
* C79, Fit preparation and the caller's arrays. Refuted: after every successful preparation they contain no NaN or infinity, whatever they held before; with continuum subtraction off the finite flux values are kept.
* C81, Saved chain is this run's. Refuted for emcee 3 with overwrite off: the steps already in the HDF file stay in front of the new ones and are analysed together with them.
* C82, Fits with fixed dispersion can be analysed. Refuted: the derived dispersion columns are then constant, and the analysis fails whenever the density estimate rejects constant samples, as scipy's gaussian_kde does.
* C86, Zero dispersion in part of the cube. Refuted: if any other voxel has non-zero dispersion, every sample of the line of sight through a zero-dispersion voxel is nan.
* C86, Zero dispersion in part of the cube. Refuted: that a nan dispersion shows as nan in the result; the cube can be finite everywhere.
* C89, Recalculating an aperture correction. Refuted when do_position_wave_shift or do_inst_res_conv_effective is on: the cache test reads self.inst_disp_wave, which is never set, so every recalculation raises AttributeError.
* C90, Stored model is the fitted model. Refuted when the pixel nearest to a line centre is masked: the residual model is normalised on the used pixels only; it holds when each line's nearest pixel is used.
* C91, Errors of the corrected dispersion. Refuted: the call never completes with error estimation, because an attribute no code sets is read; once that attribute is attached by hand, the errors span the 15.865-84.135 per cent range of the corrected samples and nothing else changes.
* C92, Spectrum set-up of a 1D fit. Refuted for a first line set without shipped window: ValueError, and for a redshift given as a plain Python float: AttributeError.
* C93, Line sets of different sizes. Refuted with numpy 1.24 or later for sets of different sizes, e.g. Halpha with NII: ValueError; it holds for sets of one size, and for any sets with older numpy.
* C94, Changing the lines of a 1D fit. Refuted: lines and rest wavelengths once set are kept.
* C96, Image position angle. Refuted when cd22 is zero and cd21 negative: 90 degrees is returned for both signs.
* C98, Dithered mocks. Refuted: the dither option of the mock generator is ignored for every input.
* C99, Documented constructor parameters are honoured. Refuted: Galaxy's documented deltPA, and FitEmissionLines2D's documented flux_arr, z, vel_disp, trim_restwave_range, trim_wave_paramfile and del_obs_lam, are silently ignored; the remaining ones are honoured.
* C100, Reloaded results can be saved again. Refuted: the saved galaxy has no pstamp attribute, so saving after reloading always fails with AttributeError and writes nothing.
* C101, Sharing an instrument between models. Refuted: building a model stores its PSF stamp on the instrument and every evaluation reads it from there, so a second model with another grid makes the first one's evaluation fail; sharing is harmless when PSF_FWHM is not positive.
* C102, Settings survive evaluation. Refuted: the model uses the settings' array itself; every evaluation writes the free values into it and leaves the fixed ones, and a model with other free parameters made from the same settings changes the first one's image.
* C103, S/N of the object row. Refuted otherwise: after the edges are cut the row is limited to the cut profile in the wrong coordinates, and the S/N of another row is reported.
* C104, Object row in the trimmed image. Refuted for an object in the last row: the upper bound excludes it, and the recorded row is outside the image.
* C105, 1D fit of an unlabelled galaxy. Refuted: with the default ID None it raises TypeError from a log message after storing the same best fit a numbered galaxy gets and before any error is estimated, whatever the options; with a plot requested and neither mask name nor field set it raises TypeError at the end.
* C107, Residuals of the helper fits. Refuted: a width of zero is within the limits of the emission-size fit, makes the model NaN everywhere, and NaN residuals are replaced by zero, so width zero fits any data perfectly.
* C109, Plotting the size fit. Refuted: this holds when the spectrum has a slitobjname attribute and the galaxy an integer ID; otherwise, as for every spectrum built by the package's own classes, writing the title raises inside the try block and the finished measurement is replaced by -99.
* C111, The sky mask of the continuum fit is temporary. Refuted as a temporary mask: spec_mask[:] is a view, so the zeros stay in galaxy.spec1D.spec_mask and in the array the caller handed over.
* C113, The line moves with the position of the light in the slit. Refuted: that the position is measured from the centre of the slit. The centre is fitted in coordinates from which the object offset xc was subtracted, against the comment that they must be unshifted, so an evenly lit slit is shifted by xc.
* C115, Which emission lines a 2-D fit models. Refuted: setting linenames_arr, restwave_arr and flux_ratio_arr on the fit, the documented alternative, never changes what is modelled: it fails with ValueError, or silently models the spectrum's own line group; and names given to the fit beside other names on the spectrum leave the spectrum with wavelengths that are not those of its lines.
* C116, Results belong to the run that produced them. Refuted: reload_results on an object that holds a chain never reads the file; after a trace plot that failed, the file holds the new chain while reload_results reports, and resave_bestfit saves, the results of the earlier run.
* C117, The corner plot shows the analysed chain. Refuted: the plot, and with it fit(), ends in an exception unless a free parameter is called sigma0, or when a linked group is 'all'; and V(R_E) is evaluated at galaxy.re_mass_arcsec while the curves use galaxy.re_arcsec, so that with different radii the curve misses the best fit.
* C118, The image panel shows stamp, slit and fit on one sky. Refuted: when not down-sampled the slit is moved by yoffset divided by the pixel scale of the spectrograph but drawn in pixels of the imager; show_galfit=False, a galaxy without re_arcsec, the default slit_length=None, and a galaxy with only a 1-D spectrum all end in an exception.
* C119, The convolved stamp keeps the light in place. Refuted: the kernel is centred on the catalogue position, turned by slit_PA rather than slit_PA - img_PA, so all light is moved by the distance of that point from the middle pixel: a point source then appears brightest elsewhere than where it is.
* C120, The panels of the best-fit figure show the same rows. Refuted: before a model exists the figure is never drawn although a layout without model is prepared, and a spectrum with masked sky columns is never drawn.
* C124, Preparing a spectrum does not depend on the unit of flux. Refuted: this proviso cannot be dropped. A missing pixel is filled with flux and error -99 whatever the unit, KinModel2D.scale_model reads it although it is masked, and so the factor of its row, and differences of log-likelihoods, depend on the unit the user chose; with errors much larger than 99 the filled pixel dominates its row.
* C128, 1-D aperture corrections depend only on ratios of lengths, except at 0.1 arcsec. Refuted: 'the unit of angle does not matter': a size of 0.1 arcsec or less doubles nPixels, an absolute threshold, so the same ratios of lengths are sampled differently.
* C131, Emission lines superpose. Refuted: that this holds with instrumental broadening, which is renormalised to the image's total flux; that every line is broadened by the instrument's velocity width: the width in wavelength is computed from the first line and used for all; that a line outside the wavelength range adds no light: with zero dispersion all of it goes into the edge wavelength.
* C135, The true parameters fit a noise-free observation best. Refuted: that the maximum is unique - for a face-on disc every rotation speed attains it - and that it is found with a free redshift: an object first evaluated at another redshift keeps its old grid and gives the true redshift a strictly lower likelihood.
* C136, A shining disc gives finite, non-negative images and a finite likelihood. Refuted: for a negative dispersion parameter; without the absolute-value option every pixel of the image can be negative.
* C137, Images and likelihoods follow the parameters continuously. Refuted: at zero dispersion without the floor, and where up-sampling sets in; there the image jumps.
* C138, Adaptive up-sampling is a model on a finer grid with pixels added up. Refuted: that up-sampling leaves the brightness alone. The columns are added, not averaged: with the default options and factor 3 a pixel just below the threshold is more than twice as bright as at the threshold, so without row scaling the model jumps there.
* C139, A common factor of the error bars or weights. Refuted: that errors giving a reduced chi-squared of one are the likeliest.
* C140, How sharp the likelihood is. Refuted: that without weighting the likelihood is that of independent Gaussian errors; the weights are normalised to sum one over the rows.
* C141, Row scaling gives the best amplitude of each row. Refuted when a pixel in a column free of sky lines is masked: the scaling still uses it, and another amplitude can be likelier.
* C142, The Gaussian fit of the light across the slit. Refuted: that any row can be measured. With two positions every width fits exactly; a row without light and a row with a single position have nan residuals at the starting values, so an optimiser that rejects nan raises ValueError.
* C143, A noise-free 1-D spectrum. Refuted without asking for a positive dispersion: a dispersion that is zero or negative has a sum of squares of zero for every data set, so it is as good as the truth.
* C144, One unusable pixel and the likelihood. Refuted: that an infinite error, with or without masking the pixel, takes the pixel out of the likelihood as it takes it out of chi-squared.
* C146, Leaving a pixel out of a 1-D fit. Refuted: that leaving a pixel out by an infinite error and masking it are the same. A line is normalised by its largest value on the used pixels, so masking the pixel at the line centre changes the model at the other pixels: for noise-free data the true parameters have a sum of squares of zero with the infinite error and a positive one with the mask.
* C147, Number of processes of a run. Refuted: that later changes of cpuFrac or clearing NoThread take effect, and that fits are independent: fits created without mcmcOptions share one object, so a run of one with NoThread leaves all others with one process after NoThread is cleared.

## Not modelled

* Colours, fonts and axes of the modelled figures; the spline
  interpolation inside `rotate_pstamp` (an oracle).
* One-line wrappers whose body is modelled directly (`get_skyline_mask_2D`, `get_low_snr_mask_2D`,
  `subtract_continuum`, `trim_spectrum_*`, `get_m0_lam0_pos`, `KinProfile.vel`, `model_llike`, `model_chisq`,
  `run_mcmc`, `get_chain_results`, `make_model`, `update_model` of the fit class, `func_wrapper_*`), `copy` methods, and
  constructors that only store their arguments. Of `FitEmissionLines2D.setup` and `reload_results` the steps that
  change the fit are modelled (`MLines2D`, `MPipe`), what they print is not.
* Code nothing calls: `sigma_aper_dispersion_misalign_ORIG`; `convol_inst` after its first statement, which raises.
* `ensure_dir`, `get_param_filename`, `file_or_stdout`.
* Numerical behaviour of the optimisers, samplers, integrators and density estimates; printing and plots
  inside modelled functions (except where they can raise and so change the outcome).

## Trusted base

Coq's kernel (with `vm_compute`). The faithfulness of the hand-written model to the Python
text is trusted; each definition cites its source so it can be compared. No axiom is added by
this development; the only axioms used are the standard library's
`ClassicalDedekindReals.sig_forall_dec`, `ClassicalDedekindReals.sig_not_dec`,
`FunctionalExtensionality.functional_extensionality_dep` and `Classical_Prop.classic`. Flocq's
definitions (in `MFloat64`, `PFloat64`, `TFloat64`) bring in no other axiom.

What `Print Assumptions` lists for each theorem:

**None (closed under the global context)** (43 theorems):
C04_round_trip, C04_round_trip_back, C04_unpack, C11_variable_width_fails, C34_concat, C34_consecutive, C34_maximal, C34_separated, C34_unique, C39_unknown, C49_flat, C49_no_parameters, C60_constructor, C60_setAttr, C60_unknown, C65_crash, C65_crash_refuted, C65_reload_failure, C65_roundtrip, C65_save_failure, C66_lookup, C66_missing, C66_split, C72_attributes, C73_bounds, C93_lines, C93_refuted, C94_refuted, C99_fit, C99_fit_refuted, C99_galaxy, C99_galaxy_default, C99_galaxy_refuted, C100_resave_refuted, C115_aligned, C115_explicit_refuted, C115_group, C115_spectrum_wins, C116_fresh_reload, C116_memory_refuted, C121_total, C121_traces, C132_walkers.

**`ClassicalDedekindReals.sig_forall_dec`** (5 theorems):
C02_gate_no_evaluation, C02_never_nan, C02_value, C09_rebin_only_ValueError, C133_library.

**`ClassicalDedekindReals.sig_forall_dec`, `FunctionalExtensionality.functional_extensionality_dep`** (138 theorems):
C01_prior_short_vector, C01_prior_support, C03_reversed_bounds, C03_walkers_in_prior, C08_not_triggered, C09_rebin_blocks, C09_rebin_conserves, C09_rebin_error, C10_condition_met, C10_conserves_flux, C10_dark_cube_refuted, C10_linear, C10_no_psf, C10_nonneg, C12_collapse_flux, C12_collapse_nearest, C13_dark_rows_zero, C13_nan_flux_refuted, C13_scale_idempotent, C13_scale_optimal, C13_scale_rescale_invariant, C14_scaled_refuted, C15_chisq_nonneg, C15_chisq_value, C15_chisq_zero_iff, C23_family_choice, C35_1D, C35_2D, C35_nan_refuted, C35_rows, C35_rows_refuted, C36_left, C36_none, C36_only, C36_right, C36_right_refuted, C36_symmetry_refuted, C36_wraps, C37_lists, C38_contiguous_refuted, C38_kept_good, C38_kept_runs, C38_masked_runs, C38_sorted, C40_1D, C40_1D_empty, C40_1D_twice, C40_2D, C40_2D_copy, C40_2D_copy_empty, C40_2D_empty, C40_2D_twice, C40_copy_continuum_refuted, C40_empty_stale_refuted, C40_recorded, C40_request, C41_no_redshift, C41_python_float, C41_python_float_refuted, C44_zero_error_kept, C44_zero_error_refuted, C46_all_steps, C46_finishes, C46_no_steps, C46_stopping_emcee2, C46_stopping_emcee3, C47_caution_emcee2, C47_caution_emcee3, C47_caution_refuted, C48_saved_emcee2, C48_saved_emcee3, C48_single_process_refuted, C50_columns, C50_succeeds, C51_derived, C51_one_parameter, C51_only_sigma, C52_bestfit, C52_repeated, C53_summaries, C53_unique, C54_one_group, C54_second_group_refuted, C54_two_sigma, C66_companions, C66_lines, C66_names, C66_sky, C66_trim, C66_trim_refuted, C66_widths, C66_windows, C68_bin_mean, C68_conserved, C68_debug_fails, C68_image, C68_outside_refuted, C68_same_grid_refuted, C68_within_pixel_refuted, C71_mock, C81_mixed_refuted, C81_only_this_run, C83_exhausted, C83_infinite, C83_infinite_lower, C83_redchisq, C85_constant, C92_plain_float_refuted, C92_setup, C92_unlisted_refuted, C98_dither_refuted, C107_line, C115_mixed_refuted, C116_bad_resolution, C116_failed_run, C116_plot_failure, C116_this_run, C116_trace_refuted, C117_all_refuted, C117_curves, C117_label, C117_on_curve, C117_on_curve22, C117_plotted, C117_shown, C117_sigma, C125_rows, C131_outside_refuted, C132_order, C132_units_columns, C139_chisq, C144_chisq, C147_own, C147_run, C147_sampler, C147_shared_refuted, C147_stays, C147_succeeds.

**`ClassicalDedekindReals.sig_forall_dec`, `ClassicalDedekindReals.sig_not_dec`, `FunctionalExtensionality.functional_extensionality_dep`** (126 theorems):
C12_velocity_refuted, C12_zero_sigma_cube, C17_compose, C17_disc, C17_identity, C17_invertible, C17_isometry, C17_major_axis, C17_orientation, C18_invalid_ratio, C18_sin_decreasing, C18_sin_range, C27_window, C32_opposite_angle, C32_refuted, C37_errors, C37_partition, C37_sky_iff, C38_kept_images, C38_mask, C38_row_snr, C38_total, C39_nan_refuted, C39_none, C39_none_refuted, C39_optimal, C39_up_edges, C42_last_row_refuted, C42_moves_together, C42_window_below_refuted, C43_decomposed, C43_lines, C44_finite, C45_again, C45_failure, C45_failure_refuted, C55_corrected, C55_monotone, C55_no_width, C56_completes, C56_errors, C56_refuted, C57_dispersion_refuted, C57_flux_refuted, C57_physical, C58_exact, C58_linear, C58_peak, C59_masked_ignored, C59_refuted, C59_residuals, C64_centre, C64_centre_inside, C64_centre_near, C64_coarse_few_rows, C64_coarse_rows, C64_fine_pixels, C64_no_position, C64_no_position_window, C64_window_symmetric, C69_centre, C69_composition, C69_corners, C69_rotation, C69_sign, C69_sign_refuted, C69_x_sign, C70_continuous, C70_full, C70_longest, C70_monotone, C70_shrink, C79_caller_arrays, C79_unchanged_refuted, C80_needs_two, C80_prepared, C84_line_profile, C84_succeeds, C85_sign, C86_nan, C86_nan_refuted, C86_zero_voxel, C86_zero_voxel_refuted, C88_bounds, C88_default_width, C91_attribute, C91_errors, C91_refuted, C95_components, C95_on_ellipse, C95_other_axis, C95_unproject, C97_unique, C103_coarse, C103_snr, C103_snr_refuted, C104_kept, C104_last_row_refuted, C104_trimmed, C105_no_id_refuted, C105_no_label, C106_position, C107_gaussian, C107_gaussian_kept, C107_triple, C107_width_refuted, C110_continuum_blind, C111_sky_masked, C111_temporary_refuted, C124_decisions, C124_prep, C125_slope, C127_asked, C127_refit, C127_requests, C128_refuted, C128_sampling, C129_gaussian, C130_columns, C130_masks, C133_corrected, C133_error_scale, C133_units, C143_zero_refuted, C146_fit, C146_zero.

**`ClassicalDedekindReals.sig_forall_dec`, `ClassicalDedekindReals.sig_not_dec`, `Classical_Prop.classic`, `FunctionalExtensionality.functional_extensionality_dep`** (236 theorems):
C05_right_length, C05_wrong_length, C06_history_independent, C06_history_independent_after_errors, C07_redshift_refuted, C07_update_reads_profiles_only, C08_grid_restored, C08_upsampled_grid, C11_conserves_flux, C14_masked_irrelevant, C16_gaussian_refuted, C16_llike_orders, C16_llike_value, C18_angle_consistent, C18_invalid_angle, C18_thin_refuted, C19_asymptote, C19_bounded, C19_increasing, C19_linear, C19_odd, C19_sign_degeneracy, C19_turnover, C19_zero_turnover, C20_I_sersic, C20_composed, C20_sersic, C20_small_n_refuted, C20_vertical, C21_gaussian, C21_low_beta_refuted, C21_moffat, C22_gaussian, C22_moffat_refuted, C23_gauss_layout, C23_moffat_layout, C24_slit_tiled, C24_x_grid, C24_z_grid, C25_spacing_refuted, C25_y_grid, C25_y_grid_centre, C26_image_shape, C27_sum, C28_round, C29_average, C29_exists, C29_no_rotation, C29_rotation, C29_shift, C29_shift_uniform, C30_refuted, C30_slope_ignored, C31_profile, C31_ratio, C33_offset_in_slit, C33_overlap_width, C33_width_refuted, C50_fiducial, C51_fixed_sigma_refuted, C52_repeat_refuted, C58_bound, C58_refuted, C58_spectrum, C58_template, C61_independent, C61_independent_refuted, C61_shared_results, C62_independent, C62_independent_refuted, C62_shared_profile, C63_generated, C63_half_turns, C63_offset, C63_perpendicular, C67_cube_when, C67_second_call_refuted, C67_update_shape, C72_copy_is_setup, C72_same_likelihood, C72_same_values, C73_agree_refuted, C73_pattern, C74_no_effect_refuted, C74_step_with_shift, C74_success_with_shift, C75_overflow_refuted, C75_prior, C75_walkers_in_bounds, C76_well_posed_succeeds, C77_disc, C77_row_flux, C78_centred, C78_displaced_refuted, C78_even_refuted, C78_point_source, C82_fixed_dispersion_fails, C84_gaussian_shape, C85_fit, C85_image, C87_instrument_kernel, C89_recalculate, C89_refuted, C89_shift_fails, C90_refuted, C90_same_model, C96_angle, C96_missing, C96_refuted, C97_bearing, C97_shift, C101_empty_stamp, C101_no_psf, C101_shared_instrument_refuted, C102_settings_overwritten, C102_shared_theta_refuted, C108_bounds, C108_measured, C108_never_raises, C108_sky_ignored, C108_unprepared, C109_plot_harmless, C109_plot_loses, C109_plot_refuted, C112_arctan, C112_image, C113_clamped, C113_off_centre_refuted, C113_rows, C113_shift, C114_dispersion_used, C114_refined, C114_thresholds, C117_arctan, C117_radius_refuted, C117_sigma0_refuted, C118_axes, C118_content, C118_drawn, C118_no_fit_refuted, C118_no_slit_refuted, C118_offset_refuted, C118_one_sky, C118_rows, C118_slit, C118_window, C119_centred, C119_displaced_refuted, C119_spread, C120_edges, C120_hatched, C120_marked_rows, C120_no_model_refuted, C120_panels, C120_same_rows, C120_sky_refuted, C122_backwards, C122_face_on, C122_half_turn, C122_half_turn_fit, C122_sign, C122_sign_fit, C122_turned, C123_bright_fit, C123_bright_image, C123_units, C123_units_difference, C124_difference, C124_fill_refuted, C124_fit, C126_fit, C126_image, C128_dispersion, C128_light, C128_rotation, C129_disc, C129_fit, C129_image, C129_moffat, C131_blur_refuted, C131_first_line, C131_merge, C131_order, C131_sum, C132_units, C134_arctan, C134_bounds, C134_narrow, C134_narrow_no_rotation, C134_narrow_reach, C134_no_rotation, C135_mock, C135_posterior, C135_redshift_refuted, C135_truth, C135_unique_refuted, C136_fit, C136_image, C136_mock, C136_negative_refuted, C136_posterior, C137_arctan, C137_fit, C137_image, C137_refuted, C137_threshold_refuted, C138_brightness_refuted, C138_coarse, C138_fine, C139_best_errors, C139_llike, C139_objects, C139_points, C139_unit_chi2_refuted, C140_any, C140_fit, C140_gaussian_refuted, C140_images, C141_fit, C141_image, C141_masked_refuted, C142_dark_refuted, C142_one_refuted, C142_recover, C142_two_refuted, C142_units, C142_width, C143_fit, C143_same, C143_truth, C144_finite, C144_infinite_refuted, C144_posterior, C144_prepared, C145_rows, C146_mask_refuted.
