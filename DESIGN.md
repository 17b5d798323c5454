# Formal model of quatrope/ProperImage in Rocq (Coq 8.16.1)

## Layout

* `properties.jsonl` – the properties, in English, in terms of the API.
* `rocq/theories/Model/*.v` – the model: Gallina definitions only. Each definition cites the
  file and lines of `/repo` it models and says where it simplifies.
* `rocq/theories/Spec/*.v` – the vocabulary of the statements. It does not use the model's
  algorithms; it does use the model's data types and a few sums and array constructors.
* `rocq/theories/Proof/*.v` – lemmas.
* `rocq/theories/Props/*.v` – the property theorems, each closed by `exact <lemma>` and
  followed by `Print Assumptions`, with an `Example` showing a case that meets the hypotheses.
* `MANIFEST.json` – property -> theorems. `seeded/LOG.jsonl` – wrong-program tests.

A theorem called `..._refuted` states that something a reader of the documentation would
expect is false of the code as modelled; the property's English statement then says what the
code really does, and the other theorems of the property prove that.

## Conventions of the model

* Python exceptions are values: `res A := Ok a | Raise e`. Python objects that keep state
  (images with their cached attributes, files) are records passed through and returned.
* `while` loops are recursion on explicit fuel, giving `None` when it runs out. The theorems
  say for which inputs enough fuel exists, and for which none does (C05, C28).
* A numpy image is a record `plane A` of a shape and a pixel function; masked arrays carry
  `nomask` or a full mask, as in `numpy.ma`.
* Numbers. `chunk_it` and the plot grid: IEEE binary64 (Flocq's `BinarySingleNaN`), because
  rounding decides the property. The constructor, masks and `store_img`: `spec_float` of the
  standard library (float32 and float64 values with NaN and infinities). Everything else is in
  exact arithmetic over the standard library's `R` and Coquelicot's `C`: theorems about these
  parts say nothing about rounding errors. Where numpy would produce nan or inf in such a part
  (division by a zero sum, for instance) the model says so with `option R`, or the theorem
  has the hypothesis that excludes it.
* Threads (C06, C07, C67): an interleaving transition system, one step per read or write of a
  shared attribute; theorems quantify over all schedules.
* Crash points (C59): the list of file-system states between system calls.

## Library routines

They are function arguments of the model (never axioms). What a theorem needs of one is a
hypothesis visible in its statement, and the `Example` beside the theorem meets it with a
concrete function.

| routine | where | hypothesis used |
|---------|-------|-----------------|
| `sep.extract`, `sep.Background` | best_sources, bkg | none (any outcome of each attempt) |
| `np.random.choice` | best_sources | 1800 different indices (`fair_choice`) |
| `scipy.spatial.cKDTree.query` | crossmatch | nearest neighbour below the bound, ties at will (`nearest`) |
| `scipy.sparse.linalg.lsqr` | transparency | minimum-norm least-squares solution (`solves`) |
| `np.linalg.eigh` | eigenv | eigen-decomposition, ascending eigenvalues, orthonormal vectors |
| `astropy fitting`, `sigma_clipped_stats` | a-fields, Gaussian PSF, find_S | none, or "mean, median, deviation" |
| `scipy.ndimage.label` | find_S_local_maxima | labels exactly the 4-connected regions, in row-major order |
| `scipy.optimize.least_squares`, `minimize_scalar` | subtract | for bounds: a successful answer is inside the bounds |
| `astroalign.register` | coadd, subtract | none |
| `astroscrappy.detect_cosmics`, `convolve`, `interp_replace_nans` | interped | as stated in C28 |
| `scipy.ndimage.rotate`, Poisson/normal generators, Bessel functions | simtools | none, or non-negativity as stated |
| `tinynpydb.NumPyDB` | stamps | modelled: `.dat` and `.map` files, first entry for a key wins |

FFTs, `fourier_shift`, `center_of_mass`, percentiles, medians, covariance, masks and slicing
are defined in the model as numpy documents them; the theorems C29_percentile and C80_median,
and the pixel-space statements C87-C91, tie them to independent definitions.

## Per property: what is modelled, how it is proved

| id | model | method |
|----|-------|--------|
| C01-C05, C66 | `chunk_it` in binary64 with a fuelled loop (`Model/Chunk.v`) | loop invariant on the rounded boundaries: monotone rounding, error bound after k additions; counterexamples by computation |
| C06-C13, C67, C68 | `coadd`, `process_chunk_joblib`, `_align_for_coadd` (`Model/Coadd.v`) | sums over lists; invariant over all schedules of the workers; failure invariant for images of different shapes |
| C14-C19, C69-C72 | `subtract` (`Model/Subtract.v`), solvers as oracles | field algebra over C frequency by frequency; case analysis on the modes; arithmetic of slices for the fit window |
| C20-C27, C73, C74 | constructor, `data`/`mask`/`gain` setters, `store_img` (`Model/Image.v`, `Model/Ma.v`) | case analysis over the kinds of input; induction on mask enlargement rounds |
| C28 | `interped` (`Model/Interp.v`) | loop invariant; a measure for termination |
| C29-C31 | `best_sources`, default stamp (`Model/Sources.v`) | list reasoning; percentile tied to its definition |
| C32-C35, C80, C81 | `stamps_pos` (`Model/Cut.v`, with the pieces of `Model/Stamps.v`) | closed form of the growth loop; induction over the catalogue |
| C36, C39-C42, C63, C84 | cached attributes of an image as a state machine (`Model/Session.v`) | invariants over arbitrary histories of calls |
| C37, C38, C82, C83 | covariance, eigenvectors, KL basis (`Model/KL.v`) | sums of squares; induction on the spectrum; projection theorem |
| C43 | `get_psf_xy` (`Model/KL.v`) | slice arithmetic |
| C44-C49, C92 | `crossmatch`, `_matching`, `transparency` (`Model/Transparency.v`) | mutual nearest neighbours; closed-form minimum-norm solution of the least-squares system, unique |
| C50 | `find_S_local_maxima` (`Model/FindS.v`) | connected components; convexity of the centre of mass |
| C51-C53, C75 | `primes`, plot grid, dispatch (`Model/Plot.v`) | number theory; rounding of the square root in binary64 |
| C54-C58, C65, C76-C79 | simtools (`Model/Simtools.v`) | induction over loops; real analysis |
| C59, C60 | temporary files and the stamp store (`Model/Store.v`) | invariants over interleavings of several images; crash states |
| C61, C85 | `SingleImageGaussPSF`, `fit_gaussian2d` (`Model/Gauss.v`) | case analysis, list induction |
| C62 | `_align_for_coadd` | list induction |
| C64 | thresholds and defaults (`Model/Knobs.v`) | induction on assignments |
| C86, C91 | zero points in `coadd`; coadd of point PSFs | composition of the coadd and filter models |
| C87, C88 | `s_hat_comp`, `s_component`, `psf_hat_sqnorm`, `p_sqnorm` (`Model/Filter.v`) | discrete Fourier transform: inversion, shift, correlation theorems proved from the definition |
| C89, C90 | formulas of `subtract` | the same |
| C93-C96 | the way from the pixels to the results: `_bkg`, `background`, `var`, the four calls of sep.extract, `interped`, the dump loop, `subtract` on two images just built (`Model/Chain.v`) | two images are related cell by cell outside the mask (equal, shifted, scaled) and the relation is carried through every step; sep enters through hypotheses written in `Spec/Chain.v` |
| C97 | `normal_image`, `get_afield_domain` with the two convolutions they call: astropy's (zeros outside the frame, kernel divided by its total) and scipy's (mirrored at the edges) (`Model/Normal.v`) | a sum over the kernel is turned into a sum over the pixels that send light; statements with `image_of_ones` of `Spec/Normal.v` |
| C98, C99 | `plot_S`, `plot_R`, `Plot.imshow` on a state of pyplot: open figures, axes, images, colour bars, files (`Model/Pyplot.v`) | invariant over the sequence of calls: no figure or one empty figure is open; with nbook=True: the current axes hold the images so far; `depicts_S`, `depicts_R` of `Spec/Pyplot.v` say what a picture of an array is |
| C100-C102 | `coadd` on images given by their pixels and PSF (`Model/Coadd.v`, `Model/Filter.v`) | R and P are written as inverse transforms of explicit expressions; convolution theorem, Parseval and orthogonality of the harmonics; optimality by Cauchy-Schwarz in the form of a discriminant. `exposure`, `covariance`, `energy` of `Spec/Sky.v` are written without transforms |
| C103, C105, C106 | `subtract` without alignment (`Model/Subtract.v`) | the same for D and its PSF; for the real parts: the expression at the opposite frequency is the conjugate |
| C104 | `coadd` with PSFs that vary over the frame | conjugate at the opposite frequency for every term of the sums; the counterexample is computed |
| C107 | `_clean` as a step of the histories of `Model/Session.v`; the file is an optional list of stamps, a reading without file is an IOError | every method commutes with the removal once stamps and covariances are in memory (`Proof/SessionClean.v`); otherwise an invariant of the states in which the stamps are lost |
| C108 | `get_variable_psf` (`Model/Session.v`, `Model/KL.v`) with any solver satisfying `eigh_ok` | spectral lemma: two solvers of permuted matrices have the same ascending eigenvalues, and at a simple eigenvalue vectors equal up to sign; the sign cancels between element and coefficient. Uniqueness of the least squares cubic by the parallelogram identity. The dependence on signs after normalisation is proved for every choice of signs, and computed on two 7x7 stamps |
| C109 | `get_variable_psf` (`Model/Session.v`) with any solver; `subtract` (`Model/Subtract.v`) with any stamps | each element is a linear image of one eigenvector; frequency by frequency, the sign of the PSF of the new image goes to the reference's term and not to the new image's; two 1-cell images computed |
| C110 | the two cost functions of `subtract` and the bounded solves (`Model/Subtract.v`); the solver is any function that reports a true minimum of the cost over the bounds or failure | the cost at a trial point is the sum of what the difference image of that trial shows, frequency by frequency, hence comparing costs is comparing difference images; a 1-cell pair in which the background estimate returns the image |
| C111 | `update_sources` within the histories of `Model/Session.v`; `subtract` from pixels (`Model/Chain.v`) with any library functions | once an image has sources its detection is never consulted again (a simulation between the image and the one whose detection returns the given list); an invariant that separates the states with and without stamps; what the matching leaves is a permutation of what it got |
| C112 | the branch of `_setup_kl_basis` for more than 250 stamps (`Model/KL.v`) | each of the three steps acts on arrays of numbers as on their reals; the faintest cell by induction over the cells; for the refutation, stamps with disjoint supports whose inner products form a multiple of the identity, for every number of stamps above 250 |
| C113 | pixel conversion and gain (`Model/Image.v`, IEEE values of the standard library) | single precision rounding said with reals only (nearest element of a grid, ties by an even multiple of the distance); the conversion and the product are Flocq's rounding of the real value, which is that nearest element; error by composing three relative errors |
| C114 | masks read from FITS images (`Model/Image.v`) | the sorted cells are the zeros followed by the rest; the middle one, or the binary64 half sum of the two middle ones, is zero exactly when more than half of the cells are |
| C115 | `Psf` with theta 0, `astropy_Psf`, `airy_patron` (`Model/Simtools.v`) | bounds of ln 2 from 1+x < exp x by ten squarings; the cells written are products of two bells; the Bessel function is given by its alternating series, whose first two partial sums bound it |
| C116 | `sim_varpsf` (`Model/Simtools.v`) | the generator returns as many integers as asked, within the interval asked for; the drawn coordinates are cells of the map, the weights read from the end are the brightnesses; induction over the angles |
| C117 | `coadd` from pixels (`Model/ChainCoadd.v`): construction, histories, matching, set-up, workers | two images are twins when everything except their masked pixels and background is equal; every step maps twins to twins with the same answers |
| C118 | `coadd` from pixels (`Model/ChainCoadd.v`) | the invariant of the histories (C111) gives what each image answers to the workers; what the matching leaves is a permutation; the accumulation theorem of the workers (`Proof/CoaddMore.v`) adds the parts up |
| C119 | `transparency` and `coadd` on images that earlier calls changed (`Model/Again.v`) | without ties the set of matched pairs does not depend on the order of the sources, so the sums of the zero-point equations are permuted; an invariant of the images (stamps chosen, caches loyal to the stars they came from) is kept by every coadd and fixes what the next one reads |
| C120 | `s_component`, `s_hat_comp`, `psf_hat_sqnorm` of an image built from pixels (`Model/Chain.v`, `Model/Filter.v`, `Model/Session.v`) | the invariant of the histories (C40, C41) says which PSF, zero point and normalisation image are used; the correlation theorem of the filter (C28, C84) turns the transforms into sums over pixels |
| C121 | the attributes of a `SingleImageGaussPSF` (`Model/GaussImage.v`, on `Model/Gauss.v`, `Model/Session.v`) | an invariant over all histories in which the Gaussian takes the place of the PSF in the caches of `normal_image`, `s_hat_comp`, `s_component`, while the KL attributes keep theirs; symmetry puts the centre of mass in the middle; the sum at frequency zero separates the two norms |
| C122 | `subtract` in its default mode on `SingleImageGaussPSF` images built from pixels, the rendering of the Gaussians included (`Model/GaussSub.v`) | the invariants of the histories (C111, C121) say which stamps are fitted; the value of the transforms at frequency zero gives the total; the centre of mass of a sampled Gaussian by pairing the rows at opposite distances; the sums are compared pixel by pixel |
| C123 | sequences of `subtract` and `coadd` on the same two images built from pixels (`Model/SubAgain.v`, on `Model/Again.v`, `Model/Chain.v`) | an invariant over all sequences of operations: each image is at a state that a history of calls reaches on a star list of its own (C40, C111, C118), and a task changes only the order of that list; the PSF does not depend on the zero point; the matching does not depend on the order (C119) |
| C124 | `convol_gal_psf_fft` with padded transforms and the stars of `image` and `sim_varpsf` (`Model/Convol.v`, on `Model/Simtools.v`) | the convolution theorem of the finite transform; a padded array read cyclically does not come round; the profile of the PSF (C115) put on the star; sums over windows |
| C125 | the images that `subtract` builds itself, from arguments of another class and from the registered new image (`Model/Rebuild.v`, on `Model/Image.v`, `Model/Chain.v`, `Model/GaussSub.v`); astroalign is a function of the two masked arrays | the constructor's mask and pixels (C20, C23, C73) for the particular arguments; rounding to single precision keeps the range; the union of the masks (C18) carried to the pixels |
| C126 | a whole call of `coadd` with its list and `align` (`Model/CoaddCall.v`, on `Model/Image.v`, `Model/ChainCoadd.v`, `Model/Rebuild.v`); astroalign is a function of the two masked arrays | the constructor's pixels and mask (C20, C23, C73); an invariant of the histories that says when detecting the sources again succeeds and what it leaves; the rest is C118 on the registered images; the example is a coadd of two images that returns |
| C127 | the attributes of `Model/Session.v` with every state they pass through between two assignments, and histories of finished and interrupted calls (`Model/Interrupt.v`) | the traced methods answer like the methods; every state passed either satisfies the invariant of the histories (C39, C40) for the memory before, after or in the middle of the call, or lies in the window between `stamp_shape` and `_n_sources`; the window is characterised exactly; the extraction of the stamps is idempotent for images built from pixels |
| C128 | `subtract` and `coadd` of two images, stopped between any two of their steps on each image (`Model/Stopped.v`, on `Model/SubAgain.v`) | an invariant over all sequences of stopped and finished operations: each image is at a state reached by a history of calls on some star list; matching again gives the same catalogues in the same order whichever images keep the old ones (numpy's structured sort breaks ties by the other fields); the example is two striped images with a sort of that kind |
| C129 | `_align_for_diff` with the `os.path` functions it uses and a file system (`Model/AlignDiff.v`, on `Model/Image.v`); astroalign 1.x's `register` and `np.median` are function arguments | induction on the characters of a path; frame properties of one write, lifted to sequences of calls by induction; loading the file is C26's argument |
| C130 | `Model/Collection.v`: images by number, an attempt names the operation, the images and the last step in each; steps those of `Model/Stopped.v` | induction over the attempts with a relation that keeps, per image, the catalogue up to what matching writes and the view of the cache; matching is repeatable (C128) |
| C131 | `diff`, `stack_R` and CPython's `warn_explicit` with its registries (`Model/Deprecated.v`); `subtract` and `coadd` are any functions on any world | invariant over histories: the registry of the current filters holds no warning that they raise; counting invariant for what is shown |
| C132 | the loop of `stamps_pos` on the interpolated image itself (`Model/Cut.v`): windows inside the frame are views and are written back, windows that stick out are copies; nan in the image | the effect of one source (what it writes, where, and that it depends on its own stamp only); induction over the catalogue, with the sources after it unaffected when stamps are apart |
| C133 | new images with the image that the extraction leaves (`Model/CutChain.v`) | the loop over the sources commutes with multiplication by a positive number; the rest as C93-C95; the image left by C132 |
| C134 | `interped_hat` with the extraction of stamps in place (`Model/Hat.v`) | induction over the history; the discrete Fourier transform is injective |
| C135 | `coadd` of new images with the image that the extraction leaves (`Model/CutCoadd.v`) | a new image after its first extraction is a usable image in the sense of C118, so the proof of C118 applies to it; mask and sky by relating the two constructions image by image; the example is two striped images with two overlapping stamps each |
| C136 | all methods of a `SingleImage` with the interpolated image as part of the state, every extraction on that image (`Model/Live.v`) | a simulation between this model and `Model/Session.v`: before the extraction nothing is cached, afterwards no method extracts again; then C39 for the PSF and C33 for other shapes |
| C137 | every history of calls on the state of C136 (`Model/Live.v`) | an invariant of the state: the catalogue, the shape asked for and, before the first extraction, the shape of the stamps stay among those named by the user; each extraction keeps every pixel outside its stamps |
| C138 | accesses to `stamps_pos` that raise and are repeated, with strict picking (`Model/Cut.v`, `Model/Live.v`) | invariant of the image between two accesses: a prefix of the catalogue has been written, the rest has not; a stamp already levelled gives the same outcome and stays as it is, a stamp already nan is skipped; induction over the accesses |
| C139 | the methods of a `SingleImageGaussPSF` with the interpolated image as part of the state (`Model/LiveGauss.v`) | the simulation of C136, with the methods of this class; then C121 for the Gaussian and for the pixels of the filtered image |
| C140 | `subtract` on two images with what their interpolated images have become (`Model/LiveSub.v`, on `Model/Live.v`) | if stamps were asked for, the simulation of C136 and the invariant of C39 with the sources of the matching put in; otherwise the image is as new but for its zero point, and C136 applies to it with these sources as its detection; the example has a reference that was looked at and a new image with a PSF |
| C141 | `coadd` on images with what their interpolated images have become (`Model/LiveCoadd.v`, on `Model/Live.v`) | each image is one of the two cases of C140: cut already, or as new but for its zero point; in both the set-up and the filter of the live image are those of the image opened by one extraction, so that the coadd is the one of C118 on the opened images; the converse, that such a coadd works, gives the example with one image that was looked at and one with a PSF |
| C142 | several subtractions of the same two images with calls in between, and an image that is given other sources, with the interpolated image as part of the state (`Model/LiveRounds.v`, on `Model/Live.v` and `Model/LiveSub.v`) | an invariant of an image whose stamps were cut: positions, database and pixels are those of that extraction and the cached parts those of C39; the first PSF establishes it in the two cases of C140, each later call and subtraction keeps it, by induction over the rounds; the example subtracts twice with calls in between |

No property was left out as inexpressible.

## What is modelled and what is not

Modelled (file and lines are cited at each definition):

* `utils.py`: `store_img`, `crossmatch`, `_matching`, `transparency`, `_align_for_coadd`,
  `_align_for_diff`, `find_S_local_maxima`, `chunk_it`, `fit_gaussian2d` (its starting point).
* `operations.py`: `subtract`, `coadd`, `diff`, `stack_R`, `process_chunk_joblib`.
* `single_image.py`: `__init__`, `__enter__`/`__exit__`, `_clean`, `data`, `gain`, `header`
  (where it decides the gain), `mask`, `bkg_sub_img`, `stamp_shape`, `best_sources`,
  `update_sources`, `stamps_pos`, `n_sources`, `cov_matrix`, `eigenv`, `kl_basis`,
  `kl_afields`, `get_afield_domain`, `get_variable_psf`, `normal_image`, `min_sources`, `maskthresh`,
  `zp`, `s_hat_comp`, `s_component`, `interped`, `psf_hat_sqnorm`, `p_sqnorm`, `get_psf_xy`,
  `SingleImageGaussPSF.get_variable_psf`.
* `simtools.py`: everything except the FITS header written by `store_fits`.
* `plot.py`: `primes`, `plot_S`, `plot_R`, `Plot.__call__`, `imshow`, `autopsf`, `autopsf_coef`
  (figures, axes and images, not how they are drawn).
- `Model/Chain.v` joins the models of the image, the background, the detection, the interpolation, the stamps, the PSF and the subtraction: it starts from the pixels of a constructed image. In the joined model subtract runs with align=False and fitted_psf=False.
- `Model/Normal.v` gives the two convolutions that `normal_image` calls as sums over exact real numbers (astropy's uses FFTs); PSF elements that hold a nan are not modelled there.
- `Model/Pyplot.v` models the state of matplotlib.pyplot as lists of figures with axes and images. What the backend does with figures after `plt.show()` is a function that the theorems range over. `sigma_clipped_stats` is an oracle.
- `Model/Convol.v` gives `scipy.signal.fftconvolve(mode="same")` with exact transforms of any length that is long enough; `scipy.ndimage.rotate` stays an oracle, so the claims of C124 about `Psf` are for the angle zero.
- `Model/SubAgain.v` and `Model/Again.v` say what `subtract` and `coadd` leave in the images when they return, `Model/Stopped.v` and `Model/Collection.v` what they leave when they stop between two of their steps.
- `Model/Rebuild.v` builds the images of a call of `subtract` at its start; what earlier calls left in an image that is used as it is, is in the other models of `subtract`. `astroalign.register` is an oracle. `smooth_psf` is part of the library record, the same for both images.
- `Model/CoaddCall.v` builds all images before the first one detects its sources again, and the images are distinct objects; `astroalign.register` is an oracle.
- `Model/Cut.v` is the extraction of stamps as it acts on the interpolated image: `extract_array` returns a view of it where the window lies inside the frame, and the two in-place updates of `stamps_pos` reach the image (C132). `Model/Session.v`, `Model/Chain.v` and the models built on these treat the windows as copies: the interpolated image they go on with is the one before the extraction. For catalogues whose stamps do not overlap the stamps, positions and catalogues are the same in both (C80, C33); the image that `s_hat_comp`, `coadd` and `subtract` read afterwards differs in the stamps by their background levels. `Model/Live.v` has the methods of `Model/Session.v` with every extraction on the image as it is at that time; C136 proves that without requests for another shape or catalogue the extraction happens once and the answers are those of `Model/Session.v` with stamps from the image before and the matched filter of the image after it, when that extraction returns. A history in which the extraction is repeated (another shape, an exception or an interruption in its middle) is covered for stamps that do not overlap only (C33, C136). `Model/LiveGauss.v` has the methods of the Gaussian class in the same way (C139). `Model/CutChain.v` has subtract on two new images with the image left by the extraction (C133), and `Model/LiveSub.v` on images that were used before but not matched before (C140); `Model/LiveCoadd.v` has coadd on such images (C141), and `Model/LiveRounds.v` several subtractions of the same two images (C142).

Not modelled: `__repr__`, log messages and prints, FITS headers other than what decides the
gain, how matplotlib draws, timing, memory, and rounding outside the
parts listed under "Numbers". Floating-point caveats of the exact model: with real
arithmetic a zero sum is exactly zero, so the cases nan/inf of the model are met less often in
floating point; `kl_cut` with `inf_loss = 0` compares exact sums.

## Trusted base

* The kernel of Coq 8.16.1 (`vm_compute` is used in some examples and witnesses; no
  `native_compute`, no plugin beyond those of the standard distribution).
* The reading of the Python source, and of numpy/scipy/astropy/sep behaviour, recorded in the
  comments of the model.
* The axioms below, all from the standard library (`Reals` and `Logic`), as printed by
  `Print Assumptions` under each theorem; there are none of our own, and none from another
  library (Flocq and Coquelicot are used, but add no axiom). Grouped by what is printed:

* none ("Closed under the global context") — 47 theorems:
  C129_dest, C129_distinct, C129_files, C129_history, C129_order, C129_overwritten,
  C129_reference, C129_registered, C129_missing, C129_unmoved, C129_new_refuted, C62_alignment,
  C62_reference_shape, C131_calls, C131_shown, C131_silent, C64_defaults, C64_assigned,
  C20_gain, C22_unbound, C43_single, C51_largest_prime_factor, C51_two_largest, C51_divides,
  C53_dispatch, C99_imshow, C125_grown_refuted, C36_not_read, C36_sources, C36_before,
  C63_access, C63_failed, C56_cartesian_product, C56_no_arrays, C58_distinct_names,
  C58_last_stored, C30_detection_policy, C30_detection_failure, C59_block_cleans,
  C59_block_outcome, C59_clean_twice, C59_crash, C59_lone_map_left, C60_isolation,
  C60_reads_last_stored, C60_clean_only_own, C45_mask
* `ClassicalDedekindReals.sig_forall_dec` — 15 theorems:
  C96_sizes, C28_no_nan, C28_good_pixels, C28_bad_pixels, C28_terminates, C28_never_returns,
  C28_cosmic_rays_refuted, C97_domain, C98_returned, C98_returned_refuted, C55_delta_weights,
  C55_delta_errors, C55_delta_no_weights, C55_delta_center, C57_tile
* `ClassicalDedekindReals.sig_forall_dec`, `FunctionalExtensionality.functional_extensionality_dep` — 122 theorems:
  C129_loaded, C93_construct, C96_search, C96_enough, C96_history_refuted, C124_noise, C124_std,
  C50_one_entry_per_region, C50_inside_box, C50_neighborhood_ignored,
  C50_below_threshold_refuted, C113_counts_refuted, C20_pixels, C21_crop_window, C21_crop_empty,
  C21_crop_discarded, C23_construct_mask, C23_assign_mask, C23_out_of_range, C23_non_finite,
  C23_nan_unmasked, C24_rounds, C24_local, C24_monotone, C24_isolated, C25_flat_cyclic,
  C26_round_trip, C26_lost, C26_all_masked, C27_guard_moot, C73_outcome, C73_names,
  C74_reassign, C127_path, C127_interrupted, C127_retry, C127_window, C127_stuck,
  C127_window_refuted, C127_old_psf, C127_mixed, C127_loss_refuted, C37_covariance, C37_shapes,
  C38_number_of_elements, C38_monotone, C38_exists, C82_information_loss, C83_one_stamp,
  C83_unit_sum, C43_inside, C43_even_fails, C43_edge_fails, C43_wraps_refuted,
  C43_last_row_refuted, C112_elements, C112_negative, C112_bright_cell_refuted, C112_answers,
  C97_single, C97_not_normalisable, C97_interior, C97_bounds, C97_fields, C97_mirrored,
  C97_constant, C97_same_psf, C97_edges_refuted, C108_order, C108_least_squares, C108_signs,
  C108_signs_refuted, C125_ccd, C125_ccd_mask_refuted, C125_source, C39_history, C39_fields,
  C39_stable, C39_assignment, C39_assignment_refuted, C40_history, C40_new, C40_untouched,
  C40_stale, C40_zero_point_refuted, C41_current, C41_unchanged, C41_returned,
  C41_return_refuted, C42_history, C42_once, C42_loss_refuted, C36_no_effect, C36_redetect,
  C63_cached, C63_mixed, C63_reached, C63_mixed_refuted, C84_retry, C84_shape,
  C84_retry_refuted, C107_before, C107_memory, C107_lost, C107_harmless_refuted, C107_large,
  C109_element, C57_sim_varpsf, C57_too_few_angles, C76_seeded_noise_repeats,
  C78_image_background, C29_bounded_selection, C29_exact_selection, C29_percentile, C32_centre,
  C32_inside_overlaps, C80_median, C116_stars, C116_no_room, C19_large_window, C46_unique,
  C111_given
* `ClassicalDedekindReals.sig_forall_dec`, `ClassicalDedekindReals.sig_not_dec`, `FunctionalExtensionality.functional_extensionality_dep` — 126 theorems:
  C93_history, C94_history, C95_construct, C95_psf, C95_filter, C126_stars, C124_convolution,
  C124_star, C124_light, C124_light_kept, C124_field, C132_left, C132_untouched, C132_in_turn,
  C132_nan, C132_unchanged_refuted, C133_left, C133_units, C87_constant_psf, C87_variable_psf,
  C87_total, C87_empty_sky_refuted, C88_real, C88_total, C88_zero_frequency, C88_p_sqnorm,
  C88_peak, C88_peak_cell, C88_fields_ignored_refuted, C89_difference, C90_significance,
  C120_component, C120_constant, C120_variable, C120_pixels, C120_squared, C110_best,
  C110_recovers, C110_background_refuted, C61_answer, C61_ignored, C61_median_refuted,
  C85_start, C85_empty, C121_psf, C121_filter, C121_pixels, C121_squared, C121_mismatch_refuted,
  C122_total, C122_unchanged, C122_centre, C134_first_read, C134_stale, C134_nan,
  C134_no_matter_when_refuted, C127_images, C136_history, C136_psf, C136_again, C136_nan,
  C137_far, C137_idle, C107_gauss, C109_sum, C109_both, C109_equal_images_refuted,
  C54_psf_normalised, C54_psf_nan, C54_psf_rotated, C77_airy_nan, C79_astropy_psf_index_error,
  C79_astropy_psf_normalised, C103_sky, C103_same, C105_real, C105_psf, C106_white,
  C31_default_stamp, C32_shapes, C32_extraction_succeeds, C32_flat_border, C32_one_spoils_all,
  C33_bookkeeping, C33_alone, C33_repeatable, C34_strict_always, C34_rejected,
  C34_disabled_refuted, C35_unit_sum, C80_stamp_formula, C80_in_turn, C80_overlap_refuted,
  C81_scale_and_level, C81_overlap_refuted, C14_self_subtraction, C15_antisymmetry,
  C71_significance_scaled, C16_norm_positive, C17_sources, C17_fallback, C17_bounds,
  C17_ratio_out_of_bounds, C18_mask_union, C18_different_shapes_fail,
  C19_small_objective_constant, C19_small_same_answer, C19_small_may_fail,
  C69_difference_psf_sum, C70_difference_flux, C72_background_rolled_flat, C44_matched,
  C44_one_to_one, C44_within_radius, C44_strict_nearest, C45_zero_unflagged, C115_default_width,
  C115_airy, C115_airy_width_refuted, C138_retries, C138_accesses, C139_history, C139_psf,
  C139_pixels, C139_far, C142_psf
* `ClassicalDedekindReals.sig_forall_dec`, `ClassicalDedekindReals.sig_not_dec`, `Classical_Prop.classic`, `FunctionalExtensionality.functional_extensionality_dep` — 154 theorems:
  C119_zero_points, C119_again, C119_first, C119_coadd, C119_catalogue, C119_rejected,
  C119_coadds, C93_subtract, C94_subtract, C117_masked, C117_sky, C118_coadd, C118_works,
  C01_chunks_partition, C02_sorted_descending, C02_unorderable_in_order, C03_nonempty_chunks,
  C04_number_of_chunks, C04_exact_number_refuted, C05_terminates, C05_zero_raises,
  C05_negative_never_returns, C05_empty_sequence, C66_balanced_chunks,
  C06_parallel_equals_sequential, C06_same_exception, C07_more_workers_than_images,
  C08_mask_is_union, C09_result_shape, C09_different_shapes_fail, C09_empty_list,
  C10_order_irrelevant, C11_copies_scale_sqrt, C12_psf_sums_to_one, C13_caller_list,
  C67_shared_image_race, C68_align_needs_sources, C126_built, C126_not_built, C126_ccd_refuted,
  C126_frame, C126_mask_forgotten_refuted, C126_only_pixels, C126_aligned,
  C126_not_looked_refuted, C126_coadd, C126_sizes, C126_nothing, C130_subtract, C130_coadd,
  C130_few, C130_subtract_done, C130_coadd_done, C130_anywhere, C124_place, C124_centred,
  C124_centre_refuted, C133_mask, C133_sky, C133_uses, C135_mask, C135_sky, C135_coadd,
  C135_works, C86_zero_points, C86_used_before_refuted, C91_point_psf, C114_flags,
  C114_minority, C114_majority, C113_pixels, C113_exact, C113_error, C122_subtract, C122_stamp,
  C122_seeing_refuted, C122_axes_refuted, C122_displaced_refuted, C22_border_window,
  C22_uniform_frame, C22_uneven_frame, C52_grid_has_room, C52_automatic_axes,
  C52_automatic_axes_coef, C75_explicit_axes, C75_too_few_axes, C98_files, C98_shown,
  C98_notebook_refuted, C98_users_figure_refuted, C99_accepts, C99_shows, C99_errors,
  C92_zero_points, C92_ratio, C92_fainter_heavier, C92_opposite, C92_true_ratio_refuted,
  C92_units_refuted, C92_positive_refuted, C125_class, C125_aligned,
  C125_mask_forgotten_refuted, C125_mask, C125_sizes, C125_options, C125_only_pixels, C125_same,
  C125_same_aligned, C54_psf_not_symmetric, C65_zero_border, C65_values, C65_small_index,
  C100_sky, C101_white, C102_value, C102_best, C102_reached, C104_real,
  C104_between_cells_refuted, C128_matching, C128_subtract, C128_attempts, C128_coadd,
  C128_coadds, C128_finished, C128_anywhere, C123_subtract, C123_rejected, C123_subtracts,
  C123_first, C123_coadd, C123_coadds, C123_left, C46_offset, C46_min_norm, C47_layout,
  C47_right, C47_identical_wrong, C48_no_common, C48_total, C49_detected, C49_fresh,
  C49_stale_refuted, C111_subtract, C115_psf, C115_psf_width_refuted, C115_astropy_psf,
  C140_uses, C140_history, C141_coadd, C141_works, C142_subtract, C142_calls
