{"id": "C01", "title": "chunk_it loses, duplicates and reorders nothing", "statement": "For every sequence and every positive chunk count, the chunks that utils.chunk_it produces, concatenated in production order, are exactly the input sequence, in binary64 arithmetic (the running float boundary is rounded at each step).", "quantifier": "every sequence of fewer than 2^52 items, every chunk count from 1 to 2^52", "why_tests_cant": "The split points come from an accumulated floating point sum; rounding drift depends on the (length, count) pair and tests sample only a few pairs.", "anchors": ["properimage/utils.py:chunk_it"]}
{"id": "C02", "title": "chunk_it returns a rearrangement of the produced chunks", "statement": "The list chunk_it returns is a permutation of the contiguous chunks; when the items cannot be ordered (comparing two of them raises TypeError or ValueError, as SingleImage does) and no two chunks can be compared without touching items, the chunks come back in production order; when items are totally ordered the chunks come back in descending lexicographic order.", "quantifier": "every sequence, every chunk count, every item comparison behaviour", "why_tests_cant": "Depends on the comparison behaviour of arbitrary user items.", "anchors": ["properimage/utils.py:chunk_it"]}
{"id": "C03", "title": "chunk_it gives non-empty chunks exactly when there are enough items", "statement": "If the number of chunks requested does not exceed the number of items, every chunk is non-empty; if it exceeds it (and there is at least one item) the first chunk produced is empty.", "quantifier": "every non-empty sequence and every positive count", "why_tests_cant": "Rounding could in principle produce an empty slice for some (length, count) pair.", "anchors": ["properimage/utils.py:chunk_it"]}
{"id": "C04", "title": "chunk_it returns the requested number of chunks, or one more", "statement": "For a positive count num and a non-empty sequence the number of chunks is num or num+1; it is not always num (8 items in 6 chunks gives 7).", "quantifier": "every non-empty sequence and every count up to 2^26", "why_tests_cant": "The extra chunk appears only for (length, count) pairs whose float sum falls short; an exhaustive test is impossible.", "anchors": ["properimage/utils.py:chunk_it"]}
{"id": "C05", "title": "chunk_it terminates exactly on the counts it should", "statement": "chunk_it terminates for every count from 1 to 2^52; count 0 raises ZeroDivisionError; a negative count never terminates on a non-empty sequence and returns the empty list on an empty one.", "quantifier": "every sequence of fewer than 2^52 items, every count of absolute value up to 2^52", "why_tests_cant": "Non-termination cannot be observed by a finite test.", "anchors": ["properimage/utils.py:chunk_it"]}
{"id": "C06", "title": "Parallel coadd equals sequential coadd", "statement": "For images of one common shape, coadd(..., n_procs=k) with 2 <= k <= number of images returns the same coadd image, the same PSF and the same bad-pixel mask as coadd(..., n_procs=1), in exact arithmetic, for every interleaving of the worker threads.", "quantifier": "every list of images, every worker count, every thread schedule", "why_tests_cant": "Schedules and chunkings cannot be enumerated by tests; the existing tests compare with 20% tolerance on one data set.", "anchors": ["properimage/operations.py:coadd", "properimage/operations.py:process_chunk_joblib", "properimage/utils.py:chunk_it"]}
{"id": "C07", "title": "coadd with more workers than images fails", "statement": "coadd(imgs, n_procs=k) with k > 1 reaches a worker with an empty chunk, and raises IndexError, exactly when k exceeds the number of images.", "quantifier": "every list of images and every worker count", "why_tests_cant": "Needs the chunking behaviour for every (images, workers) pair.", "anchors": ["properimage/operations.py:coadd", "properimage/operations.py:process_chunk_joblib", "properimage/utils.py:chunk_it"]}
{"id": "C08", "title": "The coadd bad-pixel mask is the union of the input masks", "statement": "A pixel is flagged in the mask returned by coadd iff it is flagged in at least one input image, whatever the worker count and the order of the images; an all-clean result is reported as numpy's scalar 'nomask'.", "quantifier": "every list of same-shape images and masks, every worker count, every order", "why_tests_cant": "All mask patterns and orders cannot be enumerated.", "anchors": ["properimage/operations.py:coadd", "properimage/operations.py:process_chunk_joblib"]}
{"id": "C09", "title": "coadd needs images of one shape", "statement": "coadd computes its accumulation frame as the componentwise minimum of the image shapes, but it succeeds only if all the images have that very shape; otherwise it raises ValueError. An empty list raises ValueError, or IndexError when alignment is requested.", "quantifier": "every list of image shapes", "why_tests_cant": "Requires all combinations of shapes.", "anchors": ["properimage/operations.py:coadd"]}
{"id": "C10", "title": "coadd does not depend on the order of the images", "statement": "For given zero points, permuting the images leaves the coadd image, PSF and mask unchanged in exact arithmetic.", "quantifier": "every permutation of every list of same-shape images", "why_tests_cant": "n! permutations.", "anchors": ["properimage/operations.py:coadd"]}
{"id": "C11", "title": "Coadding n copies of an image scales it by sqrt(n)", "statement": "The coadd of n identical images is sqrt(n) times the coadd of one of them, and the PSF returned is the same.", "quantifier": "every n >= 1, every image", "why_tests_cant": "Quantifies over all images and all n.", "anchors": ["properimage/operations.py:coadd"]}
{"id": "C12", "title": "The coadd PSF sums to one", "statement": "Whenever the un-normalised PSF has a non-zero total, the PSF returned by coadd sums to exactly one (exact arithmetic).", "quantifier": "every list of images", "why_tests_cant": "Real-valued inputs cannot be exhausted.", "anchors": ["properimage/operations.py:coadd"]}
{"id": "C13", "title": "coadd rewrites the caller's list in place", "statement": "After coadd returns, position i of the caller's list holds the same object if it was a SingleImage and a new SingleImage built from it otherwise; length and order are preserved. The caller's list is therefore modified whenever it holds a non-SingleImage.", "quantifier": "every input list", "why_tests_cant": "All mixtures of argument kinds.", "anchors": ["properimage/operations.py:coadd"]}
{"id": "C14", "title": "Subtracting an image from itself gives zero", "statement": "If the reference and the new image carry the same data, PSF and background noise, and the flux ratio used is 1 with no shift, the difference image is identically zero.", "quantifier": "every image, PSF and noise level", "why_tests_cant": "Real-valued inputs cannot be exhausted.", "anchors": ["properimage/operations.py:subtract"]}
{"id": "C15", "title": "Subtraction is antisymmetric", "statement": "Exchanging reference and new image and inverting the flux ratio negates the difference image and leaves the difference PSF unchanged when no residual shift is fitted.", "quantifier": "every pair of images, PSFs, noise levels and every positive flux ratio", "why_tests_cant": "Real-valued inputs cannot be exhausted.", "anchors": ["properimage/operations.py:subtract"]}
{"id": "C16", "title": "subtract never divides by a vanishing normalisation", "statement": "For positive background noise the Fourier-domain normalisation by which subtract divides is strictly positive at every frequency, because zero-real-part PSF coefficients are replaced by machine epsilon before use.", "quantifier": "every pair of PSFs, including those with zeros in Fourier space, and every flux ratio", "why_tests_cant": "Zeros of the PSF transform are measure-zero events that tests do not hit.", "anchors": ["properimage/operations.py:subtract"]}
{"id": "C17", "title": "subtract's flux ratio and shift always come from a documented source", "statement": "In each of the eight beta/shift/iterative modes the flux ratio is either the solver's answer or the zero-point ratio, the shift is either the solver's answer or (0,0); on solver failure both fall back; with beta=False the flux ratio is always the zero-point ratio; with a bound-respecting solver 0.1 <= b <= 10 and |dx|,|dy| <= 0.9 whenever fitted. A zero-point ratio outside [0.1,10] makes the beta fits by least squares raise ValueError.", "quantifier": "every mode, every solver outcome, every zero-point pair", "why_tests_cant": "Solver failure paths are not reachable from the test data.", "anchors": ["properimage/operations.py:subtract"]}
{"id": "C18", "title": "The subtraction mask is the union of both masks and needs equal shapes", "statement": "The mask returned by subtract flags exactly the pixels flagged in either image, is symmetric in its arguments, and images of different shape raise ValueError.", "quantifier": "every pair of masks and shapes", "why_tests_cant": "All mask patterns.", "anchors": ["properimage/operations.py:subtract"]}
{"id": "C19", "title": "The shift fit sees no pixel of a small image", "statement": "When a side of the images is at most 200 pixels the objective that subtract minimises over the shift (and beta+shift) is computed from an empty window and is the same for every candidate flux ratio and shift; when both sides exceed 200 the window is exactly the inner pixels at distance at least 100 from each border.", "quantifier": "every image size, every candidate parameter vector", "why_tests_cant": "Quantifies over all sizes and all solver queries.", "anchors": ["properimage/operations.py:subtract", "properimage/operations.py:OPT_BORDER"]}
{"id": "C20", "title": "Gain precedence and where the gain is applied", "statement": "The gain attribute is the explicit argument if given, else the header's GAIN, else 1.0. The (unmasked) pixel values end up multiplied by it, in float32, exactly for the sources whose automatic masking keeps the loaded data (explicit mask, guessmask=False, file path, masked array, HDUList with extensions); for a plain array, a PrimaryHDU or an HDUList without extensions with automatic masking, the stored pixels are the original, un-multiplied ones.", "quantifier": "every image source kind, mask argument, header and gain", "why_tests_cant": "Combination of source kinds and arguments; the tests only use gain None.", "anchors": ["properimage/single_image.py:SingleImage.gain", "properimage/single_image.py:SingleImage.data", "properimage/single_image.py:SingleImage.mask"]}
{"id": "C21", "title": "Crop keeps exactly the inner window when all four margins are positive", "statement": "With four positive crop margins that fit in the image, the data keep exactly the inner window; when one of the trailing margins is 0 while another margin is not, that axis becomes empty; and with automatic masking of a plain array or PrimaryHDU the crop is discarded.", "quantifier": "every image and every quadruple of margins", "why_tests_cant": "All shapes and margins.", "anchors": ["properimage/single_image.py:SingleImage.data", "properimage/single_image.py:SingleImage.mask"]}
{"id": "C22", "title": "Border removal", "statement": "borders=True removes a zero frame of one common width around strictly positive data exactly; an image whose middle row is nowhere positive raises UnboundLocalError; with frames of different widths the window returned is determined by the widths and has the size of the data window only if the left frame is as wide as the upper one and the right one at least as wide as the lower one.", "quantifier": "every frame width and every positive interior", "why_tests_cant": "All sizes and widths.", "anchors": ["properimage/single_image.py:SingleImage.data"]}
{"id": "C23", "title": "Out-of-range pixels are always masked", "statement": "After construction (and after any later mask assignment) every pixel whose stored value is below -50 or above 65000 is masked, the mask is a full boolean array of the data's shape, and, when no mask is given and automatic masking is on with a plain array, a PrimaryHDU, an HDUList without extensions, a masked array or a file announcing extensions it does not have, every non-finite pixel is masked; a NaN in a file whose header announces no extensions is not masked by itself.", "quantifier": "every image, every mask argument, every source kind", "why_tests_cant": "All pixel patterns and argument combinations.", "anchors": ["properimage/single_image.py:SingleImage.mask"]}
{"id": "C24", "title": "Mask enlargement only grows, stays local, and needs three neighbours", "statement": "The final mask contains the initial one; each of the seven rounds adds exactly the pixels with at least three masked cells in their 3x3 neighbourhood (edges mirrored); every added pixel lies within 7 pixels (in both axes) of an initially masked pixel; the growth is monotone in the initial mask; masks with isolated pixels at Chebyshev distance at least 3 from one another do not grow at all.", "quantifier": "every mask of every shape", "why_tests_cant": "2^(n*m) masks.", "anchors": ["properimage/single_image.py:SingleImage.mask"]}
{"id": "C25", "title": "A user mask is applied pixel by pixel only when shapes agree", "statement": "A mask array of the data's shape is applied pixel by pixel; a mask of another shape is accepted silently and applied in flattened, cyclically repeated order, so that after a crop the mask is misplaced.", "quantifier": "every data shape and every mask shape", "why_tests_cant": "All shapes.", "anchors": ["properimage/single_image.py:SingleImage.mask", "properimage/single_image.py:SingleImage.data"]}
{"id": "C26", "title": "A mask stored with store_img and loaded again", "statement": "For a masked image stored by store_img and given to SingleImage, the flags recovered (before out-of-range pixels and the enlargement) are the stored ones when the mask threshold is in (0,1] and fewer than half of the pixels are masked; with a threshold above 1, such as the default 16, and fewer than half masked no stored flag survives; when half or more of the pixels are masked and the threshold is at least 1 every pixel is masked.", "quantifier": "every masked image, every mask threshold", "why_tests_cant": "All mask patterns and thresholds.", "anchors": ["properimage/utils.py:store_img", "properimage/single_image.py:SingleImage.mask", "properimage/single_image.py:SingleImage.maskthresh"]}
{"id": "C27", "title": "The 1000-pixel saturation guard has no effect on the mask", "statement": "Whether fewer than 1000 unmasked pixels remain or not, the final mask after the saturation branch is the same: saturated pixels are masked anyway.", "quantifier": "every image taking the saturation branch", "why_tests_cant": "All images.", "anchors": ["properimage/single_image.py:SingleImage.mask"]}
{"id": "C28", "title": "Interpolation preserves good pixels and leaves no NaN", "statement": "Whenever interped returns, it contains no NaN and equals data minus background at every unmasked pixel that is a number, whatever the cosmic-ray detector reported: the detected cosmic rays are not replaced.", "quantifier": "every image, every background, every cosmic-ray mask, every interpolation kernel result", "why_tests_cant": "All images and detector outcomes.", "anchors": ["properimage/single_image.py:SingleImage.interped", "properimage/single_image.py:SingleImage.bkg_sub_img"]}
{"id": "C29", "title": "Source selection keeps a bounded, non-empty set of detected sources", "statement": "best_sources, when it returns, is non-empty, has at most 1800 entries, contains only detected sources, without repetition of a detection; if at least 5 pass the quality cuts exactly those are kept (sub-sampled above 1800), otherwise all detected sources are kept.", "quantifier": "every detection list, every random sub-sampling", "why_tests_cant": "All catalogues.", "anchors": ["properimage/single_image.py:SingleImage.best_sources"]}
{"id": "C30", "title": "Detection fallback policy", "statement": "Detection tries the 8-sigma threshold, on failure the 35-sigma one; if fewer than min_sources are found it tries 3 sigma (and a second time with a larger area on failure) and keeps whichever catalogue is longer; zero or one source raises ValueError.", "quantifier": "every outcome (catalogue or failure) of every detection attempt", "why_tests_cant": "Failure paths of the detector cannot be triggered at will.", "anchors": ["properimage/single_image.py:SingleImage.best_sources"]}
{"id": "C31", "title": "The default stamp size is odd and at least 5", "statement": "With no explicit stamp_shape the stamp is square, of odd side at least 5, and the side is the smallest odd number not below floor(3 sqrt(p65)) (p65 the 65th percentile of the source areas) when 3 sqrt(p65) > 5.", "quantifier": "every catalogue of sources", "why_tests_cant": "All catalogues.", "anchors": ["properimage/single_image.py:SingleImage.stamp_shape"]}
{"id": "C32", "title": "Stored stamps all have the final stamp shape", "statement": "After the stamps are extracted every stored stamp has the shape reported by stamp_shape (the initial one plus 6 in each axis), the un-grown stamp being the centre of the grown one; the margin test that would stop the growth earlier can only succeed for margins that are constant and equal to 3.5 rms, in which case the extraction raises TypeError. A source whose window misses the image, or, if no two stamps overlap, one with such a margin, makes the extraction fail for the whole catalogue.", "quantifier": "every image, every source position, every stamp", "why_tests_cant": "All pixel values.", "anchors": ["properimage/single_image.py:SingleImage.stamps_pos"]}
{"id": "C33", "title": "Stamp bookkeeping is consistent", "statement": "After extraction n_sources, the number of stamp positions and the number of stored stamps are equal, stamp k belongs to the k-th position, positions appear in catalogue order, and each candidate is either stored or rejected; the catalogue is reduced to the stored sources iff at least 15 survive. If no two stamps overlap, a source is stored exactly when it is stored alone, with the same stamp, and extracting again from what was left gives the same stamps, positions and catalogue.", "quantifier": "every catalogue and every accept/reject pattern", "why_tests_cant": "2^n accept/reject patterns.", "anchors": ["properimage/single_image.py:SingleImage.stamps_pos", "properimage/single_image.py:SingleImage.n_sources"]}
{"id": "C34", "title": "Strict star picking is not switched off for small catalogues", "statement": "With strict_star_pick=True the strict rejection criteria are applied even when there are at most 20 candidates, although the code announces that it disables them.", "quantifier": "every catalogue of at most 20 sources", "why_tests_cant": "A test shows only one catalogue.", "anchors": ["properimage/single_image.py:SingleImage.stamps_pos"]}
{"id": "C35", "title": "Each stored stamp sums to one", "statement": "Every stored stamp with non-zero total sums to one.", "quantifier": "every stamp", "why_tests_cant": "Real-valued inputs.", "anchors": ["properimage/single_image.py:SingleImage.stamps_pos"]}
{"id": "C36", "title": "update_sources and the derived quantities", "statement": "update_sources(new) makes best_sources return new but leaves stamps, stamp positions and n_sources of the previous catalogue in place, and once the stamps were extracted it changes no PSF, normalisation, filtered image or component; before the extraction it decides what is extracted; on an image whose sources were not looked at yet it raises AttributeError and changes nothing. update_sources() detects the sources again but, once the stamps were extracted, leaves the stamps, their positions and everything computed from them as they were.", "quantifier": "every history of operations", "why_tests_cant": "Histories.", "anchors": ["properimage/single_image.py:SingleImage.update_sources", "properimage/single_image.py:SingleImage.stamps_pos"]}
{"id": "C37", "title": "The stamp covariance matrix is symmetric and positive semi-definite", "statement": "cov_matrix is symmetric and positive semi-definite for every set of stamps on both code paths; with at most 250 stamps it is the centred sample covariance, above 250 the raw Gram matrix.", "quantifier": "every number of stamps and every stamp", "why_tests_cant": "Real-valued inputs, both sides of the 250 switch.", "anchors": ["properimage/single_image.py:SingleImage.cov_matrix"]}
{"id": "C38", "title": "The number of KL components is the smallest that respects inf_loss", "statement": "For 0 <= inf_loss < 1 the number of PSF basis elements is the smallest k >= 1 such that the k last eigenvalues carry at least 1 - inf_loss of the total absolute power; it never exceeds the number of eigenvalues and does not increase when inf_loss increases.", "quantifier": "every spectrum and every inf_loss", "why_tests_cant": "Real-valued inputs.", "anchors": ["properimage/single_image.py:SingleImage._setup_kl_basis"]}
{"id": "C39", "title": "get_variable_psf(L) always answers for L", "statement": "After any history of property reads, get_variable_psf calls with losses that are not negative and without a shape, coadds, zero point assignments and source resets, get_variable_psf(inf_loss=L) returns the basis and coefficient fields that a fresh image would return for L (the same exception if that fails), and without an argument those for the loss asked for last; there are as many coefficient fields as basis elements, or none for one element. Assigning the inf_loss attribute after the basis was computed breaks this.", "quantifier": "every finite history of public operations", "why_tests_cant": "Unbounded histories.", "anchors": ["properimage/single_image.py:SingleImage.get_variable_psf", "properimage/single_image.py:SingleImage._setup_kl_basis", "properimage/single_image.py:SingleImage._setup_kl_a_fields"]}
{"id": "C40", "title": "The matched-filter image ignores later zero-point changes", "statement": "s_hat_comp always corresponds to the inf_loss in force, and to the zero point in force when it was computed: changing zp afterwards does not change it, so a second coadd uses stale zero points.", "quantifier": "every history of operations", "why_tests_cant": "Unbounded histories.", "anchors": ["properimage/single_image.py:SingleImage.s_hat_comp", "properimage/single_image.py:SingleImage.zp", "properimage/operations.py:coadd"]}
{"id": "C41", "title": "s_component after inf_loss goes back to an earlier value", "statement": "s_component corresponds to the current inf_loss as long as inf_loss has not come back to the value of the first access after another value was used; after such a return it is the image of the other value.", "quantifier": "every history of operations", "why_tests_cant": "Needs a three-step history that tests do not exercise.", "anchors": ["properimage/single_image.py:SingleImage.s_component"]}
{"id": "C42", "title": "normal_image is computed once", "statement": "normal_image corresponds to the inf_loss in force at its first use and never changes afterwards.", "quantifier": "every history of operations", "why_tests_cant": "Unbounded histories.", "anchors": ["properimage/single_image.py:SingleImage.normal_image"]}
{"id": "C43", "title": "get_psf_xy returns a unit-sum PSF of the stamp shape inside the frame", "statement": "For an odd square stamp and a position whose stamp window lies inside the image, get_psf_xy returns an array of the stamp shape; whenever its un-normalised total is non-zero it sums to one; for windows that stick out of the image or even stamps, with more than one basis element, the shapes disagree.", "quantifier": "every position, stamp shape and image shape", "why_tests_cant": "All positions and shapes.", "anchors": ["properimage/single_image.py:SingleImage.get_psf_xy"]}
{"id": "C44", "title": "Catalogue matching is one-to-one, mutual and within the radius", "statement": "In the matching used by transparency, a source of the second catalogue gets the identifier of a master source iff each is the other's reported nearest neighbour within the radius; hence with distinct master identifiers no identifier is given to two sources, every matched pair is closer than the radius, and unmatched sources get -13133.", "quantifier": "every pair of catalogues, every radius, every tie-breaking of the nearest-neighbour search", "why_tests_cant": "All catalogues and tie-breaks.", "anchors": ["properimage/utils.py:_matching", "properimage/utils.py:crossmatch"]}
{"id": "C45", "title": "The matched-mask omits identifier zero", "statement": "With masked=True the returned mask flags exactly the sources whose identifier is positive: a source matched to master identifier 0 is reported as unmatched.", "quantifier": "every pair of catalogues", "why_tests_cant": "All catalogues.", "anchors": ["properimage/utils.py:_matching"]}
{"id": "C46", "title": "transparency recovers the magnitude offset of two images", "statement": "For two images the difference of the zero points returned is the mean magnitude difference of the common sources; the zero points are the minimum-norm least-squares solution, which is unique.", "quantifier": "every pair of catalogues with at least one common source", "why_tests_cant": "Real-valued inputs.", "anchors": ["properimage/utils.py:transparency"]}
{"id": "C47", "title": "transparency with three or more images", "statement": "The magnitude of source r in image k is stored at the position of the equation for that same pair exactly when there are two images or one common source; for three images there are noiseless catalogues for which the zero points returned are wrong.", "quantifier": "every number of images and of common sources", "why_tests_cant": "Quantifies over all sizes.", "anchors": ["properimage/utils.py:transparency"]}
{"id": "C48", "title": "transparency without common sources", "statement": "If no master source is detected in all the other images, transparency returns all-one zero points and a NaN mean magnitude.", "quantifier": "every list of catalogues", "why_tests_cant": "All catalogues.", "anchors": ["properimage/utils.py:transparency"]}
{"id": "C49", "title": "Re-using an image as master", "statement": "A source of the master counts as detected iff its identifier is among the identifiers given to every other catalogue; with fresh identifiers 0..n-1 this means it was matched in every image; when the master carries identifiers from an earlier call as a non-master image, unmatched sentinel identifiers make unmatched sources count as detected.", "quantifier": "every history of transparency calls", "why_tests_cant": "Histories.", "anchors": ["properimage/utils.py:transparency", "properimage/utils.py:_matching"]}
{"id": "C50", "title": "find_S_local_maxima reports each connected detection once", "statement": "The catalogue has one entry per connected region above threshold, in label order, neighborhood_size has no influence, and for regions with values of one sign the reported position lies in the region's bounding box so that the pixel looked up exists; the reported significance may be below the threshold.", "quantifier": "every image, threshold and neighbourhood size", "why_tests_cant": "All images.", "anchors": ["properimage/utils.py:find_S_local_maxima"]}
{"id": "C51", "title": "primes returns the largest prime factor below four distinct prime factors", "statement": "plot.primes(n) is the largest prime factor of n when n >= 2 has one to three distinct prime factors, the product of the two largest when it has four or more, and n itself for n in {0,1}; it always divides n.", "quantifier": "every natural number", "why_tests_cant": "Infinitely many inputs.", "anchors": ["properimage/plot.py:primes"]}
{"id": "C52", "title": "The automatic plot grid has room for every component", "statement": "For every number N >= 1 of components the subplot grid chosen by autopsf (and for N >= 2 by autopsf_coef) has at least N cells, exactly N when N is composite; so the 'You must provide at least' error is never raised for automatic axes.", "quantifier": "every number of components up to 2^53 (beyond which it is not an exact float)", "why_tests_cant": "Infinitely many N.", "anchors": ["properimage/plot.py:Plot.autopsf", "properimage/plot.py:Plot.autopsf_coef", "properimage/plot.py:primes"]}
{"id": "C53", "title": "Plot dispatch accepts exactly the public methods", "statement": "Calling the plot accessor with a name runs that method iff the name is a public callable attribute; every other string, including the empty string and private names, raises ValueError; None runs imshow.", "quantifier": "every string", "why_tests_cant": "All strings.", "anchors": ["properimage/plot.py:Plot.__call__"]}
{"id": "C54", "title": "Simulated PSFs are normalised and non-negative", "statement": "simtools.Psf without rotation returns an N x N (N truncated) non-negative array of total one whenever N >= 2 and five times the larger width is at least 2.335 pixels, and an array of nan otherwise; it is never symmetric about its centre; with a rotation the total is one whenever the rotated array does not sum to zero.", "quantifier": "every size and width", "why_tests_cant": "Real-valued inputs and all sizes.", "anchors": ["properimage/simtools.py:Psf"]}
{"id": "C55", "title": "delta_point puts weights in reverse order", "statement": "delta_point with positions puts on the k-th position the k-th weight counted from the end, later positions overwrite earlier ones, all other pixels are zero; too few weights and positions outside the array raise IndexError; without weights a list of positions gives ones and an iterator (the docstring's zip) raises TypeError; with center=True exactly the pixel (N//2,N//2) is one.", "quantifier": "every size, list of positions and weights", "why_tests_cant": "All lists.", "anchors": ["properimage/simtools.py:delta_point"]}
{"id": "C56", "title": "cartesian_product enumerates all tuples in lexicographic order", "statement": "cartesian_product of d arrays has one row per tuple, in lexicographic order of the indices, with column k taken from array k, every value converted to the type of the first array; no array at all raises IndexError.", "quantifier": "every list of arrays", "why_tests_cant": "All lengths and dimensions.", "anchors": ["properimage/simtools.py:cartesian_product"]}
{"id": "C57", "title": "sim_varpsf tiles four frames without gap or overlap", "statement": "Each pixel of the 2N x 2N frame comes from exactly one of the four frames, quadrant (i,j) from frame i+2j, which shows the blurred stars plus noise plus twice the bias; angles beyond the fourth are ignored; fewer than four angles raise IndexError.", "quantifier": "every N and every list of frames", "why_tests_cant": "All sizes.", "anchors": ["properimage/simtools.py:sim_varpsf"]}
{"id": "C58", "title": "store_fits never lets two image numbers share a file", "statement": "Distinct image numbers stored under one directory get distinct file names, so after any history of stores the file of number i holds what was stored last under i.", "quantifier": "every directory name, every history of image numbers", "why_tests_cant": "Infinitely many pairs.", "anchors": ["properimage/simtools.py:store_fits"]}
{"id": "C59", "title": "Context manager cleans its temporary files", "statement": "Leaving a with block removes both stamp files if both exist, whatever happened in the block, and lets exceptions propagate; cleaning twice is harmless; if only the .map file exists (crash between the two removals) it is left behind.", "quantifier": "every file-system state, every exception, every crash point between the two removals", "why_tests_cant": "Crash points and exceptions.", "anchors": ["properimage/single_image.py:SingleImage.__exit__", "properimage/single_image.py:SingleImage._clean"]}
{"id": "C60", "title": "Stamp stores of live images do not interfere", "statement": "As long as identities are distinct, extracting, reading and cleaning stamps of one image never changes the stamps read from another; reading stamp k of an image returns the stamp it stored last under k.", "quantifier": "every interleaving of operations on any number of images", "why_tests_cant": "All interleavings.", "anchors": ["properimage/single_image.py:SingleImage.stamps_pos", "properimage/single_image.py:SingleImage.__init__"]}
{"id": "C61", "title": "The Gaussian PSF ignores inf_loss and shape and uses the mean", "statement": "SingleImageGaussPSF.get_variable_psf returns the same answer for every inf_loss and shape; its widths and angle are the clipped means of the per-star fits (not the medians the docstring announces).", "quantifier": "every set of stars, every inf_loss and shape", "why_tests_cant": "All inputs.", "anchors": ["properimage/single_image.py:SingleImageGaussPSF.get_variable_psf"]}
{"id": "C62", "title": "Alignment for coadd keeps the reference and the order", "statement": "The aligned list has the same length, its first element is the very first input image, the i-th is a new object of the same class as the i-th input, made from the i-th input registered on the reference (hence of the reference's shape when registering gives frames of that shape); no existing image is changed.", "quantifier": "every list of images", "why_tests_cant": "All lists.", "anchors": ["properimage/utils.py:_align_for_coadd"]}
{"id": "C63", "title": "Requesting a stamp shape", "statement": "After get_variable_psf(shape=s) every access to stamps_pos extracts the stamps anew with shape s (unless stamp_shape is s), from the sources kept the time before, and ends with stamp_shape = s+6; a cached PSF is returned as it was; a failed extraction is forgotten and the next access returns the old positions while the file holds the stamps of the failed one; with a new loss the answer can mix the basis of the old stamps with coefficient fields fitted at the new positions.", "quantifier": "every history of operations", "why_tests_cant": "Histories.", "anchors": ["properimage/single_image.py:SingleImage.get_variable_psf", "properimage/single_image.py:SingleImage.stamps_pos"]}
{"id": "C64", "title": "Defaults of the tunable thresholds", "statement": "min_sources is 20, maskthresh 16 and zp 1 unless set; setting maskthresh to None restores 16, while None is kept for the other two; the value assigned last is returned unchanged.", "quantifier": "every sequence of assignments", "why_tests_cant": "Histories.", "anchors": ["properimage/single_image.py:SingleImage.min_sources", "properimage/single_image.py:SingleImage.maskthresh", "properimage/single_image.py:SingleImage.zp"]}
{"id": "C65", "title": "gal_sersic leaves the last row and column empty", "statement": "gal_sersic(N, n) is N x N, zero in its last row and column and outside radius 4 R_e; for an index n >= 327/1999 its values lie in [0,1] and do not increase with the radius; for a smaller positive index every pixel inside the radius but the centre exceeds 1.", "quantifier": "every N >= 2 and every positive index", "why_tests_cant": "Real-valued inputs.", "anchors": ["properimage/simtools.py:gal_sersic", "properimage/simtools.py:perfilsersic"]}
{"id": "C66", "title": "chunk_it balances its chunks", "statement": "No chunk has more than ceil(len/num)+1 items, and every chunk but the last has at least floor(len/num) items.", "quantifier": "every non-empty sequence of fewer than 2^52 items, every chunk count from 1 to 2^52", "why_tests_cant": "Rounding of the running boundary could enlarge or starve a chunk for some (length, count) pair.", "anchors": ["properimage/utils.py:chunk_it"]}
{"id": "C67", "title": "An image given twice to a parallel coadd can make it fail", "statement": "When the same image object occurs twice in the list and coadd runs with several workers, some thread schedule makes it raise AttributeError, although the sequential run on the same list succeeds.", "quantifier": "every fresh image; existence of a schedule", "why_tests_cant": "The failing interleaving of two threads is not reproducible by a test.", "anchors": ["properimage/operations.py:coadd", "properimage/operations.py:process_chunk_joblib", "properimage/single_image.py:SingleImage.s_hat_comp"]}
{"id": "C68", "title": "Aligned coadd needs the sources of the first image", "statement": "coadd(..., align=True) raises AttributeError whenever the first image has never detected its sources (as when it was built with an explicit stamp_shape), however good the other images are.", "quantifier": "every list of images, every worker count", "why_tests_cant": "Depends on the history of the first image.", "anchors": ["properimage/operations.py:coadd", "properimage/single_image.py:SingleImage.update_sources", "properimage/utils.py:_align_for_coadd"]}
{"id": "C69", "title": "The difference PSF keeps the normalisation of the PSFs", "statement": "When the PSFs of both images have the same positive sum s (1 for normalised PSFs), the PSF returned by subtract sums to s, whatever the flux ratio and the shift.", "quantifier": "every pair of images and PSFs, every mode and solver", "why_tests_cant": "Real-valued inputs cannot be exhausted.", "anchors": ["properimage/operations.py:subtract"]}
{"id": "C70", "title": "The total of the difference image", "statement": "When the PSFs have the same sum, the pixels of the difference image add up to (F_new - b F_ref)/sqrt(var_new^2 + b^2 var_ref^2), F being the total of the interpolated images and b the flux ratio used, whatever the shift.", "quantifier": "every pair of images and PSFs, every mode and solver", "why_tests_cant": "Real-valued inputs cannot be exhausted.", "anchors": ["properimage/operations.py:subtract"]}
{"id": "C71", "title": "The significance image is not antisymmetric", "statement": "Exchanging reference and new image, with the ratio b of the zero points as flux ratio, turns the significance image S_corr into -S_corr/b (and not into -S_corr).", "quantifier": "every pair of images with positive zero points", "why_tests_cant": "Real-valued inputs cannot be exhausted.", "anchors": ["properimage/operations.py:subtract"]}
{"id": "C72", "title": "The shift fit displaces the background along rows only", "statement": "In the objective of the fits with a shift, the difference of the backgrounds is displaced along the flattened frame by round(dx)+round(dy) cells, so by columns, whatever the direction of the shift (and not at all when the two roundings cancel).", "quantifier": "every pair of images, every candidate shift", "why_tests_cant": "All candidate shifts.", "anchors": ["properimage/operations.py:subtract"]}
{"id": "C73", "title": "Which constructions fail, and how", "statement": "Without border search, constructing a SingleImage raises IOError when the image file or the mask file cannot be read, AttributeError for an object of an unsupported class (such as CCDData or None), KeyError for an HDUList without EXTEND card and automatic masking, IndexError for an HDUList of one HDU whose header says EXTEND=True and automatic masking (a file with the same content is accepted), AttributeError, TypeError or KeyError for a readable file whose path is exactly PrimaryHDU, ndarray or HDUList and automatic masking (it is taken for an object of that class; a mask array, no guessing or any other path works), and succeeds in all other cases.", "quantifier": "every source kind, header, mask argument, crop and gain", "why_tests_cant": "All combinations of source kinds, headers and mask arguments.", "anchors": ["properimage/single_image.py:SingleImage.__init__", "properimage/single_image.py:SingleImage.mask", "properimage/single_image.py:SingleImage.header", "properimage/single_image.py:SingleImage.data"]}
{"id": "C74", "title": "Assigning an image its own mask again enlarges it again", "statement": "si.mask = si.mask is not idempotent: it enlarges the mask by seven more rounds of the growth rule.", "quantifier": "every image and mask", "why_tests_cant": "All masks of all shapes.", "anchors": ["properimage/single_image.py:SingleImage.mask"]}
{"id": "C75", "title": "Plotting on axes supplied by the caller", "statement": "autopsf with explicit axes draws component k on the k-th axes in row-major order, leaves surplus axes alone and returns the axes given; with too few axes it draws nothing and raises ValueError, except that a single Axes object for two or more components raises TypeError.", "quantifier": "every set of axes and every number of components", "why_tests_cant": "All numbers and shapes of axes.", "anchors": ["properimage/plot.py:Plot.autopsf"]}
{"id": "C76", "title": "A seeded variable-PSF simulation repeats its noise", "statement": "sim_varpsf with a seed adds to its four quadrants one and the same noise pattern, scaled by the peak of each quadrant over SN: the quadrants are not independent.", "quantifier": "every seed, size, number of stars and list of angles", "why_tests_cant": "Depends on the state of the random generator; all seeds.", "anchors": ["properimage/simtools.py:sim_varpsf", "properimage/simtools.py:image"]}
{"id": "C77", "title": "Airy patterns of odd size have a hole", "statement": "airy_patron(N, width) is nan exactly at the central pixel when N is odd and nowhere when N is even.", "quantifier": "every size and non-zero width", "why_tests_cant": "All sizes.", "anchors": ["properimage/simtools.py:airy_patron", "properimage/simtools.py:_airy_func"]}
{"id": "C78", "title": "Unknown background names and seeds in simtools.image", "statement": "image with a background name other than 'poisson' and 'gaussian' raises UnboundLocalError; with a seed it neither reads nor advances the module's random generator.", "quantifier": "every string, every generator state, every argument", "why_tests_cant": "All strings and generator states.", "anchors": ["properimage/simtools.py:image"]}
{"id": "C79", "title": "astropy_Psf does not clip its tail", "statement": "astropy_Psf(N, FWHM) raises IndexError exactly when (N-1)//2 + int(7 FWHM/2.335) exceeds N, and otherwise (for FWHM >= 2.335/7) returns a non-negative N x N array of total one.", "quantifier": "every size and width", "why_tests_cant": "All sizes and widths.", "anchors": ["properimage/simtools.py:astropy_Psf"]}
{"id": "C80", "title": "What a stored star stamp contains", "statement": "If no two stamps overlap, the stamp stored for a source is exactly the window around it with three more cells on each side than stamp_shape (cells outside the image holding the background rms), minus the median of the cells below its 70th percentile, divided by its sum; the preliminary shift by the absolute minimum has no effect on the result. If stamps overlap this fails: a window is taken from the image as the sources before it left it.", "quantifier": "every image, every source, every stamp shape", "why_tests_cant": "All pixel values.", "anchors": ["properimage/single_image.py:SingleImage.stamps_pos"]}
{"id": "C81", "title": "Star stamps do not depend on flux scale or sky level", "statement": "Multiplying the image by a positive number and adding a constant leaves every stamp unchanged, for sources whose windows lie inside the image and do not overlap (for windows that overlap it does not).", "quantifier": "every image, factor, constant and catalogue", "why_tests_cant": "Real-valued relation between two runs.", "anchors": ["properimage/single_image.py:SingleImage.stamps_pos"]}
{"id": "C82", "title": "inf_loss bounds the variation of the stars that the PSF basis cannot reproduce", "statement": "With 2 to 250 stamps, at least two basis elements and no smoothing, the elements are pairwise uncorrelated, the k-th carries the k-th largest eigenvalue, and rebuilding every stamp from the elements with the coefficients that are fitted over the field leaves a total centred squared error equal to the discarded eigenvalues (times pixels - 1), at most inf_loss times the total variation of the stamps.", "quantifier": "every stamp shape, every list of up to 250 stamps, every inf_loss >= 0, every eigen-decomposition numpy may return", "why_tests_cant": "a claim about an optimal projection over all real stamp sets; a test can only try a few", "anchors": ["properimage/single_image.py:SingleImage._setup_kl_basis", "properimage/single_image.py:SingleImage._setup_kl_a_fields", "properimage/single_image.py:SingleImage.cov_matrix"]}
{"id": "C83", "title": "A PSF needs two stars, and which basis elements sum to one", "statement": "An image with a single stamp has no PSF: building the basis raises ValueError; with no stamp the basis is empty. A lone basis element, a smoothed element and an element built from more than 250 stamps sums to one unless it holds no number at all.", "quantifier": "every stamp list, shape, inf_loss, smoothing and eigen-decomposition", "why_tests_cant": "ranges over all stamp sets, including more than 250 stamps", "anchors": ["properimage/single_image.py:SingleImage._setup_kl_basis", "properimage/single_image.py:SingleImage.eigenv"]}
{"id": "C84", "title": "Asking again for a PSF after an error", "statement": "When the PSF was computed and get_variable_psf(inf_loss=L) then raises, the loss L has nevertheless been taken over: the same call made again returns the coefficient fields of the earlier loss (or raises IndexError for want of any element). In particular, after a stamp shape was asked for and the stamps were extracted again, a new loss raises ValueError the first time and returns the whole answer for the old loss the second time.", "quantifier": "every image, every history of calls before, every pair of losses and shapes", "why_tests_cant": "Needs a failure in the middle of a history and a retry; all states of the cached attributes.", "anchors": ["properimage/single_image.py:SingleImage.get_variable_psf", "properimage/single_image.py:SingleImage._setup_kl_basis", "properimage/single_image.py:SingleImage._setup_kl_a_fields"]}
{"id": "C85", "title": "Where the Gaussian fit of a stamp starts", "statement": "fit_gaussian2d starts the fit of a stamp of any shape at the middle of the array (half the number of columns, half the number of rows), with unit widths, an angle of 45 degrees, the range of the values as amplitude and the smallest value as background; an empty array raises ValueError.", "quantifier": "every array", "why_tests_cant": "Every shape and every value; a swapped axis shows only on stamps that are not square.", "anchors": ["properimage/utils.py:fit_gaussian2d"]}
{"id": "C86", "title": "A coadd weights each image with its own zero point", "statement": "In coadd(images, n_procs=n) each image enters with the zero point that transparency gave to that image in the same call: its filtered image times zp / var^2 in the numerator and its squared PSF transform times (zp / var)^2 under the root. R is the inverse transform of the ratio and P the normalised inverse transform of the root, moved by the largest stamp side. The exception is an image whose filtered image was computed before with the same inf_loss: it keeps in the numerator the zero point it had then, so a second coadd is not a function of its zero points.", "quantifier": "every list of images, every list of zero points, every schedule of the processes, every earlier use of the images", "why_tests_cant": "Every number of images and every history; a zero point given to the wrong image shows only when they differ.", "anchors": ["properimage/operations.py:coadd", "properimage/single_image.py:SingleImage.s_hat_comp", "properimage/single_image.py:SingleImage.zp"]}
{"id": "C87", "title": "The matched-filtered image in pixel space", "statement": "The S component of an image with a constant PSF is at each pixel the sum of the pixels under the PSF centred there, weighted by the PSF, times zp / var^2 / sqrt(number of pixels), with frames that wrap around; with a variable PSF it is the sum over the basis of the same thing for the image times each coefficient field over the normalisation. Its sum is the product of the sums, wherever the centre of the PSF is. It depends on the empty sky around a source, through the number of pixels.", "quantifier": "every image, PSF basis, coefficient field and position", "why_tests_cant": "The Fourier computation equals the pixel-space sum for every frame size and PSF only by a proof about discrete Fourier transforms.", "anchors": ["properimage/single_image.py:SingleImage.s_component", "properimage/single_image.py:SingleImage.s_hat_comp"]}
{"id": "C88", "title": "The squared PSF transform and the PSF image of an image", "statement": "psf_hat_sqnorm is real and not negative at every frequency, sums to the sum of the squares of the pixels of the PSF basis, and is at frequency zero the sum of the squares of the sums of the elements over the number of pixels. p_sqnorm is, for stamps of even sides, the sum of the autocorrelations of the elements over sqrt(number of pixels), centred on the middle of the stamp, where it has its largest value. The coefficient fields play no part in either, so for a variable PSF it is not the squared transform of the PSF.", "quantifier": "every PSF basis, frame size, frequency and cell", "why_tests_cant": "All sizes, all bases; needs Parseval's identity and the convolution theorem.", "anchors": ["properimage/single_image.py:SingleImage.psf_hat_sqnorm", "properimage/single_image.py:SingleImage.p_sqnorm"]}
{"id": "C89", "title": "A subtraction is the proper-subtraction formula", "statement": "With the flux ratio b and the offset (dx, dy) it settled on, subtract returns the D whose transform is (Hr N - b Hn R) over the root of sigma_n^2 |Hr|^2 + b^2 sigma_r^2 |Hn|^2, where N and R are the transforms of the images, Hr and Hn those of the PSFs, each product moved back by the centre of mass of the PSF it contains and the second by (dx, dy); and as P the real part of the image with transform b Hr Hn over that root, normalised by the flux zero point b / sqrt(sigma_r^2 b^2 + sigma_n^2).", "quantifier": "every pair of images and PSFs, every choice of the options, every answer of the solvers", "why_tests_cant": "An identity between transforms for every image and PSF.", "anchors": ["properimage/operations.py:subtract"]}
{"id": "C90", "title": "The significance image of a subtraction", "statement": "S is the difference filtered with its own PSF, times the flux zero point of the difference and moved by the centre of that PSF (its centre of mass, or its first brightest cell when they are more than 30 cells apart on an axis), over the root of V, where V is the sum over both images of the pixels plus 1 convolved with the squares of the kernels given by the published formula with the zero point of the new image in both. S has no value where V is 0.", "quantifier": "every pair of images and PSFs, every choice of the options, every answer of the solvers", "why_tests_cant": "An identity between transforms for every image and PSF.", "anchors": ["properimage/operations.py:subtract"]}
{"id": "C91", "title": "Coadding images with point PSFs", "statement": "When the PSF of each image is one pixel, anywhere in its stamp, R is at each pixel the sum of zp / var^2 times the images over the root of the sum of (zp / var)^2 and over sqrt(number of pixels), and P is one pixel of value 1 at the size of the largest stamp from the corner, on both axes and around the frame.", "quantifier": "every number of images, frame size, zero point and noise, every schedule", "why_tests_cant": "Every frame and every list of images.", "anchors": ["properimage/operations.py:coadd"]}
{"id": "C92", "title": "Flux ratio from the zero points of two images", "statement": "For a reference and a new image matched for the first time, with q common sources of mean magnitudes A (reference) and B (new), transparency gives the zero points A - (A+B)/(q+2) and B - (A+B)/(q+2). A subtraction with beta=False therefore uses the flux ratio (B(q+1)-A)/(A(q+1)-B). A new image in which every common source is brighter gets the smaller zero point and, when the reference's zero point is positive, a ratio below 1. The ratio is in general not the ratio of the fluxes, even if that is the same for every source, it depends on the unit of flux, and it can be negative.", "quantifier": "every pair of catalogues with at least one common source and positive fluxes, every nearest-neighbour search, every exact least-squares solver, both PSF settings, shift and iterative on or off", "why_tests_cant": "tests fix two simulated images and never compare the ratio with the fluxes; the closed form and its consequences concern every catalogue", "anchors": ["properimage/utils.py:transparency", "properimage/operations.py:subtract"]}
{"id": "C93", "title": "Values under the mask have no influence", "statement": "Two arrays with the same mask argument that differ only where that mask is set give images with the same mask and the same pixels outside it. Two such images, built with the same options, have the same background, noise, interpolated image, sources, stamps and PSF after every history of calls, and subtracting either from the same other image gives the same D, P, S_corr and mask or the same exception.", "quantifier": "every pair of arrays, mask, option and history of calls; sep is any library that does not read masked pixels", "why_tests_cant": "Tests fill the masked cells with one value; that no value matters concerns every value and every path the pixels take.", "anchors": ["properimage/single_image.py:SingleImage", "properimage/single_image.py:SingleImage.interped", "properimage/single_image.py:SingleImage.best_sources", "properimage/operations.py:subtract"]}
{"id": "C94", "title": "The level of the sky has no influence on D and P", "statement": "An image and the same image with a constant added to every pixel that is not masked have the same noise, interpolated image, sources, stamps and PSF after every history of calls, and backgrounds that differ by that constant. Subtracting them gives the same D, P and mask (S_corr does use the level) or the same exception, whatever the levels of the two images.", "quantifier": "every image, mask, constant, option and history of calls; sep is any library that does not read masked pixels and whose background follows the level", "why_tests_cant": "Concerns every level and every image at once.", "anchors": ["properimage/single_image.py:SingleImage.background", "properimage/single_image.py:SingleImage.bkg_sub_img", "properimage/operations.py:subtract"]}
{"id": "C95", "title": "The unit of the pixels has no influence on the PSF", "statement": "Multiplying every pixel that is not masked by a positive constant multiplies the background, the noise, the interpolated image and the fluxes of the sources by it, keeps the sources, their positions, stamp_shape, the stamps and the PSF after every history of calls, and divides the matched filter by it.", "quantifier": "every image, mask, positive factor, option and history of calls; sep and the interpolation are any libraries for which the unit does not matter", "why_tests_cant": "The stamps go through percentiles, minima, margins and thresholds; that none of them depends on the unit concerns every image and factor.", "anchors": ["properimage/single_image.py:SingleImage.best_sources", "properimage/single_image.py:SingleImage.stamps_pos", "properimage/single_image.py:SingleImage.get_variable_psf", "properimage/single_image.py:SingleImage.s_hat_comp"]}
{"id": "C96", "title": "The pixel stack of sep is shared by all images of a process", "statement": "Reading best_sources may set the pixel stack of sep to 3600000 or 900000 for all later calls in the process, and to nothing else. An image whose calls fit the initial stack has the same sources whatever images were read before. Otherwise its sources depend on what the process did before.", "quantifier": "every sequence of images read before, every image", "why_tests_cant": "A test runs in one process with one history.", "anchors": ["properimage/single_image.py:SingleImage.best_sources"]}
{"id": "C97", "title": "The normalisation image of the PSF", "statement": "normal_image has the shape of the image. For a PSF of one element its value at a pixel is the light that arrives there from a frame in which every pixel sends out 1 spread by the PSF scaled to total 1: it is 1 where the stamp fits into the frame and, for a PSF without negative values, between 0 and 1 everywhere; a PSF whose total is 0 raises ValueError. For several elements it is, where the stamps fit, the light that arrives from a frame of ones when every pixel is spread by its own PSF (the sum of the elements weighted with their coefficients at that pixel). With coefficients that do not vary it is the total of the PSF at every pixel up to the edges, and get_psf_xy returns the same PSF, of total 1, at every position inside. The two cases treat the edges differently.", "quantifier": "all frame shapes, PSF stamps of any shape (odd or even), coefficients that are any functions of the position, and pixels", "why_tests_cant": "tests compute the image for a few PSFs and look at its shape; the statement is about every pixel of every frame, stamp and coefficient field", "anchors": ["properimage/single_image.py:SingleImage.normal_image", "properimage/single_image.py:SingleImage.get_afield_domain", "properimage/single_image.py:SingleImage.get_psf_xy"]}
{"id": "C98", "title": "Plotting many results one after the other", "statement": "After any sequence of calls plot_S(S, path) and plot_R(R, path) that starts without an open figure, the file of each call holds one page with one image, the one passed to that call, and one colour bar, and no page with an image stays open; without a path that page is shown. plot_S draws the numbers of the array between the median plus and minus four clipped deviations and the fill value at masked cells. The stated result is kept only with nbook=True: then the returned axes hold the image, but images and colour bars of successive calls pile up in the same figure and in its files. With nbook=False the returned axes are empty and belong to a new, empty figure; a figure that the user had open is drawn over and closed.", "quantifier": "all sequences of calls with any arrays and paths, all open figures of the user, both values of nbook, all ways in which the backend treats figures after a show", "why_tests_cant": "the effects depend on the figures that earlier calls and the user left open; tests with a fresh figure cannot see them", "anchors": ["properimage/plot.py:plot_S", "properimage/plot.py:plot_R"]}
{"id": "C99", "title": "Which arrays plot_R accepts and what it shows", "statement": "plot_R plots an array iff it has at least one cell and is real, or complex128 with its first cell not masked; an empty array raises IndexError, every other one TypeError, with nothing written. It shows the decimal logarithm of the (real part of the) number at each cell, nothing at cells that are zero or negative, and the logarithm of the fill value at masked cells. imshow puts the pixels of the image on top of the current axes, returns these axes and titles them with the shape.", "quantifier": "all arrays: dtypes, shapes, masks, values; all states of the plotting library", "why_tests_cant": "whether a call works depends on the mask of one cell and on the dtype; tests use a few real arrays", "anchors": ["properimage/plot.py:plot_R", "properimage/plot.py:Plot.imshow"]}
{"id": "C100", "title": "A coadd shows the sky through the PSF it returns", "statement": "If every image shows the same sky through its own PSF and times its own zero point, then the coadd R shows that sky through the PSF P that coadd returns, its middle being the largest stamp side: R is the sky convolved with P times one number, which is the root of the sum of (zero point x total of the PSF / noise)^2 over the root of the number of pixels.", "quantifier": "all skies, frames, numbers of images, PSFs constant over the frame with their centre of mass on a cell, zero points, noise levels, numbers of threads and schedules", "why_tests_cant": "The statement is an identity between convolutions of every pixel of every sky; a test sees a few simulated skies with noise.", "anchors": ["properimage/operations.py:coadd", "properimage/single_image.py:SingleImage.s_hat_comp", "properimage/single_image.py:SingleImage.psf_hat_sqnorm"]}
{"id": "C101", "title": "The noise of a coadd is white", "statement": "The coadd is a sum of convolutions of the images with kernels that depend on the PSFs, zero points and noise levels only. Independent noise of the given levels in the images becomes noise of the same variance, 1 over the number of pixels, in all the pixels of the coadd, and no two pixels are correlated.", "quantifier": "all frames, numbers of images, PSFs constant over the frame, zero points, noise levels and pairs of pixels", "why_tests_cant": "Whiteness is about all pairs of pixels and expectations; a test can estimate a few correlations from samples.", "anchors": ["properimage/operations.py:coadd", "properimage/single_image.py:SingleImage.s_hat_comp", "properimage/single_image.py:SingleImage.psf_hat_sqnorm"]}
{"id": "C102", "title": "No linear combination of the images is more sensitive than the coadd", "statement": "The square of the signal to noise ratio that the coadd offers for a source of flux 1, the square of its zero point times the energy of its PSF over the variance of its noise, is the sum over the images of zero point^2 x energy of the PSF / noise^2. No linear combination of the pixels of all the images has a larger one, at any position, and some combination reaches it.", "quantifier": "all linear combinations of the pixels, positions, frames, numbers of images, PSFs constant over the frame, zero points and noise levels", "why_tests_cant": "Optimality is a statement about all other ways to combine the images.", "anchors": ["properimage/operations.py:coadd"]}
{"id": "C103", "title": "The difference image shows the difference of the skies", "statement": "If the reference and the new image show two skies through their own PSFs, then D shows, through the PSF that subtract returns, the sky of the new image minus the flux ratio times that of the reference, divided by the root of the two noise variances, the one of the reference times the square of the flux ratio. Nothing at all is left of a sky that both show if the flux ratio is that of the images.", "quantifier": "all pairs of skies, frames, PSFs with their centre of mass on a cell and no frequency at which their transform is imaginary, fluxes, noise levels, flux ratios; no shift", "why_tests_cant": "An identity for every pixel and every pair of skies; tests look at the mean or the largest residual of a few pairs.", "anchors": ["properimage/operations.py:subtract"]}
{"id": "C104", "title": "Whether coadds are real", "statement": "The pixels of the coadd and of its PSF have no imaginary part if along each axis the number of cells is odd or the centre of mass of the first element of each PSF is on a cell. Otherwise, with a centre of mass between cells and an even side, they can have one.", "quantifier": "all frames, numbers of images, PSFs constant or not over the frame, pixels", "why_tests_cant": "The imaginary part depends on the parity of the frame and on the position of the PSF in its stamp, for every image.", "anchors": ["properimage/operations.py:coadd", "properimage/single_image.py:SingleImage.s_hat_comp"]}
{"id": "C105", "title": "Whether difference images are real", "statement": "The pixels of D have no imaginary part if along each axis the number of cells is odd or the centres of mass of both PSFs and the shift are whole numbers of cells. Nothing is lost where subtract takes the real part of its PSF: the transform of P is the formula for it at every frequency.", "quantifier": "all pairs of images, PSFs, noise levels, flux ratios, shifts, pixels and frequencies", "why_tests_cant": "Taking a real part hides what is dropped; that nothing is dropped concerns every input.", "anchors": ["properimage/operations.py:subtract"]}
{"id": "C106", "title": "The noise of a difference image is white and has variance 1", "statement": "D is the new image convolved with one kernel minus the reference convolved with another one; the kernels depend on the PSFs, the noise levels, the flux ratio and the shift only. Independent noise of the given levels in the two images becomes noise of variance 1 in all the pixels of D, and no two pixels are correlated.", "quantifier": "all frames, PSFs, noise levels, flux ratios, shifts (not only whole ones) and pairs of pixels", "why_tests_cant": "Whiteness is about all pairs of pixels and expectations; a test can estimate a few correlations from samples.", "anchors": ["properimage/operations.py:subtract"]}
{"id": "C107", "title": "An image whose temporary files were removed", "statement": "An image keeps its stamps in a temporary file, which the end of a with block removes, and so does a subtraction with align=True when the caller's new image is already an instance of the class it uses. Before any stamp is extracted the removal changes nothing. Once the covariances of at most 250 stamps are computed the file is not needed: every later answer (PSF for any loss, covariances, normalisation image, filtered image, component) is that of the same history without the removals. If the stamps were extracted but nothing was computed from them, the positions and the number of stamps are still answered, and the covariances, the PSF, the normalisation image, the filtered image and the component raise an I/O error for ever after. With more than 250 stamps the PSF in force is still answered, a PSF for another loss raises an I/O error, and asking a second time for that loss silently answers the PSF of the old one. The class with Gaussian PSFs reads the stamps each time and raises an I/O error as soon as the file is gone. So it is not true that leaving the with block does no harm to the image.", "quantifier": "all sets of stars and stamps, all histories of property reads, PSF requests, coadds and source resets before and after, removals at any points among them, all losses", "why_tests_cant": "The outcome depends on what was cached at the moment of the removal and on the number of stamps, over unboundedly many histories; a test looks at a few, and the case with a silently wrong answer needs more than 250 stars and a repeated request.", "anchors": ["properimage/single_image.py:SingleImage.__exit__", "properimage/single_image.py:SingleImage._clean", "properimage/single_image.py:SingleImage.cov_matrix", "properimage/single_image.py:SingleImage._setup_kl_basis", "properimage/single_image.py:SingleImage.get_variable_psf", "properimage/single_image.py:SingleImageGaussPSF.get_variable_psf", "properimage/operations.py:subtract"]}
{"id": "C108", "title": "The order of the stars and the signs of the eigenvectors do not change the PSF", "statement": "Two images with the same stars in a different order, or one image analysed with two eigenvalue solvers that differ in the signs of the eigenvectors, have the same PSF at every position and in every pixel, provided there are at most 250 stars, no smoothing, and the eigenvalues kept are simple. The fit of the coefficients has to be indifferent to the order of its points and to change sign with its values; least squares with cubic polynomials is so at positions that determine a cubic. With smoothing, or with more than 250 stars, the elements are normalised one by one before their coefficients are fitted: each free sign of an eigenvector then multiplies the coefficient and not the element, so that two correct solvers give different PSFs, and it is not true there that the PSF is a function of the stars.", "quantifier": "all lists of stars with stamps and positions, all their permutations, all correct eigenvalue solvers, all histories of property reads, PSF requests, coadds and source resets on both images, all losses, positions and pixels", "why_tests_cant": "Solver signs and source orders are chosen by libraries outside the test's control; a test sees one solver on one machine.", "anchors": ["properimage/single_image.py:SingleImage.get_variable_psf", "properimage/single_image.py:SingleImage._setup_kl_basis", "properimage/single_image.py:SingleImage._setup_kl_a_fields", "properimage/single_image.py:SingleImage.eigenv", "properimage/single_image.py:SingleImage.get_psf_xy"]}
{"id": "C109", "title": "The sign of the PSF in a subtraction", "statement": "An image with at most 250 stars, no smoothing and a PSF of several elements has elements whose sign is that of the eigenvectors the solver happened to return: for every choice of signs a correct solver exists that gives exactly these elements, and coefficients, with these signs. The subtraction takes the first element as the PSF. With the other sign of the PSF of the new image, and the same flux ratio and shift, the reference is added instead of being subtracted: the two difference images add up to twice the difference image of a reference without light. P changes its sign, and the mask stays. When the PSFs of both images have the other sign (and flux ratio, shift and zero points are the same) the difference image and the significance change their sign at every pixel although P does not. So it is not true that equal images with equal PSFs up to the sign of a solver's vector have difference zero.", "quantifier": "all pairs of images, PSF stamps, noise levels, masks, choices of beta, shift and iterative, pixels; all star lists, histories, losses and choices of signs", "why_tests_cant": "The sign is a choice of the eigenvalue solver that a test sees one of, and the effect is a statement on every pixel of every pair.", "anchors": ["properimage/operations.py:subtract", "properimage/single_image.py:SingleImage._setup_kl_basis", "properimage/single_image.py:SingleImage.get_variable_psf"]}
{"id": "C110", "title": "What the fits of the flux ratio and of the shift look for", "statement": "With beta or shift, a subtraction whose solver succeeds with a true minimum has chosen the flux ratio in [0.1, 10] and the shift in [-0.9, 0.9] that leave the least in the difference image: no other allowed choice gives a difference image in which the real part, less the difference of the two estimated backgrounds in units of the noise, sums in absolute value to less over the unmasked pixels (with a shift, over the unmasked pixels at least 100 cells from the border). When the solver gives up, the ratio is that of the zero points and the shift is zero. A new image that is k times the reference, with the same PSF and the same estimated background, leaves nothing in these pixels whatever the zero points say. It is not true that the fit finds the ratio of the fluxes: where the background estimate takes the light for background, the best ratio is 1 for a new image that is twice the reference, and the difference image shows the light.", "quantifier": "all pairs of images, PSF stamps, backgrounds, noise levels, masks, zero points, solvers reporting true minima or failure, choices of beta, shift, iterative and fitted PSF, and all competing ratios and shifts", "why_tests_cant": "Optimality is a comparison with a continuum of alternatives; a test compares with a few and with one solver.", "anchors": ["properimage/operations.py:subtract"]}
{"id": "C111", "title": "The stars and the loss behind the PSF of a subtraction", "statement": "A list of stars given to an image through update_sources decides its PSF, for every loss and whatever is asked afterwards, if no stamps, PSF, filter or coadd were asked for before; otherwise it decides nothing, the PSF stays the one of the stars found in the image. A subtraction uses, for each image, the first element of its PSF for the loss passed to subtract, whatever losses the image was asked for before; the stars behind it are those found in the image if stamps were asked for before and otherwise those that the matching of the two catalogues leaves: for the reference the same stars in the same order, for the new image the same stars in the order of their identifiers.", "quantifier": "all images, all histories of calls before and after, all lists of stars, all losses, all solvers and options of subtract", "why_tests_cant": "which stars enter depends on what was read in what order before the call; a test fixes one order and usually a fresh image", "anchors": ["properimage/operations.py:subtract", "properimage/single_image.py:SingleImage.update_sources", "properimage/single_image.py:SingleImage.get_variable_psf", "properimage/utils.py:transparency"]}
{"id": "C112", "title": "The PSF of images with more than 250 stars", "statement": "With more than 250 stamps every element of the PSF is the sum of the stamps weighted with an eigenvector, divided by its total, minus the absolute value of its faintest cell, divided by what is then its total. Without negative cells the faintest cell becomes zero; with negative cells they become deeper, and when the faintest is below minus one over the number of cells the element is turned over: where the stars are bright it is faint. It is therefore not true that the element is brightest where its stars are. These are the elements that an image answers when its PSF is asked for, for any loss and after any history.", "quantifier": "all numbers of stamps above 250, all stamps of any shape, any eigensolver, all losses, all elements", "why_tests_cant": "test images have a few dozen stars; the branch for more than 250 needs hundreds, and the turning over depends on the depth of one cell", "anchors": ["properimage/single_image.py:SingleImage._setup_kl_basis", "properimage/single_image.py:SingleImage.cov_matrix", "properimage/single_image.py:SingleImage.get_variable_psf"]}
{"id": "C113", "title": "The pixels of an image are the source values times the gain, to single precision", "statement": "Unless the automatic masking starts again from the source, every pixel kept is the single precision number nearest to the product of the single precision numbers nearest to the source value and to the gain (ties to even, infinite from 2^128-2^103 on); cells masked by the user are only rounded. Hence when value, gain and product are single precision numbers the pixel is the exact product, and away from underflow and overflow it is the product up to a relative error of 2^-22. Whole-number counts are not always preserved: 16777217 read with gain 1 becomes 16777216.", "quantifier": "all sources, all finite source values and gains, all positions, all masks and thresholds", "why_tests_cant": "rounding errors depend on every bit of the value and the gain; a test uses a few round numbers, which are all exact", "anchors": ["properimage/single_image.py:SingleImage.data", "properimage/single_image.py:SingleImage.gain"]}
{"id": "C114", "title": "Which pixels a FITS mask flags", "statement": "A mask image (a mask file, or the second image of the HDU list or file whose header announces extensions) of the shape of the pixels with values 0 or at least 1 flags, before out-of-range pixels and the enlargement, the values at or above the threshold (the argument, or 16) when more than half of its cells are 0 and the values at or below the threshold otherwise. So a mask that marks a minority of the pixels with values at or above the threshold flags these pixels, and one that marks half or more of them with values above the threshold flags exactly the others.", "quantifier": "all sources and mask images of equal shape, all thresholds, all values that are 0 or at least 1", "why_tests_cant": "which way round the mask is read depends on a count over the whole mask; test masks mark a few pixels", "anchors": ["properimage/single_image.py:SingleImage.mask", "properimage/single_image.py:SingleImage.maskthresh"]}
{"id": "C115", "title": "How wide the simulated PSFs are", "statement": "Without rotation, a simulated PSF that fits its array is on each axis a Gaussian around the centre of the array whose full width at half maximum is s times the requested width, s being a constant between 1.008 and 1.009 (the code divides by 2.335 where the ratio of width to standard deviation is 2.3548), zero beyond five (astropy_Psf: seven) standard deviations; a Y_FWHM of 0 stands for X_FWHM. So the requested width is not the width at half maximum. An Airy pattern stays between (1-r^2/8)^2 and (1-r^2/8+r^4/192)^2, r=d/w, at distances d up to twice the given width w from the centre, so w is not the distance of its first minimum, as the documentation says.", "quantifier": "all array sizes (also fractional ones), all widths for which the loop touches a pixel, all pixels", "why_tests_cant": "the shape must hold at every pixel for every width; tests look at the shape and sum of one array", "anchors": ["properimage/simtools.py:Psf", "properimage/simtools.py:astropy_Psf", "properimage/simtools.py:airy_patron", "properimage/simtools.py:_airy_func"]}
{"id": "C116", "title": "Where a simulated field has its stars", "statement": "Whenever sim_varpsf returns a frame, quadrant (i, j) shows nstars//4 stars, each in one pixel of a map that is blurred with the PSF of angle number i+2j in an array of five times its larger width, plus normal noise whose deviation is the brightest blurred pixel over SN, plus 200. The stars are more than three times the larger width minus one pixel away from the low borders of the quadrant and more than three widths from the high ones. In the order of drawing their brightnesses fall evenly from 10000 to 100 (a single star has 100); of stars in one pixel only the last drawn is there. If twice three widths of the first angle exceed the quadrant and there are at least four stars, the result is ValueError.", "quantifier": "all star numbers, signal-to-noise ratios, angles, sizes, seeds and states of the generator, all draws", "why_tests_cant": "the positions are random; a test sees one draw", "anchors": ["properimage/simtools.py:sim_varpsf", "properimage/simtools.py:delta_point", "properimage/simtools.py:image"]}
{"id": "C117", "title": "What a coadd does not depend on", "statement": "Coadds of two lists of images that differ only under their masks, or whose skies differ by a constant each, are the same image, PSF and mask (or raise the same exception, or both do not end), whatever the choices and histories of the images, the inf_loss, the number of processes and the order in which they run; provided sep ignores masked pixels and its background follows the sky.", "quantifier": "all lists of images, pixels under the masks, sky levels, choices at construction, histories of calls, losses, numbers of processes and schedules", "why_tests_cant": "the claim compares two whole runs over all pixels under all masks; a test compares one pair", "anchors": ["properimage/operations.py:coadd", "properimage/single_image.py:SingleImage", "properimage/utils.py:transparency"]}
{"id": "C118", "title": "What a coadd is made of", "statement": "A coadd that returns is made of one filtered image and one squared PSF norm per image: the filtered image is that of the image's own interpolated pixels with the PSF for the inf_loss of the coadd, computed from the stars that the matching leaves in the image if no stamps were asked for before and from its own detection otherwise; the zero point is the one of the transparency solution, unless the image was filtered for the same loss before: then the filtered image is still the one of the old zero point; the normalisation image is that of the first PSF asked for. The matching leaves the stars of each image, in their order for the first image and in another order for the others. The squared norms are weighted with the square of zero point over variance. The coadd is the inverse transform of the sum of the filtered images over the root of the weighted sum of the squared norms; its PSF the normalised inverse transform of that root, shifted by the largest stamp size plus six; its mask the union of the masks. One after the other, images whose stars give a PSF can always be coadded.", "quantifier": "all lists of images built from pixels, choices, histories of calls, losses, schedules, numbers of processes within the limits of the chunking", "why_tests_cant": "which stars, loss and zero point enter depends on what was read in what order before the call, for each image; a test fixes one order and usually fresh images", "anchors": ["properimage/operations.py:coadd", "properimage/single_image.py:SingleImage.s_hat_comp", "properimage/single_image.py:SingleImage.psf_hat_sqnorm", "properimage/utils.py:transparency"]}
{"id": "C119", "title": "Repeating an operation on the same images gives the same result", "statement": "transparency changes the catalogues it is given (identifiers, flags, order). Called again on the same images, once or many times, it still gives the same zero points and magnitudes; these depend on the positions and fluxes of the sources only, not on the order of the other catalogues, the identifiers and flags left by earlier calls, or the order in which the search visits points; provided no source has two partners at the same distance within the matching radius. A coadd also fills the caches of its images and may reject stars from them, when at least 15 remain. Only the first coadd of the images rejects any. Coadding the images again with the same inf_loss, once or many times, with any numbers of processes and in any order of running, gives the same image, PSF and mask, unless stars were rejected.", "quantifier": "all catalogues and numbers of repetitions; all lists of images built from pixels, all choices, histories of calls and of coadds with any losses, all numbers of processes and schedules", "why_tests_cant": "repetition changes hidden state (identifiers, flags, order, caches, star lists) and the claim must hold after every history; a test makes one repetition on one data set", "anchors": ["properimage/utils.py:transparency", "properimage/operations.py:coadd", "properimage/single_image.py:SingleImage.stamps_pos", "properimage/single_image.py:SingleImage.update_sources"]}
{"id": "C120", "title": "What the matched-filtered image of an image is", "statement": "For an image built from pixels, after any history of reads: if s_component has not been read for another inf_loss before, each of its pixels is zp / (deviation^2 * sqrt(number of pixels)) times the cyclic correlation of the image, with bad pixels interpolated and the background subtracted, with the PSF for the inf_loss in force, centred on the PSF's centre of mass when that is a whole pixel; with a varying PSF it is the sum over its elements of the correlation of image times field over normalisation image with the element, where the centre is that of the first element. The zero point is the one at the time the filter was made, the normalisation image that of the first PSF asked for. Good pixels enter as pixel less background. psf_hat_sqnorm() sums over the elements for the inf_loss in force.", "quantifier": "all pixels, masks, choices at construction, histories of calls, losses and zero points, all pixel positions; PSFs without nan that fit the image", "why_tests_cant": "the claim is about each pixel as a sum over all pixels, for all images and histories; a test looks at one", "anchors": ["properimage/single_image.py:SingleImage.s_component", "properimage/single_image.py:SingleImage.s_hat_comp", "properimage/single_image.py:SingleImage.psf_hat_sqnorm", "properimage/single_image.py:SingleImage.interped"]}
{"id": "C121", "title": "What an image with a Gaussian PSF uses where", "statement": "For an image of class SingleImageGaussPSF, after any history of reads, losses and zero points: get_variable_psf gives no field and always the same PSF, the Gaussian of amplitude one whose widths and angle are the clipped means over the fits of the stamps, whatever inf_loss and shape it is given, and does not set inf_loss. Its s_hat_comp and s_component are made with that Gaussian: each pixel of s_component is zp / (deviation^2 * sqrt(number of pixels)) times the cyclic correlation of the image with the Gaussian, centred on its middle, the zero point being the one at the time the filter was made. psf_hat_sqnorm(), however, is that of the Karhunen-Loeve basis for the inf_loss in force. The two do not belong together: a Gaussian of amplitude one with a second positive pixel sums to more than one, while a single basis element sums to one, so the squared norm is not that of the PSF of the filter.", "quantifier": "all images, pixels, stamps, fits and statistics, all histories of calls, losses and zero points, all pixel positions", "why_tests_cant": "the class overrides one method of many that read each other's caches; which PSF each of the others uses after every history is not shown by reading one of them", "anchors": ["properimage/single_image.py:SingleImageGaussPSF.get_variable_psf", "properimage/single_image.py:SingleImage.s_component", "properimage/single_image.py:SingleImage.s_hat_comp", "properimage/single_image.py:SingleImage.psf_hat_sqnorm"]}
{"id": "C122", "title": "The PSFs of a subtraction in the default mode", "statement": "subtract with its default fitted_psf=True, on two images of class SingleImageGaussPSF with any histories, uses for each image a Gaussian of height one whose widths and angle are the clipped means over the fits of its stamps: the stamps of the sources that the matching left if no stamps were asked for before, else those of the sources found in the image. The zero points are those of the matching, and everything else is what subtract does with these PSFs. The Gaussian is put at row columns/2 and column rows/2: on a frame at least twice as wide as high its centre is outside the frame, the values growing to the last row (the code swaps the axes). Because the PSFs have height one and not sum one, the total of D is (s_r flux_n - beta s_n flux_r) / sqrt((sigma_n s_r)^2 + (beta sigma_r s_n)^2): if no source changed (flux_n = beta flux_r) it is zero only if the PSFs have the same sum, and it is negative whenever the seeing of the new image is worse. On a square frame of n pixels the centre of mass by which the images are moved back is n/2 (1 - the share of the first row), so two images with different seeing are moved by different amounts.", "quantifier": "all pixels, masks, choices at construction, histories, fits, statistics, matchings and backgrounds, all frame shapes, widths and angles; both flags of the fit", "why_tests_cant": "the claims hold for every frame shape, width and history; a test looks at one pair of images of the same shape and seeing", "anchors": ["properimage/operations.py:subtract", "properimage/single_image.py:SingleImageGaussPSF.get_variable_psf", "properimage/utils.py:transparency"]}
{"id": "C123", "title": "Subtracting the same two images again gives the same result", "statement": "subtract (fitted_psf=False, align=False) leaves in both images new zero points, a filled PSF cache, an inf_loss, a reordered catalogue and, on the first use, may reject stars when at least 15 remain. Two images built from pixels are put through any sequence of subtractions (any losses and options) and coadds (any losses, processes, schedules). Only the first operation can reject stars; if it rejects none, or there are less than 15, or from the second operation on, a subtraction gives the same difference, PSF, S map and mask as it gave before the sequence, and a coadd for some loss gives the same answer if the coadds between were for the same loss; provided no source has two partners at the same distance within the matching radius. The first subtraction of two images is the one described by C111. After a subtraction both images hold the zero points of its matching and its inf_loss, and their pixels, background and interpolated pixels are untouched.", "quantifier": "all pairs of images built from pixels, choices, histories of calls before, all sequences of subtractions and coadds with all losses, options, processes and schedules", "why_tests_cant": "repetition changes hidden state in both images and the claim must hold after every sequence of operations; a test makes one repetition of one operation", "anchors": ["properimage/operations.py:subtract", "properimage/operations.py:coadd", "properimage/utils.py:transparency", "properimage/single_image.py:SingleImage.get_variable_psf"]}
{"id": "C124", "title": "What a simulated image shows", "statement": "convol_gal_psf_fft(gal, psf) gives at each pixel the sum over all pixels of gal, each multiplied with the PSF whose middle cell (the lower one of the two for an even size) is put on that pixel; nothing comes round from the other side, whatever size the transforms have. A star in one pixel is therefore drawn as the PSF around it, and no light is lost when every star is half a PSF away from the border; this is so in the quadrants of sim_varpsf with the angle zero. image draws a star (theta=0, widths of at least a pixel) as a Gaussian profile cut at five standard deviations, centred on the star only when five times the larger width is an odd whole number, otherwise displaced by up to a pixel towards larger rows and columns: with a width of 2 the pixel diagonally next to the star is as bright. The noise that image adds has the brightest pixel of the blurred image over SN as standard deviation (gaussian) or mean (poisson); the std argument has no effect.", "quantifier": "all images, PSFs and sizes, all transform lengths, all positions, brightnesses and widths, all generators and seeds", "why_tests_cant": "the claims are about each pixel as a sum over all pixels, for all sizes; a test compares one image with one PSF", "anchors": ["properimage/simtools.py:convol_gal_psf_fft", "properimage/simtools.py:image", "properimage/simtools.py:Psf", "properimage/simtools.py:sim_varpsf"]}
{"id": "C125", "title": "What subtract works on when it has to build an image itself", "statement": "subtract given something else than an image of its class works on an image built with all defaults. From an image of the other class (in the default mode, any SingleImage) it takes the pixels, in single precision, and the mask together with the pixels that are not numbers; the mask is enlarged by seven more rounds, so pixels that were masked in neither image can be masked in the result. From a CCDData it takes the values and drops the mask. From a file name, an array or HDUs it makes what the constructor makes with its defaults, and any failure becomes AttributeError. With align=True the new image that is subtracted has the registered values, in single precision, cut to the size of the reference, and a mask that comes from the footprint and the values out of range only: the mask of the caller's new image is not used, so if the images were aligned already its bad pixels are used as good ones. A registered array smaller than the reference gives ValueError. Options (stamp shape, minimum number of sources, mask threshold, strict picking) chosen by the caller for an image that is built anew have no effect, and of the caller's new image only the pixels and mask that the registration is given matter. In all cases the mask of the result is the union of the masks of the two images that were subtracted.", "quantifier": "all images, pixels, masks, options, sources, files, registrations and footprints, both modes, all options of subtract", "why_tests_cant": "the rebuilt images depend on every pixel and flag and on the absence of every option; a test gives one kind of argument and looks at one mask", "anchors": ["properimage/operations.py:subtract", "properimage/single_image.py:SingleImage.__init__", "properimage/single_image.py:SingleImage.mask", "properimage/single_image.py:SingleImage.data"]}
{"id": "C126", "title": "What coadd works on when it has to build or register images", "statement": "Every element of the list given to coadd that is not an image is replaced by the image that the constructor makes of it with default arguments; if the constructor raises, coadd raises that exception (a CCDData, which subtract accepts, is an AttributeError). With align, the first image is used as it is, and of each other image only the pixels and the mask matter, not its options or history: it is replaced by a new image holding the registered values in single precision, not cut to the size of the reference, whose mask comes from the footprint and from the values out of range alone - the mask of the original is not carried over. The sources are then detected again in every image: the stars that are matched are those with a usable stamp in an image without stamps, and all those found in an image that had stamps already. The zero points come from the matching, but the PSF of every image comes from its own stars. The mask of the result is the union of the masks of the reference and the registered images, and the coadd fails if one of these has another size. A reference made with a stamp_shape whose sources were never looked at is an AttributeError.", "quantifier": "all lists of images and other objects, all registrations, library functions, options, histories of calls, losses, numbers of processes and schedules", "why_tests_cant": "depends on every combination of what the list holds, what was asked of the images before and what the registration returns", "anchors": ["properimage/operations.py:coadd", "properimage/utils.py:_align_for_coadd", "properimage/single_image.py:SingleImage.update_sources", "properimage/single_image.py:SingleImage.__init__"]}
{"id": "C127", "title": "An image whose computations are interrupted", "statement": "Reading an attribute of an image or asking for its PSF can be interrupted (KeyboardInterrupt, MemoryError, a library function that raises) between any two assignments to its attributes or stamps. If each interrupted request was for the loss in force (or the image had no PSF yet), and none was interrupted between enlarging stamp_shape and counting the stars, then afterwards the image answers everything - stars, positions, covariance, eigenvectors, basis, fields, PSF for each loss, normal_image, s_hat_comp, s_component - like an image on which each interrupted call was made in full, not at all, or only up to normal_image or s_hat_comp; in particular asking the same again gives what would have been answered. This holds after any number of interruptions, and for every image built from pixels. Outside these conditions it fails: an interruption just after stamp_shape was enlarged gives a PSF from stamps six pixels larger in each direction; one just after the positions were stored makes every later request for the PSF an AttributeError; a request for another loss, interrupted, leaves the new inf_loss with the PSF of the old one, or the old coefficient fields with the new basis.", "quantifier": "all images, library functions, histories of calls and interruptions, all points at which a call can be interrupted, all losses, all calls afterwards", "why_tests_cant": "interruptions come at any moment; the claim ranges over all crash points and histories, and a test can hit only a few moments", "anchors": ["properimage/single_image.py:SingleImage.stamps_pos", "properimage/single_image.py:SingleImage.n_sources", "properimage/single_image.py:SingleImage.cov_matrix", "properimage/single_image.py:SingleImage._setup_kl_basis", "properimage/single_image.py:SingleImage._setup_kl_a_fields", "properimage/single_image.py:SingleImage.get_variable_psf", "properimage/single_image.py:SingleImage.normal_image", "properimage/single_image.py:SingleImage.s_hat_comp", "properimage/single_image.py:SingleImage.s_component"]}
{"id": "C128", "title": "Operations that stopped, and repeating them", "statement": "A subtraction or a coadd of two images can stop before its end - a later step raises, a worker fails, the user interrupts it - and leave one image further on than the other: one with its matched catalogue, the other with its old one; one with a zero point and a PSF, the other without. After any number of such operations, finished or stopped between any two steps, a subtraction of the same two images gives what it would have given, and so does a coadd for the loss the stopped coadds asked for (subtractions may have asked for any), as long as the matching is unambiguous and no star is rejected on the way. The matching itself gives the same zero points, mean magnitudes and catalogues whichever of the images keep what an earlier run left. A finished operation is one that came to its last step, and an operation that can finish can stop at any step.", "quantifier": "all pairs of images built from pixels with any histories of calls, all sequences of operations, all steps at which each may stop for either image, all losses and parameters of the operation that is repeated", "why_tests_cant": "the states left by stopped operations are combinations of steps on two images; tests see a few of them, the claim ranges over all sequences and all stopping points", "anchors": ["properimage/operations.py:subtract", "properimage/operations.py:coadd", "properimage/utils.py:transparency", "properimage/single_image.py:SingleImage.update_sources", "properimage/single_image.py:SingleImage.get_variable_psf", "properimage/single_image.py:SingleImage._setup_kl_a_fields"]}
{"id": "C129", "title": "What aligning an image for a subtraction writes", "statement": "_align_for_diff(ref, new, mask) writes one file, aligned_<name of new> in the directory of the new image, and returns its path; it is never the new image itself, and two images written as name, /name or folder/name get the same file only if they are the same. Nothing else changes, the gain of the new image is kept in the header, and a call that fails writes nothing. Any number of alignments, in any order, leave what each gives alone, as long as none reads a file that one of them writes and no two write the same one; aligning one image to two references leaves only the second result, and a reference that has the name of the file to be written is lost. Contrary to the documentation the file does not show the new image: astroalign's register(source, target) gets the reference as the source, so the file holds the reference moved onto the grid of the new image, and exactly the pixels of the reference if the two are aligned already. What is registered are the pixels of the reference, those that are not finite masked, with the new image: its masked pixels - those not finite or, when a mask is given, those where it is not zero, row by row, one value standing for all - replaced by its median, and, if that raises ValueError, the masked image itself; any other error is raised. A missing file is an IOError and a mask of another number of values a ValueError. If the registered image has a mask, loading the file with a threshold of at most 1 gives it back (less than half masked), and loading it with the default threshold gives none of it.", "quantifier": "all paths, all files, images, masks and headers, all registration functions that transform the source, all sequences and orders of calls", "why_tests_cant": "all path names and all sequences of calls; the arguments of the registration can only be told apart by what any pair of images gives", "anchors": ["properimage/utils.py:_align_for_diff"]}
{"id": "C130", "title": "One reference, many images, operations that stop and start again", "statement": "A reference image is kept while any number of other images are subtracted from it and coadded with it, in any order and selection. Each of these operations may have been stopped part-way, after different steps in different images. As long as each image can be matched with the reference without ties and no star is rejected meanwhile (there is none to reject in images with fewer than fifteen stars), a subtraction of any of the images gives exactly what it would have given without the operations in between. The same holds for a coadd, if the coadds in between were of the same images for the same information loss.", "quantifier": "all collections of images constructed from pixels with any earlier questions asked of them, all sequences of subtractions and coadds over any selection of them, each stopped after any step in each image, all later subtractions and coadds", "why_tests_cant": "The operations write zero points, matched catalogues, cached PSFs and coefficient fields into the images they are given; the reference takes part in all of them. No finite set of scripts covers every selection, order and stopping place.", "anchors": ["properimage/operations.py: subtract, coadd", "properimage/utils.py: transparency", "properimage/single_image.py: SingleImage.get_variable_psf, SingleImage._setup_kl_a_fields, SingleImage.best_sources"]}
{"id": "C131", "title": "The deprecated names diff and stack_R", "statement": "In every process and after every history of calls and of changes of the warning filters, diff and stack_R do and return exactly what subtract and coadd do and return for the same arguments, unless the first filter that fits their warning turns it into an error; then they raise it, touch no image and show nothing. Shown the warning is on every call, at most once, or never, as that filter says; with the filters an interpreter starts with it is never shown, because it is attributed to the module of the package and not to the caller.", "quantifier": "all arguments, all behaviours of subtract and coadd, all lists of warning filters, all sequences of calls, filter changes and other warnings of the module", "why_tests_cant": "What happens to a warning depends on the filters and on a registry that earlier warnings and filter changes have left; tests run with the filters of the test runner.", "anchors": ["properimage/operations.py: diff, stack_R"]}
{"id": "C132", "title": "Extracting the star stamps changes the interpolated image", "statement": "The stamps are cut in place. After the extraction every stamp that lies inside the frame has lost its own background level in the interpolated image (and is nan there if it has no pixel below its 70th percentile), when no two stamps overlap; stamps that stick out of the frame and pixels in no stamp are as before. In general the sources are handled one after the other, each on the image the ones before it left; pixels in no stamp never change, even when the extraction raises. A nan that one source left makes the sources near it lose their stamps: with a nan in its window a source is skipped, with one on the rim its stamp is nan throughout. So interped is not the same array before and after the PSF was asked for.", "quantifier": "all images, noise levels, stamp shapes and catalogues, all outcomes of the strict criteria", "why_tests_cant": "Whether a pixel changes depends on astropy returning a view or a copy, on where every source lies and on the values of all pixels of its stamp.", "anchors": ["properimage/single_image.py: SingleImage.stamps_pos, SingleImage.interped"]}
{"id": "C133", "title": "Mask, sky level and pixel unit do not matter with the stamps cut in place", "statement": "After the first extraction of its stamps an image goes on with the interpolated image that the extraction left: subtract and the matched filter read it without the background level of each stamp. Nevertheless the values under the mask have no influence on a subtraction, the levels of the skies of the two images none on D, P and the mask, and multiplying the pixels of an image by a positive constant multiplies the image left by it, keeps the PSF and divides the matched filter by it after every history of calls, also when stamps overlap. What a subtraction of two new images reads of each is exactly the data, mask and background of the image, the PSF of the stamps of the stars that the matching left in it (the same stars, those of the new image perhaps in another order), and the interpolated image that the extraction of these stamps left.", "quantifier": "all pairs of new images, masks, levels, positive factors, options and histories of calls; sep is any library that does not read masked pixels and whose background follows level or unit", "why_tests_cant": "The image left depends on all sources, on their order and on what each removed before the next was cut.", "anchors": ["properimage/single_image.py: SingleImage.stamps_pos, SingleImage.interped, SingleImage.s_hat_comp", "properimage/operations.py: subtract"]}
{"id": "C134", "title": "The transform of the interpolated image is that of its first reading", "statement": "interped_hat, which subtract and s_hat_comp read, is computed once. It is the transform of the interpolated image as it was at the first reading: extractions of stamps that come later change interped and not interped_hat. For images without nan the two still fit together exactly if no pixel changed since. One nan in the interpolated image at the first reading makes every cell of interped_hat nan for good, and without one no cell is. So reading interped_hat before the PSF is computed changes later results.", "quantifier": "all images, all histories of readings and extractions", "why_tests_cant": "Whether the two fit depends on the order of all calls and on every pixel.", "anchors": ["properimage/single_image.py: SingleImage.interped_hat, SingleImage.interped, SingleImage.stamps_pos"]}
{"id": "C135", "title": "A coadd of new images uses what the matching and the extraction left", "statement": "coadd of images whose stamps were not extracted before: each image goes in with the stars that the matching left of its catalogue, the stamps of these stars cut in place, and the interpolated image that this extraction left. R is the transform back of the sum of the matched filters over the root of the weighted squared PSFs, P the normalised image of that root, and the mask the union of the masks. The values under the masks have no influence on the coadd, nor have the levels of the skies. If the stars of every image give a PSF for each order of the catalogue, a coadd in one process does not raise.", "quantifier": "all lists of new images, options, numbers of processes and schedules; sep is any library that does not read masked pixels and whose background follows the level", "why_tests_cant": "The image a coadd reads depends on all sources of the image, on which of them the other images have, and on what each stamp removed before the next was cut.", "anchors": ["properimage/operations.py: coadd", "properimage/single_image.py: SingleImage.stamps_pos, SingleImage.interped, SingleImage.s_hat_comp, SingleImage.psf_hat_sqnorm", "properimage/utils.py: transparency"]}
{"id": "C136", "title": "Whole histories of an image that cuts its stamps in place", "statement": "The stamps are cut from the interpolated image itself, which changes with every extraction, and the matched filter reads what is left. Take a new image whose catalogue can be made and whose first extraction of stamps returns. After any sequence of reading properties, asking for the PSF (without a stamp shape), coadding, setting zero point and inf_loss, resetting the sources and closing the image, exceptions included: the stamps were cut at most once, from the image the constructor made; the interpolated image is that one as long as the positions were not needed and what the first extraction left from then on; the positions answered are those of the first extraction; and catalogue, PSF, normalisation and matched-filter images are the same as for an image whose stamps come from the untouched image and whose filtered image is computed from what the extraction left. The PSF for a loss is that of the first extraction's stamps, whatever was asked in between. When no two stamps overlap, the pixels that are nan in the end are those of the stamps inside the frame that have no cell below their 70th percentile. Once a stamp shape is asked for, every access to the positions cuts again from what the access before left; when no two stamps overlap and all are finite, positions, stamps, catalogue and image stay the same.", "quantifier": "all images, constructor choices, catalogues, histories of calls, losses, zero points, and all behaviours of the libraries", "why_tests_cant": "a test would have to try every order of calls: in which call the extraction happens, and what reads the image before and after it, depends on the whole history", "anchors": ["properimage/single_image.py:SingleImage.stamps_pos", "properimage/single_image.py:SingleImage.s_hat_comp", "properimage/single_image.py:SingleImage.interped_hat", "properimage/single_image.py:SingleImage.get_variable_psf", "properimage/single_image.py:SingleImage.interped"]}
{"id": "C137", "title": "Away from the stars no history changes the interpolated image", "statement": "Whatever is called on an image, in whatever order and whatever raises in between (asking for PSFs of other shapes and losses, setting stamp_shape, giving it other catalogues, resetting its sources, filtering, coadding, closing it), a pixel of the interpolated image keeps the value the constructor gave it as long as it is in no stamp: no window of a shape that was asked for or set, or of the one the image started with, with three more cells on each side, around a source of the image or one that was given to it. The matched filter reads the same value there. The shape of the interpolated image never changes. Calls that need neither stamps nor PSF leave it as it is everywhere.", "quantifier": "every image the constructor makes, every finite history of calls with arbitrary arguments, every pixel in no stamp, every answer of the library calls", "why_tests_cant": "the histories and the catalogues are unbounded, and stamp_shape grows by six at every extraction, so a test cannot see that the enlarged shape is never used for the next one", "anchors": ["properimage/single_image.py:SingleImage.stamps_pos", "properimage/single_image.py:SingleImage.interped", "properimage/single_image.py:SingleImage.update_sources", "properimage/single_image.py:SingleImage.get_variable_psf", "properimage/single_image.py:SingleImage.s_hat_comp"]}
{"id": "C138", "title": "With strict picking, a star without a sky level fails one access, not all", "statement": "Of a SingleImage built with strict_star_pick=True, no two of whose stamps overlap, let n be the number of its sources whose stamp, inside the frame, has no pixel below its own 70th percentile, and let every other source be such that its stamp can be extracted twice in a row when it is the only one. Then the first n accesses to stamps_pos raise IndexError, and the next one, and every one after it, returns the positions of the stamps that a catalogue without those n sources would have given at the first access; the stored stamps are those too. (Each failed access has already written nan over the stamp that made it fail, so that the next access skips that star.)", "quantifier": "all images, catalogues and numbers of such sources, all results of the statistics and of the labelling that the criteria use, any number of accesses", "why_tests_cant": "Whether an access raises depends on how many were made before and on every star of the catalogue; a test sees one image and seldom repeats an access that raised.", "anchors": ["properimage/single_image.py:SingleImage.stamps_pos", "properimage/single_image.py:SingleImage.interped"]}
{"id": "C139", "title": "The Gaussian class answers as if its stamps were cut once, and filters what the cut left", "statement": "Let the catalogue of a SingleImageGaussPSF be extracted without an error from the interpolated image of its constructor. Then, after every sequence of calls that ask for no other catalogue or stamp shape (get_variable_psf may be given any shape, since this class ignores it), the attributes and the answers of get_variable_psf, normal_image, s_hat_comp and s_component are those of an image whose stamps are the ones of that one extraction and whose matched filter reads the interpolated image that it left; the interpolated image itself is the constructor's before the first call that needs stamps and that left-over image from then on. In particular, when the losses asked for are not negative, get_variable_psf always returns the Gaussian with the mean fitted widths and angle of these stamps, and each pixel of s_component is that left-over image seen through this Gaussian, times the zero point over the variance squared and over the square root of the number of pixels (when the Gaussian is symmetric about its centre, fits the image, and the answer is not the first component kept for a loss set again). And after every sequence of calls whatsoever, whichever of them raise, the pixels in no stamp of the shapes that were set, around the sources of the image and those given to it, are those of the constructor, also where the matched filter reads them; the shapes given to get_variable_psf do not count.", "quantifier": "all images, options, catalogues and fits, all sequences of calls without another catalogue or shape", "why_tests_cant": "The stamps are views of the image that later calls filter, and each method may or may not trigger the extraction; a test runs one order of calls on one image.", "anchors": ["properimage/single_image.py:SingleImageGaussPSF.get_variable_psf", "properimage/single_image.py:SingleImage.stamps_pos", "properimage/single_image.py:SingleImage.normal_image", "properimage/single_image.py:SingleImage.s_hat_comp", "properimage/single_image.py:SingleImage.s_component"]}
{"id": "C140", "title": "subtract on images that were used before reads one extraction of stamps per image, with the image it leaves", "statement": "Whatever was asked of the two images before, as long as no call gave a shape or a negative loss and the first extraction of stamps, if there was one, returned: when subtract returns, it has used of each image the masked data, the background variance, the PSF of one extraction of stamps, and the interpolated image as this extraction left it. The stamps are those of the sources found in the image if stamps had been asked for, and otherwise those of the sources that the matching of the two images left. Afterwards the interpolated image and its spectrum are those of the image left by that extraction. Two pairs of histories after which the images know the same sources, and in which stamps were asked for in the same images, give the same result or the same exception.", "quantifier": "all pixel arrays, options, flags of subtract and losses of at least 0; all histories of plain calls on both images of any length; all behaviours of the detection, the matching and the solvers", "why_tests_cant": "the histories are unbounded and the extraction changes the image in place, so that the result could depend on any earlier call", "anchors": ["properimage/operations.py:subtract", "properimage/utils.py:transparency", "properimage/single_image.py:SingleImage.stamps_pos", "properimage/single_image.py:SingleImage.update_sources", "properimage/single_image.py:SingleImage.get_variable_psf", "properimage/single_image.py:SingleImage.interped_hat"]}
{"id": "C141", "title": "coadd on images that were used before reads one extraction of stamps per image, with the image it leaves", "statement": "Let coadd be called on images that were used before, each in its own way, with calls that name no stamp shape, no sources and no negative loss and that neither assign the loss nor clean up, and let it return. Then it matches the sources that each image knows at that time, in the order of the images. For each image the PSF is made of one set of stamps cut from the image as it was built: those of the sources found in it if any call before asked for stamps, otherwise those of the sources as the matching left them. The filtered image is that of the image which this extraction left, not of the image before it, with the zero point of the matching and the normalisation that the history calls for. The result is the quotient of the sum of these filtered images and of the square root of the weighted sum of the squared PSFs, the PSF is the normalised transform of that root, and the mask is the union of the masks. One after the other, images whose stars give a PSF can always be coadded.", "quantifier": "all images of one shape that were built and whose stamps can be extracted, all histories of such calls on each, all losses that are not negative, all numbers of processes and schedules, all outcomes of the matching", "why_tests_cant": "what each image contributes depends on whether a stamp was ever read from it, and by then the pixels have been overwritten; tests coadd images that are new", "anchors": ["properimage/single_image.py:SingleImage.stamps_pos", "properimage/single_image.py:SingleImage.s_hat_comp", "properimage/single_image.py:SingleImage.update_sources", "properimage/operations.py:coadd", "properimage/utils.py:transparency"]}
{"id": "C142", "title": "the stamps of an image are cut once, however often it is subtracted or given other sources", "statement": "Let subtract be called on two images after any plain calls on each, let more plain calls, other sources given to either image and more subtractions of the two follow in any order, and let every subtraction return. Then the matching of each later subtraction is of the sources that the two images have by then, but the PSF and the interpolated image it uses of each are those of the stamps that were cut when stamps were first asked for, from the image as it was built: the sources found in the image if that was before the first subtraction, and otherwise those that the matching of the first subtraction left. The same holds of one image that is given other sources, or told to look for them again, after its PSF was first asked for: its PSF for every loss, the positions of its stamps and its pixels stay those of that extraction. Plain calls between two subtractions, other than looking for the sources again, change nothing of what the second returns or raises.", "quantifier": "all images that were built, all histories of plain calls before, and of plain calls and lists of sources between, all numbers of subtractions with any losses of at least 0 and any flags, all lists of sources given later, all behaviours of the detection, the matching and the solvers", "why_tests_cant": "the sequences are unbounded, and the catalogue of an image goes on changing while its stamps do not; tests subtract a pair once", "anchors": ["properimage/operations.py:subtract", "properimage/utils.py:transparency", "properimage/single_image.py:SingleImage.stamps_pos", "properimage/single_image.py:SingleImage.update_sources", "properimage/single_image.py:SingleImage.get_variable_psf"]}
