p("C76", "averaging a set of 12-bit files",
  "convert_set writes the pixelwise mean of the decoded 12-bit files to the requested file and touches no other file, even when interrupted; the result does not depend on the order of the list or of the worker processes.",
  "all lists of files, permutations and schedules", "All lists, contents and schedules.",
  ["micropolarray/processing/convert.py:convert_set", "micropolarray/processing/convert.py:nparr_from_binary"])
p("C77", "calibration with a flat field",
  "calculate_demodulation_tensor called with flat_filename should return a tensor whose calibration images were divided by the dark-subtracted flat field.",
  "all files, orientations, arguments and workers' completion orders", "All arguments and files; the failing branch needs a calibration series with a flat.",
  ["micropolarray/processing/demodulation.py:calculate_demodulation_tensor"])
p("C78", "removing outliers from a row of values",
  "remove_outliers_simple(data, neighbours) should replace an isolated outlier in an otherwise constant row by the value of its neighbours.",
  "all lengths, positions, values and window sizes of at least 2", "All rows; a statement about every position of the outlier.",
  ["micropolarray/processing/image_cleaning.py:remove_outliers_simple"])
p("C79", "rejecting outliers by median deviation",
  "reject_outliers(data, m) keeps, in order, exactly the values closer to the median than m times the median absolute deviation; a value far from all others should not be kept.",
  "all lists of values and all m > 0", "All lists; the exception needs a majority of equal values.",
  ["micropolarray/processing/image_cleaning.py:reject_outliers"])
p("C80", "a line from a centre along an angle",
  "linear_roi_from_polar(data, center, theta, r) should, for every centre pixel of the image and every angle, return pixels of the image that start at the centre, move at most one pixel per sample, follow the ray of that angle until it leaves the image or reaches the outer radius, together with the values of the image there; with an inner radius the samples should start there.",
  "all images, centres, angles and radii", "A continuum of angles; centres next to the border and inner radii beyond it are needed for the failures.",
  ["micropolarray/processing/linear_roi.py:linear_roi_from_polar", "micropolarray/processing/linear_roi.py:DDA"])
p("C81", "every demosaicing option works",
  "demosaic(data, option) should return four images of the size of the data for each option the code handles: 'mean', 'adjacent' and 'spline'.",
  "all images and options", "All images; no image can be demosaiced with one of the options.",
  ["micropolarray/processing/demosaic.py:demosaic"])
p("C82", "resampled images are consistent",
  "MicropolImage.congrid(y, x) should return an image whose Stokes parameters have the size its data call for (half the sides of a mosaic, all of it once demosaiced), as every other method does.",
  "all images, new sizes and histories of calls", "All reachable states of an image; depends on whether it was demosaiced before.",
  ["micropolarray/micropol_image.py:MicropolImage.congrid"])
p("C83", "a constructed image has data",
  "Image(x) and MicropolImage(x) should either return an image with two-dimensional data, whose height and width agree with it, or raise.",
  "all kinds of initialisers", "All kinds of arguments, other images included.",
  ["micropolarray/image.py:Image.__init__", "micropolarray/micropol_image.py:MicropolImage.__init__"])
p("C84", "superpixel calibration without a flat",
  "calculate_chen_wan_lian_calibration(orientations, files, phases, dir) with its default flat_filename=None should compute and write the calibration matrices.",
  "all files, orientations, phases and darks", "All arguments.",
  ["micropolarray/processing/chen_wan_liang_calibration.py:calculate_chen_wan_lian_calibration"])
p("C85", "superpixel calibration corrects the calibration images",
  "The matrices and offsets computed from the calibration images should map each of these images to what ideal micropolarizers would have recorded of its Stokes vector; in particular they should leave the images of an ideal sensor unchanged.",
  "all superpixels, orientations, pixel values and pseudo-inverses", "A statement about every superpixel and every series of orientations, in exact arithmetic.",
  ["micropolarray/processing/chen_wan_liang_calibration.py:calculate_chen_wan_lian_calibration", "micropolarray/processing/chen_wan_liang_calibration.py:_build_S_input"])
p("C86", "mean and standard deviation limits",
  "At most 1/n^2 of the values of an image lie outside [mean_minus_std(data, n), mean_plus_std(data, n)], the limits are symmetric around the mean and equal only for constant data (n > 0).",
  "all images and all n > 0", "All images; a counting bound.",
  ["micropolarray/utils.py:mean_minus_std", "micropolarray/utils.py:mean_plus_std"])
p("C87", "median and median deviation limits",
  "At least half of the values of an image lie in [median_minus_std(data), median_plus_std(data)], and the limits are symmetric around the median.",
  "all images", "All images; a counting bound.",
  ["micropolarray/utils.py:median_minus_std", "micropolarray/utils.py:median_plus_std"])
p("C88", "turning and flipping a demodulator",
  "Demodulator.rot90(k) and flip(axis) move every superpixel's matrix: four quarter turns and two flips restore the tensor, and demodulating the turned image with the turned demodulator should give the turned Stokes vector.",
  "all tensors, images and k", "All tensors and images; involves the order of the pixels in a superpixel.",
  ["micropolarray/processing/demodulation.py:Demodulator.rot90", "micropolarray/processing/demodulation.py:Demodulator.flip"])
p("C89", "binning a demodulator",
  "Demodulator.rebin(n) returns a demodulator whose matrices are the means of the n x n blocks of the matrices of the one it is called on, and raises ValueError if the binned sides would be odd.",
  "all tensors, binnings and states of the demodulator", "All tensors and the states reached by rot90 and flip.",
  ["micropolarray/processing/demodulation.py:Demodulator.rebin"])
p("C90", "occulter search by circles",
  "find_occulter_hough returns (y, x, r) of the only circle found for the first accumulator threshold 10, 15, 20, ... for which at most one is found, and raises if there is none.",
  "all images and all answers of the circle detector", "All sequences of answers of the detector.",
  ["micropolarray/processing/nrgf.py:find_occulter_hough"])
p("C91", "defaults of the radial filter",
  "nrgf(data, y, x) uses the given centre with minimum radius 0, and nrgf(data) the centre of the image, as documented.",
  "all images, centres and fits", "All images and outcomes of the occulter fits.",
  ["micropolarray/processing/nrgf.py:nrgf", "micropolarray/processing/nrgf.py:find_occulter_position"])
p("C92", "occulter search by fits",
  "If the four fits of find_occulter_position(data) return the distances of the image centre to a circle's edges along the four half axes, the result is the middle of the edges and half the mean opening, cut to integers.",
  "all images and fit results", "All images and fit results.",
  ["micropolarray/processing/nrgf.py:find_occulter_position"])
p("C93", "photometric units",
  "An image in units of get_Bsun_units does not depend on the exposure times of image and diffuser, and sigma_DN is the photon noise: its square times the gain is the signal.",
  "all rates, exposure times and signals", "All real values.",
  ["micropolarray/utils.py:get_Bsun_units", "micropolarray/utils.py:sigma_DN"])
p("C94", "output folders are created",
  "_make_abs_and_create_dir(name) should leave the folder of a file name, or the folder named, in existence, for every name.",
  "all names and file systems", "All names and states of the file system.",
  ["micropolarray/utils.py:_make_abs_and_create_dir"])
p("C95", "plotting the demosaiced images",
  "show_demo_images(vmin, vmax) of a demosaiced image draws the four demosaiced images, each titled with the angle of its position, between the given limits (by default mean -+ standard deviation).",
  "all demosaiced images, dictionaries and limits", "Quantifies over all images, dictionaries and limits.",
  ["micropolarray/micropol_image.py:MicropolImage.show_demo_images"])
p("C96", "plotting an image and its parameters",
  "show draws the image between its smallest and largest pixel or the given limits; show_pol_params draws I, Q, U, pB, AoLP, DoLP between mean -+ standard deviation, as show_pol_param does for one of them, and show_single_pol_images the sub-images of the orientations 0, 45, 90, -45.",
  "all images, Stokes vectors, limits and dictionaries", "Quantifies over all images and limits.",
  ["micropolarray/image.py:Image.show", "micropolarray/micropol_image.py:MicropolImage.show_pol_params", "micropolarray/micropol_image.py:MicropolImage.show_with_pol_params", "micropolarray/micropol_image.py:MicropolImage.show_pol_param", "micropolarray/micropol_image.py:MicropolImage.show_single_pol_images"])
p("C97", "histograms of an image and its pixel families",
  "show_histogram counts for each bin the pixels between its edges, all pixels if no range is given; the histograms of the four families drawn over it add up to it bin by bin.",
  "all images, numbers of bins and ranges", "A counting statement about all images and bins.",
  ["micropolarray/image.py:Image.show_histogram", "micropolarray/micropol_image.py:MicropolImage.show_histogram"])
p("C99", "saving an image as fits",
  "save_as_fits(name, fixto) stores the image, limited to fixto if given, under name (which must end in .fits), creating missing folders; other names are refused without a trace, and neither a call nor its interruption changes any other file or loses the image stored before.",
  "all names, images, limits, file systems and interruptions", "Quantifies over all file system states and crash points.",
  ["micropolarray/image.py:Image.save_as_fits", "micropolarray/utils.py:fix_data"])
p("C98", "covariance tensor and fit maps are read back",
  "Cij, tk, eff and phi of a Demodulator on the output folder of a calibration are the covariance tensor and the maps of transmittancy, efficiency and phase that were written, whatever the order in which the files are listed and whatever other files there are; a missing file is reported.",
  "all tensors, maps, sizes, listing orders and further files", "Quantifies over all folders and listing orders, which the operating system chooses.",
  ["micropolarray/processing/demodulation.py:Demodulator.Cij", "micropolarray/processing/demodulation.py:Demodulator.eff", "micropolarray/processing/demodulation.py:Demodulator.tk", "micropolarray/processing/demodulation.py:Demodulator.phi"])
p("C100", "from calibration images to Stokes parameters",
  "If the calibration images are what micropolarizers with given transmittancies, efficiencies and phases pass at three or more different orientations, then calculate_demodulation_tensor, its files, Demodulator and the demodulation of an image taken with the same micropolarizers give these parameters and the Stokes vector of the light.",
  "all sizes, parameters within the bounds, orientations, file orders, numbers of processes and Stokes vectors", "A statement about the whole chain for every camera and every scene; the fit is any that finds exact solutions.",
  ["micropolarray/processing/demodulation.py:calculate_demodulation_tensor", "micropolarray/processing/demodulation.py:Demodulator", "micropolarray/micropol_image.py:MicropolImage.demodulate"])
p("C101", "binary64 arithmetic on camera counts",
  "For images of integer counts the Stokes vector, demosaiced images, binned images and sums of files (means of a power of two of them) are computed in binary64 without any rounding error; pB is correctly rounded and DoLP has a relative error of at most 2^-51, on raw and on demosaiced images.",
  "all images of counts (16 bit and far beyond), sizes, angle dictionaries and binnings", "Floating-point claims for all images of all sizes.",
  ["micropolarray/micropol_image.py:MicropolImage._get_theo_Stokes_vec_components", "micropolarray/processing/demosaic.py:demosaic", "micropolarray/processing/rebin.py:micropolarray_rebin", "micropolarray/polarization_functions.py:pB", "micropolarray/polarization_functions.py:DoLP", "micropolarray/image.py:Image.__init__"])
p("C102", "masking the occulter of image objects",
  "After img.mask_occulter(y, x, r, overoccult, fill) the data, the demosaiced images and the Stokes vector of img are masked in one and the same place, and no other image has changed.",
  "all histories of calls, images, centres, radii and fill values", "Quantifies over all histories of calls, hence over all ways in which images share arrays.",
  ["micropolarray/micropol_image.py:MicropolImage.mask_occulter", "micropolarray/micropol_image.py:MicropolImage._import_image_parameters"])
p("C103", "rounding errors for any pixel values",
  "For an image of any finite binary64 numbers (dark-subtracted, flat-fielded, negative, tiny) Q and U are the binary64 numbers nearest to the exact differences; demosaiced images and I differ from the exact ones by at most 2^-50 of the same quantity for the absolute values, b x b binned images by at most b^2 2^-52 of it, Stokes parameters after binning and demosaicing by at most (b^2 + 8) 2^-51 of the intensity, up to underflow; nothing overflows.",
  "all images of finite binary64 numbers up to 2^1019, sizes, angle dictionaries, binnings and demosaicing options", "An error bound for all images of all sizes; tests compare a few values with a tolerance.",
  ["micropolarray/micropol_image.py:MicropolImage._get_theo_Stokes_vec_components", "micropolarray/processing/demosaic.py:demosaic", "micropolarray/processing/rebin.py:micropolarray_rebin"])
p("C104", "rounding errors of pB and DoLP",
  "For images of non-negative binary64 numbers, pB of a raw image has a relative error of at most 2^-51 and DoLP of at most 2^-49, however weak the polarization, and DoLP of dark pixels is exactly 0; after b x b binning and demosaicing pB is off by at most 3 (b^2 + 8) 2^-51 of the intensity and DoLP by at most 16 (b^2 + 8) 2^-51 wherever there is light.",
  "all images of pixels that are 0 or between 2^-400 and 2^400, sizes, angle dictionaries, binnings up to a million and demosaicing options", "Error bounds for all images; cancellation cases are invisible to random tests.",
  ["micropolarray/polarization_functions.py:pB", "micropolarray/polarization_functions.py:DoLP", "micropolarray/processing/demosaic.py:demosaic", "micropolarray/processing/rebin.py:micropolarray_rebin"])
p("C105", "rounding errors of demodulation and of means of files",
  "Stokes parameters from demodulating a raw image with any finite tensor differ from the exact matrix product by at most 2^-50 of the product of the absolute values, with demosaicing 2^-49; sums and means of n files differ from the exact ones by at most n 2^-52 of the sum or mean of the absolute values, up to underflow; nothing overflows.",
  "all tensors and images of finite binary64 numbers within wide bounds, sizes, flags, and all lists of up to 2^52 files", "Error bounds for all images, tensors and numbers of files.",
  ["micropolarray/micropol_image.py:MicropolImage.demodulate", "micropolarray/processing/demodulation.py:Demodulator", "micropolarray/image.py:Image.__init__"])
p("C106", "Stokes parameters of demosaiced images",
  "The Stokes parameters computed after demosaicing with option \"adjacent\" are those of the raw image interpolated to full size: equal at even rows and columns, averages of the two or four nearest superpixels elsewhere, repeated beyond the last. With option \"mean\" they are a quarter of those of the pixel's superpixel, and DoLP and AoLP equal those of the superpixel.",
  "all even-sided images, sizes, pixel values and arrangements of the four polarizers (exact arithmetic)", "Holds for every image and pixel; samples of pixels do not show the general relation.",
  ["micropolarray/processing/demosaic.py:demosaic", "micropolarray/micropol_image.py:MicropolImage._get_theo_Stokes_vec_components"])
p("C107", "averaging does not raise the degree of polarization",
  "For images of counts, no pixel of a demosaiced (option \"adjacent\"), binned or averaged or summed image has a DoLP above the largest DoLP of the superpixels it is made of, and its pB is at most the corresponding mean or sum of theirs.",
  "all even-sided non-negative images, binning factors, and lists of two or more files (exact arithmetic)", "An inequality over all images; a counterexample search cannot establish it.",
  ["micropolarray/processing/demosaic.py:demosaic", "micropolarray/processing/rebin.py:micropolarray_rebin", "micropolarray/image.py:Image.__init__", "micropolarray/polarization_functions.py:DoLP"])
p("C108", "the radial filter removes radial profiles",
  "Multiplying every ring of an image by its own positive gain, adding its own offset, and changing anything outside the rings does not change the output of nrgf; filtering the output again with the same sector for mean and output leaves it as it is.",
  "all images, centres, starting radii, positive steps, sectors, gains and offsets of the rings (exact arithmetic)", "Quantifies over every radial profile and image.",
  ["micropolarray/processing/nrgf.py:nrgf"])

p("C109", "derived images keep keywords and file name",
  "An image made from another one (constructor applied to an image, demodulate, rebin, congrid, rotate, shift, clean_hot_pixels, + - * /) should have the header keywords of that image, except for the sizes, and its filename.",
  "every program of such calls, every image", "Objects share headers along unbounded programs.",
  ["micropolarray/image.py:Image.__init__", "micropolarray/image.py:Image.shift", "micropolarray/image.py:Image.rebin", "micropolarray/micropol_image.py:MicropolImage._import_image_parameters", "micropolarray/micropol_image.py:MicropolImage.__add__"])
p("C110", "headers of different images are independent",
  "Setting a keyword in the header of one image should leave the headers of all other images unchanged.",
  "every program, every pair of images, every keyword", "Aliasing shows only along programs with several images.",
  ["micropolarray/micropol_image.py:MicropolImage._import_image_parameters", "micropolarray/micropol_image.py:MicropolImage.__add__", "micropolarray/image.py:Image.data"])
p("C111", "a demodulator is read from the folder it is given",
  "Demodulator(path), for a folder into which a calibration was written, contains the matrices and the flags of that calibration, whatever other folders exist.",
  "every file system, every path, every calibration", "The folder names and the rest of the file system are unbounded; tests use harmless names.",
  ["micropolarray/processing/demodulation.py:Demodulator.__init__", "micropolarray/processing/demodulation.py:Demodulator._get_demodulation_tensor"])
p("C112", "the goodness-of-fit map is the reduced chi-square",
  "For every fitted pixel the map reduced_chisquare written by the calibration is the sum of the squared deviations of the samples from the fitted curve in units of their errors, divided by the number of images less the three fitted parameters; the errors are the photon noise of the samples.",
  "every series of images, every answer of the fit", "A formula over all samples and errors; the value looks plausible whatever is computed.",
  ["micropolarray/processing/demodulation.py:compute_demodulation_by_chunk", "micropolarray/processing/demodulation.py:calculate_demodulation_tensor"])
p("C113", "errors of pB, DoLP and AoLP are those the pixels cause",
  "For an image demodulated from pixels with independent errors, sigma_pB, sigma_DoLP and sigma_AoLP of MicropolImageError are, to first order, the errors of pB, DoLP and AoLP as functions of the four pixels of the superpixel.",
  "every image, every error image, every demodulation tensor (exact arithmetic, where the functions are differentiable)", "Compares with derivatives of the whole computation; a test has nothing to compare the numbers with.",
  ["micropolarray/processing/demodulation_errors.py:MicropolImageError", "micropolarray/processing/demodulation_errors.py:get_error_on_pB", "micropolarray/processing/demodulation_errors.py:get_error_on_DoLP", "micropolarray/processing/demodulation_errors.py:get_error_on_AoLP", "micropolarray/micropol_image.py:MicropolImage.demodulate"])
p("C114", "images of integers are treated like images of floats",
  "Images made from arrays of integers: the Stokes parameters of a + b and a - b are the sums and differences of those of a and b, pixels of a * b are products; chen_wan_liang_calibration gives what it gives for the same array of floats.",
  "every integer type, every pair of images of the same size and type, every arrangement of the polarizers; every set of calibration matrices", "Overflow needs particular pixel values; tests use floats or small numbers.",
  ["micropolarray/micropol_image.py:MicropolImage.__add__", "micropolarray/micropol_image.py:MicropolImage.__sub__", "micropolarray/micropol_image.py:MicropolImage.__mul__", "micropolarray/image.py:Image._init_image_from_data", "micropolarray/processing/chen_wan_liang_calibration.py:chen_wan_liang_calibration"])

p("C115", "plotting a demodulation tensor",
  "Demodulator.show draws the map of matrix element (i, j) in row i and column j of a grid of 3 by 4 panels, with the given limits and the indices in the title, and returns the figure and the array of the twelve axes, as matplotlib.pyplot.subplots does.",
  "for all demodulation tensors and limits",
  "Nobody compares what a figure contains with the matrices; that the returned axes are those of the last panel only shows up when a caller indexes them.",
  ["micropolarray/processing/demodulation.py:195-229"])
p("C116", "small errors of the calibration and of the pixels cause small errors of the Stokes parameters",
  "If throughput, efficiency and orientation that a calibration wrote for the micropolarizers of a superpixel differ from the true ones by at most dt, de and df, and the pixels from the true signal by at most n, then demodulating gives I, Q and U up to 400 ((dt + de/2 + df) I + n) wherever the fit is flagged as successful; in general up to the sum of the absolute values of a row of the demodulation matrix instead of 400.",
  "for all calibrations, images, light with a degree of polarization of at most 1, and errors",
  "A test checks single perturbations; the bound depends on all matrix elements being checked to lie within -100 and 100 before the fit is flagged.",
  ["micropolarray/processing/demodulation.py:761-1068", "micropolarray/micropol_image.py:238-330"])

p("C117", "binning and demodulating can be exchanged",
  "Demodulating the binned image with the binned demodulator gives, for each bin, the sums of the Stokes parameters that demodulating the image with the demodulator gives for the superpixels of the bin.",
  "for all demodulators, images and binnings (exact arithmetic)",
  "Two orders of long computations are compared; with random matrices the difference looks like a calibration error.",
  ["micropolarray/processing/demodulation.py:231-255", "micropolarray/processing/rebin.py:micropolarray_rebin", "micropolarray/micropol_image.py:238-330"])
p("C118", "errors of pB, AoLP and DoLP are bounded by those of I, Q and U",
  "If (Q, U) is off by e, pB is off by at most e, AoLP by at most asin(e / pB) / 2 up to multiples of pi if e < pB, and DoLP by at most (e + DoLP f) / I if I is off by f. In particular AoLP computed in floating point from a raw image is off by at most 2^-52 plus half of the error of arctan2, however small the polarization is.",
  "for all Stokes parameters and errors; for all images of finite binary64 numbers up to 2^1019, all arrangements of the polarizers and all functions arctan2 with a bounded error",
  "Sampling does not find the worst direction of an error, and the comparison needs exact arctangents.",
  ["micropolarray/polarization_functions.py:AoLP", "micropolarray/polarization_functions.py:pB", "micropolarray/polarization_functions.py:DoLP"])

p("C119", "a pixel influences its neighbourhood only",
  "The polarization parameters of a superpixel depend on its four pixels only, also after binning (on the pixels of the bin) and with a demodulator; those of a pixel of a binned and demosaiced image depend on its bin and the next bins below and to the right; a pixel of an IFOV-corrected image depends on the pixel, those two rows above and two columns to the left. So a pixel that is not a number spoils these results only.",
  "for all images that differ outside of the named pixels, in any number type, so also if the other pixels are not numbers",
  "A test compares results for a few images; here two arbitrary images that agree on a few pixels are compared.",
  ["micropolarray/processing/demosaic.py:demosaic", "micropolarray/processing/rebin.py:micropolarray_rebin", "micropolarray/micropol_image.py:238-330", "micropolarray/processing/chen_wan_liang_calibration.py:_ifov_jitcorrect"])
p("C120", "normalize2piarray returns for every array of floating-point angles",
  "normalize2piarray returns, for every array of binary64 numbers, an array of the same shape whose elements lie in (-pi/2, pi/2] and differ from the given ones by a multiple of pi, up to rounding of the subtractions; elements in the range and those that are not numbers are unchanged.",
  "for all arrays of binary64 numbers",
  "Only angles above 2^55 rad make the loop endless, and a test that hangs gives no result.",
  ["micropolarray/utils.py:normalize2piarray"])

p("C121", "from an exposure, a dark and a flat image to the polarization of the light",
  "If the pixels of an image are those of the dark image plus the sensitivity of the pixel times the light behind its micropolarizer, up to some noise, and the flat image shows the sensitivities, then subtract_dark, correct_flat and demodulate give the Stokes parameters of the light times the mean sensitivity, and AoLP and DoLP of the light, up to explicit bounds made of the noise, the lowest sensitivity, the row sums of the demodulation matrix and the errors of the calibration.",
  "for all images, dark signals, positive sensitivities, demodulators, micropolarizers close to the calibrated ones and light with a degree of polarization of at most 1",
  "The true light is unknown for real images, and simulated ones cover few sensitivities; the worst case of several errors together is not found by sampling.",
  ["micropolarray/micropol_image.py:MicropolImage.subtract_dark", "micropolarray/micropol_image.py:MicropolImage.correct_flat", "micropolarray/micropol_image.py:MicropolImage.demodulate", "micropolarray/polarization_functions.py:AoLP", "micropolarray/polarization_functions.py:DoLP"])
p("C122", "resampling keeps gradients, loses nothing on refined grids and does not raise polarization",
  "congrid is linear in the image and keeps linear gradients. Resampling a grid of n samples to c (n - 1) + 1 samples loses nothing: resampling further gives what resampling the image directly gives, and going back returns the image. The Stokes parameters of the data of a resampled MicropolImage are interpolated from those of the image at corresponding positions; pB is at most the interpolated pB and DoLP at most the largest DoLP of the image.",
  "for all images and sizes of at least 2 samples per side (exact arithmetic)",
  "A round trip through a larger size that is not a refinement does lose detail, so a test tolerates differences.",
  ["micropolarray/processing/congrid.py:congrid", "micropolarray/micropol_image.py:MicropolImage.congrid"])
p("C123", "dark and flat correction in floating point",
  "subtract_dark gives, for every pixel, the binary64 number nearest to max(data - dark, 0), without any rounding for camera counts, and leaves pixels that are not numbers as such. correct_flat gives data * mean / flat with a relative error of at most 2^-51 plus that of the computed mean, changes nothing if the flat is uniform, and leaves pixels that are not numbers as such.",
  "for all images of binary64 numbers of shape equal to that of the dark or flat; flats and means between 2^-300 and 2^300; all means np.mean may return",
  "Tests use counts, for which there is no rounding, and no pixels that are not numbers.",
  ["micropolarray/micropol_image.py:MicropolImage.subtract_dark", "micropolarray/micropol_image.py:MicropolImage.correct_flat"])
p("C124", "which corrections can be exchanged",
  "Two shifts in the same direction are one shift by the sum; shifting back restores the pixels that stayed inside the image and no others. Shifting can be exchanged with computing the Stokes parameters, and with binning if the shift is a multiple of the bin and bins cover the image. Binning an image after subtract_dark never gives less than subtracting the binned dark from the binned image; the two agree where all pixels of the bin are at least their dark, and differ where some are above and others below. Two flats can be applied in either order, and the scale of a flat has no effect.",
  "for all images, darks, flats, shifts, fill values and binnings (exact arithmetic; shifts in any type of numbers)",
  "A test compares two orders for a few images; the difference for noisy darks is hidden in the noise although it adds up to a bias.",
  ["micropolarray/processing/shift.py:shift_micropol", "micropolarray/processing/rebin.py:micropolarray_rebin", "micropolarray/micropol_image.py:MicropolImage.subtract_dark", "micropolarray/micropol_image.py:MicropolImage.correct_flat"])
p("C125", "results do not depend on how the sensor is mounted and how angles are counted",
  "Exchanging rows and columns of an image and of the arrangement of its polarizers exchanges rows and columns of the Stokes parameters, of the binned image and of the demosaiced images. The same holds for turning them upside down. If all polarizers are said to be turned by 45 degrees, AoLP changes by 45 degrees, and if all angles are counted the other way round, AoLP changes its sign; I, pB and DoLP stay the same.",
  "for all images, arrangements and binnings (exact arithmetic)",
  "A test image is often symmetric itself, or it is only checked for one orientation.",
  ["micropolarray/micropol_image.py:MicropolImage._get_theo_Stokes_vec_components", "micropolarray/processing/demosaic.py:demosaic", "micropolarray/processing/rebin.py:micropolarray_rebin", "micropolarray/polarization_functions.py:AoLP"])
p("C126", "demodulation is the least-squares fit to the four pixels",
  "The Stokes parameters that demodulate gives for a superpixel are the only light for which the squared differences between the four pixels and what the calibrated micropolarizers would record are smallest; without a demodulator, the same holds for ideal micropolarizers. So if all orientations of the calibration are off by an angle, AoLP is off by this angle and I, pB and DoLP stay the same, and if all throughputs are off by a factor, AoLP and DoLP stay the same, also for noisy pixels.",
  "for all images, and all demodulators of pseudo-inverse matrices of full rank (exact arithmetic)",
  "Tests use pixels that some light explains exactly; for noisy pixels the best explanation is not known.",
  ["micropolarray/micropol_image.py:MicropolImage._get_Stokes_from_demodulator", "micropolarray/micropol_image.py:MicropolImage._get_theo_Stokes_vec_components", "micropolarray/processing/demodulation.py:compute_demodulation_by_chunk"])
p("C127", "from camera counts to Stokes parameters in floating point",
  "Whatever the order in which np.mean adds the pixels of a positive flat, the mean is correct up to one rounding for each level of additions and one for the division. For counts as cameras deliver them, subtract_dark followed by correct_flat gives each pixel up to the error of this mean and two more roundings, and demodulation gives Stokes parameters up to a few roundings of the sum of absolute values. Behind ideal micropolarizers the Stokes parameters are those of the light times the mean sensitivity, up to the noise of the pixels and these roundings; nothing overflows.",
  "for all images and darks of counts below 2^53, all flats of ordinary numbers, all orders of addition and all demodulators of moderate entries (binary64)",
  "A test compares with the same library on the same machine, which adds in the same order.",
  ["micropolarray/micropol_image.py:MicropolImage.subtract_dark", "micropolarray/micropol_image.py:MicropolImage.correct_flat", "micropolarray/micropol_image.py:MicropolImage._get_Stokes_from_demodulator", "micropolarray/micropol_image.py:MicropolImage._get_theo_Stokes_vec_components"])
p("C128", "cuts and limits follow a change of units",
  "If pixel values are expressed in other units (multiplied by a positive factor, and an offset added), reject_outliers keeps and remove_outliers_simple replaces the same values, the limits mean_plus_std, median_minus_std and so on are the same limits in the new units, and so is the threshold of auto_threshold.",
  "for all values, factors and offsets, and all filters that do not depend on units (exact arithmetic)",
  "Tests use raw counts; the same code is applied to calibrated images in units of the solar brightness.",
  ["micropolarray/processing/image_cleaning.py:reject_outliers", "micropolarray/processing/image_cleaning.py:remove_outliers_simple", "micropolarray/processing/image_cleaning.py:auto_threshold", "micropolarray/utils.py:mean_plus_std", "micropolarray/utils.py:median_minus_std"])
p("C129", "Stokes parameters amplify equal pixel noise least",
  "Changing one pixel of a superpixel changes I, Q and U by the change times the entries of the demodulation matrix. Among all weights of the four pixels that give I, Q or U without bias for the calibrated micropolarizers, these have the smallest variance if the pixels have independent noise of equal variance, and they are the only ones. The same holds for the Stokes parameters computed without a demodulator and ideal micropolarizers, where the variance of I is that of a pixel and those of Q and U are twice as large.",
  "for all images and all demodulators of pseudo-inverse matrices of full rank (exact arithmetic)",
  "Needs a comparison with every other estimator.",
  ["micropolarray/micropol_image.py:MicropolImage._get_Stokes_from_demodulator", "micropolarray/micropol_image.py:MicropolImage._get_theo_Stokes_vec_components", "micropolarray/processing/demodulation.py:compute_demodulation_by_chunk"])
p("C130", "the radial filter reaches every pixel beyond its inner radius",
  "Every pixel of the output sector farther than rho_min from the centre is replaced by its deviation from the mean of its ring in units of the standard deviation of the ring.",
  "for all images, centres, inner radii, steps and sectors (exact arithmetic)",
  "The pixels left out are at the rim, where test images are dark.",
  ["micropolarray/processing/nrgf.py:nrgf", "micropolarray/processing/nrgf.py:map_polar_coordinates"])
p("C131", "masks and filters do not depend on earlier calls",
  "map_polar_coordinates remembers its results (lru_cache). Nevertheless roi_from_polar and nrgf give, after any sequence of calls with any arguments, what they give in a fresh interpreter; at most 128 maps of coordinates are kept.",
  "for all sequences of calls and all arguments (exact arithmetic)",
  "Depends on the order of calls in one process; tests usually start afresh.",
  ["micropolarray/processing/nrgf.py:map_polar_coordinates", "micropolarray/processing/nrgf.py:roi_from_polar", "micropolarray/processing/nrgf.py:nrgf"])
p("C132", "the radial filter in floating point",
  "Rounding of distances moves no pixel to another ring. For counts as cameras deliver them, and whatever the order in which np.mean and np.std add pixels, nrgf gives each pixel its deviation from the mean of the ring in units of the standard deviation, up to a few roundings times the contrast of the ring; a ring of equal pixels gives 0.",
  "for all images, centres, rings and orders of addition (binary64)",
  "A test compares with the same library on the same machine; uniform rings are tested with integers.",
  ["micropolarray/processing/nrgf.py:nrgf", "micropolarray/processing/nrgf.py:map_polar_coordinates"])
p("C133", "writing pixels of one image changes no other image",
  "After any calls of the package and any assignments image.data[y, x] = v, such an assignment changes the pixels and parameters of no other image (images returned by methods are documented as copies), and the parameters of the image itself follow.",
  "for all sequences of calls and assignments, all images, positions and values",
  "Depends on which images share memory after a sequence of calls; tests look at returned images only.",
  ["micropolarray/image.py:Image.data", "micropolarray/micropol_image.py:MicropolImage._import_image_parameters", "micropolarray/micropol_image.py:MicropolImage.demodulate"])

p("C134", "missing pixels stay missing",
  "A pixel that is not a number makes every result computed from it not a number (Stokes and polarization parameters of its superpixel, the bin it falls into, its demosaiced superpixel, corrected pixels), and no other result.",
  "for all binary64 images, arrangements, demodulation matrices, bin sizes, positions and orders of addition",
  "A test shows one pixel of one image; a missing value that turns into an ordinary number is invisible afterwards.",
  ["micropolarray/micropol_image.py:MicropolImage._get_theo_Stokes_vec_components", "micropolarray/processing/rebin.py:micropolarray_rebin", "micropolarray/processing/demosaic.py:demosaic", "micropolarray/micropol_image.py:MicropolImage.correct_flat", "micropolarray/micropol_image.py:MicropolImage.correct_ifov", "micropolarray/processing/nrgf.py:nrgf"])

p("C135", "lines of pixels follow the symmetries of the image",
  "The line of pixels between two points exchanged, moved, mirrored or transposed together with the image has the same pixels (in reverse order for exchanged points) and reads the same values.",
  "for all images, pairs of points and displacements",
  "A test compares a few lines; which of two neighbouring pixels is taken depends on the direction and on accumulated rounding.",
  ["micropolarray/processing/linear_roi.py:DDA", "micropolarray/processing/linear_roi.py:linear_roi", "micropolarray/processing/linear_roi.py:bresenham"])

p("C136", "corrections made in two steps",
  "Two shifts are one shift by the sum, two dark subtractions one by the sum of the darks, two flat corrections one by the product up to a common factor, two masks one by the intersection in either order, and a clamp or mask made twice is made once.",
  "for all images, displacements, darks, flats, limits, regions and fill values",
  "Pipelines apply corrections in stages; tests look at one stage.",
  ["micropolarray/processing/shift.py:shift", "micropolarray/processing/shift.py:shift_micropol", "micropolarray/micropol_image.py:MicropolImage.subtract_dark", "micropolarray/micropol_image.py:MicropolImage.correct_flat", "micropolarray/utils.py:fix_data", "micropolarray/processing/nrgf.py:roi_from_polar"])

p("C137", "from the bytes of a raw file to the polarization",
  "For a raw frame of the camera, I, Q and U computed from it are without any rounding error half the sum and the differences of the counts stored in the file, pB is the floating-point number nearest to the polarized intensity and DoLP is correct up to 2^-51 (0 where nothing was counted). If the counts are those of some light behind ideal micropolarizers up to e (1/2 for rounding to whole counts), I, Q and U are those of the light up to 2e and pB up to 3e and one rounding.",
  "for all contents of 12-bit files of 1952 x 1952 pixels and 16-bit files of any even size, all schedules of the parallel reader and all arrangements of micropolarizers (binary64)",
  "Tests check decoding and polarization separately, with few frames and a tolerance.",
  ["micropolarray/processing/convert.py:nparr_from_binary", "micropolarray/processing/convert.py:three_bytes_to_two_ints", "micropolarray/micropol_image.py:MicropolImage._get_theo_Stokes_vec_components", "micropolarray/polarization_functions.py:pB", "micropolarray/polarization_functions.py:DoLP"])

p("C138", "resampling in floating point",
  "congrid computes every pixel up to a few roundings for each sample of a row and column (less than a millionth of a count for 16-bit camera frames), a grid 2^k times as fine without any error for counts, and no pixel outside the range of the samples.",
  "for all binary64 images up to 2^26 pixels a side, all new sizes and values up to 2^998",
  "Positions are rounded, so a pixel may use another pair of samples than in exact arithmetic; tests use a tolerance and small images.",
  ["micropolarray/processing/congrid.py:congrid", "micropolarray/micropol_image.py:MicropolImage.congrid"])

p("C139", "a saved image can be loaded again",
  "After image.save_as_fits(name), MicropolImage(name) is an image with the same pixels, sizes, polarization parameters, orientations and flags, and no image in use is changed by it.",
  "for all images reachable by any calls, all valid names and states of the file system, all dictionaries of orientations",
  "A test saves one freshly made image; images with a history of corrections, demodulation or their own orientations behave differently.",
  ["micropolarray/image.py:Image.save_as_fits", "micropolarray/image.py:Image._init_image_from_file", "micropolarray/micropol_image.py:MicropolImage.__init__"])

p("C140", "arithmetic expressions with images are evaluated for each pixel",
  "An expression of images, arrays and numbers with +, -, * and / gives an image whose pixels are the values of the expression for each pixel, whichever operand stands on the left, also with Python's sum; images that cannot be combined raise an error.",
  "for all expressions, all images and arrays of one even size, all dictionaries of orientations, as long as no divisor is zero",
  "Tests try single operators with the image on the left; the operand order, classes and nesting are unbounded.",
  ["micropolarray/image.py:Image.__add__", "micropolarray/image.py:Image.__truediv__", "micropolarray/micropol_image.py:MicropolImage.__add__", "micropolarray/micropol_image.py:MicropolImage.__truediv__"])

p("C141", "propagated errors in floating point",
  "MicropolImageError computes the errors of I, Q, U, pB, DoLP and AoLP from the errors of the pixels with a relative error below 2^-48, wherever these errors are defined: no digits are lost by cancellation.",
  "for all Stokes parameters, pixel errors and demodulation matrices of binary64 numbers that are zero or of ordinary size (2^-15 to 2^15 for matrices and pixel errors, 2^-60 to 2^60 for Stokes parameters)",
  "Tests compare a few values up to a tolerance; cancellation shows for special combinations of values only.",
  ["micropolarray/processing/demodulation_errors.py:MicropolImageError", "micropolarray/processing/demodulation_errors.py:get_error_on_Stokes", "micropolarray/processing/demodulation_errors.py:get_error_on_DoLP", "micropolarray/processing/demodulation_errors.py:get_error_on_AoLP"])

p("C142", "images of different integer types",
  "The sum, difference and product of two integer images of any types, or of an integer image and a whole number, have a type with room for both operands and pixels that are the exact results; image - k is image + (-k).",
  "for all pairs of the eight integer types, all images and all numbers of at most 64 bits",
  "Raw files give uint16, saved and reloaded ones int16 or int32; tests use floats or one type and small values.",
  ["micropolarray/micropol_image.py:MicropolImage.__add__", "micropolarray/micropol_image.py:MicropolImage.__sub__", "micropolarray/micropol_image.py:MicropolImage.__mul__", "micropolarray/micropol_image.py:MicropolImage.__truediv__", "micropolarray/image.py:Image.__sub__"])

p("C143", "Sectors selected in floating point hold the pixels of the sector",
  "roi_from_polar with whole centre and radii computes directions in binary64. If np.arctan2 is within one unit in the last place and exact to rounding in the eight principal directions, every computed direction is within 2^-42 degrees of the true one and in [0, 360); with bounds that are multiples of 30 or 45 degrees the selected pixels are exactly those of the sector, pixel by pixel or superpixel by superpixel; with any other bounds only pixels within 2^-42 degrees of a bound can be decided otherwise; with [0, 360] the distance alone decides; the bounds may be any angles modulo 360 (so [-45, 45] is the sector around the horizontal).",
  "all images up to 2^21 pixels a side, centres, radii below 2^25, binary64 bounds and every arctan2 with the stated accuracy",
  "A test looks at some directions; whether one of the directions of whole numbers falls on the wrong side of a bound after rounding depends on how near such directions come to the bound.",
  ["micropolarray/processing/nrgf.py:36-81", "micropolarray/processing/nrgf.py:92-103"])
p("C144", "IFOV correction and superpixel calibration keep to rounding errors in floating point",
  "ifov_jitcorrect in binary64 gives the exact mean of the four pixels for images of counts, exactly the common value wherever the four pixels are equal (any binary64 number), and otherwise a mean wrong by at most 2^-50 of the mean of the absolute values. chen_wan_liang_calibration gives the exactly calibrated pixels to within 2^-48 of the sum of the absolute values of the terms, exactly for counts and matrices of few digits, and exactly the IFOV correction for identity matrices and zero offsets.",
  "all even-sided binary64 images up to 2^1000 (calibration: up to 2^900), offsets and matrices",
  "A test compares some images with a tolerance; that three additions of rounded sums give back a number bit by bit, and how errors of nine operations add up, concerns all binary64 numbers.",
  ["micropolarray/processing/chen_wan_liang_calibration.py:ifov_jitcorrect", "micropolarray/processing/chen_wan_liang_calibration.py:chen_wan_liang_calibration"])
p("C145", "The radial filter over sectors keeps to rounding errors in floating point",
  "nrgf with a centre, a smallest radius and a step that are whole numbers and with sectors for mean and output bounded by multiples of 30 or 45 degrees gives, for images of counts, at every pixel of the output sector its deviation from the mean over the mean sector of its exact ring divided by the standard deviation there, with an error below ((4 top + 8) n + 24) 2^-53 (1 + |z|) for n pixels of at most top counts; exactly 0 where the mean sector of the ring is uniform or empty, outside the output sector and outside the rings; the rings end at the whole number below the distance of the farthest pixel. Whether the pixel itself lies in the mean sector does not matter. An image without pixels and a step of 0 raise ValueError, a negative step gives zeros.",
  "all images of counts with at most 2^40 pixels and 2^50 counts, all centres, radii, steps, all orders in which numpy adds the pixels, every arctan2 with the accuracy of C143",
  "A test filters some images; which pixels join a mean after rounding of distances and directions, and in which order numpy adds them, varies with size and processor.",
  ["micropolarray/processing/nrgf.py:nrgf", "micropolarray/processing/nrgf.py:map_polar_coordinates"])

p("C146", "resampling without interpolation picks existing pixels",
  'congrid(a, newdims, kind=...) with kind "nearest", "nearest-up", "previous" or "next" returns pixels of the image only: the nearest one, the last one before or the first one after the exact position, in the same order, all of them when the size does not change, and corners in corners.',
  "for all binary64 images up to 2^26 pixels a side, all new sizes and all four kinds",
  "Whether the rounded position of a pixel passes a sample depends on the two sizes; tests try a few sizes, mostly with kind=\"linear\".",
  ["micropolarray/processing/congrid.py:congrid"])

p("C147", "resampling arrays of any number of dimensions",
  "congrid(a, newdims) returns an array of shape newdims whose elements interpolate those of a along every axis (or are samples of a, for the other kinds), within the range of a, and a itself for its own shape; shapes that do not fit are refused.",
  "for all arrays of any number of axes, all new sizes and kinds of resampling",
  "The loop over axes turns the array around once per axis; tests use images, where two turns are none, so an error in the order of axes or of sizes shows only from three axes on.",
  ["micropolarray/processing/congrid.py:congrid"])

p("C148", "from camera counts to polarization in floating point",
  "pB, DoLP and AoLP computed in floating point from images of counts corrected for dark and flat differ from those of the exact pipeline, and behind ideal micropolarizers from those of the light, by the errors of the Stokes parameters and a few roundings: pB by at most the errors of Q and U and 2^-50 of itself; DoLP, where there is light, by three times the errors of pB and of the intensity relative to the intensity; AoLP, where pB exceeds the errors of Q and U, by half the error of np.arctan2 and half the arcsine of those errors over pB, up to half turns. The gain of the sensor cancels from DoLP and AoLP.",
  "for all images and darks of counts below 2^53, all flats of ordinary numbers, all demodulators of moderate entries, all library functions arctan2 of stated accuracy (binary64)",
  "A test compares a few images with a fixed tolerance; near zero polarization no fixed tolerance of the angle holds.",
  ["micropolarray/polarization_functions.py:AoLP", "micropolarray/polarization_functions.py:DoLP", "micropolarray/polarization_functions.py:pB", "micropolarray/micropol_image.py:MicropolImage.subtract_dark", "micropolarray/micropol_image.py:MicropolImage.correct_flat", "micropolarray/micropol_image.py:MicropolImage._get_Stokes_from_demodulator", "micropolarray/micropol_image.py:MicropolImage._get_theo_Stokes_vec_components"])

p("C149", "a debugging run of the calibration shows the fits and writes nothing",
  "calculate_demodulation_tensor(DEBUG=True) shows, for every superpixel of a window that the occulter leaves free, its measured points and the Malus curves fitted to them, then exits without writing or replacing a file of an earlier calibration.",
  "for all series of images, occulters and outcomes of the fits",
  "Figures are looked at, not tested; whether a curve belongs to the points beside it shows only at superpixels where a fit failed.",
  ["micropolarray/processing/demodulation.py:calculate_demodulation_tensor", "micropolarray/processing/demodulation.py:compute_demodulation_by_chunk"])

p("C150", "from camera counts through a calibration to the light, in floating point",
  "Stokes parameters that a calibrated Demodulator computes in floating point from counts corrected for dark and flat differ from those of the light, times the gain, by at most: the sum of the absolute values of the row of the matrix times (the errors dt + de/2 + df of the calibrated micropolarizers times the intensity, the relative noise, and the relative roundings), plus 3 dl times the intensity, where dl is how far the matrix times the modulation of the micropolarizers is from the identity (at most twice the error of an entry of the pseudo-inverse). pB, DoLP and AoLP follow as in C148, and the gain cancels from DoLP and AoLP.",
  "for all images and darks of counts below 2^53, flats, gains, noises, micropolarizers, matrices of moderate binary64 entries and light that is no more polarized than it is bright",
  "A test compares one calibration with one tolerance; it cannot tell errors of the matrix, the micropolarizers, the noise and the roundings apart, nor say how they add up for other instruments.",
  ["micropolarray/micropol_image.py:MicropolImage.subtract_dark", "micropolarray/micropol_image.py:MicropolImage.correct_flat", "micropolarray/micropol_image.py:MicropolImage._get_Stokes_from_demodulator", "micropolarray/polarization_functions.py:AoLP", "micropolarray/polarization_functions.py:DoLP", "micropolarray/polarization_functions.py:pB"])

p("C151", "masks of truth values, and integers together with floats",
  "Multiplying an image by a mask of truth values keeps the pixels that are shown, bit by bit and in their type, and gives zeros elsewhere; masks are united by + and intersected by *; hiding twice is hiding once with the product of the masks; Stokes parameters of superpixels that are shown do not change. Sums, differences and products of integer and float images are those of the numbers, rounded once, and a float number added to, subtracted from or multiplied with an unsigned image never wraps around.",
  "for all images of integers of every width or of binary64 numbers, all masks and numbers",
  "The type of a result follows from a table of types, not from values; tests use floats or one integer type and no missing pixels.",
  ["micropolarray/micropol_image.py:MicropolImage.__mul__", "micropolarray/micropol_image.py:MicropolImage.__add__", "micropolarray/micropol_image.py:MicropolImage.__sub__", "micropolarray/image.py:Image.__mul__"])

p("C152", "medians of pixels, and what replaces a hot pixel",
  "The median filter gives every pixel a value found around it, the one of middle rank, follows changes of units and ignores values that fill less than half of the surroundings. clean_hot_pixels(map) should therefore replace a flagged pixel that is brighter than its neighbours by a value of these neighbours, wherever it is on the sensor, and stay within the range of the image; get_hot_pixels should be able to mark such a pixel.",
  "all images and maps, every position, any history of calls; the filter for values of any ordered kind and any size of window",
  "Whether a bright pixel is replaced depends on its position and on its neighbours; tests with a hot pixel in the middle of a smooth image see neither the border nor clusters.",
  ["micropolarray/micropol_image.py:MicropolImage.clean_hot_pixels", "micropolarray/processing/image_cleaning.py:get_hot_pixels", "micropolarray/processing/image_cleaning.py:auto_threshold"])

p("C153", "turning images by multiples of 90 degrees",
  "image.rotate(90 * q) turns every picture of the image (the four families of pixels, I, Q and U) counter-clockwise about its centre by q quarter turns: every pixel is the one that the turn takes there, with the same value, or 0 where it comes from outside; turns of square pictures add up and four of them are none; the Stokes vector of the new image is the one of its pixels, with the directions of polarization turned as well.",
  "all images reached by any history of calls, all whole numbers q of quarter turns, all sizes",
  "Whether a pixel lands on its exact place depends on the parity of the sides and on whether they are equal; whether its value survives depends on how many bits it needs. Tests turn one square image of small numbers.",
  ["micropolarray/micropol_image.py:MicropolImage.rotate"])

p("C154", "the automatic threshold tells background from signal",
  "auto_threshold(image) of an image with a background and a signal whose values do not overlap returns a threshold between them: pixels whose surroundings are mostly background are below it after filtering, those whose surroundings are mostly signal are not, whatever values hot and dead pixels among the surroundings have.",
  "all images of at least 5 x 5 pixels, all pairs of populations, all positions and values of defective pixels",
  "Where the least within-class variance lies depends on all values together; tests use one image with two levels of similar size and no defects.",
  ["micropolarray/processing/image_cleaning.py:auto_threshold"])

p("C155", "rounding errors of a binned demodulator",
  "In binary64, Demodulator.rebin(n) gives the means of the n x n blocks of its matrices up to n*n + 1 units of 2^-52 of the mean of the absolute values; without any error for entries of few bits binned by a power of two; and a demodulator whose matrices hold one number everywhere keeps it.",
  "all demodulators of finite binary64 numbers, all n up to 2^25",
  "Errors depend on the order of additions and on all entries of a block; for one n or a round number in the matrices there are none, for the next n or number there are.",
  ["micropolarray/processing/demodulation.py:Demodulator.rebin", "micropolarray/processing/rebin.py:standard_rebin"])
p("C156", "exposures in floating point",
  "In binary64, an image whose pixels are c times those of another has exactly c times its I, Q, U and pB, and the same DoLP, without any further rounding; also after demodulation with the same matrices.",
  "all images of pixels that are 0 or between 2^-400 and 2^400, all factors that keep them there, all angle dictionaries; demodulation: pixels and entries of the matrices that are 0 or between 2^-200 and 2^200 in absolute value",
  "Whether two roundings agree depends on all bits of the pixels; comparisons up to a tolerance do not see it.",
  ["micropolarray/polarization_functions.py:pB", "micropolarray/polarization_functions.py:DoLP", "micropolarray/micropol_image.py:MicropolImage._get_theo_Stokes_vec_components"])
