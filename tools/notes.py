notes = {
 "C10": (None, "Both kernels read as Python source. Under numba the old kernel calls an undecorated function, which nopython mode rejects; the package never calls it."),
 "C14": ("partial", "False for families 1-3 (refuted with a 4x4 witness); true for family 0; C14_actual_value gives the exact value for every family."),
 "C20": ("partial", "DoLP <= 1 is false for non-negative mosaics (witness reaches 2); DoLP <= 2 holds always, DoLP <= 1 for what ideal micropolarizers record of physical light."),
 "C42": ("partial", "False: returns for a finite binary64 angle iff |angle| <= 2^61 (both directions proved for all binary64 numbers); infinities never return."),
 "C45": ("partial", "False: .strip(b'\\0') removes trailing NUL bytes of a chunk, so e.g. an all-dark frame raises. Exact dichotomy for files of the right length: decoded correctly iff no chunk ends in NUL, otherwise raises."),
 "C46": ("partial", "False: a file 96 bytes too long whose chunks end in NUL is accepted. True for too short files and for too long ones with a chunk not ending in NUL."),
 "C49": ("partial", "False for paths with further dots (they become colons, also in directory names). True without; C49_actual_name gives the name for every normalised absolute path."),
 "C54": ("partial", "Distinct names and no loss proved for all four savers. 'Raises before anything is written' fails for save_single_pol_images and save_param_as_fits: the directory has been created; no file is."),
 "C76": (None, "Refuted for files with a chunk ending in NUL (see C45): then the call raises and writes nothing. Mean, other files and order proved for files without such a chunk."),
 "C35": ("partial", "The odd-side rejection fails for sides of length 1: a 1 x 2w image gives a 0 x 2w result. Everything else is proved (superpixel and pixel mode, default centre, rejection when both sides exceed 1)."),
 "C36": ("partial", "False: the default rho=None always raises TypeError (proved for all inputs)."),
 "C38": ("partial", "False at the centre superpixel, which neither ROI selects; true at every other pixel (radius bounded by the outer limit that stands for infinity)."),
 "C40": ("partial", "Proved for PolarCam and any camera with an occulter position; Kasi defines none, so both methods raise AttributeError."),
 "C53": ("partial", "A bound equal to 0 is ignored (truthiness test), refuted with witness; exact for every non-zero bound."),
 "C60": ("partial", "Exact for signed/float data; arrays of unsigned integers wrap around instead of clamping (refuted)."),
 "C61": ("partial", "Where the divisor is zero the result is uninitialised memory (np.divide with where and no out); exact elsewhere."),

 "C24": ("partial", "Product, flags and locality proved for every matching tensor. Rejection of other shapes is proved except when numpy broadcasts (one-row/one-column tensors or images), where it is refuted: such a tensor is used for every row. That the operand image is left unchanged is part of C56."),
 "C26": ("partial", "Proved with fit flags. Refuted without: demodulate(..., demosaicing=True) raises AttributeError for every demodulator that has no flags."),
 "C28": ("partial", "Refuted: a second file with the digits 01 makes up for the missing M00, which stays zero. Proved for folders in which no two files carry the same digits."),
 "C29": ("partial", "Proved for every grid that divides the number of superpixels, every completion order and every fit; refuted for accepted grids that do not divide it: the remaining rows/columns stay zero (C29_covered_partial gives the exact result)."),
 "C32": ("partial", "Refuted for four equal phases. Proved: the four families differ iff the nearest to 0, 45 and -45 differ."),
 "C33": ("partial", "Refuted at the occulter's centre superpixel, which is not flagged; exact everywhere else. Unflagged centre means it is fitted."),
 "C34": ("partial", "Refuted for zero (the test is S<0 where the comment says S=0). Negative values become 1, others are kept."),
 "C74": ("partial", "Refuted: interrupted between two files, a folder holding an older tensor of the same size loads as a mixture. Proved: interrupted inside a matrix file it raises; in a new folder it raises or gives the new tensor."),
 "C75": ("partial", "Order independence proved except for a series of normalising images, which are matched by position after sorting (refuted). Files beyond the orientations are silently ignored (rejection refuted)."),
 "C77": ("partial", "Refuted: with a flat the function never returns a result (reading it uses np.float, which numpy 1.26.4, the pinned version, does not have)."),
 "C55": (None, "Invariant over every history of plain calls, failing ones included; every image of every reachable state (any calls) has even-sided data and matching height/width."),
 "C56": ("partial", "Refuted for rebin (writes the new size into the shared header of the image it is called on) and rotate (turns the Stokes vector in the memory of the image it is called on); both characterised for every successful call. Proved for copies, number arithmetic and demodulation; for shifts, cleaning and arithmetic between images when the header has the size of the data; rebin and congrid change nothing but headers."),
 "C57": ("partial", "Refuted: after rebin by 2 or more the header of the source has the new image's size. Proved for every history without resizing."),
 "C58": ("partial", "Refuted: once demosaiced, every correction recomputes the Stokes vector from the images demosaiced before, whatever the new data. Demosaicing again gives the vector of the current data (proved for every reachable state)."),
 "C59": (None, "Creation, inheritance and permanence, each over every reachable state."),
 "C62": ("partial", "Refuted: the dictionary given to MicropolImage(image, angle_dic=d) is ignored for every image and d."),
 "C72": (None, "For any median filter that keeps the shape (oracle)."),
 "C63": ("partial", "Refuted: one sample is always taken beyond the end, so a line to the far edge raises IndexError and a line to row or column 0 ends on the opposite edge; equal points raise ValueError. The walk itself (start first, end reached, unit steps, bounding box) is proved in exact arithmetic; in binary64 the end can be missed (witness). For coordinates up to 65536 the pixels found in binary64 are those of exact arithmetic, except where the line meets a pixel exactly: there it may be the next one towards zero in the shorter direction."),
 "C64": (None, "Also: steeper lines come back with rows and columns exchanged. The slope is compared in binary64; lines of up to 2^52 pixels."),
 "C65": ("partial", "Proved: I, Q, U errors exactly, pB, DoLP and AoLP errors are the first-order propagation wherever the derivatives exist and Q is not zero. Refuted for the AoLP error at Q = 0, where the first-order error exists but the code divides by zero."),
 "C66": ("partial", "Shape, bilinear interpolation, identity, corners and bounds proved in exact arithmetic; in binary64 the identity and the bounds are refuted (rounding). Sides of at least 2."),
 "C67": ("partial", "Data movement, involution, families and keywords proved for every square mosaic. The sun centre is within a pixel in exact arithmetic; in binary64 the truncated scaling can put it two pixels off (witness at row 246). Applying it twice appends the time to DATE-OBS twice."),
 "C68": ("partial", "Refuted: modal bins 0-9 raise IndexError, 991-999 ValueError, whatever the fit; in particular fields more than half of whose pixels are masked to the minimum or saturated. Between 10 and 990 exactly twenty bin centres and relative counts are fitted."),
 "C71": (None, "Float data. Incomplete superpixels raise ValueError. Identity matrices and zero offsets give exactly the IFOV correction."),
 "C69": (None, "For any median filter (oracle), exact arithmetic; also: of data that span less than one unit at most the maximum reaches the threshold (see C128)."),
 "C73": ("partial", "Refuted for every image: the method _set_data_and_Stokes does not exist, so AttributeError is raised; and with the default threshold the map would be zero for all non-negative images."),
 "C78": ("partial", "Refuted for every position, length and value: the element compared and the one replaced are not the same, so an isolated outlier is never removed."),
 "C79": ("partial", "The kept values are characterised whenever the median deviation is positive. Refuted when more than half of the values agree: then everything is kept."),
 "C51": ("partial", "Mean or sum, header and dates proved; order independence in exact arithmetic, refuted in binary64, where also the mean of ten equal images differs from them (C101 gives the cases without rounding). A date in neither format makes the file unloadable when TIME-OBS is missing (KeyError)."),
 "C52": ("partial", "Refuted: for a plain string the name kept is its first character. Proved for lists of one name, and the SUM_ name for several files."),
 "C80": ("partial", "Proved for centres at least two pixels from the top and left border, without an inner radius and with one that lies inside the image below the outer one: start, unit steps, distance from the ray, where it ends, values. Refuted for centres in the first two rows or columns (ValueError for every angle) and for inner radii beyond the border (IndexError to the right, pixels of the opposite side to the left) and short outer radii."),
 "C81": ("partial", "Proved for 'mean' and 'adjacent'; refuted for 'spline', which raises for every image with the pinned numpy."),
 "C82": ("partial", "Refuted: the Stokes vector of a resampled mosaic has all of its sides instead of half of them (every reachable state). The other methods are right on every history of plain calls."),
 "C83": ("partial", "Proved for MicropolImage and for the initialisers Image knows; refuted for Image(MicropolImage) and other types, which give an image without data."),
 "C84": ("partial", "Refuted: with the default occulter=True AttributeError is raised (PolarCam has no occulter_pos_nov2022), and without a flat UnboundLocalError, whatever the files. With a flat and without the occulter the result is characterised."),
 "C85": ("partial", "Refuted: the images of an ideal sensor are in general not left unchanged, since all orientations are averaged into one rank-one fit per superpixel. Proved when the images of all orientations are equal. Exact arithmetic; pinv is any function with the Penrose equations on rank-one matrices."),
 "C86": (None, "Exact arithmetic; the bound is Chebyshev's inequality. Empty images give NaN."),
 "C87": (None, "Exact arithmetic."),
 "C93": (None, "Exact arithmetic; zero exposure times and a zero mean raise ZeroDivisionError."),
 "C94": ("partial", "Refuted: nested new folders fail with FileNotFoundError (mkdir without parents) and folders with a dot in their name are taken for files and not created. Proved for file names (all folders on the way are created) and for folders in an existing one."),
 "C88": ("partial", "Turns and flips of the tensor proved for all tensors and k. Refuted: the turned image demodulated with the turned tensor, because the pixels of a superpixel are exchanged (witness: light at 0 degrees comes out at 45). Proved when superpixels move without being turned in themselves, without flags (flags are never turned)."),
 "C89": ("partial", "Refuted: the matrices are read from the folder again, so turns and flips are forgotten; and the flags are not binned, so the result cannot demodulate images of its own size. Block means of the matrices in the folder and ValueError for odd sides are proved."),
 "C90": (None, "For every blur and circle detector (oracles); a detector that always finds several circles makes it search forever."),
 "C91": ("partial", "Refuted: if one of the three arguments is missing all are replaced by the result of the fits (which also fail or give any other centre and radius)."),
 "C92": ("partial", "Proved in the code's own coordinates (distance in profile samples). Refuted in pixel coordinates: the backward profiles start one pixel before the centre, so the middle is half a pixel off. Exact arithmetic."),
 "C95": ("partial", "Refuted: with vmin or vmax given, UnboundLocalError is raised for every demosaiced image. With the default limits the panels are proved. Colours, colour bars and matplotlib's own checks are not modelled."),
 "C96": (None, "The numbers shown in titles, colours and colour bars are not modelled; show_pol_param for the six documented names. Exact arithmetic."),
 "C97": ("partial", "Proved with an explicit range. Refuted for the default range: each family is counted in bins of its own range. Exact arithmetic."),
 "C99": ("partial", "Refuted: a bound of zero switches the limits off (fix_data), and astropy removes the old file before writing the new one, so an interruption loses it. The corner in which the file is one of the folders on its own way (a.fits/../a.fits) is excluded."),
 "C98": ("partial", "Maps proved. The tensor is proved if every further file is an image of the same size without two digits in its name. Refuted: an unreadable file listed first raises OSError, and a copy of another matrix makes up for a missing one, whose entries are then 0. With no file at all Cij is None."),
 "C100": (None, "Without occulter and flat field, chunks dividing the image, a fit that returns an explanation of the samples within the bounds if there is one (scipy's curve_fit is not modelled), exact arithmetic."),
 "C101": (None, "Binary64 throughout (SpecFloat operations, proved equal to Flocq's). Pixels are integers up to a bound; for 16-bit images any binning up to 90000 is covered. AoLP (arctan2) is not covered."),
 "C102": ("partial", "Proved for the image itself while it is not demosaiced, and for images with another Stokes vector. Refuted: a copy shares its Stokes vector with the original, so masking the copy masks the vector (not the data) of the original; and demosaiced images are masked by whole superpixels, their Stokes vector by single pixels."),
 "C103": (None, "The bounds refer to the same computation on the absolute values of the pixels, that is to the result itself if no pixel is negative. AoLP is not covered."),
 "C104": (None, "Pixels are 0 or between 2^-400 and 2^400. For demosaiced images the bounds are relative to the intensity, since differences of interpolated values can cancel; they are stated where the intensity is at least 2^-400."),
 "C105": (None, "Superpixels that were fitted (C24, C26 give the others). The bounds refer to the same computation with the absolute values of pixels and tensor; differences such as Q can cancel, so relative to the result itself no bound holds."),
 "C106": (None, "The value of superpixel (Y, X) is put at pixel (2Y, 2X), half a pixel from its centre: see C14."),
 "C107": (None, "Exact arithmetic; C103 and C104 bound the rounding errors."),
 "C108": (None, "The second statement needs the same sector for mean and output, as in the defaults."),
 "C109": ("partial", "Keywords proved for MicropolImage, also after any further calls. Refuted: images made from an Image lose all keywords; images made from a MicropolImage have no attribute filename, or 'image.fits' after arithmetic with a number. Image(image) and Image.rebin keep the name; shift and arithmetic of an Image give image.fits. NAXIS1 and NAXIS2 of new and rotated images are proved to be the sizes of the data."),
 "C110": ("partial", "Proved if one of the two is an Image. Refuted: a MicropolImage and everything made from it (copies, demodulated, binned, shifted images, sums and multiples) have one header object, so writing a keyword into one writes it into all."),
 "C111": ("partial", "Proved for paths without the characters *, ? and [. Refuted: the path is used as a glob pattern, so the matrices of run[1] are read from run1 if that exists, and are not found otherwise, although os.path.exists has just found the folder."),
 "C112": ("partial", "The errors are right (photon noise), and for more than four images the value is zero exactly for exact fits and not negative. Refuted: the squared deviations are divided by the errors instead of their squares, and the degrees of freedom are n - 2, n - 3 or n - 4 according to whether boundaries were given; with equal errors s the map is s (n - 3) / d times the reduced chi-square, and negative for three images."),
 "C113": ("partial", "Proved where I, Q and U are uncorrelated; for ideal polarizers pB and AoLP are right whatever the errors. Refuted: I, Q and U are made of the same four pixels, but the code adds their errors as if they were independent. Where Q and U are correlated sigma_pB and sigma_AoLP are wrong; with ideal polarizers and photon noise sigma_DoLP is always too large, by (Q^2+U^2)/(g I^3) in the square (g: gain)."),
 "C114": ("partial", "Proved where every result fits the integer type. Refuted: MicropolImage keeps the type of the array, so for unsigned data every pixel of a - b with a < b is 2^bits too large (a + b: too small), and Q and U are wrong by multiples of 2^bits; chen_wan_liang_calibration of integer data truncates the corrected pixels, so that the result is up to 1 too small."),

"C115": (None, "The panels and their titles are right. Refuted: the returned second value is the axes object of the last panel, because the variable is used again as a loop variable (demodulation.py 222)."),
"C116": (None, "The pseudo-inverse of the fitted modulation matrix is assumed to be one (numpy.linalg.pinv), and the fitted matrix to have rank 3."),

"C117": (None, "Proved if the superpixels of a bin have the same matrix and the demodulator has no flags (C89 refutes binning of flags). Refuted otherwise: the mean matrix times the sums of the pixels is not the sum of the products; example where the result is 1/4 instead of 1."),
"C118": (None, "The library function arctan2 is a parameter with a stated error bound; nothing is claimed where Q = U = 0."),

"C119": (None, "For any type of numbers, no property of the operations is used."),
"C120": (None, "Proved if all angles are at most 2^55 rad or not numbers, with an error of at most (|n| + 2) 2^-53 of the angle for n half turns. Refuted: with an infinite angle or one above 2^55 rad the call never returns."),

"C121": (None, "Exact arithmetic. The dark image is that of the exposure, and the flat image has had its dark signal removed; the pixels where the flat is zero (C61) are excluded by the positive sensitivity."),
"C122": (None, "Exact arithmetic, at least 2 samples per side. Concerns the Stokes parameters computed from the resampled data; those the method itself stores have another size (C82). C122_loses shows that other sizes lose detail."),

"C123": (None, "Refuted: a pixel that is not a number, in the image or in the dark, becomes 0 after subtract_dark (the comparison nan >= 0 is false), so a lost pixel looks like a measurement. The rest is proved."),

"C124": (None, "Exact arithmetic. C124_dark_bin gives both the agreement and the strict difference; C124_shift_case shows the loss when shifting back."),

"C125": (None, "Refuted for demosaicing with option adjacent: the image turned upside down is interpolated differently, because values are taken from the next superpixels below and to the right only. The rest is proved; binning upside down needs bins that cover the image."),
"C126": (None, "Exact arithmetic; the matrices in the demodulator are assumed to be the pseudo-inverses for the micropolarizers (what C25 and C100 establish for the calibration)."),
"C127": (None, "binary64 with rounding to nearest even. The flat must have no zero pixels (they are left uninitialised, C34). Counts below 2^53 are exact."),
"C128": (None, "Refuted for auto_threshold and the scale: candidates start one unit above the minimum, so in units in which the image spans less than one, every pixel but the brightest is background. It follows a change of zero, and all other cuts follow any change of units."),
"C129": (None, "Equal variances are needed: C129_photon_noise shows that for completely polarized light with photon noise other weights have half the variance."),
"C130": (None, "Refuted: the last ring ends at the largest distance truncated to a whole number, so pixels beyond it stay 0 whatever the data; for a 4 x 4 image around its centre these are the pixels (0,0), (0,1) and (1,0). Up to every whole distance that some pixel reaches, the statement is proved."),
"C131": (None, "Refuted only for programs that change in place the array returned by map_polar_coordinates: the changed array stays in the cache and is used by later masks. Programs that only call the functions are proved not to depend on the cache."),
"C132": (None, "Refuted for uniform rings of values that are not integers: eight pixels of 0.1 added one after the other give a mean that is not 0.1 and a standard deviation of 1e-17 instead of 0, so the filtered ring is 1 instead of 0 (C132_level: always 0 or close to 1 or -1). Proved for counts. The angles are the default (all pixels), rho_max is a parameter."),
"C133": (None, "Refuted for plain copies MicropolImage(image) and for demodulated images: they refer to the same array (micropol_image.py 123), so a pixel written into one is written into the other. Refuted for the image's own parameters: an assignment to a pixel bypasses the setter and leaves the Stokes vector. Proved: no other image is changed if there were no plain copies and demodulations, nor after any call that computes the pixels of the image anew."),
"C134": (None, "Proved for Stokes and polarization parameters, demodulation, binning and demosaicing. Refuted for the field-of-view correction (0 in the first two rows and columns, as for any pixel there), the flat field (one missing flat pixel makes the whole corrected image missing, through np.mean) and the radial filter (one missing pixel sets its whole ring to 0, because std > 0 is false). The dark correction turns missing pixels into 0 (C123). That other superpixels are unaffected is C119."),
"C135": (None, "Proved: transposition for DDA and linear_roi (exactly and in binary64), reversal and displacement in exact arithmetic, reversal in binary64 up to one pixel where the line meets a pixel exactly; for bresenham displacement and mirroring always, reversal for an odd number of columns. Refuted: reversal and displacement in binary64 (accumulated 0.1), mirroring for DDA (coordinates are cut off, not rounded), reversal of bresenham at ties."),
"C136": (None, "Proved for darks (exact arithmetic, second dark not negative), flats (common factor given), clamps (also in binary64), regions and masks. Shifts compose in the same direction; refuted for opposite directions, where rows are lost at the edge (the documented purpose of missing)."),
"C137": (None, "Proved for 16-bit files and for 12-bit files without a chunk that ends in a NUL byte; refuted for the others, which are rejected (C45), for example an all-dark frame. The FITS file between reader and image is taken to hold the same numbers (astropy is not modelled)."),
"C138": (None, "Refuted for the range: the last of 26 positions over 8 samples is rounded beyond the last sample, so a row that falls from 1 to 0 there gets a negative pixel. It is outside the range by no more than the proved error."),
"C139": (None, "Holds for images whose Stokes vector is that of their pixels, if their orientations are given again or are the default. Refuted otherwise: the file holds pixels and header only, so the Stokes vector of a demodulated, demosaiced, masked or rotated image is lost, all flags are, and an image with its own orientations is read with the default ones (Q changes sign if 0 and 90 degrees are exchanged)."),
"C140": (None, "Holds whenever images stand on the left of numbers and arrays and are of one class; every other expression raises TypeError (proved for all expressions). Refuted: numbers and arrays on the left of an image and Python's sum of images raise TypeError since there are no reflected operators, an Image and a MicropolImage cannot be combined, and images with different orientations of the micropolarizers are combined without an error, with wrong Stokes parameters."),
"C141": (None, "Proved for the whole chain from pixel errors to sigma_AoLP. The errors of pB for unpolarized light and of AoLP for Q = 0 are not numbers (NaN, see C65)."),
"C142": (None, "The type of every result has room for the operands and is the narrowest such type (proved). Every result is exact for a signed and an unsigned type, the latter at least as wide and at most 32 bits; refuted for all other pairs of types (wrapping, or rounding for uint64 with a signed type) and for numbers: with numpy 1.26.4 an unsigned image minus k wraps around below k, plus -k does not."),
    "C143": (None, "selection exact for multiples of 30 and 45 degrees, within 2^-42 degrees otherwise; refuted: theta=[-45, 45] keeps only the directions from 0 to 45 degrees"),
"C146": (None, 'Every pixel is one that the kind asks for up to the rounding of the position, the order is kept, the same size gives the same image and grids finer by a power of two are exact (proved for all kinds); "nearest" and "nearest-up" keep every sample that the new grid meets, corners included. Refuted for the other two: with "previous" the last column of 50 out of 2 is the first column of the image, with "next" the last column of 26 out of 8 is NaN, since (n - 1) / (m - 1) * (m - 1) is rounded below or above n - 1.'),
"C147": (None, "Proved for all shapes with sides of at least 2 before and after (linear: exact arithmetic; nearest, nearest-up and previous: binary64). Refuted: with more sizes than axes the rest is ignored instead of refused, and a new side of 1 makes all elements NaN instead of refusing or sampling."),
"C149": (None, "Proved for images of at least 150 pixels a side, with every curve characterised; the curves are those of the superpixel where all four pixels could be fitted, and nothing is written. Refuted: where a fit fails or a pixel is dark, the figure shows the curves of an earlier superpixel, and with a side of less than 150 pixels the run ends in ValueError, since the window is fixed."),
"C151": (None, "Hidden pixels that are NaN or infinite come out as NaN instead of zero, masks cannot be subtracted (TypeError), and integers beyond 2^53 are rounded when floats join in. Proved for finite hidden pixels; everything else for all inputs."),
"C152": (None, "Refuted in the first two rows and columns, where the mirrored window compares a pixel with itself, so that a flagged hot pixel stays (and would not be found), and for two bright neighbours. Proved for isolated bright or dark pixels elsewhere; the range and all statements about the filter hold without exception."),
"C153": (None, "Positions proved for all turns; where one side is even and the other one odd, a quarter turn takes centres to corners and the pixel to the right and below is used. Values proved for numbers of 24 bits, otherwise within 2^-24. Refuted: Pillow's pictures are 24-bit floats, so rotate(0) makes 2^24 out of 2^24 + 1; quarter turns of pictures that are not square lose the ends; Q and U keep their sign in a quarter turn, so the directions of polarization do not turn."),
"C154": (None, "Proved when the gap exceeds the width of the populations by the square root of twice the number of pixels, and for two levels without condition (the threshold is then the background plus 1). Refuted: of a background of 0 and 100 and a signal of 102 the brighter background counts as signal; signals that nowhere fill half of 10 x 10 pixels do not change the threshold, so that those fainter than the background plus 1 stay below it."),
"C155": (None, "Means and exactness proved, for entries of few bits also that every mean is the nearest number; constant matrices proved to be kept for n = 2, and for every n if the number has few bits. Refuted for n = 3, where 0.1 everywhere becomes 0.09999999999999999, and for n = 4, where it becomes 0.10000000000000002. n*n + 8 <= 2^52 is assumed, and that the sums stay below 2^1019."),
"C156": (None, "Proved for powers of two, in both directions, also after demodulation. Refuted for 3: pixels 1, 1, 3, 3 have DoLP 0.7071067811865476, pixels 3, 3, 9, 9 have 0.7071067811865475. AoLP is left out (libm)."),
}
