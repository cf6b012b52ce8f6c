#!/usr/bin/env python3
"""Writes /verif/properties.jsonl (one JSON object per line)."""
import json, os
P = []
def p(id, title, statement, quantifier, why, anchors):
    P.append(dict(id=id, title=title, statement=statement, quantifier=quantifier,
                  why_tests_cant=why, anchors=anchors))

# ---------------------------------------------------------------- mosaic layout
p("C01", "split_polarizations puts every pixel in its family",
  "split_polarizations(data) succeeds exactly when both sides of data are even, and then returns four half-size images, image k holding at (y,x) the pixel data[2y + k//2, 2x + k%2]; with an odd side it raises ValueError.",
  "every image size and every pixel content (any pixel type)",
  "The layout must hold for all sizes and contents; tests sample one 16x16 pattern.",
  ["micropolarray/processing/demosaic.py:split_polarizations", "micropolarray/micropol_image.py:MicropolImage.single_pol_subimages"])
p("C02", "merge undoes split",
  "For every even-sided image, merge_polarizations(split_polarizations(data)) is data, pixel for pixel and with the same shape.",
  "every even-sided image, any content", "A round trip has to hold for all sizes and contents.",
  ["micropolarray/processing/demosaic.py:split_polarizations", "micropolarray/processing/demosaic.py:merge_polarizations"])
p("C03", "split undoes merge",
  "For any four images of one common shape, split_polarizations(merge_polarizations(images)) returns the four images unchanged.",
  "every quadruple of equally shaped images", "Round trip over all shapes and contents.",
  ["micropolarray/processing/demosaic.py:split_polarizations", "micropolarray/processing/demosaic.py:merge_polarizations"])
p("C04", "superpixel binning sums same-family pixels only",
  "micropolarray_rebin(data, b) has shape (2*(H//(2b)), 2*(W//(2b))) and its pixel (Y,X) is the sum of the b*b pixels of data with the same micropolarizer family (same row and column parity as (Y,X)) inside the corresponding 2b x 2b block; no read is out of bounds.",
  "every even-sided image, every binning b >= 1", "Index arithmetic over all sizes, binnings and parities, including trimming.",
  ["micropolarray/processing/rebin.py:micropolarray_rebin", "micropolarray/processing/rebin.py:micropolarray_jitrebin"])
p("C05", "trimming before binning terminates with the largest fitting size",
  "For an even-sided image and b >= 1 the superpixel trimming terminates with the largest multiples of 2b not exceeding the sides. For an odd side the call never returns.",
  "every height, width and binning", "Termination and non-termination are statements about all numbers of iterations.",
  ["micropolarray/processing/rebin.py:trim_to_match_2xbinning", "micropolarray/processing/rebin.py:micropolarray_rebin"])
p("C06", "superpixel binning conserves signal",
  "Binning an image by b keeps, for each micropolarizer family, the total signal of the retained (trimmed) region: the sum of that family's output pixels equals the sum of that family's retained input pixels, so each retained pixel is counted exactly once.",
  "every even-sided real-valued image, every b >= 1", "A conservation law over all images and sizes.",
  ["micropolarray/processing/rebin.py:micropolarray_rebin"])
p("C07", "binning composes",
  "Binning by a and then by b equals binning once by a*b, for superpixel binning of an even-sided image and for plain binning of any image, also when the sizes do not fit and trimming occurs at either step.",
  "every real-valued image and all a, b >= 1", "Algebraic law over all images and factors.",
  ["micropolarray/processing/rebin.py:micropolarray_rebin", "micropolarray/processing/rebin.py:standard_rebin"])
p("C08", "binning commutes with family extraction and with Stokes",
  "The k-th single-polarization subimage of the superpixel-binned image is the plain binning of the k-th subimage, and the (theoretical) Stokes I, Q, U of the binned image are the plain binnings of the original I, Q, U.",
  "every even-sided real-valued image, every b >= 1, every angle dictionary", "Commutation over all images and binnings.",
  ["micropolarray/processing/rebin.py", "micropolarray/processing/demosaic.py:split_polarizations", "micropolarray/micropol_image.py:MicropolImage.rebin"])
p("C09", "plain binning is the block sum",
  "standard_rebin(data, b) (hence Image.rebin) terminates for every size and b >= 1, has shape (H//b, W//b), and pixel (Y,X) is the sum of data over the b x b block at (bY, bX); it never reads out of bounds and conserves the signal of the retained region.",
  "every image, every b >= 1", "All sizes/binnings, including trimming.",
  ["micropolarray/processing/rebin.py:standard_rebin", "micropolarray/processing/rebin.py:standard_jitrebin", "micropolarray/processing/rebin.py:trim_to_match_binning", "micropolarray/image.py:Image.rebin"])
p("C10", "old and new superpixel binning agree",
  "micropolarray_jitrebin_old(data, H, W, b) and micropolarray_rebin(data, b) (read as Python source) behave the same on every image: same array, same exception, or both never return.",
  "every image and binning", "Equivalence of two programs for all inputs.",
  ["micropolarray/processing/rebin.py:micropolarray_jitrebin_old", "micropolarray/processing/rebin.py:micropolarray_rebin"])
p("C11", "shift moves every pixel and fills the rest",
  "shift(data, y, x, m) has the shape of data; pixel (j,i) is data[j-y, i-x] when that source pixel exists and m otherwise, for every positive or negative y, x including |y|,|x| larger than the image; no read is out of bounds.",
  "every image, every integer shift, every fill value", "All offsets including sign combinations and offsets beyond the sides.",
  ["micropolarray/processing/shift.py:shift", "micropolarray/image.py:Image.shift"])
p("C12", "micropolarizer shift keeps pixel families",
  "MicropolImage.shift(y, x) moves whole superpixels: it equals the plain shift of the mosaic by (2y, 2x) pixels, so every pixel stays in its family. Shifting by (y,x) and back restores every pixel whose superpixel stayed inside.",
  "every even-sided image, every integer shift", "All offsets and sizes.",
  ["micropolarray/processing/shift.py:shift_micropol", "micropolarray/micropol_image.py:MicropolImage.shift"])
p("C13", "adjacent demosaicing interpolates within the family",
  "demosaic(data, 'adjacent') on an even-sided image returns four full-size images; in image k the four pixels of superpixel (Y,X) are the family-k sample of that superpixel, and its averages with the family-k samples of the next superpixel down, right, and diagonal (the last row/column is replicated). Hence every value lies between the min and max of the family-k samples, a uniform family gives a uniform image, and no read is out of bounds.",
  "every even-sided image (all sizes, contents)", "Boundary handling and interpolation for all sizes.",
  ["micropolarray/processing/demosaic.py:demosaic", "micropolarray/processing/demosaic.py:demosaicadjacent"])
p("C14", "demosaicing preserves measured pixels",
  "A full-resolution demosaiced image of family k should keep, at every pixel that carries micropolarizer k, the value measured there.",
  "every even-sided image, every family k, every pixel", "Holds or fails over all images; tests use per-family constant data where it cannot be seen.",
  ["micropolarray/processing/demosaic.py:demosaicadjacent", "micropolarray/micropol_image.py:MicropolImage.demosaic"])
p("C15", "mean demosaicing spreads a quarter of each sample",
  "demosaic(data, 'mean') on an even-sided image returns four full-size images, image k being constant on each superpixel and equal to a quarter of its family-k sample; summing image k over the superpixel gives back the sample, so signal is conserved. An option other than mean/adjacent/spline raises ValueError.",
  "every even-sided image, every option string", "All sizes and contents.",
  ["micropolarray/processing/demosaic.py:demosaicmean", "micropolarray/processing/demosaic.py:demosaic"])
p("C16", "IFOV correction averages same-family neighbours",
  "MicropolImage.correct_ifov() replaces each pixel by the mean of itself and its same-family neighbours up, left and up-left (offset 2), zeroes the first two rows and columns, never mixes families and never reads out of bounds for even-sided images.",
  "every even-sided image", "All sizes and contents.",
  ["micropolarray/processing/chen_wan_liang_calibration.py:_ifov_jitcorrect", "micropolarray/micropol_image.py:MicropolImage.correct_ifov"])

# ---------------------------------------------------------------- Stokes
p("C17", "ideal micropolarizer data gives back the true Stokes vector",
  "If every superpixel holds the intensities an ideal 0/45/90/-45 micropolarizer array records for incoming light (I,Q,U), in any arrangement described by angle_dic, then the image's I, Q, U are exactly the incoming ones.",
  "every field of Stokes vectors, every size, every one of the arrangements given by an angle dictionary", "Exact inversion over all light fields and arrangements.",
  ["micropolarray/micropol_image.py:MicropolImage._get_theo_Stokes_vec_components"])
p("C18", "image arithmetic is linear on Stokes parameters",
  "For raw (not demosaiced) images a, b of equal shape and angle dictionary, the Stokes vector of a+b, a-b and c*a is the pixelwise sum, difference and multiple of the Stokes vectors; adding a constant c to all pixels changes I by 2c and leaves Q and U unchanged.",
  "all pairs of images and scalars", "Algebraic law over all inputs.",
  ["micropolarray/micropol_image.py:MicropolImage.__add__", "micropolarray/micropol_image.py:MicropolImage.__sub__", "micropolarray/micropol_image.py:MicropolImage.__mul__"])
p("C19", "pB and AoLP are the polar form of (Q,U)",
  "For every Stokes vector, pB >= 0, AoLP lies in (-pi/2, pi/2], and Q = pB*cos(2*AoLP), U = pB*sin(2*AoLP); pB is zero exactly for unpolarized light.",
  "all real Stokes vectors", "Real-analysis identity over a continuum.",
  ["micropolarray/polarization_functions.py:pB", "micropolarray/polarization_functions.py:AoLP"])
p("C20", "DoLP is well defined and bounded",
  "DoLP is pB/I where I is non-zero and 0 where I is zero (never a division by zero). For an image with non-negative pixels DoLP lies between 0 and 2; it should never exceed 1 for a physical signal.",
  "all images with non-negative pixels", "A bound over a continuum of inputs, attained at corner cases.",
  ["micropolarray/polarization_functions.py:DoLP", "micropolarray/micropol_image.py:MicropolImage.DoLP"])
p("C21", "AoLP and DoLP do not depend on exposure",
  "Multiplying an image by a positive constant leaves AoLP and DoLP unchanged everywhere and multiplies I, Q, U and pB by that constant.",
  "all images, all positive factors", "Invariance over all inputs.",
  ["micropolarray/polarization_functions.py", "micropolarray/micropol_image.py:MicropolImage.__mul__"])
p("C22", "polarized light gives back its polarization angle and degree",
  "For a uniform source of any intensity S>0 through a polarizer at any angle a with throughput t>0 and efficiency e in (0,1] observed by micropolarizers at 0/45/-45/90 (Malus curve), the theoretical AoLP equals a modulo pi, DoLP equals e and I equals t*S.",
  "all angles, intensities, throughputs and efficiencies", "Continuum of angles; tests sample a grid and round to one digit.",
  ["micropolarray/processing/demodulation.py:Malus", "micropolarray/polarization_functions.py:AoLP", "micropolarray/polarization_functions.py:DoLP"])
p("C23", "the Malus model is a bounded pi-periodic curve",
  "Malus(angle,t,e,phi) is pi-periodic in angle and in phi, lies in [t(1-e)/2, t(1+e)/2] for t,e >= 0, attains the maximum at angle = phi and the minimum at phi+pi/2, and two orthogonal polarizer angles always add up to t.",
  "all real arguments with t,e >= 0", "Continuum of inputs.",
  ["micropolarray/processing/demodulation.py:Malus"])

# ---------------------------------------------------------------- demodulation
p("C24", "demodulation is the per-superpixel matrix product",
  "demodulate(d) without demosaicing gives at each superpixel the product of that superpixel's 3x4 matrix with its four pixel values in family order 0..3 where d's fit flag is 1 (or where d has no flags), and the image's previous Stokes vector elsewhere; it never uses another superpixel, leaves the input image and its data unchanged, and rejects tensors of another shape.",
  "every image, tensor and flag map", "All images, tensors, flags.",
  ["micropolarray/micropol_image.py:MicropolImage.demodulate", "micropolarray/micropol_image.py:MicropolImage._get_Stokes_from_demodulator"])
p("C25", "demodulation inverts the measured modulation",
  "If a superpixel's demodulation matrix is the one calculate_demodulation_tensor derives from throughputs t_k, efficiencies e_k and angles phi_k (with a rank-3 modulation matrix), then demodulating the intensities these four micropolarizers record for incoming light (I,Q,U) gives back exactly (I,Q,U).",
  "all parameters with rank-3 modulation, all incoming light", "Exact left-inverse over a continuum.",
  ["micropolarray/processing/demodulation.py:compute_demodulation_by_chunk", "micropolarray/micropol_image.py:MicropolImage._get_Stokes_from_demodulator"])
p("C26", "demodulation with demosaicing uses each pixel's own superpixel matrix",
  "demodulate(d, demosaicing=True) applies at full-resolution pixel (y,x) the matrix and fit flag of superpixel (y//2, x//2) to the four demosaiced values at (y,x), falling back to the theoretical Stokes of the demosaiced images where the flag is not 1, and works for demodulators with and without fit flags.",
  "every image, tensor, flag map", "All sizes/contents and the flag-less case.",
  ["micropolarray/micropol_image.py:MicropolImage._get_Stokes_from_demodulator"])
p("C27", "saved demodulation tensors load back, whatever the listing order",
  "A folder containing exactly the files written by calculate_demodulation_tensor loads into the same (3,4,y,x) tensor and flag map, whatever order the directory listing returns.",
  "every tensor and every permutation of the directory listing", "All orders of a 16-file listing; all contents.",
  ["micropolarray/processing/demodulation.py:Demodulator._get_demodulation_tensor", "micropolarray/processing/demodulation.py:calculate_demodulation_tensor"])
p("C28", "a folder with a missing matrix is rejected",
  "Loading a demodulator should fail whenever any of the twelve components M00..M23 has no file in the folder.",
  "every set of file names", "All subsets and stray names.",
  ["micropolarray/processing/demodulation.py:Demodulator._get_demodulation_tensor"])
p("C29", "the processor grid does not change the result",
  "Splitting the image into a grid of chunks, fitting each chunk in a worker and merging gives the same tensor, flags and parameter maps as processing the whole image in one piece, for every grid accepted by calculate_demodulation_tensor, every worker completion order, every per-superpixel fit.",
  "every image size, processor grid, schedule, per-superpixel computation", "Parallel decomposition over all grids and schedules.",
  ["micropolarray/processing/demodulation.py:calculate_demodulation_tensor"])
p("C30", "each superpixel's calibration is its own",
  "compute_demodulation_by_chunk computes each superpixel's matrix, flag, throughput, efficiency, phase, covariance and chi-square from that superpixel's own samples only; the flag is 1 exactly when it is not occulted, no pixel is dark in every image, all four fits succeed and every matrix entry is within [-100,100]; in every other case the matrix is the theoretical one.",
  "every chunk, every fit outcome pattern", "Loop-carried scratch arrays are reused across superpixels: independence must hold for all failure patterns.",
  ["micropolarray/processing/demodulation.py:compute_demodulation_by_chunk"])
p("C31", "pixel families are recovered from fitted phases",
  "If the mean fitted phases of the four families are within 22.5 degrees (exclusive) of a permutation of 0, 45, -45, 90 (the 90 one possibly fitted near -90), the demodulator's angle_dic is exactly that permutation.",
  "all permutations and all real deviations below 22.5 degrees", "Continuum of phases.",
  ["micropolarray/processing/demodulation.py:Demodulator.angle_dic"])
p("C32", "angle_dic always assigns four distinct families",
  "For any fitted phases, the demodulator's angle_dic should map the four angles to four different pixel families.",
  "all phase quadruples", "Fails only on unusual phases.",
  ["micropolarray/processing/demodulation.py:Demodulator.angle_dic"])
p("C33", "the occulted region is excluded from the fit as whole superpixels",
  "The occulter flag used by the calibration is constant on superpixels and flags every superpixel whose (superpixel) distance from the occulter centre is at most the radius.",
  "every image size, centre and radius", "All geometries, including the centre itself.",
  ["micropolarray/processing/demodulation.py:calculate_demodulation_tensor", "micropolarray/processing/nrgf.py:roi_from_polar"])
p("C34", "normalisation never divides by zero",
  "After the calibration's 'correct S=0' step every normalising value should be non-zero, so that normalised data is finite.",
  "every normalising image", "Needs all values including zero.",
  ["micropolarray/processing/demodulation.py:calculate_demodulation_tensor"])

# ---------------------------------------------------------------- ROI
p("C35", "polar ROI selects by distance and angle, superpixel by superpixel",
  "roi_from_polar(data, c, [r1,r2], [t1,t2]) keeps a pixel exactly when its superpixel lies in the half-size annular sector (r1//2 < distance <= r2//2, t1 <= angle < t2) and writes fill elsewhere; with include_superpixels=False the test is made pixel by pixel; return_boolean returns exactly the kept-mask. Odd sides are rejected in superpixel mode.",
  "every image, centre, radii, angles, fill", "All geometries.",
  ["micropolarray/processing/nrgf.py:roi_from_polar", "micropolarray/processing/nrgf.py:map_polar_coordinates"])
p("C36", "the documented default radius works",
  "roi_from_polar(data) with rho omitted should select from the centre to the image border, as documented.",
  "every image and centre", "A statement about every call with the default.",
  ["micropolarray/processing/nrgf.py:roi_from_polar"])
p("C37", "masking the occulter keeps data and Stokes vector consistent",
  "After mask_occulter on a raw image with fill 0, every Stokes pixel equals the Stokes value computed from the masked data; pixels outside the occulter are untouched.",
  "every even-sided image, every centre inside the image and radius", "All geometries.",
  ["micropolarray/micropol_image.py:MicropolImage.mask_occulter"])
p("C38", "inner and outer ROI partition the image",
  "For any centre and radius, each pixel is selected by exactly one of the ROIs [0,r] and [r, infinity) with full angle range.",
  "every image, centre and radius", "All geometries including the centre pixel.",
  ["micropolarray/processing/nrgf.py:roi_from_polar"])
p("C39", "the radial filter normalises each ring",
  "nrgf with equal mean and output sectors gives each processed ring zero mean and unit standard deviation (or zeros if the ring is uniform), leaves pixels within rho_min at 0, and is unchanged by any gain g>0 and offset applied to the data.",
  "every image, centre, rho_min, step", "Statistics identities over all images.",
  ["micropolarray/processing/nrgf.py:nrgf"])
p("C40", "camera masks and ROI agree",
  "PolarCam.occulter_mask is True exactly at pixels that roi_from_polar keeps; Camera.occulter_roi keeps exactly the pixels beyond the (over)occulter radius.",
  "every overoccult and rmax", "All parameter values.",
  ["micropolarray/cameras.py:Camera.occulter_mask", "micropolarray/cameras.py:Camera.occulter_roi"])

# ---------------------------------------------------------------- angles
p("C41", "normalize2pi returns the representative in (-90, 90]",
  "In exact arithmetic normalize2pi terminates on every list of angles and replaces each by the unique congruent angle modulo 180 in (-90, 90]; it is idempotent, keeps the order and length, and updates a list argument in place.",
  "all lists of real angles", "Unbounded number of loop iterations; continuum.",
  ["micropolarray/utils.py:normalize2pi", "micropolarray/polarization_functions.py:normalize2pi"])
p("C42", "normalize2pi always returns on floating point input",
  "normalize2pi should return for every finite floating-point angle.",
  "all binary64 numbers", "Non-termination at large magnitudes only.",
  ["micropolarray/utils.py:normalize2pi"])
p("C43", "normalize2piarray maps into (-pi/2, pi/2]",
  "In exact arithmetic normalize2piarray terminates on every finite array and maps each element to the unique congruent value modulo pi in (-pi/2, pi/2].",
  "all real arrays", "Whole-array loops interact across elements; continuum.",
  ["micropolarray/utils.py:normalize2piarray"])

# ---------------------------------------------------------------- codec and files
p("C44", "12-bit packed decoding is a bijection",
  "three_bytes_to_two_ints decodes every byte string of length 3n into 2n integers in [0,4095]; packing those integers back (12 bits + 4 low bits, then 8 high bits) returns the original bytes, and every list of 2n such integers is the decoding of exactly one byte string.",
  "all byte strings whose length is a multiple of 3", "2^(24n) inputs.",
  ["micropolarray/processing/convert.py:three_bytes_to_two_ints"])
p("C45", "parallel decoding equals sequential decoding",
  "For a file of 1952*1952*3/2 bytes, nparr_from_binary returns the row-major image of the sequential decoding of the file, whatever order the 32 workers finish in.",
  "all file contents, all schedules", "All contents and schedules, including chunks ending with zero bytes.",
  ["micropolarray/processing/convert.py:nparr_from_binary"])
p("C46", "files of a wrong length are rejected",
  "nparr_from_binary raises for every file whose length is not 1952*1952*3/2, and never returns a wrongly shaped or partially decoded image.",
  "all file lengths and contents", "All lengths.",
  ["micropolarray/processing/convert.py:nparr_from_binary"])
p("C47", "raw files round-trip",
  "Saving an image with save_as_raw and reading it back as a raw file of the same height and width returns the pixel values whenever they are integers in [0, 32767]; values are written row by row, two bytes each, low byte first.",
  "all images with such values, all sizes", "All contents/sizes.",
  ["micropolarray/image.py:Image.save_as_raw", "micropolarray/processing/convert.py:convert_rawfile_to_fits"])
p("C48", "converting a raw file never loses data",
  "convert_rawfile_to_fits(remove_old=True), interrupted at any point, leaves either the raw file or a completely written fits file; if the file is too short or cannot be read, nothing is written or removed.",
  "every crash point, every file content", "All crash points.",
  ["micropolarray/processing/convert.py:convert_rawfile_to_fits"])
p("C49", "the converted file is named after the raw file",
  "convert_rawfile_to_fits('<path>.raw') should write '<path>.fits' in the same directory for every absolute path.",
  "every path string", "Paths with extra dots.",
  ["micropolarray/processing/convert.py:convert_rawfile_to_fits"])
p("C50", "merging raw files is order independent",
  "merge_rawfiles_to_fits writes the pixelwise sum (mode 'sum') or mean (mode 'average') of the 16-bit little-endian images, independent of the order of the file list; a file shorter than height*width*2 bytes makes the call raise with nothing written; extra bytes are ignored.",
  "all lists of files, all permutations", "All lists, permutations and lengths.",
  ["micropolarray/processing/convert.py:merge_rawfiles_to_fits", "micropolarray/processing/convert.py:average_rawfiles_to_fits"])
p("C51", "loading several files averages or sums them",
  "Image(list_of_files) has as data the pixelwise mean (default) or sum (averageimages=False) of the files, independent of their order; its header is the first file's, extended with SUMOF=n and, when observation times are known, STRT-OBS and END-OBS equal to the earliest and latest time.",
  "all lists of files and header dates, all permutations", "All lists/permutations.",
  ["micropolarray/image.py:Image._init_image_from_file"])
p("C52", "an image remembers its file name",
  "After Image(name) or Image([name]) the image's filename should be name.",
  "every file name", "A statement about all names, including the plain string form.",
  ["micropolarray/image.py:Image._init_image_from_file"])
p("C53", "fix_data clamps to the requested range",
  "fix_data(data, lo, hi) should return data with every value clamped into [lo, hi] for every lo <= hi.",
  "all arrays and bounds", "Fails only for a zero bound.",
  ["micropolarray/utils.py:fix_data", "micropolarray/image.py:Image.save_as_fits"])
p("C54", "saved parameter files never overwrite each other",
  "save_all_pol_params_as_fits, save_single_pol_images and save_demosaiced_images_as_fits write pairwise different file names, all in the directory of the requested file, for every valid file name; an invalid suffix raises before anything is written.",
  "every file name and angle dictionary", "All names.",
  ["micropolarray/micropol_image.py:save_all_pol_params_as_fits", "micropolarray/micropol_image.py:save_single_pol_images", "micropolarray/micropol_image.py:save_demosaiced_images_as_fits", "micropolarray/utils.py:_make_abs_and_create_dir"])

# ---------------------------------------------------------------- object histories
p("C55", "Stokes vector always reflects the data",
  "Along any sequence of constructions, copies, dark/flat/IFOV corrections, binning, shifting, arithmetic and hot-pixel cleaning (no demosaic, demodulate, rotate, mask, congrid), every live image's Stokes vector is the theoretical Stokes vector of its current data.",
  "every history of operations on any number of images", "Invariant over unbounded histories.",
  ["micropolarray/micropol_image.py:MicropolImage"])
p("C56", "methods that return a new image leave all other images unchanged",
  "demodulate, rebin, congrid, rotate, shift, clean_hot_pixels and the arithmetic operators leave the observable state (data, Stokes vector, header dimensions, flags, angle dictionary) of every existing image unchanged.",
  "every history, every existing image", "Aliasing shows only along histories.",
  ["micropolarray/micropol_image.py:MicropolImage._import_image_parameters", "micropolarray/micropol_image.py:MicropolImage.rebin", "micropolarray/micropol_image.py:MicropolImage.rotate"])
p("C57", "header dimensions always match the data",
  "In every reachable state, each image's header NAXIS1/NAXIS2 equal its data width and height.",
  "every history", "Aliasing of headers between copies.",
  ["micropolarray/image.py:Image.data", "micropolarray/micropol_image.py:MicropolImage._import_image_parameters"])
p("C58", "corrections after demosaicing are reflected in the polarization parameters",
  "Subtracting a dark, correcting a flat, shifting, binning or adding an image to a demosaiced image should update its Stokes vector according to the new data.",
  "every history containing demosaic", "Needs an operation history.",
  ["micropolarray/micropol_image.py:MicropolImage._get_theo_Stokes_vec_components", "micropolarray/micropol_image.py:MicropolImage.subtract_dark"])
p("C59", "images keep the angle dictionary in force when they were created",
  "An image created without an explicit dictionary keeps the default dictionary in force at its creation (PolarCam's if none was ever set), later set_default_angles calls never change existing images, and copies and derived images inherit the dictionary of their source.",
  "every interleaving of set_default_angles and image operations", "Histories with global state.",
  ["micropolarray/micropol_image.py:set_default_angles", "micropolarray/micropol_image.py:MicropolImage.__init__"])
p("C60", "dark subtraction clips at zero",
  "After subtract_dark every pixel is max(data-dark, 0); in particular non-negative, and a dark equal to the image gives the zero image with zero Stokes vector.",
  "all images and darks", "All contents.",
  ["micropolarray/micropol_image.py:MicropolImage.subtract_dark"])
p("C61", "flat correction and division are determined by their inputs",
  "correct_flat gives data*mean(flat)/flat, and a/b the pixelwise quotient, at every pixel whose divisor is non-zero; the value at zero-divisor pixels should also be determined by the inputs.",
  "all images and flats", "Uninitialised output memory is invisible to most tests.",
  ["micropolarray/micropol_image.py:MicropolImage.correct_flat", "micropolarray/micropol_image.py:MicropolImage.__truediv__", "micropolarray/image.py:Image.__truediv__"])
p("C62", "an explicit angle dictionary is honoured when copying",
  "MicropolImage(image, angle_dic=d) should use d for its polarization parameters.",
  "every image and dictionary", "Histories/aliasing.",
  ["micropolarray/micropol_image.py:MicropolImage._import_image_parameters"])

# ---------------------------------------------------------------- lines, interpolation, errors, misc
p("C63", "linear_roi samples the segment from start to end",
  "linear_roi(data, start, end) samples start first, moves by at most one pixel per sample in each direction, and should stay inside the bounding box of start and end (so a segment inside the image never fails).",
  "every pair of integer points", "All slopes and quadrants.",
  ["micropolarray/processing/linear_roi.py:DDA", "micropolarray/processing/linear_roi.py:linear_roi"])
p("C64", "Bresenham rasterisation is the nearest-pixel line",
  "For |dy| <= |dx|, dx != 0, bresenham(start,end) returns |dx|+1 points from start to end, one per column, each within half a pixel of the ideal line.",
  "every such pair of integer points", "All slopes up to 45 degrees, all lengths.",
  ["micropolarray/processing/linear_roi.py:bresenham"])
p("C65", "error propagation is first-order propagation",
  "The errors on I, Q, U are the square roots of sum_j M_ij^2 sigma_j^2, and those on pB, DoLP and AoLP are the first-order propagation (root of the sum of squared partial derivatives times sigma) of the formulas used for these parameters, wherever defined; all are non-negative.",
  "all Stokes vectors, matrices and sigmas", "Calculus identity over a continuum.",
  ["micropolarray/processing/demodulation_errors.py"])
p("C66", "congrid interpolates",
  "congrid(a, dims) returns an array of shape dims (each >= 2), equal to a when dims is a's shape, preserving the four corners, and with every value between a's min and max.",
  "all arrays with sides >= 2 and all target sizes >= 2", "All size pairs.",
  ["micropolarray/processing/congrid.py:congrid", "micropolarray/micropol_image.py:MicropolImage.congrid"])
p("C67", "keyword alignment moves the data by an involutive anti-transposition and points at the sun",
  "align_keywords_and_data maps each subimage pixel (y,x) of a square image to (N-1-x, N-1-y); doing it twice restores the data; families are kept; CRPIX1/CRPIX2 point within one pixel of where the sun-centre pixel moved for full-size 1952 images.",
  "all square images, all sun centres inside", "All sizes/contents.",
  ["micropolarray/utils.py:align_keywords_and_data"])
p("C68", "histogram-based normalisation works wherever the peak lies",
  "The window of 20 bins around the modal bin used to fit the normalising signal should be non-empty for every position of the peak.",
  "every modal bin index 0..999", "Fails only for peaks near the left edge.",
  ["micropolarray/utils.py:get_malus_normalization", "micropolarray/processing/demodulation.py:calculate_demodulation_tensor"])
p("C69", "Otsu threshold minimises the intra-class variance over its candidates",
  "auto_threshold returns one of its candidate thresholds, and no candidate has a smaller weighted intra-class variance.",
  "all arrays", "Optimality over all candidates.",
  ["micropolarray/processing/image_cleaning.py:auto_threshold"])
p("C70", "occulter search finds the first jump",
  "find_occulter_position(method='algo') uses, in each of four directions, the first sample after the fifth whose value exceeds threshold times the mean of all previous samples; if some direction has none it raises ValueError; on a centred symmetric step profile it returns the centre and radius.",
  "all images and thresholds", "All profiles.",
  ["micropolarray/processing/nrgf.py:find_occulter_position"])
p("C71", "Chen-Wan-Liang calibration applies each superpixel's own correction",
  "chen_wan_liang_calibration applies at each superpixel its own 4x4 matrix to (pixels - offsets) and then the IFOV average; with identity matrices and zero offsets it is exactly the IFOV correction.",
  "all images and calibration files", "All contents.",
  ["micropolarray/processing/chen_wan_liang_calibration.py:chen_wan_liang_calibration"])
p("C72", "hot-pixel cleaning touches only flagged pixels",
  "clean_hot_pixels(map) replaces exactly the pixels whose map value is 1 by the local median of their own family and leaves all others unchanged, for any local filter.",
  "all images and maps", "All contents.",
  ["micropolarray/micropol_image.py:MicropolImage.clean_hot_pixels"])
p("C73", "hot-pixel maps can be computed",
  "get_hot_pixels(image) should return a 0/1 map for every image.",
  "every image", "Statement about all calls.",
  ["micropolarray/processing/image_cleaning.py:get_hot_pixels"])
p("C74", "an interrupted recalibration is detectable",
  "If writing the demodulation tensor into a folder is interrupted at any point, loading the folder afterwards should either fail or give one complete tensor (old or new), never a mixture.",
  "every crash point, every previous folder content", "All crash points.",
  ["micropolarray/processing/demodulation.py:calculate_demodulation_tensor", "micropolarray/processing/demodulation.py:Demodulator._get_demodulation_tensor"])
p("C75", "calibration inputs are matched by orientation, not by order",
  "calculate_demodulation_tensor's result does not depend on the order in which (orientation, file) pairs are listed, keeps each file with its orientation, and rejects lists of different lengths.",
  "all lists and permutations", "All permutations and lengths.",
  ["micropolarray/processing/demodulation.py:calculate_demodulation_tensor"])

if __name__ == "__main__":
    exec(open(os.path.join(os.path.dirname(__file__), "more_properties.py")).read()) if os.path.exists(os.path.join(os.path.dirname(__file__), "more_properties.py")) else None
    with open(os.path.join(os.path.dirname(__file__), "..", "properties.jsonl"), "w") as f:
        for q in P:
            f.write(json.dumps(q, ensure_ascii=False) + "\n")
    print(len(P))
