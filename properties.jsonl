{"id": "C01", "title": "split_polarizations puts every pixel in its family", "statement": "split_polarizations(data) succeeds exactly when both sides of data are even, and then returns four half-size images, image k holding at (y,x) the pixel data[2y + k//2, 2x + k%2]; with an odd side it raises ValueError.", "quantifier": "every image size and every pixel content (any pixel type)", "why_tests_cant": "The layout must hold for all sizes and contents; tests sample one 16x16 pattern.", "anchors": ["micropolarray/processing/demosaic.py:split_polarizations", "micropolarray/micropol_image.py:MicropolImage.single_pol_subimages"]}
{"id": "C02", "title": "merge undoes split", "statement": "For every even-sided image, merge_polarizations(split_polarizations(data)) is data, pixel for pixel and with the same shape.", "quantifier": "every even-sided image, any content", "why_tests_cant": "A round trip has to hold for all sizes and contents.", "anchors": ["micropolarray/processing/demosaic.py:split_polarizations", "micropolarray/processing/demosaic.py:merge_polarizations"]}
{"id": "C03", "title": "split undoes merge", "statement": "For any four images of one common shape, split_polarizations(merge_polarizations(images)) returns the four images unchanged.", "quantifier": "every quadruple of equally shaped images", "why_tests_cant": "Round trip over all shapes and contents.", "anchors": ["micropolarray/processing/demosaic.py:split_polarizations", "micropolarray/processing/demosaic.py:merge_polarizations"]}
{"id": "C04", "title": "superpixel binning sums same-family pixels only", "statement": "micropolarray_rebin(data, b) has shape (2*(H//(2b)), 2*(W//(2b))) and its pixel (Y,X) is the sum of the b*b pixels of data with the same micropolarizer family (same row and column parity as (Y,X)) inside the corresponding 2b x 2b block; no read is out of bounds.", "quantifier": "every even-sided image, every binning b >= 1", "why_tests_cant": "Index arithmetic over all sizes, binnings and parities, including trimming.", "anchors": ["micropolarray/processing/rebin.py:micropolarray_rebin", "micropolarray/processing/rebin.py:micropolarray_jitrebin"]}
{"id": "C05", "title": "trimming before binning terminates with the largest fitting size", "statement": "For an even-sided image and b >= 1 the superpixel trimming terminates with the largest multiples of 2b not exceeding the sides. For an odd side the call never returns.", "quantifier": "every height, width and binning", "why_tests_cant": "Termination and non-termination are statements about all numbers of iterations.", "anchors": ["micropolarray/processing/rebin.py:trim_to_match_2xbinning", "micropolarray/processing/rebin.py:micropolarray_rebin"]}
{"id": "C06", "title": "superpixel binning conserves signal", "statement": "Binning an image by b keeps, for each micropolarizer family, the total signal of the retained (trimmed) region: the sum of that family's output pixels equals the sum of that family's retained input pixels, so each retained pixel is counted exactly once.", "quantifier": "every even-sided real-valued image, every b >= 1", "why_tests_cant": "A conservation law over all images and sizes.", "anchors": ["micropolarray/processing/rebin.py:micropolarray_rebin"]}
{"id": "C07", "title": "binning composes", "statement": "Binning by a and then by b equals binning once by a*b, for superpixel binning of an even-sided image and for plain binning of any image, also when the sizes do not fit and trimming occurs at either step.", "quantifier": "every real-valued image and all a, b >= 1", "why_tests_cant": "Algebraic law over all images and factors.", "anchors": ["micropolarray/processing/rebin.py:micropolarray_rebin", "micropolarray/processing/rebin.py:standard_rebin"]}
{"id": "C08", "title": "binning commutes with family extraction and with Stokes", "statement": "The k-th single-polarization subimage of the superpixel-binned image is the plain binning of the k-th subimage, and the (theoretical) Stokes I, Q, U of the binned image are the plain binnings of the original I, Q, U.", "quantifier": "every even-sided real-valued image, every b >= 1, every angle dictionary", "why_tests_cant": "Commutation over all images and binnings.", "anchors": ["micropolarray/processing/rebin.py", "micropolarray/processing/demosaic.py:split_polarizations", "micropolarray/micropol_image.py:MicropolImage.rebin"]}
{"id": "C09", "title": "plain binning is the block sum", "statement": "standard_rebin(data, b) (hence Image.rebin) terminates for every size and b >= 1, has shape (H//b, W//b), and pixel (Y,X) is the sum of data over the b x b block at (bY, bX); it never reads out of bounds and conserves the signal of the retained region.", "quantifier": "every image, every b >= 1", "why_tests_cant": "All sizes/binnings, including trimming.", "anchors": ["micropolarray/processing/rebin.py:standard_rebin", "micropolarray/processing/rebin.py:standard_jitrebin", "micropolarray/processing/rebin.py:trim_to_match_binning", "micropolarray/image.py:Image.rebin"]}
{"id": "C10", "title": "old and new superpixel binning agree", "statement": "micropolarray_jitrebin_old(data, H, W, b) and micropolarray_rebin(data, b) (read as Python source) behave the same on every image: same array, same exception, or both never return.", "quantifier": "every image and binning", "why_tests_cant": "Equivalence of two programs for all inputs.", "anchors": ["micropolarray/processing/rebin.py:micropolarray_jitrebin_old", "micropolarray/processing/rebin.py:micropolarray_rebin"]}
{"id": "C11", "title": "shift moves every pixel and fills the rest", "statement": "shift(data, y, x, m) has the shape of data; pixel (j,i) is data[j-y, i-x] when that source pixel exists and m otherwise, for every positive or negative y, x including |y|,|x| larger than the image; no read is out of bounds.", "quantifier": "every image, every integer shift, every fill value", "why_tests_cant": "All offsets including sign combinations and offsets beyond the sides.", "anchors": ["micropolarray/processing/shift.py:shift", "micropolarray/image.py:Image.shift"]}
{"id": "C12", "title": "micropolarizer shift keeps pixel families", "statement": "MicropolImage.shift(y, x) moves whole superpixels: it equals the plain shift of the mosaic by (2y, 2x) pixels, so every pixel stays in its family. Shifting by (y,x) and back restores every pixel whose superpixel stayed inside.", "quantifier": "every even-sided image, every integer shift", "why_tests_cant": "All offsets and sizes.", "anchors": ["micropolarray/processing/shift.py:shift_micropol", "micropolarray/micropol_image.py:MicropolImage.shift"]}
{"id": "C13", "title": "adjacent demosaicing interpolates within the family", "statement": "demosaic(data, 'adjacent') on an even-sided image returns four full-size images; in image k the four pixels of superpixel (Y,X) are the family-k sample of that superpixel, and its averages with the family-k samples of the next superpixel down, right, and diagonal (the last row/column is replicated). Hence every value lies between the min and max of the family-k samples, a uniform family gives a uniform image, and no read is out of bounds.", "quantifier": "every even-sided image (all sizes, contents)", "why_tests_cant": "Boundary handling and interpolation for all sizes.", "anchors": ["micropolarray/processing/demosaic.py:demosaic", "micropolarray/processing/demosaic.py:demosaicadjacent"]}
{"id": "C14", "title": "demosaicing preserves measured pixels", "statement": "A full-resolution demosaiced image of family k should keep, at every pixel that carries micropolarizer k, the value measured there.", "quantifier": "every even-sided image, every family k, every pixel", "why_tests_cant": "Holds or fails over all images; tests use per-family constant data where it cannot be seen.", "anchors": ["micropolarray/processing/demosaic.py:demosaicadjacent", "micropolarray/micropol_image.py:MicropolImage.demosaic"]}
{"id": "C15", "title": "mean demosaicing spreads a quarter of each sample", "statement": "demosaic(data, 'mean') on an even-sided image returns four full-size images, image k being constant on each superpixel and equal to a quarter of its family-k sample; summing image k over the superpixel gives back the sample, so signal is conserved. An option other than mean/adjacent/spline raises ValueError.", "quantifier": "every even-sided image, every option string", "why_tests_cant": "All sizes and contents.", "anchors": ["micropolarray/processing/demosaic.py:demosaicmean", "micropolarray/processing/demosaic.py:demosaic"]}
{"id": "C16", "title": "IFOV correction averages same-family neighbours", "statement": "MicropolImage.correct_ifov() replaces each pixel by the mean of itself and its same-family neighbours up, left and up-left (offset 2), zeroes the first two rows and columns, never mixes families and never reads out of bounds for even-sided images.", "quantifier": "every even-sided image", "why_tests_cant": "All sizes and contents.", "anchors": ["micropolarray/processing/chen_wan_liang_calibration.py:_ifov_jitcorrect", "micropolarray/micropol_image.py:MicropolImage.correct_ifov"]}
{"id": "C17", "title": "ideal micropolarizer data gives back the true Stokes vector", "statement": "If every superpixel holds the intensities an ideal 0/45/90/-45 micropolarizer array records for incoming light (I,Q,U), in any arrangement described by angle_dic, then the image's I, Q, U are exactly the incoming ones.", "quantifier": "every field of Stokes vectors, every size, every one of the arrangements given by an angle dictionary", "why_tests_cant": "Exact inversion over all light fields and arrangements.", "anchors": ["micropolarray/micropol_image.py:MicropolImage._get_theo_Stokes_vec_components"]}
{"id": "C18", "title": "image arithmetic is linear on Stokes parameters", "statement": "For raw (not demosaiced) images a, b of equal shape and angle dictionary, the Stokes vector of a+b, a-b and c*a is the pixelwise sum, difference and multiple of the Stokes vectors; adding a constant c to all pixels changes I by 2c and leaves Q and U unchanged.", "quantifier": "all pairs of images and scalars", "why_tests_cant": "Algebraic law over all inputs.", "anchors": ["micropolarray/micropol_image.py:MicropolImage.__add__", "micropolarray/micropol_image.py:MicropolImage.__sub__", "micropolarray/micropol_image.py:MicropolImage.__mul__"]}
{"id": "C19", "title": "pB and AoLP are the polar form of (Q,U)", "statement": "For every Stokes vector, pB >= 0, AoLP lies in (-pi/2, pi/2], and Q = pB*cos(2*AoLP), U = pB*sin(2*AoLP); pB is zero exactly for unpolarized light.", "quantifier": "all real Stokes vectors", "why_tests_cant": "Real-analysis identity over a continuum.", "anchors": ["micropolarray/polarization_functions.py:pB", "micropolarray/polarization_functions.py:AoLP"]}
{"id": "C20", "title": "DoLP is well defined and bounded", "statement": "DoLP is pB/I where I is non-zero and 0 where I is zero (never a division by zero). For an image with non-negative pixels DoLP lies between 0 and 2; it should never exceed 1 for a physical signal.", "quantifier": "all images with non-negative pixels", "why_tests_cant": "A bound over a continuum of inputs, attained at corner cases.", "anchors": ["micropolarray/polarization_functions.py:DoLP", "micropolarray/micropol_image.py:MicropolImage.DoLP"]}
{"id": "C21", "title": "AoLP and DoLP do not depend on exposure", "statement": "Multiplying an image by a positive constant leaves AoLP and DoLP unchanged everywhere and multiplies I, Q, U and pB by that constant.", "quantifier": "all images, all positive factors", "why_tests_cant": "Invariance over all inputs.", "anchors": ["micropolarray/polarization_functions.py", "micropolarray/micropol_image.py:MicropolImage.__mul__"]}
{"id": "C22", "title": "polarized light gives back its polarization angle and degree", "statement": "For a uniform source of any intensity S>0 through a polarizer at any angle a with throughput t>0 and efficiency e in (0,1] observed by micropolarizers at 0/45/-45/90 (Malus curve), the theoretical AoLP equals a modulo pi, DoLP equals e and I equals t*S.", "quantifier": "all angles, intensities, throughputs and efficiencies", "why_tests_cant": "Continuum of angles; tests sample a grid and round to one digit.", "anchors": ["micropolarray/processing/demodulation.py:Malus", "micropolarray/polarization_functions.py:AoLP", "micropolarray/polarization_functions.py:DoLP"]}
{"id": "C23", "title": "the Malus model is a bounded pi-periodic curve", "statement": "Malus(angle,t,e,phi) is pi-periodic in angle and in phi, lies in [t(1-e)/2, t(1+e)/2] for t,e >= 0, attains the maximum at angle = phi and the minimum at phi+pi/2, and two orthogonal polarizer angles always add up to t.", "quantifier": "all real arguments with t,e >= 0", "why_tests_cant": "Continuum of inputs.", "anchors": ["micropolarray/processing/demodulation.py:Malus"]}
{"id": "C24", "title": "demodulation is the per-superpixel matrix product", "statement": "demodulate(d) without demosaicing gives at each superpixel the product of that superpixel's 3x4 matrix with its four pixel values in family order 0..3 where d's fit flag is 1 (or where d has no flags), and the image's previous Stokes vector elsewhere; it never uses another superpixel, leaves the input image and its data unchanged, and rejects tensors of another shape.", "quantifier": "every image, tensor and flag map", "why_tests_cant": "All images, tensors, flags.", "anchors": ["micropolarray/micropol_image.py:MicropolImage.demodulate", "micropolarray/micropol_image.py:MicropolImage._get_Stokes_from_demodulator"]}
{"id": "C25", "title": "demodulation inverts the measured modulation", "statement": "If a superpixel's demodulation matrix is the one calculate_demodulation_tensor derives from throughputs t_k, efficiencies e_k and angles phi_k (with a rank-3 modulation matrix), then demodulating the intensities these four micropolarizers record for incoming light (I,Q,U) gives back exactly (I,Q,U).", "quantifier": "all parameters with rank-3 modulation, all incoming light", "why_tests_cant": "Exact left-inverse over a continuum.", "anchors": ["micropolarray/processing/demodulation.py:compute_demodulation_by_chunk", "micropolarray/micropol_image.py:MicropolImage._get_Stokes_from_demodulator"]}
{"id": "C26", "title": "demodulation with demosaicing uses each pixel's own superpixel matrix", "statement": "demodulate(d, demosaicing=True) applies at full-resolution pixel (y,x) the matrix and fit flag of superpixel (y//2, x//2) to the four demosaiced values at (y,x), falling back to the theoretical Stokes of the demosaiced images where the flag is not 1, and works for demodulators with and without fit flags.", "quantifier": "every image, tensor, flag map", "why_tests_cant": "All sizes/contents and the flag-less case.", "anchors": ["micropolarray/micropol_image.py:MicropolImage._get_Stokes_from_demodulator"]}
{"id": "C27", "title": "saved demodulation tensors load back, whatever the listing order", "statement": "A folder containing exactly the files written by calculate_demodulation_tensor loads into the same (3,4,y,x) tensor and flag map, whatever order the directory listing returns.", "quantifier": "every tensor and every permutation of the directory listing", "why_tests_cant": "All orders of a 16-file listing; all contents.", "anchors": ["micropolarray/processing/demodulation.py:Demodulator._get_demodulation_tensor", "micropolarray/processing/demodulation.py:calculate_demodulation_tensor"]}
{"id": "C28", "title": "a folder with a missing matrix is rejected", "statement": "Loading a demodulator should fail whenever any of the twelve components M00..M23 has no file in the folder.", "quantifier": "every set of file names", "why_tests_cant": "All subsets and stray names.", "anchors": ["micropolarray/processing/demodulation.py:Demodulator._get_demodulation_tensor"]}
{"id": "C29", "title": "the processor grid does not change the result", "statement": "Splitting the image into a grid of chunks, fitting each chunk in a worker and merging gives the same tensor, flags and parameter maps as processing the whole image in one piece, for every grid accepted by calculate_demodulation_tensor, every worker completion order, every per-superpixel fit.", "quantifier": "every image size, processor grid, schedule, per-superpixel computation", "why_tests_cant": "Parallel decomposition over all grids and schedules.", "anchors": ["micropolarray/processing/demodulation.py:calculate_demodulation_tensor"]}
{"id": "C30", "title": "each superpixel's calibration is its own", "statement": "compute_demodulation_by_chunk computes each superpixel's matrix, flag, throughput, efficiency, phase, covariance and chi-square from that superpixel's own samples only; the flag is 1 exactly when it is not occulted, no pixel is dark in every image, all four fits succeed and every matrix entry is within [-100,100]; in every other case the matrix is the theoretical one.", "quantifier": "every chunk, every fit outcome pattern", "why_tests_cant": "Loop-carried scratch arrays are reused across superpixels: independence must hold for all failure patterns.", "anchors": ["micropolarray/processing/demodulation.py:compute_demodulation_by_chunk"]}
{"id": "C31", "title": "pixel families are recovered from fitted phases", "statement": "If the mean fitted phases of the four families are within 22.5 degrees (exclusive) of a permutation of 0, 45, -45, 90 (the 90 one possibly fitted near -90), the demodulator's angle_dic is exactly that permutation.", "quantifier": "all permutations and all real deviations below 22.5 degrees", "why_tests_cant": "Continuum of phases.", "anchors": ["micropolarray/processing/demodulation.py:Demodulator.angle_dic"]}
{"id": "C32", "title": "angle_dic always assigns four distinct families", "statement": "For any fitted phases, the demodulator's angle_dic should map the four angles to four different pixel families.", "quantifier": "all phase quadruples", "why_tests_cant": "Fails only on unusual phases.", "anchors": ["micropolarray/processing/demodulation.py:Demodulator.angle_dic"]}
{"id": "C33", "title": "the occulted region is excluded from the fit as whole superpixels", "statement": "The occulter flag used by the calibration is constant on superpixels and flags every superpixel whose (superpixel) distance from the occulter centre is at most the radius.", "quantifier": "every image size, centre and radius", "why_tests_cant": "All geometries, including the centre itself.", "anchors": ["micropolarray/processing/demodulation.py:calculate_demodulation_tensor", "micropolarray/processing/nrgf.py:roi_from_polar"]}
{"id": "C34", "title": "normalisation never divides by zero", "statement": "After the calibration's 'correct S=0' step every normalising value should be non-zero, so that normalised data is finite.", "quantifier": "every normalising image", "why_tests_cant": "Needs all values including zero.", "anchors": ["micropolarray/processing/demodulation.py:calculate_demodulation_tensor"]}
{"id": "C35", "title": "polar ROI selects by distance and angle, superpixel by superpixel", "statement": "roi_from_polar(data, c, [r1,r2], [t1,t2]) keeps a pixel exactly when its superpixel lies in the half-size annular sector (r1//2 < distance <= r2//2, t1 <= angle < t2) and writes fill elsewhere; with include_superpixels=False the test is made pixel by pixel; return_boolean returns exactly the kept-mask. Odd sides are rejected in superpixel mode.", "quantifier": "every image, centre, radii, angles, fill", "why_tests_cant": "All geometries.", "anchors": ["micropolarray/processing/nrgf.py:roi_from_polar", "micropolarray/processing/nrgf.py:map_polar_coordinates"]}
{"id": "C36", "title": "the documented default radius works", "statement": "roi_from_polar(data) with rho omitted should select from the centre to the image border, as documented.", "quantifier": "every image and centre", "why_tests_cant": "A statement about every call with the default.", "anchors": ["micropolarray/processing/nrgf.py:roi_from_polar"]}
{"id": "C37", "title": "masking the occulter keeps data and Stokes vector consistent", "statement": "After mask_occulter on a raw image with fill 0, every Stokes pixel equals the Stokes value computed from the masked data; pixels outside the occulter are untouched.", "quantifier": "every even-sided image, every centre inside the image and radius", "why_tests_cant": "All geometries.", "anchors": ["micropolarray/micropol_image.py:MicropolImage.mask_occulter"]}
{"id": "C38", "title": "inner and outer ROI partition the image", "statement": "For any centre and radius, each pixel is selected by exactly one of the ROIs [0,r] and [r, infinity) with full angle range.", "quantifier": "every image, centre and radius", "why_tests_cant": "All geometries including the centre pixel.", "anchors": ["micropolarray/processing/nrgf.py:roi_from_polar"]}
{"id": "C39", "title": "the radial filter normalises each ring", "statement": "nrgf with equal mean and output sectors gives each processed ring zero mean and unit standard deviation (or zeros if the ring is uniform), leaves pixels within rho_min at 0, and is unchanged by any gain g>0 and offset applied to the data.", "quantifier": "every image, centre, rho_min, step", "why_tests_cant": "Statistics identities over all images.", "anchors": ["micropolarray/processing/nrgf.py:nrgf"]}
{"id": "C40", "title": "camera masks and ROI agree", "statement": "PolarCam.occulter_mask is True exactly at pixels that roi_from_polar keeps; Camera.occulter_roi keeps exactly the pixels beyond the (over)occulter radius.", "quantifier": "every overoccult and rmax", "why_tests_cant": "All parameter values.", "anchors": ["micropolarray/cameras.py:Camera.occulter_mask", "micropolarray/cameras.py:Camera.occulter_roi"]}
{"id": "C41", "title": "normalize2pi returns the representative in (-90, 90]", "statement": "In exact arithmetic normalize2pi terminates on every list of angles and replaces each by the unique congruent angle modulo 180 in (-90, 90]; it is idempotent, keeps the order and length, and updates a list argument in place.", "quantifier": "all lists of real angles", "why_tests_cant": "Unbounded number of loop iterations; continuum.", "anchors": ["micropolarray/utils.py:normalize2pi", "micropolarray/polarization_functions.py:normalize2pi"]}
{"id": "C42", "title": "normalize2pi always returns on floating point input", "statement": "normalize2pi should return for every finite floating-point angle.", "quantifier": "all binary64 numbers", "why_tests_cant": "Non-termination at large magnitudes only.", "anchors": ["micropolarray/utils.py:normalize2pi"]}
{"id": "C43", "title": "normalize2piarray maps into (-pi/2, pi/2]", "statement": "In exact arithmetic normalize2piarray terminates on every finite array and maps each element to the unique congruent value modulo pi in (-pi/2, pi/2].", "quantifier": "all real arrays", "why_tests_cant": "Whole-array loops interact across elements; continuum.", "anchors": ["micropolarray/utils.py:normalize2piarray"]}
{"id": "C44", "title": "12-bit packed decoding is a bijection", "statement": "three_bytes_to_two_ints decodes every byte string of length 3n into 2n integers in [0,4095]; packing those integers back (12 bits + 4 low bits, then 8 high bits) returns the original bytes, and every list of 2n such integers is the decoding of exactly one byte string.", "quantifier": "all byte strings whose length is a multiple of 3", "why_tests_cant": "2^(24n) inputs.", "anchors": ["micropolarray/processing/convert.py:three_bytes_to_two_ints"]}
{"id": "C45", "title": "parallel decoding equals sequential decoding", "statement": "For a file of 1952*1952*3/2 bytes, nparr_from_binary returns the row-major image of the sequential decoding of the file, whatever order the 32 workers finish in.", "quantifier": "all file contents, all schedules", "why_tests_cant": "All contents and schedules, including chunks ending with zero bytes.", "anchors": ["micropolarray/processing/convert.py:nparr_from_binary"]}
{"id": "C46", "title": "files of a wrong length are rejected", "statement": "nparr_from_binary raises for every file whose length is not 1952*1952*3/2, and never returns a wrongly shaped or partially decoded image.", "quantifier": "all file lengths and contents", "why_tests_cant": "All lengths.", "anchors": ["micropolarray/processing/convert.py:nparr_from_binary"]}
{"id": "C47", "title": "raw files round-trip", "statement": "Saving an image with save_as_raw and reading it back as a raw file of the same height and width returns the pixel values whenever they are integers in [0, 32767]; values are written row by row, two bytes each, low byte first.", "quantifier": "all images with such values, all sizes", "why_tests_cant": "All contents/sizes.", "anchors": ["micropolarray/image.py:Image.save_as_raw", "micropolarray/processing/convert.py:convert_rawfile_to_fits"]}
{"id": "C48", "title": "converting a raw file never loses data", "statement": "convert_rawfile_to_fits(remove_old=True), interrupted at any point, leaves either the raw file or a completely written fits file; if the file is too short or cannot be read, nothing is written or removed.", "quantifier": "every crash point, every file content", "why_tests_cant": "All crash points.", "anchors": ["micropolarray/processing/convert.py:convert_rawfile_to_fits"]}
{"id": "C49", "title": "the converted file is named after the raw file", "statement": "convert_rawfile_to_fits('<path>.raw') should write '<path>.fits' in the same directory for every absolute path.", "quantifier": "every path string", "why_tests_cant": "Paths with extra dots.", "anchors": ["micropolarray/processing/convert.py:convert_rawfile_to_fits"]}
{"id": "C50", "title": "merging raw files is order independent", "statement": "merge_rawfiles_to_fits writes the pixelwise sum (mode 'sum') or mean (mode 'average') of the 16-bit little-endian images, independent of the order of the file list; a file shorter than height*width*2 bytes makes the call raise with nothing written; extra bytes are ignored.", "quantifier": "all lists of files, all permutations", "why_tests_cant": "All lists, permutations and lengths.", "anchors": ["micropolarray/processing/convert.py:merge_rawfiles_to_fits", "micropolarray/processing/convert.py:average_rawfiles_to_fits"]}
{"id": "C51", "title": "loading several files averages or sums them", "statement": "Image(list_of_files) has as data the pixelwise mean (default) or sum (averageimages=False) of the files, independent of their order; its header is the first file's, extended with SUMOF=n and, when observation times are known, STRT-OBS and END-OBS equal to the earliest and latest time.", "quantifier": "all lists of files and header dates, all permutations", "why_tests_cant": "All lists/permutations.", "anchors": ["micropolarray/image.py:Image._init_image_from_file"]}
{"id": "C52", "title": "an image remembers its file name", "statement": "After Image(name) or Image([name]) the image's filename should be name.", "quantifier": "every file name", "why_tests_cant": "A statement about all names, including the plain string form.", "anchors": ["micropolarray/image.py:Image._init_image_from_file"]}
{"id": "C53", "title": "fix_data clamps to the requested range", "statement": "fix_data(data, lo, hi) should return data with every value clamped into [lo, hi] for every lo <= hi.", "quantifier": "all arrays and bounds", "why_tests_cant": "Fails only for a zero bound.", "anchors": ["micropolarray/utils.py:fix_data", "micropolarray/image.py:Image.save_as_fits"]}
{"id": "C54", "title": "saved parameter files never overwrite each other", "statement": "save_all_pol_params_as_fits, save_single_pol_images and save_demosaiced_images_as_fits write pairwise different file names, all in the directory of the requested file, for every valid file name; an invalid suffix raises before anything is written.", "quantifier": "every file name and angle dictionary", "why_tests_cant": "All names.", "anchors": ["micropolarray/micropol_image.py:save_all_pol_params_as_fits", "micropolarray/micropol_image.py:save_single_pol_images", "micropolarray/micropol_image.py:save_demosaiced_images_as_fits", "micropolarray/utils.py:_make_abs_and_create_dir"]}
{"id": "C55", "title": "Stokes vector always reflects the data", "statement": "Along any sequence of constructions, copies, dark/flat/IFOV corrections, binning, shifting, arithmetic and hot-pixel cleaning (no demosaic, demodulate, rotate, mask, congrid), every live image's Stokes vector is the theoretical Stokes vector of its current data.", "quantifier": "every history of operations on any number of images", "why_tests_cant": "Invariant over unbounded histories.", "anchors": ["micropolarray/micropol_image.py:MicropolImage"]}
{"id": "C56", "title": "methods that return a new image leave all other images unchanged", "statement": "demodulate, rebin, congrid, rotate, shift, clean_hot_pixels and the arithmetic operators leave the observable state (data, Stokes vector, header dimensions, flags, angle dictionary) of every existing image unchanged.", "quantifier": "every history, every existing image", "why_tests_cant": "Aliasing shows only along histories.", "anchors": ["micropolarray/micropol_image.py:MicropolImage._import_image_parameters", "micropolarray/micropol_image.py:MicropolImage.rebin", "micropolarray/micropol_image.py:MicropolImage.rotate"]}
{"id": "C57", "title": "header dimensions always match the data", "statement": "In every reachable state, each image's header NAXIS1/NAXIS2 equal its data width and height.", "quantifier": "every history", "why_tests_cant": "Aliasing of headers between copies.", "anchors": ["micropolarray/image.py:Image.data", "micropolarray/micropol_image.py:MicropolImage._import_image_parameters"]}
{"id": "C58", "title": "corrections after demosaicing are reflected in the polarization parameters", "statement": "Subtracting a dark, correcting a flat, shifting, binning or adding an image to a demosaiced image should update its Stokes vector according to the new data.", "quantifier": "every history containing demosaic", "why_tests_cant": "Needs an operation history.", "anchors": ["micropolarray/micropol_image.py:MicropolImage._get_theo_Stokes_vec_components", "micropolarray/micropol_image.py:MicropolImage.subtract_dark"]}
{"id": "C59", "title": "images keep the angle dictionary in force when they were created", "statement": "An image created without an explicit dictionary keeps the default dictionary in force at its creation (PolarCam's if none was ever set), later set_default_angles calls never change existing images, and copies and derived images inherit the dictionary of their source.", "quantifier": "every interleaving of set_default_angles and image operations", "why_tests_cant": "Histories with global state.", "anchors": ["micropolarray/micropol_image.py:set_default_angles", "micropolarray/micropol_image.py:MicropolImage.__init__"]}
{"id": "C60", "title": "dark subtraction clips at zero", "statement": "After subtract_dark every pixel is max(data-dark, 0); in particular non-negative, and a dark equal to the image gives the zero image with zero Stokes vector.", "quantifier": "all images and darks", "why_tests_cant": "All contents.", "anchors": ["micropolarray/micropol_image.py:MicropolImage.subtract_dark"]}
{"id": "C61", "title": "flat correction and division are determined by their inputs", "statement": "correct_flat gives data*mean(flat)/flat, and a/b the pixelwise quotient, at every pixel whose divisor is non-zero; the value at zero-divisor pixels should also be determined by the inputs.", "quantifier": "all images and flats", "why_tests_cant": "Uninitialised output memory is invisible to most tests.", "anchors": ["micropolarray/micropol_image.py:MicropolImage.correct_flat", "micropolarray/micropol_image.py:MicropolImage.__truediv__", "micropolarray/image.py:Image.__truediv__"]}
{"id": "C62", "title": "an explicit angle dictionary is honoured when copying", "statement": "MicropolImage(image, angle_dic=d) should use d for its polarization parameters.", "quantifier": "every image and dictionary", "why_tests_cant": "Histories/aliasing.", "anchors": ["micropolarray/micropol_image.py:MicropolImage._import_image_parameters"]}
{"id": "C63", "title": "linear_roi samples the segment from start to end", "statement": "linear_roi(data, start, end) samples start first, moves by at most one pixel per sample in each direction, and should stay inside the bounding box of start and end (so a segment inside the image never fails).", "quantifier": "every pair of integer points", "why_tests_cant": "All slopes and quadrants.", "anchors": ["micropolarray/processing/linear_roi.py:DDA", "micropolarray/processing/linear_roi.py:linear_roi"]}
{"id": "C64", "title": "Bresenham rasterisation is the nearest-pixel line", "statement": "For |dy| <= |dx|, dx != 0, bresenham(start,end) returns |dx|+1 points from start to end, one per column, each within half a pixel of the ideal line.", "quantifier": "every such pair of integer points", "why_tests_cant": "All slopes up to 45 degrees, all lengths.", "anchors": ["micropolarray/processing/linear_roi.py:bresenham"]}
{"id": "C65", "title": "error propagation is first-order propagation", "statement": "The errors on I, Q, U are the square roots of sum_j M_ij^2 sigma_j^2, and those on pB, DoLP and AoLP are the first-order propagation (root of the sum of squared partial derivatives times sigma) of the formulas used for these parameters, wherever defined; all are non-negative.", "quantifier": "all Stokes vectors, matrices and sigmas", "why_tests_cant": "Calculus identity over a continuum.", "anchors": ["micropolarray/processing/demodulation_errors.py"]}
{"id": "C66", "title": "congrid interpolates", "statement": "congrid(a, dims) returns an array of shape dims (each >= 2), equal to a when dims is a's shape, preserving the four corners, and with every value between a's min and max.", "quantifier": "all arrays with sides >= 2 and all target sizes >= 2", "why_tests_cant": "All size pairs.", "anchors": ["micropolarray/processing/congrid.py:congrid", "micropolarray/micropol_image.py:MicropolImage.congrid"]}
{"id": "C67", "title": "keyword alignment moves the data by an involutive anti-transposition and points at the sun", "statement": "align_keywords_and_data maps each subimage pixel (y,x) of a square image to (N-1-x, N-1-y); doing it twice restores the data; families are kept; CRPIX1/CRPIX2 point within one pixel of where the sun-centre pixel moved for full-size 1952 images.", "quantifier": "all square images, all sun centres inside", "why_tests_cant": "All sizes/contents.", "anchors": ["micropolarray/utils.py:align_keywords_and_data"]}
{"id": "C68", "title": "histogram-based normalisation works wherever the peak lies", "statement": "The window of 20 bins around the modal bin used to fit the normalising signal should be non-empty for every position of the peak.", "quantifier": "every modal bin index 0..999", "why_tests_cant": "Fails only for peaks near the left edge.", "anchors": ["micropolarray/utils.py:get_malus_normalization", "micropolarray/processing/demodulation.py:calculate_demodulation_tensor"]}
{"id": "C69", "title": "Otsu threshold minimises the intra-class variance over its candidates", "statement": "auto_threshold returns one of its candidate thresholds, and no candidate has a smaller weighted intra-class variance.", "quantifier": "all arrays", "why_tests_cant": "Optimality over all candidates.", "anchors": ["micropolarray/processing/image_cleaning.py:auto_threshold"]}
{"id": "C70", "title": "occulter search finds the first jump", "statement": "find_occulter_position(method='algo') uses, in each of four directions, the first sample after the fifth whose value exceeds threshold times the mean of all previous samples; if some direction has none it raises ValueError; on a centred symmetric step profile it returns the centre and radius.", "quantifier": "all images and thresholds", "why_tests_cant": "All profiles.", "anchors": ["micropolarray/processing/nrgf.py:find_occulter_position"]}
{"id": "C71", "title": "Chen-Wan-Liang calibration applies each superpixel's own correction", "statement": "chen_wan_liang_calibration applies at each superpixel its own 4x4 matrix to (pixels - offsets) and then the IFOV average; with identity matrices and zero offsets it is exactly the IFOV correction.", "quantifier": "all images and calibration files", "why_tests_cant": "All contents.", "anchors": ["micropolarray/processing/chen_wan_liang_calibration.py:chen_wan_liang_calibration"]}
{"id": "C72", "title": "hot-pixel cleaning touches only flagged pixels", "statement": "clean_hot_pixels(map) replaces exactly the pixels whose map value is 1 by the local median of their own family and leaves all others unchanged, for any local filter.", "quantifier": "all images and maps", "why_tests_cant": "All contents.", "anchors": ["micropolarray/micropol_image.py:MicropolImage.clean_hot_pixels"]}
{"id": "C73", "title": "hot-pixel maps can be computed", "statement": "get_hot_pixels(image) should return a 0/1 map for every image.", "quantifier": "every image", "why_tests_cant": "Statement about all calls.", "anchors": ["micropolarray/processing/image_cleaning.py:get_hot_pixels"]}
{"id": "C74", "title": "an interrupted recalibration is detectable", "statement": "If writing the demodulation tensor into a folder is interrupted at any point, loading the folder afterwards should either fail or give one complete tensor (old or new), never a mixture.", "quantifier": "every crash point, every previous folder content", "why_tests_cant": "All crash points.", "anchors": ["micropolarray/processing/demodulation.py:calculate_demodulation_tensor", "micropolarray/processing/demodulation.py:Demodulator._get_demodulation_tensor"]}
{"id": "C75", "title": "calibration inputs are matched by orientation, not by order", "statement": "calculate_demodulation_tensor's result does not depend on the order in which (orientation, file) pairs are listed, keeps each file with its orientation, and rejects lists of different lengths.", "quantifier": "all lists and permutations", "why_tests_cant": "All permutations and lengths.", "anchors": ["micropolarray/processing/demodulation.py:calculate_demodulation_tensor"]}
{"id": "C76", "title": "averaging a set of 12-bit files", "statement": "convert_set writes the pixelwise mean of the decoded 12-bit files to the requested file and touches no other file, even when interrupted; the result does not depend on the order of the list or of the worker processes.", "quantifier": "all lists of files, permutations and schedules", "why_tests_cant": "All lists, contents and schedules.", "anchors": ["micropolarray/processing/convert.py:convert_set", "micropolarray/processing/convert.py:nparr_from_binary"]}
{"id": "C77", "title": "calibration with a flat field", "statement": "calculate_demodulation_tensor called with flat_filename should return a tensor whose calibration images were divided by the dark-subtracted flat field.", "quantifier": "all files, orientations, arguments and workers' completion orders", "why_tests_cant": "All arguments and files; the failing branch needs a calibration series with a flat.", "anchors": ["micropolarray/processing/demodulation.py:calculate_demodulation_tensor"]}
{"id": "C78", "title": "removing outliers from a row of values", "statement": "remove_outliers_simple(data, neighbours) should replace an isolated outlier in an otherwise constant row by the value of its neighbours.", "quantifier": "all lengths, positions, values and window sizes of at least 2", "why_tests_cant": "All rows; a statement about every position of the outlier.", "anchors": ["micropolarray/processing/image_cleaning.py:remove_outliers_simple"]}
{"id": "C79", "title": "rejecting outliers by median deviation", "statement": "reject_outliers(data, m) keeps, in order, exactly the values closer to the median than m times the median absolute deviation; a value far from all others should not be kept.", "quantifier": "all lists of values and all m > 0", "why_tests_cant": "All lists; the exception needs a majority of equal values.", "anchors": ["micropolarray/processing/image_cleaning.py:reject_outliers"]}
{"id": "C80", "title": "a line from a centre along an angle", "statement": "linear_roi_from_polar(data, center, theta, r) should, for every centre pixel of the image and every angle, return pixels of the image that start at the centre, move at most one pixel per sample, follow the ray of that angle until it leaves the image or reaches the outer radius, together with the values of the image there; with an inner radius the samples should start there.", "quantifier": "all images, centres, angles and radii", "why_tests_cant": "A continuum of angles; centres next to the border and inner radii beyond it are needed for the failures.", "anchors": ["micropolarray/processing/linear_roi.py:linear_roi_from_polar", "micropolarray/processing/linear_roi.py:DDA"]}
{"id": "C81", "title": "every demosaicing option works", "statement": "demosaic(data, option) should return four images of the size of the data for each option the code handles: 'mean', 'adjacent' and 'spline'.", "quantifier": "all images and options", "why_tests_cant": "All images; no image can be demosaiced with one of the options.", "anchors": ["micropolarray/processing/demosaic.py:demosaic"]}
{"id": "C82", "title": "resampled images are consistent", "statement": "MicropolImage.congrid(y, x) should return an image whose Stokes parameters have the size its data call for (half the sides of a mosaic, all of it once demosaiced), as every other method does.", "quantifier": "all images, new sizes and histories of calls", "why_tests_cant": "All reachable states of an image; depends on whether it was demosaiced before.", "anchors": ["micropolarray/micropol_image.py:MicropolImage.congrid"]}
{"id": "C83", "title": "a constructed image has data", "statement": "Image(x) and MicropolImage(x) should either return an image with two-dimensional data, whose height and width agree with it, or raise.", "quantifier": "all kinds of initialisers", "why_tests_cant": "All kinds of arguments, other images included.", "anchors": ["micropolarray/image.py:Image.__init__", "micropolarray/micropol_image.py:MicropolImage.__init__"]}
{"id": "C84", "title": "superpixel calibration without a flat", "statement": "calculate_chen_wan_lian_calibration(orientations, files, phases, dir) with its default flat_filename=None should compute and write the calibration matrices.", "quantifier": "all files, orientations, phases and darks", "why_tests_cant": "All arguments.", "anchors": ["micropolarray/processing/chen_wan_liang_calibration.py:calculate_chen_wan_lian_calibration"]}
{"id": "C85", "title": "superpixel calibration corrects the calibration images", "statement": "The matrices and offsets computed from the calibration images should map each of these images to what ideal micropolarizers would have recorded of its Stokes vector; in particular they should leave the images of an ideal sensor unchanged.", "quantifier": "all superpixels, orientations, pixel values and pseudo-inverses", "why_tests_cant": "A statement about every superpixel and every series of orientations, in exact arithmetic.", "anchors": ["micropolarray/processing/chen_wan_liang_calibration.py:calculate_chen_wan_lian_calibration", "micropolarray/processing/chen_wan_liang_calibration.py:_build_S_input"]}
{"id": "C86", "title": "mean and standard deviation limits", "statement": "At most 1/n^2 of the values of an image lie outside [mean_minus_std(data, n), mean_plus_std(data, n)], the limits are symmetric around the mean and equal only for constant data (n > 0).", "quantifier": "all images and all n > 0", "why_tests_cant": "All images; a counting bound.", "anchors": ["micropolarray/utils.py:mean_minus_std", "micropolarray/utils.py:mean_plus_std"]}
{"id": "C87", "title": "median and median deviation limits", "statement": "At least half of the values of an image lie in [median_minus_std(data), median_plus_std(data)], and the limits are symmetric around the median.", "quantifier": "all images", "why_tests_cant": "All images; a counting bound.", "anchors": ["micropolarray/utils.py:median_minus_std", "micropolarray/utils.py:median_plus_std"]}
{"id": "C88", "title": "turning and flipping a demodulator", "statement": "Demodulator.rot90(k) and flip(axis) move every superpixel's matrix: four quarter turns and two flips restore the tensor, and demodulating the turned image with the turned demodulator should give the turned Stokes vector.", "quantifier": "all tensors, images and k", "why_tests_cant": "All tensors and images; involves the order of the pixels in a superpixel.", "anchors": ["micropolarray/processing/demodulation.py:Demodulator.rot90", "micropolarray/processing/demodulation.py:Demodulator.flip"]}
{"id": "C89", "title": "binning a demodulator", "statement": "Demodulator.rebin(n) returns a demodulator whose matrices are the means of the n x n blocks of the matrices of the one it is called on, and raises ValueError if the binned sides would be odd.", "quantifier": "all tensors, binnings and states of the demodulator", "why_tests_cant": "All tensors and the states reached by rot90 and flip.", "anchors": ["micropolarray/processing/demodulation.py:Demodulator.rebin"]}
{"id": "C90", "title": "occulter search by circles", "statement": "find_occulter_hough returns (y, x, r) of the only circle found for the first accumulator threshold 10, 15, 20, ... for which at most one is found, and raises if there is none.", "quantifier": "all images and all answers of the circle detector", "why_tests_cant": "All sequences of answers of the detector.", "anchors": ["micropolarray/processing/nrgf.py:find_occulter_hough"]}
{"id": "C91", "title": "defaults of the radial filter", "statement": "nrgf(data, y, x) uses the given centre with minimum radius 0, and nrgf(data) the centre of the image, as documented.", "quantifier": "all images, centres and fits", "why_tests_cant": "All images and outcomes of the occulter fits.", "anchors": ["micropolarray/processing/nrgf.py:nrgf", "micropolarray/processing/nrgf.py:find_occulter_position"]}
{"id": "C92", "title": "occulter search by fits", "statement": "If the four fits of find_occulter_position(data) return the distances of the image centre to a circle's edges along the four half axes, the result is the middle of the edges and half the mean opening, cut to integers.", "quantifier": "all images and fit results", "why_tests_cant": "All images and fit results.", "anchors": ["micropolarray/processing/nrgf.py:find_occulter_position"]}
{"id": "C93", "title": "photometric units", "statement": "An image in units of get_Bsun_units does not depend on the exposure times of image and diffuser, and sigma_DN is the photon noise: its square times the gain is the signal.", "quantifier": "all rates, exposure times and signals", "why_tests_cant": "All real values.", "anchors": ["micropolarray/utils.py:get_Bsun_units", "micropolarray/utils.py:sigma_DN"]}
{"id": "C94", "title": "output folders are created", "statement": "_make_abs_and_create_dir(name) should leave the folder of a file name, or the folder named, in existence, for every name.", "quantifier": "all names and file systems", "why_tests_cant": "All names and states of the file system.", "anchors": ["micropolarray/utils.py:_make_abs_and_create_dir"]}
{"id": "C95", "title": "plotting the demosaiced images", "statement": "show_demo_images(vmin, vmax) of a demosaiced image draws the four demosaiced images, each titled with the angle of its position, between the given limits (by default mean -+ standard deviation).", "quantifier": "all demosaiced images, dictionaries and limits", "why_tests_cant": "Quantifies over all images, dictionaries and limits.", "anchors": ["micropolarray/micropol_image.py:MicropolImage.show_demo_images"]}
{"id": "C96", "title": "plotting an image and its parameters", "statement": "show draws the image between its smallest and largest pixel or the given limits; show_pol_params draws I, Q, U, pB, AoLP, DoLP between mean -+ standard deviation, as show_pol_param does for one of them, and show_single_pol_images the sub-images of the orientations 0, 45, 90, -45.", "quantifier": "all images, Stokes vectors, limits and dictionaries", "why_tests_cant": "Quantifies over all images and limits.", "anchors": ["micropolarray/image.py:Image.show", "micropolarray/micropol_image.py:MicropolImage.show_pol_params", "micropolarray/micropol_image.py:MicropolImage.show_with_pol_params", "micropolarray/micropol_image.py:MicropolImage.show_pol_param", "micropolarray/micropol_image.py:MicropolImage.show_single_pol_images"]}
{"id": "C97", "title": "histograms of an image and its pixel families", "statement": "show_histogram counts for each bin the pixels between its edges, all pixels if no range is given; the histograms of the four families drawn over it add up to it bin by bin.", "quantifier": "all images, numbers of bins and ranges", "why_tests_cant": "A counting statement about all images and bins.", "anchors": ["micropolarray/image.py:Image.show_histogram", "micropolarray/micropol_image.py:MicropolImage.show_histogram"]}
{"id": "C99", "title": "saving an image as fits", "statement": "save_as_fits(name, fixto) stores the image, limited to fixto if given, under name (which must end in .fits), creating missing folders; other names are refused without a trace, and neither a call nor its interruption changes any other file or loses the image stored before.", "quantifier": "all names, images, limits, file systems and interruptions", "why_tests_cant": "Quantifies over all file system states and crash points.", "anchors": ["micropolarray/image.py:Image.save_as_fits", "micropolarray/utils.py:fix_data"]}
{"id": "C98", "title": "covariance tensor and fit maps are read back", "statement": "Cij, tk, eff and phi of a Demodulator on the output folder of a calibration are the covariance tensor and the maps of transmittancy, efficiency and phase that were written, whatever the order in which the files are listed and whatever other files there are; a missing file is reported.", "quantifier": "all tensors, maps, sizes, listing orders and further files", "why_tests_cant": "Quantifies over all folders and listing orders, which the operating system chooses.", "anchors": ["micropolarray/processing/demodulation.py:Demodulator.Cij", "micropolarray/processing/demodulation.py:Demodulator.eff", "micropolarray/processing/demodulation.py:Demodulator.tk", "micropolarray/processing/demodulation.py:Demodulator.phi"]}
{"id": "C100", "title": "from calibration images to Stokes parameters", "statement": "If the calibration images are what micropolarizers with given transmittancies, efficiencies and phases pass at three or more different orientations, then calculate_demodulation_tensor, its files, Demodulator and the demodulation of an image taken with the same micropolarizers give these parameters and the Stokes vector of the light.", "quantifier": "all sizes, parameters within the bounds, orientations, file orders, numbers of processes and Stokes vectors", "why_tests_cant": "A statement about the whole chain for every camera and every scene; the fit is any that finds exact solutions.", "anchors": ["micropolarray/processing/demodulation.py:calculate_demodulation_tensor", "micropolarray/processing/demodulation.py:Demodulator", "micropolarray/micropol_image.py:MicropolImage.demodulate"]}
{"id": "C101", "title": "binary64 arithmetic on camera counts", "statement": "For images of integer counts the Stokes vector, demosaiced images, binned images and sums of files (means of a power of two of them) are computed in binary64 without any rounding error; pB is correctly rounded and DoLP has a relative error of at most 2^-51, on raw and on demosaiced images.", "quantifier": "all images of counts (16 bit and far beyond), sizes, angle dictionaries and binnings", "why_tests_cant": "Floating-point claims for all images of all sizes.", "anchors": ["micropolarray/micropol_image.py:MicropolImage._get_theo_Stokes_vec_components", "micropolarray/processing/demosaic.py:demosaic", "micropolarray/processing/rebin.py:micropolarray_rebin", "micropolarray/polarization_functions.py:pB", "micropolarray/polarization_functions.py:DoLP", "micropolarray/image.py:Image.__init__"]}
{"id": "C102", "title": "masking the occulter of image objects", "statement": "After img.mask_occulter(y, x, r, overoccult, fill) the data, the demosaiced images and the Stokes vector of img are masked in one and the same place, and no other image has changed.", "quantifier": "all histories of calls, images, centres, radii and fill values", "why_tests_cant": "Quantifies over all histories of calls, hence over all ways in which images share arrays.", "anchors": ["micropolarray/micropol_image.py:MicropolImage.mask_occulter", "micropolarray/micropol_image.py:MicropolImage._import_image_parameters"]}
{"id": "C103", "title": "rounding errors for any pixel values", "statement": "For an image of any finite binary64 numbers (dark-subtracted, flat-fielded, negative, tiny) Q and U are the binary64 numbers nearest to the exact differences; demosaiced images and I differ from the exact ones by at most 2^-50 of the same quantity for the absolute values, b x b binned images by at most b^2 2^-52 of it, Stokes parameters after binning and demosaicing by at most (b^2 + 8) 2^-51 of the intensity, up to underflow; nothing overflows.", "quantifier": "all images of finite binary64 numbers up to 2^1019, sizes, angle dictionaries, binnings and demosaicing options", "why_tests_cant": "An error bound for all images of all sizes; tests compare a few values with a tolerance.", "anchors": ["micropolarray/micropol_image.py:MicropolImage._get_theo_Stokes_vec_components", "micropolarray/processing/demosaic.py:demosaic", "micropolarray/processing/rebin.py:micropolarray_rebin"]}
{"id": "C104", "title": "rounding errors of pB and DoLP", "statement": "For images of non-negative binary64 numbers, pB of a raw image has a relative error of at most 2^-51 and DoLP of at most 2^-49, however weak the polarization, and DoLP of dark pixels is exactly 0; after b x b binning and demosaicing pB is off by at most 3 (b^2 + 8) 2^-51 of the intensity and DoLP by at most 16 (b^2 + 8) 2^-51 wherever there is light.", "quantifier": "all images of pixels that are 0 or between 2^-400 and 2^400, sizes, angle dictionaries, binnings up to a million and demosaicing options", "why_tests_cant": "Error bounds for all images; cancellation cases are invisible to random tests.", "anchors": ["micropolarray/polarization_functions.py:pB", "micropolarray/polarization_functions.py:DoLP", "micropolarray/processing/demosaic.py:demosaic", "micropolarray/processing/rebin.py:micropolarray_rebin"]}
{"id": "C105", "title": "rounding errors of demodulation and of means of files", "statement": "Stokes parameters from demodulating a raw image with any finite tensor differ from the exact matrix product by at most 2^-50 of the product of the absolute values, with demosaicing 2^-49; sums and means of n files differ from the exact ones by at most n 2^-52 of the sum or mean of the absolute values, up to underflow; nothing overflows.", "quantifier": "all tensors and images of finite binary64 numbers within wide bounds, sizes, flags, and all lists of up to 2^52 files", "why_tests_cant": "Error bounds for all images, tensors and numbers of files.", "anchors": ["micropolarray/micropol_image.py:MicropolImage.demodulate", "micropolarray/processing/demodulation.py:Demodulator", "micropolarray/image.py:Image.__init__"]}
{"id": "C106", "title": "Stokes parameters of demosaiced images", "statement": "The Stokes parameters computed after demosaicing with option \"adjacent\" are those of the raw image interpolated to full size: equal at even rows and columns, averages of the two or four nearest superpixels elsewhere, repeated beyond the last. With option \"mean\" they are a quarter of those of the pixel's superpixel, and DoLP and AoLP equal those of the superpixel.", "quantifier": "all even-sided images, sizes, pixel values and arrangements of the four polarizers (exact arithmetic)", "why_tests_cant": "Holds for every image and pixel; samples of pixels do not show the general relation.", "anchors": ["micropolarray/processing/demosaic.py:demosaic", "micropolarray/micropol_image.py:MicropolImage._get_theo_Stokes_vec_components"]}
{"id": "C107", "title": "averaging does not raise the degree of polarization", "statement": "For images of counts, no pixel of a demosaiced (option \"adjacent\"), binned or averaged or summed image has a DoLP above the largest DoLP of the superpixels it is made of, and its pB is at most the corresponding mean or sum of theirs.", "quantifier": "all even-sided non-negative images, binning factors, and lists of two or more files (exact arithmetic)", "why_tests_cant": "An inequality over all images; a counterexample search cannot establish it.", "anchors": ["micropolarray/processing/demosaic.py:demosaic", "micropolarray/processing/rebin.py:micropolarray_rebin", "micropolarray/image.py:Image.__init__", "micropolarray/polarization_functions.py:DoLP"]}
{"id": "C108", "title": "the radial filter removes radial profiles", "statement": "Multiplying every ring of an image by its own positive gain, adding its own offset, and changing anything outside the rings does not change the output of nrgf; filtering the output again with the same sector for mean and output leaves it as it is.", "quantifier": "all images, centres, starting radii, positive steps, sectors, gains and offsets of the rings (exact arithmetic)", "why_tests_cant": "Quantifies over every radial profile and image.", "anchors": ["micropolarray/processing/nrgf.py:nrgf"]}
{"id": "C109", "title": "derived images keep keywords and file name", "statement": "An image made from another one (constructor applied to an image, demodulate, rebin, congrid, rotate, shift, clean_hot_pixels, + - * /) should have the header keywords of that image, except for the sizes, and its filename.", "quantifier": "every program of such calls, every image", "why_tests_cant": "Objects share headers along unbounded programs.", "anchors": ["micropolarray/image.py:Image.__init__", "micropolarray/image.py:Image.shift", "micropolarray/image.py:Image.rebin", "micropolarray/micropol_image.py:MicropolImage._import_image_parameters", "micropolarray/micropol_image.py:MicropolImage.__add__"]}
{"id": "C110", "title": "headers of different images are independent", "statement": "Setting a keyword in the header of one image should leave the headers of all other images unchanged.", "quantifier": "every program, every pair of images, every keyword", "why_tests_cant": "Aliasing shows only along programs with several images.", "anchors": ["micropolarray/micropol_image.py:MicropolImage._import_image_parameters", "micropolarray/micropol_image.py:MicropolImage.__add__", "micropolarray/image.py:Image.data"]}
{"id": "C111", "title": "a demodulator is read from the folder it is given", "statement": "Demodulator(path), for a folder into which a calibration was written, contains the matrices and the flags of that calibration, whatever other folders exist.", "quantifier": "every file system, every path, every calibration", "why_tests_cant": "The folder names and the rest of the file system are unbounded; tests use harmless names.", "anchors": ["micropolarray/processing/demodulation.py:Demodulator.__init__", "micropolarray/processing/demodulation.py:Demodulator._get_demodulation_tensor"]}
{"id": "C112", "title": "the goodness-of-fit map is the reduced chi-square", "statement": "For every fitted pixel the map reduced_chisquare written by the calibration is the sum of the squared deviations of the samples from the fitted curve in units of their errors, divided by the number of images less the three fitted parameters; the errors are the photon noise of the samples.", "quantifier": "every series of images, every answer of the fit", "why_tests_cant": "A formula over all samples and errors; the value looks plausible whatever is computed.", "anchors": ["micropolarray/processing/demodulation.py:compute_demodulation_by_chunk", "micropolarray/processing/demodulation.py:calculate_demodulation_tensor"]}
{"id": "C113", "title": "errors of pB, DoLP and AoLP are those the pixels cause", "statement": "For an image demodulated from pixels with independent errors, sigma_pB, sigma_DoLP and sigma_AoLP of MicropolImageError are, to first order, the errors of pB, DoLP and AoLP as functions of the four pixels of the superpixel.", "quantifier": "every image, every error image, every demodulation tensor (exact arithmetic, where the functions are differentiable)", "why_tests_cant": "Compares with derivatives of the whole computation; a test has nothing to compare the numbers with.", "anchors": ["micropolarray/processing/demodulation_errors.py:MicropolImageError", "micropolarray/processing/demodulation_errors.py:get_error_on_pB", "micropolarray/processing/demodulation_errors.py:get_error_on_DoLP", "micropolarray/processing/demodulation_errors.py:get_error_on_AoLP", "micropolarray/micropol_image.py:MicropolImage.demodulate"]}
{"id": "C114", "title": "images of integers are treated like images of floats", "statement": "Images made from arrays of integers: the Stokes parameters of a + b and a - b are the sums and differences of those of a and b, pixels of a * b are products; chen_wan_liang_calibration gives what it gives for the same array of floats.", "quantifier": "every integer type, every pair of images of the same size and type, every arrangement of the polarizers; every set of calibration matrices", "why_tests_cant": "Overflow needs particular pixel values; tests use floats or small numbers.", "anchors": ["micropolarray/micropol_image.py:MicropolImage.__add__", "micropolarray/micropol_image.py:MicropolImage.__sub__", "micropolarray/micropol_image.py:MicropolImage.__mul__", "micropolarray/image.py:Image._init_image_from_data", "micropolarray/processing/chen_wan_liang_calibration.py:chen_wan_liang_calibration"]}
{"id": "C115", "title": "plotting a demodulation tensor", "statement": "Demodulator.show draws the map of matrix element (i, j) in row i and column j of a grid of 3 by 4 panels, with the given limits and the indices in the title, and returns the figure and the array of the twelve axes, as matplotlib.pyplot.subplots does.", "quantifier": "for all demodulation tensors and limits", "why_tests_cant": "Nobody compares what a figure contains with the matrices; that the returned axes are those of the last panel only shows up when a caller indexes them.", "anchors": ["micropolarray/processing/demodulation.py:195-229"]}
{"id": "C116", "title": "small errors of the calibration and of the pixels cause small errors of the Stokes parameters", "statement": "If throughput, efficiency and orientation that a calibration wrote for the micropolarizers of a superpixel differ from the true ones by at most dt, de and df, and the pixels from the true signal by at most n, then demodulating gives I, Q and U up to 400 ((dt + de/2 + df) I + n) wherever the fit is flagged as successful; in general up to the sum of the absolute values of a row of the demodulation matrix instead of 400.", "quantifier": "for all calibrations, images, light with a degree of polarization of at most 1, and errors", "why_tests_cant": "A test checks single perturbations; the bound depends on all matrix elements being checked to lie within -100 and 100 before the fit is flagged.", "anchors": ["micropolarray/processing/demodulation.py:761-1068", "micropolarray/micropol_image.py:238-330"]}
{"id": "C117", "title": "binning and demodulating can be exchanged", "statement": "Demodulating the binned image with the binned demodulator gives, for each bin, the sums of the Stokes parameters that demodulating the image with the demodulator gives for the superpixels of the bin.", "quantifier": "for all demodulators, images and binnings (exact arithmetic)", "why_tests_cant": "Two orders of long computations are compared; with random matrices the difference looks like a calibration error.", "anchors": ["micropolarray/processing/demodulation.py:231-255", "micropolarray/processing/rebin.py:micropolarray_rebin", "micropolarray/micropol_image.py:238-330"]}
{"id": "C118", "title": "errors of pB, AoLP and DoLP are bounded by those of I, Q and U", "statement": "If (Q, U) is off by e, pB is off by at most e, AoLP by at most asin(e / pB) / 2 up to multiples of pi if e < pB, and DoLP by at most (e + DoLP f) / I if I is off by f. In particular AoLP computed in floating point from a raw image is off by at most 2^-52 plus half of the error of arctan2, however small the polarization is.", "quantifier": "for all Stokes parameters and errors; for all images of finite binary64 numbers up to 2^1019, all arrangements of the polarizers and all functions arctan2 with a bounded error", "why_tests_cant": "Sampling does not find the worst direction of an error, and the comparison needs exact arctangents.", "anchors": ["micropolarray/polarization_functions.py:AoLP", "micropolarray/polarization_functions.py:pB", "micropolarray/polarization_functions.py:DoLP"]}
{"id": "C119", "title": "a pixel influences its neighbourhood only", "statement": "The polarization parameters of a superpixel depend on its four pixels only, also after binning (on the pixels of the bin) and with a demodulator; those of a pixel of a binned and demosaiced image depend on its bin and the next bins below and to the right; a pixel of an IFOV-corrected image depends on the pixel, those two rows above and two columns to the left. So a pixel that is not a number spoils these results only.", "quantifier": "for all images that differ outside of the named pixels, in any number type, so also if the other pixels are not numbers", "why_tests_cant": "A test compares results for a few images; here two arbitrary images that agree on a few pixels are compared.", "anchors": ["micropolarray/processing/demosaic.py:demosaic", "micropolarray/processing/rebin.py:micropolarray_rebin", "micropolarray/micropol_image.py:238-330", "micropolarray/processing/chen_wan_liang_calibration.py:_ifov_jitcorrect"]}
{"id": "C120", "title": "normalize2piarray returns for every array of floating-point angles", "statement": "normalize2piarray returns, for every array of binary64 numbers, an array of the same shape whose elements lie in (-pi/2, pi/2] and differ from the given ones by a multiple of pi, up to rounding of the subtractions; elements in the range and those that are not numbers are unchanged.", "quantifier": "for all arrays of binary64 numbers", "why_tests_cant": "Only angles above 2^55 rad make the loop endless, and a test that hangs gives no result.", "anchors": ["micropolarray/utils.py:normalize2piarray"]}
{"id": "C121", "title": "from an exposure, a dark and a flat image to the polarization of the light", "statement": "If the pixels of an image are those of the dark image plus the sensitivity of the pixel times the light behind its micropolarizer, up to some noise, and the flat image shows the sensitivities, then subtract_dark, correct_flat and demodulate give the Stokes parameters of the light times the mean sensitivity, and AoLP and DoLP of the light, up to explicit bounds made of the noise, the lowest sensitivity, the row sums of the demodulation matrix and the errors of the calibration.", "quantifier": "for all images, dark signals, positive sensitivities, demodulators, micropolarizers close to the calibrated ones and light with a degree of polarization of at most 1", "why_tests_cant": "The true light is unknown for real images, and simulated ones cover few sensitivities; the worst case of several errors together is not found by sampling.", "anchors": ["micropolarray/micropol_image.py:MicropolImage.subtract_dark", "micropolarray/micropol_image.py:MicropolImage.correct_flat", "micropolarray/micropol_image.py:MicropolImage.demodulate", "micropolarray/polarization_functions.py:AoLP", "micropolarray/polarization_functions.py:DoLP"]}
{"id": "C122", "title": "resampling keeps gradients, loses nothing on refined grids and does not raise polarization", "statement": "congrid is linear in the image and keeps linear gradients. Resampling a grid of n samples to c (n - 1) + 1 samples loses nothing: resampling further gives what resampling the image directly gives, and going back returns the image. The Stokes parameters of the data of a resampled MicropolImage are interpolated from those of the image at corresponding positions; pB is at most the interpolated pB and DoLP at most the largest DoLP of the image.", "quantifier": "for all images and sizes of at least 2 samples per side (exact arithmetic)", "why_tests_cant": "A round trip through a larger size that is not a refinement does lose detail, so a test tolerates differences.", "anchors": ["micropolarray/processing/congrid.py:congrid", "micropolarray/micropol_image.py:MicropolImage.congrid"]}
{"id": "C123", "title": "dark and flat correction in floating point", "statement": "subtract_dark gives, for every pixel, the binary64 number nearest to max(data - dark, 0), without any rounding for camera counts, and leaves pixels that are not numbers as such. correct_flat gives data * mean / flat with a relative error of at most 2^-51 plus that of the computed mean, changes nothing if the flat is uniform, and leaves pixels that are not numbers as such.", "quantifier": "for all images of binary64 numbers of shape equal to that of the dark or flat; flats and means between 2^-300 and 2^300; all means np.mean may return", "why_tests_cant": "Tests use counts, for which there is no rounding, and no pixels that are not numbers.", "anchors": ["micropolarray/micropol_image.py:MicropolImage.subtract_dark", "micropolarray/micropol_image.py:MicropolImage.correct_flat"]}
{"id": "C124", "title": "which corrections can be exchanged", "statement": "Two shifts in the same direction are one shift by the sum; shifting back restores the pixels that stayed inside the image and no others. Shifting can be exchanged with computing the Stokes parameters, and with binning if the shift is a multiple of the bin and bins cover the image. Binning an image after subtract_dark never gives less than subtracting the binned dark from the binned image; the two agree where all pixels of the bin are at least their dark, and differ where some are above and others below. Two flats can be applied in either order, and the scale of a flat has no effect.", "quantifier": "for all images, darks, flats, shifts, fill values and binnings (exact arithmetic; shifts in any type of numbers)", "why_tests_cant": "A test compares two orders for a few images; the difference for noisy darks is hidden in the noise although it adds up to a bias.", "anchors": ["micropolarray/processing/shift.py:shift_micropol", "micropolarray/processing/rebin.py:micropolarray_rebin", "micropolarray/micropol_image.py:MicropolImage.subtract_dark", "micropolarray/micropol_image.py:MicropolImage.correct_flat"]}
{"id": "C125", "title": "results do not depend on how the sensor is mounted and how angles are counted", "statement": "Exchanging rows and columns of an image and of the arrangement of its polarizers exchanges rows and columns of the Stokes parameters, of the binned image and of the demosaiced images. The same holds for turning them upside down. If all polarizers are said to be turned by 45 degrees, AoLP changes by 45 degrees, and if all angles are counted the other way round, AoLP changes its sign; I, pB and DoLP stay the same.", "quantifier": "for all images, arrangements and binnings (exact arithmetic)", "why_tests_cant": "A test image is often symmetric itself, or it is only checked for one orientation.", "anchors": ["micropolarray/micropol_image.py:MicropolImage._get_theo_Stokes_vec_components", "micropolarray/processing/demosaic.py:demosaic", "micropolarray/processing/rebin.py:micropolarray_rebin", "micropolarray/polarization_functions.py:AoLP"]}
{"id": "C126", "title": "demodulation is the least-squares fit to the four pixels", "statement": "The Stokes parameters that demodulate gives for a superpixel are the only light for which the squared differences between the four pixels and what the calibrated micropolarizers would record are smallest; without a demodulator, the same holds for ideal micropolarizers. So if all orientations of the calibration are off by an angle, AoLP is off by this angle and I, pB and DoLP stay the same, and if all throughputs are off by a factor, AoLP and DoLP stay the same, also for noisy pixels.", "quantifier": "for all images, and all demodulators of pseudo-inverse matrices of full rank (exact arithmetic)", "why_tests_cant": "Tests use pixels that some light explains exactly; for noisy pixels the best explanation is not known.", "anchors": ["micropolarray/micropol_image.py:MicropolImage._get_Stokes_from_demodulator", "micropolarray/micropol_image.py:MicropolImage._get_theo_Stokes_vec_components", "micropolarray/processing/demodulation.py:compute_demodulation_by_chunk"]}
{"id": "C127", "title": "from camera counts to Stokes parameters in floating point", "statement": "Whatever the order in which np.mean adds the pixels of a positive flat, the mean is correct up to one rounding for each level of additions and one for the division. For counts as cameras deliver them, subtract_dark followed by correct_flat gives each pixel up to the error of this mean and two more roundings, and demodulation gives Stokes parameters up to a few roundings of the sum of absolute values. Behind ideal micropolarizers the Stokes parameters are those of the light times the mean sensitivity, up to the noise of the pixels and these roundings; nothing overflows.", "quantifier": "for all images and darks of counts below 2^53, all flats of ordinary numbers, all orders of addition and all demodulators of moderate entries (binary64)", "why_tests_cant": "A test compares with the same library on the same machine, which adds in the same order.", "anchors": ["micropolarray/micropol_image.py:MicropolImage.subtract_dark", "micropolarray/micropol_image.py:MicropolImage.correct_flat", "micropolarray/micropol_image.py:MicropolImage._get_Stokes_from_demodulator", "micropolarray/micropol_image.py:MicropolImage._get_theo_Stokes_vec_components"]}
{"id": "C128", "title": "cuts and limits follow a change of units", "statement": "If pixel values are expressed in other units (multiplied by a positive factor, and an offset added), reject_outliers keeps and remove_outliers_simple replaces the same values, the limits mean_plus_std, median_minus_std and so on are the same limits in the new units, and so is the threshold of auto_threshold.", "quantifier": "for all values, factors and offsets, and all filters that do not depend on units (exact arithmetic)", "why_tests_cant": "Tests use raw counts; the same code is applied to calibrated images in units of the solar brightness.", "anchors": ["micropolarray/processing/image_cleaning.py:reject_outliers", "micropolarray/processing/image_cleaning.py:remove_outliers_simple", "micropolarray/processing/image_cleaning.py:auto_threshold", "micropolarray/utils.py:mean_plus_std", "micropolarray/utils.py:median_minus_std"]}
{"id": "C129", "title": "Stokes parameters amplify equal pixel noise least", "statement": "Changing one pixel of a superpixel changes I, Q and U by the change times the entries of the demodulation matrix. Among all weights of the four pixels that give I, Q or U without bias for the calibrated micropolarizers, these have the smallest variance if the pixels have independent noise of equal variance, and they are the only ones. The same holds for the Stokes parameters computed without a demodulator and ideal micropolarizers, where the variance of I is that of a pixel and those of Q and U are twice as large.", "quantifier": "for all images and all demodulators of pseudo-inverse matrices of full rank (exact arithmetic)", "why_tests_cant": "Needs a comparison with every other estimator.", "anchors": ["micropolarray/micropol_image.py:MicropolImage._get_Stokes_from_demodulator", "micropolarray/micropol_image.py:MicropolImage._get_theo_Stokes_vec_components", "micropolarray/processing/demodulation.py:compute_demodulation_by_chunk"]}
{"id": "C130", "title": "the radial filter reaches every pixel beyond its inner radius", "statement": "Every pixel of the output sector farther than rho_min from the centre is replaced by its deviation from the mean of its ring in units of the standard deviation of the ring.", "quantifier": "for all images, centres, inner radii, steps and sectors (exact arithmetic)", "why_tests_cant": "The pixels left out are at the rim, where test images are dark.", "anchors": ["micropolarray/processing/nrgf.py:nrgf", "micropolarray/processing/nrgf.py:map_polar_coordinates"]}
{"id": "C131", "title": "masks and filters do not depend on earlier calls", "statement": "map_polar_coordinates remembers its results (lru_cache). Nevertheless roi_from_polar and nrgf give, after any sequence of calls with any arguments, what they give in a fresh interpreter; at most 128 maps of coordinates are kept.", "quantifier": "for all sequences of calls and all arguments (exact arithmetic)", "why_tests_cant": "Depends on the order of calls in one process; tests usually start afresh.", "anchors": ["micropolarray/processing/nrgf.py:map_polar_coordinates", "micropolarray/processing/nrgf.py:roi_from_polar", "micropolarray/processing/nrgf.py:nrgf"]}
{"id": "C132", "title": "the radial filter in floating point", "statement": "Rounding of distances moves no pixel to another ring. For counts as cameras deliver them, and whatever the order in which np.mean and np.std add pixels, nrgf gives each pixel its deviation from the mean of the ring in units of the standard deviation, up to a few roundings times the contrast of the ring; a ring of equal pixels gives 0.", "quantifier": "for all images, centres, rings and orders of addition (binary64)", "why_tests_cant": "A test compares with the same library on the same machine; uniform rings are tested with integers.", "anchors": ["micropolarray/processing/nrgf.py:nrgf", "micropolarray/processing/nrgf.py:map_polar_coordinates"]}
{"id": "C133", "title": "writing pixels of one image changes no other image", "statement": "After any calls of the package and any assignments image.data[y, x] = v, such an assignment changes the pixels and parameters of no other image (images returned by methods are documented as copies), and the parameters of the image itself follow.", "quantifier": "for all sequences of calls and assignments, all images, positions and values", "why_tests_cant": "Depends on which images share memory after a sequence of calls; tests look at returned images only.", "anchors": ["micropolarray/image.py:Image.data", "micropolarray/micropol_image.py:MicropolImage._import_image_parameters", "micropolarray/micropol_image.py:MicropolImage.demodulate"]}
{"id": "C134", "title": "missing pixels stay missing", "statement": "A pixel that is not a number makes every result computed from it not a number (Stokes and polarization parameters of its superpixel, the bin it falls into, its demosaiced superpixel, corrected pixels), and no other result.", "quantifier": "for all binary64 images, arrangements, demodulation matrices, bin sizes, positions and orders of addition", "why_tests_cant": "A test shows one pixel of one image; a missing value that turns into an ordinary number is invisible afterwards.", "anchors": ["micropolarray/micropol_image.py:MicropolImage._get_theo_Stokes_vec_components", "micropolarray/processing/rebin.py:micropolarray_rebin", "micropolarray/processing/demosaic.py:demosaic", "micropolarray/micropol_image.py:MicropolImage.correct_flat", "micropolarray/micropol_image.py:MicropolImage.correct_ifov", "micropolarray/processing/nrgf.py:nrgf"]}
{"id": "C135", "title": "lines of pixels follow the symmetries of the image", "statement": "The line of pixels between two points exchanged, moved, mirrored or transposed together with the image has the same pixels (in reverse order for exchanged points) and reads the same values.", "quantifier": "for all images, pairs of points and displacements", "why_tests_cant": "A test compares a few lines; which of two neighbouring pixels is taken depends on the direction and on accumulated rounding.", "anchors": ["micropolarray/processing/linear_roi.py:DDA", "micropolarray/processing/linear_roi.py:linear_roi", "micropolarray/processing/linear_roi.py:bresenham"]}
{"id": "C136", "title": "corrections made in two steps", "statement": "Two shifts are one shift by the sum, two dark subtractions one by the sum of the darks, two flat corrections one by the product up to a common factor, two masks one by the intersection in either order, and a clamp or mask made twice is made once.", "quantifier": "for all images, displacements, darks, flats, limits, regions and fill values", "why_tests_cant": "Pipelines apply corrections in stages; tests look at one stage.", "anchors": ["micropolarray/processing/shift.py:shift", "micropolarray/processing/shift.py:shift_micropol", "micropolarray/micropol_image.py:MicropolImage.subtract_dark", "micropolarray/micropol_image.py:MicropolImage.correct_flat", "micropolarray/utils.py:fix_data", "micropolarray/processing/nrgf.py:roi_from_polar"]}
{"id": "C137", "title": "from the bytes of a raw file to the polarization", "statement": "For a raw frame of the camera, I, Q and U computed from it are without any rounding error half the sum and the differences of the counts stored in the file, pB is the floating-point number nearest to the polarized intensity and DoLP is correct up to 2^-51 (0 where nothing was counted). If the counts are those of some light behind ideal micropolarizers up to e (1/2 for rounding to whole counts), I, Q and U are those of the light up to 2e and pB up to 3e and one rounding.", "quantifier": "for all contents of 12-bit files of 1952 x 1952 pixels and 16-bit files of any even size, all schedules of the parallel reader and all arrangements of micropolarizers (binary64)", "why_tests_cant": "Tests check decoding and polarization separately, with few frames and a tolerance.", "anchors": ["micropolarray/processing/convert.py:nparr_from_binary", "micropolarray/processing/convert.py:three_bytes_to_two_ints", "micropolarray/micropol_image.py:MicropolImage._get_theo_Stokes_vec_components", "micropolarray/polarization_functions.py:pB", "micropolarray/polarization_functions.py:DoLP"]}
{"id": "C138", "title": "resampling in floating point", "statement": "congrid computes every pixel up to a few roundings for each sample of a row and column (less than a millionth of a count for 16-bit camera frames), a grid 2^k times as fine without any error for counts, and no pixel outside the range of the samples.", "quantifier": "for all binary64 images up to 2^26 pixels a side, all new sizes and values up to 2^998", "why_tests_cant": "Positions are rounded, so a pixel may use another pair of samples than in exact arithmetic; tests use a tolerance and small images.", "anchors": ["micropolarray/processing/congrid.py:congrid", "micropolarray/micropol_image.py:MicropolImage.congrid"]}
{"id": "C139", "title": "a saved image can be loaded again", "statement": "After image.save_as_fits(name), MicropolImage(name) is an image with the same pixels, sizes, polarization parameters, orientations and flags, and no image in use is changed by it.", "quantifier": "for all images reachable by any calls, all valid names and states of the file system, all dictionaries of orientations", "why_tests_cant": "A test saves one freshly made image; images with a history of corrections, demodulation or their own orientations behave differently.", "anchors": ["micropolarray/image.py:Image.save_as_fits", "micropolarray/image.py:Image._init_image_from_file", "micropolarray/micropol_image.py:MicropolImage.__init__"]}
{"id": "C140", "title": "arithmetic expressions with images are evaluated for each pixel", "statement": "An expression of images, arrays and numbers with +, -, * and / gives an image whose pixels are the values of the expression for each pixel, whichever operand stands on the left, also with Python's sum; images that cannot be combined raise an error.", "quantifier": "for all expressions, all images and arrays of one even size, all dictionaries of orientations, as long as no divisor is zero", "why_tests_cant": "Tests try single operators with the image on the left; the operand order, classes and nesting are unbounded.", "anchors": ["micropolarray/image.py:Image.__add__", "micropolarray/image.py:Image.__truediv__", "micropolarray/micropol_image.py:MicropolImage.__add__", "micropolarray/micropol_image.py:MicropolImage.__truediv__"]}
{"id": "C141", "title": "propagated errors in floating point", "statement": "MicropolImageError computes the errors of I, Q, U, pB, DoLP and AoLP from the errors of the pixels with a relative error below 2^-48, wherever these errors are defined: no digits are lost by cancellation.", "quantifier": "for all Stokes parameters, pixel errors and demodulation matrices of binary64 numbers that are zero or of ordinary size (2^-15 to 2^15 for matrices and pixel errors, 2^-60 to 2^60 for Stokes parameters)", "why_tests_cant": "Tests compare a few values up to a tolerance; cancellation shows for special combinations of values only.", "anchors": ["micropolarray/processing/demodulation_errors.py:MicropolImageError", "micropolarray/processing/demodulation_errors.py:get_error_on_Stokes", "micropolarray/processing/demodulation_errors.py:get_error_on_DoLP", "micropolarray/processing/demodulation_errors.py:get_error_on_AoLP"]}
{"id": "C142", "title": "images of different integer types", "statement": "The sum, difference and product of two integer images of any types, or of an integer image and a whole number, have a type with room for both operands and pixels that are the exact results; image - k is image + (-k).", "quantifier": "for all pairs of the eight integer types, all images and all numbers of at most 64 bits", "why_tests_cant": "Raw files give uint16, saved and reloaded ones int16 or int32; tests use floats or one type and small values.", "anchors": ["micropolarray/micropol_image.py:MicropolImage.__add__", "micropolarray/micropol_image.py:MicropolImage.__sub__", "micropolarray/micropol_image.py:MicropolImage.__mul__", "micropolarray/micropol_image.py:MicropolImage.__truediv__", "micropolarray/image.py:Image.__sub__"]}
{"id": "C143", "title": "Sectors selected in floating point hold the pixels of the sector", "statement": "roi_from_polar with whole centre and radii computes directions in binary64. If np.arctan2 is within one unit in the last place and exact to rounding in the eight principal directions, every computed direction is within 2^-42 degrees of the true one and in [0, 360); with bounds that are multiples of 30 or 45 degrees the selected pixels are exactly those of the sector, pixel by pixel or superpixel by superpixel; with any other bounds only pixels within 2^-42 degrees of a bound can be decided otherwise; with [0, 360] the distance alone decides; the bounds may be any angles modulo 360 (so [-45, 45] is the sector around the horizontal).", "quantifier": "all images up to 2^21 pixels a side, centres, radii below 2^25, binary64 bounds and every arctan2 with the stated accuracy", "why_tests_cant": "A test looks at some directions; whether one of the directions of whole numbers falls on the wrong side of a bound after rounding depends on how near such directions come to the bound.", "anchors": ["micropolarray/processing/nrgf.py:36-81", "micropolarray/processing/nrgf.py:92-103"]}
{"id": "C144", "title": "IFOV correction and superpixel calibration keep to rounding errors in floating point", "statement": "ifov_jitcorrect in binary64 gives the exact mean of the four pixels for images of counts, exactly the common value wherever the four pixels are equal (any binary64 number), and otherwise a mean wrong by at most 2^-50 of the mean of the absolute values. chen_wan_liang_calibration gives the exactly calibrated pixels to within 2^-48 of the sum of the absolute values of the terms, exactly for counts and matrices of few digits, and exactly the IFOV correction for identity matrices and zero offsets.", "quantifier": "all even-sided binary64 images up to 2^1000 (calibration: up to 2^900), offsets and matrices", "why_tests_cant": "A test compares some images with a tolerance; that three additions of rounded sums give back a number bit by bit, and how errors of nine operations add up, concerns all binary64 numbers.", "anchors": ["micropolarray/processing/chen_wan_liang_calibration.py:ifov_jitcorrect", "micropolarray/processing/chen_wan_liang_calibration.py:chen_wan_liang_calibration"]}
{"id": "C145", "title": "The radial filter over sectors keeps to rounding errors in floating point", "statement": "nrgf with a centre, a smallest radius and a step that are whole numbers and with sectors for mean and output bounded by multiples of 30 or 45 degrees gives, for images of counts, at every pixel of the output sector its deviation from the mean over the mean sector of its exact ring divided by the standard deviation there, with an error below ((4 top + 8) n + 24) 2^-53 (1 + |z|) for n pixels of at most top counts; exactly 0 where the mean sector of the ring is uniform or empty, outside the output sector and outside the rings; the rings end at the whole number below the distance of the farthest pixel. Whether the pixel itself lies in the mean sector does not matter. An image without pixels and a step of 0 raise ValueError, a negative step gives zeros.", "quantifier": "all images of counts with at most 2^40 pixels and 2^50 counts, all centres, radii, steps, all orders in which numpy adds the pixels, every arctan2 with the accuracy of C143", "why_tests_cant": "A test filters some images; which pixels join a mean after rounding of distances and directions, and in which order numpy adds them, varies with size and processor.", "anchors": ["micropolarray/processing/nrgf.py:nrgf", "micropolarray/processing/nrgf.py:map_polar_coordinates"]}
{"id": "C146", "title": "resampling without interpolation picks existing pixels", "statement": "congrid(a, newdims, kind=...) with kind \"nearest\", \"nearest-up\", \"previous\" or \"next\" returns pixels of the image only: the nearest one, the last one before or the first one after the exact position, in the same order, all of them when the size does not change, and corners in corners.", "quantifier": "for all binary64 images up to 2^26 pixels a side, all new sizes and all four kinds", "why_tests_cant": "Whether the rounded position of a pixel passes a sample depends on the two sizes; tests try a few sizes, mostly with kind=\"linear\".", "anchors": ["micropolarray/processing/congrid.py:congrid"]}
{"id": "C147", "title": "resampling arrays of any number of dimensions", "statement": "congrid(a, newdims) returns an array of shape newdims whose elements interpolate those of a along every axis (or are samples of a, for the other kinds), within the range of a, and a itself for its own shape; shapes that do not fit are refused.", "quantifier": "for all arrays of any number of axes, all new sizes and kinds of resampling", "why_tests_cant": "The loop over axes turns the array around once per axis; tests use images, where two turns are none, so an error in the order of axes or of sizes shows only from three axes on.", "anchors": ["micropolarray/processing/congrid.py:congrid"]}
{"id": "C148", "title": "from camera counts to polarization in floating point", "statement": "pB, DoLP and AoLP computed in floating point from images of counts corrected for dark and flat differ from those of the exact pipeline, and behind ideal micropolarizers from those of the light, by the errors of the Stokes parameters and a few roundings: pB by at most the errors of Q and U and 2^-50 of itself; DoLP, where there is light, by three times the errors of pB and of the intensity relative to the intensity; AoLP, where pB exceeds the errors of Q and U, by half the error of np.arctan2 and half the arcsine of those errors over pB, up to half turns. The gain of the sensor cancels from DoLP and AoLP.", "quantifier": "for all images and darks of counts below 2^53, all flats of ordinary numbers, all demodulators of moderate entries, all library functions arctan2 of stated accuracy (binary64)", "why_tests_cant": "A test compares a few images with a fixed tolerance; near zero polarization no fixed tolerance of the angle holds.", "anchors": ["micropolarray/polarization_functions.py:AoLP", "micropolarray/polarization_functions.py:DoLP", "micropolarray/polarization_functions.py:pB", "micropolarray/micropol_image.py:MicropolImage.subtract_dark", "micropolarray/micropol_image.py:MicropolImage.correct_flat", "micropolarray/micropol_image.py:MicropolImage._get_Stokes_from_demodulator", "micropolarray/micropol_image.py:MicropolImage._get_theo_Stokes_vec_components"]}
{"id": "C149", "title": "a debugging run of the calibration shows the fits and writes nothing", "statement": "calculate_demodulation_tensor(DEBUG=True) shows, for every superpixel of a window that the occulter leaves free, its measured points and the Malus curves fitted to them, then exits without writing or replacing a file of an earlier calibration.", "quantifier": "for all series of images, occulters and outcomes of the fits", "why_tests_cant": "Figures are looked at, not tested; whether a curve belongs to the points beside it shows only at superpixels where a fit failed.", "anchors": ["micropolarray/processing/demodulation.py:calculate_demodulation_tensor", "micropolarray/processing/demodulation.py:compute_demodulation_by_chunk"]}
{"id": "C150", "title": "from camera counts through a calibration to the light, in floating point", "statement": "Stokes parameters that a calibrated Demodulator computes in floating point from counts corrected for dark and flat differ from those of the light, times the gain, by at most: the sum of the absolute values of the row of the matrix times (the errors dt + de/2 + df of the calibrated micropolarizers times the intensity, the relative noise, and the relative roundings), plus 3 dl times the intensity, where dl is how far the matrix times the modulation of the micropolarizers is from the identity (at most twice the error of an entry of the pseudo-inverse). pB, DoLP and AoLP follow as in C148, and the gain cancels from DoLP and AoLP.", "quantifier": "for all images and darks of counts below 2^53, flats, gains, noises, micropolarizers, matrices of moderate binary64 entries and light that is no more polarized than it is bright", "why_tests_cant": "A test compares one calibration with one tolerance; it cannot tell errors of the matrix, the micropolarizers, the noise and the roundings apart, nor say how they add up for other instruments.", "anchors": ["micropolarray/micropol_image.py:MicropolImage.subtract_dark", "micropolarray/micropol_image.py:MicropolImage.correct_flat", "micropolarray/micropol_image.py:MicropolImage._get_Stokes_from_demodulator", "micropolarray/polarization_functions.py:AoLP", "micropolarray/polarization_functions.py:DoLP", "micropolarray/polarization_functions.py:pB"]}
{"id": "C151", "title": "masks of truth values, and integers together with floats", "statement": "Multiplying an image by a mask of truth values keeps the pixels that are shown, bit by bit and in their type, and gives zeros elsewhere; masks are united by + and intersected by *; hiding twice is hiding once with the product of the masks; Stokes parameters of superpixels that are shown do not change. Sums, differences and products of integer and float images are those of the numbers, rounded once, and a float number added to, subtracted from or multiplied with an unsigned image never wraps around.", "quantifier": "for all images of integers of every width or of binary64 numbers, all masks and numbers", "why_tests_cant": "The type of a result follows from a table of types, not from values; tests use floats or one integer type and no missing pixels.", "anchors": ["micropolarray/micropol_image.py:MicropolImage.__mul__", "micropolarray/micropol_image.py:MicropolImage.__add__", "micropolarray/micropol_image.py:MicropolImage.__sub__", "micropolarray/image.py:Image.__mul__"]}
{"id": "C152", "title": "medians of pixels, and what replaces a hot pixel", "statement": "The median filter gives every pixel a value found around it, the one of middle rank, follows changes of units and ignores values that fill less than half of the surroundings. clean_hot_pixels(map) should therefore replace a flagged pixel that is brighter than its neighbours by a value of these neighbours, wherever it is on the sensor, and stay within the range of the image; get_hot_pixels should be able to mark such a pixel.", "quantifier": "all images and maps, every position, any history of calls; the filter for values of any ordered kind and any size of window", "why_tests_cant": "Whether a bright pixel is replaced depends on its position and on its neighbours; tests with a hot pixel in the middle of a smooth image see neither the border nor clusters.", "anchors": ["micropolarray/micropol_image.py:MicropolImage.clean_hot_pixels", "micropolarray/processing/image_cleaning.py:get_hot_pixels", "micropolarray/processing/image_cleaning.py:auto_threshold"]}
{"id": "C153", "title": "turning images by multiples of 90 degrees", "statement": "image.rotate(90 * q) turns every picture of the image (the four families of pixels, I, Q and U) counter-clockwise about its centre by q quarter turns: every pixel is the one that the turn takes there, with the same value, or 0 where it comes from outside; turns of square pictures add up and four of them are none; the Stokes vector of the new image is the one of its pixels, with the directions of polarization turned as well.", "quantifier": "all images reached by any history of calls, all whole numbers q of quarter turns, all sizes", "why_tests_cant": "Whether a pixel lands on its exact place depends on the parity of the sides and on whether they are equal; whether its value survives depends on how many bits it needs. Tests turn one square image of small numbers.", "anchors": ["micropolarray/micropol_image.py:MicropolImage.rotate"]}
{"id": "C154", "title": "the automatic threshold tells background from signal", "statement": "auto_threshold(image) of an image with a background and a signal whose values do not overlap returns a threshold between them: pixels whose surroundings are mostly background are below it after filtering, those whose surroundings are mostly signal are not, whatever values hot and dead pixels among the surroundings have.", "quantifier": "all images of at least 5 x 5 pixels, all pairs of populations, all positions and values of defective pixels", "why_tests_cant": "Where the least within-class variance lies depends on all values together; tests use one image with two levels of similar size and no defects.", "anchors": ["micropolarray/processing/image_cleaning.py:auto_threshold"]}
{"id": "C155", "title": "rounding errors of a binned demodulator", "statement": "In binary64, Demodulator.rebin(n) gives the means of the n x n blocks of its matrices up to n*n + 1 units of 2^-52 of the mean of the absolute values; without any error for entries of few bits binned by a power of two; and a demodulator whose matrices hold one number everywhere keeps it.", "quantifier": "all demodulators of finite binary64 numbers, all n up to 2^25", "why_tests_cant": "Errors depend on the order of additions and on all entries of a block; for one n or a round number in the matrices there are none, for the next n or number there are.", "anchors": ["micropolarray/processing/demodulation.py:Demodulator.rebin", "micropolarray/processing/rebin.py:standard_rebin"]}
{"id": "C156", "title": "exposures in floating point", "statement": "In binary64, an image whose pixels are c times those of another has exactly c times its I, Q, U and pB, and the same DoLP, without any further rounding; also after demodulation with the same matrices.", "quantifier": "all images of pixels that are 0 or between 2^-400 and 2^400, all factors that keep them there, all angle dictionaries; demodulation: pixels and entries of the matrices that are 0 or between 2^-200 and 2^200 in absolute value", "why_tests_cant": "Whether two roundings agree depends on all bits of the pixels; comparisons up to a tolerance do not see it.", "anchors": ["micropolarray/polarization_functions.py:pB", "micropolarray/polarization_functions.py:DoLP", "micropolarray/micropol_image.py:MicropolImage._get_theo_Stokes_vec_components"]}
