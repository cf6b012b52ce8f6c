# Formal model of micropolarray — design

Target: `/repo` (Hevil33/micropolarray_master, pinned commit). Prover: Coq 8.16.1.
Everything is under `rocq/theories` (logical root `Verif`).

## 1. What is modelled and how

* **Arrays.** `arr A` = number of rows, number of columns, cell function. All reads and
  writes in loops go through `get`/`set` with Python index semantics (negative indices wrap,
  out of range raises `IndexError`). For `numba.njit` functions an out-of-range access is
  undefined behaviour instead of an exception; every theorem about such a loop shows that the
  access never happens (the model returns `Ok`).
* **Exceptions** are values: `result A := Ok a | Raise e | NoFuel`. `NoFuel` is returned only
  by `while` loops whose fuel ran out. "Terminates" is stated as "for all large enough fuel the
  result is `Ok`", "never returns" as "for every fuel the result is `NoFuel`".
* **`for` loops** over `range(a, b, step)` are a fold in the `result` monad, with the loop body
  transcribed statement by statement. Vectorised numpy expressions are pointwise maps.
* **Numbers.** Pixel values are abstract (`Num A`) wherever possible. Real-number theorems use
  Coq's `R`: exact-arithmetic idealisation of float64. A second instance (IEEE binary64 of the
  standard library, `SpecFloat`) makes the same model executable and is used for examples and
  for float-specific findings.
* **External code** (scipy `curve_fit`, `median_filter`, skimage, PIL, astropy FITS encoding,
  operating system) is a function parameter or an effect in a trace. Nothing is assumed about
  it beyond what a theorem's hypotheses say.
* **Uninitialised memory** (`np.empty`, `np.divide(where=)` without `out`) is an arbitrary
  array parameter.
* **Objects.** MicropolImage histories are a heap state machine with references (data, header,
  Stokes vector, demosaiced images, angle dictionary can be shared between images).

Layout: `Base/` (arrays, loops, numbers), `Model/` (code, function by function, with source
citations), `Spec/` (small independent specifications), `Proofs/`, `Properties/` (only theorem
statements closed by `exact`, `Print Assumptions`, and non-vacuity examples).

## 2. Plan per property

The last column is the status in `MANIFEST.json`; *partial* covers both "proved under an extra
condition" and "false, refuted with a witness" (section 4).

<!-- begin:plan -->
| id | property | model and proof | status |
|---|---|---|---|
| C01 | split_polarizations puts every pixel in its family | Demosaic model: split as in numpy strided slices; pointwise theorem for any pixel type + odd-side error iff. | proved |
| C02 | merge undoes split | Strided slice/assignment model; pointwise equality. | proved |
| C03 | split undoes merge | Same. | proved |
| C04 | superpixel binning sums same-family pixels only | Loop-nest model of the numba loop with bounds-checked get/set; loop invariant; spec = explicit double sum over same-parity pixels. | proved |
| C05 | trimming before binning terminates with the largest fitting size | Fuelled while loop; termination with explicit bound; divergence = out of fuel for every fuel. | proved |
| C06 | superpixel binning conserves signal | Sum reindexing over R (law: commutative monoid). | proved |
| C07 | binning composes | Sum reindexing. | proved |
| C08 | binning commutes with family extraction and with Stokes | Sum reindexing + definition of Stokes. | proved |
| C09 | plain binning is the block sum | As C04 for the standard loop. | proved |
| C10 | old and new superpixel binning agree | Two loop models proved equal pointwise. | proved |
| C11 | shift moves every pixel and fills the rest | Loop model of shift; pointwise spec. | proved |
| C12 | micropolarizer shift keeps pixel families | split/shift/merge composition; pointwise spec. | proved |
| C13 | adjacent demosaicing interpolates within the family | Loop model with vstack/hstack padding; pointwise spec; bounds over R. | proved |
| C14 | demosaicing preserves measured pixels | Refuted by witness for families 1..3; family 0 proved for all images. | partial |
| C15 | mean demosaicing spreads a quarter of each sample | Loop model; pointwise spec. | proved |
| C16 | IFOV correction averages same-family neighbours | Loop model of _ifov_jitcorrect; pointwise spec. | proved |
| C17 | ideal micropolarizer data gives back the true Stokes vector | Real-number Stokes model. | proved |
| C18 | image arithmetic is linear on Stokes parameters | Real-number Stokes model through the object model. | proved |
| C19 | pB and AoLP are the polar form of (Q,U) | atan2 built from stdlib atan; polar identities. | proved |
| C20 | DoLP is well defined and bounded | Model of DoLP branch; bound 2 proved; bound 1 refuted by witness. | partial |
| C21 | AoLP and DoLP do not depend on exposure | atan2 scaling. | proved |
| C22 | polarized light gives back its polarization angle and degree | Trigonometry over R. | proved |
| C23 | the Malus model is a bounded pi-periodic curve | Trigonometry over R. | proved |
| C24 | demodulation is the per-superpixel matrix product | Object-level demodulate over arrays; pointwise spec; error branches. | partial |
| C25 | demodulation inverts the measured modulation | pinv via normal equations for rank 3; matrix algebra over R. | proved |
| C26 | demodulation with demosaicing uses each pixel's own superpixel matrix | As C24 with replication; flag-less case refuted (AttributeError). | partial |
| C27 | saved demodulation tensors load back, whatever the listing order | Directory = list of (name, array); regex model; permutation theorem. | proved |
| C28 | a folder with a missing matrix is rejected | Refuted by witness; partial: what the count check does guarantee. | partial |
| C29 | the processor grid does not change the result | Grid split/merge of arbitrary per-superpixel computation; schedule = permutation of results; non-divisible grids refuted. | partial |
| C30 | each superpixel's calibration is its own | compute_demodulation_by_chunk loop model with curve_fit oracle (including failures), loop-carried scratch arrays. | proved |
| C31 | pixel families are recovered from fitted phases | angle_dic model over R (argmin of four distances). | proved |
| C32 | angle_dic always assigns four distinct families | Refuted by witness. | partial |
| C33 | the occulted region is excluded from the fit as whole superpixels | Mask model; refuted at the centre; partial elsewhere. | partial |
| C34 | normalisation never divides by zero | Refuted by witness; partial for positive values. | partial |
| C35 | polar ROI selects by distance and angle, superpixel by superpixel | roi_from_polar model over R; pointwise spec. | partial |
| C36 | the documented default radius works | Refuted: raises TypeError for every image. | partial |
| C37 | masking the occulter keeps data and Stokes vector consistent | mask_occulter model; pointwise spec; fill != 0 refuted. | proved |
| C38 | inner and outer ROI partition the image | Refuted at the centre pixel; partition elsewhere. | partial |
| C39 | the radial filter normalises each ring | nrgf loop over rings, list-based mean/std over R. | proved |
| C40 | camera masks and ROI agree | Camera models on top of ROI model. | partial |
| C41 | normalize2pi returns the representative in (-90, 90] | Fuelled loops over R; existence of enough fuel; uniqueness of representative. | proved |
| C42 | normalize2pi always returns on floating point input | binary64 (SpecFloat) instance; invariant for all fuel. | partial |
| C43 | normalize2piarray maps into (-pi/2, pi/2] | Whole-array loops over R. | proved |
| C44 | 12-bit packed decoding is a bijection | List-of-bytes codec; bit lemmas via div/mod. | proved |
| C45 | parallel decoding equals sequential decoding | Chunking lemma; schedule independence; NUL stripping refutation. | partial |
| C46 | files of a wrong length are rejected | Length case analysis. | partial |
| C47 | raw files round-trip | 16-bit codec. | proved |
| C48 | converting a raw file never loses data | Effect trace; every prefix. | proved |
| C49 | the converted file is named after the raw file | String model; refuted for dotted paths; partial otherwise. | partial |
| C50 | merging raw files is order independent | Permutation of sums. | proved |
| C51 | loading several files averages or sums them | Permutation of sums; header model. | partial |
| C52 | an image remembers its file name | Refuted for str; proved for list. | partial |
| C53 | fix_data clamps to the requested range | Refuted for zero bound; partial otherwise. | partial |
| C54 | saved parameter files never overwrite each other | String model of output names. | partial |
| C55 | Stokes vector always reflects the data | Heap state machine; invariant over histories. | proved |
| C56 | methods that return a new image leave all other images unchanged | Heap state machine; refuted by rotate / header sharing; partial for data. | partial |
| C57 | header dimensions always match the data | Heap state machine; refuted by sharing; partial for share-free histories. | partial |
| C58 | corrections after demosaicing are reflected in the polarization parameters | Heap state machine; refuted. | partial |
| C59 | images keep the angle dictionary in force when they were created | Heap state machine with global default. | proved |
| C60 | dark subtraction clips at zero | Pointwise model. | partial |
| C61 | flat correction and division are determined by their inputs | Pointwise model with junk parameter; refuted at zero divisors; partial elsewhere. | partial |
| C62 | an explicit angle dictionary is honoured when copying | Heap state machine; refuted. | partial |
| C63 | linear_roi samples the segment from start to end | DDA over exact rationals; refuted overshoot; partial for interior samples. In binary64: induction over the steps, error below 1/n, which decides the truncation except at integers. | partial |
| C64 | Bresenham rasterisation is the nearest-pixel line | Integer loop invariant; the binary64 quotient of two lengths exceeds 1 iff the first is longer (monotonicity of rounding). | proved |
| C65 | error propagation is first-order propagation | Derivatives with stdlib Reals. | partial |
| C66 | congrid interpolates | Separable linear interpolation over R. | partial |
| C67 | keyword alignment moves the data by an involutive anti-transposition and points at the sun | Pointwise index model. | partial |
| C68 | histogram-based normalisation works wherever the peak lies | Slice model; refuted for index < 10; partial otherwise. | partial |
| C69 | Otsu threshold minimises the intra-class variance over its candidates | argmin over list; ties first. | proved |
| C70 | occulter search finds the first jump | Loop model over R lists. | proved |
| C71 | Chen-Wan-Liang calibration applies each superpixel's own correction | Loop model. | proved |
| C72 | hot-pixel cleaning touches only flagged pixels | Pointwise model with filter oracle. | proved |
| C73 | hot-pixel maps can be computed | Refuted: AttributeError for every image. | partial |
| C74 | an interrupted recalibration is detectable | Effect trace; refuted by a crash prefix. | partial |
| C75 | calibration inputs are matched by orientation, not by order | Sorting model; length mismatch refuted (zip truncates). | partial |
| C76 | averaging a set of 12-bit files | Effect trace on top of the codec; permutation of sums. | partial |
| C77 | calibration with a flat field | Calibration model: reading the flat raises for every input. | partial |
| C78 | removing outliers from a row of values | Loop model; refuted for every list with one outlier. | partial |
| C79 | rejecting outliers by median deviation | List model over R with sorted median; refuted for a constant majority. | partial |
| C80 | a line from a centre along an angle | Fuelled loops over R, closed form of DDA (C63); monotonicity of both coordinates; refuted at the border and for inner radii beyond it. | partial |
| C81 | every demosaicing option works | Demosaic model; spline refuted for every image. | partial |
| C82 | resampled images are consistent | Heap state machine; refuted for every image that was not demosaiced. | partial |
| C83 | a constructed image has data | Dispatch on the type of the argument; refuted for Image(MicropolImage) and other types. | partial |
| C84 | superpixel calibration without a flat | Model of the calibration up to the flat; refuted for every input. | partial |
| C85 | superpixel calibration corrects the calibration images | Rank-one pseudo-inverses characterised by the Penrose equations; one orientation proved, mean over orientations refuted. | partial |
| C86 | mean and standard deviation limits | Chebyshev's inequality over lists of reals. | proved |
| C87 | median and median deviation limits | Median of a list (C79) and counting. | proved |
| C88 | turning and flipping a demodulator | Permutations of the tensor's planes; commutation refuted by a witness. | partial |
| C89 | binning a demodulator | Block means via C09; refuted after rot90/flip (matrices are read again from disk). | partial |
| C90 | occulter search by circles | Oracle for the circle detector, fuelled loop. | proved |
| C91 | defaults of the radial filter | Refuted for every image and centre. | partial |
| C92 | occulter search by fits | curve_fit oracle; arithmetic of truncation. | partial |
| C93 | photometric units | Real arithmetic. | proved |
| C94 | output folders are created | File system model; refuted for nested missing folders and for folder names with a dot. | partial |
| C95 | plotting the demosaiced images | Panels as records (data, limits, title); refuted when a limit is given. | partial |
| C96 | plotting an image and its parameters | Panels as records; limits are minimum and maximum or mean -+ standard deviation. | proved |
| C97 | histograms of an image and its pixel families | np.histogram as counting over equal bins; families partition the pixels, so counts add up for equal bins; refuted for the default range. | partial |
| C99 | saving an image as fits | File system model with crash points; refuted for bounds of zero and for the file overwritten. | partial |
| C98 | covariance tensor and fit maps are read back | Reading loop over any permutation of the written files (invariant: entries put so far); counting of names for missing files; refuted for unreadable and duplicated files. | partial |
| C100 | from calibration images to Stokes parameters | Composition of C25/C30 (calibration), C27/C98 (files) and C23 (demodulation); Malus' law at three orientations determines the parameters, so a fit that finds an exact solution finds the true one. | proved |
| C101 | binary64 arithmetic on camera counts | SpecFloat operations = Flocq operations; integers over 2^k with 53 bits are closed under the sums, halves and quarters of the code (invariant through the loops by C04, C13, C15); pB and DoLP by Flocq's relative error bound. | proved |
| C102 | masking the occulter of image objects | Heap of shared arrays (C55-C59): the steps of mask_occulter in explicit form, then views of the image, of its copies and of all others; refuted for copies and for demosaiced images. | partial |
| C103 | rounding errors for any pixel values | A calculus of errors (n roundings of a sum of terms of total size a), from Flocq's bounds of one rounding, with additions free of underflow error; carried through the binning loop (C04), demosaicing (C13) and the Stokes formulas (C15). | proved |
| C104 | rounding errors of pB and DoLP | Relative errors (n roundings of a non-negative number) for raw images, where differences of pixels are multiples of 2^-452 so that no square underflows; for demosaiced images the errors of C103, the triangle inequality for the norm and a perturbation bound for the square root. | proved |
| C105 | rounding errors of demodulation and of means of files | The calculus of C103 with products and quotients; exact form of the matrix product (C24, C26) and of the loop over files (C51), invariant: m terms added, underflow error at most (1 + 2^-53)^m m 2^-1075. | proved |
| C106 | Stokes parameters of demosaiced images | Interpolation of C13 written as a mean over the four corners of the surrounding square; it is the same linear map for the four families, so it commutes with sums and differences. | proved |
| C107 | averaging does not raise the degree of polarization | Triangle inequality for sums of vectors (Q, U), by induction over lists; for non-negative pixels a bound on DoLP is a bound pB <= M I, which sums preserve. | proved |
| C108 | the radial filter removes radial profiles | The output as a function of ring statistics (C39); these depend on pixels of the ring only and are unchanged by affine maps. A normalised ring has mean 0 and deviation 1, a uniform one is 0. | proved |
| C109 | derived images keep keywords and file name | State machine of objects and header references; keywords are changed by Write only (step lemma, induction over programs); refuted for Image (keywords) and MicropolImage (file name). | partial |
| C110 | headers of different images are independent | Invariant: a header referred to by an Image is referred to by nothing else; refuted for a MicropolImage and whatever is made from it. | partial |
| C111 | a demodulator is read from the folder it is given | Python's glob and fnmatch over a list of paths; plain components are taken literally, the files of a plain folder are those that end in .fits and are not hidden, then C27; refuted for brackets, where the pattern matches another name. | partial |
| C112 | the goodness-of-fit map is the reduced chi-square | The sum the code forms (C30) against the sum of squares in units of the errors, by induction over the samples; the errors by C75. | partial |
| C113 | errors of pB, DoLP and AoLP are those the pixels cause | Derivatives along lines through (I, Q, U) give the gradient; the chain rule with the matrix (C24) gives the derivatives with respect to pixels; their squares are compared with C65 by way of the covariances. | partial |
| C114 | images of integers are treated like images of floats | Arithmetic modulo 2^bits characterised by congruence and range; Stokes parameters by C17's formulas with the carries as error terms; the calibration (C71) with truncation at the assignment. | partial |
| C115 | plotting a demodulation tensor | Figures as lists of panels, the variable ax as a value: array of axes or single axes; the loops are computed. | partial |
| C116 | small errors of the calibration and of the pixels cause small errors of the Stokes parameters | M (W p - W q) S with M a left inverse of W q: row sums times the largest difference; each difference bounded by dt, de/2 and df times I (Lipschitz bound of the recorded signal, |sin x| <= |x|). Through the files with C27, C98 and the matching of C75. | proved |
| C117 | binning and demodulating can be exchanged | Both sides as sums over the bin (C06, C24, C89); the common matrix is taken out of the sum. Refuted with two superpixels with different matrices. | partial |
| C118 | errors of pB, AoLP and DoLP are bounded by those of I, Q and U | Polar form (C19), law of cosines and monotonicity of asin for directions; in binary64 the difference of two numbers has a relative error of at most 2^-53 without exception (Flocq), multiplication by 0.5 is exact above the subnormal range. | proved |
| C119 | a pixel influences its neighbourhood only | Each model function is unfolded at the given index for both images; the results of bins are sums over the same indices. No law of arithmetic is used. | proved |
| C120 | normalize2piarray returns for every array of floating-point angles | An array loop ends when the loops of the elements end, with their results. One element: Flocq, the rounding error below 2^55 is at most 2, so each step moves by at least 1; above, x - pi rounds to x. | partial |
| C121 | from an exposure, a dark and a flat image to the polarization of the light | Clipping at zero does not enlarge errors because the light behind a micropolarizer is not negative; dividing by the flat over its mean multiplies by mean sensitivity over sensitivity; then C116 with noise divided by the lowest sensitivity, and C118 for directions. | proved |
| C122 | resampling keeps gradients, loses nothing on refined grids and does not raise polarization | congrid as bilinear interpolation at equidistant positions (C66); a piecewise linear function sampled on a grid that contains its nodes is the same function; the four families are resampled alike, so Stokes parameters are interpolated with non-negative weights, then C107's inequalities. | proved |
| C123 | dark and flat correction in floating point | One pixel at a time: correct rounding of the difference (Flocq), monotonicity of rounding for the comparison with 0; two relative errors for the quotients. The order in which np.mean adds is left open: its result is a parameter with an error bound. | partial |
| C124 | which corrections can be exchanged | Cell by cell: shifts as index translations with a test of bounds (C08), bins as sums over blocks (C04, C06); for the dark, max(a, 0) >= a and >= 0 summed over the block, strictly if the signs differ. | proved |
| C125 | results do not depend on how the sensor is mounted and how angles are counted | Samples of the moved image are samples at moved positions; sums over bins are reordered; the interpolation formula (C13) is symmetric in rows and columns but not under a flip (refuted with a ramp). Angles: (Q, U) turns by twice the angle, then the polar form (C19) determines AoLP up to half turns. | partial |
| C126 | demodulation is the least-squares fit to the four pixels | Two Penrose equations give the normal equations, these give Pythagoras' theorem for residuals, hence minimum and uniqueness. A turned or scaled modulation matrix has the same solutions up to a turn or a factor. | proved |
| C127 | from camera counts to Stokes parameters in floating point | An order of addition is a tree; by induction each level adds one factor 1 + 2^-53 (sums of binary64 numbers have no underflow error). Then C123 (dark, flat), C105 (demodulation) and C103 (Stokes) are chained by triangle inequalities; C121 gives the distance to the light. | proved |
| C128 | cuts and limits follow a change of units | Sorting commutes with increasing maps, hence medians and median deviations; means and variances by linearity; the fold of replacements by induction. For the threshold, candidates start at the minimum plus one whatever the unit. | partial |
| C129 | Stokes parameters amplify equal pixel noise least | Gauss-Markov: the difference of two unbiased weights is orthogonal to the columns of the modulation matrix, and by two Penrose equations the rows of the pseudo-inverse are combinations of these columns; Pythagoras' theorem for the variances. | proved |
| C130 | the radial filter reaches every pixel beyond its inner radius | The rings are a partition of the distances from rho_min up to the largest whole distance (C09, C10); the ring of a pixel is found by division. Beyond the last ring no assignment happens. Refuted with the corners of a 4 x 4 image. | partial |
| C131 | masks and filters do not depend on earlier calls | Invariant of the cache: every entry is what the function computes from its key; least-recently-used replacement keeps the invariant and the bound. Refuted if a program changes the returned array in place. | partial |
| C132 | the radial filter in floating point | sqrt(q) of an integer q is never rounded across an integer below 2^25 (r + 2^-27 lies between). The computed standard deviation is near the root mean square of the computed deviations (relative errors; differences are 0 or not tiny, so nothing underflows), which is near the exact one by Minkowski's inequality. Refuted with eight pixels of 0.1 by computation. | partial |
| C133 | writing pixels of one image changes no other image | Every method either keeps the image's array or takes a new one (one lemma per primitive, composed along the method); hence along any sequence of calls and assignments without plain copies and demodulations the arrays of different images are different. Plain copies take over the array; refuted by one assignment. The sum of the four samples of the superpixel changes, I does not. | partial |
| C134 | missing pixels stay missing | Every operation of binary64 on a NaN gives NaN, also 0 * NaN; a sum in any order that contains one is NaN (induction over the tree of additions). With the cell-by-cell characterisations of C01, C04, C24, C43 and C132 this gives each result. Comparisons with NaN are false, so the filter takes its branch for std = 0. | partial |
| C135 | lines of pixels follow the symmetries of the image | DDA: exchanging coordinates is a simulation of the loop; the other symmetries follow from the closed form of its points (C63), in binary64 from the bound of C63. bresenham: the loop invariant of C64 is sharpened to a closed form, k * dy / dx rounded half down, from which the symmetries are arithmetic. | partial |
| C136 | corrections made in two steps | From the cell-by-cell characterisations of C11, C12, C60, C61 and C35; for regions the selection depends on the shape only, which the fill keeps. Clamps need only that nothing is below itself, so binary64 with NaN is included. | partial |
| C137 | from the bytes of a raw file to the polarization | C45 (any schedule) or the 16-bit reader gives the counts, C44 bounds them by 4095 (65535), C101 gives exact sums and correctly rounded pB; the distance to the light by the triangle inequality for (Q, U). | partial |
| C138 | resampling in floating point | The interval is found by exact comparisons with the rounded position; the interpolating polygon, continued beyond its end, is Lipschitz, so an error of the position costs at most twice the size of the samples times it; the four roundings of one interpolation by Flocq; rows then columns. Exact case: multiples of 2^-k with 53 bits (C101). | partial |
| C139 | a saved image can be loaded again | The saving theorem of C99 followed by the loading theorem of C52 on one file system; the bytes written by astropy are a parameter that images of binary64 numbers can be read back from (an example of such a format is given). The new object is then created as in C55. | partial |
| C140 | arithmetic expressions with images are evaluated for each pixel | A small evaluator of Python expressions with the dispatch rules of binary operators (Model/Operators.v). A typing relation says which operands go together; induction over expressions shows that typed expressions give their meaning pixel by pixel and that all others raise TypeError. | partial |
| C141 | propagated errors in floating point | A calculus of relative errors: products, quotients, roots and sums of non-negative binary64 numbers keep a factor between (1 - 2^-53)^n and its inverse (Proofs/RelFacts.v); exponents are tracked to exclude underflow and overflow. Applied to the formulas of Model/Errors.v, run in binary64 and over the reals. | proved |
| C142 | images of different integer types | numpy's table of common types (1.26.4, value-based for numbers) is written down as code and shown to give the narrowest type with room for both operands, by cases over the eight types and linear arithmetic for the number. With modular arithmetic (C114) this decides for which pairs of types no result can leave the common type. | partial |
| C143 | Sectors selected in floating point hold the pixels of the sector | Model/PolarFloat.v, Spec/SectorSpec.v. pi from Machin's formula (Proofs/PiFacts.v); error of the four operations; directions of whole numbers keep 14/rho^2 degrees away from multiples of 30 and 45 degrees unless they are principal (descent for the root of 3), principal directions computed. Refuted: bounds are not taken modulo 360. | partial |
| C144 | IFOV correction and superpixel calibration keep to rounding errors in floating point | Spec/IfovSpec.v; cells by C16 and C71 (generic in the numbers), then Proofs/FourFacts.v (c + c + c + c = 4 c in binary64: integer mantissas, the tie goes to the even one) and the error calculus of C103/C105. | proved |
| C145 | The radial filter over sectors keeps to rounding errors in floating point | Model/NrgfSector.v (nrgf with computed largest radius, sectors, any order of addition), Spec/SectorFilterSpec.v. Pixel sets by C132 (rings) and C143 (directions); the largest radius because rounded roots of whole numbers keep their order with respect to whole numbers; the error analysis of C132 generalised to pixels that are not among those of the mean. | proved |
| C146 | resampling without interpolation picks existing pixels | scipy's interp1d for the four kinds written down for samples 0, 1, ..., n - 1 (Model/CongridKind.v). A search in sorted values counts a prefix, so the sample picked is characterised by two inequalities with the rounded position moved into the range; positions are within 3 roundings of the exact ones (C138) and monotone, since rounding is. | partial |
| C147 | resampling arrays of any number of dimensions | Arrays as shapes and functions of lists of indices (Model/CongridNd.v). Invariant of the loop over axes: after j turns the array has the new sizes of the last j axes in front, then the old ones, and each element is the nested resampling of the axes treated so far; induction over the number of axes. Then C66's polygon (linear) or C146's choice (other kinds) axis by axis. | partial |
| C148 | from camera counts to polarization in floating point | C127 gives the errors of the Stokes parameters; sqrt(Q^2 + U^2) is 1-Lipschitz and its rounding is that of C104, the quotient is compared with the exact one for intensities known to one half, and C118 bounds the angle by an arcsine. A positive gain multiplies pB and cancels from DoLP and AoLP. | proved |
| C149 | a debugging run of the calibration shows the fits and writes nothing | Loop over a list of superpixels (a product of two ranges). Invariant: the maps keep their shape, the figures so far are those of the relation `shows`, which says for each pixel whether its curve is its own or the last one drawn. A superpixel outside the image fails in reshape. | partial |
| C150 | from camera counts through a calibration to the light, in floating point | C127 compares the computed row products with those of the exact corrected pixels, C121's correction lemma and C116's bound for nearby micropolarizers compare those pixels with the calibrated modulation of the light; the matrix times that modulation is the identity up to dl, so the three sources add up. C148 turns errors of I, Q, U into errors of the polarization. | proved |
| C151 | masks of truth values, and integers together with floats | Cases over the kinds of the two operands (Model/Kinds.v). Multiplication by 1.0 gives back every binary64 number (Flocq's correctness of the product determines value and sign), by 0.0 a zero or NaN; integers below 2^53 are converted exactly, so one rounding remains. | partial |
| C152 | medians of pixels, and what replaces a hot pixel | Model/MedianFilter.v writes scipy's filter down: window, mirrored borders, rank. Insertion sort is a sorted permutation, so the element at a position has that rank; sorting commutes with order-preserving maps. Windows of four pixels by cases; the object level is C72 with this filter. | partial |
| C153 | turning images by multiples of 90 degrees | Model/Rotate.v writes Pillow's rotate down for multiples of 90 degrees (transpositions, or an affine map without filter) and its 24-bit pictures. Spec/RotateSpec.v says in coordinates relative to the centre, doubled, which pixel goes where; linear arithmetic by cases over the four turns and the two branches. Rounding facts from Flocq; the object level is the step of Model/ImageObj.v with this turn. | partial |
| C154 | the automatic threshold tells background from signal | Spec/ThresholdSpec.v. A candidate between the populations has a within-class variance of at most the square of their width; one that puts a pixel of each in the same class has at least half the square of the gap over the number of pixels; candidates are closer together than the gap, so one lies in it (first candidate above the background). Medians by C152's rank: counts of values below and above. Concrete images by computing over Z, transferred to R. | partial |
| C155 | rounding errors of a binned demodulator | C89 gives each entry as a left-to-right binary64 sum over n^2, for any number type. Error of sums as in C103, one more rounding for the quotient; exact sums of fixed-point numbers as in C101. Constant matrices binned by 2: v + v is exact, and rounding 3 v, then adding v, gives 4 v by cases over the size of 3 m for v = m 2^e, ties going to even. 0.1 binned by 3 and by 4 by computation. | partial |
| C156 | exposures in floating point | Rounding commutes with multiplication by 2^k, k >= 0, for results that are 0 or at least 2^-1022. All intermediate results are multiples of a fixed power of two (rounding keeps to the grid), so they are 0 or large enough; the quotient is the same quotient. Shorter exposures by exchanging the images. | partial |
<!-- end:plan -->

## 3. Trusted base

What has to be believed for the theorems to say something about the program:

1. **Coq 8.16.1's kernel**, including its `vm_compute` conversion (used to evaluate concrete
   cases). No kernel check is switched off and no axiom is declared in the development.
2. **The standard library's axioms** listed by `Print Assumptions` under each theorem (section 5):
   the construction of the real numbers (`sig_forall_dec`, `sig_not_dec`), functional
   extensionality and, for a few theorems, excluded middle (`classic`). Nothing else occurs.
   Flocq is used for rounding facts about binary64; it adds no axiom of its own.
3. **The reading of the Python code** into `Model/` — each definition cites file and lines.
4. **The semantics of Python, numpy and numba** as described in section 1 and in the
   simplifications below.

### 3.1 Which code is modelled

| file (micropolarray/…) | modelled | not modelled |
|---|---|---|
| `image.py` | 21-132 (initialisation from names, arrays, images; data setter), 134-176 and 277-303 through shift/rebin/arithmetic of arrays, 178-222 (saving), 228-275 (plots: data, limits and titles) | colours, colour bars, matplotlib's own checks |
| `micropol_image.py` | 53-133 (initialisation, default angles), 138-236 (parameters), 238-428 (demodulation, dark, flat, IFOV), 434-647 (plots: data, limits and titles), 649-1096 (saving, demosaicing, rebinning, congrid, rotation, masks, shifts, cleaning, arithmetic) | colours, colour bars, numbers in titles |
| `polarization_functions.py` | 14-62, 68-88 (same code as in utils) | the dead statements after `return` |
| `utils.py` | 34-61, 64-216, 219-307 | 17-31 (timer), the plot in 280-307 |
| `cameras.py` | 8-110 | 111-124 (constants nobody reads) |
| `processing/demosaic.py` | all; "spline" raises as it does with the pinned numpy | — |
| `processing/rebin.py` | all | printing |
| `processing/shift.py` | all | — |
| `processing/congrid.py` | 32-72 with `kind` "linear", "nearest", "nearest-up", "previous" or "next", any number of axes (`Model/CongridNd.v`), sides of at least 2 (new sides of 1: C147) | 10-30 (numba kernel nobody calls), splines |
| `processing/convert.py` | all | console output |
| `processing/demodulation.py` | 36-193 (43-103: Cij and maps), 195-229 (panels and returned values of the plot), 231-267, 269-759 (calibration driver and the files it writes), 761-1068 (fits), the DEBUG branches (`Model/CalibDebug.v`) | colours and colour bars of the plots |
| `processing/demodulation_errors.py` | all | — |
| `processing/image_cleaning.py` | all | — |
| `processing/linear_roi.py` | 11-187 | the `__main__` part |
| `processing/nrgf.py` | all, with the cache of map_polar_coordinates (`Model/Cache.v`); OpenCV and the fit are oracles | plots |
| `processing/chen_wan_liang_calibration.py` | 15-322 | plots, prints and timing |

<!-- model files -->

Files of the model (`rocq/theories/Model/`):

| file | content |
|---|---|
| `Angles.v` | Angle normalisation (micropolarray/utils.py 120-156; polarization_functions.py 70-90 has an identical copy of [normalize2pi]). |
| `AnglesFloat.v` | Normalisation of arrays of angles in binary64 (micropolarray/utils.py 143-156). |
| `Cache.v` | functools.lru_cache on map_polar_coordinates (micropolarray/processing/nrgf.py 91-103): the last 128 results are kept and handed out again, as the same arrays, to roi_from_polar (57-61), nrgf (142-144) and whoever calls map_polar_coordinates. |
| `CalibDebug.v` | calculate_demodulation_tensor with DEBUG = True (micropolarray/processing/demodulation.py 491-492, 713-715, 856-861 and 937-977). |
| `Calibrate.v` | calculate_demodulation_tensor (micropolarray/processing/demodulation.py 269-709): collecting the series of images, dark correction, occulter flags and normalisation before the fit. |
| `ChenFit.v` | Model of calculate_chen_wan_lian_calibration (micropolarray/processing/chen_wan_liang_calibration.py 15-257). |
| `Cleaning.v` | micropolarray/processing/image_cleaning.py. |
| `Codec.v` | Binary file codecs: micropolarray/processing/convert.py 14-63 and micropolarray/image.py 210-222. |
| `Congrid.v` | Resampling to an arbitrary size: micropolarray/processing/congrid.py 32-72 and micropolarray/micropol_image.py 862-892. |
| `CongridKind.v` | Resampling without interpolation: micropolarray/processing/congrid.py 32-72 with [kind] "nearest", "nearest-up", "previous" or "next", in binary64. The picking of samples is that of scipy.interpolate.interp1d (scipy 1.13: _call_nearest, _call_previousnext and the filling of values outside, with fill_value="extrapolate"). |
| `CongridNd.v` | Resampling arrays of any number of dimensions: micropolarray/processing/congrid.py 32-72. |
| `Construct.v` | What the constructors do with their argument: image.py 22-39, 112-132 and micropol_image.py 74-133 (without dark and flat, which are in Model/ImageObj.v). |
| `DemodCov.v` | The other results of a calibration: Cij, eff, tk and phi of a Demodulator (micropolarray/processing/demodulation.py 43-103), and how they are written (709 and 722-752). |
| `DemodFit.v` | Calibration: fitting every superpixel of a chunk (micropolarray/processing/demodulation.py 761-1068) and distributing the chunks over a grid of processes (417-709). |
| `DemodLoad.v` | Saving and loading demodulation tensors (micropolarray/processing/demodulation.py 105-193 and 722-754). |
| `DemodTurn.v` | Turning, flipping and binning a Demodulator (micropolarray/processing/demodulation.py 231-267). |
| `Demodulate.v` | Applying a demodulation tensor to an image (micropolarray/micropol_image.py 284-379). |
| `Demosaic.v` | Model of micropolarray/processing/demosaic.py (without [congrid]). |
| `Errors.v` | Propagation of errors through demodulation (micropolarray/processing/demodulation_errors.py 14-88). |
| `FileInit.v` | Image(filename) and Image(list of filenames): micropolarray/image.py 38-111. Reading FITS, parsing and printing dates are oracles; dates are integers (ordered instants). |
| `FlatFloat.v` | Flat correction with a given mean (micropolarray/micropol_image.py 405-411). |
| `Fs.v` | A file system with crash points, and the functions that read and write files: convert.py 96-212 (raw to fits), image.py 178-222 (saving), utils.py 34-46 and micropol_image.py 649-801 (parameter files). |
| `Glob.v` | Which files a Demodulator reads: glob.glob in micropolarray/processing/demodulation.py 45-47 and 150-155, with the part of Python's glob and fnmatch it uses. |
| `Histogram.v` | Normalising signal from a histogram: micropolarray/utils.py 250-307, and the same computation in micropolarray/processing/demodulation.py 427-468. Real numbers. |
| `Ifov.v` | Model of the IFOV correction and of the Chen-Wan-Liang calibration (micropolarray/processing/chen_wan_liang_calibration.py 260-322). |
| `ImageObj.v` | MicropolImage objects and what they share (micropolarray/micropol_image.py 53-133, 233-264, 381-428, 806-1080 and the data property of image.py 117-132). |
| `IntData.v` | Images of integers: MicropolImage keeps the data type of the array it is made from (image.py 34, [np.array(input_data)]). |
| `IntTypes.v` | Images of integers of different types, and of integers and whole numbers: micropol_image.py 1004-1064 and image.py 277-296 with the rules of numpy 1.26.4 (requirements.txt 55) for the type of a result. |
| `Keywords.v` | Aligning data and header keywords: micropolarray/utils.py 159-216. |
| `Kinds.v` | Images of integers, floats and truth values together: micropol_image.py 1004-1064 and image.py 277-296 with the rules of numpy 1.26.4 (requirements.txt 55) for the type of a result. |
| `Limits.v` | micropolarray/utils.py 49-52 (sigma_DN), 64-117 (limits for plots) and 219-248 (get_Bsun_units). |
| `LinRoi.v` | Lines of pixels (micropolarray/processing/linear_roi.py 77-187). |
| `MeanFloat.v` | [np.mean(flat)] (micropolarray/micropol_image.py 407): numpy adds the pixels in an order of its own (pairwise, in blocks that depend on memory layout and processor) and divides by their number. |
| `MedianFilter.v` | scipy.ndimage.median_filter(a, size) of scipy 1.13.0 (requirements.txt 108), which micropol_image.py 992 and image_cleaning.py 12 call with size 2 and image_cleaning.py 90 with size 10: the window of size x size elements that starts size // 2 elements before the pixel in each direction, continued beyond the borders by mode "reflect" (d c b a \| a b c d \| d c b a), sorted; the element of rank size * size // 2, counted from 0. Left out: the order of NaN among numbers, arguments other than [size]. |
| `Meta.v` | Header keywords and file names of images along a program: image.py 22-39, 113-172, 277-303, micropol_image.py 74-133, 238-264, 381-428, 823-1080. Pixels are left out (they are in Model/ImageObj.v): of the data only the sizes matter here, and are arguments of the calls. |
| `Nrgf.v` | Radial filter and occulter search: micropolarray/processing/nrgf.py 106-174 and 226-360. Exact real arithmetic. |
| `NrgfFloat.v` | The radial filter over any type of numbers, in particular binary64: micropolarray/processing/nrgf.py 150-172 with the default angles (all pixels). |
| `NrgfSector.v` | The radial filter with sectors in binary64: micropolarray/processing/nrgf.py 131-174 with whole numbers for the centre, [rho_min] and [step] and binary64 numbers for the angles. |
| `OcculterSearch.v` | Occulter search by circles and by fits, and the defaults of the radial filter: micropolarray/processing/nrgf.py 106-135, 177-223 and 226-360 (method="sigmoid"). |
| `Operators.v` | Arithmetic expressions with images: micropolarray/image.py 277-303 and micropol_image.py 1004-1091, with Python's rules for binary operators. |
| `Paths.v` | Path strings as the package uses them: [str.split], [str.join], [os.path.abspath] and the parts of [pathlib.Path] it calls (POSIX flavour). |
| `Pixels.v` | Writing pixels of an image through its [data] attribute: the property (micropolarray/image.py 117-119) hands out the array itself, so [image.data[y, x] = v] writes into the memory the heap of Model/ImageObj.v holds, without the setter (121-132). |
| `Pol.v` | Polarization parameters: micropolarray/polarization_functions.py 14-62 and the Malus model of micropolarray/processing/demodulation.py 1062-1068. |
| `PolFloat.v` | AoLP in binary64: micropolarray/polarization_functions.py 14-30. |
| `PolarFloat.v` | Polar regions of interest in binary64: micropolarray/processing/nrgf.py 36-81 and 92-103 with whole numbers for the centre and the radii (as every caller in the package passes them) and binary64 numbers for the angles. |
| `PolarLine.v` | Lines from a centre along an angle (micropolarray/processing/linear_roi.py 11-74), over the real numbers. |
| `Rebin.v` | Model of micropolarray/processing/rebin.py. |
| `Reload.v` | MicropolImage(filename) on a file system: micropolarray/micropol_image.py 74-112 with image.py 25-111. What astropy makes of the bytes of a file is the parameter [parse]; dates are read and printed by the parameters of [reader]. |
| `Roi.v` | Polar regions of interest: micropolarray/processing/nrgf.py 13-103, the camera masks of micropolarray/cameras.py 8-110 and MicropolImage.mask_occulter (micropolarray/micropol_image.py 915-961). |
| `Rotate.v` | Image.fromarray(a).rotate(angle) of pillow 10.3.0 (requirements.txt 81) and the way back by np.asarray, as micropol_image.py 899-901 and 906-908 use them: no resampling filter, same size, centre of the picture. |
| `Save.v` | Image.save_as_fits: micropolarray/image.py 178-208. |
| `Shift.v` | Model of micropolarray/processing/shift.py. |
| `Show.v` | What the plotting methods draw: micropolarray/image.py 228-275 and micropolarray/micropol_image.py 434-588, 590-647. A figure is the list of its panels; colours, colour bars, axis labels and figure sizes are left out, as are the numbers written into titles. |
| `ShowDemod.v` | What [Demodulator.show] draws and returns: micropolarray/processing/demodulation.py 195-229. Colours, the colour bar's scale and the sharing of axes are left out. |
| `Stokes.v` | Theoretical Stokes vector of a micropolarizer image (micropolarray/micropol_image.py 266-282, angle dictionaries of cameras.py). |
| `Utils.v` | Pixel-wise corrections: micropolarray/utils.py 55-61 (fix_data), micropol_image.py 381-417 (subtract_dark, correct_flat), the division operators of image.py 298-303 and micropol_image.py 1056-1065. |

<!-- end of model files -->

### 3.2 Simplifications

* **Exact arithmetic.** Theorems over `R` speak about the code with exact real arithmetic.
  Where rounding decides the outcome, a binary64 theorem or refutation stands beside it
  (C42, C51, C53, C63, C64, C65, C66, C67, C101, C103, C104, C105, C118, C120, C123, C127, C132, C134, C135,
  C137, C138, C141, C142, C143, C144, C145, C146, C148, C150, C151, C155, C156; C153 for 24-bit pictures).
* **External numerics.** `curve_fit`, `median_filter`, `np.histogram`'s bin edges, PIL's rotation
  and interpolation are functions of their arguments about which nothing is assumed unless a
  hypothesis says so. `curve_fit` is deterministic. The median filter keeps the shape; in C152 it is written down as in scipy 1.13
  (`Model/MedianFilter.v`, NaN left out). PIL's rotation is written down in C153 for multiples of 90 degrees as in
  pillow 10.3.0 (`Model/Rotate.v`: pictures of 24-bit floats, nearest pixel; other angles stay a parameter).
  `np.linalg.pinv` is the matrix given by the normal equations and does not raise; in the
  superpixel calibration it is any function satisfying the Penrose equations on matrices of rank
  one. FITS data read by that calibration are real numbers. In binary64 `np.arctan2` is any
  function with a stated error (C118), on whole numbers also exact to rounding in the eight principal directions
  (C143), and gives NaN for NaN (C134).
* **Orders of addition.** `np.mean` and `np.std` in binary64 (C127, C132, C145) add pixels in an order given as a
  tree, about which nothing is assumed but that it contains each pixel once. Products of 3x4 and 4x4 matrices with
  four numbers (C105, C144) add four rounded products from left to right; BLAS may take another order or fuse a
  product with an addition, which changes last bits and no bound by more than a factor.
* **Remainders** in binary64 (`Model/PolarFloat.v`, C143): `v % 360` is modelled for 0 <= v < 720, where numpy's
  remainder is exact; C143_angle shows that the code takes no other remainder.
* **Interpolation** (C66, C138, C146): `scipy.interpolate.interp1d` is written down as in scipy 1.13 for samples at
  0, 1, ..., n - 1. For "previous" and "next" it compares positions with the neighbouring binary64 numbers of the
  samples; the model compares them with the samples, strictly or not.
* **The cache** of `map_polar_coordinates` (C131) is modelled for distances and angles computed exactly; keys are
  compared as numbers (`2` and `2.0` are the same key, as in Python).
* **Attributes.** `getattr` in the plotting functions knows the attributes the code asks for;
  other names are taken as missing.
* **Division by zero and roots of negative numbers** in numpy give `inf`/`nan`; over `R` they are
  arbitrary (Coq's total functions or an oracle value) and theorems exclude them by hypothesis.
  In `hot_map` a contrast of 0/0 counts as "not hot".
* **Integers** are unbounded except where the code fixes a type: bytes, 12- and 16-bit codecs,
  unsigned data in C60, integer images in C114 (two images of the same type) and C142 (different types and numbers,
  with the promotion rules of numpy 1.26.4, `Model/IntTypes.v`) and C151 (together with floats and truth values,
  `Model/Kinds.v`; float32 is left out). Elsewhere images hold floats, as those read from
  files do; `calculate_chen_wan_lian_calibration` (C84, C85) is modelled for float files only.
* **numba out-of-bounds accesses** are undefined behaviour; the model raises IndexError and the
  theorems show it does not happen.
* **Files.** A crash leaves a file either as it was, complete, or broken (unreadable); effects
  happen in program order. FITS encoding, header value checks of astropy and the printing/parsing
  of dates are oracles; dates are integers. Reading a FITS file gives a `reader` record.
* **glob and fnmatch** (`Model/Glob.v`): components of a path, `*`, `?`, `[...]` with ranges and `!`,
  hidden files; no `..`, no empty components, no symbolic links, listing in the order of the list of paths.
* **Headers** in the object model carry NAXIS1/NAXIS2 only; the ones used by file loading, keyword
  alignment and the model of derived headers (`Model/Meta.v`, which leaves out pixels) are association
  lists.
* **Reading a saved file** (`Model/Reload.v`, C139): what astropy makes of the bytes of a file is a parameter;
  the theorems assume that images of binary64 numbers (`storable`) are read back as they were written. The
  header of the loaded object is reduced to its sizes, dates are read and printed by parameters.
* **Assignments to pixels** (`Model/Pixels.v`, C133): `image.data[y, x] = v` with a position inside the image;
  other ways of reaching the array (slices, views kept by the caller) are left out.
* **Operators** (`Model/Operators.v`, C140): an expression is a tree of +, -, *, / over numbers, two-dimensional arrays and
  images; numpy's conversion of an image to an object array is reduced to its outcome (TypeError unless the
  array is empty), division by zero without an image (inf, nan) is left out.
* **Angle dictionaries** are immutable values (the package never modifies one in place).
* **Uninitialised memory** is an arbitrary array, chosen before the call.

## 4. Findings (the code violates the property)

One entry for each property with a `_refuted` theorem; the text is the note of `MANIFEST.json`.

<!-- begin:findings -->
* **C14** (demosaicing preserves measured pixels). False for families 1-3 (refuted with a 4x4 witness); true for family 0; C14_actual_value gives the exact value for every family. Witness: `C14_measured_pixels_refuted`. What holds: `C14_measured_pixels_partial`, `C14_actual_value`.
* **C20** (DoLP is well defined and bounded). DoLP <= 1 is false for non-negative mosaics (witness reaches 2); DoLP <= 2 holds always, DoLP <= 1 for what ideal micropolarizers record of physical light. Witness: `C20_dolp_at_most_one_refuted`. What holds: `C20_dolp_def`, `C20_dolp_at_most_two`, `C20_dolp_at_most_one_partial`.
* **C24** (demodulation is the per-superpixel matrix product). Product, flags and locality proved for every matching tensor. Rejection of other shapes is proved except when numpy broadcasts (one-row/one-column tensors or images), where it is refuted: such a tensor is used for every row. That the operand image is left unchanged is part of C56. Witness: `C24_one_row_refuted`. What holds: `C24_product`, `C24_other_shape_partial`.
* **C26** (demodulation with demosaicing uses each pixel's own superpixel matrix). Proved with fit flags. Refuted without: demodulate(..., demosaicing=True) raises AttributeError for every demodulator that has no flags. Witness: `C26_no_flags_refuted`. What holds: `C26_demosaicing_partial`.
* **C28** (a folder with a missing matrix is rejected). Refuted: a second file with the digits 01 makes up for the missing M00, which stays zero. Proved for folders in which no two files carry the same digits. Witness: `C28_copy_refuted`. What holds: `C28_missing_partial`.
* **C29** (the processor grid does not change the result). Proved for every grid that divides the number of superpixels, every completion order and every fit; refuted for accepted grids that do not divide it: the remaining rows/columns stay zero (C29_covered_partial gives the exact result). Witness: `C29_leftover_refuted`. What holds: `C29_grid_partial`, `C29_covered_partial`, `C29_refused`.
* **C32** (angle_dic always assigns four distinct families). Refuted for four equal phases. Proved: the four families differ iff the nearest to 0, 45 and -45 differ. Witness: `C32_equal_phases_refuted`. What holds: `C32_families_partial`.
* **C33** (the occulted region is excluded from the fit as whole superpixels). Refuted at the occulter's centre superpixel, which is not flagged; exact everywhere else. Unflagged centre means it is fitted. Witness: `C33_centre_refuted`. What holds: `C33_flags_partial`, `C33_not_fitted`.
* **C34** (normalisation never divides by zero). Refuted for zero (the test is S<0 where the comment says S=0). Negative values become 1, others are kept. Witness: `C34_zero_kept_refuted`. What holds: `C34_corrected_partial`.
* **C35** (polar ROI selects by distance and angle, superpixel by superpixel). The odd-side rejection fails for sides of length 1: a 1 x 2w image gives a 0 x 2w result. Everything else is proved (superpixel and pixel mode, default centre, rejection when both sides exceed 1). Witness: `C35_side_one_refuted`. What holds: `C35_superpixels_partial`, `C35_pixels`, `C35_default_centre`, `C35_odd_sides_partial`.
* **C36** (the documented default radius works). False: the default rho=None always raises TypeError (proved for all inputs). Witness: `C36_default_rho_refuted`.
* **C38** (inner and outer ROI partition the image). False at the centre superpixel, which neither ROI selects; true at every other pixel (radius bounded by the outer limit that stands for infinity). Witness: `C38_partition_refuted`. What holds: `C38_partition_partial`, `C38_centre`.
* **C40** (camera masks and ROI agree). Proved for PolarCam and any camera with an occulter position; Kasi defines none, so both methods raise AttributeError. Witness: `C40_kasi_refuted`. What holds: `C40_mask`, `C40_roi`.
* **C42** (normalize2pi always returns on floating point input). False: returns for a finite binary64 angle iff |angle| <= 2^61 (both directions proved for all binary64 numbers); infinities never return. Witness: `C42_float_termination_refuted`, `C42_infinity_refuted`. What holds: `C42_float_termination_partial`.
* **C45** (parallel decoding equals sequential decoding). False: .strip(b'\0') removes trailing NUL bytes of a chunk, so e.g. an all-dark frame raises. Exact dichotomy for files of the right length: decoded correctly iff no chunk ends in NUL, otherwise raises. Witness: `C45_parallel_refuted`. What holds: `C45_parallel_partial`, `C45_parallel_nul_chunk`.
* **C46** (files of a wrong length are rejected). False: a file 96 bytes too long whose chunks end in NUL is accepted. True for too short files and for too long ones with a chunk not ending in NUL. Witness: `C46_wrong_length_refuted`. What holds: `C46_wrong_length_partial`.
* **C49** (the converted file is named after the raw file). False for paths with further dots (they become colons, also in directory names). True without; C49_actual_name gives the name for every normalised absolute path. Witness: `C49_converted_name_refuted`, `C49_dotted_directory_refuted`. What holds: `C49_actual_name`, `C49_converted_name_partial`.
* **C51** (loading several files averages or sums them). Mean or sum, header and dates proved; order independence in exact arithmetic, refuted in binary64, where also the mean of ten equal images differs from them (C101 gives the cases without rounding). A date in neither format makes the file unloadable when TIME-OBS is missing (KeyError). Witness: `C51_float_order_refuted`, `C51_float_mean_refuted`. What holds: `C51_data`, `C51_order`, `C51_header`, `C51_undated`, `C51_empty`.
* **C52** (an image remembers its file name). Refuted: for a plain string the name kept is its first character. Proved for lists of one name, and the SUM_ name for several files. Witness: `C52_plain_name_refuted`. What holds: `C52_list_of_one_partial`, `C52_sum_name`.
* **C53** (fix_data clamps to the requested range). A bound equal to 0 is ignored (truthiness test), refuted with witness; exact for every non-zero bound. Witness: `C53_fix_data_refuted`. What holds: `C53_fix_data_partial`, `C53_skipped`, `C53_nan`.
* **C54** (saved parameter files never overwrite each other). Distinct names and no loss proved for all four savers. 'Raises before anything is written' fails for save_single_pol_images and save_param_as_fits: the directory has been created; no file is. Witness: `C54_invalid_suffix_refuted`. What holds: `C54_all_params`, `C54_one_param`, `C54_single_pol`, `C54_demosaiced`, `C54_invalid_suffix`, `C54_not_demosaiced`, `C54_invalid_suffix_partial`.
* **C56** (methods that return a new image leave all other images unchanged). Refuted for rebin (writes the new size into the shared header of the image it is called on) and rotate (turns the Stokes vector in the memory of the image it is called on); both characterised for every successful call. Proved for copies, number arithmetic and demodulation; for shifts, cleaning and arithmetic between images when the header has the size of the data; rebin and congrid change nothing but headers. Witness: `C56_rebin_refuted`, `C56_rotate_refuted`. What holds: `C56_unchanged_partial`, `C56_untouched_partial`, `C56_resize_partial`.
* **C57** (header dimensions always match the data). Refuted: after rebin by 2 or more the header of the source has the new image's size. Proved for every history without resizing. Witness: `C57_rebin_refuted`. What holds: `C57_header_partial`.
* **C58** (corrections after demosaicing are reflected in the polarization parameters). Refuted: once demosaiced, every correction recomputes the Stokes vector from the images demosaiced before, whatever the new data. Demosaicing again gives the vector of the current data (proved for every reachable state). Witness: `C58_stale_refuted`. What holds: `C58_demosaic_again_partial`.
* **C60** (dark subtraction clips at zero). Exact for signed/float data; arrays of unsigned integers wrap around instead of clamping (refuted). Witness: `C60_dark_unsigned_refuted`. What holds: `C60_dark`, `C60_dark_shape`, `C60_dark_of_itself`, `C60_dark_unsigned`.
* **C61** (flat correction and division are determined by their inputs). Where the divisor is zero the result is uninitialised memory (np.divide with where and no out); exact elsewhere. Witness: `C61_division_refuted`, `C61_scalar_zero_refuted`. What holds: `C61_division_partial`, `C61_flat_partial`, `C61_scalar`.
* **C62** (an explicit angle dictionary is honoured when copying). Refuted: the dictionary given to MicropolImage(image, angle_dic=d) is ignored for every image and d. Witness: `C62_ignored_refuted`.
* **C63** (linear_roi samples the segment from start to end). Refuted: one sample is always taken beyond the end, so a line to the far edge raises IndexError and a line to row or column 0 ends on the opposite edge; equal points raise ValueError. The walk itself (start first, end reached, unit steps, bounding box) is proved in exact arithmetic; in binary64 the end can be missed (witness). For coordinates up to 65536 the pixels found in binary64 are those of exact arithmetic, except where the line meets a pixel exactly: there it may be the next one towards zero in the shorter direction. Witness: `C63_overshoot_refuted`, `C63_far_edge_refuted`, `C63_near_edge_refuted`, `C63_same_point_refuted`, `C63_float_refuted`. What holds: `C63_walk_partial`, `C63_points`, `C63_values_partial`, `C63_float_partial`, `C63_float_values_partial`.
* **C65** (error propagation is first-order propagation). Proved: I, Q, U errors exactly, pB, DoLP and AoLP errors are the first-order propagation wherever the derivatives exist and Q is not zero. Refuted for the AoLP error at Q = 0, where the first-order error exists but the code divides by zero. Witness: `C65_no_Q_refuted`. What holds: `C65_errors`.
* **C66** (congrid interpolates). Shape, bilinear interpolation, identity, corners and bounds proved in exact arithmetic; in binary64 the identity and the bounds are refuted (rounding). Sides of at least 2. Witness: `C66_float_refuted`. What holds: `C66_shape`, `C66_bilinear`, `C66_same`, `C66_corners`, `C66_range`, `C66_image`.
* **C67** (keyword alignment moves the data by an involutive anti-transposition and points at the sun). Data movement, involution, families and keywords proved for every square mosaic. The sun centre is within a pixel in exact arithmetic; in binary64 the truncated scaling can put it two pixels off (witness at row 246). Applying it twice appends the time to DATE-OBS twice. Witness: `C67_sun_centre_refuted`. What holds: `C67_alignment`, `C67_twice`, `C67_not_square`, `C67_sun_centre_partial`.
* **C68** (histogram-based normalisation works wherever the peak lies). Refuted: modal bins 0-9 raise IndexError, 991-999 ValueError, whatever the fit; in particular fields more than half of whose pixels are masked to the minimum or saturated. Between 10 and 990 exactly twenty bin centres and relative counts are fitted. Witness: `C68_left_refuted`, `C68_right_refuted`, `C68_masked_refuted`, `C68_saturated_refuted`. What holds: `C68_modal_bin`, `C68_half_sum`, `C68_window_partial`.
* **C73** (hot-pixel maps can be computed). Refuted for every image: the method _set_data_and_Stokes does not exist, so AttributeError is raised; and with the default threshold the map would be zero for all non-negative images. Witness: `C73_hot_pixels_refuted`, `C73_default_threshold_refuted`.
* **C74** (an interrupted recalibration is detectable). Refuted: interrupted between two files, a folder holding an older tensor of the same size loads as a mixture. Proved: interrupted inside a matrix file it raises; in a new folder it raises or gives the new tensor. Witness: `C74_mixture_refuted`. What holds: `C74_cut_partial`, `C74_new_folder_partial`.
* **C75** (calibration inputs are matched by orientation, not by order). Order independence proved except for a series of normalising images, which are matched by position after sorting (refuted). Files beyond the orientations are silently ignored (rejection refuted). Witness: `C75_lengths_refuted`, `C75_series_refuted`. What holds: `C75_order_partial`, `C75_matched_partial`, `C75_missing_orientation`.
* **C76** (averaging a set of 12-bit files). Refuted for files with a chunk ending in NUL (see C45): then the call raises and writes nothing. Mean, other files and order proved for files without such a chunk. Witness: `C76_nul_chunk_refuted`. What holds: `C76_convert_set_partial`, `C76_convert_set_others`, `C76_convert_set_order`.
* **C77** (calibration with a flat field). Refuted: with a flat the function never returns a result (reading it uses np.float, which numpy 1.26.4, the pinned version, does not have). Witness: `C77_flat_refuted`.
* **C78** (removing outliers from a row of values). Refuted for every position, length and value: the element compared and the one replaced are not the same, so an isolated outlier is never removed. Witness: `C78_outlier_refuted`.
* **C79** (rejecting outliers by median deviation). The kept values are characterised whenever the median deviation is positive. Refuted when more than half of the values agree: then everything is kept. Witness: `C79_majority_refuted`. What holds: `C79_rejection`, `C79_median`.
* **C80** (a line from a centre along an angle). Proved for centres at least two pixels from the top and left border, without an inner radius and with one that lies inside the image below the outer one: start, unit steps, distance from the ray, where it ends, values. Refuted for centres in the first two rows or columns (ValueError for every angle) and for inner radii beyond the border (IndexError to the right, pixels of the opposite side to the left) and short outer radii. Witness: `C80_border_centre_refuted`, `C80_inner_right_refuted`, `C80_inner_left_refuted`, `C80_short_radius_refuted`. What holds: `C80_ray_partial`, `C80_inner_partial`.
* **C81** (every demosaicing option works). Proved for 'mean' and 'adjacent'; refuted for 'spline', which raises for every image with the pinned numpy. Witness: `C81_spline_refuted`. What holds: `C81_options_partial`.
* **C82** (resampled images are consistent). Refuted: the Stokes vector of a resampled mosaic has all of its sides instead of half of them (every reachable state). The other methods are right on every history of plain calls. Witness: `C82_congrid_refuted`. What holds: `C82_sizes_partial`, `C82_others_partial`.
* **C83** (a constructed image has data). Proved for MicropolImage and for the initialisers Image knows; refuted for Image(MicropolImage) and other types, which give an image without data. Witness: `C83_image_refuted`. What holds: `C83_micropol`, `C83_image_partial`.
* **C84** (superpixel calibration without a flat). Refuted: with the default occulter=True AttributeError is raised (PolarCam has no occulter_pos_nov2022), and without a flat UnboundLocalError, whatever the files. With a flat and without the occulter the result is characterised. Witness: `C84_default_refuted`, `C84_no_flat_refuted`. What holds: `C84_flat_partial`.
* **C85** (superpixel calibration corrects the calibration images). Refuted: the images of an ideal sensor are in general not left unchanged, since all orientations are averaged into one rank-one fit per superpixel. Proved when the images of all orientations are equal. Exact arithmetic; pinv is any function with the Penrose equations on rank-one matrices. Witness: `C85_ideal_sensor_refuted`. What holds: `C85_equal_images_partial`.
* **C88** (turning and flipping a demodulator). Turns and flips of the tensor proved for all tensors and k. Refuted: the turned image demodulated with the turned tensor, because the pixels of a superpixel are exchanged (witness: light at 0 degrees comes out at 45). Proved when superpixels move without being turned in themselves, without flags (flags are never turned). Witness: `C88_mirror_refuted`. What holds: `C88_turn`, `C88_half_turn`, `C88_not_square`, `C88_compose`, `C88_back`, `C88_flip`, `C88_flip_twice`, `C88_demodulate_partial`, `C88_mirror`.
* **C89** (binning a demodulator). Refuted: the matrices are read from the folder again, so turns and flips are forgotten; and the flags are not binned, so the result cannot demodulate images of its own size. Block means of the matrices in the folder and ValueError for odd sides are proved. Witness: `C89_forgets_refuted`, `C89_flags_refuted`. What holds: `C89_means_partial`, `C89_odd`.
* **C91** (defaults of the radial filter). Refuted: if one of the three arguments is missing all are replaced by the result of the fits (which also fail or give any other centre and radius). Witness: `C91_ignored_refuted`, `C91_fit_fails_refuted`, `C91_defaults_refuted`. What holds: `C91_given_partial`, `C91_fitted`.
* **C92** (occulter search by fits). Proved in the code's own coordinates (distance in profile samples). Refuted in pixel coordinates: the backward profiles start one pixel before the centre, so the middle is half a pixel off. Exact arithmetic. Witness: `C92_rows_refuted`. What holds: `C92_fits`, `C92_rows`, `C92_one_row`.
* **C94** (output folders are created). Refuted: nested new folders fail with FileNotFoundError (mkdir without parents) and folders with a dot in their name are taken for files and not created. Proved for file names (all folders on the way are created) and for folders in an existing one. Witness: `C94_folder_refuted`, `C94_dotted_refuted`. What holds: `C94_file_partial`.
* **C95** (plotting the demosaiced images). Refuted: with vmin or vmax given, UnboundLocalError is raised for every demosaiced image. With the default limits the panels are proved. Colours, colour bars and matplotlib's own checks are not modelled. Witness: `C95_limits_refuted`. What holds: `C95_panels_partial`, `C95_not_demosaiced`, `C95_unnamed`.
* **C97** (histograms of an image and its pixel families). Proved with an explicit range. Refuted for the default range: each family is counted in bins of its own range. Exact arithmetic. Witness: `C97_default_range_refuted`. What holds: `C97_total`, `C97_all_pixels`, `C97_families_partial`, `C97_odd`.
* **C99** (saving an image as fits). Refuted: a bound of zero switches the limits off (fix_data), and astropy removes the old file before writing the new one, so an interruption loses it. The corner in which the file is one of the folders on its own way (a.fits/../a.fits) is excluded. Witness: `C99_zero_refuted`, `C99_lost_refuted`. What holds: `C99_saved_partial`, `C99_invalid`, `C99_interrupted`.
* **C98** (covariance tensor and fit maps are read back). Maps proved. The tensor is proved if every further file is an image of the same size without two digits in its name. Refuted: an unreadable file listed first raises OSError, and a copy of another matrix makes up for a missing one, whose entries are then 0. With no file at all Cij is None. Witness: `C98_stray_refuted`, `C98_copy_refuted`. What holds: `C98_maps`, `C98_covariance_partial`, `C98_missing_partial`, `C98_no_map`, `C98_calibrated`.
* **C102** (masking the occulter of image objects). Proved for the image itself while it is not demosaiced, and for images with another Stokes vector. Refuted: a copy shares its Stokes vector with the original, so masking the copy masks the vector (not the data) of the original; and demosaiced images are masked by whole superpixels, their Stokes vector by single pixels. Witness: `C102_copy_refuted`, `C102_demosaiced_refuted`. What holds: `C102_raw_partial`, `C102_shows_partial`, `C102_others_partial`, `C102_demosaiced_partial`.
* **C109** (derived images keep keywords and file name). Keywords proved for MicropolImage, also after any further calls. Refuted: images made from an Image lose all keywords; images made from a MicropolImage have no attribute filename, or 'image.fits' after arithmetic with a number. Image(image) and Image.rebin keep the name; shift and arithmetic of an Image give image.fits. NAXIS1 and NAXIS2 of new and rotated images are proved to be the sizes of the data. Witness: `C109_image_refuted`, `C109_names_refuted`, `C109_renamed_refuted`. What holds: `C109_keywords_kept`, `C109_image_names`, `C109_sizes`, `C109_in_place_sizes`.
* **C110** (headers of different images are independent). Proved if one of the two is an Image. Refuted: a MicropolImage and everything made from it (copies, demodulated, binned, shifted images, sums and multiples) have one header object, so writing a keyword into one writes it into all. Witness: `C110_shared_refuted`, `C110_written_refuted`. What holds: `C110_own_header`.
* **C111** (a demodulator is read from the folder it is given). Proved for paths without the characters *, ? and [. Refuted: the path is used as a glob pattern, so the matrices of run[1] are read from run1 if that exists, and are not found otherwise, although os.path.exists has just found the folder. Witness: `C111_other_folder_refuted`, `C111_not_found_refuted`. What holds: `C111_found_partial`.
* **C112** (the goodness-of-fit map is the reduced chi-square). The errors are right (photon noise), and for more than four images the value is zero exactly for exact fits and not negative. Refuted: the squared deviations are divided by the errors instead of their squares, and the degrees of freedom are n - 2, n - 3 or n - 4 according to whether boundaries were given; with equal errors s the map is s (n - 3) / d times the reduced chi-square, and negative for three images. Witness: `C112_actual_refuted`, `C112_negative_refuted`. What holds: `C112_zero_partial`, `C112_photon_noise`.
* **C113** (errors of pB, DoLP and AoLP are those the pixels cause). Proved where I, Q and U are uncorrelated; for ideal polarizers pB and AoLP are right whatever the errors. Refuted: I, Q and U are made of the same four pixels, but the code adds their errors as if they were independent. Where Q and U are correlated sigma_pB and sigma_AoLP are wrong; with ideal polarizers and photon noise sigma_DoLP is always too large, by (Q^2+U^2)/(g I^3) in the square (g: gain). Witness: `C113_correlated_refuted`, `C113_photon_refuted`. What holds: `C113_uncorrelated_partial`, `C113_difference`, `C113_ideal`.
* **C114** (images of integers are treated like images of floats). Proved where every result fits the integer type. Refuted: MicropolImage keeps the type of the array, so for unsigned data every pixel of a - b with a < b is 2^bits too large (a + b: too small), and Q and U are wrong by multiples of 2^bits; chen_wan_liang_calibration of integer data truncates the corrected pixels, so that the result is up to 1 too small. Witness: `C114_difference_refuted`, `C114_sum_refuted`, `C114_calibration_refuted`. What holds: `C114_sum_partial`, `C114_difference_partial`, `C114_pixels`.
* **C115** (plotting a demodulation tensor). The panels and their titles are right. Refuted: the returned second value is the axes object of the last panel, because the variable is used again as a loop variable (demodulation.py 222). Witness: `C115_axes_refuted`. What holds: `C115_panels_partial`, `C115_titles`.
* **C117** (binning and demodulating can be exchanged). Proved if the superpixels of a bin have the same matrix and the demodulator has no flags (C89 refutes binning of flags). Refuted otherwise: the mean matrix times the sums of the pixels is not the sum of the products; example where the result is 1/4 instead of 1. Witness: `C117_varying_refuted`. What holds: `C117_binned_partial`.
* **C120** (normalize2piarray returns for every array of floating-point angles). Proved if all angles are at most 2^55 rad or not numbers, with an error of at most (|n| + 2) 2^-53 of the angle for n half turns. Refuted: with an infinite angle or one above 2^55 rad the call never returns. Witness: `C120_hangs_refuted`. What holds: `C120_reduced_partial`.
* **C123** (dark and flat correction in floating point). Refuted: a pixel that is not a number, in the image or in the dark, becomes 0 after subtract_dark (the comparison nan >= 0 is false), so a lost pixel looks like a measurement. The rest is proved. Witness: `C123_nan_refuted`. What holds: `C123_dark_partial`, `C123_counts`, `C123_flat`, `C123_uniform`, `C123_flat_nan`.
* **C125** (results do not depend on how the sensor is mounted and how angles are counted). Refuted for demosaicing with option adjacent: the image turned upside down is interpolated differently, because values are taken from the next superpixels below and to the right only. The rest is proved; binning upside down needs bins that cover the image. Witness: `C125_upside_adjacent_refuted`. What holds: `C125_transpose_stokes`, `C125_transpose_bin`, `C125_transpose_adjacent`, `C125_transpose_mean`, `C125_upside_stokes`, `C125_upside_bin`, `C125_upside_mean`, `C125_turned`, `C125_opposite`.
* **C128** (cuts and limits follow a change of units). Refuted for auto_threshold and the scale: candidates start one unit above the minimum, so in units in which the image spans less than one, every pixel but the brightest is background. It follows a change of zero, and all other cuts follow any change of units. Witness: `C128_scaled_refuted`. What holds: `C128_rejected`, `C128_replaced`, `C128_limits`, `C128_offset_partial`.
* **C130** (the radial filter reaches every pixel beyond its inner radius). Refuted: the last ring ends at the largest distance truncated to a whole number, so pixels beyond it stay 0 whatever the data; for a 4 x 4 image around its centre these are the pixels (0,0), (0,1) and (1,0). Up to every whole distance that some pixel reaches, the statement is proved. Witness: `C130_corners_refuted`. What holds: `C130_value_partial`, `C130_missed`.
* **C131** (masks and filters do not depend on earlier calls). Refuted only for programs that change in place the array returned by map_polar_coordinates: the changed array stays in the cache and is used by later masks. Programs that only call the functions are proved not to depend on the cache. Witness: `C131_changed_refuted`. What holds: `C131_alone_partial`, `C131_bounded`.
* **C132** (the radial filter in floating point). Refuted for uniform rings of values that are not integers: eight pixels of 0.1 added one after the other give a mean that is not 0.1 and a standard deviation of 1e-17 instead of 0, so the filtered ring is 1 instead of 0 (C132_level: always 0 or close to 1 or -1). Proved for counts. The angles are the default (all pixels), rho_max is a parameter. Witness: `C132_uniform_refuted`. What holds: `C132_rings`, `C132_no_ring`, `C132_camera_partial`, `C132_counts`, `C132_level`.
* **C133** (writing pixels of one image changes no other image). Refuted for plain copies MicropolImage(image) and for demodulated images: they refer to the same array (micropol_image.py 123), so a pixel written into one is written into the other. Refuted for the image's own parameters: an assignment to a pixel bypasses the setter and leaves the Stokes vector. Proved: no other image is changed if there were no plain copies and demodulations, nor after any call that computes the pixels of the image anew. Witness: `C133_copy_refuted`, `C133_stale_refuted`. What holds: `C133_private_partial`, `C133_renewed_partial`.
* **C134** (missing pixels stay missing). Proved for Stokes and polarization parameters, demodulation, binning and demosaicing. Refuted for the field-of-view correction (0 in the first two rows and columns, as for any pixel there), the flat field (one missing flat pixel makes the whole corrected image missing, through np.mean) and the radial filter (one missing pixel sets its whole ring to 0, because std > 0 is false). The dark correction turns missing pixels into 0 (C123). That other superpixels are unaffected is C119. Witness: `C134_flat_refuted`, `C134_ring_refuted`. What holds: `C134_stokes`, `C134_parameters`, `C134_demod`, `C134_rebin`, `C134_demosaic`, `C134_ifov_partial`.
* **C135** (lines of pixels follow the symmetries of the image). Proved: transposition for DDA and linear_roi (exactly and in binary64), reversal and displacement in exact arithmetic, reversal in binary64 up to one pixel where the line meets a pixel exactly; for bresenham displacement and mirroring always, reversal for an odd number of columns. Refuted: reversal and displacement in binary64 (accumulated 0.1), mirroring for DDA (coordinates are cut off, not rounded), reversal of bresenham at ties. Witness: `C135_float_refuted`, `C135_mirrored_refuted`, `C135_bresenham_refuted`. What holds: `C135_transposed`, `C135_backwards_partial`, `C135_backwards_float_partial`, `C135_moved_partial`, `C135_bresenham`, `C135_bresenham_backwards_partial`.
* **C136** (corrections made in two steps). Proved for darks (exact arithmetic, second dark not negative), flats (common factor given), clamps (also in binary64), regions and masks. Shifts compose in the same direction; refuted for opposite directions, where rows are lost at the edge (the documented purpose of missing). Witness: `C136_shift_refuted`. What holds: `C136_shift_partial`, `C136_shift_micropol_partial`, `C136_dark`, `C136_flat`, `C136_clamp`, `C136_regions`, `C136_mask_twice`.
* **C137** (from the bytes of a raw file to the polarization). Proved for 16-bit files and for 12-bit files without a chunk that ends in a NUL byte; refuted for the others, which are rejected (C45), for example an all-dark frame. The FITS file between reader and image is taken to hold the same numbers (astropy is not modelled). Witness: `C137_packed_refuted`. What holds: `C137_packed_partial`, `C137_plain`, `C137_light`.
* **C138** (resampling in floating point). Refuted for the range: the last of 26 positions over 8 samples is rounded beyond the last sample, so a row that falls from 1 to 0 there gets a negative pixel. It is outside the range by no more than the proved error. Witness: `C138_range_refuted`. What holds: `C138_error`, `C138_range_partial`, `C138_camera`, `C138_exact`, `C138_image`.
* **C139** (a saved image can be loaded again). Holds for images whose Stokes vector is that of their pixels, if their orientations are given again or are the default. Refuted otherwise: the file holds pixels and header only, so the Stokes vector of a demodulated, demosaiced, masked or rotated image is lost, all flags are, and an image with its own orientations is read with the default ones (Q changes sign if 0 and 90 degrees are exchanged). Witness: `C139_vector_refuted`, `C139_flags_refuted`, `C139_angles_refuted`. What holds: `C139_again_partial`, `C139_corrected`, `C139_absent`.
* **C140** (arithmetic expressions with images are evaluated for each pixel). Holds whenever images stand on the left of numbers and arrays and are of one class; every other expression raises TypeError (proved for all expressions). Refuted: numbers and arrays on the left of an image and Python's sum of images raise TypeError since there are no reflected operators, an Image and a MicropolImage cannot be combined, and images with different orientations of the micropolarizers are combined without an error, with wrong Stokes parameters. Witness: `C140_left_refuted`, `C140_sum_refuted`, `C140_angles_refuted`. What holds: `C140_meaning_partial`, `C140_refused`, `C140_sum_start`.
* **C142** (images of different integer types). The type of every result has room for the operands and is the narrowest such type (proved). Every result is exact for a signed and an unsigned type, the latter at least as wide and at most 32 bits; refuted for all other pairs of types (wrapping, or rounding for uint64 with a signed type) and for numbers: with numpy 1.26.4 an unsigned image minus k wraps around below k, plus -k does not. Witness: `C142_exact_refuted`, `C142_sign_refuted`. What holds: `C142_two_images`, `C142_exact_partial`, `C142_stokes_partial`, `C142_number`, `C142_quotient`.
* **C143** (Sectors selected in floating point hold the pixels of the sector). selection exact for multiples of 30 and 45 degrees, within 2^-42 degrees otherwise; refuted: theta=[-45, 45] keeps only the directions from 0 to 45 degrees Witness: `C143_across_refuted`. What holds: `C143_angle`, `C143_pixels_partial`, `C143_superpixels_partial`, `C143_any_bounds`, `C143_circle`, `C143_default_centre`, `C143_exact_arithmetic`.
* **C146** (resampling without interpolation picks existing pixels). Every pixel is one that the kind asks for up to the rounding of the position, the order is kept, the same size gives the same image and grids finer by a power of two are exact (proved for all kinds); "nearest" and "nearest-up" keep every sample that the new grid meets, corners included. Refuted for the other two: with "previous" the last column of 50 out of 2 is the first column of the image, with "next" the last column of 26 out of 8 is NaN, since (n - 1) / (m - 1) * (m - 1) is rounded below or above n - 1. Witness: `C146_previous_refuted`, `C146_next_refuted`. What holds: `C146_picks`, `C146_asked_partial`, `C146_grid`, `C146_exact`, `C146_same`.
* **C147** (resampling arrays of any number of dimensions). Proved for all shapes with sides of at least 2 before and after (linear: exact arithmetic; nearest, nearest-up and previous: binary64). Refuted: with more sizes than axes the rest is ignored instead of refused, and a new side of 1 makes all elements NaN instead of refusing or sampling. Witness: `C147_ignored_refuted`, `C147_one_refuted`. What holds: `C147_linear`, `C147_range`, `C147_same`, `C147_picks`, `C147_images`, `C147_refused`.
* **C149** (a debugging run of the calibration shows the fits and writes nothing). Proved for images of at least 150 pixels a side, with every curve characterised; the curves are those of the superpixel where all four pixels could be fitted, and nothing is written. Refuted: where a fit fails or a pixel is dark, the figure shows the curves of an earlier superpixel, and with a side of less than 150 pixels the run ends in ValueError, since the window is fixed. Witness: `C149_curves_refuted`, `C149_small_refuted`. What holds: `C149_shows`, `C149_figures_partial`, `C149_odd`, `C149_folder`.
* **C151** (masks of truth values, and integers together with floats). Hidden pixels that are NaN or infinite come out as NaN instead of zero, masks cannot be subtracted (TypeError), and integers beyond 2^53 are rounded when floats join in. Proved for finite hidden pixels; everything else for all inputs. Witness: `C151_difference_refuted`, `C151_floats_refuted`, `C151_large_refuted`. What holds: `C151_union`, `C151_intersection`, `C151_ints`, `C151_floats_partial`, `C151_twice`, `C151_stokes_partial`, `C151_mixed`, `C151_mixed_number`, `C151_mask_ints`, `C151_number`.
* **C152** (medians of pixels, and what replaces a hot pixel). Refuted in the first two rows and columns, where the mirrored window compares a pixel with itself, so that a flagged hot pixel stays (and would not be found), and for two bright neighbours. Proved for isolated bright or dark pixels elsewhere; the range and all statements about the filter hold without exception. Witness: `C152_border_refuted`, `C152_pair_refuted`, `C152_undetected_refuted`. What holds: `C152_rank`, `C152_few`, `C152_scale`, `C152_isolated_partial`, `C152_range`.
* **C153** (turning images by multiples of 90 degrees). Positions proved for all turns; where one side is even and the other one odd, a quarter turn takes centres to corners and the pixel to the right and below is used. Values proved for numbers of 24 bits, otherwise within 2^-24. Refuted: Pillow's pictures are 24-bit floats, so rotate(0) makes 2^24 out of 2^24 + 1; quarter turns of pictures that are not square lose the ends; Q and U keep their sign in a quarter turn, so the directions of polarization do not turn. Witness: `C153_crop_refuted`, `C153_unturned_refuted`, `C153_direction_refuted`. What holds: `C153_turned`, `C153_determined`, `C153_corners`, `C153_corners_determined`, `C153_compose`, `C153_exact_partial`, `C153_error`, `C153_shows_its_data`.
* **C154** (the automatic threshold tells background from signal). Proved when the gap exceeds the width of the populations by the square root of twice the number of pixels, and for two levels without condition (the threshold is then the background plus 1). Refuted: of a background of 0 and 100 and a signal of 102 the brighter background counts as signal; signals that nowhere fill half of 10 x 10 pixels do not change the threshold, so that those fainter than the background plus 1 stay below it. Witness: `C154_populations_refuted`, `C154_small_refuted`. What holds: `C154_populations_partial`, `C154_image`, `C154_two_levels`.
* **C155** (rounding errors of a binned demodulator). Means and exactness proved, for entries of few bits also that every mean is the nearest number; constant matrices proved to be kept for n = 2, and for every n if the number has few bits. Refuted for n = 3, where 0.1 everywhere becomes 0.09999999999999999, and for n = 4, where it becomes 0.10000000000000002. n*n + 8 <= 2^52 is assumed, and that the sums stay below 2^1019. Witness: `C155_constant_refuted`, `C155_four_refuted`. What holds: `C155_means`, `C155_exact`, `C155_rounded`, `C155_few_bits_partial`, `C155_constant_partial`.
* **C156** (exposures in floating point). Proved for powers of two, in both directions, also after demodulation. Refuted for 3: pixels 1, 1, 3, 3 have DoLP 0.7071067811865476, pixels 3, 3, 9, 9 have 0.7071067811865475. AoLP is left out (libm). Witness: `C156_three_refuted`. What holds: `C156_powers_partial`, `C156_demodulated_partial`.
<!-- end:findings -->

## 5. Assumptions listed by Print Assumptions

Generated by `tools/gen_assumptions.py` from the output of `Print Assumptions`, which follows each
theorem in `Properties/`.

<!-- begin:assumptions -->
**Closed under the global context (no axiom)** — 155 theorems: C01_split_layout, C02_merge_split, C03_split_merge, C04_rebin_block_sum, C04_same_family, C05_odd_never_returns, C05_trim_terminates, C08_rebin_split, C09_standard_block_sum, C109_image_names, C109_image_refuted, C109_in_place_sizes, C109_keywords_kept, C109_names_refuted, C109_renamed_refuted, C109_sizes, C10_old_new_agree, C110_own_header, C110_shared_refuted, C110_written_refuted, C111_found_partial, C111_not_found_refuted, C111_other_folder_refuted, C114_pixels, C115_axes_refuted, C115_panels_partial, C115_titles, C119_binned, C119_demodulated, C119_demosaiced, C119_ifov, C119_raw, C11_shift, C122_loses, C123_flat_nan, C124_shift_back, C124_shift_shift, C12_shift_back, C12_shift_micropol, C134_demod, C134_demosaic, C134_flat_refuted, C134_ifov_partial, C134_parameters, C134_rebin, C134_stokes, C135_bresenham_refuted, C135_float_refuted, C136_shift_micropol_partial, C136_shift_partial, C136_shift_refuted, C137_packed_refuted, C138_range_refuted, C13_demosaic_adjacent, C143_default_centre, C145_empty, C147_images, C149_folder, C14_actual_value, C14_measured_pixels_partial, C151_difference_refuted, C151_intersection, C151_ints, C151_mask_ints, C151_union, C152_few, C152_rank, C152_scale, C153_corners_determined, C153_determined, C155_constant_refuted, C155_four_refuted, C156_three_refuted, C15_bad_option, C15_demosaic_mean, C16_ifov, C24_one_row_refuted, C24_other_shape_partial, C24_product, C26_demosaicing_partial, C26_no_flags_refuted, C27_roundtrip, C28_copy_refuted, C28_missing_partial, C42_infinity_refuted, C44_decoding, C44_unique_encoding, C45_parallel_nul_chunk, C45_parallel_partial, C45_parallel_refuted, C46_wrong_length_partial, C46_wrong_length_refuted, C48_bad_input, C48_crash, C48_done, C49_actual_name, C49_converted_name_partial, C49_converted_name_refuted, C49_dotted_directory_refuted, C51_empty, C51_float_mean_refuted, C51_float_order_refuted, C51_header, C51_undated, C52_list_of_one_partial, C52_plain_name_refuted, C52_sum_name, C53_nan, C54_all_params, C54_demosaiced, C54_invalid_suffix, C54_invalid_suffix_partial, C54_invalid_suffix_refuted, C54_not_demosaiced, C54_one_param, C54_single_pol, C60_dark_unsigned, C60_dark_unsigned_refuted, C63_float_refuted, C65_no_Q_refuted, C66_float_refuted, C66_shape, C67_sun_centre_refuted, C71_calibration, C71_rejects, C74_cut_partial, C74_mixture_refuted, C74_new_folder_partial, C81_options_partial, C81_spline_refuted, C83_image_partial, C83_image_refuted, C88_back, C88_compose, C88_demodulate_partial, C88_flip, C88_flip_twice, C88_half_turn, C88_mirror, C88_mirror_refuted, C88_not_square, C88_turn, C89_flags_refuted, C89_forgets_refuted, C89_means_partial, C89_odd, C94_dotted_refuted, C94_file_partial, C94_folder_refuted, C98_copy_refuted, C98_covariance_partial, C98_maps, C98_missing_partial, C98_no_map, C98_stray_refuted

**`functional_extensionality_dep`** — 2 theorems: C147_ignored_refuted, C147_refused

**`functional_extensionality_dep` + `sig_forall_dec`** — 68 theorems: C123_nan_refuted, C128_offset_partial, C128_rejected, C128_replaced, C128_scaled_refuted, C138_camera, C146_next_refuted, C146_previous_refuted, C151_large_refuted, C152_undetected_refuted, C154_image, C154_populations_partial, C154_populations_refuted, C154_small_refuted, C154_two_levels, C34_corrected_partial, C34_zero_kept_refuted, C41_unique, C47_raw_files, C47_raw_layout, C47_raw_other_values, C47_raw_round_trip, C50_average, C50_merge, C50_merge_others, C50_order, C50_short_file, C68_half_sum, C68_left_refuted, C68_masked_refuted, C68_modal_bin, C68_right_refuted, C68_saturated_refuted, C68_window_partial, C69_empty, C69_narrow_range, C69_threshold, C70_centred_step, C70_found, C70_missing, C73_default_threshold_refuted, C76_convert_set_order, C76_convert_set_others, C76_convert_set_partial, C76_nul_chunk_refuted, C78_outlier_refuted, C79_majority_refuted, C79_median, C79_rejection, C87_limits, C90_always_several, C90_empty, C90_gain, C90_search, C92_fits, C92_one_row, C92_rows, C92_rows_refuted, C93_units, C93_zero, C96_empty, C96_orientations, C96_show, C97_all_pixels, C97_default_range_refuted, C97_families_partial, C97_odd, C97_total

**`functional_extensionality_dep` + `sig_forall_dec` + `sig_not_dec`** — 156 theorems: C06_rebin_conserves, C07_rebin_compose, C07_standard_compose, C08_rebin_stokes, C09_standard_conserves, C100_determined, C106_adjacent, C107_demosaic, C107_files, C107_rebin, C112_actual_refuted, C112_negative_refuted, C112_zero_partial, C114_calibration_refuted, C114_difference_partial, C114_difference_refuted, C114_sum_partial, C114_sum_refuted, C117_binned_partial, C117_varying_refuted, C121_corrected, C121_ideal, C122_affine, C122_back, C122_image, C122_linear, C122_refined, C124_dark_bin, C124_flat_scale, C124_flats, C124_shift_bin, C124_shift_stokes, C125_transpose_adjacent, C125_transpose_bin, C125_transpose_mean, C125_transpose_stokes, C125_upside_adjacent_refuted, C125_upside_bin, C125_upside_mean, C125_upside_stokes, C126_least_squares, C126_theoretical, C127_exact, C128_limits, C129_least_noise, C129_response, C129_theoretical, C129_theoretical_response, C135_backwards_partial, C135_mirrored_refuted, C135_moved_partial, C135_transposed, C136_clamp, C136_dark, C136_flat, C137_light, C139_absent, C13_bounds, C140_angles_refuted, C140_left_refuted, C140_meaning_partial, C140_refused, C140_sum_refuted, C140_sum_start, C147_linear, C147_range, C147_same, C149_curves_refuted, C149_figures_partial, C149_odd, C149_shows, C149_small_refuted, C14_measured_pixels_refuted, C150_inverse, C15_mean_conserves, C17_ideal_recovered, C17_missing_angle, C18_linear, C18_offset, C20_dolp_at_most_one_partial, C20_dolp_at_most_one_refuted, C20_dolp_at_most_two, C20_dolp_def, C23_malus_curve, C25_calibrated, C25_inverts, C29_covered_partial, C29_grid_partial, C29_leftover_refuted, C29_refused, C30_calibrated, C30_own_samples, C31_families, C32_equal_phases_refuted, C32_families_partial, C41_idempotent, C41_list, C41_scalar, C43_array, C43_unique, C51_data, C51_order, C53_fix_data_partial, C53_fix_data_refuted, C53_skipped, C60_dark, C60_dark_of_itself, C60_dark_shape, C61_division_partial, C61_division_refuted, C61_flat_partial, C61_scalar, C61_scalar_zero_refuted, C63_far_edge_refuted, C63_near_edge_refuted, C63_overshoot_refuted, C63_points, C63_same_point_refuted, C63_values_partial, C63_walk_partial, C66_bilinear, C66_corners, C66_image, C66_range, C66_same, C67_alignment, C67_not_square, C67_sun_centre_partial, C67_twice, C71_identity, C73_hot_pixels_refuted, C80_border_centre_refuted, C80_inner_left_refuted, C80_inner_partial, C80_inner_right_refuted, C80_ray_partial, C80_short_radius_refuted, C83_micropol, C84_default_refuted, C84_flat_partial, C84_no_flat_refuted, C85_equal_images_partial, C85_ideal_sensor_refuted, C86_deviation, C86_empty, C86_limits, C93_noise, C95_limits_refuted, C95_not_demosaiced, C95_panels_partial, C95_unnamed, C99_interrupted, C99_invalid, C99_lost_refuted, C99_saved_partial, C99_zero_refuted

**`classic` + `functional_extensionality_dep` + `sig_forall_dec` + `sig_not_dec`** — 212 theorems: C100_recovered, C101_binned, C101_demosaic, C101_files, C101_polarization, C101_polarization_demosaiced, C101_stokes, C102_copy_refuted, C102_demosaiced_partial, C102_demosaiced_refuted, C102_others_partial, C102_raw_partial, C102_shows_partial, C103_binned, C103_demosaic, C103_stokes, C104_binned, C104_demosaiced, C104_raw, C105_demodulated, C105_demosaiced, C105_files, C106_mean, C108_radial_profile, C108_twice, C112_photon_noise, C113_correlated_refuted, C113_difference, C113_ideal, C113_photon_refuted, C113_uncorrelated_partial, C116_bound, C116_calibrated, C118_errors, C118_raw, C118_rounded, C120_hangs_refuted, C120_reduced_partial, C121_demodulated, C123_counts, C123_dark_partial, C123_flat, C123_uniform, C125_opposite, C125_turned, C126_reference, C126_throughput, C127_corrected, C127_demodulated, C127_light, C127_mean, C130_corners_refuted, C130_missed, C130_value_partial, C131_alone_partial, C131_bounded, C131_changed_refuted, C132_camera_partial, C132_counts, C132_level, C132_no_ring, C132_rings, C132_uniform_refuted, C133_copy_refuted, C133_private_partial, C133_renewed_partial, C133_stale_refuted, C134_ring_refuted, C135_backwards_float_partial, C135_bresenham, C135_bresenham_backwards_partial, C136_mask_twice, C136_regions, C137_packed_partial, C137_plain, C138_error, C138_exact, C138_image, C138_range_partial, C139_again_partial, C139_angles_refuted, C139_corrected, C139_flags_refuted, C139_vector_refuted, C141_errors, C142_exact_partial, C142_exact_refuted, C142_number, C142_quotient, C142_sign_refuted, C142_stokes_partial, C142_two_images, C143_across_refuted, C143_angle, C143_any_bounds, C143_circle, C143_exact_arithmetic, C143_pixels_partial, C143_superpixels_partial, C144_calibration, C144_counts, C144_equal, C144_exact_calibration, C144_identity, C144_ifov, C145_filter, C145_step, C146_asked_partial, C146_exact, C146_grid, C146_picks, C146_same, C147_one_refuted, C147_picks, C148_demodulated, C148_light, C148_pixel, C150_light, C150_stokes, C151_floats_partial, C151_floats_refuted, C151_mixed, C151_mixed_number, C151_number, C151_stokes_partial, C151_twice, C152_border_refuted, C152_isolated_partial, C152_pair_refuted, C152_range, C153_compose, C153_corners, C153_crop_refuted, C153_direction_refuted, C153_error, C153_exact_partial, C153_shows_its_data, C153_turned, C153_unturned_refuted, C155_constant_partial, C155_exact, C155_few_bits_partial, C155_means, C155_rounded, C156_demodulated_partial, C156_powers_partial, C19_polar_form, C21_exposure, C22_malus_source, C33_centre_refuted, C33_flags_partial, C33_not_fitted, C35_default_centre, C35_odd_sides_partial, C35_pixels, C35_side_one_refuted, C35_superpixels_partial, C36_default_rho_refuted, C37_mask_consistent, C37_mask_selects, C38_centre, C38_partition_partial, C38_partition_refuted, C39_gain_offset, C39_outside_zero, C39_ring_normalised, C39_total, C40_kasi_refuted, C40_mask, C40_roi, C42_float_termination_partial, C42_float_termination_refuted, C55_images, C55_reflects, C56_rebin_refuted, C56_resize_partial, C56_rotate_refuted, C56_unchanged_partial, C56_untouched_partial, C57_header_partial, C57_rebin_refuted, C58_demosaic_again_partial, C58_stale_refuted, C59_created, C59_inherited, C59_remembered, C59_stays, C62_ignored_refuted, C63_float_partial, C63_float_values_partial, C64_bresenham, C64_steep, C65_errors, C72_flagged_only, C75_lengths_refuted, C75_matched_partial, C75_missing_orientation, C75_order_partial, C75_series_refuted, C77_flat_refuted, C82_congrid_refuted, C82_others_partial, C82_sizes_partial, C91_defaults_refuted, C91_fit_fails_refuted, C91_fitted, C91_given_partial, C91_ignored_refuted, C96_no_columns, C96_param, C96_params, C98_calibrated

<!-- end:assumptions -->

## 6. Seeded faults

`tools/mutate.py` applies one edit at a time to a definition in `Model/` in a scratch copy, gives
every proof that then fails a stand-in, and lists the property theorems that depend on a stand-in.
The edits are in `seeded/mutants*.py`, the outcomes in `seeded/LOG.jsonl` (one line per attempt;
`theorems_failed` names the property theorems that no longer hold, `tightened` the ones added or
strengthened because of an edit that was not noticed).
Not every listed edit has been tried: most of `mutants17.py` and all of `mutants18.py` have no outcome.
An edit without a line in the log is untested.

Edits that no property theorem noticed at first, and the theorems that failed when the same edit was
tried again after the properties had been tightened:

| definition | edit | noticed by |
|---|---|---|
| `Model/Stokes.v` `dict_get` | KeyError replaced by family 0 | C17_missing_angle |
| `Model/Calibrate.v` `sum_image` | factor one half dropped | C75_matched_partial, C75_series_refuted, C100_recovered |
| `Model/Calibrate.v` `normalisation` | -45 preferred to 135 | C75_matched_partial, C75_series_refuted, C100_recovered |
| `Model/Calibrate.v` `calibrate` | orientations not checked | C75_missing_orientation |
| `Model/Utils.v` `amean` | sum not divided | C61_flat_partial |
| `Model/Fs.v` `average_rawfiles_to_fits` | sum instead of average | C50_average |
| `Model/Fs.v` `save_demosaiced_images_as_fits` | images not demosaiced accepted | C54_not_demosaiced |
| `Model/Histogram.v` `get_malus_normalization` | factor one half dropped | C68_half_sum |
| `Model/ImageObj.v` `choose_dic` | default not remembered | C59_remembered |
| `Model/DemodCov.v` `cov_results` | transposed covariance | C98_calibrated |
| `Model/Meta.v` `set_sizes` | sizes exchanged | C109_sizes, C109_in_place_sizes |

Left over:

* `Model/Show.v` `getattr`, unknown names give the first parameter: not noticed; the code asks only for names that exist (3.2).
* `Model/Calibrate.v` `collect_dark`, dark not binned: the scratch copy stopped in a statement of a lemma, so the log
  names no property theorem. A dark that is read and not used is noticed by C75_matched_partial, C112_photon_noise and others.
* `Model/DemodFit.v` `collect`, missing result taken from an empty image, or another error: not noticed. The branch is
  never reached, since the pool runs every task.
* `Model/Meta.v` `micropol_makes`, sizes not written: noticed by the example C109_case only when it was first tried,
  by C109_sizes now.
* `Model/Reload.v` `micropol_from_name`, no dark: not noticed at first, by C139_corrected now.
* `Model/CalibDebug.v` `debug_chunk`, steps of one pixel: undecided, checking the proofs with this edit took too long.
  Other edits of the same window are noticed by C149_shows.
