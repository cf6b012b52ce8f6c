# helper: one planned line per property, used for the table in DESIGN.md
PLAN = {
"C01":"Demosaic model: split as in numpy strided slices; pointwise theorem for any pixel type + odd-side error iff.",
"C02":"Strided slice/assignment model; pointwise equality.",
"C03":"Same.",
"C04":"Loop-nest model of the numba loop with bounds-checked get/set; loop invariant; spec = explicit double sum over same-parity pixels.",
"C05":"Fuelled while loop; termination with explicit bound; divergence = out of fuel for every fuel.",
"C06":"Sum reindexing over R (law: commutative monoid).",
"C07":"Sum reindexing.",
"C08":"Sum reindexing + definition of Stokes.",
"C09":"As C04 for the standard loop.",
"C10":"Two loop models proved equal pointwise.",
"C11":"Loop model of shift; pointwise spec.",
"C12":"split/shift/merge composition; pointwise spec.",
"C13":"Loop model with vstack/hstack padding; pointwise spec; bounds over R.",
"C14":"Refuted by witness for families 1..3; family 0 proved for all images.",
"C15":"Loop model; pointwise spec.",
"C16":"Loop model of _ifov_jitcorrect; pointwise spec.",
"C17":"Real-number Stokes model.",
"C18":"Real-number Stokes model through the object model.",
"C19":"atan2 built from stdlib atan; polar identities.",
"C20":"Model of DoLP branch; bound 2 proved; bound 1 refuted by witness.",
"C21":"atan2 scaling.",
"C22":"Trigonometry over R.",
"C23":"Trigonometry over R.",
"C24":"Object-level demodulate over arrays; pointwise spec; error branches.",
"C25":"pinv via normal equations for rank 3; matrix algebra over R.",
"C26":"As C24 with replication; flag-less case refuted (AttributeError).",
"C27":"Directory = list of (name, array); regex model; permutation theorem.",
"C28":"Refuted by witness; partial: what the count check does guarantee.",
"C29":"Grid split/merge of arbitrary per-superpixel computation; schedule = permutation of results; non-divisible grids refuted.",
"C30":"compute_demodulation_by_chunk loop model with curve_fit oracle (including failures), loop-carried scratch arrays.",
"C31":"angle_dic model over R (argmin of four distances).",
"C32":"Refuted by witness.",
"C33":"Mask model; refuted at the centre; partial elsewhere.",
"C34":"Refuted by witness; partial for positive values.",
"C35":"roi_from_polar model over R; pointwise spec.",
"C36":"Refuted: raises TypeError for every image.",
"C37":"mask_occulter model; pointwise spec; fill != 0 refuted.",
"C38":"Refuted at the centre pixel; partition elsewhere.",
"C39":"nrgf loop over rings, list-based mean/std over R.",
"C40":"Camera models on top of ROI model.",
"C41":"Fuelled loops over R; existence of enough fuel; uniqueness of representative.",
"C42":"binary64 (SpecFloat) instance; invariant for all fuel.",
"C43":"Whole-array loops over R.",
"C44":"List-of-bytes codec; bit lemmas via div/mod.",
"C45":"Chunking lemma; schedule independence; NUL stripping refutation.",
"C46":"Length case analysis.",
"C47":"16-bit codec.",
"C48":"Effect trace; every prefix.",
"C49":"String model; refuted for dotted paths; partial otherwise.",
"C50":"Permutation of sums.",
"C51":"Permutation of sums; header model.",
"C52":"Refuted for str; proved for list.",
"C53":"Refuted for zero bound; partial otherwise.",
"C54":"String model of output names.",
"C55":"Heap state machine; invariant over histories.",
"C56":"Heap state machine; refuted by rotate / header sharing; partial for data.",
"C57":"Heap state machine; refuted by sharing; partial for share-free histories.",
"C58":"Heap state machine; refuted.",
"C59":"Heap state machine with global default.",
"C60":"Pointwise model.",
"C61":"Pointwise model with junk parameter; refuted at zero divisors; partial elsewhere.",
"C62":"Heap state machine; refuted.",
"C63":"DDA over exact rationals; refuted overshoot; partial for interior samples. In binary64: induction over the steps, error below 1/n, which decides the truncation except at integers.",
"C64":"Integer loop invariant; the binary64 quotient of two lengths exceeds 1 iff the first is longer (monotonicity of rounding).",
"C65":"Derivatives with stdlib Reals.",
"C66":"Separable linear interpolation over R.",
"C67":"Pointwise index model.",
"C68":"Slice model; refuted for index < 10; partial otherwise.",
"C69":"argmin over list; ties first.",
"C70":"Loop model over R lists.",
"C71":"Loop model.",
"C72":"Pointwise model with filter oracle.",
"C73":"Refuted: AttributeError for every image.",
"C74":"Effect trace; refuted by a crash prefix.",
"C75":"Sorting model; length mismatch refuted (zip truncates).",
"C76":"Effect trace on top of the codec; permutation of sums.",
"C77":"Calibration model: reading the flat raises for every input.",
"C78":"Loop model; refuted for every list with one outlier.",
"C79":"List model over R with sorted median; refuted for a constant majority.",
}
PLAN.update({
"C80":"Fuelled loops over R, closed form of DDA (C63); monotonicity of both coordinates; refuted at the border and for inner radii beyond it.",
"C81":"Demosaic model; spline refuted for every image.",
"C82":"Heap state machine; refuted for every image that was not demosaiced.",
"C83":"Dispatch on the type of the argument; refuted for Image(MicropolImage) and other types.",
"C84":"Model of the calibration up to the flat; refuted for every input.",
"C85":"Rank-one pseudo-inverses characterised by the Penrose equations; one orientation proved, mean over orientations refuted.",
"C86":"Chebyshev's inequality over lists of reals.",
"C87":"Median of a list (C79) and counting.",
"C88":"Permutations of the tensor's planes; commutation refuted by a witness.",
"C89":"Block means via C09; refuted after rot90/flip (matrices are read again from disk).",
"C90":"Oracle for the circle detector, fuelled loop.",
"C91":"Refuted for every image and centre.",
"C92":"curve_fit oracle; arithmetic of truncation.",
"C93":"Real arithmetic.",
"C94":"File system model; refuted for nested missing folders and for folder names with a dot.",
"C95":"Panels as records (data, limits, title); refuted when a limit is given.",
"C96":"Panels as records; limits are minimum and maximum or mean -+ standard deviation.",
"C97":"np.histogram as counting over equal bins; families partition the pixels, so counts add up for equal bins; refuted for the default range.",
"C98":"Reading loop over any permutation of the written files (invariant: entries put so far); counting of names for missing files; refuted for unreadable and duplicated files.",
"C99":"File system model with crash points; refuted for bounds of zero and for the file overwritten.",
"C100":"Composition of C25/C30 (calibration), C27/C98 (files) and C23 (demodulation); Malus' law at three orientations determines the parameters, so a fit that finds an exact solution finds the true one.",
"C101":"SpecFloat operations = Flocq operations; integers over 2^k with 53 bits are closed under the sums, halves and quarters of the code (invariant through the loops by C04, C13, C15); pB and DoLP by Flocq's relative error bound.",
"C102":"Heap of shared arrays (C55-C59): the steps of mask_occulter in explicit form, then views of the image, of its copies and of all others; refuted for copies and for demosaiced images.",
"C103":"A calculus of errors (n roundings of a sum of terms of total size a), from Flocq's bounds of one rounding, with additions free of underflow error; carried through the binning loop (C04), demosaicing (C13) and the Stokes formulas (C15).",
"C104":"Relative errors (n roundings of a non-negative number) for raw images, where differences of pixels are multiples of 2^-452 so that no square underflows; for demosaiced images the errors of C103, the triangle inequality for the norm and a perturbation bound for the square root.",
"C105":"The calculus of C103 with products and quotients; exact form of the matrix product (C24, C26) and of the loop over files (C51), invariant: m terms added, underflow error at most (1 + 2^-53)^m m 2^-1075.",
"C106":"Interpolation of C13 written as a mean over the four corners of the surrounding square; it is the same linear map for the four families, so it commutes with sums and differences.",
"C107":"Triangle inequality for sums of vectors (Q, U), by induction over lists; for non-negative pixels a bound on DoLP is a bound pB <= M I, which sums preserve.",
"C108":"The output as a function of ring statistics (C39); these depend on pixels of the ring only and are unchanged by affine maps. A normalised ring has mean 0 and deviation 1, a uniform one is 0.",
"C109":"State machine of objects and header references; keywords are changed by Write only (step lemma, induction over programs); refuted for Image (keywords) and MicropolImage (file name).",
"C110":"Invariant: a header referred to by an Image is referred to by nothing else; refuted for a MicropolImage and whatever is made from it.",
"C111":"Python's glob and fnmatch over a list of paths; plain components are taken literally, the files of a plain folder are those that end in .fits and are not hidden, then C27; refuted for brackets, where the pattern matches another name.",
"C112":"The sum the code forms (C30) against the sum of squares in units of the errors, by induction over the samples; the errors by C75.",
"C113":"Derivatives along lines through (I, Q, U) give the gradient; the chain rule with the matrix (C24) gives the derivatives with respect to pixels; their squares are compared with C65 by way of the covariances.",
"C114":"Arithmetic modulo 2^bits characterised by congruence and range; Stokes parameters by C17's formulas with the carries as error terms; the calibration (C71) with truncation at the assignment.",

"C115": "Figures as lists of panels, the variable ax as a value: array of axes or single axes; the loops are computed.",
"C116": "M (W p - W q) S with M a left inverse of W q: row sums times the largest difference; each difference bounded by dt, de/2 and df times I (Lipschitz bound of the recorded signal, |sin x| <= |x|). Through the files with C27, C98 and the matching of C75.",

"C117": "Both sides as sums over the bin (C06, C24, C89); the common matrix is taken out of the sum. Refuted with two superpixels with different matrices.",
"C118": "Polar form (C19), law of cosines and monotonicity of asin for directions; in binary64 the difference of two numbers has a relative error of at most 2^-53 without exception (Flocq), multiplication by 0.5 is exact above the subnormal range.",

"C119": "Each model function is unfolded at the given index for both images; the results of bins are sums over the same indices. No law of arithmetic is used.",
"C120": "An array loop ends when the loops of the elements end, with their results. One element: Flocq, the rounding error below 2^55 is at most 2, so each step moves by at least 1; above, x - pi rounds to x.",

"C121": "Clipping at zero does not enlarge errors because the light behind a micropolarizer is not negative; dividing by the flat over its mean multiplies by mean sensitivity over sensitivity; then C116 with noise divided by the lowest sensitivity, and C118 for directions.",
"C122": "congrid as bilinear interpolation at equidistant positions (C66); a piecewise linear function sampled on a grid that contains its nodes is the same function; the four families are resampled alike, so Stokes parameters are interpolated with non-negative weights, then C107's inequalities.",

"C123": "One pixel at a time: correct rounding of the difference (Flocq), monotonicity of rounding for the comparison with 0; two relative errors for the quotients. The order in which np.mean adds is left open: its result is a parameter with an error bound.",

"C124": "Cell by cell: shifts as index translations with a test of bounds (C08), bins as sums over blocks (C04, C06); for the dark, max(a, 0) >= a and >= 0 summed over the block, strictly if the signs differ.",

"C125": "Samples of the moved image are samples at moved positions; sums over bins are reordered; the interpolation formula (C13) is symmetric in rows and columns but not under a flip (refuted with a ramp). Angles: (Q, U) turns by twice the angle, then the polar form (C19) determines AoLP up to half turns.",
"C126": "Two Penrose equations give the normal equations, these give Pythagoras' theorem for residuals, hence minimum and uniqueness. A turned or scaled modulation matrix has the same solutions up to a turn or a factor.",
"C127": "An order of addition is a tree; by induction each level adds one factor 1 + 2^-53 (sums of binary64 numbers have no underflow error). Then C123 (dark, flat), C105 (demodulation) and C103 (Stokes) are chained by triangle inequalities; C121 gives the distance to the light.",
"C128": "Sorting commutes with increasing maps, hence medians and median deviations; means and variances by linearity; the fold of replacements by induction. For the threshold, candidates start at the minimum plus one whatever the unit.",
"C129": "Gauss-Markov: the difference of two unbiased weights is orthogonal to the columns of the modulation matrix, and by two Penrose equations the rows of the pseudo-inverse are combinations of these columns; Pythagoras' theorem for the variances.",
"C130": "The rings are a partition of the distances from rho_min up to the largest whole distance (C09, C10); the ring of a pixel is found by division. Beyond the last ring no assignment happens. Refuted with the corners of a 4 x 4 image.",
"C131": "Invariant of the cache: every entry is what the function computes from its key; least-recently-used replacement keeps the invariant and the bound. Refuted if a program changes the returned array in place.",
"C132": "sqrt(q) of an integer q is never rounded across an integer below 2^25 (r + 2^-27 lies between). The computed standard deviation is near the root mean square of the computed deviations (relative errors; differences are 0 or not tiny, so nothing underflows), which is near the exact one by Minkowski's inequality. Refuted with eight pixels of 0.1 by computation.",
"C133": "Every method either keeps the image's array or takes a new one (one lemma per primitive, composed along the method); hence along any sequence of calls and assignments without plain copies and demodulations the arrays of different images are different. Plain copies take over the array; refuted by one assignment. The sum of the four samples of the superpixel changes, I does not.",
"C134": "Every operation of binary64 on a NaN gives NaN, also 0 * NaN; a sum in any order that contains one is NaN (induction over the tree of additions). With the cell-by-cell characterisations of C01, C04, C24, C43 and C132 this gives each result. Comparisons with NaN are false, so the filter takes its branch for std = 0.",
"C135": "DDA: exchanging coordinates is a simulation of the loop; the other symmetries follow from the closed form of its points (C63), in binary64 from the bound of C63. bresenham: the loop invariant of C64 is sharpened to a closed form, k * dy / dx rounded half down, from which the symmetries are arithmetic.",
"C136": "From the cell-by-cell characterisations of C11, C12, C60, C61 and C35; for regions the selection depends on the shape only, which the fill keeps. Clamps need only that nothing is below itself, so binary64 with NaN is included.",
"C137": "C45 (any schedule) or the 16-bit reader gives the counts, C44 bounds them by 4095 (65535), C101 gives exact sums and correctly rounded pB; the distance to the light by the triangle inequality for (Q, U).",
"C138": "The interval is found by exact comparisons with the rounded position; the interpolating polygon, continued beyond its end, is Lipschitz, so an error of the position costs at most twice the size of the samples times it; the four roundings of one interpolation by Flocq; rows then columns. Exact case: multiples of 2^-k with 53 bits (C101).",
"C139": "The saving theorem of C99 followed by the loading theorem of C52 on one file system; the bytes written by astropy are a parameter that images of binary64 numbers can be read back from (an example of such a format is given). The new object is then created as in C55.",
"C140": "A small evaluator of Python expressions with the dispatch rules of binary operators (Model/Operators.v). A typing relation says which operands go together; induction over expressions shows that typed expressions give their meaning pixel by pixel and that all others raise TypeError.",
"C141": "A calculus of relative errors: products, quotients, roots and sums of non-negative binary64 numbers keep a factor between (1 - 2^-53)^n and its inverse (Proofs/RelFacts.v); exponents are tracked to exclude underflow and overflow. Applied to the formulas of Model/Errors.v, run in binary64 and over the reals.",
"C142": "numpy's table of common types (1.26.4, value-based for numbers) is written down as code and shown to give the narrowest type with room for both operands, by cases over the eight types and linear arithmetic for the number. With modular arithmetic (C114) this decides for which pairs of types no result can leave the common type.",
    "C143": "Model/PolarFloat.v, Spec/SectorSpec.v. pi from Machin's formula (Proofs/PiFacts.v); error of the four operations; directions of whole numbers keep 14/rho^2 degrees away from multiples of 30 and 45 degrees unless they are principal (descent for the root of 3), principal directions computed. Refuted: bounds are not taken modulo 360.",
    "C144": "Spec/IfovSpec.v; cells by C16 and C71 (generic in the numbers), then Proofs/FourFacts.v (c + c + c + c = 4 c in binary64: integer mantissas, the tie goes to the even one) and the error calculus of C103/C105.",
    "C145": "Model/NrgfSector.v (nrgf with computed largest radius, sectors, any order of addition), Spec/SectorFilterSpec.v. Pixel sets by C132 (rings) and C143 (directions); the largest radius because rounded roots of whole numbers keep their order with respect to whole numbers; the error analysis of C132 generalised to pixels that are not among those of the mean.",
"C146": "scipy's interp1d for the four kinds written down for samples 0, 1, ..., n - 1 (Model/CongridKind.v). A search in sorted values counts a prefix, so the sample picked is characterised by two inequalities with the rounded position moved into the range; positions are within 3 roundings of the exact ones (C138) and monotone, since rounding is.",
"C147": "Arrays as shapes and functions of lists of indices (Model/CongridNd.v). Invariant of the loop over axes: after j turns the array has the new sizes of the last j axes in front, then the old ones, and each element is the nested resampling of the axes treated so far; induction over the number of axes. Then C66's polygon (linear) or C146's choice (other kinds) axis by axis.",
    "C148": "C127 gives the errors of the Stokes parameters; sqrt(Q^2 + U^2) is 1-Lipschitz and its rounding is that of C104, the quotient is compared with the exact one for intensities known to one half, and C118 bounds the angle by an arcsine. A positive gain multiplies pB and cancels from DoLP and AoLP.",
"C149": "Loop over a list of superpixels (a product of two ranges). Invariant: the maps keep their shape, the figures so far are those of the relation `shows`, which says for each pixel whether its curve is its own or the last one drawn. A superpixel outside the image fails in reshape.",
"C150": "C127 compares the computed row products with those of the exact corrected pixels, C121's correction lemma and C116's bound for nearby micropolarizers compare those pixels with the calibrated modulation of the light; the matrix times that modulation is the identity up to dl, so the three sources add up. C148 turns errors of I, Q, U into errors of the polarization.",
"C151": "Cases over the kinds of the two operands (Model/Kinds.v). Multiplication by 1.0 gives back every binary64 number (Flocq's correctness of the product determines value and sign), by 0.0 a zero or NaN; integers below 2^53 are converted exactly, so one rounding remains.",
"C152": "Model/MedianFilter.v writes scipy's filter down: window, mirrored borders, rank. Insertion sort is a sorted permutation, so the element at a position has that rank; sorting commutes with order-preserving maps. Windows of four pixels by cases; the object level is C72 with this filter.",
"C153": "Model/Rotate.v writes Pillow's rotate down for multiples of 90 degrees (transpositions, or an affine map without filter) and its 24-bit pictures. Spec/RotateSpec.v says in coordinates relative to the centre, doubled, which pixel goes where; linear arithmetic by cases over the four turns and the two branches. Rounding facts from Flocq; the object level is the step of Model/ImageObj.v with this turn.",
"C154": "Spec/ThresholdSpec.v. A candidate between the populations has a within-class variance of at most the square of their width; one that puts a pixel of each in the same class has at least half the square of the gap over the number of pixels; candidates are closer together than the gap, so one lies in it (first candidate above the background). Medians by C152's rank: counts of values below and above. Concrete images by computing over Z, transferred to R.",
"C155": "C89 gives each entry as a left-to-right binary64 sum over n^2, for any number type. Error of sums as in C103, one more rounding for the quotient; exact sums of fixed-point numbers as in C101. Constant matrices binned by 2: v + v is exact, and rounding 3 v, then adding v, gives 4 v by cases over the size of 3 m for v = m 2^e, ties going to even. 0.1 binned by 3 and by 4 by computation.",
"C156": "Rounding commutes with multiplication by 2^k, k >= 0, for results that are 0 or at least 2^-1022. All intermediate results are multiples of a fixed power of two (rounding keeps to the grid), so they are 0 or large enough; the quotient is the same quotient. Shorter exposures by exchanging the images.",
})
