{"id": "C01", "title": "Checked pixel access is exact and memory safe", "statement": "For every Gray image that the library lets a user obtain (constructed, reshaped, or cut out as a nested sub-image, with width*height below 2^32), at(x,y) throws exactly when (x,y) is outside width x height, otherwise it designates one element inside the image's own buffer, and two different coordinates never designate the same element.", "quantifier": "all images reachable by any sequence of constructor/reshape/makeSubimage calls, all 32-bit x and y", "why_tests_cant": "The space of shapes, offsets, strides and reshape histories is unbounded; a test visits a handful of them and cannot see an out-of-buffer read that happens to return a plausible value.", "anchors": ["boofcpp/src/boofcv/image_types.h: Gray::Gray, Gray::reshape, Gray::at, Gray::makeSubimage, Gray::index_of"]}
{"id": "C02", "title": "Image size arithmetic that does not fit in 32 bits", "statement": "The library accepts any 32-bit width and height. A user relies on at(x,y) never touching memory outside the buffer for coordinates it accepts; this holds exactly when width*height fits in 32 bits, and is violated otherwise (e.g. 65536 x 65536 allocates nothing yet at(0,0) is accepted).", "quantifier": "all pairs of 32-bit widths and heights", "why_tests_cant": "Allocating such images is impractical in a unit test, and the offending access may silently succeed.", "anchors": ["boofcpp/src/boofcv/image_types.h: Gray::Gray(uint32_t,uint32_t), Gray::at, Gray::reshape"]}
{"id": "C03", "title": "Reshape contract", "statement": "reshape(w,h) either leaves the image untouched (same shape), throws and leaves it untouched (sub-image with another shape), or yields a contiguous image of exactly that shape whose buffer is at least as long as needed and never shorter than before; afterwards every pixel in bounds can be read.", "quantifier": "all images, all requested shapes, any number of consecutive reshapes", "why_tests_cant": "The outcome depends on the whole history of previous shapes through the retained buffer; tests only try short histories.", "anchors": ["boofcpp/src/boofcv/image_types.h: Gray::reshape"]}
{"id": "C04", "title": "Sub-images are windows onto the parent", "statement": "makeSubimage(x0,y0,x1,y1) throws exactly when the rectangle is not inside the image; otherwise pixel (x,y) of the sub-image is the same storage as pixel (x0+x,y0+y) of the parent: a write through either is read through the other and no other pixel changes. Sub-images of sub-images compose by adding their origins.", "quantifier": "all images, rectangles, nesting depths, pixels and written values", "why_tests_cant": "Aliasing has to hold for every pair of coordinates at every nesting depth.", "anchors": ["boofcpp/src/boofcv/image_types.h: Gray::makeSubimage, Gray::at"]}
{"id": "C05", "title": "Image copy is pixel-exact and confined to the destination window", "statement": "dst.copy(src) (and assignment from a non-sub-image) makes dst equal to src pixel by pixel, for any mix of sub-images and full images in separate buffers, writes nothing outside dst's window, and throws without effect if dst is a sub-image of another shape.", "quantifier": "all pairs of images with separate buffers, all pixels and all buffer cells outside the window", "why_tests_cant": "The frame condition speaks about every cell not written; tests compare only the copied window.", "anchors": ["boofcpp/src/boofcv/image_types.h: Gray::copy, Gray::operator="]}
{"id": "C06", "title": "Reported image height", "statement": "getHeight() reports the number of rows of the image, as getWidth() reports the number of columns. Violated: getHeight() reports the number of columns.", "quantifier": "all images", "why_tests_cant": "Tests that use square images cannot see a violation; the claim is about every shape.", "anchors": ["boofcpp/src/boofcv/image_types.h: ImageBase::getHeight, ImageBase::getWidth"]}
{"id": "C07", "title": "Interleaved pixel access", "statement": "For every interleaved image a user can obtain, at(x,y,band) throws exactly when (x,y) is outside the image, and with a band below the number of bands designates an element of the buffer; different (x,y,band) triples designate different elements. A user also relies on a band that does not exist being rejected: violated, it designates another pixel or memory outside the buffer.", "quantifier": "all interleaved images, all 32-bit x, y, band", "why_tests_cant": "Out-of-range bands silently read the neighbouring pixel, which no test of in-range values shows.", "anchors": ["boofcpp/src/boofcv/image_types.h: Interleaved::at, Interleaved::index_of"]}
{"id": "C08", "title": "Interleaved copy", "statement": "dst.setTo(src) makes dst equal to src in every pixel and band, for any mix of sub-images in separate buffers, and throws if dst is a sub-image of another shape. True for one-byte element types; violated for every wider element type (only part of each row is copied). For wider types the bytes that are copied land at their own place in the row of dst and the rest keep their old value.", "quantifier": "all pairs of interleaved images, all element sizes", "why_tests_cant": "The number of bytes copied depends on the element type; unit tests cover one instantiation and one shape.", "anchors": ["boofcpp/src/boofcv/image_types.h: Interleaved::setTo"]}
{"id": "C09", "title": "Growable array behaves as a sequence", "statement": "Any history of set/setTo/resize/grow_array/assignment on an owning GrowArray keeps size <= array_length, keeps all previously stored elements on resize (up to the new size), at(i) throws exactly when i >= size, and operator= yields an equal sequence.", "quantifier": "all histories of operations, all sizes and contents", "why_tests_cant": "Capacity and content depend on the complete operation history.", "anchors": ["boofcpp/src/boofcv/base_types.h: GrowArray"]}
{"id": "C10", "title": "Growable array default and fill values", "statement": "fill(v) makes every element equal v and elements added by resize hold the default value. This holds for one-byte element types / freshly allocated storage only; for wider types fill is wrong for values whose bytes are not all equal, and growing inside the existing capacity exposes stale elements.", "quantifier": "all element types, values and resize histories", "why_tests_cant": "The defect depends on the element width, on the value's byte pattern and on the earlier capacity.", "anchors": ["boofcpp/src/boofcv/base_types.h: GrowArray::fill, GrowArray::resize, GrowArray::grow_array"]}
{"id": "C11", "title": "PackedSet is a list of lists", "statement": "For every history of clear/start_new_set/push_tail/remove_tail/write_set, a PackedSet with a positive block size observed through number_of_sets(), size_of_tail(), at(set,element) and load_set is indistinguishable from a plain list of lists, including which calls throw; no access leaves the allocated blocks.", "quantifier": "all operation histories, all block sizes >= 1, all element values", "why_tests_cant": "Block boundaries interact with set boundaries, removal and reuse after clear in unboundedly many ways.", "anchors": ["boofcpp/src/boofcv/packed_sets.h: PackedSet"]}
{"id": "C12", "title": "Shape check", "statement": "checkSameShape throws exactly when the images differ in width or height.", "quantifier": "all pairs/triples of shapes", "why_tests_cant": "Universal over shapes; a swapped or repeated comparison passes on the sampled shapes.", "anchors": ["boofcpp/src/boofcv/sanity_checks.h: checkSameShape", "boofcpp/src/boofcv/sanity_checks.cpp"]}
{"id": "C13", "title": "Image borders extend the image as documented", "statement": "Reading through a border returns the pixel itself inside the image; outside, the extend border returns the nearest pixel for every coordinate, the value border returns its constant for every coordinate, and reflect / wrap return the mirrored / periodic pixel for coordinates less than one image size away.", "quantifier": "all images (sub-images included), all 32-bit coordinates in the stated range", "why_tests_cant": "The claim ranges over all coordinates on both axes in combination.", "anchors": ["boofcpp/src/boofcv/image_border.h: ImageBorder::get, ImageBorderExtend, ImageBorderReflect, ImageBorderWrap, ImageBorderValue"]}
{"id": "C14", "title": "Far reads through reflect and wrap borders", "statement": "Border reads never leave the image's memory. This is violated by the reflect and wrap borders for coordinates further out than one image size.", "quantifier": "all images and all coordinates", "why_tests_cant": "Such a read usually lands in neighbouring heap memory and returns something.", "anchors": ["boofcpp/src/boofcv/image_border.h: ImageBorderReflect::adjust, ImageBorderWrap::adjust"]}
{"id": "C15", "title": "Horizontal convolution equals its definition", "statement": "ConvolveImage::horizontal writes to every pixel of the output the kernel-weighted sum of the border-extended row, for every image shape, kernel width, kernel offset and border, whichever internal path (naive or inner+border) is taken; nothing outside the output window is written, the input is unchanged.", "quantifier": "all image sizes, sub-image layouts, kernels (any width/offset), borders, integer or floating arithmetic", "why_tests_cant": "The two internal paths split the image at positions that depend on width, kernel width and offset; every combination must agree.", "anchors": ["boofcpp/src/boofcv/convolve.h: ConvolveImage::horizontal, ConvolveNaive::horizontal, ConvolveImage_Inner::horizontal, ConvolveImage_Border::horizontal"]}
{"id": "C16", "title": "Vertical convolution equals its definition", "statement": "Same as C15 for ConvolveImage::vertical and columns.", "quantifier": "all image sizes, sub-image layouts, kernels, borders, integer or floating arithmetic", "why_tests_cant": "See C15.", "anchors": ["boofcpp/src/boofcv/convolve.h: ConvolveImage::vertical, ConvolveNaive::vertical, ConvolveImage_Inner::vertical, ConvolveImage_Border::vertical"]}
{"id": "C17", "title": "2D convolution equals its definition", "statement": "Same as C15 for ConvolveImage::convolve with a square 2D kernel.", "quantifier": "all image sizes, sub-image layouts, kernels, borders, integer or floating arithmetic", "why_tests_cant": "Corner, edge and centre regions are produced by different loops that must tile the image exactly.", "anchors": ["boofcpp/src/boofcv/convolve.h: ConvolveImage::convolve, ConvolveNaive::convolve, ConvolveImage_Inner::convolve, ConvolveImage_Border::convolve"]}
{"id": "C18", "title": "Naive convolution with kernels larger than the image", "statement": "The naive convolution handles every kernel size, including kernels larger than the image, without leaving the image's memory. True for extend and value borders; violated for reflect and wrap.", "quantifier": "all images, kernels and borders", "why_tests_cant": "Out-of-bounds reads are not observed by value comparison against the same code.", "anchors": ["boofcpp/src/boofcv/convolve.h: ConvolveNaive", "boofcpp/src/boofcv/image_border.h"]}
{"id": "C19", "title": "Normalized convolution equals its definition", "statement": "ConvolveNormalized::horizontal/vertical/convolve produce at each pixel the sum over the part of the kernel that overlaps the image divided (with rounding for integers) by the sum of those kernel coefficients, whichever internal path is taken.", "quantifier": "all image sizes, kernels with non-vanishing partial sums, offsets", "why_tests_cant": "Three code paths (naive, inner, border) with different indexing must agree for all shapes.", "anchors": ["boofcpp/src/boofcv/convolve.h: ConvolveNormalized, ConvolveNormalizedNaive, ConvolveNormalized_JustBorder, ConvolveImage_Inner"]}
{"id": "C20", "title": "Normalized convolution does not depend on the code path for any coefficient value", "statement": "The result of ConvolveNormalized::vertical is the normalized sum for every kernel coefficient value. Violated: when the kernel is at least as tall as the image the coefficients are first truncated to the pixel type.", "quantifier": "all kernels with coefficients outside the pixel range", "why_tests_cant": "Only reachable with a large coefficient and an image not taller than the kernel.", "anchors": ["boofcpp/src/boofcv/convolve.h: ConvolveNormalizedNaive::vertical"]}
{"id": "C21", "title": "Normalized convolution stays inside the input range", "statement": "With non-negative coefficients and positive partial sums, every output of the integer normalized convolution lies between the minimum and the maximum of the input pixels it covers; in particular constant images are unchanged and no value wraps around.", "quantifier": "all U8/U16 images, all admissible kernels", "why_tests_cant": "Needs all pixel values, kernels and positions.", "anchors": ["boofcpp/src/boofcv/convolve.h: ConvolveNormalized"]}
{"id": "C22", "title": "Mean blur equals the normalized all-ones kernel", "statement": "Horizontal and vertical mean filters (sliding window) produce at each pixel the rounded mean of the window clipped to the image, for every shape and every radius >= 1 with 2*radius+1 not larger than the filtered dimension, and for larger kernels through the naive path.", "quantifier": "all images, radii, element types", "why_tests_cant": "The sliding window accumulates an arbitrarily long history of additions and subtractions along each line.", "anchors": ["boofcpp/src/boofcv/image_blur.h: ConvolveImageMean", "boofcpp/src/boofcv/convolve.h: ConvolveNormalized_JustBorder"]}
{"id": "C23", "title": "Vertical mean blur on short images", "statement": "The vertical mean filter never reads outside the image. Violated when the kernel is taller than the image but not wider than it, because the width is compared instead of the height.", "quantifier": "all images and radii", "why_tests_cant": "The stray read hits adjacent heap memory, results look plausible; only wide, short images trigger it.", "anchors": ["boofcpp/src/boofcv/image_blur.h: ConvolveImageMean::vertical"]}
{"id": "C24", "title": "Mean blur stays inside the input range", "statement": "BlurImageOps::mean throws for radius 0; otherwise outputs of the unsigned integer blur lie between the minimum and the maximum input pixel and constant images are unchanged.", "quantifier": "all images with height not below the kernel, all radii", "why_tests_cant": "All pixel values and shapes.", "anchors": ["boofcpp/src/boofcv/image_blur.h: BlurImageOps::mean"]}
{"id": "C25", "title": "Image statistics", "statement": "sum and histogram account for every pixel of the image window exactly once (histogram[v-min] = number of pixels equal to v); mean is the truncated average for non-negative sums.", "quantifier": "all images and sub-images, all pixel values", "why_tests_cant": "Counting claims over all images.", "anchors": ["boofcpp/src/boofcv/image_statistics.h: sum, mean, histogram"]}
{"id": "C26", "title": "Image extrema on sub-images", "statement": "min / max return the smallest / largest pixel of the image. True for images stored contiguously; violated for sub-images.", "quantifier": "all images and sub-images", "why_tests_cant": "Tests on full images pass; the claim covers every window.", "anchors": ["boofcpp/src/boofcv/image_statistics.h: min, max"]}
{"id": "C27", "title": "Mean and band average of signed pixels", "statement": "mean and convert_average return the truncated average of signed pixels. Violated for negative sums because the sum is divided by an unsigned count.", "quantifier": "all S16/S32 images", "why_tests_cant": "Only negative sums show it.", "anchors": ["boofcpp/src/boofcv/image_statistics.h: mean", "boofcpp/src/boofcv/image_convert.h: convert_average"]}
{"id": "C28", "title": "Fill operations are confined and complete", "statement": "fill sets every pixel of the window and nothing else; fill_border sets exactly the pixels within the given distance of the image's edge and leaves the interior and everything outside the window alone.", "quantifier": "all images, sub-images, radii, values", "why_tests_cant": "Frame condition over all cells.", "anchors": ["boofcpp/src/boofcv/image_misc_ops.h: fill, fill_border"]}
{"id": "C29", "title": "Interleaved fill on sub-images", "statement": "fill of an interleaved image sets all bands of all pixels of the window and nothing else. True for full images, violated for sub-images.", "quantifier": "all interleaved images", "why_tests_cant": "Tests use full images.", "anchors": ["boofcpp/src/boofcv/image_misc_ops.h: fill(Interleaved)"]}
{"id": "C30", "title": "Band averaging of unsigned images", "statement": "convert_average writes to every output pixel the truncated average of its bands and changes nothing else.", "quantifier": "all unsigned interleaved images with at least one band, sub-images included", "why_tests_cant": "Universal over shapes and values.", "anchors": ["boofcpp/src/boofcv/image_convert.h: convert_average"]}
{"id": "C31", "title": "Pixel-wise logic works in place", "statement": "logicAnd / logicOr write 1 exactly where both / either input is non-zero and 0 elsewhere, also when the output is the same image as an input; shapes that differ are rejected before anything is written.", "quantifier": "all images, including aliased outputs, all pixel values", "why_tests_cant": "Aliasing correctness is a property of all orders of reads and writes.", "anchors": ["boofcpp/src/boofcv/binary_ops.cpp: logicAnd, logicOr"]}
{"id": "C32", "title": "Erosion and dilation", "statement": "For 0/1 images of at least 1x1 erode4/dilate4 write in every pixel not on the image's edge the minimum/maximum of its 4-neighbourhood, and leave edge pixels and everything outside the window as they were; they are dual under complement; eroding shrinks and dilating grows the interior.", "quantifier": "all binary images and shapes", "why_tests_cant": "All images; algebraic laws.", "anchors": ["boofcpp/src/boofcv/binary_ops.cpp: erode4, dilate4"]}
{"id": "C33", "title": "Erosion and dilation of degenerate images", "statement": "erode4/dilate4 are safe for every image the type can hold. Violated for images with zero height (and zero width with three or more rows), where the loop bound wraps around.", "quantifier": "all shapes including empty", "why_tests_cant": "An empty image test may crash or not depending on the heap.", "anchors": ["boofcpp/src/boofcv/binary_ops.cpp: erode4, dilate4"]}
{"id": "C34", "title": "Global thresholding", "statement": "threshold writes 1 where pixel <= t (down) or pixel > t (not down) and 0 elsewhere in every pixel of the output window, so the two directions are exact complements.", "quantifier": "all images and thresholds", "why_tests_cant": "All values; the header comment says >= for the second direction, which is refuted.", "anchors": ["boofcpp/src/boofcv/binary_ops.h: ThresholdOps::threshold"]}
{"id": "C35", "title": "Otsu threshold is optimal", "statement": "The Otsu threshold computed from a histogram maximises the between-class variance over all split positions (computed over exact arithmetic), and is the smallest such position; for a histogram with fewer than two occupied bins it is 0.", "quantifier": "all histograms", "why_tests_cant": "Optimality quantifies over all splits of all histograms.", "anchors": ["boofcpp/src/boofcv/binary_ops.cpp: ComputeOtsu::computeOtsu"]}
{"id": "C36", "title": "Otsu thresholding for pixel ranges not starting at zero", "statement": "Global Otsu thresholding of pixels in [min,max] applies the optimal split in pixel units. Violated if min is not 0: the histogram index is used as a pixel value.", "quantifier": "all images and ranges", "why_tests_cant": "Only visible for non-zero minimum.", "anchors": ["boofcpp/src/boofcv/binary_ops.h: ThresholdOps::computeOtsu, GlobalOtsuBinaryFilter::process"]}
{"id": "C37", "title": "Block statistics partition the image", "statement": "The block thresholding filters divide the image into blocks such that every pixel belongs to exactly one block, every block's statistics are written to its own slot and every slot is written, for every image size and block size not larger than the image.", "quantifier": "all image sizes and block sizes", "why_tests_cant": "The division with remainder merges the last partial block; all residues must work.", "anchors": ["boofcpp/src/boofcv/threshold_block_filters.h: process, selectBlockSize, computeStatistics"]}
{"id": "C38", "title": "Block thresholding writes a complete binary image", "statement": "For each of the mean, min-max and Otsu variants, when process returns every output pixel is 0 or 1, depends only on the pixels of the surrounding 3x3 blocks, and all memory accesses are in bounds; shapes that differ or images smaller than a block are rejected.", "quantifier": "all images, block sizes, variants", "why_tests_cant": "All shapes and remainders.", "anchors": ["boofcpp/src/boofcv/threshold_block_filters.h: ThresholdBlockMean, ThresholdBlockMinMax, ThresholdBlockOtsu"]}
{"id": "C39", "title": "Contour tracing terminates", "statement": "Tracing an external contour from a pixel whose upper neighbour is background, or an internal contour from a pixel whose lower neighbour is background, ends after a bounded number of steps for every binary image with a background ring and both connectivity rules, and returns to its initial state.", "quantifier": "all binary images, both connectivity rules, all start pixels", "why_tests_cant": "Non-termination on one unlucky image cannot be excluded by testing.", "anchors": ["boofcpp/src/boofcv/contour.cpp: ContourTracer::trace, searchBlack4, searchBlack8, moveToNext"]}
{"id": "C40", "title": "Contour tracing is memory safe and only marks background", "statement": "During tracing all image accesses are inside the images, foreground pixels keep their value, only background pixels are changed (to the mark), only foreground pixels receive the label.", "quantifier": "all binary images with ring, both rules", "why_tests_cant": "The path of the tracer depends on the image.", "anchors": ["boofcpp/src/boofcv/contour.cpp: ContourTracer"]}
{"id": "C41", "title": "Contour points form a closed connected path", "statement": "Every recorded contour consists of foreground pixels, each with a background neighbour, consecutive points (and last to first) are neighbours under the connectivity rule, and the first point is the start pixel.", "quantifier": "all images, rules", "why_tests_cant": "All images.", "anchors": ["boofcpp/src/boofcv/contour.cpp: ContourTracer::trace, add"]}
{"id": "C42", "title": "Labelling computes connected components", "statement": "LinearContourLabelChang2004::process labels background pixels 0 and foreground pixels such that two pixels have the same label exactly if they are connected by a path of foreground pixels under the selected 4- or 8-rule; labels are 1..n, numbered in raster order of each component's first pixel, and n is the number of contours reported.", "quantifier": "all binary images of all sizes, both rules", "why_tests_cant": "Correctness of the single-pass algorithm rests on a planar topology argument over all images.", "anchors": ["boofcpp/src/boofcv/contour.cpp: LinearContourLabelChang2004::process, handleStep1, handleStep2, handleStep3"]}
{"id": "C43", "title": "Labelling never fails on binary input", "statement": "process on a 0/1 image never throws from its internal lookups and never accesses memory out of bounds; the input image is not modified.", "quantifier": "all binary images, both rules, any earlier use of the object", "why_tests_cant": "A failing lookup would need a specific image.", "anchors": ["boofcpp/src/boofcv/contour.cpp: LinearContourLabelChang2004"]}
{"id": "C44", "title": "Labelling is independent of earlier use", "statement": "The labels and contours computed by process depend only on the current input and settings, not on images processed earlier with the same object.", "quantifier": "all histories of process calls", "why_tests_cant": "The internal bordered copy keeps marks of earlier runs; histories are unbounded.", "anchors": ["boofcpp/src/boofcv/contour.cpp: LinearContourLabelChang2004::process"]}
{"id": "C45", "title": "Contour size limits", "statement": "With limits set, a recorded contour is empty exactly when the traced contour has at least maxContourSize or fewer than minContourSize points (or internal contours are not saved), and labels do not depend on the limits.", "quantifier": "all images, limits", "why_tests_cant": "All images and limit values.", "anchors": ["boofcpp/src/boofcv/contour.cpp: handleStep1, handleStep2, ContourTracer::add"]}
{"id": "C46", "title": "One external and one internal contour per hole", "statement": "Each component has exactly one external contour and exactly one internal contour for each hole (background component enclosed by it under the dual rule).", "quantifier": "all binary images", "why_tests_cant": "Topological counting claim.", "anchors": ["boofcpp/src/boofcv/contour.cpp: LinearContourLabelChang2004::process"]}
{"id": "C47", "title": "Relative and fixed lengths", "statement": "ConfigLength: a fraction-based length is max(minimum, fraction*total), a fixed length is the length itself; computeI rounds half up for non-negative results, returns -1 for negative ones; exactly one of isFixed/isRelative holds and invalid configurations are rejected.", "quantifier": "all lengths, fractions and totals", "why_tests_cant": "Universal over reals.", "anchors": ["boofcpp/src/boofcv/config_types.h", "boofcpp/src/boofcv/config_types.cpp"]}
{"id": "C48", "title": "Kernel normalisation", "statement": "normalize makes the coefficients sum to one (exact arithmetic). True for 1D kernels; violated for 2D kernels of width > 1, where only the first row is scaled. Mean and Gaussian factory kernels of either dimension do sum to one; Gaussian kernels are the sampled bell curve, positive, symmetric and falling from the middle.", "quantifier": "all kernels", "why_tests_cant": "Factory kernels are already normalised, hiding the defect.", "anchors": ["boofcpp/src/boofcv/convolve_kernels.h: FactoryKernel::normalize, mean1D, gaussian1D, gaussian2D"]}
{"id": "C49", "title": "Kernel radius and sigma", "statement": "Choosing sigma from a radius and the radius from that sigma returns the same radius (exact arithmetic); kernel offsets chosen by the factory are inside the kernel. A sigma that needs a radius above the range of int is not rejected.", "quantifier": "all radii, derivative orders", "why_tests_cant": "Universal.", "anchors": ["boofcpp/src/boofcv/convolve_kernels.h: FactoryKernel::sigmaForRadius, radiusForSigma, Kernel1D, Kernel2D"]}
{"id": "C50", "title": "Ownership of image memory", "statement": "Any history of constructing, reshaping, copying, cutting sub-images of and destroying images, that never copy-constructs or assigns from a sub-image, frees every buffer exactly once and never uses a freed one unless through a sub-image that outlived its parent. Copy construction violates it (double free). Assigning a sub-image makes the target a view of the same memory, assigning any other image copies its pixels like setTo. A sub-image is refused exactly for rectangles that do not lie in the image and otherwise shows the pixels of its parent.", "quantifier": "all operation histories", "why_tests_cant": "Histories are unbounded; double frees may go unnoticed.", "anchors": ["boofcpp/src/boofcv/image_types.h: Gray"]}
{"id": "C51", "title": "Normalized convolution of a constant signed image", "statement": "Normalized convolution with positive coefficients leaves a constant image unchanged for every integer pixel type. Violated for signed types: half the weight is added before a truncating division, so -1 becomes 0.", "quantifier": "all signed constant images, positive kernels", "why_tests_cant": "Tests use unsigned images; the error is one unit and only for negative totals.", "anchors": ["boofcpp/src/boofcv/convolve.h: ConvolveNormalizedNaive, ConvolveNormalized_JustBorder, ConvolveImage_Inner"]}
{"id": "C52", "title": "Float mean blur depends only on its window", "statement": "The mean filter on float images gives at each pixel a value determined by the pixels of its window. Violated: the running total keeps the rounding error of pixels that already left the window, so one bright pixel can corrupt the rest of the row.", "quantifier": "all float images", "why_tests_cant": "Tests compare with a tolerance on small random values, where the error of the running total stays below it.", "anchors": ["boofcpp/src/boofcv/image_blur.h: ConvolveImageMean::inner_horizontal", "boofcpp/src/boofcv/image_blur.h: ConvolveImageMean::inner_vertical"]}
{"id": "C53", "title": "Images from nested lists", "statement": "An image built from a list of rows of equal length has these dimensions and holds element x of row y at (x,y); rows of different length are refused with an exception.", "quantifier": "all element types and all lists whose element count fits in 32 bits", "why_tests_cant": "All shapes, including empty lists and empty rows, and all contents.", "anchors": ["boofcpp/src/boofcv/image_types.h: Gray(std::initializer_list<std::initializer_list<T>>)"]}
{"id": "C54", "title": "Histogram of pixels outside the histogram's range", "statement": "Counting an image into a histogram never touches memory outside the histogram, whatever the pixel values. Violated: a pixel that does not fit is counted outside the array without a check.", "quantifier": "all images, all histogram sizes and minimum values", "why_tests_cant": "tests use histograms of full range; the out-of-range write is silent", "anchors": ["boofcpp/src/boofcv/image_statistics.h:62-74", "boofcpp/src/boofcv/base_types.h:164-166"]}
{"id": "C55", "title": "Averages over nothing", "statement": "The mean of an image without pixels and the band average of an image without bands have a defined result or are rejected. Violated: both divide by zero for integer pixels.", "quantifier": "all empty images of every integer pixel type", "why_tests_cant": "the crash only happens for sizes no test creates", "anchors": ["boofcpp/src/boofcv/image_statistics.h:56-60", "boofcpp/src/boofcv/image_convert.h:16-38"]}
{"id": "C56", "title": "Maximum of a floating point image", "statement": "max of a floating point image is one of its pixels, the largest. Violated for images without positive pixels, because the search starts at the smallest positive number.", "quantifier": "all floating point images", "why_tests_cant": "tests only use images with positive pixels", "anchors": ["boofcpp/src/boofcv/image_statistics.h:27-41"]}
{"id": "C57", "title": "Random fill is confined and complete", "statement": "fill_uniform gives every pixel of the window a number from the requested range and changes nothing else. True for images that own their storage, violated for sub-images.", "quantifier": "all images, all random number sequences", "why_tests_cant": "random output is only checked statistically and on full images", "anchors": ["boofcpp/src/boofcv/image_misc_ops.h:78-99"]}
{"id": "C58", "title": "Image sums do not overflow for valid pixels", "statement": "sum of an image with valid pixels is defined. Violated for signed pixels up to 32 bits, whose sum is accumulated in 32 bits.", "quantifier": "all images of signed pixel type", "why_tests_cant": "overflow needs large pixel values or large images; tests use small ones", "anchors": ["boofcpp/src/boofcv/image_statistics.h:43-54", "boofcpp/src/boofcv/base_types.h:30-44"]}
{"id": "C59", "title": "Documented comparison of upward thresholding", "statement": "With down = false, threshold writes 1 for every pixel at least as large as the threshold, as its comment says. Violated for pixels equal to the threshold.", "quantifier": "all images and thresholds", "why_tests_cant": "the boundary value has to be present in the image; random images rarely contain it", "anchors": ["boofcpp/src/boofcv/binary_ops.h:125-159"]}
{"id": "C60", "title": "Cropping an image to a part of itself", "statement": "img.copy(part), for a sub-image part of img, leaves img equal to what part showed. Violated: img is reshaped in the buffer that part still shows, so rows are copied between overlapping places, which is undefined.", "quantifier": "all images and windows", "why_tests_cant": "overlapping memcpy often appears to work", "anchors": ["boofcpp/src/boofcv/image_types.h:150-188"]}
{"id": "C61", "title": "Documented indexes of internal contours", "statement": "The i-th internal contour of a blob is stored directly after its external contour: its index is external + 1 + i, as the comment of ContourPacked says. Violated as soon as another blob is met before the first hole is seen; the indexes have to be read from internalIndexes.", "quantifier": "all binary images, both rules", "why_tests_cant": "holds for every image with a single blob or with holes directly below the first row of each blob", "anchors": ["boofcpp/src/boofcv/contour.h:136-139", "boofcpp/src/boofcv/contour.cpp:326-365 handleStep1, handleStep2"]}
{"id": "C62", "title": "Documented maximum contour size", "statement": "A contour is dropped only if it has more than maxContourSize points ('exceeded'; 'the maximum number of elements in a contour that will be recorded'). Violated: a contour with exactly maxContourSize points is dropped.", "quantifier": "all binary images, limits", "why_tests_cant": "only the boundary value shows the difference", "anchors": ["boofcpp/src/boofcv/contour.h:160-163", "boofcpp/src/boofcv/contour.cpp:337-364 handleStep1, handleStep2"]}
{"id": "C63", "title": "Block thresholding accepts every valid block length", "statement": "process either rejects a valid block length with an exception or computes the binary image. Violated: a relative length that comes to less than half a pixel becomes a block size of zero, by which the code divides.", "quantifier": "all valid lengths, all image sizes", "why_tests_cant": "depends on the product of fraction and image size; the tests use fixed lengths", "anchors": ["boofcpp/src/boofcv/threshold_block_filters.h:72-78, 93-100", "boofcpp/src/boofcv/config_types.cpp:42-48"]}
{"id": "C64", "title": "Block mean of signed images", "statement": "The mean filter compares a pixel with the mean of its region for every pixel type. Violated for signed types: a negative sum is divided as an unsigned number.", "quantifier": "all signed images", "why_tests_cant": "only U8 is tested; two or four blocks with equal means happen to give the right answer", "anchors": ["boofcpp/src/boofcv/threshold_block_filters.h:231"]}
{"id": "C65", "title": "Min-max filter on negative images", "statement": "A region whose values differ by at most minimumSpread is textureless and gets the default value 1. Violated for floating point images with negative values: the search for the maximum starts from the smallest positive number.", "quantifier": "all floating point images", "why_tests_cant": "needs a region without positive values", "anchors": ["boofcpp/src/boofcv/threshold_block_filters.h:446-447"]}
{"id": "C66", "title": "Switching off the texture check", "statement": "minimumSpread <= -1 disables the texture check of the min-max filter, as documented. Violated for unsigned images: the negative number is converted to an unsigned type, which is undefined.", "quantifier": "all unsigned images", "why_tests_cant": "undefined behaviour may give the expected result on some platforms", "anchors": ["boofcpp/src/boofcv/threshold_block_filters.h:403-413, 462"]}
{"id": "C67", "title": "Block mean with a scale above one", "statement": "The mean filter compares pixels with the scaled mean for every scale. Violated if the scaled mean exceeds the pixel type: it wraps around.", "quantifier": "all images, scales", "why_tests_cant": "needs bright images and a scale above one", "anchors": ["boofcpp/src/boofcv/threshold_block_filters.h:267-272"]}
{"id": "C68", "title": "Square Gaussian kernel of automatic width", "statement": "gaussian2D with a width that is not positive makes a kernel whose width follows from sigma, as gaussian1D does. Violated: the width given is used, so width -1 writes outside the kernel's memory and all others throw.", "quantifier": "all sigmas and widths", "why_tests_cant": "The failing argument is undefined behaviour, which a test cannot observe reliably.", "anchors": ["boofcpp/src/boofcv/convolve_kernels.h: FactoryKernel::gaussian2D"]}
{"id": "C69", "title": "Gaussian blur stays inside the input range", "statement": "Gaussian blur of a U8 or U16 image writes values between the smallest and the largest input pixel, never divides by zero and leaves constant images unchanged, for every sigma and width, also those determined automatically (exact arithmetic, real exponential function).", "quantifier": "all U8/U16 images, sigmas, widths below the accumulator limit", "why_tests_cant": "Needs all images and kernels, including the rounding of coefficients to integers.", "anchors": ["boofcpp/src/boofcv/image_blur.h: BlurImageOps::gaussian", "boofcpp/src/boofcv/convolve_kernels.h: gaussian1D, float_to_int"]}
{"id": "C70", "title": "Integer length in doubles", "statement": "computeI returns the integer nearest to the computed length. Violated in doubles: a length just below one half becomes 1, because the sum with one half is rounded.", "quantifier": "all doubles", "why_tests_cant": "Fails for isolated doubles.", "anchors": ["boofcpp/src/boofcv/config_types.cpp: ConfigLength::computeI"]}
{"id": "C71", "title": "Two integer lengths of a fixed configuration", "statement": "getLengthI and computeI agree on a fixed length. True for lengths that are not negative; violated for negative ones, e.g. the default configuration gives 0 and -1.", "quantifier": "all fixed lengths", "why_tests_cant": "Universal over lengths.", "anchors": ["boofcpp/src/boofcv/config_types.cpp: ConfigLength::getLengthI, computeI"]}
{"id": "C72", "title": "Offset of kernels given as lists", "statement": "The constructors of kernels reject an offset outside the kernel. True for 1D lists; violated for 2D lists, whose offset is not checked.", "quantifier": "all offsets and lists", "why_tests_cant": "Tests use valid offsets.", "anchors": ["boofcpp/src/boofcv/convolve_kernels.h: Kernel1D, Kernel2D"]}
{"id": "C73", "title": "Integer Gaussian kernels", "statement": "The integer kernel counts the exact coefficients in units of the smallest one, or of a hundredth of the largest one if that is larger: coefficients are between 0 and 100, within one unit of the exact ones, symmetric, falling from the middle, and the middle one is at least 1 (exact arithmetic, real exponential function).", "quantifier": "all sigmas and widths", "why_tests_cant": "Needs all sigmas and widths.", "anchors": ["boofcpp/src/boofcv/convolve_kernels.h: FactoryKernel::gaussian1D, gaussian2D, float_to_int"]}
{"id": "C74", "title": "Radius and sigma in doubles", "statement": "Choosing sigma from a radius and the radius from that sigma in doubles returns the same radius for every derivative order. Violated for order 1 and radius 6, which becomes 7.", "quantifier": "all radii, derivative orders", "why_tests_cant": "Fails for isolated pairs.", "anchors": ["boofcpp/src/boofcv/convolve_kernels.h: FactoryKernel::sigmaForRadius, radiusForSigma"]}
{"id": "C75", "title": "Thresholding by local means", "statement": "Local mean thresholding sets each output pixel to 1 or 0 by comparing the input pixel with the scaled mean of the square region around it, the part of the region outside the image being left out. The region width comes from the configured length and the smaller side of the image. Regions of less than two pixels are refused. The filter object gives the same result for an image whatever images it has processed before.", "quantifier": "all image sizes and layouts, pixel values, scales, directions and region widths that fit in the image; all call sequences of the filter object", "why_tests_cant": "Needs every image, region width and call history.", "anchors": ["boofcpp/src/boofcv/binary_ops.h:175-211 localMean", "boofcpp/src/boofcv/binary_ops.h:263-283 LocalMeanBinaryFilter"]}
{"id": "C76", "title": "Documented value of upward local thresholding", "statement": "With direction up, pixels that are above the scaled local mean become 0 and others 1, as documented. Violated: they become 1 and 0.", "quantifier": "all images", "why_tests_cant": "Tests were written from the code.", "anchors": ["boofcpp/src/boofcv/binary_ops.h:175-211 localMean"]}
{"id": "C77", "title": "Local thresholding with regions as wide as the image", "statement": "Local mean thresholding of a valid image is defined for every region width up to the smaller side of the image. Violated: for a 3x2 image and a region of the full height it reads outside the buffer.", "quantifier": "all image sizes and region widths", "why_tests_cant": "The out of bounds read needs not crash; tests use small regions.", "anchors": ["boofcpp/src/boofcv/binary_ops.h:175-211 localMean", "boofcpp/src/boofcv/config_types.h"]}
{"id": "C78", "title": "Distances of integer points", "statement": "The squared Euclidean distance of two integer points is computed exactly whenever the exact value fits in the signed type of the coordinates, in particular always for 8-bit points and for points of images of at most 32767 by 32767 pixels. Otherwise the computation overflows.", "quantifier": "all pairs of points and all integer coordinate types", "why_tests_cant": "All pairs of coordinates.", "anchors": ["boofcpp/src/boofcv/geometry_types.h:31-39 Point2D::distanceSq"]}
{"id": "C79", "title": "Distances that fit in the result type", "statement": "The squared distance of 16-bit unsigned points is correct whenever it fits in the type of the result. Violated: (0,0) and (65535,0) overflow although the distance fits.", "quantifier": "all pairs of 16-bit points", "why_tests_cant": "Overflow only occurs for far apart points.", "anchors": ["boofcpp/src/boofcv/geometry_types.h:31-39 Point2D::distanceSq"]}
{"id": "C80", "title": "Java receives the native contours", "statement": "After native contour extraction the list of contours that Java holds equals the native one: same identifiers, same external set numbers, same internal set numbers in the same order, whatever the transfer queue held before and however long its array was.", "quantifier": "all lists of contours whose numbers fit in Java's int, all states of the transfer queue", "why_tests_cant": "Needs all lengths of successive contours relative to the capacity of the queue.", "anchors": ["boofcpp-jni/src/main/cpp/JNIBoofCPP.cpp:8-92 WrapJGrowQueue_I32", "boofcpp-jni/src/main/cpp/NativeChang2004.cpp:54-66", "boofcpp-jni/src/main/java/org/boofcpp/contour/NativeChang2004.java:38-52"]}
{"id": "C81", "title": "Java receives the native points", "statement": "Copying a native packed set of points into a Java packed set of matching block length makes Java read exactly the same sets of points, also across block boundaries and whatever the Java object held before. Objects with another block length are refused with an exception.", "quantifier": "all histories of the packed set, block sizes and states of the Java object", "why_tests_cant": "Needs all histories and block sizes.", "anchors": ["boofcpp-jni/src/main/cpp/JNIBoofCPP.cpp:94-142 copy_into_java", "boofcpp/src/boofcv/packed_sets.h"]}
{"id": "C82", "title": "Threshold filters called from Java", "statement": "Calling a threshold filter (fixed, Otsu, local mean, block mean, block min-max, block Otsu) from Java on 8-bit images writes exactly the pixels that the filter's definition gives for the unsigned values of Java's bytes. The output image is reshaped to the input's size, all pinned arrays are given back, no other array changes, and of an output sub-image only its pixels. A fixed threshold given as any double in [0,256) is compared exactly. Otsu and block filters: exact arithmetic.", "quantifier": "all Java images and sub-images with separate arrays, all thresholds and states of the filter within the stated conditions", "why_tests_cant": "Needs a JVM and all images, sub-image layouts and filter states.", "anchors": ["boofcpp-jni/src/main/cpp/NativeGlobalFixed.cpp:10-80", "boofcpp-jni/src/main/cpp/NativeGlobalOtsu.cpp", "boofcpp-jni/src/main/cpp/NativeBlockMean.cpp", "boofcpp-jni/src/main/cpp/NativeBlockMinMax.cpp", "boofcpp-jni/src/main/cpp/NativeBlockOtsu.cpp", "boofcpp-jni/src/main/cpp/NativeLocalMean.cpp", "boofcpp-jni/src/main/cpp/JNIBoofCPP.cpp:236-354", "boofcpp/src/boofcv/binary_ops.h:229-283"]}
{"id": "C83", "title": "Fixed thresholds outside 0 to 255", "statement": "A fixed threshold given from Java marks exactly the pixels that are at most the threshold, whatever double it is. Violated: thresholds between -1 and 0 act as 0, and -1 or 256 are undefined conversions.", "quantifier": "all doubles as threshold", "why_tests_cant": "Conversions out of range need not fail visibly.", "anchors": ["boofcpp-jni/src/main/cpp/NativeGlobalFixed.cpp:19"]}
{"id": "C84", "title": "Errors of a filter reach Java", "statement": "If a threshold filter refuses its arguments, Java gets an exception and can go on using the images. Violated: the exception is swallowed, the input array stays pinned and the next call is not allowed by JNI.", "quantifier": "all failing calls", "why_tests_cant": "The virtual machine may tolerate the violation.", "anchors": ["boofcpp-jni/src/main/cpp/NativeGlobalFixed.cpp:61-80", "boofcpp-jni/src/main/cpp/NativeLocalMean.cpp"]}
{"id": "C85", "title": "Convolution called from Java", "statement": "Horizontal, vertical and square convolution of 8-bit Java images with Java integer kernels write into 16- or 32-bit Java images the sums over the image continued by the border rule, converted to the output type; arrays are given back and nothing else changes. Constant borders other than zero and unknown borders give an exception. Violated in two cases: a border with different rules for rows and columns uses the rule for rows for both, and an 8-bit output is undefined behaviour instead of an exception. A kernel whose offset is outside it, or whose width is negative, is not refused either (undefined behaviour, respectively taken as unsigned), and a border code outside the supported list is undefined behaviour.", "quantifier": "all Java images, kernels whose absolute sum times 255 fits in an int, and supported borders", "why_tests_cant": "Needs all layouts, kernels and borders.", "anchors": ["boofcpp-jni/src/main/cpp/NativeImageConvolve.cpp:13-223", "boofcpp-jni/src/main/java/org/boofcpp/convolve/NativeConvolveImage.java:19-85", "boofcpp-jni/src/main/cpp/JNIBoofCPP.cpp:367-428"]}
{"id": "C86", "title": "Contours found from Java", "statement": "Contour extraction called from Java on a 0/1 image, after any history of calls and settings, succeeds and Java gets: labels that are 0 exactly on the background and equal exactly on connected pixels, numbered in raster order; one contour per blob with the traced outer boundary and one per hole with the traced hole boundary, cut to nothing outside the configured lengths; and every set of points belongs to exactly one contour.", "quantifier": "all binary Java images, histories of the finder and of the transfer queue", "why_tests_cant": "Needs all images and call histories, across the language boundary.", "anchors": ["boofcpp-jni/src/main/cpp/NativeChang2004.cpp:12-73", "boofcpp-jni/src/main/java/org/boofcpp/contour/NativeChang2004.java:21-52", "boofcpp/src/boofcv/contour.cpp"]}
{"id": "C87", "title": "Settings of the contour finder in Java", "statement": "After any sequence of setters the getters return the last value set, other settings are unchanged, processing does not change settings, and the defaults are: internal contours saved, lengths 0 to 2147483647, four-connectivity. A negative minimum means no limit: violated, it is read back as set but drops all contours.", "quantifier": "all sequences of settings", "why_tests_cant": "All sequences and values.", "anchors": ["boofcpp-jni/src/main/cpp/NativeChang2004.cpp:12-22, 75-188"]}
{"id": "C88", "title": "Life of the native objects", "statement": "For every sequence of creating, using and garbage collecting threshold filters no native object is used after deletion, deleted twice or used as another type, and deleted are exactly the collected ones; for contour finders also with explicit destruction. Violated for threshold filters that are destroyed explicitly (deleted again by the garbage collector) and when the image type is changed after construction.", "quantifier": "all sequences of operations on any number of objects", "why_tests_cant": "Double deletion needs not crash; order of garbage collection is not controllable.", "anchors": ["boofcpp-jni/src/main/java/org/boofcpp/NativeBase.java:12-28", "boofcpp-jni/src/main/cpp/NativeGlobalFixed.cpp:27-40", "boofcpp-jni/src/main/java/org/boofcpp/threshold/NativeGlobalFixed.java", "boofcpp-jni/src/main/cpp/NativeChang2004.cpp:24-34"]}
{"id": "C89", "title": "Bands of a planar image", "statement": "A planar image has the requested number of zeroed bands of the requested size; requesting a band beyond gives an exception; reshape gives all bands the new size, also when they had different ones, and keeps bands that already have it; writing a pixel of one band changes no other pixel of it and no other band.", "quantifier": "all histories of construction, reshape, writes to bands and reshapes of single bands", "why_tests_cant": "All histories and sizes; the existing tests of this class are empty.", "anchors": ["boofcpp/src/boofcv/image_types.h:218-319 Planar"]}
{"id": "C90", "title": "Planar images can be destroyed", "statement": "A planar image releases its memory correctly when its lifetime ends. Violated: with one band or more the destructor deletes the array of bands with the wrong operator and more than once; only an image without bands can be destroyed.", "quantifier": "all sizes and numbers of bands", "why_tests_cant": "Undefined behaviour of the allocator; the existing tests of this class are empty.", "anchors": ["boofcpp/src/boofcv/image_types.h:245-256 Planar::~Planar"]}
{"id": "C91", "title": "Normalized convolution called from Java", "statement": "With an output image of the same size every pixel becomes the rounded weighted mean of the pixels under the kernel that exist, for images and sub-images; all arrays are returned to the virtual machine, and nothing but the pixels of the output changes.", "quantifier": "all images, sub-images and kernels without overflow whose covered weights are not zero; vertically, coefficients 0..255 if the kernel is not shorter than the image", "why_tests_cant": "Covers all sizes, offsets, strides and kernels; signed bytes; the release of arrays is not visible in a test.", "anchors": ["boofcpp-jni/src/main/cpp/NativeImageConvolveNormalized.cpp:10-67", "boofcpp-jni/src/main/java/org/boofcpp/convolve/NativeImageConvolveNormalized.java:19-36"]}
{"id": "C92", "title": "Mean blur called from Java", "statement": "The output gets the size of the input and at every pixel the rounded mean over the column of the rounded means of the rows. The same holds with and without a storage image, and whether or not the virtual machine copies arrays. Only the output and the storage change.", "quantifier": "all images, sub-images, radii > 0 without overflow, image narrower than the window or at least as high", "why_tests_cant": "Whether the virtual machine copies arrays is not controllable; all sizes.", "anchors": ["boofcpp-jni/src/main/cpp/NativeImageBlurOps.cpp:8-70", "boofcpp-jni/src/main/java/org/boofcpp/convolve/NativeImageBlurOps.java:18-44"]}
{"id": "C93", "title": "Gaussian blur called from Java", "statement": "As C92 with the rounded means weighted by the integer Gaussian kernel. The kernel has 2*radius+1 elements, or a width that follows from sigma if the radius is not positive; if sigma is not positive it follows from the radius.", "quantifier": "all images, sub-images, sigma and radius of which one is positive, kernels up to 83886 elements; over real numbers", "why_tests_cant": "All sizes and parameters.", "anchors": ["boofcpp-jni/src/main/cpp/NativeImageBlurOps.cpp:8-70", "boofcpp-jni/src/main/java/org/boofcpp/convolve/NativeImageBlurOps.java:18-44"]}
{"id": "C94", "title": "Failures of blurring are reported to Java", "statement": "When blurring or a normalized convolution refuses its arguments, Java sees an exception. Violated: the C++ exception leaves the native code (mean radius 0, Gaussian without sigma and radius, output of another size); negative mean radii are taken as large positive ones, Gaussian radii from 2^30 overflow.", "quantifier": "all arguments", "why_tests_cant": "The virtual machine ends instead of a test failing.", "anchors": ["boofcpp-jni/src/main/cpp/NativeImageConvolveNormalized.cpp:10-67", "boofcpp-jni/src/main/java/org/boofcpp/convolve/NativeImageConvolveNormalized.java:19-36", "boofcpp-jni/src/main/cpp/NativeImageBlurOps.cpp:8-70", "boofcpp-jni/src/main/java/org/boofcpp/convolve/NativeImageBlurOps.java:18-44"]}
{"id": "C95", "title": "Two line convolutions equal one square convolution", "statement": "Convolving with a line kernel along rows and the result with a line kernel along columns (or columns first) gives at every pixel the value of the two-dimensional convolution with the product kernel, borders included, for the extend, reflect and wrap borders and the constant border 0. For another constant the second pass pads with the constant instead of the sum, and the results differ (witness).", "quantifier": "all images, sub-images, kernels of equal width and offset whose exact sums fit 32 bits, integer pixel types up to 32 bits", "why_tests_cant": "All kernels, sizes and borders; tests compare single sizes and kernels.", "anchors": ["boofcpp/src/boofcv/convolve.h:1045-1090"]}
{"id": "C96", "title": "Ownership of growable arrays", "statement": "Programs that create, resize, fill, read, assign and destroy growable arrays run without undefined behaviour: assignment copies the elements (also to itself), every other call changes one array only, and the memory blocks in existence are exactly those of the living arrays, so nothing is leaked or freed twice. Copy construction is the exception: it shares the memory of the original, so destroying both frees it twice and resizing the original leaves the copy dangling, and assigning the original to its copy is undefined (witnesses); a copied kernel contains such a copy.", "quantifier": "all programs over any number of arrays, all element types, all sizes and arguments the C++ types allow", "why_tests_cant": "Ownership depends on the order of all calls on all objects of a program; a double free need not show up in a test.", "anchors": ["boofcpp/src/boofcv/base_types.h:65-193", "boofcpp/src/boofcv/convolve_kernels.h:19-31"]}
{"id": "C97", "title": "Kernels as containers", "statement": "A kernel constructed with a width, or from lists, and then reshaped, written, assigned and filled in any order always has exactly width (line) or width*width (square) coefficients; checked access reaches exactly these and throws elsewhere; new kernels are zero, assignment copies width, offset and coefficients, reshape keeps the leading coefficients. Sum and extrema of integer kernels are exact; the extrema of absolute values are unless the smallest value of the type occurs (witnesses: 16 bits wrong result, 32 bits undefined). Violated at the edges (witnesses): a kernel constructed without arguments has width 0 but ten coefficients, reshape accepts an offset outside the kernel, a square kernel of width 65536 has no coefficients, reshaping a square kernel moves coefficients to other places.", "quantifier": "all constructors, all histories of calls, all element types, square kernels of width below 65536", "why_tests_cant": "All histories and widths; tests construct a few kernels once.", "anchors": ["boofcpp/src/boofcv/convolve_kernels.h:14-213"]}
{"id": "C98", "title": "Random kernels", "statement": "Filling a kernel with random numbers replaces all its coefficients, in order, by the numbers the generator yields and changes nothing else, so all coefficients lie in the range of the generator; for integers that is the range from the minimum to the maximum, the latter excluded. Equal limits are not refused although the generator is not defined for an empty range (witness).", "quantifier": "all kernels with any history, all generators, all integer limits of the type", "why_tests_cant": "All generators and kernels; a test sees one sequence of numbers.", "anchors": ["boofcpp/src/boofcv/convolve_kernels.h:426-478"]}
{"id": "C99", "title": "Comparing images", "statement": "Two images pass the comparison exactly if they have the same size and no two pixels differ by more than the tolerance; the comparisons of the border and of the inside do the same for the pixels near the sides and away from them, and the printed picture marks exactly the pixels that differ. Violated (witnesses): with a border wider than the image different images pass and a comparison of no pixels fails; 32-bit pixels far apart overflow; a float image with an infinite pixel does not equal itself.", "quantifier": "all images and sub-images of any size, integer types, tolerances and borders not wider than the image; any comparison of single pixels", "why_tests_cant": "The tests themselves rest on these comparisons; a comparison that accepts too much hides errors from every test.", "anchors": ["boofcpp/src/boofcv/testing_utils.h:26-89", "boofcpp/src/boofcv/print_structures.h:9-23"]}
{"id": "C100", "title": "Sub-images for tests", "statement": "The helper that turns an image into an equal sub-image returns a well-formed sub-image of the same size with the same pixels, inside a larger image that is zero everywhere else.", "quantifier": "all images and sub-images whose enlarged size fits 32 bits", "why_tests_cant": "All sizes and layouts; tests of sub-images rest on it.", "anchors": ["boofcpp/src/boofcv/testing_utils.h:9-24"]}
{"id": "C101", "title": "Memory of packed sets", "statement": "A program that never copies a packed set never frees a block twice and never touches freed memory; its packed sets behave as independent lists of lists, each object has one array of pointers and exactly the blocks that the largest number of elements it has held so far needs, and destroying an object releases all of them. Violated (witnesses): copying a packed set (by value, or into a vector) frees its blocks twice; assigning one loses the blocks of the target and leaves both unusable after one is destroyed; the constructor accepts a block size of zero and the first element is then a division by zero.", "quantifier": "all programs (sequences of constructions, calls and destructions of any number of packed sets) whose sets stay below 2^32 elements, all positive block sizes and element types", "why_tests_cant": "Ownership is a property of all histories; a leak or a double free is not visible in the results a test compares.", "anchors": ["boofcpp/src/boofcv/packed_sets.h:51-191"]}
{"id": "C102", "title": "Distances of floating point points", "statement": "The squared distance of two points with float or double coordinates does not depend on which point is asked (bit for bit, also for infinities and not-a-number) and is +0 from a point to itself. Between points with integer coordinates it is exact up to 2^24 (float) or 2^53 (double). In general it differs from the exact value by at most four relative rounding errors and a multiple of the smallest number, unless it comes within a factor two of overflow. It is not a faithful test of equality or of nearness: different points can have distance zero, and of two points the nearer one can be reported as the farther one.", "quantifier": "all pairs of points with float or double coordinates", "why_tests_cant": "There are 2^128 pairs of float points; rounding and underflow show at few of them", "anchors": ["boofcpp/src/boofcv/geometry_types.h:31-39", "boofcpp/src/boofcv/base_types.h:50-59"]}
{"id": "C103", "title": "Accuracy of convolution of float images", "statement": "Convolving a float or double image (horizontally, vertically or with a square kernel, with any border) gives at every pixel the exact sum of products up to an error that is proportional to the sum of the magnitudes of the products at that pixel: n coefficients cost a factor (1+u)^(n+1)-1 with u=2^-24 or 2^-53, plus n times the underflow error. No pixel becomes infinite or not-a-number as long as the magnitudes stay below overflow. The bits of the result are those of the left-to-right sum of rounded products.", "quantifier": "all images, kernels and borders of float or double numbers, all pixels", "why_tests_cant": "A test compares with a tolerance at a few inputs; the worst rounding errors and cancellations are not among them", "anchors": ["boofcpp/src/boofcv/convolve.h: ConvolveImage::horizontal, ConvolveNaive::horizontal, ConvolveImage_Inner::horizontal, ConvolveImage_Border::horizontal", "boofcpp/src/boofcv/convolve.h: ConvolveImage::vertical, ConvolveNaive::vertical, ConvolveImage_Inner::vertical, ConvolveImage_Border::vertical", "boofcpp/src/boofcv/convolve.h: ConvolveImage::convolve, ConvolveNaive::convolve, ConvolveImage_Inner::convolve, ConvolveImage_Border::convolve"]}
{"id": "C104", "title": "Convolution of integers stored as floats", "statement": "If the pixels, the border value and the coefficients of a float or double image and kernel are integers and the products at a pixel cannot sum to more than 2^24 (float) or 2^53 (double) in magnitude, convolution gives exactly the integer result, the same as the integer versions. The limit is sharp: at 2^24+1 the float version differs from the 32-bit integer version.", "quantifier": "all images, kernels and borders of integer-valued floats or doubles", "why_tests_cant": "Equality of two implementations over all images and kernels; the limit depends on the order of the sums", "anchors": ["boofcpp/src/boofcv/convolve.h: ConvolveImage::horizontal, ConvolveNaive::horizontal, ConvolveImage_Inner::horizontal, ConvolveImage_Border::horizontal", "boofcpp/src/boofcv/convolve.h: ConvolveImage::vertical, ConvolveNaive::vertical, ConvolveImage_Inner::vertical, ConvolveImage_Border::vertical", "boofcpp/src/boofcv/convolve.h: ConvolveImage::convolve, ConvolveNaive::convolve, ConvolveImage_Inner::convolve, ConvolveImage_Border::convolve"]}
{"id": "C105", "title": "Accuracy of normalized convolution of float images", "statement": "ConvolveNormalized::horizontal/vertical on float and double images give at every pixel the exact weighted mean of the pixels under the part of the kernel inside the image, up to (6n+4)uM + (2n/w+1)t for n non-negative coefficients, pixels of magnitude at most M, weight w inside the image, u=2^-24 or 2^-53, t the underflow error. No pixel becomes infinite or not-a-number. Exactness is not to be expected: a constant image is changed.", "quantifier": "all float and double images, all kernels of non-negative coefficients without overflow, all pixels and all three code paths", "why_tests_cant": "Tests compare with a tolerance at random inputs; the worst case of the roundings of two sums and a quotient is not among them.", "anchors": ["boofcpp/src/boofcv/convolve.h: ConvolveNormalized::horizontal, ConvolveNormalized::vertical, ConvolveNormalizedNaive, ConvolveNormalized_JustBorder, ConvolveImage_Inner"]}
{"id": "C106", "title": "Accuracy of the Gaussian blur of float images", "statement": "ConvolveNormalized::convolve and BlurImageOps::gaussian on float and double images give at every pixel the exact weighted mean (along the column) of the exact weighted means (along the rows), up to the sum of the errors of the two passes; the output and the work image are reshaped as needed. No pixel becomes infinite or not-a-number.", "quantifier": "all float and double images, outputs and work images, all kernels of non-negative coefficients whose weight inside the image stays in a range without overflow", "why_tests_cant": "Two passes through a work image with three code paths each; the propagation of the rounding errors of the first through the second cannot be sampled.", "anchors": ["boofcpp/src/boofcv/convolve.h: ConvolveNormalized::convolve", "boofcpp/src/boofcv/image_blur.h: BlurImageOps::gaussian"]}
{"id": "C107", "title": "Accuracy of the mean blur of float images", "statement": "The mean filter on float and double images gives at every pixel the exact mean of the pixels of the window inside the image, up to an error relative to the largest magnitude M of the image: ((1+u)^(2x+2)-1)M + t at position x of the line where the window is inside the image, (6w+4)uM + (4w^2+1)t at the ends of the line and for images smaller than the window of width w. The two passes of BlurImageOps::mean add their errors. The error grows with the position along the line and cannot be bounded by the pixels of the window: after a pixel 2^24 a window of ones gets a mean below 0.34.", "quantifier": "all float and double images, all radii without overflow, all pixels", "why_tests_cant": "The running total accumulates rounding errors along the whole line; tests use short lines of random values.", "anchors": ["boofcpp/src/boofcv/image_blur.h: ConvolveImageMean::horizontal, ConvolveImageMean::inner_horizontal", "boofcpp/src/boofcv/image_blur.h: ConvolveImageMean::vertical, ConvolveImageMean::inner_vertical", "boofcpp/src/boofcv/image_blur.h: BlurImageOps::mean"]}
{"id": "C108", "title": "Statistics of float images", "statement": "On float and double images without infinities and not-a-numbers: ImageStatistics::min returns a pixel value that no pixel is below; max returns the largest pixel unless all pixels are below the smallest positive normal number (2^-126, 2^-1022), which is returned then; sum differs from the exact sum by at most ((1+u)^n-1) times the sum of magnitudes of the n pixels; mean differs from the exact mean by at most ((1+u)^(n+3)-1) times the mean magnitude plus t. Neither overflows when the magnitudes stay in the range stated. The mean of a constant image can differ from the constant (7 pixels 8388610 give 8388609) and the minimum of an image of infinities is a finite number.", "quantifier": "all float and double images, subimages included for sum and mean, all sizes", "why_tests_cant": "Rounding accumulates over all pixels and depends on their order; extremes start from numeric_limits, whose min() is a positive number for float types.", "anchors": ["boofcpp/src/boofcv/image_statistics.h: ImageStatistics::min, max, sum, mean"]}
{"id": "C109", "title": "Convolution with a divisor and without border handling", "statement": "ConvolveImage_Inner (horizontal, vertical, 2D; with and without divisor) writes exactly the output pixels at which the whole kernel lies inside the image, with the weighted sum of the pixels under the kernel, and leaves every other pixel and all memory outside the output window as it was; ConvolveNaive with a divisor writes all pixels. With a divisor d an integer result is the exact sum plus d/2, divided by d towards zero and reduced to the pixel type: the nearest integer to the quotient for sums that are not negative, not for negative sums (-5/3 gives -1). A float or double result is the exact quotient up to a stated rounding error. A zero divisor and, for the inner functions, a kernel wider than the image by two or more are not rejected and lead to undefined behaviour.", "quantifier": "all images and output windows of equal size, all kernels that fit, all divisors, all pixel types without overflow", "why_tests_cant": "Tests compare the optimised with the naive version on random images of one size; a wrong offset at the ends of rows of sub-images, a write outside the window or the rounding of negative sums go unnoticed.", "anchors": ["boofcpp/src/boofcv/convolve.h: ConvolveNaive::horizontal, vertical, convolve (divisor versions)", "boofcpp/src/boofcv/convolve.h: ConvolveImage_Inner::horizontal, vertical, convolve"]}
{"id": "C110", "title": "Local mean threshold of float images", "statement": "Thresholding a float or double image by local means sets each output pixel to 0 or 1, leaves memory outside the output window alone, and decides as exact arithmetic would - the pixel compared with the scaled arithmetic mean of all pixels of the square around it that lie in the image - at every pixel that is farther from the scaled mean than a stated rounding bound. Nothing becomes infinite as long as the sums stay below overflow. A user also relies on a pixel depending on its square only: violated, a pixel that is not a number changes decisions in the rest of its row.", "quantifier": "all float and double images, region widths, scales, directions and storage images", "why_tests_cant": "Tests compare with a reference on random values in a small range, where the rounding of the running sums stays invisible; the bound for long rows and the poisoning of a row need a proof.", "anchors": ["boofcpp/src/boofcv/binary_ops.h: ThresholdOps::localMean", "boofcpp/src/boofcv/image_blur.h: BlurImageOps::mean"]}
{"id": "C111", "title": "Block thresholds of float and double images: rounding errors", "statement": "When a float or double image of finite numbers is thresholded by blocks, the mean variant classifies a pixel as the exact mean of the scaled means of the blocks around it demands, unless the pixel is closer to that level than a bound that grows with the number of pixels per block times the unit of rounding. The min-max variant sets every pixel of a region whose range does not exceed minimumSpread, and in a region whose range clearly exceeds it compares the pixel with the scaled middle of the exact range, up to a few roundings, provided the region has a value of at least the smallest positive number of full precision. Memory outside the output's window is not changed. Within the bound the decision may be wrong: in a constant image all pixels can be found to be above the mean.", "quantifier": "all finite images and scales without overflow, all block sizes, views included", "why_tests_cant": "The bound must hold for all pixel values and sizes; tests compare with the same rounded arithmetic.", "anchors": ["boofcpp/src/boofcv/threshold_block_filters.h:202-273 ThresholdBlockMean", "boofcpp/src/boofcv/threshold_block_filters.h:424-500 ThresholdBlockMinMax"]}
{"id": "C112", "title": "Otsu thresholds with real doubles", "statement": "Computed with IEEE doubles, Otsu's threshold is always defined and is a split of the histogram whose between-class separation is within an explicit rounding bound of the best one; if the best split wins by more than the bound it is the one returned. The variant returns, within half a unit and an explicit rounding bound, the middle between the class means of such a split. The same holds for thresholds computed from images, and the binary image applies that threshold.", "quantifier": "all histograms with up to 2^31 bins (65536 for the variant) and less than 2^32 entries, all images and value ranges", "why_tests_cant": "Rounding errors accumulate over bins in ways that depend on all counts; a test compares a few histograms.", "anchors": ["boofcpp/src/boofcv/binary_ops.cpp:97-193", "boofcpp/src/boofcv/binary_ops.h:111-123", "boofcpp/src/boofcv/binary_ops.h:245-261"]}
{"id": "C113", "title": "Objects that wrap memory of the caller are windows into it", "statement": "A Gray or Interleaved image constructed on memory of the caller, and a GrowArray constructed on foreign memory, are views of exactly the elements the arguments describe. After any history of writes, reshapes, copies, fills and assignments, pixel (x,y) is the element at offset + y*stride + x (plus x*bands + band), elements outside the window keep the values the caller gave them, isInBounds tells exactly when at does not throw, and every call that would need another shape or size throws and changes nothing. The constructor does not compare the window with the length it is given: all pixels can be read exactly when the last row ends inside the memory.", "quantifier": "all element types, all memories, all windows that fit, all histories of calls", "why_tests_cant": "The memory outside the window, the strides and offsets, and the histories of calls are unbounded; an overrun by one element in a rare combination goes unnoticed unless that very element is compared.", "anchors": ["boofcpp/src/boofcv/image_types.h:60-62", "boofcpp/src/boofcv/image_types.h:100-108", "boofcpp/src/boofcv/image_types.h:150-188", "boofcpp/src/boofcv/image_types.h:352-361", "boofcpp/src/boofcv/image_types.h:379-461", "boofcpp/src/boofcv/base_types.h:81-86", "boofcpp/src/boofcv/base_types.h:123-192"]}
{"id": "C114", "title": "Kernels made and normalised with real floats", "statement": "Computed with IEEE floats or doubles: the largest and smallest coefficient of a kernel are coefficients with no other beyond them, the absolute extremes are the magnitudes of coefficients with no other beyond them, and all four throw for a kernel without elements; the sum is within an explicit rounding bound; normalising a smoothing kernel gives coefficients in the same proportions that add up to one, each within an explicit bound; every coefficient of a mean kernel is the float nearest to one over the width, up to the width at which a float stops counting; Gaussian kernels are bit for bit symmetric and add up to one within an explicit bound, whatever exp of the library returns.", "quantifier": "all kernels of numbers of type float or double, all widths up to 2^20 (normalisation) and 2^24 or 2^53 (mean), all sigmas, all functions exp", "why_tests_cant": "Rounding depends on every coefficient and on the order of the additions; a test compares a few kernels up to a tolerance.", "anchors": ["boofcpp/src/boofcv/convolve_kernels.h:52-102", "boofcpp/src/boofcv/convolve_kernels.h:227-265", "boofcpp/src/boofcv/convolve_kernels.h:309-329", "boofcpp/src/boofcv/convolve_kernels.h:376-380"]}
{"id": "C115", "title": "Thresholding images of floats from Java", "statement": "The output gets the size of the input and only its pixels change; the arrays of floats do not change and all arrays are given back. The threshold, a double, becomes the nearest float. Every pixel that is a number is then put on the side of the double on which it lies, except a pixel equal to that float, which counts as at most the threshold. So a pixel above the threshold can be marked as at most the threshold, for example the float nearest to 0.1 with threshold 0.1. Infinities and NaN are compared as IEEE prescribes. Local means: every pixel is 0 or 1 and is the right one unless it is so close to the scaled mean of its square that rounding can tip the decision. If a filter refuses its arguments Java is not told, an array is never given back and the next call is undefined.", "quantifier": "all images, sub-images and arrays; all finite thresholds up to the largest float in magnitude; local means without overflow; in IEEE arithmetic", "why_tests_cant": "All pixel values and thresholds. The pixel that goes wrong is a single float for each threshold; whether an array is given back cannot be seen from one call.", "anchors": ["boofcpp-jni/src/main/cpp/NativeGlobalFixed.cpp:10-75", "boofcpp-jni/src/main/cpp/NativeLocalMean.cpp:10-75", "boofcpp-jni/src/main/cpp/JNIBoofCPP.cpp:356-365"]}
{"id": "C116", "title": "Convolution of images of floats from Java", "statement": "The output gets the size of the input. Every pixel is, bit for bit, the sum of the products of coefficients and samples in IEEE arithmetic, left to right and top to bottom, starting from +0. Samples outside the image follow the border rule. Nothing else changes and all arrays are given back. Borders other than zero, extend, reflect and wrap are refused with an exception. Images of doubles end in undefined behaviour rather than an exception. The rule for columns is ignored.", "quantifier": "all images and sub-images with sides up to 2^30, all kernels with the offset inside, all values including infinities and NaN", "why_tests_cant": "All sizes, kernels, borders and float values; the order of additions matters in the last bits.", "anchors": ["boofcpp-jni/src/main/cpp/NativeImageConvolve.cpp:78-96", "boofcpp-jni/src/main/cpp/NativeImageConvolve.cpp:141-159", "boofcpp-jni/src/main/cpp/NativeImageConvolve.cpp:204-222", "boofcpp-jni/src/main/cpp/JNIBoofCPP.cpp:388-449", "boofcpp-jni/src/main/java/org/boofcpp/convolve/NativeConvolveImage.java:19-85"]}
{"id": "C117", "title": "Normalized convolution and blur of images of floats from Java", "statement": "Normalized convolution gives the weighted mean of the samples inside the image, mean blur the mean of the square around the pixel, Gaussian blur the weighted means of the rows and then of the columns, each up to an explicit rounding error. This holds with and without a storage image, and whether or not the virtual machine copies arrays. Only the output and the storage change and all arrays are given back. A radius of 0 and an output of another size end in undefined behaviour rather than an exception.", "quantifier": "all images, sub-images, radii and non-negative kernels without overflow; image narrower than the window or at least as high for the mean; in IEEE arithmetic", "why_tests_cant": "All sizes and values; whether the virtual machine copies arrays is not controllable.", "anchors": ["boofcpp-jni/src/main/cpp/NativeImageBlurOps.cpp:29-83", "boofcpp-jni/src/main/cpp/NativeImageConvolveNormalized.cpp:30-79", "boofcpp-jni/src/main/java/org/boofcpp/convolve/NativeImageBlurOps.java:18-43"]}
{"id": "C118", "title": "The contours determine the image", "statement": "With default limits, the points of all contours together are exactly the foreground pixels that have a background neighbour (over a side for the 8-connected rule, over a side or corner for the 4-connected rule). Two binary images, of whatever sizes, for which the detector reports the same blobs and the same point sets have the same foreground: a program may keep the contours and drop the image. The division into outer and inner contours is needed for this: the union of all points does not determine the image.", "quantifier": "all binary images and sub-images of representable size, both rules, all past uses of the detectors", "why_tests_cant": "Quantifies over pairs of images; no finite set of pictures shows that no two different ones have equal contours.", "anchors": ["boofcpp/src/boofcv/contour.cpp:269-374 LinearContourLabelChang2004::process, handleStep1-3", "boofcpp/src/boofcv/contour.cpp:93-232 ContourTracer::trace"]}
{"id": "C119", "title": "A threshold followed by the search for contours", "statement": "Thresholding a gray image and searching the result for contours succeeds, and the labels number the connected parts of the set of pixels of the original image that lie on the chosen side of the threshold: 0 elsewhere, equal numbers exactly within a part, one contour per part, in the order of their first pixels. From Java this holds for every filter that makes a binary image and for a finder of any settings and past: the first call leaves behind what the second one needs, the original image is unchanged, the binary image still holds the result of the threshold afterwards, the three images use three different arrays (even if results had to be given new ones), all arrays are given back and no other array changes.", "quantifier": "all images and sub-images of representable size, all thresholds and directions, both rules, all past uses of the finder, all result images that have the size or can get it", "why_tests_cant": "Quantifies over pictures, states of the virtual machine and pasts of the finder; that two calls fit together for all of them is not visible from either call's tests.", "anchors": ["boofcpp/src/boofcv/binary_ops.h:136-160 ThresholdOps::threshold", "boofcpp/src/boofcv/contour.cpp:269-374 LinearContourLabelChang2004::process", "boofcpp-jni/src/main/java/org/boofcpp/threshold/NativeGlobalFixed.java", "boofcpp-jni/src/main/java/org/boofcpp/contour/NativeChang2004.java:21-52"]}
{"id": "C120", "title": "The order of the points of contours", "statement": "The sets of points are numbered in the order in which their beginnings are met when the image is read row by row: external contours begin at the first pixel of a blob, internal ones at the blob's pixel above the first pixel of a hole, and at one and the same pixel the external contour comes first. The points of a set come in one fixed order, the round with the hand on the wall: one looks around clockwise, at the beginning from the background pixel above (external) or below (internal), later from the left of the direction in which one came, goes to the first foreground pixel seen, and stops when about to leave the first pixel in the first direction again. There is only one such round. The internal contours of a blob are listed in ascending order and are those whose beginning carries the blob's label. Hence the same foreground at another place, in an image of another size, gives the same labels, contours and points, moved to that place, however differently the finders were used before. The same holds for what Java receives.", "quantifier": "all binary images and sub-images of representable size, both rules, all limits, all past uses of the finder, all displacements", "why_tests_cant": "A test compares point lists of a few pictures; that the order is this one for every picture, that a pixel passed several times is listed at the right places and that nothing depends on the position or the size of the image concerns all pictures.", "anchors": ["boofcpp/src/boofcv/contour.cpp:93-225 ContourTracer::trace, searchBlack, moveToNext", "boofcpp/src/boofcv/contour.cpp:269-374 LinearContourLabelChang2004::process", "boofcpp-jni/src/main/java/org/boofcpp/contour/NativeChang2004.java:21-52"]}
{"id": "C121", "title": "Output images that share memory with the input", "statement": "Thresholding an 8-bit image (fixed, Otsu, local mean) gives the result of the same call on separate copies whenever no output pixel lies in the place of an input pixel that comes later in reading order: in place, with other memory, and from a sub-image into the image that it is part of. The three block filters do so whenever shared places belong to the same pixel of both images, in particular in place; mean and Gaussian blur, of integers or floats, for any overlap of input and output. Erosion and dilation do so for images without a common pixel. Outcomes that are exceptions or undefined are the same as with copies too, and memory of other images is not touched. An output shifted against its input spoils a threshold; erosion and dilation in place give other results than with copies.", "quantifier": "all heaps, objects, images, thresholds, arithmetics, block sizes, kernels", "why_tests_cant": "Whether a read sees an earlier write depends on the relative position of two windows of one buffer; tests use separate images or one in-place call.", "anchors": ["boofcpp/src/boofcv/binary_ops.h:136-211", "boofcpp/src/boofcv/binary_ops.cpp:42-85", "boofcpp/src/boofcv/threshold_block_filters.h:69-500", "boofcpp/src/boofcv/image_blur.h:217-251", "boofcpp/src/boofcv/image_types.h:150-194"]}
{"id": "C122", "title": "Java threshold filters on images with a common array", "statement": "A Java program may call each of the six threshold filters for 8-bit images with one image as input and output: the output pixels are what the filter makes of the image as it was before the call, and the outcome does not depend on whether the virtual machine hands out the arrays themselves or copies. For the fixed, Otsu and local mean thresholds the same holds whenever no output pixel lies in the place of a later input pixel, for example for a window of an image whose result goes into that image. Other arrays keep their elements. For an output window shifted against the input window in the same array the outcome depends on the virtual machine.", "quantifier": "all virtual machine states, images, windows, settings, and both ways of handing out each array", "why_tests_cant": "A test runs on one virtual machine, which hands out arrays in one way, and on few positions of windows.", "anchors": ["boofcpp-jni/src/main/cpp/NativeGlobalFixed.cpp:42-80", "boofcpp-jni/src/main/cpp/NativeLocalMean.cpp", "boofcpp-jni/src/main/cpp/NativeBlockMean.cpp", "boofcpp-jni/src/main/cpp/NativeBlockMinMax.cpp", "boofcpp-jni/src/main/cpp/NativeBlockOtsu.cpp", "boofcpp-jni/src/main/cpp/NativeGlobalOtsu.cpp", "boofcpp/src/boofcv/binary_ops.h:136-283"]}
{"id": "C123", "title": "Java blur on images with a common array", "statement": "A Java program may blur an 8-bit image, with the mean or the Gaussian blur, into any image in the same array, even into the image itself or into a window that overlaps it. The output pixels are the blur of the image as it was before the call, whether or not the virtual machine hands out copies of the arrays. The storage needs an array of its own or may be absent. All arrays other than those of output and storage keep their elements, and so do the elements of the output array outside an output window of the right size.", "quantifier": "all virtual machine states, images, windows, radii, sigmas, and both ways of handing out each array", "why_tests_cant": "A test runs on one virtual machine and on few positions of windows.", "anchors": ["boofcpp-jni/src/main/cpp/NativeImageBlurOps.cpp:8-70", "boofcpp-jni/src/main/java/org/boofcpp/convolve/NativeImageBlurOps.java:18-44", "boofcpp/src/boofcv/image_blur.h:209-251"]}
{"id": "C124", "title": "Otsu's threshold on images of floats", "statement": "On an image of float or double pixels between 0 and a maximum below 16777215, the Otsu filter with minimum 0 never reads or writes out of bounds. It counts the pixels per unit interval [i,i+1), with one interval for each whole number up to the maximum and at most one more, and takes as threshold the number of an interval such that no other split of these counts separates better by more than the bound of C112. A pixel is marked when it is at most this whole number, or above it for the other direction. For images of whole numbers the two classes of the split are told apart. For other images they are not: pixels of the low class may lie above the threshold, so that an image with two clear classes can become constant. The same happens with a minimum other than 0. A pixel that is not a number, or one above the maximum by a unit or more, is undefined behaviour. From Java the filter does the same with minimum and maximum rounded to floats.", "quantifier": "all images and windows of floats and doubles, all maxima, both directions, all Java virtual machine states", "why_tests_cant": "The repository tests Otsu on few integer images. The effect of fractions, of rounding in the number of bins and of values outside the range needs an argument about all floats.", "anchors": ["boofcpp/src/boofcv/image_statistics.h:62-74", "boofcpp/src/boofcv/binary_ops.h:111-123", "boofcpp/src/boofcv/binary_ops.h:245-261", "boofcpp-jni/src/main/cpp/NativeGlobalOtsu.cpp:7-22"]}
{"id": "C125", "title": "Otsu's threshold by blocks in double precision", "statement": "The block Otsu filter with tuning 0 and scale 1 never reads or writes out of bounds, and the rounding of doubles does not spoil its choice. For an 8-bit image, and for an image of floats or doubles from 0 up to but not including 256, every region is given a threshold that splits its own pixel counts so that no other split separates better by more than the bound of C112; the variant with two means is given a whole number near the middle of the two class means of such a split. Pixels of floats are counted and compared by their whole part, so the two classes are told apart also for fractions, unlike in C124. A pixel of an image of floats that is not a number, or is 256 or -1, is undefined behaviour, whatever the other pixels are.", "quantifier": "all images and windows, all widths that fit, local or not, both directions, both variants, any earlier use of the filter object", "why_tests_cant": "The repository compares single regions of integer images with another implementation. That rounding in the sums of 256 bins never leads to a clearly worse threshold needs an error analysis over all histograms.", "anchors": ["boofcpp/src/boofcv/threshold_block_filters.h:290-394", "boofcpp/src/boofcv/threshold_block_filters.h:330", "boofcpp/src/boofcv/threshold_block_filters.h:388"]}
{"id": "C126", "title": "Block filters on images of floats called from Java", "statement": "A Java program that applies the mean, min-max or Otsu block filter to an image of floats gets in the output image the result of C111 and C125, with the scale and the spread of mean and min-max rounded to floats. Only the window of the output changes; it is 0 or 1 everywhere; all arrays are given back; the filter object can be used again. A new object is ready for use. A block wider than the image is refused in C++, but Java is not told: the input array is not given back and the next call is undefined behaviour.", "quantifier": "all states of the Java virtual machine, images and windows of floats, all lengths and fractions for the width, all parameters, any earlier use of the filter object", "why_tests_cant": "There are no tests of these calls in the repository, and the bounds on rounding hold for all images at once.", "anchors": ["boofcpp-jni/src/main/cpp/NativeBlockMean.cpp:7-82", "boofcpp-jni/src/main/cpp/NativeBlockMinMax.cpp:7-83", "boofcpp-jni/src/main/cpp/NativeBlockOtsu.cpp:7-82", "boofcpp-jni/src/main/cpp/JNIBoofCPP.cpp:356-365"]}
{"id": "C127", "title": "Text of integer images and kernels", "statement": "Printing an integer image writes a line with its width and height, one line per row and an empty line. A row holds, between brackets, one word per pixel: the pixel in hexadecimal with at least two digits, negative pixels modulo 2^32. Two images of the same pixel type have the same text exactly if they have the same size and the same pixels; stride, offset and padding do not show. Printing an integer kernel writes all of its coefficients in decimal, in order, for a 2D kernel one line per row after a line with offset and width. A width of 2^31 or more is written as a negative number.", "quantifier": "all integer images and windows with pixels of at most 32 bits, all kernels with coefficients that fit a 32-bit signed integer", "why_tests_cant": "The functions write to standard output and no test reads it back; that no two images share a text is a claim on all pairs of images.", "anchors": ["boofcpp/src/boofcv/print_structures.h:25-37", "boofcpp/src/boofcv/print_structures.h:53-61", "boofcpp/src/boofcv/print_structures.h:73-84"]}
{"id": "C128", "title": "Text of images and kernels of floats", "statement": "Printing an image or kernel of floats or doubles writes, in the layout of C127, one word per value that reads back as a number within a relative error of 1/20000 of the value. Every finite value is covered, subnormal ones included. Unlike integer images, two different images can have the same text.", "quantifier": "all images, windows and kernels with finite values in single or double precision", "why_tests_cant": "The functions write to standard output and no test reads it back; the bound is on all floats and doubles.", "anchors": ["boofcpp/src/boofcv/print_structures.h:39-51", "boofcpp/src/boofcv/print_structures.h:63-71", "boofcpp/src/boofcv/print_structures.h:86-97"]}
{"id": "C129", "title": "Convolution into an image that shares memory with the input", "statement": "Convolving an image of integers or floats horizontally, vertically or with a square kernel gives the result of the same call on separate copies whenever no place in memory belongs to a pixel of both images, for example from one window of an image into another window of it that does not overlap. Exceptions are the same as with copies too, and the memory of other images is not touched. An image cannot be convolved in place: for each of the three functions there is an image whose result differs from that with copies.", "quantifier": "all images of every pixel type, all kernels, all four borders (as far as the kernel reaches no further than the border supports), all arithmetics of pixels and sums, all pairs of images without a common pixel", "why_tests_cant": "The tests use separate images. Whether a write is seen by a later read depends on sizes, strides, offsets, kernel and border at once.", "anchors": ["boofcpp/src/boofcv/convolve.h:24-210", "boofcpp/src/boofcv/convolve.h:595-895", "boofcpp/src/boofcv/convolve.h:904-1088"]}
{"id": "C130", "title": "Which native library is loaded", "statement": "Using the library from Java links at most one native library. The places are tried in a fixed order: the library path of Java, build/boofcpp-jni and ../build/boofcpp-jni on disk, then the directories /, /arm64-v8a and /armeabi-v7a of the jar, each with the endings .so, .dll and .dylib. If files can be made, read and written, the first place that has anything decides: it is linked if the machine accepts it, otherwise an UnsatisfiedLinkError leaves the initializer; if no place has anything there is a message and no exception. On any other machine at most one library is linked, from one of these places. It is false that a library the machine accepts is always found: one that it does not accept at an earlier place hides it, for example the 64-bit library of a jar for both ARM processors on a 32-bit machine.", "quantifier": "all contents of file system and jar, all machines including those where directories cannot be made and reads and writes fail at any point, all sizes of reads, all answers of the linker", "why_tests_cant": "Tests run on one machine with one layout of files; what happens with missing, broken or foreign libraries and failing file systems depends on combinations no test sets up.", "anchors": ["boofcpp-jni/src/main/java/org/boofcpp/BoofCPP.java:19-41", "boofcpp-jni/src/main/java/cz/adamh/utils/NativeUtils.java:62-169"]}
{"id": "C131", "title": "Loading the native library leaves nothing behind", "statement": "After any calls of setLibraryName, loadLocalPath, loadLibraryFromJar and loadlib, in any order and with any arguments, whatever they end with, all streams are closed, and once the process has ended every path of the file system is as it was before. Until then at most one new directory in the directory for temporary files and paths below it differ. On a POSIX file system not even paths below it: the copy of the library is deleted as soon as it is linked. Every call ends.", "quantifier": "all sequences of calls, all file systems and jars, POSIX or not, all machines where making directories, creating files, reading and writing may fail at any point", "why_tests_cant": "Leftovers show only after the process has ended, and only on the paths through failing reads, writes and links that tests do not reach.", "anchors": ["boofcpp-jni/src/main/java/cz/adamh/utils/NativeUtils.java:70-96", "boofcpp-jni/src/main/java/cz/adamh/utils/NativeUtils.java:125-213"]}
{"id": "C132", "title": "The native library that is linked is the one in the jar", "statement": "Copying a stream into a file is complete for all sizes of the pieces in which the stream delivers its bytes, or ends with an IOException after a failed read or write; both streams are closed and no other file changes. What loadLibraryFromJar links has, byte for byte, the contents of the resource with the name of the library in the directory asked for, and it returns true exactly when it has linked something.", "quantifier": "all contents, all sizes of pieces from one byte on, all points at which reading and writing may fail, all states reached by earlier calls, all paths", "why_tests_cant": "A stream may deliver its bytes in any pieces; tests see the pieces of one implementation and one size of library.", "anchors": ["boofcpp-jni/src/main/java/cz/adamh/utils/NativeUtils.java:81-96", "boofcpp-jni/src/main/java/cz/adamh/utils/NativeUtils.java:125-187"]}
{"id": "C133", "title": "Blur keeps order, brightness and orientation", "statement": "Mean and Gaussian blur treat related images alike. If no pixel of one image is brighter than that of another then this holds for the blurred images. If a constant is added to all pixels of an image of unsigned integers then the blurred image changes by this constant, without any rounding error. The blur of a mirrored image (left-right or top-bottom) is the mirrored blur; for the Gaussian this holds for odd widths, which all automatic widths are. Two things do not hold: exchanging rows and columns does not commute with the mean, because rows are rounded before columns; and in images of signed integers adding a constant can change the blurred image by another amount.", "quantifier": "all pairs of images of equal size and any layout, all radii, sigmas and widths for which sums do not overflow; order and mirrors of the mean for signed pixels too; Gaussian kernels over the real numbers", "why_tests_cant": "Each statement relates the results for two images. Rounding, clipped windows at the edges and the running sums of the mean could each break it for some images only.", "anchors": ["boofcpp/src/boofcv/image_blur.h:16-251", "boofcpp/src/boofcv/convolve.h:212-568", "boofcpp/src/boofcv/convolve_kernels.h:309-365"]}
{"id": "C134", "title": "Thresholds and brightness", "statement": "Binary images computed with automatic thresholds do not depend on overall brightness. If a constant is added to all pixels and no pixel leaves the range of its type, then thresholding by local means with scale 1 gives the same binary image, and so does Otsu's threshold over the range from 0, provided the image has two different values. Otsu's threshold depends only on how often each value occurs, in whatever arithmetic and for both variants. Mirroring the input mirrors the binary image, for both methods and any scale. Two things do not hold: an image of one value is all ones with Otsu if the value is 0 and all zeros if it is brighter; and with a scale other than 1 the local result depends on brightness.", "quantifier": "all pairs of images of 8 or 16 bit unsigned pixels that differ by a constant, all images of integers and their mirror images; any layout, region width, direction; brightness and Otsu in exact arithmetic, the rest in any arithmetic, IEEE included", "why_tests_cant": "Relates the results for two images for all images; rounding of means, ties between splits and float comparisons could each break it for some of them.", "anchors": ["boofcpp/src/boofcv/binary_ops.h:111-123", "boofcpp/src/boofcv/binary_ops.h:175-211", "boofcpp/src/boofcv/binary_ops.h:246-283", "boofcpp/src/boofcv/binary_ops.cpp:97-193"]}
{"id": "C135", "title": "Opening and closing binary images", "statement": "Erosion and dilation combine as expected. They keep inclusion between images; dilation of a union is the union of the dilations and erosion of an intersection is the intersection of the erosions. Erosion followed by dilation never sets a new pixel, and doing both again never adds and changes nothing at distance 3 from the edge. Dilation followed by erosion clears no pixel at distance 2 from the edge, and doing both again changes nothing anywhere. This needs output images without set pixels on the edge, such as new images. Three things do not hold: next to the edge a second opening clears more pixels and a closing clears set pixels, and with a reused output image an opening can set pixels, because the pixels on the edge of the output are left as they were.", "quantifier": "all binary images of any layout with sides of at most 2^31, all output images whose edge is clear", "why_tests_cant": "Relates sequences of up to four operations on arbitrary images; the exceptions near the edge only show on some of them.", "anchors": ["boofcpp/src/boofcv/binary_ops.cpp: erode4, dilate4"]}
{"id": "C136", "title": "Processing an image in parts", "statement": "A part of an image, whether a sub-image or a copy, can be processed on its own: away from the edges of the part that are not edges of the image, the result is the one for the whole image at the same place. This holds for the mean and Gaussian blur and for the threshold by local means at pixels whose neighbourhood lies in the part as far as it lies in the image; for erosion and dilation at pixels that are not on the edge of the part; and for convolution of every pixel type with every kind of border at pixels where the kernel lies in the part. With the whole image as the part, results do not depend on the layout in memory. Two things do not hold: next to an edge of the part the blur differs, and a local threshold with a region given as a fraction of the image's size uses another region for the part.", "quantifier": "all images, all parts, positions and layouts; all radii and kernels that fit without overflow, all borders, any comparison and arithmetic of the local threshold; Gaussian kernels in exact arithmetic", "why_tests_cant": "Relates the results for an image and for each of its parts, for all images, sizes and kernels.", "anchors": ["boofcpp/src/boofcv/image_blur.h", "boofcpp/src/boofcv/convolve.h", "boofcpp/src/boofcv/binary_ops.h:111-123", "boofcpp/src/boofcv/binary_ops.cpp: erode4, dilate4"]}
{"id": "C137", "title": "Convolution is linear", "statement": "The convolutions of integer images, with a row, a column or a square, are linear as long as no sum overflows. Convolving p times one image plus q times another gives p times the first result plus q times the second, reduced to the output type; the same holds for two kernels. A border value is combined in the same way. A kernel with a single one shows the image, extended by the border, shifted to that coefficient; with the one at the kernel's offset the result is the image itself. An image of one value gives that value times the sum of the coefficients. Turning image and kernel around turns the result around, for every kind of border. Two things do not hold: the kernel is not turned around as in a mathematical convolution, so a single bright pixel shows the kernel backwards; and normalized convolution of integers rounds and is not linear.", "quantifier": "all integer types of input and output, all pairs of images of any layout, all factors, all kernels and borders that fit, provided that sums do not overflow", "why_tests_cant": "Relates the results for three images or kernels, for all images, kernels and factors, including results that are reduced to a smaller type.", "anchors": ["boofcpp/src/boofcv/convolve.h: ConvolveImage", "boofcpp/src/boofcv/image_border.h"]}
{"id": "C138", "title": "Block thresholds do not depend on overall brightness", "statement": "Adding a constant to all pixels does not change the binary image that the block thresholds give, as long as the pixels stay within their type: the mean and the min-max threshold with scale 1, for images of 8 and 16 bits without sign, and both Otsu methods with scale 1 and no tuning wherever the blocks around each block have pixels of two values. This holds with and without the neighbouring blocks, up and down, whatever images the filter processed before. It fails with another scale, and for Otsu in a region of a single value: a black region and a grey one are given opposite results.", "quantifier": "all pairs of images that differ by a constant, of any layout and size, all block lengths that fit, all earlier states of the filter", "why_tests_cant": "Relates the results for two images, for all images, all constants and all partitions into blocks; a test has a few images.", "anchors": ["boofcpp/src/boofcv/threshold_block_filters.h: ThresholdBlockMean, ThresholdBlockMinMax, ThresholdBlockOtsu", "boofcpp/src/boofcv/binary_ops.h: ComputeOtsu"]}
{"id": "C139", "title": "Blobs and holes of related images", "statement": "The numbers of blobs and holes that the contour finder reports, and which pixels get a common label, behave as in geometry. Pixels with a common label keep one when foreground is added, and when eight neighbours are used instead of four; eight neighbours never give more blobs. Exchanging left and right, top and bottom, or rows and columns keeps which pixels have a common label and the numbers of blobs and holes. If the foreground does not reach the edge of the image, the holes are the blobs of the inverse image found with the other rule, except for the one that surrounds everything: their number is one less. This fails if both images are searched with the same rule, and if the foreground reaches the edge. The label of a blob may change when the image is reflected.", "quantifier": "all binary images of any size and layout, both rules, all settings and earlier uses of the finder", "why_tests_cant": "Relates two searches on all pairs of related images; the correspondence between holes and blobs is a statement about all shapes.", "anchors": ["boofcpp/src/boofcv/contour.cpp: LinearContourLabelChang2004::process", "boofcpp/src/boofcv/contour.h: LinearContourLabelChang2004"]}
{"id": "C140", "title": "Blobs on one side of a threshold", "statement": "Comparing an image of whole numbers with a threshold and searching the result for contours always succeeds. Blobs are nested: when the threshold moves so that more pixels are on its side, or the pixels move, pixels that had a common label keep one. Making the image and the threshold brighter by the same constant changes no label, contour or point. If no dark pixel is at the edge, the holes in the dark blobs are the bright blobs found with the other rule, except for the one that surrounds everything, and the other way round. The number of blobs itself may rise and fall as the threshold rises.", "quantifier": "all images, thresholds, both directions, both rules, all settings and earlier uses of the finder", "why_tests_cant": "Relates the results of two operations for all pairs of images and thresholds.", "anchors": ["boofcpp/src/boofcv/binary_ops.h: ThresholdOps::threshold", "boofcpp/src/boofcv/contour.cpp: LinearContourLabelChang2004::process"]}
{"id": "C141", "title": "Blobs and holes after erosion and dilation", "statement": "With an output image whose edge is blank, dilating a binary image never increases the number of blobs that the contour finder reports, and pixels away from the edge that had a common label keep one. Eroding never increases the number of holes, and pixels that have a common label afterwards had one before. Erosion may split blobs and dilation may make holes.", "quantifier": "all binary images of any size and layout, both rules, all settings and earlier uses of the finder", "why_tests_cant": "The counts concern all shapes; erosion relates to the background of the image, which no output shows directly.", "anchors": ["boofcpp/src/boofcv/binary_ops.cpp: BinaryImageOps::dilate4", "boofcpp/src/boofcv/binary_ops.cpp: BinaryImageOps::erode4", "boofcpp/src/boofcv/contour.cpp: LinearContourLabelChang2004::process"]}
{"id": "C142", "title": "Repeated erosion and dilation, and erosion and contours", "statement": "Eroding n times leaves exactly the pixels around which every pixel within n steps over sides is set. Dilating n times an image with nothing on its edge sets exactly the pixels off the edge that are within n steps of one that was set. One erosion removes exactly the points of the contours found with the 8-connected rule and default limits; with the 4-connected rule the contours also contain pixels that erosion keeps. The output images must have a blank edge.", "quantifier": "all binary images of any size and layout, any number of repetitions, all earlier uses of the finder", "why_tests_cant": "Relates any number of repetitions to one condition on the input, and two unrelated operations to each other, for all shapes.", "anchors": ["boofcpp/src/boofcv/binary_ops.cpp: BinaryImageOps::erode4", "boofcpp/src/boofcv/binary_ops.cpp: BinaryImageOps::dilate4", "boofcpp/src/boofcv/contour.cpp: LinearContourLabelChang2004::process"]}
{"id": "C143", "title": "Statistics do not depend on where the pixels are", "statement": "If the values of one image, all raised by the same constant, occur as often as those of another image, whatever the sizes, places and layouts, then the sums, means, minima and maxima differ by that constant (times the number of pixels for the sum) and the histograms are the same. The bins of a histogram add up to the number of pixels, their values weighted with the bins give the sum, and the first and last bins that are not empty are those of the minimum and the maximum. Where a signed sum overflows on the way the order of the pixels matters, and so it does for sums of floats.", "quantifier": "all images of integers whose sums fit, all histogram sizes and ranges that contain the values", "why_tests_cant": "Relates all pairs of images with the same values and four independent functions to each other.", "anchors": ["boofcpp/src/boofcv/image_statistics.h: ImageStatistics::sum", "boofcpp/src/boofcv/image_statistics.h: ImageStatistics::mean", "boofcpp/src/boofcv/image_statistics.h: ImageStatistics::min", "boofcpp/src/boofcv/image_statistics.h: ImageStatistics::max", "boofcpp/src/boofcv/image_statistics.h: ImageStatistics::histogram"]}
{"id": "C144", "title": "The average of bands behaves as an average", "statement": "The grey image made from the bands of an interleaved image has, at every pixel, a value between the smallest and the largest band; brighter bands never give a darker pixel; a constant added to all bands is added to the result; and the order of the bands does not matter. With negative bands the rounding towards zero breaks the rule about constants.", "quantifier": "all interleaved images of any size, number of bands and layout whose bands are not negative and whose sums fit; all outputs that can take the size", "why_tests_cant": "Relates the results for all pairs of images.", "anchors": ["boofcpp/src/boofcv/image_convert.h: convert_average"]}
{"id": "C145", "title": "Selecting a range of values with thresholds and logic", "statement": "An image thresholded upwards at one value and downwards at another, the two results combined with logicAnd, gives one exactly at the pixels above the first and not above the second, and zero elsewhere; the opposite directions with logicOr give the pixels outside that range. Masks of any two properties of pixels combine to the mask of both and of either, also when the result replaces one of them. An image combined with itself in place becomes the mask of its pixels other than zero. Erosion does not share that reading: it drops pixels of 255 that logic takes as true.", "quantifier": "all images of any size and layout, all pairs of thresholds, all outputs that share memory with the inputs pixel on pixel or not at all", "why_tests_cant": "Ranges over all images, thresholds and placements of the masks in memory.", "anchors": ["boofcpp/src/boofcv/binary_ops.cpp: logicAnd", "boofcpp/src/boofcv/binary_ops.cpp: logicOr", "boofcpp/src/boofcv/binary_ops.cpp: erode4", "boofcpp/src/boofcv/binary_ops.h: ThresholdOps::threshold"]}
