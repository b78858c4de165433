# Formal model of BoofCPP in Rocq/Coq 8.16.1

The code under study is `/repo` (BoofCPP). It is read as text. Nothing here runs it: every theorem is about
the Gallina model in `rocq/theories`, and the only link to the C++ is the reading recorded in the comment
above each definition (file and lines).

## 1. Layout

| files | content |
|---|---|
| `Base.v`, `BaseFacts.v` | outcome type, machine integers, buffers, loops / their lemmas |
| `M_*.v` | the model, function by function. No proofs. Each definition cites the lines it models |
| `S_*.v` | specifications: small mathematical objects, independent of the model's helpers |
| `L_*.v` | lemmas and proofs |
| `P_*.v` | only the property theorems: each `exact`s a lemma, is followed by `Print Assumptions` and has an `Example` showing that a concrete non-trivial case satisfies its hypotheses |

`properties.jsonl` lists the properties, `MANIFEST.json` maps them to theorem names, `seeded/LOG.jsonl` records the
wrong programs the theorems were tried against.

## 2. Modelling conventions

* **Outcomes.** A function returns `Ok v`, `Throw` (a C++ exception), `Undef` (undefined behaviour: access outside a
  buffer, use of freed memory, signed overflow, division by zero, float-to-integer conversion out of range) or
  `OutOfFuel` (only for the tracing loop, which is unbounded in the C++; excluded by a theorem). A theorem of the
  shape `f x = Ok v` therefore says that no exception and no undefined behaviour occur.
* **Integers.** Values are `Z`. 32-bit unsigned arithmetic is written with an explicit `mod 2^32` (`u32`), conversions
  to signed types with `s32` etc.; signed overflow is `Undef`.
* **Buffers.** A C++ array is a list; reading or writing outside it is `Undef`.
* **Images.** A record with width, height, offset, stride, sub-image flag and the buffer. A sub-image is a record that
  shares the buffer of its parent. Where sharing matters (ownership, in-place operation, writes through a sub-image) a
  heap with numbered blocks is modelled, otherwise input and output are separate buffers (stated in the theorems).
* **Loops.** `for(i=a;i<b;i++)` is `for_range a b`; a pointer that advances in lock-step with the counter is written
  as base + counter.
* **Templates.** Convolution code is modelled over an arbitrary arithmetic (a record of zero/add/multiply/convert
  operations that may be undefined), so one theorem covers integer and floating-point instantiations.
* **Floating point.** Where the property does not depend on rounding the model is parametric in the arithmetic. Where
  exact values matter (Otsu, kernel normalisation, length configuration) there is a model in exact rational / real
  arithmetic, and the theorem says so. A second set of theorems (C102-C117, C124-C126, C128) runs the same functions in
  IEEE single or double precision (`SpecFloat`, round to nearest even) and bounds the rounding error.

## 3. Trusted base

* The Coq 8.16.1 kernel (and `vm_compute` for the concrete witnesses), `coqchk`.
* The axioms listed by `Print Assumptions` under each theorem; see section 6 for the list. No axiom is added here.
* The reading of the C++ (section 5 lists what is and what is not modelled).

## 4. Plan per property

| id | what is modelled and how it is proved |
|---|---|
| C01-C06 | `Gray` constructors, reshape, at, makeSubimage, copy, getHeight; well-formedness invariant over all reachable images, index injectivity by nia/lia |
| C07-C08 | `Interleaved` index/at/setTo with a byte-level memcpy model for the element size |
| C09-C10 | `GrowArray` with bytes of elements for memset; invariant + abstraction to lists |
| C11 | `PackedSet` refinement to a list of lists by an abstraction relation preserved by each operation, lifted to histories by induction |
| C12 | `checkSameShape` |
| C13-C14 | border classes; mathematical extension of an image to the plane as the specification |
| C15-C18 | `ConvolveNaive`, `ConvolveImage_Inner`, `ConvolveImage_Border`, `ConvolveImage`, generic arithmetic; loop invariants |
| C19-C21 | `ConvolveNormalized*`; loop invariants + integer division bounds |
| C22-C24 | `ConvolveImageMean`, `BlurImageOps::mean`; sliding window invariant |
| C25-C30 | `ImageStatistics`, `ImageMiscOps`, `ConvertImage` |
| C31-C33 | `BinaryImageOps`, heap model for in-place use |
| C34-C36 | `ThresholdOps`, `ComputeOtsu` over exact arithmetic |
| C37-C38 | block threshold filters; partition of the image by blocks |
| C39-C41 | `ContourTracer`; the step map is injective on the reachable states, hence the orbit of the start state closes; this gives the explicit fuel bound |
| C42-C46 | `LinearContourLabelChang2004`; boundary cracks form cycles; parity/winding number of the cracks above a pixel is constant on components; the first crack of a cycle in raster order decides when it is traced |
| C47-C49 | `ConfigLength`, `KernelOps`, `FactoryKernelGaussian` over exact arithmetic |
| C50 | heap with ownership, invariant over all histories |
| C51-C52 | consequences of the convolution and mean blur theorems; single precision model (`M_Float`) for C52 |
| C53-C60, C70-C72, C76-C77, C79 | defects and small facts found while modelling; refutations carry a concrete witness evaluated by the kernel |
| C61-C62 | documentation of the contour code compared with the results proved for C42-C46 |
| C63-C67 | block filters outside the conditions of C37-C38 |
| C68-C69, C73 | `FactoryKernel::gaussian*`, `float_to_int`, `BlurImageOps::gaussian` over the reals with the real exponential function |
| C74 | `sigmaForRadius`, `radiusForSigma` in doubles (spec_float) |
| C75 | `ThresholdOps::localMean`, `LocalMeanBinaryFilter`; reuses the mean blur theorem |
| C78 | `Point2D::distanceSq` |
| C80-C81 | transfer of contours and points to Java; refinement of the Java queue and packed set to lists |
| C82-C85 | a virtual machine with numbered arrays and the set of pinned ones; Java images are views of arrays; the theorems about filters and convolution are carried over |
| C86-C87 | the same for the contour finder, with C42, C46, C80 and C81; invariant over all histories of calls and settings |
| C88 | table of native objects with their type; invariant over all sequences of operations |
| C91-C94 | blurring and normalized convolution called from Java; the storage array is released with JNI_ABORT after being written, which keeps or drops the values depending on the virtual machine: both are modelled |
| C95 | rows then columns against the product kernel, both from C15-C17; exchange of finite sums, idempotence of the border maps |
| C96 | heap of blocks and objects naming their block, programs as statement lists; refinement to a list of independent sequences, invariant: living objects own distinct live blocks |
| C97-C98 | kernel objects on top of the `GrowArray` model; invariant over all histories, refinement to width, offset and coefficients; agreement with the simpler kernels of the convolution theorems |
| C99-C100 | helpers for tests as functions returning whether the test goes on; loop invariants, any comparison of pixels |
| C101 | arrays of pointers and blocks on two heaps; simulation of the block lists of C11 call by call, invariant: living objects own disjoint live memory |
| C102 | `Point2D::distanceSq` with float and double coordinates |
| C103-C104 | Convolution of float and double images: rounding errors, exactness on integers |
| C105-C106 | Normalized convolution and Gaussian blur of float and double images: rounding errors |
| C107 | Mean blur of float and double images: rounding errors |
| C108 | Minimum, maximum, sum and mean of float and double images |
| C109 | Convolution with a divisor, and of the inner part of an image |
| C110 | Threshold of float and double images by local means |
| C111 | Block thresholds of float and double images: rounding errors |
| C112 | Otsu thresholds with IEEE doubles: near-optimal splits |
| C113 | objects that wrap memory of the caller as windows, for every history |
| C114 | floating point kernels in IEEE arithmetic: extremes, sum, normalisation, mean, Gaussian symmetry |
| C115 | Java: fixed and local thresholds of images of floats, thresholds narrowed from double |
| C116 | Java: convolution of images of floats, bit for bit |
| C117 | Java: normalized convolution and blur of images of floats with rounding errors |
| C118 | the points of all contours are the inner boundary; blobs and contours determine the image, the points alone do not |
| C119 | threshold then contours: labels of the connected parts of the chosen pixels of the original image, in C++ and from Java |
| C120 | order of contour points: the round with the hand on the wall, numbering of the sets, equivariance under displacement, in C++ and from Java |
| C121 | Thresholds, block filters, blur and morphology with an output that shares memory with the input: when the result is that of separate copies |
| C122 | Java threshold filters on images with a common array, whatever the virtual machine hands out |
| C123 | Java mean and Gaussian blur with input and output anywhere in one array |
| C124 | Otsu on images of floats: counts per unit interval, threshold, where fractions go wrong |
| C125 | Block Otsu in double precision, on bytes and on floats |
| C126 | The block filters on images of floats, called from Java |
| C127 | The text of integer images and kernels can be read back; it determines the image |
| C128 | The text of images and kernels of floats can be read back within 1/20000 |
| C129 | Convolution with an output that shares memory with the input: as with copies if no pixel is common, not in place |
| C130-C132 | the search for the native library from Java: order of the places, what is left in the file system, bytes of the copy |
| C133 | Blur keeps the order of images, a constant added to all pixels, and mirrors; not transposition, not shifts of signed images |
| C134 | Binary images from local means (scale 1) and Otsu do not change with a constant added to all pixels and are mirrored with the input; not Otsu for images of one value, not other scales |
| C135 | Openings, closings, unions and intersections of binary images; what fails next to the edge and with reused output images |
| C136 | A part of an image processed on its own gives the result for the whole image away from the edges of the part; what fails at its edges and with relative regions |
| C137 | Convolution is linear in image and kernel, unit kernels, constant images, images and kernels turned around; not turned as in mathematics, and rounding breaks it when normalized |
| C138 | Block thresholds (mean, min and max, both Otsu methods) do not depend on overall brightness; they do with another scale and for Otsu in flat regions |
| C139 | More foreground or neighbours never separate pixels; reflections keep blobs and holes; holes are the blobs of the inverse image under the other rule; not under the same rule, not without a frame, and not the numbers |
| C140 | Threshold, then contours: succeeds, blobs are nested, no dependence on brightness, holes in dark blobs are bright blobs under the other rule; the count is not monotone |
| C141 | Dilation never makes more blobs, erosion never more holes; what is together stays together under dilation; erosion may split, dilation may make holes |
| C142 | n erosions or dilations are one with the diamond of radius n; erosion removes exactly the contour points under the rule of eight, not of four |
| C143 | Sum, mean, extremes and histogram depend only on how often values occur; the histogram gives the sum and the extremes; order matters for overflow and floats |
| C144 | The average of bands lies between them, keeps order, follows constants and ignores the order of bands; not with negative bands |
| C145 | Two thresholds and logic select a range of values; masks combine; erosion does not read 255 as true |
| C89-C90 | `Planar` as a list of `Gray` images; an allocator that tells `new` and `new[]` apart |

## 5. What is modelled and what is not

Paths are relative to `boofcpp/src/boofcv` unless they start with `boofcpp-jni`.

| file | modelled | not modelled |
|---|---|---|
| `base_types.h` | `TypeInfo`, `GrowArray` (all members; the implicit copy constructor with the memory it shares) | |
| `image_types.h` | `ImageBase`, `Gray` and `Interleaved` (all members; `Gray` also on a heap with ownership), `Planar` (constructors, destructor, `reshape`, `getBand`) | `Planar::setNumberOfBands`, `at`, `setTo` (do not compile when instantiated), implicit copies of `Planar` |
| `sanity_checks.*` | `checkSameShape` | |
| `packed_sets.h` | all members, also on a heap with ownership | |
| `image_border.h` | all border classes and `create_SB` | `FactoryImageBorder::value` (does not compile when used) |
| `convolve.h` | all of `ConvolveNaive`, `ConvolveImage_Inner/Border`, `ConvolveImage`, `ConvolveNormalized*`. The `*_unrolled` functions only forward | |
| `convolve_kernels.h` | all. A random number generator is an arbitrary sequence of values of its distribution | |
| `image_blur.h` | all | |
| `image_statistics.h`, `image_misc_ops.h`, `image_convert.h` | all; a random number generator is an arbitrary sequence of values of its distribution | |
| `binary_ops.*` | all filters and operations | |
| `threshold_block_filters.h` | all | |
| `contour.*` | `ContourTracer`, `LinearContourLabelChang2004` | |
| `config_types.*` | `ConfigLength` | |
| `geometry_types.h` | `Point2D` with integer, float and double coordinates | |
| `testing_utils.h`, `print_structures.h` | `create_subimage`, `check_equals`, `check_equals_border`, `check_equals_inner`, `print_difference`, `print`, `print_kernel` (with printf's `%d`, `%02x`, `%.4e` as defined in M_Print.v) | messages of the checks, the text of `print_difference`; that the memory of `create_subimage` is never freed (documented there) |
| `pixel_math.h`, tests, benchmarks | nothing (`pixel_math.h` has an empty class) | everything |
| `boofcpp-jni` | `NativeUtils.java` and the static initializer of `BoofCPP.java` over an arbitrary file system, jar and linker (simplifications at the top of M_Loader.v), `WrapJGrowQueue_I32`, `copy_into_java`, `extractInfoCritical`, `wrapCritical*`, `extractKernel*_S32`, the six threshold filters for 8-bit images, `NativeImageConvolve` for integer images, `NativeChang2004`, `NativeBase`, `NativeConvolveImage.java`, `NativeImageBlurOps` and `NativeImageConvolveNormalized` for 8-bit images; all six thresholds, convolution, normalized convolution and blur for images of floats, `extractKernel*_F32`, `extractConfigLength` | Images of doubles where the lookup of the field fails. Errors of the JVM, failing lookups of classes and fields, images that share one array other than in the threshold filters and in blurring, the classes of BoofCV (their behaviour is assumed where used and described there), `BoofCPP.initialize` (assignments to fields of BoofCV), `NativeUtils.printResourceInPath` (never called) |

Also not modelled anywhere: failure of memory allocation, threads, the bytes of padding, concurrent changes of images during
a call, the FPU rounding mode (assumed round to nearest even), contraction of floating point operations.

Simplifications, repeated at the definitions they concern:

* Input and output images are separate buffers except in the theorems about shared memory (C31, C60, C121-C123, C129) and ownership (C50, C96, C101).
* Array sizes are limited only by the arithmetic of the index type: a model image may be larger than memory.
* `std::vector`, `std::shared_ptr` and `std::function` are their mathematical counterparts.
* Where a theorem says exact arithmetic, `double`/`float` operations are replaced by rational or real ones. Theorems
  named `_ieee`, `_float` or `_any` and those over `spec_float` are about floating point.

## 6. Axioms

`Print Assumptions` stands beneath every property theorem. Except for those in the table, every theorem is closed under the
global context. The axioms in the table are those of the standard library's real numbers.

| theorems | axioms |
|---|---|
| `C48_normalize`, `C48_mean`, `C48_square_refuted`, `C49_round_trip`, `C49_round_up`, `C49_overflow`, `C102_zero_refuted`, `C107_square`, `C108_constants`, `C112_unique`, `C115_fixed_refuted` | `ClassicalDedekindReals.sig_forall_dec`, `FunctionalExtensionality.functional_extensionality_dep` |
| `C48_gaussian`, `C48_gaussian_sum`, `C48_gaussian_throw`, `C48_gaussian2D`, `C68_refuted` | the same and `ClassicalDedekindReals.sig_not_dec` |
| `C48_gaussian_shape`, `C73_kernel`, `C73_shape`, `C73_square`, `C69_range`, `C93_gaussian`, `C102_exact`, `C102_error`, `C102_order_refuted`, `C103_*` (without `C103_bits`), `C104_*`, `C105_*`, `C106_*`, `C107_*` (without `C107_square`), `C108_min`, `C108_max`, `C108_sum`, `C108_mean`, `C108_constant_refuted`, `C109_naive_float`, `C109_inner_float`, `C110_threshold`, `C111_mean`, `C111_minmax`, `C112_*` (without `C112_unique`), `C114_*`, `C115_narrow`, `C115_fixed`, `C115_local`, `C117_*` (without `C117_failure_refuted`), `C124_*`, `C125_*`, `C126_mean`, `C126_minmax`, `C126_otsu`, `C128_*`, `C133_gauss_order`, `C133_gauss_shift`, `C133_gauss_mirror`, `C134_local_shift`, `C136_gauss` | the same three and `Classical_Prop.classic` |
