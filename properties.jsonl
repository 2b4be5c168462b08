{"id": "C01", "title": "Image constructors accept exactly the right buffers", "statement": "Building an image view (`new`, `borrow`, `from_slice`) from a buffer succeeds exactly when the buffer holds width*height*channels elements, and the image it returns passes the validation every resize performs, with every visible sample inside the buffer; otherwise the call returns a buffer-mismatch error carrying the expected size.", "quantifier": "every buffer length, width, height and channel count", "why_tests_cant": "the acceptance set is infinite; a test samples a handful of sizes", "anchors": ["src/image_store.rs: ImageStore::new, ImageStore::borrow, ImageStore::from_slice, ImageStoreMut::new, ImageStoreMut::borrow", "src/image_store.rs: CheckStoreDensity::validate"]}
{"id": "C02", "title": "Validation is sound: accepted images are addressable", "statement": "If a resize accepts an image (no validation error) then for every visible pixel (x,y) and channel c the sample index y*stride + x*channels + c is inside the buffer.", "quantifier": "every image record a caller can build: any buffer length, width, height, stride up to the machine word size", "why_tests_cant": "arithmetic on sizes can wrap around the machine word; the failing records are far outside what tests build", "anchors": ["src/image_store.rs: CheckStoreDensity::validate", "src/scaler.rs: Scaler::generic_resize"]}
{"id": "C03", "title": "Stride zero means densely packed", "statement": "An image whose stride field is 0 is documented to mean stride = width*channels; such an image with a buffer of width*height*channels elements is accepted by resize and treated as the densely packed image.", "quantifier": "every width, height, channel count", "why_tests_cant": "needs the whole family of images, and the interaction of two checks", "anchors": ["src/image_store.rs: ImageStore::stride, ImageStore::validate, ImageStoreMut::stride, ImageStoreMut::validate"]}
{"id": "C04", "title": "Error decision table", "statement": "A resize call fails exactly when one of: destination buffer/stride inconsistent, source buffer/stride inconsistent, a zero dimension, source area overflowing the machine word, destination area overflowing, a 16-bit destination with a bit depth outside 1..16; and it reports the first of these in that order. Error codes exposed to C are non-zero and pairwise distinct.", "quantifier": "every pair of images, every filter, every threading policy", "why_tests_cant": "the decision is over the product of all image shapes; combinations of several simultaneous faults are never enumerated by tests", "anchors": ["src/scaler.rs: generic_resize, generic_resize_with_alpha", "src/pic_scale_error.rs: PicScaleError::code", "src/support.rs: check_image_size_overflow"]}
{"id": "C05", "title": "A failed resize leaves the destination untouched", "statement": "If any resize entry point returns an error, every element of the destination buffer (visible samples and row padding) has the value it had before the call.", "quantifier": "every pair of images, filter, policy, and alpha flag for which an error is returned", "why_tests_cant": "must hold on every error path for every destination content", "anchors": ["src/scaler.rs: generic_resize, generic_resize_with_alpha", "src/resize_ar30.rs: resize_ar30_impl"]}
{"id": "C06", "title": "Same-size resize is the identity on pixels", "statement": "When source and destination dimensions agree, resize returns Ok and every visible destination sample equals the source sample at the same position, for any source and destination strides, whatever the filter and alpha flag, and destination row padding is left alone.", "quantifier": "every image content, all strides at least the row length, all filters", "why_tests_cant": "all strides and contents", "anchors": ["src/scaler.rs: generic_resize, generic_resize_with_alpha", "src/image_store.rs: ImageStore::copied_to_mut"]}
{"id": "C07", "title": "Copying an image preserves the image it denotes", "statement": "`copied`/`to_immutable` return an image with the same dimensions that is still valid and whose visible samples are those of the original, also when the original has row padding.", "quantifier": "every valid image, any stride", "why_tests_cant": "all strides and contents", "anchors": ["src/image_store.rs: ImageStore::copied, ImageStoreMut::copied, ImageStoreMut::to_immutable"]}
{"id": "C08", "title": "Nearest-neighbour sampling copies in-range source pixels", "statement": "With the Nearest filter every destination pixel is an exact copy (all channels together) of one source pixel whose coordinates lie inside the source; source coordinates are non-decreasing in the destination coordinate; rows and columns are chosen independently. This holds for valid images of any stride.", "quantifier": "every source/destination size and content, any strides, sequential or pooled", "why_tests_cant": "floating point coordinate arithmetic over all sizes; a test covers a few ratios", "anchors": ["src/nearest_sampler.rs: resize_nearest, nearest_row"]}
{"id": "C09", "title": "Filter windows stay inside the source", "statement": "For every filter, every output index gets a window of source positions that starts and ends inside the source line and contains no more taps than the filter row stores; there are exactly as many windows as output positions.", "quantifier": "every source length, destination length, filter, and index", "why_tests_cant": "32-bit float rounding of centre and radius over all size pairs; only a proof covers all of them", "anchors": ["src/scaler.rs: Scaler::generate_weights"]}
{"id": "C10", "title": "Resizing valid images never panics or reads out of bounds", "statement": "For two valid images with non-zero dimensions, with any strides, the portable (scalar) 8-bit and 16-bit resize runs to completion with no out-of-range slice, and returns Ok.", "quantifier": "every pair of valid images, filter windows inside the source, every channel count 1..4", "why_tests_cant": "memory safety over all strides/sizes", "anchors": ["src/fixed_point_horizontal.rs", "src/fixed_point_vertical.rs", "src/dispatch_group_u8.rs", "src/scaler.rs: generic_resize"]}
{"id": "C11", "title": "Resize computes the separable convolution", "statement": "On the portable path every visible destination sample is the two-pass (vertical, then horizontal) fixed-point weighted sum of the source samples in its windows, same channel, with saturation to the sample range; when only one dimension changes only that pass is applied.", "quantifier": "every pair of valid images, windows, weights, strides, channel counts", "why_tests_cant": "functional correctness for all sizes, including every tail of every unrolled loop", "anchors": ["src/fixed_point_horizontal.rs", "src/fixed_point_vertical.rs", "src/dispatch_group_u8.rs", "src/scaler.rs: forward_resize"]}
{"id": "C12", "title": "A row's result does not depend on how rows are grouped", "statement": "A destination row computed by the four-rows-at-once code equals the row computed by the one-row code, so a row of the result depends only on its source row(s), not on its position or on the image height modulo four.", "quantifier": "every image content, row index, height, tap count", "why_tests_cant": "four-row and one-row kernels are separate hand-unrolled code; equality must hold for all tap counts", "anchors": ["src/fixed_point_horizontal.rs: convolve_row_handler_fixed_point, convolve_row_handler_fixed_point_4", "src/dispatch_group_u8.rs", "src/floating_point_horizontal.rs"]}
{"id": "C13", "title": "The result does not depend on the threading policy or schedule", "statement": "For every threading policy and every order in which the worker threads execute row tasks, the destination image is bit-for-bit the one produced by the single-threaded run.", "quantifier": "every interleaving of row tasks, every number of workers, every image", "why_tests_cant": "schedules cannot be enumerated by running", "anchors": ["src/dispatch_group_u8.rs", "src/dispatch_group_u16.rs", "src/dispatch_group_f32.rs", "src/nearest_sampler.rs", "src/threading_policy.rs"]}
{"id": "C14", "title": "Resize never writes row padding", "statement": "Elements of the destination buffer outside the visible width*channels of each row are unchanged by a resize.", "quantifier": "every destination stride and content, every filter", "why_tests_cant": "all strides, widths, loop tails", "anchors": ["src/dispatch_group_u8.rs", "src/fixed_point_vertical.rs", "src/nearest_sampler.rs", "src/image_store.rs: copied_to_mut"]}
{"id": "C15", "title": "The result depends only on visible source samples", "statement": "Two sources that agree on all visible samples (but differ in row padding or stride) give the same visible destination, independent of the previous content of the destination.", "quantifier": "every pair of sources agreeing on visible samples, every prior destination content", "why_tests_cant": "hyperproperty over pairs of runs", "anchors": ["src/dispatch_group_u8.rs", "src/fixed_point_horizontal.rs", "src/fixed_point_vertical.rs"]}
{"id": "C16", "title": "Output samples stay in the sample range", "statement": "Every visible sample written is between 0 and 255 for 8-bit images, between 0 and 2^bit_depth-1 for 16-bit images of depth bit_depth, even for filters with negative lobes.", "quantifier": "every source content, weight vector, bit depth", "why_tests_cant": "saturation must hold for all accumulator values", "anchors": ["src/saturate_narrow.rs", "src/fixed_point_horizontal.rs", "src/fixed_point_vertical.rs", "src/mixed_storage.rs"]}
{"id": "C17", "title": "The 32-bit accumulator never overflows", "statement": "For 8-bit images and images of bit depth up to 12, with fixed point weights whose absolute values sum to at most twice unity, every intermediate accumulator value (any prefix of the taps) fits in a signed 32-bit integer, so wrapping arithmetic never shows.", "quantifier": "every source content, tap count and weight row satisfying the bound", "why_tests_cant": "worst case over all contents and tap counts", "anchors": ["src/fixed_point_horizontal.rs", "src/fixed_point_vertical.rs", "src/color_group.rs"]}
{"id": "C18", "title": "Constant images stay constant", "statement": "Resizing an image in which every sample of a channel has value v gives destination samples equal to v.", "quantifier": "every value v, size pair, filter", "why_tests_cant": "rounding of weights depends on size pair and filter; only a bound proved for all covers it", "anchors": ["src/fixed_point_horizontal.rs", "src/fixed_point_vertical.rs", "src/filter_weights.rs"]}
{"id": "C19", "title": "Channels are independent and influence is local", "statement": "Changing source samples of one channel, or samples outside the window of a destination sample, does not change that destination sample.", "quantifier": "every pair of sources, every destination sample", "why_tests_cant": "hyperproperty over pairs of images", "anchors": ["src/fixed_point_horizontal.rs", "src/fixed_point_vertical.rs", "src/color_group.rs"]}
{"id": "C20", "title": "Resizing is monotone for non-negative filters", "statement": "With non-negative weights, if one source is pointwise at most another, the resized image is pointwise at most the other resized image; and every destination sample lies between the smallest and the largest source sample of its channel.", "quantifier": "every ordered pair of sources", "why_tests_cant": "hyperproperty over pairs of images", "anchors": ["src/fixed_point_horizontal.rs", "src/fixed_point_vertical.rs", "src/saturate_narrow.rs"]}
{"id": "C21", "title": "Fixed-point weights approximate the real weights", "statement": "Converting float filter weights to 16-bit fixed point yields, for each tap, the integer nearest to weight*2^15 (ties away from zero), clamped to the signed 16-bit range; rows are padded with zeros to the requested alignment and windows are unchanged.", "quantifier": "every finite float weight row, tap count and alignment", "why_tests_cant": "all float values", "anchors": ["src/filter_weights.rs: FilterWeights::numerical_approximation"]}
{"id": "C22", "title": "8-bit alpha premultiplication", "statement": "Premultiplying an RGBA8 pixel stores each colour as round(colour*alpha/255) and keeps alpha; padding of the target is untouched; the result colour never exceeds alpha.", "quantifier": "all 2^32 pixels, images of all sizes and strides", "why_tests_cant": "per-pixel exhaustive plus all layouts", "anchors": ["src/alpha_handle_u8.rs: div_by_255, premultiply_alpha_rgba_row", "src/image_store.rs: AssociateAlpha::premultiply_alpha"]}
{"id": "C23", "title": "8-bit alpha un-premultiplication", "statement": "Un-premultiplying an RGBA8 pixel keeps alpha, maps fully transparent pixels to black, and restores colours: for colour c and alpha a>0, premultiply then un-premultiply returns a value within rounding distance 255/(2a) of c.", "quantifier": "all pixels, images of all sizes", "why_tests_cant": "exhaustive per-pixel combination with the lookup table layout", "anchors": ["src/alpha_handle_u8.rs: UNPREMULTIPLICATION_TABLE, unpremultiply_alpha_rgba_row_impl"]}
{"id": "C24", "title": "16-bit alpha premultiplication", "statement": "Premultiplying an RGBA16 pixel of bit depth d stores round(colour*alpha/(2^d-1)) and keeps alpha, for every supported depth.", "quantifier": "all pixels with samples up to 2^d-1, all depths", "why_tests_cant": "2^64 pixels", "anchors": ["src/alpha_handle_u16.rs"]}
{"id": "C25", "title": "16-bit alpha un-premultiplication keeps alpha", "statement": "Un-premultiplying an RGBA16 pixel leaves the alpha sample unchanged and stores samples at most 2^d-1.", "quantifier": "all pixels and depths", "why_tests_cant": "2^64 pixels", "anchors": ["src/alpha_handle_u16.rs"]}
{"id": "C26", "title": "Alpha scan is exact", "statement": "The check that decides whether premultiplication is needed answers true exactly when two visible pixels have different alpha.", "quantifier": "every image (u8,u16,f32 bits), any stride", "why_tests_cant": "summation of differences over rows of unbounded width", "anchors": ["src/alpha_check.rs"]}
{"id": "C27", "title": "Constant alpha: alpha-aware resize equals plain resize", "statement": "For an image whose alpha is the same in every pixel, resizing with the premultiply flag gives the same pixels as resizing without it.", "quantifier": "every image with constant alpha, size pair, filter", "why_tests_cant": "depends on control flow for all images with constant alpha", "anchors": ["src/scaler.rs: forward_resize_with_alpha, forward_resize_vertical_with_alpha, forward_resize_horizontal_with_alpha"]}
{"id": "C28", "title": "SIMD and scalar alpha arithmetic agree", "statement": "The vectorised 8-bit premultiplication gives the same result as the portable one for every pixel.", "quantifier": "all colour/alpha pairs; rows of every length (vector body and tail)", "why_tests_cant": "per-lane arithmetic over all values, tails over all lengths", "anchors": ["src/sse/alpha_u8.rs", "src/avx2/alpha_u8.rs", "src/alpha_handle_u8.rs"]}
{"id": "C29", "title": "Threading policy determines worker count", "statement": "Single never starts workers; Fixed(n) uses max(n,1); Adaptive uses between 1 and the available parallelism, growing with the image area; a Single policy never spawns parallel work in any stage.", "quantifier": "every policy, width, height, hardware concurrency", "why_tests_cant": "all sizes", "anchors": ["src/threading_policy.rs", "src/sse/alpha_u16.rs"]}
{"id": "C30", "title": "Numeric filter selectors", "statement": "Every numeric selector maps to a filter; selectors 0..48 map to pairwise distinct filters and hit every filter, anything else maps to Bilinear; each filter's table entry has a positive support and the resizable/area flags documented.", "quantifier": "every u32", "why_tests_cant": "2^32 selectors", "anchors": ["src/sampler.rs: From<u32> for ResamplingFunction, get_resampling_filter"]}
{"id": "C31", "title": "AR30/RA30 packing round trip", "statement": "Packing 10-bit r,g,b and unpacking returns the same r,g,b with alpha 3, for both layouts and both byte orders; unpacking any 32-bit word yields components at most 1023; packing an unpacked opaque word returns the word.", "quantifier": "all 2^30 colours, all 2^32 words, both layouts and byte orders", "why_tests_cant": "2^32 words", "anchors": ["src/ar30.rs"]}
{"id": "C32", "title": "AR30 rows: one-row and four-row kernels agree", "statement": "Every row of a resized 30-bit packed image is the fixed point convolution of its source row, whichever of the one-row and four-row kernels handles it.", "quantifier": "every row content, tap count", "why_tests_cant": "separate hand-unrolled kernels", "anchors": ["src/fixed_point_horizontal_ar30.rs"]}
{"id": "C33", "title": "AR30 resize honours strides and filters", "statement": "Resizing a packed 30-bit image with any valid strides and any filter (including Nearest and same-size) fills the visible destination from the visible source without panicking.", "quantifier": "all sizes and strides", "why_tests_cant": "all strides", "anchors": ["src/resize_ar30.rs", "src/dispatch_group_ar30.rs"]}
{"id": "C34", "title": "CPU dispatch only selects supported instruction sets", "statement": "For every CPU feature combination, scale factor and workload strategy, the selected kernels need only instruction sets the CPU reports.", "quantifier": "every CPU feature set, scale factor and strategy", "why_tests_cant": "tests run on one CPU", "anchors": ["src/rgba_u8.rs", "src/rgb_u8.rs", "src/plane_u8.rs", "src/handler_provider.rs"]}
{"id": "C35", "title": "Vector vertical kernels agree with the portable kernel", "statement": "The vectorised vertical 8-bit pass gives the same samples as the portable vertical pass.", "quantifier": "every row content, tap count, width (vector body and tails)", "why_tests_cant": "separate kernels, all widths", "anchors": ["src/sse/vertical_u8.rs", "src/avx2/vertical_u8.rs", "src/fixed_point_vertical.rs"]}
{"id": "C36", "title": "C API handles unaligned buffers and strides", "statement": "The C entry points resize the image described by pointer, byte stride and dimensions whatever the pointer alignment and stride divisibility, write only inside the destination image, and return 0 on success or the error code.", "quantifier": "every alignment, stride, element size and channel count", "why_tests_cant": "all alignments and strides", "anchors": ["picscale/src/lib.rs: pic_scale_scale_generic"]}
{"id": "C37", "title": "Filter weights of a window sum to one", "statement": "The float weights generated for every output position sum to one (up to float rounding) unless the window's raw weights sum to zero.", "quantifier": "every filter, size pair, index", "why_tests_cant": "float arithmetic over all sizes", "anchors": ["src/scaler.rs: Scaler::generate_weights"]}
{"id": "C38", "title": "Float images: grouping-independent results", "statement": "For f32 images every destination sample is the same float expression of its window whichever kernel (4-row/1-row, 16/4/1-sample tile) computes it.", "quantifier": "every content (including NaN/inf), tap count and width", "why_tests_cant": "bitwise float equality for all inputs", "anchors": ["src/floating_point_horizontal.rs", "src/floating_point_vertical.rs", "src/dispatch_group_f32.rs"]}
{"id": "C39", "title": "Deep (13-16 bit) images round to nearest", "statement": "For bit depths above 12 the stored sample is the weighted sum rounded to nearest and clamped to 0..2^bit_depth-1.", "quantifier": "every content and weight row", "why_tests_cant": "all float sums", "anchors": ["src/mixed_storage.rs", "src/dispatch_group_u16.rs", "src/floating_point_horizontal.rs"]}
{"id": "C40", "title": "A flat pixel survives enlargement", "statement": "Enlarging a one-pixel image horizontally gives an image whose pixels all have the value of that pixel, for every filter.", "quantifier": "every filter, pixel value and target width", "why_tests_cant": "all 49 filters and all widths; the failing windows appear only at positions falling exactly on a source pixel centre", "anchors": ["src/scaler.rs: Scaler::generate_weights", "src/math/bessel_order_one.rs: jinc_f32", "src/sampler.rs: get_resampling_filter"]}
{"id": "C41", "title": "Premultiply flag off means plain resize", "statement": "An RGBA resize with the premultiply flag off gives exactly the result (destination, error or panic) of the plain four-channel resize.", "quantifier": "every pair of images, filter, thread pool", "why_tests_cant": "equality of two code paths over all inputs", "anchors": ["src/scaler.rs: Scaler::generic_resize_with_alpha, Scaler::forward_resize_with_alpha"]}
{"id": "C42", "title": "The Nearest filter picks the nearest source pixel", "statement": "With the Nearest filter a destination pixel copies the source pixel whose centre is nearest to the scaled centre of the destination pixel.", "quantifier": "every pair of sizes and every coordinate", "why_tests_cant": "all sizes and coordinates", "anchors": ["src/nearest_sampler.rs: resize_nearest"]}
{"id": "C43", "title": "Alpha-aware resize is a pipeline", "statement": "An 8-bit RGBA resize with the premultiply flag on succeeds on every valid call that changes the size with a convolving filter, and its result is: the source (premultiplied pixel by pixel exactly when two visible pixels differ in alpha), resized by the plain four-channel resize, then un-premultiplied pixel by pixel; row padding of the destination is left alone.", "quantifier": "every valid pair of images, convolving filter and thread pool", "why_tests_cant": "composition of three stages over all images and sizes", "anchors": ["src/scaler.rs: Scaler::generic_resize_with_alpha, Scaler::forward_resize_with_alpha", "src/alpha_handle_u8.rs", "src/alpha_check.rs"]}
{"id": "C44", "title": "The premultiply flag does not change the alpha channel", "statement": "The alpha channel of an alpha-aware resize equals the alpha channel of the plain resize of the same image.", "quantifier": "every valid pair of images and filter", "why_tests_cant": "relates two runs over all images", "anchors": ["src/scaler.rs: Scaler::generic_resize_with_alpha", "src/alpha_handle_u8.rs: premultiply_alpha_rgba_row_impl"]}
{"id": "C45", "title": "Averaging filters keep the order of channels", "statement": "If in every source pixel one channel is at most another (for instance premultiplied colours and alpha), the same holds in every destination pixel of a resize with a non-negative filter.", "quantifier": "every valid pair of 8-bit images, channel pair and non-negative filter", "why_tests_cant": "all images, sizes and window positions", "anchors": ["src/scaler.rs: Scaler::generate_weights", "src/fixed_point_horizontal.rs", "src/fixed_point_vertical.rs"]}
{"id": "C46", "title": "Refused and scheduled AR30/RA30 calls", "statement": "A packed 30-bit resize refuses its arguments exactly according to a fixed table (empty size, sizes too large, source buffer, source stride, destination buffer, destination stride, in this order), leaves the destination as it was when it refuses, refuses no valid call, and gives the same outcome whatever the thread schedule.", "quantifier": "all buffers, strides, sizes, filters, layouts, byte orders and schedules", "why_tests_cant": "all argument combinations and all task orders", "anchors": ["src/resize_ar30.rs: resize_ar30_impl", "src/dispatch_group_ar30.rs"]}
{"id": "C47", "title": "Windows lie where the geometry says", "statement": "With a convolving filter, destination coordinate o draws on the source interval centred at the scaled centre of o whose length is the filter's support scaled by the downscale factor (at least the support itself), rounded outward to whole pixels and clipped to the image.", "quantifier": "every convolving filter, all pairs of sides up to 2^23 and all destination coordinates", "why_tests_cant": "all sizes and coordinates, through single-precision rounding", "anchors": ["src/scaler.rs: Scaler::generate_weights"]}
{"id": "C48", "title": "Weights are the filter's kernel", "statement": "The weight of a source pixel in a window is the filter's kernel at the scaled distance between the pixel and the window centre, divided by the sum of the kernel over the window.", "quantifier": "every filter, pair of sides, destination coordinate and source pixel", "why_tests_cant": "all sizes and coordinates, through single-precision rounding", "anchors": ["src/scaler.rs: Scaler::generate_weights", "src/sampler.rs: get_resampling_filter", "src/math"]}
{"id": "C49", "title": "Filters are the textbook kernels", "statement": "The kernel computed for each named filter is the mathematical function of that name (Mitchell-Netravali, Catmull-Rom, B-spline, Robidoux, spline16/36/64 and so on) up to single-precision error.", "quantifier": "every polynomial filter and every argument in its support", "why_tests_cant": "all single-precision arguments", "anchors": ["src/sampler.rs: get_resampling_filter", "src/math/bc_spline.rs", "src/math"]}
{"id": "C50", "title": "Area enlarging weights are coverage", "statement": "When enlarging with the Area filter, the weight of a source pixel in a destination pixel is the fraction of the destination pixel covered by that source pixel.", "quantifier": "all pairs of sides with the target larger, and all coordinates", "why_tests_cant": "all sizes and coordinates, through single-precision rounding", "anchors": ["src/scaler.rs: Scaler::generate_weights"]}
{"id": "C51", "title": "Resizing is textbook resampling", "statement": "Every sample of a resized 8-bit image is, within the stated rounding, what textbook separable resampling over the real numbers with the filter's kernel gives: columns first, then rows.", "quantifier": "every valid pair of images, polynomial filter, channel and coordinate", "why_tests_cant": "all images, sizes and coordinates, through single-precision weights, 15-bit quantisation and two roundings", "anchors": ["src/scaler.rs", "src/filter_weights.rs", "src/fixed_point_horizontal.rs", "src/fixed_point_vertical.rs", "src/sampler.rs"]}
{"id": "C52", "title": "Every x86 sample has a closed form", "statement": "On x86-64, for every reported instruction set and workload strategy, every sample of a resized 8-bit image is determined by the source picture and the quantised filter weights through a stated formula, independent of stride, padding, position in a vector register and row grouping; nothing but pixels is written; nearest and same-size calls equal those of the build without vector code.", "quantifier": "every CPU feature set, strategy, valid pair of images, filter, channel and coordinate", "why_tests_cant": "tests run on one CPU; all widths and tap counts through vector bodies and tails", "anchors": ["src/sse", "src/avx2", "src/plane_u8.rs", "src/cbcr8.rs", "src/rgb_u8.rs", "src/rgba_u8.rs"]}
{"id": "C53", "title": "Refusals and schedules on x86", "statement": "On x86-64 a resize of 8-bit images is refused exactly under the documented conditions, a refused call leaves the destination alone, and the result does not depend on the thread pool or task order.", "quantifier": "all arguments, CPU feature sets, strategies and task orders", "why_tests_cant": "all argument combinations and schedules, on all CPUs", "anchors": ["src/scaler.rs", "src/dispatch_group_u8.rs", "src/sse", "src/avx2"]}
{"id": "C54", "title": "Vector horizontal kernels agree with the portable kernel", "statement": "The vectorised horizontal 8-bit pass gives the same samples as the portable horizontal pass.", "quantifier": "every row content, tap count, width and channel count", "why_tests_cant": "separate kernels for one and four rows, all widths and windows", "anchors": ["src/sse/rgba_u8.rs", "src/sse/rgb_u8.rs", "src/sse/plane_u8.rs", "src/avx2/rgb_u8.rs"]}
{"id": "C55", "title": "Accuracy of the x86 build", "statement": "The result on x86-64 differs from the portable result by at most a few units, whatever the strategy.", "quantifier": "every CPU feature set, strategy and valid call", "why_tests_cant": "all images; 16-bit intermediate arithmetic", "anchors": ["src/sse/vertical_u8_lp.rs", "src/avx2/vertical_u8_lp.rs", "src/avx2/rgba_u8_lb.rs", "src/sse/plane_u8_hrs.rs"]}
{"id": "C56", "title": "Constant and opaque images stay so on x86", "statement": "On x86-64 a channel that is constant in the source is constant with the same value in the result; in particular an opaque image stays opaque.", "quantifier": "every CPU feature set, strategy, constant, size and averaging filter", "why_tests_cant": "all sizes and constants", "anchors": ["src/sse", "src/avx2", "src/rgba_u8.rs"]}
{"id": "C57", "title": "Alpha-aware resizing on x86", "statement": "On x86-64, resizing an RGBA image with the premultiply flag premultiplies when the alpha varies, resizes as the plain call does, and un-premultiplies; the alpha of the result is that of the resized premultiplied image and transparent pixels come out black.", "quantifier": "every CPU feature set, strategy, valid pair of RGBA images, filter and task order", "why_tests_cant": "all images; vector bodies and tails over all widths", "anchors": ["src/sse/alpha_u8.rs", "src/avx2/alpha_u8.rs", "src/alpha_handle_u8.rs", "src/scaler.rs"]}
{"id": "C58", "title": "Vector un-premultiplication restores colours", "statement": "The vectorised un-premultiplication keeps alpha, makes transparent pixels black and gives colour*255/alpha, at most 255, up to 3/5 of a unit, on any processor whose reciprocal is as accurate as Intel documents; so premultiplying and un-premultiplying returns the colours up to the quantisation of the premultiplied image.", "quantifier": "all pixels, widths and reciprocal instructions of the documented accuracy", "why_tests_cant": "the reciprocal differs between processors; all colour/alpha pairs", "anchors": ["src/sse/alpha_u8.rs", "src/avx2/alpha_u8.rs"]}
{"id": "C59", "title": "The flag changes nothing for opaque images on x86", "statement": "On x86-64, resizing an opaque RGBA image with the premultiply flag gives the same pixels as without it.", "quantifier": "all opaque images, sizes, filters that average, CPU feature sets and strategies", "why_tests_cant": "all images", "anchors": ["src/scaler.rs", "src/avx2/alpha_u8.rs", "src/alpha_check.rs"]}
{"id": "C60", "title": "Colour space scalers convert, resize and convert back", "statement": "Resizing with a colour space scaler (LabScaler, LuvScaler, LChScaler, XYZScaler, OklabScaler, JzazbzScaler, SigmoidalScaler, LinearScaler, LinearApproxScaler) gives, pixel by pixel, the conversion back of the plain resize of the image converted into that space with the scaler's parameters, with the premultiply flag applied to the converted image.", "quantifier": "all scalers, conversion arithmetic, filters, flags, image sizes and contents, task orders", "why_tests_cant": "all images, filters and parameters; the arithmetic of the conversion crate is arbitrary", "anchors": ["src/colors/lab_scaler.rs", "src/colors/linear_precise_scaler.rs", "src/colors/linear_scaler.rs", "src/colors/jzazbz_scaler.rs"]}
{"id": "C61", "title": "Refusals and success of colour space scalers", "statement": "A colour space scaler refuses exactly the calls the plain scaler refuses, with the same error and leaving the destination untouched; valid RGB, RGBA and CbCr calls succeed without panic, and a call that does not change the size copies the pixels.", "quantifier": "all images (valid or not), scalers, filters and flags", "why_tests_cant": "all malformed and well-formed images", "anchors": ["src/colors/lab_scaler.rs", "src/colors/xyz_scaler.rs", "src/colors/oklab_scaler.rs", "src/support.rs"]}
{"id": "C62", "title": "Colour space scalers respect row strides", "statement": "With padded rows in the source or the destination a colour space scaler reads only visible source pixels, writes every visible destination pixel and leaves the destination's padding alone.", "quantifier": "all strides, sizes, scalers, filters", "why_tests_cant": "all strides and sizes", "anchors": ["src/colors/lab_scaler.rs", "src/colors/luv_scaler.rs", "src/colors/linear_scaler.rs"]}
{"id": "C63", "title": "Threads do not change colour space results", "statement": "The result of a colour space scaler does not depend on the threading policy or the order in which tasks run.", "quantifier": "all task orders, images, filters, scalers", "why_tests_cant": "all schedules", "anchors": ["src/colors/lab_scaler.rs", "src/scaler.rs"]}
{"id": "C64", "title": "The chosen transfer function is used", "statement": "A scaler created with a transfer function linearises with it and converts back with it, for RGB and for RGBA images.", "quantifier": "all transfer functions, scalers that take one, images", "why_tests_cant": "all transfer functions and images", "anchors": ["src/colors/linear_precise_scaler.rs", "src/colors/linear_scaler.rs", "src/colors/oklab_scaler.rs", "src/colors/jzazbz_scaler.rs"]}
{"id": "C65", "title": "Nearest and flat images in a colour space", "statement": "With the Nearest filter a colour space scaler outputs source pixels converted there and back; a flat image stays flat, its pixel being converted there and back.", "quantifier": "all packed images, scalers, conversion arithmetic", "why_tests_cant": "all images and conversions", "anchors": ["src/colors/linear_scaler.rs", "src/nearest_sampler.rs"]}
{"id": "C66", "title": "Every f32 tap counts once", "statement": "Every sample of an f32 result is an f32 sum, in some order and with or without fused multiplications, of the products of the samples in its window with the weights of that window, each product counted exactly once; columns first, then rows, a direction that keeps its size being copied.", "quantifier": "all f32 images, filters except Nearest, sizes, thread pools, instruction sets", "why_tests_cant": "all sizes, window lengths and instruction sets: the vector kernels unroll by 16, 8, 4, 2 and 1 taps and by four rows", "anchors": ["src/plane_f32.rs", "src/rgb_f32.rs", "src/rgba_f32.rs", "src/cbcr_f32.rs", "src/sse/plane_f32.rs", "src/sse/rgb_f32.rs", "src/sse/rgba_f32.rs", "src/avx2/rgba_f32.rs", "src/sse/vertical_f32.rs", "src/avx2/vertical_f32.rs"]}
{"id": "C67", "title": "f32 results are accurate", "statement": "An f32 result is the textbook weighted mean of its window up to rounding: finite, and off by at most a stated multiple of 2^-22 of the largest sample; averaging filters do not leave the range of the samples beyond that.", "quantifier": "all f32 images with finite samples, filters, scale factors, instruction sets", "why_tests_cant": "all images and sizes; rounding errors accumulate with the window length", "anchors": ["src/scaler.rs", "src/convolve_naive_f32.rs", "src/dispatch_group_f32.rs", "src/sse/plane_f32.rs"]}
{"id": "C68", "title": "Equal rows give equal rows on x86-64", "statement": "When only the width of an f32 image changes, rows with the same samples give the same results, whether they are processed four at a time or alone. More generally, each row of the result is the result of resizing that row alone.", "quantifier": "all f32 images, pairs of rows, instruction sets", "why_tests_cant": "all heights, window lengths and instruction sets", "anchors": ["src/dispatch_group_f32.rs", "src/sse/plane_f32.rs", "src/avx2/rgba_f32.rs"]}
{"id": "C69", "title": "f32 calls on x86-64: refusals, success, schedules, locality", "statement": "On every x86-64 CPU an f32 resize without alpha handling refuses exactly the documented malformed calls leaving the destination untouched, succeeds on every valid call, gives the same result with and without a pool and for every task order, copies when the size does not change, picks source pixels in order under Nearest, leaves the destination's padding alone and depends only on the samples of the same channel inside the window.", "quantifier": "all f32 images (valid or not), filters, pools, task orders, instruction sets", "why_tests_cant": "all inputs, schedules and CPU feature sets", "anchors": ["src/scaler.rs", "src/dispatch_group_f32.rs", "src/sse/plane_f32.rs", "src/avx2/rgba_f32.rs", "src/plane_f32.rs"]}
{"id": "C70", "title": "Alpha-aware f32 calls on x86-64", "statement": "On every x86-64 CPU resize_rgba_f32 refuses exactly the malformed calls without touching the destination, succeeds on every valid one, does not depend on the schedule, equals the plain resize when the flag is off, and with the flag multiplies the colours by alpha when alpha varies, resizes, then divides by the resampled alpha, giving zero under zero alpha; its alpha channel is that of the plain resize.", "quantifier": "all f32 RGBA images, filters, pools, task orders, instruction sets", "why_tests_cant": "all widths (blocks of eight or four pixels and leftovers), values, schedules", "anchors": ["src/alpha_handle_f32.rs", "src/sse/alpha_f32.rs", "src/avx2/alpha_f32.rs", "src/sse/utils.rs", "src/avx2/utils.rs", "src/scaler.rs"]}
{"id": "C71", "title": "f32 colours are recovered from premultiplied ones", "statement": "After an alpha-aware f32 resize every colour is the resampled premultiplied colour divided by the resampled alpha, up to three units in the last place, wherever it stands in its row; equal pixels of a row give equal results; on an opaque image the flag changes colours only by the rounding of the weights.", "quantifier": "all f32 RGBA images with finite samples, filters, instruction sets", "why_tests_cant": "all values and positions; two different formulas are used in one row", "anchors": ["src/alpha_handle_f32.rs", "src/sse/alpha_f32.rs", "src/avx2/alpha_f32.rs"]}
{"id": "C72", "title": "Columns of 16-bit images on x86-64", "statement": "When only the height of a 16-bit image changes, every destination sample is computed from the samples of its own column: up to 12 bits the weighted sum over the window rounded to nearest, within 1 of the portable result; above 12 bits the f32 sum rounded to nearest.", "quantifier": "all 16-bit images, depths, row lengths, filters, instruction sets", "why_tests_cant": "the vector code splits a row into parts of 32, 16, 8 and 4 samples and leftovers: all row lengths and windows", "anchors": ["src/sse/vertical_u16_lb.rs", "src/avx2/vertical_u16_lb.rs", "src/sse/vertical_u16.rs", "src/handler_provider.rs", "src/dispatch_group_u16.rs"]}
{"id": "C73", "title": "Rows of 16-bit images on x86-64", "statement": "When only the width of a 16-bit image changes, the result is that of the portable code, whether a row is processed in a group of four or alone; each weight of the window is applied to its own pixel.", "quantifier": "all 16-bit images, depths, widths, window lengths, instruction sets", "why_tests_cant": "all window lengths and numbers of rows", "anchors": ["src/sse/rgba_u16_lb.rs", "src/avx2/rgba_u16_lb.rs", "src/sse/rgba_u16.rs", "src/handler_provider.rs", "src/dispatch_group_u16.rs"]}
{"id": "C74", "title": "16-bit calls on x86-64: refusals, success, schedules, padding", "statement": "On every x86-64 CPU a 16-bit resize without alpha handling refuses exactly the documented malformed calls leaving the destination untouched, succeeds on every valid call whatever the samples, gives the same result with and without a pool and for every task order, copies when the size does not change, leaves the destination's padding alone, and is the portable call under Nearest and without vector instructions.", "quantifier": "all 16-bit images (valid or not), filters, pools, task orders, instruction sets", "why_tests_cant": "all inputs, schedules and CPU feature sets", "anchors": ["src/scaler.rs", "src/dispatch_group_u16.rs", "src/handler_provider.rs", "src/sse/vertical_u16_lb.rs", "src/sse/rgba_u16.rs"]}
{"id": "C75", "title": "What a 16-bit resize computes on x86-64", "statement": "On every x86-64 CPU a 16-bit resize computes a stated function of the source picture and the windows of the filter, rows first, and stays within the range of the bit depth up to 12 bits.", "quantifier": "all 16-bit images, depths, channel counts, filters, sizes, instruction sets", "why_tests_cant": "all sizes, row lengths, window lengths, samples", "anchors": ["src/scaler.rs", "src/dispatch_group_u16.rs", "src/handler_provider.rs", "src/sse/vertical_u16_lb.rs", "src/avx2/vertical_u16_lb.rs", "src/sse/vertical_u16.rs", "src/sse/rgba_u16_lb.rs", "src/avx2/rgba_u16_lb.rs", "src/sse/rgba_u16.rs"]}
{"id": "C76", "title": "Alpha-aware 16-bit calls on x86-64: refusals, success, schedules, padding", "statement": "On every x86-64 CPU an alpha-aware 16-bit RGBA resize is the plain resize when the flag is off, refuses exactly the documented malformed calls leaving the destination untouched, succeeds on every valid call whatever the samples, gives the same result with and without a pool and for every task order, leaves the destination's padding alone, and is the portable call without vector instructions.", "quantifier": "all 16-bit RGBA images (valid or not), filters, pools, task orders, instruction sets, reciprocal instructions", "why_tests_cant": "all inputs, schedules and CPU feature sets", "anchors": ["src/scaler.rs", "src/image_store.rs", "src/alpha_handle_u16.rs", "src/sse/alpha_u16.rs", "src/avx2/alpha_u16.rs", "src/sse/check_alpha.rs", "src/avx2/check_alpha.rs"]}
{"id": "C77", "title": "Alpha-aware 16-bit resizing on x86-64 is premultiply, resize, un-premultiply", "statement": "With the flag on, an image whose alpha varies is premultiplied pixel by pixel, resized, and un-premultiplied pixel by pixel; an image of constant alpha is resized as it is and un-premultiplied; whatever the position of a pixel in its row; the alpha channel of the result is the one of the plain resize.", "quantifier": "all 16-bit RGBA images, depths, widths, filters, instruction sets", "why_tests_cant": "all widths (vector blocks and leftovers), samples, positions", "anchors": ["src/scaler.rs", "src/image_store.rs", "src/alpha_handle_u16.rs", "src/sse/alpha_u16.rs", "src/avx2/alpha_u16.rs", "src/sse/check_alpha.rs", "src/avx2/check_alpha.rs", "src/sse/utils.rs", "src/avx2/utils.rs"]}
{"id": "C78", "title": "16-bit premultiplication on x86-64", "statement": "Premultiplying multiplies every colour by alpha/max of the bit depth, rounded to nearest: opaque pixels keep their colours and the result stays within the depth.", "quantifier": "all colours and alphas of every bit depth, instruction sets", "why_tests_cant": "2^32 pairs of samples for each of 16 depths and three instruction sets", "anchors": ["src/sse/alpha_u16.rs", "src/avx2/alpha_u16.rs", "src/sse/utils.rs", "src/avx2/utils.rs"]}
{"id": "C79", "title": "16-bit un-premultiplication on x86-64", "statement": "Un-premultiplying divides every colour by alpha/max of the bit depth, rounded to nearest, within the accuracy of the reciprocal instruction; transparent pixels keep their colours; opaque colours come back unchanged and a premultiplied colour comes back within the error of its rounding.", "quantifier": "all colours and alphas of every bit depth, instruction sets, reciprocal instructions of the documented accuracy", "why_tests_cant": "2^32 pairs of samples for each depth and instruction set, every CPU's reciprocal table", "anchors": ["src/sse/alpha_u16.rs", "src/avx2/alpha_u16.rs", "src/alpha_handle_u16.rs"]}
{"id": "C80", "title": "f16 images: refusals, success, schedules, rows, locality", "statement": "With the feature nightly_f16, resizing f16 images refuses exactly the documented malformed calls leaving the destination untouched, succeeds on every valid call, gives the same result with and without a pool and for every task order, copies when the size stays, picks source samples with Nearest, treats rows independently of their neighbours, and lets a result depend only on the samples of its channel inside its windows; the alpha flag changes nothing when off, when the size stays, and with Nearest.", "quantifier": "all f16 images (valid or not), channel counts, filters, pools, task orders, both builds (fused or not)", "why_tests_cant": "all inputs and schedules", "anchors": ["src/f16.rs", "src/dispatch_group_f16.rs", "src/scaler_f16.rs", "src/scaler.rs", "src/alpha_handle_f16.rs"]}
{"id": "C81", "title": "f16 images: what happens to the padding of the destination", "statement": "Resizing f16 images leaves the padding of the destination alone when only the height changes and overwrites it with zeros when the width changes.", "quantifier": "all f16 images, strides, filters, alpha-aware or not", "why_tests_cant": "all strides, widths and heights", "anchors": ["src/f16.rs", "src/dispatch_group_f16.rs", "src/scaler_f16.rs", "src/scaler.rs"]}
{"id": "C82", "title": "f16 images: every result is a correctly rounded f32 sum", "statement": "Every f16 result of a pass is the f32 sum of the products of its window, each tap counted once, rounded once to the nearest f16 (magnitudes of 65520 and more become infinite); the conversions are exact one way, correctly rounded the other, and undo each other; for the polynomial filters the sum is within the f32 error bound of the textbook value.", "quantifier": "all f16 images, filters, sizes, both builds", "why_tests_cant": "all samples, windows and sizes", "anchors": ["src/f16.rs", "src/dispatch_group_f16.rs", "src/scaler_f16.rs", "src/scaler.rs"]}
{"id": "C83", "title": "f16 images: averaging filters do not overshoot, constants stay", "statement": "With an averaging filter no f16 result is larger in magnitude than the largest source sample (so finite samples never give infinities), and a constant channel stays exactly constant.", "quantifier": "all f16 images, averaging filters, downscales up to a stated limit", "why_tests_cant": "all sample values up to the largest finite f16, all sizes", "anchors": ["src/f16.rs", "src/dispatch_group_f16.rs", "src/scaler_f16.rs", "src/scaler.rs"]}
{"id": "C84", "title": "f16 images: alpha", "statement": "With the flag on, an f16 RGBA image is premultiplied (each product rounded once), resized as by the plain call and un-premultiplied to within half a unit in the last place; the alpha channel is the one of the plain call, transparent pixels become black, and an opaque image gives bit for bit the result of the plain call.", "quantifier": "all f16 RGBA images, filters, both builds", "why_tests_cant": "all pairs of colours and alphas, all sizes", "anchors": ["src/f16.rs", "src/dispatch_group_f16.rs", "src/scaler_f16.rs", "src/scaler.rs", "src/alpha_handle_f16.rs", "src/image_store.rs"]}
{"id": "C85", "title": "Packed 30-bit images on x86-64: every result is the rounded weighted sum", "statement": "On a processor with SSE 4.1, resizing an AR30 or RA30 image sets every component of every output pixel to the fixed-point weighted sum of its window, rounded to the nearest value, for the pixels the filter names; padding stays, the two top bits are ones and the result differs from the portable one at most by the rounding.", "quantifier": "all AR30 and RA30 images, byte orders, strides, filters, sizes, pools and task orders", "why_tests_cant": "all window lengths, widths modulo 8, heights modulo 4 and sample values", "anchors": ["src/resize_ar30.rs", "src/dispatch_group_ar30.rs", "src/sse/horizontal_ar30.rs", "src/sse/vertical_ar30.rs", "src/sse/u8_utils.rs"]}
{"id": "C86", "title": "Packed 30-bit images on x86-64: refusals, success, schedules, strides", "statement": "On every processor, resizing AR30 or RA30 images refuses exactly the documented malformed calls leaving the destination untouched, succeeds on every valid call without writing outside the visible bytes, gives the same result for every pool and task order and for every layout of the same visible source, and copies or picks samples in the same way with and without SSE 4.1.", "quantifier": "all AR30 and RA30 images (valid or not), byte orders, strides, filters, pools, task orders, with and without SSE 4.1", "why_tests_cant": "all inputs and schedules", "anchors": ["src/resize_ar30.rs", "src/dispatch_group_ar30.rs", "src/sse/horizontal_ar30.rs", "src/sse/vertical_ar30.rs", "src/sse/u8_utils.rs"]}
{"id": "C87", "title": "f16 images on x86-64: the calls", "statement": "On every processor, with and without the alpha flag, resizing f16 images refuses exactly the documented malformed calls leaving the destination untouched, succeeds on every valid call, gives the same result for every pool and task order, copies when the size stays, depends only on the samples in the window, treats rows alike, and keeps the padding of the destination except that the kernels without vector code clear it when the width changes.", "quantifier": "all f16 images (valid or not), channel counts, filters, pools, task orders, both builds, processors with any of SSE 4.1, AVX2, FMA, F16C", "why_tests_cant": "all inputs, schedules and instruction sets", "anchors": ["src/f16.rs", "src/sse/vertical_f16.rs", "src/sse/rgba_f16.rs", "src/sse/rgb_f16.rs", "src/sse/f16_utils.rs", "src/avx2/vertical_f16.rs", "src/avx2/rgba_f16.rs", "src/alpha_handle_f16.rs", "src/sse/alpha_f16.rs", "src/avx2/alpha_f16.rs"]}
{"id": "C88", "title": "f16 images on x86-64: the vector kernels compute correctly rounded f32 sums", "statement": "On a processor with F16C (or without SSE 4.1), every f16 result of a pass of the vector kernels is the f32 sum of the products of its window, each tap counted once, rounded once to the nearest f16; for the polynomial filters the sum is within the f32 error bound of the textbook value; with an averaging filter results do not overshoot and constant channels stay exactly constant.", "quantifier": "all f16 images, channel counts, filters, sizes, both builds, processors with F16C or without SSE 4.1", "why_tests_cant": "all samples, window lengths modulo the block sizes, row lengths and sizes", "anchors": ["src/f16.rs", "src/sse/vertical_f16.rs", "src/sse/rgba_f16.rs", "src/sse/rgb_f16.rs", "src/sse/f16_utils.rs", "src/avx2/vertical_f16.rs", "src/avx2/rgba_f16.rs", "src/alpha_handle_f16.rs", "src/sse/alpha_f16.rs", "src/avx2/alpha_f16.rs"]}
{"id": "C89", "title": "f16 images on x86-64: alpha", "statement": "With the flag on, an f16 RGBA image is premultiplied (each product rounded once), resized as by the plain call and un-premultiplied by dividing colours by alpha; the alpha channel is the one of the plain call, transparent pixels become black, and an opaque image gives bit for bit the result of the plain call.", "quantifier": "all f16 RGBA images, filters, both builds, processors with F16C or without SSE 4.1", "why_tests_cant": "all pairs of colours and alphas, all widths modulo 8 and 16", "anchors": ["src/f16.rs", "src/sse/vertical_f16.rs", "src/sse/rgba_f16.rs", "src/sse/rgb_f16.rs", "src/sse/f16_utils.rs", "src/avx2/vertical_f16.rs", "src/avx2/rgba_f16.rs", "src/alpha_handle_f16.rs", "src/sse/alpha_f16.rs", "src/avx2/alpha_f16.rs", "src/image_store.rs"]}
{"id": "C90", "title": "f16 resizing on x86-64 without F16C", "statement": "On a processor with SSE4.1 but without F16C, the f16 calls succeed on valid arguments; samples are widened exactly; the columns pass, and the rows pass of images with three or four channels, store the f16 value nearest to the magnitude of the f32 sum of the window: no result of such a pass is negative, constants lose their sign, and averaging filters do not overshoot in magnitude. With alpha, the pixels of whole blocks of eight are multiplied by alpha in magnitude on the way in and again on the way out.", "quantifier": "every valid call, filter, image, pool, processor with SSE4.1 and without F16C, build with and without fused multiply-add", "why_tests_cant": "all f16 samples and f32 sums, all layouts; needs hardware without F16C", "anchors": ["src/sse/f16_utils.rs: _mm_cvtph_ps_fallback, _mm_cvtps_ph_fallback", "src/f16.rs", "src/sse/vertical_f16.rs", "src/sse/rgba_f16.rs", "src/sse/rgb_f16.rs", "src/sse/f16_utils.rs", "src/avx2/vertical_f16.rs", "src/avx2/rgba_f16.rs", "src/alpha_handle_f16.rs", "src/sse/alpha_f16.rs", "src/avx2/alpha_f16.rs"]}
{"id": "C91", "title": "Alpha-aware resizing is local", "statement": "For two alpha-aware calls that agree in sizes, bit depth and filter, a pixel of the result is the same when the two sources agree on the pixels of its window, whatever lies outside the window, in the padding, in the destinations and in the thread pools - provided alpha varies in both sources or in neither. Without that condition a pixel anywhere in the source that makes alpha vary changes results whose windows do not contain it (u8, witnessed). f16 calls need no condition. Likewise, when only the width changes, each row of the result is the result of resizing that row alone, provided alpha varies in the image and in the row, or in neither; otherwise it need not be (u8, witnessed).", "quantifier": "every pair of valid calls, every filter but Nearest, every pool, u8, u16, f32 (portable and x86-64) and f16 RGBA images", "why_tests_cant": "all pairs of images that agree on a window", "anchors": ["src/scaler.rs: generic_resize_with_alpha", "src/image_store.rs: is_alpha_premultiplication_needed", "src/alpha_check.rs", "src/alpha_handle_u8.rs", "src/alpha_handle_u16.rs", "src/alpha_handle_f32.rs", "src/alpha_handle_f16.rs"]}
{"id": "C92", "title": "8-bit resizing on x86-64 is local, and rows are independent", "statement": "On x86-64, on every processor and with either strategy, two 8-bit calls that agree in sizes and filter give the same result sample wherever their sources agree on the window of that sample, whatever the padding, the destinations and the thread pools contain; when only the width changes, each row of the result is the result of resizing that row alone. Both hold with alpha handling too, when alpha varies in both sources (the image and the row) or in neither. RGB with AVX2 breaks the first claim: a red or green sample of the first column changes every result of its row.", "quantifier": "every pair of valid calls, every filter but Nearest, every pool, every processor (SSE4.1, AVX2 or neither), both strategies", "why_tests_cant": "all pairs of images that agree on a window; all widths modulo the block sizes of the kernels", "anchors": ["src/dispatch_group_u8.rs", "src/avx2/vertical_u8.rs", "src/sse/vertical_u8.rs", "src/avx2/rgb_u8.rs", "src/avx2/rgba_u8_lb.rs", "src/sse/rgba_u8.rs", "src/sse/rgb_u8.rs", "src/scaler.rs: generic_resize"]}
{"id": "C93", "title": "16-bit resizing on x86-64 is local, and rows are independent", "statement": "On x86-64, two 16-bit calls that agree in sizes, depth and filter give the same result sample wherever their sources agree on the window of that sample, provided the height does not change, or the row length is one whose columns are read in place, or the vector kernels are not used; elsewhere a result can depend on a column outside its window. Both claims also hold with alpha handling on, if alpha varies in both sources (the image and the row) or in neither. When only the width changes, each row of the result is the result of resizing that row alone, except, above 12 bits with SSE 4.1, for the RGBA rows that belong to a whole group of four.", "quantifier": "every pair of valid calls, every depth from 1 to 16, every filter but Nearest, every pool, every processor, builds with and without fused multiply-add", "why_tests_cant": "all pairs of images that agree on a window; all row lengths modulo the block sizes of the kernels", "anchors": ["src/dispatch_group_u16.rs", "src/avx2/vertical_u16_lb.rs", "src/sse/vertical_u16_lb.rs", "src/sse/vertical_u16.rs", "src/sse/rgba_u16.rs", "src/sse/rgba_u16_lb.rs", "src/avx2/rgba_u16_lb.rs"]}
