{
 "claims": [
  {
   "property": "C01",
   "status": "partial",
   "theorems": [
    "C01_constructors_partial",
    "C01_constructors_refuted"
   ],
   "note": "proved when width*height*channels fits usize; refuted otherwise (the product wraps: an empty buffer is accepted for a 2^32 x 2^32 image)"
  },
  {
   "property": "C02",
   "status": "partial",
   "theorems": [
    "C02_accepted_images_are_addressable_partial",
    "C02_accepted_images_are_addressable_refuted"
   ],
   "note": "proved when stride*height fits usize; refuted otherwise (stride 2^63, height 2, empty buffer is accepted)"
  },
  {
   "property": "C03",
   "status": "partial",
   "theorems": [
    "C03_stride_zero_destination_refuted",
    "C03_stride_zero_source_refuted"
   ],
   "note": "the claim is false of the code: every non-empty image with stride field 0 is refused with InvalidStride, as source and as destination"
  },
  {
   "property": "C04",
   "status": "proved",
   "theorems": [
    "C04_refusals",
    "C04_refusals_rgba",
    "C04_plain_table",
    "C04_error_codes",
    "C04_refusals_u16",
    "C04_refusals_rgba_u16",
    "C04_refusals_f32",
    "C04_refusals_rgba_f32"
   ],
   "note": "decision table for the plain resize calls; C10 excludes the panic alternative for valid calls"
  },
  {
   "property": "C05",
   "status": "proved",
   "theorems": [
    "C05_failure_is_clean",
    "C05_failure_is_clean_rgba",
    "C05_failure_is_clean_u16",
    "C05_failure_is_clean_f32"
   ],
   "note": ""
  },
  {
   "property": "C06",
   "status": "partial",
   "theorems": [
    "C06_same_size_partial",
    "C06_padding_refuted",
    "C06_same_size_u16_partial",
    "C06_same_size_f32_partial",
    "C06_same_size_rgba"
   ],
   "note": "identity on visible samples proved; 'destination padding left alone' refuted: padding of the source is copied over it"
  },
  {
   "property": "C07",
   "status": "partial",
   "theorems": [
    "C07_copied_partial",
    "C07_copied_refuted"
   ],
   "note": "proved for densely packed images; refuted with row padding: the copy has stride width*N over the padded buffer"
  },
  {
   "property": "C08",
   "status": "partial",
   "theorems": [
    "C08_nearest_partial",
    "C08_nearest_strided_refuted",
    "C08_nearest_u16_partial",
    "C08_nearest_f32_partial"
   ],
   "note": "proved for densely packed images; refuted for strided ones (strides are ignored)"
  },
  {
   "property": "C09",
   "status": "partial",
   "theorems": [
    "C09_windows_inside_partial",
    "C09_windows_inside_refuted"
   ],
   "note": "proved for source sides up to 2^23 (Area: destination up to 2^22); refuted above 2^24"
  },
  {
   "property": "C10",
   "status": "partial",
   "theorems": [
    "C10_valid_calls_succeed_partial",
    "C10_valid_calls_succeed_u16",
    "C10_valid_calls_succeed_f32"
   ],
   "note": "portable paths u8, u16, f32; sides up to 2^23; filters other than Nearest (Nearest: C08)"
  },
  {
   "property": "C11",
   "status": "partial",
   "theorems": [
    "C11_convolution_averaging",
    "C11_convolution_partial",
    "C11_convolution_u16_averaging",
    "C11_convolution_u16_partial",
    "C11_convolution_deep"
   ],
   "note": "unconditional for the averaging filters (Bilinear, Box, Area, Quadric, Welch); for the other filters proved when the source is at most 42 times the destination in each direction (beyond that the 32-bit accumulator bound is open)"
  },
  {
   "property": "C12",
   "status": "proved",
   "theorems": [
    "C12_rows_are_independent",
    "C12_rows_are_independent_u16",
    "C12_rows_are_independent_f32"
   ],
   "note": "stated on the public call: each row of a width-only resize equals the resize of that row alone (1-row code), so 4-row grouping is invisible"
  },
  {
   "property": "C13",
   "status": "proved",
   "theorems": [
    "C13_schedule_independent",
    "C13_schedule_independent_rgba",
    "C13_schedule_independent_u16",
    "C13_schedule_independent_f32",
    "C13_interleaving",
    "C13_interleaving_completes"
   ],
   "note": "whole-row schedules for every call; C13_interleaving extends each row loop to interleaved single loads and stores"
  },
  {
   "property": "C14",
   "status": "partial",
   "theorems": [
    "C14_padding_partial",
    "C14_padding_nearest_refuted",
    "C06_padding_refuted",
    "C14_padding_u16_partial",
    "C14_padding_f32_partial"
   ],
   "note": "proved for convolving calls; refuted for Nearest and for the same-size copy"
  },
  {
   "property": "C15",
   "status": "partial",
   "theorems": [
    "C15_only_visible_samples_matter_partial",
    "C15_only_visible_samples_matter_u16_partial"
   ],
   "note": "convolving calls; refuted for strided Nearest by C08_nearest_strided_refuted"
  },
  {
   "property": "C16",
   "status": "proved",
   "theorems": [
    "C16_range",
    "C16_range_u16"
   ],
   "note": "8-bit and 16-bit"
  },
  {
   "property": "C17",
   "status": "partial",
   "theorems": [
    "C17_averaging_no_overflow",
    "C17_any_filter_no_overflow_partial"
   ],
   "note": "all sizes for averaging filters up to 12 bits; all filters for downscale up to 42 and 8 bits"
  },
  {
   "property": "C18",
   "status": "partial",
   "theorems": [
    "C18_constant_partial",
    "C18_constant_refuted",
    "C18_constant_sharp_refuted",
    "C18_constant_u16_partial",
    "C18_constant_deep_partial",
    "C18_constant_deep_refuted"
   ],
   "note": "exact when only the width changes, within one unit otherwise (averaging filters, downscale up to 61); exactness refuted: the vertical pass rounds down, 255 becomes 254; and filters with negative lobes lose up to 42 of 255 near borders when enlarging, their weights above one being clipped by the quantisation"
  },
  {
   "property": "C19",
   "status": "proved",
   "theorems": [
    "C19_locality",
    "C19_locality_u16",
    "C19_locality_f32"
   ],
   "note": ""
  },
  {
   "property": "C20",
   "status": "partial",
   "theorems": [
    "C20_monotone",
    "C20_extremes_partial",
    "C20_monotone_u16",
    "C20_monotone_deep_partial",
    "C20_extremes_u16_partial",
    "C20_extremes_deep_partial"
   ],
   "note": "averaging filters; lower extreme up to one unit because the vertical pass rounds down"
  },
  {
   "property": "C21",
   "status": "partial",
   "theorems": [
    "C21_quantisation",
    "C21_always_sixteen_bits",
    "C21_rows",
    "C21_unit_weight_refuted"
   ],
   "note": "proved for the alignment the portable code requests; the clamp makes weight one 32767/32768"
  },
  {
   "property": "C22",
   "status": "partial",
   "theorems": [
    "C22_premultiply_partial",
    "C22_alpha_kept_refuted"
   ],
   "note": "colours exact, at most alpha, padding untouched; 'keeps alpha' is false of the portable code, which stores round(alpha*alpha/255)"
  },
  {
   "property": "C23",
   "status": "partial",
   "theorems": [
    "C23_unpremultiply_partial",
    "C23_round_trip_partial",
    "C23_round_trip_refuted"
   ],
   "note": "alpha kept, transparent to black, colours up to alpha exact, round trip within half a step if premultiplication had kept alpha; the actual portable round trip fails (200 under alpha 128 comes back as 142) because premultiplication squares alpha"
  },
  {
   "property": "C24",
   "status": "partial",
   "theorems": [
    "C24_premultiply16_partial",
    "C24_premultiply16_refuted"
   ],
   "note": "exact at depths 10 and 16, within (-65/64,1/2] units at every depth; exactness at depth 12 and keeping alpha refuted"
  },
  {
   "property": "C25",
   "status": "partial",
   "theorems": [
    "C25_unpremultiply16_partial",
    "C25_alpha_kept_refuted"
   ],
   "note": "colours not above alpha accurate and in range; alpha is not kept (becomes the maximum or one less) and colours above alpha can leave the range"
  },
  {
   "property": "C26",
   "status": "partial",
   "theorems": [
    "C26_scan_u8_partial",
    "C26_scan_u16_partial",
    "C26_scan_f32_partial",
    "C26_scan_refuted"
   ],
   "note": "exact for rows up to 2^24 / 2^48 / 2^32 pixels; refuted for a row of 2^26+1 8-bit pixels (32-bit sum wraps)"
  },
  {
   "property": "C27",
   "status": "partial",
   "theorems": [
    "C27_opaque_partial",
    "C27_constant_alpha_refuted"
   ],
   "note": "opaque images, averaging filters: equal (width only) or within one unit; refuted for constant alpha 128"
  },
  {
   "property": "C30",
   "status": "proved",
   "theorems": [
    "C30_selectors",
    "C30_table"
   ],
   "note": ""
  },
  {
   "property": "C37",
   "status": "partial",
   "theorems": [
    "C37_weights_sum_to_one_partial"
   ],
   "note": "averaging filters: the sum is 1 up to (n+2)*2^-22"
  },
  {
   "property": "C38",
   "status": "proved",
   "theorems": [
    "C38_f32_expression",
    "C12_rows_are_independent_f32"
   ],
   "note": "portable path; every sample is the same fold of fmul/mlaf over its window"
  },
  {
   "property": "C39",
   "status": "partial",
   "theorems": [
    "C39_round_to_nearest_refuted",
    "C39_deep_sample_partial"
   ],
   "note": "false as stated: the sum is rounded up (0,0,0,1 halved twice gives 1); proved instead: ceiling of a sum accurate to n/64, clamped"
  },
  {
   "property": "C40",
   "status": "partial",
   "theorems": [
    "C40_pixel_kept_partial",
    "C40_pixel_kept_refuted"
   ],
   "note": "proved for averaging filters; refuted for the twelve jinc based filters (jinc(0)=0)"
  },
  {
   "property": "C41",
   "status": "proved",
   "theorems": [
    "C41_flag_off_is_plain",
    "C41_flag_off_is_plain_u16",
    "C41_flag_off_is_plain_f32"
   ],
   "note": ""
  },
  {
   "property": "C42",
   "status": "partial",
   "theorems": [
    "C42_nearest_is_nearest_refuted"
   ],
   "note": "false of the code: 2 -> 4 gives a a a b"
  },
  {
   "property": "C43",
   "status": "proved",
   "theorems": [
    "C43_alpha_pipeline",
    "C43_alpha_pipeline_u16",
    "C43_alpha_pipeline_f32"
   ],
   "note": "8-bit portable path; the pixel functions are spelled out in SpecAlpha.v"
  },
  {
   "property": "C44",
   "status": "partial",
   "theorems": [
    "C44_alpha_channel_partial",
    "C44_alpha_channel_refuted",
    "C44_alpha_channel_f32"
   ],
   "note": "proved for images of constant alpha; refuted when alpha varies: it is squared first"
  },
  {
   "property": "C45",
   "status": "proved",
   "theorems": [
    "C45_channel_order"
   ],
   "note": "averaging filters (Bilinear, Box, Area, Quadric, Welch)"
  },
  {
   "property": "C31",
   "status": "proved",
   "theorems": [
    "C31_pack_layout",
    "C31_round_trip",
    "C31_unpack"
   ],
   "note": ""
  },
  {
   "property": "C32",
   "status": "partial",
   "theorems": [
    "C32_rows_exact",
    "C32_rows_agree_partial",
    "C32_rows_agree_refuted"
   ],
   "note": "refuted: a leftover row (height not a multiple of four) with windows other than 2, 3, 4 or 6 taps uses a quarter of the taps (a white pixel becomes black); C32_rows_exact describes every call, C32_rows_agree_partial gives the claim whenever no such window meets a leftover row"
  },
  {
   "property": "C33",
   "status": "partial",
   "theorems": [
    "C33_strides_partial",
    "C33_same_size_partial",
    "C33_nearest_refuted",
    "C33_strides_refuted",
    "C33_same_size_refuted",
    "C32_rows_exact",
    "C33_valid_calls_succeed_partial",
    "C33_layouts_partial"
   ],
   "note": "proved without overflow condition for convolving filters when the width changes (any strides of source and destination) and for equal strides otherwise; refuted for Nearest (destination not written), for height-only resizes with different strides (panic or unwritten rows) and for same-size copies with different strides"
  },
  {
   "property": "C46",
   "status": "proved",
   "theorems": [
    "C46_refusals_30",
    "C46_valid_not_refused_30",
    "C46_schedule_independent_30"
   ],
   "note": ""
  },
  {
   "property": "C29",
   "status": "partial",
   "theorems": [
    "C29_worker_count",
    "C29_adaptive_area",
    "C29_adaptive_grows",
    "C29_no_workers_when_refused",
    "C29_policy_not_observable",
    "C29_scale_is_resize",
    "C29_options_decide_workers",
    "C29_single_stays_partial",
    "C29_single_stays_refuted"
   ],
   "note": "worker counts, and the policy not being observable in results, are proved; 'Single never spawns parallel work' is refuted for the SSE 4.1 un-premultiplication of RGBA16, which uses rayon's global pool without a pool"
  },
  {
   "property": "C47",
   "status": "proved",
   "theorems": [
    "C47_window_position"
   ],
   "note": "every convolving filter, sides up to 2^23 (Area when not enlarging; Area enlarging is C50)"
  },
  {
   "property": "C48",
   "status": "partial",
   "theorems": [
    "C48_weights_are_kernel_partial"
   ],
   "note": "polynomial filters, sides up to 65536, downscale up to 256; the transcendental filters are left out"
  },
  {
   "property": "C49",
   "status": "partial",
   "theorems": [
    "C49_textbook_kernels_partial",
    "C49_textbook_kernels_refuted"
   ],
   "note": "all polynomial filters except the Robidoux family; Robidoux is refuted: its constant divides by 13 where the textbook has 113"
  },
  {
   "property": "C50",
   "status": "partial",
   "theorems": [
    "C50_area_coverage_partial",
    "C50_area_coverage_refuted",
    "C50_area_coverage_image_refuted"
   ],
   "note": "within outsz/2^19 when the product of the sides is at most 2^21 and the destination pixel does not start on a source pixel boundary; refuted on such boundaries (26 to 44, output 22)"
  },
  {
   "property": "C51",
   "status": "partial",
   "theorems": [
    "C51_textbook_result_partial",
    "C51_no_clipping_without_lobes"
   ],
   "note": "polynomial filters (Robidoux with the constant the code has), sides up to 65536, downscale up to 42 (170 for averaging filters), Area not enlarging; output positions whose ideal weights exceed one are excluded, they are clipped (C18_constant_sharp_refuted)"
  },
  {
   "property": "C34",
   "status": "partial",
   "theorems": [
    "C34_supported_instructions_partial",
    "C34_supported_instructions_refuted"
   ],
   "note": "8-bit kernels; proved except RGBA images under PreferSpeed without AVX2 when the width changes by less than a factor 8, where the AVX2 kernel is selected (rgba_u8.rs uses || where && was meant): refuted for all such calls. u16/f32 kernels and the alpha kernels are not covered"
  },
  {
   "property": "C35",
   "status": "partial",
   "theorems": [
    "C35_avx2_vertical_partial",
    "C35_avx2_vertical_refuted",
    "C35_sse41_vertical_refuted"
   ],
   "note": "AVX2 rounds where the portable code truncates: within 0..1, not equal; the SSE4.1 kernel lacks the final shift and paints white, refuted for every image with averaging filters"
  },
  {
   "property": "C52",
   "status": "partial",
   "theorems": [
    "C52_x86_result_partial",
    "C52_without_convolution"
   ],
   "note": "8-bit, premultiply off; averaging filters or downscale up to 21; calls that trap (C34) excluded"
  },
  {
   "property": "C53",
   "status": "proved",
   "theorems": [
    "C53_refusals_x86",
    "C53_schedule_independent_x86",
    "C53_refusals_rgba_x86",
    "C53_schedule_independent_rgba_x86",
    "C53_flag_off_x86"
   ],
   "note": "all arguments; plain and alpha-aware calls"
  },
  {
   "property": "C54",
   "status": "partial",
   "theorems": [
    "C54_horizontal_partial",
    "C54_rgb_avx2_refuted",
    "C54_rgb_avx2_witness_refuted"
   ],
   "note": "PreferQuality: exact equality except RGB with AVX2, whose kernel reads red and green of the last taps from the start of the row; refuted"
  },
  {
   "property": "C55",
   "status": "partial",
   "theorems": [
    "C55_quality_partial",
    "C55_speed_vertical_partial",
    "C55_speed_partial",
    "C55_speed_refuted"
   ],
   "note": "averaging filters; 0..2 for AVX2 quality, 0..2 for speed when only the height changes, -1..5 for one and two channels in both directions; refuted for RGBA under PreferSpeed with AVX2 (512 columns of 3 average to 0)"
  },
  {
   "property": "C56",
   "status": "partial",
   "theorems": [
    "C56_constant_partial",
    "C56_constant_refuted",
    "C56_opaque_refuted"
   ],
   "note": "AVX2, PreferQuality, not RGB, averaging filters; refuted under PreferSpeed: 128 becomes 129, and an opaque RGBA image becomes translucent (wrong weight lane in avx2/rgba_u8_lb.rs)"
  },
  {
   "property": "C28",
   "status": "partial",
   "theorems": [
    "C28_premultiply_sse41_partial",
    "C28_premultiply_avx2_partial",
    "C28_arithmetic",
    "C28_agree_partial",
    "C28_agree_refuted"
   ],
   "note": "closed form for both instruction sets at every width; AVX2 is the portable value or one less; refuted as stated: 1*128/255 gives 0 instead of 1, and SSE4.1 keeps the alpha the portable code squares"
  },
  {
   "property": "C57",
   "status": "partial",
   "theorems": [
    "C57_pipeline_x86_partial",
    "C53_flag_off_x86"
   ],
   "note": "missing: colours under alpha 1 (AVX2 turns those above 128 black), non-tame filters, the trapping AVX2 selection"
  },
  {
   "property": "C58",
   "status": "partial",
   "theorems": [
    "C58_unpremultiply_sse41",
    "C58_unpremultiply_avx2_partial",
    "C58_round_trip_sse41",
    "C58_round_trip_avx2_refuted"
   ],
   "note": "full for SSE4.1; AVX2 fails under alpha 1 and, squaring alpha, does not round-trip (200 under 128 returns as 255 under 64)"
  },
  {
   "property": "C59",
   "status": "partial",
   "theorems": [
    "C59_opaque_x86_partial"
   ],
   "note": "AVX2 with PreferQuality, averaging filters, downscale at most 61; refuted in general by C56_opaque_refuted"
  },
  {
   "property": "C36",
   "status": "partial",
   "theorems": [
    "C36_u8_partial",
    "C36_u16_aligned_partial",
    "C36_f32_aligned_partial",
    "C36_f16_aligned_partial",
    "C36_f16_packed_partial",
    "C36_f16_padding_kept_refuted",
    "C36_f16_bits",
    "C36_cbcr16_unaligned_partial",
    "C36_codes",
    "C36_numbers",
    "C36_refusals_u8",
    "C36_unaligned_source_refuted",
    "C36_odd_stride_refuted",
    "C36_unaligned_destination_refuted",
    "C36_destination_rows_refuted",
    "C36_padding_refuted"
   ],
   "note": "Memory-level model of the C entry points. 8-bit: every address and byte stride (exact statement, size-changing calls with a convolution filter). 16-bit and f32: aligned destinations with divisible strides, unaligned sources when channels = bytes per sample; CbCr16 to misaligned odd-stride destinations. Refuted as stated: misaligned planar sources are read wrongly, odd destination strides are truncated, misaligned destinations are undefined behaviour, and padding is written by same-size and Nearest calls. f16: the same, except that changing the width also clears the bytes between destination rows (stated exactly, and refuted as a claim). Missing: x86 paths."
  },
  {
   "property": "C60",
   "status": "partial",
   "theorems": [
    "C60_pipeline_rgb",
    "C60_pipeline_rgba_partial",
    "C60_pipeline_approx",
    "C60_pipeline_approx_rgba"
   ],
   "note": "All nine scalers, any conversion arithmetic (colorutils_rs is a parameter), packed images, all filters and flags. RGBA: not LinearScaler with another transfer function than sRGB (refuted, C64). Destination width below 2^28."
  },
  {
   "property": "C61",
   "status": "partial",
   "theorems": [
    "C61_refusals_rgb",
    "C61_refusals_rgba",
    "C61_refusals_approx",
    "C61_failure_is_clean",
    "C61_valid_calls_succeed",
    "C61_valid_calls_succeed_rgba",
    "C61_same_size",
    "C61_cbcr_refuted"
   ],
   "note": "CbCr calls panic (unimplemented!): refuted. Success is proved for calls within valid_call and 32-bit strides."
  },
  {
   "property": "C62",
   "status": "partial",
   "theorems": [
    "C62_buffers_taken_as_packed",
    "C62_buffers_taken_as_packed_rgba",
    "C62_buffers_taken_as_packed_approx",
    "C62_padded_destination_refuted",
    "C62_padded_source_refuted"
   ],
   "note": "Refuted as stated: strides are ignored; the exact behaviour (start of both buffers taken as packed images, rest untouched) is proved."
  },
  {
   "property": "C63",
   "status": "proved",
   "theorems": [
    "C63_schedule_independent"
   ],
   "note": "The inner Scaler; the conversion crate itself is a parameter."
  },
  {
   "property": "C64",
   "status": "partial",
   "theorems": [
    "C60_pipeline_rgb",
    "C60_pipeline_rgba_partial",
    "C60_pipeline_approx",
    "C60_pipeline_approx_rgba",
    "C64_transfer_function_refuted",
    "C64_transfer_function_witness"
   ],
   "note": "Holds for RGB everywhere and for RGBA except LinearScaler, which always uses sRGB (refuted)."
  },
  {
   "property": "C65",
   "status": "partial",
   "theorems": [
    "C65_nearest",
    "C65_flat_approx_partial"
   ],
   "note": "Nearest: full for the f32 scalers, RGB, packed. Flat images: LinearApproxScaler, averaging filters, exact when only the width changes, otherwise one linear unit; the f32 scalers are missing."
  },
  {
   "property": "C66",
   "status": "partial",
   "theorems": [
    "C66_each_tap_once",
    "C66_each_tap_once_x86_partial",
    "C66_leftover_rows_x86",
    "C66_each_tap_once_x86_refuted"
   ],
   "note": "Full for the portable build. x86-64: every kernel except one-channel leftover rows with more than 16 taps (SSE 4.1), where taps are counted twice; what is computed there is stated exactly, and 20 white samples averaged to one give 1.4."
  },
  {
   "property": "C67",
   "status": "partial",
   "theorems": [
    "C67_rounding",
    "C67_rounding_x86_partial",
    "C67_textbook_f32_partial",
    "C67_range",
    "C67_range_x86_partial"
   ],
   "note": "Rounding bound for every filter; textbook value for the polynomial filters (those of C51) with its size and downscale limits; range for averaging filters. x86-64: except the one-channel leftover rows of C66."
  },
  {
   "property": "C68",
   "status": "partial",
   "theorems": [
    "C68_equal_rows_x86_partial",
    "C68_rows_are_independent_x86_partial",
    "C68_equal_rows_gray_refuted",
    "C68_equal_rows_rgba_refuted"
   ],
   "note": "Holds for two and three channels, one channel with windows up to 16, four channels without AVX2 or FMA, and rows of the same kind (for independence: the rows after the last whole group of four); refuted otherwise. The portable build: C12_rows_are_independent_f32."
  },
  {
   "property": "C69",
   "status": "partial",
   "theorems": [
    "C69_refusals_x86_f32",
    "C69_failure_is_clean_x86_f32",
    "C69_schedule_independent_x86_f32",
    "C69_valid_calls_succeed_x86_f32",
    "C69_same_size_x86_f32",
    "C69_nearest_x86_f32",
    "C69_padding_x86_f32",
    "C69_locality_x86_f32"
   ],
   "note": "Calls without alpha handling. Nearest is stated for packed rows; padding for size-changing convolutions (the documented limits of C08 and C14)."
  },
  {
   "property": "C70",
   "status": "proved",
   "theorems": [
    "C70_flag_off_x86_f32",
    "C70_refusals_rgba_x86_f32",
    "C70_failure_is_clean_x86_f32",
    "C70_schedule_independent_x86_f32",
    "C70_pipeline_x86_f32",
    "C70_valid_calls_succeed_x86_f32",
    "C70_alpha_channel_x86_f32"
   ],
   "note": "The pipeline theorem says for every pixel whether it is divided or multiplied by the reciprocal. The plain resize inside is the one of C66-C69."
  },
  {
   "property": "C71",
   "status": "partial",
   "theorems": [
    "C71_colours_recovered_f32",
    "C71_colours_recovered_x86_f32",
    "C71_opaque_f32_partial",
    "C71_opaque_x86_f32_partial",
    "C71_equal_pixels_x86_refuted"
   ],
   "note": "Recovery for alpha between 2^-40 and 2^40 in size and colours up to 2^50. Opaque: averaging filters, downscale at most 10000. Equal pixels give equal results only within a block or within the leftovers: refuted (five equal pixels, SSE 4.1)."
  },
  {
   "property": "C72",
   "status": "partial",
   "theorems": [
    "C72_in_place_sse",
    "C72_in_place_avx",
    "C72_columns_u16_x86_partial",
    "C72_close_to_portable_u16_partial",
    "C72_columns_deep_x86",
    "C72_columns_u16_x86_refuted"
   ],
   "note": "Refuted as stated: for most row lengths the later parts of a row read earlier columns. The row lengths where it holds are characterised exactly (multiples of 16 resp. 32 samples and a few short ones) and there the claim is proved: up to 12 bits for averaging filters at any size and others up to the stated downscale; above 12 bits for every filter and size."
  },
  {
   "property": "C73",
   "status": "partial",
   "theorems": [
    "C73_rows_as_portable_u16_partial",
    "C73_rows_deep_x86",
    "C73_leftover_rows_deep_x86",
    "C73_own_taps",
    "C73_leftover_rows_refuted"
   ],
   "note": "Up to 12 bits: averaging filters at any size, others up to the stated downscale. Above 12 bits: all rows except the last h mod 4 rows of RGBA images with SSE 4.1, where up to two taps read a neighbouring pixel (stated exactly, and refuted)."
  },
  {
   "property": "C74",
   "status": "proved",
   "theorems": [
    "C74_refusals_x86_u16",
    "C74_failure_is_clean_x86_u16",
    "C74_schedule_independent_x86_u16",
    "C74_valid_calls_succeed_x86_u16",
    "C74_padding_x86_u16",
    "C74_same_size_x86_u16",
    "C74_portable_cases_u16"
   ],
   "note": "Calls without alpha handling. Success and padding are for the convolution filters; Nearest is the portable call (C08, C10, C14)."
  },
  {
   "property": "C75",
   "status": "partial",
   "theorems": [
    "C75_low_u16_x86_partial",
    "C75_deep_u16_x86",
    "C75_low_range_u16_x86_partial"
   ],
   "note": "Above 12 bits: full. Up to 12 bits: averaging filters at any size, other filters up to the stated downscale (6 t (2 max + 1) <= 65535)."
  },
  {
   "property": "C76",
   "status": "proved",
   "theorems": [
    "C76_flag_off_x86_u16",
    "C76_refusals_rgba_x86_u16",
    "C76_failure_is_clean_rgba_x86_u16",
    "C76_schedule_independent_rgba_x86_u16",
    "C76_valid_calls_succeed_rgba_x86_u16",
    "C76_padding_rgba_x86_u16",
    "C76_portable_case_rgba_u16"
   ],
   "note": "Success and padding are for the convolution filters and 16-bit samples. SSE 4.1 un-premultiplication always uses rayon's global pool (C29); the result does not depend on it."
  },
  {
   "property": "C77",
   "status": "partial",
   "theorems": [
    "C77_pipeline_rgba_x86_u16",
    "C77_pipeline_any_width_x86_u16_partial",
    "C77_wide_rows_refuted",
    "C77_alpha_channel_deep_x86_u16",
    "C77_alpha_channel_low_x86_u16_partial"
   ],
   "note": "Full for rows of at most 32768 pixels; beyond that the 32-bit sums of the scan wrap: refuted by a row of 131073 pixels. Alpha channel: all depths above 12; below, within the overflow limits of C75 and not AVX2+FMA at depths other than 10 and 12."
  },
  {
   "property": "C78",
   "status": "partial",
   "theorems": [
    "C78_premultiply_exact_x86_u16",
    "C78_premultiply_exact16_x86_u16_partial",
    "C78_opaque16_refuted",
    "C78_white_turns_black",
    "C78_premultiply_close_x86_u16_partial",
    "C78_fused_rounding_refuted"
   ],
   "note": "Exact at 10 and 12 bits, and at 16 bits up to 32767; at 16 bits every opaque pixel turns black (signed multiplication of unsigned words): refuted. Other depths: within 33/64, or up to 65/64 above with AVX2 and FMA, which adds one half before rounding to nearest: refuted."
  },
  {
   "property": "C79",
   "status": "partial",
   "theorems": [
    "C79_unpremultiply_x86_u16_partial",
    "C79_round_trip_x86_u16",
    "C79_opaque_low_x86_u16",
    "C79_unpremultiply_refuted",
    "C79_white_refuted"
   ],
   "note": "Colours not above their alpha. Rounded to nearest only with AVX2 without FMA; otherwise up to one too large, so that white exceeds the maximum (refuted); at 16 bits SSE 4.1 cuts at 32767 (refuted), so that case is missing from the closeness theorem."
  },
  {
   "property": "C80",
   "status": "proved",
   "theorems": [
    "C80_refusals_f16",
    "C80_refusals_rgba_f16",
    "C80_failure_is_clean_f16",
    "C80_schedule_independent_f16",
    "C80_same_size_f16",
    "C80_flag_off_f16",
    "C80_valid_calls_succeed_f16",
    "C80_nearest_f16",
    "C80_locality_f16",
    "C80_scale_is_resize_f16",
    "C80_rows_are_independent_f16"
   ],
   "note": "Portable kernels. Success of Nearest is part of C80_nearest_f16, for packed rows (the limit of C08)."
  },
  {
   "property": "C81",
   "status": "proved",
   "theorems": [
    "C81_padding_f16",
    "C81_padding_kept_refuted"
   ],
   "note": "Convolution filters. The refuted statement is that of C14 (padding always kept), which holds for the other sample types."
  },
  {
   "property": "C82",
   "status": "partial",
   "theorems": [
    "C82_conversions_f16",
    "C82_each_tap_once_f16",
    "C82_textbook_f16_partial"
   ],
   "note": "Full except for the last clause: textbook value for the filters of C51 within their size and downscale limits."
  },
  {
   "property": "C83",
   "status": "partial",
   "theorems": [
    "C83_no_overshoot_f16_partial",
    "C83_constants_f16_partial"
   ],
   "note": "Downscales up to 150 in each direction."
  },
  {
   "property": "C84",
   "status": "partial",
   "theorems": [
    "C84_pipeline_f16",
    "C84_alpha_channel_f16",
    "C84_opaque_f16_partial"
   ],
   "note": "Opaque images: averaging filters, downscales up to 150. Recovery is stated for quotients up to 65504."
  },
  {
   "property": "C85",
   "status": "partial",
   "theorems": [
    "C85_x86_rows_exact",
    "C85_one_pass_partial",
    "C85_height_near_portable",
    "C85_leftover_row_refuted",
    "C85_five_taps_refuted",
    "C85_eight_block_refuted"
   ],
   "note": "The rounding, the padding and the exact taps are proved for every call within the overflow limit (averaging filters, or shrinking at most five times). The claim about the windows is false for the horizontal kernel: rows left over after the groups of four lose green and half of red and blue, the eight-tap block exchanges the second and third pair of pixels, the four-tap block repeats pixels 0 and 2 (three refutations); it holds when only the height changes, or for windows of at most four taps and heights that are multiples of four."
  },
  {
   "property": "C86",
   "status": "partial",
   "theorems": [
    "C86_refusals_30_x86",
    "C86_schedule_independent_30_x86",
    "C86_portable_without_sse",
    "C86_copy_any_processor",
    "C86_strides_partial",
    "C86_valid_calls_succeed_partial",
    "C86_layouts_partial",
    "C86_strides_refuted"
   ],
   "note": "Success and independence of the layouts: convolving filters; when only the height changes the strides must be equal (otherwise refuted, as in C33). Nearest and copies: C33, by C86_copy_any_processor."
  },
  {
   "property": "C87",
   "status": "partial",
   "theorems": [
    "C87_refusals_f16_x86",
    "C87_refusals_rgba_f16_x86",
    "C87_failure_is_clean_f16_x86",
    "C87_schedule_independent_f16_x86",
    "C87_same_size_f16_x86",
    "C87_flag_off_f16_x86",
    "C87_valid_calls_succeed_f16_x86",
    "C87_nearest_f16_x86",
    "C87_locality_f16_x86",
    "C87_rows_are_independent_f16_x86",
    "C87_locality_rgba_f16_x86",
    "C87_rows_are_independent_rgba_f16_x86",
    "C87_padding_f16_x86"
   ],
   "note": "Every processor. Nearest: packed rows (the limit of C08)."
  },
  {
   "property": "C88",
   "status": "partial",
   "theorems": [
    "C88_each_tap_once_f16_x86",
    "C88_textbook_f16_x86_partial",
    "C88_no_overshoot_f16_x86_partial",
    "C88_constants_f16_x86_partial"
   ],
   "note": "The sums are full; textbook value, overshoot and constants within the limits of C82 and C83."
  },
  {
   "property": "C89",
   "status": "partial",
   "theorems": [
    "C89_pipeline_f16_x86",
    "C89_white_turns_grey_f16_x86",
    "C89_colours_recovered_refuted",
    "C89_alpha_channel_f16_x86",
    "C89_opaque_f16_x86_partial"
   ],
   "note": "The division is false of the code: the pixels of whole blocks (sixteen with AVX2, eight with SSE 4.1) are multiplied by alpha a second time (refuted; white at alpha one half comes back at one quarter); the pixels after the last block are divided. Opaque images: averaging filters, downscales up to 150."
  },
  {
   "property": "C90",
   "status": "partial",
   "theorems": [
    "C90_widening_is_exact",
    "C90_narrowing_loses_the_sign",
    "C90_magnitudes_f16_x86",
    "C90_never_negative_f16_x86",
    "C90_no_overshoot_f16_x86_partial",
    "C90_constants_lose_the_sign_f16_x86_partial",
    "C90_constants_refuted",
    "C90_pipeline_f16_x86"
   ],
   "note": "Conversions and sums: complete up to 65520 in magnitude. Constants and overshoot: averaging filters, downscales up to 150. The refuted theorem is C88 on constant images, for these machines. Alpha: products complete up to 65520 in magnitude."
  },
  {
   "property": "C91",
   "status": "partial",
   "theorems": [
    "C91_locality_rgba_u8",
    "C91_locality_rgba_u16",
    "C91_locality_rgba_f32",
    "C91_locality_rgba_f32_x86",
    "C91_locality_rgba_f16",
    "C91_alpha_scan_is_not_local_refuted",
    "C91_rows_are_independent_rgba_u8",
    "C91_rows_are_independent_rgba_u16",
    "C91_rows_are_independent_rgba_f32",
    "C91_rows_are_independent_rgba_f16",
    "C91_rows_are_independent_rgba_f32_x86_partial",
    "C91_rows_depend_on_the_scan_refuted"
   ],
   "note": "Complete for the portable paths and x86 f32; u8 on x86 is in C92, u16 on x86 in C93, where the alpha-aware theorems leave out the depths up to 12 with AVX2 and FMA other than 10 and 12. Rows on x86: C87 (f16), C92 (u8), C93 (u16); rows of f32 images on x86 are not independent in general (C68): C91_rows_are_independent_rgba_f32_x86_partial covers CPUs without AVX2 or FMA and the rows after the last full group of four. The refuted theorems show that locality and row independence fail when the alpha of one source varies and that of the other does not."
  },
  {
   "property": "C92",
   "status": "partial",
   "theorems": [
    "C92_locality_u8_x86_partial",
    "C92_rows_are_independent_u8_x86_partial",
    "C92_locality_rgba_u8_x86_partial",
    "C92_rows_are_independent_rgba_u8_x86_partial",
    "C92_rgb_avx2_is_not_local_refuted"
   ],
   "note": "Averaging filters, or each side shrinking at most 21 times; locality excludes RGB with AVX2, where it is refuted (enlarging, averaging filters). The alpha pipeline excludes the calls that execute AVX2 code without AVX2 (C53)."
  },
  {
   "property": "C93",
   "status": "partial",
   "theorems": [
    "C93_locality_low_u16_x86_partial",
    "C93_locality_deep_u16_x86_partial",
    "C93_locality_rgba_deep_u16_x86_partial",
    "C93_locality_rgba_low_u16_x86_partial",
    "C93_rows_are_independent_low_u16_x86_partial",
    "C93_rows_are_independent_deep_u16_x86_partial",
    "C93_rows_are_independent_rgba_low_u16_x86_partial",
    "C93_rows_are_independent_rgba_deep_u16_x86_partial",
    "C93_columns_are_not_local_refuted"
   ],
   "note": "Up to 12 bits: averaging filters or bounded downscales (sums_fit). Locality when the height is kept, the columns are read in place, or no vector kernel runs; the refuted theorem shows that the condition is needed. Alpha, up to 12 bits: not the depths other than 10 and 12 with AVX2 and FMA, where a premultiplied sample can exceed the maximum (C78); images up to 32768 wide. Why the RGBA rows above 12 bits are excluded: C73."
  }
 ]
}