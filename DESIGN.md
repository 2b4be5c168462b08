# Formal model of pic-scale — design

Tool: Coq 8.16.1 (Rocq) with its standard library and Flocq (binary32). Sources in `rocq/theories`; nothing is generated.

## Layout

* **Model** (total Gallina, each definition cites the Rust file and lines it models):
  `Base` (outcomes, slices, chunk iterators, 64-bit wrap-around, row schedules), `ImageStore` (image_store.rs, errors),
  `ColorGroup`, `FixedPoint` (fixed_point_*.rs, filter_weights.rs quantisation), `Dispatch` (dispatch_group_*.rs),
  `FloatConv` (floating_point_*.rs), `Resize` (scaler.rs generic_resize*), `F32` (binary32 operations and conversions), `Weights`
  (generate_weights, kernels), `Sampler` (sampler.rs, nearest_sampler.rs), `Api`/`ApiRgba`/`ApiFloat` (the public calls),
  `Alpha` (alpha_handle_*.rs, alpha_check.rs), `Ar30` (ar30.rs and its kernels, resize_ar30.rs), `Threading` (threading_policy.rs,
  scale wrappers), `Simd` (the Intel intrinsics used, on lists of lanes), `X86Vertical`, `X86VerticalLp`, `X86Horizontal`,
  `X86Dispatch`, `X86Alpha` (sse/, avx2/ for 8-bit images), `X86Float`, `X86AlphaF32` (sse/ and avx2/ for f32 images), `X86U16`, `X86AlphaU16` (sse/ and avx2/ for 16-bit images), `X86Ar30` (sse/horizontal_ar30.rs, sse/vertical_ar30.rs, the AR30 parts of sse/u8_utils.rs), `F16` (f16.rs, dispatch_group_f16.rs, alpha_handle_f16.rs, scaler_f16.rs, portable kernels), `X86F16`, `X86AlphaF16` (their SSE and AVX2 kernels, sse/f16_utils.rs), `CApi`, `CApiF16` (picscale/src/lib.rs on byte memory), `Colors` (src/colors/*.rs; the per-pixel arithmetic of the external crate
  colorutils_rs is a parameter, its row geometry is assumed as documented).
* **Specification**, small and independent of the model's helpers: `Spec`, `SpecApi`, `SpecAlpha`, `SpecFloat`, `SpecAr30`,
  `SpecThreading`, `SpecKernels` (textbook kernels over the reals), `SpecAccuracy`, `SpecX86`, `SpecX86Alpha`, `SpecC`, `SpecColors`, `SpecX86Float`, `SpecFloatAccuracy`, `SpecFloatAlpha`, `SpecX86U16`, `SpecX86AlphaU16`, `SpecF16`, `SpecX86Ar30`.
* **Lemmas**: every other file.
* **Properties1 … Properties21**: the theorems named in MANIFEST.json, each followed by `Print Assumptions` and an
  `Example ..._nonvacuous` with a concrete, non-trivial case meeting its hypotheses.

Naming: `Cnn_name` full statement proved; `Cnn_name_partial` proved under restrictions, the doc comment and the manifest note say which;
`Cnn_name_refuted` a theorem that the claim, read literally, is false of the modelled code (usually a witness call, often for a whole class of calls).

## Conventions

* A buffer is a `list`; an integer sample is a `Z`, an f32 sample is a Flocq `binary_float 24 128` (one NaN).
* `&mut` arguments become returned values. An out-of-range slice, index, `unwrap` on `None`… is the explicit outcome `Panic`; for
  `get_unchecked`/raw pointers the same outcome stands for undefined behaviour. `C10` shows it never happens for valid calls.
* `usize` is 64-bit and wraps (release build); i32 accumulators wrap; `as` casts saturate/truncate as in Rust.
* libm functions (sin, cos, exp, …) are a record of arbitrary functions `libm`: theorems hold for any implementation of them.
* `mlaf`: both the fused and the unfused reading of multiply-add are covered (`mlaf_kind`).
* rayon: a row loop is a list of row tasks; a schedule is any order in which each task runs once (`pool_ok`). `C13_interleaving`
  goes below rows: any interleaving of single loads and stores.
* Machines: the portable path is what runs without SIMD features; the x86 path takes a record of detected CPU features. Selecting a
  kernel the CPU lacks is the outcome `Panic` (illegal instruction).
* `rcp` (the `_mm_rcp_ps`-style estimate in the alpha code) is a parameter with the accuracy Intel documents.

## Trusted base

Coq's kernel and VM (`vm_compute` is used for finite sweeps and witnesses); the hand translation of the Rust text into Gallina; for the x86 files the reading
of the Intel intrinsics in `Simd.v`; the standard library axioms listed at the end. No axioms of our own, no `Admitted`, no module functors.

## Modelled and not modelled

Modelled: everything listed under *Model* above — u8, u16 (all depths), f32 images of 1–4 channels through the portable path, including
premultiplied RGBA; AR30/RA30 (portable and SSE 4.1); f16 (portable, SSE 4.1, AVX2); Nearest; weights for all filters; threading policy; error handling; x86 SSE4.1 and AVX2 paths for 8-bit
images (vertical and horizontal, PreferQuality and PreferSpeed, plain and premultiplied RGBA) for f32 images with and without alpha handling, and for 16-bit images with and without alpha handling; the C interface for u8, u16, f16 and f32; the nine colour space scalers over the portable path.

Not modelled: NEON and AVX-512 code, the arithmetic inside the colour conversions
(crate colorutils_rs), performance, allocation failure, and what `rayon` itself does.
Simplifications are noted at each definition; the main ones: Rust's lazy zipped iterators are modelled by their lists of items, and loops over disjoint rows are
modelled as maps over rows (justified by `C13_interleaving`).

## Findings (each is a theorem; the suffix `_refuted` marks it)

image constructors and `validate` accept wrapping sizes (C01, C02); stride 0 is refused although documented (C03); same-size copies write padding
(C06); `copied` loses the stride (C07); Nearest ignores strides and is not nearest (C08, C42); the vertical pass truncates, so 255 becomes 254 (C18); clipped weights lose up to 42 of
255 (C18); premultiplication squares alpha (C22, C23, C44); 16-bit un-premultiplication does not keep alpha (C25); the alpha scan wraps on huge rows (C26);
the x86 un-premultiplication of f16 images multiplies colours by alpha (C89); the SSE conversion from f32 to f16 used without F16C drops the sign (C90); the SSE4.1 RGBA16 un-premultiply ignores the Single policy (C29); AR30 leftover rows, Nearest and height-only resizes (C32, C33); AVX2 selected
without AVX2 (C34); missing shift in the SSE4.1 vertical kernel (C35); C interface alignment handling (C36); deep images round up (C39); jinc(0) = 0 (C40);
Robidoux constant (C49); Area at pixel boundaries (C50); RGB AVX2 kernel reads the row start (C54); wrong weight lane in avx2/rgba_u8_lb.rs (C55, C56); AVX2 alpha 1 and round trip (C58); colour space scalers ignore strides (C62), panic on CbCr (C61), and LinearScaler ignores its transfer function for RGBA (C64); the SSE f32 one-channel row kernel counts taps twice (C66, C68), and the AVX2+FMA f32 RGBA row kernel is not fused, so equal rows differ (C68); the 16-bit vertical vector code reads wrong columns for most row lengths (C72), and the leftover rows of deep RGBA images read wrong pixels (C73); 16-bit alpha on x86-64: the scan wraps on wide rows (C77), opaque 16-bit pixels turn black (C78), one half is added twice, so white exceeds the maximum (C78, C79), and SSE 4.1 cuts 16-bit colours at 32767 (C79); the SSE 4.1 AR30 row kernels drop green in leftover rows, exchange pairs of pixels in the eight-tap block and repeat pixels in the four-tap block (C85).

## Properties: what is modelled, how it is proved, what is left

| id | status | modelled in | method | remarks |
|---|---|---|---|---|
| C01 Image constructors accept exactly the right buffers | partial | ImageStore.v: constructors | arithmetic on lengths modulo 2^64 | proved when width*height*channels fits usize; refuted otherwise (the product wraps: an empty buffer is accepted for a 2^32 x 2^32 image) |
| C02 Validation is sound: accepted images are addressable | partial | ImageStore.v: validate | arithmetic; witness with a wrapping product | proved when stride*height fits usize; refuted otherwise (stride 2^63, height 2, empty buffer is accepted) |
| C03 Stride zero means densely packed | partial | Resize.v: the checks of generic_resize | case analysis for all images with stride field 0 | the claim is false of the code: every non-empty image with stride field 0 is refused with InvalidStride, as source and as destination |
| C04 Error decision table | proved | Resize.v: decision prefix of every resize call | case analysis against the table SpecApi.refusal_table, plus "passes never return Err" lemmas (NoFail) | decision table for the plain resize calls; C10 excludes the panic alternative for valid calls |
| C05 A failed resize leaves the destination untouched | proved | Resize.v, Api*.v | every Err outcome carries the input destination |  |
| C06 Same-size resize is the identity on pixels | partial | ImageStore.v: copied_to_mut | row induction through splice/chunks lemmas | identity on visible samples proved; 'destination padding left alone' refuted: padding of the source is copied over it |
| C07 Copying an image preserves the image it denotes | partial | ImageStore.v: copied | list equalities | proved for densely packed images; refuted with row padding: the copy has stride width*N over the padded buffer |
| C08 Nearest-neighbour sampling copies in-range source pixels | partial | Sampler.v/NearestProofs: nearest_sampler.rs | binary32 rounding facts through Flocq | proved for densely packed images; refuted for strided ones (strides are ignored) |
| C09 Filter windows stay inside the source | partial | Weights.v: generate_weights over binary32 | Flocq error bounds on every rounded step, libm functions arbitrary | proved for source sides up to 2^23 (Area: destination up to 2^22); refuted above 2^24 |
| C10 Resizing valid images never panics or reads out of bounds | partial | Dispatch.v, FixedPoint.v, FloatConv.v | every slice of the portable kernels shown in range from C09 | portable paths u8, u16, f32; sides up to 2^23; filters other than Nearest (Nearest: C08) |
| C11 Resize computes the separable convolution | partial | FixedPoint.v, Dispatch.v, Resize.v | refinement of tiles/groups/tap loops to Spec.resample; wrap-around removed by C17 | unconditional for the averaging filters (Bilinear, Box, Area, Quadric, Welch); for the other filters proved when the source is at most 42 times the destination in each direction (beyond that the 32-bit accumulator bound is open) |
| C12 A row's result does not depend on how rows are grouped | proved | same | corollary of the pointwise result | stated on the public call: each row of a width-only resize equals the resize of that row alone (1-row code), so 4-row grouping is invisible |
| C13 The result does not depend on the threading policy or schedule | proved | Base.par_rows, Parallel.v | schedule = any permutation of row tasks; C13_interleaving: interleaved loads and stores of a small-step row machine | whole-row schedules for every call; C13_interleaving extends each row loop to interleaved single loads and stores |
| C14 Resize never writes row padding | partial | same as C11 | pointwise result + splice frame lemmas | proved for convolving calls; refuted for Nearest and for the same-size copy |
| C15 The result depends only on visible source samples | partial | same as C11 | pointwise result depends on visible samples only | convolving calls; refuted for strided Nearest by C08_nearest_strided_refuted |
| C16 Output samples stay in the sample range | proved | narrowing functions | interval argument | 8-bit and 16-bit |
| C17 The 32-bit accumulator never overflows | partial | i32 accumulators with wrap-around | bounds on sums of quantised weights (WeightSum, QuantSums, FilterSums) | all sizes for averaging filters up to 12 bits; all filters for downscale up to 42 and 8 bits |
| C18 Constant images stay constant | partial | same | sum of quantised weights near 2^15; concrete witnesses computed in the kernel | exact when only the width changes, within one unit otherwise (averaging filters, downscale up to 61); exactness refuted: the vertical pass rounds down, 255 becomes 254; and filters with negative lobes lose up to 42 of 255 near borders when enlarging, their weights above one being clipped by the quantisation |
| C19 Channels are independent and influence is local | proved | same | pointwise result |  |
| C20 Resizing is monotone for non-negative filters | partial | same | non-negative quantised weights | averaging filters; lower extreme up to one unit because the vertical pass rounds down |
| C21 Fixed-point weights approximate the real weights | partial | FixedPoint.v: numerical_approximation_i16 | Flocq rounding facts | proved for the alignment the portable code requests; the clamp makes weight one 32767/32768 |
| C22 8-bit alpha premultiplication | partial | Alpha.v | pixelwise; exact integer arithmetic | colours exact, at most alpha, padding untouched; 'keeps alpha' is false of the portable code, which stores round(alpha*alpha/255) |
| C23 8-bit alpha un-premultiplication | partial | Alpha.v incl. the reciprocal tables | pixelwise; tables checked by vm_compute over their whole (finite) domain, lifted by lemmas | alpha kept, transparent to black, colours up to alpha exact, round trip within half a step if premultiplication had kept alpha; the actual portable round trip fails (200 under alpha 128 comes back as 142) because premultiplication squares alpha |
| C24 16-bit alpha premultiplication | partial | Alpha.v | arithmetic for every depth | exact at depths 10 and 16, within (-65/64,1/2] units at every depth; exactness at depth 12 and keeping alpha refuted |
| C25 16-bit alpha un-premultiplication keeps alpha | partial | Alpha.v | binary32 error bounds | colours not above alpha accurate and in range; alpha is not kept (becomes the maximum or one less) and colours above alpha can leave the range |
| C26 Alpha scan is exact | partial | Alpha.v: alpha_check.rs | induction over rows with wrapping sums | exact for rows up to 2^24 / 2^48 / 2^32 pixels; refuted for a row of 2^26+1 8-bit pixels (32-bit sum wraps) |
| C27 Constant alpha: alpha-aware resize equals plain resize | partial | ApiRgba.v | C11 + C18 + pixelwise functions | opaque images, averaging filters: equal (width only) or within one unit; refuted for constant alpha 128 |
| C28 SIMD and scalar alpha arithmetic agree | partial | X86Alpha.v | lane semantics, width induction; finite sweep over (colour, alpha) | closed form for both instruction sets at every width; AVX2 is the portable value or one less; refuted as stated: 1*128/255 gives 0 instead of 1, and SSE4.1 keeps the alpha the portable code squares |
| C29 Threading policy determines worker count | partial | Threading.v | case analysis; C13 for unobservability | worker counts, and the policy not being observable in results, are proved; 'Single never spawns parallel work' is refuted for the SSE 4.1 un-premultiplication of RGBA16, which uses rayon's global pool without a pool |
| C30 Numeric filter selectors | proved | Sampler.v | exhaustive over the table |  |
| C31 AR30/RA30 packing round trip | proved | Ar30.v | bit arithmetic |  |
| C32 AR30 rows: one-row and four-row kernels agree | partial | Ar30.v kernels | refinement of each kernel; witness | refuted: a leftover row (height not a multiple of four) with windows other than 2, 3, 4 or 6 taps uses a quarter of the taps (a white pixel becomes black); C32_rows_exact describes every call, C32_rows_agree_partial gives the claim whenever no such window meets a leftover row |
| C33 AR30 resize honours strides and filters | partial | Ar30.v, ar30 dispatch | pointwise result; witnesses | proved without overflow condition for convolving filters when the width changes (any strides of source and destination) and for equal strides otherwise; refuted for Nearest (destination not written), for height-only resizes with different strides (panic or unwritten rows) and for same-size copies with different strides |
| C34 CPU dispatch only selects supported instruction sets | partial | X86Dispatch.v | case analysis over CPU feature sets for every call | 8-bit kernels; proved except RGBA images under PreferSpeed without AVX2 when the width changes by less than a factor 8, where the AVX2 kernel is selected (rgba_u8.rs uses \|\| where && was meant): refuted for all such calls. u16/f32 kernels and the alpha kernels are not covered |
| C35 Vector vertical kernels agree with the portable kernel | partial | X86Vertical*.v | lane-wise refinement, induction over taps and column blocks | AVX2 rounds where the portable code truncates: within 0..1, not equal; the SSE4.1 kernel lacks the final shift and paints white, refuted for every image with averaging filters |
| C36 C API handles unaligned buffers and strides | partial | CApi.v, CApiF16.v: memory as bytes, addresses, alignment | decode/encode lemmas + C10/C14/C43; witnesses | Memory-level model of the C entry points. 8-bit: every address and byte stride (exact statement, size-changing calls with a convolution filter). 16-bit and f32: aligned destinations with divisible strides, unaligned sources when channels = bytes per sample; CbCr16 to misaligned odd-stride destinations. Refuted as stated: misaligned planar sources are read wrongly, odd destination strides are truncated, misaligned destinations are undefined behaviour, and padding is written by same-size and Nearest calls. f16: the same, except that changing the width also clears the bytes between destination rows (stated exactly, and refuted as a claim). Missing: x86 paths. |
| C37 Filter weights of a window sum to one | partial | Weights.v | Flocq summation error bounds | averaging filters: the sum is 1 up to (n+2)*2^-22 |
| C38 Float images: grouping-independent results | proved | FloatConv.v | refinement to one fold expression | portable path; every sample is the same fold of fmul/mlaf over its window |
| C39 Deep (13-16 bit) images round to nearest | partial | FloatConv.v deep path | Flocq error bounds | false as stated: the sum is rounded up (0,0,0,1 halved twice gives 1); proved instead: ceiling of a sum accurate to n/64, clamped |
| C40 A flat pixel survives enlargement | partial | as C11 | sum of weights, clamping; jinc(0) witness | proved for averaging filters; refuted for the twelve jinc based filters (jinc(0)=0) |
| C41 Premultiply flag off means plain resize | proved | ApiRgba.v | unfolding of the call |  |
| C42 The Nearest filter picks the nearest source pixel | partial | Sampler.v nearest | computed witness | false of the code: 2 -> 4 gives a a a b |
| C43 Alpha-aware resize is a pipeline | proved | ApiRgba.v | composition of premultiply, C11, un-premultiply | 8-bit portable path; the pixel functions are spelled out in SpecAlpha.v |
| C44 The premultiply flag does not change the alpha channel | partial | ApiRgba.v | C43 + C19 | proved for images of constant alpha; refuted when alpha varies: it is squared first |
| C45 Averaging filters keep the order of channels | proved | as C11 | monotonicity across channels | averaging filters (Bilinear, Box, Area, Quadric, Welch) |
| C46 Refused and scheduled AR30/RA30 calls | proved | Ar30.v | as C04, C13 |  |
| C47 Windows lie where the geometry says | proved | Weights.v | Flocq bounds on centre and window | every convolving filter, sides up to 2^23 (Area when not enlarging; Area enlarging is C50) |
| C48 Weights are the filter's kernel | partial | Weights.v kernels | exact real kernels vs binary32 evaluation, error analysis (FloatErr, KernelAccuracy, WeightValues) | polynomial filters, sides up to 65536, downscale up to 256; the transcendental filters are left out |
| C49 Filters are the textbook kernels | partial | Weights.v kernels | polynomial identities | all polynomial filters except the Robidoux family; Robidoux is refuted: its constant divides by 13 where the textbook has 113 |
| C50 Area enlarging weights are coverage | partial | Weights.v area_row | Flocq bounds on coverage | within outsz/2^19 when the product of the sides is at most 2^21 and the destination pixel does not start on a source pixel boundary; refuted on such boundaries (26 to 44, output 22) |
| C51 Resizing is textbook resampling | partial | all of the above | end-to-end: C11 + C48 + quantisation | polynomial filters (Robidoux with the constant the code has), sides up to 65536, downscale up to 42 (170 for averaging filters), Area not enlarging; output positions whose ideal weights exceed one are excluded, they are clipped (C18_constant_sharp_refuted) |
| C52 Every x86 sample has a closed form | partial | X86*.v | closed form of each vector kernel | 8-bit, premultiply off; averaging filters or downscale up to 21; calls that trap (C34) excluded |
| C53 Refusals and schedules on x86 | proved | X86Calls.v | as C04, C13 | all arguments; plain and alpha-aware calls |
| C54 Vector horizontal kernels agree with the portable kernel | partial | X86Horizontal.v | lane-wise refinement | PreferQuality: exact equality except RGB with AVX2, whose kernel reads red and green of the last taps from the start of the row; refuted |
| C55 Accuracy of the x86 build | partial | X86*.v | C52 + error bounds | averaging filters; 0..2 for AVX2 quality, 0..2 for speed when only the height changes, -1..5 for one and two channels in both directions; refuted for RGBA under PreferSpeed with AVX2 (512 columns of 3 average to 0) |
| C56 Constant and opaque images stay so on x86 | partial | X86*.v | C52 + sums of weights | AVX2, PreferQuality, not RGB, averaging filters; refuted under PreferSpeed: 128 becomes 129, and an opaque RGBA image becomes translucent (wrong weight lane in avx2/rgba_u8_lb.rs) |
| C57 Alpha-aware resizing on x86 | partial | X86Alpha.v | C52 + pixelwise | missing: colours under alpha 1 (AVX2 turns those above 128 black), non-tame filters, the trapping AVX2 selection |
| C58 Vector un-premultiplication restores colours | partial | X86Alpha.v | finite sweep over (colour, alpha) with an abstract reciprocal estimate | full for SSE4.1; AVX2 fails under alpha 1 and, squaring alpha, does not round-trip (200 under 128 returns as 255 under 64) |
| C59 The flag changes nothing for opaque images on x86 | partial | X86*.v | C57 + C56 | AVX2 with PreferQuality, averaging filters, downscale at most 61; refuted in general by C56_opaque_refuted |
| C60 Colour space scalers convert, resize and convert back | partial | Colors, SpecColors | generic pipeline lemma over the inner call and the two conversions; induction on rows for the conversion loop | All nine scalers, any conversion arithmetic (colorutils_rs is a parameter), packed images, all filters and flags. RGBA: not LinearScaler with another transfer function than sRGB (refuted, C64). Destination width below 2^28. |
| C61 Refusals and success of colour space scalers | partial | Colors, SpecColors | case analysis; the inner call's refusal theorem (C04) applied to the intermediate images | CbCr calls panic (unimplemented!): refuted. Success is proved for calls within valid_call and 32-bit strides. |
| C62 Colour space scalers respect row strides | partial | Colors, SpecColors | closed form of the call on strided images | Refuted as stated: strides are ignored; the exact behaviour (start of both buffers taken as packed images, rest untouched) is proved. |
| C63 Threads do not change colour space results | proved | Colors | C13 for the inner call | The inner Scaler; the conversion crate itself is a parameter. |
| C64 The chosen transfer function is used | partial | Colors, SpecColors | conversion tables of the specification against the model; equality of calls | Holds for RGB everywhere and for RGBA except LinearScaler, which always uses sRGB (refuted). |
| C65 Nearest and flat images in a colour space | partial | Colors, SpecColors | C60 with C08 and C18 | Nearest: full for the f32 scalers, RGB, packed. Flat images: LinearApproxScaler, averaging filters, exact when only the width changes, otherwise one linear unit; the f32 scalers are missing. |
| C66 Every f32 tap counts once | partial | X86Float, SpecX86Float | loop invariants over the unrolled kernels: lanes hold sums over disjoint tap lists; permutation of the taps | Full for the portable build. x86-64: every kernel except one-channel leftover rows with more than 16 taps (SSE 4.1), where taps are counted twice; what is computed there is stated exactly, and 20 white samples averaged to one give 1.4. |
| C67 f32 results are accurate | partial | X86Float, FloatConv, SpecFloatAccuracy | error bound by induction over the summation tree (Flocq), weight accuracy of C48, weight sums of C37 | Rounding bound for every filter; textbook value for the polynomial filters (those of C51) with its size and downscale limits; range for averaging filters. x86-64: except the one-channel leftover rows of C66. |
| C68 Equal rows give equal rows on x86-64 | partial | X86Float | both row kernels are functions of the window only; counterexamples by computation | Holds for two and three channels, one channel with windows up to 16, four channels without AVX2 or FMA, and rows of the same kind (for independence: the rows after the last whole group of four); refuted otherwise. The portable build: C12_rows_are_independent_f32. |
| C69 f32 calls on x86-64: refusals, success, schedules, locality | partial | X86Float | x86 engine as an instance of the generic driver lemmas used for C04-C19 | Calls without alpha handling. Nearest is stated for packed rows; padding for size-changing convolutions (the documented limits of C08 and C14). |
| C70 Alpha-aware f32 calls on x86-64 | proved | X86AlphaF32 | closed forms of the blocks by computation, rows by induction over chunks, relational alpha pipeline over the generic driver | The pipeline theorem says for every pixel whether it is divided or multiplied by the reciprocal. The plain resize inside is the one of C66-C69. |
| C71 f32 colours are recovered from premultiplied ones | partial | X86AlphaF32, Alpha, SpecFloatAlpha | rounding error analysis on Flocq reals on top of C43/C70; opaque case from C67_range | Recovery for alpha between 2^-40 and 2^40 in size and colours up to 2^50. Opaque: averaging filters, downscale at most 10000. Equal pixels give equal results only within a block or within the leftovers: refuted (five equal pixels, SSE 4.1). |
| C72 Columns of 16-bit images on x86-64 | partial | X86U16, SpecX86U16 | closed form of each vector part by induction over blocks; characterisation of row lengths by arithmetic; counterexample by computation | Refuted as stated: for most row lengths the later parts of a row read earlier columns. The row lengths where it holds are characterised exactly (multiples of 16 resp. 32 samples and a few short ones) and there the claim is proved: up to 12 bits for averaging filters at any size and others up to the stated downscale; above 12 bits for every filter and size. |
| C73 Rows of 16-bit images on x86-64 | partial | X86U16, SpecX86U16 | closed forms of the pixel kernels over tap groups, permutation of taps by induction; counterexample by computation | Up to 12 bits: averaging filters at any size, others up to the stated downscale. Above 12 bits: all rows except the last h mod 4 rows of RGBA images with SSE 4.1, where up to two taps read a neighbouring pixel (stated exactly, and refuted). |
| C74 16-bit calls on x86-64: refusals, success, schedules, padding | proved | X86U16, Resize, Dispatch | no-error and pool-blindness of every kernel, generic driver | Calls without alpha handling. Success and padding are for the convolution filters; Nearest is the portable call (C08, C10, C14). |
| C75 What a 16-bit resize computes on x86-64 | partial | X86U16, SpecX86U16 | composition of the pass forms through the generic driver | Above 12 bits: full. Up to 12 bits: averaging filters at any size, other filters up to the stated downscale (6 t (2 max + 1) <= 65535). |
| C76 Alpha-aware 16-bit calls on x86-64: refusals, success, schedules, padding | proved | X86AlphaU16, X86U16, Resize | no-error and pool-blindness of every stage, generic driver | Success and padding are for the convolution filters and 16-bit samples. SSE 4.1 un-premultiplication always uses rayon's global pool (C29); the result does not depend on it. |
| C77 Alpha-aware 16-bit resizing on x86-64 is premultiply, resize, un-premultiply | partial | X86AlphaU16, SpecX86AlphaU16 | closed forms of the block and leftover code by induction over blocks; invariant of the scan; counterexample by arithmetic on an abstract row | Full for rows of at most 32768 pixels; beyond that the 32-bit sums of the scan wrap: refuted by a row of 131073 pixels. Alpha channel: all depths above 12; below, within the overflow limits of C75 and not AVX2+FMA at depths other than 10 and 12. |
| C78 16-bit premultiplication on x86-64 | partial | X86AlphaU16, SpecX86AlphaU16 | integer arithmetic modulo 2^32; Flocq error analysis; counterexamples by computation | Exact at 10 and 12 bits, and at 16 bits up to 32767; at 16 bits every opaque pixel turns black (signed multiplication of unsigned words): refuted. Other depths: within 33/64, or up to 65/64 above with AVX2 and FMA, which adds one half before rounding to nearest: refuted. |
| C79 16-bit un-premultiplication on x86-64 | partial | X86AlphaU16, SpecX86AlphaU16 | Flocq error analysis of the reciprocal product; counterexamples by computation | Colours not above their alpha. Rounded to nearest only with AVX2 without FMA; otherwise up to one too large, so that white exceeds the maximum (refuted); at 16 bits SSE 4.1 cuts at 32767 (refuted), so that case is missing from the closeness theorem. |
| C80 f16 images: refusals, success, schedules, rows, locality | proved | F16, SpecApi | pass lemmas: a call paints on the prepared destination (F16Calls); generic driver theorems | Portable kernels. Success of Nearest is part of C80_nearest_f16, for packed rows (the limit of C08). |
| C81 f16 images: what happens to the padding of the destination | proved | F16 | prepared destination; counterexample by instance | Convolution filters. The refuted statement is that of C14 (padding always kept), which holds for the other sample types. |
| C82 f16 images: every result is a correctly rounded f32 sum | partial | F16, SpecF16, SpecX86Float | Flocq: exact widening, correctly rounded narrowing; f32 accuracy theorem of C67 | Full except for the last clause: textbook value for the filters of C51 within their size and downscale limits. |
| C83 f16 images: averaging filters do not overshoot, constants stay | partial | F16, SpecF16 | f32 range theorem, gaps between neighbouring f16 numbers (F16Range): the f32 error is below half a gap | Downscales up to 150 in each direction. |
| C84 f16 images: alpha | partial | F16, SpecF16 | driver pipeline; products of two f16 are exact in f32; opaque: C83 for the alpha channel and locality | Opaque images: averaging filters, downscales up to 150. Recovery is stated for quotients up to 65504. |
| C85 Packed 30-bit images on x86-64: every result is the rounded weighted sum | partial | X86Ar30, SpecX86Ar30 | lane-by-lane closed forms of the packing and the two kernels (X86Ar30Proofs, X86Ar30Columns), then the driver lemmas of C32; refutations by evaluating the model on small images | The rounding, the padding and the exact taps are proved for every call within the overflow limit (averaging filters, or shrinking at most five times). The claim about the windows is false for the horizontal kernel: rows left over after the groups of four lose green and half of red and blue, the eight-tap block exchanges the second and third pair of pixels, the four-tap block repeats pixels 0 and 2 (three refutations); it holds when only the height changes, or for windows of at most four taps and heights that are multiples of four. |
| C86 Packed 30-bit images on x86-64: refusals, success, schedules, strides | partial | X86Ar30 | driver case analysis as for C33, closed forms of C85 | Success and independence of the layouts: convolving filters; when only the height changes the strides must be equal (otherwise refuted, as in C33). Nearest and copies: C33, by C86_copy_any_processor. |
| C87 f16 images on x86-64: the calls | partial | X86F16, X86AlphaF16, SpecApi | the vector kernels are put in the closed forms of the portable driver proofs (X86F16Proofs, X86F16Calls), then the generic call theorems | Every processor. Nearest: packed rows (the limit of C08). |
| C88 f16 images on x86-64: the vector kernels compute correctly rounded f32 sums | partial | X86F16, SpecF16 | in-order accumulation of the vector kernels is one of the summation orders of each_tap_once; then the rounding and accuracy lemmas of C82 and C83 | The sums are full; textbook value, overshoot and constants within the limits of C82 and C83. |
| C89 f16 images on x86-64: alpha | partial | X86AlphaF16, SpecF16 | shuffles computed symbolically on lanes, blocks and rest of a row in one closed form; Flocq for the products; counterexample by the theorem on constant images | The division is false of the code: the pixels of whole blocks (sixteen with AVX2, eight with SSE 4.1) are multiplied by alpha a second time (refuted; white at alpha one half comes back at one quarter); the pixels after the last block are divided. Opaque images: averaging filters, downscales up to 150. |
| C90 f16 resizing on x86-64 without F16C | partial | X86F16, SpecF16 | the widening compared on all 65536 samples by evaluation inside the proof; the narrowing by cases on the exponent against Flocq rounding to nearest, ties away; sums as in C88 | Conversions and sums: complete up to 65520 in magnitude. Constants and overshoot: averaging filters, downscales up to 150. The refuted theorem is C88 on constant images, for these machines. Alpha: products complete up to 65520 in magnitude. |
| C91 Alpha-aware resizing is local | partial | Alpha, ApiRgba, F16, X86AlphaF32; statement: AlphaLocal.alike | composition of the pipelines of C27-C33, C63, C69 with the locality of the plain calls; the two alpha scans agree by hypothesis | Complete for the portable paths and x86 f32; u8 on x86 is in C92, u16 on x86 in C93, where the alpha-aware theorems leave out the depths up to 12 with AVX2 and FMA other than 10 and 12. Rows on x86: C87 (f16), C92 (u8), C93 (u16); rows of f32 images on x86 are not independent in general (C68): C91_rows_are_independent_rgba_f32_x86_partial covers CPUs without AVX2 or FMA and the rows after the last full group of four. The refuted theorems show that locality and row independence fail when the alpha of one source varies and that of the other does not. |
| C92 8-bit resizing on x86-64 is local, and rows are independent | partial | X86Dispatch, X86Vertical, X86Horizontal, X86Alpha; SpecX86 | the formulas of C52 read only the window (or, for a row, the row); composition with the alpha pipeline of C57 as in C91 | Averaging filters, or each side shrinking at most 21 times; locality excludes RGB with AVX2, where it is refuted (enlarging, averaging filters). The alpha pipeline excludes the calls that execute AVX2 code without AVX2 (C53). |
| C93 16-bit resizing on x86-64 is local, and rows are independent | partial | X86U16; SpecX86U16 | the formulas of C75 read only the window when the columns are read in place; a witness by evaluation otherwise | Up to 12 bits: averaging filters or bounded downscales (sums_fit). Locality when the height is kept, the columns are read in place, or no vector kernel runs; the refuted theorem shows that the condition is needed. Alpha, up to 12 bits: not the depths other than 10 and 12 with AVX2 and FMA, where a premultiplied sample can exceed the maximum (C78); images up to 32768 wide. Why the RGBA rows above 12 bits are excluded: C73. |

## Axioms, as printed by `Print Assumptions`

Four axioms of the standard library occur and no others; they come with Coq's `Reals`, on which Flocq's binary32 rests:
`ClassicalDedekindReals.sig_forall_dec`, `ClassicalDedekindReals.sig_not_dec`, `FunctionalExtensionality.functional_extensionality_dep`, `Classical_Prop.classic`.

* Closed under the global context (no axioms): C01_constructors_partial, C01_constructors_refuted, C02_accepted_images_are_addressable_partial, C02_accepted_images_are_addressable_refuted, C04_plain_table, C04_error_codes, C06_same_size_rgba, C07_copied_partial, C07_copied_refuted, C13_interleaving, C13_interleaving_completes, C22_premultiply_partial, C22_alpha_kept_refuted, C23_unpremultiply_partial, C23_round_trip_partial, C23_round_trip_refuted, C26_scan_u8_partial, C26_scan_u16_partial, C26_scan_f32_partial, C26_scan_refuted, C30_selectors, C31_pack_layout, C31_round_trip, C31_unpack, C46_valid_not_refused_30, C29_worker_count, C29_adaptive_area, C29_adaptive_grows, C29_no_workers_when_refused, C29_options_decide_workers, C29_single_stays_partial, C29_single_stays_refuted, C28_premultiply_sse41_partial, C28_premultiply_avx2_partial, C28_arithmetic, C28_agree_partial, C28_agree_refuted, C36_codes, C72_in_place_sse, C72_in_place_avx, C73_own_taps, C36_numbers.
* All four: every other theorem named in MANIFEST.json, i.e. C03_stride_zero_destination_refuted, C03_stride_zero_source_refuted, C04_refusals, C04_refusals_rgba, C04_refusals_u16, C04_refusals_rgba_u16, C04_refusals_f32, C04_refusals_rgba_f32, C05_failure_is_clean, C05_failure_is_clean_rgba, C05_failure_is_clean_u16, C05_failure_is_clean_f32, C06_same_size_partial, C06_padding_refuted, C06_same_size_u16_partial, C06_same_size_f32_partial, C08_nearest_partial, C08_nearest_strided_refuted, C08_nearest_u16_partial, C08_nearest_f32_partial, C09_windows_inside_partial, C09_windows_inside_refuted, C10_valid_calls_succeed_partial, C10_valid_calls_succeed_u16, C10_valid_calls_succeed_f32, C11_convolution_averaging, C11_convolution_partial, C11_convolution_u16_averaging, C11_convolution_u16_partial, C11_convolution_deep, C12_rows_are_independent, C12_rows_are_independent_u16, C12_rows_are_independent_f32, C13_schedule_independent, C13_schedule_independent_rgba, C13_schedule_independent_u16, C13_schedule_independent_f32, C14_padding_partial, C14_padding_nearest_refuted, C14_padding_u16_partial, C14_padding_f32_partial, C15_only_visible_samples_matter_partial, C15_only_visible_samples_matter_u16_partial, C16_range, C16_range_u16, C17_averaging_no_overflow, C17_any_filter_no_overflow_partial, C18_constant_partial, C18_constant_refuted, C18_constant_sharp_refuted, C18_constant_u16_partial, C18_constant_deep_partial, C18_constant_deep_refuted, C19_locality, C19_locality_u16, C19_locality_f32, C20_monotone, C20_extremes_partial, C20_monotone_u16, C20_monotone_deep_partial, C20_extremes_u16_partial, C20_extremes_deep_partial, C21_quantisation, C21_always_sixteen_bits, C21_rows, C21_unit_weight_refuted, C24_premultiply16_partial, C24_premultiply16_refuted, C25_unpremultiply16_partial, C25_alpha_kept_refuted, C27_opaque_partial, C27_constant_alpha_refuted, C30_table, C37_weights_sum_to_one_partial, C38_f32_expression, C39_round_to_nearest_refuted, C39_deep_sample_partial, C40_pixel_kept_partial, C40_pixel_kept_refuted, C41_flag_off_is_plain, C41_flag_off_is_plain_u16, C41_flag_off_is_plain_f32, C42_nearest_is_nearest_refuted, C43_alpha_pipeline, C43_alpha_pipeline_u16, C43_alpha_pipeline_f32, C44_alpha_channel_partial, C44_alpha_channel_refuted, C44_alpha_channel_f32, C45_channel_order, C32_rows_exact, C32_rows_agree_partial, C32_rows_agree_refuted, C33_strides_partial, C33_same_size_partial, C33_nearest_refuted, C33_strides_refuted, C33_same_size_refuted, C46_refusals_30, C46_schedule_independent_30, C29_policy_not_observable, C29_scale_is_resize, C47_window_position, C48_weights_are_kernel_partial, C49_textbook_kernels_partial, C49_textbook_kernels_refuted, C50_area_coverage_partial, C50_area_coverage_refuted, C50_area_coverage_image_refuted, C51_textbook_result_partial, C34_supported_instructions_partial, C34_supported_instructions_refuted, C35_avx2_vertical_partial, C35_avx2_vertical_refuted, C35_sse41_vertical_refuted, C52_x86_result_partial, C52_without_convolution, C53_refusals_x86, C53_schedule_independent_x86, C53_refusals_rgba_x86, C53_schedule_independent_rgba_x86, C53_flag_off_x86, C54_horizontal_partial, C54_rgb_avx2_refuted, C54_rgb_avx2_witness_refuted, C55_quality_partial, C55_speed_vertical_partial, C55_speed_partial, C55_speed_refuted, C56_constant_partial, C56_constant_refuted, C56_opaque_refuted, C57_pipeline_x86_partial, C58_unpremultiply_sse41, C58_unpremultiply_avx2_partial, C58_round_trip_sse41, C58_round_trip_avx2_refuted, C59_opaque_x86_partial, C36_u8_partial, C36_u16_aligned_partial, C36_f32_aligned_partial, C36_cbcr16_unaligned_partial, C36_refusals_u8, C36_unaligned_source_refuted, C36_odd_stride_refuted, C36_unaligned_destination_refuted, C36_destination_rows_refuted, C36_padding_refuted, C60_pipeline_rgb, C60_pipeline_rgba_partial, C60_pipeline_approx, C60_pipeline_approx_rgba, C61_refusals_rgb, C61_refusals_rgba, C61_refusals_approx, C61_failure_is_clean, C61_valid_calls_succeed, C61_valid_calls_succeed_rgba, C61_same_size, C61_cbcr_refuted, C62_buffers_taken_as_packed, C62_buffers_taken_as_packed_rgba, C62_buffers_taken_as_packed_approx, C62_padded_destination_refuted, C62_padded_source_refuted, C63_schedule_independent, C64_transfer_function_refuted, C64_transfer_function_witness, C65_nearest, C65_flat_approx_partial, C66_each_tap_once, C66_each_tap_once_x86_partial, C66_leftover_rows_x86, C66_each_tap_once_x86_refuted, C67_rounding, C67_rounding_x86_partial, C67_textbook_f32_partial, C67_range, C67_range_x86_partial, C68_equal_rows_x86_partial, C68_equal_rows_gray_refuted, C68_equal_rows_rgba_refuted, C69_refusals_x86_f32, C69_failure_is_clean_x86_f32, C69_schedule_independent_x86_f32, C69_valid_calls_succeed_x86_f32, C69_same_size_x86_f32, C69_nearest_x86_f32, C69_padding_x86_f32, C69_locality_x86_f32, C70_flag_off_x86_f32, C70_refusals_rgba_x86_f32, C70_failure_is_clean_x86_f32, C70_schedule_independent_x86_f32, C70_pipeline_x86_f32, C70_valid_calls_succeed_x86_f32, C70_alpha_channel_x86_f32, C71_colours_recovered_f32, C71_colours_recovered_x86_f32, C71_opaque_f32_partial, C71_opaque_x86_f32_partial, C71_equal_pixels_x86_refuted, C72_columns_u16_x86_partial, C72_close_to_portable_u16_partial, C72_columns_deep_x86, C72_columns_u16_x86_refuted, C73_rows_as_portable_u16_partial, C73_rows_deep_x86, C73_leftover_rows_deep_x86, C73_leftover_rows_refuted, C74_refusals_x86_u16, C74_failure_is_clean_x86_u16, C74_schedule_independent_x86_u16, C74_valid_calls_succeed_x86_u16, C74_padding_x86_u16, C74_same_size_x86_u16, C74_portable_cases_u16, C75_low_u16_x86_partial, C75_deep_u16_x86, C75_low_range_u16_x86_partial, C76_flag_off_x86_u16, C76_refusals_rgba_x86_u16, C76_failure_is_clean_rgba_x86_u16, C76_schedule_independent_rgba_x86_u16, C76_valid_calls_succeed_rgba_x86_u16, C76_padding_rgba_x86_u16, C76_portable_case_rgba_u16, C77_pipeline_rgba_x86_u16, C77_pipeline_any_width_x86_u16_partial, C77_wide_rows_refuted, C77_alpha_channel_deep_x86_u16, C77_alpha_channel_low_x86_u16_partial, C78_premultiply_exact_x86_u16, C78_premultiply_exact16_x86_u16_partial, C78_opaque16_refuted, C78_white_turns_black, C78_premultiply_close_x86_u16_partial, C78_fused_rounding_refuted, C79_unpremultiply_x86_u16_partial, C79_round_trip_x86_u16, C79_opaque_low_x86_u16, C79_unpremultiply_refuted, C79_white_refuted, C80_refusals_f16, C80_refusals_rgba_f16, C80_failure_is_clean_f16, C80_schedule_independent_f16, C80_same_size_f16, C80_flag_off_f16, C80_valid_calls_succeed_f16, C80_nearest_f16, C80_locality_f16, C80_rows_are_independent_f16, C81_padding_f16, C81_padding_kept_refuted, C82_conversions_f16, C82_each_tap_once_f16, C82_textbook_f16_partial, C83_no_overshoot_f16_partial, C83_constants_f16_partial, C84_pipeline_f16, C84_alpha_channel_f16, C84_opaque_f16_partial, C36_f16_aligned_partial, C36_f16_packed_partial, C36_f16_padding_kept_refuted, C36_f16_bits, C80_scale_is_resize_f16, C85_x86_rows_exact, C85_one_pass_partial, C85_height_near_portable, C85_leftover_row_refuted, C85_five_taps_refuted, C85_eight_block_refuted, C86_refusals_30_x86, C86_schedule_independent_30_x86, C86_portable_without_sse, C86_copy_any_processor, C86_strides_partial, C33_valid_calls_succeed_partial, C33_layouts_partial, C86_valid_calls_succeed_partial, C86_layouts_partial, C86_strides_refuted, C87_refusals_f16_x86, C87_refusals_rgba_f16_x86, C87_failure_is_clean_f16_x86, C87_schedule_independent_f16_x86, C87_same_size_f16_x86, C87_flag_off_f16_x86, C87_valid_calls_succeed_f16_x86, C87_nearest_f16_x86, C87_locality_f16_x86, C87_rows_are_independent_f16_x86, C87_padding_f16_x86, C88_each_tap_once_f16_x86, C88_textbook_f16_x86_partial, C88_no_overshoot_f16_x86_partial, C88_constants_f16_x86_partial, C89_pipeline_f16_x86, C89_white_turns_grey_f16_x86, C89_colours_recovered_refuted, C89_alpha_channel_f16_x86, C89_opaque_f16_x86_partial, C90_widening_is_exact, C90_narrowing_loses_the_sign, C90_magnitudes_f16_x86, C90_never_negative_f16_x86, C90_no_overshoot_f16_x86_partial, C90_constants_lose_the_sign_f16_x86_partial, C90_constants_refuted, C90_pipeline_f16_x86, C87_locality_rgba_f16_x86, C87_rows_are_independent_rgba_f16_x86, C91_locality_rgba_u8, C91_locality_rgba_u16, C91_locality_rgba_f32, C91_locality_rgba_f32_x86, C91_locality_rgba_f16, C91_alpha_scan_is_not_local_refuted, C92_locality_u8_x86_partial, C92_rows_are_independent_u8_x86_partial, C92_locality_rgba_u8_x86_partial, C92_rgb_avx2_is_not_local_refuted, C93_locality_low_u16_x86_partial, C93_locality_deep_u16_x86_partial, C93_rows_are_independent_low_u16_x86_partial, C93_columns_are_not_local_refuted, C93_locality_rgba_deep_u16_x86_partial, C93_locality_rgba_low_u16_x86_partial, C93_rows_are_independent_deep_u16_x86_partial, C91_rows_are_independent_rgba_u8, C91_rows_are_independent_rgba_u16, C91_rows_are_independent_rgba_f32, C91_rows_depend_on_the_scan_refuted, C92_rows_are_independent_rgba_u8_x86_partial, C93_rows_are_independent_rgba_low_u16_x86_partial, C93_rows_are_independent_rgba_deep_u16_x86_partial, C91_rows_are_independent_rgba_f16, C68_rows_are_independent_x86_partial, C91_rows_are_independent_rgba_f32_x86_partial.
* The first three: C51_no_clipping_without_lobes.
