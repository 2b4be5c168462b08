-Q theories Verif
theories/Base.v
theories/ImageStore.v
theories/ColorGroup.v
theories/FixedPoint.v
theories/Dispatch.v
theories/FloatConv.v
theories/Resize.v
theories/Spec.v
theories/F32.v
theories/Weights.v
theories/Sampler.v
theories/SpecKernels.v
theories/SpecAccuracy.v
theories/Api.v
theories/Alpha.v
theories/ApiRgba.v
theories/ApiFloat.v
theories/SpecApi.v
theories/SpecAlpha.v
theories/SpecFloat.v
theories/BaseProofs.v
theories/KernelProofs.v
theories/Kernel4Proofs.v
theories/ColumnProofs.v
theories/DispatchProofs.v
theories/FloatConvProofs.v
theories/ResizeProofs.v
theories/F32Proofs.v
theories/WeightsProofs.v
theories/NoFail.v
theories/ImageProofs.v
theories/PoolProofs.v
theories/NearestProofs.v
theories/QuantProofs.v
theories/PortableProofs.v
theories/SamplerProofs.v
theories/WeightSum.v
theories/FilterSums.v
theories/Center.v
theories/QuantSums.v
theories/ApiProofs.v
theories/Witness.v
theories/DriverProofs.v
theories/FloatApiProofs.v
theories/AlphaProofs.v
theories/AlphaArith.v
theories/AlphaArith16.v
theories/AlphaScan.v
theories/AlphaU16.v
theories/RgbaProofs.v
theories/RgbaFloat.v
theories/DeepSums.v
theories/DeepCalls.v
theories/Ar30.v
theories/SpecAr30.v
theories/Ar30Proofs.v
theories/Ar30Kernels.v
theories/Ar30Calls.v
theories/FloatErr.v
theories/KernelAccuracy.v
theories/KernelFacts.v
theories/WindowPos.v
theories/WeightValues.v
theories/WeightTable.v
theories/AreaPos.v
theories/Accuracy.v
theories/Parallel.v
theories/Threading.v
theories/SpecThreading.v
theories/Simd.v
theories/SimdProofs.v
theories/X86Vertical.v
theories/X86VerticalProofs.v
theories/X86VerticalLp.v
theories/X86VerticalLpProofs.v
theories/X86Horizontal.v
theories/X86HorizontalProofs.v
theories/X86Pixels.v
theories/X86PixelsLp.v
theories/X86Dispatch.v
theories/SpecX86.v
theories/X86DispatchProofs.v
theories/Properties1.v
theories/Properties2.v
theories/Properties3.v
theories/Properties4.v
theories/Properties5.v
theories/Properties6.v
theories/Properties7.v
theories/X86NoFail.v
theories/X86Calls.v
theories/X86Facts.v
theories/Properties8.v
theories/Properties9.v
theories/X86Alpha.v
theories/X86AlphaProofs.v
theories/X86AlphaScan.v
theories/SpecX86Alpha.v
theories/X86AlphaArith.v
theories/X86AlphaCalls.v
theories/Properties10.v
theories/CApi.v
theories/SpecC.v
theories/CApiProofs.v
theories/Properties11.v
theories/Colors.v
theories/SpecColors.v
theories/ColorsProofs.v
theories/Properties12.v
theories/X86Float.v
theories/SpecX86Float.v
theories/X86FloatKernels.v
theories/X86FloatRows.v
theories/X86FloatCalls.v
theories/FloatSumErr.v
theories/SpecFloatAccuracy.v
theories/FloatAccuracy.v
theories/FloatAccuracyCalls.v
theories/Properties13.v
theories/X86AlphaF32.v
theories/X86AlphaF32Proofs.v
theories/X86AlphaF32Calls.v
theories/SpecFloatAlpha.v
theories/Properties14.v
theories/X86U16.v
theories/SpecX86U16.v
theories/X86U16Proofs.v
theories/X86U16Rows.v
theories/X86U16Calls.v
theories/X86U16Facts.v
theories/Properties15.v
theories/X86AlphaU16.v
theories/SpecX86AlphaU16.v
theories/X86AlphaU16Proofs.v
theories/X86AlphaU16Scan.v
theories/X86AlphaU16Calls.v
theories/X86AlphaU16Facts.v
theories/X86AlphaU16Arith.v
theories/X86AlphaU16Pre.v
theories/Properties16.v
theories/F16.v
theories/SpecF16.v
theories/F16Arith.v
theories/F16Proofs.v
theories/F16Calls.v
theories/F16Range.v
theories/F16Sums.v
theories/F16Alpha.v
theories/Properties17.v
theories/CApiF16.v
theories/CApiF16Proofs.v
theories/Properties18.v
theories/X86Ar30.v
theories/SpecX86Ar30.v
theories/X86Ar30Proofs.v
theories/X86Ar30Columns.v
theories/X86Ar30Calls.v
theories/Properties19.v
theories/X86Ar30Success.v
theories/Properties20.v
theories/X86F16.v
theories/X86F16Proofs.v
theories/X86F16Calls.v
theories/X86F16Sums.v
theories/X86AlphaF16.v
theories/X86AlphaF16Proofs.v
theories/X86AlphaF16Calls.v
theories/X86AlphaF16Facts.v
theories/X86F16AnyAlpha.v
theories/Properties21.v
theories/X86F16Tables.v
theories/X86F16Old.v
theories/X86F16OldCalls.v
theories/Properties22.v
theories/AlphaLocal.v
theories/Properties23.v
theories/X86U8Local.v
theories/Properties24.v
theories/X86U16Local.v
theories/Properties25.v
theories/Properties26.v
theories/Properties27.v
theories/Properties28.v
