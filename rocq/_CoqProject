-Q theories Verif
theories/Base.v
theories/BaseFacts.v
theories/M_Image.v
theories/S_Image.v
theories/L_Image.v
theories/L_Inter.v
theories/L_ImageProps.v
theories/P_Image.v
theories/M_GrowArray.v
theories/S_GrowArray.v
theories/L_GrowArray.v
theories/M_PackedSet.v
theories/S_PackedSet.v
theories/L_PackedSet.v
theories/P_Containers.v
theories/M_Border.v
theories/S_Border.v
theories/L_Border.v
theories/P_Border.v
theories/M_Convolve.v
theories/S_Convolve.v
theories/L_Window.v
theories/L_Convolve.v
theories/L_Convolve2.v
theories/L_ConvolveInt.v
theories/P_Convolve.v
theories/M_Normalized.v
theories/S_Normalized.v
theories/L_Normalized.v
theories/L_NormalizedInt.v
theories/P_Normalized.v
theories/M_Blur.v
theories/S_Blur.v
theories/L_Blur.v
theories/M_Float.v
theories/L_BlurTop.v
theories/P_Blur.v
theories/M_Stats.v
theories/S_Stats.v
theories/L_Stats.v
theories/P_Stats.v
theories/M_Misc.v
theories/L_Misc.v
theories/P_Misc.v
theories/M_Heap.v
theories/S_Heap.v
theories/M_Binary.v
theories/S_Binary.v
theories/L_Heap.v
theories/L_Binary.v
theories/P_Binary.v
theories/L_Own.v
theories/P_Own.v
theories/M_Otsu.v
theories/S_Otsu.v
theories/L_Otsu.v
theories/L_OtsuImage.v
theories/P_Otsu.v
theories/M_Contour.v
theories/S_Contour.v
theories/L_Crack.v
theories/L_Cycle.v
theories/L_Step.v
theories/L_Trace.v
theories/L_Trig.v
theories/L_Label.v
theories/L_Scan.v
theories/L_Hole.v
theories/L_Contour.v
theories/L_ContourEx.v
theories/P_Contour.v
theories/M_Config.v
theories/M_Block.v
theories/S_Block.v
theories/L_Block.v
theories/L_BlockVar.v
theories/L_BlockOtsu.v
theories/L_BlockInt.v
theories/L_BlockBad.v
theories/P_Block.v
theories/M_Kernel.v
theories/S_Kernel.v
theories/L_Kernel.v
theories/L_Gauss.v
theories/L_GaussInt.v
theories/L_GaussBlur.v
theories/S_Config.v
theories/L_Config.v
theories/P_Config.v
theories/P_Kernel.v
theories/M_Local.v
theories/S_Local.v
theories/L_Local.v
theories/P_Local.v
theories/M_Point.v
theories/S_Point.v
theories/L_Point.v
theories/P_Point.v
theories/M_Jni.v
theories/S_Jni.v
theories/L_Jni.v
theories/P_Jni.v
theories/M_Native.v
theories/S_Native.v
theories/L_Native.v
theories/L_NativeFilt.v
theories/L_NativeConv.v
theories/L_NativeCon.v
theories/L_NativeLife.v
theories/P_Native.v
theories/M_Planar.v
theories/S_Planar.v
theories/L_Planar.v
theories/P_Planar.v
theories/M_NativeBlur.v
theories/S_NativeBlur.v
theories/L_NativeBlur.v
theories/P_NativeBlur.v
theories/S_Separable.v
theories/L_Separable.v
theories/P_Separable.v
theories/M_GrowHeap.v
theories/S_GrowHeap.v
theories/L_GrowHeap.v
theories/P_GrowHeap.v
theories/M_KernelObj.v
theories/S_KernelObj.v
theories/L_KernelObj.v
theories/P_KernelObj.v
theories/M_Testing.v
theories/S_Testing.v
theories/L_Testing.v
theories/P_Testing.v
theories/M_PackHeap.v
theories/S_PackHeap.v
theories/L_PackHeap.v
theories/P_PackHeap.v
theories/S_Ieee.v
theories/L_Ieee.v
theories/M_PointF.v
theories/S_PointF.v
theories/L_PointF.v
theories/P_PointF.v
theories/S_FConv.v
theories/L_FConv.v
theories/P_FConv.v
theories/L_MeanGen.v
theories/S_FNorm.v
theories/L_FNorm.v
theories/P_FNorm.v
theories/S_FBlur.v
theories/L_FBlur.v
theories/P_FBlur.v
theories/S_FStats.v
theories/L_FStats.v
theories/P_FStats.v
theories/M_Divisor.v
theories/S_Divisor.v
theories/L_Divisor.v
theories/P_Divisor.v
theories/S_SetTo.v
theories/L_SetTo.v
theories/S_FLocal.v
theories/L_FLocal.v
theories/P_FLocal.v
theories/S_FBlock.v
theories/L_FBlock.v
theories/P_FBlock.v
theories/S_FOtsu.v
theories/L_Between.v
theories/L_FOtsu.v
theories/P_FOtsu.v
theories/S_Wrap.v
theories/L_Wrap.v
theories/P_Wrap.v
theories/S_FKernel.v
theories/L_FKernel.v
theories/P_FKernel.v
theories/M_NativeF.v
theories/S_NativeF.v
theories/L_NativeF.v
theories/L_NativeFNum.v
theories/P_NativeF.v
theories/S_Redraw.v
theories/L_Redraw.v
theories/P_Redraw.v
theories/S_Pipeline.v
theories/L_Pipeline.v
theories/P_Pipeline.v
theories/S_Walk.v
theories/L_Walk.v
theories/L_NativeWalk.v
theories/P_Walk.v
theories/M_Shared.v
theories/S_Shared.v
theories/L_Shared.v
theories/L_SharedTop.v
theories/P_Shared.v
theories/M_NativeShared.v
theories/S_NativeShared.v
theories/L_NativeShared.v
theories/L_NativeSharedTop.v
theories/P_NativeShared.v
theories/M_NativeSharedBlur.v
theories/S_NativeSharedBlur.v
theories/L_NativeSharedBlur.v
theories/P_NativeSharedBlur.v
theories/M_OtsuF.v
theories/S_OtsuF.v
theories/L_OtsuF.v
theories/P_OtsuF.v
theories/M_BlockF.v
theories/L_BlockF.v
theories/P_BlockF.v
theories/M_Print.v
theories/S_Print.v
theories/L_Print.v
theories/P_Print.v
theories/M_SharedConv.v
theories/L_SharedConv.v
theories/P_SharedConv.v
theories/M_Loader.v
theories/S_Loader.v
theories/L_Loader.v
theories/P_Loader.v
theories/S_Symmetry.v
theories/L_Symmetry.v
theories/P_Symmetry.v
theories/S_Brightness.v
theories/L_Brightness.v
theories/L_Brightness2.v
theories/P_Brightness.v
theories/S_Morph.v
theories/L_Morph.v
theories/P_Morph.v
theories/S_Tile.v
theories/L_Tile.v
theories/P_Tile.v
theories/S_Linear.v
theories/L_Linear.v
theories/P_Linear.v
theories/S_BlockShift.v
theories/L_BlockShift.v
theories/P_BlockShift.v
theories/S_Blobs.v
theories/L_Blobs.v
theories/P_Blobs.v
theories/S_Levels.v
theories/L_Levels.v
theories/P_Levels.v
theories/L_MorphBlobs.v
theories/P_MorphBlobs.v
theories/S_Peel.v
theories/L_Peel.v
theories/P_Peel.v
theories/S_Places.v
theories/L_Places.v
theories/P_Places.v
theories/S_Bands.v
theories/L_Bands.v
theories/P_Bands.v
theories/S_Range.v
theories/L_Range.v
theories/P_Range.v
