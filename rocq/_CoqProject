-Q theories Verif
theories/Base.v
theories/Map_Model.v
theories/Map_Spec.v
theories/Map_Proofs.v
theories/Map_Props.v
theories/Dims_Model.v
theories/Dims_Spec.v
theories/Dims_Proofs.v
theories/Dims_Props.v
theories/Label_Model.v
theories/Label_Proofs.v
theories/Label_Props.v
theories/Index_Model.v
theories/Index_Spec.v
theories/Index_Proofs.v
theories/Index_Props.v
theories/View_Model.v
theories/View_Spec.v
theories/View_Proofs.v
theories/View_Props.v
theories/BinIndex_Model.v
theories/BinIndex_Spec.v
theories/BinIndex_Proofs.v
theories/BinIndex_Make.v
theories/BinIndex_Zero.v
theories/BinIndex_Props.v
theories/Transform_Model.v
theories/Transform_Spec.v
theories/Machine_Proofs.v
theories/Transform_Proofs.v
theories/Transform_Props.v
theories/BinTransform_Model.v
theories/BinTransform_Props.v
theories/Accumulate_Spec.v
theories/Reduce_Proofs.v
theories/Accumulate_Model.v
theories/Accumulate_Proofs.v
theories/Accumulate_Props.v
theories/Float.v
theories/Numeric_Model.v
theories/Numeric_Props.v
theories/Lookup_Model.v
theories/Lookup_Proofs.v
theories/Linspace_Proofs.v
theories/Lookup_Props.v
theories/Arr.v
theories/Subbin_Model.v
theories/Subbin_Props.v
theories/BinKernel_Model.v
theories/BinKernel_Proofs.v
theories/Mapper_Model.v
theories/Mapper_Proofs.v
theories/Mapper_Proofs2.v
theories/Mapper_Proofs3.v
theories/Mapper_Props.v
theories/TargetBins_Model.v
theories/TargetBins_Proofs.v
theories/TargetBins_Proofs2.v
theories/TargetBins_Props.v
theories/Parallel_Props.v
theories/Histogram_Model.v
theories/Histogram_Props.v
theories/Rebin_Model.v
theories/Rebin_Proofs.v
theories/Rebin_Props.v
theories/Cumsum_Model.v
theories/Cumsum_Props.v
theories/Bins_Model.v
theories/Bins_Props.v
theories/BinConcat_Props.v
theories/ValueVar_Model.v
theories/ValueVar_Props.v
theories/VarFloat_Props.v
theories/Variance_Model.v
theories/Variance_Props.v
theories/SizedDict_Model.v
theories/SizedDict_Spec.v
theories/SizedDict_Proofs.v
theories/SizedDict_Props.v
theories/Equality_Model.v
theories/Equality_Spec.v
theories/Equality_Proofs.v
theories/Equality_Props.v
theories/Union_Model.v
theories/Union_Spec.v
theories/Union_Proofs.v
theories/Union_Props.v
theories/Mask_Model.v
theories/Mask_Spec.v
theories/Mask_Proofs.v
theories/MaskFloat_Proofs.v
theories/Mask_Props.v
theories/NanReduce_Model.v
theories/NanReduce_Spec.v
theories/NanReduce_Proofs.v
theories/NanReduce_Props.v
theories/DsArith_Model.v
theories/DsArith_Spec.v
theories/DsArith_Proofs.v
theories/DsArith_Props.v
theories/Dataset_Model.v
theories/Dataset_Spec.v
theories/Dataset_Proofs.v
theories/Dataset_Props.v
theories/Concat_Model.v
theories/Concat_Spec.v
theories/Concat_Proofs.v
theories/Concat_Props.v
theories/Concat_Sizes_Props.v
theories/Reshape_Model.v
theories/Reshape_Spec.v
theories/Reshape_Proofs.v
theories/Reshape_Item_Proofs.v
theories/Reshape_Props.v
theories/LabelSlice_Model.v
theories/LabelSlice_Spec.v
theories/LabelSlice_Proofs.v
theories/LabelSlice_Props.v
theories/Extract_Model.v
theories/Extract_Spec.v
theories/Extract_Proofs.v
theories/Extract_Props.v
theories/Sort_Props.v
theories/GroupBy_Model.v
theories/GroupBy_Spec.v
theories/GroupBy_Proofs.v
theories/GroupBy_Reduce_Proofs.v
theories/GroupBy_Props.v
theories/EventLookup_Model.v
theories/EventLookup_Spec.v
theories/EventLookup_Proofs.v
theories/EventLookup_Props.v
theories/ToUnit_Model.v
theories/ToUnit_Spec.v
theories/ToUnit_Proofs.v
theories/ToUnit_Props.v
theories/Units_Model.v
theories/Units_Spec.v
theories/Units_Proofs.v
theories/Units_Props.v
theories/Sharing_Model.v
theories/Sharing_Spec.v
theories/Sharing_Proofs.v
theories/Sharing_Props.v
theories/ConcatDa_Model.v
theories/ConcatDa_Spec.v
theories/ConcatDa_Proofs.v
theories/ConcatDa_Entry_Proofs.v
theories/ConcatDa_Success_Proofs.v
theories/ConcatDa_Props.v
theories/SetSlice_Model.v
theories/SetSlice_Spec.v
theories/SetSlice_Proofs.v
theories/SetSlice_Props.v
theories/Density_Model.v
theories/Density_Spec.v
theories/Density_Proofs.v
theories/Density_Props.v
theories/Nesting_Model.v
theories/Nesting_Spec.v
theories/Nesting_Proofs.v
theories/Nesting_Props.v
theories/Spatial_Model.v
theories/Spatial_Spec.v
theories/Spatial_Props.v
theories/Astype_Model.v
theories/Astype_Spec.v
theories/Astype_Proofs.v
theories/Astype_Props.v
theories/DictIter_Model.v
theories/DictIter_Spec.v
theories/DictIter_Proofs.v
theories/DictIter_Props.v
theories/BinMeta_Model.v
theories/BinMeta_Spec.v
theories/BinMeta_Proofs.v
theories/BinMeta_Props.v
theories/GroupConcat_Model.v
theories/GroupConcat_Spec.v
theories/GroupConcat_Proofs.v
theories/GroupConcat_Props.v
theories/Subspan_Model.v
theories/Subspan_Spec.v
theories/Subspan_Proofs.v
theories/Subspan_Props.v
theories/BinAppend_Model.v
theories/BinAppend_Props.v
theories/MakeLinspace_Model.v
theories/MakeLinspace_Props.v
theories/MakeLinspace_Accept_Props.v
theories/Midpoints_Model.v
theories/Midpoints_Props.v
