-Q theories Verif
theories/Prelude.v
theories/PreludeFacts.v
theories/Strides_Model.v
theories/Strides_Spec.v
theories/Strides_Proofs.v
theories/Strides_Props.v
theories/Access_Model.v
theories/Access_Spec.v
theories/Access_Proofs.v
theories/Access_Props.v
theories/Broadcast_Model.v
theories/Broadcast_Spec.v
theories/Broadcast_Proofs.v
theories/Broadcast2_Proofs.v
theories/Broadcast_Props.v
theories/Layout_Model.v
theories/Layout_Proofs.v
theories/Layout_Props.v
theories/Machine_Model.v
theories/Machine_Spec.v
theories/Machine_Proofs.v
theories/Machine_Props.v
theories/Slice_Model.v
theories/Slice_Spec.v
theories/Slice_Proofs.v
theories/Slice_Props.v
theories/Stepper_Model.v
theories/Stepper_Spec.v
theories/Stepper_Proofs.v
theories/Stepper2_Proofs.v
theories/Stepper3_Proofs.v
theories/Stepper4_Proofs.v
theories/Stepper_Props.v
theories/Container_Model.v
theories/Container_Spec.v
theories/Container_Proofs.v
theories/Container_Props.v
theories/Assign_Model.v
theories/Assign_Spec.v
theories/Assign_Proofs.v
theories/Assign2_Proofs.v
theories/Assign3_Proofs.v
theories/Assign4_Proofs.v
theories/Assign5_Proofs.v
theories/Assign6_Proofs.v
theories/Assign7_Proofs.v
theories/Assign_Props.v
theories/AssignContig_Proofs.v
theories/AssignContig_Props.v
theories/Semantic_Model.v
theories/Semantic_Spec.v
theories/Semantic_Proofs.v
theories/Semantic2_Proofs.v
theories/Semantic3_Proofs.v
theories/Semantic4_Proofs.v
theories/Semantic5_Proofs.v
theories/Semantic6_Proofs.v
theories/Semantic_Props.v
theories/Svector_Model.v
theories/Svector_Spec.v
theories/Svector_Proofs.v
theories/Svector2_Proofs.v
theories/Svector3_Proofs.v
theories/Svector4_Proofs.v
theories/Svector5_Proofs.v
theories/Svector_Props.v
theories/View_Spec.v
theories/SView_Model.v
theories/SView_Spec.v
theories/SView_Proofs.v
theories/SView2_Proofs.v
theories/SView3_Proofs.v
theories/SView4_Proofs.v
theories/SView_Props.v
theories/Manip_Model.v
theories/Manip_Spec.v
theories/Manip_Proofs.v
theories/Manip2_Proofs.v
theories/Manip3_Proofs.v
theories/Manip4_Proofs.v
theories/Manip5_Proofs.v
theories/Manip_Props.v
theories/Roll_Model.v
theories/Roll_Proofs.v
theories/Roll_Props.v
theories/Builder_Model.v
theories/Builder_Spec.v
theories/Builder_Proofs.v
theories/Builder2_Proofs.v
theories/Builder_Props.v
theories/BuilderEye_Props.v
theories/XView_Model.v
theories/XView_Spec.v
theories/XView_Proofs.v
theories/XView2_Proofs.v
theories/XView3_Proofs.v
theories/XView4_Proofs.v
theories/XView_Props.v
theories/Reduce_Model.v
theories/Reduce_Spec.v
theories/Reduce_Proofs.v
theories/Reduce2_Proofs.v
theories/Reduce3_Proofs.v
theories/Reduce4_Proofs.v
theories/Reduce5_Proofs.v
theories/Reduce6_Proofs.v
theories/Reduce7_Proofs.v
theories/Reduce_Props.v
theories/Reduce8_Proofs.v
theories/Reduce9_Proofs.v
theories/Reduce10_Proofs.v
theories/Reduce11_Proofs.v
theories/Reduce12_Proofs.v
theories/Reduce13_Proofs.v
theories/Reduce14_Proofs.v
theories/Reduce15_Proofs.v
theories/Reduce2_Props.v
theories/Accum_Model.v
theories/Accum_Spec.v
theories/Accum_Proofs.v
theories/Accum2_Proofs.v
theories/Accum3_Proofs.v
theories/Accum_Props.v
theories/Sort_Model.v
theories/Sort_Spec.v
theories/Sort_Proofs.v
theories/Sort2_Proofs.v
theories/Sort3_Proofs.v
theories/Sort4_Proofs.v
theories/Sort5_Proofs.v
theories/Sort6_Proofs.v
theories/Sort7_Proofs.v
theories/Sort8_Proofs.v
theories/SetOp_Model.v
theories/SetOp_Spec.v
theories/SetOp_Proofs.v
theories/Sort9_Proofs.v
theories/Sort_Props.v
theories/SetOp_Props.v
theories/Chunk_Model.v
theories/Chunk_Spec.v
theories/Chunk_Proofs.v
theories/Chunk2_Proofs.v
theories/Chunk3_Proofs.v
theories/Chunk4_Proofs.v
theories/Chunk_Props.v
theories/ChunkWhole_Props.v
theories/Select_Model.v
theories/Select_Spec.v
theories/Select_Proofs.v
theories/Select2_Proofs.v
theories/Select3_Proofs.v
theories/Select_Props.v
theories/SelectShape_Props.v
theories/Pad_Model.v
theories/Pad_Spec.v
theories/Pad_Proofs.v
theories/Pad2_Proofs.v
theories/Pad3_Proofs.v
theories/Pad4_Proofs.v
theories/Pad_Props.v
theories/Npy_Model.v
theories/Npy_Spec.v
theories/Npy_Proofs.v
theories/Npy2_Proofs.v
theories/Npy3_Proofs.v
theories/Npy4_Proofs.v
theories/Npy_Props.v
theories/StepGen_Proofs.v
theories/Repeat_Model.v
theories/Repeat_Spec.v
theories/Repeat_Proofs.v
theories/Repeat2_Proofs.v
theories/Repeat3_Proofs.v
theories/Repeat_Props.v
theories/VStep_Model.v
theories/VStep_Spec.v
theories/VStep_Proofs.v
theories/VStep2_Proofs.v
theories/VStep3_Proofs.v
theories/VStep4_Proofs.v
theories/VStep5_Proofs.v
theories/VStep_Props.v
theories/AxisIt_Model.v
theories/AxisIt_Spec.v
theories/AxisIt_Proofs.v
theories/AxisIt2_Proofs.v
theories/AxisIt3_Proofs.v
theories/AxisIt_Props.v
theories/Hist_Model.v
theories/Hist_Spec.v
theories/Hist_Proofs.v
theories/Hist2_Proofs.v
theories/Hist3_Proofs.v
theories/Hist4_Proofs.v
theories/Hist5_Proofs.v
theories/Hist6_Proofs.v
theories/Hist7_Proofs.v
theories/Hist8_Proofs.v
theories/Hist_Props.v
theories/Random_Model.v
theories/Random_Spec.v
theories/Random_Proofs.v
theories/Random2_Proofs.v
theories/Random3_Proofs.v
theories/Random4_Proofs.v
theories/Random_Props.v
theories/Reshape_Model.v
theories/Reshape_Spec.v
theories/Reshape_Proofs.v
theories/Reshape_Props.v
theories/DView_Model.v
theories/DView_Spec.v
theories/DView_Proofs.v
theories/DView2_Proofs.v
theories/DView_Props.v
theories/Block_Model.v
theories/Block_Spec.v
theories/Block_Proofs.v
theories/Block2_Proofs.v
theories/Block3_Proofs.v
theories/Block4_Proofs.v
theories/Block_Props.v
theories/Line_Model.v
theories/Line_Spec.v
theories/Line_Proofs.v
theories/Line2_Proofs.v
theories/Line_Props.v
theories/Stats_Model.v
theories/Stats_Spec.v
theories/Stats_Proofs.v
theories/Stats2_Proofs.v
theories/Stats3_Proofs.v
theories/Stats4_Proofs.v
theories/Stats_Props.v
theories/Nan_Model.v
theories/Nan_Spec.v
theories/Nan_Proofs.v
theories/Nan2_Proofs.v
theories/Nan_Props.v
theories/Diff_Model.v
theories/Diff_Spec.v
theories/Diff_Proofs.v
theories/Diff2_Proofs.v
theories/Diff3_Proofs.v
theories/Diff4_Proofs.v
theories/Diff5_Proofs.v
theories/Diff6_Proofs.v
theories/Diff_Props.v
theories/Fft_Model.v
theories/Fft_Spec.v
theories/Fft_Proofs.v
theories/Fft2_Proofs.v
theories/Fft3_Proofs.v
theories/Fft4_Proofs.v
theories/Fft5_Proofs.v
theories/Fft_Props.v
theories/Csv_Model.v
theories/Csv_Spec.v
theories/Csv_Proofs.v
theories/Csv2_Proofs.v
theories/Csv3_Proofs.v
theories/Csv4_Proofs.v
theories/Csv5_Proofs.v
theories/Csv_Props.v
theories/Storage_Model.v
theories/Storage_Spec.v
theories/Storage_Proofs.v
theories/Storage2_Proofs.v
theories/Storage3_Proofs.v
theories/Storage4_Proofs.v
theories/Storage5_Proofs.v
theories/Storage6_Proofs.v
theories/Storage_Props.v
theories/Json_Model.v
theories/Json_Spec.v
theories/Json_Proofs.v
theories/Json2_Proofs.v
theories/Json3_Proofs.v
theories/Json_Props.v
theories/Quantile_Model.v
theories/Quantile_Spec.v
theories/Quantile_Proofs.v
theories/Quantile2_Proofs.v
theories/Quantile3_Proofs.v
theories/Quantile4_Proofs.v
theories/Quantile5_Proofs.v
theories/Quantile6_Proofs.v
theories/Quantile_Props.v
theories/Fixed_Model.v
theories/Fixed_Spec.v
theories/Fixed_Proofs.v
theories/Fixed2_Proofs.v
theories/Fixed3_Proofs.v
theories/Fixed4_Proofs.v
theories/Fixed_Props.v
theories/Init_Model.v
theories/Init_Spec.v
theories/Init_Proofs.v
theories/Init_Props.v
theories/Norm_Model.v
theories/Norm_Spec.v
theories/Norm_Proofs.v
theories/Norm_Props.v
theories/Functor_Model.v
theories/Functor_Spec.v
theories/Functor_Proofs.v
theories/Functor2_Proofs.v
theories/Functor3_Proofs.v
theories/Functor4_Proofs.v
theories/Functor_Props.v
theories/Print_Model.v
theories/Print_Spec.v
theories/Print_Proofs.v
theories/Print2_Proofs.v
theories/Print3_Proofs.v
theories/Print_Props.v
theories/Optional_Model.v
theories/Optional_Spec.v
theories/Optional_Proofs.v
theories/Optional2_Proofs.v
theories/Optional3_Proofs.v
theories/Optional4_Proofs.v
theories/Optional_Props.v
theories/Masked_Model.v
theories/Masked_Spec.v
theories/Masked_Proofs.v
theories/Masked2_Proofs.v
theories/Masked3_Proofs.v
theories/Masked4_Proofs.v
theories/Masked5_Proofs.v
theories/Masked_Props.v
theories/Elem_Model.v
theories/Elem_Spec.v
theories/Elem_Proofs.v
theories/Elem2_Proofs.v
theories/Elem3_Proofs.v
theories/Elem_Props.v
theories/Unwrap_Model.v
theories/Unwrap_Spec.v
theories/Unwrap_Proofs.v
theories/Unwrap2_Proofs.v
theories/Unwrap_Props.v
theories/Adapt_Model.v
theories/Adapt_Spec.v
theories/Adapt_Proofs.v
theories/Adapt2_Proofs.v
theories/Adapt_Props.v
theories/Cov_Model.v
theories/Cov_Spec.v
theories/Cov_Proofs.v
theories/Cov_Props.v
theories/Holder_Model.v
theories/Holder_Spec.v
theories/Holder_Proofs.v
theories/Holder2_Proofs.v
theories/Holder_Props.v
theories/Mime_Model.v
theories/Mime_Spec.v
theories/Mime_Proofs.v
theories/Mime2_Proofs.v
theories/Mime_Props.v
theories/Shared_Model.v
theories/Shared_Spec.v
theories/Shared_Proofs.v
theories/Shared2_Proofs.v
theories/Shared_Props.v
theories/OStore_Model.v
theories/OStore_Spec.v
theories/OStore_Proofs.v
theories/OStore_Props.v
theories/Isin_Model.v
theories/Isin_Spec.v
theories/Isin_Proofs.v
theories/Isin_Props.v
theories/LinIter_Model.v
theories/LinIter_Spec.v
theories/LinIter_Proofs.v
theories/LinIter_Props.v
theories/PrintOpt_Model.v
theories/PrintOpt_Spec.v
theories/PrintOpt_Proofs.v
theories/PrintOpt_Props.v
theories/Eval_Model.v
theories/Eval_Spec.v
theories/Eval_Proofs.v
theories/Eval_Props.v
theories/QuantileAll_Model.v
theories/QuantileAll_Proofs.v
theories/QuantileAll_Props.v
theories/Vectorize_Model.v
theories/Vectorize_Spec.v
theories/Vectorize_Proofs.v
theories/Vectorize_Props.v
theories/AccessElem_Proofs.v
theories/AccessElem_Props.v
