-Q theories Verif
theories/Base.v
theories/Lists.v
theories/Arr_Spec.v
theories/Arr_Model.v
theories/Arr_Wf.v
theories/Arr_Proofs.v
theories/Arr_Hist.v
theories/Arr_Props.v
theories/Bcast_Model.v
theories/Bcast_Proofs.v
theories/Bcast_Props.v
theories/Copy_Model.v
theories/Copy_Proofs.v
theories/Copy_Props.v
theories/Idx_Spec.v
theories/Idx_Model.v
theories/Idx_Wf.v
theories/Idx_Proofs.v
theories/Idx_Assign.v
theories/Idx_Props.v
theories/Int_Model.v
theories/Elem_Spec.v
theories/Elem_Model.v
theories/Elem_Proofs.v
theories/Elem_Heap.v
theories/Int_Proofs.v
theories/Elem_Props.v
theories/Int_Props.v
theories/F64_Model.v
theories/F64_Proofs.v
theories/Red_Spec.v
theories/Red_Model.v
theories/Red_Proofs.v
theories/Red_Scan.v
theories/Red_Props.v
theories/Sort_Spec.v
theories/Sort_Model.v
theories/Sort_Proofs.v
theories/Sort_Select.v
theories/Sort_Lanes.v
theories/Sort_Api.v
theories/Sort_Props.v
theories/Wf_Check.v
theories/Man_Spec.v
theories/Man_Model.v
theories/Man_Proofs.v
theories/Man_Ops.v
theories/Man_Ops2.v
theories/Man_Edit.v
theories/Man_Props.v
theories/Conv_Spec.v
theories/Conv_Model.v
theories/Conv_Proofs.v
theories/Conv_Props.v
theories/Sel_Spec.v
theories/Sel_Model.v
theories/Sel_Proofs.v
theories/Sel_Ops.v
theories/Sel_Ops2.v
theories/Sel_Props.v
theories/Ravel_Spec.v
theories/Ravel_Model.v
theories/Ravel_Proofs.v
theories/Ravel_Props.v
theories/Bits_Spec.v
theories/Bits_Model.v
theories/Bits_Proofs.v
theories/Bits_Props.v
theories/SF_Proofs.v
theories/Rng_Spec.v
theories/Rng_Model.v
theories/Rng_Lcg.v
theories/Rng_Proofs.v
theories/Rng_Shuffle.v
theories/Rng_Props.v
theories/Date_Spec.v
theories/Date_Model.v
theories/Date_Proofs.v
theories/Date_Units.v
theories/Date_Str.v
theories/Date_Bus.v
theories/Date_Props.v
theories/Promo_Spec.v
theories/Promo_Model.v
theories/Promo_Proofs.v
theories/Promo_Props.v
theories/Poly_Spec.v
theories/Poly_Model.v
theories/Poly_Proofs.v
theories/Poly_Props.v
theories/Hist_Model.v
theories/Hist_Proofs.v
theories/Hist_Props.v
theories/Gu_Spec.v
theories/Gu_Model.v
theories/Gu_Proofs.v
theories/Gu_Text.v
theories/Gu_Props.v
theories/Mat_Spec.v
theories/Mat_Model.v
theories/Mat_Proofs.v
theories/Mat_Batch.v
theories/Mat_Laws.v
theories/Mat_Props.v
theories/Pow_Props.v
theories/Num_Model.v
theories/Num_Interp.v
theories/Interp_Props.v
theories/Num_Spec.v
theories/Num_Calc.v
theories/Calc_Props.v
theories/Prod_Spec.v
theories/Prod_Model.v
theories/Prod_Proofs.v
theories/Prod_Kron.v
theories/Prod_Props.v
theories/Ein_Spec.v
theories/Ein_Model.v
theories/Ein_Parse.v
theories/Ein_Proofs.v
theories/Ein_Blas.v
theories/Ein_Contract.v
theories/Ein_Two.v
theories/Ein_One.v
theories/Ein_Multi.v
theories/Ein_Props.v
theories/Io_Spec.v
theories/Io_Model.v
theories/Io_Proofs.v
theories/Io_Read.v
theories/Io_Props.v
theories/SF_Arith.v
theories/New_Spec.v
theories/New_Model.v
theories/Span_Spec.v
theories/Span_Model.v
theories/Span_Proofs.v
theories/New_Proofs.v
theories/New_Props.v
theories/Span_Props.v
theories/SF_Cmp.v
theories/Grid_Spec.v
theories/Grid_Model.v
theories/Grid_Proofs.v
theories/Grid_Diag.v
theories/Grid_Props.v
theories/Lay_Spec.v
theories/Lay_Model.v
theories/Lay_Proofs.v
theories/Lay_Copy.v
theories/Lay_Iface.v
theories/Lay_Props.v
theories/Char_Spec.v
theories/Char_Model.v
theories/Char_Proofs.v
theories/Char_Text.v
theories/Char_More.v
theories/Char_Arr.v
theories/Char_Laws.v
theories/Char_Props.v
theories/Msk_Spec.v
theories/Msk_Model.v
theories/Msk_Proofs.v
theories/Msk_More.v
theories/Msk_Shape.v
theories/Msk_Props.v
theories/Fn_Model.v
theories/Fn_Spec.v
theories/Fn_Proofs.v
theories/Fn_Props.v
theories/Fft_Spec.v
theories/Fft_Model.v
theories/Fft_Proofs.v
theories/Fft_Lanes.v
theories/Fft_Trans.v
theories/Fft_Real.v
theories/Fft_Multi.v
theories/Fft_Shift.v
theories/Fft_Complex.v
theories/Fft_Props.v
theories/Stat_Spec.v
theories/Stat_Model.v
theories/Stat_Proofs.v
theories/Stat_Lanes.v
theories/Stat_Qc.v
theories/Stat_Props.v
theories/Mean_Spec.v
theories/Mean_Model.v
theories/Mean_Proofs.v
theories/Mean_Props.v
theories/Axes_Spec.v
theories/Axes_Model.v
theories/Axes_Proofs.v
theories/Axes_Props.v
theories/Cov_Spec.v
theories/Cov_Model.v
theories/Cov_Props.v
theories/Txt_Spec.v
theories/Txt_Model.v
theories/Txt_Float.v
theories/Txt_Proofs.v
theories/Txt_Save.v
theories/Txt_Load.v
theories/Txt_Props.v
theories/Shp_Spec.v
theories/Shp_Model.v
theories/Shp_Proofs.v
theories/Shp_Stack.v
theories/Shp_Props.v
theories/Cast_Spec.v
theories/Cast_Model.v
theories/Cast_SF.v
theories/Cast_Proofs.v
theories/Cast_Laws.v
theories/Cast_Props.v
theories/Close_Proofs.v
theories/Close_Props.v
theories/Moment_Props.v
theories/Bitw_Spec.v
theories/Bitw_Model.v
theories/Bitw_Proofs.v
theories/Bitw_Props.v
theories/Rnd_Spec.v
theories/Rnd_Model.v
theories/Rnd_Proofs.v
theories/Rnd_Round.v
theories/Rnd_Props.v
theories/SF_Round.v
theories/Ari_Spec.v
theories/Ari_Model.v
theories/Ari_Proofs.v
theories/Ari_Ord.v
theories/Ari_Props.v
theories/Ari_Next.v
theories/Next_Props.v
theories/Cpx_Spec.v
theories/Cpx_Model.v
theories/Cpx_Proofs.v
theories/Cpx_Props.v
theories/CpxA_Spec.v
theories/CpxA_Proofs.v
theories/CpxA_Props.v
theories/Fred_Spec.v
theories/Fred_Model.v
theories/Fred_Proofs.v
theories/Fred_Props.v
theories/Via_Props.v
theories/Fmt_Spec.v
theories/Fmt_Model.v
theories/Fmt_Proofs.v
theories/Fmt_Props.v
theories/FmtE_Spec.v
theories/FmtE_Model.v
theories/FmtE_Proofs.v
theories/FmtE_Props.v
theories/Cum_Spec.v
theories/Cum_Model.v
theories/Cum_Proofs.v
theories/Cum_Props.v
theories/Run_Spec.v
theories/Run_Model.v
theories/Run_Proofs.v
theories/Run_Props.v
theories/Ini_Model.v
theories/Ini_Proofs.v
theories/Ini_Props.v
theories/Tra_Spec.v
theories/Tra_Model.v
theories/Tra_Proofs.v
theories/Tra_Props.v
theories/Sqrt_Spec.v
theories/Sqrt_Model.v
theories/Sqrt_Proofs.v
theories/Sqrt_Half.v
theories/Sqrt_Props.v
theories/Var_Spec.v
theories/Var_Model.v
theories/Var_Proofs.v
theories/Var_Props.v
theories/Avg_Model.v
theories/Avg_Proofs.v
theories/Avg_Props.v
theories/Nmean_Spec.v
theories/Nmean_Model.v
theories/Nmean_Proofs.v
theories/Nmean_Props.v
theories/Nlane_Model.v
theories/Nlane_Proofs.v
theories/Nlane_Props.v
theories/Nred_Props.v
theories/Nstd_Model.v
theories/Nstd_Proofs.v
theories/Nstd_Props.v
