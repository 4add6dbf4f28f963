-Q theories Verif
theories/Base.v
theories/Sums.v
theories/Matrix.v
theories/M_Variogram.v
theories/P_Variogram.v
theories/Props_Variogram.v
theories/Nz.v
theories/M_Geometry.v
theories/S_Geometry.v
theories/P_Geometry.v
theories/Props_Geometry.v
theories/M_Kriging.v
theories/S_Kriging.v
theories/P_Kriging.v
theories/P_OKSpec.v
theories/M_Init.v
theories/M_Object.v
theories/M_Execute.v
theories/S_Execute.v
theories/P_Object.v
theories/P_Execute.v
theories/P_Cells.v
theories/P_Window.v
theories/P_WindowExec.v
theories/P_Master.v
theories/P_Det.v
theories/P_OK.v
theories/P_Similar.v
theories/P_Binning.v
theories/P_Data.v
theories/P_Linear.v
theories/Witness.v
theories/P_Exec2.v
theories/P_Data2.v
theories/P_Dup.v
theories/P_Motion.v
theories/P_Options.v
theories/Witness2.v
theories/Props_OK.v
theories/Props_Data.v
theories/M_UK.v
theories/S_UK.v
theories/P_UK.v
theories/P_UK2.v
theories/P_UK3.v
theories/P_UK4.v
theories/P_UK5.v
theories/S_Bilinear.v
theories/P_Bilinear.v
theories/P_UK6.v
theories/P_UK7.v
theories/Witness3.v
theories/P_UK8.v
theories/P_UK9.v
theories/P_UK10.v
theories/Props_UK.v
theories/S_UK2.v
theories/P_UK11.v
theories/P_UK12.v
theories/S_State.v
theories/P_State.v
theories/P_State2.v
theories/P_State3.v
theories/P_UK13.v
theories/P_UK14.v
theories/P_UK15.v
theories/P_UK16.v
theories/S_Amplify.v
theories/P_Amplify.v
theories/P_UK17.v
theories/Props_UK2.v
theories/P_State4.v
theories/P_State5.v
theories/P_State6.v
theories/M_Heap.v
theories/S_Heap.v
theories/M_HeapUK.v
theories/S_HeapUK.v
theories/P_Heap.v
theories/P_Heap2.v
theories/P_Heap3.v
theories/P_HeapUK.v
theories/P_Heap4.v
theories/P_HeapUK2.v
theories/P_State7.v
theories/P_State8.v
theories/Props_State.v
theories/S_Fit.v
theories/P_Fit.v
theories/P_Fit2.v
theories/P_Fit3.v
theories/P_Fit4.v
theories/P_Fit5.v
theories/M_Float.v
theories/P_Float.v
theories/Props_Fit.v
theories/M_Compat.v
theories/M_Call.v
theories/S_Call.v
theories/S_Compat.v
theories/P_Compat.v
theories/M_Ilr.v
theories/P_Ilr.v
theories/M_Learn.v
theories/P_Learn.v
theories/S_Learn.v
theories/P_Learn2.v
theories/P_Learn3.v
theories/P_Learn4.v
theories/Props_Learn.v
theories/S_GSTools.v
theories/P_GSTools.v
theories/Props_GSTools.v
theories/M_Text.v
theories/M_AscGrid.v
theories/M_Zmap.v
theories/S_Text.v
theories/P_Text.v
theories/S_AscGrid.v
theories/P_AscGrid.v
theories/P_AscGrid2.v
theories/P_Asc64.v
theories/P_AscGrid3.v
theories/P_AscGrid4.v
theories/P_AscGrid5.v
theories/S_Zmap.v
theories/P_Zmap.v
theories/P_Zmap2.v
theories/P_Zmap3.v
theories/P_Zmap4.v
theories/P_Zmap5.v
theories/Props_Text.v
theories/S_Valid.v
theories/P_Psd.v
theories/P_Psd2.v
theories/P_Psd3.v
theories/P_Turn1.v
theories/P_Turn2.v
theories/P_Turn3.v
theories/P_Turn4.v
theories/P_Valid.v
theories/P_Valid2.v
theories/P_Valid3.v
theories/P_Valid4.v
theories/P_Valid5.v
theories/P_Valid6.v
theories/P_Valid7.v
theories/Props_Valid.v
theories/S_Access.v
theories/P_Access.v
theories/P_Access2.v
theories/Props_Access.v
theories/P_Sphere.v
theories/P_Sound.v
theories/S_Geo.v
theories/P_Geo.v
theories/P_Geo2.v
theories/P_Geo3.v
theories/Props_Geo.v
theories/P_Call.v
theories/P_Call2.v
theories/P_Call3.v
theories/P_Call4.v
theories/S_Drift.v
theories/P_UK18.v
theories/P_UK19.v
theories/P_UK20.v
theories/P_UK21.v
theories/S_Pinv.v
theories/P_Pinv.v
theories/P_Pinv2.v
theories/P_Pinv3.v
theories/Props_Call.v
theories/Props_Drift.v
theories/M_Learner.v
theories/S_Learner.v
theories/P_Learner.v
theories/P_Learner2.v
theories/P_Learner3.v
theories/P_Learner4.v
theories/Props_Learner.v
theories/M_Search.v
theories/S_Search.v
theories/P_Search.v
theories/Props_Search.v
theories/Props_Pinv.v
theories/S_Stats.v
theories/P_Stats.v
theories/S_Stretch.v
theories/P_Stats2.v
theories/P_Stats3.v
theories/P_Stats4.v
theories/Props_Stats.v
theories/P_StretchUK.v
theories/P_StretchUK2.v
theories/Props_Stretch.v
theories/S_Line.v
theories/P_Line.v
theories/P_Far.v
theories/P_Far2.v
theories/P_Far3.v
theories/P_UKGrid.v
theories/P_UKFar.v
theories/P_UKFar2.v
theories/P_UKFar3.v
theories/Props_Line.v
theories/M_Float2.v
theories/S_Float.v
theories/P_Float2.v
theories/P_Float3.v
theories/P_Float4.v
theories/P_Float5.v
theories/Props_Float.v
theories/S_Span.v
theories/P_Span.v
theories/P_Span2.v
theories/P_Span3.v
theories/P_Span5.v
theories/P_Span4.v
theories/Props_Span.v
theories/S_Update.v
theories/P_Update.v
theories/P_Update2.v
theories/P_Update3.v
theories/P_Update4.v
theories/P_Update5.v
theories/Props_Update.v
theories/M_Values.v
theories/S_Values.v
theories/P_Values.v
theories/P_Values2.v
theories/P_Values3.v
theories/P_Values4.v
theories/M_ValuesUK.v
theories/S_ValuesUK.v
theories/P_ValuesUK.v
theories/Props_Nan.v
theories/S_Warn.v
theories/M_Warn.v
theories/P_Warn.v
theories/P_Warn2.v
theories/Props_Warn.v
theories/P_Line2.v
theories/P_Line3.v
