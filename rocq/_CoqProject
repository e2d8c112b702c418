-Q theories Verif
theories/Go.v
theories/GoFloat.v
theories/GoText.v
theories/UtilBits.v
theories/LgTree.v
theories/Cmd.v
theories/UtilMath.v
theories/Transformation.v
theories/Ensembles.v
theories/Leaves.v
theories/Parallel.v
theories/Spec_Predict.v
theories/Demo.v
theories/Pf_Go.v
theories/Pf_Cmd.v
theories/Pf_Parallel.v
theories/Pf_Float.v
theories/Pf_Batch.v
theories/Pf_Exec.v
theories/Pf_Leaves.v
theories/Pf_Calls.v
theories/Pf_Rows.v
theories/Prop_Batch.v
theories/Ex_Batch.v
theories/Spec_Walk.v
theories/Pf_Tree.v
theories/Pf_Values.v
theories/Prop_Tree.v
theories/Prop_Values.v
theories/Spec_Bits.v
theories/Pf_Bits.v
theories/Prop_Bits.v
theories/Spec_Split.v
theories/Pf_Split.v
theories/Prop_Split.v
theories/Pf_Range.v
theories/Spec_Transform.v
theories/Pf_Transform.v
theories/Prop_Transform.v
theories/Prop_Compare.v
theories/UtilText.v
theories/TreeBuild.v
theories/LgTextIO.v
theories/Spec_Tree.v
theories/Pf_Build.v
theories/Pf_Placed.v
theories/Spec_Words.v
theories/Spec_LgText.v
theories/Pf_LgTree.v
theories/Spec_Utf8.v
theories/Spec_Params.v
theories/Pf_Text.v
theories/Pf_Words.v
theories/Prop_Params.v
theories/Spec_LgFile.v
theories/Pf_LgFile.v
theories/Pf_Returns.v
theories/DemoText.v
theories/Prop_LgText.v
theories/Ex_LgText.v
theories/XgBin.v
theories/XgIO.v
theories/Spec_XgBin.v
theories/Pf_XgBin.v
theories/Pf_Append.v
theories/Spec_XgTree.v
theories/Pf_XgTree.v
theories/Spec_XgFile.v
theories/Prop_Xg.v
theories/Ex_Xg.v
theories/Pickle.v
theories/Spec_Fmt.v
theories/Pf_Fmt.v
theories/SkClasses.v
theories/SkIO.v
theories/Spec_Pickle.v
theories/Pf_Pickle.v
theories/Pf_PickleDec.v
theories/Pf_PickleHist.v
theories/Spec_Decimal.v
theories/Pf_Decimal.v
theories/Spec_Dump.v
theories/Pf_Dump.v
theories/Spec_Numpy.v
theories/Pf_Numpy.v
theories/Prop_Pickle.v
theories/Spec_SkTree.v
theories/Pf_SkTree.v
theories/Spec_SkFile.v
theories/Pf_SkFile.v
theories/Pf_SkLoad.v
theories/Prop_Sk.v
theories/Ex_Sk.v
theories/Mat.v
theories/MatIO.v
theories/Spec_Mat.v
theories/Pf_Mat.v
theories/Pf_MatRows.v
theories/Pf_MatWrite.v
theories/Pf_Extra.v
theories/Prop_Mat.v
theories/Ex_Mat.v
theories/LgJsonIO.v
theories/Spec_LgJson.v
theories/Pf_LgJson.v
theories/Pf_LgJsonTree.v
theories/Prop_LgJson.v
theories/Ex_LgJson.v
theories/Files.v
theories/Spec_Files.v
theories/Pf_Files.v
theories/Prop_Files.v
theories/Prop_FromFile.v
theories/Stream.v
theories/Spec_Stream.v
theories/Pf_Stream.v
theories/Pf_Stall.v
theories/Prop_Stream.v
theories/Spec_Tired.v
theories/Pf_Tired.v
theories/Prop_Tired.v
theories/Prop_Rows.v
theories/Prop_Alike.v
theories/Prop_Cut.v
theories/Prop_Spelling.v
theories/Prop_Sides.v
theories/Prop_Span.v
theories/Prop_Fmt.v
theories/Prop_Order.v
theories/Spec_Round.v
theories/Pf_Round.v
theories/Prop_Round.v
theories/Concurrent.v
theories/Pf_Concurrent.v
theories/Prop_Concurrent.v
theories/Ex_Concurrent.v
theories/Prop_Loaded.v
theories/Spec_EndToEnd.v
theories/Prop_EndToEnd.v
theories/Ex_EndToEnd.v
theories/JsonText.v
theories/Spec_JsonText.v
theories/Pf_JsonText.v
theories/Prop_JsonText.v
theories/Ex_JsonText.v
theories/Spec_SkAccept.v
theories/Prop_SkAccept.v
theories/Ex_SkAccept.v
theories/Prop_CsvText.v
theories/Pf_Calm.v
theories/Spec_Calm.v
theories/Prop_Calm.v
theories/Prop_CalmJson.v
theories/Prop_CalmSk.v
theories/Ex_Calm.v
theories/Shared.v
theories/Spec_Shared.v
theories/Pf_Shared.v
theories/Prop_Shared.v
theories/Spec_Size.v
theories/Pf_Size.v
theories/Pf_SizeJson.v
theories/Pf_SizeSk.v
theories/Prop_Size.v
theories/Spec_Monotone.v
theories/Prop_Monotone.v
theories/Ex_Monotone.v
theories/Spec_Write.v
theories/Prop_Write.v
theories/Prop_WriteJson.v
theories/Prop_WriteSk.v
theories/Prop_WriteText.v
theories/Prop_WriteBoth.v
theories/Ex_Write.v
theories/SharedTransform.v
theories/Prop_SharedTransform.v
theories/Sequence.v
theories/Spec_Sequence.v
theories/Pf_Sequence.v
theories/Prop_Sequence.v
theories/Spec_Pieces.v
theories/Pf_Pieces.v
theories/Prop_Pieces.v
theories/Prop_LoadFlag.v
theories/Prop_Shorter.v
theories/Ex_Shorter.v
theories/Unwind.v
theories/Prop_Unwind.v
theories/Prop_Softmax.v
theories/Spec_Probability.v
theories/Pf_Probability.v
theories/Prop_Probability.v
theories/Prop_TreeProb.v
theories/Spec_Machine.v
theories/Prop_Machine.v
theories/Fused.v
theories/Spec_Fused.v
theories/Pf_Fused.v
theories/Pf_FusedSum.v
theories/Prop_Fused.v
theories/Prop_Zero.v
theories/Spec_Reorder.v
theories/Prop_Reorder.v
theories/Spec_Rename.v
theories/Prop_Rename.v
theories/FusedBatch.v
theories/Pf_FusedBatch.v
theories/Prop_FusedBatch.v
theories/FusedSk.v
theories/Spec_FusedSk.v
theories/Pf_FusedSk.v
theories/Prop_FusedSk.v
theories/Prop_Wrap.v
theories/Spec_OneClass.v
theories/Pf_OneClass.v
theories/Prop_OneClass.v
theories/Prop_ReorderRuns.v
theories/Pf_FusedRows.v
theories/Prop_FusedRows.v
theories/Spec_FusedRun.v
theories/Pf_FusedRun.v
theories/Prop_FusedRun.v
theories/Prop_FusedIncl.v
