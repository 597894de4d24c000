-Q theories Verif

theories/PyBase.v
theories/Model_Types.v
theories/Model_Harmony.v
theories/Model_Strings.v
theories/Spec_Music.v
theories/Spec_Text.v
theories/Proof_Base.v
theories/Proof_Codec.v
theories/Proof_Strings.v
theories/Proof_Labels.v
theories/Proof_Transpose.v
theories/Model_Heap.v
theories/Proof_Heap.v
theories/Model_Beam.v
theories/Spec_Beam.v
theories/Proof_Beam.v
theories/Model_Ranges.v
theories/Spec_Ranges.v
theories/Proof_Ranges.v
theories/Proof_CodecSpec.v
theories/Model_Vectors.v
theories/Proof_Vectors.v
theories/Model_Search.v
theories/Spec_Search.v
theories/Proof_Search.v
theories/Proof_Paths.v
theories/Prop_Codec.v
theories/Prop_Pitch.v
theories/Prop_Vectors.v
theories/Prop_Beam.v
theories/Prop_Ranges.v
theories/Prop_Search.v
theories/Model_Rhythm.v
theories/Spec_Rhythm.v
theories/Proof_Rhythm.v
theories/Prop_Rhythm.v
theories/Model_Corpus.v
theories/Spec_Corpus.v
theories/Proof_Corpus.v
theories/Proof_Ties.v
theories/Model_Clean.v
theories/Proof_Clean.v
theories/Prop_Corpus.v
theories/Model_Piece.v
theories/Spec_Piece.v
theories/Proof_Piece.v
theories/Proof_Window.v
theories/Proof_Keys.v
theories/Prop_Piece.v
theories/Model_Dataset.v
theories/Spec_Dataset.v
theories/Proof_Dataset.v
theories/Proof_Splits.v
theories/Proof_Items.v
theories/Proof_KeyItems.v
theories/Proof_KeySeq.v
theories/Proof_Widths.v
theories/Prop_Items.v
theories/Prop_Classify.v
theories/Prop_Dataset.v
theories/Model_Infer.v
theories/Spec_Infer.v
theories/Proof_Infer.v
theories/Prop_Infer.v
theories/Model_Forces.v
theories/Spec_Forces.v
theories/Proof_Forces.v
theories/Prop_Forces.v
theories/Model_Eval.v
theories/Spec_Eval.v
theories/Proof_Eval.v
theories/Proof_Annot.v
theories/Prop_Eval.v
theories/Model_Changes.v
theories/Spec_Changes.v
theories/Proof_Changes.v
theories/Prop_Changes.v
theories/Model_Tables.v
theories/Spec_Tables.v
theories/Proof_Tables.v
theories/Prop_Tables.v
theories/Model_Prior.v
theories/Spec_Prior.v
theories/Proof_Prior.v
theories/Prop_Prior.v
theories/Model_Load.v
theories/Spec_Load.v
theories/Proof_Load.v
theories/Prop_Load.v
theories/Spec_Total.v
theories/Proof_Total.v
theories/Proof_Found.v
theories/Prop_Total.v
theories/Model_Cache.v
theories/Spec_Cache.v
theories/Proof_Cache.v
theories/Prop_Cache.v
theories/Model_Xml.v
theories/Spec_Xml.v
theories/Proof_Xml.v
theories/Prop_Xml.v
theories/Model_Change.v
theories/Spec_Change.v
theories/Proof_Change.v
theories/Prop_Change.v
theories/Model_Dict.v
theories/Spec_Dict.v
theories/Proof_Dict.v
theories/Prop_Dict.v
theories/Model_Runs.v
theories/Spec_Runs.v
theories/Proof_Runs.v
theories/Prop_Runs.v
theories/Model_Batch.v
theories/Spec_Batch.v
theories/Proof_Batch.v
theories/Proof_BatchData.v
theories/Prop_Batch.v
theories/Model_Output.v
theories/Spec_Output.v
theories/Proof_Output.v
theories/Prop_Output.v
theories/Model_Grid.v
theories/Spec_Grid.v
theories/Proof_Grid.v
theories/Prop_Grid.v
theories/Model_Aggregate.v
theories/Spec_Aggregate.v
theories/Proof_Aggregate.v
theories/Prop_Aggregate.v
theories/Model_Checkpoints.v
theories/Spec_Checkpoints.v
theories/Proof_Checkpoints.v
theories/Prop_Checkpoints.v
theories/Model_Log.v
theories/Spec_Log.v
theories/Proof_Log.v
theories/Prop_Log.v
theories/Model_Create.v
theories/Spec_Create.v
theories/Proof_Create.v
theories/Prop_Create.v
theories/Model_Models.v
theories/Spec_Models.v
theories/Proof_Models.v
theories/Prop_Models.v
theories/Model_Debug.v
theories/Spec_Debug.v
theories/Proof_Debug.v
theories/Prop_Debug.v
theories/Model_Script.v
theories/Spec_Script.v
theories/Proof_Script.v
theories/Prop_Script.v
theories/Model_Annotate.v
theories/Spec_Annotate.v
theories/Proof_Annotate.v
theories/Prop_Annotate.v
theories/Prop_Evaluate.v
theories/Model_Scores.v
theories/Spec_Scores.v
theories/Proof_Scores.v
theories/Prop_Scores.v
theories/Model_Course.v
theories/Spec_Course.v
theories/Prop_Course.v
theories/Model_Decode.v
theories/Spec_Decode.v
theories/Prop_Decode.v
theories/Model_Convert.v
theories/Spec_Convert.v
theories/Proof_Convert.v
theories/Prop_Convert.v
theories/Model_Steps.v
theories/Spec_Steps.v
theories/Prop_Steps.v
theories/Model_Train.v
theories/Spec_Train.v
theories/Prop_Train.v
theories/Model_Cnn.v
theories/Spec_Cnn.v
theories/Prop_Cnn.v
theories/Model_Hidden.v
theories/Spec_Hidden.v
theories/Prop_Hidden.v
theories/Check_Tests.v
theories/Model_Repr.v
theories/Spec_Repr.v
theories/Proof_Repr.v
theories/Prop_Repr.v
theories/Model_Published.v
theories/Spec_Published.v
theories/Proof_Published.v
theories/Prop_Published.v
theories/Model_Where.v
theories/Spec_Where.v
theories/Prop_Where.v
theories/Model_Reuse.v
theories/Spec_Reuse.v
theories/Prop_Reuse.v
theories/Prop_Copy.v
theories/Model_Logs.v
theories/Spec_Logs.v
theories/Prop_Logs.v
theories/Model_Float16.v
theories/Spec_Float16.v
theories/Prop_Float16.v
