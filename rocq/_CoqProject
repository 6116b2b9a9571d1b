-Q theories Verif
theories/Check_RepoTests.v
theories/Data_Big.v
theories/Data_Cross.v
theories/Data_Rounds.v
theories/Data_Solve.v
theories/Model_All.v
theories/Model_Base.v
theories/Model_Cache.v
theories/Model_Concurrent.v
theories/Model_Connect.v
theories/Model_Cross.v
theories/Model_Cubes.v
theories/Model_Debug.v
theories/Model_Disk.v
theories/Model_Errors.v
theories/Model_Extra.v
theories/Model_Float.v
theories/Model_Hash.v
theories/Model_Invariants.v
theories/Model_Log.v
theories/Model_Main.v
theories/Model_Moves.v
theories/Model_Mus.v
theories/Model_NonRedundant.v
theories/Model_Orientable.v
theories/Model_OrientableMoves.v
theories/Model_Panic.v
theories/Model_Parser.v
theories/Model_Perms.v
theories/Model_PieceSet.v
theories/Model_Pieces.v
theories/Model_Playground.v
theories/Model_Print.v
theories/Model_PrintFloat.v
theories/Model_Report.v
theories/Model_Search.v
theories/Model_Space.v
theories/Model_Stats.v
theories/Model_Threads.v
theories/Model_Timed.v
theories/Model_Visual.v
theories/Proof_BigCube.v
theories/Proof_BigLaws.v
theories/Proof_BigLooks.v
theories/Proof_BigSolve.v
theories/Proof_BigStickers.v
theories/Proof_Cache.v
theories/Proof_Cell.v
theories/Proof_Count.v
theories/Proof_Cross.v
theories/Proof_CrossData.v
theories/Proof_CrossMax.v
theories/Proof_Double.v
theories/Proof_First.v
theories/Proof_Float.v
theories/Proof_FloatSearch.v
theories/Proof_Geometry.v
theories/Proof_Invariants.v
theories/Proof_Moves.v
theories/Proof_Mus.v
theories/Proof_NonRedundant.v
theories/Proof_Normalize.v
theories/Proof_Orders.v
theories/Proof_Panic.v
theories/Proof_Parity.v
theories/Proof_Parser.v
theories/Proof_Random.v
theories/Proof_Round.v
theories/Proof_Rounds.v
theories/Proof_Search.v
theories/Proof_Sets.v
theories/Proof_Solve.v
theories/Proof_Sort.v
theories/Proof_Stickers.v
theories/Proof_Timed.v
theories/Proof_Words.v
theories/Proof_Work.v
theories/Prop_All.v
theories/Prop_Axial.v
theories/Prop_Between.v
theories/Prop_BigCube.v
theories/Prop_BigLaws.v
theories/Prop_Cache.v
theories/Prop_Concurrent.v
theories/Prop_Connect.v
theories/Prop_Count.v
theories/Prop_Cross.v
theories/Prop_CrossLengths.v
theories/Prop_CrossMax.v
theories/Prop_Disk.v
theories/Prop_Equality.v
theories/Prop_Errors.v
theories/Prop_Extra.v
theories/Prop_First.v
theories/Prop_FourSearch.v
theories/Prop_Geometry.v
theories/Prop_Hash.v
theories/Prop_Invariants.v
theories/Prop_Local.v
theories/Prop_Log.v
theories/Prop_Main.v
theories/Prop_Manhattan.v
theories/Prop_Moves.v
theories/Prop_Mus.v
theories/Prop_NonRedundant.v
theories/Prop_Optimal.v
theories/Prop_Orders.v
theories/Prop_Orientable.v
theories/Prop_OrientableMoves.v
theories/Prop_Panic.v
theories/Prop_Parser.v
theories/Prop_Perms.v
theories/Prop_PieceNames.v
theories/Prop_Pieces.v
theories/Prop_Playground.v
theories/Prop_Power.v
theories/Prop_Print.v
theories/Prop_PrintFloat.v
theories/Prop_Quarter.v
theories/Prop_Random.v
theories/Prop_RandomAlg.v
theories/Prop_RandomFair.v
theories/Prop_Report.v
theories/Prop_Rounds.v
theories/Prop_Search.v
theories/Prop_Sets.v
theories/Prop_Stages.v
theories/Prop_Stats.v
theories/Prop_Threads.v
theories/Prop_Two.v
theories/Prop_TwoSearch.v
theories/Prop_Typed.v
theories/Prop_Words.v
theories/Prop_Work.v
theories/Spec_BigCube.v
theories/Spec_BigLaws.v
theories/Spec_Cache.v
theories/Spec_Count.v
theories/Spec_Cross.v
theories/Spec_Errors.v
theories/Spec_First.v
theories/Spec_Geometry.v
theories/Spec_Invariants.v
theories/Spec_Moves.v
theories/Spec_Mus.v
theories/Spec_Notation.v
theories/Spec_Optimal.v
theories/Spec_Orientable.v
theories/Spec_Power.v
theories/Spec_Print.v
theories/Spec_Random.v
theories/Spec_Search.v
theories/Spec_Sets.v
theories/Spec_Stickers.v
theories/Spec_Unfolded.v
theories/Spec_Words.v
theories/Spec_Work.v
