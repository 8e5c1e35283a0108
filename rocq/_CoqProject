-Q theories Verif
theories/Base.v
theories/M_Bitarray.v
theories/P_Bitarray.v
theories/T_Bitarray.v
theories/Num.v
theories/M_Binning.v
theories/P_Binning.v
theories/P_BinningR.v
theories/T_Binning.v
theories/M_Utils.v
theories/M_Impurity.v
theories/M_Context.v
theories/M_Node.v
theories/M_Split.v
theories/M_Tree.v
theories/M_Grow.v
theories/Ex_Data.v
theories/P_Utils.v
theories/T_Utils.v
theories/P_List.v
theories/S_Impurity.v
theories/P_Impurity.v
theories/T_Impurity.v
theories/P_Stack.v
theories/T_Stack.v
theories/P_Task.v
theories/P_Node.v
theories/S_Fit.v
theories/P_Fit.v
theories/Ex_Valid.v
theories/S_Node.v
theories/T_Node.v
theories/P_Bins.v
theories/P_Scan.v
theories/P_Split.v
theories/P_Find.v
theories/S_Split.v
theories/P_SplitR.v
theories/P_SplitTasks.v
theories/P_Cuts.v
theories/Ex_R.v
theories/T_Split.v
theories/P_Indices.v
theories/T_Indices.v
theories/P_Gini2.v
theories/T_Cat.v
theories/P_Tree.v
theories/P_Grow.v
theories/P_Repr.v
theories/P_Route.v
theories/P_FitTree.v
theories/S_Tree.v
theories/P_Nodes.v
theories/T_Grow.v
theories/T_GrowR.v
theories/S_Prune.v
theories/P_Prune.v
theories/T_Prune.v
theories/T_Aggregate.v
theories/M_Object.v
theories/P_Setters.v
theories/P_Dirichlet.v
theories/S_Object.v
theories/P_Object.v
theories/T_Setters.v
theories/M_Forest.v
theories/T_Bootstrap.v
theories/P_Float.v
theories/S_Params.v
theories/T_Params.v
theories/S_Forest.v
theories/P_Forest.v
theories/T_Forest.v
theories/P_ForestR.v
theories/T_ForestR.v
theories/Ex_Forest.v
theories/M_Parallel.v
theories/P_Parallel.v
theories/P_ParallelForest.v
theories/T_Parallel.v
theories/P_Workers.v
theories/T_Workers.v
theories/Ex_Parallel.v
theories/T_Labels.v
theories/Ex_ForestQ.v
theories/T_Weights.v
theories/T_Refit.v
theories/M_Inspect.v
theories/T_Inspect.v
theories/M_Encoder.v
theories/S_Encoder.v
theories/P_Encoder.v
theories/Cells.v
theories/T_Encoder.v
theories/T_EncoderR.v
theories/M_EncoderForest.v
theories/T_EncoderForest.v
theories/T_EncoderQ.v
theories/S_Repeat.v
theories/P_Repeat.v
theories/T_Repeat.v
theories/M_Clone.v
theories/T_Clone.v
theories/M_Plot.v
theories/T_Plot.v
theories/T_Reach.v
theories/Ex_Reach.v
theories/S_Trained.v
theories/T_Trained.v
theories/T_Average.v
theories/Ex_Trained.v
theories/M_Dataset.v
theories/S_Dataset.v
theories/P_Dataset.v
theories/T_Dataset.v
theories/T_DatasetColumns.v
theories/T_DatasetLabel.v
theories/Ex_Dataset.v
theories/T_Gini.v
theories/M_Signals.v
theories/S_Signals.v
theories/T_Signals.v
theories/M_Fetch.v
theories/S_Fetch.v
theories/T_Fetch.v
theories/S_Rows.v
theories/P_Rows.v
theories/T_Rows.v
theories/Ex_Rows.v
theories/S_Monotone.v
theories/P_Monotone.v
theories/T_Monotone.v
theories/Ex_Monotone.v
theories/T_Renaming.v
theories/Ex_Renaming.v
theories/S_Units.v
theories/P_Affine.v
theories/T_Affine.v
theories/Ex_Affine.v
theories/P_Scale.v
theories/T_Scale.v
theories/Ex_Scale.v
theories/T_Separate.v
theories/Ex_Separate.v
theories/T_Select.v
theories/P_Libm.v
theories/T_Single.v
theories/T_Sign.v
theories/Ex_Sign.v
theories/T_Round.v
theories/T_Depth.v
theories/T_Criterion.v
theories/T_SignReg.v
theories/T_CatLeaf.v
