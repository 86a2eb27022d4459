-Q theories Verif
theories/Prelude.v
theories/PreludeFacts.v
theories/CV_Spec.v
theories/CV_Model.v
theories/CV_Proofs.v
theories/CV_Proofs2.v
theories/CV_Proofs3.v
theories/CV_Props.v
theories/QSum.v
theories/QSumFacts.v
theories/Boot_Spec.v
theories/Boot_Model.v
theories/Boot_Proofs.v
theories/Boot_Proofs2.v
theories/Boot_Props.v
theories/LogUniform_Model.v
theories/LogUniform_Proofs.v
theories/LogUniform_Props.v
theories/Num.v
theories/Series.v
theories/Cusum_Spec.v
theories/Cusum_Model.v
theories/Cusum_Proofs.v
theories/Cusum_Props.v
theories/Weights_Spec.v
theories/Weights_Model.v
theories/Weights_Proofs.v
theories/Weights_Proofs2.v
theories/Weights_Props.v
theories/Causal.v
theories/DailyVol_Model.v
theories/DailyVol_Proofs.v
theories/Label_Model.v
theories/Label_Spec.v
theories/Label_Proofs.v
theories/Label_Proofs2.v
theories/Label_Proofs3.v
theories/Label_Proofs4.v
theories/Label_Props.v
theories/OLS_Model.v
theories/OLS_Spec.v
theories/OLS_Proofs.v
theories/OLS_Proofs2.v
theories/Trend_Model.v
theories/Trend_Spec.v
theories/Trend_Proofs.v
theories/Trend_Proofs2.v
theories/Trend_Proofs3.v
theories/Trend_Proofs4.v
theories/OLS_Props.v
theories/Trend_Props.v
theories/OLS_Short.v
theories/Break_Model.v
theories/Break_Spec.v
theories/OLS_TStat.v
theories/Break_Proofs.v
theories/Break_Proofs2.v
theories/Break_Proofs3.v
theories/Break_Proofs4.v
theories/Break_Proofs5.v
theories/Break_Cases.v
theories/Break_Props.v
theories/Bet_Model.v
theories/Bet_Spec.v
theories/Bet_Proofs.v
theories/Bet_Proofs2.v
theories/Bet_Proofs3.v
theories/Bet_Props.v
theories/Feat_Model.v
theories/Feat_Spec.v
theories/Feat_Proofs.v
theories/Feat_Proofs2.v
theories/Feat_Proofs3.v
theories/Feat_Proofs4.v
theories/Feat_Proofs5.v
theories/Feat_Proofs6.v
theories/Feat_Proofs7.v
theories/Feat_Props.v
theories/TAFactory_Model.v
theories/TAFactory_Spec.v
theories/TAFactory_Proofs.v
theories/TAFactory_Proofs2.v
theories/TAFactory_Props.v
theories/Bag_Model.v
theories/Bag_Spec.v
theories/Bag_Proofs.v
theories/Bag_Proofs2.v
theories/Bag_Proofs3.v
theories/Bag_Proofs4.v
theories/Bag_Proofs5.v
theories/Bag_Props.v
theories/Pipe_Model.v
theories/Pipe_Spec.v
theories/Pipe_Proofs1.v
theories/Pipe_Proofs2.v
theories/Pipe_Proofs3.v
theories/Pipe_Proofs4.v
theories/Pipe_Proofs5.v
theories/Pipe_Proofs6.v
theories/Pipe_Proofs7.v
theories/Pipe_Proofs8.v
theories/Pipe_Proofs9.v
theories/Pipe_Props.v
theories/Strat_Model.v
theories/Strat_Spec.v
theories/Strat_Proofs.v
theories/Strat_Props.v
theories/Feat_Proofs8.v
theories/Pipe_Proofs10.v
theories/Pipe_Props2.v
theories/Bag_Proofs6.v
theories/Flow_Model.v
theories/Flow_Spec.v
theories/Flow_Proofs.v
theories/Flow_Props.v
theories/Wrap_Model.v
theories/Wrap_Spec.v
theories/Wrap_Proofs.v
theories/Wrap_Proofs2.v
theories/Wrap_Proofs3.v
theories/Wrap_Proofs4.v
theories/Wrap_Props.v
theories/Paths_Model.v
theories/Paths_Spec.v
theories/Paths_Proofs.v
theories/Paths_Proofs2.v
theories/Paths_Proofs3.v
theories/Paths_Props.v
theories/Break_Proofs6.v
theories/Pipe_Spec2.v
theories/Pipe_Proofs11.v
theories/Pipe_Props3.v
theories/DailyVol_Spec.v
theories/DailyVol_Proofs2.v
theories/Scale_Spec.v
theories/Scale_Spec2.v
theories/Scale_Proofs.v
theories/Scale_Proofs2.v
theories/Scale_Proofs3.v
theories/Scale_Props.v
theories/Order_Spec.v
theories/Order_Spec2.v
theories/Order_Spec3.v
theories/Order_Proofs.v
theories/Order_Proofs2.v
theories/Order_Proofs3.v
theories/Order_Props.v
theories/Pipe_Proofs12.v
theories/Local_Spec.v
theories/Local_Proofs.v
theories/Local_Proofs2.v
theories/Local_Props.v
theories/Mirror_Spec.v
theories/Mirror_Proofs.v
theories/Mirror_Proofs2.v
theories/Mirror_Proofs3.v
theories/Mirror_Props.v
theories/Scale_Spec3.v
theories/Scale_Proofs4.v
theories/Scale_Proofs5.v
theories/Scale_Cases.v
theories/Scale_Props2.v
theories/Params_Model.v
theories/Params_Spec.v
theories/Params_Proofs.v
theories/Params_Proofs2.v
theories/Params_Proofs3.v
theories/Params_Props.v
theories/BagState_Model.v
theories/BagState_Spec.v
theories/BagState_Proofs.v
theories/BagState_Props.v
theories/Bag_Spec2.v
theories/Bag_Proofs7.v
theories/Bag_Props2.v
theories/Pipe_Proofs13.v
theories/Columns_Spec.v
theories/Columns_Proofs.v
theories/Columns_Proofs2.v
theories/Columns_Props.v
theories/Reject_Spec.v
theories/Reject_Proofs.v
theories/Reject_Props.v
theories/Direction_Spec.v
theories/Direction_Proofs.v
theories/Direction_Proofs2.v
theories/Direction_Proofs3.v
theories/Direction_Proofs4.v
theories/Direction_Proofs5.v
theories/Direction_Props.v
theories/Conformance.v
theories/Stricter_Spec.v
theories/Stricter_Proofs.v
theories/Stricter_Proofs2.v
theories/Stricter_Proofs3.v
theories/Stricter_Proofs4.v
theories/Stricter_Proofs5.v
theories/Stricter_Props.v
theories/Stricter_Props2.v
theories/Favour_Spec.v
theories/Favour_Proofs.v
theories/Favour_Proofs2.v
theories/Favour_Props.v
theories/Params_Proofs4.v
theories/Bet_Proofs4.v
theories/Ewm_Model.v
theories/Ewm_Proofs.v
theories/Roll_Model.v
theories/Roll_Proofs.v
theories/Roll_Proofs2.v
theories/Roll_Props.v
theories/Double_Model.v
theories/Double_Spec.v
theories/Double_Proofs.v
theories/Double_Proofs2.v
theories/Double_Proofs3.v
theories/Double_Props.v
theories/Double_Boot_Model.v
theories/Double_Boot_Proofs.v
theories/Double_Boot_Proofs2.v
theories/Double_Boot_Proofs3.v
theories/Double_Boot_Proofs4.v
theories/Double_Boot_Proofs5.v
theories/Double_Boot_Props.v
theories/Rounding_Model.v
theories/Rounding_Proofs.v
theories/Rounding_Proofs2.v
theories/Rounding_Proofs3.v
theories/Rounding_Props.v
theories/Rounding_Arith_Model.v
theories/Rounding_Arith_Proofs.v
theories/Double_Cusum_Proofs.v
theories/Double_Cusum_Props.v
theories/Pipe_Spec3.v
theories/Pipe_Proofs14.v
theories/Pipe_Proofs15.v
theories/Pipe_Proofs16.v
theories/Pipe_Props4.v
theories/Double_Weights_Model.v
theories/Double_Weights_Proofs.v
theories/Double_Weights_Proofs2.v
theories/Double_Weights_Proofs3.v
theories/Double_Weights_Props.v
theories/Trend_Spec2.v
theories/Trend_Proofs5.v
theories/Trend_Props2.v
theories/Double_Bet_Model.v
theories/Double_Bet_Spec.v
theories/Double_Bet_Proofs.v
theories/Double_Bet_Proofs2.v
theories/Double_Bet_Proofs3.v
theories/Double_Bet_Props.v
theories/Break_Scale_Spec.v
theories/Break_Scale_Proofs.v
theories/Break_Scale_Proofs2.v
theories/Break_Scale_Proofs3.v
theories/Break_Scale_Proofs4.v
theories/Break_Scale_Props.v
theories/Double_Vpin_Model.v
theories/Double_Vpin_Spec.v
theories/Double_Vpin_Proofs.v
theories/Double_Vpin_Proofs2.v
theories/Double_Vpin_Proofs3.v
theories/Double_Vpin_Proofs4.v
theories/Double_Vpin_Props.v
theories/Double_Cross_Model.v
theories/Double_Cross_Proofs.v
theories/Double_Cross_Proofs2.v
theories/Double_Cross_Props.v
theories/Double_Z_Model.v
theories/Double_Z_Proofs.v
theories/Double_Z_Proofs2.v
theories/Double_Z_Props.v
theories/Double_Ewm_Model.v
theories/Double_Ewm_Proofs.v
theories/Double_Ewm_Proofs2.v
theories/Double_Ewm_Props.v
theories/Double_Micro_Model.v
theories/Double_Micro_Spec.v
theories/Double_Micro_Proofs.v
theories/Double_Micro_Proofs2.v
theories/Double_Micro_Props.v
theories/Double_Bound_Spec.v
theories/Double_Bound_Proofs.v
theories/Double_Bound_Proofs2.v
theories/Double_Bound_Proofs3.v
theories/Double_Bound_Proofs4.v
theories/Double_Bound_Props.v
theories/Double_Ewm_Bound_Proofs.v
theories/Double_Ewm_Bound_Proofs2.v
theories/Double_Ewm_Bound_Proofs3.v
theories/Double_Ewm_Bound_Props.v
theories/Double_Vol_Proofs.v
theories/Double_Vol_Proofs2.v
theories/Double_Vol_Props.v
theories/Stable_Spec.v
theories/Stable_Proofs.v
theories/Stable_Proofs2.v
theories/Stable_Props.v
theories/Stable_Label_Proofs.v
theories/Stable_Label_Proofs2.v
theories/Stable_Label_Proofs3.v
theories/Stable_Label_Props.v
theories/Cusum_Restart_Spec.v
theories/Cusum_Restart_Proofs.v
theories/Cusum_Restart_Props.v
theories/Label_Cut_Spec.v
theories/Label_Cut_Proofs.v
theories/Label_Cut_Props.v
theories/Trend_Cut_Proofs.v
theories/Trend_Cut_Props.v
theories/Ewma_Late_Proofs.v
theories/Ewma_Late_Props.v
theories/Cusum_Path_Spec.v
theories/Cusum_Path_Proofs.v
theories/Cusum_Path_Props.v
