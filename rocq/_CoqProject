-Q theories Verif
theories/Base.v
theories/BaseLemmas.v
theories/Coord_Model.v
theories/Coord_Spec.v
theories/Coord_Proofs.v
theories/Coord_Proofs2.v
theories/Coord_Theorems.v
theories/Space_Model.v
theories/Space_Spec.v
theories/Space_Proofs.v
theories/Space_Proofs2.v
theories/Space_Proofs3.v
theories/Space_Proofs4.v
theories/Space_Proofs5.v
theories/Space_Theorems.v
theories/Param_Model.v
theories/Param_Spec.v
theories/Param_Proofs.v
theories/Param_Proofs2.v
theories/Param_Proofs3.v
theories/Param_Theorems.v
theories/Param_Theorems2.v
theories/PGraph_Model.v
theories/PGraph_Spec.v
theories/PGraph_Proofs.v
theories/PGraph_Proofs2.v
theories/PGraph_Theorems.v
theories/Cache_Model.v
theories/Cache_Spec.v
theories/Cache_Proofs.v
theories/Cache_Proofs2.v
theories/Cache_Theorems.v
theories/CPdf_Model.v
theories/CPdf_Spec.v
theories/CPdf_Proofs.v
theories/CPdf_Theorems.v
theories/Data_Model.v
theories/Data_Spec.v
theories/Data_Proofs.v
theories/Data_Proofs2.v
theories/Data_Proofs3.v
theories/Data_Proofs4.v
theories/Data_Proofs5.v
theories/Data_Proofs6.v
theories/Data_Proofs7.v
theories/Data_Theorems.v
theories/Loss_Model.v
theories/Loss_Spec.v
theories/Loss_Proofs.v
theories/Loss_Proofs2.v
theories/Loss_Proofs3.v
theories/Loss_Proofs4.v
theories/Loss_Proofs5.v
theories/Loss_Theorems.v
theories/Hist_Model.v
theories/Hist_Spec.v
theories/Hist_Proofs.v
theories/Hist_Proofs2.v
theories/Hist_Proofs3.v
theories/Hist_Proofs4.v
theories/Hist_Proofs5.v
theories/Hist_Theorems.v
theories/Disp_Model.v
theories/Disp_Spec.v
theories/Disp_Proofs.v
theories/Disp_Theorems.v
theories/Reg_Model.v
theories/Reg_Spec.v
theories/Reg_Proofs.v
theories/Reg_Theorems.v
theories/NumInt_Model.v
theories/NumInt_Spec.v
theories/NumInt_Proofs.v
theories/NumInt_Proofs2.v
theories/NumInt_Theorems.v
theories/Sum_Model.v
theories/Sum_Spec.v
theories/Sum_Proofs.v
theories/Sum_Theorems.v
theories/Prod_Model.v
theories/Prod_Spec.v
theories/Prod_Proofs.v
theories/Prod_Proofs2.v
theories/Prod_Theorems.v
theories/Trunc_Model.v
theories/Trunc_Spec.v
theories/Trunc_Proofs.v
theories/Trunc_Theorems.v
theories/FSamp_Model.v
theories/FSamp_Spec.v
theories/FSamp_Proofs.v
theories/FSamp_Proofs2.v
theories/FSamp_Theorems.v
theories/AccRej_Model.v
theories/AccRej_Spec.v
theories/AccRej_Proofs.v
theories/AccRej_Proofs2.v
theories/AccRej_Theorems.v
theories/Poly_Model.v
theories/Poly_Spec.v
theories/Poly_Proofs.v
theories/Poly_Proofs2.v
theories/Poly_Proofs3.v
theories/Poly_Theorems.v
theories/BInt_Model.v
theories/BInt_Spec.v
theories/BInt_Proofs.v
theories/BInt_Proofs2.v
theories/BInt_Proofs3.v
theories/BInt_Theorems.v
theories/LEval_Model.v
theories/LEval_Spec.v
theories/LEval_Proofs.v
theories/LEval_Theorems.v
theories/Step_Model.v
theories/Step_Spec.v
theories/Step_Proofs.v
theories/Step_Theorems.v
theories/Mini_Model.v
theories/Mini_Spec.v
theories/Mini_Proofs.v
theories/Mini_Proofs2.v
theories/Mini_Proofs3.v
theories/Mini_Theorems.v
theories/Space_Proofs6.v
theories/Space_Proofs7.v
theories/Space_Proofs8.v
theories/Space_Proofs9.v
theories/Space_Theorems2.v
theories/Unc_Model.v
theories/Unc_Spec.v
theories/Unc_Proofs.v
theories/Unc_Proofs2.v
theories/Unc_Proofs3.v
theories/Unc_Proofs4.v
theories/Unc_Theorems.v
theories/Comb_Model.v
theories/Comb_Spec.v
theories/Comb_Proofs.v
theories/Comb_Proofs2.v
theories/Comb_Theorems.v
theories/Prof_Model.v
theories/Prof_Spec.v
theories/Prof_Proofs.v
theories/Prof_Proofs2.v
theories/Prof_Theorems.v
theories/Bpdf_Model.v
theories/Bpdf_Spec.v
theories/Bpdf_Proofs.v
theories/Bpdf_Proofs2.v
theories/Bpdf_Proofs3.v
theories/Bpdf_Proofs4.v
theories/Bpdf_Theorems.v
theories/Constr_Model.v
theories/Constr_Spec.v
theories/Constr_Proofs.v
theories/Constr_Proofs2.v
theories/Constr_Theorems.v
theories/Compo_Model.v
theories/Compo_Spec.v
theories/Compo_Proofs.v
theories/Compo_Proofs2.v
theories/Compo_Theorems.v
theories/Phys_Model.v
theories/Phys_Spec.v
theories/Phys_Proofs.v
theories/Phys_Proofs2.v
theories/Phys_Theorems.v
theories/Expo_Model.v
theories/Expo_Spec.v
theories/Expo_Proofs.v
theories/Expo_Theorems.v
theories/LM_Model.v
theories/LM_Spec.v
theories/LM_Proofs.v
theories/LM_Proofs2.v
theories/LM_Proofs3.v
theories/LM_Proofs4.v
theories/LM_Proofs5.v
theories/LM_Theorems.v
theories/LM_Theorems2.v
theories/Conv_Model.v
theories/Conv_Spec.v
theories/Conv_Proofs.v
theories/Conv_Proofs2.v
theories/Conv_Proofs3.v
theories/Conv_Proofs4.v
theories/Conv_Proofs5.v
theories/Conv_Theorems.v
theories/Ufb_Model.v
theories/Ufb_Spec.v
theories/Ufb_Proofs.v
theories/Ufb_Proofs2.v
theories/Ufb_Theorems.v
theories/Kde_Model.v
theories/Kde_Spec.v
theories/Kde_Proofs.v
theories/Kde_Proofs2.v
theories/Kde_Proofs3.v
theories/Kde_Proofs4.v
theories/Kde_Proofs5.v
theories/Kde_Theorems.v
theories/Kde_Theorems2.v
theories/Drv_Model.v
theories/Drv_Spec.v
theories/Drv_Proofs.v
theories/Drv_Proofs2.v
theories/Drv_Theorems.v
theories/Drv_Theorems2.v
theories/Drv_Theorems3.v
theories/DrvTol_Model.v
theories/DrvTol_Theorems.v
theories/Cond_Model.v
theories/Cond_Spec.v
theories/Cond_Proofs.v
theories/Cond_Proofs2.v
theories/Cond_Proofs3.v
theories/Cond_Theorems.v
theories/Ufb_Theorems2.v
theories/Hs3_Model.v
theories/Hs3_Spec.v
theories/Hs3_Proofs.v
theories/Hs3_Proofs2.v
theories/Hs3_Proofs3.v
theories/Hs3_Proofs4.v
theories/Hs3_Theorems.v
theories/Cond_Theorems2.v
theories/Drv_Theorems4.v
theories/Tfd_Model.v
theories/Tfd_Spec.v
theories/Tfd_Proofs.v
theories/Tfd_Proofs2.v
theories/Tfd_Theorems.v
theories/Ops_Model.v
theories/Ops_Spec.v
theories/Ops_Proofs.v
theories/Ops_Proofs2.v
theories/Ops_Theorems.v
theories/Der_Model.v
theories/Der_Spec.v
theories/Der_Proofs.v
theories/Der_Proofs2.v
theories/Der_Proofs3.v
theories/Der_Theorems.v
theories/Sloss_Model.v
theories/Sloss_Spec.v
theories/Sloss_Proofs.v
theories/Sloss_Theorems.v
theories/Copy_Model.v
theories/Copy_Spec.v
theories/Copy_Proofs.v
theories/Copy_Proofs2.v
theories/Copy_Proofs3.v
theories/Copy_Theorems.v
theories/Part_Model.v
theories/Part_Spec.v
theories/Part_Proofs.v
theories/Part_Proofs2.v
theories/Part_Proofs3.v
theories/Part_Theorems.v
theories/Spl_Model.v
theories/Spl_Spec.v
theories/Spl_Proofs.v
theories/Spl_Proofs2.v
theories/Spl_Proofs3.v
theories/Spl_Theorems.v
theories/Brent_Model.v
theories/Brent_Spec.v
theories/Brent_Proofs.v
theories/Brent_Theorems.v
theories/BSamp_Model.v
theories/BSamp_Spec.v
theories/BSamp_Proofs.v
theories/BSamp_Theorems.v
theories/Dill_Model.v
theories/Dill_Spec.v
theories/Dill_Proofs.v
theories/Dill_Theorems.v
theories/Seed_Model.v
theories/Seed_Spec.v
theories/Seed_Proofs.v
theories/Seed_Theorems.v
theories/Opt_Model.v
theories/Opt_Spec.v
theories/Opt_Theorems.v
theories/Plot_Model.v
theories/Plot_Spec.v
theories/Plot_Proofs.v
theories/Plot_Theorems.v
theories/Apx_Model.v
theories/Apx_Spec.v
theories/Apx_Theorems.v
theories/Cont_Model.v
theories/Cont_Spec.v
theories/Cont_Theorems.v
theories/Bsp_Model.v
theories/Bsp_Spec.v
theories/Bsp_Proofs.v
theories/Bsp_Theorems.v
theories/Hh_Model.v
theories/Hh_Spec.v
theories/Hh_Theorems.v
theories/Lab_Model.v
theories/Lab_Spec.v
theories/Lab_Theorems.v
theories/Wrn_Model.v
theories/Wrn_Spec.v
theories/Wrn_Theorems.v
theories/Lgr_Model.v
theories/Lgr_Spec.v
theories/Lgr_Theorems.v
