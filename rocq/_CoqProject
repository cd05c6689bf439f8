-Q theories Verif
theories/PyBase.v
theories/QcLra.v
theories/PyLib.v
theories/RN_Model.v
theories/RN_Spec.v
theories/RN_Inv.v
theories/RN_Ops.v
theories/RN_Conn.v
theories/RN_Elim.v
theories/RN_All.v
theories/RN_Hist.v
theories/Cond_Model.v
theories/Cond_Proofs.v
theories/Tri_Model.v
theories/Tri_Spec.v
theories/Tri_Proofs.v
theories/RN_Props.v
theories/NT_Model.v
theories/NT_Spec.v
theories/NT_Props.v
theories/ER_Model.v
theories/ER_Spec.v
theories/ER_Proofs.v
theories/ER_Props.v
theories/NX_Model.v
theories/NX_Spec.v
theories/NX_Proofs.v
theories/NX_Props.v
theories/OV_Model.v
theories/OV_Spec.v
theories/OV_Proofs.v
theories/OV_Props.v
theories/SF_Model.v
theories/SF_Spec.v
theories/SF_Proofs.v
theories/SF_Props.v
theories/FR_Model.v
theories/FR_Props.v
theories/PyStr.v
theories/PyNum.v
theories/CM_Model.v
theories/CM_Props.v
theories/FX_Model.v
theories/FX_Spec.v
theories/FX_Proofs.v
theories/FX_Props.v
theories/LG_Model.v
theories/LG_Spec.v
theories/LG_Props.v
theories/SW_Model.v
theories/SW_Spec.v
theories/SW_Proofs.v
theories/SW_Sweep.v
theories/SW_Run.v
theories/SW_Props.v
theories/FG_Model.v
theories/FG_Spec.v
theories/FG_Proofs.v
theories/FG_Props.v
theories/CK_Model.v
theories/CK_Spec.v
theories/CK_Geo.v
theories/CK_Proofs.v
theories/CK_Props.v
theories/TI_Model.v
theories/TI_Spec.v
theories/TI_Tables.v
theories/TI_Proofs.v
theories/TI_Props.v
theories/UT_Model.v
theories/UT_Spec.v
theories/UT_Proofs.v
theories/UT_Props.v
theories/LV_Model.v
theories/LV_Spec.v
theories/LV_Proofs.v
theories/LV_Props.v
theories/RQ_Model.v
theories/RQ_Spec.v
theories/RQ_Proofs.v
theories/RQ_Props.v
theories/PD_Model.v
theories/PD_Sky130A.v
theories/PD_Ihp.v
theories/PD_Spec.v
theories/PD_Proofs.v
theories/PD_Props.v
theories/PD_Pins.v
theories/PD_Res.v
theories/PD_Build.v
theories/PD_Side.v
theories/CL_Model.v
theories/CL_Spec.v
theories/CL_Proofs.v
theories/CL_Props.v
theories/PyRe.v
theories/MG_Model.v
theories/MG_Spec.v
theories/MG_Proofs.v
theories/MG_Run.v
theories/MG_Props.v
theories/NJ_Model.v
theories/NJ_Spec.v
theories/NJ_Proofs.v
theories/NJ_Props.v
theories/MS_Model.v
theories/MS_Spec.v
theories/MS_Proofs.v
theories/MS_Props.v
theories/EN_Model.v
theories/EN_Spec.v
theories/EN_Proofs.v
theories/EN_Props.v
theories/RL_Model.v
theories/RL_Spec.v
theories/RL_Proofs.v
theories/RL_Props.v
theories/CS_Model.v
theories/CS_Spec.v
theories/CS_Proofs.v
theories/CS_Props.v
theories/CV_Lyp.v
theories/CV_Model.v
theories/CV_Spec.v
theories/CV_Proofs.v
theories/CV_Props.v
theories/E2_Model.v
theories/E2_Spec.v
theories/E2_Proofs.v
theories/E2_Props.v
theories/RX_Model.v
theories/RX_Spec.v
theories/RX_Proofs.v
theories/RX_Props.v
theories/SY_Spec.v
theories/SY_Proofs.v
theories/SY_Props.v
theories/PV_Spec.v
theories/PV_Proofs.v
theories/PV_Props.v
theories/DU_Spec.v
theories/DU_Proofs.v
theories/DU_Props.v
theories/LO_Spec.v
theories/LO_Proofs.v
theories/LO_Props.v
theories/MD_Props.v
theories/FE_Model.v
theories/FE_Spec.v
theories/FE_Props.v
theories/RP_Model.v
theories/RP_Spec.v
theories/RP_Proofs.v
theories/RP_Props.v
theories/ML_Model.v
theories/ML_Spec.v
theories/ML_Proofs.v
theories/ML_Props.v
theories/EV_Model.v
theories/EV_Spec.v
theories/EV_Props.v
theories/FP_Model.v
theories/FP_Spec.v
theories/FP_Proofs.v
theories/FP_Props.v
theories/FC_Model.v
theories/FC_Spec.v
theories/FC_Proofs.v
theories/FC_Caps.v
theories/FC_Sums.v
theories/FC_Props.v
theories/TG_Model.v
theories/TG_Spec.v
theories/TG_Proofs.v
theories/TG_Props.v
theories/RF_Model.v
theories/RF_Spec.v
theories/RF_Proofs.v
theories/RF_Num.v
theories/RF_Mesh.v
theories/RF_Power.v
theories/RF_All.v
theories/RF_Props.v
theories/NF_Model.v
theories/NF_Spec.v
theories/NF_Proofs.v
theories/NF_Text.v
theories/NF_Round.v
theories/NF_Props.v
theories/MF_Model.v
theories/MF_Spec.v
theories/MF_Proofs.v
theories/MF_Caps.v
theories/MF_Props.v
theories/RC_Model.v
theories/RC_Spec.v
theories/RC_Proofs.v
theories/RC_Runs.v
theories/RC_Par.v
theories/RC_Props.v
theories/ST_Model.v
theories/ST_Spec.v
theories/ST_Proofs.v
theories/ST_Props.v
theories/LL_Model.v
theories/LL_Spec.v
theories/LL_Props.v
theories/GF_Model.v
theories/GF_Spec.v
theories/GF_Proofs.v
theories/GF_Props.v
theories/VX_Model.v
theories/VX_Spec.v
theories/VX_Geo.v
theories/VX_Sweep.v
theories/VX_Walls.v
theories/VX_Proofs.v
theories/VX_Views.v
theories/VX_Points.v
theories/VX_Main.v
theories/VX_Props.v
theories/FO_Model.v
theories/FO_Spec.v
theories/FO_Proofs.v
theories/FO_Props.v
theories/DW_Spec.v
theories/DW_Proofs.v
theories/DW_Props.v
