-Q theories Verif
theories/Base.v
theories/BaseFacts.v
theories/Sums.v
theories/S_Tensor.v
theories/M_Tensor.v
theories/S_Heap.v
theories/P_Tensor.v
theories/Prop_Tensor.v
theories/M_Im2col.v
theories/S_Im2col.v
theories/P_Im2col.v
theories/P_Layout.v
theories/Prop_Im2col.v
theories/M_Kernels.v
theories/M_Conv.v
theories/Deriv.v
theories/P_Kernels.v
theories/P_Conv.v
theories/M_Layers.v
theories/S_Grad.v
theories/P_Vjp1.v
theories/P_Vjp2.v
theories/P_Vjp3.v
theories/P_BN.v
theories/P_BN2.v
theories/P_VjpConv.v
theories/P_Pool.v
theories/S_Partial.v
theories/P_Partial.v
theories/P_Conv2.v
theories/Prop_Conv.v
theories/M_Par.v
theories/P_Par.v
theories/Prop_Par.v
theories/S_Stats.v
theories/S_BN.v
theories/S_Act.v
theories/P_Layers.v
theories/P_BN3.v
theories/P_Layers2.v
theories/Prop_Layers.v
theories/M_Loss.v
theories/S_Loss.v
theories/P_Loss.v
theories/Prop_Loss.v
theories/M_Optim.v
theories/S_Optim.v
theories/P_Optim.v
theories/Prop_Optim.v
theories/M_DataLoader.v
theories/S_DataLoader.v
theories/P_DataLoader.v
theories/Prop_DataLoader.v
theories/M_Init.v
theories/Prop_Init.v
theories/M_Nn.v
theories/M_Graph.v
theories/M_Model.v
theories/S_Nn.v
theories/S_Graph.v
theories/P_Graph.v
theories/P_Graph2.v
theories/P_Nn.v
theories/P_Model.v
theories/P_Model2.v
theories/P_MakeLayer.v
theories/Prop_Graph.v
theories/Prop_Model.v
theories/Prop_Nn.v
theories/M_Backend.v
theories/S_Run.v
theories/P_Run.v
theories/P_Fwd.v
theories/P_Load.v
theories/P_Fwd2.v
theories/P_Run2.v
theories/Prop_Run.v
theories/P_Bwd.v
theories/P_Bwd2.v
theories/P_Bwd3.v
theories/S_Fit.v
theories/P_Fit.v
theories/Prop_Bwd.v
theories/P_Idem.v
theories/P_Idem2.v
theories/Prop_Bwd2.v
theories/M_Serial.v
theories/S_Serial.v
theories/P_Serial.v
theories/P_Serial2.v
theories/Prop_Serial.v
theories/M_Image.v
theories/S_Image.v
theories/P_Image.v
theories/Prop_Image.v
theories/M_Float.v
theories/S_Float.v
theories/P_Float.v
theories/Prop_Float.v
theories/P_Build.v
theories/S_Build.v
theories/P_Build2.v
theories/P_Build3.v
theories/P_Build4.v
theories/Prop_Build.v
theories/P_Safe.v
theories/S_Primed.v
theories/P_Safe2.v
theories/M_Train.v
theories/S_Train.v
theories/P_Train.v
theories/P_Train2.v
theories/P_Train3.v
theories/Prop_Train.v
theories/S_Plain.v
theories/P_Plain.v
theories/Prop_Plain.v
theories/S_Desc.v
theories/P_Desc.v
theories/Prop_Desc.v
theories/S_Eval.v
theories/P_Eval.v
theories/P_Eval2.v
theories/Prop_Eval.v
theories/M_Sample.v
theories/S_Sample.v
theories/P_Sample.v
theories/P_Nets.v
theories/P_Sample2.v
theories/Prop_Sample.v
theories/S_Session.v
theories/P_Session.v
theories/Prop_Session.v
theories/M_Saved.v
theories/S_Saved.v
theories/P_Saved.v
theories/P_Saved2.v
theories/P_Saved3.v
theories/P_Saved4.v
theories/P_Saved5.v
theories/P_Saved6.v
theories/P_Saved7.v
theories/P_Saved8.v
theories/Prop_Saved.v
theories/S_Saved2.v
theories/P_Saved9.v
theories/Prop_Saved2.v
theories/M_Data.v
theories/S_Data.v
theories/P_Data.v
theories/P_Data2.v
theories/P_Data3.v
theories/Prop_Data.v
theories/S_Descent.v
theories/P_Descent.v
theories/P_Descent2.v
theories/P_Descent3.v
theories/P_Descent4.v
theories/Prop_Descent.v
theories/M_Dot.v
theories/S_Dot.v
theories/P_Dot.v
theories/P_Dot2.v
theories/P_Dot3.v
theories/P_Dot4.v
theories/P_Dot5.v
theories/Prop_Dot.v
theories/M_Ref.v
theories/S_Ref.v
theories/P_Ref.v
theories/P_Ref2.v
theories/P_Ref3.v
theories/P_Ref4.v
theories/Prop_Ref.v
theories/M_Round.v
theories/S_Round.v
theories/P_Round.v
theories/P_Round2.v
theories/P_Round3.v
theories/P_Round4.v
theories/P_Round5.v
theories/P_Round6.v
theories/Prop_Round.v
theories/S_Saved3.v
theories/P_Saved10.v
theories/P_Saved11.v
theories/Prop_Saved3.v
theories/P_Saved12.v
theories/M_Main.v
theories/S_Main.v
theories/P_Main.v
theories/P_Main2.v
theories/P_Batch.v
theories/P_Batch2.v
theories/P_Batch3.v
theories/P_Main3.v
theories/Prop_Main.v
theories/M_Models.v
theories/S_Models.v
theories/P_Models.v
theories/P_Models2.v
theories/P_Models3.v
theories/P_Models4.v
theories/P_Models5.v
theories/Prop_Models.v
theories/M_Ieee.v
theories/S_Ieee.v
theories/P_Ieee.v
theories/P_Ieee2.v
theories/P_Ieee3.v
theories/P_Ieee4.v
theories/P_Ieee5.v
theories/P_Ieee6.v
theories/P_Ieee7.v
theories/P_Ieee8.v
theories/P_Ieee9.v
theories/P_Ieee10.v
theories/P_Ieee11.v
theories/P_Ieee12.v
theories/Prop_Ieee.v
theories/Prop_Batch.v
theories/M_Int.v
theories/S_Int.v
theories/P_Int.v
theories/P_Int2.v
theories/Prop_Int.v
theories/M_IntModel.v
theories/S_IntModel.v
theories/P_IntModel.v
theories/P_IntModel2.v
theories/Prop_IntModel.v
theories/P_Serial3.v
theories/Prop_Files.v
theories/M_IeeeOpt.v
theories/S_IeeeOpt.v
theories/P_IeeeOpt.v
theories/P_IeeeOpt2.v
theories/P_IeeeOpt3.v
theories/Prop_IeeeOpt.v
theories/M_IeeeDense.v
theories/S_IeeeDense.v
theories/P_IeeeDense.v
theories/Prop_IeeeDense.v
theories/M_IeeeTrain.v
theories/S_IeeeTrain.v
theories/P_IeeeTrain.v
theories/Prop_IeeeTrain.v
theories/S_AdamBound.v
theories/P_AdamBound.v
theories/Prop_AdamBound.v
theories/M_Regression.v
theories/S_Regression.v
theories/P_Regression.v
theories/P_Separable.v
theories/Prop_Regression.v
