-Q theories Verif
theories/Accuracy_Model.v
theories/Accuracy_Proofs.v
theories/Accuracy_Props.v
theories/Accuracy_Spec.v
theories/Activation_Model.v
theories/Activation_Proofs.v
theories/Activation_Props.v
theories/Algebra_Proofs.v
theories/Bags_Model.v
theories/Bags_Proofs.v
theories/Bags_Proofs2.v
theories/Bags_Props.v
theories/Bags_Spec.v
theories/Bpe_Example.v
theories/Bpe_Files.v
theories/Bpe_Loop.v
theories/Bpe_Model.v
theories/Bpe_Proofs.v
theories/Bpe_Props.v
theories/Bpe_Reach.v
theories/Bpe_Spec.v
theories/Chars.v
theories/Classifier_Flow.v
theories/Classifier_Proofs.v
theories/Classifier_Props.v
theories/Classifier_Spec.v
theories/Columns_Model.v
theories/Columns_Proofs.v
theories/Columns_Props.v
theories/Columns_Spec.v
theories/ConvLayer_Model.v
theories/Conv_Proofs.v
theories/Conv_Props.v
theories/Conv_Spec.v
theories/CreateDataset_Model.v
theories/CreateDataset_Proofs.v
theories/CreateDataset_Props.v
theories/CreateDataset_Spec.v
theories/CreateTask_Model.v
theories/CreateTask_Proofs.v
theories/CreateTask_Props.v
theories/CreateTask_Spec.v
theories/DataSet_Model.v
theories/DataSet_Proofs.v
theories/DataSet_Props.v
theories/DataSet_Spec.v
theories/DatasetFile_Model.v
theories/DatasetFile_Proofs.v
theories/DatasetFile_Props.v
theories/DatasetFile_Spec.v
theories/Delimited_Model.v
theories/Delimited_Proofs.v
theories/Delimited_Props.v
theories/Delimited_Spec.v
theories/Encode_Model.v
theories/Encode_Proofs.v
theories/Encode_Props.v
theories/ExecDataset_Model.v
theories/ExecDataset_Proofs.v
theories/ExecDataset_Props.v
theories/ExecDataset_Spec.v
theories/Exit_Model.v
theories/Exit_Proofs.v
theories/Exit_Props.v
theories/Exit_Spec.v
theories/F32_Model.v
theories/F32_Proofs.v
theories/FileSort_Model.v
theories/FileSort_Proofs.v
theories/FileSort_Props.v
theories/FileSort_Spec.v
theories/Float32_Spec.v
theories/FloatAct_Proofs.v
theories/FloatAct_Props.v
theories/FloatConv_Proofs.v
theories/FloatExp_Proofs.v
theories/FloatFaith_Proofs.v
theories/FloatLabel_Proofs.v
theories/FloatLabel_Props.v
theories/FloatLayer_Proofs.v
theories/FloatLip_Proofs.v
theories/FloatLoss_Model.v
theories/FloatLoss_Proofs.v
theories/FloatLoss_Props.v
theories/FloatLoss_Spec.v
theories/FloatNet_Model.v
theories/FloatNet_Proofs.v
theories/FloatNet_Props.v
theories/FloatNet_Spec.v
theories/FloatNorm_Layer.v
theories/FloatNorm_Proofs.v
theories/FloatNorm_Props.v
theories/FloatNorm_Spec.v
theories/FloatOpt_Model.v
theories/FloatOpt_Proofs.v
theories/FloatOpt_Props.v
theories/FloatOpt_Spec.v
theories/FloatProb_Proofs.v
theories/FloatProb_Props.v
theories/FloatRun_Proofs.v
theories/FloatRun_Props.v
theories/FloatRun_Spec.v
theories/FloatScale_Model.v
theories/FloatScale_Proofs.v
theories/FloatScale_Props.v
theories/FloatScale_Spec.v
theories/FloatSoft_Proofs.v
theories/FloatSoft_Props.v
theories/FloatStat_Proofs.v
theories/FloatStat_Props.v
theories/Graph_Back_Props.v
theories/Graph_Backward.v
theories/Graph_Blocked.v
theories/Graph_Forward.v
theories/Graph_Model.v
theories/Graph_Props.v
theories/Graph_Spec.v
theories/Graph_Walk_Proofs.v
theories/Graph_Walk_Props.v
theories/HalfFloat_Model.v
theories/HalfFloat_Proofs.v
theories/HalfFloat_Props.v
theories/Hyperband_Model.v
theories/Hyperband_Props.v
theories/InitialWeights_Model.v
theories/InitialWeights_Proofs.v
theories/InitialWeights_Props.v
theories/InputHelp_Model.v
theories/InputHelp_Proofs.v
theories/InputHelp_Props.v
theories/InputHelp_Spec.v
theories/Interp_Model.v
theories/Interp_Props.v
theories/Inverse_Model.v
theories/Inverse_Proofs.v
theories/Inverse_Props.v
theories/Inverse_Read.v
theories/Knowledge_Model.v
theories/Knowledge_Props.v
theories/Layer_Model.v
theories/Layer_Proofs.v
theories/Layer_Props.v
theories/Layer_Spec.v
theories/Lexer_Model.v
theories/Lexer_Proofs.v
theories/Lexer_Props.v
theories/Lexer_Spec.v
theories/Lines_Model.v
theories/Lines_Proofs.v
theories/Lines_Props.v
theories/Literal_Model.v
theories/Literal_Props.v
theories/Loss_Model.v
theories/Loss_Proofs.v
theories/Loss_Props.v
theories/Loss_Spec.v
theories/Lru_Model.v
theories/Lru_Proofs.v
theories/Lru_Props.v
theories/Lru_Spec.v
theories/MatMul_Proofs.v
theories/MatMul_Props.v
theories/ModelFile_Dfs.v
theories/ModelFile_Load.v
theories/ModelFile_Model.v
theories/ModelFile_Order.v
theories/ModelFile_Proofs.v
theories/ModelFile_Props.v
theories/ModelFile_Reload.v
theories/ModelFile_Spec.v
theories/ModelFile_Text.v
theories/NetGrad_Flow.v
theories/NetGrad_Layers.v
theories/NetGrad_Proofs.v
theories/NetGrad_Props.v
theories/NetGrad_Spec.v
theories/NetGrad_Steps.v
theories/Net_Clogged.v
theories/Net_Flow.v
theories/Net_Graph.v
theories/Net_Model.v
theories/Net_Proofs.v
theories/Net_Props.v
theories/Net_Spec.v
theories/Net_Train.v
theories/Net_Vertex.v
theories/NumText_Model.v
theories/NumText_Proofs.v
theories/OneHot_Model.v
theories/OneHot_Proofs.v
theories/OneHot_Props.v
theories/OneHot_Spec.v
theories/Optimizer_Model.v
theories/Optimizer_Props.v
theories/Outcome.v
theories/Parser_Model.v
theories/Parser_Proofs.v
theories/Parser_Props.v
theories/Parser_Safety.v
theories/Parser_Spec.v
theories/Picture_Model.v
theories/Picture_Proofs.v
theories/Picture_Props.v
theories/Picture_Spec.v
theories/Pixel_Model.v
theories/Pixel_Proofs.v
theories/Pixel_Props.v
theories/PortableBytes_Model.v
theories/PortableBytes_Proofs.v
theories/PortableBytes_Props.v
theories/PortableBytes_Spec.v
theories/QuarterFloat_Model.v
theories/QuarterFloat_Proofs.v
theories/QuarterFloat_Proofs2.v
theories/QuarterFloat_Proofs3.v
theories/QuarterFloat_Props.v
theories/Reduce_Model.v
theories/Reduce_Proofs.v
theories/Reduce_Props.v
theories/Reduce_Spec.v
theories/Replace_Model.v
theories/Replace_Proofs.v
theories/Replace_Props.v
theories/Replace_Spec.v
theories/SaveFiles_Model.v
theories/SaveFiles_Proofs.v
theories/SaveFiles_Props.v
theories/SaveFiles_Spec.v
theories/Scaling_Model.v
theories/Scaling_Proofs.v
theories/Scaling_Props.v
theories/Scaling_Spec.v
theories/Spoil_Model.v
theories/Spoil_Proofs.v
theories/Spoil_Props.v
theories/Spoil_Spec.v
theories/Storage_Model.v
theories/Storage_Proofs.v
theories/Storage_Proofs2.v
theories/Storage_Proofs3.v
theories/Storage_Proofs4.v
theories/Storage_Proofs5.v
theories/Storage_Proofs6.v
theories/Storage_Props.v
theories/Storage_Spec.v
theories/Table_Model.v
theories/Table_Props.v
theories/TaskNet_Front.v
theories/TaskNet_Model.v
theories/TaskNet_Proofs.v
theories/TaskNet_Props.v
theories/TaskNet_Shapes.v
theories/TaskNet_Spec.v
theories/TaskNet_Whole.v
theories/TaskOut_Proofs.v
theories/TaskOut_Props.v
theories/TaskOut_Spec.v
theories/TaskSave_Props.v
theories/TaskSearch_Model.v
theories/TaskSearch_Proofs.v
theories/TaskSearch_Props.v
theories/TaskSearch_Spec.v
theories/TensorFile_Model.v
theories/TensorFile_Proofs.v
theories/TensorFile_Props.v
theories/TensorFile_Spec.v
theories/Tensor_Model.v
theories/Tensor_Spec.v
theories/TextCodec_Model.v
theories/TextCodec_Proofs.v
theories/TextCodec_Props.v
theories/Tokens_Model.v
theories/Tokens_Proofs.v
theories/Tokens_Props.v
theories/Tokens_Spec.v
theories/Train_Loop.v
theories/Train_Model.v
theories/Train_Proofs.v
theories/Train_Props.v
theories/Train_Spec.v
theories/Trie_Model.v
theories/Trie_Proofs.v
theories/Trie_Props.v
theories/Trie_Spec.v
theories/TxtSplit_Model.v
theories/TxtSplit_Proofs.v
theories/TxtSplit_Props.v
theories/TxtSplit_Spec.v
theories/Views_Proofs.v
theories/Views_Props.v
