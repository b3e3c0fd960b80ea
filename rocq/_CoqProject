-Q theories Verif
theories/Base.v
theories/BaseFacts.v
theories/Arith.v
theories/RFacts.v
theories/Model_Attribute.v
theories/Model_Events.v
theories/Model_Ring.v
theories/Spec_Common.v
theories/Proofs_Attribute.v
theories/Proofs_Events.v
theories/Proofs_Ring.v
theories/Proofs_Float.v
theories/Props_Common.v
theories/Model_Matrix.v
theories/Spec_Matrix.v
theories/Proofs_MatrixGen.v
theories/Proofs_Matrix.v
theories/Spec_Det.v
theories/Proofs_DetFacts.v
theories/Proofs_Det.v
theories/RComp.v
theories/Props_Matrix.v
theories/Model_Json.v
theories/Model_Phrase.v
theories/Spec_Phrase.v
theories/Proofs_Json.v
theories/Proofs_Phrase.v
theories/Proofs_Phrase2.v
theories/Proofs_Phrase3.v
theories/Proofs_Phrase4.v
theories/Proofs_PhraseStats.v
theories/Props_Phrase.v
theories/Model_Map.v
theories/Model_TrainingSet.v
theories/Proofs_Map.v
theories/Spec_TrainingSet.v
theories/Proofs_TrainingSet.v
theories/Proofs_TrainingSet2.v
theories/Proofs_TrainingSet3.v
theories/Proofs_TrainingSet4.v
theories/Proofs_TrainingSet5.v
theories/Proofs_TrainingSet6.v
theories/Proofs_TrainingSet7.v
theories/Proofs_TrainingSet8.v
theories/Proofs_TrainingStats.v
theories/Props_TrainingSet.v
theories/Model_Gaussian.v
theories/Spec_Gaussian.v
theories/Proofs_Gaussian.v
theories/Proofs_Gaussian2.v
theories/Proofs_Gaussian3.v
theories/Proofs_Gaussian4.v
theories/Model_Ellipse.v
theories/Proofs_Ellipse.v
theories/Props_Gaussian.v
theories/Model_Shared.v
theories/Spec_Shared.v
theories/Proofs_Shared.v
theories/Props_Shared.v
theories/Model_Config.v
theories/Spec_Config.v
theories/Proofs_Config.v
theories/Props_Config.v
theories/Model_Train.v
theories/Spec_Train.v
theories/Proofs_Train.v
theories/Props_Train.v
theories/Model_Life.v
theories/Spec_Life.v
theories/Proofs_Life.v
theories/Proofs_Life2.v
theories/Proofs_Life3.v
theories/Proofs_Life4.v
theories/Proofs_Life5.v
theories/Proofs_Life6.v
theories/Proofs_Life7.v
theories/Props_Life.v
theories/Model_Life2.v
theories/Spec_Life2.v
theories/Proofs_Life8.v
theories/Proofs_Life9.v
theories/Proofs_Life10.v
theories/Proofs_Life11.v
theories/Props_Life2.v
theories/Model_Model.v
theories/Spec_Model.v
theories/Proofs_Model.v
theories/Proofs_Model2.v
theories/Props_Model.v
theories/Model_KMeans.v
theories/Spec_KMeans.v
theories/Proofs_KMeans.v
theories/Props_KMeans.v
theories/Model_GMM.v
theories/Spec_GMM.v
theories/Proofs_GMM.v
theories/Proofs_GMM2.v
theories/Proofs_GMM3.v
theories/Proofs_GMM4.v
theories/Props_GMM.v
theories/Model_HMM.v
theories/Spec_HMM.v
theories/Proofs_HMM.v
theories/Proofs_HMM2.v
theories/Proofs_HMM3.v
theories/Proofs_HMM4.v
theories/Proofs_HMM5.v
theories/Proofs_HMM6.v
theories/Proofs_HMM7.v
theories/Proofs_HMM8.v
theories/Proofs_HMM9.v
theories/Proofs_HMM10.v
theories/Proofs_HMM11.v
theories/Proofs_HMM12.v
theories/Proofs_HMM13.v
theories/Props_HMM.v
theories/Model_HHMM.v
theories/Spec_HHMM.v
theories/Proofs_HHMM.v
theories/Proofs_HHMM2.v
theories/Proofs_HHMM3.v
theories/Proofs_HHMM4.v
theories/Proofs_HHMM5.v
theories/Proofs_HHMM6.v
theories/Proofs_HHMM7.v
theories/Spec_HHMM2.v
theories/Proofs_HHMM8.v
theories/Spec_HHMM3.v
theories/Proofs_HHMM9.v
theories/Proofs_HHMM10.v
theories/Proofs_HHMM11.v
theories/Spec_HHMM4.v
theories/Proofs_HHMM12.v
theories/Ex_HHMM.v
theories/Proofs_HHMM13.v
theories/Proofs_HHMM14.v
theories/Spec_HHMM5.v
theories/Proofs_HHMM15.v
theories/Props_HHMM.v
theories/Model_Reload.v
theories/Spec_Reload.v
theories/Proofs_Rel.v
theories/Proofs_Reload1.v
theories/Proofs_Reload2.v
theories/Proofs_Reload3.v
theories/Proofs_Reload4.v
theories/Proofs_Reload5.v
theories/Props_Reload.v
theories/Proofs_Reload6.v
theories/Proofs_Reload7.v
theories/Proofs_Reload8.v
theories/Proofs_Reload9.v
theories/Proofs_Reload10.v
theories/Props_Reload2.v
theories/Spec_HMMInit.v
theories/Proofs_HMM14.v
theories/Props_HMM2.v
theories/Spec_EM.v
theories/Proofs_PD.v
theories/Proofs_EM.v
theories/Proofs_EM2.v
theories/Proofs_EM3.v
theories/Props_GMM2.v
theories/Spec_EM2.v
theories/Proofs_EM4.v
theories/Proofs_EM5.v
theories/Proofs_EM6.v
theories/Proofs_EM7.v
theories/Props_HMM3.v
theories/Model_Workflow.v
theories/Model_KMeans2.v
theories/Spec_Workflow.v
theories/Spec_KMeans2.v
theories/Proofs_KMeans2.v
theories/Proofs_KMeans3.v
theories/Proofs_KMeans4.v
theories/Props_KMeans2.v
theories/Proofs_Workflow.v
theories/Proofs_Workflow2.v
theories/Proofs_Workflow3.v
theories/Proofs_Workflow4.v
theories/Proofs_Workflow5.v
theories/Proofs_Workflow6.v
theories/Props_Workflow.v
theories/Model_Workflow2.v
theories/Spec_Workflow2.v
theories/Proofs_Workflow7.v
theories/Proofs_Workflow8.v
theories/Proofs_Workflow9.v
theories/Proofs_Workflow10.v
theories/Proofs_Workflow11.v
theories/Props_Workflow2.v
theories/Model_Workflow3.v
theories/Spec_Workflow3.v
theories/Proofs_Workflow12.v
theories/Proofs_Workflow13.v
theories/Proofs_Workflow14.v
theories/Props_Workflow3.v
theories/Model_Workflow4.v
theories/Spec_Workflow4.v
theories/Proofs_Workflow15.v
theories/Proofs_Workflow16.v
theories/Proofs_Workflow17.v
theories/Proofs_Workflow18.v
theories/Props_Workflow4.v
theories/Spec_Float.v
theories/Proofs_Float1.v
theories/Proofs_Float2.v
theories/Spec_Float2.v
theories/Proofs_Float3.v
theories/Proofs_Float4.v
theories/Proofs_Float5.v
theories/Proofs_Float6.v
theories/Proofs_Float7.v
theories/Props_Float.v
theories/Model_Single.v
theories/Spec_Single.v
theories/Proofs_Single1.v
theories/Proofs_Single2.v
theories/Proofs_Single3.v
theories/Props_Single.v
theories/Spec_Float3.v
theories/Proofs_Float8.v
theories/Proofs_Float9.v
theories/Proofs_Float10.v
theories/Proofs_Float11.v
theories/Proofs_Float12.v
theories/Proofs_Float13.v
theories/Props_Float2.v
theories/Spec_Float4.v
theories/Proofs_Float14.v
theories/Proofs_Float15.v
theories/Proofs_Float16.v
theories/Proofs_Float17.v
theories/Props_Float3.v
theories/Model_Single2.v
theories/Model_Single3.v
theories/Model_Single4.v
theories/Spec_Float5.v
theories/Spec_Float6.v
theories/Spec_Float7.v
theories/Proofs_Float18.v
theories/Proofs_Float19.v
theories/Proofs_Float20.v
theories/Proofs_Float21.v
theories/Proofs_Float22.v
theories/Proofs_Float23.v
theories/Proofs_Float24.v
theories/Proofs_Float25.v
theories/Proofs_Float26.v
theories/Proofs_Float27.v
theories/Proofs_Float28.v
theories/Proofs_Float29.v
theories/Proofs_Float30.v
theories/Proofs_Float31.v
theories/Proofs_Float32.v
theories/Proofs_Float33.v
theories/Proofs_Float34.v
theories/Props_Float4.v
theories/Props_Float5.v
theories/Props_Float6.v
theories/Spec_HReg.v
theories/Proofs_HReg.v
theories/Props_HReg.v
theories/Model_Single5.v
theories/Spec_Float8.v
theories/Proofs_KAny.v
theories/Proofs_Single4.v
theories/Proofs_Single5.v
theories/Proofs_Single6.v
theories/Proofs_Single7.v
theories/Proofs_Single8.v
theories/Proofs_Single9.v
theories/Props_Single2.v
theories/Spec_Float9.v
theories/Proofs_Float35.v
theories/Proofs_Float36.v
theories/Proofs_Float37.v
theories/Proofs_Float38.v
theories/Proofs_Float39.v
theories/Proofs_Float40.v
theories/Proofs_Float41.v
theories/Props_Float7.v
theories/Spec_OCov.v
theories/Proofs_OCov.v
theories/Props_OCov.v
theories/Proofs_OCov2.v
theories/Props_OCov2.v
theories/Proofs_OCov3.v
theories/Props_OCov3.v
