-Q theories Verif
theories/Base.v
theories/Sums.v
theories/TableModel.v
theories/TableSpec.v
theories/TableProofs.v
theories/TableProofs2.v
theories/TableProofs3.v
theories/TableProofs4.v
theories/TableProofs5.v
theories/Properties_Table.v
theories/UtilModel.v
theories/UtilSpec.v
theories/ChoiceProofs.v
theories/StringProofs.v
theories/UtilProofs.v
theories/Properties_Util.v
theories/GraphModel.v
theories/GraphSpec.v
theories/KahnProofs.v
theories/NetProofs.v
theories/NetProofs2.v
theories/NetProofs3.v
theories/GraphModel2.v
theories/GraphSpec2.v
theories/OrderProofs.v
theories/CompelProofs.v
theories/CompelProofs2.v
theories/ShdProofs.v
theories/RootProofs.v
theories/RootChoice.v
theories/DepthSpec.v
theories/DepthProofs.v
theories/DepthWitness.v
theories/ImportanceModel.v
theories/ImportanceSpec.v
theories/ImportanceProofs.v
theories/GraphWitness.v
theories/ComboProofs.v
theories/Properties_Graph.v
theories/BeliefSpec.v
theories/BeliefProofs.v
theories/TreeSpec.v
theories/TreeProofs.v
theories/RootedProofs.v
theories/ParModel.v
theories/ParProofs.v
theories/JTModel.v
theories/SchedProofs.v
theories/MoralProofs.v
theories/ElimProofs.v
theories/JTSpec.v
theories/TriProofs.v
theories/PrimProofs.v
theories/StructProofs.v
theories/LevelProofs.v
theories/PassProofs.v
theories/FlowProofs.v
theories/EvidenceProofs.v
theories/BuildProofs.v
theories/QueryProofs.v
theories/JTTheorems.v
theories/JTWitness.v
theories/Properties_JT.v
theories/LearnModel.v
theories/LearnSpec.v
theories/CountProofs.v
theories/LearnProofs.v
theories/LearnTheorems.v
theories/LearnWitness.v
theories/Properties_Learn.v
theories/CellModel.v
theories/CellSpec.v
theories/CellProofs.v
theories/CellProofs2.v
theories/CellProofs3.v
theories/CellProofs4.v
theories/CellTheorems.v
theories/CellWitness.v
theories/Properties_Cell.v
theories/PCModel.v
theories/PCSpec.v
theories/PCProofs.v
theories/PCProofs2.v
theories/PCProofs3.v
theories/PCProofs4.v
theories/PCTheorems.v
theories/PCWitness.v
theories/Properties_PC.v
theories/OrientModel.v
theories/OrientSpec.v
theories/OrientProofs.v
theories/OrientProofs2.v
theories/OrientProofs3.v
theories/OrientTheorems.v
theories/OrientWitness.v
theories/OrientSound.v
theories/OrientReach.v
theories/DSepSpec.v
theories/DSepProofs.v
theories/EssentialProofs.v
theories/DSepTheorems.v
theories/DSepWitness.v
theories/LearnedWitness.v
theories/EssentialSpec.v
theories/LabelProofs.v
theories/ShdTheorems.v
theories/ShdWitness.v
theories/ShdWitness2.v
theories/Properties_Shd.v
theories/Properties_Orient.v
theories/DataModel.v
theories/DataSpec.v
theories/DataProofs.v
theories/CSVTheorems.v
theories/SVMTheorems.v
theories/ParamModel.v
theories/ParamSpec.v
theories/ParamProofs.v
theories/RowEvidence.v
theories/DataWitness.v
theories/Properties_Data.v
theories/SampleModel.v
theories/SampleSpec.v
theories/SampleProofs.v
theories/SampleWitness.v
theories/Properties_Sample.v
theories/BIFModel.v
theories/BIFSpec.v
theories/BIFProofs.v
theories/BIFProofs2.v
theories/BIFTheorems.v
theories/BIFTables.v
theories/BIFBound.v
theories/BIFXml.v
theories/BIFMain.v
theories/BIFWitness.v
theories/Properties_BIF.v
theories/EvalModel.v
theories/EvalSpec.v
theories/EvalProofs.v
theories/EvalTheorems.v
theories/EvalWitness.v
theories/Properties_Eval.v
theories/PipeModel.v
theories/PipeSpec.v
theories/PipeProofs.v
theories/PipeTheorems.v
theories/PipeWitness.v
theories/Properties_Pipe.v
theories/GenModel.v
theories/GenSpec.v
theories/GenProofs.v
theories/GenWitness.v
theories/Properties_Gen.v
theories/ClassModel.v
theories/ClassSpec.v
theories/OrientSafe.v
theories/OrientPairs.v
theories/PCAny.v
theories/LearnedProofs.v
theories/ClassProofs.v
theories/ClassWitness.v
theories/Properties_Class.v
theories/SaveModel.v
theories/SaveSpec.v
theories/SaveProofs.v
theories/SaveAny.v
theories/SaveWitness.v
theories/Properties_Save.v
theories/JobModel.v
theories/JobSpec.v
theories/JobProofs.v
theories/JobWitness.v
theories/Properties_Job.v
theories/ClassFileSpec.v
theories/ClassFiles.v
theories/ClassFileWitness.v
theories/Properties_ClassFile.v
theories/MessageModel.v
theories/CommuteProofs.v
theories/MessageProofs.v
theories/TourProofs.v
theories/PlainProofs.v
theories/PlainTheorems.v
theories/MessageWitness.v
theories/Properties_Message.v
theories/ProgramModel.v
theories/ProgramSpec.v
theories/ProgramProofs.v
theories/ProgramTheorems.v
theories/ProgramWritten.v
theories/ProgramWitness.v
theories/Properties_Program.v
theories/Properties_Importance.v
theories/Properties_Choice.v
theories/MemoryModel.v
theories/MemorySpec.v
theories/MemoryProofs.v
theories/MemoryProofs2.v
theories/MemoryProofs3.v
theories/MemoryProofs4.v
theories/MemoryProofs5.v
theories/MemoryProofs6.v
theories/MemoryWitness.v
theories/Properties_Memory.v
theories/RoundModel.v
theories/RoundSpec.v
theories/RoundProofs.v
theories/RoundTables.v
theories/RoundState.v
theories/RoundLevels.v
theories/RoundFlow.v
theories/RoundQuery.v
theories/RoundBuild.v
theories/RoundTheorems.v
theories/RoundWitness.v
theories/Properties_Round.v
theories/GSquareModel.v
theories/GSquareSpec.v
theories/GSquareProofs.v
theories/GSquareProofs2.v
theories/GSquareTheorems.v
theories/GSquareWitness.v
theories/Properties_GSquare.v
theories/IntModel.v
theories/IntSpec.v
theories/IntProofs.v
theories/IntRefine.v
theories/IntTables.v
theories/IntLevels.v
theories/IntBuild.v
theories/IntFamily.v
theories/IntTheorems.v
theories/IntWitness.v
theories/Properties_Int.v
theories/FieldSpec.v
theories/FieldProofs.v
theories/FieldTheorems.v
theories/FieldWitness.v
theories/Properties_Field.v
theories/RaggedSpec.v
theories/RaggedProofs.v
theories/RaggedWitness.v
theories/Properties_Ragged.v
theories/LimitModel.v
theories/LimitSpec.v
theories/LimitRefine.v
theories/LimitProofs.v
theories/LimitTheorems.v
theories/LimitLearn.v
theories/LimitWitness.v
theories/Properties_Limit.v
theories/GRoundModel.v
theories/GRoundSpec.v
theories/GRoundProofs.v
theories/GRoundTheorems.v
theories/GRoundWitness.v
theories/Properties_GRound.v
theories/LearnRoundModel.v
theories/LearnRoundTheorems.v
theories/LearnRoundWitness.v
theories/Properties_LearnRound.v
theories/GibbsProofs.v
theories/LikelihoodSpec.v
theories/LikelihoodProofs.v
theories/LikelihoodWitness.v
theories/Properties_Likelihood.v
theories/CoverProofs.v
theories/EquivTheorems.v
theories/EquivWitness.v
theories/Properties_Equiv.v
theories/CopyModel.v
theories/CopyTheorems.v
theories/CopyWitness.v
theories/Properties_Copy.v
theories/RecoverSpec.v
theories/RecoverProofs.v
theories/RecoverTheorems.v
theories/RecoverClose.v
theories/RecoverPipe.v
theories/RecoverWitness.v
theories/Properties_Recover.v
theories/IndepSpec.v
theories/IndepGraph.v
theories/IndepProofs.v
theories/IndepTheorems.v
theories/IndepAnswers.v
theories/IndepData.v
theories/IndepLearn.v
theories/IndepWitness.v
theories/Properties_Indep.v
theories/ExtendSpec.v
theories/ExtendTheorems.v
theories/ExtendNeeded.v
theories/ExtendPipe.v
theories/ExtendLearn.v
theories/ExtendWitness.v
theories/Properties_Extend.v
theories/BayesSpec.v
theories/BayesProofs.v
theories/BayesTheorems.v
theories/BayesClose.v
theories/BayesPipe.v
theories/BayesWitness.v
theories/BayesPipeWitness.v
theories/Properties_Bayes.v
theories/SimulateSpec.v
theories/SimulateProofs.v
theories/SimulateTheorems.v
theories/SimulateLimit.v
theories/SimulateWitness.v
theories/Properties_Simulate.v
theories/SimulateFiles.v
theories/Properties_SimulateFiles.v
theories/RecoverLimit.v
theories/Properties_RecoverLimit.v
