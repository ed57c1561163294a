-Q theories Verif
theories/Py.v
theories/PyLemmas.v
theories/PyStr.v
theories/StrSpec.v
theories/PyStrProofs.v
theories/Utf8Model.v
theories/JsonModel.v
theories/CodecModel.v
theories/VocabFileModel.v
theories/CodecSpec.v
theories/FlatProofs.v
theories/TrieProofs.v
theories/BpeProofs.v
theories/Utf8Proofs.v
theories/ByteProofs.v
theories/ControlProofs.v
theories/NumProofs.v
theories/JsonProofs.v
theories/VocabSpec.v
theories/VocabFileProofs.v
theories/ByteSpec.v
theories/ByteEnd.v
theories/PropsCodec.v
theories/HexProofs.v
theories/PropsByte.v
theories/PropsVocab.v
theories/LearnModel.v
theories/ArithModel.v
theories/LearnSpec.v
theories/LearnProofs.v
theories/FloatSpec.v
theories/FloatProofs.v
theories/FloatEnd.v
theories/LearnEnd.v
theories/PropsLearn.v
theories/PropsFloat.v
theories/HeapModel.v
theories/BpeSpec.v
theories/HeapProofs.v
theories/LearnBpeModel.v
theories/LearnBpeProofs.v
theories/LearnBpeLoop.v
theories/LearnBpeIndex.v
theories/LearnBpeResults.v
theories/LearnBpeEnd.v
theories/PropsBpe.v
theories/ShrinkModel.v
theories/ShrinkSpec.v
theories/ShrinkProofs.v
theories/PropsShrink.v
theories/NumpyModel.v
theories/NumpyProofs.v
theories/DbModel.v
theories/DbSpec.v
theories/DbProofs.v
theories/FieldProofs.v
theories/DistinctSpec.v
theories/DistinctProofs.v
theories/DistinctEnd.v
theories/PackLemmas.v
theories/DbBatchProofs.v
theories/PropsDb.v
theories/BatchModel.v
theories/BatchSpec.v
theories/BatchProofs.v
theories/PropsBatch.v
theories/JsonIndent.v
theories/MultipartModel.v
theories/MultipartSpec.v
theories/MultipartProofs.v
theories/PropsMultipart.v
theories/MapredModel.v
theories/MapredSpec.v
theories/MapredProofs.v
theories/MapredProofs2.v
theories/ImapProofs.v
theories/PropsMapred.v
theories/CliModel.v
theories/CliSpec.v
theories/CliProofs.v
theories/CliEnd.v
theories/PropsCli.v
theories/EvalModel.v
theories/EvalSpec.v
theories/EvalProofs.v
theories/PropsEval.v
theories/BitextModel.v
theories/BitextSpec.v
theories/BitextProofs.v
theories/PropsBitext.v
theories/TrackModel.v
theories/TrackSpec.v
theories/TrackProofs.v
theories/PropsTrack.v
theories/DriverModel.v
theories/DriverSpec.v
theories/DriverProofs.v
theories/DriverEnd.v
theories/PropsDriver.v
theories/IoModel.v
theories/IoSpec.v
theories/IoProofs.v
theories/PropsIo.v
theories/BatchIterModel.v
theories/BatchIterSpec.v
theories/BatchIterProofs.v
theories/PropsBatchIter.v
theories/MainModel.v
theories/MainSpec.v
theories/MainProofs.v
theories/PropsMain.v
theories/DivergModel.v
theories/DivergSpec.v
theories/DivergProofs.v
theories/PropsDiverg.v
theories/FreqModel.v
theories/FreqProofs.v
theories/FreqEnd.v
theories/PropsFreq.v
theories/ScriptModel.v
theories/ScriptSpec.v
theories/ScriptProofs.v
theories/ScriptEnd.v
theories/PropsScript.v
theories/ReuseModel.v
theories/ReuseSpec.v
theories/ReuseProofs.v
theories/PropsReuse.v
theories/NodeModel.v
theories/NodeSpec.v
theories/NodeProofs.v
theories/PropsNode.v
theories/RestModel.v
theories/RestSpec.v
theories/RestProofs.v
theories/PropsRest.v
theories/GrowSpec.v
theories/GrowProofs.v
theories/PartsProofs.v
theories/PropsGrow.v
theories/OutcomeSpec.v
theories/OutcomeProofs.v
theories/PropsOutcome.v
theories/TextSpec.v
theories/TextProofs.v
theories/PropsText.v
theories/TrainProofs.v
theories/PropsTrain.v
theories/BpeppModel.v
theories/BpeppSpec.v
theories/BpeppLearn.v
theories/BpeppProofs.v
theories/BpeppEnd.v
theories/BpeppCmd.v
theories/PropsBpepp.v
theories/PropsField.v
theories/PropsDistinct.v
theories/OrderSpec.v
theories/OrderProofs.v
theories/PropsOrder.v
theories/XtModel.v
theories/XtSpec.v
theories/XtProofs.v
theories/PropsXt.v
theories/HeaderProofs.v
theories/PropsHeader.v
theories/EqLenSpec.v
theories/EqLenProofs.v
theories/ExactProofs.v
theories/PropsExact.v
theories/ArgModel.v
theories/ArgSpec.v
theories/ArgProofs.v
theories/ArgSound.v
theories/CmdModel.v
theories/CmdSpec.v
theories/CmdProofs.v
theories/CmdEnd.v
theories/AbbrevProofs.v
theories/PropsArg.v
theories/ChainSpec.v
theories/ChainProofs.v
theories/PropsChain.v
theories/ToolModel.v
theories/ToolSpec.v
theories/ToolProofs.v
theories/ToolEnd.v
theories/ToolChain.v
theories/PropsTool.v
theories/GramModel.v
theories/JsonRawProofs.v
theories/GramSpec.v
theories/GramEnd.v
theories/GramFile.v
theories/GramShell.v
theories/ToolTotal.v
theories/PropsGram.v
theories/ScriptCmdModel.v
theories/ScriptCmdSpec.v
theories/ScriptCmdEnd.v
theories/PropsScriptCmd.v
theories/ReduceSpec.v
theories/ReduceEnd.v
theories/PropsReduce.v
theories/PpArgModel.v
theories/PpCmdSpec.v
theories/PpCmdProofs.v
theories/PpCmdEnd.v
theories/PpCmdAny.v
theories/PpCmdChain.v
theories/PpCmdRefuse.v
theories/PropsPpCmd.v
theories/GroupSpec.v
theories/GroupProofs.v
theories/PropsGroup.v
theories/ScaleSpec.v
theories/ScaleProofs.v
theories/PropsScale.v
theories/ShrinkTwice.v
theories/PropsTwice.v
theories/FairSpec.v
theories/FairProofs.v
theories/PropsFair.v
theories/AgreeProofs.v
theories/AgreeGrams.v
theories/PropsAgree.v
theories/ShrinkEstimate.v
theories/PropsShrinkEst.v
theories/EstimateAdd.v
theories/PropsEstimateAdd.v
theories/EstimateSize.v
theories/PropsEstimateSize.v
