-Q theories Verif
theories/Base.v
theories/BaseFacts.v
theories/RlpSpec.v
theories/RlpModel.v
theories/RlpProofs.v
theories/EcdsaModel.v
theories/TxModel.v
theories/TxSpec.v
theories/TxProofs.v
theories/TxProofs2.v
theories/TxProofs3.v
theories/TxProofs4.v
theories/BlockModel.v
theories/BlockSpec.v
theories/BlockProofs.v
theories/CodecLemmas.v
theories/Props_Codec.v
theories/TypesModel.v
theories/TypesSpec.v
theories/TypesProofs.v
theories/TypesLemmas.v
theories/Props_Types.v
theories/UtilModel.v
theories/UtilSpec.v
theories/UtilProofs.v
theories/BlockProofs2.v
theories/Props_Util.v
theories/LruModel.v
theories/LruSpec.v
theories/LruProofs.v
theories/ChainModel.v
theories/ChainSpec.v
theories/ChainProofs.v
theories/ChainProofs2.v
theories/ChainLemmas.v
theories/Props_Chain.v
theories/StateModel.v
theories/StateSpec.v
theories/StateProofs.v
theories/MemBufModel.v
theories/MemBufSpec.v
theories/MemBufProofs.v
theories/StateLemmas.v
theories/Props_State.v
theories/BlockchainModel.v
theories/BlockchainSpec.v
theories/BlockchainProofs.v
theories/BlockchainLemmas.v
theories/Props_Blockchain.v
theories/JournalProofs.v
theories/EvmModel.v
theories/EvmSpec.v
theories/EvmProofs.v
theories/EvmLemmas.v
theories/PrecompileModel.v
theories/PrecompileSpec.v
theories/PrecompileProofs.v
theories/RefundSpec.v
theories/RefundProofs.v
theories/BlockHashModel.v
theories/BlockHashSpec.v
theories/BlockHashProofs.v
theories/AddressProofs.v
theories/EvmCases.v
theories/Props_Evm.v
theories/ProcessorModel.v
theories/ProcessorSpec.v
theories/ProcessorProofs.v
theories/ProcessorProofs2.v
theories/ProcessorLemmas.v
theories/ProcessorCases.v
theories/Props_Processor.v
theories/TrieModel.v
theories/TrieSpec.v
theories/TrieProofs.v
theories/TrieProofs2.v
theories/TrieProofs3.v
theories/TrieProofs4.v
theories/TrieProofs5.v
theories/TrieLemmas.v
theories/TrieVector.v
theories/TrieNode.v
theories/TrieCases.v
theories/Props_Trie.v
theories/DbTable.v
theories/DbModel.v
theories/DbSpec.v
theories/DbProofs.v
theories/DbBlockProofs.v
theories/DbCases.v
theories/Props_Db.v
theories/BufferModel.v
theories/BufferSpec.v
theories/BufferProofs.v
theories/BufferProofs2.v
theories/BufferProofs3.v
theories/BufferProofs4.v
theories/BufferProofs5.v
theories/BufferProofs6.v
theories/BufferProofs7.v
theories/BufferCases.v
theories/Props_Buffer.v
theories/EtlModel.v
theories/EtlSpec.v
theories/EtlProofs.v
theories/EtlLemmas.v
theories/Props_Etl.v
theories/UnwindModel.v
theories/UnwindSpec.v
theories/UnwindProofs.v
theories/UnwindProofs2.v
theories/UnwindCases.v
theories/Props_Unwind.v
theories/ExecModel.v
theories/ExecSpec.v
theories/ExecProofs.v
theories/ExecProofs2.v
theories/ExecLemmas.v
theories/Props_Exec.v
theories/HashStateModel.v
theories/HashStateSpec.v
theories/HashStateProofs.v
theories/HashStateProofs2.v
theories/HashStateCases.v
theories/Props_HashState.v
theories/IndexModel.v
theories/IndexSpec.v
theories/IndexProofs.v
theories/IndexLemmas.v
theories/IndexCases.v
theories/IndexWitness.v
theories/Props_Index.v
theories/StateRootSpec.v
theories/StateRootModel.v
theories/StateRootProofs.v
theories/StateRootProofs2.v
theories/StateRootLemmas.v
theories/StateRootCases.v
theories/Props_StateRoot.v
theories/MemRootSpec.v
theories/MemRootModel.v
theories/MemRootProofs.v
theories/MemRootLemmas.v
theories/MemRootCases.v
theories/Props_MemRoot.v
theories/GenesisSpec.v
theories/GenesisModel.v
theories/GenesisProofs.v
theories/GenesisLemmas.v
theories/GenesisCases.v
theories/Props_Genesis.v
theories/CborSpec.v
theories/CborModel.v
theories/CborProofs.v
theories/CborLemmas.v
theories/Props_Cbor.v
theories/WorkerModel.v
theories/WorkerSpec.v
theories/WorkerProofs.v
theories/WorkerLemmas.v
theories/Props_Worker.v
theories/FarmModel.v
theories/FarmSpec.v
theories/FarmProofs.v
theories/FarmProofs2.v
theories/FarmLemmas.v
theories/FarmFinal.v
theories/FarmRuns.v
theories/FarmCases.v
theories/FarmWitness.v
theories/Props_Farm.v
theories/KeccakModel.v
theories/KeccakSpec.v
theories/KeccakProofs.v
theories/KeccakProofs2.v
theories/KeccakProofs3.v
theories/KeccakProofs4.v
theories/KeccakCases.v
theories/Props_Keccak.v
theories/EthashSpec.v
theories/EthashModel.v
theories/EthashProofs.v
theories/EthashProofs2.v
theories/EthashProofs3.v
theories/EthashLemmas.v
theories/EthashCases.v
theories/Props_Ethash.v
theories/Sha256Spec.v
theories/Sha256Model.v
theories/Sha256Proofs.v
theories/RipemdSpec.v
theories/RipemdModel.v
theories/RipemdProofs.v
theories/RipemdProofs2.v
theories/Blake2Spec.v
theories/Blake2Model.v
theories/Blake2Proofs.v
theories/HashLemmas.v
theories/Props_Hash.v
theories/ExactSpec.v
theories/ExactProofs.v
theories/ExactLemmas.v
theories/ExactFinal.v
theories/CurveSpec.v
theories/CurveModel.v
theories/CurveLibs.v
theories/CurveProofs.v
theories/CurveLemmas.v
theories/Props_Curve.v
theories/ToolModel.v
theories/ToolSpec.v
theories/ToolProofs.v
theories/ToolLemmas.v
theories/ToolPow.v
theories/ToolCases.v
theories/Props_Tool.v
theories/ExactBlocksSpec.v
theories/ExactBlocksProofs.v
theories/ExactBlocksCases.v
theories/ScriptSpec.v
theories/ScriptEvm.v
theories/ScriptProofs.v
theories/ScriptSim.v
theories/RunSpec.v
theories/RunProofs.v
theories/RunWritable.v
theories/RunCodes.v
theories/RunDefined.v
theories/RunCases.v
theories/Props_Run.v
theories/ChainBufferModel.v
theories/ChainBufferSpec.v
theories/ChainBufferProofs.v
theories/NodeModel.v
theories/NodeSpec.v
theories/NodeProofs.v
theories/NodeLemmas.v
theories/NodeCases.v
theories/Props_Node.v
theories/WarmProofs.v
theories/Props_Warm.v
theories/WasmModel.v
theories/WasmSpec.v
theories/WasmProofs.v
theories/WasmLemmas.v
theories/Props_Wasm.v
theories/DbToolModel.v
theories/DbToolSpec.v
theories/DbToolProofs.v
theories/DbToolLemmas.v
theories/Props_DbTool.v
theories/CodecCases.v
theories/FsModel.v
theories/DataDirModel.v
theories/DataDirSpec.v
theories/FsProofs.v
theories/DataDirProofs.v
theories/DataDirLemmas.v
theories/Props_DataDir.v
theories/ExtractModel.v
theories/ExtractSpec.v
theories/ExtractProofs.v
theories/ExtractLemmas.v
theories/Props_Extract.v
theories/LogModel.v
theories/LogSpec.v
theories/LogProofs.v
theories/LogLemmas.v
theories/Props_Log.v
theories/ChangesModel.v
theories/ChangesSpec.v
theories/ChangesProofs.v
theories/ChangesLemmas.v
theories/ChangesCases.v
theories/Props_Changes.v
theories/CommandModel.v
theories/CommandSpec.v
theories/CommandProofs.v
theories/CommandLemmas.v
theories/Props_Command.v
theories/SendersToolModel.v
theories/SendersToolProofs.v
theories/SendersToolLemmas.v
theories/SendersToolFinal.v
theories/SendersToolCases.v
theories/Props_SendersTool.v
theories/ConsensusSpec.v
theories/ConsensusModel.v
theories/ConsensusProofs.v
theories/ConsensusProofs2.v
theories/ConsensusProofs3.v
theories/ConsensusCases.v
theories/Props_Consensus.v
theories/LookupProofs.v
theories/Props_Lookup.v
theories/ConsensusRunModel.v
theories/ConsensusRunProofs.v
theories/ConsensusRunCases.v
theories/Props_ConsensusRun.v
theories/ConsensusDiffModel.v
theories/ConsensusDiffProofs.v
theories/ConsensusDiffCases.v
theories/Props_ConsensusDiff.v
