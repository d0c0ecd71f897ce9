-Q theories Verif
theories/Base.v
theories/HashSpec.v
theories/HashModel.v
theories/HashProof.v
theories/HashProof2.v
theories/HashProof3.v
theories/HashProof4.v
theories/HashHeapSpec.v
theories/HashHeapModel.v
theories/HashHeapProof.v
theories/HashHeapProof2.v
theories/HasherModel.v
theories/HasherSpec.v
theories/HasherProof.v
theories/HashProof5.v
theories/HashProof6.v
theories/StringMapSpec.v
theories/StringMapModel.v
theories/StringMapProof.v
theories/StringMapProof2.v
theories/HashProps.v
theories/HasherProps.v
theories/JsonSpec.v
theories/JsonModel.v
theories/JsonDenotes.v
theories/JsonFaultSpec.v
theories/JsonProof.v
theories/JsonFaultShape.v
theories/JsonProof2.v
theories/JsonProof3.v
theories/JsonProof4.v
theories/JsonProof5.v
theories/JsonRfcSpec.v
theories/JsonProof6.v
theories/JsonLaySpec.v
theories/JsonLayProof.v
theories/JsonProps.v
theories/JsonFaultProof.v
theories/JsonFaultProps.v
theories/VectorSpec.v
theories/VectorModel.v
theories/VectorProof.v
theories/VectorProof2.v
theories/VectorOwn.v
theories/VectorCost.v
theories/VectorProps.v
theories/PtrIterSpec.v
theories/PtrIterModel.v
theories/PtrIterProof.v
theories/PtrIterProps.v
theories/EniModel.v
theories/EniProof.v
theories/EniServe.v
theories/EniProof2.v
theories/EniProps.v
theories/CryptoSpec.v
theories/CryptoModel.v
theories/CryptoProof.v
theories/CryptoProps.v
theories/ScryptSpec.v
theories/ScryptModel.v
theories/ScryptProof.v
theories/ScryptProof2.v
theories/ScryptProof3.v
theories/Sha256.v
theories/ScryptProps.v
theories/CliSpec.v
theories/CliModel.v
theories/CliProof.v
theories/CliProps.v
theories/JsonExSpec.v
theories/JsonExModel.v
theories/JsonExProof.v
theories/JsonExProof2.v
theories/JsonExProof3.v
theories/JsonExArgs.v
theories/JsonExProps.v
theories/ValueSpec.v
theories/ValueModel.v
theories/ValueProof.v
theories/ValueProof2.v
theories/ValueProof3.v
theories/ValueProof4.v
theories/ValueProof5.v
theories/ValueProof6.v
theories/ValueProof7.v
theories/ValueProof8.v
theories/ValueProps.v
theories/ValueFaultSpec.v
theories/ValueFaultModel.v
theories/ValueFaultProof.v
theories/ValueFaultProof2.v
theories/ValueFaultProps.v
theories/JsonHeapSpec.v
theories/JsonHeapModel.v
theories/JsonHeapProof.v
theories/JsonHeapProof2.v
theories/JsonHeapProof3.v
theories/JsonHeapProof4.v
theories/JsonLossSpec.v
theories/JsonHeapProof5.v
theories/JsonHeapProps.v
theories/EniHeapSpec.v
theories/EniHeapModel.v
theories/EniHeapProof.v
theories/EniHeapProps.v
theories/HashIterSpec.v
theories/HashIterModel.v
theories/HashIterProof.v
theories/HashIterProps.v
theories/HashStorageSpec.v
theories/HashStorageProof.v
theories/HashStorageProps.v
theories/HashAllocSpec.v
theories/HashAllocModel.v
theories/HashAllocProof.v
theories/HashAllocAny.v
theories/HashCostModel.v
theories/HashCostProof.v
theories/HashCostProps.v
theories/HashProbeSpec.v
theories/HashProbeModel.v
theories/HashProbeProof.v
theories/HashProbeProof2.v
theories/HashProbeProps.v
theories/HashSizeSpec.v
theories/HashSizeProof.v
theories/HashSizeProps.v
theories/HashAllocProps.v
theories/JsonDepthSpec.v
theories/JsonDepthModel.v
theories/JsonDepthProof.v
theories/JsonDepthProps.v
theories/JsonLossProof.v
theories/JsonLossProps.v
theories/CryptoHeapModel.v
theories/CryptoHeapSpec.v
theories/CryptoHeapProof.v
theories/CryptoHeapProps.v
theories/TypesModel.v
theories/TypesSpec.v
theories/TypesProof.v
theories/TypesProps.v
theories/EntryModel.v
theories/EntryProof.v
theories/EntryProps.v
theories/JsonOrderProof.v
theories/JsonOrderProps.v
theories/ConsensusModel.v
theories/ConsensusProof.v
theories/ConsensusSpec.v
theories/ConsensusProof2.v
theories/ConsensusProps.v
theories/ToolsProof.v
theories/ToolsProps.v
theories/CliErrModel.v
theories/CliErrProof.v
theories/CliErrProps.v
theories/RepoTests.v
theories/JsonNormalSpec.v
theories/JsonNormalProof.v
theories/JsonNormalProps.v
theories/JsonLengthProof.v
theories/JsonLengthProps.v
theories/JsonReadModel.v
theories/JsonReadProof.v
theories/JsonReadProps.v
theories/HashFwdSpec.v
theories/HashFwdModel.v
theories/HashFwdProof.v
theories/HashFwdProps.v
theories/JsonPathSpec.v
theories/JsonPathModel.v
theories/JsonPathProof.v
theories/JsonPathProps.v
theories/EniGasSpec.v
theories/EniGasProof.v
theories/EniGasProps.v
theories/JsonStackSpec.v
theories/JsonStackModel.v
theories/JsonStackProof.v
theories/JsonStackProps.v
theories/HashArraySpec.v
theories/HashArrayModel.v
theories/HashArrayProof.v
theories/HashArrayProps.v
theories/VectorHeapSpec.v
theories/VectorHeapModel.v
theories/VectorHeapProof.v
theories/VectorHeapProps.v
theories/JsonChainSpec.v
theories/JsonChainProof.v
theories/JsonChainProof2.v
theories/JsonChainProps.v
theories/ToolCases.v
theories/TableCases.v
theories/CryptoFaultModel.v
theories/CryptoFaultSpec.v
theories/CryptoFaultProof.v
theories/CryptoFaultProof2.v
theories/CryptoFaultProof3.v
theories/CryptoFaultProps.v
theories/JsonOomSpec.v
theories/JsonOomModel.v
theories/JsonOomProof.v
theories/JsonOomProof2.v
theories/JsonOomProof3.v
theories/JsonOomProof4.v
theories/JsonOomProof5.v
theories/JsonOomProof6.v
theories/JsonOomProof7.v
theories/JsonOomProof8.v
theories/JsonOomProof9.v
theories/JsonOomProof10.v
theories/JsonOomProps.v
theories/EniOomSpec.v
theories/EniOomModel.v
theories/EniOomSpec2.v
theories/EniOomProof.v
theories/EniOomProof2.v
theories/EniOomProps.v
theories/JsonStdSpec.v
theories/JsonStdProof.v
theories/PyClientModel.v
theories/PyClientProof.v
theories/PyClientProof2.v
theories/JsonStdProof2.v
theories/JsonStdProps.v
theories/PyClientProps.v
theories/GasDocProof.v
theories/GasDocProps.v
theories/PipeSpec.v
theories/PipeProof.v
theories/PipeProps.v
theories/PyTestModel.v
theories/PyTestProof.v
theories/PyTestProps.v
theories/JsonKindSpec.v
theories/JsonKindProof.v
theories/JsonKindProps.v
theories/JsonAnySpec.v
theories/JsonAnyProof.v
theories/JsonAnyProps.v
theories/VecIterModel.v
theories/VecIterSpec.v
theories/VecIterProof.v
theories/VecIterProof2.v
theories/VecIterProps.v
theories/VecIterOps.v
theories/VecIterProof3.v
theories/VecIterProgProps.v
theories/HashLoopSpec.v
theories/HashLoopProof.v
theories/HashLoopProps.v
