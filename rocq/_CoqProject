-Q theories Verif
theories/Base.v
theories/RlpSpec.v
theories/RlpModel.v
theories/RlpProofs.v
theories/RlpDecProofs.v
theories/RlpRawProofs.v
theories/RlpProps.v
theories/MerkleSpec.v
theories/MerkleModel.v
theories/MerkleProofs.v
theories/MerkleTreeProofs.v
theories/MerkleBindProofs.v
theories/MerkleSerProofs.v
theories/ToyHash.v
theories/MerkleProps.v
theories/TrieSpec.v
theories/TrieModel.v
theories/TrieBaseProofs.v
theories/TrieRadixProofs.v
theories/TrieHashProofs.v
theories/TrieRepProofs.v
theories/TrieOpProofs.v
theories/TrieCommitProofs.v
theories/TrieRunProofs.v
theories/TrieProps.v
theories/NumModel.v
theories/NumProofs.v
theories/NumProps.v
theories/BasicModel.v
theories/BasicProofs.v
theories/BasicProps.v
theories/ShardProps.v
theories/SvcProps.v
theories/SetModel.v
theories/SetProps.v
theories/BytesModel.v
theories/BytesProps.v
theories/HexModel.v
theories/HexProps.v
theories/DbModel.v
theories/DbProps.v
theories/AbiModel.v
theories/AbiSpec.v
theories/AbiProofs.v
theories/AbiProps.v
theories/AbiEventModel.v
theories/AbiEventProps.v
theories/AbiSelModel.v
theories/AbiSelSpec.v
theories/AbiSelProps.v
theories/TrieProofModel.v
theories/TrieProofProofs.v
theories/TrieProofProps.v
theories/TrieIterSpec.v
theories/TrieIterModel.v
theories/TrieIterProofs.v
theories/TrieIterProps.v
theories/RevertSpec.v
theories/RevertModel.v
theories/RevertProofs.v
theories/RevertProps.v
theories/CombinedSpec.v
theories/CombinedModel.v
theories/CombinedProofs.v
theories/CombinedProps.v
theories/HistSpec.v
theories/HistModel.v
theories/HistLayerProofs.v
theories/HistRepProofs.v
theories/HistOpProofs.v
theories/HistPathProofs.v
theories/HistCommitProofs.v
theories/HistRunProofs.v
theories/HistProps.v
theories/HistLockModel.v
theories/HistLockProofs.v
theories/HistLockProps.v
theories/HistVerifyModel.v
theories/HistVerifyProofs.v
theories/HistVerifyProps.v
theories/HistFindProps.v
theories/RlpTypeModel.v
theories/RlpTypeSpec.v
theories/RlpTypeProofs.v
theories/RlpTypeProps.v
theories/PoolModel.v
theories/PoolSpec.v
theories/PoolProofs.v
theories/PoolProps.v
theories/LockSpec.v
theories/LockModel.v
theories/LockProofs.v
theories/DbConcModel.v
theories/DbConcProofs.v
theories/DbConcProps.v
theories/BasicConcModel.v
theories/BasicConcProps.v
theories/ChainInfoModel.v
theories/ChainInfoProps.v
theories/AbiTypeModel.v
theories/AbiTypeSpec.v
theories/AbiTypeProofs.v
theories/AbiTypeProps.v
theories/AbiCallModel.v
theories/AbiCallSpec.v
theories/AbiCallProofs.v
theories/AbiCallProps.v
theories/AbiFieldModel.v
theories/AbiFieldSpec.v
theories/AbiFieldProofs.v
theories/AbiFieldProps.v
theories/RevHistSpec.v
theories/RevHistModel.v
theories/RevHistProofs.v
theories/RevHistProps.v
theories/HistSimProofs.v
theories/HistChopSpec.v
theories/HistChopModel.v
theories/HistChopProofs.v
theories/HistChopRunProofs.v
theories/HistChopProps.v
theories/HistRestoreModel.v
theories/HistPartProofs.v
theories/HistRestoreSpec.v
theories/HistRestoreProofs.v
theories/HistRestoreRunProofs.v
theories/HistRestoreProps.v
theories/BigIntModel.v
theories/BigIntSpec.v
theories/BigIntProps.v
theories/HistMergeModel.v
theories/HistMergeProofs.v
theories/HistMergeRunProofs.v
theories/HistMergeSpec.v
theories/HistMergeProps.v
theories/TextSpec.v
theories/TextModel.v
theories/TextProps.v
theories/RatSpec.v
theories/RatModel.v
theories/RatProps.v
theories/FixedSpec.v
theories/FixedModel.v
theories/FixedProps.v
theories/TypeCacheSpec.v
theories/TypeCacheModel.v
theories/TypeCacheProofs.v
theories/TypeCacheProps.v
theories/EncBufModel.v
theories/EncBufSpec.v
theories/EncBufProofs.v
theories/EncBufProps.v
theories/TrieDumpModel.v
theories/TrieDumpProofs.v
theories/TrieDumpProps.v
theories/RlpTagModel.v
theories/RlpTagSpec.v
theories/RlpTagProofs.v
theories/RlpTagProps.v
theories/RlpGenModel.v
theories/RlpGenSpec.v
theories/RlpGenProofs.v
theories/RlpGenProps.v
theories/HdrProofSpec.v
theories/HdrProofModel.v
theories/HdrProofProofs.v
theories/HdrProofProps.v
theories/FlatProofModel.v
theories/FlatProofProps.v
theories/TrieConcModel.v
theories/TrieConcProps.v
theories/ChainCloneModel.v
theories/ChainCloneProps.v
theories/AttrMemModel.v
theories/AttrMemProps.v
theories/NodeMemModel.v
theories/NodeMemProps.v
theories/ProofCloneModel.v
theories/ProofCloneProps.v
theories/BinNodeModel.v
theories/BinNodeProps.v
theories/RevHistConcModel.v
theories/RevHistConcProps.v
