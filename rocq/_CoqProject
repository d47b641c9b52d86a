-Q theories Verif

theories/Bits.v
theories/BitsProofs.v
theories/Err.v
theories/BuilderModel.v
theories/BufProofs.v
theories/BuilderProofs.v
theories/SliceModel.v
theories/SliceSpec.v
theories/SliceProofs.v
theories/SliceCmpProofs.v
theories/SliceScanProofs.v
theories/SliceWindowProofs.v
theories/CellBuilderModel.v
theories/BuilderSpec.v
theories/CellBuilderProofs.v
theories/IntModel.v
theories/IntSpec.v
theories/IntProofs.v
theories/SliceProps.v
theories/BuilderProps.v
theories/BigIntModel.v
theories/BigIntSpec.v
theories/BigIntProofs.v
theories/BigIntProps.v
theories/CellModel.v
theories/LabelModel.v
theories/LabelSpec.v
theories/LabelProofs.v
theories/LabelProps.v
theories/DictModel.v
theories/DictSpec.v
theories/DictTree.v
theories/DictProofs.v
theories/DictProofs2.v
theories/DictProofs3.v
theories/DictOrder.v
theories/DictProofs4.v
theories/DictProofs5.v
theories/DictExist.v
theories/DictProps.v
theories/IterModel.v
theories/IterProofs.v
theories/UnionProofs.v
theories/SafeSpec.v
theories/SafeProofs.v
theories/IterProps.v
theories/SplitSpec.v
theories/SplitProofs.v
theories/SplitProps.v
theories/StackProofs.v
theories/BuildModel.v
theories/BuildProofs.v
theories/BuildProps.v
theories/HashSpec.v
theories/HashModel.v
theories/FcellSpec.v
theories/HashProofs.v
theories/HashProofs2.v
theories/HashProofs3.v
theories/Sha256.v
theories/HashProps.v
theories/BocSpec.v
theories/BocModel.v
theories/BocProofs.v
theories/BocProofs2.v
theories/BocProofs3.v
theories/BocProofs4.v
theories/BocProofs5.v
theories/BocProofs6.v
theories/Crc32c.v
theories/BocProps.v
theories/Crc16Model.v
theories/Crc16Spec.v
theories/Crc16Proofs.v
theories/Crc16Props.v
theories/TextModel.v
theories/ShardModel.v
theories/TextSpec.v
theories/TextProofs.v
theories/BitstringProps.v
theories/ShardSpec.v
theories/WordProofs.v
theories/ShardProofs.v
theories/TextProofs2.v
theories/ShardProps.v
theories/NumModel.v
theories/Var248Model.v
theories/NumSpec.v
theories/NumProofs.v
theories/Var248Proofs.v
theories/DivProofs.v
theories/DivProofs2.v
theories/Var248Proofs2.v
theories/NumProps.v
theories/AddrModel.v
theories/AddrSpec.v
theories/CodecProofs.v
theories/AddrProofs.v
theories/AddrProofs2.v
theories/AddrProofs3.v
theories/AddrProps.v
theories/ChunkModel.v
theories/ChunkSpec.v
theories/ChunkProofs.v
theories/CurrencyModel.v
theories/CurrencySpec.v
theories/CurrencyProofs.v
theories/CurrencyProps.v
theories/MerkleModel.v
theories/MerkleSpec.v
theories/MerkleProofs.v
theories/MerkleProofs2.v
theories/MerkleProofs3.v
theories/MerkleProofs4.v
theories/MerkleProofs5.v
theories/MerkleProps.v
theories/StatModel.v
theories/StatSpec.v
theories/StatProofs.v
theories/StatProps.v
theories/PromiseModel.v
theories/PromiseSpec.v
theories/PromiseProps.v
theories/UsageModel.v
theories/UsageSpec.v
theories/UsageProofs.v
theories/UsageProps.v
theories/DropModel.v
theories/DropSpec.v
theories/DropProofs.v
theories/DropProps.v
theories/UpdateModel.v
theories/UpdateSpec.v
theories/UpdateProofs.v
theories/UpdateProofs2.v
theories/UpdateProofs3.v
theories/UpdateProofs4.v
theories/UpdateProps.v
theories/RemovedSpec.v
theories/RemovedProofs.v
theories/RemovedProps.v
theories/AugSpec.v
theories/AugModel.v
theories/AugProofs.v
theories/AugProofs2.v
theories/AugProofs3.v
theories/AugExtraModel.v
theories/AugExtraProofs.v
theories/AugProps.v
theories/ModifyModel.v
theories/ModifyAbs.v
theories/ModifyWalk.v
theories/ModifyWalk2.v
theories/ModifyProofs.v
theories/ModifyExec.v
theories/ModifyProps.v
theories/MessageModel.v
theories/MessageSpec.v
theories/LayoutProofs.v
theories/MessageProofs.v
theories/MessageProofs2.v
theories/MessageProps.v
theories/LazyModel.v
theories/LazySpec.v
theories/LazyProofs.v
theories/AccountModel.v
theories/AccountSpec.v
theories/AccountProofs.v
theories/AccountProps.v
theories/FeesModel.v
theories/FeesSpec.v
theories/FeesProps.v
theories/VsetModel.v
theories/VsetSpec.v
theories/VsetProofs.v
theories/VsetProps.v
theories/AbiModel.v
theories/AbiSpec.v
theories/AbiProofs.v
theories/AbiProofs2.v
theories/AbiProofs3.v
theories/AbiProofs4.v
theories/AbiProps.v
theories/DeriveModel.v
theories/DeriveSpec.v
theories/DeriveProofs.v
theories/StructsModel.v
theories/StructsSpec.v
theories/StructsProofs.v
theories/DeriveProps.v
theories/TxModel.v
theories/CasesSpec.v
theories/TxSpec.v
theories/CasesProofs.v
theories/TxProofs.v
theories/TxProps.v
theories/EnvModel.v
theories/EnvSpec.v
theories/EnvProofs.v
theories/EnvProps.v
theories/ParamsModel.v
theories/ParamsSpec.v
theories/ParamsProofs.v
theories/ParamsProofs2.v
theories/ParamsProps.v
theories/HashesModel.v
theories/HashesSpec.v
theories/HashesProofs.v
theories/HashesProofs2.v
theories/HashesProofs3.v
theories/HashesProofs4.v
theories/HashesProofs5.v
theories/HashesProps.v
theories/ShardTextSpec.v
theories/ShardTextProps.v
theories/SearchModel.v
theories/SearchProofs.v
theories/SearchProps.v
theories/SubdictModel.v
theories/SubdictProps.v
theories/BlockModel.v
theories/BlockSpec.v
theories/BlockProofs.v
theories/BlockProofs2.v
theories/BlockProofs3.v
theories/BlockProps.v
theories/FlowModel.v
theories/FlowSpec.v
theories/FlowProps.v
theories/ActionsModel.v
theories/ActionsSpec.v
theories/ActionsProofs.v
theories/ActionsProps.v
theories/CapsModel.v
theories/CapsSpec.v
theories/CapsProps.v
theories/InlineModel.v
theories/InlineProps.v
theories/ConfigModel.v
theories/ConfigSpec.v
theories/ConfigProofs.v
theories/ConfigProps.v
theories/CallModel.v
theories/CallSpec.v
theories/CallProofs.v
theories/CallProps.v
theories/InitModel.v
theories/InitSpec.v
theories/InitProofs.v
theories/InitProps.v
theories/TypeModel.v
theories/TypeSpec.v
theories/TypeProofs.v
theories/TypeProofs2.v
theories/TypeProps.v
theories/EncSpec.v
theories/EncProofs.v
theories/EncProofs2.v
theories/EncProofs3.v
theories/EncProofs4.v
theories/EncProps.v
theories/RustModel.v
theories/RustSpec.v
theories/RustProofs.v
theories/RustProofs2.v
theories/RustProofs3.v
theories/RustProps.v
theories/HashTextModel.v
theories/HashTextSpec.v
theories/HashTextProofs.v
theories/HashTextProofs2.v
theories/HashTextProps.v
theories/ReprModel.v
theories/ReprSpec.v
theories/ReprProofs.v
theories/ReprProps.v
theories/TypedModel.v
theories/TypedSpec.v
theories/TypedProofs.v
theories/TypedProofs2.v
theories/TypedProps.v
theories/TypedBulkModel.v
theories/TypedBulkSpec.v
theories/TypedBulkProofs.v
theories/TypedBulkProps.v
theories/TypedQueueModel.v
theories/TypedQueueProps.v
