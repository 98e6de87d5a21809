-Q theories Verif
theories/Base.v
theories/BaseFacts.v
theories/Toy.v
theories/MerkleArrayModel.v
theories/MerkleArraySpec.v
theories/MerkleArrayProofs.v
theories/MerkleArrayProps.v
theories/TrieModel.v
theories/TrieSpec.v
theories/TrieCodecProofs.v
theories/TrieProofs.v
theories/TrieRefine.v
theories/TrieBind.v
theories/TrieOther.v
theories/TrieAny.v
theories/TrieProps.v
theories/TrieAnyProps.v
theories/Digits.v
theories/BitsetModel.v
theories/BitsetSpec.v
theories/BitsetProofs.v
theories/BitsetProps.v
theories/Wordlist.v
theories/MnemonicModel.v
theories/MnemonicSpec.v
theories/MnemonicProofs.v
theories/MnemonicProps.v
theories/Scheme.v
theories/MultisigModel.v
theories/MultisigSpec.v
theories/MultisigProofs.v
theories/MultisigProps.v
theories/MsgpackModel.v
theories/MsgpackProofs.v
theories/OtsModel.v
theories/OtsSpec.v
theories/OtsProofs.v
theories/OtsProps.v
theories/VrfModel.v
theories/VrfSpec.v
theories/VrfProofs.v
theories/Ed25519.v
theories/ToyCurve.v
theories/VrfProps.v
theories/DomainModel.v
theories/DomainProofs.v
theories/DomainProps.v
theories/AddressModel.v
theories/AddressSpec.v
theories/AddressProofs.v
theories/AddressProps.v
theories/ConsensusModel.v
theories/ConfigModel.v
theories/ConfigSpec.v
theories/ConfigProofs.v
theories/KeyfileModel.v
theories/KeyfileSpec.v
theories/KeyfileProofs.v
theories/ConfigProps.v
theories/BasicsModel.v
theories/BasicsSpec.v
theories/BasicsProofs.v
theories/BasicsProps.v
theories/TxModel.v
theories/TxSpec.v
theories/TxProofs.v
theories/TxCodecSpec.v
theories/TxCodecProofs.v
theories/TxProps.v
theories/UpgradeModel.v
theories/UpgradeSpec.v
theories/UpgradeProofs.v
theories/UpgradeProps.v
theories/RewardsModel.v
theories/RewardsSpec.v
theories/RewardsProofs.v
theories/RewardsProps.v
theories/LedgerSpec.v
theories/LedgerProofs.v
theories/LedgerProps.v
theories/BlockModel.v
theories/BlockSpec.v
theories/BlockProofs.v
theories/BlockBind.v
theories/BlockProps.v
theories/CommitteeModel.v
theories/CommitteeSpec.v
theories/FloatFacts.v
theories/CommitteeProofs.v
theories/CommitteeProps.v
theories/AccountModel.v
theories/AccountSpec.v
theories/AccountProofs.v
theories/ManagerProofs.v
theories/AccountProps.v
theories/FilesModel.v
theories/ToolModel.v
theories/ToolSpec.v
theories/SqrtFacts.v
theories/ToolProofs.v
theories/ToolProps.v
theories/JsonModel.v
theories/JsonProofs.v
theories/SettingsModel.v
theories/SettingsSpec.v
theories/SettingsProofs.v
theories/SettingsProps.v
theories/IdsModel.v
theories/IdsSpec.v
theories/IdsProofs.v
theories/IdsProps.v
theories/StructModel.v
theories/StructProofs.v
theories/TxDecodeModel.v
theories/TxDecodeSpec.v
theories/TxDecodeProofs.v
theories/TxDecodeProps.v
theories/AssemblySpec.v
theories/AssemblyProofs.v
theories/AssemblyProps.v
theories/VrfBindSpec.v
theories/VrfBindProofs.v
theories/VrfBindProps.v
theories/ViewsModel.v
theories/ViewsSpec.v
theories/ViewsProofs.v
theories/ViewsProps.v
theories/ExtrasModel.v
theories/ExtrasSpec.v
theories/ExtrasProofs.v
theories/ExtrasProps.v
theories/GenDecodeModel.v
theories/GenDecodeSpec.v
theories/GenDecodeProofs.v
theories/GenDecodeProps.v
theories/ChainSpec.v
theories/ChainProofs.v
theories/ChainProps.v
theories/FaultSpec.v
theories/FaultProofs.v
theories/FaultProps.v
theories/FormSpec.v
theories/FormProofs.v
theories/RestoreProofs.v
theories/FormProps.v
theories/DecodedSpec.v
theories/DecodedProofs.v
theories/EntriesProofs.v
theories/DecodedProps.v
theories/WordfileModel.v
theories/WordfileSpec.v
theories/WordfileProofs.v
theories/WordfileProps.v
theories/LengthModel.v
theories/LengthProofs.v
theories/LengthProps.v
theories/RootModel.v
theories/RootProofs.v
theories/RootProps.v
theories/JsonSpec.v
theories/JsonExact.v
theories/ConfSpec.v
theories/ConfProofs.v
theories/ConfProps.v
theories/NamedSpec.v
theories/NamedProofs.v
theories/NamedProps.v
theories/ShaModel.v
theories/ShaProofs.v
theories/ShaProps.v
theories/CurveModel.v
theories/VrfVectors.v
theories/MultisigVectors.v
theories/KnownAnswers.v
theories/FermatProofs.v
theories/PrimeProofs.v
theories/FieldProofs.v
theories/AbelianProofs.v
theories/EdwardsProofs.v
theories/Field25519Proofs.v
theories/Points25519Proofs.v
theories/Order25519Proofs.v
theories/Real25519Proofs.v
theories/Transfer25519Proofs.v
theories/Scheme25519Proofs.v
theories/Curve25519Spec.v
theories/Curve25519Proofs.v
theories/Curve25519Props.v
theories/Elligator25519Proofs.v
theories/HashCurveProofs.v
theories/HashCurveProps.v
theories/VrfRealProofs.v
theories/VrfRealProps.v
theories/LifetimeSpec.v
theories/LifetimeProofs.v
theories/LifetimeProps.v
theories/BinomialSpec.v
theories/BinomialProofs.v
theories/BinomialProps.v
theories/AverageProofs.v
theories/AverageProps.v
theories/LightProofs.v
theories/LightProps.v
theories/PrintModel.v
theories/PrintSpec.v
theories/PrintProofs.v
theories/PrintProps.v
theories/NearProofs.v
theories/NearProps.v
theories/ProofSizeSpec.v
theories/ProofSizeProofs.v
theories/ProofSizeProps.v
theories/TrieSizeSpec.v
theories/TrieSizeProofs.v
theories/TrieSizeProps.v
theories/SplitSpec.v
theories/SplitProofs.v
theories/SplitProps.v
theories/TailSpec.v
theories/TailProofs.v
theories/TailProps.v
theories/MergeProofs.v
theories/MergeProps.v
theories/OtsDeleteSpec.v
theories/OtsDeleteProofs.v
theories/OtsDeleteProps.v
theories/NormalProofs.v
theories/NormalProps.v
theories/AnyRootSpec.v
theories/AnyRootProofs.v
theories/AnyRootProps.v
theories/SeedModel.v
theories/SeedSpec.v
theories/SeedProofs.v
theories/SeedProps.v
theories/ReplayProofs.v
theories/ReplayProps.v
theories/MistakeSpec.v
theories/MistakeProofs.v
theories/MistakeProps.v
theories/CountersSpec.v
theories/CountersProofs.v
theories/CountersProps.v
theories/TrieNodeSizeModel.v
theories/TrieNodeSizeProofs.v
theories/TrieNodeSizeProps.v
theories/AccountSizeModel.v
theories/AccountSizeSpec.v
theories/AccountSizeProofs.v
theories/AccountPaidProofs.v
theories/AccountSizeProps.v
theories/AccountPaidProps.v
theories/CompatProofs.v
theories/CompatProps.v
theories/StartSpec.v
theories/StartProofs.v
theories/StartProps.v
theories/LeaderSpec.v
theories/LeaderProofs.v
theories/LeaderProps.v
theories/AgingProps.v
theories/LeadChanceSpec.v
theories/LeadChanceProofs.v
theories/LeadChanceProps.v
theories/TrieCostSpec.v
theories/TrieCostProofs.v
theories/TrieCostProps.v
theories/TrieReopenModel.v
theories/TrieReopenSpec.v
theories/TrieReopenProofs.v
theories/TrieReopenProps.v
theories/TrieGoOnModel.v
theories/TrieGoOnSpec.v
theories/TrieGoOnProofs.v
theories/TrieGoOnProps.v
theories/TxSizeSpec.v
theories/TxSizeProofs.v
theories/TxSizeProps.v
theories/ReviveSpec.v
theories/ReviveProofs.v
theories/ReviveProps.v
theories/TrieFaultModel.v
theories/TrieFaultSpec.v
theories/TrieFaultProofs.v
theories/TrieFaultKeepProofs.v
theories/TrieFaultProps.v
theories/NextVersionSpec.v
theories/NextVersionProofs.v
theories/NextVersionProps.v
theories/RefsProofs.v
theories/RefsProps.v
theories/FilledSpec.v
theories/FilledProofs.v
theories/FilledProps.v
theories/StibDecodeModel.v
theories/StibDecodeSpec.v
theories/StibDecodeProofs.v
theories/StibDecodeProps.v
theories/StibTypedSpec.v
theories/StibTypedProofs.v
theories/StibTypedProps.v
theories/WrittenProofs.v
theories/WrittenProps.v
theories/SigFormModel.v
theories/SigFormSpec.v
theories/SigFormProofs.v
theories/SigFormProps.v
theories/RegSpec.v
theories/RegProofs.v
theories/RegProps.v
theories/CertSenderSpec.v
theories/CertSenderProofs.v
theories/CertSenderProps.v
theories/TrieLongProofs.v
theories/TrieLongProps.v
theories/RegLifeProofs.v
theories/RegLifeProps.v
