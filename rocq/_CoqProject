-Q theories Verif
theories/Base.v
theories/CodecModel.v
theories/CodecSpec.v
theories/CodecProofs.v
theories/CodecProps.v
theories/ReceiptModel.v
theories/ReceiptSpec.v
theories/ReceiptProofs.v
theories/ReceiptProps.v
theories/LayoutModel.v
theories/LayoutSpec.v
theories/LayoutProofs.v
theories/LayoutProps.v
theories/SectionModel.v
theories/SectionSpec.v
theories/SectionProofs.v
theories/SectionCanon.v
theories/SectionProps.v
theories/StorageModel.v
theories/StorageSpec.v
theories/StorageProofs.v
theories/StorageProps.v
theories/Text.v
theories/GlobalModel.v
theories/GlobalSpec.v
theories/GlobalProofs.v
theories/GlobalProps.v
theories/RuntimeModel.v
theories/RuntimeSpec.v
theories/RuntimeProofs.v
theories/RuntimeProps.v
theories/ObserveSpec.v
theories/ObserveProofs.v
theories/CacheProofs.v
theories/ObserveProps.v
theories/GraphModel.v
theories/GraphSpec.v
theories/GraphProofs.v
theories/GraphProps.v
theories/PrimSpec.v
theories/PrimProofs.v
theories/PrimProps.v
theories/ProgramModel.v
theories/ProgramSpec.v
theories/ProgramProofs.v
theories/ProgramProps.v
theories/PricingModel.v
theories/PricingSpec.v
theories/CfgProofs.v
theories/PricingProofs.v
theories/PricingTotal.v
theories/PricingExact.v
theories/PricingProps.v
theories/SdkModel.v
theories/SdkSpec.v
theories/SdkProofs.v
theories/SdkProps.v
theories/AbiModel.v
theories/AbiSpec.v
theories/AbiProofs.v
theories/AbiProps.v
theories/FfiModel.v
theories/FfiSpec.v
theories/FfiProofs.v
theories/FfiProps.v
theories/BufferModel.v
theories/BufferSpec.v
theories/BufferProofs.v
theories/BufferProps.v
theories/JsonModel.v
theories/JsonSpec.v
theories/JsonProofs.v
theories/JsonProps.v
theories/TypedModel.v
theories/TypedSpec.v
theories/TypedProofs.v
theories/TypedProps.v
theories/MacroModel.v
theories/MacroSpec.v
theories/MacroProofs.v
theories/MacroProps.v
theories/EndpointModel.v
theories/EndpointSpec.v
theories/EndpointProofs.v
theories/EndpointProps.v
theories/LinkModel.v
theories/LinkSpec.v
theories/LinkProofs.v
theories/LinkProps.v
theories/HostModel.v
theories/HostSpec.v
theories/HostProofs.v
theories/HostProps.v
theories/QueryModel.v
theories/QuerySpec.v
theories/QueryProofs.v
theories/QueryProps.v
theories/CliModel.v
theories/CliSpec.v
theories/CliProofs.v
theories/CliProps.v
theories/MeterSpec.v
theories/MeterProps.v
theories/SupplySpec.v
theories/SupplyProofs.v
theories/SupplyProps.v
theories/TemplateModel.v
theories/TemplateSpec.v
theories/TemplateProofs.v
theories/TemplateProps.v
theories/AnswerSpec.v
theories/AnswerProofs.v
theories/AnswerProps.v
theories/ResultModel.v
theories/ResultSpec.v
theories/ResultProofs.v
theories/ResultProps.v
theories/TripSpec.v
theories/TripProofs.v
theories/TripProps.v
theories/OutcomeSpec.v
theories/OutcomeProofs.v
theories/OutcomeProps.v
theories/AcceptSpec.v
theories/AcceptProofs.v
theories/AcceptProps.v
theories/ChargeModel.v
theories/ChargeSpec.v
theories/ChargeProps.v
theories/StepModel.v
theories/StepSpec.v
theories/StepProps.v
theories/ParamModel.v
theories/ParamSpec.v
theories/ParamProofs.v
theories/ParamProps.v
theories/BuildModel.v
theories/BuildSpec.v
theories/BuildProps.v
theories/TripAnySpec.v
theories/TripAnyProofs.v
theories/TripAnyProps.v
theories/CheckedModel.v
theories/CheckedSpec.v
theories/CheckedProofs.v
theories/CheckedProps.v
theories/AbortSpec.v
theories/AbortProofs.v
theories/AbortProps.v
theories/ReceiptAbortSpec.v
theories/ReceiptAbortProofs.v
theories/ReceiptAbortProps.v
theories/AbiExactSpec.v
theories/AbiExactProofs.v
theories/AbiExactProps.v
theories/JsonExactSpec.v
theories/JsonExactProofs.v
theories/JsonExactProps.v
theories/NodeExactSpec.v
theories/NodeExactProps.v
theories/AdminSpec.v
theories/AdminProofs.v
theories/AdminProps.v
theories/FfiExactSpec.v
theories/FfiExactProps.v
theories/FailedProps.v
theories/LedgerSpec.v
theories/LedgerProofs.v
theories/LedgerProps.v
theories/EmptyProps.v
theories/PaySpec.v
theories/TraceProofs.v
theories/PayProofs.v
theories/PayProps.v
theories/StoredSpec.v
theories/StoredProofs.v
theories/StoredProps.v
theories/AlikeSpec.v
theories/AlikeProofs.v
theories/AlikeProps.v
theories/LocalSpec.v
theories/LocalProofs.v
theories/LocalProps.v
theories/CommuteProofs.v
theories/CommuteProps.v
