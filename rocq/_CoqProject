-Q theories Verif
theories/Str.v
theories/StrProofs.v
theories/ContextModel.v
theories/ContextSpec.v
theories/ContextProofs.v
theories/ContextProps.v
theories/BaggageModel.v
theories/BaggageSpec.v
theories/BaggageProofs.v
theories/BaggageProps.v
theories/TraceModel.v
theories/TraceSpec.v
theories/TraceProofs.v
theories/Carrier.v
theories/W3CModel.v
theories/W3CSpec.v
theories/W3CProofs.v
theories/TraceProps.v
theories/PropModel.v
theories/PropSpec.v
theories/PropProofs.v
theories/PropProps.v
theories/F64.v
theories/F64Proofs.v
theories/SamplerModel.v
theories/SamplerSpec.v
theories/SamplerProofs.v
theories/SamplerProps.v
theories/SpanModel.v
theories/SpanSpec.v
theories/SpanProofs.v
theories/SpanProps.v
theories/ProviderModel.v
theories/ProviderProps.v
theories/BatchModel.v
theories/BatchProofs.v
theories/BatchProps.v
theories/LogModel.v
theories/LogProps.v
theories/AttrModel.v
theories/AttrProofs.v
theories/ValueMapModel.v
theories/ValueMapProofs.v
theories/ValueMapProps.v
theories/AtomicModel.v
theories/AtomicProps.v
theories/HistModel.v
theories/HistProps.v
theories/ObservableModel.v
theories/ObservableProps.v
theories/ExpoModel.v
theories/ExpoProofs.v
theories/ExpoFloat.v
theories/ExpoProps.v
theories/InstrModel.v
theories/InstrProps.v
theories/PipelineModel.v
theories/PipelineProps.v
theories/ProduceModel.v
theories/ProduceProps.v
theories/PeriodicModel.v
theories/PeriodicProps.v
theories/MeterProviderModel.v
theories/MeterProviderProps.v
theories/ResourceModel.v
theories/ResourceProps.v
theories/KvModel.v
theories/KvProps.v
theories/OtlpModel.v
theories/OtlpProps.v
theories/OtlpValueProps.v
theories/PromModel.v
theories/PromProps.v
theories/OtlpConfModel.v
theories/OtlpConfProps.v
theories/AsyncModel.v
theories/AsyncProps.v
theories/BaggageReadProps.v
theories/HttpModel.v
theories/HttpProps.v
theories/ConfigModel.v
theories/ConfigProps.v
theories/BatchAnswerProps.v
theories/AsyncReaderModel.v
theories/AsyncReaderProps.v
theories/JsonModel.v
theories/JsonProofs.v
theories/JsonProps.v
theories/ZipkinModel.v
theories/ZipkinProps.v
theories/BridgeModel.v
theories/BridgeProps.v
theories/ReentryModel.v
theories/ReentryProps.v
theories/ActiveModel.v
theories/ActiveProofs.v
theories/ActiveProps.v
theories/GlobalModel.v
theories/GlobalProps.v
theories/NoopProps.v
theories/MemoryModel.v
theories/MemoryProps.v
theories/PromScrapeProps.v
theories/WireProps.v
theories/SeqModel.v
theories/SeqProofs.v
theories/SeqSpec.v
theories/EndModel.v
theories/EndSpec.v
theories/EndProofs.v
theories/EndProps.v
theories/StdoutModel.v
theories/StdoutSpec.v
theories/StdoutProofs.v
theories/StdoutProps.v
theories/BuilderModel.v
theories/BuilderProps.v
theories/ProtoModel.v
theories/ProtoSpec.v
theories/ProtoProofs.v
theories/ProtoProps.v
theories/TracezModel.v
theories/TracezProps.v
theories/RemoteModel.v
theories/RemoteProps.v
theories/RemoteUrlProps.v
theories/MetricWireModel.v
theories/MetricWireSpec.v
theories/MetricExpoProofs.v
theories/MetricWireProofs.v
theories/MetricWireProps.v
theories/TextProps.v
theories/ResFlowModel.v
theories/ResFlowProps.v
theories/ChainProps.v
theories/PromFlowSpec.v
theories/PromFlowProofs.v
theories/PromFlowProps.v
theories/SpanWireSpec.v
theories/SpanWireProps.v
theories/LogWireSpec.v
theories/LogWireProps.v
