-Q theories Verif
theories/Base.v
theories/Num.v
theories/B64.v
theories/MathNb.v
theories/Order.v
theories/TolSpec.v
theories/XQFacts.v
theories/OrderFacts.v
theories/ExecFacts.v
theories/FillFacts.v
theories/Account.v
theories/OrderSpec.v
theories/OrderLemmas.v
theories/OrderGen.v
theories/FillView.v
theories/OrderLemmas2.v
theories/OrderLemmas3.v
theories/AccountSpec.v
theories/OrderLemmas4.v
theories/Records.v
theories/RecordLemmas.v
theories/OrderRuns.v
theories/OrderProps.v
theories/CallSeq.v
theories/Simulate.v
theories/SimSpec.v
theories/SimLemmas.v
theories/SimLemmas2.v
theories/OrdLaws.v
theories/CallSeqLemmas.v
theories/SimLemmas3.v
theories/SimLemmas4.v
theories/SimLemmas5.v
theories/SimProps.v
theories/SignalsNb.v
theories/SignalsSpec.v
theories/SignalsLemmas.v
theories/SignalsLemmas2.v
theories/SignalsLemmas3.v
theories/SignalsLemmas4.v
theories/SignalsLemmas5.v
theories/SignalsLemmas6.v
theories/SignalsLemmas7.v
theories/SignalsProps.v
theories/Replay.v
theories/ReplaySpec.v
theories/ReplayLemmas.v
theories/ReplayLemmas2.v
theories/ReplayLemmas3.v
theories/ReplayLemmas4.v
theories/ReplayProps.v
theories/GenericNb.v
theories/GenericSpec.v
theories/GenericLemmas.v
theories/GenericLemmas2.v
theories/GenericLemmas3.v
theories/GenericLemmas4.v
theories/GenericLemmas5.v
theories/GenericLemmas6.v
theories/GenericLemmas7.v
theories/GenericProps.v
theories/Trades.v
theories/TradesSpec.v
theories/TradesLemmas.v
theories/TradesLemmas2.v
theories/TradesLemmas3.v
theories/TradesLemmas4.v
theories/TradesLemmas5.v
theories/TradesLemmas6.v
theories/TradesLemmas7.v
theories/TradesLemmas8.v
theories/TradesLemmas9.v
theories/TradesLemmas10.v
theories/TradesProps.v
theories/RecordsNb.v
theories/RecordsSpec.v
theories/RecordsLemmas.v
theories/RecordsLemmas2.v
theories/RecordsLemmas3.v
theories/RecordsLemmas4.v
theories/RecordsProps.v
theories/FromSignals.v
theories/FromSignalsSpec.v
theories/FromSignalsLemmas.v
theories/FromSignalsLemmas2.v
theories/FromSignalsLemmas3.v
theories/FromSignalsLemmas4.v
theories/FromSignalsLemmas5.v
theories/FromSignalsLemmas6.v
theories/FromSignalsLemmas7.v
theories/FromSignalsProps.v
theories/ReturnsNb.v
theories/ReturnsSpec.v
theories/ReturnsLemmas.v
theories/ReturnsLemmas2.v
theories/ReturnsLemmas3.v
theories/ReturnsLemmas4.v
theories/ReturnsLemmas5.v
theories/ReturnsProps.v
theories/NumFacts.v
theories/LabelsNb.v
theories/LabelsSpec.v
theories/LabelsLemmas.v
theories/LabelsLemmas2.v
theories/LabelsLemmas3.v
theories/LabelsLemmas4.v
theories/LabelsProps.v
theories/IndicatorsNb.v
theories/IndicatorsSpec.v
theories/IndicatorsLemmas.v
theories/IndicatorsLemmas2.v
theories/IndicatorsLemmas3.v
theories/IndicatorsLemmas4.v
theories/IndicatorsLemmas5.v
theories/IndicatorsProps.v
theories/Reshape.v
theories/Grouper.v
theories/Splitters.v
theories/IndexFns.v
theories/BaseFnsSpec.v
theories/IndexSpec.v
theories/BaseFnsLemmas.v
theories/BaseFnsLemmas2.v
theories/BaseFnsLemmas3.v
theories/BaseFnsLemmas4.v
theories/BaseFnsLemmas5.v
theories/BaseFnsProps.v
theories/Dicts.v
theories/DictSpec.v
theories/DictLemmas.v
theories/DictLemmas2.v
theories/DictLemmas3.v
theories/DictLemmas4.v
theories/DictLemmas5.v
theories/DictLemmas6.v
theories/DictLemmas7.v
theories/DictLemmas8.v
theories/DictLemmas9.v
theories/DictProps.v
theories/Cache.v
theories/CacheThreads.v
theories/CacheSpec.v
theories/CacheLemmas.v
theories/CacheLemmas2.v
theories/CacheThreadLemmas.v
theories/CacheProps.v
theories/RustOrder.v
theories/RustSpec.v
theories/RustLemmas.v
theories/RustLawsXQ.v
theories/RustLemmas2.v
theories/RustLawsB64.v
theories/RustLemmas3.v
theories/RustRuns.v
theories/RustProps.v
theories/RustSim.v
theories/RustSimLemmas.v
theories/RustSimLemmas2.v
theories/RustSimRuns.v
theories/RustSimProps.v
theories/OrderFunc.v
theories/PosRecSpec.v
theories/PosRecLemmas.v
theories/PosRecProps.v
theories/OrderFuncSpec.v
theories/OrderFuncLemmas.v
theories/OrderFuncLemmas2.v
theories/OrderFuncLemmas3.v
theories/OrderFuncProps.v
theories/OrderFuncLemmas4.v
theories/OrderFuncLemmas5.v
theories/OrderFuncLemmas6.v
theories/OrderFuncProps2.v
theories/RandSignals.v
theories/RandSignalsSpec.v
theories/RandSignalsLemmas.v
theories/RandSignalsLemmas2.v
theories/RandSignalsProps.v
theories/StopSignals.v
theories/StopSignalsSpec.v
theories/StopSignalsLemmas.v
theories/StopSignalsProps.v
theories/RustSignals.v
theories/RustSignalsSpec.v
theories/RustSignalsLemmas.v
theories/RustSignalsLemmas2.v
theories/RustSignalsLemmas3.v
theories/RustSignalsRuns.v
theories/RustSignalsProps.v
theories/Broadcast.v
theories/BroadcastSpec.v
theories/BroadcastLemmas.v
theories/BroadcastLemmas2.v
theories/BroadcastLemmas3.v
theories/BroadcastLemmas4.v
theories/BroadcastLemmas5.v
theories/BroadcastLemmas6.v
theories/BroadcastProps.v
theories/RustTrades.v
theories/RustTradesSpec.v
theories/RustTradesSamples.v
theories/RustTradesLemmas.v
theories/RustTradesLemmas2.v
theories/RustTradesRuns.v
theories/RustTradesProps.v
theories/Performance.v
theories/PerformanceSpec.v
theories/PerformanceLemmas.v
theories/PerformanceLemmas2.v
theories/PerformanceLemmas3.v
theories/PerformanceProps.v
theories/RustReplay.v
theories/RustReplayLemmas.v
theories/RustReplayProps.v
theories/Engine.v
theories/EngineSpec.v
theories/EngineLemmas.v
theories/EngineProps.v
theories/BaseFnsLemmas6.v
theories/RatiosSpec.v
theories/RatiosLemmas.v
theories/RatiosProps.v
theories/Indicator.v
theories/IndicatorSpec.v
theories/IndicatorLemmas.v
theories/IndicatorLemmas2.v
theories/IndicatorLemmas3.v
theories/IndicatorLemmas4.v
theories/IndicatorLemmas5.v
theories/IndicatorLemmas6.v
theories/IndicatorLemmas7.v
theories/IndicatorLemmas8.v
theories/IndicatorLemmas9.v
theories/IndicatorLemmas10.v
theories/IndicatorProps.v
theories/FlowsSpec.v
theories/FlowsLemmas.v
theories/FlowsLemmas2.v
theories/FlowsLemmas3.v
theories/FlowsProps.v
theories/Data.v
theories/DataSpec.v
theories/DataLemmas.v
theories/DataLemmas2.v
theories/DataLemmas3.v
theories/DataLemmas4.v
theories/DataLemmas5.v
theories/DataLemmas6.v
theories/DataProps.v
theories/Reduce.v
theories/ReduceSpec.v
theories/ReduceLemmas.v
theories/ReduceLemmas2.v
theories/ReduceLemmas3.v
theories/ReduceLemmas4.v
theories/ReduceProps.v
theories/IndicatorLemmas11.v
theories/Wrapper.v
theories/WrapperSpec.v
theories/WrapperLemmas.v
theories/WrapperLemmas2.v
theories/WrapperProps.v
theories/Mapped.v
theories/MappedSpec.v
theories/MappedLemmas.v
theories/MappedLemmas2.v
theories/MappedLemmas3.v
theories/MappedProps.v
theories/RustGeneric.v
theories/RustGenericSpec.v
theories/RustGenericLemmas.v
theories/RustGenericLemmas2.v
theories/RustGenericLemmas3.v
theories/RustGenericLemmas4.v
theories/RustGenericLemmas5.v
theories/RustGenericLemmas6.v
theories/RustGenericProps.v
theories/Describe.v
theories/DescribeSpec.v
theories/DescribeLemmas.v
theories/DescribeLemmas2.v
theories/DescribeLemmas3.v
theories/DescribeLemmas4.v
theories/DescribeProps.v
theories/RustRecords.v
theories/RustRecordsLemmas.v
theories/RustRecordsLemmas2.v
theories/RustRecordsLemmas3.v
theories/RustRecordsProps.v
theories/RustLabels.v
theories/RustLabelsSpec.v
theories/RustLabelsLemmas.v
theories/RustLabelsLemmas2.v
theories/RustLabelsLemmas3.v
theories/RustLabelsProps.v
theories/RustReturns.v
theories/RustReturnsSpec.v
theories/RustReturnsLemmas.v
theories/RustReturnsLemmas2.v
theories/RustReturnsLemmas3.v
theories/RustReturnsLemmas4.v
theories/RustReturnsLemmas5.v
theories/RustReturnsProps.v
theories/RustIndicators.v
theories/RustIndicatorsSpec.v
theories/RustIndicatorsLemmas.v
theories/RustIndicatorsLemmas2.v
theories/RustIndicatorsLemmas3.v
theories/RustIndicatorsProps.v
theories/RustSigOps.v
theories/RustSigSpec.v
theories/RustSigLemmas.v
theories/RustSigLemmas2.v
theories/RustSigProps.v
theories/RustStops.v
theories/RustStopsLemmas.v
theories/RustStopsProps.v
theories/RustRand.v
theories/RustRandLemmas.v
theories/RustRandProps.v
theories/RustRandEnex.v
theories/RustRandEnexLemmas.v
theories/RustRandEnexProps.v
