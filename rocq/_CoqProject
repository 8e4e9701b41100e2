-Q theories Verif
theories/Model_Str.v
theories/Model_Dict.v
theories/Proof_Dict.v
theories/Model_Regex.v
theories/Proof_Regex.v
theories/Proof_Str.v
theories/Model_Trace.v
theories/Spec_Trace.v
theories/Proof_Trace.v
theories/Props_Trace.v
theories/Model_Url.v
theories/Model_Context.v
theories/Spec_Context.v
theories/Proof_TraceContext.v
theories/Proof_Url.v
theories/Proof_Baggage.v
theories/Props_Context.v
theories/Proof_B3Jaeger.v
theories/Proof_Composite.v
theories/Props_Propagators.v
theories/Model_Runtime.v
theories/Proof_Runtime.v
theories/Spec_Runtime.v
theories/Proof_Env.v
theories/Props_Runtime.v
theories/Model_Attr.v
theories/Spec_Attr.v
theories/Proof_Attr.v
theories/Props_Attr.v
theories/Model_Span.v
theories/Spec_Span.v
theories/Proof_Span.v
theories/Props_Span.v
theories/Model_Sampling.v
theories/Spec_Sampling.v
theories/Proof_Sampling.v
theories/Props_Sampling.v
theories/Model_Processor.v
theories/Spec_Processor.v
theories/Proof_Processor.v
theories/Proof_Batch.v
theories/Proof_Fanout.v
theories/Props_Processor.v
theories/Model_Metrics.v
theories/Spec_Metrics.v
theories/Proof_Metrics.v
theories/Model_View.v
theories/Spec_View.v
theories/Proof_View.v
theories/Props_Metrics.v
theories/Model_ExpHist.v
theories/Spec_ExpHist.v
theories/Proof_Buckets.v
theories/Proof_ExpMapping.v
theories/Proof_ExpHist.v
theories/Proof_ExpCumulative.v
theories/Props_ExpHist.v
theories/Model_Exemplar.v
theories/Spec_Exemplar.v
theories/Proof_Exemplar.v
theories/Proof_Sampled.v
theories/Props_Exemplar.v
theories/Model_Meter.v
theories/Spec_Meter.v
theories/Proof_Meter.v
theories/Props_Meter.v
theories/Model_Storage.v
theories/Spec_Storage.v
theories/Proof_Storage.v
theories/Props_Storage.v
theories/Model_Resource.v
theories/Spec_Resource.v
theories/Proof_Resource.v
theories/Props_Resource.v
theories/Model_Otlp.v
theories/Spec_Otlp.v
theories/Proof_Otlp.v
theories/Proof_OtlpFields.v
theories/Props_Otlp.v
theories/Model_Retry.v
theories/Spec_Retry.v
theories/Proof_Retry.v
theories/Props_Retry.v
theories/Model_Prometheus.v
theories/Spec_Prometheus.v
theories/Proof_Prometheus.v
theories/Props_Prometheus.v
theories/Model_Logs.v
theories/Spec_Logs.v
theories/Proof_Logs.v
theories/Props_Logs.v
theories/Model_Proxy.v
theories/Spec_Proxy.v
theories/Proof_Proxy.v
theories/Props_Proxy.v
theories/Model_Zipkin.v
theories/Spec_Zipkin.v
theories/Proof_Zipkin.v
theories/Props_Zipkin.v
theories/Model_Reader.v
theories/Spec_Reader.v
theories/Proof_Reader.v
theories/Props_Reader.v
theories/Model_Provider.v
theories/Spec_Provider.v
theories/Proof_Provider.v
theories/Props_Provider.v
theories/Model_Pipeline.v
theories/Spec_Pipeline.v
theories/Proof_Pipeline.v
theories/Props_Pipeline.v
theories/Model_Tracing.v
theories/Spec_Tracing.v
theories/Proof_Tracing.v
theories/Props_Tracing.v
theories/Model_OtlpConfig.v
theories/Spec_OtlpConfig.v
theories/Proof_OtlpConfig.v
theories/Props_OtlpConfig.v
theories/Model_Config.v
theories/Spec_Config.v
theories/Proof_Config.v
theories/Props_Config.v
theories/Model_Propagate.v
theories/Spec_Propagate.v
theories/Proof_Propagate.v
theories/Props_Propagate.v
theories/Model_Blocks.v
theories/Spec_Blocks.v
theories/Proof_Blocks.v
theories/Props_Blocks.v
theories/Model_Logging.v
theories/Spec_Logging.v
theories/Proof_Logging.v
theories/Props_Logging.v
theories/Model_Shim.v
theories/Spec_Shim.v
theories/Proof_Shim.v
theories/Props_Shim.v
theories/Spec_Streams.v
theories/Proof_Streams.v
theories/Props_Streams.v
theories/Model_Observable.v
theories/Spec_Observable.v
theories/Proof_Observable.v
theories/Props_Observable.v
theories/Model_MetricThreads.v
theories/Model_MetricSdk.v
theories/Spec_MetricThreads.v
theories/Spec_MetricSdk.v
theories/Proof_MetricThreads.v
theories/Proof_MetricRuns.v
theories/Proof_MetricHistory.v
theories/Proof_MetricSdk.v
theories/Props_MetricThreads.v
theories/Model_Float.v
theories/Model_FloatMetrics.v
theories/Spec_Float.v
theories/Proof_Float.v
theories/Proof_FloatMetrics.v
theories/Proof_FloatHist.v
theories/Proof_FloatInt.v
theories/Props_Float.v
theories/Model_FloatExp.v
theories/Spec_FloatExp.v
theories/Proof_ExpExt.v
theories/Proof_FloatExp.v
theories/Proof_FloatExp2.v
theories/Proof_FloatLn.v
theories/Props_FloatExp.v
theories/Spec_PromNames.v
theories/Proof_PromNames.v
theories/Props_PromNames.v
theories/Model_SpanThreads.v
theories/Spec_SpanThreads.v
theories/Proof_SpanThreads.v
theories/Props_SpanThreads.v
theories/Model_Fork.v
theories/Spec_Fork.v
theories/Proof_Fork.v
theories/Props_Fork.v
theories/Model_OpenCensus.v
theories/Spec_OpenCensus.v
theories/Proof_OpenCensus.v
theories/Props_OpenCensus.v
theories/Model_Times.v
theories/Spec_Times.v
theories/Proof_Calendar.v
theories/Proof_Times.v
theories/Props_Times.v
theories/Model_OcExporter.v
theories/Spec_OcExporter.v
theories/Proof_OcExporter.v
theories/Props_OcExporter.v
theories/Spec_BaggageHeader.v
theories/Proof_BaggageHeader.v
theories/Props_BaggageHeader.v
theories/Model_Json.v
theories/Spec_Json.v
theories/Proof_Json.v
theories/Props_Json.v
theories/Model_Document.v
theories/Spec_Document.v
theories/Proof_Document.v
theories/Props_SpanDoc.v
theories/Props_LogDoc.v
theories/Props_MetricDoc.v
theories/Model_NoSdk.v
theories/Spec_NoSdk.v
theories/Proof_NoSdk.v
theories/Props_NoSdk.v
theories/Model_Frames.v
theories/Spec_Frames.v
theories/Proof_Frames.v
theories/Props_Frames.v
theories/Model_Memory.v
theories/Spec_Memory.v
theories/Proof_Memory.v
theories/Props_Memory.v
theories/Model_Exit.v
theories/Spec_Exit.v
theories/Proof_Exit.v
theories/Props_Exit.v
theories/Spec_Remote.v
theories/Proof_Remote.v
theories/Props_Remote.v
theories/Model_Global.v
theories/Spec_Global.v
theories/Proof_Global.v
theories/Props_Global.v
theories/Model_ErrorHandler.v
theories/Spec_ErrorHandler.v
theories/Proof_ErrorHandler.v
theories/Props_ErrorHandler.v
theories/Spec_Utf8.v
theories/Proof_Utf8.v
theories/Spec_Decoding.v
theories/Proof_Decoding.v
theories/Props_Decoding.v
theories/Model_Detectors.v
theories/Spec_Detectors.v
theories/Proof_Detectors.v
theories/Props_Detectors.v
theories/Model_OcPatch.v
theories/Spec_OcPatch.v
theories/Proof_OcPatch.v
theories/Props_OcPatch.v
theories/Model_Split.v
theories/Spec_Split.v
theories/Proof_Split.v
theories/Props_Split.v
theories/Model_Settings.v
theories/Spec_Settings.v
theories/Proof_Settings.v
theories/Props_Settings.v
theories/Model_Scrape.v
theories/Spec_Scrape.v
theories/Proof_Scrape.v
theories/Props_Scrape.v
theories/Model_ZipkinTracing.v
theories/Spec_ZipkinTracing.v
theories/Proof_ZipkinTracing.v
theories/Props_ZipkinTracing.v
theories/Model_ZipkinDoc.v
theories/Spec_ZipkinDoc.v
theories/Proof_ZipkinDoc.v
theories/Props_ZipkinDoc.v
theories/Model_NodeEndpoint.v
theories/Spec_NodeEndpoint.v
theories/Proof_NodeEndpoint.v
theories/Props_NodeEndpoint.v
theories/Model_SelfLog.v
theories/Spec_SelfLog.v
theories/Proof_SelfLog.v
theories/Props_SelfLog.v
theories/Model_LogLocks.v
theories/Spec_LogLocks.v
theories/Proof_LogLocks.v
theories/Props_LogLocks.v
theories/Model_Pool.v
theories/Spec_Pool.v
theories/Proof_Pool.v
theories/Props_Pool.v
theories/Model_ExpPipeline.v
theories/Spec_ExpPipeline.v
theories/Proof_ExpPipeline.v
theories/Props_ExpPipeline.v
theories/Model_Boundaries.v
theories/Spec_Boundaries.v
theories/Proof_Boundaries.v
theories/Props_Boundaries.v
theories/Model_ExemplarPipeline.v
theories/Spec_ExemplarPipeline.v
theories/Proof_ExemplarPipeline.v
theories/Props_ExemplarPipeline.v
theories/Proof_ExemplarErased.v
theories/Model_ExpExemplar.v
theories/Spec_ExpExemplar.v
theories/Proof_ExpExemplar.v
theories/Props_ExpExemplar.v
theories/Model_ExpExemplarPipeline.v
theories/Spec_ExpExemplarPipeline.v
theories/Proof_ExpExemplarPipeline.v
theories/Proof_ExpExemplarErased.v
theories/Props_ExpExemplarPipeline.v
