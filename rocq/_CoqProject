-Q theories Verif

theories/Base.v
theories/Lru.v
theories/LruFacts.v
theories/Types.v
theories/Ordering.v
theories/SpecChain.v
theories/Avro.v
theories/AvroFacts.v
theories/Wire.v
theories/SpecWire.v
theories/WireFacts.v
theories/GoPath.v
theories/PathFacts.v
theories/Consumer.v
theories/Producer.v
theories/SpecBlock.v
theories/SpecProducer.v
theories/ProducerFacts.v
theories/ProducerFacts2.v
theories/ProducerFacts3.v
theories/ProducerFacts4.v
theories/ConsumerBase.v
theories/ConsumerFacts.v
theories/Assembly.v
theories/Assembly2.v
theories/Assembly3.v
theories/SpecCollect.v
theories/CollectFacts.v
theories/StrayFacts.v
theories/ExampleBlock.v
theories/ExampleProducer.v
theories/CollectFacts2.v
theories/OrderingBase.v
theories/OrderingTests.v
theories/OrderingGrow.v
theories/SpecExamples.v
theories/OrderingFacts.v
theories/OrderingMisc.v
theories/OrderingTotal.v
theories/OrderingPanic.v
theories/OrderingChain.v
theories/OrderingResume.v
theories/GoText.v
theories/TextFacts.v
theories/Kafka.v
theories/SpecKafka.v
theories/KafkaFacts.v
theories/KafkaFacts2.v
theories/KafkaFacts3.v
theories/PropWire.v
theories/PropConsumer.v
theories/PropProducer.v
theories/PropOrdering.v
theories/PropOrdering2.v
theories/PropOrdering3.v
theories/PropKafka.v
theories/Mux.v
theories/SpecMux.v
theories/MuxFacts.v
theories/PropMux.v
theories/Waiter.v
theories/SpecWaiter.v
theories/WaiterFacts.v
theories/WaiterFacts2.v
theories/WaiterFacts3.v
theories/WaiterFacts4.v
theories/PropWaiter.v
theories/WhyFacts.v
theories/PropWhy.v
theories/Websocket.v
theories/SpecWebsocket.v
theories/WebsocketFacts.v
theories/WebsocketFacts2.v
theories/WebsocketFacts3.v
theories/WebsocketFacts4.v
theories/WebsocketFacts5.v
theories/PropWebsocket.v
theories/SpecHeavy.v
theories/OrderingHeavy.v
theories/OrderingRelease.v
theories/ExampleHeavy.v
theories/PropHeavy.v
theories/System.v
theories/SpecSystem.v
theories/SystemFacts.v
theories/SystemFacts2.v
theories/SpecPublish.v
theories/PublishFacts.v
theories/ExampleSystem.v
theories/PropSystem.v
theories/SpecToken.v
theories/TokenFacts.v
theories/PropToken.v
theories/Feed.v
theories/SpecFeed.v
theories/FeedFacts.v
theories/FeedFacts2.v
theories/PropFeed.v
theories/WsSystem.v
theories/SpecWsSystem.v
theories/WsSystemFacts.v
theories/WsSystemFacts2.v
theories/PropWsSystem.v
theories/Restart.v
theories/SpecRestart.v
theories/RestartFacts.v
theories/ExampleRestart.v
theories/PropRestart.v
theories/Ready.v
theories/SpecReady.v
theories/ReadyFacts.v
theories/PropReady.v
theories/SpecAgain.v
theories/AgainFacts.v
theories/PropAgain.v
theories/SpecMemory.v
theories/MemoryFacts.v
theories/PropMemory.v
theories/OrderingFrom.v
theories/WaitSystem.v
theories/SpecWaitSystem.v
theories/WaitSystemFacts.v
theories/WaitSystemFacts2.v
theories/PropWaitSystem.v
theories/Shutdown.v
theories/SpecShutdown.v
theories/ShutdownFacts.v
theories/ShutdownFacts2.v
theories/PropShutdown.v
theories/ReadyCalls.v
theories/SpecReadyCalls.v
theories/ReadyCallsFacts.v
theories/PropReadyCalls.v
theories/Pipeline.v
theories/SpecPipeline.v
theories/PipelineFacts.v
theories/PipelineFacts2.v
theories/PipelineFacts3.v
theories/PropPipeline.v
theories/Race.v
theories/SpecRace.v
theories/RaceFacts.v
theories/PropRace.v
theories/KafkaUrl.v
theories/SpecKafkaUrl.v
theories/KafkaUrlFacts.v
theories/PropKafkaUrl.v
theories/Upstreams.v
theories/SpecUpstreams.v
theories/UpstreamsFacts.v
theories/PropUpstreams.v
theories/WaiterStop.v
theories/SpecForget.v
theories/SpecWaiterStop.v
theories/ForgetFacts.v
theories/PropForget.v
theories/WaiterStopFacts.v
theories/PropWaiterStop.v
theories/MixedSystem.v
theories/SpecMixed.v
theories/MixedFacts.v
theories/MixedFacts2.v
theories/MixedFacts3.v
theories/PropMixed.v
theories/Redundant.v
theories/SpecRedundant.v
theories/RedundantFacts.v
theories/PropRedundant.v
theories/TopicConsumer.v
theories/SpecTopic.v
theories/TopicFacts.v
theories/PropTopic.v
theories/Counting.v
theories/SpecCounting.v
theories/CountingFacts.v
theories/PropCounting.v
theories/OrderClose.v
theories/SpecOrderClose.v
theories/OrderCloseFacts.v
theories/PropOrderClose.v
theories/WsStart.v
theories/SpecWsStart.v
theories/WsStartFacts.v
theories/PropWsStart.v
theories/Heartbeat.v
theories/SpecHeartbeat.v
theories/HeartbeatFacts.v
theories/PropHeartbeat.v
