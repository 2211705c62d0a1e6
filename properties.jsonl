{"id": "C01", "title": "Reassembly is exact", "statement": "Whenever a consumer emits a pending batch for a block that was submitted with Producer.AddBlock (plus Producer.SendBatch for each announced sub-batch), the batch's Number, Weight, ParentHash, Hash, Values and Deletes are exactly the submitted ones (restricted to the prefixes the consumer tracks), whatever order, duplication or interleaving the messages arrived in.", "quantifier": "every block, every schema and tracked-prefix set meeting the documented well-formedness rules, every finite sequence of deliveries of its messages (any order, any number of copies, any interleaving with other blocks), every Go map iteration order", "why_tests_cant": "the number of permutations/duplications of a block's messages is factorial and the shuffled tests sample one per run", "anchors": ["delivery/producer.go:AddBlock", "delivery/producer.go:SendBatch", "delivery/consumer.go:ProcessMessage", "delivery/consumer.go:ApplyMessage"]}
{"id": "C02", "title": "Reassembly always completes", "statement": "Once at least one copy of every message of a block on tracked prefixes has been passed to ProcessMessage (in any order), the block has been emitted to subscribers; no arrival order leaves a fully delivered block stuck.", "quantifier": "every well-formed block, every delivery sequence that covers its messages, every iteration order", "why_tests_cant": "liveness over all arrival orders; a test shows only that one order completes", "anchors": ["delivery/consumer.go:ProcessMessage", "delivery/consumer.go:ApplyMessage", "delivery/consumer.go:Ready", "delivery/consumer.go:queueMessage"]}
{"id": "C03", "title": "No premature emission", "statement": "A block is never emitted before its header and every message on a tracked prefix (updates, deletes, sub-batch headers and sub-batch entries) has been delivered at least once, even if other messages are delivered many times.", "quantifier": "every well-formed block with non-empty update values, every delivery sequence", "why_tests_cant": "needs the counter bookkeeping to be right for all duplications, not the sampled ones", "anchors": ["delivery/consumer.go:ApplyMessage", "delivery/consumer.go:DecPrefixCounter", "delivery/consumer.go:Ready"]}
{"id": "C04", "title": "Emitted at most once per window", "statement": "After a block has been emitted, further messages for it cause no second emission unless at least 2*ReorgThreshold other blocks were emitted in between or a large-reorg message arrived.", "quantifier": "every history of messages of any blocks", "why_tests_cant": "depends on the replacement order of the completed-block cache over unbounded histories", "anchors": ["delivery/consumer.go:ProcessMessage", "delivery/consumer.go:NewMessageProcessor"]}
{"id": "C05", "title": "Untracked prefixes are neither delivered nor waited for", "statement": "A consumer that tracks only some prefixes emits each block as soon as the messages on tracked prefixes are in, with no key from an untracked prefix or untracked sub-batch in Values or Deletes; untracked messages may arrive, be duplicated or never arrive without changing that.", "quantifier": "every block, every tracked-prefix predicate, every delivery sequence including or omitting any untracked messages", "why_tests_cant": "subset choice times delivery order is unbounded", "anchors": ["delivery/consumer.go:ProcessMessage", "delivery/consumer.go:DecPrefixCounter"]}
{"id": "C06", "title": "Blocks do not contaminate one another", "statement": "Processing a message whose key carries one block hash never changes what is collected, queued or emitted for any other block hash.", "quantifier": "every consumer state, every message, every pair of distinct hashes", "why_tests_cant": "quantifies over every reachable state of the consumer's shared maps", "anchors": ["delivery/consumer.go:ProcessMessage", "delivery/consumer.go:queueMessage"]}
{"id": "C07", "title": "Block header encoding round-trips", "statement": "Decoding the bytes produced by Batch.EncodeAvro yields the same number, weight, parent and updates map, for every batch and for every order in which the map entries were written.", "quantifier": "every Batch (int64 number, any weight bytes, 32-byte parent, any finite updates map of any size), every map iteration order", "why_tests_cant": "unbounded maps cross the encoder's 100-entry block boundary; integers range over 64 bits", "anchors": ["delivery/types.go:EncodeAvro", "delivery/types.go:UnmarshalBatch", "delivery/types.go:batchSchema"]}
{"id": "C08", "title": "Sub-batch record encoding round-trips", "statement": "Decoding SubBatchRecord.EncodeAvro gives back the same delete list and the same updates map.", "quantifier": "every delete list and updates map of any size, every map iteration order", "why_tests_cant": "unbounded sizes and block boundaries", "anchors": ["delivery/types.go:SubBatchRecord", "delivery/types.go:updateSchema"]}
{"id": "C09", "title": "Integer framing round-trips exactly on int32", "statement": "AvroInt followed by avro decoding returns the same integer exactly for integers in the int32 range; other integers come back reduced modulo 2^32 to the int32 range. Consequently Producer.Reorg announces the given block number exactly when it fits in an int32.", "quantifier": "every Go int", "why_tests_cant": "64-bit input space", "anchors": ["delivery/types.go:AvroInt", "delivery/producer.go:Reorg", "delivery/consumer.go:ProcessMessage"]}
{"id": "C10", "title": "Message keys are unambiguous", "statement": "The type byte, block hash, batch id / path and index put in a message key are recovered exactly by the consumer's slicing, and messages that differ in any of them have different keys.", "quantifier": "every message type, hash, batch id, index and path", "why_tests_cant": "injectivity over an infinite key space", "anchors": ["delivery/types.go:GetKey", "delivery/consumer.go:ProcessMessage", "delivery/consumer.go:ApplyMessage"]}
{"id": "C11", "title": "A block's data is sent exactly once", "statement": "In a successful AddBlock, every update and delete is carried exactly once: either by one message of the topic of its schema entry, counted once under its prefix in the header, or inline in the header when no schema entry matches; every sub-batch id appears in the header; nothing else is sent; the header goes to the default topic, after the other messages of that topic.", "quantifier": "every producer schema and every AddBlock argument, every map iteration order", "why_tests_cant": "must hold for all schemas and all maps", "anchors": ["delivery/producer.go:AddBlock"]}
{"id": "C12", "title": "Redundant producers send interchangeable messages", "statement": "Two producers with the same schema given the same block and sub-batches produce, under equal keys, equal values (headers equal after decoding), regardless of map iteration order; sub-batch indices do not depend on iteration order.", "quantifier": "every block, every pair of iteration orders", "why_tests_cant": "Go randomises map order; a test sees a few orders only", "anchors": ["delivery/producer.go:AddBlock", "delivery/producer.go:SendBatch"]}
{"id": "C13", "title": "SendBatch is accepted once per announced sub-batch", "statement": "SendBatch succeeds exactly for ids announced by an earlier AddBlock and not yet sent, sends one header with the exact number of entries followed by entries numbered 0..count-1 to the topic of the sub-batch's prefix, and rejects any other id with ErrUnknownBatch without sending anything or changing state.", "quantifier": "every history of AddBlock and SendBatch calls", "why_tests_cant": "arbitrary call histories", "anchors": ["delivery/producer.go:SendBatch", "delivery/producer.go:AddBlock"]}
{"id": "C14", "title": "Overlapping schema prefixes are rejected", "statement": "NewProducer fails with ErrPrefixOverlap exactly when some schema key is a proper string prefix of another (all expressions compiling); when it succeeds with plain-text prefixes, every key matches at most one schema entry, so routing does not depend on the order of the schema.", "quantifier": "every schema map, every iteration order", "why_tests_cant": "all pairs of strings", "anchors": ["delivery/producer.go:NewProducer"]}
{"id": "C15", "title": "Invalid blocks are refused", "statement": "AddBlock returns ErrInvalidBatch or ErrPrefixConflict, sending nothing, exactly when a sub-batch id is the zero hash or a header entry would have to carry two different roles (inline value/delete, sub-batch, count).", "quantifier": "every AddBlock argument and producer state", "why_tests_cant": "arbitrary maps", "anchors": ["delivery/producer.go:AddBlock"]}
{"id": "C16", "title": "A failed AddBlock has no effect", "statement": "If AddBlock returns an error the producer is unchanged: in particular SendBatch for the refused block's sub-batches is still rejected.", "quantifier": "every failing AddBlock call, every iteration order", "why_tests_cant": "needs every error path of every call", "anchors": ["delivery/producer.go:AddBlock", "delivery/producer.go:SendBatch"]}
{"id": "C17", "title": "Resumption token covers the block", "statement": "For each message source, the offset in an emitted batch's resumption token is not greater than the offset of any message of that block applied from that source; therefore re-reading every source from the token's offsets re-delivers a full copy of the block.", "quantifier": "every history, every source/offset assignment, every emitted block", "why_tests_cant": "depends on all offsets and arrival orders including duplicates at other offsets", "anchors": ["delivery/consumer.go:Resumption", "delivery/consumer.go:updateResumption", "delivery/consumer.go:ProcessMessage"]}
{"id": "C18", "title": "Resumption token survives restart", "statement": "The token string parsed by a new consumer yields exactly the source/offset map it was produced from, for every map and every iteration order, provided source names contain neither ';' nor '='.", "quantifier": "every finite map from legal source names to int64 offsets, every iteration order", "why_tests_cant": "infinite string space", "anchors": ["delivery/consumer.go:Resumption", "transports/kafka.go:kafkaConsumerWithOMP"]}
{"id": "C19", "title": "A restarted Kafka consumer never skips", "statement": "With a token entry for a partition and a non-negative rollback, consumption starts at or before the token offset (exactly rollback earlier when possible, otherwise at the oldest message); without an entry it starts at the oldest message when a last hash is configured and at the head of the feed when not.", "quantifier": "every token, rollback, start hash and broker offset", "why_tests_cant": "integer arithmetic over all offsets, including the sentinel values", "anchors": ["transports/kafka.go:Start"]}
{"id": "C20", "title": "Chain updates always connect", "statement": "A client that starts at the configured last hash, undoes the Removed blocks of each ChainUpdate (last to first) and applies the Added ones in order is never asked to remove a block that is not its current tip nor to add one whose parent is not its current tip.", "quantifier": "every sequence of completed blocks in any order with any duplicates and forks, every ReorgThreshold, every cache eviction, every iteration order, and every large-reorg notification", "why_tests_cant": "unbounded histories with forks, out-of-order arrival and cache evictions", "anchors": ["delivery/ordering.go:HandlePendingBatch", "delivery/ordering.go:prepareEmit", "delivery/ordering.go:prepareReorg", "delivery/ordering.go:evict"]}
{"id": "C21", "title": "Applied chain has consecutive numbers and no repeats", "statement": "If block numbers increase by one from parent to child, the client's applied chain always has consecutive numbers and never contains the same block twice.", "quantifier": "every history as above", "why_tests_cant": "invariant over unbounded histories", "anchors": ["delivery/ordering.go:prepareEmit", "delivery/ordering.go:prepareReorg"]}
{"id": "C22", "title": "Reorgs are minimal", "statement": "In every ChainUpdate the Removed and Added lists have no block in common and hang off the same parent, the most recent common ancestor of the old and the new head.", "quantifier": "every history as above with numbers and weights increasing along the chain and large-reorg notifications naming, as documented, a block no heavier than the current head", "why_tests_cant": "all pairs of branches in all trees", "anchors": ["delivery/ordering.go:prepareReorg"]}
{"id": "C23", "title": "The head only moves to heavier blocks", "statement": "If weights increase from parent to child, every ChainUpdate ends at a strictly heavier block than the previous head.", "quantifier": "every history of completed blocks without large-reorg notifications", "why_tests_cant": "all trees, all arrival orders", "anchors": ["delivery/ordering.go:HandlePendingBatch", "delivery/ordering.go:getPendingChild"]}
{"id": "C24", "title": "The heaviest known chain is followed", "statement": "After each completed block, the consumer's head is a block of maximal weight among all received blocks that connect to its starting block through received blocks.", "quantifier": "every tree of blocks and every arrival order, within the retention window", "why_tests_cant": "all trees times all arrival orders", "anchors": ["delivery/ordering.go:HandlePendingBatch", "delivery/ordering.go:getPendingChild", "delivery/ordering.go:getPendingChainDifficulty"]}
{"id": "C25", "title": "A fork-free chain is delivered in order, completely and once", "statement": "If the received blocks form a single chain from the last hash, then for every arrival order and duplication the concatenation of all Added lists is always exactly the longest contiguous received prefix of that chain, in order, with nothing removed.", "quantifier": "chains of any length (longer than any cache), every arrival order with duplicates", "why_tests_cant": "permutations of unbounded chains; interacts with cache eviction", "anchors": ["delivery/ordering.go:HandlePendingBatch", "delivery/ordering.go:prepareEmit", "delivery/ordering.go:evict"]}
{"id": "C26", "title": "Repeated blocks are silent", "statement": "Receiving again a block that was emitted or judged recently produces no ChainUpdate and does not move the head.", "quantifier": "every reachable state, every recently finished block", "why_tests_cant": "all reachable states", "anchors": ["delivery/ordering.go:HandlePendingBatch"]}
{"id": "C27", "title": "Whitelist is enforced", "statement": "No block whose number is whitelisted under a different hash is ever emitted, nor any block received later that descends from it.", "quantifier": "every whitelist and history", "why_tests_cant": "all histories and fork shapes", "anchors": ["delivery/ordering.go:HandlePendingBatch"]}
{"id": "C28", "title": "Ordering never crashes or hangs on well-formed blocks", "statement": "For blocks with numbers and positive weights increasing along the chain, handling any sequence of completed blocks neither panics nor loops.", "quantifier": "every history of well-formed blocks", "why_tests_cant": "termination and panic-freedom over all states", "anchors": ["delivery/ordering.go:prepareEmit", "delivery/ordering.go:getPendingChainDifficulty", "delivery/ordering.go:finishPendingChildren", "delivery/ordering.go:evict", "delivery/ordering.go:prepareReorg"]}
{"id": "C29", "title": "Retention is bounded", "statement": "At most 2*ReorgThreshold blocks are remembered as finished; when one is forgotten, its data and the data of its ancestors are released, and messages of incomplete older blocks are discarded from then on.", "quantifier": "every history", "why_tests_cant": "unbounded histories", "anchors": ["delivery/ordering.go:evict", "delivery/ordering.go:NewOrderedMessageProcessor", "delivery/consumer.go:evictOlderThan"]}
{"id": "C30", "title": "Starting without a last hash settles", "statement": "A consumer configured with an empty last hash emits the first block it receives, and makes at most nine emissions that do not connect to the previous head; afterwards all updates connect.", "quantifier": "every history from an empty start, every ReorgThreshold", "why_tests_cant": "all histories", "anchors": ["delivery/ordering.go:HandlePendingBatch", "delivery/ordering.go:NewOrderedMessageProcessor"]}
{"id": "C31", "title": "Large reorg restarts from the announced ancestor", "statement": "A reorg message makes the consumer announce exactly (number, hash) to reorg subscribers, forget which blocks were emitted or discarded so that they can be sent again, and continue with a child of that hash.", "quantifier": "every state and every reorg message", "why_tests_cant": "all states", "anchors": ["delivery/consumer.go:ProcessMessage", "delivery/ordering.go:HandleReorg"]}
{"id": "C32", "title": "Discarded old blocks stay discarded", "statement": "Once the ordering layer has asked to drop incomplete blocks older than n, every incomplete block with a smaller number is dropped at the next message and nothing for it is emitted until a large reorg.", "quantifier": "every state, every n, every later message sequence", "why_tests_cant": "all later histories", "anchors": ["delivery/consumer.go:ProcessMessage", "delivery/consumer.go:evictOlderThan"]}
{"id": "C33", "title": "Waiter success is truthful", "statement": "WaitForHashResult/WaitForNumberResult return Success only if Done was called on a batch with that hash/number that was announced to the waiter.", "quantifier": "every interleaving of announcements, completions, expiry timers and queries", "why_tests_cant": "schedule space of goroutines", "anchors": ["waiter/waiter.go:NewOmpWaiter", "waiter/waiter.go:WaitForHashResult", "waiter/waiter.go:WaitForNumberResult", "delivery/consumer.go:Done"]}
{"id": "C34", "title": "Waiter finds announced blocks for a minute after completion", "statement": "A hash announced once is found (never NotFound) from its announcement until at least 60 seconds after its batch (or a batch of the same number) was completed, and a wait on it succeeds as soon as Done was called within that time; an unannounced hash is NotFound.", "quantifier": "every interleaving and timing", "why_tests_cant": "schedule and time space", "anchors": ["waiter/waiter.go:NewOmpWaiter", "waiter/waiter.go:WaitForHashResult"]}
{"id": "C35", "title": "Waiter channels are closed at most once", "statement": "No sequence of Done calls, announcements and notifications closes a channel twice (which would panic), including several blocks of the same number and ChainUpdates whose blocks are done more than once.", "quantifier": "every interleaving", "why_tests_cant": "schedule space", "anchors": ["waiter/waiter.go:NewOmpWaiter", "delivery/consumer.go:Done", "delivery/ordering.go:Done"]}
{"id": "C36", "title": "Websocket blocks are assembled exactly", "statement": "For a websocket consumer, every interleaving of a batch message and its sub-batch messages results in exactly one completed block, with the union of the submitted values and deletes, at the arrival of the last part.", "quantifier": "every batch with any number of sub-batches, every arrival order, interleaved with other blocks", "why_tests_cant": "all arrival orders", "anchors": ["transports/websockets.go:Start", "transports/websockets.go:AddBlock", "transports/websockets.go:SendBatch"]}
{"id": "C37", "title": "Websocket reconnect loses nothing", "statement": "If the connection drops at any point, resubscribing from the remembered (number, hash) re-delivers every block that had not been completed.", "quantifier": "every message sequence and every disconnection point", "why_tests_cant": "crash points times orders", "anchors": ["transports/websockets.go:Start"]}
{"id": "C38", "title": "Websocket catch-up hands over without a gap", "statement": "A subscriber receives the resumption blocks and then every live block, with none missing in between.", "quantifier": "every interleaving of block production with the catch-up goroutine", "why_tests_cant": "race between producer and subscription", "anchors": ["transports/websockets.go:Streams", "transports/websockets.go:AddBlock"]}
{"id": "C39", "title": "Multiplexed producers all receive every block", "statement": "AddBlock/SendBatch/Reorg on a multiplexed producer are passed to every underlying producer even if some fail, and the returned error is that of the first failing one (nil iff none fails).", "quantifier": "every list of producers with any behaviour", "why_tests_cant": "all lists and error patterns", "anchors": ["transports/resolver.go:AddBlock", "transports/resolver.go:SendBatch", "transports/resolver.go:Reorg"]}
{"id": "C40", "title": "Multiplexed latest block is the safe minimum", "statement": "LatestBlockFromFeed on a multiplexed producer returns the smallest number reported by a healthy producer, and an error exactly when no producer reports a number.", "quantifier": "every list of producers and results", "why_tests_cant": "all lists", "anchors": ["transports/resolver.go:LatestBlockFromFeed"]}
{"id": "C41", "title": "Multiplexed consumer starts if any member starts", "statement": "Start on a multiplexed consumer attempts every member and fails only if all members fail; ProducerCount is the sum of the members' counts.", "quantifier": "every list of consumers", "why_tests_cant": "all lists", "anchors": ["transports/resolver.go:Start", "transports/resolver.go:ProducerCount", "transports/resolver.go:WhyNotReady"]}
{"id": "C42", "title": "Kafka producers do not rebroadcast known blocks", "statement": "AddBlock for a hash already seen on the feed (among the last 4096 blocks) sends nothing and makes later SendBatch calls for its sub-batches (up to 1024) succeed silently; for other hashes every message of the bundle is sent, to its topic, in order.", "quantifier": "every history of feed observations and calls", "why_tests_cant": "histories and cache contents", "anchors": ["transports/kafka.go:AddBlock", "transports/kafka.go:SendBatch", "transports/kafka.go:emitBundle", "transports/kafka.go:PurgeReplayCache"]}
{"id": "C43", "title": "Producer count reflects recent heartbeats", "statement": "ProducerCount(d) is the number of distinct producer ids whose latest heartbeat is less than d old.", "quantifier": "every heartbeat history and duration", "why_tests_cant": "all histories", "anchors": ["transports/kafka.go:ProducerCount", "transports/kafka.go:update"]}
{"id": "C44", "title": "End to end: submitted chain arrives intact", "statement": "If producers submit a chain of blocks and every message is delivered at least once in any order, the ordered consumer's updates add exactly those blocks, in chain order, once, with exactly the submitted data.", "quantifier": "every chain, every interleaving, duplication and iteration order", "why_tests_cant": "composition of two layers over all schedules", "anchors": ["delivery/producer.go", "delivery/consumer.go", "delivery/ordering.go"]}
{"id": "C45", "title": "WhyNotReady tells the truth", "statement": "WhyNotReady reports 'ready' for an incomplete block only if nothing is missing, 'not found' exactly when the block is unknown, and 'done, not evicted' exactly when it is finished.", "quantifier": "every state and hash", "why_tests_cant": "all reachable states", "anchors": ["delivery/consumer.go:whyNotReady", "delivery/ordering.go:WhyNotReady"]}
{"id": "C46", "title": "Prefix accounting terminates", "statement": "Looking up the prefix of a received path always terminates, trying exactly the path itself and its ancestor directories, nearest first.", "quantifier": "every path string", "why_tests_cant": "all strings", "anchors": ["delivery/consumer.go:DecPrefixCounter"]}
{"id": "C47", "title": "Done is idempotent and releases waiters", "statement": "Calling Done on a ChainUpdate marks every added and removed batch as applied, wakes everything waiting for it, and calling it again changes nothing.", "quantifier": "every chain update and any number of calls", "why_tests_cant": "all updates and repetitions", "anchors": ["delivery/ordering.go:Done", "delivery/consumer.go:Done"]}
{"id": "C48", "title": "Broker URL dispatch", "statement": "The scheme after an optional cardinal:// selects the transport: kafka, ws/wss or null (consumers only); every other URL is refused with an error.", "quantifier": "every URL string", "why_tests_cant": "all strings", "anchors": ["transports/resolver.go:ResolveProducerWithResumer", "transports/resolver.go:resolveConsumer", "transports/resolver.go:ResumptionForTimestamp"]}
{"id": "C49", "title": "Malformed or stray messages do no harm", "statement": "A message for an unknown sub-batch, an unexpected path, an already received part or a block already emitted changes neither the collected data nor the readiness of any block.", "quantifier": "every state and every such message", "why_tests_cant": "all states and messages", "anchors": ["delivery/consumer.go:ApplyMessage", "delivery/consumer.go:ProcessMessage"]}
{"id": "C50", "title": "Kafka feed messages are dispatched by type", "statement": "A Kafka consumer hands exactly the messages about blocks to its message processor, in order; heartbeats, empty keys and reorganisation notices never reach it and nothing else can stop it.", "quantifier": "every sequence of feed messages", "why_tests_cant": "all sequences of arbitrary messages", "anchors": ["transports/kafka.go:Start"]}
{"id": "C51", "title": "Resumption token is tight", "statement": "In the resumption data of an emitted block, every offset recorded for the block is the offset of a delivered message about that block from that source, and for all other sources the token has exactly the largest offset delivered from that source up to and including the block's header; it never invents a source or an offset.", "quantifier": "every message sequence, every number of sources, offsets in any order", "why_tests_cant": "all interleavings of sources, with offsets not monotone", "anchors": ["delivery/consumer.go:updateResumption", "delivery/consumer.go:resumptionCopy", "delivery/consumer.go:ProcessMessage"]}
{"id": "C52", "title": "Blocks are announced before they are emitted", "statement": "Every batch emitted by the message processor was announced on the waiter feed earlier, with the same hash, parent and number and with the very channel that the batch's Done closes; no channel is announced twice.", "quantifier": "every message sequence", "why_tests_cant": "all schedules", "anchors": ["delivery/consumer.go:ProcessMessage"]}
{"id": "C53", "title": "Latest block of a feed is found", "statement": "LatestBlockFromFeed returns the highest block number on the feed (or 0 if there is none): no header on the feed has a higher number, and the number returned is that of a header on the feed.", "quantifier": "any number of partitions, any retained range of offsets, gaps, arbitrary and malformed messages, reads cut short by the timer", "why_tests_cant": "all contents of all partitions", "anchors": ["transports/kafka.go:LatestBlockFromFeed"]}
{"id": "C54", "title": "A new producer knows the recent blocks", "statement": "When NewKafkaProducer returns, every block whose header is within the last 100 offsets of a partition of the feed is known, so that the producer does not send it again; and the constructor does return.", "quantifier": "any number of partitions, every interleaving of their readers, messages arriving meanwhile", "why_tests_cant": "goroutine interleavings of arbitrarily many readers", "anchors": ["transports/kafka.go:NewKafkaProducer"]}
{"id": "C55", "title": "Partitions of a consumer start together", "statement": "Nothing is passed to the message loop until every partition has received a message; after that the messages of each partition are passed on in order, none twice and none left out, and if every partition has a message none waits for ever.", "quantifier": "any number of partitions, every interleaving, every token, rollback and retained range", "why_tests_cant": "goroutine interleavings of arbitrarily many partitions", "anchors": ["transports/kafka.go:Start"]}
{"id": "C56", "title": "Tokens for timestamps", "statement": "The token made for a timestamp is read back as exactly the offset each broker gave for each partition, and a consumer started from it misses no message of that time or later that is still held.", "quantifier": "any brokers, topics, partitions, offsets; retention and new messages between making the token and using it", "why_tests_cant": "all topic names, offsets and times", "anchors": ["transports/kafka.go:kafkaResumptionForTimestamp", "transports/resolver.go:ResumptionForTimestamp", "transports/kafka.go:kafkaConsumerWithOMP", "transports/kafka.go:Start"]}
{"id": "C57", "title": "Blocks arrive intact through websocket upstreams", "statement": "With one or several websocket upstreams feeding one consumer, the blocks added are exactly the blocks of the submitted chain after the starting point, once each, in order and with the submitted data, and nothing is removed: however the upstreams' frames interleave with one another, with pings and foreign notifications and with the ordering layer, and wherever connections break and resume; every block is announced to waiters before it is handed over; and blocks and reorgs act in the order in which they were notified.", "quantifier": "any number of upstreams and blocks, all message orders and interleavings, all cuts of the connections", "why_tests_cant": "all interleavings of arbitrarily many upstreams with the ordering goroutine", "anchors": ["transports/websockets.go:Start", "transports/resolver.go:ResolveMuxConsumer", "delivery/consumer.go:ProcessCompleteBatch", "delivery/ordering.go:HandleReorg"]}
{"id": "C58", "title": "A restarted Kafka consumer continues where it stopped", "statement": "A consumer that stops and is started again with the resumption token, hash and weight of the last block it delivered accepts the token, opens all its partitions, and delivers the blocks after that block: the updates of both lives together are the chain, each block once and with exactly the submitted data, whatever the order in which the partitions were read in either life.", "quantifier": "for all chains, feeds with any number of partitions, read orders of both lives, stopping points, rollbacks and interleavings", "why_tests_cant": "A test restarts at a few points of a fixed feed; whether a message can fall between the two lives depends on how far each partition had been read relative to the others.", "anchors": ["delivery/consumer.go:Resumption", "transports/kafka.go:kafkaConsumerWithOMP", "transports/kafka.go:Start", "delivery/consumer.go:ProcessMessage", "delivery/ordering.go:HandlePendingBatch"]}
{"id": "C59", "title": "Ready means caught up", "statement": "When a Kafka consumer says that it is ready, its message loop has handled every message that was in its partitions when they were opened, in the order of each partition; and if the partitions stop growing, the consumer does become ready.", "quantifier": "any number of partitions, all contents, start offsets and high water marks, every interleaving of the partitions' goroutines, the message loop, its timer and the goroutine that sends the signal", "why_tests_cant": "The signal depends on how four kinds of goroutine interleave with a timer; a test sees the usual schedule, and partitions that are not empty.", "anchors": ["transports/kafka.go:Start", "transports/kafka.go:Ready"]}
{"id": "C60", "title": "A large reorganisation is read from its topic before the feed goes on", "statement": "On a reorg message the consumer reads the topic of the reorganisation from its beginning to the message that completes it, and handles all of it before it continues with the feed, whether the topic is still being written or already complete.", "quantifier": "all contents of the topic, all moments at which the second consumer opens it, every interleaving", "why_tests_cant": "Large reorganisations are rare, and a test writes the topic at one fixed moment relative to the consumer.", "anchors": ["transports/kafka.go:Start", "transports/kafka.go:Reorg"]}
{"id": "C61", "title": "Blocks of a reorganisation are delivered again", "statement": "A reorg message made by the producer announces exactly its ancestor; from then on every block whose messages arrive is delivered with exactly the submitted data, also if it had been delivered or discarded before; reading the topic of a reorganisation announces the ancestor first, delivers every block in the topic, and leaves the counter of reorganisations as it was.", "quantifier": "all histories before the reorg message, all orders and repetitions of the messages after it, all ancestors with numbers below 2^31", "why_tests_cant": "A test would have to repeat blocks after an arbitrary history, including blocks partly collected or discarded when the reorganisation starts.", "anchors": ["delivery/producer.go:Reorg", "delivery/producer.go:ReorgDone", "delivery/consumer.go:ProcessMessage", "transports/kafka.go:Start"]}
{"id": "C62", "title": "Data of delivered and discarded blocks is released", "statement": "For a block that the processor remembers having delivered or discarded it holds no data, unless handling a message reported an error; everything it holds was received for that block, once per key, and a block is open only if its header came. What is queued for a block whose header does not come again is held for ever, also for late copies of blocks delivered long ago.", "quantifier": "all messages, orders, repetitions, interleaved eviction requests and reorganisations", "why_tests_cant": "Memory kept by accident shows only after long runs with unusual orders and repetitions.", "anchors": ["delivery/consumer.go:ProcessMessage", "delivery/consumer.go:queueMessage", "delivery/consumer.go:evictOlderThan"]}
{"id": "C63", "title": "Waits of a running consumer are answered truthfully", "statement": "With a waiter on a running consumer: a wait succeeds only for a block (by hash or number) that was in a delivered update and on which the application called Done; after the application called Done on a block, nobody is left waiting for its hash, and a new wait ends at once; every block of a published chain is delivered and its waits are answered. The ordering layer publishes no block it did not receive.", "quantifier": "all inputs of the consumer, all chains, all orders and repetitions of Done, every interleaving of consumer, waiter, callers and clock", "why_tests_cant": "The announcement, the update and the call of Done travel on different channels through four goroutines; a test sees one schedule and one announcement per block.", "anchors": ["waiter/waiter.go:NewOmpWaiter", "waiter/waiter.go:WaitForHashResult", "delivery/consumer.go:Done", "delivery/consumer.go:ProcessCompleteBatch", "delivery/ordering.go:HandlePendingBatch"]}
{"id": "C64", "title": "Closing a consumer stops it", "statement": "Close returns and the consumer's goroutines end, whatever they were doing; nothing panics; what was taken from a partition is handled, in order and without gaps; after Close has returned no message is read or handled.", "quantifier": "any number of partitions and messages, every moment of the call, every interleaving of the partitions' goroutines, the message loop, the goroutine that closes them and the caller; any state of a websocket connection", "why_tests_cant": "Shutdown races four kinds of goroutine and two wait groups against one another; tests close an idle consumer once.", "anchors": ["transports/kafka.go:Close", "transports/kafka.go:Start", "transports/websockets.go:Close", "transports/websockets.go:Start", "transports/resolver.go:Close"]}
{"id": "C65", "title": "Who asks whether a consumer is ready is told", "statement": "Ready's channel delivers a value only if some broker's consumer has caught up, and delivers it to everybody who asks once one has, for one broker and for several, Kafka or websocket.", "quantifier": "any number and kind of brokers, any number and moments of calls, every interleaving of the callers, the goroutines that wait for several brokers and the goroutine that sends a Kafka consumer's signal", "why_tests_cant": "A test asks once, before the consumer has caught up; the cases that differ are second callers and calls that race with the signal.", "anchors": ["transports/resolver.go:Ready", "transports/kafka.go:Ready", "transports/kafka.go:Start", "transports/websockets.go:Ready", "transports/null.go:Ready"]}
{"id": "C66", "title": "With bounded channels the consumer does not lock up; every subscriber that receives gets everything, if all of them do", "statement": "The transport's goroutine, the ordering goroutine and the application's goroutines only wait for one another through channels of bounded capacity. If every subscriber keeps receiving, then for any messages, capacities and interleaving the system inevitably reaches the state in which all messages are passed on, all channels are empty and every subscriber has received exactly what was sent on its feed, in order (unless a goroutine panics). For a published chain there is no panic and every subscriber to the updates inevitably receives exactly the chain. A subscriber that neither receives nor unsubscribes eventually stops everything, for all other subscribers too, for good.", "quantifier": "for all message sequences, configurations, numbers, kinds and capacities of subscribers, iteration orders and interleavings of the goroutines", "why_tests_cant": "Absence of deadlock is a statement about every interleaving and every capacity, unbuffered channels included; a test observes one schedule and cannot show that nothing blocks for ever.", "anchors": ["delivery/ordering.go:56-98", "delivery/ordering.go:144-154", "delivery/consumer.go:229-252", "delivery/consumer.go:254-268", "transports/kafka.go:684-693", "transports/kafka.go:756-759"]}
{"id": "C67", "title": "A reorg notice may come while a block is being handled", "statement": "A websocket connection calls HandleReorg from its own goroutine while the ordering goroutine may be handling a block; both write lastHash without a lock. Whenever the notices come, each is published once and in order, only received blocks are added or removed, the loops end, and every update is a chain of blocks; the outcome is that of the notice coming before or after the block.", "quantifier": "for all configurations, blocks, map iteration orders, and any number of notices at every access of lastHash", "why_tests_cant": "The window between a check of lastHash and its update is a few instructions wide; a test that calls HandleReorg between blocks never enters it.", "anchors": ["delivery/ordering.go:164-234", "delivery/ordering.go:241-276", "transports/websockets.go:407-408"]}
{"id": "C68", "title": "A broker URL means what it says", "statement": "For every broker URL of the documented form, the hosts, user name, password, switches, compression, SASL mechanism and numbers used are exactly those written (escapes decoded, the first of repeated options); an option that is absent or not a number has its default; a URL that is not understood is reported. A missing topic is created with one to three replicas, never more than there are brokers, at least one partition and the given settings; an existing topic is left as it is.", "quantifier": "for all URLs written with or without scheme, user, password and escapes, with any number of hosts, ports and options; all topics, partition counts, settings and numbers of brokers", "why_tests_cant": "The options combine freely and passwords contain arbitrary bytes; tests use one URL without credentials.", "anchors": ["transports/kafka.go:68-150", "transports/kafka.go:152-213"]}
{"id": "C69", "title": "Upstreams of one consumer may deliver at the same moment", "statement": "Each connection calls ProcessCompleteBatch from its own goroutine, without a lock. However the statements of these calls interleave, the blocks of each upstream are handed over once each and in its order, a block is announced before it is handed over, announcements and blocks come in the same order, a chain relayed by any number of upstreams is delivered completely and in order, and nothing panics, also when one of the upstreams is a Kafka topic.", "quantifier": "for all numbers of upstreams, frames, lost connections, and all interleavings of the statements of their calls with one another and with the ordering goroutine", "why_tests_cant": "The overlap of two calls lasts microseconds; tests use one connection.", "anchors": ["delivery/consumer.go:254-268", "transports/websockets.go:380-467", "transports/resolver.go:94-107"]}
{"id": "C70", "title": "Stopping a waiter", "statement": "A waiter's channel of announcements holds at most 1024 of them. Stop may be called at any moment: Success still means that the block was announced before Stop and Done was called, waits in progress go on and are answered, what is left in the channel is dealt with, the goroutine that receives ends after that, nothing is left of the waiter a minute after the last block is completed, and nothing panics.", "quantifier": "for all announcements, waits, completions, elapsed times, moments and numbers of calls of Stop and interleavings", "why_tests_cant": "The announcements in the channel when it is closed, and a second call of Stop, are matters of timing; tests stop a waiter at the end of the test.", "anchors": ["waiter/waiter.go:53-63", "waiter/waiter.go:156-159"]}
{"id": "C71", "title": "The waiter forgets", "statement": "A minute after an announced block is completed, or another block with its number is, the waiter holds neither an entry nor a goroutine for it, so that what it holds is bounded by the blocks of the last minute.", "quantifier": "for all announcements, repeated or not, of any number of blocks with the same number, all orders of completion, elapsed times and interleavings of the goroutines", "why_tests_cant": "The effect shows a minute after the completion, and a leak after days; the goroutines of one number race for its channel.", "anchors": ["waiter/waiter.go:63-102"]}
{"id": "C72", "title": "Kafka and websocket upstreams feed one consumer", "statement": "One consumer may have Kafka and websocket upstreams at once. If their calls do not overlap, a chain whose blocks come through Kafka, through connections, or both, is delivered exactly once, in order and with the submitted data, never with a mixture of the data of two sources; the consumer does not panic; a block that was handed over is not assembled from Kafka messages again within twice the reorg threshold of other blocks, and does not come twice.", "quantifier": "for all chains, producers, numbers of connections, copies, duplicates, orders and schedules of messages, frames and the ordering layer", "why_tests_cant": "The sources race freely and every block may come from either or from both; tests use one source at a time.", "anchors": ["transports/resolver.go:94-107", "delivery/consumer.go:254-268", "delivery/consumer.go:271-401", "delivery/ordering.go:241-245"]}
{"id": "C73", "title": "Redundant Kafka producers publish every block", "statement": "Several Kafka producers may publish the same chain to the same topics; each reads what the others wrote and drops the blocks it has seen. Only messages of the blocks given to them get onto the feed; a block given to some of them ends up on the feed completely, no matter who skipped what; a consumer of the feed delivers the chain exactly once, in order, with the submitted data; nothing they write makes one of them crash. This also holds when a producer stops at any point.", "quantifier": "for all numbers of producers, chains, orders of calls, moments at which each producer reads which part of the feed, failures of the broker and schedules", "why_tests_cant": "Whether a producer skips a block depends on a race between its own call and the arrival of another producer's header; tests run one producer.", "anchors": ["transports/kafka.go:228-314", "transports/kafka.go:326-372", "transports/kafka.go:454-457"]}
{"id": "C74", "title": "A topic consumer passes every message on and can be closed", "statement": "The consumer of all partitions of a topic passes on the messages of each partition in order, none twice and none that was not delivered; until it is closed none is lost: a user who keeps receiving gets all of them, with no more in flight than the buffer and one per partition. Creating it panics only for a negative buffer and fails only if a partition cannot be opened. After Close every goroutine ends, and a failed start or a Close with an error leaves nothing running.", "quantifier": "for all numbers of partitions, buffer sizes, messages, moments of Close, errors of the broker and interleavings of the goroutines", "why_tests_cant": "One goroutine per partition competes for a channel with a receiver that may stop at any point; the package has no tests.", "anchors": ["utils/kafka.go:21-58"]}
{"id": "C75", "title": "Producers can be counted while heartbeats arrive", "statement": "A call of ProducerCount at any time, by any number of callers, returns a number between that of the producers known at its beginning whose last heartbeat is younger than the given duration at its end, and that of the producers known at its end whose last heartbeat is younger than the duration at its beginning; it returns after visiting each producer once; asking for the number is safe at any time.", "quantifier": "for all heartbeats, durations, elapsed times, numbers of callers and interleavings of the loop steps with the assignments", "why_tests_cant": "The map is shared with the goroutine that receives heartbeats without a lock; the window of a crash is a single assignment.", "anchors": ["transports/kafka.go:31-46", "transports/kafka.go:305-326", "transports/kafka.go:731-742"]}
{"id": "C76", "title": "Closing the ordering layer loses nothing", "statement": "Batches and reorg notices are handled in the order they were sent, none twice, with at most 100 of each waiting. Close returns within a second. If it returns without a warning the goroutine has ended, everything sent before the call was handled, nothing is handled later, and any other Close gets the warning; if nothing is sent after the call the goroutine ends within 250 ms. Close ends the goroutine.", "quantifier": "for all sequences of batches and notices, moments of Close, numbers of callers, durations of handling and interleavings with the timers", "why_tests_cant": "The outcome depends on which of several timers and channels is ready first, within a window between a timer and the look at the quit channel.", "anchors": ["delivery/ordering.go:62-100", "delivery/ordering.go:365-371"]}
{"id": "C77", "title": "A websocket consumer subscribes and then reads", "statement": "On each connection the consumer subscribes once, from the last block completed so far, and processes exactly the notifications of the subscription the server confirmed on that connection; nothing the server sends or fails to send makes it use an identifier it does not have, and the ready channel is closed at most once over all connections. Start returns when the consumer is subscribed; every notification of the subscription is processed; a refused subscription is reported or asked for again.", "quantifier": "for all sequences of failed and successful dials, connections breaking at any point, responses with any identifier, notifications of any subscription and unreadable messages in any order", "why_tests_cant": "A connection may break or the server may answer out of turn at any of the reads; a test server answers at once and in order.", "anchors": ["transports/websockets.go:321-400", "transports/websockets.go:468-471"]}
{"id": "C78", "title": "The producer count follows the health of the producers", "statement": "Producers send a heartbeat every 30 seconds while they are healthy. If a heartbeat is heard at most D after it was sent, ProducerCount(d) with d longer than 30 seconds and D counts every producer that has been healthy for more than 30 seconds and D, and for every d it counts nobody who stopped or was marked unhealthy D + d or longer ago. The count is the number of healthy producers.", "quantifier": "for all numbers of producers, moments at which they start, stop, become healthy or unhealthy, delays up to D, orders of arrival and durations d", "why_tests_cant": "The count depends on the phases of independent tickers and on delays; a test would have to wait for minutes and still see one schedule.", "anchors": ["transports/kafka.go:31-46", "transports/kafka.go:303-318", "transports/kafka.go:328-330", "transports/kafka.go:731-742"]}
