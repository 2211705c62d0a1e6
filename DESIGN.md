# Formal model of cardinal-streams: design

(First version, written before the proofs; the sections "Trusted base" and
"Status" are kept current as the work proceeds.)

## Shape of the development

`rocq/theories/`

| file | content |
|------|---------|
| `Base.v` | bytes, hashes, outcomes (`Ok`/`Panic`/`Hang`), order oracles for `range` over a Go map |
| `Lru.v` | hashicorp LRU cache (`Add`, `Contains`, `Len`, `Purge`, eviction) |
| `Avro.v` | the part of hamba/avro used: int, long, bytes, string, fixed, bool, array, map |
| `Wire.v` | `delivery/types.go`: records, message types, keys |
| `GoPath.v` | `path.Dir`/`Clean`, `strings` helpers |
| `Producer.v` | `delivery/producer.go` |
| `Consumer.v` | `delivery/consumer.go` |
| `Ordering.v` | `delivery/ordering.go` |
| `Waiter.v` | `waiter/waiter.go` |
| `Websocket.v`, `Kafka.v`, `Mux.v` | logic of `transports/` |
| `Spec*.v` | small independent specifications (client replaying updates, block trees, submitted block data) |
| `*Facts.v` | proofs |
| `Prop*.v` | only the property theorems, each closed by `exact`, with `Print Assumptions`, and non-vacuity examples |

Map iteration order: Go's `range` over a map visits entries in an unspecified
order.  Every model function that ranges over a map takes an *order oracle*
returning an arbitrary permutation (dependent on the program point, recursion
depth and contents) and every theorem quantifies over it.  Inputs that are maps
ranged over once are given as duplicate-free association lists in arbitrary
order.

Concurrency: `MessageProcessor` and `OrderedMessageProcessor` are sequential
machines connected by channels; they are modelled as step functions and the
schedules as arbitrary interleavings of inputs.  The waiter and the websocket
hand-over are modelled as transition systems with one step per atomic action.

Panics (index out of range, explicit `panic`) and non-termination are explicit
outcomes, never silently totalised.

## Plan per property

* C01 C02 C03 C05 C06 C49 reassembly: model `AddBlock`, `SendBatch`, `ProcessMessage`,
  `ApplyMessage`, `DecPrefixCounter` on bytes; a block specification `submitted`
  that does not mention the model; invariant over arbitrary message histories
  relating collected state to the set of messages seen; frame lemma for other hashes.
* C04 LRU window: invariant on the recency list.
* C07 C08 C09 codec: parser/printer round-trip by induction, zig-zag varint arithmetic.
* C10 keys: slicing lemmas, injectivity.
* C11 C12 C13 C14 C15 C16 producer: functional specification of each call, permutation
  invariance, invariant over call histories.  C16 is expected to be refuted by the code
  (sub-batches are registered before a later conflict is found).
* C17 C18 C19 resumption: min-invariant; render/parse round trip on strings; start-offset function.
* C20-C28, C30 ordering: abstract client replaying updates (refinement), block tree spec
  (parent/number/weight as functions of the hash), invariants over arbitrary histories.
  C24 is expected to need a restriction (found while reading: an orphan with two received
  children is only half considered when it is connected without being heavy enough).
* C29 C32 retention: LRU length invariant, eviction semantics.
* C31 large reorg: step characterisation.
* C33 C34 C35 C47 waiter: transition system with explicit channels, goroutines, timers.
* C36 C37 C38 websocket: assembly machine refinement; C37/C38 expected refuted with witness schedules.
* C39 C40 C41 mux: functional specs over lists.
* C42 C43 kafka producer logic: state machine over calls and feed observations.
* C44 end to end: composition of C01/C02 with C25.
* C45 WhyNotReady: characterisation, expected partly refuted (a `return` is missing).
* C46 prefix lookup: termination for relative paths; expected refuted for rooted paths.
* C48 dispatch: string functions.
* C50 C53-C56 C58-C60 Kafka consumer: start-up as functions of partitions and tokens; restart as the
  composition of two runs; the ready signal as a transition system of goroutines.
* C51 C52 tokens and announcements: invariants over all runs of the message processor.
* C57 websocket upstreams composed with the ordering layer.
* C61 C62 the message processor across reorg messages, and the data it holds.
* C63 a consumer together with its waiter and the application.
* C64 closing consumers.
* C65 who hears that a consumer is ready.
* C66 bounded channels: what is inevitably received, and who can stop the consumer.
* C67 a reorg notice from another goroutine at any point of `HandlePendingBatch`.
* C68 broker URLs: every text of the documented form is parsed back, by induction on its parts.
* C69 simultaneous upstreams: calls of `ProcessCompleteBatch` split into statements; the invariant of C57 over all interleavings.
* C70 stopping a waiter: `Waiter.v` with the bounded channel, `Unsubscribe` and `close`; a run with Stop refines a run without it.
* C71 what the waiter forgets: an invariant on entries and goroutines; forgotten after a minute at rest; `inevitably` comes to rest.
* C72 Kafka and websocket upstreams in one consumer: `MixedSystem.v`; the collection invariant of C01 and C02 with blocks handed over whole in between, then the ordering argument of C44.
* C73 redundant Kafka producers: `Redundant.v`; the calls that reach the inner producer of each make it a replica of C44, and a block that was skipped was passed on by whoever sent the header.
* C74 the topic consumer of `utils/`: `TopicConsumer.v`, one step per action of a goroutine; an invariant per partition (received, buffered, in hand, queued = delivered) and a measure for what is inevitable.
* C75 counting producers during heartbeats: `Counting.v` splits the assignment and the range loop; the set counted so far lies between the two bounds at every step.
* C76 closing the ordering layer: `OrderClose.v`, the goroutine's select with its timers; an invariant on what was sent and a measure with the remaining time.
* C77 subscribing to a websocket upstream: `WsStart.v`, dialling, the handshake and the reading loop with the messages of each connection; an invariant relates the goroutine to a function of the messages (`expected` in `SpecWsStart.v`).
* C78 heartbeats and health: `Heartbeat.v`, producers with tickers and a bound on how long a heartbeat takes; an invariant per producer (every tick since it became healthy is under way or was heard).

## Trusted base

1. **Coq 8.16.1**: its kernel and the virtual machine (`vm_compute`, used for
   concrete cases and witnesses; `native_compute` is not used).
2. **Axioms**: none are declared.  `Print Assumptions` stands beneath every
   theorem of the `Prop*.v` files and answers "Closed under the global context"
   for each of them.  The only axioms found in loaded libraries are the seven
   constants of `Coq.ssr.ssrunder.Under_rel` (a sealed module of the standard
   library that comes with ssreflect, loaded by std++); no theorem depends on them.
3. **std++** (gmap, gset, list lemmas) as a library of definitions and proved lemmas.
4. **Fidelity of the model**: every definition of a model file cites the lines
   of `/repo` it stands for; correspondence is by reading.  The unit tests of
   `delivery/ordering_test.go` are replayed on the model in `OrderingTests.v`.
5. **Third-party behaviour**, which is not in `/repo` and is taken from its
   documentation or its published source:
   * hamba/avro v1.6.6: zig-zag varints, `int` written as `int32(x)`, length-prefixed
     bytes and strings, blocks of at most 100 items with negative count and byte
     size, map decoding where later entries win.  A truncated message is a decoding error in the
     model; the library may swallow `io.EOF` and return a partly filled value.
   * hashicorp/golang-lru: recency order, eviction of the oldest entry, error for
     sizes below 1 (so a reorg threshold below 1 panics at construction).
   * cardinal-types: `Hash` is 32 bytes, `BytesToHash` keeps the last 32 and pads on
     the left; `Feed.Send` hands a value to every subscriber before it returns.
   * Go: `regexp` is an arbitrary function from text to the text found; `path.Clean`, `path.Dir`,
     `strings.Split/Join/TrimPrefix`, `%v` for integers, `strconv.Atoi` and `url.Parse`
     by their documentation and source (Go 1.17 or later: a query with a semicolon is dropped; zones of IPv6 addresses are not told apart); `encoding/json` coerces strings and map
     keys to valid UTF-8; decoding a text that is not JSON leaves the variable unchanged; channels, `select`, `close`, timers and `WaitGroup` by the
     language specification; the runtime ends the process when it notices simultaneous writes of a map, or a step of a range loop during a write.  `range` over a map visits in an arbitrary order (see above).
   * sarama: `ConsumePartition` accepts offsets between oldest and newest;
     `OffsetNewest`, `OffsetOldest`; an asynchronous producer accepts messages in order or reports an error;
     a partition's messages arrive in the order of their offsets, possibly with gaps; the high water mark known when a message arrives
     lies above the message and is no lower than an earlier answer of `GetOffset`; `GetOffset` for a time gives the first offset with a message of that time
     or later, -1 if there is none; closing a partition's consumer ends the range over its messages and may let go of messages not yet taken.
   * gorilla/websocket: after `Close` a read ends with an error once the frames already received are used up; `Dial` returns a nil connection with an error.
   * Key slices have capacity equal to their length (a `GetKey` result is not appended to in place).

## What is modelled

| source | model | remarks |
|--------|-------|---------|
| `delivery/types.go` | `Wire.v`, `Avro.v` | all codecs, message types, keys |
| `delivery/producer.go` | `Producer.v` | `NewProducer`, `AddBlock`, `SendBatch`, `Reorg` messages; the mutex is the atomicity of a call |
| `delivery/consumer.go` | `Consumer.v`, `GoPath.v` | `PendingBatch`, `ApplyMessage`, `DecPrefixCounter`, `Ready`, `ProcessMessage`, `ProcessCompleteBatch`, `evictOlderThan`, `whyNotReady`, resumption maps; the reorg channel and the batch feed are a list of events in the order they are sent |
| `delivery/ordering.go` | `Ordering.v` | all of it; `Close` in `OrderClose.v` |
| both | `System.v` | the two goroutines of a consumer and the channels between them, any interleaving |
| `waiter/waiter.go` | `Waiter.v` | transition system with one step per atomic action |
| `waiter/waiter.go:53-63,156-159` | `WaiterStop.v` | the capacity of the announcement channel and `Stop`; that `Unsubscribe` (cardinal-types) returns when no send is in progress and none follows is assumed |
| `transports/resolver.go` | `Mux.v` | dispatch, multiplexed producer and consumer (`Ready` in `ReadyCalls.v`, `Close` in `Shutdown.v`) |
| `transports/kafka.go` | `Kafka.v` | tokens, start offsets, the replay caches and `AddBlock`/`SendBatch` of the producer, heartbeats and producer counts, the message loop of the consumer |
| `transports/kafka.go` (start), `transports/resolver.go:75-91` | `Feed.v` | `LatestBlockFromFeed`, the readers of a new producer, the common start of a consumer's partitions, tokens for timestamps |
| `transports/websockets.go` | `Websocket.v` | messages as JSON values, producer, catch-up and subscription, consumer with reconnection |
| `transports/websockets.go`, `transports/resolver.go:94-107`, `delivery/ordering.go` | `WsSystem.v` | frames of any number of upstreams into one ordering layer, any interleaving |
| `transports/kafka.go:476-484, 547-615, 647-695`, both processors | `Restart.v` | a Kafka consumer from its token to its chain updates |
| `transports/kafka.go:553-716` | `Ready.v` | the goroutines of a consumer and the ready signal, the second consumer for the topic of a reorganisation |
| `waiter/waiter.go`, both processors | `WaitSystem.v` | a consumer with its waiter, the callers of the waiter and an application that calls Done |
| `transports/kafka.go:581-614, 651-728, 756-759`, `transports/websockets.go:326-482`, `transports/resolver.go:172-176` | `Shutdown.v` | `Close` and the goroutines it stops |
| `transports/resolver.go:178-203`, `transports/kafka.go:631-646, 744-749`, `transports/websockets.go:402-406, 483-485`, `transports/null.go:24-28` | `ReadyCalls.v` | calls of `Ready` and the channels they get |
| `delivery/ordering.go:56-98`, `delivery/consumer.go:247-252`, sends of both on their feeds | `Pipeline.v` | the goroutines with bounded channels (100, 100) and blocking sends; subscriptions are fixed, `Close` and timeouts are left out |
| `delivery/ordering.go:164-276` with `HandleReorg` called concurrently (`transports/websockets.go:407-408`) | `Race.v` | notices may come before every access of `lastHash` and before the update is sent; accesses are atomic |
| `transports/kafka.go:68-213` | `KafkaUrl.v` | `ParseKafkaURL` with `net/url`, `CreateTopicIfDoesNotExist`; the broker's answers are parameters |
| `delivery/consumer.go:254-268` called by several goroutines | `Upstreams.v` | the statements of simultaneous calls interleave; simultaneous writes of a map end the process |
| `transports/kafka.go:216-373` for several producers of one feed | `Redundant.v` | the feed is read in any order; foreign block headers do not occur |
| `transports/resolver.go:94-107` with Kafka and websocket upstreams | `MixedSystem.v` | calls from different upstreams do not overlap |
| `utils/kafka.go` | `TopicConsumer.v` | once connected; sarama's channel of a partition is unbounded; whether sarama reports errors is a parameter |
| `transports/kafka.go:31-46` with simultaneous heartbeats and calls | `Counting.v` | a loop step during an assignment ends the process; entries added during a loop may or may not be visited |
| `delivery/ordering.go:62-100, 365-371` | `OrderClose.v` | when values are handled, timers, `Close` |
| `transports/websockets.go:321-400, 468-471` | `WsStart.v` | dialling, the subscription handshake, when `Start` returns |
| `transports/kafka.go:303-318, 328-330` | `Heartbeat.v` | ticker, `SetHealth`, heartbeats under way |

Not modelled: TLS and the SCRAM conversation (`scram.go`), the
drumline that throttles partitions in `kafka.go` (it only delays), HTTP and
the framing of websocket messages, `null.go` beyond its dispatch, `cmd/`, metrics and logging.

Data races: methods guarded by a mutex are atomic steps; the two that are not (`PendingBatch.Done`, the waiter's maps)
are split into their reads and writes where it matters (`ADoneBegin`/`ADoneEnd`).  In `WsSystem.v` a call of `ProcessCompleteBatch` or `HandleReorg`
from a connection is one step although the code takes no lock; `Race.v` lets `HandleReorg` interfere at every access of `lastHash`.
`Upstreams.v` splits simultaneous calls of `ProcessCompleteBatch` and covers C57 for them.

## Specifications

The `Spec*.v` files are independent of the model's functions: they describe submitted
blocks (`SpecBlock.v`), deliveries (`SpecCollect.v`), a client replaying chain updates and block trees
(`SpecChain.v`, `SpecHeavy.v`), partitions and caches (`SpecKafka.v`), histories of the waiter
(`SpecWaiter.v`), assembled websocket blocks (`SpecWebsocket.v`), submission of a whole chain
(`SpecPublish.v`, `SpecSystem.v`), tokens (`SpecToken.v`),
feeds at start-up (`SpecFeed.v`), chains of headers and what upstreams deliver (`SpecWsSystem.v`),
what a feed must hold for a restart (`SpecRestart.v`), opened partitions and the topic of a reorganisation (`SpecReady.v`, `SpecAgain.v`), what a processor holds (`SpecMemory.v`), answered waits and repeated announcements (`SpecWaitSystem.v`), closing (`SpecShutdown.v`), calls of `Ready` (`SpecReadyCalls.v`), what inevitably happens (`SpecPipeline.v`), interference (`SpecRace.v`), how a broker URL is written (`SpecKafkaUrl.v`), simultaneous upstreams (`SpecUpstreams.v`), what a waiter holds (`SpecForget.v`), a run with Stop (`SpecWaiterStop.v`), calls of a processor from both kinds of upstream (`SpecMixed.v`), users of redundant producers (`SpecRedundant.v`), what a topic consumer delivers (`SpecTopic.v`), which producers were heard (`SpecCounting.v`), promptness and calm (`SpecOrderClose.v`), what connections are to yield (`SpecWsStart.v`), who has been healthy (`SpecHeartbeat.v`).

A property that is false for the code is claimed as *partial*: the manifest names the theorem with the conditions under which it
holds and a `…_refuted` theorem with a computed witness showing that the condition is needed.

## Testing the theorems

`seeded/LOG.jsonl` records edits of the model made in a scratch copy: the
edited definition, the edit, the claim it should break, the proofs that no longer check, the property theorems depending on
them (as of the time of the run), and the theorems added or tightened when the edit went unnoticed.
