{
 "claims": [
  {
   "property": "C01",
   "status": "proved",
   "theorems": [
    "C01_reassembly_exact"
   ],
   "note": "well-formedness rules: SpecBlock.wf_block"
  },
  {
   "property": "C02",
   "status": "proved",
   "theorems": [
    "C02_completes",
    "C02_never_fails"
   ],
   "note": "for blocks that are not older than a discard request"
  },
  {
   "property": "C03",
   "status": "proved",
   "theorems": [
    "C03_not_premature",
    "C03_empty_values_refuted"
   ],
   "note": "non-empty update values; the refutation shows the rule is needed"
  },
  {
   "property": "C04",
   "status": "proved",
   "theorems": [
    "C04_once_per_window",
    "C04_one_per_message"
   ],
   "note": ""
  },
  {
   "property": "C05",
   "status": "proved",
   "theorems": [
    "C05_emitted_iff_needed",
    "C05_nothing_untracked"
   ],
   "note": ""
  },
  {
   "property": "C06",
   "status": "proved",
   "theorems": [
    "C06_no_contamination"
   ],
   "note": ""
  },
  {
   "property": "C07",
   "status": "proved",
   "theorems": [
    "C07_header_roundtrip"
   ],
   "note": ""
  },
  {
   "property": "C08",
   "status": "proved",
   "theorems": [
    "C08_sub_batch_roundtrip"
   ],
   "note": ""
  },
  {
   "property": "C09",
   "status": "proved",
   "theorems": [
    "C09_int_exact",
    "C09_int_wraps"
   ],
   "note": "the announcement of Producer.Reorg numbers follows with C31"
  },
  {
   "property": "C10",
   "status": "proved",
   "theorems": [
    "C10_keys_injective",
    "C10_keys_recovered"
   ],
   "note": ""
  },
  {
   "property": "C11",
   "status": "proved",
   "theorems": [
    "C11_sent_once",
    "C11_block_messages",
    "C11_batch_messages"
   ],
   "note": "For every schema, block and iteration order. A key both updated and deleted inline is sent as delete only (header_entry in SpecBlock.v)."
  },
  {
   "property": "C12",
   "status": "proved",
   "theorems": [
    "C12_blocks",
    "C12_batches",
    "C12_batch_topics",
    "C12_shared_id_topics_refuted"
   ],
   "note": "Header values equal after decoding (in the ranges of the wire types). Topics of sub-batches agree if no block gives one id to two keys; otherwise they may differ (witness)."
  },
  {
   "property": "C13",
   "status": "proved",
   "theorems": [
    "C13_send_batch"
   ],
   "note": "For every history of AddBlock/SendBatch calls on a new producer; ids named by a refused block are excluded because of C16."
  },
  {
   "property": "C14",
   "status": "proved",
   "theorems": [
    "C14_overlap",
    "C14_routing",
    "C14_order",
    "C14_paths",
    "C14_expressions_refuted"
   ],
   "note": "Regular expressions enter as functions (text found). For true expressions routing may depend on the map order (witness)."
  },
  {
   "property": "C15",
   "status": "proved",
   "theorems": [
    "C15_refusal",
    "C15_accepted"
   ],
   "note": "Which of the two errors is returned depends on the iteration order when both apply."
  },
  {
   "property": "C16",
   "status": "partial",
   "theorems": [
    "C16_refuted",
    "C16_other_ids_partial"
   ],
   "note": "False as stated: entries of pendingBatches registered before the error stay. Proved: schema, default topic and all ids not named by the refused block are unchanged."
  },
  {
   "property": "C17",
   "status": "proved",
   "theorems": [
    "C17_token_covers",
    "C17_reread_completes"
   ],
   "note": ""
  },
  {
   "property": "C18",
   "status": "proved",
   "theorems": [
    "C18_token_roundtrip"
   ],
   "note": "For every pair of maps and iteration orders, offsets in int64; the empty token included."
  },
  {
   "property": "C19",
   "status": "partial",
   "theorems": [
    "C19_never_skips_partial",
    "C19_no_entry",
    "C19_small_offset_refuted",
    "C19_pruned_refuted"
   ],
   "note": "Proved if the token offset is at least the rollback or a start hash is configured; refuted otherwise (a token offset below the rollback without start hash jumps to the head) and for the fallback (token offset instead of the oldest message)."
  },
  {
   "property": "C20",
   "status": "proved",
   "theorems": [
    "C20_updates_connect"
   ],
   "note": ""
  },
  {
   "property": "C21",
   "status": "proved",
   "theorems": [
    "C21_applied_chain_consecutive"
   ],
   "note": ""
  },
  {
   "property": "C22",
   "status": "proved",
   "theorems": [
    "C22_updates_minimal",
    "C22_needs_sane_reorgs"
   ],
   "note": "C22_needs_sane_reorgs shows the hypothesis on notifications is necessary"
  },
  {
   "property": "C23",
   "status": "proved",
   "theorems": [
    "C23_head_gets_heavier"
   ],
   "note": ""
  },
  {
   "property": "C24",
   "status": "partial",
   "theorems": [
    "C24_heaviest_partial",
    "C24_early_fork_refuted",
    "C24_resumed_fork_refuted"
   ],
   "note": "Proved when the starting block is delivered first and siblings are only received below connected blocks; both conditions are needed: with a fork received before its parent, or a fork at a starting block that is not delivered again, a heavier connected block is not followed."
  },
  {
   "property": "C25",
   "status": "proved",
   "theorems": [
    "C25_chain_delivered"
   ],
   "note": ""
  },
  {
   "property": "C26",
   "status": "proved",
   "theorems": [
    "C26_repeat_silent",
    "C26_emitted_head_done"
   ],
   "note": ""
  },
  {
   "property": "C27",
   "status": "proved",
   "theorems": [
    "C27_whitelist_enforced",
    "C27_whitelist_late"
   ],
   "note": ""
  },
  {
   "property": "C28",
   "status": "partial",
   "theorems": [
    "C28_never_hangs",
    "C28_no_panic_partial",
    "C28_no_panic_once",
    "C28_refuted",
    "C28_needs_growth"
   ],
   "note": "termination proved for all histories; no panic proved when no block comes back after having been released; refuted otherwise (ReorgThreshold 1 witness)"
  },
  {
   "property": "C29",
   "status": "proved",
   "theorems": [
    "C29_finished_bounded",
    "C29_forgotten_released",
    "C29_children_forgotten",
    "C29_late_block"
   ],
   "note": "the discarding of incomplete older blocks is C32"
  },
  {
   "property": "C30",
   "status": "partial",
   "theorems": [
    "C30_settles_partial",
    "C30_first_block_emitted",
    "C30_refuted"
   ],
   "note": "proved for ReorgThreshold >= 5; refuted below 5"
  },
  {
   "property": "C31",
   "status": "partial",
   "theorems": [
    "C31_announced",
    "C31_continues_partial",
    "C31_refuted"
   ],
   "note": "announcement and continuation proved; refuted for blocks the ordering layer still remembers as done"
  },
  {
   "property": "C32",
   "status": "proved",
   "theorems": [
    "C32_dropped",
    "C32_stays_dropped",
    "C32_recorded"
   ],
   "note": "a request is lost if 100 are outstanding, as in the code"
  },
  {
   "property": "C33",
   "status": "proved",
   "theorems": [
    "C33_success_truthful"
   ],
   "note": "Over every interleaving of the actions of the waiter, its goroutines, Done and queries."
  },
  {
   "property": "C34",
   "status": "partial",
   "theorems": [
    "C34_found_for_a_minute",
    "C34_number_found_for_a_minute",
    "C34_unannounced",
    "C34_done_wakes",
    "C34_done_before",
    "C34_timeout",
    "C34_unreceived_refuted",
    "C34_announced_again_refuted"
   ],
   "note": "Proved from the moment the waiter takes the announcement from its channel, for hashes announced once; both conditions are shown to be needed."
  },
  {
   "property": "C35",
   "status": "partial",
   "theorems": [
    "C35_no_panic",
    "C35_concurrent_refuted"
   ],
   "note": "Proved when calls of Done on the same batch do not overlap in time; two overlapping calls close the channel twice."
  },
  {
   "property": "C36",
   "status": "proved",
   "theorems": [
    "C36_assembled",
    "C36_last_part",
    "C36_values",
    "C36_submitted",
    "C36_sent",
    "C36_strings",
    "C36_shared_id_refuted",
    "C36_repeated_batch_refuted",
    "C36_twice_refuted",
    "C36_binary_keys_refuted"
   ],
   "note": "For distinct hashes and identifiers and each message received once per connection; the refutations show that these conditions, and UTF-8 keys, are needed."
  },
  {
   "property": "C37",
   "status": "partial",
   "theorems": [
    "C37_remembered",
    "C37_contiguous_partial",
    "C37_caught_up",
    "C37_refuted"
   ],
   "note": "Proved when the messages of one block are not interleaved with those of another; false otherwise: a block completed out of order moves the remembered position past an incomplete one."
  },
  {
   "property": "C38",
   "status": "partial",
   "theorems": [
    "C38_received",
    "C38_no_window_partial",
    "C38_refuted",
    "C38_sent_first_refuted",
    "C38_twice_refuted"
   ],
   "note": "What is received is characterised exactly; blocks stored and sent between the end of the catch-up and the subscription are missed."
  },
  {
   "property": "C39",
   "status": "proved",
   "theorems": [
    "C39_calls",
    "C39_reorg"
   ],
   "note": ""
  },
  {
   "property": "C40",
   "status": "partial",
   "theorems": [
    "C40_minimum_partial",
    "C40_no_producers_refuted",
    "C40_maximum_refuted"
   ],
   "note": "Proved when no member reports 2^63-1; an empty producer list returns 0 without an error, and 2^63-1 is treated as no answer."
  },
  {
   "property": "C41",
   "status": "proved",
   "theorems": [
    "C41_start",
    "C41_count",
    "C41_why",
    "C41_waiter"
   ],
   "note": "ProducerCount is the sum if it fits in 64 bits."
  },
  {
   "property": "C42",
   "status": "proved",
   "theorems": [
    "C42_known_block",
    "C42_known_batches",
    "C42_other_blocks",
    "C42_send",
    "C42_unnamed",
    "C42_forgotten_refuted"
   ],
   "note": "Within the bounds of the two caches, which the refutation shows to be necessary."
  },
  {
   "property": "C43",
   "status": "proved",
   "theorems": [
    "C43_producer",
    "C43_consumer"
   ],
   "note": "Producers do not count themselves."
  },
  {
   "property": "C44",
   "status": "proved",
   "theorems": [
    "C44_end_to_end",
    "C44_from_messages",
    "C44_never_fails"
   ],
   "note": "Composition of the producer model, the message processor and the ordering layer: any number of producer replicas with their own call histories, any delivery order and duplication, any interleaving of the two consumer goroutines including discard requests. Blocks must satisfy wf_block (SpecBlock.v), hashes along the chain are distinct, sub-batch ids are not shared between blocks. Channel capacity only delays and is not modelled; discard requests may be received late or repeatedly (more schedules than in the code)."
  },
  {
   "property": "C45",
   "status": "partial",
   "theorems": [
    "C45_answer_partial",
    "C45_answers",
    "C45_emitted",
    "C45_done",
    "C45_pending",
    "C45_ready_refuted",
    "C45_parent_refuted"
   ],
   "note": "Every answer about a block that is being collected is characterised by the messages delivered; 'ready' is given although a part of a sub-batch is missing (the text naming it is discarded), and 'pending parent' although the parent is done."
  },
  {
   "property": "C46",
   "status": "partial",
   "theorems": [
    "C46_terminates_partial",
    "C46_first_match",
    "C46_refuted"
   ],
   "note": "termination proved for relative paths, refuted for absolute ones"
  },
  {
   "property": "C47",
   "status": "proved",
   "theorems": [
    "C47_update_done"
   ],
   "note": ""
  },
  {
   "property": "C48",
   "status": "partial",
   "theorems": [
    "C48_producers",
    "C48_plain_producers",
    "C48_consumers",
    "C48_timestamps",
    "C48_consumer_prefix_refuted",
    "C48_timestamp_websocket_refuted"
   ],
   "note": "Dispatch and refusal proved for every URL; a cardinal://kafka:// consumer is dispatched to Kafka but connects to a broker named cardinal:, and ResumptionForTimestamp refuses websocket URLs."
  },
  {
   "property": "C49",
   "status": "partial",
   "theorems": [
    "C49_harmless",
    "C49_settled",
    "C49_malformed_refuted"
   ],
   "note": "stray and repeated messages proved harmless; refuted for sub-batch headers that do not decode"
  },
  {
   "property": "C50",
   "status": "partial",
   "theorems": [
    "C50_dispatch",
    "C50_no_other_failure",
    "C50_no_reorgs",
    "C50_stray_reorg_done_refuted"
   ],
   "note": "Proved for feeds without reorg-complete messages; such a message outside a reorganisation panics."
  },
  {
   "property": "C51",
   "status": "proved",
   "theorems": [
    "C51_token_exact"
   ],
   "note": "Holds for arbitrary messages, also malformed ones. With C17 (every needed message lies at or after the token) this pins the token from both sides."
  },
  {
   "property": "C52",
   "status": "proved",
   "theorems": [
    "C52_announced_first"
   ],
   "note": "Holds for arbitrary messages."
  },
  {
   "property": "C53",
   "status": "partial",
   "theorems": [
    "C53_recent_blocks",
    "C53_latest_partial",
    "C53_older_refuted",
    "C53_failing_partition_refuted"
   ],
   "note": "Exact for the last 100 offsets of each partition read to its end. False in general: a header followed by 100 messages that are not headers is not found, and a partition whose newest offset cannot be found is left out without an error."
  },
  {
   "property": "C54",
   "status": "partial",
   "theorems": [
    "C54_known_partial",
    "C54_returns_partial",
    "C54_last_header_refuted",
    "C54_failing_partition_refuted",
    "C54_hangs_refuted"
   ],
   "note": "Proved for all but the last message of each partition whose newest offset is found. Readiness is signalled before the message's hash is recorded (kafka.go:285-291), so the last block may be sent again; a partition emptied by retention keeps the constructor waiting."
  },
  {
   "property": "C55",
   "status": "proved",
   "theorems": [
    "C55_barrier",
    "C55_order",
    "C55_all_delivered",
    "C55_start_offset",
    "C55_empty_partition_refuted"
   ],
   "note": "The drumline (third party) is not modelled. C55_empty_partition_refuted shows that the condition on every partition having a message is needed: one empty partition stalls all others."
  },
  {
   "property": "C56",
   "status": "partial",
   "theorems": [
    "C56_token_entries",
    "C56_token_offset",
    "C56_no_skip_partial",
    "C56_future_refuted",
    "C56_same_name_refuted"
   ],
   "note": "The round trip holds for legal topic names when brokers with a partition of the same name agree. Nothing is missed with a start hash, or with an offset not below the rollback; without a start hash, a timestamp later than the last message is taken for a missing offset and messages are left out."
  },
  {
   "property": "C57",
   "status": "partial",
   "theorems": [
    "C57_end_to_end",
    "C57_reconnect",
    "C57_announced_first",
    "C57_frames",
    "C57_garbled_refuted",
    "C57_overtaking_refuted"
   ],
   "note": "Proved without reorg notifications: for connections that stay up in any message order, and for connections that break when the messages of a block are contiguous (C37). The last part is false: HandleReorg is called from the connection's goroutine and overtakes blocks still in the channel; and a frame that is not JSON makes the consumer process the previous message again."
  },
  {
   "property": "C58",
   "status": "partial",
   "theorems": [
    "C58_continues",
    "C58_starts",
    "C58_skew_refuted"
   ],
   "note": "What the second life adds always continues the chain exactly; it is complete if the messages of later blocks lie within the rollback of the token and are still held. Without enough rollback it is false: the token records the furthest offset read in every partition when the header arrived, so blocks of which only a part had been read in a partition that was ahead are lost."
  },
  {
   "property": "C59",
   "status": "partial",
   "theorems": [
    "C59_order",
    "C59_counter",
    "C59_caught_up_partial",
    "C59_but_last",
    "C59_signalled_partial",
    "C59_never",
    "C59_last_message_refuted",
    "C59_empty_refuted"
   ],
   "note": "Proved when no goroutine keeps a message for longer than the loop's timer of one second; without that, all but the last message of each partition. A partition's goroutine reports before it hands over its message, so the last message can be missing (C59_last_message_refuted). The signal comes if the last message of each partition is the one before its end; an empty partition keeps the consumer from ever being ready (C59_never, C59_empty_refuted)."
  },
  {
   "property": "C60",
   "status": "partial",
   "theorems": [
    "C60_early_partial",
    "C60_late_lost",
    "C60_late_panic",
    "C60_late_refuted",
    "C60_hasty_refuted"
   ],
   "note": "Proved when the topic is opened before its second message was written, and no goroutine keeps a message for longer than the loop's timer. If the topic is already complete nothing of it is handled: the second consumer starts at the last message, whose reorgWg.Done panics. The producer's side is commented out in this revision (kafka.go:374-394); closing the second consumer is not modelled."
  },
  {
   "property": "C61",
   "status": "proved",
   "theorems": [
    "C61_announced",
    "C61_delivered_again",
    "C61_topic",
    "C61_number_refuted"
   ],
   "note": "At the message processor and the message loop; what the ordering layer does with the announcement is C31. C61_number_refuted shows that numbers from 2^31 on are announced wrong (the message has an Avro int)."
  },
  {
   "property": "C62",
   "status": "proved",
   "theorems": [
    "C62_released",
    "C62_released_blocks",
    "C62_received",
    "C62_queued_for_ever",
    "C62_late_copy_refuted",
    "C62_error_refuted"
   ],
   "note": "Messages of well-formed blocks cause no errors (C62_released_blocks). The list of delivered blocks holds 2*ReorgThreshold entries; a copy that arrives later is queued and never released (C62_late_copy_refuted with C62_queued_for_ever). After an error during the replay of queued messages the queue stays (C62_error_refuted). The set of discarded blocks grows until the next reorg message."
  },
  {
   "property": "C63",
   "status": "partial",
   "theorems": [
    "C63_received",
    "C63_success",
    "C63_ws_success",
    "C63_answered_partial",
    "C63_ws_answered_partial",
    "C63_announced_apart",
    "C63_chain",
    "C63_two_upstreams_refuted"
   ],
   "note": "Truthfulness (success only after Done) is proved without conditions. That waits are answered needs the block to be announced under one channel only: a consumer of messages announces it again only after a reorg message or 2*ReorgThreshold other blocks (C63_announced_apart), so C63_chain holds for chains of that length; with two websocket upstreams every block is announced twice and the later channel is never completed (C63_two_upstreams_refuted). Calls of Done do not overlap here (C35 for that)."
  },
  {
   "property": "C64",
   "status": "partial",
   "theorems": [
    "C64_no_panic",
    "C64_handled",
    "C64_returned_partial",
    "C64_ends_partial",
    "C64_in_vain",
    "C64_failed_start",
    "C64_second_call",
    "C64_ws_partial",
    "C64_twice_refuted",
    "C64_early_refuted",
    "C64_loop_refuted",
    "C64_gap_refuted",
    "C64_cold_refuted",
    "C64_mux_refuted",
    "C64_ws_nil_refuted",
    "C64_ws_dial_refuted"
   ],
   "note": "Proved for one call of Close when no partition is waited for at the barrier of 595-596 (ends), and when the goroutines had been scheduled (nothing is read after it returned). Refuted otherwise: two calls close the channel twice or the second never returns; before the goroutines run Close returns at once and messages are handled later; the message loop is not waited for; closing a partition may let a message go and deliver the next one; with an empty partition, or after a failed Start (also behind a multiplexed consumer whose Start succeeded), Close never returns. Websocket: proved if a connection is being read; while it dials Close is without effect, after a failed dial it uses a nil pointer."
  },
  {
   "property": "C65",
   "status": "partial",
   "theorems": [
    "C65_truthful",
    "C65_told",
    "C65_single_partial",
    "C65_missed",
    "C65_twice_refuted",
    "C65_early_refuted",
    "C65_all_refuted"
   ],
   "note": "Told only if one has caught up: proved. Told at all: proved for a single call, and for any call made when a websocket consumer is ready, a Kafka consumer has cleared its channel after its signal was taken, or there is a null consumer. Refuted for a second call of a Kafka consumer made before that (C65_twice_refuted, C65_early_refuted): its signal is one value on a shared channel. One member is enough for a multiplexed consumer; that all have caught up does not follow (C65_all_refuted)."
  },
  {
   "property": "C66",
   "status": "proved",
   "theorems": [
    "C66_inevitable",
    "C66_chain",
    "C66_stalled",
    "C66_deaf_refuted"
   ],
   "note": "Subscriptions are those made before the first message; Close is not part of the model. C66_deaf_refuted is the counterexample to the statement without the condition that every subscriber receives: after 104 blocks one silent subscriber with capacity 2 has stopped the consumer, and a transport caught in ProcessMessage does not hear of Close."
  },
  {
   "property": "C67",
   "status": "partial",
   "theorems": [
    "C67_alone",
    "C67_announced",
    "C67_received",
    "C67_breaks_partial",
    "C67_never_hangs",
    "C67_chain_refuted",
    "C67_order_refuted"
   ],
   "note": "Proved: every notice is published once and in order, only received blocks are added or removed, the loops end, and without interference the model is the sequential one. Chains: removed blocks always, added blocks except at announced hashes (C67_breaks_partial); that updates are always chains is false (C67_chain_refuted). That the outcome is that of one of the two orders is false (C67_order_refuted): a notice between the check and the move of the head is published and then forgotten. Reads and writes of lastHash are atomic in the model; torn 32-byte values are not covered."
  },
  {
   "property": "C68",
   "status": "partial",
   "theorems": [
    "C68_used",
    "C68_default",
    "C68_password",
    "C68_port",
    "C68_topic",
    "C68_topic_kept",
    "C68_wrap_refuted",
    "C68_escape_refuted",
    "C68_size_refuted"
   ],
   "note": "Proved: everything written in range is used, everything unusable has its default, topics are created as stated. False: that URLs not understood are reported. The error of url.Parse is dropped and the nil URL used, so the process panics, for every password with an unescaped / ? or # (C68_password), every list of hosts whose last has no port when another has (C68_port), malformed escapes (C68_escape_refuted). Numbers out of range wrap (C68_wrap_refuted), and the caller's max.message.bytes is overwritten (C68_size_refuted)."
  },
  {
   "property": "C69",
   "status": "partial",
   "theorems": [
    "C69_end_to_end",
    "C69_reconnect",
    "C69_announced_first",
    "C69_in_order",
    "C69_no_crash_partial",
    "C69_whole",
    "C69_order_refuted",
    "C69_mixed_refuted"
   ],
   "note": "Proved for any number of websocket upstreams: order, announcement, the whole of C57, no panic (nothing is ever pending, and deleting from an empty map does not write). Refuted: announcements may come in another order than the blocks (C69_order_refuted); with a Kafka upstream in the same consumer both goroutines write pendingBatches and Go ends the process (C69_mixed_refuted)."
  },
  {
   "property": "C70",
   "status": "partial",
   "theorems": [
    "C70_success_truthful",
    "C70_after_stop",
    "C70_waits_go_on",
    "C70_no_panic",
    "C70_bounded",
    "C70_loop_ends_last",
    "C70_drained",
    "C70_released",
    "C70_twice_refuted"
   ],
   "note": "Everything is proved for one call of Stop. A second call closes the channel again and panics (C70_twice_refuted). That Unsubscribe returns only when no send is in progress, and that none follows, is assumed of cardinal-types."
  },
  {
   "property": "C71",
   "status": "partial",
   "theorems": [
    "C71_hash_forgotten",
    "C71_number_forgotten",
    "C71_all_forgotten",
    "C71_fork_forgotten",
    "C71_rests",
    "C71_uncompleted_refuted",
    "C71_later_refuted"
   ],
   "note": "Proved: completed blocks are forgotten, numbers too, and of several blocks with one number all are forgotten when the first of them is completed after all arrived. Refuted in general: a block that is never completed stays for ever with its goroutine (C71_uncompleted_refuted), and also when another block with its number is completed, if the entry of the number was made anew in between (C71_later_refuted)."
  },
  {
   "property": "C72",
   "status": "partial",
   "theorems": [
    "C72_end_to_end",
    "C72_never_fails",
    "C72_not_assembled_again",
    "C72_whole_again_refuted"
   ],
   "note": "Everything is proved for calls that do not overlap (for those that do, see C69), except that the message processor itself hands a block over again when it comes whole after it was assembled (C72_whole_again_refuted); the ordering layer then adds it only once (C72_end_to_end)."
  },
  {
   "property": "C73",
   "status": "partial",
   "theorems": [
    "C73_published",
    "C73_end_to_end",
    "C73_never_fails",
    "C73_half_sent_refuted"
   ],
   "note": "Proved when every producer that was given a block is also given its sub-batches and the broker reports no error in these calls; what is on the feed is right in any case. Refuted for a producer that stops between the header and the sub-batches: the others have read the header, drop the block and report success, so that its sub-batches are never published (C73_half_sent_refuted)."
  },
  {
   "property": "C74",
   "status": "partial",
   "theorems": [
    "C74_new",
    "C74_exactly",
    "C74_bounded",
    "C74_delivered",
    "C74_ends",
    "C74_leak_refuted",
    "C74_order_refuted",
    "C74_failed_start_refuted",
    "C74_close_refuted"
   ],
   "note": "Proved: construction, order and completeness per partition, the bound, delivery before Close, and the end of all goroutines after a Close without error while the user keeps receiving. Refuted: if the user stops receiving before Close, a goroutine blocked on the full channel never ends; a failed start leaves the partitions opened so far running; Close returns at the first error and leaves the rest open. The order of different partitions is not kept (C74_order_refuted; not claimed by the property)."
  },
  {
   "property": "C75",
   "status": "partial",
   "theorems": [
    "C75_count",
    "C75_ends",
    "C75_safe_refuted"
   ],
   "note": "The bounds hold in every execution that does not end the process, and a call returns if its loop goes on. Refuted: a loop step during an assignment ends the process, since the map is shared without a lock (C75_safe_refuted)."
  },
  {
   "property": "C76",
   "status": "partial",
   "theorems": [
    "C76_handled",
    "C76_once",
    "C76_complete_partial",
    "C76_calm",
    "C76_warned",
    "C76_lost_refuted",
    "C76_warned_refuted"
   ],
   "note": "Order, bounds, the end without a warning and the calm case are proved. That nothing is lost needs that the timer fires only in a blocked select and nothing is sent until the quit channel was looked at (C76_complete_partial); otherwise a batch sent before Close may never be handled (C76_lost_refuted). With steady traffic Close gives up after a second and the goroutine goes on (C76_warned_refuted). That a call returns within a second is the timer itself and not stated separately."
  },
  {
   "property": "C77",
   "status": "partial",
   "theorems": [
    "C77_safe",
    "C77_exactly",
    "C77_delivered",
    "C77_asked",
    "C77_start",
    "C77_ready",
    "C77_unreachable",
    "C77_start_refuted",
    "C77_lost_refuted",
    "C77_refused_refuted"
   ],
   "note": "Proved: safety, exactly the notifications after the confirmation, everything sent by a server that confirms first, where each subscription starts, when Start returns, and ready at most once. Refuted: Start also returns after a connection that broke before the answer (C77_start_refuted); a notification sent before the confirmation is dropped (C77_lost_refuted); after a refusal the consumer waits on the open connection (C77_refused_refuted). Taken from the documentation of gorilla/websocket: a failed connection stays failed."
  },
  {
   "property": "C78",
   "status": "partial",
   "theorems": [
    "C78_count",
    "C78_heard",
    "C78_silent",
    "C78_goes_on",
    "C78_new_refuted",
    "C78_unhealthy_refuted",
    "C78_short_refuted"
   ],
   "note": "Both bounds are proved. That the count is the number of healthy producers at the moment is refuted: a new producer is not counted for 30 seconds (C78_new_refuted), one that became unhealthy is counted until its last heartbeat is too old (C78_unhealthy_refuted). That d must exceed 30 seconds by the delay is needed (C78_short_refuted). Ticks are dealt with when they fire and D bounds all delays."
  }
 ]
}