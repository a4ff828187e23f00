{
 "claims": [
  {
   "property": "C01",
   "status": "proved",
   "theorems": [
    "C01_int_roundtrip",
    "C01_decode_denotes"
   ],
   "note": "Every integer, both Python copies of the codec."
  },
  {
   "property": "C02",
   "status": "proved",
   "theorems": [
    "C02_minimal",
    "C02_unique_shortest",
    "C02_injective",
    "C02_go_encode_agrees",
    "C02_go_decode_agrees",
    "C02_go_int64_agrees",
    "C02_go_uint64_agrees",
    "C02_go_int64_decode",
    "C02_go_uint64_decode"
   ],
   "note": "Minimality, uniqueness, injectivity, and agreement with the Go big-int, int64 and uint64 codecs."
  },
  {
   "property": "C03",
   "status": "proved",
   "theorems": [
    "C03_decoder_recovers",
    "C03_injective",
    "C03_prefix_free",
    "C03_go_agrees"
   ],
   "note": "Key parts shorter than 2^53 bytes (float division in rlp_get_bytes)."
  },
  {
   "property": "C04",
   "status": "proved",
   "theorems": [
    "C04_slots_disjoint"
   ],
   "note": "Hash assumed injective on the two preimages only."
  },
  {
   "property": "C05",
   "status": "proved",
   "theorems": [
    "C05_slots_meet",
    "C05_no_isolation",
    "C05_violated",
    "C05_violated_every_dict"
   ],
   "note": "Exact characterisation in both directions; C05_violated* show the isolation one would expect is false, for every hash."
  },
  {
   "property": "C06",
   "status": "proved",
   "theorems": [
    "C06_get",
    "C06_set",
    "C06_set_refused",
    "C06_remove",
    "C06_value_roundtrip",
    "C06_history"
   ],
   "note": "Every reachable state of every execution, every history interleaved with other containers."
  },
  {
   "property": "C07",
   "status": "proved",
   "theorems": [
    "C07_get",
    "C07_in",
    "C07_set",
    "C07_remove",
    "C07_upper_levels",
    "C07_levels",
    "C07_history"
   ],
   "note": "Every reachable state, key, depth and history."
  },
  {
   "property": "C08",
   "status": "proved",
   "theorems": [
    "C08_put",
    "C08_pop",
    "C08_pop_empty",
    "C08_get",
    "C08_set",
    "C08_set_refused",
    "C08_put_refused",
    "C08_len",
    "C08_iterate",
    "C08_history",
    "C08_distinct_slots",
    "C08_violated_pop"
   ],
   "note": "Exact outcome of every operation and of every history; C08_violated_pop is a concrete run in which pop corrupts the last element."
  },
  {
   "property": "C09",
   "status": "proved",
   "theorems": [
    "C09_same_type",
    "C09_answer",
    "C09_other_type",
    "C09_price",
    "C09_violated_empty",
    "C09_violated_costs"
   ],
   "note": "Both branches of __contains__, including the node's cut-off; C09_violated_* are the two corners where the answer is wrong."
  },
  {
   "property": "C10",
   "status": "proved",
   "theorems": [
    "C10_frame",
    "C10_other_container"
   ],
   "note": "Frame theorem for every operation, and its consequence for every slot of another container (hash collision-free on the keys involved)."
  },
  {
   "property": "C11",
   "status": "proved",
   "theorems": [
    "C11_no_forbidden_write"
   ],
   "note": "Every program, nesting and reply history, for cost tables with non-positive refunds. In a transaction a read-only method can still set the fee proportion; the node flags read-only methods as queries, which excludes it."
  },
  {
   "property": "C12",
   "status": "proved",
   "theorems": [
    "C12_within_limit",
    "C12_charge"
   ],
   "note": "Holds for every message sent in every execution from a fresh executor; C12_charge gives the single charge."
  },
  {
   "property": "C13",
   "status": "proved",
   "theorems": [
    "C13_lazy_is_eager"
   ],
   "note": "Refinement of the lazy executor to Spec/EagerEE.v, all programs and node behaviours, cost tables with non-positive refunds."
  },
  {
   "property": "C14",
   "status": "proved",
   "theorems": [
    "C14_replies_paired",
    "C14_few_pending"
   ],
   "note": "Ghost message numbers pair every reply with its request."
  },
  {
   "property": "C15",
   "status": "proved",
   "theorems": [
    "C15_answered",
    "C15_frame_restored"
   ],
   "note": "Properly nested INVOKE/RESULT sequence; stacks and flags restored."
  },
  {
   "property": "C16",
   "status": "proved",
   "theorems": [
    "C16_violated"
   ],
   "note": "Negative result: machine-checked counterexample for every hash."
  },
  {
   "property": "C17",
   "status": "proved",
   "theorems": [
    "C17_limit_passed",
    "C17_caller_charged",
    "C17_status_kept"
   ],
   "note": "Limit passed on every call of every execution; caller's charge and status for every reply."
  },
  {
   "property": "C18",
   "status": "proved",
   "theorems": [
    "C18_user_code",
    "C18_revert",
    "C18_propagates",
    "C18_revert_propagates",
    "C18_violated_message"
   ],
   "note": "Reworded: the message must be valid text; C18_violated_message shows that a user error with a lone surrogate in its message is reported as system failure 1."
  },
  {
   "property": "C19",
   "status": "proved",
   "theorems": [
    "C19_executor",
    "C19_node",
    "C19_reached"
   ],
   "note": "Executor and node dispatch, both directions, end to end from the class to the function entered; legacy fallback check of the node not modelled."
  },
  {
   "property": "C20",
   "status": "proved",
   "theorems": [
    "C20_roundtrip",
    "C20_last_wins"
   ],
   "note": "Every nested value, whatever the transport does to key types."
  },
  {
   "property": "C21",
   "status": "proved",
   "theorems": [
    "C21_text_roundtrip",
    "C21_text_accepts_exactly",
    "C21_text_rejects",
    "C21_text_injective",
    "C21_bytes_roundtrip",
    "C21_bytes_injective",
    "C21_bytes_decoding",
    "C21_from_int"
   ],
   "note": "Text and byte forms, both directions."
  },
  {
   "property": "C22",
   "status": "proved",
   "theorems": [
    "C22_event",
    "C22_sent",
    "C22_reserved",
    "C22_recorded",
    "C22_violated_keyword",
    "C22_violated_negative"
   ],
   "note": "C22_event: for every @eventlog function, state and arguments a returning call sent exactly one event with the signature text and the bound values split at the indexed count (none in a query), a raising call none. C22_sent: every Python call with fitting values is sent at a price depending only on item sizes. C22_reserved, C22_recorded (node accepts what was sent). Findings: C22_violated_keyword (unknown keywords silently ignored), C22_violated_negative (indexed=-1 accepted, event charged but never recorded)."
  },
  {
   "property": "C23",
   "status": "proved",
   "theorems": [
    "C23_no_false_negative",
    "C23_kept",
    "C23_union",
    "C23_bits",
    "C23_contains",
    "C23_set",
    "C23_size",
    "C23_go_same",
    "C23_go_contain"
   ],
   "note": "Every hash function, every filter and item list: no false negatives, exact bit set, union, set-dependence, size; the Go LogsBloom adds the same bits and its word-wise Contain is bit-set inclusion."
  },
  {
   "property": "C24",
   "status": "proved",
   "theorems": [
    "C24_history",
    "C24_read",
    "C24_commit",
    "C24_abort",
    "C24_violated_len",
    "C24_violated_underflow"
   ],
   "note": "Every history tree of nested calls/reverts on every open batch. Findings: C24_violated_len (len/iter count a key once per nesting level), C24_violated_underflow."
  },
  {
   "property": "C25",
   "status": "proved",
   "theorems": [
    "C25_violated_deletion",
    "C25_violated_separator",
    "C25_identifies_separated",
    "C25_digest_at_top"
   ],
   "note": "Refuted for every hash (deletion, separator); C25_identifies_separated proves it for delimiter-free batches whose keys and values are distinguishable."
  },
  {
   "property": "C26",
   "status": "proved",
   "theorems": [
    "C26_roundtrip",
    "C26_reread",
    "C26_refused",
    "C26_violated_hash"
   ],
   "note": "Round trip both ways for all in-range blocks; out of range raises; finding: other hash lengths are cut/padded silently."
  },
  {
   "property": "C27",
   "status": "proved",
   "theorems": [
    "C27_value",
    "C27_params"
   ],
   "note": "Scalars and whole parameter dictionaries; Python's handling of non-ASCII digits and spaces is any function."
  },
  {
   "property": "C28",
   "status": "proved",
   "theorems": [
    "C28_hash",
    "C28_dumps",
    "C28_loads",
    "C28_create_address",
    "C28_recover_key",
    "C28_turned_down",
    "C28_monotone",
    "C28_json_unpriced"
   ],
   "note": "Exact price in every reachable running state; libraries behind the API are arbitrary functions. json_dumps computes the text first and is charged before handing it out; C28_json_unpriced: without the revision bit JSON is free."
  },
  {
   "property": "C29",
   "status": "proved",
   "theorems": [
    "C29_accepted",
    "C29_exclusive",
    "C29_allowed",
    "C29_isolated_refused"
   ],
   "note": "Accepted iff allowed decorator lists (and readable signatures); C29_isolated_refused: @isolated is never accepted."
  },
  {
   "property": "C30",
   "status": "proved",
   "theorems": [
    "C30_described",
    "C30_decoded",
    "C30_violated_depth",
    "C30_violated_circular"
   ],
   "note": "Every signature; type codes read back exactly up to list depth 15. Findings: depth is read modulo 16; a struct used twice is refused as circular. Hook entries are listed too."
  },
  {
   "property": "C31",
   "status": "proved",
   "theorems": [
    "C31_fee_range",
    "C31_set_proportion",
    "C31_sent"
   ],
   "note": "All executions (trace) plus the API call itself; a proportion of 0 is stored and never sent."
  },
  {
   "property": "C32",
   "status": "proved",
   "theorems": [
    "C32_position",
    "C32_before",
    "C32_next",
    "C32_term_start",
    "C32_vote_check",
    "C32_base_due",
    "C32_start_future",
    "C32_start_fixed",
    "C32_term_monotone"
   ],
   "note": "Positions of blocks in terms, the start height rules, when a base transaction is due, and that a start once reached never moves and terms only grow, for every history of blocks and transactions. Heights are unbounded integers (no int64 overflow)."
  },
  {
   "property": "C33",
   "status": "proved",
   "theorems": [
    "C33_issued",
    "C33_schedule",
    "C33_bounded",
    "C33_nothing_before",
    "C33_proposal",
    "C33_violated_zero_amount"
   ],
   "note": "The log of issues is exactly the schedule's first terms, the total is bounded, and a proposer's base transaction is always accepted and due exactly when one is made, for configured amounts of at least 1; C33_violated_zero_amount: a chain configured with amount 0 deadlocks at the first term."
  },
  {
   "property": "C34",
   "status": "proved",
   "theorems": [
    "C34_backed",
    "C34_claim_paid",
    "C34_claim_accepted"
   ],
   "note": "Coverage of all obligations by the treasury in every history of ordinary transactions (nobody holds the treasury's key), claims paid exactly, claims accepted."
  },
  {
   "property": "C35",
   "status": "proved",
   "theorems": [
    "C35_once",
    "C35_credit",
    "C35_accepted"
   ],
   "note": "At most one reward per identifier and term in every history, the complete effect of an accepted report, and the exact acceptance condition (never refused for lack of funds)."
  },
  {
   "property": "C36",
   "status": "proved",
   "theorems": [
    "C36_supply",
    "C36_transfer",
    "C36_calls"
   ],
   "note": "Supply = sum of balances = genesis + issued - burned in every history; transfers and calls exact."
  },
  {
   "property": "C37",
   "status": "proved",
   "theorems": [
    "C37_claim_leaves",
    "C37_rate",
    "C37_rate_default",
    "C37_rate_set",
    "C37_company_locked"
   ],
   "note": "Exact remainder after a claim, claim rate rules, split of company rewards (in C35_credit); C37_company_locked is a finding: private company planets can claim nothing at rates up to 3/5."
  },
  {
   "property": "C38",
   "status": "proved",
   "theorems": [
    "C38_count",
    "C38_register",
    "C38_unregister",
    "C38_others",
    "C38_alias"
   ],
   "note": "Registry count exact and bounded in every history, exact effects of register/unregister, nothing else changes it; C38_alias: identifiers are cut to 64 bits."
  },
  {
   "property": "C39",
   "status": "proved",
   "theorems": [
    "C39_registry",
    "C39_nodes",
    "C39_authority",
    "C39_active_once",
    "C39_active_current",
    "C39_term",
    "C39_unregister",
    "C39_violated_stranger",
    "C39_contract_owner",
    "C39_violated_keyless",
    "C39_violated_order",
    "C39_violated_empty",
    "C39_violated_two_seats"
   ],
   "note": "Over every history of vexec from any duplicate-free initial set. C39_term is stated for the set before the block's own votes are processed (C40_penalty says what they change). Active nodes are current only from the first decentralised term on and while grantValidator is not used: C39_violated_two_seats. Findings: C39_violated_stranger (an active node nobody registered makes the first block of each term fail), C39_violated_keyless (leftover error makes the base transaction fail), C39_violated_order (Go map order changes the resulting list), C39_violated_empty, C39_contract_owner."
  },
  {
   "property": "C40",
   "status": "proved",
   "theorems": [
    "C40_struck",
    "C40_main",
    "C40_enable",
    "C40_limit",
    "C40_penalty",
    "C40_violated_forgiven",
    "C40_violated_old_node"
   ],
   "note": "C40_struck: exact criterion over histories in which nobody enables the validator and the allowance in force is constant. Findings: C40_violated_forgiven (enableValidator on an enabled validator forgets its misses for free), C40_violated_old_node (votes about a given-up node disable the owner while its new node stays active)."
  },
  {
   "property": "C41",
   "status": "proved",
   "theorems": [
    "C41_monitor_exact"
   ],
   "note": "Block notifications = exactly the matching events, for all filters, blocks and hashes."
  },
  {
   "property": "C42",
   "status": "proved",
   "theorems": [
    "C42_list",
    "C42_snapshot"
   ],
   "note": "Refinement of the pointer-sharing list with its cached index to a plain duplicate-free list, for every sequence of operations, snapshots and resets to snapshots handed out before. Single thread; hashes and serialization not modelled."
  },
  {
   "property": "C43",
   "status": "proved",
   "theorems": [
    "C43_events",
    "C43_violated_silent"
   ],
   "note": "C43_violated_silent: grantValidator and revokeValidator change the set without events."
  },
  {
   "property": "C44",
   "status": "proved",
   "theorems": [
    "C44_imports",
    "C44_names",
    "C44_no_named_import",
    "C44_accepts",
    "C44_every_load",
    "C44_violated_extended",
    "C44_violated_first",
    "C44_violated_main"
   ],
   "note": "Proved for code objects with at most 256 constants. C44_violated_extended: with more, EXTENDED_ARG makes the validator read the wrong level and `import os` passes. C44_violated_first: the package's __init__.py runs before anything is checked. C44_violated_main: a main module that is not a .py file is never checked. C44_no_named_import: `from iconservice import X` is refused for every X, so the iconservice whitelist has no effect."
  },
  {
   "property": "C45",
   "status": "proved",
   "theorems": [
    "C45_confined",
    "C45_bounded",
    "C45_source",
    "C45_complete",
    "C45_distinct",
    "C45_violated_escape",
    "C45_violated_size"
   ],
   "note": "C45_violated_escape: entries with '..' are written outside the directory. C45_violated_size: a header size of 2^63 becomes negative and lifts the limit on the whole content; the bound is proved for sizes below 2^63."
  },
  {
   "property": "C46",
   "status": "proved",
   "theorems": [
    "C46_store",
    "C46_answers",
    "C46_total",
    "C46_violated_delete",
    "C46_violated_empty"
   ],
   "note": "C46_store is the refinement; premises: 32-byte digests and no two different nodes written with one digest. C46_violated_delete and C46_violated_empty are findings."
  },
  {
   "property": "C47",
   "status": "proved",
   "theorems": [
    "C47_hash_of_contents",
    "C47_hash_binds",
    "C47_violated_empty"
   ],
   "note": "C47_hash_of_contents (canonicity) and C47_hash_binds (binding); C47_violated_empty is a finding."
  },
  {
   "property": "C48",
   "status": "proved",
   "theorems": [
    "C48_sound",
    "C48_complete",
    "C48_violated_panics",
    "C48_violated_junk"
   ],
   "note": "C48_sound and C48_complete as stated, against the model of getProof/prove. Two defects found: Prove panics on a key that ends at a branch without value although GetProof gave the proof (C48_violated_panics); trailing pieces of a proof are not refused (C48_violated_junk)."
  },
  {
   "property": "C49",
   "status": "proved",
   "theorems": [
    "C49_managers",
    "C49_managers_history",
    "C49_authority",
    "C49_blocks",
    "C49_withdraw",
    "C49_owner",
    "C49_violated_price"
   ],
   "note": "Defect found: before revision 3 anybody sets the USDT price (C49_violated_price)."
  },
  {
   "property": "C50",
   "status": "proved",
   "theorems": [
    "C50_listing",
    "C50_same_listing",
    "C50_violated_endless"
   ],
   "note": "C50_listing over all runs; C50_same_listing: sorted listings with the same members are equal and have no key twice. Finding: after a database error Has stays true for ever (C50_violated_endless), so a loop that only looks at Has does not end."
  },
  {
   "property": "C51",
   "status": "proved",
   "theorems": [
    "C51_votes_on_record",
    "C51_answer",
    "C51_winner",
    "C51_turnout",
    "C51_final",
    "C51_proof_of_winner",
    "C51_restricted",
    "C51_rounds_apart",
    "C51_late_vote"
   ],
   "note": "C51_votes_on_record and C51_winner refine the code to the rule in Spec/VoteSpec.v; C51_final is stability and uniqueness of the winner."
  },
  {
   "property": "C53",
   "status": "proved",
   "theorems": [
    "C53_agreement",
    "C53_decided",
    "C53_lock",
    "C53_violated_relock"
   ],
   "note": "C53_agreement is for executions in which a restarting node finds its lock recorded ([reachable C byz true]); C53_violated_relock is a concrete execution without that condition, with 1 Byzantine of 4 and one restart, in which two honest nodes finalize different blocks: consensus.go 851-854 raises lockedRound without writing to the lock WAL."
  },
  {
   "property": "C54",
   "status": "proved",
   "theorems": [
    "C54_vote_once",
    "C54_precommit_justified",
    "C54_violated_disk"
   ],
   "note": "C54_vote_once needs neither collision freedom nor a Byzantine minority. C54_violated_disk: lines 1291-1296."
  },
  {
   "property": "C52",
   "status": "proved",
   "theorems": [
    "C52_accepts",
    "C52_accountable",
    "C52_built_accepted",
    "C52_time_between",
    "C52_block_time",
    "C52_violated_panics",
    "C52_violated_empty"
   ],
   "note": "C52_accepts is an equivalence; C52_violated_panics: signedbase.go 43-48 returns nil, validatorlist.go 116 calls Bytes on it (common/address.go 96-98)."
  },
  {
   "property": "C55",
   "status": "proved",
   "theorems": [
    "C55_no_panic",
    "C55_stops_only_undecodable",
    "C55_lock_usable"
   ],
   "note": "Panics modelled: the step check of beginStep, a vote for a part set without a decoded block, commitAndEnterNewHeight without a part set, and the callback of ImportBlock finding no current part set; the recursion bound of the model counts as a failure too. A validator set of size 0 (division by zero in the proposer index) and errors returned by the block manager's Finalize are outside."
  },
  {
   "property": "C56",
   "status": "proved",
   "theorems": [
    "C56_replay_refused",
    "C56_replay_refused_settled",
    "C56_once",
    "C56_once_settled",
    "C56_no_false_alarm",
    "C56_violated_edge",
    "C56_violated_raised",
    "C56_violated_lowered",
    "C56_violated_disk",
    "C56_leftover_refused"
   ],
   "note": "Two sufficient conditions proved; five counterexample histories proved (C56_violated_edge, _raised, _lowered, _disk, C56_leftover_refused)."
  },
  {
   "property": "C57",
   "status": "proved",
   "theorems": [
    "C57_locator_exact",
    "C57_locator_exact_settled",
    "C57_locator_sound"
   ],
   "note": "Exactness under the conditions of C56; soundness unconditional."
  },
  {
   "property": "C58",
   "status": "proved",
   "theorems": [
    "C58_same_bytes_iff",
    "C58_plain_injective",
    "C58_plain_total",
    "C58_refused_iff",
    "C58_document_iff",
    "C58_order",
    "C58_violated_empty",
    "C58_violated_number"
   ],
   "note": "Exact characterization (iff) proved for all values; two exceptions proved as theorems."
  },
  {
   "property": "C59",
   "status": "proved",
   "theorems": [
    "C59_binary_fields",
    "C59_forms_agree",
    "C59_same_id_everywhere",
    "C59_shown_and_back",
    "C59_violated_type"
   ],
   "note": "Injectivity of the binary form, agreement of the forms, stability under resending; C59_violated_type is a proved counterexample across forms."
  },
  {
   "property": "C60",
   "status": "proved",
   "theorems": [
    "C60_receipts",
    "C60_world",
    "C60_snapshot",
    "C60_schedules_agree",
    "C60_violated_world_read",
    "C60_violated_error_lost"
   ],
   "note": "Full serializability for write locks, account read locks and the world write lock; C60_violated_world_read and C60_violated_error_lost are proved findings."
  },
  {
   "property": "C61",
   "status": "proved",
   "theorems": [
    "C61_no_panic",
    "C61_oldest_runs",
    "C61_next_begins",
    "C61_halts",
    "C61_completes",
    "C61_violated_rollback"
   ],
   "note": "Progress, termination, completion and absence of panics for all schedules; C61_violated_rollback is a proved reachable panic."
  },
  {
   "property": "C62",
   "status": "proved",
   "theorems": [
    "C62_transaction",
    "C62_failed_call",
    "C62_cut_call",
    "C62_steps"
   ],
   "note": "The agreement of the first call to share the fee stays (it is kept for the transaction), as stated in C62_failed_call."
  },
  {
   "property": "C63",
   "status": "proved",
   "theorems": [
    "C63_readonly_call",
    "C63_query"
   ],
   "note": ""
  },
  {
   "property": "C64",
   "status": "proved",
   "theorems": [
    "C64_history",
    "C64_reload",
    "C64_pay",
    "C64_pays",
    "C64_tenth",
    "C64_withdraw",
    "C64_violated_blocked"
   ],
   "note": "C64_violated_blocked is a proved finding."
  },
  {
   "property": "C65",
   "status": "proved",
   "theorems": [
    "C65_rules",
    "C65_bounds",
    "C65_no_deposit",
    "C65_failed"
   ],
   "note": "Example dishonest: without honest engines the payers can pay more than the transaction used (the sender is then paid the difference); engines are trusted."
  },
  {
   "property": "C66",
   "status": "proved",
   "theorems": [
    "C66_never_overdrawn",
    "C66_ends",
    "C66_failed",
    "C66_success",
    "C66_accounting",
    "C66_details",
    "C66_full_price",
    "C66_steps"
   ],
   "note": "Deposits are assumed sound after the call (C64 shows the operations keep them so); the fee bounds of a successful transaction use the honest engines of C65."
  },
  {
   "property": "C67",
   "status": "proved",
   "theorems": [
    "C67_log",
    "C67_synced",
    "C67_goes",
    "C67_crc",
    "C67_violated_header",
    "C67_violated_repair",
    "C67_violated_gap",
    "C67_violated_zeros"
   ],
   "note": "Findings: C67_violated_header (io.ReadAtLeast says EOF when nothing follows the header), C67_violated_repair and C67_violated_gap (os.Remove(fileFor(w.id, idx)) instead of i), C67_violated_zeros (eight zero bytes are a valid empty record)."
  },
  {
   "property": "C68",
   "status": "proved",
   "theorems": [
    "C68_roundtrip",
    "C68_stream",
    "C68_injective",
    "C68_self_delimiting",
    "C68_typed",
    "C68_normal",
    "C68_older",
    "C68_newer",
    "C68_violated_forms",
    "C68_violated_inside",
    "C68_violated_transaction"
   ],
   "note": "Findings: C68_violated_forms, C68_violated_inside, C68_violated_transaction (MaxSizeForBytes is 1e6, the default MaxBlockTxBytes is 1048576, and the size check of a transaction counts the compacted JSON of its data only, while its bytes keep the white space)."
  },
  {
   "property": "C69",
   "status": "proved",
   "theorems": [
    "C69_no_panic",
    "C69_order",
    "C69_add",
    "C69_remove",
    "C69_drop_old",
    "C69_collect",
    "C69_drop",
    "C69_filter",
    "C69_bloom",
    "C69_bloom_any",
    "C69_violated_blocked",
    "C69_violated_bloom"
   ],
   "note": "Findings: C69_violated_blocked (the loop of Candidate ends at the first transaction which does not fit), C69_violated_bloom (updateBloom makes an unlinked filter for an element without predecessor)."
  },
  {
   "property": "C70",
   "status": "proved",
   "theorems": [
    "C70_safe",
    "C70_protocol",
    "C70_order",
    "C70_height",
    "C70_over",
    "C70_ends_well",
    "C70_rejected",
    "C70_bad_data",
    "C70_none_forgotten",
    "C70_progress",
    "C70_silence",
    "C70_timeout",
    "C70_violated_reject",
    "C70_violated_send",
    "C70_violated_nothing",
    "C70_violated_short"
   ],
   "note": "Findings: C70_violated_reject (Reject cancels the peer's fetcher without giving its height back), C70_violated_send (newFetcher's failure is reported before the peer has the fetcher), C70_violated_nothing (begin > end), C70_violated_short (OnEnd(nil) without peers). The caller is assumed to answer each notification at most once, GetPeers to name each peer once."
  },
  {
   "property": "C71",
   "status": "proved",
   "theorems": [
    "C71_bits",
    "C71_equal",
    "C71_cut",
    "C71_chunks",
    "C71_reader",
    "C71_only_original",
    "C71_accepts",
    "C71_whole",
    "C71_same",
    "C71_relay",
    "C71_state",
    "C71_transport",
    "C71_completes",
    "C71_app_data",
    "C71_mask",
    "C71_violated_crash",
    "C71_violated_multiple",
    "C71_violated_same_id",
    "C71_violated_mask"
   ],
   "note": "Findings: C71_violated_crash (a branch proof node of two items is taken as an extension with an empty key and panics), C71_violated_multiple and C71_violated_same_id (PartSet() builds the trie only when the current part is unfinished), C71_violated_mask (Flip clears the last word when the number of bits is a multiple of 64)."
  },
  {
   "property": "C72",
   "status": "proved",
   "theorems": [
    "C72_no_panic",
    "C72_part",
    "C72_parts",
    "C72_votes",
    "C72_once",
    "C72_fetch",
    "C72_sets",
    "C72_delivers",
    "C72_violated_negative",
    "C72_violated_multiple"
   ],
   "note": "Findings: C72_violated_negative (BitArray.Verify accepts a negative NumBits and Copy then makes a slice of negative length), C72_violated_multiple (Flip). C72_delivers takes the transport of each part as a hypothesis (it is C71_transport)."
  },
  {
   "property": "C73",
   "status": "proved",
   "theorems": [
    "C73_under_hash",
    "C73_unasked",
    "C73_complete",
    "C73_progress",
    "C73_copy_success",
    "C73_copy_ends",
    "C73_disk",
    "C73_trie",
    "C73_world",
    "C73_violated_resume",
    "C73_violated_crash"
   ],
   "note": "Findings: C73_violated_resume (CopyContext writes to the raw database and resolve() stops at any node that is there), C73_violated_crash (layerDB.Flush is not atomic and writes in the order of arrival, parents first). What an account refers to is a parameter (any function of its bytes). Hypotheses of the general theorems: the world is whole (each part under its hash, no part holds its own hash, a part used in two ways refers to the same parts); C73_trie proves them for every trie made by a history."
  },
  {
   "property": "C74",
   "status": "proved",
   "theorems": [
    "C74_root",
    "C74_nothing",
    "C74_proof",
    "C74_binds",
    "C74_item",
    "C74_stored",
    "C74_violated_length",
    "C74_violated_stored"
   ],
   "note": "Findings: C74_violated_length, C74_violated_stored (merkleRootHasher guards the bucket of message lists during state sync; digestfrombytes.go does not compare the count with the section). The model works on the byte buffer in place, as the code does. Items are 32 bytes. Two-sided clash instead of an assumption on the hash."
  },
  {
   "property": "C75",
   "status": "proved",
   "theorems": [
    "C75_sections",
    "C75_same",
    "C75_fails",
    "C75_numbers",
    "C75_chain",
    "C75_binds",
    "C75_decision",
    "C75_digest",
    "C75_no_digest",
    "C75_type_of",
    "C75_reread",
    "C75_violated_overwrite"
   ],
   "note": "Finding: C75_violated_overwrite (the bucket of message lists is keyed by the Merkle root alone, which does not say the depth; see C74_violated_length). Hash functions and the hash of a proof context are parameters; RLP is the encoder of C68. Sequence numbers below 2^62."
  },
  {
   "property": "C76",
   "status": "proved",
   "theorems": [
    "C76_accepts",
    "C76_overlap",
    "C76_keys",
    "C76_checked",
    "C76_cast",
    "C76_certificate",
    "C76_back",
    "C76_violated_nil",
    "C76_violated_split",
    "C76_violated_padded"
   ],
   "note": "Findings: C76_violated_nil, C76_violated_split, C76_violated_padded. Signature recovery, decision hashes and the RLP of parts and proofs are parameters. That keys are distinct is a hypothesis of C76_keys and C76_cast (SetPublicKey refuses a key that is in use)."
  },
  {
   "property": "C77",
   "status": "proved",
   "theorems": [
    "C77_keys",
    "C77_distinct",
    "C77_contexts",
    "C77_closed",
    "C77_networks",
    "C77_sections",
    "C77_chain",
    "C77_idle",
    "C77_follow",
    "C77_same",
    "C77_violated_stale",
    "C77_two_dsas"
   ],
   "note": "Finding: C77_violated_stale (revokeValidator of the last validator of the list, openBTPNetwork of a type for the first time, grantValidator of the same in one block). C77_keys needs that there is one DSA, as in the code; C77_two_dsas shows that it fails with two. Databases are functions; modules, DSA and contexts are parameters; key masks, names and heights of networks, and who may call, are not modelled."
  },
  {
   "property": "C78",
   "status": "proved",
   "theorems": [
    "C78_never_again",
    "C78_answers",
    "C78_memory",
    "C78_violated_raised",
    "C78_violated_full"
   ],
   "note": "Findings: C78_violated_raised (onCommit forgets by the threshold of the block; the threshold of the checker is set later and may be more), C78_violated_full (flushSlotIfFull forgets all IDs of the period, for any size). Normal group only; int64 does not overflow; each call is one step (the lock); the locators are a parameter (C56 and C57 are about them)."
  },
  {
   "property": "C79",
   "status": "proved",
   "theorems": [
    "C79_evidence",
    "C79_honest",
    "C79_found",
    "C79_networks",
    "C79_violated_networks",
    "C79_reports",
    "C79_order",
    "C79_reported",
    "C79_violated_first"
   ],
   "note": "Findings: C79_violated_networks (doublesigndata.go:67-68 reads the network of the same vote twice; consensus refuses votes of other networks before its log, but a transaction with a report is decoded without that check), C79_violated_first (a proposal of another network that is logged first stays; consensus refuses these before). Messages have valid signatures; hashes, signers, networks and costs are parameters; the hash of a vote has its time stamp, as in the code, so the same vote signed at two times is two votes. The transaction and its handler are not modelled."
  }
 ]
}