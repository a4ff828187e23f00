{
 "C01": {
  "note": "Every integer, both Python copies of the codec."
 },
 "C02": {
  "note": "Minimality, uniqueness, injectivity, and agreement with the Go big-int, int64 and uint64 codecs."
 },
 "C03": {
  "note": "Key parts shorter than 2^53 bytes (float division in rlp_get_bytes)."
 },
 "C04": {
  "note": "Hash assumed injective on the two preimages only."
 },
 "C05": {
  "note": "Exact characterisation in both directions; C05_violated* show the isolation one would expect is false, for every hash."
 },
 "C21": {
  "note": "Text and byte forms, both directions."
 },
 "C11": {
  "note": "Every program, nesting and reply history, for cost tables with non-positive refunds. In a transaction a read-only method can still set the fee proportion; the node flags read-only methods as queries, which excludes it."
 },
 "C12": {
  "note": "Holds for every message sent in every execution from a fresh executor; C12_charge gives the single charge."
 },
 "C13": {
  "note": "Refinement of the lazy executor to Spec/EagerEE.v, all programs and node behaviours, cost tables with non-positive refunds."
 },
 "C14": {
  "note": "Ghost message numbers pair every reply with its request."
 },
 "C15": {
  "note": "Properly nested INVOKE/RESULT sequence; stacks and flags restored."
 },
 "C16": {
  "note": "Negative result: machine-checked counterexample for every hash."
 },
 "C17": {
  "note": "Limit passed on every call of every execution; caller's charge and status for every reply."
 },
 "C20": {
  "note": "Every nested value, whatever the transport does to key types."
 },
 "C06": {
  "note": "Every reachable state of every execution, every history interleaved with other containers."
 },
 "C07": {
  "note": "Every reachable state, key, depth and history."
 },
 "C08": {
  "note": "Exact outcome of every operation and of every history; C08_violated_pop is a concrete run in which pop corrupts the last element."
 },
 "C09": {
  "note": "Both branches of __contains__, including the node's cut-off; C09_violated_* are the two corners where the answer is wrong."
 },
 "C10": {
  "note": "Frame theorem for every operation, and its consequence for every slot of another container (hash collision-free on the keys involved)."
 },
 "C18": {
  "note": "Reworded: the message must be valid text; C18_violated_message shows that a user error with a lone surrogate in its message is reported as system failure 1."
 },
 "C31": {
  "note": "All executions (trace) plus the API call itself; a proportion of 0 is stored and never sent."
 },
 "C19": {
  "note": "Executor and node dispatch, both directions, end to end from the class to the function entered; legacy fallback check of the node not modelled."
 },
 "C29": {
  "note": "Accepted iff allowed decorator lists (and readable signatures); C29_isolated_refused: @isolated is never accepted."
 },
 "C30": {
  "note": "Every signature; type codes read back exactly up to list depth 15. Findings: depth is read modulo 16; a struct used twice is refused as circular. Hook entries are listed too."
 },
 "C22": {
  "note": "C22_event: for every @eventlog function, state and arguments a returning call sent exactly one event with the signature text and the bound values split at the indexed count (none in a query), a raising call none. C22_sent: every Python call with fitting values is sent at a price depending only on item sizes. C22_reserved, C22_recorded (node accepts what was sent). Findings: C22_violated_keyword (unknown keywords silently ignored), C22_violated_negative (indexed=-1 accepted, event charged but never recorded)."
 },
 "C23": {
  "note": "Every hash function, every filter and item list: no false negatives, exact bit set, union, set-dependence, size; the Go LogsBloom adds the same bits and its word-wise Contain is bit-set inclusion."
 },
 "C24": {
  "note": "Every history tree of nested calls/reverts on every open batch. Findings: C24_violated_len (len/iter count a key once per nesting level), C24_violated_underflow."
 },
 "C25": {
  "note": "Refuted for every hash (deletion, separator); C25_identifies_separated proves it for delimiter-free batches whose keys and values are distinguishable."
 },
 "C26": {
  "note": "Round trip both ways for all in-range blocks; out of range raises; finding: other hash lengths are cut/padded silently."
 },
 "C41": {
  "note": "Block notifications = exactly the matching events, for all filters, blocks and hashes."
 },
 "C27": {
  "note": "Scalars and whole parameter dictionaries; Python's handling of non-ASCII digits and spaces is any function."
 },
 "C28": {
  "note": "Exact price in every reachable running state; libraries behind the API are arbitrary functions. json_dumps computes the text first and is charged before handing it out; C28_json_unpriced: without the revision bit JSON is free."
 },
 "C32": {
  "note": "Positions of blocks in terms, the start height rules, when a base transaction is due, and that a start once reached never moves and terms only grow, for every history of blocks and transactions. Heights are unbounded integers (no int64 overflow)."
 },
 "C33": {
  "note": "The log of issues is exactly the schedule's first terms, the total is bounded, and a proposer's base transaction is always accepted and due exactly when one is made, for configured amounts of at least 1; C33_violated_zero_amount: a chain configured with amount 0 deadlocks at the first term."
 },
 "C34": {
  "note": "Coverage of all obligations by the treasury in every history of ordinary transactions (nobody holds the treasury's key), claims paid exactly, claims accepted."
 },
 "C35": {
  "note": "At most one reward per identifier and term in every history, the complete effect of an accepted report, and the exact acceptance condition (never refused for lack of funds)."
 },
 "C36": {
  "note": "Supply = sum of balances = genesis + issued - burned in every history; transfers and calls exact."
 },
 "C37": {
  "note": "Exact remainder after a claim, claim rate rules, split of company rewards (in C35_credit); C37_company_locked is a finding: private company planets can claim nothing at rates up to 3/5."
 },
 "C38": {
  "note": "Registry count exact and bounded in every history, exact effects of register/unregister, nothing else changes it; C38_alias: identifiers are cut to 64 bits."
 },
 "C42": {
  "note": "Refinement of the pointer-sharing list with its cached index to a plain duplicate-free list, for every sequence of operations, snapshots and resets to snapshots handed out before. Single thread; hashes and serialization not modelled."
 },
 "C39": {
  "note": "Over every history of vexec from any duplicate-free initial set. C39_term is stated for the set before the block's own votes are processed (C40_penalty says what they change). Active nodes are current only from the first decentralised term on and while grantValidator is not used: C39_violated_two_seats. Findings: C39_violated_stranger (an active node nobody registered makes the first block of each term fail), C39_violated_keyless (leftover error makes the base transaction fail), C39_violated_order (Go map order changes the resulting list), C39_violated_empty, C39_contract_owner."
 },
 "C40": {
  "note": "C40_struck: exact criterion over histories in which nobody enables the validator and the allowance in force is constant. Findings: C40_violated_forgiven (enableValidator on an enabled validator forgets its misses for free), C40_violated_old_node (votes about a given-up node disable the owner while its new node stays active)."
 },
 "C43": {
  "note": "C43_violated_silent: grantValidator and revokeValidator change the set without events."
 },
 "C44": {
  "note": "Proved for code objects with at most 256 constants. C44_violated_extended: with more, EXTENDED_ARG makes the validator read the wrong level and `import os` passes. C44_violated_first: the package's __init__.py runs before anything is checked. C44_violated_main: a main module that is not a .py file is never checked. C44_no_named_import: `from iconservice import X` is refused for every X, so the iconservice whitelist has no effect."
 },
 "C45": {
  "note": "C45_violated_escape: entries with '..' are written outside the directory. C45_violated_size: a header size of 2^63 becomes negative and lifts the limit on the whole content; the bound is proved for sizes below 2^63."
 },
 "C46": {
  "note": "C46_store is the refinement; premises: 32-byte digests and no two different nodes written with one digest. C46_violated_delete and C46_violated_empty are findings."
 },
 "C47": {
  "note": "C47_hash_of_contents (canonicity) and C47_hash_binds (binding); C47_violated_empty is a finding."
 },
 "C48": {
  "note": "C48_sound and C48_complete as stated, against the model of getProof/prove. Two defects found: Prove panics on a key that ends at a branch without value although GetProof gave the proof (C48_violated_panics); trailing pieces of a proof are not refused (C48_violated_junk)."
 },
 "C49": {
  "note": "Defect found: before revision 3 anybody sets the USDT price (C49_violated_price)."
 },
 "C50": {
  "note": "C50_listing over all runs; C50_same_listing: sorted listings with the same members are equal and have no key twice. Finding: after a database error Has stays true for ever (C50_violated_endless), so a loop that only looks at Has does not end."
 },
 "C51": {
  "note": "C51_votes_on_record and C51_winner refine the code to the rule in Spec/VoteSpec.v; C51_final is stability and uniqueness of the winner."
 },
 "C53": {
  "note": "C53_agreement is for executions in which a restarting node finds its lock recorded ([reachable C byz true]); C53_violated_relock is a concrete execution without that condition, with 1 Byzantine of 4 and one restart, in which two honest nodes finalize different blocks: consensus.go 851-854 raises lockedRound without writing to the lock WAL."
 },
 "C54": {
  "note": "C54_vote_once needs neither collision freedom nor a Byzantine minority. C54_violated_disk: lines 1291-1296."
 },
 "C52": {
  "note": "C52_accepts is an equivalence; C52_violated_panics: signedbase.go 43-48 returns nil, validatorlist.go 116 calls Bytes on it (common/address.go 96-98)."
 },
 "C55": {
  "note": "Panics modelled: the step check of beginStep, a vote for a part set without a decoded block, commitAndEnterNewHeight without a part set, and the callback of ImportBlock finding no current part set; the recursion bound of the model counts as a failure too. A validator set of size 0 (division by zero in the proposer index) and errors returned by the block manager's Finalize are outside."
 },
 "C56": {
  "note": "Two sufficient conditions proved; five counterexample histories proved (C56_violated_edge, _raised, _lowered, _disk, C56_leftover_refused)."
 },
 "C57": {
  "note": "Exactness under the conditions of C56; soundness unconditional."
 },
 "C58": {
  "note": "Exact characterization (iff) proved for all values; two exceptions proved as theorems."
 },
 "C59": {
  "note": "Injectivity of the binary form, agreement of the forms, stability under resending; C59_violated_type is a proved counterexample across forms."
 },
 "C60": {
  "note": "Full serializability for write locks, account read locks and the world write lock; C60_violated_world_read and C60_violated_error_lost are proved findings."
 },
 "C61": {
  "note": "Progress, termination, completion and absence of panics for all schedules; C61_violated_rollback is a proved reachable panic."
 },
 "C62": {
  "note": "The agreement of the first call to share the fee stays (it is kept for the transaction), as stated in C62_failed_call."
 },
 "C63": {
  "note": ""
 },
 "C64": {
  "note": "C64_violated_blocked is a proved finding."
 },
 "C65": {
  "note": "Example dishonest: without honest engines the payers can pay more than the transaction used (the sender is then paid the difference); engines are trusted."
 },
 "C66": {
  "note": "Deposits are assumed sound after the call (C64 shows the operations keep them so); the fee bounds of a successful transaction use the honest engines of C65."
 },
 "C67": {
  "note": "Findings: C67_violated_header (io.ReadAtLeast says EOF when nothing follows the header), C67_violated_repair and C67_violated_gap (os.Remove(fileFor(w.id, idx)) instead of i), C67_violated_zeros (eight zero bytes are a valid empty record)."
 },
 "C68": {
  "note": "Findings: C68_violated_forms, C68_violated_inside, C68_violated_transaction (MaxSizeForBytes is 1e6, the default MaxBlockTxBytes is 1048576, and the size check of a transaction counts the compacted JSON of its data only, while its bytes keep the white space)."
 },
 "C69": {
  "note": "Findings: C69_violated_blocked (the loop of Candidate ends at the first transaction which does not fit), C69_violated_bloom (updateBloom makes an unlinked filter for an element without predecessor)."
 },
 "C70": {
  "note": "Findings: C70_violated_reject (Reject cancels the peer's fetcher without giving its height back), C70_violated_send (newFetcher's failure is reported before the peer has the fetcher), C70_violated_nothing (begin > end), C70_violated_short (OnEnd(nil) without peers). The caller is assumed to answer each notification at most once, GetPeers to name each peer once."
 },
 "C71": {
  "note": "Findings: C71_violated_crash (a branch proof node of two items is taken as an extension with an empty key and panics), C71_violated_multiple and C71_violated_same_id (PartSet() builds the trie only when the current part is unfinished), C71_violated_mask (Flip clears the last word when the number of bits is a multiple of 64)."
 },
 "C72": {
  "note": "Findings: C72_violated_negative (BitArray.Verify accepts a negative NumBits and Copy then makes a slice of negative length), C72_violated_multiple (Flip). C72_delivers takes the transport of each part as a hypothesis (it is C71_transport)."
 },
 "C73": {
  "note": "Findings: C73_violated_resume (CopyContext writes to the raw database and resolve() stops at any node that is there), C73_violated_crash (layerDB.Flush is not atomic and writes in the order of arrival, parents first). What an account refers to is a parameter (any function of its bytes). Hypotheses of the general theorems: the world is whole (each part under its hash, no part holds its own hash, a part used in two ways refers to the same parts); C73_trie proves them for every trie made by a history."
 },
 "C74": {
  "note": "Findings: C74_violated_length, C74_violated_stored (merkleRootHasher guards the bucket of message lists during state sync; digestfrombytes.go does not compare the count with the section). The model works on the byte buffer in place, as the code does. Items are 32 bytes. Two-sided clash instead of an assumption on the hash."
 },
 "C75": {
  "note": "Finding: C75_violated_overwrite (the bucket of message lists is keyed by the Merkle root alone, which does not say the depth; see C74_violated_length). Hash functions and the hash of a proof context are parameters; RLP is the encoder of C68. Sequence numbers below 2^62."
 },
 "C76": {
  "note": "Findings: C76_violated_nil, C76_violated_split, C76_violated_padded. Signature recovery, decision hashes and the RLP of parts and proofs are parameters. That keys are distinct is a hypothesis of C76_keys and C76_cast (SetPublicKey refuses a key that is in use)."
 },
 "C77": {
  "note": "Finding: C77_violated_stale (revokeValidator of the last validator of the list, openBTPNetwork of a type for the first time, grantValidator of the same in one block). C77_keys needs that there is one DSA, as in the code; C77_two_dsas shows that it fails with two. Databases are functions; modules, DSA and contexts are parameters; key masks, names and heights of networks, and who may call, are not modelled."
 },
 "C78": {
  "note": "Findings: C78_violated_raised (onCommit forgets by the threshold of the block; the threshold of the checker is set later and may be more), C78_violated_full (flushSlotIfFull forgets all IDs of the period, for any size). Normal group only; int64 does not overflow; each call is one step (the lock); the locators are a parameter (C56 and C57 are about them)."
 },
 "C79": {
  "note": "Findings: C79_violated_networks (doublesigndata.go:67-68 reads the network of the same vote twice; consensus refuses votes of other networks before its log, but a transaction with a report is decoded without that check), C79_violated_first (a proposal of another network that is logged first stays; consensus refuses these before). Messages have valid signatures; hashes, signers, networks and costs are parameters; the hash of a vote has its time stamp, as in the code, so the same vote signed at two times is two votes. The transaction and its handler are not modelled."
 }
}