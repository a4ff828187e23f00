# Formal model of goloop-havah (Python execution environment and HAVAH core) in Rocq/Coq

## Layout

* `rocq/theories/Model/*.v`  executable Gallina models, one per source area. Every definition cites the
  file and lines in `/repo` it models, and says where it simplifies.
* `rocq/theories/Spec/*.v`   small specifications independent of the model (two's complement value,
  eager step accounting, abstract list/map/cell, supply ledger, ...).
* `rocq/theories/Proof/*.v`  lemmas and proofs.
* `rocq/theories/Props/*.v`  property theorems only: each closed by `exact`, with `Print Assumptions`
  beneath and an `Example` which meets its hypotheses.

Conventions: numbers are `Z`; bytes are `list Z` with every element in `0..255`; Python exceptions are
values (`Exc e`); waiting forever for a message is the value `Stuck`, which no handler can catch; loops
with data dependent length use structural recursion or explicit fuel whose exhaustion is excluded by the
theorem. `sha3_256` is an arbitrary function; where the code relies on it being collision free the
theorem assumes injectivity *only on the finite set of inputs concerned*.

## The executor machine (C06-C17)

`Model/EE.v` models one executor process connected to the node: the node's key-value store of the
contract, its replies in order (inbox), the executor's queue of write handlers, the context stack with a
step counter per frame, the proxy's read-only flag and its stack, and the trace of messages sent. The
node executes a message when it is sent; the executor sees the reply only when it receives. SCORE code is
an arbitrary tree of API calls whose continuation receives the result *or exception* of each call, so
theorems quantify over every program, including programs that catch exceptions. An inter-SCORE call
carries an arbitrary list of nested invocations (each with its own program) and an arbitrary reply.

## HAVAH (C32-C40, C43)

`Model/HvhState.v`, `Model/HvhExt.v`: the reward economy. One record field per container of the extension
state, one per account balance; every API of the chain SCORE concerning planets and rewards, the base
transaction (issue, term start/end, rewards, hoover fund, fees) and the block rules that decide when a base
transaction is due. A history is any sequence of blocks and transactions by any callers (`Spec/HvhSpec.v`).
`Model/HvhValidator.v`: validators. `vexec` runs one operation; a failed one changes nothing. The order in
which Go iterates the map of penalised seats is an argument of the block (any permutation). BTP keys are an
arbitrary predicate the environment may change at any time. `account_of`, the address of a public key, is
any partial function.

## Plan per property

| id | modelled | proof |
|----|----------|-------|
| C01 | both Python integer codecs | two's complement arithmetic, induction on byte lists |
| C02 | Python and Go (`big.Int`, `int64`, `uint64`) codecs | value determines minimal bytes |
| C03 | RLP-style key encoding, Python and Go, decoder, float rounding of lengths | prefix-freeness, induction on part lists |
| C04,C05 | sub-db/tag/prefix composition and slot hashing | injectivity from C03; exact characterisation, witness for C05 |
| C06-C08 | VarDB, DictDB, ArrayDB over the executor's database calls | refinement to cell/map/list in every reachable state |
| C09 | remote scan by the node, its cut-off, and charging | induction over the scan; witnesses |
| C10 | same | frame lemma over slots |
| C11 | executor machine with message trace | induction over programs |
| C12 | step counter of each frame | invariant over executions |
| C13 | lazily processed write replies | simulation with an eager machine (`Spec/EagerEE.v`) |
| C14 | ghost numbering of messages | invariant |
| C15 | invoke/call/result nesting | `Spec/Nesting.v`, induction |
| C16 | same | witness by computation, for every hash |
| C17 | message_call, callee limit and charge | invariant and case analysis |
| C18 | exception codes and texts, UTF-8 of messages | case analysis; witness |
| C19 | method flags, dispatch in executor and node | case analysis over flags; induction over tables |
| C20 | typed wire values | round-trip induction over nested values |
| C21 | address text and bytes | round trips |
| C22 | argument binding, event emission, indexed split | induction over parameters |
| C23 | bloom filters, Python and Go | bitwise reasoning |
| C24,C25 | batches: nested call/commit/revert, digest | refinement to a stack of maps; witnesses |
| C26 | block records (`struct` packing) | round trip both ways |
| C27 | JSON parameter conversion | round trip by type |
| C28 | API price formulas and order of charge and work | symbolic execution in every running state |
| C29 | decorators and flag validation | enumeration of flag sets, both directions |
| C30 | API description, its wire form, the node's reading | induction over signatures and type depth |
| C31 | fee proportion | trace invariant |
| C32 | term arithmetic, start height rules, when a base transaction is due | arithmetic; invariant over histories |
| C33 | issue schedule | log of issues = schedule prefix, invariant |
| C34 | treasury obligations | sum invariant over histories |
| C35 | planet reports | invariant: last rewarded term |
| C36 | transfers, issue, burn | conservation invariant |
| C37 | private/company payout rules | arithmetic of claim rates |
| C38 | planet registry | counter = cardinality invariant |
| C39 | validator registry and active set | invariant `regs`/`vinv` over all operations; `turn` = exact round-robin specification |
| C40 | votes, penalties, enabling | projection of a history to the votes heard about one owner; runs of misses |
| C41 | event monitor filters and bloom pre-check | matching events exactly |
| C42 | pointer-sharing validator list | refinement to a plain list with snapshots |
| C43 | validator events | replay of events = active set |
| C44 | bytecode validator over code objects; spec: nondeterministic bytecode semantics with EXTENDED_ARG | soundness against the semantics; refutations by concrete code objects |
| C45 | storePython over lists of entries, Go path functions modelled | induction over the entries |
| C46 | common/trie/ompt with RLP coding, hash nodes read back from the database, nondeterministic compaction | canonical tries, simulation between partially loaded tries and hash-free ones, then refinement of a version store |
| C47 | as C46 | uniqueness of canonical tries; induction on the Merkle structure with collision-freeness on the explicit list of nodes only |
| C48 | Model/MptProof.v: getProof and prove of every kind of node, GetProof, Prove; Spec/ProofSpec.v: a verifier's session | the verifier's partly filled trie stands for the same canonical tree as the prover's (rep); induction on the tree |
| C49 | Model/HvhState.v, Model/HvhExt.v (as for C32-C38) | case analysis over calls with the 'keeps' rules; permutation argument for the swap in RemovePlanetManager |
| C50 | Model/MptIter.v: iterator stack, traverse, Next, Filter, a client loop, with fuel; Spec/IterSpec.v: lexicographic order, prefixes | in-order list of a trie's contents; the list still to come from a stack is the filtered concatenation; induction on the number of nodes on the stack; correspondence of nibble and byte order |
| C51 | Model/Votes.v: vote, counters with swap removal, cached maxIndex, add, queries, votes of a height; Spec/VoteSpec.v: which vote is on record, what wins | counters as a permutation-invariant weight equal to the tally of the stored votes; refinement by induction on the history |
| C53 | Model/Consensus.v: the engine of one node at one height as an event handler with its three write-ahead logs, crash at any effect, recovery; Spec/ConsensusSpec.v: the network with Byzantine validators, reachable states | log of signed votes as ghost state; per node invariant tying round, step, lock, vote sets and log contents to it, preserved by every call, crash point and recovery; quorum intersection; the counterexample is an execution replayed by computation |
| C54 | Model/Consensus.v, Spec/ConsensusSpec.v (as C53) | the invariant of C53 without its quorum part |
| C52 | Model/CommitVotes.v: list, VerifyBlock with panic as outcome, median with int64 wrap, block time check, building a list; Spec/CommitSpec.v: who signed what | loop invariant: the bit vector is the set of addresses seen; inclusion-exclusion on lists; median by counting honest items on either side of the middle of the sorted list |
| C55 | Spec/ConsensusLife.v: states reachable by one node under arbitrary events and restarts from arbitrary logs | invariant with one lemma per handler, ordered by how deep each can call the others (commit 1, new round 2, ... transaction wait 12, the model allows 24); restart from any log ends in one of four steps |
| C56 | Model/TxLocator.v: locator manager, cache and writer, trackers, restart; Spec/TxOnceSpec.v: the node and its histories | invariant over all histories (Proof/TxOnceFacts, TxOnceWorld, TxOnceMain, TxOnceLoc): every finalized block has a list in the cache or is in the database below maxTSInDB |
| C57 | as C56 | invariant Proof/TxOnceExact.v: cached lists and flushed prefixes have the right entries in the database, uniqueness from C56 |
| C58 | Model/TxHash.v: serialize, serialize_map, preimage_map; Spec/TxHashSpec.v: content, plain, has_bool | prefix-injectivity of the serialized content by induction (Proof/TxHashFacts.v), serialize = serialized content (Proof/TxHashSer.v), insertion sort is order independent on different keys |
| C59 | Model/TxHash.v: preimage_v3, tx_id, parse_json, resend, hexnum, addr_text; the decoder is a parameter | splitting at dots: from occurs once as a piece after the data type (Proof/TxHashForms.v); sorting the shown document (Proof/TxHashAgree.v) |
| C60 | Model/ParallelExec.v: the virtual world states as records, one event per operation of a goroutine; Spec/ParallelSpec.v: sequential execution, permissions | invariant relating every virtual state to the sequential run through ghost worlds (Proof/ParInv.v): the oldest uncommitted writer of an account holds the real account |
| C61 | Model/ParallelExec.v: operations return Ok, Blocked or Panic | the invariant of C60 gives the outcome of every operation; termination by well-founded induction on what is left of the programs (Proof/ParHalt.v) |
| C62 | Model/CallFrames.v: the stack of frames as a list, one action per message of an engine or a handler; Spec/CallSpec.v: call trees and what they leave | a relation between stacks and zippers of call trees, kept by every action (Proof/CallFacts.v, CallTrace.v) |
| C63 | as C62 | invariant: below a read-only frame all frames are read-only and the snapshot of the read-only frame is the world |
| C64 | Model/Deposits.v: deposits of both versions, the three consumers, PaySteps, CanPay, withdrawing, storing; Spec/DepositSpec.v: a ledger | induction over the lists and the history (Proof/DepositFacts.v) |
| C65 | Model/CallFrames.v (payers of frames), Model/FeePayers.v (paying); Spec/FeeSpec.v: the nested rule over trees of calls | a representation relation between flat payer lists and trees of calls (Proof/FeeFacts.v), kept by every action of a run (Proof/FeeFrames.v, FeeTx.v); bounds by induction over the tree (Proof/FeeBounds.v) |
| C66 | Model/TxExecute.v over CallFrames, Deposits, FeePayers; Spec/TxSpec.v: refusals, what happened, steps, who shares | the base frame after the call from C62 and C65; the loop by its three endings (Proof/TxCharge.v), the receipt (Proof/TxPays.v, TxAccount.v) |
| C67 | Model/Wal.v: files as bytes, the writer with its buffer, the reader, the repair, a crash which keeps any prefix of the tail at least as long as what was synced; CRC-32C. Spec/WalSpec.v: closed files and an open one as lists of records, how many are safe | simulation between the bytes and the list of records for every step (Proof/WalFacts.v, WalSim.v); the bad tears for all records (Proof/WalBad.v) |
| C68 | Model/Rlp.v: types and values, the writer, readers with what is left of their list and the cap on byte strings. Spec/RlpSpec.v: which values a type has, which types are meant, the longest byte string | induction on types; read functions take away what the write functions made (Proof/RlpFacts.v); every reading function is steady: it depends on what it takes only (Proof/RlpPrefix.v); types of what is read (RlpTyped.v); more or fewer fields and the findings (RlpForms.v) |
| C69 | Model/TxPool.v: the elements as a heap with the four pointers, both maps, the chained filters; Candidate with the world and validator as parameters. Spec/TxPoolSpec.v: entries with arrival numbers, histories, reasons | linked segments over maps (Proof/TxPoolFacts.v), representation invariant (TxPoolInv.v), Add and Remove (TxPoolAdd.v), operations (TxPoolOps.v), Candidate (TxPoolCollect.v), histories (TxPoolSys.v), filters (TxPoolBloom.v) |
| C70 | Model/FastSync.v: heightSet, peers, fetchers, the window of pending results, every method and timer as one step; the outcome of each send and the parser are parameters. Spec/FastSyncSpec.v: histories, what can be seen, the automaton of one request | heights counted over the three places (Proof/FastSyncInv.v, FastSyncOps.v), each step (FastSyncSteps.v), histories (FastSyncSys.v), barred peers (FastSyncMore.v), endings and requests which never end (FastSyncDead.v) |
| C71 | Model/BitArray.v, Model/PartSet.v (buffer, maker, receiver, reader, codec of a part, packed application data, prove on an ompt). Spec/PartSetSpec.v: cutting, offers, no collision among the pieces offered | uniqueness of cutting; the maker's proofs from the tree it built (Proof/PartHonest.v); verification of any proof against a hash (PartProve.v); invariant of a receiver over any offers (PartSetFacts.v) |
| C72 | Model/PeerSync.v: round states, their check, doSync with an engine of any answers and any random numbers. Spec/PeerSyncSpec.v: masks as sets, turns of the loop | bit arrays bit by bit (Proof/BitArrayFacts.v, PeerSyncFacts.v); induction over turns with the set of parts still wanted (PeerSyncRun.v); composition with C71 |
| C73 | Model/StateSync.v: builder, requesters, layered store, copy; Spec/StateSyncSpec.v: parts of a state, whole, fetched, deliveries | an invariant of the builder - every part present or pending, and so are the children of those present - kept by every delivery (Proof/StateSyncInv.v); a measure of missing parts for copies (StateSyncRun.v); parts of a trie against its stored nodes (StateSyncTrie.v, on C46's proofs) |
| C74 | Model/BtpMerkle.v: in-place passes over the buffer; Spec/BtpMerkleSpec.v: levels, top, climb | invariant of a pass (written front, unread rest); induction on levels; clash extracted at the first level that differs |
| C75 | Model/BtpSection.v: the builder with both map walks as arguments, sections, digest, buckets; Spec/BtpSectionSpec.v: what the sections must be, and a receiver's computation | sorted insertion gives the one ascending list; injectivity of the RLP forms and C74 for binding; clash as a disjunct |
| C76 | Model/BtpProof.v: parts, proofs, contexts, votes and the certificate both ways; Spec/BtpProofSpec.v: signs, quorum | loop invariant of Verify; the proof collected from votes is determined by the set of votes; pigeonhole on seats |
| C77 | Model/BtpState.v: operations, marks of the block, the end of the block, contexts of consensus; Spec/BtpStateSpec.v: reachable states, right_context | invariants over operations (types, networks, marks), over the end of the block, and over blocks; C75_sections for what the builder makes |
| C78 | Model/TxDropped.v: the cache with its slots, the manager, the checks; Spec/TxDroppedSpec.v: histories and what is dropped in a period | invariant over histories (slots in order, counts, lowest time, who is in a slot); induction over what follows the drop |
| C79 | Model/DoubleSign.v: conflicts, cache with random eviction (numbers as functions), log, manager; Spec/DoubleSignSpec.v: double_signed, committed | invariants of the cache (keys, sum) over evictions, of the log over messages; of the manager over operations; induction over what follows a report |

## What is modelled and what is not

Modelled (each definition cites lines): pyee/pyexec/{base/address.py, base/block.py, base/exception.py,
base/type_converter.py, database/db.py, database/batch.py, iconscore/icon_container_db.py,
iconscore/icon_score_base.py, icon_score_base2.py, icon_score_loader.py, score_package_validator.py, icon_score_constant.py, icon_score_eventlog.py,
icon_score_step.py, internal_call.py, typing/*.py, ipc/proxy.py, service_engine.py, pyexec.py,
utils/__init__.py, utils/bloom.py}; on the node's side common/intconv/bytes.go, common/containerdb key coding,
the reply behaviour of service/eeproxy/proxy.go, service/contract/callhandler.go, service/scoreapi,
service/txresult/logsbloom.go, server/wsevent.go, service/state/validatorlist.go, service/contract/contractmanager.go (storePython), common/trie/ompt (byte tries: nodes,
RLP, hashing, database, flush, compaction; not its locks, node cache, merkle sync and in-place sharing of nodes); consensus/{voteset,votebase,votelist}.go
(one height), consensus/commitvotelist.go (without NTSDProves), VerifyTimestamp of block/blockv2.go, consensus/{consensus,step,blockpartset}.go (one height; what is left out stands at the head of Model/Consensus.v); common/txlocator/manager.go with its use in service/{txidmanager,tschecker,transition}.go; service/{transactionlist,transactionpool}.go, consensus/fastsync/{client,heightset}.go, consensus/{partset,bitarray}.go with prove of common/trie/ompt, doSync of consensus/syncer.go, common/merkle/{builder,copy}.go, common/db/layer_db.go, the Resolve methods of common/trie/ompt and service/state and TxBloom of service/txshare.go (clocks, monitors and logs left out)
and block/manager.go (IDs and timestamps only, one group); service/transaction/{serialize,transaction_json,transaction_v3}.go (the bytes of the ID, JSON decoding as a parameter), encodeHexNumber of common/intconv/string.go, common/address.go (String); service/state/worldvirtualstate.go (accounts only: no validators, extension and BTP state; each operation one atomic step) with the goroutines of service/transition_pe.go; service/contract/{callcontext,callframe}.go (one transaction, engines as arbitrary sources of actions; no execution IDs, object graphs and custom logs), service/state/{deposit,depositlist}.go, service/contract/feepayerinfo.go, service/transaction/transactionhandler.go (no legacy flags, estimation and tracing); consensus/wal.go with its use at a start (one log; no timers, no failing writes); common/codec/{rlp,codec,bytes}.go (no maps, interfaces and types with their own methods); btp/ntm/module.go and btp/{builder,sectionbybuilder,digest,digestfrombytes,sectionfromdigest}.go (hashes of a module as parameters), btp/ntm/secp256k1proof.go and btp/proofcontextmap.go (Verify) with the parts of consensus/message.go and commitvotelist.go about network types; service/state/btp.go (the state of C77, apart from that of the validators of HAVAH); service/txidcache.go, and of service/{txidmanager,tschecker}.go what drops and checks transactions; consensus/{doublesigndata,dsmlog}.go, common/cache/costerrandom.go and service/dsrmanager.go (not the transactions of reports), the rest of btp/proofcontextmap.go; havah/hvh and havah/hvh/hvhstate except as below.

Not modelled: msgpack framing, sockets, threads and locks, the Python interpreter itself (SCOREs are abstract
programs; library functions such as `int.to_bytes`, `struct.pack` and UTF-8 are modelled by definition and
say so), logging, wall-clock time, the node's database engine, SHA3 and signature internals
(arbitrary functions), networking, the Java executor. In HAVAH: RLP coding of stored records,
overflow of int64 heights and counters (API arguments do wrap), step charging of the chain SCORE, nil
arguments, query mode, the member list of a permissioned chain, the link of BTP state (C77) to the rules for validators, where "node has its keys" is a predicate.

## Trusted base

Coq 8.16.1's kernel (and its `vm_compute`, used in examples and witnesses); no axioms: `Print Assumptions`
stands under each theorem in `Props/` and says "Closed under the global context" for each; the correspondence between the cited
source and the model, which is by reading: the code is not run here.
Section variables (`sha3`, `account_of`, cost tables, programs) are universally quantified in the closed theorems.
