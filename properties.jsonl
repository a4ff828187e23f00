{"id": "C01", "title": "Integer wire/storage encoding round-trips", "statement": "Encoding any Python integer for storage or for the IPC wire yields bytes which decode to exactly that integer; no integer is rejected.", "quantifier": "every integer of any magnitude and sign", "why_tests_cant": "the integers are unbounded and the failures sit at byte-length boundaries of every size", "anchors": ["pyee/pyexec/utils/__init__.py:int_to_bytes,bytes_to_int,byte_length_of_int", "pyee/pyexec/ipc/proxy.py:int_to_bytes,bytes_to_int"]}
{"id": "C02", "title": "Integer encoding is minimal, injective and identical on the Go side", "statement": "The bytes produced for an integer are the unique shortest two's-complement form: two integers never share an encoding, no shorter byte string decodes to the same integer, and the Go node produces the same bytes and decodes any byte string to the same integer.", "quantifier": "every integer; every byte string", "why_tests_cant": "agreement of two independent implementations over an unbounded domain", "anchors": ["pyee/pyexec/utils/__init__.py:int_to_bytes", "common/intconv/bytes.go:BigIntToBytes,BigIntSetBytes,Int64ToBytes,Uint64ToBytes"]}
{"id": "C03", "title": "Storage key parts are encoded self-delimitingly", "statement": "Concatenating the encodings of any list of key parts determines the list: different lists of parts never give the same concatenation, a decoder recovers the parts, and the Go containers compute the same bytes.", "quantifier": "every finite list of byte strings (each part shorter than 2^53 bytes)", "why_tests_cant": "collisions between concatenations are adversarial inputs, not sampled ones", "anchors": ["pyee/pyexec/database/db.py:rlp_encode_bytes,rlp_get_bytes,get_encoded_key,concat_encoded", "common/containerdb/key.go"]}
{"id": "C04", "title": "Containers with different kind or name never share a storage slot", "statement": "For containers created directly on a SCORE's database, the storage slot of an element determines the container kind (Array, Dict, Var), the container name bytes and the element's key path, as long as the hash does not collide on the slots in use.", "quantifier": "every container kind, name, key path; every hash function without a collision among the slots considered", "why_tests_cant": "needs all pairs of containers and keys", "anchors": ["pyee/pyexec/database/db.py:IconScoreDatabase.get_sub_db,_hash_key", "pyee/pyexec/iconscore/icon_container_db.py:DictDB,ArrayDB,VarDB"]}
{"id": "C05", "title": "Sub-databases isolate only different container names and kinds", "statement": "Two container slots, created in whatever sub-databases, coincide exactly when the containers have the same kind and name and the concatenation of sub-database prefixes, nesting keys and element key is the same; in particular get_sub_db does NOT isolate: ArrayDB('a', db.get_sub_db(p)) shares slots with ArrayDB('a', db).", "quantifier": "every pair of databases, prefixes and container names", "why_tests_cant": "existence of an aliasing pair is found by reasoning on the key layout, not by sampling", "anchors": ["pyee/pyexec/database/db.py:IconScoreDatabase.get_sub_db,_hash_key", "pyee/pyexec/iconscore/icon_container_db.py"]}
{"id": "C06", "title": "VarDB behaves like one optional cell", "statement": "After any history, VarDB.get returns the last value set and not removed (the type's default if none or if the stored encoding was empty), whatever other operations raised in between; an operation that raises leaves the cell unchanged.", "quantifier": "every value of every supported type, every history, every step limit", "why_tests_cant": "every history and every point where the step limit may hit", "anchors": ["pyee/pyexec/iconscore/icon_container_db.py:VarDB,ContainerUtil"]}
{"id": "C07", "title": "DictDB behaves like a finite map", "statement": "After any history, d[k] is the last value stored under a key with the same encoding and not removed (else the default), `k in d` is true exactly when such a non-empty value is present, and writing one key never changes another.", "quantifier": "every key and value of the supported types, every history, every nesting depth, every step limit", "why_tests_cant": "every history over unbounded keys", "anchors": ["pyee/pyexec/iconscore/icon_container_db.py:DictDB"]}
{"id": "C08", "title": "ArrayDB behaves like a list", "statement": "put appends, pop removes and returns the last element, indexing (including negative) reads and writes exactly that position, len is the number of elements, iteration yields them in order, out-of-range indices raise without changing anything, and an operation that raises leaves the list unchanged, with one exception shown to be real: a pop that runs out of steps after deleting the element leaves a blank last element that is still counted.", "quantifier": "every list content, index, history and step limit", "why_tests_cant": "every history and crash (out-of-step) point", "anchors": ["pyee/pyexec/iconscore/icon_container_db.py:ArrayDB"]}
{"id": "C09", "title": "Membership test on ArrayDB is right or out-of-step", "statement": "For an item of the element type with a non-empty encoding, and a cost table that is not (no schema, positive get base cost), `x in array` answers whether some element encodes like x, or raises out-of-step; it never answers wrongly because the remote scan stopped at the cost limit. In the two excluded corners a wrong False is shown to be possible. For items of other types it compares decoded elements with ==.", "quantifier": "every array content, value, step limit, cost table with non-negative get costs", "why_tests_cant": "the scan is cut off by a remaining-step bound computed in another process", "anchors": ["pyee/pyexec/iconscore/icon_container_db.py:ArrayDB.__contains__", "pyee/pyexec/database/db.py:ContextDatabase.contains", "service/contract/callhandler.go:ArrayDBContains"]}
{"id": "C10", "title": "Operations on one container never affect another", "statement": "Any operation on one container (whether it returns or raises) leaves every read of a container of another kind, name or path unchanged.", "quantifier": "every pair of containers on a SCORE database, every operation, every state", "why_tests_cant": "all pairs of containers and operations", "anchors": ["pyee/pyexec/iconscore/icon_container_db.py", "pyee/pyexec/database/db.py"]}
{"id": "C11", "title": "Read-only execution never writes", "statement": "No SETVALUE, EVENT or fee-sharing message ever leaves the executor for a request flagged as a query, and no SETVALUE or EVENT leaves it from a method declared read-only (the SCORE's own constructor excepted), whatever the SCORE code does, including catching exceptions; nested calls are judged by their own request.", "quantifier": "every SCORE program, every nesting of calls, every reply history", "why_tests_cant": "ranges over all SCORE programs and their exception handling", "anchors": ["pyee/pyexec/database/db.py:_is_db_writable_on_context", "pyee/pyexec/ipc/proxy.py:set_value,send_event,set_fee_proportion", "pyee/pyexec/iconscore/icon_score_eventlog.py"]}
{"id": "C12", "title": "Used steps never exceed the limit", "statement": "During any execution the used steps of every frame never exceed its limit, and a charge that would exceed it raises out-of-step with the counter set to the limit.", "quantifier": "every SCORE program, cost table with non-positive refunds, limit, and timing of lazily processed refunds", "why_tests_cant": "refunds arrive asynchronously in batches, so every interleaving matters", "anchors": ["pyee/pyexec/iconscore/icon_score_step.py:IconScoreStepCounter", "pyee/pyexec/database/db.py:ContextDatabase"]}
{"id": "C13", "title": "Lazy refund processing is unobservable", "statement": "Running a SCORE with up to five outstanding, lazily processed write replies gives the same returned value or error, the same writes and the same used steps as charging each write its exact cost immediately.", "quantifier": "every SCORE program, every limit, every cost table whose refunds are non-positive", "why_tests_cant": "a refinement between two machines over all programs and states", "anchors": ["pyee/pyexec/database/db.py:ContextDatabase.put", "pyee/pyexec/ipc/proxy.py:handle_set_values,set_value", "pyee/pyexec/iconscore/icon_score_step.py"]}
{"id": "C14", "title": "Write replies are consumed in order by their own writes", "statement": "Each reply to a write is delivered to the handler of the write which caused it, a read returns the value of its own request, at most five writes are outstanding between operations and none when a call is made or a result is returned.", "quantifier": "every SCORE program and schedule of replies under non-positive delete cost", "why_tests_cant": "FIFO pairing over unbounded histories", "anchors": ["pyee/pyexec/ipc/proxy.py:set_value,handle_set_values,send_and_receive,call"]}
{"id": "C15", "title": "Every invocation is answered once and its frame is removed", "statement": "Each INVOKE request, nested or not, is answered by exactly one RESULT, and afterwards the context stack, read-only flag and pending-write queue are exactly as before it.", "quantifier": "every SCORE program, nesting, error", "why_tests_cant": "all error paths, including errors raised in cleanup code", "anchors": ["pyee/pyexec/ipc/proxy.py:__handle_invoke", "pyee/pyexec/service_engine.py:invoke,_handle_invoke"]}
{"id": "C16", "title": "An INVOKE can stay unanswered when deleting costs steps", "statement": "The guarantee that each INVOKE is answered exactly once needs non-positive refund prices: with a positive delete cost there is a program whose cleanup raises out-of-step outside every handler, so the INVOKE is never answered (negative result).", "quantifier": "existence, for every hash function", "why_tests_cant": "needs a specific combination of cost table, step limit and pending deletes", "anchors": ["pyee/pyexec/service_engine.py:_handle_invoke", "pyee/pyexec/database/db.py:__delete_handler", "pyee/pyexec/base/exception.py:IconServiceBaseException"]}
{"id": "C17", "title": "Calls charge the caller what the callee used", "statement": "An inter-SCORE call passes the caller's exact remaining steps as the limit; on return the caller is charged what was reported used, never ending above its limit, and a callee error reappears in the caller with the same status code.", "quantifier": "every caller state, limit and reply", "why_tests_cant": "depends on all pending refunds and reply values", "anchors": ["pyee/pyexec/iconscore/internal_call.py:message_call", "pyee/pyexec/base/exception.py:IconServiceBaseException.create"]}
{"id": "C18", "title": "User errors map to codes 32..999", "statement": "revert(message, code) and user exceptions whose message is valid text surface as the status 32+code moved into 32..999, never as success or system error, and every frame of a chain of nested calls that lets them through reports the same status with the state rolled back. (False for messages that are no valid text: they surface as system failure 1.)", "quantifier": "every integer code and nesting depth", "why_tests_cant": "unbounded codes and depths", "anchors": ["pyee/pyexec/base/exception.py:IconScoreException,create", "pyee/pyexec/service_engine.py:_get_status_from_exception"]}
{"id": "C19", "title": "Only external methods are callable from outside", "statement": "A call succeeds in reaching a method body only if the method is declared external (or is payable fallback for plain transfers, or the installation hooks without value from the deployer), and with non-zero value only if it is payable; a read-only execution reaches only read-only methods; conversely every external method is reached under its name.", "quantifier": "every SCORE class, method name and value", "why_tests_cant": "all method tables and names", "anchors": ["pyee/pyexec/iconscore/icon_score_base.py:__call,__check_readonly..", "pyee/pyexec/iconscore/typing/element.py"]}
{"id": "C20", "title": "Typed values survive the wire", "statement": "Any value made of None, bool, int, str, bytes, Address, lists and string-keyed dicts is decoded from its wire form to an equal value (tuples become lists).", "quantifier": "every nested value", "why_tests_cant": "unbounded nesting and sizes", "anchors": ["pyee/pyexec/ipc/proxy.py:encode_any,decode_any", "pyee/pyexec/pyexec.py:EECodec", "common/codec/typed.go"]}
{"id": "C21", "title": "Address text and byte forms are faithful", "statement": "Converting an address to text or bytes and back gives an equal address, different addresses have different forms, and malformed input is rejected.", "quantifier": "every address; every input string or byte string", "why_tests_cant": "whole input space of the parsers", "anchors": ["pyee/pyexec/base/address.py"]}
{"id": "C22", "title": "Event logs carry exactly the declared arguments", "statement": "An event call either raises or emits one event whose first item is the declared signature, followed by the resolved arguments in declaration order split at the indexed count; positional, keyword and default arguments resolve as for a Python call; the reserved transfer event cannot be emitted.", "quantifier": "every signature, argument list, keyword map, indexed count", "why_tests_cant": "all combinations of argument passing", "anchors": ["pyee/pyexec/iconscore/icon_score_base.py:eventlog,__resolve_arguments", "pyee/pyexec/iconscore/icon_score_eventlog.py"]}
{"id": "C23", "title": "The event bloom filter has no false negatives", "statement": "Every item added to a filter, or contained in either side of a union, is reported as contained; the filter only depends on the set of items added.", "quantifier": "every multiset of items, every hash function", "why_tests_cant": "all item sets", "anchors": ["pyee/pyexec/utils/bloom.py"]}
{"id": "C24", "title": "Nested batches commit or drop as a unit", "statement": "Reads through a transaction batch see the innermost write; ending a call merges exactly its writes into the parent; aborting it drops exactly them.", "quantifier": "every nesting of calls and every history", "why_tests_cant": "unbounded nesting", "anchors": ["pyee/pyexec/database/batch.py"]}
{"id": "C25", "title": "Batch digest identifies the writes (violated)", "statement": "Two batches with different contents have different digests. (Refuted: keys and values are joined by '|' without escaping, and a deletion contributes no item. It holds when '|' occurs in no key or value and keys can be told from values.)", "quantifier": "every pair of batches, every hash function", "why_tests_cant": "needs a structural counterexample for every hash", "anchors": ["pyee/pyexec/database/batch.py"]}
{"id": "C26", "title": "Block records round-trip", "statement": "A block serialised to bytes and read back is equal, except that an all-zero previous hash reads as absent.", "quantifier": "every block with fields in range", "why_tests_cant": "whole field space", "anchors": ["pyee/pyexec/base/block.py"]}
{"id": "C27", "title": "Parameter conversion inverts the JSON form", "statement": "Values converted to the external hex/text form and back with the declared type give the same value.", "quantifier": "every int, bool, bytes, str and Address", "why_tests_cant": "unbounded values", "anchors": ["pyee/pyexec/base/type_converter.py"]}
{"id": "C28", "title": "API step charges are taken before the work", "statement": "Each charged API call costs base + unit*blocks(size), is monotone in the size, and is charged before the result is produced, so an under-funded call raises instead of answering.", "quantifier": "every input size and limit", "why_tests_cant": "unbounded sizes", "anchors": ["pyee/pyexec/iconscore/icon_score_base2.py"]}
{"id": "C29", "title": "Method flags are validated at class creation", "statement": "A SCORE class is accepted only if every method's decorator combination is a valid one, so no method is at once read-only and payable, and fallback is never external. Every allowed combination is accepted; @isolated never is (finding).", "quantifier": "every flag combination", "why_tests_cant": "all decorator combinations and orders", "anchors": ["pyee/pyexec/iconscore/typing/element.py", "pyee/pyexec/iconscore/icon_score_constant.py"]}
{"id": "C30", "title": "API description matches the declared signature", "statement": "The API list given to the node has exactly one entry, in order, per installation hook, external method, event or payable fallback, with its flags, the number of mandatory (for events, indexed) arguments, and for each parameter its name, type code, struct fields and default. The node reads type codes back exactly for list depth up to 15; beyond, the depth is read modulo 16 (finding).", "quantifier": "every method signature and nesting of list types", "why_tests_cant": "all signatures", "anchors": ["pyee/pyexec/iconscore/score_api_generator.py", "pyee/pyexec/pyexec.py:convert_inputs", "pyee/pyexec/ipc/proxy.py:APIInfo"]}
{"id": "C31", "title": "Fee sharing proportion stays within 0..100", "statement": "No SETFEEPCT message with a value outside 0..100 is ever sent.", "quantifier": "every integer and context", "why_tests_cant": "all values", "anchors": ["pyee/pyexec/iconscore/icon_score_base.py:set_fee_sharing_proportion", "pyee/pyexec/ipc/proxy.py:set_fee_proportion"]}
{"id": "C32", "title": "Term arithmetic partitions the blocks", "statement": "Every block at or after issue start belongs to exactly one (term, index) pair with 0<=index<period, consecutive blocks step through indices, and term start heights are consistent with it.", "quantifier": "every height, start and positive period", "why_tests_cant": "all heights", "anchors": ["havah/hvh/hvhstate/utils.go:GetTermStartAndIndex,IsItTimeToCheckBlockVote", "havah/hvh/hvhstate/state.go:IsIssueStarted,GetTermSequenceAndBlockIndex,SetIssueStart", "havah/hvh/base.go:onBaseTxExecute", "havah/platform.go:OnValidateTransactions"]}
{"id": "C33", "title": "Issued supply is bounded by the schedule", "statement": "The amount issued at each term is the schedule's amount for that term, never negative, non-increasing in time, nothing before the start, and total issuance is bounded.", "quantifier": "every term sequence and configuration", "why_tests_cant": "all histories", "anchors": ["havah/hvh/hvhstate/state.go", "havah/hvh/base.go"]}
{"id": "C34", "title": "Planet rewards are backed by the treasury", "statement": "The public treasury balance always covers the undistributed remainder plus every claimable reward.", "quantifier": "every history of reports, claims, term changes", "why_tests_cant": "unbounded histories", "anchors": ["havah/hvh/hvhstate/state.go", "havah/hvh/extension.go", "havah/hvh/base.go"]}
{"id": "C35", "title": "A planet is rewarded at most once per term", "statement": "Within one term at most one work report per planet is accepted and it credits exactly the share split.", "quantifier": "every history", "why_tests_cant": "unbounded histories", "anchors": ["havah/hvh/extension.go:ReportPlanetWork", "havah/hvh/hvhstate/planetreward.go"]}
{"id": "C36", "title": "Value transfers conserve supply", "statement": "Transfers never change the total of all balances, issue and burn change it and the recorded total supply by exactly their amount, and balances stay non-negative.", "quantifier": "every history of operations", "why_tests_cant": "unbounded histories", "anchors": ["havah/hvh/context.go"]}
{"id": "C37", "title": "Private and company planet payout rules", "statement": "A private planet's claimable share follows the lock schedule and never exceeds the reward; the company split hands out exactly the reward.", "quantifier": "every reward, height, rate", "why_tests_cant": "all integers", "anchors": ["havah/hvh/hvhstate/state.go", "havah/hvh/extension.go"]}
{"id": "C38", "title": "Planet registry count is exact", "statement": "The recorded number of planets equals the number of registered planets and never exceeds the limit.", "quantifier": "every history", "why_tests_cant": "unbounded histories", "anchors": ["havah/hvh/hvhstate/state.go"]}
{"id": "C39", "title": "Validator bookkeeping stays consistent", "statement": "After every history of registrations, unregistrations, key changes, parameter changes and blocks: the lists of main, sub and disqualified validators hold each registered owner in exactly one of them, once; a node address belongs to one owner for ever; grade and disqualification never change back; only governance registers and only the owner changes its information; the active set never lists a node twice; from the first block of a decentralised term on it holds only present nodes of owners that are not disqualified, and the set of each term is the main validators followed by the next sub validators in turn; unregistering removes the node at once.", "quantifier": "every initial set, every history of operations, every order in which the votes' penalties are processed", "why_tests_cant": "histories and rotations are unbounded; the interplay of keys, penalties and rotation shows only in long histories", "anchors": ["havah/hvh/hvhstate/state.go:RegisterValidator,UnregisterValidator,SetNodePublicKey,GetNextActiveValidatorsAndChangeIndex", "havah/hvh/extension.go:initActiveValidatorSet,replacePenalizedActiveValidators", "havah/hvh/hvhstate/validatorinfo.go", "service/state/validatorlist.go"]}
{"id": "C40", "title": "Validator penalty and enable rules", "statement": "A sub validator is disabled exactly when more consecutive votes than the allowance were missed since it was registered, enabled or last voted; a main validator never is; a disabled one loses its seat in that block, and the next ready sub validators in turn take the seats; only governance and the owner may enable it, and without governance it is re-enabled at most three times.", "quantifier": "every history of votes and calls", "why_tests_cant": "unbounded vote histories with interleaved calls", "anchors": ["havah/hvh/hvhstate/validatorstatus.go", "havah/hvh/hvhstate/state.go:EnableValidator,OnBlockVote", "havah/hvh/extension.go:handleBlockVote"]}
{"id": "C41", "title": "The event monitor misses and invents nothing", "statement": "For every block and every list of event filters, the notifications a websocket client receives for the block list exactly the events of its normal transactions that match one of the filters, each once and in order, although blocks and receipts are first skipped by their bloom filters.", "quantifier": "every block, event, filter list and hash function", "why_tests_cant": "bloom prefilter vs matching must agree for all event and filter contents", "anchors": ["server/wsevent.go:FilteredByLogBloom,filterEvents,MatchLog,Compile,RunEventSession", "service/txresult/logsbloom.go"]}
{"id": "C42", "title": "The validator list behaves as a plain list and snapshots do not change", "statement": "For every sequence of lookups, additions, removals, replacements, wholesale settings, snapshots and resets applied to the validator list of a block, every answer is the one a plain list without duplicate addresses would give (in particular the index of an address always is where it is), the list never contains an address twice, and resetting to a snapshot restores exactly the list it was taken of, although states and snapshots share memory and a cached index.", "quantifier": "every initial list and every sequence of operations", "why_tests_cant": "aliasing and cache invalidation bugs show only in particular interleavings of snapshots, lookups and changes", "anchors": ["service/state/validatorlist.go:validatorList,validatorState"]}
{"id": "C43", "title": "Validator events tell the truth", "statement": "For every history without grantValidator and revokeValidator, following the ActiveValidatorAdded, ActiveValidatorRemoved and ActiveValidatorCountChanged events from a known active set gives exactly the active set and its size at the end, and each such event names the owner the node belongs to.", "quantifier": "every history", "why_tests_cant": "off-chain observers rely on the whole unbounded event stream", "anchors": ["havah/hvh/eventlog.go", "havah/hvh/decentralization.go:initActiveValidatorSet,replacePenalizedActiveValidators", "havah/hvh/extension.go:UnregisterValidator,SetNodePublicKey"]}
{"id": "C44", "title": "Only permitted imports pass the package check", "statement": "If a node started with --verify-package accepts a Python package, then in every .py file of it, at any nesting depth of functions and classes, the code carries out only relative imports, `import iconservice` and `from iconservice import *`, and never mentions exec, eval, compile or __import__; code that imports nothing and mentions none of them is accepted.", "quantifier": "every package, every nested code object, every execution of its bytecode", "why_tests_cant": "the packages are written by attackers; their bytecode is unbounded", "anchors": ["pyee/pyexec/iconscore/score_package_validator.py", "pyee/pyexec/iconscore/icon_score_loader.py:load_module", "pyee/pyexec/service_engine.py:get_score_api"]}
{"id": "C45", "title": "Unpacking a contract stays in its directory and within its size limits", "statement": "Unpacking the zip of a Python contract writes only files of the directory that holds the first package.json, at their relative paths, none from __pycache__ or __MACOSX; on success all of them; with no '..' in names all below the contract's own directory; and at most 1 MiB per file and 2 MiB in all.", "quantifier": "every archive: names, header sizes and data chosen by the deployer", "why_tests_cant": "archives are adversarial; names and header sizes are unbounded", "anchors": ["service/contract/contractmanager.go:storePython"]}
{"id": "C46", "title": "State tries are versioned maps", "statement": "Any number of state tries over one database behave as finite maps: Get, Set and Delete answer exactly what the last Set or Delete of that key left (the old value for Set and Delete), never an error; a version flushed under a root hash can be opened again at any later time and holds exactly what it held; snapshots, flushing, reopening and cache clearing change no answer. Two exceptions are proved as findings: Delete below an extension node swallows a database error, and an empty value stored where a longer key goes on is lost when the trie is reopened.", "quantifier": "all interleavings of open/get/set/delete/flush/copy/clear-cache calls on any number of tries over one database, all keys and non-empty values", "why_tests_cant": "The node shapes depend on the whole history and on which parts are loaded; unbounded keys, values and call sequences.", "anchors": ["common/trie/ompt/mpt.go:Get,Set,Delete,Flush,ClearCache,NewMPT", "common/trie/ompt/leaf.go", "common/trie/ompt/extension.go", "common/trie/ompt/branch.go", "common/trie/ompt/hash.go", "common/trie/ompt/rlp.go", "common/trie/ompt/node.go"]}
{"id": "C47", "title": "Root hashes stand for contents", "statement": "Two state tries with the same contents have the same root hash whatever their histories, and two tries with the same root hash have the same contents unless two different nodes written or loaded have the same digest. With empty values this fails: a trie holding an empty value can have the same root hash as one that does not hold the key.", "quantifier": "all pairs of histories, all keys", "why_tests_cant": "Universally quantified over pairs of histories; consensus on the state hash depends on it.", "anchors": ["common/trie/ompt/mpt.go:Hash", "common/trie/ompt/node.go:getLink,encodeKeys", "common/trie/ompt/branch.go:RLPListEncode,delete"]}
{"id": "C48", "title": "A proof convinces the holder of a root hash of exactly what the trie holds", "statement": "A party that holds nothing but the root hash of a version of a trie and is offered arbitrary keys with arbitrary proofs, in any order, only ever concludes what is true of that version: when Prove returns a value, that value is what Get returns for the key; when it returns ErrNotFound, the key has no value there; what it was offered before, accepted or not, does not change that. Conversely the proof that GetProof makes for a key with a value is always accepted and shows that value.", "quantifier": "every history of trie operations that made the version, every sequence of keys and proofs offered, every digest function with 32-byte digests for which no offered piece collides with a node of the trie", "why_tests_cant": "a forger chooses any bytes and any order; soundness is a statement about all proofs, completeness about all shapes of tries", "anchors": ["common/trie/ompt/mpt.go: GetProof, Prove", "common/trie/ompt/leaf.go, extension.go, branch.go, hash.go: getProof, prove", "common/trie/ompt/mptforbytes.go: Prove"]}
{"id": "C49", "title": "Only the right party changes the platform's settings, managers, planets and lost coins", "statement": "On the HAVAH platform the planet managers are exactly the addresses governance added and has not removed since, each listed once; the claimable rate and the issue start change only by a call of governance, the USDT price too from revision 3 on; a planet appears, disappears or changes owner only by a call of the planet NFT contract, and a change of owner alters nothing else; lost rewards are taken only by governance, all of them at once, and reach the named user account exactly; the start of a block changes none of these.", "quantifier": "every reachable state of the platform, every transaction by every sender, every block", "why_tests_cant": "it speaks about all senders and all calls in all states, including what each call must leave alone", "anchors": ["havah/chainscore_havah.go: access checks of the chain SCORE methods", "havah/hvh/hvhstate/state.go: AddPlanetManager, RemovePlanetManager, SetPlanetOwner, SetPrivateClaimableRate", "havah/hvh/extension.go: WithdrawLostTo"]}
{"id": "C50", "title": "Iterating over a trie lists exactly its contents, in order", "statement": "Whatever calls led to a trie of byte strings (sets, deletes, flushes, snapshots, reopened versions, dropped caches), a loop over Filter(prefix), or over Iterator(), ends without an error and sees each key that starts with the prefix and that Get finds, with the value Get returns, once, and nothing else, in ascending lexicographic order; tries with the same contents give the same listing.", "quantifier": "all histories of calls on tries over one database, all tries reached, all prefixes", "why_tests_cant": "Whether a key is listed depends on the shape of the trie, on which parts are hashes still to be read, and on how the prefix ends inside an extension or leaf; tests list a few fixed tries.", "anchors": ["common/trie/ompt/mpt.go: iterator, Filter, Iterator", "common/trie/ompt/branch.go: traverse", "common/trie/ompt/extension.go: traverse", "common/trie/ompt/leaf.go: traverse", "common/trie/ompt/hash.go: traverse"]}
{"id": "C51", "title": "A vote set counts each validator once and reports a winner exactly when more than two thirds back it", "statement": "Whatever votes are handed to a vote set, in whatever order, repeated or contradictory, with queries in between: it holds at most one vote for each validator; a vote is taken exactly when the validator has none on record or says something new and its old vote is not part of a two-thirds majority; it reports a decision exactly when more than two thirds of the validators have a vote for that decision on record, and turnout exactly when more than two thirds voted at all; a decision that has won once stays the only winner and its votes stay; the list of votes made for the winner holds exactly those votes; rounds and vote types do not mix.", "quantifier": "all numbers of validators, all finite histories of votes and queries, all digest functions", "why_tests_cant": "The counters are updated incrementally, swapped and removed, and the winning index is cached; whether they agree with the votes depends on the whole history of replacements.", "anchors": ["consensus/voteset.go: voteSet.add, hasOverTwoThirds, getOverTwoThirdsRoundDecisionDigest, voteListForOverTwoThirds, voteSetForOverTwoThird, checkAndAdd, heightVoteSet", "consensus/votebase.go: RoundDecisionDigest, Equal", "consensus/message.go: EqualExceptSigs"]}
{"id": "C53", "title": "No two honest nodes finalize different blocks at a height", "statement": "With fewer than a third of the validators Byzantine, no two honest nodes finalize different blocks at the same height, whatever messages are lost, delayed, repeated or reordered, whatever the Byzantine validators say to whom, whenever timers fire, and wherever honest nodes crash (losing log entries not yet synced) and restart. A finalized block has precommits of more than two thirds of the validators in one round; a validator that precommitted a block prevotes for something else only after more than two thirds prevoted for something else in a later round. The code breaks agreement in one case: a lock whose round is raised is not written to the log, so a restarted node can be talked out of it by an older majority.", "quantifier": "all numbers of validators, all sets of fewer than a third Byzantine ones, all schedules of messages, timers, block manager answers, crash points and restarts", "why_tests_cant": "A violation needs a particular interleaving of several rounds, equivocation and a restart; there are unboundedly many schedules and crash points.", "anchors": ["consensus/consensus.go: enterPropose, enterPrevote, enterPrecommit, enterCommit, handlePrevoteMessage, handlePrecommitMessage, applyRoundWAL, applyLockWAL, applyCommitWAL, Start, ReceiveBlock", "consensus/step.go", "consensus/blockpartset.go"]}
{"id": "C54", "title": "A validator never signs two different votes for a round, across crashes", "statement": "An honest validator with a working disk never signs two different votes of one type in one round, wherever it crashes and however often it restarts; it precommits a block only if more than two thirds of the validators prevoted for it in that round. If writing the log fails, the error is only logged and the vote is sent: after a restart the validator may contradict it.", "quantifier": "all validator sets, all schedules, crash points and restarts; for uniqueness no bound on the number of Byzantine validators", "why_tests_cant": "It depends on what is on disk at every possible crash point and on what recovery makes of it, for every history before.", "anchors": ["consensus/consensus.go: doSendVote, sendVote, applyRoundWAL, Start", "consensus/wal.go"]}
{"id": "C52", "title": "A commit vote list is accepted exactly when more than two thirds of the validators signed that block", "statement": "VerifyBlock accepts a vote list for a block at a height above 0 exactly when its signatures are those of different validators, over precommits for that block and height in one round, and they are more than two thirds of the validators; it reports exactly the voters. Two accepted lists of a height have more than a third of the validators as common signers. What the consensus engine builds from a two-thirds majority of precommits is accepted. If fewer than a third of the validators are dishonest, the time of a block lies between clock readings of two honest voters and grows from block to block. An unrecoverable signature makes VerifyBlock panic instead of returning an error; with no validators every block is accepted.", "quantifier": "all vote lists, validator lists without repetition, heights, blocks, signature schemes and times", "why_tests_cant": "It ranges over all lists of votes, forged or repeated, and all partitions into honest and dishonest voters.", "anchors": ["consensus/commitvotelist.go: VerifyBlock, enoughVote, Timestamp, newCommitVoteList", "consensus/signedbase.go: address", "service/state/validatorlist.go: IndexOf", "common/address.go: Bytes", "block/blockv2.go: VerifyTimestamp"]}
{"id": "C55", "title": "The consensus engine never panics, whatever it is sent", "statement": "Whatever a node receives at a height, in whatever order and with whatever content (votes under any name, proposals, block parts, block manager answers, timers, synced blocks, a failing disk, a restart from logs with any content), its consensus engine does not panic: no invalid step transition, no vote for a block it does not hold, no commit without a block, and no unbounded recursion among its handlers. It stops by itself only when it holds all parts of a block it cannot decode. What it is locked on is always a complete decoded block, and the block being imported in the current round is still there when the answer arrives.", "quantifier": "all sequences of events with all contents, all disk behaviours, all log contents at restart, all chains and validator sets", "why_tests_cant": "The handlers call each other recursively and the panics guard states that only particular interleavings of late votes, callbacks and restarts would reach; a test covers one interleaving.", "anchors": ["consensus/consensus.go: beginStep, sendVote, commitAndEnterNewHeight, enterPrevote, enterPrecommit, enterCommit, handlePrevoteMessage, handlePrecommitMessage, applyRoundWAL, applyLockWAL, applyCommitWAL, Start, ReceiveBlock"]}
{"id": "C56", "title": "A transaction is on the chain at most once", "statement": "A block that contains the ID of a transaction of any block below it \u2014 finalized or not \u2014 is refused, so no transaction is finalized twice, in every schedule of the background writer and across any number of restarts at any moment, provided the disk does not fail and either the end of the timestamp window never moves back and no transaction sits exactly on it, or the threshold never changes and blocks are built on finalized blocks. A block is refused for its IDs only if an ID is twice in it or in a block below it, a finalized block or one that was being finalized when the node stopped. Outside those conditions the code does finalize a transaction twice: a timestamp exactly at block time plus threshold on an unfinalized parent; the same after the threshold was raised; a lowered threshold followed by a restart; a failed write of the locators.", "quantifier": "all histories of validated, forced, finalized blocks, all interleavings with the writer of the locators, all crash points, all block contents, timestamps and thresholds", "why_tests_cant": "Replay needs a particular sequence of window moves, cache evictions, writer progress and restarts; tests run one schedule with a fixed threshold.", "anchors": ["common/txlocator/manager.go: manager.Has, commitTracker, addListAndClearOldInLock, handleFlushJobs, tracker.Has, tracker.Add, tracker.Commit", "service/txidmanager.go", "service/transition.go: ensureRecordTXIDs, commitTXIDs", "service/tschecker.go", "block/manager.go: NewManager, finalize"]}
{"id": "C57", "title": "The locator of a transaction is right", "statement": "Asked for the locator of a transaction of a finalized block (or of one being finalized) the node answers that block's height and the transaction's index in it, whatever the background writer has done so far and however often the node was restarted; and whatever it answers, even with failing disk and any thresholds, names a block that was finalized or was being finalized when the node stopped and the place of the transaction in it.", "quantifier": "all histories, schedules of the writer, crash points, transactions", "why_tests_cant": "The answer comes from the map, the database or both depending on timing, eviction and restarts.", "anchors": ["common/txlocator/manager.go: manager.GetLocator, getLocatorInCache, getLocatorInDB, flushList, commitTracker"]}
{"id": "C58", "title": "The bytes a transaction ID is computed from determine the transaction", "statement": "Two JSON documents give the same bytes for the hash exactly when the members other than signature and ID have the same content, where a number counts as the string of its integer part and empty strings at the front of an array do not count; so for documents of strings, nulls, objects, and arrays not beginning with an empty string the bytes determine the document, whatever special characters occur in keys and values. The order of the members does not matter. A document is refused exactly when it contains true or false. The exceptions are real: [\"\",\"a\"] and [\"a\"], [\"\"] and [], 1.5, 1 and \"1\" give the same ID, so a signature for one is a signature for the other.", "quantifier": "all JSON values of any depth and size, all orders of members", "why_tests_cant": "Injectivity over all nested values with escapes cannot be tested; tests compare single examples.", "anchors": ["service/transaction/serialize.go: serializeString, serializeList, serializeValue, serializeDict, SerializeMap", "service/transaction/transaction_json.go: calcHashOfTransactionJSMap, transactionFields"]}
{"id": "C59", "title": "A transaction has the same ID in its JSON and binary forms and on every node", "statement": "In the binary form the hashed bytes are the same for two transactions exactly when all fields are equal (the data up to its content in the sense of C58). The JSON document a transaction is shown as gives the same bytes as its fields, in any order of the members, if its data type has no special characters and its data is not empty. A transaction accepted as JSON has the ID of its document, and every node it is sent on to gives it this ID. But the data type is not escaped in the binary form: a JSON document with an extra member (extra: \"1\" next to dataType: \"call\") and a binary transaction with data type \"call.extra.1\" have the same ID, so the signature of one is valid for the other.", "quantifier": "all field values, present or absent, all documents, all hash functions", "why_tests_cant": "Two independent encoders must agree and each be injective on all inputs.", "anchors": ["service/transaction/transaction_v3.go: transactionV3Data.calcHash, calcHash, TxHash, ToJSON, parseV3JSON, SetBytes, Bytes", "service/transaction/transaction_json.go: calcHashOfTransactionJSMap", "service/transaction/factory.go: newTransaction", "common/address.go: Address.String", "common/intconv/string.go: encodeHexNumber"]}
{"id": "C60", "title": "Executing the transactions of a block in parallel gives what executing them one after the other gives", "statement": "Whatever the schedule of the goroutines: a transaction that is through has the receipt (or fatal error) it has in sequential execution, and when all are through the world state, and the snapshot Realize returns, are those of sequential execution; so any two schedules agree. This holds for all blocks whose transactions lock accounts for reading or writing, or the whole world for writing, and touch only what they asked for (the system account may always be read). A read lock on the world breaks it: such a transaction can see the writes of a later one. A fatal error does not stop the block although the sequential executor stops: the report of an error is only recorded if one was recorded before, so it never is.", "quantifier": "all blocks (any number of transactions, any programs of reads, writes, snapshots and rollbacks, retries included), all initial worlds, all interleavings of the main goroutine and the transactions'", "why_tests_cant": "Serializability quantifies over all interleavings and all programs.", "anchors": ["service/state/worldvirtualstate.go: GetFuture, applyLockRequests, getLocker, setLocker, GetAccountState, GetSnapshot, Reset, Commit, Realize", "service/transition_pe.go: executeTxsConcurrent, executionContext", "service/transition_se.go: executeTxsSequential"]}
{"id": "C61", "title": "Parallel execution never gets stuck, never goes on for ever and does not panic", "statement": "In every state reached, the oldest transaction that is not through is not blocked, and the next transaction can always begin; no schedule is infinite; a schedule that cannot go on has executed the whole block. No operation panics if the transactions that roll back lock the world or write only accounts that exist. Without that it can panic: a transaction prepared after one with the world lock has committed, which writes an account not existing before and then rolls back, resets the account to a nil snapshot.", "quantifier": "all blocks as in C60, all initial worlds, all interleavings", "why_tests_cant": "Absence of deadlock and panics is a statement about every reachable state of every schedule.", "anchors": ["service/state/worldvirtualstate.go: Reset, waitCommit, Realize, realizeBaseInLock, Commit", "service/state/account.go: accountStateImpl.Reset", "service/transition_pe.go: executeTxsConcurrent"]}
{"id": "C62", "title": "A call that fails leaves no trace but the steps it used", "statement": "A transaction whose calls have all ended is a tree of calls; its world state, event logs and messages are those of the calls that did not fail and whose callers did not fail, in the order they were made. At any depth, a call that fails, or is cut by a timeout or a critical failure with any number of calls running inside it, leaves the world and all that its callers' frames hold as before the call (but for the steps its caller is charged when it gets the result). No frame uses more steps than its limit, whatever engines report.", "quantifier": "all sequences of calls, writes, events, messages, returns (of success or failure), timeouts; all depths; all worlds; synchronous and asynchronous handlers", "why_tests_cant": "Atomicity at every nesting depth and cut point is a statement about all call trees.", "anchors": ["service/contract/callcontext.go: pushFrame, popFrame, Call, waitResult, handleResult, cleanUpFrames, OnResult, OnCall", "service/contract/callframe.go: NewFrame, deductSteps, applyFrameLogsOf, applyBTPMessagesOf, applyFeePayerInfoOf", "service/contract/callhandler.go: SetValue, DeleteValue, OnEvent", "service/contract/transferhandler.go: ExecuteSync"]}
{"id": "C63", "title": "A read-only call, and a query, changes nothing", "statement": "Whatever happens inside a call made in read-only mode, at any depth, the world is never written, no event and no message is recorded by it or by the calls it makes, and its callers' frames keep what they hold; a query leaves the world as it was.", "quantifier": "all sequences of actions inside a read-only call or a query", "why_tests_cant": "Read-only mode is inherited by every nested call; the claim is about all call trees.", "anchors": ["service/contract/callcontext.go: EnterReadOnlyMode, ReadOnlyMode, pushFrame, popFrame", "service/contract/callframe.go: NewFrame, enterReadOnlyMode, addLog, addBTPMessage", "service/contract/callhandler.go: SetValue, DeleteValue, OnEvent"]}
{"id": "C64", "title": "Deposits for sharing fees: no coin is lost or made, and paying is exact", "statement": "Over any history of additions, withdrawals, payments and storing/loading: coins in = coins out + penalties + fees + coins still there, and no deposit is negative. Loading deposits from their stored form never changes anything. A payment never pays more than asked, takes exactly the price of the steps it says it paid with coins and exactly the virtual steps it says it paid otherwise; if it pays less, no virtual step is left and the coins do not suffice for one more step; expired deposits are untouched, and the last tenth of a deposit with a term is used last. Withdrawing returns all but the penalty min(left, used virtual steps times price) before the end of the term. Finding: withdrawing the exact amount of a deposit without a term leaves an empty deposit and then every call to the contract is refused, unlike withdrawing all of it.", "quantifier": "all histories of operations, all prices, heights, terms, amounts and deposit lists", "why_tests_cant": "Conservation holds over all histories; the order in which deposits are used depends on all amounts and terms.", "anchors": ["service/state/depositlist.go: AddDeposit, WithdrawDeposit, PaySteps, CanPay", "service/state/deposit.go: ConsumeSteps, ConsumeDepositLv1, ConsumeDepositLv2, Withdraw, GetAvailableDeposit, GetUsableDeposit", "service/state/account.go: CheckDeposit, PaySteps, AddDeposit, WithdrawDeposit"]}
{"id": "C65", "title": "The fee of a transaction is shared as its contracts agreed, never beyond", "statement": "Contracts called by a transaction, at any depth, may agree to pay a percentage of the steps of their call. When the transaction has ended, inner calls settle first and in order; a payer is due its percentage of the steps of its call which are not due from calls it made, plus that percentage of what payers inside could not pay; what it cannot pay is left to the payer outside; calls which failed, were cut or were read-only agree to nothing; the contract called first pays its percentage of what is left, even if the call failed. If engines report at least the steps of the calls they made, nobody pays more than its percentage of its call's steps, all together never more than the steps used, deposits lose exactly the coins of the bill and nobody else's deposits change.", "quantifier": "all trees of calls and agreements, all deposits, heights, prices, step counts; with and without fee sharing and multiple payers", "why_tests_cant": "The program keeps payers in flat lists with back pointers which are rewritten when calls return; that this computes the nested rule is a statement about all call trees.", "anchors": ["service/contract/feepayerinfo.go: PaySteps, DelegateSteps, ensureStepsToPay, calcStepsToPay, SetFeeProportion, setParentOfSub, Apply, GetLogs", "service/contract/callcontext.go: SetFeeProportion, RedeemSteps", "service/contract/callframe.go: applyFeePayerInfoOf", "service/state/account.go: PaySteps"]}
{"id": "C66", "title": "Executing a transaction: no trace on failure, exact fee, never overdrawn", "statement": "Whatever the contracts do: the fee never takes more than the sender has, and charging it ends. A transaction that fails (in a check, in its call, by timeout, or because the fee cannot be paid after its call) has no events and no messages and changes nothing but the sender's balance and the deposits of the contract called first. A transaction that succeeds leaves exactly what survives of its tree of calls. The fee of the receipt is, to the coin, what the sender and the deposits lost; the details of the receipt add up to the steps used; the steps are at least the default and at most the limit. A sender who could pay for the step limit and the value is charged the full price for every step, however the transaction ends; only others may get the price 0.", "quantifier": "all transactions, worlds, revisions of HAVAH, behaviours of the called contracts (any sequence of actions), ways the call ends", "why_tests_cant": "The charge depends on what contracts did to balances and deposits; the loop that undoes and recharges must be right for all of them.", "anchors": ["service/transaction/transactionhandler.go: DoExecute, Execute, checkBalance, checkBlocked", "service/contract/callcontext.go: Call, waitResult, cleanUpFrames, RedeemSteps", "service/txresult/receipt.go: AddPayment, Fee, SetResult", "service/txresult/feedetail.go: AddPayment"]}
{"id": "C67", "title": "What was synced to the write-ahead log is read after every crash", "statement": "Whatever sequence of writes, flushes of the buffer, syncs, new files, housekeeping runs and crashes (with a new start) a log goes through, and wherever a crash cuts the file being written: every start reads a prefix, in order, of the records written since, which contains all records that were synced; nothing that was not written is read; records written after a start are read at later ones; housekeeping forgets only whole oldest files, only while there are more bytes than the total limit, and never the file being written. Two kinds of cuts are excluded, because the code does not cope with them: exactly the eight bytes of a record's header (taken for the end of the log: records synced later are not read), and inside the first record of a file which is not the only one (the repair removes the file before it, which is whole and synced, instead of the broken one; with more files it leaves a gap, and no later start reads anything).", "quantifier": "all histories, records, cuts, limits; findings for all records of the given sizes and all later histories", "why_tests_cant": "A crash can leave any prefix of the bytes handed to the system; the tests of the log cut it at a few places.", "anchors": ["consensus/wal.go: readWALInfo, OpenWALForWrite, WriteBytes, sync, shift, doHousekeeping, OpenWALForRead, ReadBytes, CloseAndRepair", "consensus/consensus.go: applyRoundWAL, applyLockWAL, applyCommitWAL"]}
{"id": "C68", "title": "The node's codec reads back what it wrote", "statement": "Every value of every Go type made of byte slices, byte arrays, booleans, integers of all widths, big integers, strings, pointers, slices, arrays and structs is read back unchanged from what was written of it, and the bytes after it are left; so different values are written differently and none is the beginning of another. Whatever bytes are read, the value depends only on the bytes taken away, and it is a value of the type. A struct written before fields were added at its end is read with zeros in them, one written with more fields is read without them. From a stream this holds if no byte string exceeds 1,000,000 bytes. Not so: values have other forms which are read too; a null inside a struct behind a pointer in a list spills the rest of the struct into the list; a block with a transaction of more than 1,000,000 bytes, which a proposer may make, cannot be read by other nodes.", "quantifier": "all types, all values, all following bytes; all byte strings read; all limits", "why_tests_cant": "Types nest and values are unbounded; the tests write and read a few structs.", "anchors": ["common/codec/rlp.go: readBytes, readList, readUintValue, readIntValue, writeBytes, writeList, writeNull", "common/codec/codec.go: encodeValue, decodeValue, decodeRecursiveFields, decodeNullableValue", "common/codec/bytes.go: UnmarshalFromBytes, Unmarshal", "block/blockv2.go: V2BodyFormat", "block/handlerv2.go: NewBlockDataFromReader"]}
{"id": "C69", "title": "The transaction pool is an ordered set and loses nothing without a reason", "statement": "Whatever is added, removed with blocks, dropped for age, collected for blocks and dropped later by the goroutines of collections, in any order: the pool does not panic, has no transaction twice, is never over its size, keeps the transactions of each sender in the order of their timestamps, and HasTx and Used tell what is in it. Add refuses when full, refuses what is there, and else puts the transaction before the first later one of its sender or at the end. A transaction leaves only in a block, when it is too old, or when a collection has found it expired, processed or refused, and then its own arrival only; each drop is told once with a reason that was true. Candidate chooses in the order of the pool, within the limits of bytes and number, only what is in the time range and not of a recent block, and each choice passes in the world left by the earlier ones; nothing is passed over without a reason before a limit. FilterTransactions gives the first which the peer's filter does not show. GetBloom shows the whole pool if each sender's transactions come in order. Not so: a transaction larger than the limit at the front makes every block empty until it expires; after a late arrival at the front GetBloom shows that one alone.", "quantifier": "all histories of operations and all times at which the drops of collections run, all sizes, all limits, worlds, validators and recent transactions", "why_tests_cant": "The lists are linked through pointers and changed by interleavings of goroutines; the tests use a few fixed sequences.", "anchors": ["service/transactionlist.go: Add, Remove, RemoveTx, updateBloom, GetBloom", "service/transactionpool.go: Add, Candidate, DropOldTXs, RemoveList, dropTransactions, FilterTransactions", "service/txshare.go: TxBloom"]}
{"id": "C70", "title": "Catching up: blocks fetched from peers come in order, once, and the request ends", "statement": "Whatever peers send and when, however they join and leave, whichever timers fire, and however messages to them fail, the client of fast sync does not panic, and a caller which answers each block once sees for every request: one block at a time, the next height each time, each of the height it says and none beyond the last; the blocks it takes are the first ones without gap or repetition; after OnEnd or cancelling nothing more but its own late answers. A peer whose block was rejected gives none any more unless it joins again, nor does one which sent too much or a wrong block while none of its blocks waits for an answer. OnEnd without error comes when the last block was taken or no peer is left. Where no send fails at once and no block is rejected of a peer which is fetching, no height is forgotten, a request with peers always waits for an armed timer, a timeout removes the peer or ends the request, and if no one answers the timers end it. Not so otherwise: rejecting a block of a peer which fetches another height forgets that height, and the request then neither gives a block nor ends whatever happens; a first send which fails for good leaves the peer and the height taken until the peer leaves; a request for no blocks never ends; with no peers left it ends without an error though blocks are missing.", "quantifier": "all histories of requests, joins, leaves, messages, timers and answers, all outcomes of sending, all requests and all block formats", "why_tests_cant": "The tests run a few exchanges with well-behaved peers; the claims are about every interleaving of several peers, timers and answers.", "anchors": ["consensus/fastsync/client.go: Consume, Reject, fetchBlocks, onReceive, onJoin, onLeave, _reschedule, onResult, newFetcher, _doSend", "consensus/fastsync/heightset.go: popLowest, getLowest, add", "consensus/syncer.go: OnBlock, OnEnd"]}
{"id": "C71", "title": "A block sent in parts is rebuilt as it was, from whomever the parts come", "statement": "Data written into a part buffer, in whatever chunks, is cut into parts of the given size and depends only on the data; its ID is the number of parts and one hash. Whoever waits for the parts of that ID may be offered anything, in any order: nothing but the original parts is kept, each original part which is missing is taken, the set is complete exactly when all indices were filled, and then the reader gives the data written. For any ID, whoever made it, two receivers never hold different data for one index, and a part taken by one is taken by any other that lacks it. The mask and GetPart say which parts are there. A part goes through its serialized form unchanged, and a count and application data are packed without mixing. Not so where: the data is a whole number of parts long (no hash is made, the ID says nothing about the data and no receiver takes any part); the number of parts is a multiple of 64 (the maker's own mask denies its last 64 parts); and whoever proposes can choose a hash and a part with which every receiver panics. A mask of parts gives for each index the value put last and false beyond its end, and two masks are equal if and only if they have the same length and the same bits.", "quantifier": "all data, chunkings and part sizes, all sequences of parts offered (honest or not), all IDs, all hash functions with 32-byte results and no collision among the nodes sent", "why_tests_cant": "Tests cut one block and add its parts in order; the claim is over every data length, order and forged part.", "anchors": ["consensus/partset.go: Write, PartSet, AddPart, NewPartSetFromID, NewPart, Bytes, GetMask, blockPartsReader.Read, IDAndAppData", "common/trie/ompt: prove of hash, leaf, extension and branch nodes", "consensus/bitarray.go: NewBitArray, Set, Get, Flip"]}
{"id": "C72", "title": "A peer that lags behind is given what it lacks, and nothing else", "statement": "Whatever round state a peer tells (which passes the check, with no mask of fewer than -126 bits), whatever the node's own state is and however it changes, choosing what to send to that peer never panics. A part that is sent belongs to the block of the peer's height, the node has it and the peer does not, and from then on it is noted as had. While the peer tells nothing new no part is sent twice, and all parts it lacks are sent once the block could be read in more turns than it has parts; so from one who made a block the whole block reaches one who knows only its ID, whatever is picked first. Votes sent are exactly those of one round which the peer's masks do not mention, in order, or the votes for the block it lacks; at most one list for each state told. Blocks are fetched only for a peer more than four ahead, from the own height, and not twice at a time. Not so where: the mask of parts has -127 bits or fewer, which passes the check and panics any node that has a block to give; the number of parts is a multiple of 64, whose last 64 parts are never sent.", "quantifier": "all round states told by peers, all own states and their changes, all random picks, all part sets made or received", "why_tests_cant": "Tests send one or two round states with proper masks; the claim is over every mask, pick and history, including hostile ones.", "anchors": ["consensus/syncer.go: doSync, setRoundState", "consensus/voteset.go: getVoteListForMask", "consensus/message.go: RoundStateMessage.Verify, _HR.verify", "consensus/bitarray.go: Copy, Flip, AssignAnd, PickRandom, Set, Verify"]}
{"id": "C73", "title": "A state fetched by its hashes is complete, right, and answers as the original", "statement": "When a state is fetched by hash - from peers or by a copy between databases - then whatever data is delivered, by whomever and in whatever order: a value enters the store only under its own hash and only if asked for; other data is refused and changes nothing. If the destination started with no half-fetched nodes and nobody finds a second preimage, then once no request is outstanding every trie node, account store, code, API and object graph that hangs on the roots is there as in the original, every trie among them answers every lookup as the original did, and until then each outstanding request is for a part that is still missing and is satisfied by its data. A copy that reports success is complete whatever the source; from a source that has the state it ends, with success, within as many rounds as there are parts. With a layered store the database is untouched until the flush, which writes all that was fetched. Not so where: a copy has stopped half way (nodes without their children stay, and a second copy reports success with data missing); the process dies during the flush, which writes parents before children, so that the next attempt asks for nothing.", "quantifier": "all states (tries made by any history of operations, worlds of accounts), all lists of deliveries, all sources, all crash points of the flush", "why_tests_cant": "Tests sync small fixed trees from honest peers; the claim is over every tree, every order and every forged or repeated delivery, and over crash points.", "anchors": ["common/merkle/builder.go: OnData, RequestData, Flush", "common/merkle/copy.go: CopyContext.Run", "common/db/layer_db.go: Get, Set, Flush", "common/trie/ompt/mpt.go: Resolve, resolve, nodeRequester.OnData", "common/trie/ompt/branch.go, extension.go, leaf.go: resolve", "service/state/account.go: Resolve", "service/state/contract.go, objectgraph.go, apiinfo.go: Resolve, OnData"]}
{"id": "C74", "title": "BTP Merkle roots and proofs: a proof leads to the root, and the root binds the digests", "statement": "For every list of 32-byte digests, the Merkle root of a network type module is the top of the tree in which neighbours are hashed together and one without a neighbour goes up as it is; nothing has a root only if it is the empty list. The proof of each place, climbed from the item there, gives the root. Lists of the same length with the same root are equal, and a path that goes the way of a place to the root proves only the item at that place, unless two different strings that are hashed on the way have the same hash. A stored concatenation is found by the root of its items. Not so: the root does not say how many items there are (each level above has the same root), so that the check of a fetched list against its root accepts the root itself, or a higher level, as the list, and accepts up to 31 more bytes behind the list.", "quantifier": "all lists of digests of any length, all places, all hash functions with 32 bytes, all candidate items and paths", "why_tests_cant": "Tests have tables of up to a few digests; in-place buffers, odd counts at every level and forged paths range over all lengths.", "anchors": ["btp/ntm/module.go: merkleRoot, MerkleRoot, merkleProof, MerkleProof, catBytesList, merkleRootHasher", "btp/digest.go: hashesCat", "btp/digestfrombytes.go: messageDataHandler.OnData"]}
{"id": "C75", "title": "BTP sections of a block: deterministic, numbered without gaps, provable to the signed hash, and read back", "statement": "For every series of messages sent and networks touched in a block: in whatever order Go walks the maps of the builder, the same BTP sections are built, the types and the networks in ascending order, each network with its messages in the order they were sent; building fails only if a network that was called, its type or the next proof context of the type is not in the state. The messages of a section have the last sequence numbers before the next one of the network, and the flag says whether the proof context changed. Each message has a path to its section and the section a path to the type, with which a receiver comes to exactly the hash the validators sign. The hash of a section binds the network, the first number, the flag, the previous hash and all messages, and the signed hash binds source, type, height, round, next proof context and root, unless two different hashed strings have the same hash. The stored digest is read back as it was, each type and network found by its ID, and the messages are read back with the same numbers, as long as no key of a bucket gets two values. Not so: without any collision a key can get two values: who sends h(a)||h(b) as a message and later the messages a and b changes what is read for the earlier block.", "quantifier": "all sequences of calls, all states, all walk orders of both maps, all hash functions with 32 bytes, all sources, heights and rounds", "why_tests_cant": "Map order is random per run and the numbers, counts of networks and paths are unbounded; a test sees some orders of a few networks, and no test looks for two lists with one root.", "anchors": ["btp/builder.go: SendMessage, EnsureSection, Build, SortedInsert, Search", "btp/sectionbybuilder.go: newNetworkSection, newNetworkTypeSection, NetworkSectionToRoot, NewDecision, flushMessages", "btp/digest.go: Bytes, NetworkTypeDigestFor, NetworkDigestFor, MessageList", "btp/digestfrombytes.go: newDigestFromBytes", "btp/sectionfromdigest.go: newNetworkSection"]}
{"id": "C76", "title": "Proofs of BTP decisions: what is accepted is signed by more than two thirds, and votes of a quorum always give an accepted certificate", "statement": "A proof of a BTP decision is accepted if and only if each signature in it is one of the key of its seat and there are those of more than two thirds of the seats; two accepted proofs of the same validators share signers of more than a third of the seats; with distinct keys the signers are that many keys. A certificate is accepted if and only if it has one accepted proof for each network type of the digest that had a proof context, in the order of the digest. A validator whose key has one seat in each context casts votes which everybody lets pass at that seat. From the votes of more than two thirds of the seats that were let pass, a certificate can be made which everybody accepts, the same one in whatever order the votes come, and from it one gets exactly those votes back. Not so: a part with a nil signature panics the node that checks the vote; the signers of a proof need not be the voters, and then the votes taken from an accepted certificate are refused, and making a certificate from them panics; empty seats behind the last are accepted, but whoever takes the votes from such a certificate (as in fetching blocks) refuses it.", "quantifier": "all contexts of any number of validators with and without keys, all digests, all sets and orders of votes, all proofs and parts, all signature and hash functions", "why_tests_cant": "Tests have a few validators who all vote and proofs made by the code itself; which signers a proposer puts together, in which order the votes come and forged parts are unbounded.", "anchors": ["btp/ntm/secp256k1proof.go: Verify, VerifyPart, NewProofPart, Add, indexOf", "btp/proofcontextmap.go: Verify", "consensus/message.go: VerifyNTSDProofParts", "consensus/commitvotelist.go: newCommitVoteList, toVoteList", "consensus/consensus.go: ntsVoteBaseAndDecisionProofParts, processBlock"]}
{"id": "C77", "title": "BTP state over a chain: proof contexts are those of the present validators, changes are announced, sections make a chain", "statement": "After any blocks of any operations (opening and closing networks, messages, setting and removing public keys, other validators; calls that fail among them): no two addresses have the same public key; a network type has a proof context if and only if it has open networks, and it is that of the present keys of the present validators, if every block that sets validators ends with others than it began with; the open networks of a type are the networks of that type that are open, each once, and each module has one type at most. When the context of a type is another one after a block, each of its open networks has a section in the block that says so. Each section has the hash of the section before it of its network, all messages sent to the network in the block, and the sequence numbers after those of the section before; a network without section had no messages and changes nothing. The contexts that consensus brings forward from the sections are always those of the state. In whatever order the maps are walked, a block has the same result. Not so: if a block sets other validators, opens the first network of a type and sets the validators back, the type keeps the context of the others, also after later blocks.", "quantifier": "all histories of blocks, all operations, all validators, keys, networks and modules, all orders of the maps, all context and hash functions", "why_tests_cant": "Tests run a few blocks with one type and a few validators; what a block marks as changed depends on everything that came before it in the block and on all blocks before.", "anchors": ["service/state/btp.go: OpenNetwork, CloseNetwork, HandleMessage, SetPublicKey, BuildAndApplySection, checkAndApplyValidatorChange, update, applyBTPSection, getPubKeysOfValidators", "service/transition.go: StoreValidators", "btp/proofcontextmap.go: Update, NewProofContextMap", "havah/chainscore_btp.go", "havah/chainscore_basic.go: Ex_grantValidator, Ex_revokeValidator"]}
{"id": "C78", "title": "A transaction that the node dropped is not taken again while it is valid", "statement": "After any history of drops, commits and changes of the threshold: a transaction that was dropped is refused (as dropped, as too old or as too new), if no block had a window that ended later than the present one and no more transactions of the same period than the cache may have were dropped. A transaction that was never dropped, in the window, is taken unless it is committed; the answer of each check is the right one. The memory has each ID once, the number of IDs of a period is bounded, and no period before the window of a block stays. Not so: after the threshold is raised, transactions that were dropped are taken again; one dropped transaction more than the limit makes all others of its period forgotten.", "quantifier": "all histories of drops, commits and changes of the threshold, all IDs, timestamps, times, thresholds, durations and sizes", "why_tests_cant": "Tests add and remove a few IDs; that a dropped ID stays known depends on all drops and blocks after it.", "anchors": ["service/txidcache.go: Contains, Add, RemoveOldTXsByTS, flushSlotIfFull, newSlot", "service/txidmanager.go: CheckTXForAdd, AddDroppedTX, onCommit", "service/tschecker.go: CheckTxTimestamp, CheckWithCurrent"]}
{"id": "C79", "title": "Double signs: only who signed twice is reported, and who did is reported once", "statement": "Whatever messages a node receives, and whatever its log forgets at random, the log does not fail, and each report has two received messages of one signer for one height, round and kind that sign different things; a signer that signs one thing for each turn is never reported. If the log has room for all messages and all proposals are of one network, everyone who signed twice is reported, in any order. After any operations, the manager has one report for each height and signer; it offers for a block, in order of height, only reports with messages that conflict, in the given heights, that are in no block yet, and it offers what it took until it is in a block or too old; what was in a block is never offered again. Two proposals of different networks never conflict. Not so for votes: two votes of different networks conflict, so one who validates two networks with one key can be accused; and proposals of another network that come first hide double signs.", "quantifier": "all messages, orders, random evictions, sizes, costs, hash and signature functions; all histories of the manager, heights, signers and trackers", "why_tests_cant": "Tests log a few messages and report a few; the log evicts at random, and what is offered depends on all operations before.", "anchors": ["consensus/doublesigndata.go: IsConflictWith", "consensus/dsmlog.go: LogAndCheckVoteMessage, LogAndCheckProposalMessage", "common/cache/costerrandom.go: Put, Get", "service/dsrmanager.go: Add, Candidate, Commit, setFirstHeightInLock"]}
