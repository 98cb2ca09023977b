{"id": "C01", "title": "Log tree navigation is a consistent left-balanced binary tree", "statement": "In a log tree with n entries (1 <= n <= 2^63), every node other than the root has a parent inside the tree; taking the left or right child of a node and then its parent returns the original node; sibling is an involution; repeatedly taking the parent from any node reaches the root; no navigation call on a node of the tree panics or overflows 64-bit arithmetic.", "quantifier": "every tree size n from 1 to 2^63 and every node index of that tree", "why_tests_cant": "The index space is 2^64 and overflow only shows at the extreme end; tests sample a few small indices.", "anchors": ["tree/log/math/math.go: Level, Root, Left, Right, RightStep, Parent, ParentStep, Sibling, DirectPath, Copath"]}
{"id": "C02", "title": "Full subtrees partition the log", "statement": "The full subtrees reported for a log with n entries are perfect binary subtrees of strictly decreasing power-of-two sizes which, read left to right, cover each entry 0..n-1 exactly once; there are as many of them as one-bits in n.", "quantifier": "every tree size n from 1 to 2^63", "why_tests_cant": "A claim about every n, including sizes far beyond what a test can build.", "anchors": ["tree/log/math/math.go: IsFullSubtree, FullSubtrees, Root"]}
{"id": "C03", "title": "A batch proof contains exactly the nodes the verifier lacks", "statement": "For any set of requested entries, optional earlier size and optional additional size, the nodes listed in a batch proof together with the requested leaves and the retained subtrees cover every entry of the tree, and no listed node lies below or above another listed node or above a requested leaf; each listed node is a full subtree stored by the log.", "quantifier": "every tree size n, every set of entries below n, every optional m and nP between 1 and n", "why_tests_cant": "The recursion is over an exponentially large family of leaf subsets and sizes.", "anchors": ["tree/log/math/math.go: BatchCopath, batchCopath"]}
{"id": "C04", "title": "Incremental append computes the Merkle tree root of the whole history", "statement": "Starting from an empty log and appending any sequence of entries one at a time, the retained full-subtree values always equal the values obtained by hashing the complete list of entries from scratch, and the root computed from them is the Merkle root of that list.", "quantifier": "every finite sequence of appended entry hashes (shorter than 2^63)", "why_tests_cant": "Requires agreement at every length of history and every carry pattern.", "anchors": ["tree/log/log.go: Append (package function), Root, treeHash"]}
{"id": "C05", "title": "Honest log batch proofs always verify", "statement": "For every log, every set of entries, every earlier size m and additional size nP, evaluating the proof that an honest server produces succeeds, and returns exactly the true full subtree values of the log (and of its first nP entries).", "quantifier": "every list of entry hashes, every sorted duplicate-free set of requested entries, every optional m, nP", "why_tests_cant": "Universally quantified over tree sizes, leaf subsets and both optional sizes.", "anchors": ["tree/log/verify.go: Verifier.Retain, Verifier.Evaluate, evaluate, addToMap", "tree/log/log.go: Tree.GetBatch"]}
{"id": "C06", "title": "Log inclusion proofs are sound", "statement": "If a verifier accepts a batch proof and the resulting root equals the root of some log of n entries, then every entry value the verifier supplied is the value really stored at that position in that log, or two different inputs with the same hash have been exhibited.", "quantifier": "every log, every (adversarial) proof, every set of claimed entries and values, with and without retained state", "why_tests_cant": "The prover is adversarial: the claim is over all byte strings offered as a proof.", "anchors": ["tree/log/verify.go: Verifier.Evaluate, evaluate, addToMap", "tree/log/log.go: Root"]}
{"id": "C07", "title": "Log growth is append-only for a verifier with retained state", "statement": "If a verifier that retained the full subtrees of the first m entries accepts a proof for size n whose root is that of an actual log of n entries, then the retained values are the full subtrees of the first m entries of that very log (or a hash collision is exhibited): history cannot be rewritten.", "quantifier": "every m <= n, every retained state, every adversarial proof", "why_tests_cant": "Adversarial quantification over proofs and histories.", "anchors": ["tree/log/verify.go: Verifier.Retain, Verifier.Evaluate"]}
{"id": "C08", "title": "The stored log always returns what was appended", "statement": "After any sequence of appends to the database-backed log, every proof requested for the current or any earlier size contains the correct subtree hashes, and Append returns the same full subtrees as hashing the whole list; chunked storage never panics on gaps or missing data.", "quantifier": "every history of appends, every later request", "why_tests_cant": "State is spread over overwritten 8-node chunks; correctness depends on the full history.", "anchors": ["tree/log/log.go: Tree.Append, Tree.GetBatch, fetch, fetchSpecific", "tree/log/chunk.go: newChunk, get, set, marshal"]}
{"id": "C09", "title": "The search tree over log entries reaches every entry", "statement": "In a log with n entries, walking from the root entry by Left and Right towards any target entry below n reaches it in finitely many steps without panicking, passing only through existing entries, and entries to the left (right) of a node are exactly those in its left (right) subtree.", "quantifier": "every n >= 1 (below 2^64) and every target entry", "why_tests_cant": "Quantifies over all log sizes and all entries.", "anchors": ["tree/transparency/math/math.go: Root, Left, Right, Parent, Frontier"]}
{"id": "C10", "title": "Updating a view fetches exactly what is needed to hold the whole frontier", "statement": "A user who holds the frontier of size m and receives the entries listed for an update to size n holds every entry of the frontier of size n; none of the listed entries was already part of the user's tree of size m; with no previous size the list is the frontier itself.", "quantifier": "every pair of sizes m <= n", "why_tests_cant": "All pairs of sizes; off-by-one errors appear only for particular bit patterns.", "anchors": ["tree/transparency/math/math.go: UpdateView, Frontier, RightDirectPath"]}
{"id": "C11", "title": "Direct paths list exactly the ancestors on one side", "statement": "RightDirectPath(x,n) lists exactly the ancestors of x in the search tree of size n that are greater than x, nearest first and in increasing order; LeftDirectPath(x) lists exactly those that are smaller.", "quantifier": "every n and every entry x < n", "why_tests_cant": "All sizes and positions.", "anchors": ["tree/transparency/math/math.go: RightDirectPath, LeftDirectPath, Parent"]}
{"id": "C12", "title": "Binary ladders terminate for every version number", "statement": "Computing the binary ladder for a version terminates for every 32-bit version number.", "quantifier": "every version number in 0 .. 2^32-1", "why_tests_cant": "Non-termination occurs only at the top of the range (a test for it would hang).", "anchors": ["tree/transparency/math/ladders.go: baseBinaryLadder, SearchBinaryLadder"]}
{"id": "C13", "title": "A search ladder decides how the greatest version compares with the target", "statement": "For every target version t and every true greatest version g, when the lookups in the ladder for t are answered truthfully (present iff <= g, ending where the ladder says it ends), interpreting them yields -1, 0 or 1 exactly as g is below, equal to, or above t. A truthfully answered ladder interpreted as 'equal' proves t present and t+1 absent.", "quantifier": "every t below 2^31-1 and every g (or no version at all)", "why_tests_cant": "2^62 combinations of target and greatest version.", "anchors": ["tree/transparency/math/ladders.go: SearchBinaryLadder, InterpretSearchLadder, baseBinaryLadder"]}
{"id": "C14", "title": "Server and client omit the same redundant lookups", "statement": "When a server produces the ladders of a search and the client recomputes them, both sides agree on which lookups are omitted: the list of versions the client expects is extended by exactly the list the server looked up, so an honest proof is never rejected and interpreting it gives the true comparison.", "quantifier": "every label history, every sequence of inspected entries of a search, every target version", "why_tests_cant": "Depends on the whole sequence of previously inspected entries.", "anchors": ["tree/transparency/math/tracker.go: AddResults, AddLadder, SearchMaps", "tree/transparency/algorithms/proof_handle.go: GetSearchBinaryLadder (both handles)"]}
{"id": "C15", "title": "Monitoring ladders look up only versions that must exist", "statement": "The monitoring ladder for version t contains t itself, contains only versions at most t, and contains no duplicates, so it can be answered with inclusion proofs alone whenever version t exists.", "quantifier": "every version t below 2^31-1", "why_tests_cant": "All version numbers.", "anchors": ["tree/transparency/math/ladders.go: MonitoringBinaryLadder"]}
{"id": "C16", "title": "Rightmost distinguished entry is computed correctly", "statement": "Given monotone timestamps, RightmostDistinguished returns the greatest entry that is distinguished according to the recursive definition of distinguished log entries, or none when no entry is distinguished.", "quantifier": "every log size, every monotone timestamp assignment, every monitoring window", "why_tests_cant": "All timestamp histories.", "anchors": ["tree/transparency/algorithms/algorithms.go: RightmostDistinguished", "tree/transparency/structs/config.go: IsDistinguished"]}
{"id": "C17", "title": "Previous rightmost distinguished entry is computed correctly", "statement": "PreviousRightmost returns the greatest distinguished entry strictly to the left of the newest entry, or none; and it only needs timestamps of the newest entry and of entries on the frontier of the log without its newest entry, which an auditor retains.", "quantifier": "every log size, every monotone timestamp assignment, every monitoring window", "why_tests_cant": "All timestamp histories.", "anchors": ["tree/transparency/algorithms/algorithms.go: PreviousRightmost", "tree/transparency/auditor/auditor.go: previousRightmost"]}
{"id": "C18", "title": "Accepted proofs have monotone timestamps", "statement": "Whatever timestamps a server supplies and in whatever order they are consumed, if processing has not failed then the timestamps known for any two entries are ordered like the entries themselves, and no entry's timestamp or prefix root ever changes once known.", "quantifier": "every sequence of provider operations with an adversarial proof", "why_tests_cant": "Adversarial input and arbitrary order of consumption.", "anchors": ["tree/transparency/algorithms/data_provider.go: addTimestamp, addPrefixTree, AddRetained, GetTimestamp"]}
{"id": "C19", "title": "A greatest-version search that succeeds has checked the newest entry", "statement": "If GreatestVersionSearch reports success for version v, then a ladder for v at the newest entry was obtained and showed v to be the greatest version there; errors met on the way are reported, never turned into success.", "quantifier": "every tree size, configuration and provider behaviour", "why_tests_cant": "The failing path needs an error in the middle of the search for the distinguished entry.", "anchors": ["tree/transparency/algorithms/search.go: GreatestVersionSearch"]}
{"id": "C20", "title": "Greatest-version search is correct on honest data", "statement": "On honest data the greatest-version search for the label's true greatest version succeeds and its terminal entry is the first entry on the searched part of the frontier that already contains that version; for a smaller or larger claimed version it fails.", "quantifier": "every log, label history, timestamp history and configuration", "why_tests_cant": "All histories.", "anchors": ["tree/transparency/algorithms/search.go: GreatestVersionSearch"]}
{"id": "C21", "title": "Fixed-version search finds the entry where the version first appeared", "statement": "On honest data with no expired entries, a fixed-version search for an existing version returns an entry at which that version is the greatest, or the first entry containing it; for a version that does not exist it reports not found. The search always terminates.", "quantifier": "every log, label history and target version", "why_tests_cant": "All histories and all targets.", "anchors": ["tree/transparency/algorithms/search.go: FixedVersionSearch"]}
{"id": "C22", "title": "A version first published at a distinguished entry is not treated as expired", "statement": "A fixed-version search whose terminal entry is itself an unexpired distinguished entry succeeds: only versions whose terminal entry is strictly left of every unexpired distinguished entry on the path are reported as expired.", "quantifier": "every log, timestamp history and maximum lifetime", "why_tests_cant": "The boundary needs a particular combination of expiry, distinguished status and version history.", "anchors": ["tree/transparency/algorithms/search.go: FixedVersionSearch finish"]}
{"id": "C23", "title": "The prefix tree is a map", "statement": "Mutating the prefix tree with a set of additions and removals and then looking up any key gives exactly what the same update on a finite map would give; the tree keeps its canonical shape (no removable inner nodes) and refuses to add a present key or remove an absent one.", "quantifier": "every tree reachable by mutations, every batch of additions and removals, every key", "why_tests_cant": "All histories of batched updates.", "anchors": ["tree/prefix/prefix.go: Tree.Mutate, addRemoveEntries, getMutationRoot, splitEntries, splitVrfOutputs"]}
{"id": "C24", "title": "The prefix tree root depends only on its contents", "statement": "Two prefix trees holding the same key/commitment pairs have the same root hash regardless of the order and batching of the updates that produced them; two trees with different contents have different roots or exhibit a hash collision.", "quantifier": "every pair of update histories", "why_tests_cant": "Compares all pairs of histories.", "anchors": ["tree/prefix/prefix.go: addRemoveEntries", "tree/prefix/nodes.go: Hash"]}
{"id": "C25", "title": "Honest prefix proofs verify", "statement": "For every prefix tree and every duplicate-free list of searched keys, evaluating the proof produced by the server with the true commitments yields the tree's root hash, each result says 'included' exactly for present keys, and the returned commitments are the stored ones, in request order.", "quantifier": "every canonical tree and every duplicate-free list of keys of the right length", "why_tests_cant": "All trees and key sets.", "anchors": ["tree/prefix/prefix.go: runProofBuilder, build", "tree/prefix/verify.go: Evaluate, evaluate, addToSkeleton, fillInCopath"]}
{"id": "C26", "title": "Prefix inclusion proofs are sound", "statement": "If evaluating an arbitrary proof gives the root hash of a real prefix tree and the proof claims inclusion of a key with a commitment, then the tree really contains that key with that commitment, or a hash collision is exhibited.", "quantifier": "every tree, every adversarial proof, every list of claimed entries", "why_tests_cant": "Adversarial proofs.", "anchors": ["tree/prefix/verify.go: Evaluate, Verify, addToSkeleton, terminalNode"]}
{"id": "C27", "title": "Prefix non-inclusion proofs are sound", "statement": "If evaluating an arbitrary proof gives the root hash of a real prefix tree and the proof claims a key is absent, then the tree really does not contain the key, or a hash collision is exhibited.", "quantifier": "every tree, every adversarial proof, every list of claimed keys", "why_tests_cant": "Adversarial proofs.", "anchors": ["tree/prefix/verify.go: addToSkeleton, terminalNode, Evaluate, Verify"]}
{"id": "C28", "title": "An auditor's before/after evaluation matches the real mutation", "statement": "When the server applies any batch of additions and removals to its prefix tree and hands the auditor the proof, evaluating the proof before and after the change yields the server's old and new root hashes.", "quantifier": "every tree and every legal batch of additions and removals", "why_tests_cant": "All trees and batches; failures need particular tree shapes.", "anchors": ["tree/prefix/verify.go: EvaluateBeforeAfter", "tree/prefix/prefix.go: Tree.Mutate"]}
{"id": "C29", "title": "Processing an auditor update never crashes", "statement": "For every update message, however malformed, before/after evaluation of its prefix proof returns a result or an error; it does not panic.", "quantifier": "every adversarial update", "why_tests_cant": "Adversarial input space.", "anchors": ["tree/prefix/verify.go: EvaluateBeforeAfter", "tree/prefix/batch.go: getBit"]}
{"id": "C30", "title": "Old versions of the prefix tree stay readable", "statement": "After any number of later mutations, searching version v of the prefix tree returns the contents as of version v: tiles written by later mutations never overwrite or alter earlier ones, and every tile reference resolves.", "quantifier": "every history of mutations and every earlier version", "why_tests_cant": "Depends on all later writes and on tile splitting.", "anchors": ["tree/prefix/nodes.go: splitIntoTiles, makeTile, tileId", "tree/prefix/batch.go: batch.search", "tree/prefix/prefix.go: Tree.Search, Tree.Mutate"]}
{"id": "C31", "title": "Tiles round-trip through storage", "statement": "Every tile that can be written to the database is read back as the same tile, with nothing left over.", "quantifier": "every tile with fields of the suite's sizes", "why_tests_cant": "All tile contents.", "anchors": ["tree/prefix/nodes.go: tile.Marshal, unmarshalTile, unmarshalNode"]}
{"id": "C32", "title": "A mutation that changes nothing leaves the prefix tree intact", "statement": "Issuing a new log entry with no net additions or removals (for instance removing a label that does not exist) yields a log entry committing to the same prefix tree, which stays searchable.", "quantifier": "every non-empty tree", "why_tests_cant": "Needs the empty batch on a non-empty tree, then a later read.", "anchors": ["tree/prefix/prefix.go: Tree.Mutate, getMutationRoot", "tree/prefix/batch.go: initialize, search", "tree/transparency/mutate.go: Mutate, mutateLabel"]}
{"id": "C33", "title": "Protocol messages round-trip", "statement": "Every request, response and proof structure that is well-formed for the configuration (field sizes within their length prefixes, optional parts present exactly when the deployment mode prescribes them, proof depths below 256) and can be encoded is decoded back to the same structure, consuming exactly the encoded bytes; every byte string that decodes is the encoding of what it decodes to; no byte string crashes a decoder.", "quantifier": "every configuration, every well-formed value of each message type, and every byte string", "why_tests_cant": "All values of all message types.", "anchors": ["tree/transparency/structs/structs.go", "tree/transparency/structs/operations.go", "tree/transparency/structs/proofs.go", "tree/transparency/structs/tree_head.go", "tree/transparency/structs/crypto.go", "tree/transparency/structs/third_party.go", "tree/prefix/proof.go"]}
{"id": "C34", "title": "Signed and hashed payloads are unambiguous", "statement": "Two different VRF inputs, commitment contents, log entries, tree heads or signed updates never have the same encoding, so a signature, commitment or VRF output for one can not be presented for another.", "quantifier": "every pair of values under one configuration", "why_tests_cant": "All pairs of values.", "anchors": ["tree/transparency/structs/crypto.go: VrfInput, CommitmentValue, UpdateTBS, LogEntry", "tree/transparency/structs/tree_head.go: TreeHeadTBS, AuditorTreeHeadTBS", "tree/transparency/structs/config.go: PublicConfig.Marshal"]}
{"id": "C35", "title": "A client's stored label state survives a restart", "statement": "The label state a client writes to its store (contact map, owner state, retained versions) is read back unchanged.", "quantifier": "every label state", "why_tests_cant": "All states; failures depend on which optional parts are present.", "anchors": ["tree/transparency/structs/client.go: ClientLabelState, LabelOwnerState, RetainedVersion"]}
{"id": "C36", "title": "A client's stored global state survives a restart", "statement": "The client state written after any successful verification is read back unchanged.", "quantifier": "every client state a verification can produce, in every deployment mode", "why_tests_cant": "Depends on deployment mode and on which kind of tree head was received.", "anchors": ["tree/transparency/structs/client.go: ClientState"]}
{"id": "C37", "title": "Label indices round-trip through storage", "statement": "The list of positions stored for a label is read back unchanged for every non-empty non-decreasing list of 64-bit positions, a decreasing list is refused, and a label that has no list reads as having no positions.", "quantifier": "every non-empty list of uint64 positions", "why_tests_cant": "All lists, including values needing ten-byte varints.", "anchors": ["tree/transparency/crypto.go: batchGetIndex, putIndex"]}
{"id": "C38", "title": "Database keys of different objects never collide", "statement": "Tree heads, label indices, label versions, log entries, log chunks and prefix tiles are stored under distinct keys: two different objects never share a database key.", "quantifier": "every pair of stored objects (any labels, versions, positions, tile ids)", "why_tests_cant": "All pairs of keys, arbitrary byte-string labels.", "anchors": ["db/leveldb.go: key construction in all accessors", "tree/prefix/nodes.go: tileId.String"]}
{"id": "C39", "title": "Reads observe pending writes and commits make exactly them durable", "statement": "Between commits every read returns the latest written or deleted value, or the committed value when nothing was written; a commit makes exactly the pending state durable and leaves reads unchanged.", "quantifier": "every sequence of reads, writes, deletes and commits", "why_tests_cant": "All operation sequences.", "anchors": ["db/leveldb.go: ldbConn.Get, Put, Commit"]}
{"id": "C40", "title": "A crash during commit leaves a usable database", "statement": "If the process dies at any point during a commit, reopening the database gives a state equal to that before the mutation or that after it: the tree head, the log entries and the label indices agree with each other.", "quantifier": "every mutation, every crash point", "why_tests_cant": "Crash points between two database writes.", "anchors": ["db/leveldb.go: ldbConn.Commit", "tree/transparency/mutate.go: issueTreeHead"]}
{"id": "C41", "title": "A failed mutation has no effect", "statement": "If Mutate returns an error, no later operation observes any of its writes.", "quantifier": "every failing mutation and every later operation", "why_tests_cant": "Needs a failure in the middle followed by other operations.", "anchors": ["tree/transparency/mutate.go: Mutate, mutateLabel", "db/leveldb.go: ldbConn"]}
{"id": "C42", "title": "Versions are assigned consecutively", "statement": "The values added for a label in a mutation receive the next consecutive version numbers in the order given, starting at 0 for a new (or removed) label; each is stored under that version, and the index records the new entry's position for each of them; other labels are unaffected.", "quantifier": "every label history and every batch of additions and removals", "why_tests_cant": "All histories and batches.", "anchors": ["tree/transparency/mutate.go: mutateLabel, groupByLabel"]}
{"id": "C43", "title": "Recently changed labels can not be removed", "statement": "A label is only removed if its last modification was already covered by a distinguished log entry that precedes the new one; otherwise the mutation fails.", "quantifier": "every label history, timestamp history and window", "why_tests_cant": "All histories.", "anchors": ["tree/transparency/mutate.go: Mutate, mutateLabel", "tree/transparency/algorithms/algorithms.go: PreviousRightmost"]}
{"id": "C44", "title": "Tree heads have non-decreasing timestamps", "statement": "Every sequence of successful mutations produces log entries with non-decreasing timestamps, whatever the system clock does.", "quantifier": "every sequence of mutations and clock readings", "why_tests_cant": "Clock behaviour across a history.", "anchors": ["tree/transparency/mutate.go: Mutate"]}
{"id": "C45", "title": "A client accepts the next tree head", "statement": "A client that already holds state and receives an honest response with a larger, correctly signed tree head accepts it and updates its state.", "quantifier": "every client state and every honest later response", "why_tests_cant": "Needs a client with state talking to a grown log; every such case is affected.", "anchors": ["tree/transparency/client_crypto.go: verifyTreeHead, finish, updateView"]}
{"id": "C46", "title": "A fresh client accepts its first response", "statement": "A client without state that receives an honest, correctly signed response stores a state for it.", "quantifier": "every honest first response", "why_tests_cant": "Control-flow defect on the success path of a fresh client.", "anchors": ["tree/transparency/client_crypto.go: finish"]}
{"id": "C47", "title": "A response for an unchanged tree verifies", "statement": "When the client's tree size equals the server's, the honest server's response passes the client's verification of the log proof.", "quantifier": "every tree size and request", "why_tests_cant": "Depends on the pair of sizes used by both sides for the same request.", "anchors": ["tree/transparency/transparency.go: fullTreeHead", "tree/transparency/client_crypto.go: newVerifier, finish", "tree/log/math/math.go: BatchCopath"]}
{"id": "C48", "title": "Verifying a response never crashes the client", "statement": "For every response, however malformed, and every client state, verification returns success or an error; it does not panic.", "quantifier": "every adversarial response, every client state", "why_tests_cant": "Adversarial input space.", "anchors": ["tree/transparency/client.go: StreamVerifier.Verify, contactMonitor, ownerMonitor", "tree/transparency/algorithms/monitor.go: ContactMonitor"]}
{"id": "C49", "title": "A repeated search for a monitored label verifies", "statement": "A client in contact-monitoring mode that retains state for a label can search for it again and accept an honest response.", "quantifier": "every retained label state and honest response", "why_tests_cant": "Needs two consecutive searches with retained label state.", "anchors": ["tree/transparency/client.go: search", "tree/transparency/client_crypto.go: addLabelState, processLadder", "tree/transparency/algorithms/proof_handle.go: addVersion"]}
{"id": "C50", "title": "No request crashes the server", "statement": "For every request a remote user can send, the server returns a response or an error; it does not panic.", "quantifier": "every request (in particular every value of the advertised tree size)", "why_tests_cant": "Adversarial request space.", "anchors": ["tree/transparency/transparency.go: Search, fullTreeHead, updateView", "tree/transparency/math/math.go: Frontier", "tree/transparency/monitor.go"]}
{"id": "C51", "title": "Update requests are answered", "statement": "When new versions of a label exist, the server can produce an update response for them.", "quantifier": "every tree, label and update request", "why_tests_cant": "Every path fails, but only end-to-end runs would show it.", "anchors": ["tree/transparency/update.go: updater.next, process", "tree/transparency/algorithms/update.go: Monitor.Update"]}
{"id": "C52", "title": "Signed versions are consecutive for a managed log", "statement": "Successive updates of a label by the service operator sign consecutive version numbers, starting at 0, without gaps or repetitions.", "quantifier": "every sequence of updates", "why_tests_cant": "Needs at least two updates and all batch sizes.", "anchors": ["db/memory/memory.go: IncrementGreatestVersion", "tree/transparency/managed/managed.go: Update"]}
{"id": "C53", "title": "A failed audit step changes nothing", "statement": "If the auditor rejects an update, its state is exactly what it was before.", "quantifier": "every auditor state and every update", "why_tests_cant": "All failing updates.", "anchors": ["tree/transparency/auditor/auditor.go: Process, updateState"]}
{"id": "C54", "title": "The auditor's tree head covers exactly the processed updates", "statement": "After processing any sequence of updates the auditor's tree size is the number of accepted updates, its full subtrees are those of the list of their log entries, its retained timestamps are those of the frontier, and timestamps never decrease.", "quantifier": "every sequence of updates", "why_tests_cant": "All histories.", "anchors": ["tree/transparency/auditor/auditor.go: Process, updateState", "tree/log/log.go: Append"]}
{"id": "C55", "title": "The auditor refuses removal of recently added entries", "statement": "An entry added after the last preceding distinguished log entry can not be removed: the auditor rejects such an update, for every history of earlier updates.", "quantifier": "every history of updates and timestamps", "why_tests_cant": "Needs three or more updates with particular timestamps.", "anchors": ["tree/transparency/auditor/auditor.go: Process, updateState", "tree/transparency/auditor/state.go: mergeInserted, addedSince"]}
{"id": "C56", "title": "The auditor starts from an empty prefix tree", "statement": "The first update an auditor accepts starts from the empty prefix tree.", "quantifier": "every first update", "why_tests_cant": "Adversarial first update.", "anchors": ["tree/transparency/auditor/auditor.go: Process"]}
{"id": "C57", "title": "Owner state tracks versions over positions", "statement": "An owner state constructed from a label's history answers, for every entry at or after its starting point, how many versions exist there; advancing the starting point keeps all those answers, and never loses or invents versions.", "quantifier": "every label history, every sequence of starting points", "why_tests_cant": "All histories.", "anchors": ["tree/transparency/algorithms/monitor.go: OwnerState.SetStarting, GreatestVersionAt, GreatestVersion, LastUpdate"]}
{"id": "C58", "title": "A failed owner-monitoring run keeps the previous state", "statement": "If owner monitoring fails, the owner state is exactly as before; if it succeeds, the starting point never moves left.", "quantifier": "every state and provider behaviour", "why_tests_cant": "All failing runs.", "anchors": ["tree/transparency/algorithms/monitor.go: OwnerMonitor, ownerMonitor"]}
{"id": "C59", "title": "Contact monitoring moves every pointer rightwards along its path", "statement": "After contact monitoring each remaining pointer is at or to the right of where it was, on the right direct path of its old position, with the same version; a pointer is dropped only when a distinguished entry at or right of it was reached or a greater version was already checked at an entry on its path.", "quantifier": "every contact state, timestamp history and provider behaviour", "why_tests_cant": "All maps and histories.", "anchors": ["tree/transparency/algorithms/monitor.go: ContactMonitor, contactMonitor, distinguishedAncestor"]}
{"id": "C60", "title": "Timestamps accepted from the log are close to the local clock", "statement": "If updating the view succeeds then the newest entry's timestamp is at most MaxAhead ahead of and at most MaxBehind behind the local clock, for every clock and timestamp value.", "quantifier": "every timestamp and clock value (64-bit)", "why_tests_cant": "Unsigned subtraction over the full range.", "anchors": ["tree/transparency/algorithms/algorithms.go: UpdateView"]}
{"id": "C61", "title": "Honest inclusion proofs for several new versions verify", "statement": "When an update adds several versions at once, the proof the server's algorithm produces for the additional versions is accepted by the client's algorithm.", "quantifier": "every number of versions", "why_tests_cant": "Needs several versions in one entry.", "anchors": ["tree/transparency/algorithms/proof_handle.go: GetInclusionProof (both handles)", "tree/transparency/algorithms/update.go: Update"]}
{"id": "C62", "title": "Commitments bind", "statement": "Opening a commitment to two different (label, version, value) triples requires a collision of the keyed hash; verifying a freshly computed commitment succeeds.", "quantifier": "every pair of openings and values", "why_tests_cant": "Universally quantified binding claim.", "anchors": ["crypto/commitments/commitments.go: Commit, Verify"]}
{"id": "C63", "title": "Checking a log proof never crashes", "statement": "Whatever the retained size, claimed size, entry positions, values and proof are, the log proof verifier answers with a result or an error; it never crashes or runs forever.", "quantifier": "every retained state, tree size, position list and proof, including retained sizes larger than the claimed size", "why_tests_cant": "The crashing inputs relate the sizes of two different tree heads.", "anchors": ["tree/log/verify.go: Evaluate", "tree/log/math.go: BatchCopath"]}
{"id": "C64", "title": "Additions accepted by an auditor are exactly the additions made", "statement": "If an auditor accepts a prefix tree update that only adds entries, starting from the root of some tree, then none of the added keys was in that tree and the resulting root is that of the tree with exactly those entries added, whatever proof was sent, unless a hash collision is exhibited.", "quantifier": "every tree, batch of additions and adversarial proof", "why_tests_cant": "Quantifies over all trees and all adversarial proofs.", "anchors": ["tree/prefix/verify.go: EvaluateBeforeAfter, addToSkeleton", "tree/transparency/auditor/auditor.go: Process"]}
{"id": "C65", "title": "Search and monitoring never crash on bad data", "statement": "Whatever timestamps, ladder results or errors the other side supplies, the search, view-update, initialization, monitoring and update algorithms end with a result or an error; they neither panic nor run forever.", "quantifier": "every log size below 2^64, configuration, monitoring state within the log, version below 2^31-1 and provider behaviour", "why_tests_cant": "Quantifies over all possible answers, consistent or not.", "anchors": ["tree/transparency/algorithms/algorithms.go", "tree/transparency/algorithms/search.go", "tree/transparency/algorithms/monitor.go", "tree/transparency/algorithms/update.go"]}
{"id": "C66", "title": "An honest server always convinces the client", "statement": "For every honest database and every request (search for the greatest or a given version, contact monitoring, owner initialization, owner monitoring, update), a client that kept the right hashes and log entries from its previous view accepts the combined proof the server produces: its own run of the algorithm ends with the same result as on the true data, it arrives at the true root hash of the log, and it keeps the right hashes and entries for its next request.", "quantifier": "every log and label history, every previous and current tree size, every request, every configuration, any hash function", "why_tests_cant": "Quantifies over all logs, all sizes and all label histories; tests cover a few sizes.", "anchors": ["tree/transparency/algorithms/data_provider.go: DataProvider, Output, Finish", "tree/transparency/algorithms/proof_handle.go: ProducedProofHandle, ReceivedProofHandle", "tree/transparency/algorithms/search.go", "tree/transparency/algorithms/monitor.go", "tree/transparency/algorithms/update.go", "tree/transparency/algorithms/algorithms.go: UpdateView"]}
{"id": "C67", "title": "A mutation never makes the log unusable", "statement": "After any sequence of successful mutations, a further mutation that adds a new label with a short enough name and a non-decreasing clock succeeds.", "quantifier": "every sequence of successful mutations, including ones that change nothing", "why_tests_cant": "All histories; the damage only shows at the next mutation.", "anchors": ["tree/transparency/mutate.go: Mutate", "tree/prefix/prefix.go: Tree.Mutate", "tree/transparency/structs/log.go: NewLogEntry"]}
{"id": "C68", "title": "Stored values always match what the log commits to", "statement": "After any sequence of successful mutations, for every label and version, the value and opening that are stored open the commitment which the prefix tree of the newest log entry holds for it, that log entry is the one signed for, and versions that do not exist have no commitment.", "quantifier": "every history of mutations, every label and version", "why_tests_cant": "All histories; relates four different tables of the database.", "anchors": ["tree/transparency/mutate.go: Mutate, mutateLabel, issueTreeHead", "tree/transparency/crypto.go: putVersion, getVersion"]}
{"id": "C69", "title": "A commit that succeeds is durable", "statement": "If the auditor's Commit succeeds, the returned tree head and the state it belongs to are in the store, so that an auditor restarted from the store is at the same point.", "quantifier": "every history of updates, commits and store failures", "why_tests_cant": "Needs a store failure at a particular moment of a history.", "anchors": ["tree/transparency/auditor/auditor.go: Commit, NewAuditor"]}
{"id": "C70", "title": "A restarted auditor resumes from its last stored commit", "statement": "At any time an auditor can be restarted from its store; its state is then about exactly the updates accepted before the last commit that reached the store.", "quantifier": "every history of updates, commits, failures and restarts", "why_tests_cant": "All histories and restart points.", "anchors": ["tree/transparency/auditor/auditor.go: NewAuditor, Commit", "tree/transparency/auditor/state.go: newAuditorState, Marshal"]}
{"id": "C71", "title": "An auditor accepts everything an honest server does", "statement": "An auditor that is given, from the beginning, every update returned by the mutations of an honest server accepts each of them, and signs the same root of the log, at the same size, as the server.", "quantifier": "every history of mutations, reopenings and failed mutations, any commits of the auditor in between", "why_tests_cant": "All histories; two independent implementations have to agree on each.", "anchors": ["tree/transparency/mutate.go: Mutate", "tree/transparency/auditor/auditor.go: Process, Commit"]}
{"id": "C72", "title": "Distinguished log entries stay distinguished", "statement": "A log entry that is distinguished at one size of the log is distinguished at every later size.", "quantifier": "every log with non-decreasing timestamps, every pair of sizes, every reasonable monitoring window", "why_tests_cant": "All sizes and timestamps.", "anchors": ["tree/transparency/algorithms/algorithms.go: previousRightmost, rightmostDistinguished", "tree/transparency/auditor/auditor.go: Process"]}
{"id": "C73", "title": "Reading a stored auditor state never panics", "statement": "Whatever bytes are in the store, starting the auditor ends with an auditor or an error.", "quantifier": "every byte string", "why_tests_cant": "All byte strings.", "anchors": ["tree/transparency/auditor/state.go: newAuditorState"]}
{"id": "C74", "title": "The update of every mutation can be sent", "statement": "Every update returned by a successful mutation can be marshalled.", "quantifier": "every history of mutations, every batch of changes", "why_tests_cant": "All batch sizes.", "anchors": ["tree/transparency/structs/third_party.go: AuditorUpdate.Marshal", "tree/prefix/proof.go: PrefixProof.Marshal", "tree/transparency/mutate.go: Mutate"]}
{"id": "C75", "title": "The manager accepts what the operator signs", "statement": "For a log managed by a third party, an update signed by the service operator with its memory of signed versions is accepted by the manager's signature check.", "quantifier": "every label, every sequence of values and every memory of signed versions", "why_tests_cant": "All histories of the operator's memory and all values.", "anchors": ["tree/transparency/managed: update request creation", "tree/transparency/update.go: operatorSignatures, SetManagerRequest"]}
{"id": "C76", "title": "An accepted search result is the committed value", "statement": "If a client whose state is that of a genuine log accepts a search response, then the value in it is the one the log committed to for the label and version, unless the hash function has a collision.", "quantifier": "every adversarial response, every genuine log and client state", "why_tests_cant": "Quantifies over all adversarial responses; needs a reduction to collision resistance.", "anchors": ["tree/transparency/client.go: VerifySearch", "tree/prefix/verify.go: Evaluate", "tree/transparency/client_crypto.go: Finish"]}
{"id": "C77", "title": "Every VRF proof a key produces is accepted", "statement": "For every private key and message: the proof returned by Prove has the size announced by the cipher suite, and the public key of the private key accepts it for this message and returns the output that Prove returned.", "quantifier": "every private key the constructor accepts and every message, for both VRF implementations (P-256 and edwards25519)", "why_tests_cant": "There are 2^256 keys and infinitely many messages; exceptional cases (a response of zero, a point of small order) have negligible density, so no sampled test meets them.", "anchors": ["crypto/vrf/p256/p256.go: NewPrivateKey, Prove, PublicKey, Verify", "crypto/vrf/edwards25519/edwards25519.go: NewPrivateKey, Prove, PublicKey, Verify", "crypto/suites: VrfProofSize"]}
{"id": "C78", "title": "A VRF output is unique", "statement": "Under one public key (possibly chosen by an attacker) two accepted proofs for the same message give the same output, which for an honest key is the one Prove returns, unless somebody guessed the challenge hash in advance.", "quantifier": "every public key, message and pair of byte strings offered as proofs, for both VRF implementations", "why_tests_cant": "Quantifies over all adversarial proofs and keys; needs the group-theoretic soundness argument.", "anchors": ["crypto/vrf/p256/p256.go: Verify, encodeToCurve, generateChallenge, proofToHash", "crypto/vrf/edwards25519/edwards25519.go: Verify, encodeToCurve, generateChallenge, proofToHash"]}
{"id": "C79", "title": "VRF operations do not crash", "statement": "Verifying any byte string as a proof returns an output or an error, and proving any message returns an output and a proof; the only exceptions are messages none of whose 256 candidate points is on the curve, and (P-256) keys for which 256 nonce candidates in a row are out of range.", "quantifier": "every key, message and proof byte string", "why_tests_cant": "All byte strings of all lengths; the exceptional branches can not be reached by tests.", "anchors": ["crypto/vrf/p256/p256.go: Verify, Prove, generateNonce", "crypto/vrf/edwards25519/edwards25519.go: Verify, Prove"]}
{"id": "C80", "title": "VRF keys and signatures survive their encodings", "statement": "The encoding of the public key of any private key is accepted by the public key constructor and gives the same key back; a P-256 signature is encoded in exactly 64 bytes from which the verifier reads the same two numbers.", "quantifier": "every private key; every pair of numbers below 2^256", "why_tests_cant": "The leading-zero cases of fixed-size encodings occur with probability 1/256 and less.", "anchors": ["crypto/vrf/p256/p256.go: NewPublicKey, Bytes", "crypto/vrf/edwards25519/edwards25519.go: NewPublicKey, Bytes", "crypto/suites: signature encoding"]}
{"id": "C81", "title": "Initializing the state of a label owner checks what it records", "statement": "If initialization with a starting entry and claimed greatest versions succeeds, and the answers it got are true of the log, then the starting entry is distinguished and unexpired, the entries inspected are it and all its unexpired ancestors to its left, the claimed versions are the greatest versions of the label at those entries, and the new state records exactly that; and with an honest log every distinguished unexpired starting entry with the right versions is accepted.", "quantifier": "every log, starting entry, list of claimed versions and provider whose answers are true", "why_tests_cant": "All logs and all positions; the set of entries inspected is defined by the shape of a tree over the whole log.", "anchors": ["tree/transparency/algorithms/monitor.go: OwnerInit, InitEntries, init"]}
{"id": "C82", "title": "An accepted update is one the log shows", "statement": "If an update announcing new versions of a label at a position succeeds, and the answers it got are true of the log, then the position is right of every earlier version, the label did not change unnoticed before it, the log shows the new greatest version there (unless the entry is distinguished and so left to owner monitoring), and the owner's state records exactly these versions; and an honest update is accepted.", "quantifier": "every log, owner state, position and number of versions, and provider whose answers are true", "why_tests_cant": "All logs, histories and positions.", "anchors": ["tree/transparency/algorithms/update.go: Update, verifyPreviousTree, nonDistinguishedAncestor"]}
{"id": "C83", "title": "An accepted response contains nothing unused", "statement": "When the proof in a response is accepted, all timestamps and prefix proofs in it have been used and the number of prefix roots is the number of inspected entries whose root was not known; so nothing can be smuggled in a response past the checks.", "quantifier": "every response and every state of the verifier", "why_tests_cant": "All responses.", "anchors": ["tree/transparency/algorithms/proof_handle.go: Finish, GetPrefixTrees", "tree/transparency/algorithms/data_provider.go: Finish"]}
{"id": "C84", "title": "The in-memory store behaves like the durable one", "statement": "Every read of the in-memory store returns the latest value written for exactly the objects asked for, whatever the labels, versions, positions and tiles, and a history without clones and restarts gets the same answers from it as from the LevelDB-backed store; so what is tested over the one carries over to the other.", "quantifier": "every sequence of reads, writes, deletions, commits and clones", "why_tests_cant": "All histories and keys.", "anchors": ["db/memory/memory.go: TransparencyStore, LogStore, PrefixStore", "db/leveldb.go"]}
{"id": "C85", "title": "A clone of the in-memory store is a read-only view of what was committed", "statement": "Reads through a clone of the in-memory store show the contents committed when it was made, do not change with later writes that are not committed, and nothing can be written through it.", "quantifier": "every history of a store and its clones", "why_tests_cant": "All interleavings of calls.", "anchors": ["db/memory/memory.go: Clone, Commit, ReadOnly", "db/db.go: TransparencyStore"]}
{"id": "C86", "title": "An owner who monitors successfully would have seen every change of their label at the entries they inspect", "statement": "If an owner accepts a monitoring response and the computed tree head is that of some log, honest or not, then at every distinguished entry between the old and the new starting point the prefix tree of the log shows exactly the versions that the owner published up to there, with the commitments the owner keeps: the greatest version in the tree is the owner's, and the next one is absent.", "quantifier": "every log, honest or not, every owner state, every response", "why_tests_cant": "All malicious logs and responses.", "anchors": ["tree/transparency/client.go: OwnerMonitor", "tree/transparency/algorithms/monitor.go: Monitor.OwnerMonitor", "tree/prefix/verify.go: Evaluate"]}
{"id": "C87", "title": "Whoever takes over a label learns its true versions", "statement": "If initialization of an owner at a starting entry is accepted and the computed tree head is that of some log, honest or not, then the starting entry is distinguished and unexpired, and at it and at each of its unexpired ancestors to the left the prefix tree of the log shows the claimed version as the greatest one, with the commitments given in the response.", "quantifier": "every log, honest or not, every starting entry, every response", "why_tests_cant": "All malicious logs and responses.", "anchors": ["tree/transparency/client.go: OwnerInit", "tree/transparency/algorithms/monitor.go: Monitor.OwnerInit", "tree/prefix/verify.go: Evaluate"]}
{"id": "C88", "title": "A contact who monitors successfully knows that the version seen was not taken back", "statement": "If a contact accepts a monitoring response and the computed tree head is that of some log, honest or not, then at every entry on the way from the entry of a search to the next distinguished entry (ancestors to the right) the prefix tree holds the version seen, or a greater one that the contact knows, with the commitments the contact keeps; and no entry that is still to be looked at later is forgotten.", "quantifier": "every log, honest or not, every set of monitored entries, every response", "why_tests_cant": "All malicious logs and responses.", "anchors": ["tree/transparency/client.go: ContactMonitor", "tree/transparency/algorithms/monitor.go: Monitor.ContactMonitor", "tree/prefix/verify.go: Evaluate"]}
{"id": "C89", "title": "With third-party management, clients accept only values that the service operator signed", "statement": "If the deployment is configured for third-party management, the value returned by an accepted search carries a signature of the service operator on exactly that value for the label and the version found, and the values of an update that its owner accepts carry such signatures for the label and the versions that follow the greatest one the owner knows. In every other mode nothing that carries such a signature is accepted.", "quantifier": "every configuration, client state, request and response; every set of values the operator has signed", "why_tests_cant": "All responses of a malicious manager, including replays of signatures for other labels, versions and values.", "anchors": ["tree/transparency/client.go: Search, StreamVerifier.Verify", "tree/transparency/client_crypto.go: verifyUpdateValue", "tree/transparency/structs/crypto.go: UpdateTBS"]}
{"id": "C90", "title": "An update that its owner accepts is in the log", "statement": "When an owner accepts the answer to an update, the log entry named in the answer commits to the values submitted, as the versions of the label that follow the greatest one the owner knew.", "quantifier": "every log, owner state and response", "why_tests_cant": "All malicious responses for all logs.", "anchors": ["tree/transparency/client.go: StreamVerifier.Verify", "tree/transparency/algorithms/update.go: Monitor.Update"]}
{"id": "C91", "title": "An owner keeps the commitments to the versions they published", "statement": "After an owner has accepted the answer to an update, they keep for every new version that later monitoring will look up the commitment to the value published, so that later responses about it can be checked.", "quantifier": "every owner state, update and response", "why_tests_cant": "All numbers of versions before and after.", "anchors": ["tree/transparency/client.go: StreamVerifier.Verify", "tree/transparency/update.go: updateLadderVersions", "tree/transparency/client_crypto.go: updateRetainedVersions"]}
{"id": "C92", "title": "A search for something that does not exist is reported as such", "statement": "When a client asks an honest server for a label that was never published, or for a version that the label does not have, the server answers and the client reports to its caller that there is no such label or version.", "quantifier": "every log, label without the requested version, client state, clock and deployment mode", "why_tests_cant": "All logs, labels and versions, including labels that were never published.", "anchors": ["tree/transparency/client.go: Search", "tree/transparency/transparency.go: Search", "tree/transparency/algorithms/algorithms.go: ErrLabelNotFound"]}
{"id": "C93", "title": "The report that a version does not exist can be trusted", "statement": "When a client reports that the requested version of a label does not exist, then the version is missing from the log, unless two different inputs with the same hash are known.", "quantifier": "every log, client state and response, including responses of a malicious server", "why_tests_cant": "All malicious responses for all logs.", "anchors": ["tree/transparency/client.go: Search", "tree/transparency/algorithms/search.go: GreatestVersionSearch, FixedVersionSearch"]}
{"id": "C94", "title": "Monitoring comes to rest", "statement": "When a client has monitored a label successfully and the log has not grown since, the client is not asked to monitor that label again: a client that monitors whatever it is asked to monitor comes to a point where there is nothing left to do.", "quantifier": "every client store, label, honest log and response", "why_tests_cant": "All histories of a client and a log; the property is about repeating monitoring without end.", "anchors": ["tree/transparency/client.go: Monitor", "tree/transparency/client.go: contactMonitor", "db/db.go: ClientStore.GetStaleLabel"]}
{"id": "C95", "title": "A client's behaviour depends only on the contents of its state", "statement": "Two client states with the same contents lead to the same requests, and to the same responses being accepted with the same results, whatever the order in which the stored map of log entries is written, read back or visited; in particular, saving the state and loading it again makes no difference.", "quantifier": "every pair of states with the same contents, every operation, request, response, clock and key", "why_tests_cant": "Go visits maps in an unpredictable order; a test sees one order.", "anchors": ["tree/transparency/client.go: Search, InitOwner, contactMonitor, ownerMonitor, streamVerifier.verify", "tree/transparency/structs/client.go: ClientState.Marshal, NewClientState", "tree/transparency/algorithms/data_provider.go: AddRetained, Finish"]}
{"id": "C96", "title": "What a client keeps after a search is determined", "statement": "What a client keeps after accepting the response to a search is determined by the request, the response and what it had kept before; in particular it does not depend on the order in which a Go map is visited, and redundant monitoring entries are removed.", "quantifier": "All requests, responses, stored states, and orders in which the maps are visited", "why_tests_cant": "Go randomizes map iteration: a test sees one order per run, and the difference shows only in what is requested later.", "anchors": ["tree/transparency/client_crypto.go: simplifyMonitoringMap, updateContactState", "tree/transparency/client.go: VerifySearch"]}
{"id": "C97", "title": "Recording a search loses no monitoring obligation", "statement": "After a search is accepted and its label has to be monitored, the version found is looked for at the entry where the search ended or at an ancestor to its right, and so is every version that was monitored before, at its entry or an ancestor to its right, for at least that version; nothing else is added.", "quantifier": "All searches, stored states, log sizes, and orders in which the maps are visited", "why_tests_cant": "An entry that is dropped wrongly shows only when a malicious log later takes a version back; the map can have any shape.", "anchors": ["tree/transparency/client_crypto.go: simplifyMonitoringMap, updateContactState", "tree/transparency/client.go: VerifySearch"]}
{"id": "C98", "title": "Monitoring over time sees the whole way", "statement": "A user who saw versions of a label at some log entries and monitors the label from time to time, while the log grows, and accepts every response, has in the end seen that every entry on the way of these entries to the first distinguished one shows the version or a greater one; and until a distinguished entry is reached the version is still monitored.", "quantifier": "All logs, honest or not, all numbers of monitoring steps and sizes of the log at each, all label states", "why_tests_cant": "Each step looks at a part of the way only and depends on what the one before stored; a gap shows only for particular sequences of sizes.", "anchors": ["tree/transparency/algorithms/monitor.go: ContactMonitor, contactMonitor", "tree/transparency/client.go: VerifyContactMonitor", "tree/transparency/math/math.go: RightDirectPath"]}
{"id": "C99", "title": "What a search recorded can be monitored", "statement": "After an honest log has answered a client's search and the client has accepted the answer, the client's later requests to monitor the label are answered by the honest server, and checking the answer of an honest log ends without an error.", "quantifier": "All honest logs, all accepted searches, all orders in which maps are visited, all later sizes of the log", "why_tests_cant": "The failure needs a particular order of visiting a Go map at the time of the search, and shows only when the label is monitored later.", "anchors": ["tree/transparency/monitor.go: verifyEntries", "tree/transparency/algorithms/monitor.go: ContactMonitor, contactMonitor", "tree/transparency/client_crypto.go: simplifyMonitoringMap, updateContactState"]}
{"id": "C100", "title": "Searching again does no harm to monitoring", "statement": "After any sequence of accepted searches for versions of a label and of monitoring it, while an honest log grows, the client's requests to monitor the label are answered by the honest server, and monitoring the honest log raises no alarm.", "quantifier": "All honest logs, all sequences of searches, monitoring and growth, all orders in which maps are visited", "why_tests_cant": "The failure needs a search for a later version, growth of the log, and then a search for an earlier version before the next monitoring; it shows only later, as an alarm about an honest log.", "anchors": ["tree/transparency/client_crypto.go: updateContactState, simplifyMonitoringMap", "tree/transparency/monitor.go: verifyEntries", "tree/transparency/algorithms/monitor.go: ContactMonitor", "tree/transparency/algorithms/search.go: FixedVersionSearch, GreatestVersionSearch"]}
{"id": "C101", "title": "The tree an auditor vouches for holds exactly what it was told", "statement": "After any history of updates, commits, store failures and restarts in which no accepted update removes entries, the prefix tree root in the auditor's state is the root of the tree with the entries the first update started from and exactly the entries added by the accepted updates; no key was added twice.", "quantifier": "Every history of an auditor, every adversarial proof in its updates", "why_tests_cant": "Quantifies over all adversarial proofs and all histories with crashes.", "anchors": ["tree/transparency/auditor/auditor.go: Auditor.Process, Auditor.Commit, NewAuditor", "tree/prefix/verify.go: EvaluateBeforeAfter"]}
{"id": "C102", "title": "With an auditor, what monitoring checks at some entries holds at all of them", "statement": "If the log that a client monitors is the one whose tree head an auditor signed, and nothing was ever removed from it, then (1) the prefix tree of each entry holds exactly what the auditor was told up to that entry, (2) after a successful monitoring of a version that was seen, that version or a greater one is in every later entry, with the known commitments, and (3) after an owner monitored successfully, the version after the owner's last one was in no entry up to the distinguished entries that were looked at, and no entry of the log, looked at or not, holds another commitment to a version that was looked up.", "quantifier": "All histories of the auditor (updates with any proofs, commits, failures, restarts), all logs, client states and responses", "why_tests_cant": "Monitoring looks at few entries; that nothing different is shown to others at the entries in between is a property of all histories a server could invent.", "anchors": ["tree/transparency/auditor/auditor.go: Auditor.Process, Auditor.Commit", "tree/transparency/client.go: Client.Monitor", "tree/transparency/algorithms/monitor.go: ContactMonitor, OwnerMonitor", "tree/prefix/verify.go: EvaluateBeforeAfter"]}
{"id": "C103", "title": "With an auditor, users and owner agree on what was published", "statement": "If an auditor vouches for the log (nothing was removed from it), then no server can make accepted searches disagree: (1) two users who were given the same version of a label were given the same value, whatever the sizes of the log they saw; (2) a later search for the greatest version does not return a smaller version than an earlier one; (3) once an owner's monitoring looked at a distinguished entry successfully, every user who is given the owner's greatest version of that time (or another version that was looked up) is given the value the owner knows, and no search for the greatest version in a log with that entry returns a smaller version than the owner's.", "quantifier": "All logs an auditor may vouch for, all client states, requests and responses, all pairs of log sizes", "why_tests_cant": "It is about what two parties with different states accept from a server that answers arbitrarily; tests run one client against an honest server.", "anchors": ["tree/transparency/client.go: Client.Search, Client.Monitor", "tree/transparency/algorithms/search.go: FixedVersionSearch, GreatestVersionSearch", "tree/transparency/algorithms/monitor.go: OwnerMonitor", "tree/transparency/auditor/auditor.go: Auditor.Process"]}
{"id": "C104", "title": "An honest server answers exactly the sensible monitoring requests", "statement": "After any history of mutations that does not remove the label, and whatever part of the log the user has already seen, the server answers a request to monitor pairs of a position and a version if and only if the pairs are in increasing order of both and the position of each pair is the entry with which the version was published or an ancestor of that entry to the right (an entry at which a search for the version can end). In particular a user who recorded what their searches found is always answered.", "quantifier": "All histories of mutations, labels, previous sizes (also those at which nothing of the new frontier is fetched) and lists of pairs", "why_tests_cant": "The answer combines the database, the monitoring algorithm and three kinds of proofs; that none of the many error paths is taken for a good request holds only because of invariants of the whole history.", "anchors": ["tree/transparency/monitor.go: Tree.ContactMonitor, verifyEntries", "tree/transparency/algorithms/monitor.go: ContactMonitor", "tree/transparency/algorithms/proof_handle.go: ProducedProofHandle", "tree/transparency/transparency.go: Tree.fullTreeHead"]}
{"id": "C105", "title": "An honest server lets a label owner start wherever that is possible", "statement": "After any history of mutations that does not remove the label, and whatever part of the log the owner has already seen, the server answers a request to initialize the state of the owner at a given entry if and only if the entry is distinguished and has not expired. The versions in the answer are the greatest versions of the label at that entry and at its unexpired ancestors to the left, in this order, up to the first at which the label does not exist. For every version that the owner looks up, the answer holds the VRF proof, and the commitment exactly if the version was published with an entry up to the starting one.", "quantifier": "All histories of mutations, labels (also those without a version), previous sizes and starting entries", "why_tests_cant": "Which entries are distinguished depends on all timestamps of the log; that no error path is taken at a good entry, and that every other entry is refused, cannot be settled on sample logs.", "anchors": ["tree/transparency/monitor.go: Tree.OwnerInit, getBinaryLadder, allLadderVersions", "tree/transparency/algorithms/monitor.go: InitEntries, OwnerInit, OwnerState.GreatestVersionAt", "tree/prefix/prefix.go: Tree.Search"]}
{"id": "C106", "title": "An honest server answers exactly the possible requests of a label owner", "statement": "After any history of mutations that does not remove the label, and whatever part of the log the owner has already seen, the server answers a request for owner monitoring (with the pairs of a position and a version still to be monitored, the entry up to which the owner has monitored and the greatest version they know) if and only if the pairs are good as for contact monitoring, the entry is in the log, the greatest version exists and it is not older than the greatest version at that entry (if the owner knows no version, there is none at that entry). Versions that the owner does not know about are never a reason to refuse.", "quantifier": "All histories of mutations, labels (also those without a version), previous sizes, lists of pairs, starting entries and greatest versions", "why_tests_cant": "Two algorithms share one record of what was looked up and one proof; that their combination takes no error path, whatever the timestamps make distinguished, holds only by invariants over the whole history.", "anchors": ["tree/transparency/monitor.go: Tree.OwnerMonitor, verifyEntries", "tree/transparency/algorithms/monitor.go: Monitor.ContactMonitor, Monitor.OwnerMonitor, OwnerState.SetStarting", "tree/transparency/algorithms/proof_handle.go: ProducedProofHandle"]}
