# Formal model of Bren2010/katie in Coq 8.16.1

## 1. What this is

`/verif/rocq/theories` contains a hand-written Gallina model of the Go code in
`/repo`, function by function, together with small independent specifications and
theorems relating the two.  Every model definition carries a comment with the file
and lines it models and with every simplification made.

Layout (one family of files per subsystem):

* `*Model.v` – the model: total computable functions, no proofs.
* `*Spec.v` – small specifications that do not mention the model.
* `*Proofs.v` – lemmas.
* `*Properties.v` – the property theorems, each closed by `exact`, followed by
  `Print Assumptions`, with `Example`s that show the hypotheses are met by
  concrete non-trivial cases (examples that need computation live in `*Examples.v`
  or directly beside the theorem).

## 2. Conventions

* `bytes = list byte` with the 256-constructor `Coq.Init.Byte.byte`: no
  well-formedness side conditions on byte values.
* Go's fixed-width integers are `N`, with explicit wrap-around (`mod 2^64`,
  `mod 2^32`) wherever the Go expression can overflow.  `nat` is used for
  lengths, slice indices, tree depths and fuel only.
* Go results are values of
  `res A := Ok a | Fail msg | Panic msg | Fuel`: returned errors, run-time panics
  (index out of range, nil dereference, explicit `panic`) and "loop did not finish
  within the given fuel" are different outcomes.  `Fuel` is only ever used for
  loops whose termination is itself a property; the theorems either exclude it or
  show that no amount of fuel suffices.
* Pointers that can be nil are `option`s; dereferencing nil is `Panic`.
* Cryptography is never axiomatised.  Hash functions, VRFs, signature schemes are
  ordinary function (or record) parameters, universally quantified in the
  theorems.  Soundness theorems conclude "the claim, or here are two different
  inputs with the same hash".
* Go maps are association lists; where iteration order matters the theorem
  quantifies over the order.
* Refuted properties: when the faithful model contradicts the English property we
  prove `…_refuted` with a concrete witness and, where something useful is left,
  a `…_partial` theorem with the exact precondition that makes it true.

## 3. Trusted base

* Coq 8.16.1's kernel (and `vm_compute`'s conversion, used for closed witnesses).
* The correspondence between the Gallina model and the Go source, which is by
  reading: Go semantics of slices, maps, integer arithmetic; Go standard library
  (`slices.Sort*`, `slices.BinarySearch*`, `bytes.Buffer`, `encoding/binary`,
  `io.ReadFull`) are modelled by their documented behaviour.
* `Print Assumptions` is run beneath each property theorem in the `*Properties.v`
  files; section 6 lists the result.

## 4. Plan per property

* **C01 Log tree navigation is a consistent left-balanced binary tree** – LogMath: fuel loops over N with 64-bit wrap; characterise node ids as 2^k(2q+1)-1; prove each navigation function against (level,index) coordinates.
* **C02 Full subtrees partition the log** – LogMath: FullSubtrees loop; invariant: remaining node covers the remaining suffix of entries; spec = list of intervals.
* **C03 A batch proof contains exactly the nodes the verifier lacks** – LogMath: batchCopath recursion; induction on level; spec: intervals covered by nodes form a partition together with leaves/retained.
* **C04 Incremental append computes the Merkle tree root of the whole history** – LogTree: Append/Root against a list Merkle tree spec `mth`; induction on history.
* **C05 Honest log batch proofs always verify** – LogVerify: Evaluate on honest copath values; induction over the evaluate recursion.
* **C06 Log inclusion proofs are sound** – LogVerify: Evaluate with arbitrary proof; induction, collision extraction; injectivity of nodeData.marshal.
* **C07 Log growth is append-only for a verifier with retained state** – LogVerify: same machinery; retained nodes are compared in the node map.
* **C08 The stored log always returns what was appended** – LogChunk: chunk store model, refinement relation 'every stored chunk holds the true values of its complete nodes'.
* **C09 The search tree over log entries reaches every entry** – TransMath on the same (level,index) coordinates, width = n.
* **C10 Updating a view fetches exactly what is needed to hold the whole frontier** – TransMath: UpdateView; proof through characterisation of frontier membership.
* **C11 Direct paths list exactly the ancestors on one side** – TransMath: RightDirectPath/LeftDirectPath; invariant over the parent loop.
* **C12 Binary ladders terminate for every version number** – Ladders: fuel loop with mod 2^32; refuted for 2^31-1 with an invariant over all fuels; partial below.
* **C13 A search ladder decides how the greatest version compares with the target** – Ladders: SearchBinaryLadder, InterpretSearchLadder; proof that a ladder is a complete comparison procedure.
* **C14 Server and client omit the same redundant lookups** – Tracker + both handles: agreement of omitted lookups under the search invariant.
* **C15 Monitoring ladders look up only versions that must exist** – Ladders: MonitoringBinaryLadder.
* **C16 Rightmost distinguished entry is computed correctly** – Algorithms: loop over left/right bounds; spec = recursive definition of distinguished entries.
* **C17 Previous rightmost distinguished entry is computed correctly** – Algorithms: same spec.
* **C18 Accepted proofs have monotone timestamps** – Provider: invariant over arbitrary operation sequences.
* **C19 A greatest-version search that succeeds has checked the newest entry** – Algorithms: trace argument; the swallowed error is a refutation.
* **C20 Greatest-version search is correct on honest data** – Algorithms: honest provider, monotone greatest-version function.
* **C21 Fixed-version search finds the entry where the version first appeared** – Algorithms: honest provider; loop invariant on the BST interval.
* **C22 A version first published at a distinguished entry is not treated as expired** – Algorithms: concrete witness (expected refutation), partial theorem.
* **C23 The prefix tree is a map** – PrefixTree: addRemoveEntries against finite map on bit paths; canonical-form invariant.
* **C24 The prefix tree root depends only on its contents** – PrefixTree: uniqueness of canonical trees; hash injectivity modulo collision.
* **C25 Honest prefix proofs verify** – PrefixProof: builder/evaluator; structural induction on the tree.
* **C26 Prefix inclusion proofs are sound** – PrefixProof: collision extraction along the search path.
* **C27 Prefix non-inclusion proofs are sound** – PrefixProof: expected refutation (leaf proof naming the searched key); partial with the missing check.
* **C28 An auditor's before/after evaluation matches the real mutation** – PrefixProof: additions proved; removals expected refuted (collapse of a sibling leaf), partial otherwise.
* **C29 Processing an auditor update never crashes** – PrefixProof: expected refutation.
* **C30 Old versions of the prefix tree stay readable** – PrefixTiles: representation relation between tiles and trees, preserved by later writes.
* **C31 Tiles round-trip through storage** – PrefixTiles codec.
* **C32 A mutation that changes nothing leaves the prefix tree intact** – PrefixTiles: expected refutation.
* **C33 Protocol messages round-trip** – Codec: one model per structure, round trip with arbitrary trailing bytes.
* **C34 Signed and hashed payloads are unambiguous** – Codec: injectivity of encoders.
* **C35 A client's stored label state survives a restart** – Codec: expected refutation + partial.
* **C36 A client's stored global state survives a restart** – Codec: expected refutation + partial.
* **C37 Label indices round-trip through storage** – StoreModel: uvarint and delta coding.
* **C38 Database keys of different objects never collide** – Store: key builders, injectivity.
* **C39 Reads observe pending writes and commits make exactly them durable** – Store: refinement to a map.
* **C40 A crash during commit leaves a usable database** – Store: two-step commit with crash points; expected refutation + partial (what each crash point leaves).
* **C41 A failed mutation has no effect** – Store/Mutate: expected refutation.
* **C42 Versions are assigned consecutively** – Mutate: invariant `describes` (MutateSpec.v): contents of the store against a history of epochs, preserved by each mutation.
* **C43 Recently changed labels can not be removed** – Mutate: both directions, through the specification of the previous rightmost distinguished entry (C17).
* **C44 Tree heads have non-decreasing timestamps** – Mutate: invariant on the table of log entries which also survives failed mutations.
* **C45 A client accepts the next tree head** – Client: verifyTreeHead/UpdateView; refuted. What holds of the honest exchange (SearchProofs*.v): server and client runs of the same program are simulated by the run on the true log (HandleProofs8.v), over any history of mutations.
* **C46 A fresh client accepts its first response** – Client: refuted; every check up to the crash succeeds (SearchProofs3.v).
* **C47 A response for an unchanged tree verifies** – Client: refuted through BatchCopath sizes; with another proof of inclusion the response is accepted (SearchProofs3.v).
* **C48 Verifying a response never crashes the client** – Client model over decoded responses. Every primitive of the verification programs is shown not to panic or run out of fuel on a usable client state (calm), by a predicate over programs (CalmProofs.v). Refuted for a client without state, short update ladders, and monitoring that resolves every contact entry; for the rest the exchange theorem is proved (CalmProperties.v).
* **C49 A repeated search for a monitored label verifies** – Client: expected refutation.
* **C50 No request crashes the server** – Server: refutations (advertised size 0; versions of 2^31-1 or more) + partial: every other request to a server with any history of mutations ends with responses or errors only (stores never fail in another way: history of the prefix tree, batch reads of the log; algorithms over the produced handle; slice bounds and ladders).
* **C51 Update requests are answered** – Updater: expected refutation.
* **C52 Signed versions are consecutive for a managed log** – Memory store / managed: expected refutation + partial.
* **C53 A failed audit step changes nothing** – Auditor model.
* **C54 The auditor's tree head covers exactly the processed updates** – Auditor model + LogTree.
* **C55 The auditor refuses removal of recently added entries** – Auditor: refutation (five updates then a removal) + the last update.
* **C56 The auditor starts from an empty prefix tree** – Auditor: expected refutation.
* **C57 Owner state tracks versions over positions** – OwnerState model.
* **C58 A failed owner-monitoring run keeps the previous state** – OwnerMonitor model.
* **C59 Contact monitoring moves every pointer rightwards along its path** – ContactMonitor model.
* **C60 Timestamps accepted from the log are close to the local clock** – UpdateView: arithmetic with wrap.
* **C61 Honest inclusion proofs for several new versions verify** – ProofHandle: refutation on a concrete faithful server (HandleExamples*.v), impossibility for all proofs, and the convincing-answer theorem for at most one additional version.
* **C62 Commitments bind** – CommitModel: HMAC written out over the hash function, the CommitmentValue codec; binding up to a collision among the hashed inputs.
* **C63 Checking a log proof never crashes** – LogTree model: case analysis of every failure; expected refutation when the retained size exceeds the claimed one.
* **C64 Additions accepted by an auditor are exactly the additions made** – PrefixProof: match the rebuilt tree against the true tree (collision extraction), then apply the update lemmas to both. A proof that shows the leaf of a key being added never ends with a result (the auditor panics, C29), so nothing has to be assumed about the results (PrefixVerifyProofs4.v).
* **C65 Search and monitoring never crash on bad data** – Weakest precondition over all provider answers (AlgProofs4.v), descent measured by subtree ranges.
* **C66 An honest server always convinces the client** – DataProvider + both handles over the stored log and prefix tree: an honest run is described by its events; simulation of the events by both sides (HandleProofs2/3.v), events of every algorithm are followable (HandleProofs5/6.v), coverage of the frontier (HandleProofs7.v).
* **C67 A mutation never makes the log unusable** – Mutate: expected refutation (an empty mutation stores a log entry that can not be decoded), and progress after non-empty mutations.
* **C68 Stored values always match what the log commits to** – Mutate: invariant `describes` relating index, versions, entries, log and prefix tables to a history of epochs, preserved by every successful mutation.
* **C69 A commit that succeeds is durable** – Auditor: expected refutation (the signature is set before the store is written), and the case of a fresh signature.
* **C70 A restarted auditor resumes from its last stored commit** – Auditor: invariant over histories with commits and restarts, round trip of the stored state.
* **C71 An auditor accepts everything an honest server does** – Auditor and Mutate side by side: the update of a mutation evaluates to the roots before and after (hist_audit), additions are absent before. With removals false: an honest removal whose sibling is a leaf (AuditorExamples2).
* **C72 Distinguished log entries stay distinguished** – Spec-level: the search tree of a larger log extends the smaller one's left spine.
* **C73 Reading a stored auditor state never panics** – Auditor: expected refutation (tree size 0), and the states the auditor stores itself.
* **C74 The update of every mutation can be sent** – Mutate + codec: expected refutation (one-byte count of results).
* **C75 The manager accepts what the operator signs** – Managed + Server models: the check recomputes the signed message.
* **C76 An accepted search result is the committed value** – Client + Server: refutation from C26 (a leaf shown twice in a prefix proof), soundness for the remaining proofs.
* **C77 Every VRF proof a key produces is accepted** – VrfModel over an abstract group (record of operations, the laws are hypotheses): completeness by the group laws; refutation for the P-256 response zero in the integers modulo 251.
* **C78 A VRF output is unique** – VrfModel: two answers to one pair of commitments give the right point (special soundness); the exception names the guessed challenge.
* **C79 VRF operations do not crash** – VrfModel: case analysis of all branches.
* **C80 VRF keys and signatures survive their encodings** – VrfModel: encodings.
* **C81 Initializing the state of a label owner checks what it records** – WatchProofs3.v: induction over the descent to the starting entry; laminarity of the subtrees identifies its ancestors.
* **C82 An accepted update is one the log shows** – WatchProofs4.v: the descent to the highest non-distinguished ancestor, the frontier of the previous tree.
* **C83 An accepted response contains nothing unused** – WatchProofs5.v: case analysis of the verifier's last step.
* **C84 The in-memory store behaves like the durable one** – MemoryModel.v, MemoryProofs.v: refinement to a map shared by all handles; simulation against the specification of the LevelDB store (C39).
* **C85 A clone of the in-memory store is a read-only view of what was committed** – Refuted by a history; partial: a fresh clone reads what its origin reads.
* **C86 An owner who monitors successfully would have seen every change of their label at the entries they inspect** – Guard*.v: the events of a run over received proofs are true of any log that commits to prefix trees (Merkle binding, prefix proofs evaluate to the committed root); then the algorithm-level theorem C58 with `h_g` replaced by what the trees show. Expected refutation from C27.
* **C87 Whoever takes over a label learns its true versions** – As C86, from C81.
* **C88 A contact who monitors successfully knows that the version seen was not taken back** – As C86; GuardProofs5.v: complete description of the contact monitoring loop (which ancestors are looked at, where each pointer ends).
* **C89 With third-party management, clients accept only values that the service operator signed** – `operatorSigned`: the verifier accepts signatures only on update contents the operator has signed; with the injectivity of the signed encoding (C31), invert `clientSearch`/`streamVerify` for all responses (SignedProofs.v).
* **C90 An update that its owner accepts is in the log** – Refuted: an accepted answer for a value that the log does not hold, computed in the model (ConfirmExamples.v); and, for all accepted answers, independence of the first value (ConfirmProofs.v).
* **C91 An owner keeps the commitments to the versions they published** – Refuted for the first new version (for all updates): follow the map of versions of the verifier through `streamVerify` (ConfirmProofs.v).
* **C92 A search for something that does not exist is reported as such** – Fixed version without third-party management: the honest answer passes every check up to the last step of the search, which ends with the error (AbsentProofs.v, AbsentProofs2.v). Otherwise refuted: the client fails earlier, for every honest answer.
* **C93 The report that a version does not exist can be trusted** – Refuted by a response with another tree head. For the known tree head: the last step of both searches consults the last log entry, where a lookup of a version of the ladder failed (AbsentProofs3.v); with the soundness of lookups (SoundProofs.v) the version is missing (AbsentProofs4.v).
* **C94 Monitoring comes to rest** – Refuted with a client of an honest log (RestExamples.v) whose store has the same contents after each round; proved in general: where the label is filed after contact monitoring (from GuardProofs6.v), and that an entry is always left.
* **C95 A client's behaviour depends only on the contents of its state** – A simulation: data providers whose maps are permutations of each other (ReloadProofs.v) give the same answers in every program, so the operations agree (ReloadProofs2.v); loading what was saved gives the same contents (from C36). LoadedProofs.v carries C45, C47, C76, C92 and C93 over to states with the contents of a genuine one.
* **C96 What a client keeps after a search is determined** – OrderSpec.v defines the orders in which a map may be visited. Refuted by an honest log of four entries, a client that has seen it and the honest answer: two orders give different label states (OrderExamples.v). Partial: acceptance, state, other labels and the position for the next monitoring do not depend on the order.
* **C97 Recording a search loses no monitoring obligation** – lookedFor (OrderSpec.v) in terms of the search tree of C11. A round of simplification keeps, for each position, one reached by steps to the nearest right ancestor with at least its version; induction over the rounds; setPath never lowers a version (OrderProofs.v).
* **C98 Monitoring over time sees the whole way** – upto, monitorsAt and monitoredFrom (TimeSpec.v) describe a run of monitoring at growing sizes of one log. An entry that is distinguished stays so when the log grows; a pair moves to an ancestor that was checked, or is given up at or before a distinguished entry, or in favour of a greater version; induction over the sizes (TimeProofs.v). C98_client_step connects the stored state of a client with the pairs the checks start from and end with.
* **C99 What a search recorded can be monitored** – False: the two orders of C96 are followed to the next monitoring request; entriesSorted refuses equal versions (AlarmProofs.v, never_answered). Partial: on an honest log the loops of contactMonitor succeed if later positions have greater versions, by induction over the positions from the right (contact_honest).
* **C100 Searching again does no harm to monitoring** – recorded (SteadySpec.v) is the set of pair lists a client can have recorded over a growing honest log. False: a search for version 1 at size 3 and one for version 0 at size 4 leave {2: 1, 3: 0} in every order of visiting (SteadyExamples.v). Partial: with maps visited from the left, and monitoring after growth before the next search, positions and versions stay in the same order; induction over recorded (SteadyProofs.v). C100_search_ends: the assumption on where searches end holds of the search algorithms on honest logs, also when entries have expired, for every search whose result a client records (SteadyProofs2.v).
* **C101 The tree an auditor vouches for holds exactly what it was told** – C54 gives the log entries that the accepted updates stand for; induction over them with C64_tree_after (AuditTreeProofs.v). treeWith (AuditTreeSpec.v) says that a root is that of the tree with given entries.
* **C102 With an auditor, what monitoring checks at some entries holds at all of them** – logOf (VouchSpec.v): the log of the accepted updates and the prefix trees of its entries. C102_signed_log: induction over the updates with C101 (VouchProofs.v). The trees of such a log only grow, so that what C86 and C88 show at single entries carries over to all later entries (presence) and all earlier ones (absence).
* **C103 With an auditor, users and owner agree on what was published** – foundIn (AgreeSpec.v): a search that passed the checks, in a log given by its entries and leaves. search_shows (AgreeProofs.v): like C76, but for any log that commits to prefix trees, and with the whole binary ladder of a search for the greatest version. As the trees of an audited log only grow (C102), the version found at one size is compared with the one found at another by means of GuardProofs.found, the version that the ladders find in any set of versions. Premise noLaterLeaves as in C76 (what C26 and C27 leave unchecked).
* **C104 An honest server answers exactly the sensible monitoring requests** – goodPairs (AnswerSpec.v) says it in terms of what was published. monitored (AnswerProofs.v): for any algorithm that ends without an error on the honest log the server's answer is complete; this is the exchange of C92 (talk_plain) applied to the monitoring handlers, with the retained entries taken from the database. AnswerProofs2.v: verifyEntries accepts exactly the good pairs, contact_honest (C99) gives the result of the algorithm. The second theorem, C100_answered_partial, composes with C100.
* **C105 An honest server lets a label owner start wherever that is possible** – AnswerProofs3.v: the pieces of the handler (versionsAt, allLadderVersions, getBinaryLadder) and the algorithm on the honest log (C81). AnswerProofs4.v: monitored (C104) for the two runs in sequence; for the converse, monitored for the algorithm with its error caught, so that an error on the honest log is an error of the server. AnswerProofs9.v: the ladder in the answer, from the history of the prefix tree and C68.
* **C106 An honest server answers exactly the possible requests of a label owner** – AnswerProofs5.v: owner_ends, owner monitoring on an honest log succeeds whenever the owner's versions are at most those of the log. AnswerProofs6.v: monitored (C104) for the two algorithms in sequence, with the state that the handler cuts off at the advertised version; the converse from the checks of the handler. AnswerProofs7.v: growth of the log and C105 give that an owner who has started is answered for ever. AnswerProofs8.v: C58 keeps the state right.

## 5. Modelled / not modelled

| Go source (under /repo) | model | what is left out |
|---|---|---|
| tree/log/math | LogMathModel.v | – |
| tree/log (node.go, append.go, verify.go, proofs) | LogTreeModel.v | – |
| tree/log (log.go `Tree`, chunk.go) | LogChunkModel.v | the store is an association list; one batch read, no I/O errors |
| tree/prefix (tile, search, mutate, verify) | PrefixModel.v | tile cache sharing between searches of one batch |
| tree/transparency/math | TransMathModel.v, LaddersModel.v | – |
| tree/transparency/structs, crypto/suites sizes, client state, label state | CodecModel.v | – |
| tree/transparency/algorithms (all files) | AlgModel.v (over an abstract provider), HandleModel.v (data provider and both proof handles) | both ends read the same clock value |
| db/leveldb.go, tree/transparency/crypto.go (index codec) | StoreModel.v | LevelDB itself is a map with atomic batch writes; no I/O errors |
| crypto/commitments | CommitModel.v | HMAC is written out over the hash function; random openings are inputs |
| tree/transparency/mutate.go, crypto.go, `NewTree` | MutateModel.v | one table per kind of object (justified by C38/C39); no I/O errors; clock, random openings, VRF and signatures are parameters |
| tree/transparency/auditor (auditor.go, state.go) | AuditorModel.v | the store is one value whose write may fail; signature function is a parameter |
| tree/transparency (transparency.go `Search`, monitor.go, update.go) | ServerModel.v | no I/O errors; cancellation of an update; Go's map order where it has no effect |
| tree/transparency (client.go, client_crypto.go) | ClientModel.v | the client's store is a record without I/O errors; the order of Go's map iteration in `simplifyMonitoringMap` is a parameter |
| tree/transparency/managed and its in-memory store | ManagedModel.v | – |
| db/memory/memory.go | MemoryModel.v | the auditor's store (one value) |
| crypto/vrf/p256, crypto/vrf/edwards25519, signature encoding of crypto/suites | VrfModel.v | the curve libraries (nistec, filippo.io/edwards25519) are a record of operations whose group laws and encodings are hypotheses of the theorems; big.Int arithmetic is N |

Not modelled: `cmd/` front ends (marked `//go:build ignore`), HTTP handling, concrete cryptographic primitives
(SHA-256, curve arithmetic, Ed25519/ECDSA; the VRFs of the other models are parameters), goroutine
scheduling of the LevelDB connection pool.

## 6. Assumptions reported by `Print Assumptions`

Every theorem listed in MANIFEST.json: "Closed under the global context" (updated
with each milestone).

## 7. Findings (proved refutations)

Each is a theorem about the model with a concrete witness (or, for divergence, for all fuels).

* C10 – the transparency `UpdateView` returns nothing when the retained head lies on the new
  frontier in a way that ends the parent walk early.
* C12 – `baseBinaryLadder` does not terminate for versions >= 2^31-1.
* C26 – prefix `addToSkeleton` does not compare the commitment of an included entry whose leaf
  was already placed by another result of the same proof.
* C27 – a non-inclusion "leaf" result that shows the searched key itself is accepted.
* C28 – `EvaluateBeforeAfter` does not collapse an inner node when the remaining leaf is known
  only by hash, `Mutate` does; replacing a key's commitment yields a proof the auditor rejects.
* C29 – results showing the added key or a leaf off its path crash the auditor.
* C32 – `Mutate` with nothing to do on a non-empty tree returns an empty root and stores an
  unreadable version.
* C63 – the log verifier crashes if the retained size exceeds the claimed size.
* C33 (outside well-formedness) – `FullTreeHead` without the auditor's head in auditing mode, and a
  prefix proof depth of 256, are encoded without error and not read back.
* C35 – a label state with an `Owner` can not be read back (`Marshal` returns before the versions, and
  `int` fields are neither written nor read); a truncated label state is accepted with fewer versions.
* C36 – after an "unchanged tree head" answer in auditing mode the stored client state lacks the auditor's
  head and can not be read.
* C19 – `GreatestVersionSearch` answers `return 0, nil` when `RightmostDistinguished` fails: a search without any
  check is reported as success.
* C22 – `FixedVersionSearch` compares `y < terminalPos` at the end of the walk but `y <= x` on a direct hit: a
  version first published (together with a later one) at a distinguished unexpired entry is reported as expired.
* C59 – a contact pointer at an entry without ancestors to its right stays where it is and is not recorded as
  checked; a pointer arriving there afterwards replaces it with its own, smaller version (e.g. log of four entries,
  pointers at 0 and 3, which two searches at sizes 1 and 4 produce).
* C61 – `ReceivedProofHandle.GetInclusionProof` demands exactly one result whatever the number of versions: an
  honest update that needs two or more additional versions is refused, and no proof at all is accepted.
* C66 – consequence of C10: a client at size 4 going to 7 that asks for a version found at entry 3 refuses the
  honest answer ("expected timestamp not retained"), because entry 5 of the new frontier is never fetched.
* C40 – the commit writes the label indices and versions in a first batch and the tree head in a second one. A crash in between
  leaves indices which are ahead of the tree head: a mutation retried after reopening records versions which the prefix
  tree does not contain (index 0,0,2,2 for a label that has three versions), and a label whose removal was interrupted
  refuses every new value ("can not insert same vrf output twice").
* C41 – the writes of a failed mutation stay in the pending batch, and the next successful mutation commits them.
* C67 – a mutation that changes nothing succeeds but stores a log entry without prefix root (C32), after which every
  mutation fails with "unexpected EOF".
* C55 – `updateState` merges the newly added VRF outputs into a nil list instead of the list kept in the state (auditor.go:141), so
  the auditor only remembers what the very last update added: entries added after the last preceding distinguished entry can be
  removed as soon as one more update has been processed.
* C56 – the first update is not compared with the empty prefix tree: a new auditor accepts any previous prefix root.
* C69 – `Commit` stores the signature in the in-memory state before `PutState`: if that fails, the next `Commit` returns the tree
  head without storing anything.
* C73 – `newAuditorState` calls `Frontier(0)` on a stored state with tree size 0, which panics.
* C74 – the number of results of a prefix proof is one byte on the wire: the update of every mutation that adds more than 255
  versions can not be marshalled for the auditor.
* C45 – `verifyTreeHead` refuses a tree head when the *retained* size is at most the new one (comparison the wrong way round), so no
  client with state ever accepts a tree head.
* C48 – monitoring can only crash when it succeeds with nothing left: `ContactMonitor` sets `m.Contact = nil` once every map entry
  is resolved, and `client.go` then calls `Contact.Struct()` on it. An owner that never searched for the label has no contact entries, so
  no response to its monitoring request is ever accepted (`C48_owner_monitor_refuted`); a contact crashes with its last entry
  (`C48_contact_monitor_refuted`). Found while proving `C48_exchange_partial`.
* C46, C48 – `Finish` dereferences the client's state, which is nil for a new client: the honest first response crashes it. Also,
  `StreamVerifier.Verify` reads `BinaryLadder[i]` before the number of steps is checked.
* C47 – for an unchanged tree the server proves the entries with `m = nil`, the client verifies with `m = n`: the proof has too many elements.
* C49 – the versions retained for a label are added to the verifier after the ladder of the response, which contains version 0, too:
  "can not add the same version twice".
* C50 – an advertised tree size of 0 reaches `Frontier(0)`, which panics; a version of 2^31-1 or more makes the server loop forever (C12).
* C51 – the server calls `Monitor.Update` without an owner state, so no update request is ever answered.
* C52 – the operator signs the versions of a second update with a gap.
* C76 – consequence of C26: a client accepts a forged value for the greatest version, because the leaf of this version is also shown as
  the non-inclusion proof of the next one, and its commitment is then not compared. No hash collision, no broken signature. `C76_partial` shows that such a contradiction between a leaf
  shown and a claim of the response is the only way (other than a collision) to make a client accept a wrong value.
* C77 – the P-256 verifier refuses a proof whose response is 0 modulo the group order (p256.go `verify`, `sInt.Sign() != 1`), RFC 9381 only
  asks for s < q: an honest proof is refused with probability about 2^-256. The edwards25519 verifier has no such exception. Also,
  `generateNonce` does not reduce h1 modulo the order as RFC 6979 asks (no effect on C77-C79).
* C85 – `Clone` of the in-memory store copies the tree heads but shares all maps: a clone sees later, uncommitted changes under the
  old tree head, and can be written through (`ReadOnly` is never set or read). `Commit` does nothing, so nothing can be rolled back
  either. Used in tests only. C84: it shows an auditor's tree head without a tree head, the LevelDB store does not.
* C86, C87 – consequence of C27 for owners: the proof that a version is absent may show the leaf of this very version. An owner accepts
  (in monitoring and in initialization) a log that holds a version at a distinguished entry before the owner published it. Contact
  monitoring (C88) only checks inclusion and is not affected.
* C71 – an honest removal breaks auditing. After removing a leaf the server replaces the parent by the remaining sibling if that
  sibling is a leaf; in the auditor's skeleton the sibling is only a hash of the copath, so it keeps the parent. The auditor accepts
  the removal (it checks only the root before), is left with (and would sign) a root the server's log does not hold, and refuses the
  next honest update with "prefix tree root does not match expected".
* C90, C91 – `updateLadderVersions` leaves out the versions of the previous version's ladder, among which is always the first new one (the
  previous ladder proves its absence). So the client never learns the commitment of the first version it publishes: at a distinguished entry
  nothing is checked at all (any answer is accepted, whatever the log holds), at other entries the lookup fails for want of the commitment. Also, the number
  of results of an inclusion proof has to be 1 on the client's side, so an update with two or more versions outside the last one's ladder is never accepted.
* C92 – a search for the most recent version of a label that was never published never ends with "requested version of label does not
  exist": the server answers without a version, the client then expects the ladder of version 0 ("incorrect number of binary ladder steps
  provided"). With third-party management a missing version is never reported either: the client first asks for the operator's signature
  over the empty value of the answer.
* C93 – the client reports that a version does not exist as soon as the search says so, before `finish` checks the signature of the new tree
  head and that it extends the known log. Anyone who can answer can make a client believe that a version does not exist. For an answer
  about the tree head the client already has, the report is true (`C93_partial`).
* C94 – `GetStaleLabel` returns labels filed under the rightmost distinguished entry or one to its left, and after monitoring a label is
  filed under exactly that entry (contact) or the entry the owner has monitored up to. So a label is due again at once, and a client which
  calls `Monitor` until it returns nil never ends while the log does not grow (`C94_refuted`). A label is never removed by contact
  monitoring either: with its last entry the client crashes (C48).

- **C96** (`simplifyMonitoringMap`, client_crypto.go:344-364). The function removes a monitored entry when its nearest ancestor to the
  right is monitored for at least the same version. It visits the map in Go's random order. With a chain of three entries
  0, 1, 3 (which every search that ends at entry 0 of a log of four leaves writes down) the result is {3} if entry 0 is visited before
  entry 1, and {0, 3} otherwise: entry 1 is gone and so entry 0 is not compared with entry 3. The redundant entry stays, is sent in the
  next monitoring request, and costs a proof. No obligation is lost (C97).

- **C99** (`verifyEntries`, tree/transparency/monitor.go:19-25, with C96). The server refuses a monitoring request in which two entries
  have the same version. When the order of the map left such a pair, say {0: 0, 3: 0}, the client's request for this label is refused
  with "monitoring map is not sorted by version" by every server, at every later size of the log (`C99_refuted`,
  `C99_one_version_per_pair`). Nothing but an answer changes the stored pairs, so the label is never monitored again. The same search
  with the map visited in the other order leaves {3: 0}, which is answered. The client should visit the map from the left.

- **C100** (`updateContactState`, client_crypto.go:369-389). Whatever the order of the map, a client that searches for a label after the log
  has grown, before it monitors the label, can record an older version to the right of a newer one. Example: the first search, for version 1,
  ends at entry 2 of a log of three entries and records {2: 1}. The log grows to four entries; a search for version 0 ends at entry 1, and
  the client also writes version 0 at entry 3, the ancestor of entry 1 to the right. It is left with {2: 1, 3: 0}. Every server
  refuses a request with these pairs ("monitoring map is not sorted by version"), and monitoring the honest log when it has eight entries
  ends with "monitoring detected versions that are not monotonic", a false alarm about an honest log (`C100_refuted`). The client should
  not write a version at an entry to the right of one which it monitors for a greater version.
