{
 "claims": [
  {
   "property": "C01",
   "status": "proved",
   "theorems": [
    "C01_nodes_are_ranges",
    "C01_navigation",
    "C01_paths",
    "C01_sibling_involution"
   ],
   "note": ""
  },
  {
   "property": "C02",
   "status": "proved",
   "theorems": [
    "C02_full_subtrees_partition",
    "C02_is_full_subtree"
   ],
   "note": ""
  },
  {
   "property": "C03",
   "status": "proved",
   "theorems": [
    "C03_batch_copath_cover"
   ],
   "note": ""
  },
  {
   "property": "C04",
   "status": "proved",
   "theorems": [
    "C04_incremental_append"
   ],
   "note": ""
  },
  {
   "property": "C05",
   "status": "proved",
   "theorems": [
    "C05_honest_proofs_verify"
   ],
   "note": "Hash modelled as a table; honest proof = true values on the batch copath."
  },
  {
   "property": "C06",
   "status": "proved",
   "theorems": [
    "C06_inclusion_sound"
   ],
   "note": "Conclusion modulo a collision among the inputs hashed."
  },
  {
   "property": "C07",
   "status": "proved",
   "theorems": [
    "C07_append_only"
   ],
   "note": "Conclusion modulo a collision among the inputs hashed."
  },
  {
   "property": "C08",
   "status": "proved",
   "theorems": [
    "C08_stored_log",
    "C08_stored_proofs_verify"
   ],
   "note": "tree/log/chunk.go and the database part of log.go: every append history, every later request for the current or an earlier size."
  },
  {
   "property": "C09",
   "status": "proved",
   "theorems": [
    "C09_entries_are_subtrees",
    "C09_navigation",
    "C09_reaches_every_entry"
   ],
   "note": "Search tree over log entries for every size below 2^64."
  },
  {
   "property": "C10",
   "status": "partial",
   "theorems": [
    "C10_update_view_refuted",
    "C10_update_view_partial",
    "C10_frontier",
    "C10_first_view"
   ],
   "note": "False as stated: when the last old entry lies on the new frontier the list is empty although new frontier entries are missing (4 -> 7). Proved for all other cases."
  },
  {
   "property": "C100",
   "status": "partial",
   "theorems": [
    "C100_refuted",
    "C100_partial",
    "C100_search_ends",
    "C100_answered_partial"
   ],
   "note": "False in every order of visiting maps: see DESIGN.md. C100_partial: holds if maps are visited from the left and a label is monitored after growth before it is searched for again. Stated of the functions that record and monitor, because the client refuses responses with a new tree head (C45). C100_search_ends: every search of an honest log whose result is recorded ends where the specification says, also if entries have expired. C100_answered_partial: and the whole answer is produced by the server, after any history of mutations."
  },
  {
   "property": "C101",
   "status": "proved",
   "theorems": [
    "C101_auditor_tree"
   ],
   "note": "Updates without removals; with removals it is false (C71_refuted). The first update may start from any tree (C56_refuted)."
  },
  {
   "property": "C102",
   "status": "proved",
   "theorems": [
    "C102_signed_log",
    "C102_contact_monitor",
    "C102_owner_monitor"
   ],
   "note": "For logs from which nothing was removed, as stated. The log is that of C54 and C101; the client theorems build on C86 and C88. The owner's part assumes aliasFree, the checks that the prefix proof verifier does not make (C26, C27)."
  },
  {
   "property": "C103",
   "status": "proved",
   "theorems": [
    "C103_users_agree",
    "C103_owner_agrees"
   ],
   "note": "For every log an auditor can vouch for (C102_signed_log) and every server. Premise: noLaterLeaves, the cases that C26 and C27 show the client not to check (shared with C76_partial); signatures are not part of the statement, the log is given by its leaves. Versions that are not in the search ladder of a settled version are not covered by the owner's monitoring (the owner checks them when publishing, C82)."
  },
  {
   "property": "C104",
   "status": "proved",
   "theorems": [
    "C104_contact_monitoring_answered"
   ],
   "note": "For labels that were never removed and have fewer than 2^31 versions, if the clock agrees with the log (clockFine)."
  },
  {
   "property": "C105",
   "status": "proved",
   "theorems": [
    "C105_owner_init_answered",
    "C105_owner_init_ladder",
    "C105_owner_init_commitments"
   ],
   "note": "Exact: the server answers if and only if the entry is distinguished and unexpired, and its versions are right; the other theorems are about the binary ladder in the answer (VRF proofs and commitments). Hypotheses: the label is never removed, fewer than 2^31 versions, the clocks agree, the server runs without an auditor."
  },
  {
   "property": "C106",
   "status": "proved",
   "theorems": [
    "C106_owner_monitoring_answered",
    "C106_owner_state_answered",
    "C106_started_owner_answered",
    "C106_state_stays_right"
   ],
   "note": "Exact: answered if and only if the pairs are good and the owner's state is possible. The second theorem is the request that the client makes from a right state (spelled out because of C35), the third that an owner whom the server let start is answered at every later size of the log, the fourth that monitoring keeps the state right. Hypotheses as for C104: the label is never removed, fewer than 2^31 versions, the clocks agree, the server runs without an auditor."
  },
  {
   "property": "C11",
   "status": "proved",
   "theorems": [
    "C11_right_direct_path",
    "C11_left_direct_path"
   ],
   "note": "Both direct paths, for every size and entry."
  },
  {
   "property": "C12",
   "status": "partial",
   "theorems": [
    "C12_ladder_terminates_refuted",
    "C12_ladder_diverges_at_top",
    "C12_ladder_terminates_partial"
   ],
   "note": "False for versions >= 2^31-1 (never terminates, any number of iterations); proved to terminate below."
  },
  {
   "property": "C13",
   "status": "proved",
   "theorems": [
    "C13_search_ladder_decides",
    "C13_search_ladder_no_version",
    "C13_search_ladder_sound"
   ],
   "note": "For every target below 2^31-1 (see C12 for the rest)."
  },
  {
   "property": "C14",
   "status": "proved",
   "theorems": [
    "C14_same_omissions"
   ],
   "note": "Server and client trackers proved equal along any directed sequence of entries."
  },
  {
   "property": "C15",
   "status": "proved",
   "theorems": [
    "C15_monitoring_ladder"
   ],
   "note": "For every version below 2^31-1 (see C12)."
  },
  {
   "property": "C16",
   "status": "proved",
   "theorems": [
    "C16_rightmost_distinguished",
    "C16_empty_log"
   ],
   "note": ""
  },
  {
   "property": "C17",
   "status": "proved",
   "theorems": [
    "C17_previous_rightmost"
   ],
   "note": ""
  },
  {
   "property": "C18",
   "status": "proved",
   "theorems": [
    "C18_timestamps_ordered",
    "C18_known_is_final"
   ],
   "note": "For every proof handle, hence every adversarial proof, and every program over the provider."
  },
  {
   "property": "C19",
   "status": "partial",
   "theorems": [
    "C19_greatest_search_refuted",
    "C19_greatest_search_partial"
   ],
   "note": "refuted: an error while determining the rightmost distinguished entry is turned into success; the partial theorem shows this is the only way to success without the check"
  },
  {
   "property": "C20",
   "status": "proved",
   "theorems": [
    "C20_greatest_search_correct"
   ],
   "note": ""
  },
  {
   "property": "C21",
   "status": "proved",
   "theorems": [
    "C21_fixed_search"
   ],
   "note": "termination is part of the statement (result is Ok or the not-found error)"
  },
  {
   "property": "C22",
   "status": "partial",
   "theorems": [
    "C22_expiry_boundary_refuted",
    "C22_expiry_partial"
   ],
   "note": "refuted at the boundary; the partial theorem gives the exact outcome otherwise"
  },
  {
   "property": "C23",
   "status": "proved",
   "theorems": [
    "C23_prefix_tree_is_a_map"
   ],
   "note": "Histories of successful non-empty mutations; see C32 for empty ones. Fewer than 2^32 changes per batch, versions below 2^64."
  },
  {
   "property": "C24",
   "status": "proved",
   "theorems": [
    "C24_root_depends_on_contents_only"
   ],
   "note": ""
  },
  {
   "property": "C25",
   "status": "proved",
   "theorems": [
    "C25_honest_prefix_proofs_verify",
    "C25_verify_exact"
   ],
   "note": "Version 0 (nothing stored) is not searched."
  },
  {
   "property": "C26",
   "status": "partial",
   "theorems": [
    "C26_inclusion_soundness_refuted",
    "C26_C27_prefix_soundness_partial",
    "C26_inclusion_only_partial"
   ],
   "note": "Refuted: the verifier does not compare the commitment of an entry whose leaf another result already put in the tree. Proved if the leaves shown agree with the commitments claimed and no absent key's own leaf is shown, as in all honest proofs."
  },
  {
   "property": "C27",
   "status": "partial",
   "theorems": [
    "C27_non_inclusion_soundness_refuted",
    "C26_C27_prefix_soundness_partial"
   ],
   "note": "Refuted: a non-inclusion result may show the searched leaf itself. Proved if that is excluded, and leaves shown agree with claims of inclusion."
  },
  {
   "property": "C28",
   "status": "partial",
   "theorems": [
    "C28_auditor_matches_mutation_refuted",
    "C28_replacement_refuted",
    "C28_auditor_matches_mutation_partial"
   ],
   "note": "Refuted for removals next to a summarised leaf and for replacements; proved for additions, and for removals when summarised subtrees have at least two entries."
  },
  {
   "property": "C29",
   "status": "partial",
   "theorems": [
    "C29_auditor_panics_refuted",
    "C29_auditor_no_panic_partial",
    "C29_evaluate_no_panic"
   ],
   "note": "Refuted for EvaluateBeforeAfter; proved under the checks the auditor lacks, and for Evaluate unconditionally."
  },
  {
   "property": "C30",
   "status": "proved",
   "theorems": [
    "C30_old_versions_stay_readable"
   ],
   "note": ""
  },
  {
   "property": "C31",
   "status": "proved",
   "theorems": [
    "C31_tiles_round_trip"
   ],
   "note": ""
  },
  {
   "property": "C32",
   "status": "partial",
   "theorems": [
    "C32_empty_mutation_refuted",
    "C32_empty_mutation_first_partial"
   ],
   "note": "Refuted for versions above 0."
  },
  {
   "property": "C33",
   "status": "proved",
   "theorems": [
    "C33_messages_round_trip",
    "C33_parts_round_trip",
    "C33_outside_wellformed_refuted"
   ],
   "note": "Round trip, canonicity and crash freedom for every message type; the two encodable but ill-formed cases that do not round-trip are shown in C33_outside_wellformed_refuted."
  },
  {
   "property": "C34",
   "status": "proved",
   "theorems": [
    "C34_payloads_unambiguous"
   ],
   "note": "Injectivity of VRF input, commitment content, log entry, tree head, auditor tree head and update payloads; the two tree head payloads never coincide."
  },
  {
   "property": "C35",
   "status": "partial",
   "theorems": [
    "C35_owner_state_refuted",
    "C35_truncation_refuted",
    "C35_label_state_partial"
   ],
   "note": "False in the code: every label state with an owner is unreadable, truncation is accepted. Proved for label states without owner."
  },
  {
   "property": "C36",
   "status": "partial",
   "theorems": [
    "C36_client_state_refuted",
    "C36_client_state_partial"
   ],
   "note": "False in the code after an unchanged tree head in auditing mode. Proved whenever an auditor head is present exactly in auditing mode, for every map order."
  },
  {
   "property": "C37",
   "status": "proved",
   "theorems": [
    "C37_index_roundtrip",
    "C37_missing_index"
   ],
   "note": "Empty lists are never stored by the code (putIndex is called after an addition); the store refuses the nil they encode to."
  },
  {
   "property": "C38",
   "status": "proved",
   "theorems": [
    "C38_keys_distinct"
   ],
   "note": ""
  },
  {
   "property": "C39",
   "status": "proved",
   "theorems": [
    "C39_reads_and_commits"
   ],
   "note": "For a read-write connection over any initial database, any sequence of operations. A nil tree head write (never issued by the code) is excluded."
  },
  {
   "property": "C40",
   "status": "partial",
   "theorems": [
    "C40_crash_refuted",
    "C40_retry_refuted",
    "C40_removal_refuted",
    "C40_crash_partial"
   ],
   "note": "False as stated: between the two batch writes of a commit the label tables are ahead of the tree head; a retried mutation then corrupts the label. The partial theorem says which three states a crash can leave."
  },
  {
   "property": "C41",
   "status": "partial",
   "theorems": [
    "C41_failure_refuted",
    "C41_failure_partial"
   ],
   "note": "False as stated: pending writes of the failed mutation are committed by the next one. Proved: the durable contents and the tree head do not change, so nothing is seen by readers or after reopening."
  },
  {
   "property": "C42",
   "status": "proved",
   "theorems": [
    "C42_histories",
    "C42_mutation",
    "C42_no_effect"
   ],
   "note": "By induction over runs of mutations, failures and reopenings."
  },
  {
   "property": "C43",
   "status": "proved",
   "theorems": [
    "C43_removal"
   ],
   "note": "Both directions, for every consistent state of the database."
  },
  {
   "property": "C44",
   "status": "proved",
   "theorems": [
    "C44_timestamps"
   ],
   "note": "Over all sequences of successful and failed mutations, reopenings and mid-commit crashes."
  },
  {
   "property": "C45",
   "status": "partial",
   "theorems": [
    "C45_refuted",
    "C45_C46_no_tree_head_accepted",
    "C45_partial",
    "C45_loaded_partial"
   ],
   "note": "False: no verification function accepts a response with a tree head (proved for all inputs); the witness is an honest response to a genuine client. C45_partial: for any history, every check of an honest search response other than the comparison of sizes succeeds, with the right value and state. Missing there: labels removed earlier, fixed-version searches with expired entries or from a position that hits C10, and the other requests. C45_loaded_partial: the same for a state loaded from storage."
  },
  {
   "property": "C46",
   "status": "partial",
   "theorems": [
    "C46_refuted",
    "C45_C46_no_tree_head_accepted",
    "C46_partial"
   ],
   "note": "False: the honest first response crashes the client, and no first response is ever accepted. C46_partial: for any history, every check of the honest first response succeeds, and the state proven is right."
  },
  {
   "property": "C47",
   "status": "partial",
   "theorems": [
    "C47_refuted",
    "C47_partial",
    "C47_loaded_partial"
   ],
   "note": "False: server and client disagree on the log proof for an unchanged tree. C47_partial: for any history, with another log proof the honest response is accepted, with the right value and state. C47_loaded_partial: the same for a state loaded from storage."
  },
  {
   "property": "C48",
   "status": "partial",
   "theorems": [
    "C48_refuted",
    "C48_short_ladder_refuted",
    "C48_owner_monitor_refuted",
    "C48_contact_monitor_refuted",
    "C48_exchange_partial",
    "C48_search_partial",
    "C48_search_checks_partial",
    "C48_owner_init_partial",
    "C48_monitor_partial",
    "C48_update_partial"
   ],
   "note": "False: nil state of a new client; index out of range on a short ladder; nil contact state when monitoring leaves no entries. Proved for everything else: any exchange made from a usable store (a tree head of an existing log, stored pointers below its size, versions < 2^31-1) with any decodable response ends with a result or an error, or the nil contact panic, and leaves a usable store; searches and owner initialisation without exception. Missing: versions >= 2^31-1 (see C26)."
  },
  {
   "property": "C49",
   "status": "partial",
   "theorems": [
    "C49_refuted",
    "C49_retained_label_blocks_search",
    "C49_version_0_is_retained"
   ],
   "note": "False; the general theorems say which searches are still accepted."
  },
  {
   "property": "C50",
   "status": "partial",
   "theorems": [
    "C50_partial",
    "C50_refuted",
    "C50_size_zero_refuted",
    "C50_great_version_refuted"
   ],
   "note": "False as stated: a request that advertises a tree of size 0 crashes the server, and a search for a version of 2^31-1 or more never ends (for every server and label). Proved for everything else: after any history of mutations, with any auditor tree head and clock, every search, contact monitoring, owner initialization, owner monitoring, update and manager update about a label with fewer than 2^31 versions ends with responses or errors only."
  },
  {
   "property": "C51",
   "status": "partial",
   "theorems": [
    "C51_refuted",
    "C51_no_update_response"
   ],
   "note": "False: no update request is answered (proved for all requests and servers)."
  },
  {
   "property": "C52",
   "status": "partial",
   "theorems": [
    "C52_consecutive_refuted",
    "C52_second_update_skips",
    "C52_increasing_partial"
   ],
   "note": "False: the second update skips versions; what remains is that signed versions increase."
  },
  {
   "property": "C53",
   "status": "proved",
   "theorems": [
    "C53_rejected_update_changes_nothing"
   ],
   "note": "Every auditor, every update, every kind of failure."
  },
  {
   "property": "C54",
   "status": "proved",
   "theorems": [
    "C54_state_covers_accepted_updates",
    "C54_signed_head_covers_accepted_updates"
   ],
   "note": "All histories of updates, commits with or without store failures, and restarts."
  },
  {
   "property": "C55",
   "status": "partial",
   "theorems": [
    "C55_refuted",
    "C55_last_update_partial"
   ],
   "note": "The statement is false: an entry added two updates ago can be removed although no distinguished entry follows it. Proved: removal is refused when the entry was added by the last update, and when no distinguished entry precedes."
  },
  {
   "property": "C56",
   "status": "partial",
   "theorems": [
    "C56_refuted",
    "C56_chain_partial"
   ],
   "note": "The statement is false: any first prefix root is accepted. Proved: later updates continue from the previous root, and the first one removes nothing."
  },
  {
   "property": "C57",
   "status": "proved",
   "theorems": [
    "C57_owner_state"
   ],
   "note": ""
  },
  {
   "property": "C58",
   "status": "proved",
   "theorems": [
    "C58_owner_monitor",
    "C58_owner_monitor_sound",
    "C58_owner_monitor_complete"
   ],
   "note": "Beyond the property: what a successful run has checked, and that an honest log passes."
  },
  {
   "property": "C59",
   "status": "partial",
   "theorems": [
    "C59_contact_pointer_refuted",
    "C59_contact_monitor_partial"
   ],
   "note": "refuted: a pointer at the right edge can be overwritten by an older one; partial: everything else"
  },
  {
   "property": "C60",
   "status": "proved",
   "theorems": [
    "C60_clock_bounds",
    "C60_clock_exact"
   ],
   "note": ""
  },
  {
   "property": "C61",
   "status": "partial",
   "theorems": [
    "C61_several_versions_refuted",
    "C61_several_versions_never_accepted",
    "C61_one_version_partial"
   ],
   "note": "False for two or more additional versions: the client demands exactly one result. Proved for at most one."
  },
  {
   "property": "C62",
   "status": "proved",
   "theorems": [
    "C62_commitments_bind",
    "C62_commitments_verify"
   ],
   "note": "Up to a collision of the hash function among the inputs hashed by the two commitments."
  },
  {
   "property": "C63",
   "status": "partial",
   "theorems": [
    "C63_verifier_crash_refuted",
    "C63_verifier_total_partial"
   ],
   "note": "False as stated: retained size larger than claimed size crashes BatchCopath. Proved for retained size <= claimed size."
  },
  {
   "property": "C64",
   "status": "proved",
   "theorems": [
    "C64_accepted_additions_bind",
    "C64_tree_after"
   ],
   "note": "For every proof with which the audit ends with a result. With a proof that shows the key being added, the auditor panics instead (C29)."
  },
  {
   "property": "C65",
   "status": "proved",
   "theorems": [
    "C65_algorithms_total"
   ],
   "note": ""
  },
  {
   "property": "C66",
   "status": "partial",
   "theorems": [
    "C66_honest_answer_refuted",
    "C66_greatest_search",
    "C66_fixed_search_partial",
    "C66_contact_monitoring_partial",
    "C66_owner_init_partial",
    "C66_owner_monitoring_partial",
    "C61_one_version_partial",
    "C66_after_mutations",
    "C66_newest_version_served"
   ],
   "note": "False when entry m-1 is on the new frontier and the request does not touch the rest of the frontier; proved for all other previous sizes, and for all sizes for the greatest-version search. Both clocks are the same value in the model."
  },
  {
   "property": "C67",
   "status": "partial",
   "theorems": [
    "C67_idle_refuted",
    "C67_usable_partial"
   ],
   "note": "False as stated: a mutation that changes nothing makes every later one fail. Proved for histories of mutations that change something."
  },
  {
   "property": "C68",
   "status": "proved",
   "theorems": [
    "C68_stored_values"
   ],
   "note": "Relates index, versions, log entries, log tree, prefix tree and signed tree head over all runs."
  },
  {
   "property": "C69",
   "status": "partial",
   "theorems": [
    "C69_refuted",
    "C69_fresh_commit_partial"
   ],
   "note": "The statement is false after a store failure. Proved: a commit that signs afresh is durable."
  },
  {
   "property": "C70",
   "status": "proved",
   "theorems": [
    "C70_restart_resumes_last_commit"
   ],
   "note": "All histories and restart points."
  },
  {
   "property": "C71",
   "status": "partial",
   "theorems": [
    "C71_honest_updates_accepted_partial",
    "C71_same_root_signed_partial",
    "C71_refuted"
   ],
   "note": "False with removals (C71_refuted): the leaf next to a removed leaf is only a hash in the proof, so the server moves it up and the auditor does not; the auditor accepts, holds another root than the one in the log and refuses the next honest update. Proved for mutations that add and do not remove labels."
  },
  {
   "property": "C72",
   "status": "proved",
   "theorems": [
    "C72_distinguished_stays"
   ],
   "note": "All logs with non-decreasing timestamps."
  },
  {
   "property": "C73",
   "status": "partial",
   "theorems": [
    "C73_refuted",
    "C73_own_states_partial"
   ],
   "note": "The statement is false: a stored state with tree size 0 makes Frontier panic. Proved: the states an auditor stores are read back."
  },
  {
   "property": "C74",
   "status": "partial",
   "theorems": [
    "C74_refuted",
    "C74_large_updates_refuted",
    "C74_small_updates_partial"
   ],
   "note": "The statement is false for every mutation that adds more than 255 versions. Proved: with at most 255 versions, no removals and less than 2^16 hashes in the proof marshalling succeeds."
  },
  {
   "property": "C75",
   "status": "proved",
   "theorems": [
    "C75_manager_accepts"
   ],
   "note": ""
  },
  {
   "property": "C76",
   "status": "partial",
   "theorems": [
    "C76_refuted",
    "C76_partial",
    "C76_checks_partial",
    "C76_loaded_partial"
   ],
   "note": "False as a consequence of C26. C76_partial: for any history of mutations, any search response that a client with a genuine state accepts carries the published value and the greatest version, unless a leaf shown in the response contradicts its claims (noAliases) or a collision was found. C76_checks_partial: the same of the checks alone for clients with and without state and new tree heads. C76_loaded_partial: the same for a state loaded from storage."
  },
  {
   "property": "C77",
   "status": "partial",
   "theorems": [
    "C77_p256_refuted",
    "C77_p256_partial",
    "C77_edwards25519"
   ],
   "note": "Proved for edwards25519. For P-256 refuted: an honest proof whose response is 0 modulo the group order is refused; proved for all other proofs. The group laws of the curve libraries and the output sizes of the hash functions are hypotheses, met by the groups in VrfExamples.v."
  },
  {
   "property": "C78",
   "status": "proved",
   "theorems": [
    "C78_p256",
    "C78_edwards25519",
    "C78_p256_unique",
    "C78_edwards25519_unique",
    "C78_p256_honest",
    "C78_edwards25519_honest",
    "C78_p256_function",
    "C78_edwards25519_function"
   ],
   "note": "The exception (guessed) says that the challenge hash of some commitments is the only challenge that can be answered for them."
  },
  {
   "property": "C79",
   "status": "proved",
   "theorems": [
    "C79_p256",
    "C79_edwards25519",
    "C79_p256_prove",
    "C79_edwards25519_prove"
   ],
   "note": "The exceptions are those named in the property."
  },
  {
   "property": "C80",
   "status": "proved",
   "theorems": [
    "C80_p256_key",
    "C80_edwards25519_key",
    "C80_edwards25519_scalar",
    "C80_signature"
   ],
   "note": ""
  },
  {
   "property": "C81",
   "status": "proved",
   "theorems": [
    "C81_owner_init_sound",
    "C81_owner_init_complete"
   ],
   "note": ""
  },
  {
   "property": "C82",
   "status": "proved",
   "theorems": [
    "C82_update_sound",
    "C82_update_complete"
   ],
   "note": ""
  },
  {
   "property": "C83",
   "status": "proved",
   "theorems": [
    "C83_nothing_left_over"
   ],
   "note": ""
  },
  {
   "property": "C84",
   "status": "proved",
   "theorems": [
    "C84_memory_answers",
    "C84_same_as_leveldb"
   ],
   "note": "In-memory store (db/memory/memory.go) refines a map of objects for every history of any number of clones, and gives the same answers as the LevelDB model for histories without clones and restarts (if no auditor head precedes the first tree head; C84_auditor_first shows the difference otherwise)."
  },
  {
   "property": "C85",
   "status": "partial",
   "theorems": [
    "C85_clone_view_refuted",
    "C85_clone_view_partial"
   ],
   "note": "Refuted: a clone sees later uncommitted writes under the old tree head, and writes through it reach the store. Partial: a fresh clone reads exactly what its origin reads at that moment."
  },
  {
   "property": "C86",
   "status": "partial",
   "theorems": [
    "C86_owner_monitor_guards_partial",
    "C86_owner_monitor_guards_refuted",
    "C86_client_checks"
   ],
   "note": "Refuted as stated: because of C27 the owner accepts a log that holds a version before the owner published it (its own leaf is shown as evidence of absence). Partial: holds for every log when the proofs show no such leaf (aliasFree), or the hash function is broken on the inputs of the run. The computed root is assumed to be that of the log; C86_client_checks says that the client's operation performs exactly these checks, verifies the signature of that root, and what it stores."
  },
  {
   "property": "C87",
   "status": "partial",
   "theorems": [
    "C87_owner_init_guards_partial",
    "C87_owner_init_guards_refuted",
    "C87_client_checks"
   ],
   "note": "Refuted as stated because of C27, as C86. Partial: holds for every log when the proofs are aliasFree, or the hash function is broken on the inputs of the run."
  },
  {
   "property": "C88",
   "status": "proved",
   "theorems": [
    "C88_contact_monitor_guards",
    "C88_client_checks"
   ],
   "note": "For every log, with no assumption on the proofs; the conclusion allows a broken hash function on the inputs of the run. The pairs kept afterwards are described by movedUp, which leaves out the case that C59 refutes (a pair that has arrived at the top together with another one)."
  },
  {
   "property": "C89",
   "status": "proved",
   "theorems": [
    "C89_signed_search",
    "C89_signed_update",
    "C89_unsigned_elsewhere"
   ],
   "note": "For all responses. The hypothesis on the signature scheme (accepts only what was signed) is part of the statement."
  },
  {
   "property": "C90",
   "status": "partial",
   "theorems": [
    "C90_refuted",
    "C90_first_value_unchecked"
   ],
   "note": "Refuted: an owner accepts the answer to an update at a distinguished log entry without any proof that the value is in the log. C90_first_value_unchecked: of every accepted answer, not only the witness: it is accepted, with the same effect, whatever first value was submitted."
  },
  {
   "property": "C91",
   "status": "partial",
   "theorems": [
    "C91_first_version_refuted",
    "C91_partial"
   ],
   "note": "Refuted for the first version of every update (for all states and answers); proved for new versions that the owner did not know before."
  },
  {
   "property": "C92",
   "status": "partial",
   "theorems": [
    "C92_partial",
    "C92_greatest_refuted",
    "C92_third_party_refuted",
    "C92_loaded_partial"
   ],
   "note": "Proved for searches for a given version without third-party management (logs without expired entries). False for searches for the most recent version of a label that was never published, and with third-party management: in these cases the client never reports it, for any honest answer. C92_loaded_partial: the same for a state loaded from storage."
  },
  {
   "property": "C93",
   "status": "partial",
   "theorems": [
    "C93_partial",
    "C93_refuted",
    "C93_loaded_partial"
   ],
   "note": "False for responses with a new tree head: the report is made before the signature and consistency of the tree head are checked. Proved for responses about the tree head the client already has, up to hash collisions and responses with aliased search keys. C93_loaded_partial: the same for a state loaded from storage."
  },
  {
   "property": "C94",
   "status": "partial",
   "theorems": [
    "C94_refuted",
    "C94_partial"
   ],
   "note": "Refuted: a label that stays to be monitored is filed under the rightmost distinguished entry and is due again at once; a client of an honest log monitors it forever without any change. Proved: where the label is filed after contact monitoring, that other labels are untouched and that an entry is always left."
  },
  {
   "property": "C95",
   "status": "proved",
   "theorems": [
    "C95_same_behaviour",
    "C95_saved",
    "C95_remembers",
    "C95_remembers_saved"
   ],
   "note": "The outcomes are equal, including which error is reported. Loading what was saved is proved for states that can be loaded (see C36). C95_remembers, C95_remembers_saved: so the theorems about clients with a genuine state apply after any number of saves and loads."
  },
  {
   "property": "C96",
   "status": "partial",
   "theorems": [
    "C96_refuted",
    "C96_partial",
    "C96_acceptance_partial"
   ],
   "note": "False: which redundant entries stay depends on Go's map order; the witness is an honest log, an honest answer and two orders. C96_partial: for all inputs the state, other labels and the position from which the label is monitored again do not depend on the order. C96_acceptance_partial: nor does it depend on the order whether the response is accepted (for a monitored label version 0 must be among those kept, which C49 proves of every state a client computes)."
  },
  {
   "property": "C97",
   "status": "proved",
   "theorems": [
    "C97_still_looked_for",
    "C97_map"
   ],
   "note": "For clients with a state, responses that could be decoded and versions below 2^31 - 1 (see C26). C97_map states it of the map alone."
  },
  {
   "property": "C98",
   "status": "proved",
   "theorems": [
    "C98_monitored_over_time",
    "C98_client_step"
   ],
   "note": "The log need not be honest. It is the least version looked for that is followed; a search leaves only one (C97). Stated of the checks over any sequence of sizes, because the client refuses responses with a new tree head (C45)."
  },
  {
   "property": "C99",
   "status": "partial",
   "theorems": [
    "C99_refuted",
    "C99_one_version_per_pair",
    "C99_partial"
   ],
   "note": "False: depending on the order in which a map was visited at the search, the client's own monitoring request is refused by every server. C99_one_version_per_pair: the reason, for all requests. C99_partial: pairs whose versions grow with their positions are monitored on an honest log without an error of the algorithm, at every size. Which requests the server answers is C104."
  }
 ]
}
