(** C95: what a client does depends only on the contents of its state, not on the order in which the map of log entries is written, read or visited. *)
From Coq Require Import Permutation.
From Verif Require Import Base LogTreeModel LogTreeSpec PrefixModel PrefixExamples CodecModel CodecSpec AlgModel HandleModel StoreModel MutateModel MutateExamples ServerModel ClientModel ClientSpec ClientExamples GuardExamples
  RestExamples ReloadSpec ReloadProofs2.
Open Scope N_scope.
Local Open Scope list_scope.

(** C95.  With states of the same contents the client makes the same requests ([getLast] and [getDistinguished] is all they take from the
    state), and every response has the same outcome, the new store or the error: a search, the initialization of an owner, contact and owner
    monitoring, and the responses to an update. *)
Theorem C95_same_behaviour : forall H hs c now vrfVerify sigVerify leafVerify audVerify visit s s', sameStates s s' ->
  getLast s = getLast s' /\ getDistinguished c s = getDistinguished c s' /\
  (forall k req resp, clientSearch H hs c now vrfVerify sigVerify leafVerify audVerify visit k s req resp = clientSearch H hs c now vrfVerify sigVerify leafVerify audVerify visit k s' req resp) /\
  (forall k ls req resp, clientOwnerInit H hs c now vrfVerify sigVerify audVerify k s ls req resp = clientOwnerInit H hs c now vrfVerify sigVerify audVerify k s' ls req resp) /\
  (forall k ls req resp, clientContactMonitor H hs c now sigVerify audVerify k s ls req resp = clientContactMonitor H hs c now sigVerify audVerify k s' ls req resp) /\
  (forall k ls req resp, clientOwnerMonitor H hs c now sigVerify audVerify k s ls req resp = clientOwnerMonitor H hs c now sigVerify audVerify k s' ls req resp) /\
  (forall k ls req resp, streamVerify H hs c now vrfVerify sigVerify leafVerify audVerify k {| ss_state := s; ss_label := ls; ss_req := req |} resp =
                               streamVerify H hs c now vrfVerify sigVerify leafVerify audVerify k {| ss_state := s'; ss_label := ls; ss_req := req |} resp).
Proof. exact same_behaviour. Qed.
Print Assumptions C95_same_behaviour.

(** A state that was saved, with its map written in any order, and loaded again, has the same contents (for states that can be loaded, see C36). *)
Theorem C95_saved : forall c x order raw, okClientState c x -> Permutation order (cs_entries x) -> (cs_auditor x = None <-> pc_mode c <> ThirdPartyAuditing) ->
  clientStateMarshal x order = Ok raw -> exists y, parseState c raw = Ok y /\ sameStates (Some x) (Some y).
Proof. exact saved_same. Qed.
Print Assumptions C95_saved.

(** The state of a client that has seen the log, and the same state as it is after saving and loading it: the log entries are listed in
    another order.  With both, the client accepts the answer to its monitoring request. *)
Example C95_example : sameStates (Some st3) (Some stRest) /\ cs_entries st3 <> cs_entries stRest /\
  (exists raw, clientStateMarshal st3 (cs_entries st3) = Ok raw /\ parseState xc raw = Ok stRest) /\
  (exists k', clientContactMonitor (full toy32) 32 xc 3000 xsv xsv emptyClient (Some st3) mls mcq3 mcr3 = Ok k') /\
  exists k', clientContactMonitor (full toy32) 32 xc 3000 xsv xsv emptyClient (Some stRest) mls mcq3 mcr3 = Ok k'.
Proof.
  assert (E : exists raw, clientStateMarshal st3 (cs_entries st3) = Ok raw /\ parseState xc raw = Ok stRest) by (eexists; split; vm_compute; reflexivity).
  split; [|split; [discriminate|split; [exact E|split; [exact (proj1 client_checks_example)|]]]]; cycle 1.
  - eexists. vm_compute. reflexivity.
  - split; [exact st3_stRest|]. split; repeat constructor; cbn; intuition discriminate.
Qed.
