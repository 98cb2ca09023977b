(** C99: what a search recorded can be monitored. *)
From Verif Require Import Base LogTreeModel LogTreeSpec CodecModel CodecSpec AlgModel AlgSpec AlgExamples WatchSpec HandleModel StoreModel MutateModel MutateSpec ServerModel ClientModel ClientSpec ClientExamples OrderSpec AlarmProofs AlarmExamples.
Open Scope N_scope.
Local Open Scope list_scope.

(** Finding: an honest log answers a client's search for a version, and the client accepts the answer.  Depending on the order in which it visits a map, it stores pairs that the server goes
    on to monitor for it, or pairs with which no request it makes for the label is answered by any server at any time. *)
Theorem C99_refuted : exists f hs c vrf vrfVerify sign sigVerify Ls t rs st es now req resp visit visit' k' k'' ls' ls'',
  (forall x, lenN (f x) = hs) /\ vrfVerifies vrf vrfVerify /\ sigVerifies sign sigVerify /\
  runs (full f) hs c vrf sign Ls t rs /\ logOf t es /\ t_head t = Some (cs_head st) /\ stateFor f (cs_head st) es st /\
  sq_last req = getLast (Some st) /\ serverSearch (full f) hs c vrf now (serverOf t) req = Ok resp /\
  anyOrder visit /\ anyOrder visit' /\
  clientSearch (full f) hs c now vrfVerify sigVerify sigVerify sigVerify visit emptyClient (Some st) req resp = Ok k' /\
  clientSearch (full f) hs c now vrfVerify sigVerify sigVerify sigVerify visit' emptyClient (Some st) req resp = Ok k'' /\
  getLabelState hs k' (sq_label req) = Ok ls' /\ getLabelState hs k'' (sq_label req) = Ok ls'' /\
  (exists answer, serverContactMonitor (full f) hs c vrf now (serverOf t) {| cq_last := getLast (Some st); cq_label := sq_label req; cq_entries := cl_contact ls' |} = Ok answer) /\
  forall k state ls ask, getLabelState hs k (sq_label req) = Ok ls'' -> monitorRequestFor hs c k (sq_label req) = Ok (state, ls, inl ask) ->
    forall now' server answer, serverContactMonitor (full f) hs c vrf now' server ask <> Ok answer.
Proof. exact c99_refuted. Qed.
Print Assumptions C99_refuted.

(** No server answers a request that has two pairs for the same version. *)
Theorem C99_one_version_per_pair : forall H hs c vrf now server ask x y v answer,
  In (x, v) (cq_entries ask) -> In (y, v) (cq_entries ask) -> x <> y -> serverContactMonitor H hs c vrf now server ask <> Ok answer.
Proof. exact never_answered. Qed.
Print Assumptions C99_one_version_per_pair.

(** If later entries are monitored for later versions, as they are after a search that left one pair, then monitoring the pairs on an honest log succeeds, at every size of the log. *)
Theorem C99_partial : forall c L, okLog L -> forall m ptrs s, watches m L -> mo_contact m = Some ptrs -> NoDup (map fst ptrs) ->
  (forall x v, In (x, v) ptrs -> x < h_n L /\ (Z.of_N v <= h_g L x)%Z) ->
  (forall x v y u, In (x, v) ptrs -> In (y, u) ptrs -> x < y -> v < u) ->
  exists m', result (run (honest L) (contactMonitor c m) s) = Ok m'.
Proof. exact contact_honest. Qed.
Print Assumptions C99_partial.

(** The hypotheses are met: a log of four entries without a distinguished one, in which a label's version 1 is monitored from the first entry and version 2 from the last. *)
Example C99_example : okLog flatLog /\ watches (flatMonitor [(0, 1); (3, 2)]) flatLog /\ (forall x v, In (x, v) [(0, 1); (3, 2)] -> x < 4 /\ (Z.of_N v <= h_g flatLog x)%Z) /\
  (forall x v y u, In (x, v) [(0, 1); (3, 2)] -> In (y, u) [(0, 1); (3, 2)] -> x < y -> v < u) /\ mget [(0, 1); (3, 2)] 0 = Some 1.
Proof. exact (conj flatLog_ok c99_example). Qed.
