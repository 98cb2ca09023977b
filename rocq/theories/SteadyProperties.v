(** C100: searching again does no harm to monitoring. *)
From Verif Require Import Base TransMathSpec CodecModel AlgModel AlgSpec AlgExamples WatchSpec HandleModel ServerModel ClientModel OrderSpec SteadySpec SteadyProofs SteadyProofs2 SteadyExamples.
Open Scope N_scope.
Local Open Scope list_scope.

(** Finding: whatever the order in which maps are visited, a client that searches for a label after an honest log has grown can record pairs with which no request is answered by any server,
    and with which monitoring the honest log reports that its versions are not monotonic. *)
Theorem C100_refuted : exists c L, okLog L /\ forall visit, anyOrder visit -> exists n es, recorded false c visit L n es /\
  (forall H hs vrf now server ask answer, cq_entries ask = es -> serverContactMonitor H hs c vrf now server ask <> Ok answer) /\
  exists n' m, n <= n' <= h_n L /\ watches m (logAt L n') /\ mo_contact m = Some (contactPtrs es) /\
    forall s, result (run (honest (logAt L n')) (contactMonitor c m) s) = Fail "monitoring detected versions that are not monotonic".
Proof. exact c100_refuted. Qed.
Print Assumptions C100_refuted.

(** If the client visits maps from left to right, and monitors the label before it searches for it again when the log has grown, then what it has recorded after any number of searches
    is accepted by the server at every later size (given the first entry of each version), and monitoring succeeds. *)
Theorem C100_partial : forall c L, okLog L -> forall n es, recorded true c fromLeft L n es ->
  (forall n' index, n <= n' <= h_n L -> (forall v x, firstWith L v x -> x < n' -> nth_error index (N.to_nat v) = Some x) -> exists ptrs, verifyEntries es index n' = Ok ptrs) /\
  (forall n' m s, n <= n' <= h_n L -> watches m (logAt L n') -> mo_contact m = Some (contactPtrs es) ->
    exists m', result (run (honest (logAt L n')) (contactMonitor c m) s) = Ok m').
Proof. exact kept_in_order. Qed.
Print Assumptions C100_partial.

(** Where searches of an honest log end: at the first entry that contains the version or at an ancestor to its right.  For the most recent version this holds if the search ended after the
    last distinguished entry (otherwise nothing is recorded); for a particular version, if so or if the first entry that contains it has not expired. *)
Theorem C100_search_ends : forall c L, okLog L -> forall ver x0, firstWith L ver x0 ->
  (forall s x, result (run (honest L) (fixedVersionSearch c ver (h_n L)) s) = Ok x ->
   isExpired (pc_maxLife c) (h_ts L x0) (h_ts L (h_n L - 1)) = false \/ (forall d, distinguished (h_n L) (h_ts L) (pc_rmw c) d -> d < x) -> endsAt L (h_n L) ver x) /\
  (forall s x, result (run (honest L) (greatestVersionSearch c ver (h_n L)) s) = Ok x ->
   (forall d, distinguished (h_n L) (h_ts L) (pc_rmw c) d -> d < x) -> endsAt L (h_n L) ver x).
Proof. exact search_ends. Qed.
Print Assumptions C100_search_ends.

(** The two searches of the finding do end where they are said to; with monitoring in between, one pair is left. *)
Example C100_example : okLog log8 /\ anyOrder fromLeft /\ recorded true (exConfig 1000 1000 10 0) fromLeft log8 4 [(3, 1)] /\
  result (run (honest (logAt log8 3)) (fixedVersionSearch (exConfig 1000 1000 10 0) 1 3) 0) = Ok 2 /\
  result (run (honest (logAt log8 4)) (fixedVersionSearch (exConfig 1000 1000 10 0) 0 4) 0) = Ok 1.
Proof. exact c100_examples. Qed.
Print Assumptions C100_example.

(** A search that ends after the last distinguished entry (there is none), although the first entry that contains the version has expired. *)
Example C100_expired_example : okLog aged8 /\ firstWith aged8 1 2 /\ isExpired 30 (h_ts aged8 2) (h_ts aged8 7) = true /\
  (forall d, ~ distinguished 8 (h_ts aged8) 1000 d) /\ result (run (honest aged8) (fixedVersionSearch (exConfig 1000 1000 1000 30) 1 8) 0) = Ok 7.
Proof. exact c100_expired. Qed.
Print Assumptions C100_expired_example.
