(** C94: monitoring comes to rest. *)
From Verif Require Import Base LogTreeModel LogTreeSpec PrefixModel PrefixExamples CodecModel CodecSpec AlgModel HandleModel StoreModel MutateModel MutateSpec MutateExamples ServerModel ClientModel ClientSpec ClientExamples SearchExamples GuardSpec GuardExamples RestSpec RestExamples RestProofs.
Open Scope N_scope.
Local Open Scope list_scope.

(** C94.  [Monitor] "may return nil if no label needs to be monitored right now".  But a client of an honest log, which has seen all of its
    entries, may be asked to monitor a label again and again: in the store [k], and in every store with the same contents, the label is due, the client makes the
    request [req], accepts the (honest) response [resp], and the store has the same contents afterwards.  A client which calls [Monitor]
    until it returns nil therefore never ends, as long as the log does not grow.  (A label that remains to be monitored is filed under the rightmost distinguished log
    entry (client.go:406-413), and every label filed under that entry or one to its left is due.) *)
Theorem C94_refuted : exists (f : bytes -> bytes) hs c vrf sign Ls t rs now sigVerify audVerify k label st st0 ls req resp, (forall x, lenN (f x) = hs) /\
  runs (full f) hs c vrf sign Ls t rs /\ getState c k = Ok (Some st) /\ hasSeen f t (lenN rs) st0 /\ sameState st st0 /\ th_size (cs_head st) = lenN rs /\
  forall k1, sameStore k1 k -> due c k1 label /\ monitorRequestFor hs c k1 label = Ok (Some st, ls, inl req) /\
    exists k2, clientContactMonitor (full f) hs c now sigVerify audVerify k1 (Some st) ls req resp = Ok k2 /\ sameStore k2 k.
Proof. exact rest_refuted. Qed.
Print Assumptions C94_refuted.

(** C94, partial: after each accepted contact monitoring the label is filed under the rightmost distinguished log entry of the tree it was checked
    against, and what is stored for the other labels stays the same: a label becomes due again at a later time only if the comparison of [GetStaleLabel] allows the
    entry itself.  In particular contact monitoring never removes a label: there is always an entry left (see C48).  Missing: that the
    label is not due, which is false. *)
Theorem C94_partial : forall H hs c now sigVerify audVerify k state ls req resp k',
  clientContactMonitor H hs c now sigVerify audVerify k state ls req resp = Ok k' ->
  exists checked mo raw pos after, checkContactMonitor H hs c now state ls req resp = Ok (checked, mo) /\
    execV H hs (rightmostDistinguished c (v_n checked)) checked = Ok (Some pos, after) /\
    bget (k_labels k') (cq_label req) = Some (raw, pos) /\
    forall l, l <> cq_label req -> bget (k_labels k') l = bget (k_labels k) l.
Proof. exact rest_partial. Qed.
Print Assumptions C94_partial.

(** An accepted response *)
Example C94_example : exists k', clientContactMonitor (full toy32) 32 xc 3000 xsv xsv emptyClient (Some st3) mls mcq3 mcr3 = Ok k'.
Proof. exact (proj1 client_checks_example). Qed.
