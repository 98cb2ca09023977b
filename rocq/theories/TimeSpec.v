(** Specification for C98: monitoring a label from time to time, while the log grows. *)
From Verif Require Import Base LogTreeModel LogTreeSpec PrefixModel PrefixSpec CodecModel CodecSpec AlgModel HandleModel ServerModel ClientModel GuardSpec.
Open Scope N_scope.
Local Open Scope list_scope.

Section Time.
Variables (f : bytes -> bytes) (T : list bytes) (hs : N) (c : pubConfig) (l : bytes).
(** The entries of a log in the end, and their hashes. *)
Variables (es : list logEntry) (leaves : list bytes).

(** The log when it had [n] entries. *)
Definition upto {A} (n : N) (xs : list A) : list A := firstn (N.to_nat n) xs.

(** When the log has [n] entries, a user who keeps [ls] for the label accepts a response about this log, and keeps [ls'] from then on: the pairs of an entry
    and a version that the checks return, and some of the versions that were kept before. *)
Definition monitorsAt (n : N) (ls ls' : labelState) : Prop :=
  exists now state req resp checked mo result root, cq_label req = l /\ keptFrom (upto n es) state /\ okMonitorResponse c resp /\
    checkContactMonitor (restrict f T) hs c now state ls req resp = Ok (checked, mo) /\ v_n checked = n /\
    dpFinish (restrict f T) hs (v_d checked) (v_n checked) (v_nP checked) (v_m checked) = Ok result /\
    logRoot (restrict f T) hs (v_n checked) (pr_subtrees result) = Ok root /\ Mth (restrict f T) (upto n leaves) root /\
    NoDup (map fst (cl_contact ls')) /\ (forall y v, In (y, v) (cl_contact ls') <-> pointsTo mo y v) /\ (forall r, In r (cl_versions ls') -> In r (cl_versions ls)).

(** Starting with [ls] when the log has [n0] entries, the user monitors the label one or more times.  The last time the log has [n] entries and
    the user keeps [ls'] from then on. *)
Inductive monitoredFrom (n0 : N) (ls : labelState) : N -> labelState -> Prop :=
| mf_once n ls' : n0 <= n <= lenN es -> monitorsAt n ls ls' -> monitoredFrom n0 ls n ls'
| mf_again n ls1 n' ls' : monitoredFrom n0 ls n ls1 -> n <= n' <= lenN es -> monitorsAt n' ls1 ls' -> monitoredFrom n0 ls n' ls'.
End Time.
