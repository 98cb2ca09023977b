(** Specification of the auditor: the histories an auditor can go through, and what its state has to say about them. *)
From Verif Require Import Base LogTreeSpec PrefixModel PrefixSpec CodecModel TransMathSpec AlgModel AlgSpec HandleModel MutateModel MutateSpec AuditorModel.
Open Scope N_scope.

(** An update as it comes off the wire: timestamps have 64 bits, hashes in the proof have the hash size. *)
Definition okUpdate (hs : N) (u : auditorUpdate) : Prop :=
  au_ts u < two64 /\ Forall (fun e : bytes => List.length e = N.to_nat hs) (p_elements (au_proof u)).

Section Histories.
Variable H : bytes -> option bytes.
Variable hs : N.
Variable c : pubConfig.
Variable sign : bytes -> res bytes.
Variable key : bytes.

(** [audited us ps a]: an auditor that started with an empty store has gone through any sequence of updates (accepted or
    rejected), commits (with or without failures of the store) and restarts, and is now [a].  [us] are the updates its
    state has seen accepted, [ps] those its stored state had seen accepted. *)
Inductive audited : list auditorUpdate -> list auditorUpdate -> auditor -> Prop :=
| au_new a : NewAuditor hs c key None = Ok a -> audited [] [] a
| au_accept us ps a u a' : audited us ps a -> okUpdate hs u -> lenN us + 1 < 2 ^ 63 ->
    Process H hs c a u = (Ok tt, a') -> audited (us ++ [u]) ps a'
| au_reject us ps a u r a' : audited us ps a -> Process H hs c a u = (r, a') -> r <> Ok tt -> audited us ps a'
| au_commit us ps a put r a' : audited us ps a -> Commit H hs c sign put a = (r, a') -> a_stored a' = a_stored a -> audited us ps a'
| au_store us ps a put r a' : audited us ps a -> Commit H hs c sign put a = (r, a') -> a_stored a' <> a_stored a -> audited us us a'
| au_restart us ps a a' : audited us ps a -> NewAuditor hs c key (a_stored a) = Ok a' -> audited ps ps a'.

(** The log entries that updates stand for: each starts from the prefix tree the previous one left (the first one from
    [before], whatever it is), and timestamps do not decrease. *)
Inductive follows (before : bytes) : list auditorUpdate -> list logEntry -> Prop :=
| fo_none : follows before [] []
| fo_next us L u old new : follows before us L ->
    EvaluateBeforeAfter H (N.to_nat hs) (au_added u) (au_removed u) (au_proof u) = Ok (old, new) ->
    old = le_root (List.last L {| le_ts := 0; le_root := before |}) ->
    le_ts (List.last L {| le_ts := 0; le_root := before |}) <= au_ts u ->
    follows before (us ++ [u]) (L ++ [{| le_ts := au_ts u; le_root := new |}]).

(** The timestamps of a log. *)
Definition tsIn (L : list logEntry) (x : N) : N :=
  match nth_error L (N.to_nat x) with Some e => le_ts e | None => 0 end.

(** The state [s] is about exactly the entries [L]. *)
Definition summarizes (s : auditorState) (L : list logEntry) : Prop :=
  as_size s = lenN L /\
  (exists e, List.last (map Some L) None = Some e /\ as_ts s = le_ts e /\ as_prefix s = le_root e) /\
  (exists leaves, Forall2 (fun e h => logEntryHash H e = Ok h) L leaves /\ FullValues H leaves (lenN L) (as_subtrees s)) /\
  (exists front, SFront 0 (lenN L) front /\ as_timestamps s = map (tsIn L) front).

End Histories.

(** The log of the updates [us] followed by one with timestamp [now]: its timestamps. *)
Definition stamps (us : list auditorUpdate) (now : N) (x : N) : N :=
  match nth_error us (N.to_nat x) with Some u => au_ts u | None => now end.

(** [y] is a distinguished entry that precedes the entry about to be added after [us] with timestamp [now]. *)
Definition precedingDistinguished (c : pubConfig) (us : list auditorUpdate) (now y : N) : Prop :=
  distinguished (lenN us + 1) (stamps us now) (pc_rmw c) y /\ y < lenN us.

(** The update at position [i] added the key [k]. *)
Definition addedAt (us : list auditorUpdate) (i : N) (k : bytes) : Prop :=
  exists u, nth_error us (N.to_nat i) = Some u /\ In k (map fst (au_added u)).

(** The update [u] takes the key [k] away, although it was added by an update after the last preceding distinguished entry. *)
Definition removesRecent (c : pubConfig) (us : list auditorUpdate) (u : auditorUpdate) (k : bytes) : Prop :=
  In k (map fst (au_removed u)) /\
  exists i, addedAt us i k /\ forall y, precedingDistinguished c us (au_ts u) y -> y < i.

(** A server and an auditor side by side, from the beginning: every successful mutation (none of which removes a label) is
    given to the auditor, which accepts it. In between the server may be reopened, also after failed mutations, and the
    auditor may sign what it has. *)
Inductive tracked (H : bytes -> option bytes) (hs : N) (c : pubConfig) (vrf : bytes -> bytes * bytes) (sign asign : bytes -> res bytes) (key : bytes) (Ls : list bytes) :
  tree -> list request -> auditor -> Prop :=
| tr_new t a : NewTree emptyContents = Ok t -> NewAuditor hs c key None = Ok a -> tracked H hs c vrf sign asign key Ls t [] a
| tr_mutate t rs a r u t' a' : tracked H hs c vrf sign asign key Ls t rs a ->
    moderate Ls (lenN rs) (labelsNow rs) r -> rq_add r <> [] -> rq_remove r = [] ->
    Mutate H hs c vrf sign (rq_opening r) (rq_order r) (rq_now r) t (rq_add r) (rq_remove r) = (Ok u, t') ->
    Process H hs c a u = (Ok tt, a') -> tracked H hs c vrf sign asign key Ls t' (rs ++ [r]) a'
| tr_reopen t rs a t' : tracked H hs c vrf sign asign key Ls t rs a -> NewTree (durable (t_tx t)) = Ok t' -> tracked H hs c vrf sign asign key Ls t' rs a
| tr_failed t rs a r m t1 t' : tracked H hs c vrf sign asign key Ls t rs a ->
    Mutate H hs c vrf sign (rq_opening r) (rq_order r) (rq_now r) t (rq_add r) (rq_remove r) = (Fail m, t1) ->
    NewTree (durable (t_tx t1)) = Ok t' -> tracked H hs c vrf sign asign key Ls t' rs a
| tr_commit t rs a put x a' : tracked H hs c vrf sign asign key Ls t rs a -> AuditorModel.Commit H hs c asign put a = (x, a') ->
    tracked H hs c vrf sign asign key Ls t rs a'.
