(** Specification for C100: searching for a label and monitoring it, while an honest log grows. *)
From Verif Require Import Base TransMathSpec CodecModel AlgModel AlgSpec WatchSpec HandleModel ClientModel.
Open Scope N_scope.
Local Open Scope list_scope.

(** The log when it had [n] entries. *)
Definition logAt (L : hlog) (n : N) : hlog := {| h_n := n; h_ts := h_ts L; h_g := h_g L |}.

(** [x] is the first entry that contains version [v] of the label. *)
Definition firstWith (L : hlog) (v x : N) : Prop :=
  x < h_n L /\ (Z.of_N v <= h_g L x)%Z /\ forall y, y < x -> (h_g L y < Z.of_N v)%Z.

(** A search for version [v] when the log has [n] entries may end at [x]: the first entry that contains the version, or an ancestor of it to the right. *)
Definition endsAt (L : hlog) (n v x : N) : Prop := exists x0, firstWith L v x0 /\ x0 <= x /\ sanc n x0 x.

(** The pairs that are left of [m]; none if the map is empty. *)
Definition leaves (m : monitor) (es : list mapEntry) : Prop :=
  match mo_contact m with Some p => contactStruct (Some p) = Ok es | None => es = [] end.

(** What a client has recorded for the label when the log has [n] entries, after any number of searches ([visit] is the order in which maps are visited).
    With [careful], when the log has grown the client monitors the label before it searches for it again; otherwise it may search at once. *)
Inductive recorded (careful : bool) (c : pubConfig) (visit : nat -> list (N * N) -> list N) (L : hlog) : N -> list mapEntry -> Prop :=
| rec_start n : 1 <= n <= h_n L -> recorded careful c visit L n []
| rec_search n es v x es' x' : recorded careful c visit L n es -> endsAt L n v x -> updateContactState visit es x n v = Ok (es', x') -> recorded careful c visit L n es'
| rec_monitor n es n' m m' es' s : recorded careful c visit L n es -> n <= n' <= h_n L -> watches m (logAt L n') -> mo_contact m = Some (contactPtrs es) ->
    result (run (honest (logAt L n')) (contactMonitor c m) s) = Ok m' -> leaves m' es' -> recorded careful c visit L n' es'
| rec_grow n es n' : careful = false -> recorded careful c visit L n es -> n <= n' <= h_n L -> recorded careful c visit L n' es.

(** The map is visited from left to right. *)
Definition fromLeft (i : nat) (m : list (N * N)) : list N := nsort (nodup N.eq_dec (map fst m)).
