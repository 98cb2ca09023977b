(** Specification for C95: states with the same contents. *)
From Verif Require Import Base CodecModel CodecSpec.
Open Scope N_scope.

(** The client has no state in both cases, or states with the same contents: they may differ in the order in which the map of retained
    log entries is listed (Go visits it in any order), in which each log entry occurs once. *)
Definition sameStates (s s' : option clientState) : Prop :=
  match s, s' with
  | Some x, Some y => sameState x y /\ NoDup (map fst (cs_entries x)) /\ NoDup (map fst (cs_entries y))
  | None, None => True
  | _, _ => False
  end.
