(** What a client remembers of a log, when its state may have been loaded from storage. *)
From Verif Require Import Base CodecModel StoreModel MutateModel ClientSpec ReloadSpec.
Open Scope N_scope.

(** The contents of [st] are those of the state of a client that has seen the log of [t], which now has [n] entries, at some time.  (In
    [hasSeen] the log entries are listed in the order in which they are proven; a state that was loaded lists them in another one.) *)
Definition remembers (f : bytes -> bytes) (t : tree) (n : N) (st : clientState) : Prop :=
  exists st0, hasSeen f t n st0 /\ sameStates (Some st0) (Some st).
