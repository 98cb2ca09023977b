(** Which labels a client is asked to monitor, for C94. *)
From Verif Require Import Base CodecModel StoreModel MutateModel ClientModel.
Open Scope N_scope.

(** The client is asked to monitor the label (client.go:325-345): it is filed under an entry that is not to the right of the rightmost
    distinguished log entry the client knows ([GetStaleLabel], db/db.go:75-78). *)
Definition due (c : pubConfig) (k : clientStore) (label : bytes) : Prop :=
  exists st cutoff raw pos, getState c k = Ok (Some st) /\ getDistinguished c (Some st) = Ok cutoff /\
    bget (k_labels k) label = Some (raw, pos) /\ pos <= cutoff.

(** Two stores with the same contents *)
Definition sameStore (k k' : clientStore) : Prop := k_state k = k_state k' /\ forall l, bget (k_labels k) l = bget (k_labels k') l.
