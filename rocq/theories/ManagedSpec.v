(** Specification side of the service operator's updates. *)
From Verif Require Import Base CodecModel StoreModel ManagedModel.
Open Scope N_scope.

(** A sequence of updates, each handled with the store left by the one before: the requests sent to the manager (or the errors). *)
Fixpoint managedRun (c : pubConfig) (sign : bytes -> res bytes) (s : managedStore) (reqs : list updateRequest) : list (res managerUpdateRequest) :=
  match reqs with
  | [] => []
  | r :: t => let (out, s') := managedUpdate c sign s r in out :: managedRun c sign s' t
  end.

Fixpoint from (start : N) (len : nat) : list N := match len with O => [] | S k => start :: from (start + 1) k end.

(** The version numbers of the values of a label that were signed, in order. *)
Definition signedVersions (l : bytes) (outs : list (res managerUpdateRequest)) : list N :=
  flat_map (fun o => match o with
                     | Ok q => if bytes_eqb (mq_label q) l then from (mq_signed q) (List.length (mq_values q)) else []
                     | _ => []
                     end) outs.

(** The number of values submitted for a label. *)
Definition submitted (l : bytes) (reqs : list updateRequest) : N :=
  lenN (flat_map (fun r => if bytes_eqb (uq_label r) l then uq_values r else []) reqs).
