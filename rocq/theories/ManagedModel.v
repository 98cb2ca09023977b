(** Model of tree/transparency/managed/managed.go (the service operator's side of a log run by a third-party manager) and of
    its store in db/memory/memory.go. *)
From Verif Require Import Base CodecModel StoreModel.
Local Open Scope string_scope.
Open Scope N_scope.

(** db/memory/memory.go:220-226 [ManagedLogStore]: a number per label.  Keys are the labels instead of their hex forms
    (injective). *)
Definition managedStore : Type := list (bytes * N).

(** db/memory/memory.go:228-237.  Go's [int] has 64 bits and does not overflow here: lengths are far below. *)
Definition incrementGreatest (s : managedStore) (label : bytes) (count : N) : Z * managedStore :=
  match bget s label with
  | None => ((-1)%Z, bput s label count)
  | Some v => (Z.of_N v, bput s label (v + count))
  end.

Section Managed.
Variable c : pubConfig.
(** [priv.Sign] *)
Variable sign : bytes -> res bytes.

(** managed.go:85-103; [ver] is [prev + 1 + i] *)
Fixpoint signValues (label : bytes) (ver : N) (values : list bytes) : res (list updateValue) :=
  match values with
  | [] => Ok []
  | v :: t =>
      let* tbs := updateTBS c label (w32 ver) v in
      let* sig := sign tbs in
      let* rest := signValues label (ver + 1) t in
      Ok ({| uv_value := v; uv_sig := Some sig |} :: rest)
  end.

(** managed.go:74-114: the request submitted to the manager, and the store, which is written first in any case *)
Definition managedUpdate (s : managedStore) (req : updateRequest) : res managerUpdateRequest * managedStore :=
  let (prev, s') := incrementGreatest s (uq_label req) (lenN (uq_values req)) in
  let first := Z.to_N (prev + 1) in
  (let* values := signValues (uq_label req) first (uq_values req) in
   Ok {| mq_last := uq_last req; mq_label := uq_label req; mq_greatest := uq_greatest req;
         mq_signed := w32 first; mq_values := values |}, s').

End Managed.
