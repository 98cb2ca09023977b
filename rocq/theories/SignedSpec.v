(** Specification for C89: what the service operator has signed. *)
From Verif Require Import Base CodecModel AlgModel HandleModel ServerModel ClientModel.
Open Scope N_scope.

(** [leafVerify] accepts only signatures on the content of updates that the operator of the service has signed; [Signed l v x] says that
    it has signed the value [x] for version [v] of the label [l]. *)
Definition operatorSigned (c : pubConfig) (leafVerify : bytes -> bytes -> bool) (Signed : bytes -> N -> bytes -> Prop) : Prop :=
  forall tbs s, leafVerify tbs s = true -> exists l v x, Signed l v x /\ v < two32 /\ updateTBS c l v x = Ok tbs.

(** The values a response to an update is about: those it carries, or else those requested. *)
Definition updatedValues (sv : streamVerifier) (resp : updateResponse) : list bytes :=
  match ur_values resp with [] => uq_values (ss_req sv) | vs => vs end.

(** The version after the greatest one the owner knows, as a 32-bit number. *)
Definition newVersion (sv : streamVerifier) : N :=
  match cl_owner (ss_label sv) with
  | Some o => match ownerGreatest o with Some g => (g + 1) mod 2 ^ 32 | None => 0 end
  | None => 0
  end.
