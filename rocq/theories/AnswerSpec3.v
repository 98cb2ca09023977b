(** Specification of the binary ladder in the server's answer to an owner who starts. *)
From Verif Require Import Base LogTreeModel LogTreeSpec PrefixModel CodecModel StoreModel CommitModel MutateModel MutateSpec AnswerSpec2.
Open Scope N_scope.
Local Open Scope list_scope.

(** The step [st] of the ladder for version [v] of the label: the proof of its VRF output, and the commitment to the version if it was published with one of the entries up to [start]. *)
Definition stepFor (f : bytes -> bytes) (vrf : bytes -> bytes * bytes) (rs : list request) (l : bytes) (start v : N) (st : ladderStep) : Prop :=
  (exists input, vrfInput l v = Ok input /\ ls_proof st = snd (vrf input)) /\
  match nth_error (labelsNow rs l) (N.to_nat v) with
  | Some p => if pv_pos p <=? start then exists b, ls_commitment st = Some b /\ labelCommitment (full f) (pv_opening p) l v (pv_value p) = Ok b else ls_commitment st = None
  | None => ls_commitment st = None
  end.
