(** Specification for C90 and C91: what the owner of a label knows. *)
From Verif Require Import Base CodecModel AlgModel MutateSpec ServerModel ClientModel.
Open Scope N_scope.

(** The owner knows the versions that the mutations [rs] published for their label [l] up to the starting entry, and waits for no others. *)
Definition knowsVersions (rs : list request) (l : bytes) (o : ownerState) : Prop :=
  os_starting o < lenN rs /\ os_upcoming o = nil /\
  (os_verAt o + 1)%Z = Z.of_N (lenN (labelsNow (firstn (S (N.to_nat (os_starting o))) rs) l)).

(** The same update, with [x] as the first of the values submitted. *)
Definition submitting (x : bytes) (sv : streamVerifier) : streamVerifier :=
  {| ss_state := ss_state sv; ss_label := ss_label sv;
     ss_req := {| uq_last := uq_last (ss_req sv); uq_label := uq_label (ss_req sv); uq_greatest := uq_greatest (ss_req sv); uq_values := x :: List.tl (uq_values (ss_req sv)) |} |}.
