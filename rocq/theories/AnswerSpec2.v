(** Specification of what the owner of a label may say about their state when they ask the server to monitor it. *)
From Verif Require Import Base CodecModel StoreModel CommitModel MutateModel MutateSpec.
Open Scope N_scope.
Local Open Scope list_scope.

(** The number of versions of the label [l] published with the entries up to [x]. *)
Definition versionsBy (rs : list request) (l : bytes) (x : N) : nat := List.length (filter (fun p => pv_pos p <=? x) (labelsNow rs l)).

(** The owner has monitored up to the entry [start], and [greatest] is the last version they published: the entry exists, the version exists, and it is not older than the
    greatest version at the entry. *)
Definition possibleState (rs : list request) (l : bytes) (start : N) (greatest : option N) : Prop :=
  start < lenN rs /\ match greatest with Some g => g < lenN (labelsNow rs l) /\ N.of_nat (versionsBy rs l start) <= g + 1 | None => versionsBy rs l start = 0%nat end.

(** What the client of an owner has stored about them is right: the greatest version at the entry up to which they have monitored is the one in the log, and the versions that they
    have published since then exist (there may be others). *)
Definition rightState (rs : list request) (l : bytes) (o : ownerState) : Prop :=
  os_starting o < lenN rs /\ os_verAt o = (Z.of_nat (versionsBy rs l (os_starting o)) - 1)%Z /\
  (os_verAt o + Z.of_nat (List.length (os_upcoming o)) < Z.of_nat (List.length (labelsNow rs l)))%Z.
