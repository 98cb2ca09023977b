(** Specification of what monitoring and updates establish: the answers the algorithms were given, if true of a log, pin down the
    greatest versions of the label in it. *)
From Coq Require Import Sorted.
From Verif Require Import Base TransMathSpec CodecModel AlgModel AlgSpec.

(** What the soundness of monitoring needs of a log: its timestamps are in order.  Versions may come and go. *)
Definition okTimes (L : hlog) : Prop :=
  1 <= h_n L < 2 ^ 64 /\
  (forall x y, x <= y < h_n L -> h_ts L x <= h_ts L y) /\
  (forall x, x < h_n L -> h_ts L x < two64) /\
  (forall x, x < h_n L -> (-1 <= h_g L x)%Z).

(** An answer that is true of the log [L]. *)
Definition trueEvent (L : hlog) (e : event) : Prop :=
  match e with
  | EvTs x (Ok t) => x < h_n L -> t = h_ts L x
  | EvLadder x v _ (Ok r) => x < h_n L -> r = cmp3 (h_g L x) v
  | EvMon x v (Ok _) => x < h_n L -> (Z.of_N v <= h_g L x)%Z
  | EvIncl x vs (Ok _) => x < h_n L -> Forall (fun v => (Z.of_N v <= h_g L x)%Z) vs
  | _ => True
  end.

(** Whether a provider's proof is used up does not depend on the entry asked about (as for a proof received from a server). *)
Definition exhaustible {S} (P : provider S) (finished : S -> bool) : Prop := forall s x v, pStop P s x v = finished s.

(** The monitor looks at the log [L]. *)
Definition watches (m : monitor) (L : hlog) : Prop := mo_size m = h_n L /\ mo_rightmost m = h_ts L (h_n L - 1).

(** The greatest version of the label at entry [x] according to its history [hist] (the list of the positions of its versions). *)
Definition expected (hist : list N) (x : N) : Z := (Z.of_nat (countLe x hist) - 1)%Z.

(** The entry [x] of the log has not passed its maximum lifetime. *)
Definition unexpired (c : pubConfig) (L : hlog) (x : N) : Prop := isExpired (pc_maxLife c) (h_ts L x) (h_ts L (h_n L - 1)) = false.

(** [xs]: the starting entry, and then its unexpired ancestors to the left, from right to left. *)
Definition initialEntries (c : pubConfig) (L : hlog) (starting : N) (xs : list N) : Prop :=
  exists ys, xs = starting :: ys /\ StronglySorted (fun a b => b < a) xs /\
    forall y, In y ys <-> sanc (h_n L) starting y /\ y < starting /\ unexpired c L y.

(** The [i]-th of the claimed greatest versions; those not mentioned are claimed not to exist. *)
Definition claimed (vers : list N) (i : nat) : Z := match nth_error vers i with Some v => Z.of_N v | None => -1 end.

(** An owner's update: [versions] new versions after [os], all at position [pos]. *)
Definition newState (os : ownerState) (pos : N) (versions : Z) : ownerState :=
  {| os_starting := os_starting os; os_verAt := os_verAt os; os_upcoming := os_upcoming os ++ repeat pos (Z.to_nat versions) |}.
