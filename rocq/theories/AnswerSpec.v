(** Specification of the requests for monitoring that an honest server answers, in terms of what was published. *)
From Coq Require Import Sorted.
From Verif Require Import Base TransMathSpec AlgModel AlgSpec HandleModel CodecModel StoreModel CommitModel MutateModel MutateSpec.
Open Scope N_scope.
Local Open Scope list_scope.

(** Pairs of a position and a version, in increasing order of both.  Each position is that of the entry with which the version was published, or an ancestor of it to the right. *)
Definition goodPairs (rs : list request) (l : bytes) (es : list mapEntry) : Prop :=
  StronglySorted (fun a b => fst a < fst b /\ snd a < snd b) es /\
  forall x v, In (x, v) es -> exists p, nth_error (labelsNow rs l) (N.to_nat v) = Some p /\ pv_pos p <= x /\ sanc (lenN rs) (pv_pos p) x.

(** [L] is the log after the mutations [rs], as far as the label [l] is concerned. *)
Definition describes (L : hlog) (rs : list request) (l : bytes) : Prop :=
  h_n L = lenN rs /\ (forall x r, nth_error rs (N.to_nat x) = Some r -> h_ts L x = rq_now r) /\
  forall x, x < lenN rs -> h_g L x = (Z.of_nat (List.length (filter (fun p => (pv_pos p <=? x)%N) (labelsNow rs l))) - 1)%Z.
