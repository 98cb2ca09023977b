(** Specification side of the search and monitoring algorithms: what a log looks like to a truthful observer, and
    which of its entries are distinguished. *)
From Verif Require Import Base TransMathSpec AlgModel.

(** A log of [h_n] entries: the timestamp of every entry and the greatest version of the label under
    consideration that exists at every entry (-1: none). *)
Record hlog := { h_n : N; h_ts : N -> N; h_g : N -> Z }.

Definition okLog (L : hlog) : Prop :=
  1 <= h_n L < 2 ^ 64 /\
  (forall x y, x <= y < h_n L -> h_ts L x <= h_ts L y) /\
  (forall x, x < h_n L -> h_ts L x < two64) /\
  (forall x y, x <= y < h_n L -> (h_g L x <= h_g L y)%Z) /\
  (forall x, x < h_n L -> (-1 <= h_g L x < 2147483647)%Z).

(** Comparison of the greatest version with a target, as -1, 0 or 1. *)
Definition cmp3 (g : Z) (v : N) : Z := match (g ?= Z.of_N v)%Z with Lt => -1 | Eq => 0 | Gt => 1 end%Z.

(** A provider that answers every question about entries of the log truthfully.  Its state counts the prefix tree
    proofs asked for so far; owner monitoring answers stop after 25 of them. *)
Definition honest (L : hlog) : provider N := {|
  pTs s x := (if x <? h_n L then Ok (h_ts L x) else Fail "no such entry", s);
  pLadder s x v _ := (if x <? h_n L then Ok (cmp3 (h_g L x) v) else Fail "no such entry", s + 1);
  pMon s x v := (if (x <? h_n L) && (Z.of_N v <=? h_g L x)%Z then Ok tt else Fail "no such version", s + 1);
  pIncl s x vs := (if (x <? h_n L) && forallb (fun v => (Z.of_N v <=? h_g L x)%Z) vs then Ok tt else Fail "no such version",
    s + match vs with [] => 0 | _ => 1 end);
  pStop s x v := (25 <=? s) || (v <? h_g L x)%Z;
  pTrack s _ _ _ _ := s |}.

(** Distinguished log entries.  [DIn ts w a len l r y]: in the subtree over the entries [a, a+len), whose
    surrounding timestamps are [l] and [r], the entry [y] is distinguished for the window [w].  Nothing in a subtree
    is distinguished if [r - l < w]; otherwise its root is, and both subtrees are examined in the same way, the
    root's timestamp becoming the bound. *)
Inductive DIn (ts : N -> N) (w : N) : N -> N -> N -> N -> N -> Prop :=
| DI_here a len l r : l + w <= r -> DIn ts w a len l r (sroot a len)
| DI_left a len l r y : l + w <= r -> 0 < lsize len ->
    DIn ts w a (lsize len) l (ts (sroot a len)) y -> DIn ts w a len l r y
| DI_right a len l r y : l + w <= r -> lsize len + 1 < len ->
    DIn ts w (sroot a len + 1) (len - lsize len - 1) (ts (sroot a len)) r y -> DIn ts w a len l r y.

Definition distinguished (n : N) (ts : N -> N) (w : N) (y : N) : Prop := DIn ts w 0 n 0 (ts (n - 1)) y.

(** [o] is the greatest element of [P], or [None] if there is none. *)
Definition greatestOf (P : N -> Prop) (o : option N) : Prop :=
  match o with
  | Some x => P x /\ forall y, P y -> y <= x
  | None => forall y, ~ P y
  end.

(** A provider that answers or reports an error, but does not itself crash or hang. *)
Definition tame {S} (P : provider S) : Prop :=
  (forall s x, match fst (pTs P s x) with Ok _ | Fail _ => True | _ => False end) /\
  (forall s x v o, match fst (pLadder P s x v o) with Ok _ | Fail _ => True | _ => False end) /\
  (forall s x v, match fst (pMon P s x v) with Ok _ | Fail _ => True | _ => False end) /\
  (forall s x vs, match fst (pIncl P s x vs) with Ok _ | Fail _ => True | _ => False end).

(** ** Owner state against the history of a label

    The history of a label is the list of the positions at which its versions 0, 1, 2, ... were published, in order. *)

(** Number of versions that exist at entry [x]. *)
Definition countLe (x : N) (hist : list N) : nat := List.length (filter (fun p => p <=? x) hist).

(** The owner state [os] is a faithful summary of the history [hist]. *)
Definition tracks (hist : list N) (os : CodecModel.ownerState) : Prop :=
  CodecModel.os_upcoming os = filter (fun p => CodecModel.os_starting os <? p) hist /\
  CodecModel.os_verAt os = (Z.of_nat (countLe (CodecModel.os_starting os) hist) - 1)%Z.

(** Whenever the provider gives a timestamp for an entry below [n], it is the one of [ts], and those are ordered like
    the entries (which is what accepted proofs guarantee). *)
Definition timestampsOf {S} (P : provider S) (n : N) (ts : N -> N) : Prop :=
  (forall x y, x <= y < n -> ts x <= ts y) /\
  (forall x, x < n -> ts x < two64) /\
  (forall s x t s', x < n -> pTs P s x = (Ok t, s') -> t = ts x).
