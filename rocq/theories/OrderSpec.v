(** Specification for C96 and C97: the orders in which a map may be visited, and what it means that a version is still looked for. *)
From Coq Require Import Permutation.
From Verif Require Import Base CodecModel TransMathSpec.
Open Scope N_scope.

(** Every iteration over the map visits each of its positions, in any order. *)
Definition anyOrder (visit : nat -> list (N * N) -> list N) : Prop :=
  forall i m, Permutation (visit i m) (nodup N.eq_dec (map fst m)).

(** A client that monitors [contact] in a log of [n] entries still looks for the version [ver] seen at [x]: the same entry, or one of
    its ancestors to the right, is monitored for that version or a greater one. *)
Definition lookedFor (n : N) (contact : list mapEntry) (x ver : N) : Prop :=
  exists y ver', In (y, ver') contact /\ (y = x \/ x < y /\ sanc n x y) /\ ver <= ver'.
