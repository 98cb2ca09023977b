(** C09-C11: the search tree over log entries (tree/transparency/math/math.go). *)
From Coq Require Import Sorted.
From Verif Require Import Base LogMathModel TransMathModel NodeMathProofs LogMathProofs TransMathSpec TransMathProofs TransMathProofs2.

(** C09. Every entry is the root of exactly one subtree. *)
Theorem C09_entries_are_subtrees : forall n, 1 <= n < 2 ^ 64 ->
  troot n = sroot 0 n /\
  (forall x, x < n -> exists a len, SRange n a len /\ sroot a len = x) /\
  (forall a len a' len', SRange n a len -> SRange n a' len' ->
     sroot a len = sroot a' len' -> a = a' /\ len = len') /\
  (forall a len, SRange n a len -> 1 <= len /\ a <= sroot a len < a + len /\ a + len <= n).
Proof. exact c09_entries. Qed.
Print Assumptions C09_entries_are_subtrees.

(** C09. Left and Right compute the roots of the entries before and after a node in
    its subtree; Parent goes back; the "has no child" tests are exact. *)
Theorem C09_navigation : forall n a len, 1 <= n < 2 ^ 64 -> SRange n a len ->
  let x := sroot a len in
  (isLeaf x = true <-> a = x) /\
  (isLeaf x || (x =? sub64 n 1) = true <-> a + len = x + 1) /\
  (a < x -> tleft x = Ok (sroot a (lsize len)) /\ tparent (sroot a (lsize len)) n = Ok x) /\
  (x + 1 < a + len ->
     tright x n = Ok (sroot (x + 1) (len - lsize len - 1)) /\
     tparent (sroot (x + 1) (len - lsize len - 1)) n = Ok x).
Proof. exact c09_nav. Qed.
Print Assumptions C09_navigation.

(** C09. Walking from the root towards any entry reaches it, through existing
    entries only, without panic. *)
Theorem C09_reaches_every_entry : forall n t, 1 <= n < 2 ^ 64 -> t < n -> reaches n (troot n) t.
Proof. exact c09_reaches. Qed.
Print Assumptions C09_reaches_every_entry.

Example C09_example :
  SRange 11 8 3 /\ sroot 8 3 = 9 /\ tleft 9 = Ok 8 /\ tright 9 11 = Ok 10 /\ tright 7 11 = Ok 9 /\
  tparent 9 11 = Ok 7.
Proof. split; [exact (SR_right 11 0 11 (SR_root 11) eq_refl)|]. vm_compute. repeat split. Qed.

(** C10. The frontier. *)
Theorem C10_frontier : forall n, 1 <= n < 2 ^ 64 ->
  exists l, frontier n = Ok l /\ SFront 0 n l.
Proof. exact c10_frontier. Qed.
Print Assumptions C10_frontier.

(** C10 (refuted). Going from 4 entries to 7, the list to fetch is empty, but entry 5
    is on the new frontier and was not on the old one. *)
Theorem C10_update_view_refuted :
  exists m n old new list e, m <= n /\ frontier m = Ok old /\ frontier n = Ok new /\
    updateViewPath n (Some m) = Ok list /\ In e new /\ ~ In e old /\ ~ In e list.
Proof. exact c10_refuted. Qed.
Print Assumptions C10_update_view_refuted.

(** C10, what holds.  The list contains only entries that were not part of the tree
    of size [m], in increasing order.  It is empty exactly if [m = n] or the last entry of
    the old tree is itself on the new frontier; whenever it is not empty, old frontier
    and list together contain the new frontier.  (Missing: the case of a non-trivial
    update whose list is empty, for which the claim is false.) *)
Theorem C10_update_view_partial : forall n m, 1 <= m <= n -> n < 2 ^ 64 ->
  exists old new list,
    frontier m = Ok old /\ frontier n = Ok new /\ updateViewPath n (Some m) = Ok list /\
    Forall (fun e => m <= e < n) list /\ StronglySorted N.lt list /\
    (list = [] <-> m = n \/ In (m - 1) new) /\
    (m = n \/ list <> [] -> forall e, In e new -> In e old \/ In e list) /\
    (forall e, In e new -> e < m -> In e old).
Proof. exact c10_partial. Qed.
Print Assumptions C10_update_view_partial.

Theorem C10_first_view : forall n,
  updateViewPath n None = frontier n /\ (n <> 0 -> updateViewPath n (Some 0) = frontier n).
Proof. exact c10_first. Qed.
Print Assumptions C10_first_view.

Example C10_example :
  frontier 5 = Ok [3; 4] /\ frontier 13 = Ok [7; 11; 12] /\ updateViewPath 13 (Some 5) = Ok [5; 7; 11; 12] /\
  updateViewPath 7 (Some 4) = Ok [].
Proof. vm_compute. repeat split. Qed.

(** C11. Direct paths. *)
Theorem C11_right_direct_path : forall n x, 1 <= n < 2 ^ 64 -> x < n ->
  exists d, rightDirectPath x n = Ok d /\ (forall y, In y d <-> sanc n x y /\ x < y) /\
    StronglySorted N.lt d.
Proof. exact c11_right. Qed.
Print Assumptions C11_right_direct_path.

Theorem C11_left_direct_path : forall n x, 1 <= n < 2 ^ 64 -> x < n ->
  exists d, leftDirectPath x = Ok d /\ (forall y, In y d <-> sanc n x y /\ y < x) /\
    StronglySorted (fun a b => b < a) d.
Proof. exact c11_left. Qed.
Print Assumptions C11_left_direct_path.

Example C11_example :
  rightDirectPath 4 13 = Ok [5; 7] /\ leftDirectPath 4 = Ok [3] /\ sanc 13 4 5.
Proof.
  split; [reflexivity|]. split; [reflexivity|]. exists 4, 3.
  split; [exact (SR_right 13 0 7 (SR_left 13 0 13 (SR_root 13) eq_refl) eq_refl)|].
  split; [reflexivity|]. split; [discriminate|reflexivity].
Qed.
