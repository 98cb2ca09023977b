(** C01-C03: the arithmetic of the log tree (tree/log/math/math.go). *)
From Coq Require Import Sorted.
From Verif Require Import Base LogMathModel LogMathSpec LogMathProofs LogMathProofs2.

(** C01. In a log of [n] entries the node ids are exactly [0 .. 2n-2]; each is the
    id of exactly one subtree (range) of the left-balanced tree. *)
Theorem C01_nodes_are_ranges : forall n, 1 <= n <= 2 ^ 63 ->
  root n = nodeId 0 n /\
  (forall x, x < 2 * n - 1 -> exists a len, Range n a len /\ nodeId a len = x) /\
  (forall a len a' len', Range n a len -> Range n a' len' ->
     nodeId a len = nodeId a' len' -> a = a' /\ len = len') /\
  (forall a len, Range n a len -> (len = 1 <-> isLeaf (nodeId a len) = true)).
Proof.
  exact (fun n Hn => conj (root_nodeId n Hn) (conj (fun x => Range_ex n x Hn)
    (conj (fun a len a' len' => Range_unique n a len a' len' Hn) (fun a len => nav_leaf n a len Hn)))).
Qed.
Print Assumptions C01_nodes_are_ranges.

(** C01. Left, Right, Parent and Sibling compute the children, the parent and the
    other child in that tree; none of them panics, overflows or runs on. *)
Theorem C01_navigation : forall n a len, 1 <= n <= 2 ^ 63 -> Range n a len -> 1 < len ->
  let node := nodeId a len in
  let l := nodeId a (split len) in
  let r := nodeId (a + split len) (len - split len) in
  left node = Ok l /\ right node n = Ok r /\
  parent l n = Ok node /\ parent r n = Ok node /\
  sibling l n = Ok r /\ sibling r n = Ok l.
Proof. exact nav_children. Qed.
Print Assumptions C01_navigation.

(** C01. Repeatedly taking the parent from any node reaches the root; the copath is
    the list of siblings along that path. *)
Theorem C01_paths : forall n x, 1 <= n <= 2 ^ 63 -> x < 2 * n - 1 ->
  (exists d, directPath x n = Ok d /\ linked n x d (root n) /\ Forall (fun y => y < 2 * n - 1) d) /\
  (exists d c, directPath x n = Ok d /\ copath x n = Ok c /\
     Forall2 (fun y s => sibling y n = Ok s) (removelast (x :: d)) c).
Proof. exact (fun n x Hn Hx => conj (directPath_spec n x Hn Hx) (copath_spec n x Hn Hx)). Qed.
Print Assumptions C01_paths.

(** C01. Sibling is an involution without fixed points on the non-root nodes. *)
Theorem C01_sibling_involution : forall n x, 1 <= n <= 2 ^ 63 -> x < 2 * n - 1 -> x <> root n ->
  exists s, sibling x n = Ok s /\ s < 2 * n - 1 /\ s <> x /\ sibling s n = Ok x /\
    parent s n = parent x n.
Proof. exact sibling_spec. Qed.
Print Assumptions C01_sibling_involution.

Example C01_example :
  Range 11 8 3 /\ nodeId 8 3 = 19 /\
  left 19 = Ok 17 /\ right 19 11 = Ok 20 /\ parent 20 11 = Ok 19 /\ sibling 17 11 = Ok 20 /\
  directPath 20 11 = Ok [19; 15] /\ copath 20 11 = Ok [17; 7] /\
  right (root (2 ^ 63)) (2 ^ 63) = Ok 13835058055282163711.
Proof.
  split; [|vm_compute; repeat split].
  change 8 with (0 + split 11). change 3 with (11 - split 11). apply R_right; [apply R_root|reflexivity].
Qed.

(** C02. *)
Theorem C02_full_subtrees_partition : forall n, 1 <= n <= 2 ^ 63 ->
  exists parts, fullSubtrees (root n) n = Ok (map nodeOf parts) /\
    tiles 0 parts n /\
    Forall (fun z => Range n (fst z) (snd z)) parts /\
    Forall (fun z => pow2 (snd z)) parts /\
    decreasing parts /\
    List.length parts = popcount n.
Proof.
  exact (fun n Hn => match fullSubtrees_root n Hn with
   | ex_intro _ parts (conj E P) =>
     ex_intro _ parts (conj E (conj (Parts_tiles 0 n parts (proj1 Hn) P)
       (conj (Parts_Range n 0 n parts Hn (R_root n) P) (conj (Parts_pow2 0 n parts P)
         (conj (Parts_decreasing 0 n parts (proj1 Hn) P) (Parts_length 0 n parts (proj1 Hn) P)))))) end).
Qed.
Print Assumptions C02_full_subtrees_partition.

(** C02. A node counts as a full subtree exactly if it has a power of two leaves. *)
Theorem C02_is_full_subtree : forall n a len, 1 <= n <= 2 ^ 63 -> Range n a len ->
  (isFullSubtree (nodeId a len) n = true <-> pow2 len).
Proof. exact (fun n a len Hn R => isFullSubtree_spec n _ a len Hn (covers_Range n a len Hn R)). Qed.
Print Assumptions C02_is_full_subtree.

Example C02_example :
  fullSubtrees (root 11) 11 = Ok [7; 17; 20] /\ map nodeOf [(0,8);(8,2);(10,1)] = [7; 17; 20] /\
  popcount 11 = 3%nat.
Proof. vm_compute. repeat split. Qed.

(** C03. For requested entries [leaves], additional size [nP] and previous size [m]:
    the listed nodes [pz] together with the requested leaves and retained subtrees
    that are minimal tile the log exactly once. *)
Theorem C03_batch_copath_cover : forall leaves n nP m,
  1 <= n <= 2 ^ 63 -> Forall (fun i => i < n) leaves -> optSize n nP -> optSize n m ->
  exists pP pm pz zs,
    optParts nP pP /\ optParts m pm /\
    batchCopath leaves n nP m = Ok (map nodeOf pz) /\ StronglySorted N.lt (map nodeOf pz) /\
    (* [zs] tiles the whole log with subtrees *)
    tiles 0 zs n /\ Forall (fun z => Range n (fst z) (snd z)) zs /\
    (* each tile is either supplied by the proof, or known to the verifier *)
    (forall z, In z zs -> In z pz \/
        (In z (map (fun i => (i, 1)) leaves ++ pm) /\ ~ In z pP)) /\
    (* each supplied node is a tile, and is a perfect subtree *)
    (forall z, In z pz -> In z zs /\ pow2 (snd z)) /\
    (* no tile has a requested leaf or a subtree of [nP] or [m] strictly below it *)
    (forall z r, In z zs -> In r (map (fun i => (i, 1)) leaves ++ pP ++ pm) -> within r z -> r = z) /\
    (* nothing the verifier knows is supplied, unless it belongs to the additional head *)
    (forall z, In z pz -> In z (map (fun i => (i, 1)) leaves ++ pm) -> In z pP).
Proof. exact batchCopath_cover. Qed.
Print Assumptions C03_batch_copath_cover.

Example C03_example :
  batchCopath [3; 9] 11 (Some 6) (Some 4) = Ok [1; 4; 9; 13; 16; 20].
Proof. vm_compute. reflexivity. Qed.
