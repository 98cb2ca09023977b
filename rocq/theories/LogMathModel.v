(** Model of tree/log/math/math.go.

    Node ids are uint64 and are modelled by [N]; every operation that could
    overflow 64 bits is written with explicit wrap-around ([shl64], [sub64], ...).
    Loops carry fuel; 66 iterations are more than any 64-bit index needs, and the
    theorems show that [Fuel] is never the result in the stated ranges.

    The functions [isLeaf], [log2], [level], [left], [rightStep], [parentStep] are
    textually the same in tree/transparency/math/math.go, so both packages share
    these definitions. *)
From Verif Require Import Base.

(** tree/log/math/math.go:11-13, tree/transparency/math/math.go:5-7 *)
Definition isLeaf (x : N) : bool := N.land x 1 =? 0.

(** The loop [for (x >> k) > 0 { k += 1 }], tree/log/math/math.go:20-23. *)
Fixpoint log2_loop (fuel : nat) (x k : N) : N :=
  match fuel with
  | O => k
  | S f => if 0 <? N.shiftr x k then log2_loop f x (k + 1) else k
  end.

(** tree/log/math/math.go:16-25, tree/transparency/math/math.go:10-19 *)
Definition log2 (x : N) : N :=
  if x =? 0 then 0 else sub64 (log2_loop 66 x 0) 1.

(** The loop [for ((x >> k) & 1) == 1 { k += 1 }], tree/log/math/math.go:33-36. *)
Fixpoint level_loop (fuel : nat) (x k : N) : N :=
  match fuel with
  | O => k
  | S f => if N.land (N.shiftr x k) 1 =? 1 then level_loop f x (k + 1) else k
  end.

(** tree/log/math/math.go:29-38 [Level], tree/transparency/math/math.go:22-31 [level] *)
Definition level (x : N) : N :=
  if isLeaf x then 0 else level_loop 66 x 0.

(** tree/log/math/math.go:41-46 *)
Definition nodeWidth (n : N) : N :=
  if n =? 0 then 0 else add64 (mul64 2 (sub64 n 1)) 1.

(** [Root] of a tree of [w] nodes: [(1 << log2(w)) - 1].
    tree/transparency/math/math.go:34-36 uses it with [w = n];
    tree/log/math/math.go:49-52 with [w = nodeWidth n]. *)
Definition rootW (w : N) : N := sub64 (shl64 1 (log2 w)) 1.

(** tree/log/math/math.go:49-52 *)
Definition root (n : N) : N := rootW (nodeWidth n).

(** tree/log/math/math.go:55-61, tree/transparency/math/math.go:39-45 *)
Definition left (x : N) : res N :=
  let k := level x in
  if k =? 0 then Panic "leaf node has no children"
  else Ok (N.lxor x (shl64 1 (k - 1))).

(** tree/log/math/math.go:63-69, tree/transparency/math/math.go:47-53 *)
Definition rightStep (x : N) : res N :=
  let k := level x in
  if k =? 0 then Panic "leaf node has no children"
  else Ok (N.lxor x (shl64 3 (k - 1))).

(** The loop [for r >= w { r = Left(r) }]. *)
Fixpoint right_loop (fuel : nat) (w r : N) : res N :=
  match fuel with
  | O => Fuel
  | S f => if w <=? r then let* r' := left r in right_loop f w r' else Ok r
  end.

(** [Right] in a tree of [w] nodes: tree/transparency/math/math.go:56-62 with
    [w = n]; tree/log/math/math.go:72-79 with [w = nodeWidth n]. *)
Definition rightW (x w : N) : res N :=
  let* r := rightStep x in right_loop 66 w r.

(** tree/log/math/math.go:72-79 *)
Definition right (x n : N) : res N := rightW x (nodeWidth n).

(** tree/log/math/math.go:81-85, tree/transparency/math/math.go:64-68 *)
Definition parentStep (x : N) : N :=
  let k := level x in
  let b := N.land (N.shiftr x (k + 1)) 1 in
  N.lxor (N.lor x (shl64 1 k)) (shl64 b (k + 1)).

(** The loop [for p >= width { p = ParentStep(p) }]. *)
Fixpoint parent_loop (fuel : nat) (w p : N) : res N :=
  match fuel with
  | O => Fuel
  | S f => if w <=? p then parent_loop f w (parentStep p) else Ok p
  end.

(** [Parent] in a tree of [w] nodes (tree/transparency/math/math.go:71-80 with
    [w = n], tree/log/math/math.go:89-99 with [w = nodeWidth n]). *)
Definition parentW (x w : N) : res N :=
  if x =? rootW w then Panic "root node has no parent"
  else parent_loop 66 w (parentStep x).

(** tree/log/math/math.go:89-99 *)
Definition parent (x n : N) : res N := parentW x (nodeWidth n).

(** tree/log/math/math.go:102-109 *)
Definition sibling (x n : N) : res N :=
  let* p := parent x n in
  if x <? p then right p n else left p.

(** The loop of [DirectPath]. *)
Fixpoint directPath_loop (fuel : nat) (r x n : N) : res (list N) :=
  match fuel with
  | O => Fuel
  | S f =>
      if x =? r then Ok []
      else let* p := parent x n in
           let* d := directPath_loop f r p n in
           Ok (p :: d)
  end.

(** tree/log/math/math.go:112-120 *)
Definition directPath (x n : N) : res (list N) := directPath_loop 66 (root n) x n.

(** tree/log/math/math.go:123-136 *)
Definition copath (x n : N) : res (list N) :=
  if x =? root n then Ok []
  else
    let* d := directPath x n in
    mapM (fun y => sibling y n) (removelast (x :: d)).

(** tree/log/math/math.go:139-144 *)
Definition isFullSubtree (x n : N) : bool :=
  let rightmost := mul64 2 (sub64 n 1) in
  let expected := sub64 (add64 x (shl64 1 (level x))) 1 in
  expected <=? rightmost.

Fixpoint fullSubtrees_loop (fuel : nat) (x n : N) : res (list N) :=
  match fuel with
  | O => Fuel
  | S f =>
      if isFullSubtree x n then Ok [x]
      else
        let* l := left x in
        let* r := right x n in
        let* rest := fullSubtrees_loop f r n in
        Ok (l :: rest)
  end.

(** tree/log/math/math.go:147-159 *)
Definition fullSubtrees (x n : N) : res (list N) := fullSubtrees_loop 66 x n.

(** The two slices around [slices.BinarySearch(nodes, x)] on a sorted slice
    (math.go:201-205): the elements before [x] and those after it.  A sorted
    slice has these elements as prefix and suffix; the model filters. *)
Definition below (x : N) (nodes : list N) : list N := filter (fun y => y <? x) nodes.
Definition above (x : N) (nodes : list N) : list N := filter (fun y => x <? y) nodes.

(** tree/log/math/math.go:192-208.  [include] is the set of nodes of the
    additional tree head, as a list. *)
Fixpoint batchCopath_rec (fuel : nat) (x n : N) (nodes include : list N) : res (list N) :=
  match fuel with
  | O => Fuel
  | S f =>
      match nodes with
      | [] => fullSubtrees x n
      | _ =>
          if (match nodes with [y] => y =? x | _ => false end) then
            if existsb (N.eqb x) include then Ok [x] else Ok []
          else
            let* l := left x in
            let* a := batchCopath_rec f l n (below x nodes) include in
            let* r := right x n in
            let* b := batchCopath_rec f r n (above x nodes) include in
            Ok (a ++ b)
      end
  end.

(** Full subtrees of an optional tree size (math.go:172-182). *)
Definition optSubtrees (m : option N) : res (list N) :=
  match m with
  | None => Ok []
  | Some m => fullSubtrees (root m) m
  end.

(** Sorted list of the distinct elements (a Go set turned into a sorted slice,
    math.go:183-187). *)
Definition dedupSort (l : list N) : list N := nodup N.eq_dec (nsort l).

(** tree/log/math/math.go:165-190 *)
Definition batchCopath (leaves : list N) (n : N) (nP m : option N) : res (list N) :=
  let* inc := optSubtrees nP in
  let* ret := optSubtrees m in
  let nodes := dedupSort (map (mul64 2) leaves ++ inc ++ ret) in
  batchCopath_rec 66 (root n) n nodes inc.

Fixpoint chunk_loop (fuel : nat) (c : N) : res N :=
  match fuel with
  | O => Fuel
  | S f => if level c mod 4 =? 3 then Ok c else chunk_loop f (parentStep c)
  end.

(** tree/log/math/math.go:216-222 *)
Definition chunk (x : N) : res N := chunk_loop 66 x.
