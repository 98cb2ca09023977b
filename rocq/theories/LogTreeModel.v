(** Model of tree/log/log.go (the stateless functions) and tree/log/verify.go.

    The hash function of the cipher suite is a parameter [H] and [hs] is its output size
    ([cs.HashSize()]).  [H] is a partial function, a table of hash evaluations: a run
    that succeeds asked only for inputs in the table.  With a total [H] this is
    the usual function; with the table of all inputs hashed in an execution, "no two
    entries of the table collide" is exactly "no collision occurred in this execution".
 A [nodeData] is a pair (leaf?, value); where the Go code
    stores [nodeData{leaf: math.IsLeaf(x), ...}] under key [x] the model stores the
    value only. *)
From Verif Require Import Base LogMathModel.

Section Hash.
Variable H : bytes -> option bytes.
Variable hs : N.

(** tree/log/chunk.go:24-36 [nodeData.marshal] *)
Definition nodeMarshal (leaf : bool) (v : bytes) : res bytes :=
  match v with
  | [] => Panic "can not marshal empty node"
  | _ => Ok ((if leaf then x00 else x01) :: v)
  end.

(** tree/log/log.go:15-20; two [Write] calls concatenate. *)
Definition treeHash (l r : bool * bytes) : res (bool * bytes) :=
  let* a := nodeMarshal (fst l) (snd l) in
  let* b := nodeMarshal (fst r) (snd r) in
  let* h := of_opt "hash input outside the table" (H (a ++ b)) in
  Ok (false, h).

Definition maxTreeSize : N := 9223372036854775808.

Definition wrongSize (v : bytes) : bool := negb (lenN v =? hs).

(** Loop of log.go:187-193, over the reversed list of the remaining subtrees. *)
Fixpoint rollup (l : list (N * bytes)) (acc : bool * bytes) : res (bool * bytes) :=
  match l with
  | [] => Ok acc
  | (x, v) :: t => let* acc' := treeHash (isLeaf x, v) acc in rollup t acc'
  end.

(** tree/log/log.go:167-195 *)
Definition logRoot (n : N) (fs : list bytes) : res bytes :=
  if (n =? 0) || (maxTreeSize <? n) then Fail "invalid value for current tree size" else
  let* subtrees := fullSubtrees (root n) n in
  if negb (lenN fs =? lenN subtrees) then Fail "unexpected number of full subtree values provided" else
  if existsb wrongSize fs then Fail "full subtree value is unexpected size" else
  match rev (combine subtrees fs) with
  | [] => Panic "index out of range"
  | (x, v) :: t => let* acc := rollup t (isLeaf x, v) in Ok (snd acc)
  end.

(** [chain[i] = v] on a slice of optional values; out of range panics. *)
Fixpoint setNth {A} (l : list A) (i : nat) (v : A) : res (list A) :=
  match l, i with
  | [], _ => Panic "index out of range"
  | _ :: t, O => Ok (v :: t)
  | a :: t, S j => let* t' := setNth t j v in Ok (a :: t')
  end.

(** log.go:206-208: [fullSubtrees[i]] panics when the slice is too short. *)
Fixpoint fillChain (subtrees : list N) (fs : list bytes) (chain : list (option bytes)) : res (list (option bytes)) :=
  match subtrees with
  | [] => Ok chain
  | x :: t =>
      match fs with
      | [] => Panic "index out of range"
      | v :: fs' =>
          let* chain' := setNth chain (N.to_nat (level x)) (Some v) in
          fillChain t fs' chain'
      end
  end.

(** log.go:210-218; [first] is [i == 0]. *)
Fixpoint carryLoop (chain : list (option bytes)) (first : bool) (carry : bool * bytes) : res (list (option bytes)) :=
  match chain with
  | [] => Ok []
  | None :: t => Ok (Some (snd carry) :: t)
  | Some v :: t =>
      let* carry' := treeHash (first, v) carry in
      let* t' := carryLoop t false carry' in
      Ok (None :: t')
  end.

Fixpoint somes {A} (l : list (option A)) : list A :=
  match l with
  | [] => []
  | Some a :: t => a :: somes t
  | None :: t => somes t
  end.

(** tree/log/log.go:199-227 [Append] (package function) *)
Definition logAppend (n : N) (fs : list bytes) (added : bytes) : res (list bytes) :=
  if n =? 0 then Ok [added] else
  let* subtrees := fullSubtrees (root n) n in
  let* chain := fillChain subtrees fs (repeat None (N.to_nat (level (root n)) + 2)) in
  let* chain' := carryLoop chain true (true, added) in
  Ok (rev (somes chain')).

(** tree/log/verify.go:14-20 *)
Record verifier := mkVerifier {
  v_prev : option N;
  v_subtrees : list N;
  v_values : list bytes
}.

(** verify.go:22-24 *)
Definition newVerifier : verifier := mkVerifier None [] [].

(** verify.go:33-51 *)
Definition retain (prev : N) (fs : list bytes) : res verifier :=
  if (prev =? 0) || (maxTreeSize <? prev) then Fail "invalid value for previous tree size" else
  let* subtrees := fullSubtrees (root prev) prev in
  if negb (lenN fs =? lenN subtrees) then Fail "unexpected number of full subtree values provided" else
  if existsb wrongSize fs then Fail "hash has wrong size" else
  Ok (mkVerifier (Some prev) subtrees fs).

(** verify.go:120-129 *)
Definition addToMap (m : list (N * bytes)) (x : N) (v : bytes) : res (list (N * bytes)) :=
  if wrongSize v then Fail "value is unexpected size" else
  match mget m x with
  | Some e => if bytes_eqb v e then Ok m else Fail "different values presented for same node index"
  | None => Ok (mput m x v)
  end.

(** The three loops of verify.go:76-90; both slices have the same length where this
    is used. *)
Definition addAll (m : list (N * bytes)) (l : list (N * bytes)) : res (list (N * bytes)) :=
  foldM (fun m p => addToMap m (fst p) (snd p)) l m.

(** [nodes[x]] followed by a field access: nil dereference when absent. *)
Definition nodeAt (m : list (N * bytes)) (x : N) : res bytes :=
  match mget m x with
  | Some v => Ok v
  | None => Panic "nil pointer dereference"
  end.

(** verify.go:131-156.  The map is threaded through instead of mutated; the slices
    around the binary search are [below] and [above] (LogMathModel.v). *)
Fixpoint evaluate (fuel : nat) (x n : N) (nodes : list (N * bytes)) (sorted : list N) : res (list (N * bytes)) :=
  match fuel with
  | O => Fuel
  | S f =>
      if (match sorted with [y] => y =? x | _ => false end) then Ok nodes
      else
        let* l := left x in
        let* r := right x n in
        let* nodes1 := evaluate f l n nodes (below x sorted) in
        let* nodes2 := evaluate f r n nodes1 (above x sorted) in
        if isFullSubtree x n then
          let* vl := nodeAt nodes2 l in
          let* vr := nodeAt nodes2 r in
          let* h := treeHash (isLeaf l, vl) (isLeaf r, vr) in
          addToMap nodes2 x (snd h)
        else Ok nodes2
  end.

Definition badAdditional (n : N) (nP : option N) : bool :=
  match nP with
  | Some k => (k =? 0) || (n <? k) || (maxTreeSize <? k)
  | None => false
  end.

(** verify.go:54-118 *)
Definition evaluateProof (v : verifier) (entries : list N) (n : N) (nP : option N)
    (values proof : list bytes) : res (list bytes * list bytes) :=
  if (n =? 0) || (maxTreeSize <? n) then Fail "invalid value for current tree size" else
  if badAdditional n nP then Fail "invalid value for additional tree size" else
  if negb (lenN entries =? lenN values) then Fail "number of leaves indices must equal number of leaf values" else
  if existsb (fun x => n <=? x) entries then Fail "leaf is beyond right edge of tree" else
  let* cp := batchCopath entries n nP (v_prev v) in
  if negb (lenN proof =? lenN cp) then Fail "malformed proof" else
  let* m1 := addAll [] (combine (map (mul64 2) entries) values) in
  let* m2 := addAll m1 (combine (v_subtrees v) (v_values v)) in
  let* m3 := addAll m2 (combine cp proof) in
  let sorted := dedupSort (map fst m3) in
  let* m4 := evaluate 66 (root n) n m3 sorted in
  let* fulls := fullSubtrees (root n) n in
  let* fs := mapM (nodeAt m4) fulls in
  let* adds := optSubtrees nP in
  let* ad := mapM (nodeAt m4) adds in
  Ok (fs, ad).

(** How the verifier is driven (tree/transparency/algorithms/data_provider.go:209-223):
    a fresh verifier, [Retain] if a previous tree size is known, then [Evaluate]. *)
Definition verifyBatch (retained : option (N * list bytes)) (entries : list N) (n : N) (nP : option N)
    (values proof : list bytes) : res (list bytes * list bytes) :=
  let* v := match retained with
            | None => Ok newVerifier
            | Some (m, fs) => retain m fs
            end in
  evaluateProof v entries n nP values proof.

End Hash.
