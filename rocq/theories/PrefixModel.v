(** Model of tree/prefix: nodes.go, batch.go, prefix.go, proof.go (in-memory part), verify.go.

    The hash function of the cipher suite is a table [H] (see LogTreeModel.v) and [hs] is
    [cs.HashSize()].  Depths and slice indices are [nat].  A nil byte slice is modelled as
    the empty list, except for results of a lookup, where nil is [None]. *)
From Verif Require Import Base.

(** ** Uvarint (encoding/binary, used by nodes.go:29-33, 150-164 and 249-266) *)

Fixpoint putUvarintF (fuel : nat) (x : N) : bytes :=
  match fuel with
  | O => []
  | S f => if x <? 128 then [n2b x] else n2b (N.lor (N.land x 127) 128) :: putUvarintF f (N.shiftr x 7)
  end.

(** tree/prefix/nodes.go:29-33 [encodeUvarint] (at most 10 bytes) *)
Definition putUvarint (x : N) : bytes := putUvarintF 10 x.

(** [binary.ReadUvarint]; [i] counts the bytes read, [s] = 7i. *)
Fixpoint readUvarintF (fuel : nat) (first : bool) (s acc : N) (buf : bytes) : res (N * bytes) :=
  match fuel with
  | O => Fail "binary: varint overflows a 64-bit integer"
  | S f =>
      match buf with
      | [] => Fail (if first then "EOF" else "unexpected EOF")
      | b :: t =>
          if b2n b <? 128 then
            if (s =? 63) && (1 <? b2n b) then Fail "binary: varint overflows a 64-bit integer"
            else Ok (N.lor acc (shl64 (b2n b) s), t)
          else readUvarintF f false (s + 7) (N.lor acc (shl64 (N.land (b2n b) 127) s)) t
      end
  end.
Definition readUvarint (buf : bytes) : res (N * bytes) := readUvarintF 10 true 0 0 buf.

(** [io.ReadFull] into a fresh buffer of [k] bytes. *)
Definition readFull (k : nat) (buf : bytes) : res (bytes * bytes) :=
  if Nat.leb k (List.length buf) then Ok (firstn k buf, skipn k buf) else Fail "unexpected EOF".

Definition readByte (buf : bytes) : res (byte * bytes) :=
  match buf with [] => Fail "EOF" | b :: t => Ok (b, t) end.

(** ** Nodes (tree/prefix/nodes.go) *)

(** nodes.go:222-225; (ver, ctr) *)
Definition tileId : Type := N * N.

(** nodes.go:47-53, 91, 106-108, 145-148.  [h] is the cached hash and [id] the originating tile
    of a parent node (nil = [None]). *)
Inductive node :=
| Empty
| Leaf (v c : bytes)
| Parent (l r : node) (h : option bytes) (id : option tileId)
| External (h : bytes) (id : tileId).

(** batch.go:10-12 [getBit]; an index beyond the slice panics. *)
Definition getBit (d : bytes) (i : nat) : res bool :=
  match nth_error d (i / 8) with
  | None => Panic "index out of range"
  | Some b => Ok (N.testbit (b2n b) (N.of_nat (7 - i mod 8)))
  end.

(** nodes.go:18-20 *)
Definition storeIntermediate (depth : nat) : bool := Nat.eqb (depth mod 4) 3.

Section Hash.
Variable H : bytes -> option bytes.
Variable hs : nat.

Definition hash (x : bytes) : res bytes := of_opt "hash input outside the table" (H x).

(** The [Hash] methods, nodes.go:66-79, 97-99, 130-136, 174.  (Filling the cache is separate:
    [cacheHashes].) *)
Fixpoint nodeHash (n : node) : res bytes :=
  match n with
  | Empty => Ok (repeat x00 hs)
  | Leaf v c => hash (x02 :: v ++ c)
  | Parent _ _ (Some h) _ => Ok h
  | Parent l r None _ => let* a := nodeHash l in let* b := nodeHash r in hash (x03 :: a ++ b)
  | External h _ => Ok h
  end.

(** The tree after [root.Hash(cs)] has been called: every parent node reached has its hash
    cached (nodes.go:66-79). *)
Fixpoint cacheHashes (n : node) : res node :=
  match n with
  | Parent l r None id =>
      let* l' := cacheHashes l in
      let* r' := cacheHashes r in
      let* h := nodeHash (Parent l' r' None id) in
      Ok (Parent l' r' (Some h) id)
  | _ => Ok n
  end.

(** The [Marshal] methods, nodes.go:81-88, 101-103, 138-142, 176-181 *)
Fixpoint nodeMarshal (depth : nat) (n : node) : res bytes :=
  match n with
  | Empty => Ok [x00]
  | Leaf v c => Ok (x01 :: v ++ c)
  | Parent l r h id =>
      let* hh := if storeIntermediate depth then nodeHash (Parent l r h id) else Ok [] in
      let* a := nodeMarshal (S depth) l in
      let* b := nodeMarshal (S depth) r in
      Ok (x02 :: hh ++ a ++ b)
  | External h id => Ok (x03 :: h ++ putUvarint (fst id) ++ putUvarint (snd id))
  end.

(** nodes.go:183-220 [unmarshalNode]; every call consumes a byte, so the length of the buffer
    bounds the recursion. *)
Fixpoint unmarshalNode (fuel : nat) (id : tileId) (depth : nat) (buf : bytes) : res (node * bytes) :=
  match fuel with
  | O => Fuel
  | S f =>
      let* (b, buf1) := readByte buf in
      if b2n b =? 2 then
        let* (h, buf2) :=
          if storeIntermediate depth
          then (let* (x, y) := readFull hs buf1 in Ok (Some x, y))
          else Ok (None, buf1) in
        let* (l, buf3) := unmarshalNode f id (S depth) buf2 in
        let* (r, buf4) := unmarshalNode f id (S depth) buf3 in
        Ok (Parent l r h (Some id), buf4)
      else if b2n b =? 0 then Ok (Empty, buf1)
      else if b2n b =? 1 then
        let* (v, buf2) := readFull hs buf1 in
        let* (c, buf3) := readFull hs buf2 in
        Ok (Leaf v c, buf3)
      else if b2n b =? 3 then
        let* (h, buf2) := readFull hs buf1 in
        let* (ver, buf3) := readUvarint buf2 in
        let* (ctr, buf4) := readUvarint buf3 in
        Ok (External h (ver, ctr), buf4)
      else Fail "read unexpected byte"
  end.

(** nodes.go:237-247, without the id *)
Definition tileMarshal (depth : nat) (root : node) : res bytes :=
  if Nat.ltb 255 depth then Fail "depth is too large to marshal" else
  let* b := nodeMarshal depth root in
  Ok (n2b (N.of_nat depth) :: b).

(** nodes.go:249-266; returns depth and root *)
Definition tileUnmarshal (id : tileId) (raw : bytes) : res (nat * node) :=
  let* (d, buf) := readByte raw in
  let depth := N.to_nat (b2n d) in
  let* (root, rest) := unmarshalNode (S (List.length buf)) id depth buf in
  match rest with
  | [] => Ok (depth, root)
  | _ => Fail "unexpected data left over after decoding tile"
  end.

(** *** Splitting into tiles *)

(** The [Weight] methods, nodes.go:59-64, 95, 126-128, 170-172 ([binary.MaxVarintLen64] = 10). *)
Definition weight (n : node) : nat :=
  match n with
  | Empty => 1
  | Leaf _ _ => 1 + 2 * hs
  | Parent _ _ _ _ | External _ _ => 1 + hs + 2 * 10
  end.

Definition maxTileWeight : N := 1000.

(** A pointer into a tree is modelled by the path to it from the root of the tree:
    [getAt]/[setAt] read and write through it. *)
Fixpoint getAt (n : node) (p : list bool) : option node :=
  match p, n with
  | [], _ => Some n
  | b :: q, Parent l r _ _ => getAt (if b then r else l) q
  | _ :: _, _ => None
  end.

Fixpoint setAt (n : node) (p : list bool) (m : node) : node :=
  match p, n with
  | [], _ => m
  | true :: q, Parent l r h id => Parent l (setAt r q m) h id
  | false :: q, Parent l r h id => Parent (setAt l q m) r h id
  | _ :: _, _ => n
  end.

Fixpoint nodeCount (n : node) : nat :=
  match n with Parent l r _ _ => S (nodeCount l + nodeCount r) | _ => 1 end.

(** nodes.go:281-322 [makeTile]: the loop.  [queue] holds paths; the depth of an element is
    [depth + length path].  Returns the tile root and the ejected (node, depth) pairs. *)
Fixpoint makeTileLoop (fuel : nat) (ver ctrOffset : N) (depth : nat)
    (queue : list (list bool)) (w : nat) (root : node) (ejected : list (node * nat))
  : res (node * list (node * nat)) :=
  match queue with
  | [] => Ok (root, ejected)
  | p :: queue' =>
      match fuel with
      | O => Fuel
      | S f =>
          match getAt root p with
          | Some (Parent l r h id) =>
              let d := (depth + List.length p)%nat in
              let w' := (w - weight (Parent l r h id) + 1 + weight l + weight r
                         + (if storeIntermediate d then hs else 0))%nat in
              if N.of_nat w' <=? maxTileWeight then
                makeTileLoop f ver ctrOffset depth (queue' ++ [p ++ [false]; p ++ [true]]) w' root ejected
              else
                let* hp := nodeHash (Parent l r h id) in
                let ejected' := ejected ++ [(Parent l r h id, d)] in
                makeTileLoop f ver ctrOffset depth queue' w
                  (setAt root p (External hp (ver, w64 (ctrOffset + lenN ejected')))) ejected'
          | Some _ => makeTileLoop f ver ctrOffset depth queue' w root ejected
          | None => Panic "dangling pointer"
          end
      end
  end.

Definition makeTile (ver ctrOffset : N) (root : node) (depth : nat) : res (node * list (node * nat)) :=
  makeTileLoop (S (nodeCount root)) ver ctrOffset depth [[]] (weight root) root [].

(** nodes.go:326-345 [splitIntoTiles]; a tile is (id, depth, root). *)
Fixpoint splitLoop (fuel : nat) (ver : N) (queue : list (node * nat)) (out : list (tileId * nat * node))
  : res (list (tileId * nat * node)) :=
  match queue with
  | [] => Ok out
  | (nd, d) :: queue' =>
      match fuel with
      | O => Fuel
      | S f =>
          let* (nd', ejected) := makeTile ver (lenN out + lenN queue') nd d in
          splitLoop f ver (queue' ++ ejected) (out ++ [((ver, lenN out), d, nd')])
      end
  end.

Definition splitIntoTiles (ver : N) (root : node) : res (list (tileId * nat * node)) :=
  splitLoop (S (nodeCount root)) ver [(root, 0%nat)] [].

(** ** Loading from the database (tree/prefix/batch.go) *)

(** The [PrefixStore], keyed by tile id instead of [tileId.String()] (injective, nodes.go:227-229);
    the newest binding comes first. *)
Definition store := list (tileId * bytes).

Definition idEqb (a b : tileId) : bool := (fst a =? fst b) && (snd a =? snd b).

Fixpoint sget (s : store) (id : tileId) : option bytes :=
  match s with
  | [] => None
  | (k, v) :: t => if idEqb id k then Some v else sget t id
  end.

(** batch.go:85-123, for one tile *)
Definition fetch (s : store) (id : tileId) : res (nat * node) :=
  let* raw := of_opt "not all expected data was found" (sget s id) in
  tileUnmarshal id raw.

(** batch.go:157-170: [k] steps down from depth [d] *)
Fixpoint walk (k : nat) (key : bytes) (d : nat) (n : node) : res node :=
  match k with
  | O => Ok n
  | S k' =>
      match n with
      | Parent l r _ _ =>
          let* b := getBit key d in
          walk k' key (S d) (if b then r else l)
      | _ => Fail "unexpected node found in search path"
      end
  end.

(** batch.go:27-48 [step] and 129-179 [search], for a single cursor.  The Go code advances
    all cursors in rounds, to batch database reads; the tree built is the same.  As
    in Go, a node just loaded which is itself external is not resolved further
    ([*step.ptr = *n] copies it, the search goes on in the copy it came from). *)
Fixpoint loadPath (fuel : nat) (s : store) (key : bytes) (n : node) (depth : nat) : res node :=
  match fuel with
  | O => Fuel
  | S f =>
      match n with
      | Empty | Leaf _ _ => Ok n
      | Parent l r h id =>
          let* b := getBit key depth in
          if b then let* r' := loadPath f s key r (S depth) in Ok (Parent l r' h id)
          else let* l' := loadPath f s key l (S depth) in Ok (Parent l' r h id)
      | External _ id =>
          let* (td, root) := fetch s id in
          let* m := walk (depth - td) key td root in
          match m with
          | External _ _ => Ok m
          | _ => loadPath f s key m depth
          end
      end
  end.

Definition loadFuel : nat := 16 * hs + 4.

(** batch.go:64-81 [initialize] and 129-179 [search], one version *)
Definition loadTree (s : store) (ver : N) (keys : list bytes) : res node :=
  foldM (fun n key => loadPath loadFuel s key n 0) keys (External [] (ver, 0)).

(** ** Proofs (tree/prefix/proof.go, prefix.go) *)

(** proof.go:75-118 *)
Inductive presult :=
| Inc (d : nat)
| NonLeaf (v c : bytes) (d : nat)
| NonPar (d : nat).

Definition rdepth (r : presult) : nat := match r with Inc d | NonLeaf _ _ d | NonPar d => d end.
Definition rincl (r : presult) : bool := match r with Inc _ => true | _ => false end.

(** proof.go:19-22 *)
Record pproof := { p_results : list presult; p_elements : list bytes }.

(** [slices.BinarySearchFunc] with the comparison of prefix.go:244-249, 341-346, 354-359 (0 if the
    bit is set, -1 otherwise): loop of the standard library, [i, j] the current range. *)
Fixpoint binSearch (fuel : nat) {A} (key : A -> bytes) (l : list A) (depth i j : nat) : res nat :=
  match fuel with
  | O => Fuel
  | S f =>
      if Nat.ltb i j then
        let h := ((i + j) / 2)%nat in
        match nth_error l h with
        | None => Panic "index out of range"
        | Some a =>
            let* b := getBit (key a) depth in
            if b then binSearch f key l depth i h else binSearch f key l depth (S h) j
        end
      else Ok i
  end.

(** prefix.go:337-361 [splitEntries], [splitVrfOutputs] and 244-249 *)
Definition splitAt {A} (key : A -> bytes) (l : list A) (depth : nat) : res (list A * list A) :=
  let* k := binSearch (S (List.length l)) key l depth 0 (List.length l) in
  Ok (firstn k l, skipn k l).

(** Sorting by key, for [slices.SortFunc] with [bytes.Compare].  (The order among equal keys is
    unspecified in Go; nothing observable depends on it, see prefix.go:200-216.) *)
Fixpoint kinsert {A} (key : A -> bytes) (x : A) (l : list A) : list A :=
  match l with
  | [] => [x]
  | y :: t => match bytes_cmp (key x) (key y) with Gt => y :: kinsert key x t | _ => x :: l end
  end.
Definition ksort {A} (key : A -> bytes) (l : list A) : list A := fold_right (kinsert key) [] l.

(** prefix.go:221-256 [build].  The proof builder writes results by index and appends elements;
    here the writes (index, result, commitment) are returned in order. *)
Definition write : Type := nat * presult * option bytes.

Fixpoint build (n : node) (vs : list (nat * bytes)) (depth : nat) : res (list write * list bytes) :=
  match vs with
  | [] => let* h := nodeHash n in Ok ([], [h])
  | _ =>
      match n with
      | Empty => Ok (map (fun o => (fst o, NonPar depth, None)) vs, [])
      | Leaf v c =>
          Ok (map (fun o => if bytes_eqb (snd o) v then (fst o, Inc depth, Some c)
                            else (fst o, NonLeaf v c depth, None)) vs, [])
      | Parent l r _ _ =>
          let* (a, b) := splitAt snd vs depth in
          let* (wl, el) := build l a (S depth) in
          let* (wr, er) := build r b (S depth) in
          Ok (wl ++ wr, el ++ er)
      | External _ _ => Panic "unexpected node type found"
      end
  end.

Fixpoint number {A} (i : nat) (l : list A) : list (nat * A) :=
  match l with [] => [] | a :: t => (i, a) :: number (S i) t end.

(** The result written at index [i] (nil interface if none; then marshalling would panic). *)
Fixpoint written (ws : list write) (i : nat) : option (presult * option bytes) :=
  match ws with
  | [] => None
  | (j, r, c) :: t => if Nat.eqb i j then Some (r, c) else written t i
  end.

(** prefix.go:199-219 [runProofBuilder] *)
Definition runProofBuilder (root : node) (keys : list bytes) : res (pproof * list (option bytes)) :=
  let* (ws, es) := build root (ksort snd (number 0 keys)) 0 in
  let* out := mapM (fun i => match written ws i with Some x => Ok x | None => Panic "nil result" end)
                   (seq 0 (List.length keys)) in
  Ok ({| p_results := map fst out; p_elements := es |}, map snd out).

(** ** Updating (tree/prefix/prefix.go) *)

(** prefix.go:74-76; in [Mutate] commitments are never nil. *)
Definition entry : Type := bytes * bytes.

Definition isLeafN (n : node) : bool := match n with Leaf _ _ => true | _ => false end.
Definition isEmptyN (n : node) : bool := match n with Empty => true | _ => false end.

(** prefix.go:316-330 *)
Definition simplify (l r : node) : node :=
  if isLeafN l && isEmptyN r then l
  else if isEmptyN l && isLeafN r then r
  else if isEmptyN l && isEmptyN r then Empty
  else Parent l r None None.

(** prefix.go:258-335 [addRemoveEntries].  The recursion on an unchanged depth after replacing a
    node by a parent node (prefix.go:277, 304) is expanded here, so the depth grows by one
    in every recursive call.  [*p.id] with a nil id panics. *)
Fixpoint addRemove (fuel : nat) (n : node) (add : list entry) (rem : list bytes) (depth : nat) : res node :=
  match fuel with
  | O => Fuel
  | S f =>
      let parent l r add rem :=
        let* (la, ra) := splitAt fst add depth in
        let* (lr, rr) := splitAt (fun x => x) rem depth in
        let* l' := addRemove f l la lr (S depth) in
        let* r' := addRemove f r ra rr (S depth) in
        Ok (simplify l' r') in
      let empty add :=
        match add with
        | [] => Ok Empty
        | [e] => Ok (Leaf (fst e) (snd e))
        | _ => parent Empty Empty add []
        end in
      match add, rem with
      | [], [] =>
          match n with
          | Parent l r h id =>
              let* hp := nodeHash n in
              match id with
              | None => Panic "nil pointer dereference"
              | Some i => Ok (External hp i)
              end
          | _ => Ok n
          end
      | _, _ =>
          match n with
          | Empty => empty add
          | Leaf v c =>
              if existsb (bytes_eqb v) rem then empty add
              else match add with
                   | [] => Ok n
                   | _ =>
                       let* b := getBit v depth in
                       if b then parent Empty (Leaf v c) add [] else parent (Leaf v c) Empty add []
                   end
          | Parent l r _ _ => parent l r add rem
          | External _ _ => Panic "unexpected node type found"
          end
      end
  end.

Definition depthFuel : nat := 8 * hs + 1.

(** Duplicate check on a sorted list (prefix.go:95-97, 107-109; verify.go:109-111) *)
Fixpoint dupAdjacent (l : list bytes) : bool :=
  match l with
  | a :: ((b :: _) as t) => bytes_eqb a b || dupAdjacent t
  | _ => false
  end.

Definition badLen (v : bytes) : bool := negb (Nat.eqb (List.length v) hs).

(** prefix.go:135-185 [getMutationRoot] *)
Definition getMutationRoot (s : store) (ver : N) (add : list entry) (rem : list bytes)
  : res (node * pproof * list bytes) :=
  let keys := map fst add ++ rem in
  if ver =? 0 then
    match rem with
    | _ :: _ => Fail "can not remove vrf output that does not exist"
    | [] =>
        let* (proof, _) := runProofBuilder Empty keys in
        Ok (Empty, proof, [])
    end
  else
    let* root := loadTree s ver keys in
    let* (proof, coms) := runProofBuilder root keys in
    if existsb (fun kc => match snd kc with
                          | Some _ => negb (existsb (bytes_eqb (fst kc)) rem)
                          | None => false
                          end)
         (combine (map fst add) (firstn (List.length add) coms))
    then Fail "can not insert same vrf output twice" else
    let* out := mapM (fun c => of_opt "can not remove vrf output that does not exist" c)
                     (skipn (List.length add) coms) in
    Ok (root, proof, out).

(** prefix.go:85-133 [Mutate]: root hash, proof, removed commitments, new store.  The length
    and duplicate checks of the sorted lists are done one after the other; the message
    reported may differ from Go when several apply. *)
Definition mutate (s : store) (ver : N) (add : list entry) (rem : list bytes)
  : res (bytes * pproof * list bytes * store) :=
  let sadd := ksort fst add in
  let srem := ksort (fun x => x) rem in
  if existsb (fun e => badLen (fst e)) sadd then Fail "unexpected vrf output length" else
  if existsb (fun e => badLen (snd e)) sadd then Fail "unexpected commitment length" else
  if dupAdjacent (map fst sadd) then Fail "unable to insert same vrf output multiple times" else
  if existsb badLen srem then Fail "unexpected vrf output length" else
  if dupAdjacent srem then Fail "unable to remove the same vrf output multiple times" else
  let* (root, proof, coms) := getMutationRoot s ver add rem in
  let* root' := addRemove depthFuel root sadd srem 0 in
  let* rootHash := nodeHash root' in
  let* tiles := splitIntoTiles (w64 (ver + 1)) root' in
  let* s' := foldM (fun s '(id, d, r) => let* raw := tileMarshal d r in Ok ((id, raw) :: s)) tiles s in
  Ok (rootHash, proof, coms, s').

(** prefix.go:41-71 [Search], one search (searches of the same version share the tiles loaded,
    which has no effect on the result). *)
Definition search (s : store) (ver : N) (keys : list bytes) : res (pproof * list (option bytes)) :=
  if ver =? 0 then Fail "unable to search in version 0 of the tree" else
  if existsb badLen keys then Fail "unexpected vrf output length" else
  let* root := loadTree s ver keys in
  runProofBuilder root keys.

(** ** Verification (tree/prefix/verify.go) *)

(** verify.go:12-23 [terminalNode] *)
Definition terminalNode (e : entry) (r : presult) : node :=
  match r with
  | Inc _ => Leaf (fst e) (snd e)
  | NonLeaf v c _ => Leaf v c
  | NonPar _ => Empty
  end.

Definition noId : tileId := (0, 0).

(** verify.go:27-67 [addToSkeleton]; the depth grows in every iteration but the one
    replacing an external node by a parent node, which is expanded. *)
Fixpoint addToSkeleton (fuel : nat) (n : node) (e : entry) (r : presult) (depth : nat) : res node :=
  match fuel with
  | O => Fuel
  | S f =>
      let parent l rt h id :=
        let* b := getBit (fst e) depth in
        if b then let* rt' := addToSkeleton f rt e r (S depth) in Ok (Parent l rt' h id)
        else let* l' := addToSkeleton f l e r (S depth) in Ok (Parent l' rt h id) in
      match n with
      | Empty =>
          if negb (Nat.eqb (rdepth r) depth) || rincl r then Fail "malformed proof" else Ok n
      | Leaf v _ =>
          if negb (Nat.eqb (rdepth r) depth) || negb (Bool.eqb (rincl r) (bytes_eqb (fst e) v))
          then Fail "malformed proof" else Ok n
      | Parent l rt h id => parent l rt h id
      | External _ _ =>
          if Nat.ltb (rdepth r) depth then Fail "current depth is greater than result depth"
          else if Nat.eqb depth (rdepth r) then Ok (terminalNode e r)
          else parent (External [] noId) (External [] noId) None None
      end
  end.

(** verify.go:71-98 [fillInCopath] *)
Fixpoint fillInCopath (n : node) (es : list bytes) : res (node * list bytes) :=
  match n with
  | Empty | Leaf _ _ => Ok (n, es)
  | Parent l r h id =>
      let* (l', es1) := fillInCopath l es in
      let* (r', es2) := fillInCopath r es1 in
      Ok (Parent l' r' h id, es2)
  | External _ _ =>
      match es with
      | [] => Fail "wrong number of copath nodes provided"
      | h :: t => Ok (External h noId, t)
      end
  end.

(** verify.go:100-131 [evaluate] *)
Definition evaluate (entries : list entry) (p : pproof) : res node :=
  let sorted := ksort fst entries in
  if existsb (fun e => badLen (fst e)) sorted then Fail "unexpected vrf output length" else
  if existsb (fun e => match snd e with [] => false | c => badLen c end) sorted
  then Fail "unexpected commitment length" else
  if dupAdjacent (map fst sorted) then Fail "same vrf output present multiple times" else
  if negb (Nat.eqb (List.length entries) (List.length (p_results p)))
  then Fail "number of entries searched for does not match number of results" else
  let* root := foldM (fun n er => addToSkeleton depthFuel n (fst er) (snd er) 0)
                 (combine entries (p_results p)) (External [] noId) in
  let* (root', rest) := fillInCopath root (p_elements p) in
  match rest with
  | [] => Ok root'
  | _ => Fail "wrong number of copath nodes provided"
  end.

(** verify.go:134-140 [Evaluate] *)
Definition Evaluate (entries : list entry) (p : pproof) : res bytes :=
  let* root := evaluate entries p in nodeHash root.

(** verify.go:143-151 [Verify] *)
Definition Verify (entries : list entry) (p : pproof) (root : bytes) : res unit :=
  let* cand := Evaluate entries p in
  if bytes_eqb root cand then Ok tt else Fail "root hash does not match expected value".

(** verify.go:155-184 [EvaluateBeforeAfter] *)
Definition EvaluateBeforeAfter (add rem : list entry) (p : pproof) : res (bytes * bytes) :=
  let* root := evaluate (add ++ rem) p in
  let* before := nodeHash root in
  let* root1 := cacheHashes root in
  let* root2 := addRemove depthFuel root1 (ksort fst add) (ksort (fun x => x) (map fst rem)) 0 in
  let* after := nodeHash root2 in
  Ok (before, after).

End Hash.
