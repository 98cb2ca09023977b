(** Model of tree/log/chunk.go and of the database-backed part of tree/log/log.go ([Tree]). *)
From Verif Require Import Base LogMathModel LogTreeModel.

(** chunk.go:19-22 and 39-41: (leaf, value), the value being empty if the node is. *)
Definition nodeData : Type := bool * bytes.
Definition isEmpty (nd : nodeData) : bool := match snd nd with [] => true | _ => false end.

(** chunk.go:44-49, without the cipher suite; the 15 ids and the 15 nodes. *)
Record nodeChunk := { ch_ids : list N; ch_nodes : list nodeData }.

(** chunk.go:52-70 *)
Definition chunkIds (id : N) : res (list N) :=
  let i7 := id in
  let* i3 := left i7 in
  let* i1 := left i3 in
  let* i0 := left i1 in
  let* i2 := rightStep i1 in
  let* i5 := rightStep i3 in
  let* i4 := left i5 in
  let* i6 := rightStep i5 in
  let* i11 := rightStep i7 in
  let* i9 := left i11 in
  let* i8 := left i9 in
  let* i10 := rightStep i9 in
  let* i13 := rightStep i11 in
  let* i12 := left i13 in
  let* i14 := rightStep i13 in
  Ok [i0; i1; i2; i3; i4; i5; i6; i7; i8; i9; i10; i11; i12; i13; i14].

Section Hash.
Variable H : bytes -> option bytes.
Variable hs : N.

(** chunk.go:77-89, the loop ([nodes] is what was appended so far). *)
Fixpoint parseNodes (fuel : nat) (leafChunk : bool) (nodes : list nodeData) (data : bytes) : res (list nodeData) :=
  match data with
  | [] => Ok nodes
  | _ =>
      match fuel with
      | O => Fuel
      | S f =>
          if lenN data <? hs then Fail "unable to parse chunk" else
          let nodes1 := match nodes with [] => [] | _ => nodes ++ [(false, [])] end in
          parseNodes f leafChunk (nodes1 ++ [(leafChunk, firstn (N.to_nat hs) data)]) (skipn (N.to_nat hs) data)
      end
  end.

(** chunk.go:51-101 *)
Definition newChunk (id : N) (data : bytes) : res nodeChunk :=
  let* ids := chunkIds id in
  let* nodes := parseNodes (S (List.length data)) (level id =? 3) [] data in
  if (15 <? List.length nodes)%nat then Fail "unable to parse chunk" else
  Ok {| ch_ids := ids; ch_nodes := nodes ++ map (fun x => (isLeaf x, [])) (skipn (List.length nodes) ids) |}.

(** chunk.go:103-110 *)
Fixpoint findIndexFrom (i : nat) (ids : list N) (x : N) : res nat :=
  match ids with
  | [] => Panic "requested hash not available in this chunk"
  | y :: t => if y =? x then Ok i else findIndexFrom (S i) t x
  end.
Definition findIndex (c : nodeChunk) (x : N) : res nat := findIndexFrom 0 (ch_ids c) x.

Definition nodeAtIdx (c : nodeChunk) (i : nat) : res nodeData :=
  match nth_error (ch_nodes c) i with Some nd => Ok nd | None => Panic "index out of range" end.
Definition setIdx (c : nodeChunk) (i : nat) (nd : nodeData) : res nodeChunk :=
  let* l := setNth (ch_nodes c) i nd in Ok {| ch_ids := ch_ids c; ch_nodes := l |}.

(** chunk.go:113-123.  The chunk is threaded; a chunk has 4 levels. *)
Fixpoint chunkGet (fuel : nat) (c : nodeChunk) (x : N) : res (nodeData * nodeChunk) :=
  match fuel with
  | O => Fuel
  | S f =>
      let* i := findIndex c x in
      let* nd := nodeAtIdx c i in
      if isLeaf x || negb (isEmpty nd) then Ok (nd, c) else
      let* l := left x in
      let* r := rightStep x in
      let* (a, c1) := chunkGet f c l in
      let* (b, c2) := chunkGet f c1 r in
      let* h := treeHash H a b in
      let* c3 := setIdx c2 i h in
      Ok (h, c3)
  end.

(** chunk.go:129-132 *)
Fixpoint clearUp (fuel : nat) (c : nodeChunk) (i : nat) : res nodeChunk :=
  if (i =? 7)%nat then Ok c else
  match fuel with
  | O => Fuel
  | S f =>
      let i' := N.to_nat (parentStep (N.of_nat i)) in
      let* nd := nodeAtIdx c i' in
      let* c' := setIdx c i' (fst nd, []) in
      clearUp f c' i'
  end.

(** chunk.go:126-133 *)
Definition chunkSetNode (c : nodeChunk) (x : N) (nd : nodeData) : res nodeChunk :=
  let* i := findIndex c x in
  let* c1 := setIdx c i nd in
  clearUp 5 c1 i.

(** chunk.go:139-153, the loop; the list starts at an even index. *)
Fixpoint marshalNodes (nodes : list nodeData) : res bytes :=
  match nodes with
  | [] => Ok []
  | nd :: t =>
      if isEmpty nd then (if forallb isEmpty t then Ok [] else Panic "chunk has gaps")
      else match t with
           | [] => Ok (snd nd)
           | _ :: t' => let* rest := marshalNodes t' in Ok (snd nd ++ rest)
           end
  end.
Definition chunkMarshal (c : nodeChunk) : res bytes := marshalNodes (ch_nodes c).

(** chunk.go:159-164 *)
Record chunkSet := { cs_chunks : list (N * nodeChunk); cs_modified : list N }.

(** chunk.go:166-182 *)
Definition newChunkSet (data : list (N * bytes)) : res chunkSet :=
  let* cs := foldM (fun cs p => let* c := newChunk (fst p) (snd p) in Ok (mput cs (fst p) c)) data [] in
  Ok {| cs_chunks := cs; cs_modified := [] |}.

(** chunk.go:185-191 *)
Definition setGet (s : chunkSet) (x : N) : res (nodeData * chunkSet) :=
  let* id := chunk x in
  match mget (cs_chunks s) id with
  | None => Panic "requested hash is not available in this chunk set"
  | Some c =>
      let* (nd, c') := chunkGet 5 c x in
      Ok (nd, {| cs_chunks := mput (cs_chunks s) id c'; cs_modified := cs_modified s |})
  end.

(** chunk.go:194-204 *)
Definition setAdd (s : chunkSet) (x : N) : res chunkSet :=
  let* id := chunk x in
  if mhas (cs_chunks s) id then Panic "cannot add chunk that already exists in set" else
  match newChunk id [] with
  | Ok c => Ok {| cs_chunks := mput (cs_chunks s) id c; cs_modified := cs_modified s |}
  | Fail m => Panic m
  | Panic m => Panic m
  | Fuel => Fuel
  end.

(** chunk.go:207-215 *)
Definition setSet (s : chunkSet) (x : N) (nd : nodeData) : res chunkSet :=
  let* id := chunk x in
  match mget (cs_chunks s) id with
  | None => Panic "requested hash is not available in this chunk set"
  | Some c =>
      let* c' := chunkSetNode c x nd in
      Ok {| cs_chunks := mput (cs_chunks s) id c'; cs_modified := id :: cs_modified s |}
  end.

(** chunk.go:217-223 *)
Definition setMarshal (s : chunkSet) : res (list (N * bytes)) :=
  mapM (fun id => match mget (cs_chunks s) id with
                  | None => Panic "nil pointer dereference"
                  | Some c => let* b := chunkMarshal c in Ok (id, b)
                  end) (nodup N.eq_dec (cs_modified s)).

(** ** log.go.  The [LogStore] is a map from chunk id to bytes; reading and writing it does not fail. *)
Definition logStore := list (N * bytes).

(** log.go:35-56 *)
Definition treeFetch (st : logStore) (nodes : list N) : res chunkSet :=
  let* cs := mapM chunk nodes in
  let ids := nodup N.eq_dec cs in
  let* data := mapM (fun id => match mget st id with
                               | None => Fail "not all expected data was found in the database"
                               | Some raw => Ok (id, raw)
                               end) ids in
  newChunkSet data.

(** log.go:65-67 *)
Fixpoint getAll (s : chunkSet) (nodes : list N) : res (list bytes * chunkSet) :=
  match nodes with
  | [] => Ok ([], s)
  | x :: t =>
      let* (nd, s1) := setGet s x in
      let* (vs, s2) := getAll s1 t in
      Ok (snd nd :: vs, s2)
  end.

(** log.go:59-69 *)
Definition fetchSpecific (st : logStore) (nodes : list N) : res (list bytes) :=
  let* s := treeFetch st nodes in
  let* (vs, _) := getAll s nodes in
  Ok vs.

Fixpoint hasDup (l : list N) : bool :=
  match l with
  | a :: ((b :: _) as t) => (a =? b) || hasDup t
  | _ => false
  end.

Definition badPrevious (n : N) (m : option N) : bool :=
  match m with Some k => (k =? 0) || (n <? k) || (maxTreeSize <? k) | None => false end.

(** log.go:72-89.  The two checks in the loop over the sorted entries are made one after the other. *)
Definition getBatch (st : logStore) (entries : list N) (n : N) (nP m : option N) : res (list bytes) :=
  if (n =? 0) || (maxTreeSize <? n) then Fail "invalid value for current tree size" else
  if badAdditional n nP then Fail "invalid value for additional tree size" else
  if badPrevious n m then Fail "invalid value for previous tree size" else
  let sorted := nsort entries in
  if existsb (fun x => n <=? x) sorted then Fail "can not get leaf beyond right edge of tree" else
  if hasDup sorted then Fail "duplicate leaf index found" else
  let* cp := batchCopath sorted n nP m in
  fetchSpecific st cp.

(** log.go:143-147 *)
Fixpoint setPath (s : chunkSet) (path : list N) : res chunkSet :=
  match path with
  | [] => Ok s
  | x :: t =>
      let* l := left x in
      let* r := rightStep x in
      let* (a, s1) := setGet s l in
      let* (b, s2) := setGet s1 r in
      let* h := treeHash H a b in
      let* s3 := setSet s2 x h in
      setPath s3 t
  end.

(** log.go:94-163; returns the full subtrees and the store.  The sets [alreadyExists] and [toCreate] are lists. *)
Definition treeAppend (st : logStore) (n : N) (value : bytes) : res (list bytes * logStore) :=
  if maxTreeSize <=? n then Fail "invalid value for current tree size" else
  if wrongSize hs value then Fail "value has wrong length" else
  let leaf := mul64 2 n in
  let* dp := directPath leaf (add64 n 1) in
  let path := leaf :: filter (fun x => isFullSubtree x (add64 n 1) && (level x mod 4 =? 0)) dp in
  let* alreadyExists := (if 0 <? n then (let* cp := copath leaf (add64 n 1) in mapM chunk cp) else Ok []) in
  let* pathChunks := mapM chunk path in
  let toFetch := filter (fun c => existsb (N.eqb c) alreadyExists) pathChunks ++ alreadyExists in
  let toCreate := nodup N.eq_dec (filter (fun c => negb (existsb (N.eqb c) alreadyExists)) pathChunks) in
  let* s0 := treeFetch st toFetch in
  let* s1 := foldM setAdd toCreate s0 in
  let* s2 := setSet s1 leaf (true, value) in
  let* s3 := setPath s2 (tl path) in
  let* writes := setMarshal s3 in
  let st' := fold_left (fun st w => mput st (fst w) (snd w)) writes st in
  let* fulls := fullSubtrees (root (add64 n 1)) (add64 n 1) in
  let* (out, _) := getAll s3 fulls in
  Ok (out, st').

End Hash.
