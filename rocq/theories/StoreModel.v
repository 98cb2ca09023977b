(** Model of db/leveldb.go: the LevelDB-backed store, and of the storage of label indices (tree/transparency/crypto.go).

    The underlying LevelDB database is a map from byte strings to byte strings whose single operations ([Get], [Put]
    and the application of a [Batch]) are atomic and do not fail; "not found" is the only error of [Get].  A byte slice
    that may be nil is an [option]. *)
From Verif Require Import Base PrefixModel.
Local Open Scope string_scope.
Open Scope N_scope.

(** ** fmt *)

(** The digits of fmt's %x and %d. *)
Definition digit (n : N) : byte := if n <? 10 then n2b (48 + n) else n2b (87 + n).

(** [fmt.Sprintf("%x", []byte)] *)
Definition hexBytes (l : bytes) : bytes := flat_map (fun b => [digit (b2n b / 16); digit (b2n b mod 16)]) l.

(** [fmt.Sprintf("%x", uint)] (base 16) and [fmt.Sprint(uint)] (base 10): no leading zeros.  The fuel is the number of
    bits, which is always enough. *)
Fixpoint digitsF (fuel : nat) (base n : N) : bytes :=
  match fuel with
  | O => [digit n]
  | S f => if n <? base then [digit n] else (digitsF f base (n / base) ++ [digit (n mod base)])%list
  end.
Definition digits (base n : N) : bytes := digitsF (N.size_nat n) base n.

Definition str (s : string) : bytes := list_byte_of_string s.

(** ** Keys *)

(** What is stored. *)
Inductive object :=
| OTreeHead
| OAuditorHead
| OIndex (label : bytes)
| OVersion (label : bytes) (ver : N)
| OEntry (pos : N)
| OChunk (id : N)
| OTile (id : tileId).

Definition leveldbTreeHeadKey : bytes := str "tree-head".

(** leveldb.go:10, 106, 119, 127, 143, 148, 153, 166, 171, 179, 195, 200, 225, 241, 246, 259, 275, 280; tile ids are
    printed by tree/prefix/nodes.go:227-229. *)
Definition dbKey (o : object) : bytes :=
  match o with
  | OTreeHead => leveldbTreeHeadKey
  | OAuditorHead => str "auditor-tree-head"
  | OIndex label => (str "i" ++ hexBytes label)%list
  | OVersion label ver => (str "v" ++ hexBytes label ++ str ":" ++ digits 16 ver)%list
  | OEntry pos => (str "t" ++ digits 10 pos)%list
  | OChunk id => (str "l" ++ digits 10 id)%list
  | OTile id => (str "p" ++ digits 16 (fst id) ++ str ":" ++ digits 16 (snd id))%list
  end.

(** ** The connection *)

(** Maps from byte strings: a list of bindings, the newest first. *)
Fixpoint bget {A} (m : list (bytes * A)) (k : bytes) : option A :=
  match m with
  | [] => None
  | (k', v) :: t => if bytes_eqb k k' then Some v else bget t k
  end.
Definition bput {A} (m : list (bytes * A)) (k : bytes) (v : A) : list (bytes * A) := (k, v) :: m.
Definition bdel {A} (m : list (bytes * A)) (k : bytes) : list (bytes * A) := filter (fun e => negb (bytes_eqb k (fst e))) m.

Definition disk := list (bytes * bytes).

(** leveldb.go:23-27 *)
Record ldbConn := { c_conn : disk; c_readonly : bool; c_batch : list (bytes * option bytes) }.

(** leveldb.go:29-31 *)
Definition newLDBConn (d : disk) (readonly : bool) : ldbConn := {| c_conn := d; c_readonly := readonly; c_batch := [] |}.

(** leveldb.go:33-41; [None] is [ErrNotFound] *)
Definition connGet (c : ldbConn) (key : bytes) : option bytes :=
  match bget (c_batch c) key with
  | Some value => value
  | None => bget (c_conn c) key
  end.

(** leveldb.go:43-48 *)
Definition connPut (c : ldbConn) (key : bytes) (value : option bytes) : res ldbConn :=
  if c_readonly c then Panic "connection is readonly" else
  Ok {| c_conn := c_conn c; c_readonly := c_readonly c; c_batch := bput (c_batch c) key value |}.

(** The bindings of the Go map [c.batch]: one per key.  Go visits them in some order, which does not matter since the
    keys differ. *)
Fixpoint batchEntries (seen : list bytes) (b : list (bytes * option bytes)) : list (bytes * option bytes) :=
  match b with
  | [] => []
  | (k, v) :: t => if existsb (bytes_eqb k) seen then batchEntries seen t else (k, v) :: batchEntries (k :: seen) t
  end.

(** leveldb.go:55-64: the LevelDB batch, applied to the database in one step *)
Definition writeBatch (d : disk) (b : list (bytes * option bytes)) : disk :=
  fold_left (fun d e => if bytes_eqb (fst e) leveldbTreeHeadKey then d else
                        match snd e with
                        | None => bdel d (fst e)
                        | Some v => bput d (fst e) v
                        end) (batchEntries [] b) d.

(** leveldb.go:50-76.  The contents of the database on disk before, between and after the two writes; writing a nil
    value stores the empty string. *)
Definition commitSteps (c : ldbConn) : list disk :=
  let d1 := writeBatch (c_conn c) (c_batch c) in
  match bget (c_batch c) leveldbTreeHeadKey with
  | Some v => [c_conn c; d1; bput d1 leveldbTreeHeadKey (match v with Some x => x | None => [] end)]
  | None => [c_conn c; d1]
  end.
Definition connCommit (c : ldbConn) : res ldbConn :=
  if c_readonly c then Panic "connection is readonly" else
  Ok {| c_conn := List.last (commitSteps c) (c_conn c); c_readonly := c_readonly c; c_batch := [] |}.

(** ** The store interfaces (leveldb.go:80-282) *)

(** Writes of the interfaces; the value may be nil. *)
Inductive writeOp :=
| WTreeHead (raw : option bytes)
| WAuditorHead (raw : option bytes)
| WIndex (label : bytes) (index : option bytes)
| WVersion (label : bytes) (ver : N) (data : option bytes)
| WEntry (key : N) (data : option bytes)
| WChunk (key : N) (value : option bytes)
| WTile (key : tileId) (value : option bytes).

(** "can not store nil value" *)
Definition notNil (v : option bytes) : res bytes := of_opt "leveldb: can not store nil value" v.

(** leveldb.go:113-121, 139-145, 162-168, 191-197, 237-243, 271-277 ([PrefixStore.Put] is called with the
    printed tile id, tree/prefix/prefix.go:127) *)
Definition storePut (c : ldbConn) (w : writeOp) : res ldbConn :=
  match w with
  | WTreeHead raw => connPut c (dbKey OTreeHead) raw
  | WAuditorHead raw => connPut c (dbKey OAuditorHead) raw
  | WIndex label index => let* v := notNil index in connPut c (dbKey (OIndex label)) (Some v)
  | WVersion label ver data => let* v := notNil data in connPut c (dbKey (OVersion label ver)) (Some v)
  | WEntry key data => let* v := notNil data in connPut c (dbKey (OEntry key)) (Some v)
  | WChunk key value => let* v := notNil value in connPut c (dbKey (OChunk key)) (Some v)
  | WTile key value => let* v := notNil value in connPut c (dbKey (OTile key)) (Some v)
  end.

Inductive deleteOp :=
| DIndex (label : bytes)
| DVersion (label : bytes) (ver : N)
| DEntry (key : N)
| DChunk (key : N)
| DTile (key : tileId).

(** leveldb.go:147-150, 170-173, 199-202, 245-248, 279-282 *)
Definition storeDelete (c : ldbConn) (d : deleteOp) : res ldbConn :=
  match d with
  | DIndex label => connPut c (dbKey (OIndex label)) None
  | DVersion label ver => connPut c (dbKey (OVersion label ver)) None
  | DEntry key => connPut c (dbKey (OEntry key)) None
  | DChunk key => connPut c (dbKey (OChunk key)) None
  | DTile key => connPut c (dbKey (OTile key)) None
  end.

Inductive readOp :=
| RTreeHead
| RIndices (labels : list bytes)
| RVersion (label : bytes) (ver : N)
| REntries (keys : list N)
| RChunks (keys : list N)
| RTiles (keys : list tileId).

(** What a read returns: the two tree heads; a list of optional values; one optional value; or the bindings of the map
    returned, in the order of the keys asked for. *)
Inductive answer :=
| AHeads (head auditor : option bytes)
| AList (l : list (option bytes))
| AOne (v : option bytes)
| ANums (m : list (N * bytes))
| ATiles (m : list (tileId * bytes)).

(** Looking up some keys: those not found are left out (leveldb.go:175-189, 221-235, 255-269). *)
Definition found {K} (get : K -> option bytes) (keys : list K) : list (K * bytes) :=
  flat_map (fun k => match get k with Some v => [(k, v)] | None => [] end) keys.

(** leveldb.go:99-111, 123-137, 152-160, 175-189, 221-235, 255-269 *)
Definition storeRead (c : ldbConn) (r : readOp) : answer :=
  let get o := connGet c (dbKey o) in
  match r with
  | RTreeHead => match get OTreeHead with
                 | None => AHeads None None
                 | Some h => AHeads (Some h) (get OAuditorHead)
                 end
  | RIndices labels => AList (map (fun l => get (OIndex l)) labels)
  | RVersion label ver => AOne (get (OVersion label ver))
  | REntries keys => ANums (found (fun k => get (OEntry k)) keys)
  | RChunks keys => ANums (found (fun k => get (OChunk k)) keys)
  | RTiles keys => ATiles (found (fun k => get (OTile k)) keys)
  end.

(** A sequence of calls.  [SReopen]: the process ends (or crashes) between two calls and the database is opened again;
    [SClone]: the reads of [rs] are made on a read-only clone (leveldb.go:95-97). *)
Inductive storeOp :=
| SRead (r : readOp)
| SWrite (w : writeOp)
| SDelete (d : deleteOp)
| SCommit
| SReopen
| SClone (rs : list readOp).

(** The answers to the reads, in order, and the final state. *)
Fixpoint runStore (c : ldbConn) (ops : list storeOp) : res (list answer * ldbConn) :=
  match ops with
  | [] => Ok ([], c)
  | op :: rest =>
      let* (a, c') := match op with
                      | SRead r => Ok ([storeRead c r], c)
                      | SWrite w => let* c' := storePut c w in Ok ([], c')
                      | SDelete d => let* c' := storeDelete c d in Ok ([], c')
                      | SCommit => let* c' := connCommit c in Ok ([], c')
                      | SReopen => Ok ([], newLDBConn (c_conn c) false)
                      | SClone rs => Ok (map (storeRead (newLDBConn (c_conn c) true)) rs, c)
                      end in
      let* (as', c'') := runStore c' rest in
      Ok ((a ++ as')%list, c'')
  end.

(** ** Label indices (tree/transparency/crypto.go:12-69) *)

(** crypto.go:31-39: ReadUvarint until EOF.  At least one byte is consumed in every round. *)
Fixpoint readUvarints (fuel : nat) (buf : bytes) : res (list N) :=
  match buf with
  | [] => Ok []
  | _ =>
      match fuel with
      | O => Fuel
      | S f => let* (x, r) := readUvarint buf in
               let* xs := readUvarints f r in Ok (x :: xs)
      end
  end.

(** crypto.go:40-42: [index[i] += index[i-1]] *)
Fixpoint undelta (prev : N) (l : list N) : list N :=
  match l with
  | [] => []
  | x :: t => add64 x prev :: undelta (add64 x prev) t
  end.

(** crypto.go:27-45, for one label; a nil slice reads as empty *)
Definition decodeIndex (raw : option bytes) : res (list N) :=
  let buf := match raw with Some b => b | None => [] end in
  let* l := readUvarints (List.length buf) buf in
  Ok (match l with [] => [] | x :: t => x :: undelta x t end).

(** crypto.go:54-59: from the end, so the differences are those of the given list *)
Fixpoint delta (prev : N) (l : list N) : res (list N) :=
  match l with
  | [] => Ok []
  | x :: t => let* d := delta x t in
              if x <? prev then Fail "list of label-version positions is not monotonic" else Ok (sub64 x prev :: d)
  end.

(** crypto.go:52-68: the value passed to [PutIndex]; the buffer of an empty list is nil. *)
Definition encodeIndex (index : list N) : res (option bytes) :=
  match index with
  | [] => Ok None
  | x :: t => let* d := delta x t in Ok (Some (flat_map putUvarint (x :: d)))
  end.

(** crypto.go:51-69 and 18-48, over a store *)
Definition putIndex (c : ldbConn) (label : bytes) (index : list N) : res ldbConn :=
  let* v := encodeIndex index in storePut c (WIndex label v).
Definition batchGetIndex (c : ldbConn) (labels : list bytes) : res (list (list N)) :=
  match storeRead c (RIndices labels) with
  | AList raws => if negb (lenN raws =? lenN labels) then Fail "unexpected number of indices returned" else mapM decodeIndex raws
  | _ => Panic "unreachable"
  end.
