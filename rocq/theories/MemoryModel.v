(** Model of db/memory/memory.go: the in-memory stores.  Copying a value ([dup], memory.go:11-18) is invisible here, where
    values cannot be changed in place; a byte slice that may be nil is an [option]. *)
From Verif Require Import Base PrefixModel StoreModel.
Local Open Scope string_scope.
Open Scope N_scope.

(** Go's [delete] on maps with numeric keys *)
Definition mdel {A} (m : list (N * A)) (k : N) : list (N * A) := filter (fun e => negb (k =? fst e)) m.

(** memory.go:20-30, 140-142, 173-176: the maps, which are shared by a store and all its clones *)
Record memShared := {
  ms_indices : list (bytes * bytes);
  ms_versions : list (bytes * bytes);
  ms_entries : list (N * bytes);
  ms_chunks : list (N * bytes);
  ms_tiles : list (bytes * bytes);
  ms_lookups : list (list bytes) }.

(** memory.go:20-22: what each store has for itself, the tree head and the auditor's tree head *)
Record memHandle := { mh_head : option bytes; mh_auditor : option bytes }.

(** A store and its clones, oldest first. *)
Record memWorld := { mw_shared : memShared; mw_handles : list memHandle }.

(** memory.go:32-43, 144-146, 178-180 *)
Definition newMemory : memWorld :=
  {| mw_shared := {| ms_indices := []; ms_versions := []; ms_entries := []; ms_chunks := []; ms_tiles := []; ms_lookups := [] |};
     mw_handles := [{| mh_head := None; mh_auditor := None |}] |}.

(** memory.go:76, 86, 91: [fmt.Sprintf("%x", label)] *)
Definition indexKey (label : bytes) : bytes := hexBytes label.
(** memory.go:96, 103, 108: [fmt.Sprintf("%x:%v", label, ver)] *)
Definition versionKey (label : bytes) (ver : N) : bytes := (hexBytes label ++ str ":" ++ digits 10 ver)%list.
(** The key given by the prefix tree: tree/prefix/nodes.go:227-229 *)
Definition tileKey (id : tileId) : bytes := (digits 16 (fst id) ++ str ":" ++ digits 16 (snd id))%list.

(** memory.go:60-62, 73-79, 95-97, 112-120, 148-158, 182-193 (where the keys asked for are also noted) *)
Definition memRead (sh : memShared) (h : memHandle) (r : readOp) : answer * memShared :=
  match r with
  | RTreeHead => (AHeads (mh_head h) (mh_auditor h), sh)
  | RIndices labels => (AList (map (fun l => bget (ms_indices sh) (indexKey l)) labels), sh)
  | RVersion label ver => (AOne (bget (ms_versions sh) (versionKey label ver)), sh)
  | REntries keys => (ANums (found (mget (ms_entries sh)) keys), sh)
  | RChunks keys => (ANums (found (mget (ms_chunks sh)) keys), sh)
  | RTiles keys => (ATiles (found (fun k => bget (ms_tiles sh) (tileKey k)) keys),
                    {| ms_indices := ms_indices sh; ms_versions := ms_versions sh; ms_entries := ms_entries sh; ms_chunks := ms_chunks sh;
                       ms_tiles := ms_tiles sh; ms_lookups := (ms_lookups sh ++ [map tileKey keys])%list |})
  end.

(** memory.go:64-72, 81-87, 99-105, 122-128, 160-166, 195-201 *)
Definition memPut (sh : memShared) (h : memHandle) (w : writeOp) : res (memShared * memHandle) :=
  match w with
  | WTreeHead raw => Ok (sh, {| mh_head := raw; mh_auditor := mh_auditor h |})
  | WAuditorHead raw => Ok (sh, {| mh_head := mh_head h; mh_auditor := raw |})
  | WIndex label index =>
      let* v := of_opt "unable to store nil index" index in
      Ok ({| ms_indices := bput (ms_indices sh) (indexKey label) v; ms_versions := ms_versions sh; ms_entries := ms_entries sh;
             ms_chunks := ms_chunks sh; ms_tiles := ms_tiles sh; ms_lookups := ms_lookups sh |}, h)
  | WVersion label ver data =>
      let* v := of_opt "unable to store nil version" data in
      Ok ({| ms_indices := ms_indices sh; ms_versions := bput (ms_versions sh) (versionKey label ver) v; ms_entries := ms_entries sh;
             ms_chunks := ms_chunks sh; ms_tiles := ms_tiles sh; ms_lookups := ms_lookups sh |}, h)
  | WEntry key data =>
      let* v := of_opt "unable to store nil log entry" data in
      Ok ({| ms_indices := ms_indices sh; ms_versions := ms_versions sh; ms_entries := mput (ms_entries sh) key v;
             ms_chunks := ms_chunks sh; ms_tiles := ms_tiles sh; ms_lookups := ms_lookups sh |}, h)
  | WChunk key value =>
      let* v := of_opt "unable to store nil value" value in
      Ok ({| ms_indices := ms_indices sh; ms_versions := ms_versions sh; ms_entries := ms_entries sh;
             ms_chunks := mput (ms_chunks sh) key v; ms_tiles := ms_tiles sh; ms_lookups := ms_lookups sh |}, h)
  | WTile key value =>
      let* v := of_opt "unable to store nil value" value in
      Ok ({| ms_indices := ms_indices sh; ms_versions := ms_versions sh; ms_entries := ms_entries sh;
             ms_chunks := ms_chunks sh; ms_tiles := bput (ms_tiles sh) (tileKey key) v; ms_lookups := ms_lookups sh |}, h)
  end.

(** memory.go:90-93, 107-110, 130-133, 167-170, 202-205 *)
Definition memDelete (sh : memShared) (d : deleteOp) : memShared :=
  match d with
  | DIndex label =>
      {| ms_indices := bdel (ms_indices sh) (indexKey label); ms_versions := ms_versions sh; ms_entries := ms_entries sh;
         ms_chunks := ms_chunks sh; ms_tiles := ms_tiles sh; ms_lookups := ms_lookups sh |}
  | DVersion label ver =>
      {| ms_indices := ms_indices sh; ms_versions := bdel (ms_versions sh) (versionKey label ver); ms_entries := ms_entries sh;
         ms_chunks := ms_chunks sh; ms_tiles := ms_tiles sh; ms_lookups := ms_lookups sh |}
  | DEntry key =>
      {| ms_indices := ms_indices sh; ms_versions := ms_versions sh; ms_entries := mdel (ms_entries sh) key;
         ms_chunks := ms_chunks sh; ms_tiles := ms_tiles sh; ms_lookups := ms_lookups sh |}
  | DChunk key =>
      {| ms_indices := ms_indices sh; ms_versions := ms_versions sh; ms_entries := ms_entries sh;
         ms_chunks := mdel (ms_chunks sh) key; ms_tiles := ms_tiles sh; ms_lookups := ms_lookups sh |}
  | DTile key =>
      {| ms_indices := ms_indices sh; ms_versions := ms_versions sh; ms_entries := ms_entries sh;
         ms_chunks := ms_chunks sh; ms_tiles := bdel (ms_tiles sh) (tileKey key); ms_lookups := ms_lookups sh |}
  end.

(** Calls on the [h]-th store; [MClone] (memory.go:45-58) adds one to the end of the list. *)
Inductive memOp :=
| MRead (h : nat) (r : readOp)
| MWrite (h : nat) (w : writeOp)
| MDelete (h : nat) (d : deleteOp)
| MCommit (h : nat)
| MClone (h : nat).

Definition setHandle (l : list memHandle) (i : nat) (h : memHandle) : list memHandle :=
  (firstn i l ++ h :: skipn (S i) l)%list.

(** One call: what is read, if anything, and the stores after it.  [ReadOnly] (memory.go:29, 56) is never looked at, and
    [Commit] (memory.go:137) does nothing. *)
Definition memStep (w : memWorld) (op : memOp) : res (list answer * memWorld) :=
  let handle i := of_opt "no such store" (nth_error (mw_handles w) i) in
  match op with
  | MRead i r =>
      let* h := handle i in
      let (a, sh) := memRead (mw_shared w) h r in
      Ok ([a], {| mw_shared := sh; mw_handles := mw_handles w |})
  | MWrite i x =>
      let* h := handle i in
      let* (sh, h') := memPut (mw_shared w) h x in
      Ok ([], {| mw_shared := sh; mw_handles := setHandle (mw_handles w) i h' |})
  | MDelete i d =>
      let* _ := handle i in
      Ok ([], {| mw_shared := memDelete (mw_shared w) d; mw_handles := mw_handles w |})
  | MCommit i => let* _ := handle i in Ok ([], w)
  | MClone i =>
      let* h := handle i in
      Ok ([], {| mw_shared := mw_shared w; mw_handles := (mw_handles w ++ [{| mh_head := mh_head h; mh_auditor := mh_auditor h |}])%list |})
  end.

Fixpoint runMem (w : memWorld) (ops : list memOp) : res (list answer * memWorld) :=
  match ops with
  | [] => Ok ([], w)
  | op :: rest =>
      let* (a, w') := memStep w op in
      let* (b, w'') := runMem w' rest in
      Ok ((a ++ b)%list, w'')
  end.
