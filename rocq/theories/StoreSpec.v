(** What a user expects of the store: two maps from objects to values, the pending one and the durable one. *)
From Coq Require Import Sorted.
From Verif Require Import Base BaseProofs PrefixModel StoreModel.
Open Scope N_scope.

Lemma object_eq_dec (a b : object) : {a = b} + {a <> b}.
Proof. decide equality; first [apply bytes_eq_dec | apply N.eq_dec | decide equality; apply N.eq_dec]. Defined.

Definition contentsOf : Type := object -> option bytes.
Definition setObj (m : contentsOf) (o : object) (v : option bytes) : contentsOf :=
  fun o' => if object_eq_dec o o' then v else m o'.

(** The pending and the durable contents. *)
Record specStore := { s_pending : contentsOf; s_durable : contentsOf }.

Definition writtenObj (w : writeOp) : object * option bytes :=
  match w with
  | WTreeHead v => (OTreeHead, v)
  | WAuditorHead v => (OAuditorHead, v)
  | WIndex l v => (OIndex l, v)
  | WVersion l k v => (OVersion l k, v)
  | WEntry k v => (OEntry k, v)
  | WChunk k v => (OChunk k, v)
  | WTile k v => (OTile k, v)
  end.
Definition deletedObj (d : deleteOp) : object :=
  match d with
  | DIndex l => OIndex l
  | DVersion l k => OVersion l k
  | DEntry k => OEntry k
  | DChunk k => OChunk k
  | DTile k => OTile k
  end.

(** Reading: the objects asked for, those that are not there are left out. *)
Definition look {K} (m : contentsOf) (o : K -> object) (keys : list K) : list (K * bytes) :=
  flat_map (fun k => match m (o k) with Some v => [(k, v)] | None => [] end) keys.
Definition specRead (m : contentsOf) (r : readOp) : answer :=
  match r with
  | RTreeHead => match m OTreeHead with None => AHeads None None | Some h => AHeads (Some h) (m OAuditorHead) end
  | RIndices labels => AList (map (fun l => m (OIndex l)) labels)
  | RVersion label ver => AOne (m (OVersion label ver))
  | REntries keys => ANums (look m OEntry keys)
  | RChunks keys => ANums (look m OChunk keys)
  | RTiles keys => ATiles (look m OTile keys)
  end.

(** Reads see the pending contents; commit makes them durable; reopening drops what is not durable; clones see
    the durable contents. *)
Definition specStep (s : specStore) (op : storeOp) : list answer * specStore :=
  match op with
  | SRead r => ([specRead (s_pending s) r], s)
  | SWrite w => let (o, v) := writtenObj w in ([], {| s_pending := setObj (s_pending s) o v; s_durable := s_durable s |})
  | SDelete d => ([], {| s_pending := setObj (s_pending s) (deletedObj d) None; s_durable := s_durable s |})
  | SCommit => ([], {| s_pending := s_pending s; s_durable := s_pending s |})
  | SReopen => ([], {| s_pending := s_durable s; s_durable := s_durable s |})
  | SClone rs => (map (specRead (s_durable s)) rs, s)
  end.
Fixpoint specRun (s : specStore) (ops : list storeOp) : list answer * specStore :=
  match ops with
  | [] => ([], s)
  | op :: rest => let (a, s') := specStep s op in let (b, s'') := specRun s' rest in (a ++ b, s'')
  end.

(** What the database on disk holds, and what a connection shows, per object. *)
Definition onDisk (d : disk) : contentsOf := fun o => bget d (dbKey o).
Definition shown (c : ldbConn) : contentsOf := fun o => connGet c (dbKey o).

(** Calls made with the values they are meant for: nothing but [Delete] is called with nil. *)
Definition proper (op : storeOp) : Prop :=
  match op with SWrite w => snd (writtenObj w) <> None | _ => True end.

(** The contents of the database after a crash during [Commit]. *)
Definition crashStates (c : ldbConn) : list disk := commitSteps c.
