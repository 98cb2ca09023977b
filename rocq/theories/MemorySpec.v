(** What a user expects of the in-memory store.  The objects are kept in one map shared by the store and its clones; each
    of them has tree heads of its own. *)
From Verif Require Import Base PrefixModel StoreModel StoreSpec MemoryModel.
Open Scope N_scope.

(** The shared contents; the heads of each store. *)
Record sharedSpec := { sp_contents : contentsOf; sp_heads : list (option bytes * option bytes) }.

(** All a store shows. *)
Definition view (m : contentsOf) (heads : option bytes * option bytes) : contentsOf := fun o =>
  match o with OTreeHead => fst heads | OAuditorHead => snd heads | _ => m o end.

(** Both heads are returned as they are. *)
Definition readBoth (m : contentsOf) (r : readOp) : answer :=
  match r with RTreeHead => AHeads (m OTreeHead) (m OAuditorHead) | _ => specRead m r end.

Definition setHeads (l : list (option bytes * option bytes)) (i : nat) (h : option bytes * option bytes) :=
  (firstn i l ++ h :: skipn (S i) l)%list.

Definition sharedStep (s : sharedSpec) (op : memOp) : list answer * sharedSpec :=
  let heads i := nth i (sp_heads s) (None, None) in
  match op with
  | MRead i r => ([readBoth (view (sp_contents s) (heads i)) r], s)
  | MWrite i w =>
      match writtenObj w with
      | (OTreeHead, v) => ([], {| sp_contents := sp_contents s; sp_heads := setHeads (sp_heads s) i (v, snd (heads i)) |})
      | (OAuditorHead, v) => ([], {| sp_contents := sp_contents s; sp_heads := setHeads (sp_heads s) i (fst (heads i), v) |})
      | (o, v) => ([], {| sp_contents := setObj (sp_contents s) o v; sp_heads := sp_heads s |})
      end
  | MDelete _ d => ([], {| sp_contents := setObj (sp_contents s) (deletedObj d) None; sp_heads := sp_heads s |})
  | MCommit _ => ([], s)
  | MClone i => ([], {| sp_contents := sp_contents s; sp_heads := sp_heads s ++ [heads i] |})
  end.
Fixpoint sharedRun (s : sharedSpec) (ops : list memOp) : list answer * sharedSpec :=
  match ops with
  | [] => ([], s)
  | op :: rest => let (a, s') := sharedStep s op in let (b, s'') := sharedRun s' rest in (a ++ b, s'')
  end.

Definition emptyShared : sharedSpec := {| sp_contents := fun _ => None; sp_heads := [(None, None)] |}.

(** Calls on a store that exists when [n] do, with a value unless the call allows nil.  Also: how many there are then. *)
Definition callOn (op : memOp) : nat :=
  match op with MRead i _ | MWrite i _ | MDelete i _ | MCommit i | MClone i => i end.
Definition withValue (op : memOp) : Prop :=
  match op with
  | MWrite _ (WTreeHead _) | MWrite _ (WAuditorHead _) => True
  | MWrite _ w => snd (writtenObj w) <> None
  | _ => True
  end.
Fixpoint wellUsed (n : nat) (ops : list memOp) : Prop :=
  match ops with
  | [] => True
  | op :: rest => (callOn op < n)%nat /\ withValue op /\ wellUsed (match op with MClone _ => S n | _ => n end) rest
  end.

(** The history of one store, without clones and reopenings, as calls of either implementation. *)
Definition plain (op : storeOp) : Prop := match op with SReopen | SClone _ => False | _ => True end.
Definition onFirst (op : storeOp) : memOp :=
  match op with
  | SRead r => MRead 0 r
  | SWrite w => MWrite 0 w
  | SDelete d => MDelete 0 d
  | SCommit => MCommit 0
  | SReopen | SClone _ => MCommit 0
  end.

(** No auditor's tree head is stored before there is a tree head. *)
Fixpoint headFirst (ops : list storeOp) : Prop :=
  match ops with
  | [] => True
  | SWrite (WTreeHead _) :: _ => True
  | SWrite (WAuditorHead _) :: _ => False
  | _ :: rest => headFirst rest
  end.
