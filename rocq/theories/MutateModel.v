(** Model of tree/transparency/mutate.go, of the parts of crypto.go it uses, and of NewTree (transparency.go:66-106).

    The transaction [t.tx] is the store of C39: pending and durable contents (StoreModel.v shows that LevelDB implements
    it).  The contents are kept in one table per kind of object instead of one table with printed keys; reads and writes
    do not fail.  The clock, the random openings, the VRF and the signature function are parameters. *)
From Verif Require Import Base LogMathModel LogTreeModel LogChunkModel PrefixModel CodecModel AlgModel HandleModel StoreModel CommitModel.
Local Open Scope string_scope.
Open Scope N_scope.

(** The contents of a transparency store. *)
Record contents := {
  x_head : option bytes; x_auditor : option bytes;
  x_index : list (bytes * bytes);
  x_versions : list ((bytes * N) * bytes);
  x_entries : list (N * bytes);
  x_log : logStore;
  x_prefix : store }.

Definition emptyContents : contents :=
  {| x_head := None; x_auditor := None; x_index := []; x_versions := []; x_entries := []; x_log := []; x_prefix := [] |}.

Record tx := { pending : contents; durable : contents }.

(** A [Tree] (transparency.go:53-59): its transaction and the tree head kept in memory. *)
Record tree := { t_tx : tx; t_head : option treeHead }.

Definition lvEqb (a b : bytes * N) : bool := bytes_eqb (fst a) (fst b) && (snd a =? snd b).
Fixpoint vget (m : list ((bytes * N) * bytes)) (k : bytes * N) : option bytes :=
  match m with
  | [] => None
  | (k', v) :: t => if lvEqb k k' then Some v else vget t k
  end.

(** ** Computations on the pending contents.  What was written stays written when an error is returned. *)
Definition M (A : Type) : Type := contents -> res A * contents.
Definition ret {A} (a : A) : M A := fun s => (Ok a, s).
Definition mbind {A B} (m : M A) (f : A -> M B) : M B := fun s =>
  let (r, s') := m s in
  match r with Ok a => f a s' | Fail e => (Fail e, s') | Panic e => (Panic e, s') | Fuel => (Fuel, s') end.
Definition liftM {A} (r : res A) : M A := fun s => (r, s).
Definition modify (g : contents -> contents) : M unit := fun s => (Ok tt, g s).
Declare Scope mut_scope.
Delimit Scope mut_scope with mut.
Notation "'let!' x := e 'in' k" := (mbind e (fun x => k))
  (at level 200, x pattern, e at level 100, k at level 200, right associativity) : mut_scope.
Open Scope mut_scope.

Definition setHead (s : contents) (v : option bytes) : contents :=
  {| x_head := v; x_auditor := x_auditor s; x_index := x_index s; x_versions := x_versions s; x_entries := x_entries s; x_log := x_log s; x_prefix := x_prefix s |}.
Definition setIndex (s : contents) (v : list (bytes * bytes)) : contents :=
  {| x_head := x_head s; x_auditor := x_auditor s; x_index := v; x_versions := x_versions s; x_entries := x_entries s; x_log := x_log s; x_prefix := x_prefix s |}.
Definition setVersions (s : contents) (v : list ((bytes * N) * bytes)) : contents :=
  {| x_head := x_head s; x_auditor := x_auditor s; x_index := x_index s; x_versions := v; x_entries := x_entries s; x_log := x_log s; x_prefix := x_prefix s |}.
Definition setEntries (s : contents) (v : list (N * bytes)) : contents :=
  {| x_head := x_head s; x_auditor := x_auditor s; x_index := x_index s; x_versions := x_versions s; x_entries := v; x_log := x_log s; x_prefix := x_prefix s |}.
Definition setLog (s : contents) (v : logStore) : contents :=
  {| x_head := x_head s; x_auditor := x_auditor s; x_index := x_index s; x_versions := x_versions s; x_entries := x_entries s; x_log := v; x_prefix := x_prefix s |}.
Definition setPrefix (s : contents) (v : store) : contents :=
  {| x_head := x_head s; x_auditor := x_auditor s; x_index := x_index s; x_versions := x_versions s; x_entries := x_entries s; x_log := x_log s; x_prefix := v |}.

(** transparency.go:15-18 *)
Definition labelValue : Type := bytes * updateValue.

(** mutate.go:103-108 *)
Record labelMutation := { lm_label : bytes; lm_index : list N; lm_add : list labelValue; lm_remove : bool }.

Section Mutate.
(** The hash function, its size, the public configuration; the VRF ([Prove], output and proof), [Sign], and the opening
    [GenerateOpening] returns when called for a version of a label in this mutation. *)
Variable H : bytes -> option bytes.
Variable hs : N.
Variable c : pubConfig.
Variable vrf : bytes -> bytes * bytes.
Variable sign : bytes -> res bytes.
Variable opening : bytes -> N -> bytes.

(** crypto.go:18-48, for one label of the batch *)
Definition getIndex (label : bytes) : M (list N) := fun s => (decodeIndex (bget (x_index s) label), s).

(** crypto.go:51-69; the store refuses nil (leveldb.go:139-145) *)
Definition putIndexM (label : bytes) (index : list N) : M unit :=
  let! v := liftM (encodeIndex index) in
  let! b := liftM (notNil v) in
  modify (fun s => setIndex s (bput (x_index s) label b)).

(** crypto.go:96-117 *)
Definition putVersion (label : bytes) (ver : N) (value : updateValue) : M bytes :=
  let o := opening label ver in
  let! raw := liftM (openingAndValueMarshal {| ov_opening := o; ov_value := value |}) in
  let! _ := modify (fun s => setVersions s (((label, ver), raw) :: x_versions s)) in
  liftM (labelCommitment H o label ver value).

(** crypto.go:121-128 *)
Definition computeVrfOutput (label : bytes) (ver : N) : res (bytes * bytes) :=
  let* input := vrfInput label ver in Ok (vrf input).

(** The distinct labels of a request, in the order of their last use in Go's map, which is arbitrary: [order] is the
    order in which Go happens to visit them. *)
Definition labelsOf (add : list labelValue) (remove : list bytes) : list bytes := (map fst add ++ remove)%list.

(** mutate.go:113-157.  Keys of the maps are the labels themselves instead of their hex forms (injective). *)
Definition groupByLabel (order : list bytes) (add : list labelValue) (remove : list bytes) : M (list labelMutation) :=
  fun s =>
    (mapM (fun label =>
       let* index := decodeIndex (bget (x_index s) label) in
       Ok {| lm_label := label; lm_index := index; lm_add := filter (fun p => bytes_eqb (fst p) label) add;
             lm_remove := existsb (bytes_eqb label) remove |}) order, s).

(** mutate.go:181-191: delete the versions, from the first one on; collects the VRF outputs *)
Fixpoint removeVersions (label : bytes) (ver : N) (index : list N) : M (list bytes) :=
  match index with
  | [] => ret []
  | _ :: t =>
      let! _ := modify (fun s => setVersions s (filter (fun e => negb (lvEqb (label, w32 ver) (fst e))) (x_versions s))) in
      let! out := liftM (computeVrfOutput label (w32 ver)) in
      let! rest := removeVersions label (ver + 1) t in
      ret (fst out :: rest)
  end.

(** mutate.go:196-210: add the values; [index] grows *)
Fixpoint addVersions (n : N) (adds : list labelValue) (index : list N) : M (list entry * list N) :=
  match adds with
  | [] => ret ([], index)
  | lv :: t =>
      let ver := w32 (lenN index) in
      let! out := liftM (computeVrfOutput (fst lv) ver) in
      let! commitment := putVersion (fst lv) ver (snd lv) in
      let! (rest, index') := addVersions n t (index ++ [n])%list in
      ret ((fst out, commitment) :: rest, index')
  end.

(** mutate.go:161-218.  The error message of a refused removal, which contains the label, is shortened. *)
Definition mutateLabel (n : N) (prevDLE : option N) (mut : labelMutation) : M (list entry * list bytes) :=
  let label := lm_label mut in
  let removing := lm_remove mut && negb (lenN (lm_index mut) =? 0) in
  let! removed :=
    (if removing then
       if (match prevDLE with None => true | Some d => d <? List.last (lm_index mut) 0 end)
       then liftM (Fail "unable to delete label that was modified recently") else
       let! _ := modify (fun s => setIndex s (bdel (x_index s) label)) in
       removeVersions label 0 (lm_index mut)
     else ret []) in
  let index := if removing then [] else lm_index mut in
  let! (added, index') := addVersions n (lm_add mut) index in
  let! _ := (match lm_add mut with
             | [] => ret tt
             | p :: _ => putIndexM (fst p) index'
             end) in
  ret (added, removed).

Fixpoint mutateLabels (n : N) (prevDLE : option N) (muts : list labelMutation) : M (list entry * list bytes) :=
  match muts with
  | [] => ret ([], [])
  | mut :: t =>
      let! (a, r) := mutateLabel n prevDLE mut in
      let! (a', r') := mutateLabels n prevDLE t in
      ret ((a ++ a')%list, (r ++ r')%list)
  end.

(** mutate.go:223-277 up to the commit; returns the new tree head *)
Definition issueTreeHead (n ts : N) (prefixRoot : bytes) : M treeHead :=
  let e := {| le_ts := ts; le_root := prefixRoot |} in
  let! raw := liftM (logEntryMarshal e) in
  let! _ := modify (fun s => setEntries s (mput (x_entries s) n raw)) in
  let! leaf := liftM (logEntryHash H e) in
  let! fs := (fun s => match treeAppend H hs (x_log s) n leaf with
                       | Ok (fs, log) => (Ok fs, setLog s log)
                       | Fail m => (Fail m, s) | Panic m => (Panic m, s) | Fuel => (Fuel, s)
                       end) in
  let! root := liftM (logRoot H hs (add64 n 1) fs) in
  let! tbs := liftM (treeHeadTBS c (add64 n 1) root) in
  let! sig := liftM (sign tbs) in
  let th := {| th_size := add64 n 1; th_sig := sig |} in
  let! rawHead := liftM (treeHeadMarshal th) in
  let! _ := modify (fun s => setHead s (Some rawHead)) in
  ret th.

(** mutate.go:27-49: the timestamp, and the rightmost distinguished log entry there will be before the new one *)
Definition chooseTimestamp (now n : N) (s : contents) : res (option N) :=
  let hd := producedHandle hs (fun x => mget (x_entries s) x) in
  let d0 := newDataProvider (newProduced []) in
  let* d1 :=
    (if 0 <? n then
       let (r, d) := dpTs hd d0 (sub64 n 1) in
       let* rightmost := r in
       if now <? rightmost then Fail "refusing to issue tree head: current timestamp is less than previous timestamp" else Ok d
     else Ok d0) in
  (* mutate.go:45: the error is dropped *)
  let d2 := match addRetained d1 [] [(n, {| le_ts := now; le_root := [] |})] with Ok d => d | _ => d1 end in
  fst (fst (run (dpProvider hd) (previousRightmost c (add64 n 1)) d2)).

(** mutate.go:21-101 up to the commit; returns the update for the auditor and the tree head.  The tiles written by
    [prefixTree.Mutate] before an error of its own are not kept (it writes last, prefix.go:122-130). *)
Definition mutateM (order : list bytes) (now n : N) (add : list labelValue) (remove : list bytes) : M (auditorUpdate * treeHead) :=
  let! prevDLE := (fun s => (chooseTimestamp now n s, s)) in
  let! muts := groupByLabel order add remove in
  let! (padd, prem) := mutateLabels n prevDLE muts in
  let padd := ksort fst padd in
  let prem := ksort (fun x => x) prem in
  let! (prefixRoot, proof, coms) :=
    (fun s => match mutate H (N.to_nat hs) (x_prefix s) n padd prem with
              | Ok (root, proof, coms, st) => (Ok (root, proof, coms), setPrefix s st)
              | Fail m => (Fail m, s) | Panic m => (Panic m, s) | Fuel => (Fuel, s)
              end) in
  let! th := issueTreeHead n now prefixRoot in
  ret ({| au_ts := now; au_added := padd; au_removed := combine prem coms; au_proof := proof |}, th).

(** mutate.go:21-101 and 268-276: on success the pending contents are committed *)
Definition Mutate (order : list bytes) (now : N) (t : tree) (add : list labelValue) (remove : list bytes) : res auditorUpdate * tree :=
  let n := match t_head t with Some h => th_size h | None => 0 end in
  let (r, s) := mutateM order now n add remove (pending (t_tx t)) in
  match r with
  | Ok (au, th) => (Ok au, {| t_tx := {| pending := s; durable := s |}; t_head := Some th |})
  | Fail m => (Fail m, {| t_tx := {| pending := s; durable := durable (t_tx t) |}; t_head := t_head t |})
  | Panic m => (Panic m, {| t_tx := {| pending := s; durable := durable (t_tx t) |}; t_head := t_head t |})
  | Fuel => (Fuel, {| t_tx := {| pending := s; durable := durable (t_tx t) |}; t_head := t_head t |})
  end.

(** The durable contents after a crash during the commit that ends a successful mutation: before it, between the two
    writes, after it (leveldb.go:50-76, see [C40_crash_partial]). *)
Definition mutateCrashes (order : list bytes) (now : N) (t : tree) (add : list labelValue) (remove : list bytes) : list contents :=
  let n := match t_head t with Some h => th_size h | None => 0 end in
  let (r, s) := mutateM order now n add remove (pending (t_tx t)) in
  match r with
  | Ok _ => [durable (t_tx t); setHead s (x_head (durable (t_tx t))); s]
  | _ => [durable (t_tx t)]
  end.

(** transparency.go:66-106, without the auditor's tree head *)
Definition NewTree (s : contents) : res tree :=
  let* th := match x_head s with
             | None => Ok None
             | Some raw => let* (th, rest) := newTreeHead raw in
                           match rest with [] => Ok (Some th) | _ => Fail "unexpected data appended to tree head" end
             end in
  Ok {| t_tx := {| pending := s; durable := s |}; t_head := th |}.

(** crypto.go:73-92 *)
Definition getVersion (s : contents) (label : bytes) (ver : N) : res openingAndValue :=
  match vget (x_versions s) (label, ver) with
  | None => Ok {| ov_opening := repeat x00 (pc_openSize c); ov_value := {| uv_value := []; uv_sig := None |} |}
  | Some raw =>
      let* (v, rest) := newOpeningAndValue c raw in
      match rest with [] => Ok v | _ => Fail "unexpected data appended to label value" end
  end.

End Mutate.
