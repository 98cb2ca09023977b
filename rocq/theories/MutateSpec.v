(** Specification of a transparency tree and its mutations: what is published, epoch by epoch, and when the contents of a
    database are those of a given history. *)
From Coq Require Import Permutation.
From Verif Require Import Base LogMathSpec LogTreeModel LogTreeSpec LogChunkModel PrefixModel PrefixSpec CodecModel AlgModel AlgSpec HandleModel HandleSpec
  StoreModel CommitModel MutateModel.
Open Scope N_scope.

(** A published version of a label: the entry it was published with, the opening of its commitment, and its value. *)
Record pubVersion := { pv_pos : N; pv_opening : bytes; pv_value : updateValue }.

(** The versions of every label, in order: element 0 is version 0. *)
Definition labels : Type := bytes -> list pubVersion.
Definition noLabels : labels := fun _ => [].

(** An epoch: a log entry and what is published as of it. *)
Record epoch := { ep_entry : logEntry; ep_labels : labels }.

Definition entriesOf (E : list epoch) : list logEntry := map ep_entry E.
Definition current (E : list epoch) : labels := List.last (map ep_labels E) noLabels.

(** The versions [v], [v+1], ... of a label, published with entry [n]. *)
Fixpoint nextVersions (opening : bytes -> N -> bytes) (n : N) (l : bytes) (v : N) (values : list updateValue) : list pubVersion :=
  match values with
  | [] => []
  | x :: t => {| pv_pos := n; pv_opening := opening l v; pv_value := x |} :: nextVersions opening n l (v + 1) t
  end.

(** What a mutation publishing entry [n] does: a removed label loses all its versions, and the values given for a label become
    its next versions, in the order given. *)
Definition kept (remove : list bytes) (cur : labels) : labels := fun l => if existsb (bytes_eqb l) remove then [] else cur l.
Definition valuesFor (add : list labelValue) (l : bytes) : list updateValue := map snd (filter (fun p => bytes_eqb (fst p) l) add).
Definition publish (opening : bytes -> N -> bytes) (n : N) (add : list labelValue) (remove : list bytes) (cur : labels) : labels :=
  fun l => kept remove cur l ++ nextVersions opening n l (lenN (kept remove cur l)) (valuesFor add l).

Section Spec.
Variable f : bytes -> bytes.
Variable hs : N.
Variable vrf : bytes -> bytes * bytes.
(** The labels under consideration (any finite set). *)
Variable Ls : list bytes.

(** The key of a version of a label in the prefix tree. *)
Definition keyOf (l : bytes) (v : N) : bytes :=
  match vrfInput l v with Ok input => fst (vrf input) | _ => [] end.

(** The commitment to a version. *)
Definition comOf (l : bytes) (v : N) (p : pubVersion) : bytes :=
  match labelCommitment (full f) (pv_opening p) l v (pv_value p) with Ok b => b | _ => [] end.

(** The labels are short enough to be labels, their VRF outputs have the size of a hash, and the VRF separates the
    label-version pairs under consideration. *)
Definition vrfGood : Prop :=
  (forall l, In l Ls -> lenN l <= 255) /\
  (forall l v, In l Ls -> v < 2 ^ 32 -> List.length (keyOf l v) = N.to_nat hs) /\
  (forall l v l' v', In l Ls -> In l' Ls -> v < 2 ^ 32 -> v' < 2 ^ 32 -> keyOf l v = keyOf l' v' -> l = l' /\ v = v').

(** The prefix map [m] holds exactly the versions published, for the labels under consideration. *)
Definition mapFor (m : kvmap) (P : labels) : Prop :=
  forall l v, In l Ls -> v < 2 ^ 32 -> m (keyOf l v) = option_map (comOf l v) (nth_error (P l) (N.to_nat v)).

(** The contents [s] are those of a server with history [E]. *)
Record describes (s : contents) (E : list epoch) : Prop := {
  ds_size : lenN E < 2 ^ 63;
  ds_entries : forall x e, nth_error (entriesOf E) (N.to_nat x) = Some e ->
    List.length (le_root e) = N.to_nat hs /\ le_ts e < two64 /\ exists raw, logEntryMarshal e = Ok raw /\ mget (x_entries s) x = Some raw;
  ds_sorted : forall i j e e', (i <= j)%nat -> nth_error (entriesOf E) i = Some e -> nth_error (entriesOf E) j = Some e' -> le_ts e <= le_ts e';
  ds_log : exists leaves fs, Forall2 (fun e h => logEntryHash (full f) e = Ok h) (entriesOf E) leaves /\
    foldM (fun s e => let* (fs, st) := treeAppend (full f) hs (snd s) (fst (fst s)) e in Ok (fst (fst s) + 1, fs, st)) leaves (0, [], [])
      = Ok (lenN leaves, fs, x_log s);
  ds_prefix : exists vs, hist f (N.to_nat hs) (x_prefix s) vs /\ List.length vs = S (List.length E) /\
    (forall i ep, nth_error E i = Some ep -> exists m, nth_error vs (S i) = Some (m, le_root (ep_entry ep)) /\ mapFor m (ep_labels ep));
  ds_index : forall l, In l Ls -> decodeIndex (bget (x_index s) l) = Ok (map pv_pos (current E l));
  ds_positions : forall l, In l Ls -> Sorted.StronglySorted N.le (map pv_pos (current E l)) /\ Forall (fun p => pv_pos p < lenN E) (current E l) /\
    lenN (current E l) < 2 ^ 32;
  ds_versions : forall l v, In l Ls -> v < 2 ^ 32 ->
    match nth_error (current E l) (N.to_nat v) with
    | Some p => exists raw, openingAndValueMarshal {| ov_opening := pv_opening p; ov_value := pv_value p |} = Ok raw /\ vget (x_versions s) (l, v) = Some raw /\
        labelCommitment (full f) (pv_opening p) l v (pv_value p) = Ok (comOf l v p)
    | None => vget (x_versions s) (l, v) = None
    end }.

(** The tree head [h] is signed for the log of the history [E]: [valid] tells which signatures are right. *)
Definition signedFor (c : pubConfig) (valid : bytes -> bytes -> Prop) (E : list epoch) (h : treeHead) : Prop :=
  exists leaves root tbs, Forall2 (fun e h => logEntryHash (full f) e = Ok h) (entriesOf E) leaves /\ Mth (full f) leaves root /\
    treeHeadTBS c (lenN E) root = Ok tbs /\ valid tbs (th_sig h).

(** The tree [t] has history [E], and nothing is pending. *)
Definition treeOf (c : pubConfig) (valid : bytes -> bytes -> Prop) (t : tree) (E : list epoch) : Prop :=
  describes (pending (t_tx t)) E /\ durable (t_tx t) = pending (t_tx t) /\
  match t_head t with
  | Some h => th_size h = lenN E /\ E <> [] /\ signedFor c valid E h /\ exists raw, treeHeadMarshal h = Ok raw /\ x_head (pending (t_tx t)) = Some raw
  | None => E = [] /\ x_head (pending (t_tx t)) = None
  end.

End Spec.

(** [order] lists the labels of the request, each once, in any order. *)
Definition listsLabels (order : list bytes) (add : list labelValue) (remove : list bytes) : Prop :=
  NoDup order /\ forall l, In l order <-> In l (map fst add) \/ In l remove.

(** The mutation does something. *)
Definition effective (cur : labels) (add : list labelValue) (remove : list bytes) : Prop :=
  add <> [] \/ exists l, In l remove /\ cur l <> [].

(** The timestamps of the log once an entry with timestamp [now] has been added. *)
Definition tsWith (E : list epoch) (now : N) (x : N) : N :=
  match nth_error (entriesOf E) (N.to_nat x) with Some e => le_ts e | None => now end.

(** [d] is a distinguished entry which precedes the entry about to be added with timestamp [now]. *)
Definition earlierDistinguished (c : pubConfig) (E : list epoch) (now d : N) : Prop :=
  distinguished (lenN E + 1) (tsWith E now) (pc_rmw c) d /\ d < lenN E.

(** The label may be removed: its last change is covered by an earlier distinguished entry. *)
Definition removable (c : pubConfig) (E : list epoch) (now : N) (l : bytes) : Prop :=
  exists d, earlierDistinguished c E now d /\ Forall (fun p => pv_pos p <= d) (current E l).

(** The value can be encoded. *)
Definition okValue (u : updateValue) : Prop := lenN (uv_value u) < 2 ^ 32 /\ match uv_sig u with Some x => lenN x < 2 ^ 16 | None => True end.

(** A call of Mutate: its arguments, the clock, the order in which the labels are visited, and the openings drawn. *)
Record request := { rq_order : list bytes; rq_now : N; rq_add : list labelValue; rq_remove : list bytes; rq_opening : bytes -> N -> bytes }.

(** The labels after the call, when [n] entries were there before it. *)
Definition publishes (n : N) (cur : labels) (r : request) : labels := publish (rq_opening r) n (rq_add r) (rq_remove r) cur.

(** The request is about labels under consideration, and no 32- or 64-bit count overflows: the clock, the size of the
    log, the number of versions of a label, and the number of versions added and removed. *)
Definition moderate (Ls : list bytes) (n : N) (cur : labels) (r : request) : Prop :=
  listsLabels (rq_order r) (rq_add r) (rq_remove r) /\ (forall l, In l (rq_order r) -> In l Ls) /\ rq_now r < two64 /\ n + 1 < 2 ^ 63 /\
  (forall l, In l (rq_order r) -> lenN (publishes n cur r l) < 2 ^ 32) /\
  lenN (rq_add r) + lenN (flat_map (fun l => if existsb (bytes_eqb l) (rq_remove r) then cur l else []) (rq_order r)) < 2 ^ 32.

(** The labels after each of a sequence of requests. *)
Fixpoint labelsAfter (n : N) (cur : labels) (rs : list request) : list labels :=
  match rs with
  | [] => []
  | r :: t => publishes n cur r :: labelsAfter (n + 1) (publishes n cur r) t
  end.
Definition labelsNow (rs : list request) : labels := List.last (labelsAfter 0 noLabels rs) noLabels.

(** The tree [t] is the result of the successful mutations [rs], starting from an empty database; in between, it may have been
    reopened any number of times, possibly after failed mutations. *)
Inductive runs (H : bytes -> option bytes) (hs : N) (c : pubConfig) (vrf : bytes -> bytes * bytes) (sign : bytes -> res bytes) (Ls : list bytes) :
  tree -> list request -> Prop :=
| run_new t : NewTree emptyContents = Ok t -> runs H hs c vrf sign Ls t []
| run_mutate t rs r au t' : runs H hs c vrf sign Ls t rs ->
    moderate Ls (lenN rs) (labelsNow rs) r -> effective (labelsNow rs) (rq_add r) (rq_remove r) ->
    Mutate H hs c vrf sign (rq_opening r) (rq_order r) (rq_now r) t (rq_add r) (rq_remove r) = (Ok au, t') ->
    runs H hs c vrf sign Ls t' (rs ++ [r])
| run_reopen t rs t' : runs H hs c vrf sign Ls t rs -> NewTree (durable (t_tx t)) = Ok t' -> runs H hs c vrf sign Ls t' rs
| run_fail t rs r m t1 t' : runs H hs c vrf sign Ls t rs ->
    Mutate H hs c vrf sign (rq_opening r) (rq_order r) (rq_now r) t (rq_add r) (rq_remove r) = (Fail m, t1) ->
    NewTree (durable (t_tx t1)) = Ok t' -> runs H hs c vrf sign Ls t' rs.

(** The tree, and its contents, as seen by a search for the label [l] (compare [world]); a version never published gets
    some commitment of the right size. *)
Definition worldOf (f : bytes -> bytes) (hs : N) (vrf : bytes -> bytes * bytes) (s : contents) (E : list epoch) (l : bytes) : world :=
  {| w_entries := entriesOf E; w_index := map pv_pos (current E l);
     w_key v := if v <? 2 ^ 32 then keyOf vrf l v else repeat Byte.x00 (N.to_nat hs);
     w_com v := match nth_error (current E l) (N.to_nat v) with Some p => comOf f l v p | None => repeat Byte.x00 (N.to_nat hs) end;
     w_entriesDb x := mget (x_entries s) x; w_logDb := x_log s; w_prefixDb := x_prefix s |}.

(** The label [l] was not removed: nothing published is ever taken back. *)
Definition neverRemoved (E : list epoch) (l : bytes) : Prop :=
  forall i ep, nth_error E i = Some ep -> ep_labels ep l = filter (fun p => pv_pos p <=? N.of_nat i) (current E l).

(** The tree [t] has gone through any sequence of mutations, successful or not, reopenings, and crashes in the middle of the commit of
    a mutation; [ts] are the clock readings of the mutations that succeeded. *)
Inductive issued (H : bytes -> option bytes) (hs : N) (c : pubConfig) (vrf : bytes -> bytes * bytes) (sign : bytes -> res bytes) :
  tree -> list N -> Prop :=
| is_new t : NewTree emptyContents = Ok t -> issued H hs c vrf sign t []
| is_mutate t ts opening order now add remove r t' : issued H hs c vrf sign t ts -> now < two64 ->
    Mutate H hs c vrf sign opening order now t add remove = (r, t') ->
    issued H hs c vrf sign t' (match r with Ok _ => ts ++ [now] | _ => ts end)
| is_reopen t ts t' : issued H hs c vrf sign t ts -> NewTree (durable (t_tx t)) = Ok t' -> issued H hs c vrf sign t' ts
| is_crash t ts opening order now add remove s t' : issued H hs c vrf sign t ts ->
    nth_error (mutateCrashes H hs c vrf sign opening order now t add remove) 1 = Some s -> NewTree s = Ok t' -> issued H hs c vrf sign t' ts.

(** Entry [i] in the database has the timestamp [x]. *)
Definition stampAt (s : contents) (i x : N) : Prop := exists root, mget (x_entries s) i = Some (writeNum 8 x ++ root).
