(** Properties of mutations: C40 (refuted part), C41 - C44, C66 (what a server stores), C67, C68. *)
From Coq Require Import Sorted.
From Verif Require Import Base LogMathSpec LogTreeModel LogTreeSpec PrefixModel PrefixSpec PrefixExamples CodecModel CodecSpec AlgModel AlgSpec HandleModel HandleSpec
  StoreModel CommitModel MutateModel MutateSpec MutateProofs5 MutateProofs6 MutateProofs7 MutateExamples.
Open Scope N_scope.
Local Open Scope list_scope.

(** Throughout, [f] is the hash function with output size [hs], [vrf] separates the versions of the labels [Ls], and
    [valid] says which signatures are right for what was signed. *)

(** C42: after any sequence of successful (and effective) mutations, with failures and reopenings in between, the
    database holds exactly the history of labels the requests describe ([labelsAfter], [publish]); in particular the index of every
    label lists the entries its versions were published with, and every version is stored. *)
Theorem C42_histories : forall f hs c vrf Ls sign (valid : bytes -> bytes -> Prop),
  (forall x, lenN (f x) = hs) -> 0 < hs <= 32 -> vrfGood hs vrf Ls -> (forall tbs sg, sign tbs = Ok sg -> valid tbs sg) ->
  forall t rs, runs (full f) hs c vrf sign Ls t rs ->
  (exists E, treeOf f hs vrf Ls c valid t E /\ map ep_labels E = labelsAfter 0 noLabels rs /\ map le_ts (entriesOf E) = map rq_now rs) /\
  forall l, In l Ls ->
    decodeIndex (bget (x_index (durable (t_tx t))) l) = Ok (map pv_pos (labelsNow rs l)) /\
    forall v p, v < 2 ^ 32 -> nth_error (labelsNow rs l) (N.to_nat v) = Some p -> okOpeningAndValue c {| ov_opening := pv_opening p; ov_value := pv_value p |} ->
      getVersion c (durable (t_tx t)) l v = Ok {| ov_opening := pv_opening p; ov_value := pv_value p |}.
Proof. exact c42_histories. Qed.
Print Assumptions C42_histories.

(** C42, one mutation of a server in any consistent state. *)
Theorem C42_mutation : forall f hs c vrf Ls sign (valid : bytes -> bytes -> Prop),
  (forall x, lenN (f x) = hs) -> 0 < hs <= 32 -> vrfGood hs vrf Ls -> (forall tbs sg, sign tbs = Ok sg -> valid tbs sg) ->
  forall t E r au t', treeOf f hs vrf Ls c valid t E -> moderate Ls (lenN E) (current E) r -> effective (current E) (rq_add r) (rq_remove r) ->
  Mutate (full f) hs c vrf sign (rq_opening r) (rq_order r) (rq_now r) t (rq_add r) (rq_remove r) = (Ok au, t') ->
  exists root, treeOf f hs vrf Ls c valid t'
    (E ++ [{| ep_entry := {| le_ts := rq_now r; le_root := root |}; ep_labels := publish (rq_opening r) (lenN E) (rq_add r) (rq_remove r) (current E) |}]).
Proof. exact c42_mutation. Qed.
Print Assumptions C42_mutation.

(** C42, mutations which are not effective: nothing stored about labels changes, in any state of the database. *)
Theorem C42_no_effect : forall H hs c vrf sign opening order now t remove au t',
  (forall l, In l order -> decodeIndex (bget (x_index (pending (t_tx t))) l) = Ok []) ->
  Mutate H hs c vrf sign opening order now t [] remove = (Ok au, t') ->
  x_index (pending (t_tx t')) = x_index (pending (t_tx t)) /\ x_versions (pending (t_tx t')) = x_versions (pending (t_tx t)).
Proof. exact nothing_changed. Qed.
Print Assumptions C42_no_effect.

(** Three mutations: two values for a label at once, another label, then a third value while a label is removed. *)
Example C42_example :
  vrfGood 32 xvrf xLs /\ runs (full toy32) 32 xc xvrf xsign xLs t3 [q1; q2; q3] /\
  map (fun l => map pv_pos (labelsNow [q1; q2; q3] l)) xLs = [[0; 0; 2]; []; [1]] /\
  getVersion xc (durable (t_tx t3)) la 2 = Ok {| ov_opening := xopening la 2; ov_value := xv x05 |}.
Proof. split; [exact x_vrfGood|]. split; [exact x_runs3|]. split; vm_compute; reflexivity. Qed.

(** C43: when every label to be removed that exists is covered by an earlier distinguished entry (and the clock, the values and
    the signature function are in order), the mutation succeeds; when one is not, it fails. *)
Theorem C43_removal : forall f hs c vrf Ls sign (valid : bytes -> bytes -> Prop),
  (forall x, lenN (f x) = hs) -> 0 < hs <= 32 -> vrfGood hs vrf Ls -> (forall tbs sg, sign tbs = Ok sg -> valid tbs sg) ->
  forall t E r, treeOf f hs vrf Ls c valid t E -> moderate Ls (lenN E) (current E) r ->
  let result := fst (Mutate (full f) hs c vrf sign (rq_opening r) (rq_order r) (rq_now r) t (rq_add r) (rq_remove r)) in
  ((exists l, In l (rq_remove r) /\ current E l <> [] /\ ~ removable c E (rq_now r) l) -> exists m, result = Fail m) /\
  ((forall l, In l (rq_remove r) -> current E l <> [] -> removable c E (rq_now r) l) ->
   effective (current E) (rq_add r) (rq_remove r) ->
   Forall (fun p => okValue (snd p)) (rq_add r) -> (forall tbs, exists sg, sign tbs = Ok sg /\ lenN sg < 2 ^ 16) -> (exists raw, pubConfigMarshal c = Ok raw) ->
   (forall e, nth_error (entriesOf E) (List.length E - 1) = Some e -> le_ts e <= rq_now r) ->
   exists au, result = Ok au).
Proof. exact c43_removal. Qed.
Print Assumptions C43_removal.

(** A label that was just added can not be removed, for lack of a distinguished entry; half a second later it can. *)
Example C43_example :
  (exists E, treeOf toy32 32 xvrf xLs xc (fun tbs sg => xsign tbs = Ok sg) t2 E /\ map ep_labels E = labelsAfter 0 noLabels [q1; q2]) /\
  moderate xLs 2 (labelsNow [q1; q2]) (xreq [lc] 2400 [] [lc]) /\
  fst (xdo t2 (xreq [lc] 2400 [] [lc])) = Fail "unable to delete label that was modified recently"%string /\
  exists au, fst (xdo t2 (xreq [lc] 2500 [] [lc])) = Ok au.
Proof. exact c43_example. Qed.

(** C44: whatever the clock does, however mutations fail, and wherever the process crashes, the entries in the database
    have the timestamps of the successful mutations, and these do not decrease. *)
Theorem C44_timestamps : forall H hs c vrf sign t ts, issued H hs c vrf sign t ts -> lenN ts < two64 ->
  StronglySorted N.le ts /\ match t_head t with Some h => th_size h | None => 0 end = lenN ts /\
  forall i x, nth_error ts i = Some x -> stampAt (durable (t_tx t)) (N.of_nat i) x.
Proof. exact c44_timestamps. Qed.
Print Assumptions C44_timestamps.

(** A mutation is refused when the clock has gone back. *)
Example C44_example :
  issued (full toy32) 32 xc xvrf xsign t3 [1000; 2000; 3000] /\
  fst (xdo t3 (xreq [la] 2999 [(la, xv x07)] [])) = Fail "refusing to issue tree head: current timestamp is less than previous timestamp"%string.
Proof. exact c44_example. Qed.

(** C40 is false: there is a mutation, and a point at which a crash leaves a database whose tree head is not that after the
    mutation, and whose label index is not that before it. *)
Theorem C40_crash_refuted : exists f hs c vrf sign Ls t rs r s t' l,
  runs (full f) hs c vrf sign Ls t rs /\ moderate Ls (lenN rs) (labelsNow rs) r /\
  (exists au, Mutate (full f) hs c vrf sign (rq_opening r) (rq_order r) (rq_now r) t (rq_add r) (rq_remove r) = (Ok au, t')) /\
  In s (mutateCrashes (full f) hs c vrf sign (rq_opening r) (rq_order r) (rq_now r) t (rq_add r) (rq_remove r)) /\
  x_head s <> x_head (durable (t_tx t')) /\
  decodeIndex (bget (x_index s) l) <> decodeIndex (bget (x_index (durable (t_tx t))) l).
Proof. exact c40_refuted. Qed.
Print Assumptions C40_crash_refuted.

(** It matters: after reopening such a database, another mutation succeeds, and then there is a version of a label which the
    server believes to exist, but which the log says does not. *)
Theorem C40_retry_refuted : exists f hs c vrf sign Ls t rs r s t1 r' au t2 l index v proof,
  runs (full f) hs c vrf sign Ls t rs /\ moderate Ls (lenN rs) (labelsNow rs) r /\
  In s (mutateCrashes (full f) hs c vrf sign (rq_opening r) (rq_order r) (rq_now r) t (rq_add r) (rq_remove r)) /\
  NewTree s = Ok t1 /\
  Mutate (full f) hs c vrf sign (rq_opening r') (rq_order r') (rq_now r') t1 (rq_add r') (rq_remove r') = (Ok au, t2) /\
  decodeIndex (bget (x_index (durable (t_tx t2))) l) = Ok index /\ v < lenN index /\
  search (full f) (N.to_nat hs) (x_prefix (durable (t_tx t2))) (lenN rs + 1) [keyOf vrf l v] = Ok (proof, [None]).
Proof. exact c40_retry_refuted. Qed.
Print Assumptions C40_retry_refuted.

(** And if the mutation removed a label, values for it may be refused from then on. *)
Theorem C40_removal_refuted : exists f hs c vrf sign Ls t rs r s t1 r' m t2,
  runs (full f) hs c vrf sign Ls t rs /\ moderate Ls (lenN rs) (labelsNow rs) r /\
  In s (mutateCrashes (full f) hs c vrf sign (rq_opening r) (rq_order r) (rq_now r) t (rq_add r) (rq_remove r)) /\
  NewTree s = Ok t1 /\ List.length (rq_add r') = 1%nat /\ rq_remove r' = [] /\
  (exists au t'', Mutate (full f) hs c vrf sign (rq_opening r') (rq_order r') (rq_now r') t (rq_add r') (rq_remove r') = (Ok au, t'')) /\
  Mutate (full f) hs c vrf sign (rq_opening r') (rq_order r') (rq_now r') t1 (rq_add r') (rq_remove r') = (Fail m, t2).
Proof. exact c40_removal_refuted. Qed.
Print Assumptions C40_removal_refuted.

(** C41 is false: a mutation fails, a later one succeeds, and then the index of some label is not what it would be
    without the one that failed. *)
Theorem C41_failure_refuted : exists f hs c vrf sign Ls t rs r m t1 r' au t2 au' t2' l,
  runs (full f) hs c vrf sign Ls t rs /\ moderate Ls (lenN rs) (labelsNow rs) r /\
  Mutate (full f) hs c vrf sign (rq_opening r) (rq_order r) (rq_now r) t (rq_add r) (rq_remove r) = (Fail m, t1) /\
  Mutate (full f) hs c vrf sign (rq_opening r') (rq_order r') (rq_now r') t1 (rq_add r') (rq_remove r') = (Ok au, t2) /\
  Mutate (full f) hs c vrf sign (rq_opening r') (rq_order r') (rq_now r') t (rq_add r') (rq_remove r') = (Ok au', t2') /\
  decodeIndex (bget (x_index (durable (t_tx t2))) l) <> decodeIndex (bget (x_index (durable (t_tx t2'))) l).
Proof. exact c41_refuted. Qed.
Print Assumptions C41_failure_refuted.

(** C41, the part that holds: a failure changes neither the durable contents nor the tree head, so it has no effect for whoever
    reads the database, and none at all once the tree is reopened.  Missing: later mutations of the same tree. *)
Theorem C41_failure_partial : forall H hs c vrf sign opening order now t add remove r t',
  Mutate H hs c vrf sign opening order now t add remove = (r, t') -> (forall au, r <> Ok au) ->
  durable (t_tx t') = durable (t_tx t) /\ t_head t' = t_head t.
Proof. exact failure_kept. Qed.
Print Assumptions C41_failure_partial.

Example C41_example : exists m, fst (xdo t2 badReq) = Fail m /\ snd (xdo t2 badReq) <> t2.
Proof. eexists. split; [vm_compute; reflexivity|]. vm_compute. discriminate. Qed.

(** C67 is false: a mutation that changes nothing succeeds, and after it every mutation fails. *)
Theorem C67_idle_refuted : exists f hs c vrf sign Ls t rs r au t1,
  runs (full f) hs c vrf sign Ls t rs /\ moderate Ls (lenN rs) (labelsNow rs) r /\
  Mutate (full f) hs c vrf sign (rq_opening r) (rq_order r) (rq_now r) t (rq_add r) (rq_remove r) = (Ok au, t1) /\
  forall opening order now add remove, exists m, fst (Mutate (full f) hs c vrf sign opening order now t1 add remove) = Fail m.
Proof. exact c67_refuted. Qed.
Print Assumptions C67_idle_refuted.

(** C67, the part that holds: after mutations each of which changes something, a mutation that adds values (of acceptable size, under labels
    of acceptable size) and removes nothing succeeds.  Missing: mutations that change nothing. *)
Theorem C67_usable_partial : forall f hs c vrf Ls sign (valid : bytes -> bytes -> Prop),
  (forall x, lenN (f x) = hs) -> 0 < hs <= 32 -> vrfGood hs vrf Ls -> (forall tbs sg, sign tbs = Ok sg -> valid tbs sg) ->
  (forall tbs, exists sg, sign tbs = Ok sg /\ lenN sg < 2 ^ 16) -> (exists raw, pubConfigMarshal c = Ok raw) ->
  forall t rs, runs (full f) hs c vrf sign Ls t rs ->
  forall r, moderate Ls (lenN rs) (labelsNow rs) r -> rq_add r <> [] -> rq_remove r = [] -> Forall (fun p => okValue (snd p)) (rq_add r) ->
  Forall (fun q => rq_now q <= rq_now r) rs ->
  exists au, fst (Mutate (full f) hs c vrf sign (rq_opening r) (rq_order r) (rq_now r) t (rq_add r) (rq_remove r)) = Ok au.
Proof. exact c67_usable. Qed.
Print Assumptions C67_usable_partial.

Example C67_example : moderate xLs 3 (labelsNow [q1; q2; q3]) (xreq [lb] 3000 [(lb, xv x07)] []) /\ okValue (xv x07).
Proof. exact c67_example. Qed.

(** C68: after any sequence of successful mutations (and failures and reopenings), for every label and version: looking it up in the
    prefix tree of the newest entry gives the commitment which the stored value and opening open, or nothing if there is no such version;
    the proof leads to the root in the newest entry; and the tree head is signed for a log that ends with that entry. *)
Theorem C68_stored_values : forall f hs c vrf Ls sign (valid : bytes -> bytes -> Prop),
  (forall x, lenN (f x) = hs) -> 0 < hs <= 32 -> vrfGood hs vrf Ls -> (forall tbs sg, sign tbs = Ok sg -> valid tbs sg) ->
  forall t rs, runs (full f) hs c vrf sign Ls t rs -> rs <> [] ->
  exists h raw e es leaves root tbs, let s := durable (t_tx t) in let n := lenN rs in
    t_head t = Some h /\ th_size h = n /\
    mget (x_entries s) (n - 1) = Some raw /\ newLogEntry (N.to_nat hs) raw = Ok (e, []) /\
    Forall2 (fun e h => logEntryHash (full f) e = Ok h) (es ++ [e]) leaves /\ lenN leaves = n /\ Mth (full f) leaves root /\
    treeHeadTBS c n root = Ok tbs /\ valid tbs (th_sig h) /\
    forall l v, In l Ls -> v < 2 ^ 32 -> exists proof com,
      search (full f) (N.to_nat hs) (x_prefix s) n [keyOf vrf l v] = Ok (proof, [com]) /\
      Evaluate (full f) (N.to_nat hs) [(keyOf vrf l v, match com with Some b => b | None => [] end)] proof = Ok (le_root e) /\
      match nth_error (labelsNow rs l) (N.to_nat v) with
      | Some p => exists b, com = Some b /\ labelCommitment (full f) (pv_opening p) l v (pv_value p) = Ok b /\
          (okOpeningAndValue c {| ov_opening := pv_opening p; ov_value := pv_value p |} ->
           getVersion c s l v = Ok {| ov_opening := pv_opening p; ov_value := pv_value p |})
      | None => com = None
      end.
Proof. exact c68_stored. Qed.
Print Assumptions C68_stored_values.

(** The removed label has no commitment any more; the others do. *)
Example C68_example :
  runs (full toy32) 32 xc xvrf xsign xLs t3 [q1; q2; q3] /\
  exists proof a c, search (full toy32) 32 (x_prefix (durable (t_tx t3))) 3 [keyOf xvrf la 2; keyOf xvrf lb 0; keyOf xvrf lc 0; keyOf xvrf lc 1] =
    Ok (proof, [Some a; None; Some c; None]).
Proof. split; [exact x_runs3|]. do 3 eexists. vm_compute. reflexivity. Qed.

(** C66: what mutations leave behind for a label that was never removed is what C66 and its relatives assume of a server, so
    that its proofs for it convince clients. *)
Theorem C66_after_mutations : forall f hs c vrf Ls sign (valid : bytes -> bytes -> Prop),
  (forall x, lenN (f x) = hs) -> 0 < hs <= 32 -> vrfGood hs vrf Ls -> (forall tbs sg, sign tbs = Ok sg -> valid tbs sg) ->
  forall t rs, runs (full f) hs c vrf sign Ls t rs -> rs <> [] ->
  forall l, In l Ls -> Forall (fun r => ~ In l (rq_remove r)) rs -> lenN (labelsNow rs l) < 2 ^ 31 ->
  exists E, treeOf f hs vrf Ls c valid t E /\ map ep_labels E = labelsAfter 0 noLabels rs /\
    faithful f hs (worldOf f hs vrf (durable (t_tx t)) E l).
Proof. exact c66_after. Qed.
Print Assumptions C66_after_mutations.

(** End to end: after any mutations, the server's proof for the newest version of a label that was never removed convinces any client. *)
Theorem C66_newest_version_served : forall f hs c vrf Ls sign (valid : bytes -> bytes -> Prop),
  (forall x, lenN (f x) = hs) -> 0 < hs <= 32 -> vrfGood hs vrf Ls -> (forall tbs sg, sign tbs = Ok sg -> valid tbs sg) ->
  forall t rs, runs (full f) hs c vrf sign Ls t rs -> rs <> [] ->
  forall l, In l Ls -> Forall (fun r => ~ In l (rq_remove r)) rs -> lenN (labelsNow rs l) < 2 ^ 31 ->
  exists E, treeOf f hs vrf Ls c valid t E /\ map ep_labels E = labelsAfter 0 noLabels rs /\
    let W := worldOf f hs vrf (durable (t_tx t)) E l in
    forall now ver ret m nP, ver < 2 ^ 31 - 1 -> HandleSpec.keeps W (option_map fst m) ret ->
    let p := pbind (updateView c now (lenN rs) (option_map fst m)) (fun _ => greatestVersionSearch c ver (lenN rs)) in
    advances (lenN rs) (option_map fst m) \/ (exists a, honestAnswer W p = Ok a) ->
    convincing f hs W p (honestAnswer W p) ret m nP.
Proof. exact c66_served. Qed.
Print Assumptions C66_newest_version_served.

Example C66_after_example : runs (full toy32) 32 xc xvrf xsign xLs t3 [q1; q2; q3] /\ Forall (fun r => ~ In la (rq_remove r)) [q1; q2; q3] /\
  lenN (labelsNow [q1; q2; q3] la) = 3.
Proof. split; [exact x_runs3|]. split; [repeat constructor; cbn; intuition discriminate|vm_compute; reflexivity]. Qed.
