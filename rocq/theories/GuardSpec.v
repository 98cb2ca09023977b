(** Specification of what monitoring guards against: a log whose entries commit to prefix trees with any contents whatsoever, and
    what such a tree must hold for the owner of a label, or for someone who monitors it, to be satisfied. *)
From Verif Require Import Base LogTreeModel LogTreeSpec TransMathSpec LaddersModel PrefixModel PrefixSpec CodecModel CodecSpec AlgModel AlgSpec HandleModel StoreModel MutateSpec ServerModel ClientModel.
Open Scope N_scope.

(** ** A log that need not be honest *)

(** [es] are log entries, [leaves] their hashes, and [trees] the prefix trees whose roots the entries hold. *)
Definition commitsTo (H : bytes -> option bytes) (hs : nat) (es : list logEntry) (leaves : list bytes) (trees : list trie) : Prop :=
  Forall2 (fun e h => logEntryHash H e = Ok h) es leaves /\
  Forall2 (fun e t => Canon hs [] t /\ thash H hs t = Some (le_root e)) es trees.

Definition timeAt (es : list logEntry) (x : N) : N := match nth_error es (N.to_nat x) with Some e => le_ts e | None => 0 end.

(** Timestamps are 64 bit numbers that never decrease. *)
Definition ordered (es : list logEntry) : Prop :=
  1 <= lenN es < 2 ^ 63 /\ Forall (fun e => le_ts e < two64) es /\ forall x y, x <= y < lenN es -> timeAt es x <= timeAt es y.

(** ** What a prefix tree holds of a label *)

(** The commitment to version [w] of the label [l] in the tree. *)
Definition heldAs (vrf : bytes -> bytes * bytes) (l : bytes) (t : trie) (w : N) : option bytes := assoc (PrefixSpec.contents t) (keyOf vrf l w).

(** The tree shows [g] as the greatest version of the label (-1: none).  Of the versions in the search ladder of [g], among which are
    [g] and [g + 1], exactly those up to [g] are in the tree, with the commitments that are [known]. *)
Definition showsGreatest (vrf : bytes -> bytes * bytes) (l : bytes) (known : N -> bytes -> Prop) (t : trie) (g : Z) : Prop :=
  (g = (-1)%Z -> heldAs vrf l t 0 = None) /\
  forall v, g = Z.of_N v -> exists ladder, searchBinaryLadder v v [] [] = Ok ladder /\ In v ladder /\ In (v + 1) ladder /\
    forall w, In w ladder -> if w <=? v then exists com, known w com /\ heldAs vrf l t w = Some com else heldAs vrf l t w = None.

(** The tree holds the version [v], and the versions below it that monitoring looks at, with the commitments that are [known]. *)
Definition showsVersion (vrf : bytes -> bytes * bytes) (l : bytes) (known : N -> bytes -> Prop) (t : trie) (v : N) : Prop :=
  exists ladder, monitoringBinaryLadder v = Ok ladder /\ In v ladder /\ forall w, In w ladder -> exists com, known w com /\ heldAs vrf l t w = Some com.

(** ** What the verifier does not check (C26, C27)

    A leaf shown to prove that some version is absent agrees with the commitment that is [known] of that leaf's version; and it is
    not the leaf of the very version that it is to prove absent. *)
Definition aliasFree (vrf : bytes -> bytes * bytes) (l : bytes) (known : N -> bytes -> Prop) (proofs : list pproof) : Prop :=
  forall p, In p proofs ->
  (forall v c d w com, In (NonLeaf v c d) (p_results p) -> known w com -> v = keyOf vrf l w -> c = com) /\
  (forall t ladder r i w v c d, searchBinaryLadder t t [] [] = Ok ladder -> interpretSearchLadder ladder t (map rincl (p_results p)) = Ok r ->
     nth_error ladder i = Some w -> nth_error (p_results p) i = Some (NonLeaf v c d) -> v <> keyOf vrf l w).

(** ** What the client knows *)

(** The VRF outputs that the client keeps for the label are the right ones. *)
Definition genuineKeys (vrf : bytes -> bytes * bytes) (l : bytes) (ls : labelState) : Prop :=
  Forall (fun r => rv_vrf r = keyOf vrf l (rv_version r)) (cl_versions ls).
(** The commitment that the client keeps for version [w]. *)
Definition keeps (ls : labelState) (w : N) (com : bytes) : Prop :=
  exists r, In r (cl_versions ls) /\ rv_version r = w /\ rv_commitment r = Some com.
(** The commitment that the response to the initialization gives for version [w]. *)
Definition initClaims (resp : ownerInitResponse) (w : N) (com : bytes) : Prop :=
  exists ladder i step, allLadderVersions (ir_versions resp) = Ok ladder /\ nth_error ladder i = Some w /\
    nth_error (ir_ladder resp) i = Some step /\ ls_commitment step = Some com.

(** The log entries that the client keeps are entries of the log. *)
Definition keptFrom (es : list logEntry) (state : option clientState) : Prop :=
  match state with Some st => forall x e, In (x, e) (cs_entries st) -> nth_error es (N.to_nat x) = Some e | None => True end.

(** ** What someone who monitors a label looks for

    A user who saw version [v] of the label at entry [x] keeps the pair [(x, v)].  Distinguished entries are for the owner of the
    label to look at; until one of them is an ancestor of [x] to the right of [x], the user looks at the ancestors to the right
    themselves. *)
Section Way.
Variables (n : N) (ts : N -> N) (rmw : N).

(** [z] is an ancestor of [x] to its right, and no such ancestor before [z] is distinguished. *)
Definition onWay (x z : N) : Prop := sanc n x z /\ x < z /\ forall d, distinguished n ts rmw d -> sanc n x d -> x <= d -> z <= d.
(** Neither [x] nor an ancestor to its right is distinguished yet. *)
Definition pending (x : N) : Prop := forall d, distinguished n ts rmw d -> sanc n x d -> x <= d -> False.
(** [y] has no ancestor to its right. *)
Definition atTop (y : N) : Prop := forall z, sanc n y z -> z <= y.

(** The tree of every entry on the way, unless [exempt], shows the version or a greater one. *)
Definition staysShown (vrf : bytes -> bytes * bytes) (l : bytes) (known : N -> bytes -> Prop) (trees : list trie) (exempt : N -> Prop) (old : list mapEntry) : Prop :=
  forall x v z t, In (x, v) old -> onWay x z -> ~ exempt z -> nth_error trees (N.to_nat z) = Some t -> exists v', v <= v' /\ showsVersion vrf l known t v'.

(** [new] is what is to be kept after [old].  A pair that is kept has moved to the top of its way, and no pair is lost that is still to be looked
    at, unless another one with as great a version has taken its place; except that a pair that had arrived at the top before stays only
    if no other pair arrives there (C59). *)
Definition movedUp (old : list mapEntry) (new : N -> N -> Prop) : Prop :=
  (forall y v, new y v -> pending y /\ atTop y /\ exists x, In (x, v) old /\ (y = x \/ onWay x y)) /\
  (forall x v, In (x, v) old -> pending x -> ~ atTop x -> exists y v', onWay x y /\ atTop y /\ v <= v' /\ new y v') /\
  (forall x v, In (x, v) old -> pending x -> atTop x -> (forall x' v', In (x', v') old -> sanc n x' x -> x <= x') -> new x v).
End Way.

(** The pairs in a monitor. *)
Definition pointsTo (m : monitor) (y v : N) : Prop := exists p, mo_contact m = Some p /\ mget p y = Some v.

(** ** The parts of client.go:261-461 before [Finish] (see [clientOwnerInit], [clientContactMonitor], [clientOwnerMonitor]) *)
Section Checks.
Variable H : bytes -> option bytes.
Variable hs : N.
Variable c : pubConfig.
Variable now : N.
Variable vrfVerify : bytes -> bytes -> option bytes.

(** client.go:261-301; the entries looked at, and the monitor, are returned *)
Definition checkOwnerInit (state : option clientState) (req : ownerInitRequest) (resp : ownerInitResponse) : res (cverifier * list N * monitor) :=
  let* v := newCVerifier state (iq_last req) (ir_head resp) (ir_init resp) in
  let* ladder := allLadderVersions (ir_versions resp) in
  let* v1 := processLadder hs vrfVerify v (iq_label req) (ir_ladder resp) ladder [] in
  if existsb (fun '(ver, st) => existsb (N.eqb ver) (ir_versions resp) && match ls_commitment st with None => true | Some _ => false end)
       (combine ladder (ir_ladder resp))
  then Fail "commitment not provided when expected" else
  let* (_, v2) := execV H hs (updateView c now (v_n v1) (v_m v1)) v1 in
  let* (mo, v3) := execV H hs (newMonitor (v_n v2)) v2 in
  let* ((xs, mo'), v4) := execV H hs (ownerInit c mo (iq_start req) (ir_versions resp)) v3 in
  Ok (v4, xs, mo').

(** client.go:367-397 *)
Definition checkContactMonitor (state : option clientState) (ls : labelState) (req : contactRequest) (resp : monitorResponse) : res (cverifier * monitor) :=
  let* v := newCVerifier state (cq_last req) (mr_head resp) (mr_monitor resp) in
  let* v1 := addLabelState hs v ls in
  let* (_, v2) := execV H hs (updateView c now (v_n v1) (v_m v1)) v1 in
  let* (mo, v3) := execV H hs (newMonitor (v_n v2)) v2 in
  let* (mo', v4) := execV H hs (contactMonitor c (withContact mo (contactPtrs (cl_contact ls)))) v3 in
  Ok (v4, mo').

(** client.go:417-448 *)
Definition checkOwnerMonitor (state : option clientState) (ls : labelState) (req : ownerMonitorRequest) (resp : monitorResponse) : res (cverifier * monitor) :=
  let* v := newCVerifier state (oq_last req) (mr_head resp) (mr_monitor resp) in
  let* v1 := addLabelState hs v ls in
  let* (_, v2) := execV H hs (updateView c now (v_n v1) (v_m v1)) v1 in
  let* (mo, v3) := execV H hs (newMonitor (v_n v2)) v2 in
  match cl_owner ls with
  | None => Panic "nil pointer dereference"
  | Some o =>
      let* (mo1, v4) := execV H hs (contactMonitor c (withOwner (withContact mo (contactPtrs (cl_contact ls))) o)) v3 in
      let* (out, v5) := execV H hs (ownerMonitor c mo1) v4 in
      match fst out with
      | inl e => Fail e
      | inr _ => Ok (v5, snd out)
      end
  end.
End Checks.

(** ** What is stored *)

(** If a tree head was given, its signature is one of the computed root. *)
Definition signedHead (c : pubConfig) (sigVerify : bytes -> bytes -> bool) (fth : fullTreeHead) (n : N) (root : bytes) : Prop :=
  forall th, fth_head fth = Some th -> exists tbs, treeHeadTBS c n root = Ok tbs /\ sigVerify tbs (th_sig th) = true.

(** [k'] holds [ls'] for the label, filed under the log entry [pos] (labels filed under the rightmost distinguished entry or one to its
    left are due for monitoring), or nothing if there is nothing to monitor, and the same as [k] for the other labels. *)
Definition stores (k k' : clientStore) (label : bytes) (ls' : labelState) (pos : N) : Prop :=
  (cl_contact ls' = [] /\ cl_owner ls' = None -> bget (k_labels k') label = None) /\
  (~ (cl_contact ls' = [] /\ cl_owner ls' = None) -> exists raw, labelStateMarshal ls' = Ok raw /\ bget (k_labels k') label = Some (raw, pos)) /\
  forall l', l' <> label -> bget (k_labels k') l' = bget (k_labels k) l'.
