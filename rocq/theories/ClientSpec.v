(** Specification side of the client: what it means that keys, a server and a client state are genuine. *)
From Verif Require Import Base LogTreeModel LogTreeSpec TransMathModel PrefixModel CodecModel CodecSpec AlgModel HandleModel HandleSpec
  StoreModel CommitModel MutateModel MutateSpec ServerModel ClientModel.
Open Scope N_scope.

(** Proofs produced with the VRF key verify, and only its outputs do. *)
Definition vrfVerifies (vrf : bytes -> bytes * bytes) (vrfVerify : bytes -> bytes -> option bytes) : Prop :=
  (forall i, vrfVerify i (snd (vrf i)) = Some (fst (vrf i))) /\
  (forall i p o, vrfVerify i p = Some o -> o = fst (vrf i)).

(** Exactly the signatures made with the key verify. *)
Definition sigVerifies (sign : bytes -> res bytes) (verify : bytes -> bytes -> bool) : Prop :=
  forall m s, verify m s = true <-> sign m = Ok s.

(** The server that has opened the tree [t], without an auditor. *)
Definition serverOf (t : tree) : server := {| sv_db := durable (t_tx t); sv_head := t_head t; sv_auditor := None |}.

(** The state of a client that has seen the log [es] (its entries) with the tree head [h]. *)
Definition stateFor (f : bytes -> bytes) (h : treeHead) (es : list logEntry) (st : clientState) : Prop :=
  th_size h = lenN es /\ cs_head st = h /\
  (exists leaves, Forall2 (fun e h => logEntryHash (full f) e = Ok h) es leaves /\ FullValues (full f) leaves (lenN es) (cs_subtrees st)) /\
  exists front, frontier (lenN es) = Ok front /\
    cs_entries st = map (fun x => (x, nth (N.to_nat x) es {| le_ts := 0; le_root := [] |})) front.

(** [es] are entries of the log of [t]. *)
Definition logOf (t : tree) (es : list logEntry) : Prop :=
  forall x e, nth_error es (N.to_nat x) = Some e -> exists raw, logEntryMarshal e = Ok raw /\ mget (x_entries (durable (t_tx t))) x = Some raw.

(** The response without the proof that its log entries are in the log. *)
Definition withoutLogProof (r : searchResponse) : searchResponse :=
  {| sr_head := sr_head r; sr_version := sr_version r; sr_opening := sr_opening r; sr_value := sr_value r; sr_ladder := sr_ladder r;
     sr_search := {| cp_ts := cp_ts (sr_search r); cp_proofs := cp_proofs (sr_search r); cp_roots := cp_roots (sr_search r); cp_incl := [] |} |}.

(** The response with another proof that its log entries are in the log. *)
Definition withLogProof (r : searchResponse) (proof : list bytes) : searchResponse :=
  {| sr_head := sr_head r; sr_version := sr_version r; sr_opening := sr_opening r; sr_value := sr_value r; sr_ladder := sr_ladder r;
     sr_search := {| cp_ts := cp_ts (sr_search r); cp_proofs := cp_proofs (sr_search r); cp_roots := cp_roots (sr_search r); cp_incl := proof |} |}.

(** In the mode with third party management, the value is signed by the service operator. *)
Definition signedByOperator (c : pubConfig) (leafVerify : bytes -> bytes -> bool) (l : bytes) (v : N) (u : updateValue) : Prop :=
  pc_mode c = ThirdPartyManagement -> exists tbs sg, updateTBS c l v (uv_value u) = Ok tbs /\ uv_sig u = Some sg /\ leafVerify tbs sg = true.

(** The clock is close enough to the timestamp [ts]. *)
Definition clockFine (c : pubConfig) (now ts : N) : Prop := now < 2 ^ 64 /\ ts <= now + pc_maxAhead c /\ now <= ts + pc_maxBehind c.

(** [st] is the state of a client that has seen the log of [t], which now has [n] entries, at some time: it covers an initial
    part of the log. *)
Definition hasSeen (f : bytes -> bytes) (t : tree) (n : N) (st : clientState) : Prop :=
  exists es, stateFor f (cs_head st) es st /\ logOf t es /\ 1 <= lenN es <= n /\ Forall (fun e => le_ts e < two64) es.

(** The state a client can keep after a response with the tree head [h] and the proven [result]. *)
Definition stateWith (h : treeHead) (result : proofResult) : clientState :=
  {| cs_head := h; cs_auditor := None; cs_subtrees := pr_subtrees result; cs_entries := pr_entries result |}.

(** A version of a label that can be read back: its opening has the right size, and it carries a signature exactly if the mode
    asks for one. *)
Definition readable (c : pubConfig) (p : pubVersion) : Prop := okOpeningAndValue c {| ov_opening := pv_opening p; ov_value := pv_value p |}.

(** The time of the last mutation. *)
Definition latest (rs : list request) : N := List.last (map rq_now rs) 0.

(** After the mutations [rs], a search for [version] finds version [v] of the label [l]: without a version, [v] is the greatest;
    with one, it is that version, no log entry has expired, and the client's last position is no obstacle (see C10). *)
Definition asksFor (c : pubConfig) (rs : list request) (l : bytes) (last version : option N) (v : N) : Prop :=
  match version with
  | None => lenN (labelsNow rs l) = v + 1
  | Some w => w = v /\ (forall r, In r rs -> isExpired (pc_maxLife c) (rq_now r) (latest rs) = false) /\ advances (lenN rs) last
  end.
