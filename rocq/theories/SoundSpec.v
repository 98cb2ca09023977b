(** Specification of soundness: what the log entries and the prefix trees they commit to hold, and which responses are free of the
    aliases that C26 and C27 are about. *)
From Verif Require Import Base LogTreeModel LogTreeSpec LaddersModel PrefixModel PrefixSpec CodecModel CodecSpec AlgModel HandleModel CommitModel MutateModel MutateSpec ServerModel ClientModel ClientSpec.
Open Scope N_scope.

(** The root in the log entry [e] is that of a prefix tree that holds exactly the versions [vs] of the label [l]. *)
Definition holdsVersions (H : bytes -> option bytes) (hs : nat) (vrf : bytes -> bytes * bytes) (l : bytes) (e : logEntry) (vs : list pubVersion) : Prop :=
  exists t, Canon hs [] t /\ thash H hs t = Some (le_root e) /\
    forall v, v < 2 ^ 32 -> match nth_error vs (N.to_nat v) with
      | Some p => exists com, labelCommitment H (pv_opening p) l v (pv_value p) = Ok com /\ assoc (PrefixSpec.contents t) (keyOf vrf l v) = Some com
      | None => assoc (PrefixSpec.contents t) (keyOf vrf l v) = None
      end.

(** The response to the request claims that the commitment of version [w] is [com]: it gives the value and the opening of the
    version searched for, and commitments to the others of the ladder. *)
Definition claims (H : bytes -> option bytes) (req : searchRequest) (resp : searchResponse) (w : N) (com : bytes) : Prop :=
  exists target ladder, searchedVersion req resp = Ok target /\ searchBinaryLadder target target [] [] = Ok ladder /\
    ((w = target /\ labelCommitment H (sr_opening resp) (sq_label req) target (sr_value resp) = Ok com) \/
     exists i step, nth_error ladder i = Some w /\ nth_error (sr_ladder resp) i = Some step /\ ls_commitment step = Some com).

(** What the verifier does not check (see C26, C27; honest responses satisfy it): a leaf shown by a result of non-inclusion
    agrees with what the response claims of that leaf's version, and, if the search is for the greatest version, none is the leaf
    of the version after it. *)
Definition noAliases (H : bytes -> option bytes) (vrf : bytes -> bytes * bytes) (req : searchRequest) (resp : searchResponse) : Prop :=
  forall p v c d, In p (cp_proofs (sr_search resp)) -> In (NonLeaf v c d) (p_results p) ->
    (forall w com, claims H req resp w com -> v = keyOf vrf (sq_label req) w -> c = com) /\
    (sq_version req = None -> forall w, searchedVersion req resp = Ok w -> v <> keyOf vrf (sq_label req) (w + 1)).

(** The log's signature is not forged: the tree heads that verify are those of the log, at some size. *)
Definition onlyHeadsOf (f : bytes -> bytes) (c : pubConfig) (t : tree) (n : N) (sigVerify : bytes -> bytes -> bool) : Prop :=
  forall size root tbs sg, u64ok size -> treeHeadTBS c size root = Ok tbs -> sigVerify tbs sg = true ->
    1 <= size <= n /\ exists es leaves, logOf t es /\ lenN es = size /\ Forall (fun e => le_ts e < two64) es /\
      Forall2 (fun e h => logEntryHash (full f) e = Ok h) es leaves /\ Mth (full f) leaves root.
