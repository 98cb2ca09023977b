(** Specification for C103: what the users of a log that an auditor vouches for agree on. *)
From Verif Require Import Base LogTreeModel LogTreeSpec LaddersModel PrefixModel PrefixSpec CodecModel CodecSpec AlgModel HandleModel CommitModel MutateSpec ServerModel ClientModel SoundSpec GuardSpec AuditorModel VouchSpec.
Open Scope N_scope.
Local Open Scope list_scope.

(** What the verifier does not check (C26, C27; compare [noAliases]): a leaf shown by a result of non-inclusion agrees with what the response claims of that leaf's version, and, if the search is
    for the greatest version, none is the leaf of a later version. *)
Definition noLaterLeaves (H : bytes -> option bytes) (vrf : bytes -> bytes * bytes) (req : searchRequest) (resp : searchResponse) : Prop :=
  forall p v c d, In p (cp_proofs (sr_search resp)) -> In (NonLeaf v c d) (p_results p) ->
    (forall w com, claims H req resp w com -> v = keyOf vrf (sq_label req) w -> c = com) /\
    (sq_version req = None -> forall t w, searchedVersion req resp = Ok t -> t < w -> w < 2 ^ 32 -> v <> keyOf vrf (sq_label req) w).

(** A user's search in the log of the entries [es] passed all checks but those of signatures: the log is the one with the leaves [leaves]. *)
Definition foundIn (H : bytes -> option bytes) (hs : N) (c : pubConfig) (now : N) (vrfVerify : bytes -> bytes -> option bytes) (leafVerify : bytes -> bytes -> bool)
  (vrf : bytes -> bytes * bytes) (es : list logEntry) (leaves : list bytes) (state : option clientState) (req : searchRequest) (resp : searchResponse) : Prop :=
  keptFrom es state /\ okSearchRequest req /\ okSearchResponse c (sq_version req) resp /\ noLaterLeaves H vrf req resp /\
  exists checked ver pos result root, checkSearch H hs c now vrfVerify leafVerify state req resp = Ok (checked, ver, pos) /\ v_n checked = lenN es /\
    dpFinish H hs (v_d checked) (v_n checked) (v_nP checked) (v_m checked) = Ok result /\
    logRoot H hs (v_n checked) (pr_subtrees result) = Ok root /\ Mth H leaves root.

(** The log as it was when it had [k] entries. *)
Definition soFar {A} (k : N) (l : list A) : list A := firstn (N.to_nat k) l.
