(** C103: what the users and the owner of a label agree on, if an auditor vouches for the log. *)
From Verif Require Import Base LogTreeModel LogTreeSpec LaddersModel PrefixModel PrefixSpec PrefixExamples CodecModel CodecSpec AlgModel HandleModel CommitModel MutateSpec MutateExamples ServerModel ClientModel ClientSpec ClientExamples
  AuditorModel SoundSpec GuardSpec GuardExamples VouchSpec VouchExamples AgreeSpec AgreeProofs AgreeExamples.
Open Scope N_scope.
Local Open Scope list_scope.

(** C103, two users.  An auditor vouches for the log (as in C102); nothing is assumed of the server.  One user's search for the label was accepted when the log had [k1] entries, another user's when it
    had [k2 >= k1].  If both were given the same version they were given the same value.  If the later search was for the greatest version, the earlier one did not return the version right after it;
    and if both were for the greatest version, the earlier user was not given a greater one.  Or the hash function is broken on the inputs [T]. *)
Theorem C103_users_agree : forall f T hs, (forall x, lenN (f x) = hs) -> 0 < hs ->
  forall vrf vrfVerify, vrfVerifies vrf vrfVerify -> forall c, pc_hs c = N.to_nat hs ->
  forall start us es leaves trees, logOf (restrict f T) (N.to_nat hs) start us es leaves trees ->
  forall now1 leafVerify1 k1 state1 req1 resp1 now2 leafVerify2 k2 state2 req2 resp2,
  1 <= k1 <= k2 -> k2 <= lenN es -> sq_label req1 = sq_label req2 ->
  foundIn (restrict f T) hs c now1 vrfVerify leafVerify1 vrf (soFar k1 es) (soFar k1 leaves) state1 req1 resp1 ->
  foundIn (restrict f T) hs c now2 vrfVerify leafVerify2 vrf (soFar k2 es) (soFar k2 leaves) state2 req2 resp2 ->
  (exists v1 v2, searchedVersion req1 resp1 = Ok v1 /\ searchedVersion req2 resp2 = Ok v2 /\
    (v1 = v2 -> sr_value resp1 = sr_value resp2) /\
    (sq_version req2 = None -> v1 <> v2 + 1 /\ (sq_version req1 = None -> v1 <= v2)))
  \/ broken f (N.to_nat hs) T.
Proof. exact users_agree. Qed.
Print Assumptions C103_users_agree.

Example C103_users_example : logOf (restrict toy32 atab) 32 [] us3 es3n (leavesIn es3n) trees3n /\ ~ broken toy32 32 atab /\
  foundIn (restrict toy32 atab) 32 xc 2000 xvv xsv xvrf (soFar 2 es3n) (soFar 2 (leavesIn es3n)) None q0 ra2 /\ searchedVersion q0 ra2 = Ok 1 /\
  foundIn (restrict toy32 atab) 32 xc 3000 xvv xsv xvrf (soFar 3 es3n) (soFar 3 (leavesIn es3n)) None q0 ra3 /\ searchedVersion q0 ra3 = Ok 2.
Proof. exact c103_users. Qed.

(** C103, a user and the owner.  The owner's monitoring of the log, when it had [ko] entries, found at the distinguished entry [d] the greatest version [g] that the owner had published by then
    (what [settledAt] says, which C102 concludes; -1: none).  Then, whenever a user searched:  the value that the user was given is the one that the owner knows, if its version is [g] or one of the
    versions up to [g] that the owner looked at; a search for the greatest version returns [g] or a greater one, if the log contained entry [d]; and the version after [g] is not found in the log up to [d]. *)
Theorem C103_owner_agrees : forall f T hs, (forall x, lenN (f x) = hs) -> 0 < hs ->
  forall vrf vrfVerify, vrfVerifies vrf vrfVerify -> forall c, pc_hs c = N.to_nat hs ->
  forall start us es leaves trees, logOf (restrict f T) (N.to_nat hs) start us es leaves trees ->
  forall known l ko d g now leafVerify k state req resp,
  1 <= k <= lenN es -> d < ko -> ko <= lenN es -> settledAt vrf l known (soFar ko trees) d g -> sq_label req = l ->
  foundIn (restrict f T) hs c now vrfVerify leafVerify vrf (soFar k es) (soFar k leaves) state req resp ->
  (exists v com, searchedVersion req resp = Ok v /\ labelCommitment (restrict f T) (sr_opening resp) l v (sr_value resp) = Ok com /\
    (forall gv ladder, g = Z.of_N gv -> searchBinaryLadder gv gv [] [] = Ok ladder -> In v ladder -> v <= gv -> known v com) /\
    (sq_version req = None -> d < k -> (g <= Z.of_N v)%Z) /\
    (k <= d + 1 -> (-1 <= g)%Z -> Z.of_N v <> (g + 1)%Z))
  \/ broken f (N.to_nat hs) T.
Proof. exact owner_agrees. Qed.
Print Assumptions C103_owner_agrees.

(** In the log of the example above, version 1 is settled at the second entry. *)
Example C103_owner_example : settledAt xvrf la (keeps ols) (soFar 3 trees3n) 1 1 /\ exists ladder, searchBinaryLadder 1 1 [] [] = Ok ladder /\ In 1 ladder.
Proof. exact c103_owner. Qed.
