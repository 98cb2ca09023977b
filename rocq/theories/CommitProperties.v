(** C62: commitments (crypto/commitments).  [restrict f T] is the hash function [f] on the finite list of inputs [T]. *)
From Verif Require Import Base LogTreeSpec LogTreeExamples PrefixModel CodecModel CodecSpec CommitModel CommitProofs.
Open Scope N_scope.

(** C62. If the same commitment is computed for two openings (of the same length, as the decoder guarantees) and two
    triples of label, version and value, then the openings and the triples are the same, or the hash
    function has a collision among the inputs hashed. *)
Theorem C62_commitments_bind : forall f T o o' l l' v v' u u' c,
  List.length o = List.length o' -> v < 2 ^ 32 -> v' < 2 ^ 32 ->
  labelCommitment (restrict f T) o l v u = Ok c -> labelCommitment (restrict f T) o' l' v' u' = Ok c ->
  (o = o' /\ l = l' /\ v = v' /\ u = u') \/ collisionIn f T.
Proof. exact commit_binds. Qed.
Print Assumptions C62_commitments_bind.

(** C62. Verification accepts a freshly computed commitment, and nothing else. *)
Theorem C62_commitments_verify : forall f o b,
  exists c, Commit (full f) o b = Ok c /\ VerifyCommitment (full f) o b c = Ok true /\
    forall c', VerifyCommitment (full f) o b c' = Ok true -> c' = c.
Proof.
  exact (fun f o b => match commit_verifies f o b with
    | ex_intro _ c (conj E V) => ex_intro _ c (conj E (conj V (fun c' V' =>
        match eq_trans (eq_sym (verify_only _ _ _ _ V')) E in _ = r return match r with Ok x => c' = x | _ => True end with eq_refl => eq_refl end))) end).
Qed.
Print Assumptions C62_commitments_verify.

(** The openings must have the same length: a byte of the opening could move into the body. *)
Example C62_example :
  let o := repeat x07 16 in let u := {| uv_value := [x01; x02]; uv_sig := None |} in
  (exists c, labelCommitment (full toyHash) o [x61] 3 u = Ok c /\ List.length c = 8%nat) /\
  Commit (full toyHash) (o ++ [x09]) [x01] = Commit (full toyHash) o ([x09; x01]) /\
  labelCommitment (full toyHash) o [x61] 3 u <> labelCommitment (full toyHash) o [x61] 4 u.
Proof. cbv zeta. split; [eexists; split; vm_compute; reflexivity|]. split; [vm_compute; reflexivity|vm_compute; discriminate]. Qed.
