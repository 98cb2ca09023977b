(** C90 and C91: what the owner of a label knows once they have accepted the answer to an update. *)
From Verif Require Import Base LogTreeSpec PrefixSpec PrefixExamples CodecModel AlgModel HandleModel CommitModel MutateModel MutateSpec MutateExamples ServerModel ClientModel ClientSpec ClientProofs ClientExamples
  SignedSpec ConfirmSpec ConfirmProofs ConfirmExamples.
Open Scope N_scope.
Local Open Scope list_scope.

(** C90 is false: without any collision of the hash function, with an unforgeable signature and a VRF with unique outputs, an owner
    who knows the log and the true versions of their label accepts the answer that the value they submitted is the next version, in
    some entry, and waits to see it there, although the log has published another value as that version in that entry. *)
Theorem C90_refuted : exists f T hs c vrf vrfVerify sign sigVerify Ls t rs st es now k sv o resp out l p x,
  (forall x, lenN (f x) = hs) /\ ~ broken f (N.to_nat hs) T /\ vrfGood hs vrf Ls /\ vrfVerifies vrf vrfVerify /\ sigVerifies sign sigVerify /\
  runs (full f) hs c vrf sign Ls t rs /\ logOf t es /\ t_head t = Some (cs_head st) /\ stateFor f (cs_head st) es st /\ In l Ls /\
  ss_state sv = Some st /\ cl_owner (ss_label sv) = Some o /\ knowsVersions rs l o /\
  ss_req sv = {| uq_last := getLast (Some st); uq_label := l; uq_greatest := ownerGreatest o; uq_values := [x] |} /\
  streamVerify (restrict f T) hs c now vrfVerify sigVerify sigVerify sigVerify k sv resp = Ok out /\
  (exists o', cl_owner (ss_label (snd out)) = Some o' /\ os_upcoming o' = [ur_position resp]) /\
  nth_error (labelsNow (firstn (S (N.to_nat (ur_position resp))) rs) l) (N.to_nat (newVersion sv)) = Some p /\ pv_pos p = ur_position resp /\
  (exists com, labelCommitment (restrict f T) (pv_opening p) l (newVersion sv) (pv_value p) = Ok com) /\ uv_value (pv_value p) <> x.
Proof. exact c90_refuted. Qed.
Print Assumptions C90_refuted.

(** Nor is C90 false only of some answers.  Whenever an owner accepts the answer to an update, they accept the same answer, with the same effect, to an update with any other first value [x'], as long
    as [x'] passes the check of the operator's signature (if the log is managed by a third party) and can be committed to: nothing in an accepted answer says which first value is in the log. *)
Theorem C90_first_value_unchecked : forall H hs c now vrfVerify sigVerify leafVerify audVerify k sv resp k' sv' x x' rest,
  streamVerify H hs c now vrfVerify sigVerify leafVerify audVerify k sv resp = Ok (k', sv') -> uq_values (ss_req sv) = x :: rest ->
  (forall info infos, ur_info resp = info :: infos ->
     verifyUpdateValue c leafVerify (uq_label (ss_req sv)) (newVersion sv) {| uv_value := x'; uv_sig := ui_sig info |} = Ok tt /\
     exists com, labelCommitment H (ui_opening info) (uq_label (ss_req sv)) (newVersion sv) {| uv_value := x'; uv_sig := ui_sig info |} = Ok com) ->
  streamVerify H hs c now vrfVerify sigVerify leafVerify audVerify k (submitting x' sv) resp = Ok (k', submitting x' sv').
Proof. exact c90_unchecked. Qed.
Print Assumptions C90_first_value_unchecked.

Example C90_unchecked_example : streamVerify (full toy32) 32 xc 3000 xvv xsv xsv xsv emptyClient verifierC2 confirmC2 = Ok confirmedC2 /\ uq_values (ss_req verifierC2) = [x07] :: [[x08]] /\
  (forall info infos, ur_info confirmC2 = info :: infos -> verifyUpdateValue xc xsv (uq_label (ss_req verifierC2)) (newVersion verifierC2) {| uv_value := [x09]; uv_sig := ui_sig info |} = Ok tt /\
     exists com, labelCommitment (full toy32) (ui_opening info) (uq_label (ss_req verifierC2)) (newVersion verifierC2) {| uv_value := [x09]; uv_sig := ui_sig info |} = Ok com) /\
  streamVerify (full toy32) 32 xc 3000 xvv xsv xsv xsv emptyClient (submitting [x09] verifierC2) confirmC2 = Ok (fst confirmedC2, submitting [x09] (snd confirmedC2)).
Proof. exact c90_example. Qed.

(** C91 is false: what the owner keeps about the first version of an update after it was accepted is what they kept before, whatever
    the update, the state and the answer. *)
Theorem C91_first_version_refuted : forall H hs c now vrfVerify sigVerify leafVerify audVerify k sv resp k' sv',
  streamVerify H hs c now vrfVerify sigVerify leafVerify audVerify k sv resp = Ok (k', sv') ->
  forall e, In e (cl_versions (ss_label sv')) -> rv_version e = newVersion sv -> In e (cl_versions (ss_label sv)).
Proof. exact c91_never. Qed.
Print Assumptions C91_first_version_refuted.

(** C91, in part: of a new version that the owner keeps, and of which they did not keep the same before, they keep the commitment to the value submitted, with
    the opening of the answer.  Missing: the first of the new versions, and others of which the owner knew that they did not exist. *)
Theorem C91_partial : forall H hs c now vrfVerify sigVerify leafVerify audVerify k sv resp k' sv',
  streamVerify H hs c now vrfVerify sigVerify leafVerify audVerify k sv resp = Ok (k', sv') ->
  forall i val info e, nth_error (updatedValues sv resp) i = Some val -> nth_error (ur_info resp) i = Some info -> newVersion sv + N.of_nat i < 2 ^ 32 ->
  In e (cl_versions (ss_label sv')) -> rv_version e = newVersion sv + N.of_nat i -> ~ In e (cl_versions (ss_label sv)) ->
  exists com, labelCommitment H (ui_opening info) (uq_label (ss_req sv)) (rv_version e) {| uv_value := val; uv_sig := ui_sig info |} = Ok com /\ rv_commitment e = Some com.
Proof. exact c91_partial. Qed.
Print Assumptions C91_partial.

(** An update of two values, which become versions 0 and 1: the owner keeps the commitment to the second. *)
Example C91_example : streamVerify (full toy32) 32 xc 3000 xvv xsv xsv xsv emptyClient verifierC2 confirmC2 = Ok confirmedC2 /\
  newVersion verifierC2 = 0 /\
  match cl_versions (ss_label (snd confirmedC2)) with
  | [e0; e1; e2; e3] => map rv_version [e0; e1; e2; e3] = [0; 1; 2; 3] /\ map rv_commitment [e0; e2; e3] = [None; None; None] /\
      exists com, labelCommitment (full toy32) (repeat x01 16) lc 1 {| uv_value := [x08]; uv_sig := None |} = Ok com /\ rv_commitment e1 = Some com
  | _ => False
  end.
Proof. exact c91_example. Qed.
