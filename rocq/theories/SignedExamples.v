(** A concrete owner who is told of a new version of their label. *)
From Verif Require Import Base BaseProofs CodecModel LogTreeModel LogTreeSpec PrefixExamples AlgModel HandleModel CommitModel MutateModel MutateSpec MutateExamples ServerModel ClientModel ClientSpec
  ClientExamples SignedSpec SignedProofs.
Open Scope N_scope.
Local Open Scope list_scope.

(** An owner of version 0, which is in the first entry, and the request to publish another value. *)
Definition ownerState0 : labelState :=
  {| cl_contact := []; cl_owner := Some {| os_starting := 0; os_verAt := 0%Z; os_upcoming := [] |};
     cl_versions := [{| rv_version := 0; rv_vrf := keyOf xvrf la 0; rv_commitment := Some (comIn r3to3 0) |};
                     {| rv_version := 1; rv_vrf := keyOf xvrf la 1; rv_commitment := None |}] |}.
Definition verifier1 : streamVerifier := {| ss_state := Some st3; ss_label := ownerState0;
  ss_req := {| uq_last := Some 3; uq_label := la; uq_greatest := Some 0; uq_values := [[x07]] |} |}.

(** An answer: the value is in the second entry, says the server, without proof. *)
Definition vrfProof (v : N) : bytes := snd (xvrf (getOk [] (vrfInput la v))).
Definition confirm (s : option bytes) : updateResponse :=
  {| ur_head := {| fth_head := None; fth_auditor := None |}; ur_position := 1; ur_values := []; ur_info := [{| ui_opening := repeat x00 16; ui_sig := s |}];
     ur_ladder := map (fun v => {| ls_proof := vrfProof v; ls_commitment := None |}) [2; 3];
     ur_update := {| cp_ts := []; cp_proofs := []; cp_roots := []; cp_incl := [] |} |}.

Definition leafTBS1 : bytes := Eval vm_compute in getOk [] (updateTBS xcm la 1 [x07]).
(** The operator has signed the value. *)
Definition xleaf1 (tbs s : bytes) : bool := bytes_eqb tbs leafTBS1 && bytes_eqb s (toy32 leafTBS1).

Lemma c89_update_example : operatorSigned xcm xleaf1 (fun l v x => (l, v, x) = (la, 1, [x07])) /\
  (exists out, streamVerify (full toy32) 32 xcm 3000 xvv xsv xleaf1 xsv emptyClient verifier1 (confirm (Some (toy32 leafTBS1))) = Ok out) /\
  (exists e, streamVerify (full toy32) 32 xcm 3000 xvv xsv xleaf1 xsv emptyClient verifier1 (confirm None) = Fail e).
Proof.
  split; [|split].
  - intros tbs s E. unfold xleaf1 in E. apply andb_true_iff in E. destruct E as [E _]. apply bytes_eqb_eq in E. subst tbs.
    exists la, 1, [x07]. split; [reflexivity|]. split; [reflexivity|vm_compute; reflexivity].
  - assert (Q : (match streamVerify (full toy32) 32 xcm 3000 xvv xsv xleaf1 xsv emptyClient verifier1 (confirm (Some (toy32 leafTBS1))) with Ok _ => true | _ => false end) = true) by (vm_compute; reflexivity).
    destruct (streamVerify _ _ _ _ _ _ _ _ _ _ _) as [out| | |]; try discriminate. eauto.
  - assert (Q : (match streamVerify (full toy32) 32 xcm 3000 xvv xsv xleaf1 xsv emptyClient verifier1 (confirm None) with Fail _ => true | _ => false end) = true) by (vm_compute; reflexivity).
    destruct (streamVerify _ _ _ _ _ _ _ _ _ _ _) as [out|e| |]; try discriminate. eauto.
Qed.
