(** Concrete messages, and the witnesses of the refutations. *)
From Verif Require Import Base BaseProofs PrefixModel CodecModel CodecSpec.

Definition cfg (mode : N) : pubConfig :=
  {| pc_suite := 1; pc_hs := 2; pc_openSize := 3; pc_vrfSize := 4; pc_mode := mode;
     pc_sigKey := [x01; x02]; pc_vrfKey := [x03]; pc_leafKey := [x04]; pc_maxAuditorLag := 5; pc_auditorStart := 6; pc_auditorKey := [x07];
     pc_maxAhead := 8; pc_maxBehind := 9; pc_rmw := 10; pc_maxLife := 11 |}.
Definition proofX : pproof := {| p_results := [Inc 7; NonLeaf [x01; x02] [x03; x04] 255; NonPar 0]; p_elements := [[x05; x06]] |}.
Definition combX : combinedProof := {| cp_ts := [1; 18446744073709551615]; cp_proofs := [proofX]; cp_roots := [[x08; x09]]; cp_incl := [[x0a; x0b]; [x0c; x0d]] |}.
Definition headX : fullTreeHead := {| fth_head := Some {| th_size := 300; th_sig := [x01] |}; fth_auditor := None |}.
Definition respX : searchResponse :=
  {| sr_head := headX; sr_version := Some 70000; sr_opening := [x01; x02; x03]; sr_value := {| uv_value := [x61]; uv_sig := Some [x62] |};
     sr_ladder := [{| ls_proof := [x01; x01; x01; x01]; ls_commitment := None |}; {| ls_proof := [x01; x01; x01; x02]; ls_commitment := Some [x01; x02] |}];
     sr_search := combX |}.

(** The state retained after an answer "same head" under third-party auditing. *)
Definition oldX : clientState :=
  {| cs_head := {| th_size := 2; th_sig := [x01] |}; cs_auditor := Some {| ath_ts := 5; ath_size := 1; ath_sig := [x02] |};
     cs_subtrees := [[x03; x04]]; cs_entries := [(1, {| le_ts := 7; le_root := [x05; x06] |})] |}.
Definition sameX : fullTreeHead := {| fth_head := None; fth_auditor := None |}.
Definition newX : clientState := finishState oldX sameX (cs_subtrees oldX) (cs_entries oldX).

Lemma c36_refuted : exists c old fth subtrees entries raw msg,
  okClientState c old /\ (exists a, cs_auditor old = Some a) /\ pc_mode c = ThirdPartyAuditing /\ okFullTreeHead c fth /\
  okClientState c (finishState old fth subtrees entries) /\
  clientStateMarshal (finishState old fth subtrees entries) entries = Ok raw /\ parseState c raw = Fail msg.
Proof.
  assert (O : okClientState (cfg 3) oldX).
  { repeat split; try reflexivity; repeat constructor; intros []. }
  exists (cfg 3), oldX, sameX, (cs_subtrees oldX), (cs_entries oldX). do 2 eexists. split; [exact O|]. split; [eexists; reflexivity|].
  split; [reflexivity|]. split; [exact I|]. split.
  - destruct O as (O1 & O2 & O3 & O4 & O5). repeat split; assumption.
  - split; vm_compute; reflexivity.
Qed.

(** A label state with an owner *)
Definition ownX : labelState :=
  {| cl_contact := [(3, 1)]; cl_owner := Some {| os_starting := 4; os_verAt := 2; os_upcoming := [5; 6] |};
     cl_versions := [{| rv_version := 0; rv_vrf := [x01; x02]; rv_commitment := Some [x03; x04] |}] |}.
Lemma ownX_ok : okLabelState 2 ownX.
Proof. repeat split; repeat constructor. Qed.

(** A truncated label state is read without an error. *)
Lemma c35_truncated : exists x raw, okLabelState 2 x /\ labelStateMarshal x = Ok raw /\
  exists y, parseLabelState 2 (removelast raw) = Ok y /\ cl_versions x <> [] /\ cl_versions y = [].
Proof.
  exists {| cl_contact := [(3, 1)]; cl_owner := None; cl_versions := cl_versions ownX |}. eexists.
  split; [repeat split; repeat constructor|]. split; [vm_compute; reflexivity|]. eexists. split; [vm_compute; reflexivity|].
  split; [discriminate|reflexivity].
Qed.

(** A head without the auditor's, sent in auditing mode, is not read back. *)
Lemma c33_head : exists c f raw msg, pc_mode c = ThirdPartyAuditing /\ fullTreeHeadMarshal f = Ok raw /\ newFullTreeHead c raw = Fail msg.
Proof. exists (cfg 3), headX. do 2 eexists. split; [reflexivity|]. split; vm_compute; reflexivity. Qed.
(** A depth of 256 is written as 0. *)
Lemma c33_depth : exists p raw q, prefixProofMarshal p = Ok raw /\ newPrefixProof 2 raw = Ok (q, []) /\ q <> p.
Proof. exists {| p_results := [Inc 256]; p_elements := [] |}. do 2 eexists. split; [vm_compute; reflexivity|]. split; [vm_compute; reflexivity|]. discriminate. Qed.
