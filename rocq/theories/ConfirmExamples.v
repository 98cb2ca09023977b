(** A concrete owner who is told of a new version of their label, which is not the one in the log. *)
From Verif Require Import Base BaseProofs CodecModel CodecSpec LogTreeModel LogTreeSpec PrefixSpec PrefixExamples AlgModel HandleModel CommitModel MutateModel MutateSpec MutateExamples ServerModel ClientModel ClientSpec
  ClientProofs ClientExamples SignedSpec ConfirmSpec.
Open Scope N_scope.
Local Open Scope list_scope.

(** An owner without versions after the first entry of the log. *)
Definition ownerC : ownerState := {| os_starting := 0; os_verAt := (-1)%Z; os_upcoming := [] |}.
Definition stateC : labelState :=
  {| cl_contact := []; cl_owner := Some ownerC; cl_versions := [{| rv_version := 0; rv_vrf := keyOf xvrf lc 0; rv_commitment := None |}] |}.
Definition verifierC : streamVerifier := {| ss_state := Some st3; ss_label := stateC;
  ss_req := {| uq_last := getLast (Some st3); uq_label := lc; uq_greatest := None; uq_values := [[x07]] |} |}.

(** The answer: the value is in the second entry, says the server, without proof. *)
Definition confirmC : updateResponse :=
  {| ur_head := {| fth_head := None; fth_auditor := None |}; ur_position := 1; ur_values := []; ur_info := [{| ui_opening := repeat x00 16; ui_sig := None |}];
     ur_ladder := [{| ls_proof := snd (xvrf (getOk [] (vrfInput lc 1))); ls_commitment := None |}];
     ur_update := {| cp_ts := []; cp_proofs := []; cp_roots := []; cp_incl := [] |} |}.
Definition publishedC : pubVersion := Eval vm_compute in
  match labelsNow [q1; q2] lc with p :: _ => p | [] => {| pv_pos := 0; pv_opening := []; pv_value := xv x00 |} end.
Definition tabC : list bytes := Eval vm_compute in
  dedup (commitInputs (repeat x00 16) lc 0 {| uv_value := [x07]; uv_sig := None |} ++ commitInputs (pv_opening publishedC) lc 0 (pv_value publishedC) ++
    match cs_subtrees st3 with [a; b] => [x01 :: a ++ x00 :: b] | _ => [] end).
Definition confirmedC : clientStore * streamVerifier := Eval vm_compute in
  getOk (emptyClient, verifierC) (streamVerify (restrict toy32 tabC) 32 xc 3000 xvv xsv xsv xsv emptyClient verifierC confirmC).
Lemma confirmedC_ok : streamVerify (restrict toy32 tabC) 32 xc 3000 xvv xsv xsv xsv emptyClient verifierC confirmC = Ok confirmedC.
Proof. vm_compute. reflexivity. Qed.
Lemma tabC_ok : ~ broken toy32 32 tabC.
Proof. apply notBroken. vm_compute. reflexivity. Qed.

Lemma c90_refuted : exists f T hs c vrf vrfVerify sign sigVerify Ls t rs st es now k sv o resp out l p x,
  (forall x, lenN (f x) = hs) /\ ~ broken f (N.to_nat hs) T /\ vrfGood hs vrf Ls /\ vrfVerifies vrf vrfVerify /\ sigVerifies sign sigVerify /\
  runs (full f) hs c vrf sign Ls t rs /\ logOf t es /\ t_head t = Some (cs_head st) /\ stateFor f (cs_head st) es st /\ In l Ls /\
  ss_state sv = Some st /\ cl_owner (ss_label sv) = Some o /\ knowsVersions rs l o /\
  ss_req sv = {| uq_last := getLast (Some st); uq_label := l; uq_greatest := ownerGreatest o; uq_values := [x] |} /\
  streamVerify (restrict f T) hs c now vrfVerify sigVerify sigVerify sigVerify k sv resp = Ok out /\
  (exists o', cl_owner (ss_label (snd out)) = Some o' /\ os_upcoming o' = [ur_position resp]) /\
  nth_error (labelsNow (firstn (S (N.to_nat (ur_position resp))) rs) l) (N.to_nat (newVersion sv)) = Some p /\ pv_pos p = ur_position resp /\
  (exists com, labelCommitment (restrict f T) (pv_opening p) l (newVersion sv) (pv_value p) = Ok com) /\ uv_value (pv_value p) <> x.
Proof.
  exists toy32, tabC, 32, xc, xvrf, xvv, xsign, xsv, xLs, t3, [q1; q2; q3], st3, es3, 3000, emptyClient, verifierC, ownerC, confirmC, confirmedC, lc, publishedC, [x07].
  split; [exact toy_len|]. split; [exact tabC_ok|]. split; [exact x_vrfGood|]. split; [exact x_vrfVerifies|]. split; [exact x_sigVerifies|]. split; [exact x_runs3|].
  split; [exact es3_log|]. split; [vm_compute; reflexivity|]. split; [exact st3_genuine|]. split; [cbn; auto|]. split; [reflexivity|]. split; [reflexivity|].
  split; [split; [reflexivity|split; [reflexivity|vm_compute; reflexivity]]|]. split; [reflexivity|]. split; [exact confirmedC_ok|].
  split; [eexists; split; vm_compute; reflexivity|]. split; [vm_compute; reflexivity|]. split; [reflexivity|].
  split; [eexists; vm_compute; reflexivity|discriminate].
Qed.

(** An update of two values: the second is not among the versions the owner knew. *)
Definition verifierC2 : streamVerifier := {| ss_state := Some st3; ss_label := stateC;
  ss_req := {| uq_last := getLast (Some st3); uq_label := lc; uq_greatest := None; uq_values := [[x07]; [x08]] |} |}.
Definition confirmC2 : updateResponse :=
  {| ur_head := {| fth_head := None; fth_auditor := None |}; ur_position := 1; ur_values := [];
     ur_info := [{| ui_opening := repeat x00 16; ui_sig := None |}; {| ui_opening := repeat x01 16; ui_sig := None |}];
     ur_ladder := map (fun v => {| ls_proof := snd (xvrf (getOk [] (vrfInput lc v))); ls_commitment := None |}) [1; 2; 3];
     ur_update := {| cp_ts := []; cp_proofs := []; cp_roots := []; cp_incl := [] |} |}.
Definition confirmedC2 : clientStore * streamVerifier := Eval vm_compute in
  getOk (emptyClient, verifierC) (streamVerify (full toy32) 32 xc 3000 xvv xsv xsv xsv emptyClient verifierC2 confirmC2).
Lemma c91_example : streamVerify (full toy32) 32 xc 3000 xvv xsv xsv xsv emptyClient verifierC2 confirmC2 = Ok confirmedC2 /\
  newVersion verifierC2 = 0 /\
  match cl_versions (ss_label (snd confirmedC2)) with
  | [e0; e1; e2; e3] => map rv_version [e0; e1; e2; e3] = [0; 1; 2; 3] /\ map rv_commitment [e0; e2; e3] = [None; None; None] /\
      exists com, labelCommitment (full toy32) (repeat x01 16) lc 1 {| uv_value := [x08]; uv_sig := None |} = Ok com /\ rv_commitment e1 = Some com
  | _ => False
  end.
Proof. split; [vm_compute; reflexivity|]. split; [reflexivity|]. split; [reflexivity|]. split; [reflexivity|]. eexists. split; vm_compute; reflexivity. Qed.

(** The hypotheses of C90_first_value_unchecked for an update of one value that the owner submitted, [x07], and another one. *)
Lemma c90_example : streamVerify (full toy32) 32 xc 3000 xvv xsv xsv xsv emptyClient verifierC2 confirmC2 = Ok confirmedC2 /\ uq_values (ss_req verifierC2) = [x07] :: [[x08]] /\
  (forall info infos, ur_info confirmC2 = info :: infos -> verifyUpdateValue xc xsv (uq_label (ss_req verifierC2)) (newVersion verifierC2) {| uv_value := [x09]; uv_sig := ui_sig info |} = Ok tt /\
     exists com, labelCommitment (full toy32) (ui_opening info) (uq_label (ss_req verifierC2)) (newVersion verifierC2) {| uv_value := [x09]; uv_sig := ui_sig info |} = Ok com) /\
  streamVerify (full toy32) 32 xc 3000 xvv xsv xsv xsv emptyClient (submitting [x09] verifierC2) confirmC2 = Ok (fst confirmedC2, submitting [x09] (snd confirmedC2)).
Proof.
  split; [exact (proj1 c91_example)|]. split; [reflexivity|]. split; [|vm_compute; reflexivity].
  intros info infos E. injection E as <- _. split; [vm_compute; reflexivity|]. eexists. vm_compute. reflexivity.
Qed.
