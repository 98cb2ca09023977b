(** A concrete accepted response, taken from the soundness examples. *)
From Verif Require Import Base BaseProofs LogTreeModel LogTreeSpec TransMathModel LaddersModel PrefixModel PrefixSpec PrefixExamples CodecModel CodecSpec AlgModel HandleModel HandleSpec StoreModel CommitModel
  MutateModel MutateSpec MutateExamples CodecProofs3 ServerModel ClientModel ClientSpec ClientExamples SearchExamples SoundSpec SoundExamples.
Open Scope N_scope.
Local Open Scope list_scope.

Definition anotherTimestamp (h : received) : received :=
  {| r_ts := [7]; r_proofs := r_proofs h; r_roots := r_roots h; r_incl := r_incl h; r_versions := r_versions h; r_tracker := r_tracker h |}.

Lemma c83_example : exists H hs d n nP m out, dpFinish H hs d n nP m = Ok out /\ List.length (d_ts d) = 2%nat /\
  dpFinish H hs (withHandle d (anotherTimestamp (d_handle d))) n nP m = Fail "unexpected additional timestamps found".
Proof.
  destruct (checkSearch (restrict toy32 tab0) 32 xc 3000 xvv xsv None q0 r0) as [[[checked v] pos]| | |] eqn:E; try (vm_compute in E; discriminate E).
  exists (restrict toy32 tab0), 32, (v_d checked), (v_n checked), (v_nP checked), (v_m checked).
  vm_compute in E. injection E as <- <- <-. eexists. split; [vm_compute; reflexivity|]. split; vm_compute; reflexivity.
Qed.
