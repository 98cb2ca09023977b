(** Concrete cases for AnswerProperties4.v. *)
From Verif Require Import Base LogTreeModel LogTreeSpec PrefixModel PrefixExamples CodecModel AlgModel HandleModel StoreModel CommitModel MutateModel MutateSpec MutateExamples ServerModel ClientModel ClientSpec.
Open Scope N_scope.
Local Open Scope list_scope.

(** The owner starts at entry 1, where the greatest version is 1; version 2 is in the log, but it was published with entry 2. *)
Lemma ladder_example : match serverOwnerInit (full toy32) 32 xc xvrf 3000 (serverOf t3) {| iq_last := None; iq_label := la; iq_start := 1 |} with
  | Ok a => (ir_versions a, allLadderVersions (ir_versions a), map (fun st => match ls_commitment st with Some _ => true | None => false end) (ir_ladder a)) = ([1], Ok [0; 1; 2; 3], [true; true; false; false])
  | _ => False
  end.
Proof. vm_compute. reflexivity. Qed.
