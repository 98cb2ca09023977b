(** Concrete cases for SearchProperties.v. *)
From Verif Require Import Base LogTreeModel LogTreeSpec TransMathModel PrefixModel PrefixExamples CodecModel CodecSpec AlgModel HandleModel HandleSpec StoreModel CommitModel MutateModel MutateSpec MutateExamples
  ServerModel ClientModel ClientSpec ClientExamples.
Open Scope N_scope.
Local Open Scope list_scope.

Lemma c46_example :
  runs (full toy32) 32 xc xvrf xsign xLs t3 [q1; q2; q3] /\ In la xLs /\ Forall (fun r => ~ In la (rq_remove r)) [q1; q2; q3] /\
  lenN (labelsNow [q1; q2; q3] la) = 3 /\ asksFor xc [q1; q2; q3] la None None 2 /\ asksFor xc [q1; q2; q3] la None (Some 1) 1 /\
  (forall v p, nth_error (labelsNow [q1; q2; q3] la) (N.to_nat v) = Some p -> readable xc p /\ signedByOperator xc xsv la v (pv_value p)) /\
  clockFine xc 3000 (latest [q1; q2; q3]).
Proof.
  split; [exact x_runs3|]. split; [now left|]. split; [repeat constructor; cbn; intuition discriminate|]. split; [vm_compute; reflexivity|].
  split; [vm_compute; reflexivity|]. split; [|split].
  - split; [reflexivity|]. split; [|exact Logic.I]. cbn; intros r [<-|[<-|[<-|[]]]]; vm_compute; reflexivity.
  - intros v p E. replace (labelsNow [q1; q2; q3] la) with
      [{| pv_pos := 0; pv_opening := xopening la 0; pv_value := xv x01 |}; {| pv_pos := 0; pv_opening := xopening la 1; pv_value := xv x03 |}; {| pv_pos := 2; pv_opening := xopening la 2; pv_value := xv x05 |}] in E by (vm_compute; reflexivity).
    apply nth_error_In in E. split.
    + destruct E as [<-|[<-|[<-|[]]]]; (split; [reflexivity|split; [intros [x [=]]|discriminate]]).
    + intro Q. discriminate Q.
  - split; [reflexivity|]. split; vm_compute; discriminate.
Qed.


Lemma es2_log3 : logOf t3 es2.
Proof.
  intros x e E. assert (x = 0 \/ x = 1 \/ 2 <= x) as [->|[->|L]] by lia.
  - vm_compute in E. injection E as <-. eexists. split; vm_compute; reflexivity.
  - vm_compute in E. injection E as <-. eexists. split; vm_compute; reflexivity.
  - assert (E2 : nth_error es2 (N.to_nat x) <> None) by congruence. apply nth_error_Some in E2. change (List.length es2) with 2%nat in E2. lia.
Qed.
Lemma c45_example : hasSeen toy32 t3 (lenN [q1; q2; q3]) st2 /\ th_size (cs_head st2) = 2 /\ asksFor xc [q1; q2; q3] la (getLast (Some st2)) None 2.
Proof.
  split; [|split; [reflexivity|vm_compute; reflexivity]]. exists es2. split; [exact st2_genuine|]. split; [exact es2_log3|]. split; [vm_compute; split; discriminate|]. repeat constructor.
Qed.

Lemma c47_example : hasSeen toy32 t3 (lenN [q1; q2; q3]) st3 /\ th_size (cs_head st3) = lenN [q1; q2; q3] /\
  asksFor xc [q1; q2; q3] la (getLast (Some st3)) None 2 /\ asksFor xc [q1; q2; q3] la (getLast (Some st3)) (Some 1) 1.
Proof.
  split; [|split; [reflexivity|split; [vm_compute; reflexivity|]]].
  - exists es3. split; [exact st3_genuine|]. split; [exact es3_log|]. split; [vm_compute; split; discriminate|]. repeat constructor.
  - split; [reflexivity|]. split; [|left; reflexivity]. cbn; intros r [<-|[<-|[<-|[]]]]; vm_compute; reflexivity.
Qed.
