(** Concrete cases for AnswerProperties.v. *)
From Coq Require Import Sorted.
From Verif Require Import Base LogMathSpec LogTreeModel LogTreeSpec TransMathModel TransMathSpec TransMathProofs2 TimeProofs PrefixModel PrefixExamples CodecModel CodecSpec AlgModel AlgSpec HandleModel HandleSpec StoreModel CommitModel
  MutateModel MutateSpec MutateExamples ServerModel ClientModel ClientSpec ClientExamples SteadySpec AnswerSpec.
Open Scope N_scope.
Local Open Scope list_scope.

Lemma la_now : map pv_pos (labelsNow [q1; q2; q3] la) = [0; 0; 2].
Proof. vm_compute. reflexivity. Qed.

Lemma up_0_1 : sanc 3 0 1.
Proof.
  destruct (c11_right 3 0) as (d & Ed & G & _); [change (2 ^ 64) with 18446744073709551616; lia|lia|]. assert (Eq : rightDirectPath 0 3 = Ok [1]) by (vm_compute; reflexivity).
  rewrite Eq in Ed. injection Ed as <-. apply G. now left.
Qed.

(** Version 1 of the label was published with entry 0, whose parent is entry 1, and version 2 with entry 2. *)
Lemma pairs_good : goodPairs [q1; q2; q3] la [(1, 1); (2, 2)].
Proof.
  split.
  - repeat constructor; cbn; lia.
  - pose proof la_now as E. intros x v I. destruct (labelsNow [q1; q2; q3] la) as [|p0 [|p1 [|p2 [|? ?]]]]; try discriminate E. injection E as E0 E1 E2.
    destruct I as [I|[I|[]]]; injection I as <- <-.
    + exists p1. rewrite E1. split; [reflexivity|]. split; [lia|]. exact up_0_1.
    + exists p2. rewrite E2. split; [reflexivity|]. split; [lia|]. change (lenN [q1; q2; q3]) with 3; apply sanc_refl; [change (2 ^ 64) with 18446744073709551616; lia|reflexivity].
Qed.

(** Version 2 does not exist before entry 2. *)
Lemma pairs_bad : ~ goodPairs [q1; q2; q3] la [(1, 2)].
Proof.
  intros (_ & G). destruct (G 1 2 (or_introl eq_refl)) as (p & E & L & _). pose proof la_now as K. apply (map_nth_error pv_pos) in E. rewrite K in E. cbn in E. injection E as E. lia.
Qed.

Definition la3 : hlog := {| h_n := 3; h_ts := fun x => 1000 * (x + 1); h_g := fun x => if x <? 2 then 1%Z else 2%Z |}.

Lemma la3_describes : describes la3 [q1; q2; q3] la.
Proof.
  split; [reflexivity|]. split.
  - intros x r E. assert (L : (N.to_nat x < 3)%nat) by (apply nth_error_Some with (l := [q1; q2; q3]); congruence).
    assert (K : x = 0 \/ x = 1 \/ x = 2) by lia. destruct K as [ -> | [ -> | -> ]]; injection E as <-; reflexivity.
  - intros x Hx. change (lenN [q1; q2; q3]) with 3 in Hx. assert (K : x = 0 \/ x = 1 \/ x = 2) by lia. destruct K as [ -> | [ -> | -> ]]; vm_compute; reflexivity.
Qed.

(** A search for version 1 ended at entry 1, one for version 2 at entry 2. *)
Lemma la3_recorded : recorded true xc fromLeft la3 3 [(1, 1); (2, 2)].
Proof.
  eapply rec_search with (es := [(1, 1)]) (v := 2) (x := 2).
  - eapply rec_search with (es := []) (v := 1) (x := 1); [apply rec_start; cbn; lia| |vm_compute; reflexivity].
    exists 0. split; [|split; [lia|exact up_0_1]]. split; [reflexivity|]. split; [cbn; lia|]. intros y Hy. lia.
  - exists 2. split; [|split; [lia|apply sanc_refl; [change (2 ^ 64) with 18446744073709551616; lia|reflexivity]]]. split; [reflexivity|]. split; [cbn; lia|].
    intros y Hy. cbn [la3 h_g]. apply N.ltb_lt in Hy. rewrite Hy. lia.
  - vm_compute. reflexivity.
Qed.

Lemma c104_example : runs (full toy32) 32 xc xvrf xsign xLs t3 [q1; q2; q3] /\ In la xLs /\ Forall (fun r => ~ In la (rq_remove r)) [q1; q2; q3] /\
  lenN (labelsNow [q1; q2; q3] la) = 3 /\ clockFine xc 3000 (latest [q1; q2; q3]) /\ optSize (lenN [q1; q2; q3]) (Some 2) /\
  goodPairs [q1; q2; q3] la [(1, 1); (2, 2)] /\ ~ goodPairs [q1; q2; q3] la [(1, 2)].
Proof.
  split; [exact x_runs3|]. split; [now left|]. split; [repeat constructor; cbn; intuition discriminate|]. split; [vm_compute; reflexivity|].
  split; [vm_compute; repeat split; discriminate|]. split; [vm_compute; split; discriminate|]. split; [exact pairs_good|exact pairs_bad].
Qed.
