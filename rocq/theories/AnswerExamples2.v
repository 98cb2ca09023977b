(** Concrete cases for AnswerProperties2.v. *)
From Coq Require Import Sorted.
From Verif Require Import Base LogMathSpec TransMathModel TransMathSpec CodecModel AlgModel AlgSpec WatchSpec StoreModel CommitModel MutateModel MutateSpec MutateExamples AnswerSpec AnswerExamples.
Open Scope N_scope.
Local Open Scope list_scope.

(** Only the root of the tree over the three entries, entry 1, is distinguished for a window of 2500. *)
Lemma one_distinguished : distinguished (h_n la3) (h_ts la3) (pc_rmw xc) 1 /\ unexpired xc la3 1.
Proof. split; [|vm_compute; reflexivity]. apply (DI_here _ _ 0 3). cbn. discriminate. Qed.

Lemma zero_not : ~ distinguished (h_n la3) (h_ts la3) (pc_rmw xc) 0.
Proof.
  intro D. unfold distinguished in D. cbn [la3 h_n] in D. change (pc_rmw xc) with 2500 in D. inversion D as [? ? ? ? H E|? ? ? ? ? H1 H2 D2|? ? ? ? ? H1 H2 D2]; subst.
  - inversion D2 as [? ? ? ? H E|? ? ? ? ? K1 K2 D3|? ? ? ? ? K1 K2 D3]; subst; vm_compute in *; congruence.
  - inversion D2 as [? ? ? ? H E|? ? ? ? ? K1 K2 D3|? ? ? ? ? K1 K2 D3]; subst; vm_compute in *; congruence.
Qed.
