(** A concrete auditor for AuditTreeProperties.v: it has accepted two updates, the first to an empty tree. *)
From Verif Require Import Base LogTreeSpec PrefixModel PrefixSpec PrefixExamples CodecModel HandleModel AuditorModel AuditorSpec AuditorExamples AuditTreeSpec.
Open Scope N_scope.
Local Open Scope list_scope.

Definition atrie : trie := TN (TN TE (TN (TL (akey x40) acom) (TL (akey x60) acom))) TE.
Definition atab : list bytes := Eval vm_compute in dedup (treeInputs toy32 32 (TL (akey x40) acom) ++ treeInputs toy32 32 atrie).

Lemma c101_example : auditedX [fst v0; fst v1] [] a2 /\ Forall (fun u => au_removed u = [] /\ decoded 32 u /\ hashedIn toy32 atab 32 u) [fst v0; fst v1] /\
  rootBefore (full toy32) 32 (fst v0) (repeat x00 32) /\ treeWith toy32 atab 32 (repeat x00 32) [] /\
  flat_map au_added [fst v0; fst v1] = [(akey x40, acom); (akey x60, acom)] /\ ~ broken toy32 32 atab.
Proof.
  split; [exact a2_audited|]. split; [|split; [|split; [|split]]].
  - assert (D : forall u, au_removed u = [] -> Forall (fun h : bytes => List.length h = 32%nat) (p_elements (au_proof u)) ->
      (forall v c d, In (NonLeaf v c d) (p_results (au_proof u)) -> List.length v = 32%nat /\ List.length c = 32%nat) ->
      Forall (fun e : bytes * bytes => List.length (snd e) = 32%nat) (au_added u) -> hashedIn toy32 atab 32 u -> au_removed u = [] /\ decoded 32 u /\ hashedIn toy32 atab 32 u).
    { intros u A B C D E. split; [exact A|]. split; [|exact E]. split; [split; assumption|exact D]. }
    constructor; [|constructor; [|constructor]]; (apply D; [reflexivity|vm_compute; repeat constructor| |vm_compute; repeat constructor|vm_compute; reflexivity]); intros v c d I; vm_compute in I;
      (destruct I as [E|[]]; discriminate E || (injection E as <- <- <-; split; reflexivity)).
  - eexists. vm_compute. reflexivity.
  - split; [constructor|]. exists TE. split; [exact I|]. split; [reflexivity|]. intro x. reflexivity.
  - reflexivity.
  - apply notBroken. vm_compute. reflexivity.
Qed.
