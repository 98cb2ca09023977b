(** Concrete cases for CalmProperties.v, on the clients of ClientExamples.v. *)
From Verif Require Import Base BaseProofs LogMathSpec LogTreeModel LogTreeSpec TransMathModel LaddersModel PrefixModel PrefixSpec PrefixExamples CodecModel CodecSpec AlgModel AlgSpec
  HandleModel HandleSpec StoreModel CommitModel MutateModel MutateSpec MutateExamples ServerModel ClientModel ClientSpec ClientProofs ClientExamples CalmSpec CalmProofs3.
Open Scope N_scope.
Local Open Scope list_scope.

Lemma toy32_size x : lenN (toy32 x) = 32.
Proof. unfold lenN. rewrite toy32_len. reflexivity. Qed.

(** A client with the state of the log of three entries. *)
Definition store3 : clientStore := Eval vm_compute in
  {| k_state := Some (getOk [] (clientStateMarshal st3 (cs_entries st3))); k_labels := [] |}.
Definition parsed3 : clientState := Eval vm_compute in match getState xc store3 with Ok (Some s) => s | _ => st3 end.
Lemma store3_usable : usableStore xc 32 store3.
Proof.
  split; [discriminate|]. assert (E : getState xc store3 = Ok (Some parsed3)) by (vm_compute; reflexivity).
  intros st E'. rewrite E in E'. injection E' as <-. split; [vm_compute; split; congruence|].
  intros label ls [= <-]. split; [constructor|exact I].
Qed.

(** The answer to a search is admissible. *)
Definition all {A} (P : A -> bool) (l : list A) : bool := forallb P l.
Lemma forallb_Forall {A} (P : A -> Prop) (p : A -> bool) l : (forall a, p a = true -> P a) -> forallb p l = true -> Forall P l.
Proof. intros K E. rewrite forallb_forall in E. apply Forall_forall. auto. Qed.
Definition sizeb (k : nat) (b : bytes) : bool := Nat.eqb (List.length b) k.
Definition resultb (hs : nat) (r : presult) : bool :=
  (rdepth r <=? 255)%nat && match r with NonLeaf v c _ => sizeb hs v && sizeb hs c | _ => true end.
Definition proofb (hs : nat) (p : pproof) : bool := forallb (resultb hs) (p_results p) && forallb (sizeb hs) (p_elements p).
Definition combinedb (hs : nat) (p : combinedProof) : bool :=
  forallb (fun t => t <? two64) (cp_ts p) && forallb (proofb hs) (cp_proofs p) && forallb (sizeb hs) (cp_roots p) && forallb (sizeb hs) (cp_incl p).
Definition stepb (vs hs : nat) (s : ladderStep) : bool := sizeb vs (ls_proof s) && match ls_commitment s with Some b => sizeb hs b | None => true end.
Lemma sizeb_ok k b : sizeb k b = true -> size k b.
Proof. apply Nat.eqb_eq. Qed.
Lemma combinedb_ok hs p : combinedb hs p = true -> okCombinedProof hs p.
Proof.
  unfold combinedb. rewrite !andb_true_iff. intros (((A & B) & C) & D). repeat split.
  - eapply forallb_Forall; [|exact A]. intros t Ht. apply N.ltb_lt in Ht. exact Ht.
  - eapply forallb_Forall; [|exact B]. intros q Hq. unfold proofb in Hq. apply andb_true_iff in Hq as [H1 H2]. split; [|eapply forallb_Forall; [apply sizeb_ok|exact H2]].
    eapply forallb_Forall; [|exact H1]. intros r Hr. unfold resultb in Hr. apply andb_true_iff in Hr as [R1 R2]. apply Nat.leb_le in R1. split; [exact R1|].
    destruct r; auto. apply andb_true_iff in R2 as [X Y]. split; apply sizeb_ok; assumption.
  - eapply forallb_Forall; [apply sizeb_ok|exact C].
  - eapply forallb_Forall; [apply sizeb_ok|exact D].
Qed.
Lemma stepb_ok vs hs s : stepb vs hs s = true -> okLadderStep vs hs s.
Proof. unfold stepb. rewrite andb_true_iff. intros [A B]. split; [apply sizeb_ok; exact A|]. destruct (ls_commitment s); [apply sizeb_ok; exact B|exact I]. Qed.

Lemma search3_admissible : admissible xc (SearchFor la None r3to3).
Proof.
  split; [|split; [exact I|vm_compute; reflexivity]].
  split; [exact I|]. split; [vm_compute; reflexivity|]. split; [vm_compute; reflexivity|]. split.
  - split; [intros [x E]; discriminate E|intro E; vm_compute in E; discriminate E].
  - split; [eapply forallb_Forall; [apply stepb_ok|vm_compute; reflexivity]|apply combinedb_ok; vm_compute; reflexivity].
Qed.

(** An owner of a label, which has made no search for it, and an empty proof (for the tree head the client has). *)
Definition ownedLabel : labelState := {| cl_contact := []; cl_owner := Some {| os_starting := 2; os_verAt := 2; os_upcoming := [] |}; cl_versions := [] |}.
Definition ownerQuery : ownerMonitorRequest := {| oq_last := Some 3; oq_label := la; oq_entries := []; oq_start := 2; oq_greatest := Some 2 |}.
Definition emptyAnswer : monitorResponse :=
  {| mr_head := {| fth_head := None; fth_auditor := None |}; mr_monitor := {| cp_ts := []; cp_proofs := []; cp_roots := []; cp_incl := [] |} |}.
Lemma emptyAnswer_ok c : okMonitorResponse c emptyAnswer.
Proof. split; [exact I|]. repeat split; constructor. Qed.
Lemma ownedLabel_usable : usableLabel 3 ownedLabel.
Proof. split; [constructor|]. cbn. unfold smallOwner. cbn. lia. Qed.
Lemma st3_usable : usableState st3.
Proof. vm_compute. split; congruence. Qed.
Lemma ownerQuery_panics k : clientOwnerMonitor (full toy32) 32 xc 3000 xsv xsv k (Some st3) ownedLabel ownerQuery emptyAnswer = Panic "nil pointer dereference"%string.
Proof. vm_compute. reflexivity. Qed.

(** A contact of the label that found version 2 at the entry 1, which is distinguished by now: nothing is left to monitor. *)
Definition contactLabel : labelState := {| cl_contact := [(1, 0)]; cl_owner := None; cl_versions := [] |}.
Definition contactQuery : contactRequest := {| cq_last := Some 3; cq_label := la; cq_entries := [(1, 0)] |}.
Lemma contactLabel_usable : usableLabel 3 contactLabel.
Proof. split; [constructor; [cbn; unfold smallVersion; lia|constructor]|exact I]. Qed.
Lemma contactQuery_panics k : clientContactMonitor (full toy32) 32 xc 3000 xsv xsv k (Some st3) contactLabel contactQuery emptyAnswer = Panic "nil pointer dereference"%string.
Proof. vm_compute. reflexivity. Qed.

(** An update: a response about one new version reads a ladder of three steps. *)
Definition step0 : ladderStep := {| ls_proof := repeat x00 32; ls_commitment := None |}.
Lemma update_covered : ladderCovers {| os_starting := 2; os_verAt := 2; os_upcoming := [] |} 1 [step0; step0; step0] /\
  ~ ladderCovers {| os_starting := 2; os_verAt := 2; os_upcoming := [] |} 1 [step0; step0].
Proof.
  unfold ladderCovers. cbv zeta. assert (E : updateLadderVersions 3 3 = Ok [4; 5; 7]) by (vm_compute; reflexivity). split.
  - intros vs E'. change (updateLadderVersions 3 3 = Ok vs) in E'. rewrite E in E'. injection E' as <-. apply le_n.
  - intro K. specialize (K [4; 5; 7] E). cbn in K. lia.
Qed.

Lemma ownerQuery_case : (forall x, lenN (toy32 x) = 32) /\ usableState st3 /\ usableLabel (th_size (cs_head st3)) ownedLabel /\ cl_owner ownedLabel <> None /\
  cl_contact ownedLabel = [] /\ okMonitorResponse xc emptyAnswer /\ oq_last ownerQuery = getLast (Some st3) /\
  clientOwnerMonitor (full toy32) 32 xc 3000 xsv xsv emptyClient (Some st3) ownedLabel ownerQuery emptyAnswer = Panic "nil pointer dereference"%string.
Proof.
  split; [exact toy32_size|]. split; [exact st3_usable|]. split; [exact ownedLabel_usable|]. split; [discriminate|]. split; [reflexivity|].
  split; [exact (emptyAnswer_ok xc)|]. split; [vm_compute; reflexivity|exact (ownerQuery_panics emptyClient)].
Qed.
Lemma contactQuery_case : (forall x, lenN (toy32 x) = 32) /\ usableState st3 /\ usableLabel (th_size (cs_head st3)) contactLabel /\ cl_contact contactLabel <> [] /\
  cq_entries contactQuery = cl_contact contactLabel /\ okMonitorResponse xc emptyAnswer /\ cq_last contactQuery = getLast (Some st3) /\
  clientContactMonitor (full toy32) 32 xc 3000 xsv xsv emptyClient (Some st3) contactLabel contactQuery emptyAnswer = Panic "nil pointer dereference"%string.
Proof.
  split; [exact toy32_size|]. split; [exact st3_usable|]. split; [exact contactLabel_usable|]. split; [discriminate|]. split; [reflexivity|].
  split; [exact (emptyAnswer_ok xc)|]. split; [vm_compute; reflexivity|exact (contactQuery_panics emptyClient)].
Qed.
