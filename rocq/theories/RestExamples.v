(** Concrete cases for RestProperties.v: a client that is asked to monitor the same label again and again. *)
From Verif Require Import Base BaseProofs LogTreeModel LogTreeSpec PrefixModel PrefixExamples CodecModel CodecSpec AlgModel HandleModel StoreModel StoreProofs CommitModel MutateModel MutateSpec MutateExamples ServerModel ClientModel ClientProofs ClientSpec ClientExamples SearchExamples GuardSpec GuardExamples RestSpec.
Open Scope N_scope.
Local Open Scope list_scope.

(** After the client has monitored its two entries for [la] in the log of [t3], one of them, to the right of the rightmost distinguished entry, is left. *)
Definition kRest : clientStore := Eval vm_compute in getOk emptyClient (clientContactMonitor (full toy32) 32 xc 3000 xsv xsv emptyClient (Some st3) mls mcq3 mcr3).
Definition noContact : contactRequest := {| cq_last := None; cq_label := []; cq_entries := [] |}.
Definition reqRest : option clientState * labelState * contactRequest := Eval vm_compute in
  match monitorRequestFor 32 xc kRest la with Ok (s, l, inl r) => (s, l, r) | _ => (None, noLabelState, noContact) end.
Definition stRest : clientState := Eval vm_compute in match fst (fst reqRest) with Some s => s | None => st3 end.
Definition respRest : monitorResponse := Eval vm_compute in
  let r := getOk noMonitor (serverContactMonitor (full toy32) 32 xc xvrf 3000 (serverOf t3) (snd reqRest)) in {| mr_head := mr_head r; mr_monitor := withoutIncl (mr_monitor r) |}.
Definition entryRest : bytes * N := Eval vm_compute in match bget (k_labels kRest) la with Some e => e | None => ([], 0) end.

Lemma kRest_due : due xc kRest la.
Proof. exists stRest, 1, (fst entryRest), (snd entryRest). split; [vm_compute; reflexivity|]. split; [vm_compute; reflexivity|]. split; [vm_compute; reflexivity|]. vm_compute. discriminate. Qed.

Lemma kRest_request k : sameStore k kRest -> monitorRequestFor 32 xc k la = Ok (Some stRest, snd (fst reqRest), inl (snd reqRest)).
Proof.
  intros [E1 E2]. specialize (E2 la). assert (E3 : monitorRequestFor 32 xc kRest la = Ok (Some stRest, snd (fst reqRest), inl (snd reqRest))) by (vm_compute; reflexivity).
  rewrite <- E3. unfold monitorRequestFor, getState, getLabelState. rewrite E1, E2. reflexivity.
Qed.

Lemma kRest_again k : clientContactMonitor (full toy32) 32 xc 3000 xsv xsv k (Some stRest) (snd (fst reqRest)) (snd reqRest) respRest =
  Ok {| k_state := k_state kRest; k_labels := bput (k_labels k) la entryRest |}.
Proof. vm_compute. reflexivity. Qed.

Lemma st3_stRest : sameState st3 stRest.
Proof.
  split; [vm_compute; reflexivity|]. split; [vm_compute; reflexivity|]. split; [vm_compute; reflexivity|]. intros p.
  change (cs_entries stRest) with (rev (cs_entries st3)). unfold st3. cbn [cs_entries rev app mget].
  destruct (N.eqb_spec p 2) as [E2|N2], (N.eqb_spec p 1) as [E1|N1]; try reflexivity. lia.
Qed.
