(** Concrete cases for OrderProperties.v: a log of four entries without a distinguished one. *)
From Coq Require Import Permutation.
From Verif Require Import Base BaseProofs LogTreeModel LogTreeSpec TransMathSpec PrefixModel PrefixExamples CodecModel CodecSpec AlgModel HandleModel StoreModel StoreProofs CommitModel MutateModel MutateSpec MutateExamples ServerModel ClientModel ClientProofs ClientSpec ClientExamples SearchExamples
  CalmSpec OrderSpec.
Open Scope N_scope.
Local Open Scope list_scope.

(** The label [la] has two versions, which are published in the first and the second entry. *)
Definition p1 := xreq [la] 100 [(la, xv x01)] [].
Definition p2 := xreq [la] 200 [(la, xv x02)] [].
Definition p3 := xreq [lc] 300 [(lc, xv x03)] [].
Definition p4 := xreq [lb] 400 [(lb, xv x04)] [].
Definition u1 : tree := Eval vm_compute in snd (xdo empty0 p1).
Definition u2 : tree := Eval vm_compute in snd (xdo u1 p2).
Definition u3 : tree := Eval vm_compute in snd (xdo u2 p3).
Definition u4 : tree := Eval vm_compute in snd (xdo u3 p4).
Lemma runs1 : runs (full toy32) 32 xc xvrf xsign xLs u1 [p1].
Proof. change [p1] with ([] ++ [p1]). eapply run_mutate with (t := empty0); [apply run_new; reflexivity|moderately|left; discriminate|]. vm_compute. reflexivity. Qed.
Lemma runs2 : runs (full toy32) 32 xc xvrf xsign xLs u2 [p1; p2].
Proof. change [p1; p2] with ([p1] ++ [p2]). eapply run_mutate; [exact runs1|moderately|left; discriminate|]. vm_compute. reflexivity. Qed.
Lemma runs3 : runs (full toy32) 32 xc xvrf xsign xLs u3 [p1; p2; p3].
Proof. change [p1; p2; p3] with ([p1; p2] ++ [p3]). eapply run_mutate; [exact runs2|moderately|left; discriminate|]. vm_compute. reflexivity. Qed.
Lemma runs4 : runs (full toy32) 32 xc xvrf xsign xLs u4 [p1; p2; p3; p4].
Proof. change [p1; p2; p3; p4] with ([p1; p2; p3] ++ [p4]). eapply run_mutate; [exact runs3|moderately|left; discriminate|]. vm_compute. reflexivity. Qed.

(** A client that has seen the log. *)
Definition fs4 : list logEntry := Eval vm_compute in entriesIn u4 4.
Definition leaves4 : list bytes := Eval vm_compute in leavesIn fs4.
Definition root4 : bytes := Eval vm_compute in match leaves4 with [a; b; d; e] => toy32 (x01 :: pairHash a b ++ x01 :: pairHash d e) | _ => [] end.
Definition sx4 : clientState := Eval vm_compute in
  {| cs_head := headIn u4; cs_auditor := None; cs_subtrees := [root4];
     cs_entries := map (fun x => (x, nth (N.to_nat x) fs4 {| le_ts := 0; le_root := [] |})) [3] |}.
Lemma fs4_log : logOf u4 fs4.
Proof.
  intros x e E. assert (x = 0 \/ x = 1 \/ x = 2 \/ x = 3 \/ 4 <= x) as [->|[->|[->|[->|L]]]] by lia.
  1-4: vm_compute in E; injection E as <-; eexists; split; vm_compute; reflexivity.
  assert (E2 : nth_error fs4 (N.to_nat x) <> None) by congruence. apply nth_error_Some in E2. change (List.length fs4) with 4%nat in E2. lia.
Qed.
Lemma sx4_genuine : stateFor toy32 (headIn u4) fs4 sx4.
Proof.
  split; [vm_compute; reflexivity|]. split; [vm_compute; reflexivity|]. split.
  - exists leaves4. split; [unfold fs4, leaves4; repeat (constructor; [vm_compute; reflexivity|]); constructor|].
    change (lenN fs4) with 4. exists [(0, 4)]. split; [constructor; exists 2; reflexivity|]. constructor; [|constructor].
    cbn [fst snd]. unfold NodeVal, slice. change (firstn (N.to_nat 4) (skipn (N.to_nat 0) leaves4)) with (firstn 2 leaves4 ++ skipn 2 leaves4).
    assert (P : forall a b, Mth (full toy32) [a; b] (pairHash a b)).
    { intros a b. change [a; b] with ([a] ++ [b]). eapply Mth_node with (vl := a) (vr := b); [reflexivity|reflexivity|constructor|constructor|]. reflexivity. }
    unfold leaves4. cbn [firstn skipn]. eapply Mth_node; [reflexivity|reflexivity|apply P|apply P|]. vm_compute. reflexivity.
  - exists [3]. split; vm_compute; reflexivity.
Qed.

(** It asks for the first version and gets the honest answer. *)
Definition qx4 := xsearch (Some 4) la (Some 0).
Definition rx4 : searchResponse := Eval vm_compute in getOk noResponse (xserve u4 400 qx4).
Lemma rx4_served : xserve u4 400 qx4 = Ok rx4.
Proof. vm_compute. reflexivity. Qed.

(** Two ways of visiting a map *)
Definition keysUp (i : nat) (m : list (N * N)) : list N := nsort (nodup N.eq_dec (map fst m)).
Definition keysDown (i : nat) (m : list (N * N)) : list N := rev (nsort (nodup N.eq_dec (map fst m))).
Lemma keysUp_any : anyOrder keysUp.
Proof. intros i m. apply nsort_perm. Qed.
Lemma keysDown_any : anyOrder keysDown.
Proof. intros i m. etransitivity; [symmetry; apply Permutation_rev|apply nsort_perm]. Qed.
Notation xwith v k := (clientSearch (full toy32) 32 xc 400 xvv xsv xsv xsv v k (Some sx4) qx4 rx4).
Definition kUp : clientStore := Eval vm_compute in getOk emptyClient (xwith keysUp emptyClient).
Definition kDown : clientStore := Eval vm_compute in getOk emptyClient (xwith keysDown emptyClient).
Lemma kUp_result : xwith keysUp emptyClient = Ok kUp.
Proof. vm_compute. reflexivity. Qed.
Lemma kDown_result : xwith keysDown emptyClient = Ok kDown.
Proof. vm_compute. reflexivity. Qed.
Definition lsUp : labelState := Eval vm_compute in getOk noLabelState (getLabelState 32 kUp la).
Definition lsDown : labelState := Eval vm_compute in getOk noLabelState (getLabelState 32 kDown la).
Lemma lsUp_stored : getLabelState 32 kUp la = Ok lsUp /\ cl_contact lsUp = [(3, 0)].
Proof. split; vm_compute; reflexivity. Qed.
Lemma lsDown_stored : getLabelState 32 kDown la = Ok lsDown /\ cl_contact lsDown = [(0, 0); (3, 0)].
Proof. split; vm_compute; reflexivity. Qed.

Ltac oks := repeat first [apply Forall_nil | apply Forall_cons | split]; try exact Logic.I; try (vm_compute; reflexivity); try (vm_compute; discriminate); try (cbn [rdepth]; lia).
Lemma rx4_ok : usableState sx4 /\ sq_last qx4 = getLast (Some sx4) /\ okSearchResponse xc (sq_version qx4) rx4 /\ optok smallVersion (sq_version qx4) /\ optok smallVersion (sr_version rx4).
Proof.
  split; [split; vm_compute; congruence|]. split; [reflexivity|]. split; [|split; vm_compute; auto].
  unfold okSearchResponse, okCombinedProof, okPrefixProof. cbn [rx4 sr_head sr_version sr_opening sr_value sr_ladder sr_search qx4 xsearch sq_version].
  oks. all: try (intros [x Q]; discriminate Q).
Qed.

Lemma sanc03 : sanc (th_size (cs_head sx4)) 0 3.
Proof. exists 0, 4. split; [apply SR_root|]. split; [reflexivity|lia]. Qed.
Lemma c96_refuted : exists f hs c vrf vrfVerify sign sigVerify Ls t rs st es now req resp visit visit' k' k'' ls' ls'',
  (forall x, lenN (f x) = hs) /\ vrfVerifies vrf vrfVerify /\ sigVerifies sign sigVerify /\
  runs (full f) hs c vrf sign Ls t rs /\ logOf t es /\ t_head t = Some (cs_head st) /\ stateFor f (cs_head st) es st /\
  sq_last req = getLast (Some st) /\ serverSearch (full f) hs c vrf now (serverOf t) req = Ok resp /\
  anyOrder visit /\ anyOrder visit' /\
  clientSearch (full f) hs c now vrfVerify sigVerify sigVerify sigVerify visit emptyClient (Some st) req resp = Ok k' /\
  clientSearch (full f) hs c now vrfVerify sigVerify sigVerify sigVerify visit' emptyClient (Some st) req resp = Ok k'' /\
  getLabelState hs k' (sq_label req) = Ok ls' /\ getLabelState hs k'' (sq_label req) = Ok ls'' /\
  cl_contact ls' = [(3, 0)] /\ cl_contact ls'' = [(0, 0); (3, 0)] /\ sanc (th_size (cs_head st)) 0 3.
Proof.
  exists toy32, 32, xc, xvrf, xvv, xsign, xsv, xLs, u4, [p1; p2; p3; p4], sx4, fs4, 400, qx4, rx4, keysUp, keysDown, kUp, kDown, lsUp, lsDown.
  split; [apply toy_len|]. split; [exact x_vrfVerifies|]. split; [exact x_sigVerifies|]. split; [exact runs4|]. split; [exact fs4_log|]. split; [vm_compute; reflexivity|].
  split; [exact sx4_genuine|]. split; [reflexivity|]. split; [exact rx4_served|]. split; [exact keysUp_any|]. split; [exact keysDown_any|].
  split; [exact kUp_result|]. split; [exact kDown_result|]. split; [apply lsUp_stored|]. split; [apply lsDown_stored|]. split; [apply lsUp_stored|]. split; [apply lsDown_stored|]. exact sanc03.
Qed.
