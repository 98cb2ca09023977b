(** Concrete cases for SteadyProperties.v: a log of eight entries; version 0 of a label is in entry 1, version 1 in entry 2. *)
From Coq Require Import Permutation.
From Verif Require Import Base BaseProofs LogMathModel TransMathModel TransMathSpec CodecModel AlgModel AlgSpec AlgExamples WatchSpec HandleModel HandleProofs ServerModel ClientModel OrderSpec AlarmProofs SteadySpec SteadyProofs.
Open Scope N_scope.
Local Open Scope list_scope.

Definition log8 : hlog := {| h_n := 8; h_ts := fun _ => 5; h_g := fun x => if x <? 1 then (-1)%Z else if x <? 2 then 0%Z else 1%Z |}.
Lemma log8_ok : okLog log8.
Proof.
  unfold okLog, log8. cbn [h_n h_ts h_g]. split; [split; [discriminate|reflexivity]|]. split; [intros; lia|]. split; [intros; reflexivity|]. split.
  - intros x y B. destruct (N.ltb_spec x 1), (N.ltb_spec y 1), (N.ltb_spec x 2), (N.ltb_spec y 2); lia.
  - intros x B. destruct (N.ltb_spec x 1), (N.ltb_spec x 2); lia.
Qed.
Lemma first0 : firstWith log8 0 1.
Proof. split; [reflexivity|]. split; [vm_compute; congruence|]. intros y Ly. cbn [log8 h_g]. destruct (N.ltb_spec y 1); lia. Qed.
Lemma first1 : firstWith log8 1 2.
Proof. split; [reflexivity|]. split; [vm_compute; congruence|]. intros y Ly. cbn [log8 h_g]. destruct (N.ltb_spec y 1), (N.ltb_spec y 2); lia. Qed.
Lemma ends0 n : 2 <= n < 2 ^ 64 -> endsAt log8 n 0 1.
Proof. intro Ln. exists 1. split; [exact first0|]. split; [lia|]. apply TimeProofs.sanc_refl; lia. Qed.
Lemma ends1 n : 3 <= n < 2 ^ 64 -> endsAt log8 n 1 2.
Proof. intro Ln. exists 2. split; [exact first1|]. split; [lia|]. apply TimeProofs.sanc_refl; lia. Qed.

(** What a search for version 0 makes of the pair of version 1, at first and after the round of simplification *)
Definition m0 : list (N * N) := [(3, 0); (1, 0); (2, 1)].
Definition m1 : list (N * N) := [(3, 0); (2, 1)].
Lemma round1 xs : Forall (fun x => x = 1 \/ x = 2 \/ x = 3) xs -> forall md, simplifyRound 4 xs m1 md = Ok (m1, md).
Proof. intro F. induction F as [|x xs [->|[->| ->]] F IH]; intro md; [reflexivity|exact (IH md)|exact (IH md)|exact (IH md)]. Qed.
Lemma round0 xs : Forall (fun x => x = 1 \/ x = 2 \/ x = 3) xs -> In 1 xs -> forall md, simplifyRound 4 xs m0 md = Ok (m1, true).
Proof. intro F. induction F as [|x xs [->|[->| ->]] F IH]; intros I md; [destruct I|exact (round1 xs F true)| |]; (destruct I as [I|I]; [discriminate|exact (IH I md)]). Qed.
Lemma any_of visit i m : anyOrder visit -> forall x, In x (visit i m) <-> In x (map fst m).
Proof. intros A x. rewrite <- (nodup_In N.eq_dec (map fst m)). split; apply Permutation_in; [apply A|symmetry; apply A]. Qed.
Lemma simplified visit : anyOrder visit -> simplifyMonitoringMap visit 4 m0 = Ok m1.
Proof.
  intro A. unfold simplifyMonitoringMap. cbn [List.length m0 simplifyLoop]. rewrite round0.
  - cbn [bind]. rewrite round1; [reflexivity|]. apply Forall_forall. intros x I. apply (any_of visit _ _ A) in I. cbn in I. intuition.
  - apply Forall_forall. intros x I. apply (any_of visit _ _ A) in I. cbn in I. intuition.
  - apply (any_of visit _ _ A). cbn. auto.
Qed.
Lemma search1 visit : anyOrder visit -> updateContactState visit [] 2 3 1 = Ok ([(2, 1)], 2).
Proof.
  intro A. unfold updateContactState. change (rightDirectPath 2 3) with (Ok (@nil N)). cbn [bind]. change (setPath [2] 1 (contactPtrs []) 2) with ([(2, 1)], 2). cbv iota beta.
  assert (S : simplifyMonitoringMap visit 3 [(2, 1)] = Ok [(2, 1)]).
  { unfold simplifyMonitoringMap. cbn [List.length simplifyLoop]. assert (G : forall xs md, Forall (fun x => x = 2) xs -> simplifyRound 3 xs [(2, 1)] md = Ok ([(2, 1)], md)).
    { intros xs md F. induction F as [|x xs -> F IH]; [reflexivity|exact IH]. }
    rewrite G; [reflexivity|]. apply Forall_forall. intros x I. apply (any_of visit _ _ A) in I. cbn in I. intuition. }
  rewrite S. reflexivity.
Qed.
Lemma search0 visit : anyOrder visit -> updateContactState visit [(2, 1)] 1 4 0 = Ok ([(2, 1); (3, 0)], 3).
Proof.
  intro A. unfold updateContactState. change (rightDirectPath 1 4) with (Ok [3]). cbn [bind]. change (setPath [1; 3] 0 (contactPtrs [(2, 1)]) 1) with (m0, 3). cbv iota beta.
  rewrite (simplified visit A). reflexivity.
Qed.
Definition mon8 : monitor := {| mo_rightmost := 5; mo_size := 8; mo_contact := Some (contactPtrs [(2, 1); (3, 0)]); mo_owner := None |}.

Lemma c100_refuted : exists c L, okLog L /\ forall visit, anyOrder visit -> exists n es, recorded false c visit L n es /\
  (forall H hs vrf now server ask answer, cq_entries ask = es -> serverContactMonitor H hs c vrf now server ask <> Ok answer) /\
  exists n' m, n <= n' <= h_n L /\ watches m (logAt L n') /\ mo_contact m = Some (contactPtrs es) /\
    forall s, result (run (honest (logAt L n')) (contactMonitor c m) s) = Fail "monitoring detected versions that are not monotonic".
Proof.
  exists (exConfig 1000 1000 10 0), log8. split; [exact log8_ok|]. intros visit A. exists 4, [(2, 1); (3, 0)]. split; [|split].
  - eapply rec_search with (n := 4) (es := [(2, 1)]); [|apply (ends0 4); lia|exact (search0 visit A)]. apply rec_grow with (n := 3); [reflexivity| |vm_compute; split; congruence].
    eapply rec_search with (n := 3) (es := []); [apply rec_start; vm_compute; split; congruence|apply (ends1 3); lia|exact (search1 visit A)].
  - intros H hs vrf now server ask answer Ea E. unfold serverContactMonitor in E. apply bind_ok in E as (op & _ & E). apply bind_ok in E as (ptrs & V & _). rewrite Ea in V. discriminate V.
  - exists 8, mon8. split; [vm_compute; split; congruence|]. split; [split; reflexivity|]. split; [reflexivity|]. intro s. vm_compute. reflexivity.
Qed.

(** The same searches, but the label is monitored after the log has grown: only the pair of version 1 is left, at entry 3. *)
Definition mon4 : monitor := {| mo_rightmost := 5; mo_size := 4; mo_contact := Some (contactPtrs [(2, 1)]); mo_owner := None |}.
Lemma fromLeft_any : anyOrder fromLeft.
Proof. intros i m. apply nsort_perm. Qed.
Lemma c100_example : recorded true (exConfig 1000 1000 10 0) fromLeft log8 4 [(3, 1)].
Proof.
  eapply rec_search with (n := 4) (es := [(3, 1)]) (v := 0) (x := 1); [|apply (ends0 4); lia|vm_compute; reflexivity].
  eapply rec_monitor with (n := 3) (es := [(2, 1)]) (m := mon4) (s := 0); [|vm_compute; split; congruence|split; reflexivity|reflexivity|vm_compute; reflexivity|vm_compute; reflexivity].
  eapply rec_search with (n := 3) (es := []); [apply rec_start; vm_compute; split; congruence|apply (ends1 3); lia|exact (search1 fromLeft fromLeft_any)].
Qed.
Lemma c100_examples : okLog log8 /\ anyOrder fromLeft /\ recorded true (exConfig 1000 1000 10 0) fromLeft log8 4 [(3, 1)] /\
  result (run (honest (logAt log8 3)) (fixedVersionSearch (exConfig 1000 1000 10 0) 1 3) 0) = Ok 2 /\
  result (run (honest (logAt log8 4)) (fixedVersionSearch (exConfig 1000 1000 10 0) 0 4) 0) = Ok 1.
Proof. split; [exact log8_ok|]. split; [exact fromLeft_any|]. split; [exact c100_example|]. split; vm_compute; reflexivity. Qed.

(** The same versions, with timestamps that grow *)
Definition aged8 : hlog := {| h_n := 8; h_ts := fun x => if x <? 3 then 5 else 50; h_g := h_g log8 |}.
Lemma aged8_ok : okLog aged8.
Proof.
  destruct log8_ok as (A & _ & _ & D & E). split; [exact A|]. unfold aged8. cbn [h_n h_ts h_g]. split; [|split; [|split; [exact D|exact E]]].
  - intros x y B. destruct (N.ltb_spec x 3), (N.ltb_spec y 3); lia.
  - intros x B. destruct (x <? 3); reflexivity.
Qed.
Lemma c100_expired : okLog aged8 /\ firstWith aged8 1 2 /\ isExpired 30 (h_ts aged8 2) (h_ts aged8 7) = true /\
  (forall d, ~ distinguished 8 (h_ts aged8) 1000 d) /\ result (run (honest aged8) (fixedVersionSearch (exConfig 1000 1000 1000 30) 1 8) 0) = Ok 7.
Proof.
  split; [exact aged8_ok|]. split; [exact first1|]. split; [reflexivity|]. split; [|vm_compute; reflexivity].
  intros d D. apply AlgProofs.DIn_bound in D. cbn in D. lia.
Qed.
