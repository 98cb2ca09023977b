From Coq Require Import Sorted.
From Verif Require Import Base BaseProofs CodecModel StoreModel StoreProofs ServerModel ManagedModel ManagedSpec PrefixExamples.
Open Scope N_scope.
Local Open Scope list_scope.

Lemma from_in start len x : In x (from start len) <-> start <= x /\ x < start + N.of_nat len.
Proof.
  revert start. induction len as [|k IH]; intro s.
  - cbn. lia.
  - cbn [from In]. rewrite IH. lia.
Qed.

Lemma from_sorted start len : StronglySorted N.lt (from start len).
Proof.
  revert start. induction len as [|k IH]; intro s; cbn [from]; constructor; [apply IH|].
  apply Forall_forall. intros x I. apply from_in in I. lia.
Qed.

Lemma signValues_len c sign l ver vs out : signValues c sign l ver vs = Ok out -> List.length out = List.length vs.
Proof.
  revert ver out. induction vs as [|v t IH]; cbn [signValues]; intros ver out E; [injection E as <-; reflexivity|].
  destruct (updateTBS c l (w32 ver) v); try discriminate. cbn [bind] in E. destruct (sign a); try discriminate. cbn [bind] in E.
  destruct (signValues c sign l (ver + 1) t) as [o| | |] eqn:Q; try discriminate. cbn [bind] in E. injection E as <-. cbn. f_equal. eapply IH. exact Q.
Qed.

(** What the store says about a label bounds the versions signed so far. *)
Definition bound (s : managedStore) (l : bytes) : N := match bget s l with None => 0 | Some v => v + 1 end.

Lemma w32_small x : x < 2 ^ 32 -> w32 x = x.
Proof. intro L. unfold w32. apply N.mod_small. exact L. Qed.

Lemma submitted_cons l r t : submitted l (r :: t) = (if bytes_eqb (uq_label r) l then lenN (uq_values r) else 0) + submitted l t.
Proof. unfold submitted. cbn [flat_map]. unfold lenN at 1. rewrite app_length, Nat2N.inj_add. fold (lenN (flat_map (fun r0 : updateRequest => if bytes_eqb (uq_label r0) l then uq_values r0 else []) t)). f_equal. destruct (bytes_eqb _ _); reflexivity. Qed.

Lemma managed_step c sign s r out s' : managedUpdate c sign s r = (out, s') ->
  (forall l, bound s' l = (if bytes_eqb (uq_label r) l then match bget s l with None => lenN (uq_values r) + 1 | Some v => v + lenN (uq_values r) + 1 end else bound s l)) /\
  forall q, out = Ok q -> mq_label q = uq_label r /\ List.length (mq_values q) = List.length (uq_values r) /\ mq_signed q = w32 (bound s (uq_label r)).
Proof.
  unfold managedUpdate. intro E. destruct (incrementGreatest s (uq_label r) (lenN (uq_values r))) as [prev s1] eqn:I.
  apply pair_equal_spec in E. destruct E as [Eo Es]. subst s1.
  assert (K : (forall l, bound s' l = (if bytes_eqb (uq_label r) l then match bget s l with None => lenN (uq_values r) + 1 | Some v => v + lenN (uq_values r) + 1 end else bound s l))
              /\ Z.to_N (prev + 1) = bound s (uq_label r)).
  { unfold incrementGreatest in I. unfold bound. destruct (bget s (uq_label r)) as [v|] eqn:G; apply pair_equal_spec in I; destruct I as [<- <-].
    - split; [|lia]. intro l. rewrite bget_bput. rewrite (bytes_eqb_sym l). destruct (bytes_eqb (uq_label r) l) eqn:T; [|reflexivity].
      apply bytes_eqb_eq in T. subst l. rewrite G. lia.
    - split; [|lia]. intro l. rewrite bget_bput. rewrite (bytes_eqb_sym l). destruct (bytes_eqb (uq_label r) l) eqn:T; [|reflexivity].
      apply bytes_eqb_eq in T. subst l. rewrite G. reflexivity. }
  split; [apply K|]. intros q Q. rewrite <- Eo in Q. rewrite (proj2 K) in Q.
  destruct (signValues c sign (uq_label r) (bound s (uq_label r)) (uq_values r)) as [vs| | |] eqn:V; try discriminate.
  cbn [bind] in Q. injection Q as <-. cbn. split; [reflexivity|]. split; [eapply signValues_len; exact V|reflexivity].
Qed.

Definition reserve (s : managedStore) (l : bytes) : N := match bget s l with None => 1 | Some v => v + 1 end.

Lemma sorted_app (a b : list N) m : StronglySorted N.lt a -> StronglySorted N.lt b -> Forall (fun x => x < m) a -> Forall (fun x => m <= x) b -> StronglySorted N.lt (a ++ b).
Proof.
  intros A B La Lb. induction a as [|x a IH]; [exact B|]. cbn. apply StronglySorted_inv in A. destruct A as [A F]. apply Forall_inv in La as Lx. apply Forall_inv_tail in La.
  constructor; [apply IH; assumption|]. apply Forall_app. split; [exact F|]. eapply Forall_impl; [|exact Lb]. cbn. intros. lia.
Qed.

Lemma versions_sorted c sign l reqs : forall s, reserve s l + submitted l reqs < 2 ^ 32 ->
  StronglySorted N.lt (signedVersions l (managedRun c sign s reqs)) /\
  Forall (fun v => bound s l <= v) (signedVersions l (managedRun c sign s reqs)).
Proof.
  induction reqs as [|r t IH]; intros s B; [split; constructor|].
  rewrite submitted_cons in B. cbn [managedRun]. destruct (managedUpdate c sign s r) as [out s'] eqn:E.
  destruct (managed_step _ _ _ _ _ _ E) as [S Q].
  assert (R : reserve s' l <= reserve s l + (if bytes_eqb (uq_label r) l then lenN (uq_values r) else 0)).
  { unfold managedUpdate, incrementGreatest in E. unfold reserve.
    destruct (bget s (uq_label r)) as [v|] eqn:G; apply pair_equal_spec in E; destruct E as [_ <-]; rewrite bget_bput, (bytes_eqb_sym l);
      destruct (bytes_eqb (uq_label r) l) eqn:T; try lia; apply bytes_eqb_eq in T; subst l; rewrite G; lia. }
  specialize (IH s' ltac:(lia)). destruct IH as [I1 I2].
  assert (B2 : bound s l + (if bytes_eqb (uq_label r) l then lenN (uq_values r) else 0) <= bound s' l).
  { rewrite S. unfold bound. destruct (bytes_eqb (uq_label r) l); destruct (bget s l); lia. }
  assert (I3 : Forall (fun v => bound s l <= v) (signedVersions l (managedRun c sign s' t))).
  { eapply Forall_impl; [|exact I2]. cbn. intros. lia. }
  cbn [signedVersions flat_map]. fold (signedVersions l (managedRun c sign s' t)).
  destruct out as [q| | |]; try (split; assumption).
  destruct (Q q eq_refl) as (Ql & Qn & Qs). rewrite Ql. destruct (bytes_eqb (uq_label r) l) eqn:T; [|split; assumption].
  apply bytes_eqb_eq in T. rewrite T in Qs. assert (bound s l <= reserve s l) by (unfold bound, reserve; destruct (bget s l); lia).
  rewrite w32_small in Qs by lia. rewrite Qs, Qn. unfold lenN in *. split.
  - eapply sorted_app with (m := bound s' l); [apply from_sorted|exact I1| |exact I2]. apply Forall_forall. intros x I. apply from_in in I. lia.
  - apply Forall_app. split; [|exact I3]. apply Forall_forall. intros x I. apply from_in in I. lia.
Qed.

Lemma c52_partial : forall c sign l reqs, submitted l reqs < 2 ^ 32 - 1 -> StronglySorted N.lt (signedVersions l (managedRun c sign [] reqs)).
Proof. intros c sign l reqs B. apply versions_sorted. change (reserve [] l) with 1. lia. Qed.

(** Every update of [k] values after a first one of [k0] starts one too high. *)
Lemma c52_skips : forall c sign r1 r2 q1 q2, uq_label r2 = uq_label r1 -> lenN (uq_values r1) < 2 ^ 32 - 1 ->
  managedRun c sign [] [r1; r2] = [Ok q1; Ok q2] -> mq_signed q1 = 0 /\ mq_signed q2 = lenN (uq_values r1) + 1.
Proof.
  intros c sign r1 r2 q1 q2 L B E. cbn [managedRun] in E. destruct (managedUpdate c sign [] r1) as [o1 s1] eqn:E1.
  destruct (managedUpdate c sign s1 r2) as [o2 s2] eqn:E2. injection E as -> ->.
  destruct (managed_step _ _ _ _ _ _ E1) as [S1 Q1]. destruct (managed_step _ _ _ _ _ _ E2) as [_ Q2].
  destruct (Q1 _ eq_refl) as (_ & _ & ->). destruct (Q2 _ eq_refl) as (_ & _ & ->). rewrite L, S1, bytes_eqb_refl. cbn [bound bget].
  split; [reflexivity|]. apply w32_small. lia.
Qed.

Definition skipConfig : pubConfig := {| pc_suite := 1; pc_hs := 32; pc_openSize := 16; pc_vrfSize := 0; pc_mode := ThirdPartyManagement; pc_sigKey := []; pc_vrfKey := []; pc_leafKey := [x01];
     pc_maxAuditorLag := 0; pc_auditorStart := 0; pc_auditorKey := []; pc_maxAhead := 0; pc_maxBehind := 0; pc_rmw := 1; pc_maxLife := 0 |}.
Definition skipRequest (b : byte) : updateRequest := {| uq_last := None; uq_label := [x10]; uq_greatest := None; uq_values := [[b]] |}.
Definition skipOut (ver : N) (b : byte) (sg : bytes) : managerUpdateRequest :=
  {| mq_last := None; mq_label := [x10]; mq_greatest := None; mq_signed := ver; mq_values := [{| uv_value := [b]; uv_sig := Some sg |}] |}.

Lemma skip_run : managedRun skipConfig (fun _ => Ok [x42]) [] [skipRequest x01; skipRequest x02] = [Ok (skipOut 0 x01 [x42]); Ok (skipOut 2 x02 [x42])].
Proof. vm_compute. reflexivity. Qed.

Lemma c52_refuted : exists c sign l reqs, (forall r, In r reqs -> uq_label r = l) /\ (forall o, In o (managedRun c sign [] reqs) -> exists q, o = Ok q) /\
  signedVersions l (managedRun c sign [] reqs) <> from 0 (N.to_nat (submitted l reqs)).
Proof.
  exists skipConfig, (fun _ => Ok [x42]), [x10], [skipRequest x01; skipRequest x02]. rewrite skip_run. split; [|split].
  - cbn. intros ? [<-|[<-|[]]]; reflexivity.
  - intros o [<-|[<-|[]]]; eexists; reflexivity.
  - vm_compute. discriminate.
Qed.

(** ** The manager checks the signatures *)
Lemma operator_ok c sign leafVerify l : (forall tbs sg, sign tbs = Ok sg -> leafVerify tbs sg = true) ->
  forall vs ver out, signValues c sign l ver vs = Ok out -> operatorSignatures c leafVerify l (w32 ver) out = Ok tt.
Proof.
  intro V. induction vs as [|v t IH]; cbn [signValues]; intros ver out E; [injection E as <-; reflexivity|].
  destruct (updateTBS c l (w32 ver) v) as [tbs| | |] eqn:T; try discriminate. cbn [bind] in E. destruct (sign tbs) as [sg| | |] eqn:G; try discriminate. cbn [bind] in E.
  destruct (signValues c sign l (ver + 1) t) as [o| | |] eqn:Q; try discriminate. cbn [bind] in E. injection E as <-.
  cbn [operatorSignatures uv_value uv_sig]. rewrite T. cbn [bind]. rewrite (V _ _ G).
  replace (w32 (w32 ver + 1)) with (w32 (ver + 1)); [apply IH; exact Q|].
  unfold w32. rewrite N.add_mod_idemp_l by discriminate. reflexivity.
Qed.

Lemma manager_accepts : forall c sign (leafVerify : bytes -> bytes -> bool) s req q s' t, (forall tbs sg, sign tbs = Ok sg -> leafVerify tbs sg = true) ->
  managedUpdate c sign s req = (Ok q, s') ->
  setManagerRequest c leafVerify t q =
    let* index := serverIndex t (uq_label req) in
    Ok {| up_tree := t; up_last := uq_last req; up_label := uq_label req; up_signed := Some (mq_signed q);
          up_values := mq_values q; up_index := index; up_ver := nextVersion (uq_greatest req) |}.
Proof.
  intros c sign leafVerify s req q s' t V E. unfold managedUpdate in E. destruct (incrementGreatest _ _ _) as [prev s1].
  apply pair_equal_spec in E. destruct E as [E _].
  destruct (signValues c sign (uq_label req) (Z.to_N (prev + 1)) (uq_values req)) as [vs| | |] eqn:Q; try discriminate. cbn [bind] in E. injection E as <-.
  unfold setManagerRequest. cbn [mq_last mq_label mq_greatest mq_signed mq_values]. rewrite (operator_ok _ _ _ _ V _ _ _ Q). cbn [bind].
  destruct (serverIndex t (uq_label req)); reflexivity.
Qed.
