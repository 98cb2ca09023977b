(** What the runs of the client leave unchanged, and a label state that stands in the way of the next search (C49). *)
From Verif Require Import Base BaseProofs LogMathModel LogTreeModel LogChunkModel TransMathModel LaddersModel LaddersProofs PrefixModel CodecModel AlgModel HandleModel
  StoreModel CommitModel ServerModel ClientModel HandleProofs ClientProofs.
Open Scope N_scope.
Local Open Scope list_scope.

(** ** Invariants of runs *)

Record preserves {S} (P : provider S) (I : S -> Prop) : Prop := {
  pr_ts : forall s x, I s -> I (snd (pTs P s x));
  pr_ladder : forall s x v o, I s -> I (snd (pLadder P s x v o));
  pr_mon : forall s x v, I s -> I (snd (pMon P s x v));
  pr_inclusion : forall s x vs, I s -> I (snd (pIncl P s x vs));
  pr_track : forall s x o g l, I s -> I (pTrack P s x o g l) }.

Lemma final_addEv {A S} e (r : res A * S * list event) : final (addEv e r) = final r.
Proof. destruct r as [[a s] l]. reflexivity. Qed.
Lemma result_addEv {A S} e (r : res A * S * list event) : result (addEv e r) = result r.
Proof. destruct r as [[a s] l]. reflexivity. Qed.

Lemma run_keeps {S A} (P : provider S) I (p : prog A) : preserves P I -> forall s, I s -> I (final (run P p s)).
Proof.
  intro K. induction p; intros s Hs; cbn [run]; try exact Hs.
  - pose proof (pr_ts P I K s x Hs) as Q. destruct (pTs P s x) as [r s']. rewrite final_addEv. destruct r; auto.
  - pose proof (pr_ladder P I K s x ver omit Hs) as Q. destruct (pLadder P s x ver omit) as [r s']. rewrite final_addEv. destruct r; auto.
  - pose proof (pr_mon P I K s x ver Hs) as Q. destruct (pMon P s x ver) as [r s']. rewrite final_addEv. destruct r; auto.
  - pose proof (pr_inclusion P I K s x vers Hs) as Q. destruct (pIncl P s x vers) as [r s']. rewrite final_addEv. destruct r; auto.
  - rewrite final_addEv. auto.
  - rewrite final_addEv. apply IHp. apply (pr_track P I K). exact Hs.
Qed.

(** The handle of a data provider changes only through the operations of its interface. *)
Section Handle.
Context {S : Type}.
Variable hd : handleIf S.
Variable I : S -> Prop.
Hypothesis Kts : forall h x, I h -> I (snd (hTs hd h x)).
Hypothesis Kladder : forall h x v o, I h -> I (snd (hLadder hd h x v o)).
Hypothesis Kmon : forall h x v, I h -> I (snd (hMon hd h x v)).
Hypothesis Kincl : forall h x vs, I h -> I (snd (hIncl hd h x vs)).
Hypothesis Ktrack : forall h x o g l, I h -> I (hTrack hd h x o g l).

Lemma dpTs_keeps d x : I (d_handle d) -> I (d_handle (snd (dpTs hd d x))).
Proof.
  intro Hd. unfold dpTs. destruct (mget (d_ts d) x); [exact Hd|]. pose proof (Kts (d_handle d) x Hd) as Q.
  destruct (hTs hd (d_handle d) x) as [[ts|e|e|] h]; cbn in *; try exact Q.
  destruct (addTimestamp (d_ts d) x ts); exact Q.
Qed.
Lemma dpRoot_keeps {A} (d : dataProvider S) x (r : res (bytes * A)) h : I h -> I (d_handle (snd (dpRoot d x r h))).
Proof.
  intro Q. unfold dpRoot. destruct r as [[root a]|e|e|]; try exact Q. cbn. destruct (addPrefixTree (d_roots d) x root); exact Q.
Qed.

Lemma dp_preserves : preserves (dpProvider hd) (fun d => I (d_handle d)).
Proof.
  constructor; cbn.
  - intros. now apply dpTs_keeps.
  - intros d x v o Hd. unfold dpLadder. pose proof (dpTs_keeps d x Hd) as Q. destruct (dpTs hd d x) as [[t|e|e|] d1]; cbn in *; try exact Q.
    pose proof (Kladder (d_handle d1) x v o Q) as Q'. destruct (hLadder hd (d_handle d1) x v o) as [r h]. now apply dpRoot_keeps.
  - intros d x v Hd. unfold dpMon. pose proof (dpTs_keeps d x Hd) as Q. destruct (dpTs hd d x) as [[t|e|e|] d1]; cbn in *; try exact Q.
    pose proof (Kmon (d_handle d1) x v Q) as Q'. destruct (hMon hd (d_handle d1) x v) as [r h]. now apply dpRoot_keeps.
  - intros d x v Hd. unfold dpIncl. destruct v as [|v0 vt]; [exact Hd|]. pose proof (dpTs_keeps d x Hd) as Q. destruct (dpTs hd d x) as [[t|e|e|] d1]; cbn in *; try exact Q.
    pose proof (Kincl (d_handle d1) x (v0 :: vt) Q) as Q'. destruct (hIncl hd (d_handle d1) x (v0 :: vt)) as [r h]. now apply dpRoot_keeps.
  - intros. now apply Ktrack.
Qed.
End Handle.

Lemma keeping_versions {A} (r : received) (a : res (A * received)) :
  (forall x r', a = Ok (x, r') -> r_versions r' = r_versions r) -> r_versions (snd (keeping r a)) = r_versions r.
Proof. intro K. destruct a as [[x r']| | |]; try reflexivity. cbn. eapply K. reflexivity. Qed.

Lemma received_versions H hs vm : preserves (dpProvider (receivedHandle H hs)) (fun d => r_versions (d_handle d) = vm).
Proof.
  apply (dp_preserves (receivedHandle H hs) (fun r => r_versions r = vm)); cbn.
  - intros r x <-. unfold rTs. destruct (r_ts r); reflexivity.
  - intros r x v o <-. unfold rLadder. apply keeping_versions. intros y r' E. destruct (r_proofs r); [discriminate|].
    destruct (searchMaps _ x o) as [li rn]. repeat (apply bind_ok in E; destruct E as (? & _ & E)). injection E as _ <-. reflexivity.
  - intros r x v <-. unfold rMon. apply keeping_versions. intros y r' E. destruct (r_proofs r); [discriminate|].
    apply bind_ok in E. destruct E as (ladder & _ & E). destruct (negb _); [discriminate|]. destruct (negb _); [discriminate|].
    repeat (apply bind_ok in E; destruct E as (? & _ & E)). injection E as _ <-. reflexivity.
  - intros r x v <-. unfold rIncl. apply keeping_versions. intros y r' E. destruct (r_proofs r); [discriminate|].
    destruct (negb _); [discriminate|]. destruct (negb _); [discriminate|].
    repeat (apply bind_ok in E; destruct E as (? & _ & E)). injection E as _ <-. reflexivity.
  - intros r x o g l <-. reflexivity.
Qed.

(** ** The versions a verifier knows *)

Definition vVersions (v : cverifier) : verMap := r_versions (d_handle (v_d v)).

Lemma execV_versions {A} H hs (p : prog A) v a v' : execV H hs p v = Ok (a, v') -> vVersions v' = vVersions v.
Proof.
  unfold execV. intro E. apply bind_ok in E. destruct E as (x & _ & E). injection E as <- <-. unfold vVersions. cbn.
  apply (run_keeps _ _ p (received_versions H hs (r_versions (d_handle (v_d v)))) (v_d v)). reflexivity.
Qed.

Lemma mhas_mput {V} (m : list (N * V)) k v k' : mhas (mput m k v) k' = (k' =? k) || mhas m k'.
Proof.
  unfold mhas. rewrite mget_mput. destruct (k' =? k); [reflexivity|]. now destruct (mget m k').
Qed.

Lemma vAddVersion_versions hs v ver out com v' : vAddVersion hs v ver out com = Ok v' ->
  mhas (vVersions v) ver = false /\ vVersions v' = mput (vVersions v) ver (out, com) /\ lenN out = hs /\ match com with Some c => lenN c = hs | None => True end.
Proof.
  unfold vAddVersion, addVersion. intro E. destruct (N.eqb_spec (lenN out) hs); [|discriminate]. cbn [negb] in E.
  assert (L : match com with Some c => lenN c = hs | None => True end).
  { destruct com as [cm|]; [|exact I]. destruct (N.eqb_spec (lenN cm) hs); [assumption|discriminate]. }
  destruct (match com with Some c => negb (lenN c =? hs) | None => false end); [discriminate|].
  destruct (mhas (r_versions (d_handle (v_d v))) ver) eqn:M; [discriminate|]. cbn [bind] in E. injection E as <-. repeat split; assumption.
Qed.

Lemma ladderSteps_versions hs vrfVerify label manual : forall vers v ladder v', ladderSteps hs vrfVerify label v vers ladder manual = Ok v' ->
  List.length ladder = List.length vers ->
  forall y, mhas (vVersions v') y = mhas (vVersions v) y || mem32 y vers.
Proof.
  induction vers as [|ver vers IH]; cbn [ladderSteps]; intros v ladder v' E L y; [injection E as <-; now rewrite Bool.orb_false_r|].
  destruct ladder as [|st ladder]; [discriminate|]. apply bind_ok in E. destruct E as (i & _ & E).
  destruct (vrfVerify i (ls_proof st)) as [out|]; [|discriminate].
  assert (exists com v1, vAddVersion hs v ver out com = Ok v1 /\ ladderSteps hs vrfVerify label v1 vers ladder manual = Ok v') as (com & v1 & E1 & E2).
  { destruct (mget manual ver); destruct (ls_commitment st); try discriminate; apply bind_ok in E; destruct E as (v1 & E1 & E2); eauto. }
  rewrite (IH _ _ _ E2 ltac:(cbn in L; lia) y). destruct (vAddVersion_versions _ _ _ _ _ _ E1) as (_ & -> & _). rewrite mhas_mput. cbn [mem32 existsb].
  unfold mem32. destruct (y =? ver), (mhas (vVersions v) y), (existsb (N.eqb y) vers); reflexivity.
Qed.

Lemma processLadder_versions hs vrfVerify v label ladder vers manual v' : processLadder hs vrfVerify v label ladder vers manual = Ok v' ->
  forall y, mhas (vVersions v') y = mhas (vVersions v) y || mem32 y vers.
Proof.
  unfold processLadder. destruct (Nat.eqb_spec (List.length ladder) (List.length vers)); [|discriminate]. cbn [negb]. intros E y.
  eapply ladderSteps_versions; eassumption.
Qed.

Lemma addLabelState_has hs v ls v' e : addLabelState hs v ls = Ok v' -> In e (cl_versions ls) -> mhas (vVersions v) (rv_version e) = false.
Proof.
  unfold addLabelState. revert v. induction (cl_versions ls) as [|a t IH]; cbn [foldM]; intros v E I; [destruct I|].
  apply bind_ok in E. destruct E as (v1 & E1 & E). destruct (vAddVersion_versions _ _ _ _ _ _ E1) as (M & V & _). destruct I as [->|I]; [exact M|].
  specialize (IH v1 E I). rewrite V, mhas_mput in IH. now apply Bool.orb_false_iff in IH.
Qed.

(** Every binary ladder starts with version 0. *)
Lemma base_zero n l : baseBinaryLadder n = Ok l -> exists t, l = 0 :: t.
Proof.
  unfold baseBinaryLadder, baseBinaryLadder_fuel. intro E. apply bind_ok in E. destruct E as (up & U & E).
  assert (exists t, up = 0 :: t) as (t & ->).
  { change 70%nat with (S 69) in U. cbn [ladder_up] in U. change (sub32 (shl32 1 0) 1) with 0 in U. destruct (n <? 0).
    - injection U as <-. eauto.
    - apply bind_ok in U. destruct U as (rest & _ & U). injection U as <-. eauto. }
  destruct (rev (0 :: t)) as [|hi [|lo r]]; try discriminate. apply bind_ok in E. destruct E as (down & _ & E). injection E as <-. cbn. eauto.
Qed.
Lemma ladder_zero n l : searchBinaryLadder n n [] [] = Ok l -> exists t, l = 0 :: t.
Proof.
  unfold searchBinaryLadder. intro E. apply bind_ok in E. destruct E as (b & B & E). injection E as <-. apply base_zero in B. destruct B as (t & ->).
  cbn [searchLadder_loop mem32 existsb orb]. eauto.
Qed.
Lemma monitoring_zero n l : monitoringBinaryLadder n = Ok l -> exists t, l = 0 :: t.
Proof.
  unfold monitoringBinaryLadder. intro E. apply bind_ok in E. destruct E as (b & B & E). injection E as <-. apply base_zero in B. destruct B as (t & ->).
  cbn [filter]. replace (0 <=? n) with true by (symmetry; apply N.leb_le; lia). eauto.
Qed.

Section Client.
Variable H : bytes -> option bytes.
Variable hs : N.
Variable c : pubConfig.
Variable now : N.
Variable vrfVerify : bytes -> bytes -> option bytes.
Variable sigVerify leafVerify audVerify : bytes -> bytes -> bool.
Variable visit : nat -> list (N * N) -> list N.

Lemma checkSearch_versions state req resp v target terminal :
  checkSearch H hs c now vrfVerify leafVerify state req resp = Ok (v, target, terminal) ->
  exists ladder, searchBinaryLadder target target [] [] = Ok ladder /\ forall y, In y ladder -> mhas (vVersions v) y = true.
Proof.
  intro Q. unfold checkSearch in Q. step Q. step Q. step Q. step Q. step Q. step Q. step Q. destruct x5 as [y v2]. step Q. destruct x5 as [z v3].
  injection Q as <- <- <-. eexists. split; [eassumption|]. intros y0 I.
  rewrite (execV_versions _ _ _ _ _ _ Q7), (execV_versions _ _ _ _ _ _ Q6), (processLadder_versions _ _ _ _ _ _ _ _ Q5).
  apply Bool.orb_true_iff. right. unfold mem32. apply existsb_exists. exists y0. split; [exact I|apply N.eqb_refl].
Qed.

Lemma search_retained k state req resp ls k' :
  getLabelState hs k (sq_label req) = Ok ls -> (exists e, In e (cl_versions ls) /\ rv_version e = 0) ->
  clientSearch H hs c now vrfVerify sigVerify leafVerify audVerify visit k state req resp = Ok k' ->
  k_labels k' = k_labels k.
Proof.
  intros L (e & I & Z) E. unfold clientSearch in E. apply bind_ok in E. destruct E as ([[v target] terminal] & Q & E). step E.
  assert (P : forall s k1, putState k s = Ok k1 -> k_labels k1 = k_labels k).
  { intros s k1 X. unfold putState in X. step X. injection X as <-. reflexivity. }
  destruct (negb _); [eapply P; exact E|]. step E. destruct x0 as [d v']. destruct (match d with Some _ => _ | None => _ end); [eapply P; exact E|].
  rewrite L in E. cbn [bind] in E. step E. exfalso. apply checkSearch_versions in Q. destruct Q as (ladder & F & V).
  apply ladder_zero in F. destruct F as (t & ->). pose proof (addLabelState_has _ _ _ _ _ Q2 I) as M. rewrite Z in M.
  rewrite (execV_versions _ _ _ _ _ _ Q1) in M. rewrite V in M by (now left). discriminate.
Qed.

(** What is retained for a label that is monitored contains version 0. *)
Lemma retained_zero contact owner vm ls : updateRetainedVersions contact owner vm = Ok ls -> contact <> [] ->
  exists e, In e (cl_versions ls) /\ rv_version e = 0.
Proof.
  unfold updateRetainedVersions. intros E NE. step E. step E. step E. injection E as <-. cbn [cl_versions].
  assert (I : In 0 (nsort (nodup N.eq_dec (List.concat x ++ x0)))).
  { apply (Permutation.Permutation_in _ (Permutation.Permutation_sym (nsort_perm _))). apply nodup_In. apply in_app_iff. left.
    destruct contact as [|e t]; [congruence|]. cbn [mapM] in Q. step Q. step Q. injection Q as <-. apply monitoring_zero in Q2. destruct Q2 as (t' & ->).
    now left. }
  clear - I Q1. revert x1 Q1. induction (nsort _) as [|v t IH]; intros ys M; [destruct I|]. cbn [mapM] in M. step M. step M. injection M as <-. destruct I as [->|I].
  - destruct (mget vm 0) as [[out com]|]; [|discriminate]. injection Q as <-. eexists. split; [now left|reflexivity].
  - destruct (IH I _ Q0) as (e & A & B). exists e. split; [now right|exact B].
Qed.

Lemma frontierless k sv resp o val info : cl_owner (ss_label sv) = Some o -> ownerGreatest o = None -> pc_mode c <> ThirdPartyManagement ->
  ur_values resp = [val] -> ur_info resp = [info] -> ui_sig info = None -> ur_ladder resp = [] ->
  (exists com, labelCommitment H (ui_opening info) (uq_label (ss_req sv)) 0 {| uv_value := val; uv_sig := None |} = Ok com) ->
  streamVerify H hs c now vrfVerify sigVerify leafVerify audVerify k sv resp = Panic "index out of range"%string.
Proof.
  intros O G M V I S L (com & C). unfold streamVerify. rewrite O, V, I, L. unfold verifyValues. rewrite I, G. cbn [lenN List.length N.of_nat].
  change (lenN [info] =? 0) with false. change (lenN [val]) with (lenN [info]). rewrite N.eqb_refl. cbn [negb orb]. unfold valueCommitments, verifyUpdateValue.
  destruct (N.eqb_spec (pc_mode c) ThirdPartyManagement); [contradiction|]. cbn [negb uv_sig]. rewrite S. cbn [bind]. rewrite C. cbn [bind].
  reflexivity.
Qed.

End Client.
