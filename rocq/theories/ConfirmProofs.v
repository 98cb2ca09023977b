(** Proofs for C91: what an owner keeps about the versions of an update. *)
From Verif Require Import Base BaseProofs CodecModel LaddersModel TransMathModel AlgModel HandleModel CommitModel ServerModel ClientModel ClientProofs2 GuardProofs3 GuardProofs6 SignedSpec StoreModel HandleProofs LogMathModel LogChunkProofs7 ConfirmSpec.
Open Scope N_scope.
Local Open Scope list_scope.

Lemma nsort_incl l x : In x (nsort l) -> In x l.
Proof. apply nsort_in. Qed.

(** The proofs requested for an update never include the first new version. *)
Lemma first_missing s e l : updateLadderVersions s e = Ok l -> ~ In s l.
Proof.
  unfold updateLadderVersions. intro E. apply bind_ok in E. destruct E as (ladder & _ & E). apply bind_ok in E. destruct E as (known & Ek & E). injection E as <-.
  intro I. apply nsort_incl in I. apply nodup_In in I. apply filter_In in I. destruct I as [_ I].
  assert (M : In s known).
  { destruct (N.eqb_spec s 0) as [->|Nz]; [injection Ek as <-; now left|]. pose proof (search_small _ _ Ek) as L. destruct (search_total _ L) as (k' & E' & _ & B).
    rewrite Ek in E'. injection E' as <-. replace (s - 1 + 1) with s in B by lia. exact B. }
  assert (Q : mem32 s known = true) by (unfold mem32; apply existsb_exists; exists s; split; [exact M|apply N.eqb_refl]). rewrite Q in I. discriminate.
Qed.

Section Client.
Variable H : bytes -> option bytes.
Variable hs : N.
Variable c : pubConfig.
Variable now : N.
Variable vrfVerify : bytes -> bytes -> option bytes.
Variable sigVerify leafVerify audVerify : bytes -> bytes -> bool.

Lemma ladderSteps_exact label manual : forall vers v ladder v', ladderSteps hs vrfVerify label v vers ladder manual = Ok v' ->
  forall w x, mget (vVersions v') w = Some x -> mget (vVersions v) w = Some x \/ (In w vers /\ forall com, mget manual w = Some com -> snd x = Some com).
Proof.
  induction vers as [|ver vers IH]; cbn [ladderSteps]; intros v ladder v' E w x Q; [injection E as <-; auto|].
  destruct ladder as [|st ladder]; [injection E as <-; auto|]. apply bind_ok in E. destruct E as (i & _ & E).
  destruct (vrfVerify i (ls_proof st)) as [out|]; [|discriminate].
  assert (exists com v1, vAddVersion hs v ver out com = Ok v1 /\ (forall cm, mget manual ver = Some cm -> com = Some cm) /\ ladderSteps hs vrfVerify label v1 vers ladder manual = Ok v') as (com & v1 & E1 & Ec & E2).
  { destruct (mget manual ver) eqn:Em; destruct (ls_commitment st); try discriminate; apply bind_ok in E; destruct E as (v1 & E1 & E2); eexists _, v1; (split; [exact E1|split; [congruence|exact E2]]). }
  destruct (IH _ _ _ E2 w x Q) as [A|[A B]]; [|right; split; [now right|exact B]].
  destruct (vAddVersion_versions _ _ _ _ _ _ E1) as (_ & V & _). rewrite V, mget_mput in A. destruct (N.eqb_spec w ver) as [->|]; [|auto].
  injection A as <-. right. split; [now left|]. intros cm Q'. cbn. apply Ec. exact Q'.
Qed.

Lemma coms_at label : forall values infos ver coms, valueCommitments H c leafVerify label ver values infos = Ok coms ->
  forall i val info, nth_error values i = Some val -> nth_error infos i = Some info -> ver + N.of_nat i < 2 ^ 32 ->
  exists com, labelCommitment H (ui_opening info) label (ver + N.of_nat i) {| uv_value := val; uv_sig := ui_sig info |} = Ok com /\ mget coms (ver + N.of_nat i) = Some com.
Proof.
  induction values as [|x values IH]; intros [|inf infos] ver coms E i val info Q1 Q2 L; try (destruct i; discriminate).
  cbn [valueCommitments] in E. apply bind_ok in E. destruct E as ([] & _ & E). apply bind_ok in E. destruct E as (com & E1 & E). apply bind_ok in E. destruct E as (rest & E2 & E). injection E as <-.
  destruct i as [|i].
  - injection Q1 as <-. injection Q2 as <-. replace (ver + N.of_nat 0) with ver by lia. exists com. split; [exact E1|]. cbn [mget]. rewrite N.eqb_refl. reflexivity.
  - cbn in Q1, Q2. assert (Ew : w32 (ver + 1) = ver + 1) by (unfold w32, two32; apply N.mod_small; change (2 ^ 32) with 4294967296 in *; lia).
    rewrite Ew in E2. destruct (IH infos (ver + 1) rest E2 i val info Q1 Q2 ltac:(lia)) as (com' & A & B).
    replace (ver + N.of_nat (S i)) with (ver + 1 + N.of_nat i) by lia. exists com'. split; [exact A|]. cbn [mget]. destruct (N.eqb_spec (ver + 1 + N.of_nat i) ver); [lia|exact B].
Qed.

(** What is known after an update about a version is what was kept, or what the response gives for a version of the ladder. *)
Lemma update_versions k sv resp k' sv' : streamVerify H hs c now vrfVerify sigVerify leafVerify audVerify k sv resp = Ok (k', sv') ->
  exists coms ladder, valueCommitments H c leafVerify (uq_label (ss_req sv)) (newVersion sv) (updatedValues sv resp) (ur_info resp) = Ok coms /\
    updateLadderVersions (newVersion sv) (w32 (newVersion sv + lenN (ur_info resp) - 1)) = Ok ladder /\
    forall e, In e (cl_versions (ss_label sv')) -> In e (cl_versions (ss_label sv)) \/
      (In (rv_version e) ladder /\ forall com, mget coms (rv_version e) = Some com -> rv_commitment e = Some com).
Proof.
  unfold streamVerify, newVersion. destruct (cl_owner (ss_label sv)) as [o|]; [|discriminate]. intro E. apply bind_ok in E. destruct E as ([start coms] & E1 & E).
  change (match ur_values resp with [] => uq_values (ss_req sv) | vs => vs end) with (updatedValues sv resp) in E1. unfold verifyValues in E1.
  destruct (_ || _); [discriminate|]. apply bind_ok in E1. destruct E1 as (coms' & Ec & E1). injection E1 as E1 E1'. subst coms'.
  rewrite E1 in Ec. apply bind_ok in E. destruct E as (ladder & El & E). apply bind_ok in E. destruct E as ([] & _ & E). apply bind_ok in E. destruct E as (v & Ev & E).
  apply bind_ok in E. destruct E as (v0 & E0 & E). apply bind_ok in E. destruct E as (v1 & Ep & E). apply bind_ok in E. destruct E as ([u v2] & E2 & E).
  apply bind_ok in E. destruct E as ([mo v3] & E3 & E). apply bind_ok in E. destruct E as ([mo' v4] & E4 & E). apply bind_ok in E. destruct E as (upd & _ & E).
  apply bind_ok in E. destruct E as (contact & _ & E). destruct (mo_owner mo') as [o'|]; [|discriminate]. apply bind_ok in E. destruct E as (ls' & Er & E).
  apply bind_ok in E. destruct E as (k1 & _ & E). injection E as <- <-. cbn [ss_label].
  assert (St : match ownerGreatest o with Some g => (g + 1) mod 2 ^ 32 | None => 0 end = start) by exact E1. rewrite St.
  exists coms, ladder. split; [exact Ec|]. split; [exact El|]. intros e I.
  destruct (retained_in _ _ _ _ Er) as (_ & _ & Ret). specialize (Ret e I). change (r_versions (d_handle (v_d v4))) with (vVersions v4) in Ret.
  rewrite (execV_versions _ _ _ _ _ _ E4), (execV_versions _ _ _ _ _ _ E3), (execV_versions _ _ _ _ _ _ E2) in Ret.
  unfold processLadder in Ep. destruct (negb _); [discriminate|]. destruct (ladderSteps_exact _ _ _ _ _ _ Ep _ _ Ret) as [A|A]; [|right; exact A].
  left. destruct (addLabelState_exact _ _ _ _ E0 _ _ _ A) as [B|B]; [destruct e; exact B|]. rewrite (newCVerifier_versions _ _ _ _ _ Ev) in B. discriminate.
Qed.

Lemma c91_never k sv resp k' sv' : streamVerify H hs c now vrfVerify sigVerify leafVerify audVerify k sv resp = Ok (k', sv') ->
  forall e, In e (cl_versions (ss_label sv')) -> rv_version e = newVersion sv -> In e (cl_versions (ss_label sv)).
Proof.
  intros E e I Q. destruct (update_versions _ _ _ _ _ E) as (coms & ladder & _ & El & K). destruct (K e I) as [A|[A _]]; [exact A|].
  rewrite Q in A. destruct (first_missing _ _ _ El A).
Qed.

Lemma c91_partial k sv resp k' sv' : streamVerify H hs c now vrfVerify sigVerify leafVerify audVerify k sv resp = Ok (k', sv') ->
  forall i val info e, nth_error (updatedValues sv resp) i = Some val -> nth_error (ur_info resp) i = Some info -> newVersion sv + N.of_nat i < 2 ^ 32 ->
  In e (cl_versions (ss_label sv')) -> rv_version e = newVersion sv + N.of_nat i -> ~ In e (cl_versions (ss_label sv)) ->
  exists com, labelCommitment H (ui_opening info) (uq_label (ss_req sv)) (rv_version e) {| uv_value := val; uv_sig := ui_sig info |} = Ok com /\ rv_commitment e = Some com.
Proof.
  intros E i val info e Q1 Q2 L I Q Ne. destruct (update_versions _ _ _ _ _ E) as (coms & ladder & Ec & _ & K). destruct (K e I) as [A|[_ A]]; [contradiction|].
  destruct (coms_at _ _ _ _ _ Ec i val info Q1 Q2 L) as (com & C1 & C2). exists com. rewrite Q. split; [exact C1|]. apply A. rewrite Q. exact C2.
Qed.
(** The commitment to the first new version is not looked at. *)
Lemma ladderSteps_manual label m m' : forall vers v ladder, (forall w, In w vers -> mget m w = mget m' w) ->
  ladderSteps hs vrfVerify label v vers ladder m = ladderSteps hs vrfVerify label v vers ladder m'.
Proof.
  induction vers as [|ver vers IH]; intros v ladder Q; [reflexivity|]. destruct ladder as [|st ladder]; [reflexivity|]. cbn [ladderSteps]. rewrite (Q ver (or_introl eq_refl)).
  destruct (vrfInput label ver) as [i| | |]; cbn [bind]; try reflexivity. destruct (vrfVerify i (ls_proof st)) as [out|]; [|reflexivity].
  assert (Q' : forall w, In w vers -> mget m w = mget m' w) by (intros w I; apply Q; now right).
  destruct (mget m' ver); destruct (ls_commitment st); try reflexivity; match goal with |- context [vAddVersion ?a ?b ?c ?d ?e] => destruct (vAddVersion a b c d e); cbn [bind]; try reflexivity end; now apply IH.
Qed.

Lemma c90_unchecked k sv resp k' sv' x x' rest : streamVerify H hs c now vrfVerify sigVerify leafVerify audVerify k sv resp = Ok (k', sv') -> uq_values (ss_req sv) = x :: rest ->
  (forall info infos, ur_info resp = info :: infos -> verifyUpdateValue c leafVerify (uq_label (ss_req sv)) (newVersion sv) {| uv_value := x'; uv_sig := ui_sig info |} = Ok tt /\
     exists com, labelCommitment H (ui_opening info) (uq_label (ss_req sv)) (newVersion sv) {| uv_value := x'; uv_sig := ui_sig info |} = Ok com) ->
  streamVerify H hs c now vrfVerify sigVerify leafVerify audVerify k (submitting x' sv) resp = Ok (k', submitting x' sv').
Proof.
  unfold streamVerify, newVersion, submitting. cbn [ss_state ss_label ss_req uq_last uq_label uq_greatest uq_values].
  destruct (cl_owner (ss_label sv)) as [o|]; [|discriminate]. intros E Ex Hx. apply bind_ok in E. destruct E as ([start coms] & E1 & E). unfold verifyValues in E1.
  set (vals := match ur_values resp with [] => uq_values (ss_req sv) | vs => vs end) in *.
  set (vals' := match ur_values resp with [] => x' :: tl (uq_values (ss_req sv)) | vs => vs end).
  assert (Lv : lenN vals' = lenN vals). { unfold vals, vals'. destruct (ur_values resp); [rewrite Ex; reflexivity|reflexivity]. }
  destruct ((lenN (ur_info resp) =? 0) || negb (lenN (ur_info resp) =? lenN vals)) eqn:El; [discriminate|]. apply bind_ok in E1. destruct E1 as (coms1 & Ec & E1). injection E1 as Es <-.
  assert (exists coms', valueCommitments H c leafVerify (uq_label (ss_req sv)) start vals' (ur_info resp) = Ok coms' /\ forall w, w <> start -> mget coms1 w = mget coms' w) as (coms' & Ec' & Qc).
  { unfold vals, vals' in *. rewrite Es in Ec. destruct (ur_values resp) as [|y ys]; [|exists coms1; auto]. rewrite Ex in Ec |- *. cbn [tl]. destruct (ur_info resp) as [|info infos]; [discriminate|].
    destruct (Hx info infos eq_refl) as (V & com & C). cbn [valueCommitments] in Ec |- *. apply bind_ok in Ec. destruct Ec as (u & _ & Ec). apply bind_ok in Ec. destruct Ec as (com0 & _ & Ec).
    apply bind_ok in Ec. destruct Ec as (r & Er & Ec). injection Ec as <-. assert (Sn : (match ownerGreatest o with Some g => (g + 1) mod 2 ^ 32 | None => 0 end) = start) by exact Es.
    rewrite Sn in V, C. rewrite V. cbn [bind]. rewrite C. cbn [bind]. rewrite Er. cbn [bind]. eexists. split; [reflexivity|]. intros w Nw. cbn [mget]. destruct (N.eqb_spec w start); [contradiction|reflexivity]. }
  unfold verifyValues. cbn [ss_req uq_label]. rewrite Lv, El, Es. rewrite Ec'. cbn [bind]. apply bind_ok in E. destruct E as (ladder & Eld & E). rewrite Eld. cbn [bind].
  apply bind_ok in E. destruct E as ([] & En & E). rewrite En. cbn [bind]. apply bind_ok in E. destruct E as (v & Ev & E). rewrite Ev. cbn [bind].
  apply bind_ok in E. destruct E as (v0 & E0 & E). rewrite E0. cbn [bind].
  replace (processLadder hs vrfVerify v0 (uq_label (ss_req sv)) (ur_ladder resp) ladder coms') with (processLadder hs vrfVerify v0 (uq_label (ss_req sv)) (ur_ladder resp) ladder coms1).
  2:{ unfold processLadder. destruct (negb (List.length (ur_ladder resp) =? List.length ladder)%nat); [reflexivity|]. apply ladderSteps_manual. intros w I. apply Qc. intros ->. exact (first_missing _ _ _ Eld I). }
  apply bind_ok in E. destruct E as (v1 & Ep & E). rewrite Ep. cbn [bind]. apply bind_ok in E. destruct E as ([u v2] & E2 & E). rewrite E2. cbn [bind].
  apply bind_ok in E. destruct E as ([mo v3] & E3 & E). rewrite E3. cbn [bind]. apply bind_ok in E. destruct E as ([mo' v4] & E4 & E). rewrite E4. cbn [bind].
  apply bind_ok in E. destruct E as (upd & E5 & E). rewrite E5. cbn [bind]. apply bind_ok in E. destruct E as (contact & E6 & E). rewrite E6. cbn [bind].
  destruct (mo_owner mo') as [o'|]; [|discriminate]. apply bind_ok in E. destruct E as (ls' & E7 & E). rewrite E7. cbn [bind]. apply bind_ok in E. destruct E as (k1 & E8 & E). rewrite E8. cbn [bind].
  injection E as <- <-. reflexivity.
Qed.
End Client.
