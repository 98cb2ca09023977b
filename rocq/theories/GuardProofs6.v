(** The client's operations perform the checks of GuardSpec.v, and store what they establish. *)
From Verif Require Import Base BaseProofs LogTreeModel LogTreeSpec PrefixModel CodecModel CodecSpec AlgModel AlgSpec HandleModel HandleProofs HandleProofs3 LogMathModel LogChunkProofs7 StoreModel StoreProofs MutateSpec ServerModel ClientModel ClientProofs ClientProofs2 ClientSpec SearchProofs
  SoundProofs2 GuardSpec GuardProofs2 GuardProofs4.
Open Scope N_scope.
Local Open Scope list_scope.

Lemma newCVerifier_versions state last fth proof v : newCVerifier state last fth proof = Ok v -> vVersions v = [].
Proof.
  unfold newCVerifier. intro E. apply bind_ok in E. destruct E as (d & E1 & E). apply bind_ok in E. destruct E as (n & _ & E). injection E as <-. unfold vVersions. cbn [v_d].
  destruct state as [s|]; [|injection E1 as <-; reflexivity]. unfold addRetained in E1. cbn in E1.
  assert (G : forall es d0 d, foldM (fun (d : dataProvider received) (e : N * logEntry) => let* ts := addTimestamp (d_ts d) (fst e) (le_ts (snd e)) in
      let* rs := addPrefixTree (d_roots d) (fst e) (le_root (snd e)) in Ok (withRoots (withTs d ts) rs)) es d0 = Ok d -> d_handle d = d_handle d0).
  { clear. induction es as [|e es IH]; intros d0 d E; cbn [foldM] in E; [injection E as <-; reflexivity|]. apply bind_ok in E. destruct E as (d1 & E1 & E).
    apply bind_ok in E1. destruct E1 as (ts & _ & E1). apply bind_ok in E1. destruct E1 as (rs & _ & E1). injection E1 as <-. rewrite (IH _ _ E). reflexivity. }
  rewrite (G _ _ _ E1). reflexivity.
Qed.

Lemma addLabelState_exact hs ls v v' : addLabelState hs v ls = Ok v' -> forall w key o, mget (vVersions v') w = Some (key, o) ->
  In {| rv_version := w; rv_vrf := key; rv_commitment := o |} (cl_versions ls) \/ mget (vVersions v) w = Some (key, o).
Proof.
  unfold addLabelState. generalize (cl_versions ls). intros rs. revert v. induction rs as [|r rs IH]; intros v E w key o Q; cbn [foldM] in E.
  - injection E as <-. auto.
  - apply bind_ok in E. destruct E as (v1 & E1 & E). destruct (vAddVersion_versions _ _ _ _ _ _ E1) as (_ & Ev & _).
    destruct (IH v1 E w key o Q) as [I|I]; [left; now right|]. rewrite Ev, mget_mput in I. destruct (N.eqb_spec w (rv_version r)) as [->|]; [|auto].
    injection I as <- <-. left. left. destruct r; reflexivity.
Qed.

Lemma contactStruct_in m es : contactStruct m = Ok es -> forall x v, In (x, v) es <-> exists p, m = Some p /\ mget p x = Some v.
Proof.
  destruct m as [p|]; [|discriminate]. cbn [contactStruct]. intro E. injection E as <-. intros x v. rewrite in_flat_map. split.
  - intros (y & _ & I). destruct (mget p y) as [u|] eqn:G; [|destruct I]. destruct I as [I|[]]. injection I as -> ->. exists p. auto.
  - intros (p' & E & G). injection E as <-. exists x. rewrite G. split; [|now left]. apply nsort_in, nodup_In. apply (in_map fst) with (x := (x, v)). apply HandleProofs.mget_In. exact G.
Qed.

Lemma retained_in contact owner vm ls' : updateRetainedVersions contact owner vm = Ok ls' ->
  cl_contact ls' = contact /\ cl_owner ls' = owner /\ forall r, In r (cl_versions ls') -> mget vm (rv_version r) = Some (rv_vrf r, rv_commitment r).
Proof.
  unfold updateRetainedVersions. intro E. apply bind_ok in E. destruct E as (mons & _ & E). apply bind_ok in E. destruct E as (own & _ & E). apply bind_ok in E. destruct E as (ret & E1 & E).
  injection E as <-. cbn [cl_contact cl_owner cl_versions]. split; [reflexivity|]. split; [reflexivity|].
  revert ret E1. generalize (nsort (nodup N.eq_dec (List.concat mons ++ own))). intros ws. induction ws as [|w ws IH]; intros ret E1; cbn [mapM] in E1.
  - injection E1 as <-. intros r [].
  - apply bind_ok in E1. destruct E1 as (r0 & E0 & E1). apply bind_ok in E1. destruct E1 as (rs & E2 & E1). injection E1 as <-.
    intros r [<-|I]; [|apply (IH rs E2 r I)]. destruct (mget vm w) as [[out com]|] eqn:G; [|discriminate]. injection E0 as <-. exact G.
Qed.

Lemma putLabelState_stores k s label ls' t k' : putLabelState k s label ls' t = Ok k' -> stores k k' label ls' t.
Proof.
  unfold putLabelState. intro E. apply bind_ok in E. destruct E as (raw & _ & E).
  assert (D : (cl_contact ls' = [] /\ cl_owner ls' = None /\ k' = {| k_state := Some raw; k_labels := bdel (k_labels k) label |}) \/
     (~ (cl_contact ls' = [] /\ cl_owner ls' = None) /\ exists rl, labelStateMarshal ls' = Ok rl /\ k' = {| k_state := Some raw; k_labels := bput (k_labels k) label (rl, t) |})).
  { destruct (cl_contact ls') as [|p ps], (cl_owner ls') as [o|].
    2: left; injection E as <-; auto.
    all: right; (split; [intros [A B]; discriminate|]); apply bind_ok in E; destruct E as (rl & E1 & E); injection E as <-; exists rl; auto. }
  unfold stores. destruct D as [(D1 & D2 & ->)|(D1 & rl & D2 & ->)]; cbn [k_labels].
  - split; [intros _; rewrite bget_bdel, bytes_eqb_refl; reflexivity|]. split; [intro N; destruct N; auto|]. intros l' Ne. rewrite bget_bdel, (proj2 (bytes_eqb_neq l' label)) by exact Ne. reflexivity.
  - split; [intros N; contradiction|]. split; [intros _; exists rl; split; [exact D2|rewrite bget_bput, bytes_eqb_refl; reflexivity]|].
    intros l' Ne. rewrite bget_bput, (proj2 (bytes_eqb_neq l' label)) by exact Ne. reflexivity.
Qed.

Section Client.
Variable H : bytes -> option bytes.
Variable hs : N.
Variable c : pubConfig.
Variable now : N.
Variable vrfVerify : bytes -> bytes -> option bytes.
Variable sigVerify audVerify : bytes -> bytes -> bool.

Lemma finish_checks v s : finish H hs c sigVerify audVerify v = Ok s -> exists result root,
  dpFinish H hs (v_d v) (v_n v) (v_nP v) (v_m v) = Ok result /\ logRoot H hs (v_n v) (pr_subtrees result) = Ok root /\ signedHead c sigVerify (v_fth v) (v_n v) root.
Proof.
  unfold finish, checkFinish. intro E. apply bind_ok in E. destruct E as (res & E & _). apply bind_ok in E. destruct E as (result & E1 & E). apply bind_ok in E. destruct E as (root & E2 & E).
  apply bind_ok in E. destruct E as (rootP & _ & E). apply bind_ok in E. destruct E as (u & E3 & _). exists result, root. split; [exact E1|]. split; [exact E2|].
  intros th Eh. unfold verifyTreeHead in E3. rewrite Eh in E3. destruct (match v_state v with Some s0 => _ | None => false end); [discriminate|].
  apply bind_ok in E3. destruct E3 as (tbs & Et & E3). exists tbs. split; [exact Et|]. destruct (sigVerify tbs (th_sig th)); [reflexivity|discriminate].
Qed.

Ltac go Q := rewrite Q; cbn beta iota zeta delta [bind].

Lemma contact_checks k state ls req resp k' : clientContactMonitor H hs c now sigVerify audVerify k state ls req resp = Ok k' ->
  exists checked mo result root, checkContactMonitor H hs c now state ls req resp = Ok (checked, mo) /\
    dpFinish H hs (v_d checked) (v_n checked) (v_nP checked) (v_m checked) = Ok result /\ logRoot H hs (v_n checked) (pr_subtrees result) = Ok root /\
    signedHead c sigVerify (mr_head resp) (v_n checked) root /\
  exists ls' pos, stores k k' (cq_label req) ls' pos /\ (exists after, execV H hs (rightmostDistinguished c (v_n checked)) checked = Ok (Some pos, after)) /\ (forall y v, In (y, v) (cl_contact ls') <-> pointsTo mo y v) /\ cl_owner ls' = cl_owner ls /\
    forall r, In r (cl_versions ls') -> In r (cl_versions ls).
Proof.
  unfold clientContactMonitor, checkContactMonitor. intro E. step E. go Q. step E. go Q0. step E. destruct x1 as [u v2]. go Q1. step E. destruct x1 as [mo v3]. go Q2.
  step E. destruct x1 as [mo' v4]. go Q3. step E. step E. step E. step E. destruct x4 as [[t|] v5]; [|discriminate].
  destruct (finish_checks _ _ Q4) as (result & root & F1 & F2 & F3). exists v4, mo', result, root. split; [reflexivity|]. split; [exact F1|]. split; [exact F2|].
  assert (S : same x v4). { eapply same_trans; [eapply addLabelState_same; exact Q0|]. eapply same_trans; [eapply execV_same; exact Q1|]. eapply same_trans; eapply execV_same; eassumption. }
  assert (Fh : v_fth v4 = mr_head resp). { apply newCVerifier_ok in Q. destruct Q as (_ & B & _). destruct S as (_ & S & _). congruence. }
  rewrite Fh in F3. split; [exact F3|].
  destruct (retained_in _ _ _ _ Q6) as (R1 & R2 & R3). exists x3, t. split; [eapply putLabelState_stores; exact E|]. split; [exists v5; exact Q7|]. rewrite R1. split; [exact (contactStruct_in _ _ Q5)|]. split; [exact R2|].
  intros r I. specialize (R3 r I). change (mget (vVersions v4) (rv_version r) = Some (rv_vrf r, rv_commitment r)) in R3.
  rewrite (execV_versions _ _ _ _ _ _ Q3), (execV_versions _ _ _ _ _ _ Q2), (execV_versions _ _ _ _ _ _ Q1) in R3.
  destruct (addLabelState_exact _ _ _ _ Q0 _ _ _ R3) as [K|K]; [destruct r; exact K|]. rewrite (newCVerifier_versions _ _ _ _ _ Q) in K. discriminate.
Qed.

Lemma owner_checks k state ls req resp k' : clientOwnerMonitor H hs c now sigVerify audVerify k state ls req resp = Ok k' ->
  exists checked mo result root, checkOwnerMonitor H hs c now state ls req resp = Ok (checked, mo) /\
    dpFinish H hs (v_d checked) (v_n checked) (v_nP checked) (v_m checked) = Ok result /\ logRoot H hs (v_n checked) (pr_subtrees result) = Ok root /\
    signedHead c sigVerify (mr_head resp) (v_n checked) root /\
  exists ls' o', stores k k' (oq_label req) ls' (os_starting o') /\ mo_owner mo = Some o' /\ (forall y v, In (y, v) (cl_contact ls') <-> pointsTo mo y v) /\ cl_owner ls' = mo_owner mo /\
    forall r, In r (cl_versions ls') -> In r (cl_versions ls).
Proof.
  unfold clientOwnerMonitor, checkOwnerMonitor. intro E. step E. go Q. step E. go Q0. step E. destruct x1 as [u v2]. go Q1. step E. destruct x1 as [mo v3]. go Q2.
  destruct (cl_owner ls) as [o|]; [|discriminate]. step E. destruct x1 as [mo1 v4]. go Q3. step E. destruct x1 as [out v5]. go Q4. destruct out as [[e|[]] mo']; cbn [fst snd] in E |- *; [discriminate|].
  step E. step E. destruct (mo_owner mo') as [o'|] eqn:Eo; [|discriminate]. step E.
  destruct (finish_checks _ _ Q5) as (result & root & F1 & F2 & F3). exists v5, mo', result, root. split; [reflexivity|]. split; [exact F1|]. split; [exact F2|].
  assert (S : same x v5). { eapply same_trans; [eapply addLabelState_same; exact Q0|]. eapply same_trans; [eapply execV_same; exact Q1|]. eapply same_trans; [eapply execV_same; exact Q2|]. eapply same_trans; eapply execV_same; eassumption. }
  assert (Fh : v_fth v5 = mr_head resp). { apply newCVerifier_ok in Q. destruct Q as (_ & B & _). destruct S as (_ & S & _). congruence. }
  rewrite Fh in F3. split; [exact F3|].
  destruct (retained_in _ _ _ _ Q7) as (R1 & R2 & R3). exists x3, o'. split; [eapply putLabelState_stores; exact E|]. split; [exact Eo|]. rewrite R1. split; [exact (contactStruct_in _ _ Q6)|]. split; [congruence|].
  intros r I. specialize (R3 r I). change (mget (vVersions v5) (rv_version r) = Some (rv_vrf r, rv_commitment r)) in R3.
  rewrite (execV_versions _ _ _ _ _ _ Q4), (execV_versions _ _ _ _ _ _ Q3), (execV_versions _ _ _ _ _ _ Q2), (execV_versions _ _ _ _ _ _ Q1) in R3.
  destruct (addLabelState_exact _ _ _ _ Q0 _ _ _ R3) as [K|K]; [destruct r; exact K|]. rewrite (newCVerifier_versions _ _ _ _ _ Q) in K. discriminate.
Qed.

Lemma init_checks vrf k state ls req resp k' : vrfVerifies vrf vrfVerify -> clientOwnerInit H hs c now vrfVerify sigVerify audVerify k state ls req resp = Ok k' ->
  exists checked xs mo result root, checkOwnerInit H hs c now vrfVerify state req resp = Ok (checked, xs, mo) /\
    dpFinish H hs (v_d checked) (v_n checked) (v_nP checked) (v_m checked) = Ok result /\ logRoot H hs (v_n checked) (pr_subtrees result) = Ok root /\
    signedHead c sigVerify (ir_head resp) (v_n checked) root /\
  exists ls', stores k k' (iq_label req) ls' (iq_start req) /\ cl_contact ls' = cl_contact ls /\ cl_owner ls' = mo_owner mo /\
    (genuineKeys vrf (iq_label req) ls -> genuineKeys vrf (iq_label req) ls') /\ forall w com, keeps ls' w com -> keeps ls w com \/ initClaims resp w com.
Proof.
  unfold clientOwnerInit, checkOwnerInit. intros Hv E. step E. go Q. step E. go Q0. step E. go Q1. destruct (existsb _ _); [discriminate|].
  step E. destruct x2 as [u v2]. go Q2. step E. destruct x2 as [mo v3]. go Q3. step E. destruct x2 as [[xs mo'] v4]. go Q4. step E. step E. step E.
  destruct (finish_checks _ _ Q5) as (result & root & F1 & F2 & F3). exists v4, xs, mo', result, root. split; [reflexivity|]. split; [exact F1|]. split; [exact F2|].
  assert (S : same x v4). { eapply same_trans; [eapply processLadder_same; exact Q1|]. eapply same_trans; [eapply execV_same; exact Q2|]. eapply same_trans; eapply execV_same; eassumption. }
  assert (Fh : v_fth v4 = ir_head resp). { apply newCVerifier_ok in Q. destruct Q as (_ & B & _). destruct S as (_ & S & _). congruence. }
  rewrite Fh in F3. split; [exact F3|].
  destruct (retained_in _ _ _ _ Q7) as (R1 & R2 & R3). exists x4. split; [eapply putLabelState_stores; exact E|]. split; [exact R1|]. split; [exact R2|].
  destruct (ladder_keys hs vrf (iq_label req) vrfVerify resp x x1 x0 Hv Q0 (newCVerifier_versions _ _ _ _ _ Q) Q1) as (vm & Ev & Kn).
  assert (V4 : vVersions v4 = vm). { rewrite (execV_versions _ _ _ _ _ _ Q4), (execV_versions _ _ _ _ _ _ Q3), (execV_versions _ _ _ _ _ _ Q2), Ev. apply vVersions_with. }
  assert (R4 : forall r, In r (cl_versions x4) -> In r (cl_versions ls) \/ rv_vrf r = keyOf vrf (iq_label req) (rv_version r) /\ forall com, rv_commitment r = Some com -> initClaims resp (rv_version r) com).
  { intros r I. specialize (R3 r I). change (mget (vVersions x3) (rv_version r) = Some (rv_vrf r, rv_commitment r)) in R3.
    destruct (addLabelState_exact _ _ _ _ Q6 _ _ _ R3) as [K|K]; [left; destruct r; exact K|right]. rewrite V4 in K. exact (Kn _ _ _ K). }
  split.
  - unfold genuineKeys. rewrite !Forall_forall. intros G r I. destruct (R4 r I) as [J|[J _]]; [apply G; exact J|exact J].
  - intros w com (r & I & Ew & Ec). destruct (R4 r I) as [J|[_ J]]; [left; exists r; auto|right]. rewrite <- Ew. apply J. exact Ec.
Qed.
End Client.
