(** A report that a version does not exist, about the log the client already knows, is true. *)
From Verif Require Import Base BaseProofs LogMathSpec LogMathProofs2 LogTreeModel LogTreeSpec LogTreeProofs LogTreeProofs3 LogVerifyProofs2 LogChunkProofs7 TransMathModel TransMathSpec TransMathProofs2 LaddersModel PrefixModel PrefixSpec PrefixHistProofs
  CodecModel CodecSpec CodecProofs3 AlgModel AlgProofs HandleModel HandleProofs StoreModel CommitModel CommitProofs MutateModel MutateSpec MutateProofs5 ServerModel ClientModel ClientProofs ClientProofs2 ClientSpec SearchProofs SearchProofs2 SearchProofs3
  SoundSpec AcceptProofs SoundProofs SoundProofs2 SoundProofs3 AbsentSpec AbsentProofs2 AbsentProofs3.
Open Scope N_scope.
Local Open Scope list_scope.

Section Errors.
Variable hs : N.
Variable vrfVerify : bytes -> bytes -> option bytes.
Local Notation no r := (r <> Fail ErrLabelNotFound).

Lemma vrfInput_error l v : no (vrfInput l v).
Proof. unfold vrfInput. errs; apply writeBytes_error. Qed.
Lemma ladderSteps_error l : forall vers v ladder manual, no (ladderSteps hs vrfVerify l v vers ladder manual).
Proof.
  induction vers as [|ver vers IH]; intros v ladder manual; cbn [ladderSteps]; [discriminate|]. destruct ladder as [|st ladder]; [discriminate|].
  apply bind_error; [apply vrfInput_error|]. intro. destruct (vrfVerify _ _); [|discriminate].
  assert (K : forall o, no (vAddVersion hs v ver b o)) by (intro; unfold vAddVersion, addVersion; errs).
  destruct (mget manual ver); destruct (ls_commitment st); try discriminate; (apply bind_error; [apply K|intro; apply IH]).
Qed.
Lemma processLadder_error v l ladder vers manual : no (processLadder hs vrfVerify v l ladder vers manual).
Proof. unfold processLadder. destruct (negb _); [discriminate|apply ladderSteps_error]. Qed.
Lemma searchedVersion_error req resp : no (searchedVersion req resp).
Proof. unfold searchedVersion. errs. Qed.
Lemma bind_fail {A B} (r : res A) (k : A -> res B) : bind r k = Fail ErrLabelNotFound -> no r -> exists a, r = Ok a /\ k a = Fail ErrLabelNotFound.
Proof. destruct r; cbn; intros E K; try discriminate; [eauto|congruence]. Qed.
End Errors.

Section Checked.
Variable f : bytes -> bytes.
Variable T : list bytes.
Variable hs : N.
Hypothesis Hf : forall x, lenN (f x) = hs.
Hypothesis Hhs : 0 < hs.
Local Notation H := (restrict f T).
Local Notation nhs := (N.to_nat hs).
Variable vrf : bytes -> bytes * bytes.
Variable vrfVerify : bytes -> bytes -> option bytes.
Hypothesis Hvrf : vrfVerifies vrf vrfVerify.
Variable c : pubConfig.
Hypothesis Hc : pc_hs c = nhs.
Variable now : N.
Variable leafVerify : bytes -> bytes -> bool.
Variable l : bytes.
Variable es : list logEntry.
Hypothesis Hts : Forall (fun e => le_ts e < two64) es.
Local Notation n := (lenN es).
Hypothesis Hn : 1 <= n < 2 ^ 64.
Variable labs : list (list pubVersion).
Hypothesis Hlabs : forall x e vs, nth_error es x = Some e -> nth_error labs x = Some vs -> holdsVersions H nhs vrf l e vs.
Hypothesis Hlen : List.length labs = List.length es.
Variable st : clientState.
Hypothesis Hstate : forall x e, In (x, e) (cs_entries st) -> nth_error es (N.to_nat x) = Some e.
Hypothesis Hlast : exists e, In (n - 1, e) (cs_entries st).

Lemma checked_absent req resp ver :
  sq_label req = l -> okSearchRequest req -> okSearchResponse c (sq_version req) resp -> noAliases H vrf req resp -> noOwnLeaf vrf req resp ->
  searchedVersion req resp = Ok ver -> fth_head (sr_head resp) = None -> sq_last req = Some n ->
  checkSearch H hs c now vrfVerify leafVerify (Some st) req resp = Fail ErrLabelNotFound ->
  (exists vs, nth_error labs (N.to_nat (n - 1)) = Some vs /\ nth_error vs (N.to_nat ver) = None) \/ broken f nhs T.
Proof.
  intros Hl Oq Or Hal Own Sv Nh La E. unfold checkSearch in E.
  apply bind_fail in E; [|apply newCVerifier_error]. destruct E as (v & E0 & E). apply bind_fail in E; [|apply searchedVersion_error]. destruct E as (target & Et & E).
  rewrite Sv in Et. injection Et as <-. pose proof Sv as Et.
  apply bind_fail in E; [|apply verifyValue_error]. destruct E as (u & _ & E).
  apply bind_fail in E; [|unfold searchBinaryLadder; apply bind_error; [apply base_error|discriminate]]. destruct E as (ladder & Ela & E). apply bind_fail in E; [|apply commitment_error]. destruct E as (com & Ec & E).
  apply bind_fail in E; [|apply processLadder_error]. destruct E as (v1 & Epl & E).
  apply bind_fail in E; [|unfold execV; apply bind_error; [apply run_clean, view_clean|discriminate]]. destruct E as ([u2 v2] & Euv & E).
  rewrite Hl in *. destruct Or as (O1 & O2 & O3 & O4 & O5 & O6). rewrite Hc in O6. destruct O6 as (O6 & O7 & O8 & O9).
  assert (Hver : ver < 2 ^ 32).
  { unfold searchedVersion in Et. destruct Oq as [_ Oq]. destruct (sq_version req) as [w|]; [injection Et as <-; exact Oq|]. destruct (sr_version resp); [|discriminate]. injection Et as <-. exact O2. }
  assert (D0 : d_handle (v_d v) = newReceived (sr_search resp) /\ v_n v = n /\ forall x e, In (x, e) (cs_entries st) -> mget (d_roots (v_d v)) x = Some (le_root e)).
  { unfold newCVerifier in E0. rewrite Nh, La in E0. apply bind_ok in E0. destruct E0 as (d & Ed & E0). cbn [bind] in E0. injection E0 as <-. cbn [v_d v_n].
    destruct (addRetained_facts _ _ _ _ Ed) as (A1 & A2 & A3 & A4 & A5 & A6).
    - exact O6.
    - apply Forall_forall. intros [x e] I. apply Hstate in I. apply nth_error_In in I. cbn. rewrite Forall_forall in Hts. now apply Hts.
    - auto. }
  destruct D0 as (Dh & Dn & Dr).
  assert (Dv : vVersions v = []) by (unfold vVersions; rewrite Dh; reflexivity).
  unfold processLadder in Epl. destruct (Nat.eqb_spec (List.length (sr_ladder resp)) (List.length ladder)) as [Ll|]; [|discriminate]. cbn [negb] in Epl.
  destruct (ladderSteps_keys hs vrf vrfVerify (proj2 Hvrf) l [(ver, com)] (claims H req resp)) with (3 := Ll) (2 := Epl) as (vm & Ev1 & Hk).
  { intros w cm Q. cbn in Q. destruct (N.eqb_spec w ver) as [->|]; [|discriminate]. injection Q as <-. exists ver, ladder. rewrite Hl. auto. }
  { intros i w s cm I1 I2 I3. exists ver, ladder. split; [exact Et|]. split; [exact Ela|]. right. exists i, s. auto. }
  { rewrite Dv. intros w key o; cbn; discriminate. }
  assert (Pv1 : v_d v1 = withHandle (v_d v) {| r_ts := r_ts (d_handle (v_d v)); r_proofs := r_proofs (d_handle (v_d v)); r_roots := r_roots (d_handle (v_d v)); r_incl := r_incl (d_handle (v_d v));
            r_versions := vm; r_tracker := r_tracker (d_handle (v_d v)) |}) by (rewrite Ev1; reflexivity).
  assert (Nv1 : v_n v1 = n) by (rewrite Ev1; exact Dn).
  unfold execV in Euv, E. apply bind_ok in Euv. destruct Euv as (u3 & Ru & Euv). injection Euv as _ <-. cbn [setProvider v_d v_n v_nP v_m] in *.
  set (d1 := v_d v1) in *. set (R1 := run (dpProvider (receivedHandle H hs)) (updateView c now (v_n v1) (v_m v1)) d1) in *.
  pose proof (run_ext H hs (updateView c now (v_n v1) (v_m v1)) d1) as X1. fold R1 in X1.
  set (prg := match sq_version req with None => greatestVersionSearch c ver (v_n v1) | Some _ => fixedVersionSearch c ver (v_n v1) end) in *.
  set (R2 := run (dpProvider (receivedHandle H hs)) prg (final R1)) in *.
  pose proof (run_ext H hs prg (final R1)) as X2. fold R2 in X2.
  assert (X : ext d1 (final R2)) by (eapply ext_trans; eassumption).
  set (pfs := cp_proofs (sr_search resp)) in *.
  assert (Hp1 : r_proofs (d_handle d1) = pfs) by (rewrite Pv1; cbn; rewrite Dh; reflexivity).
  assert (Hp2 : incl (r_proofs (d_handle (final R1))) pfs) by (rewrite <- Hp1; apply (x_proofs _ _ X1)).
  assert (Vm : vers (final R2) = vm) by (rewrite (x_vers _ _ X); unfold vers; rewrite Pv1; reflexivity).
  destruct Hlast as (e & Ie).
  assert (Rt : mget (d_roots (final R2)) (n - 1) = Some (le_root e)).
  { apply (x_roots _ _ X). rewrite Pv1. cbn [withHandle d_roots]. apply Dr. exact Ie. }
  assert (Rs : result R2 = Fail ErrLabelNotFound). { destruct (result R2); cbn in E; try discriminate. congruence. }
  assert (ER2 : exists evs, run (dpProvider (receivedHandle H hs)) (if match sq_version req with None => false | Some _ => true end then fixedVersionSearch c ver n else greatestVersionSearch c ver n) (final R1) = (Fail ErrLabelNotFound, final R2, evs)).
  { match goal with |- context[run _ ?p (final R1)] => replace p with prg by (unfold prg; rewrite Nv1; now destruct (sq_version req)) end. fold R2. destruct R2 as [[r2 s2] e2]. cbn in Rs |- *. rewrite Rs. eauto. }
  destruct ER2 as (evs & ER2). destruct (search_absent_fact H hs c n Hn pfs ver _ (final R1) (final R2) evs Hp2 ER2) as (w & (Lw & Lw2) & F). specialize (Lw2 ladder Ela).
  unfold factD in F. rewrite Vm in F.
  set (d' := withRoots (final R2) [(n - 1, le_root e)]).
  assert (F' : fact H hs pfs vm (d_roots d') (n - 1) w false).
  { destruct F as (root & ents & pf & i & key & o & r & A1 & A2). exists root, ents, pf, i, key, o, r. split; [|exact A2]. cbn. rewrite N.eqb_refl. congruence. }
  assert (Ro : rootsOf es d').
  { intros x root Q. cbn in Q. destruct (N.eqb_spec x (n - 1)) as [->|]; [|discriminate]. injection Q as <-. exists e. split; [now apply Hstate|reflexivity]. }
  assert (Hk' : forall w key o, mget vm w = Some (key, o) -> key = keyOf vrf l w /\ forall com, o = Some com -> claims H req resp w com) by (intros w' key o Q; destruct (Hk w' key o Q) as (K1 & _ & K2); auto).
  assert (Al1 : forall p v c d w com, In p pfs -> In (NonLeaf v c d) (p_results p) -> claims H req resp w com -> v = keyOf vrf l w -> c = com).
  { intros p v0 c0 d0 w' cm I1 I2 I3 I4. apply (proj1 (Hal p v0 c0 d0 I1 I2) w' cm I3). now rewrite Hl. }
  assert (Al2 : false = false -> forall p v' c d, In p pfs -> In (NonLeaf v' c d) (p_results p) -> v' <> keyOf vrf l w).
  { intros _ p v' c0 d0 I1 I2. rewrite <- Hl. eapply (Own ver ladder); eauto. }
  destruct (fact_true f T hs Hf Hhs vrf l es labs Hlabs Hlen pfs vm (claims H req resp) d' (n - 1) w false ltac:(lia) O7 Al1 Al2 Hk' Ro F') as [(vs & Evs & K)|B]; [|auto].
  left. exists vs. split; [exact Evs|]. apply nth_error_None in K. apply nth_error_None. lia.
Qed.
End Checked.

Section Run.
Variable f : bytes -> bytes.
Variable hs : N.
Hypothesis Hf : forall x, lenN (f x) = hs.
Hypothesis Hhs : 0 < hs <= 32.
Variable c : pubConfig.
Hypothesis Hc : pc_hs c = N.to_nat hs.
Variable vrf : bytes -> bytes * bytes.
Variable Ls : list bytes.
Hypothesis HV : vrfGood hs vrf Ls.
Variable sign : bytes -> res bytes.
Variable vrfVerify : bytes -> bytes -> option bytes.
Hypothesis Hvrf : vrfVerifies vrf vrfVerify.
Variable leafVerify : bytes -> bytes -> bool.
Variable now : N.
Local Notation valid := (fun tbs sg : bytes => sign tbs = Ok sg).
Local Notation nhs := (N.to_nat hs).

Lemma c93_partial t rs l st : runs (full f) hs c vrf sign Ls t rs -> rs <> [] -> In l Ls -> Forall (fun r => ~ In l (rq_remove r)) rs -> hasSeen f t (lenN rs) st ->
  exists T0, forall T, incl T0 T -> forall req resp v,
  sq_label req = l -> sq_last req = getLast (Some st) -> okSearchRequest req -> okSearchResponse c (sq_version req) resp ->
  noAliases (restrict f T) vrf req resp -> noOwnLeaf vrf req resp -> fth_head (sr_head resp) = None -> searchedVersion req resp = Ok v ->
  checkSearch (restrict f T) hs c now vrfVerify leafVerify (Some st) req resp = Fail ErrLabelNotFound ->
  nth_error (labelsNow (firstn (N.to_nat (th_size (cs_head st))) rs) l) (N.to_nat v) = None \/ broken f nhs T.
Proof.
  intros R NE Hl Fr Hs.
  destruct (run_describes f hs Hf Hhs c vrf Ls HV sign valid (fun _ _ H => H) t rs R) as (E & Tr & Q1 & Q2). destruct (labelsNow_last _ _ Q1) as [A B].
  assert (Ln : lenN rs = lenN (entriesOf E)) by (rewrite B; unfold lenN, entriesOf; now rewrite map_length).
  rewrite Ln in Hs. destruct (seen_genuine f hs Hhs c vrf Ls sign t E st Tr Hs) as (k & h & Hk & Sf). rewrite <- Ln in Hk.
  assert (Le : lenN (firstn (N.to_nat k) (entriesOf E)) = k) by (unfold lenN in *; rewrite firstn_length; lia).
  destruct Sf as (Th & Ch & _ & front & Ef & Een). rewrite Le in Th, Ef.
  destruct (entries_hold f hs Hf Hhs c Hc vrf Ls sign leafVerify t rs E l Tr Q1 Hl Fr) as (T0 & HT).
  exists T0. intros T I req resp v Rl Rla Rq Rs NA NO Nh Sv Ck. specialize (HT T I). cbn beta in HT. rewrite Ch, Th.
  set (kk := N.to_nat k) in *. set (es := firstn kk (entriesOf E)) in *. set (labs := firstn kk (map (fun ep => ep_labels ep l) E)).
  pose proof Tr as (HD & _ & _). assert (Hn : 1 <= k < 2 ^ 64) by (pose proof (ds_size _ _ _ _ _ _ HD); lia).
  assert (Lk : (kk <= List.length E)%nat) by (unfold kk, lenN in *; lia).
  assert (Hbound : forall x e, In (x, e) (cs_entries st) -> nth_error es (N.to_nat x) = Some e).
  { intros x e Ix. rewrite Een in Ix. apply in_map_iff in Ix. destruct Ix as (y & Qy & Iy). injection Qy as -> <-. apply nth_error_nth'.
    pose proof (frontier_bound k front x ltac:(lia) Ef Iy) as Lx. unfold lenN in Le. lia. }
  destruct (checked_absent f T hs Hf ltac:(lia) vrf vrfVerify Hvrf c Hc now leafVerify l es) with (labs := labs) (st := st) (req := req) (resp := resp) (ver := v) as [(vs & K1 & K2)|Br]; auto.
  - apply Forall_firstn3. apply Forall_forall. intros e Ie. apply In_nth_error in Ie. destruct Ie as (i & Ei). destruct (ds_entries _ _ _ _ _ _ HD (N.of_nat i) e) as (_ & K & _); [now rewrite Nat2N.id|exact K].
  - rewrite Le. exact Hn.
  - intros x e vs E1 E2. apply nth_firstn_some in E1, E2. apply (HT x e vs); tauto.
  - unfold labs, es, entriesOf. rewrite !firstn_length, !map_length. reflexivity.
  - rewrite Le, Een. exists (nth (N.to_nat (k - 1)) es {| le_ts := 0; le_root := [] |}). apply in_map_iff. exists (k - 1). split; [reflexivity|]. exact (last_front k Hn front Ef 0 ltac:(lia)).
  - rewrite Rla, Le. cbn. now rewrite Ch, Th.
  - left. rewrite Le in K1. unfold labs in K1. apply nth_firstn_some in K1. destruct K1 as [K1 _]. rewrite nth_error_map in K1. destruct (nth_error E (N.to_nat (k - 1))) as [ep|] eqn:Ee; [|discriminate]. injection K1 as <-.
    assert (Qp : ep_labels ep = labelsNow (firstn kk rs)).
    { assert (LA : firstn kk (map ep_labels E) = labelsAfter 0 noLabels (firstn kk rs)) by (rewrite labelsAfter_firstn, Q1; reflexivity).
      unfold labelsNow. rewrite last_at. symmetry. apply nth_error_nth. rewrite after_len, firstn_length, <- LA. rewrite nth_firstn by (unfold kk, lenN in *; lia).
      replace (Nat.min kk (List.length rs) - 1)%nat with (N.to_nat (k - 1)) by (unfold kk, lenN in *; lia). now apply map_nth_error. }
    rewrite <- Qp. exact K2.
Qed.
End Run.
