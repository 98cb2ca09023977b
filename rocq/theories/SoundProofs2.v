(** Soundness of the checks a client makes on the response to a search. *)
From Verif Require Import Base BaseProofs LogTreeModel LogTreeSpec LogTreeProofs LogTreeProofs3 LogVerifyProofs2 LogChunkProofs7 TransMathModel LaddersModel PrefixModel PrefixSpec PrefixHistProofs
  CodecModel CodecSpec CodecProofs3 AlgModel HandleModel HandleProofs CommitModel CommitProofs MutateModel MutateSpec ServerModel ClientModel ClientProofs ClientProofs2 ClientSpec SearchProofs
  SoundSpec AcceptProofs SoundProofs.
Open Scope N_scope.
Local Open Scope list_scope.

Lemma addRetained_facts (h : received) sub ret d : addRetained (newDataProvider h) sub ret = Ok d -> Forall (fun t => t < two64) (r_ts h) -> Forall (fun e => le_ts (snd e) < two64) ret ->
  d_handle d = h /\ d_subtrees d = sub /\ d_retained d = ret /\ rootsTimed d /\ smallTs d /\ forall x e, In (x, e) ret -> mget (d_roots d) x = Some (le_root e).
Proof.
  intros E Hh Fr. assert (K : forall x e, In (x, e) ret -> mget (d_roots d) x = Some (le_root e)).
  { unfold addRetained in E. apply (addRetained_loop ret) in E; [|intros x y t u; cbn; discriminate]. destruct E as (_ & _ & _ & E). intros x e I. now apply E. }
  assert (G : forall es d0, foldM (fun d e =>
      let* ts := addTimestamp (d_ts d) (fst e) (le_ts (snd e)) in
      let* rs := addPrefixTree (d_roots d) (fst e) (le_root (snd e)) in
      Ok (withRoots (withTs d ts) rs)) es d0 = Ok d -> Forall (fun e => le_ts (snd e) < two64) es -> d_handle d0 = h -> d_subtrees d0 = sub -> d_retained d0 = ret -> rootsTimed d0 -> smallTs d0 ->
      d_handle d = h /\ d_subtrees d = sub /\ d_retained d = ret /\ rootsTimed d /\ smallTs d).
  { clear K E Fr. induction es as [|[x e] es IH]; intros d0 E Fr A1 A2 A3 A4 A5; cbn [foldM] in E; [injection E as <-; auto|].
    apply bind_ok in E. destruct E as (d1 & E1 & E). apply bind_ok in E1. destruct E1 as (ts & Et & E1). apply bind_ok in E1. destruct E1 as (rs & Er & E1). injection E1 as <-.
    apply Forall_cons_iff in Fr. destruct Fr as [F1 F2]. cbn [fst snd] in *. unfold addTimestamp in Et. destruct (mhas (d_ts d0) x) eqn:Mx; [discriminate|]. destruct (existsb _ _); [discriminate|]. injection Et as <-.
    apply (IH _ E F2); auto.
    - intros y r Hy. cbn in *. rewrite ?mget_mput. destruct (N.eqb_spec y x); [discriminate|]. apply A4 with (r := r). unfold addPrefixTree in Er. destruct (mget (d_roots d0) x) as [old|] eqn:Eo.
      + destruct (bytes_eqb _ old); [|discriminate]. injection Er as <-. exact Hy.
      + injection Er as <-. rewrite mget_mput in Hy. destruct (N.eqb_spec y x); [contradiction|exact Hy].
    - destruct A5 as [S1 S2]. split; [exact S1|]. intros y t Hy. cbn in Hy. rewrite ?mget_mput in Hy. destruct (N.eqb_spec y x); [injection Hy as <-; exact F1|eapply S2; exact Hy]. }
  unfold addRetained in E. destruct (G _ _ E Fr) as (B1 & B2 & B3 & B4 & B5); auto.
  - intros x r; cbn; discriminate.
  - split; [exact Hh|]. cbn. discriminate.
  - repeat split; auto; apply B5.
Qed.

Section Ladder.
Variable hs : N.
Variable vrf : bytes -> bytes * bytes.
Variable vrfVerify : bytes -> bytes -> option bytes.
Hypothesis Hvrf : forall i p o, vrfVerify i p = Some o -> o = fst (vrf i).
Variable l : bytes.
Variable manual : list (N * bytes).

Variable cl : N -> bytes -> Prop.
Hypothesis Hman : forall w com, mget manual w = Some com -> cl w com.

Definition keysOf (vm : verMap) : Prop :=
  forall w key o, mget vm w = Some (key, o) -> key = keyOf vrf l w /\ (forall cm, mget manual w = Some cm -> o = Some cm) /\ (forall com, o = Some com -> cl w com).

Lemma ladderSteps_keys : forall vers v ladder v', ladderSteps hs vrfVerify l v vers ladder manual = Ok v' -> List.length ladder = List.length vers ->
  (forall i w st com, nth_error vers i = Some w -> nth_error ladder i = Some st -> ls_commitment st = Some com -> cl w com) -> keysOf (vVersions v) -> exists vm, v' = withVersions v vm /\ keysOf vm.
Proof.
  induction vers as [|ver vers IH]; intros v ladder v' E L Cl K.
  - cbn in E. injection E as <-. exists (vVersions v). split; [now rewrite withVersions_same|exact K].
  - destruct ladder as [|st ladder]; [discriminate|]. cbn [ladderSteps] in E. apply bind_ok in E. destruct E as (input & Ei & E).
    destruct (vrfVerify input (ls_proof st)) as [out|] eqn:Eo; [|discriminate].
    assert (exists com v1, vAddVersion hs v ver out com = Ok v1 /\ ((forall cm, mget manual ver = Some cm -> com = Some cm) /\ forall cm, com = Some cm -> cl ver cm) /\ ladderSteps hs vrfVerify l v1 vers ladder manual = Ok v') as (com & v1 & E1 & Ec & E2).
    { destruct (mget manual ver) eqn:Em; destruct (ls_commitment st) eqn:Est; try discriminate; apply bind_ok in E; destruct E as (v1 & E1 & E2); eexists _, v1;
        (split; [exact E1|split; [|exact E2]]); split; intros cm Q; try discriminate; try congruence; injection Q as <-; [now apply Hman|]. exact (Cl 0%nat ver st _ eq_refl eq_refl Est). }
    assert (E1' : v1 = withVersions v (mput (vVersions v) ver (out, com))).
    { unfold vAddVersion in E1. apply bind_ok in E1. destruct E1 as (vm & A & E1). injection E1 as <-. assert (Av : vm = mput (vVersions v) ver (out, com)).
      { unfold addVersion in A. destruct (negb _); [discriminate|]. destruct com as [cc|]; [destruct (negb _); [discriminate|]|]; (destruct (mhas _ ver); [discriminate|]; injection A as <-; reflexivity). }
      rewrite Av. reflexivity. }
    destruct (IH v1 ladder v' E2 ltac:(cbn in L; lia)) as (vm & -> & Kv).
    + intros i w st' com' I1 I2. exact (Cl (S i) w st' com' I1 I2).
    + rewrite E1'. rewrite vVersions_with. intros w key o Q. rewrite mget_mput in Q. destruct (N.eqb_spec w ver) as [->|].
      * injection Q as <- <-. split; [|exact Ec]. unfold keyOf. rewrite Ei. apply Hvrf in Eo. exact Eo.
      * apply K. exact Q.
    + exists vm. split; [rewrite E1'; reflexivity|exact Kv].
Qed.
End Ladder.

Section Checked.
Variable f : bytes -> bytes.
Variable T : list bytes.
Variable hs : N.
Hypothesis Hf : forall x, lenN (f x) = hs.
Hypothesis Hhs : 0 < hs.
Local Notation H := (restrict f T).
Local Notation nhs := (N.to_nat hs).
Variable vrf : bytes -> bytes * bytes.
Variable vrfVerify : bytes -> bytes -> option bytes.
Hypothesis Hvrf : vrfVerifies vrf vrfVerify.
Variable c : pubConfig.
Hypothesis Hc : pc_hs c = nhs.
Variable now : N.
Variable leafVerify : bytes -> bytes -> bool.
Variable l : bytes.

Variable es : list logEntry.
Variable leaves : list bytes.
Hypothesis Hes : Forall2 (fun e h => logEntryHash H e = Ok h) es leaves.
Hypothesis Hts : Forall (fun e => le_ts e < two64) es.
Local Notation n := (lenN es).
Hypothesis Hn : 1 <= n < 2 ^ 64.
Variable labs : list (list pubVersion).
Hypothesis Hlabs : forall x e vs, nth_error es x = Some e -> nth_error labs x = Some vs -> holdsVersions H nhs vrf l e vs.
Hypothesis Hlen : List.length labs = List.length es.
Hypothesis Hop : Forall (Forall (fun p => size (pc_openSize c) (pv_opening p))) labs.

Variable state : option clientState.
Hypothesis Hstate : match state with Some s => forall x e, In (x, e) (cs_entries s) -> nth_error es (N.to_nat x) = Some e | None => True end.

Lemma checked_sound req resp v3 ver pos pr r :
  sq_label req = l -> okSearchRequest req -> okSearchResponse c (sq_version req) resp -> noAliases H vrf req resp ->
  checkSearch H hs c now vrfVerify leafVerify state req resp = Ok (v3, ver, pos) ->
  v_n v3 = n -> match v_m v3 with Some k => k <= n | None => True end ->
  dpFinish H hs (v_d v3) (v_n v3) (v_nP v3) (v_m v3) = Ok pr -> logRoot H hs (v_n v3) (pr_subtrees pr) = Ok r -> Mth H leaves r ->
  ((exists y vs p, nth_error labs (N.to_nat y) = Some vs /\ nth_error vs (N.to_nat ver) = Some p /\ sr_value resp = pv_value p) /\
   (sq_version req = None -> exists vs, nth_error labs (N.to_nat (n - 1)) = Some vs /\ nth_error vs (N.to_nat (ver + 1)) = None)) \/ broken f nhs T.
Proof.
  intros Hl Oq Or Hal E En Em Ef Er Mr. unfold checkSearch in E.
  apply bind_ok in E. destruct E as (v & E0 & E). apply bind_ok in E. destruct E as (target & Et & E). apply bind_ok in E. destruct E as (u & _ & E).
  apply bind_ok in E. destruct E as (ladder & Ela & E). apply bind_ok in E. destruct E as (com & Ec & E). apply bind_ok in E. destruct E as (v1 & Epl & E).
  apply bind_ok in E. destruct E as ([u2 v2] & Euv & E). apply bind_ok in E. destruct E as ([terminal v3'] & Es & E). injection E as -> -> _.
  rewrite Hl in *. destruct Or as (O1 & O2 & O3 & O4 & O5 & O6). rewrite Hc in O6. destruct O6 as (O6 & O7 & O8 & O9).
  assert (Hver : ver < 2 ^ 32).
  { unfold searchedVersion in Et. destruct Oq as [_ Oq]. destruct (sq_version req) as [w|]; [injection Et as <-; exact Oq|]. destruct (sr_version resp); [|discriminate]. injection Et as <-. exact O2. }
  (* the provider at the start *)
  assert (D0 : d_handle (v_d v) = newReceived (sr_search resp) /\ rootsTimed (v_d v) /\ smallTs (v_d v) /\
             forall x e, In (x, e) (d_retained (v_d v)) -> nth_error es (N.to_nat x) = Some e /\ mget (d_roots (v_d v)) x = Some (le_root e)).
  { unfold newCVerifier in E0. apply bind_ok in E0. destruct E0 as (d & Ed & E0). apply bind_ok in E0. destruct E0 as (n0 & _ & E0). injection E0 as <-. cbn [v_d]. destruct state as [s|].
    - destruct (addRetained_facts _ _ _ _ Ed) as (A1 & A2 & A3 & A4 & A5 & A6).
      + exact O6.
      + apply Forall_forall. intros [x e] I. apply Hstate in I. apply nth_error_In in I. cbn. rewrite Forall_forall in Hts. now apply Hts.
      + repeat split; auto; try apply A5; rewrite A3 in H; [apply Hstate|apply A6]; exact H.
    - injection Ed as <-. cbn. split; [reflexivity|]. split; [intros x r0; cbn; discriminate|]. split; [split; [exact O6|intros x t; cbn; discriminate]|]. intros x e []. }
  destruct D0 as (Dh & Dt & Ds & Dr).
  assert (Dv : vVersions v = []) by (unfold vVersions; rewrite Dh; reflexivity).
  unfold processLadder in Epl. destruct (Nat.eqb_spec (List.length (sr_ladder resp)) (List.length ladder)) as [Ll|]; [|discriminate]. cbn [negb] in Epl.
  destruct (ladderSteps_keys hs vrf vrfVerify (proj2 Hvrf) l [(ver, com)] (claims H req resp)) with (3 := Ll) (2 := Epl) as (vm & Ev1 & Hk).
  { intros w cm Q. cbn in Q. destruct (N.eqb_spec w ver) as [->|]; [|discriminate]. injection Q as <-. exists ver, ladder. rewrite Hl. auto. }
  { intros i w st cm I1 I2 I3. exists ver, ladder. split; [exact Et|]. split; [exact Ela|]. right. exists i, st. auto. }
  { rewrite Dv. intros w key o; cbn; discriminate. }
  assert (Pv1 : v_d v1 = withHandle (v_d v) {| r_ts := r_ts (d_handle (v_d v)); r_proofs := r_proofs (d_handle (v_d v)); r_roots := r_roots (d_handle (v_d v)); r_incl := r_incl (d_handle (v_d v));
            r_versions := vm; r_tracker := r_tracker (d_handle (v_d v)) |}) by (rewrite Ev1; reflexivity).
  unfold execV in Euv, Es. apply bind_ok in Euv. destruct Euv as (u3 & Ru & Euv). injection Euv as _ <-. apply bind_ok in Es. destruct Es as (t3 & Rs & Es). injection Es as _ <-.
  cbn [setProvider v_d v_n v_nP v_m] in *.
  set (d1 := v_d v1) in *. set (R1 := run (dpProvider (receivedHandle H hs)) (updateView c now (v_n v1) (v_m v1)) d1) in *.
  pose proof (run_ext H hs (updateView c now (v_n v1) (v_m v1)) d1) as X1. fold R1 in X1.
  destruct (run_quiet H hs (updateView c now (v_n v1) (v_m v1)) (quiet_view c now _ _) d1) as [Q1 _]. fold R1 in Q1.
  set (prg := match sq_version req with None => greatestVersionSearch c ver (v_n v1) | Some _ => fixedVersionSearch c ver (v_n v1) end) in *.
  set (R2 := run (dpProvider (receivedHandle H hs)) prg (final R1)) in *.
  pose proof (run_ext H hs prg (final R1)) as X2. fold R2 in X2.
  assert (X : ext d1 (final R2)) by (eapply ext_trans; eassumption).
  set (pfs := cp_proofs (sr_search resp)) in *.
  assert (Hp1 : r_proofs (d_handle d1) = pfs) by (rewrite Pv1; cbn; rewrite Dh; reflexivity).
  assert (Tr1 : track (final R1) = tracker0) by (rewrite Q1; unfold track; rewrite Pv1; cbn; rewrite Dh; reflexivity).
  assert (Hp2 : incl (r_proofs (d_handle (final R1))) pfs) by (rewrite <- Hp1; apply (x_proofs _ _ X1)).
  assert (Vm : vers (final R2) = vm) by (rewrite (x_vers _ _ X); unfold vers; rewrite Pv1; reflexivity).
  assert (Nv1 : v_n v1 = n) by exact En.
  (* the roots are those of the log *)
  rewrite En in Ef, Er.
  assert (T1 : rootsTimed d1 /\ smallTs d1).
  { rewrite Pv1. split; [exact Dt|]. exact Ds. }
  destruct (finish_roots f T hs Hf Hhs es leaves Hes Hts (final R2) (v_nP v1) (v_m v1) pr r Ef Er Mr Em (x_timed _ _ X (proj1 T1)) (proj2 (x_small _ _ X (proj2 T1)))) as [[Ro (front & EF & FR)]|C].
  { rewrite (x_ret _ _ X). intros x e I. assert (I' : In (x, e) (d_retained (v_d v))) by (rewrite Pv1 in I; exact I). destruct (Dr x e I') as [A B]. split; [exact A|].
    apply (x_roots _ _ X). rewrite Pv1. exact B. }
  2:{ right. left. exact C. }
  assert (Hk' : forall w key o, mget vm w = Some (key, o) -> key = keyOf vrf l w /\ forall com, o = Some com -> claims H req resp w com) by (intros w key o Q; destruct (Hk w key o Q) as (K1 & _ & K2); auto).
  assert (Al1 : forall p v c d w com, In p pfs -> In (NonLeaf v c d) (p_results p) -> claims H req resp w com -> v = keyOf vrf l w -> c = com).
  { intros p v0 c0 d0 w cm I1 I2 I3 I4. apply (proj1 (Hal p v0 c0 d0 I1 I2) w cm I3). now rewrite Hl. }
  assert (Inc : forall y, factD H hs pfs (final R2) y ver true ->
     (exists y vs p, nth_error labs (N.to_nat y) = Some vs /\ nth_error vs (N.to_nat ver) = Some p /\ sr_value resp = pv_value p) \/ broken f nhs T).
  { intros y F. unfold factD in F. rewrite Vm in F. destruct (fact_true f T hs Hf Hhs vrf l es labs Hlabs Hlen pfs vm (claims H req resp) _ y ver true Hver O7 Al1 ltac:(discriminate) Hk' Ro F) as [(vs & Evs & p & cm & key & P1 & P2 & P3)|B]; [|auto].
    destruct (Hk ver key (Some cm) P3) as (_ & K & _). specialize (K com). cbn in K. rewrite N.eqb_refl in K. specialize (K eq_refl). injection K as ->.
    assert (Sz : List.length (pv_opening p) = List.length (sr_opening resp)).
    { rewrite Forall_forall in Hop. pose proof (Hop vs (nth_error_In _ _ Evs)) as Hv. rewrite Forall_forall in Hv. pose proof (Hv p (nth_error_In _ _ P1)) as Hz. unfold size in *. congruence. }
    destruct (commit_binds f T _ _ l l ver ver _ _ com Sz Hver Hver P2 Ec) as [(_ & _ & _ & Q)|C]; [|right; left; exact C].
    left. exists y, vs, p. split; [exact Evs|]. split; [exact P1|]. symmetry. exact Q. }
  assert (ER2 : exists evs, run (dpProvider (receivedHandle H hs)) prg (final R1) = (Ok t3, final R2, evs)).
  { fold R2. destruct R2 as [[r2 s2] e2]. cbn in Rs |- *. rewrite Rs. eauto. }
  destruct ER2 as (evs & ER2). unfold prg in ER2. destruct (sq_version req) as [w|] eqn:Ew.
  - rewrite Nv1 in ER2. destruct (fixed_accept H hs c n Hn pfs ver Hver (final R1) t3 (final R2) evs Hp2 Tr1 ER2) as (y & F).
    destruct (Inc y F) as [A|B]; [|auto]. left. split; [exact A|discriminate].
  - rewrite Nv1 in ER2. destruct (greatest_accept H hs c n Hn front EF pfs ver Hver (final R1) t3 (final R2) evs Hp2 Tr1 ER2) as [(B0 & (y & Hy & F) & Fn)|(y & I & N0)].
    2:{ exfalso. exact (FR y I N0). }
    destruct (Inc y F) as [A|B]; [|auto]. unfold factD in Fn. rewrite Vm in Fn.
    assert (Al2 : false = false -> forall p v' c d, In p pfs -> In (NonLeaf v' c d) (p_results p) -> v' <> keyOf vrf l (ver + 1)).
    { intros _ p v' c' d' I1 I2. rewrite <- Hl. apply (proj2 (Hal p v' c' d' I1 I2)); [exact Ew|exact Et]. }
    destruct (fact_true f T hs Hf Hhs vrf l es labs Hlabs Hlen pfs vm (claims H req resp) _ (n - 1) (ver + 1) false ltac:(lia) O7 Al1 Al2 Hk' Ro Fn) as [(vs & Evs & K)|B]; [|auto].
    left. split; [exact A|]. intros _. exists vs. auto.
Qed.
End Checked.
