(** Proofs for AgreeProperties.v. *)
From Verif Require Import Base BaseProofs LogTreeModel LogTreeSpec LogTreeProofs LogTreeProofs3 TransMathModel TransMathSpec LaddersModel PrefixModel PrefixSpec PrefixHistProofs
  CodecModel CodecSpec AlgModel AlgSpec AlgProofs AlgProofs3 TransMathProofs2 HandleModel HandleProofs CommitModel CommitProofs MutateModel MutateSpec ServerModel ClientModel ClientProofs ClientProofs2 ClientSpec SearchProofs
  SoundSpec AcceptProofs SoundProofs SoundProofs2 GuardSpec GuardProofs GuardProofs3 GuardProofs4 AuditorModel VouchSpec VouchProofs AgreeSpec.
Open Scope N_scope.
Local Open Scope list_scope.

(** ** A search for the greatest version looks at the whole ladder *)
Section Greatest.
Variable H : bytes -> option bytes.
Variable hs : N.
Local Notation nhs := (N.to_nat hs).
Local Notation RH := (receivedHandle H hs).
Local Notation P := (dpProvider RH).
Local Notation provider := (dataProvider received).
Variable c : pubConfig.
Variable n : N.
Hypothesis Hn : 1 <= n < 2 ^ 64.
Variable front : list N.
Hypothesis Hfront : frontier n = Ok front.
Variable pfs : list pproof.
Variable ver : N.
Hypothesis Hver : ver < 2 ^ 32.

Definition allProven (d : provider) : Prop := ver < 2 ^ 31 - 1 /\ exists base, baseBinaryLadder ver = Ok base /\ In ver base /\ In (ver + 1) base /\
  forall w, In w base -> if w <=? ver then exists y, y <= n - 1 /\ factD H hs pfs d y w true else factD H hs pfs d (n - 1) w false.

Lemma greatest_loop_all fuel : forall a len term d t d' l, onFrontier n front a len -> incl (r_proofs (d_handle d)) pfs -> tracked H hs pfs d ->
  (forall y vs, In (y, vs) (tr_inc (track d)) -> y < sroot a len /\ forall v, In v vs -> v <= ver) ->
  (forall y vs, In (y, vs) (tr_non (track d)) -> y < sroot a len) ->
  run P (greatest_loop fuel ver n (sroot a len) term) d = (Ok t, d', l) -> allProven d'.
Proof.
  induction fuel as [|f IH]; intros a len term d t d' l O Hp Ht Hi Ho E; [discriminate|]. cbn [greatest_loop] in E. rewrite sub1_64 in E by auto.
  apply run_bind_ok in E. destruct E as (r & d1 & l1 & l2 & E & E' & _). rewrite run_getLadder_dp in E.
  assert (Ex : ext d d1). { pose proof (pr_ladder _ _ (preserves_ext H hs d) d (sroot a len) ver true (ext_refl d)) as X. cbn in X. destruct (dpLadder RH d (sroot a len) ver true) as [[z|e|e|] d2]; try discriminate. cbn in E, X. injection E as _ <- _. exact X. }
  destruct (dpLadder RH d (sroot a len) ver true) as [[z|e|e|] d2] eqn:El; try discriminate. cbn [fst snd] in E. injection E as <- <- _.
  destruct (dpLadder_ok H hs pfs d _ ver z d2 Hp Ht El) as (T2 & Z1 & (incs & nons & Tr & Z2 & Z3) & Z4).
  destruct (Z.eqb_spec z 1); [discriminate|].
  destruct (N.eqb_spec (sroot a len) (n - 1)) as [E1|E1]; cbn [negb] in E'.
  - destruct (_ && _); [discriminate|]. destruct (Z.eqb_spec z 0) as [->|]; [|discriminate]. cbn [negb] in E'. cbn [run] in E'. injection E' as _ <- _.
    destruct (Z4 eq_refl) as (base & Eb & Hb). destruct (base_in ver base Hver Eb) as (B0 & B1 & B2). split; [exact B0|]. exists base. split; [exact Eb|]. split; [exact B1|]. split; [exact B2|].
    intros w Iw. destruct (Hb w Iw) as [F|[(y & vs & I1 & I2 & I3)|(y & vs & I1 & I2 & I3)]].
    + destruct (w <=? ver); [exists (sroot a len); split; [lia|exact F]|]. rewrite <- E1. exact F.
    + destruct (Hi y vs I1) as [_ I4]. specialize (I4 w I3). rewrite (proj2 (N.leb_le w ver) I4). exists y. split; [lia|]. eapply fact_ext; [exact Ex|]. eapply (proj1 Ht); eassumption.
    + apply Ho in I1. lia.
  - destruct (onFrontier_right n Hn front Hfront ver Hver a len O E1) as [Er O']. rewrite Er in E'. cbn [lift pbind] in E'.
    assert (Lt : sroot a len < sroot (sroot a len + 1) (len - lsize len - 1)) by (unfold sroot; lia).
    eapply (IH _ _ _ d2); [exact O'| |exact T2| | |exact E'].
    + intros q Hq. apply Hp. apply (x_proofs _ _ Ex). exact Hq.
    + rewrite Tr. cbn [tr_inc]. intros y vs Hy. apply in_app_or in Hy. destruct Hy as [Hy|[Hy|[]]].
      * apply Hi in Hy. split; [lia|apply Hy].
      * injection Hy as <- <-. split; [exact Lt|]. intros v Hv. apply Z2; auto.
    + rewrite Tr. cbn [tr_non]. intros y vs Hy. apply in_app_or in Hy. destruct Hy as [Hy|[Hy|[]]].
      * apply Ho in Hy. lia.
      * injection Hy as <- <-. exact Lt.
Qed.

Lemma greatest_all d t d' l : incl (r_proofs (d_handle d)) pfs -> track d = tracker0 ->
  run P (greatestVersionSearch c ver n) d = (Ok t, d', l) ->
  allProven d' \/ exists y, In y front /\ mget (d_ts d') y = None.
Proof.
  intros Hp Ht E. unfold greatestVersionSearch in E. destruct (N.eqb_spec n 0); [lia|]. apply run_bind_ok in E. destruct E as (r & d1 & l1 & l2 & E & E' & _).
  rewrite run_catch, run_bind in E. pose proof (rightmost_cases H hs c n Hn front Hfront ver Hver d) as K. cbv zeta in K.
  pose proof (run_quiet H hs (rightmostDistinguished c n) (quiet_rightmost c n) d) as [Q1 Q2]. pose proof (run_ext H hs (rightmostDistinguished c n) d) as Q3.
  destruct (run P (rightmostDistinguished c n) d) as [[[o|m|m|] s] evs]; cbn [andThen orElse run result final fst snd] in *; try discriminate.
  - injection E as <- <- _. left.
    assert (exists a len, match o with Some x => x | None => troot n end = sroot a len /\ onFrontier n front a len) as (a & len & Ea & O).
    { destruct o as [x|]; [destruct K as (a & len & -> & O); eauto|]. destruct (c09_entries n Hn) as (-> & _). exists 0, n. split; [reflexivity|exact (onFrontier_root n Hn front Hfront ver Hver)]. }
    rewrite Ea in E'. eapply greatest_loop_all; [exact O| | | | |exact E'].
    + intros q Hq. apply Hp. apply (x_proofs _ _ Q3). exact Hq.
    + split; rewrite Q1, Ht; cbn; contradiction.
    + rewrite Q1, Ht. cbn. contradiction.
    + rewrite Q1, Ht. cbn. contradiction.
  - injection E as <- <- _. cbn [run] in E'. injection E' as _ <- _. right. exact K.
Qed.
End Greatest.

(** ** What an accepted search shows of the trees *)
Section Search.
Variable f : bytes -> bytes.
Variable T : list bytes.
Variable hs : N.
Hypothesis Hf : forall x, lenN (f x) = hs.
Hypothesis Hhs : 0 < hs.
Local Notation H := (restrict f T).
Local Notation nhs := (N.to_nat hs).
Variable vrf : bytes -> bytes * bytes.
Variable vrfVerify : bytes -> bytes -> option bytes.
Hypothesis Hvrf : vrfVerifies vrf vrfVerify.
Variable c : pubConfig.
Hypothesis Hc : pc_hs c = nhs.
Variable now : N.
Variable leafVerify : bytes -> bytes -> bool.
Variable es : list logEntry.
Variable leaves : list bytes.
Variable trees : list trie.
Hypothesis Hlog : commitsTo H nhs es leaves trees.
Hypothesis Hord : ordered es.
Local Notation n := (lenN es).

Lemma fact_tree l pfs vm (cl : N -> bytes -> Prop) d x v b : Forall (okPrefixProof nhs) pfs ->
  (forall p v c d w com, In p pfs -> In (NonLeaf v c d) (p_results p) -> cl w com -> v = keyOf vrf l w -> c = com) ->
  (b = false -> forall p v' c d, In p pfs -> In (NonLeaf v' c d) (p_results p) -> v' <> keyOf vrf l v) ->
  (forall w key o, mget vm w = Some (key, o) -> key = keyOf vrf l w /\ forall com, o = Some com -> cl w com) -> rootsOf es d ->
  fact H hs pfs vm (d_roots d) x v b ->
  (exists t, nth_error trees (N.to_nat x) = Some t /\
    if b then exists com key, heldAs vrf l t v = Some com /\ mget vm v = Some (key, Some com) else heldAs vrf l t v = None) \/ broken f nhs T.
Proof.
  intros Hok Hal Hal2 Hk Hr (root & ents & pf & i & key & o & r & A1 & A2 & A3 & A4 & A5 & A6 & A7 & A8 & A9).
  destruct (GuardProofs2.tree_of_root f T hs es leaves trees Hlog d x root Hr A1) as (t & Et & C1 & C2).
  assert (W : wfProof nhs pf).
  { rewrite Forall_forall in Hok. destruct (Hok pf A2) as [O1 O2]. split; [exact O2|]. intros v0 c0 d0 I. rewrite Forall_forall in O1. destruct (O1 _ I) as [_ O]. exact O. }
  assert (NA : agreeing ents (p_results pf)).
  { intros v0 c0 d0 en r0 I I' R0 <-. destruct (A4 en r0 I') as (w & ow & Ew & Es & Eo). destruct (Hk _ _ _ Ew) as [K1 K2].
    destruct ow as [cm|]; [|destruct (Eo R0); reflexivity]. rewrite Es. symmetry. eapply Hal; eauto. }
  assert (Hf' : forall x, List.length (f x) = nhs). { intro y. pose proof (Hf y). unfold lenN in *. lia. }
  destruct (verify_sound_weak f nhs T ents pf t root Hf' C1 W NA C2 A3) as [Q2|B]; [|auto]. left. exists t. split; [exact Et|].
  assert (I : In ((key, match o with Some c => c | None => [] end), r) (combine ents (p_results pf))) by (eapply GuardProofs2.combine_nth_in; eassumption).
  specialize (Q2 _ _ I). cbn [fst snd] in Q2. rewrite A8 in Q2. destruct (Hk _ _ _ A5) as [Ek _].
  assert (Own : forall v0 c0 d0, r = NonLeaf v0 c0 d0 -> v0 <> key).
  { intros v0 c0 d0 ->. rewrite Ek. apply nth_error_In in A7. eapply Hal2; eauto. }
  specialize (Q2 Own). rewrite Ek in Q2. unfold heldAs. destruct b; [|exact Q2].
  destruct o as [com|]; [|exfalso; now apply A9]. exists com, key. auto.
Qed.

Lemma search_shows state req resp : foundIn H hs c now vrfVerify leafVerify vrf es leaves state req resp ->
  (exists ver com y t, searchedVersion req resp = Ok ver /\ ver < 2 ^ 32 /\ labelCommitment H (sr_opening resp) (sq_label req) ver (sr_value resp) = Ok com /\
    nth_error trees (N.to_nat y) = Some t /\ heldAs vrf (sq_label req) t ver = Some com /\
    (sq_version req = None -> exists ladder, searchBinaryLadder ver ver [] [] = Ok ladder /\ In ver ladder /\ In (ver + 1) ladder /\
       forall w, In w ladder -> if w <=? ver then exists y t, y < n /\ nth_error trees (N.to_nat y) = Some t /\ heldAs vrf (sq_label req) t w <> None
         else forall t, nth_error trees (N.to_nat (n - 1)) = Some t -> heldAs vrf (sq_label req) t w = None)) \/ broken f nhs T.
Proof.
  intros (Hstate & Oq & Or & Hal & v3 & ver & pos & pr & r & E & En & Ef & Er & Mr). unfold checkSearch in E.
  assert (Hts : Forall (fun e => le_ts e < two64) es) by apply Hord. assert (Hn : 1 <= n < 2 ^ 64) by (destruct Hord as ((A & B) & _); split; [exact A|]; change (2 ^ 64) with 18446744073709551616; change (2 ^ 63) with 9223372036854775808 in B; lia).
  apply bind_ok in E. destruct E as (v & E0 & E). apply bind_ok in E. destruct E as (target & Et & E). apply bind_ok in E. destruct E as (u & _ & E).
  apply bind_ok in E. destruct E as (ladder & Ela & E). apply bind_ok in E. destruct E as (com & Ec & E). apply bind_ok in E. destruct E as (v1 & Epl & E).
  apply bind_ok in E. destruct E as ([u2 v2] & Euv & E). apply bind_ok in E. destruct E as ([terminal v3'] & Es & E). injection E as -> -> _.
  set (l := sq_label req) in *. destruct Or as (O1 & O2 & O3 & O4 & O5 & O6). rewrite Hc in O6. destruct O6 as (O6 & O7 & O8 & O9).
  assert (Hver : ver < 2 ^ 32).
  { unfold searchedVersion in Et. destruct Oq as [_ Oq]. destruct (sq_version req) as [w|]; [injection Et as <-; exact Oq|]. destruct (sr_version resp); [|discriminate]. injection Et as <-. exact O2. }
  assert (D0 : d_handle (v_d v) = newReceived (sr_search resp) /\ rootsTimed (v_d v) /\ smallTs (v_d v) /\
             forall x e, In (x, e) (d_retained (v_d v)) -> nth_error es (N.to_nat x) = Some e /\ mget (d_roots (v_d v)) x = Some (le_root e)).
  { unfold newCVerifier in E0. apply bind_ok in E0. destruct E0 as (d & Ed & E0). apply bind_ok in E0. destruct E0 as (n0 & _ & E0). injection E0 as <-. cbn [v_d]. destruct state as [s|].
    - destruct (addRetained_facts _ _ _ _ Ed) as (A1 & A2 & A3 & A4 & A5 & A6).
      + exact O6.
      + apply Forall_forall. intros [x e] I. apply Hstate in I. apply nth_error_In in I. cbn. rewrite Forall_forall in Hts. now apply Hts.
      + repeat split; auto; try apply A5; rewrite A3 in H; [apply Hstate|apply A6]; exact H.
    - injection Ed as <-. cbn. split; [reflexivity|]. split; [intros x r0; cbn; discriminate|]. split; [split; [exact O6|intros x t; cbn; discriminate]|]. intros x e []. }
  destruct D0 as (Dh & Dt & Ds & Dr).
  assert (Dv : vVersions v = []) by (unfold vVersions; rewrite Dh; reflexivity).
  unfold processLadder in Epl. destruct (Nat.eqb_spec (List.length (sr_ladder resp)) (List.length ladder)) as [Ll|]; [|discriminate]. cbn [negb] in Epl.
  destruct (ladderSteps_keys hs vrf vrfVerify (proj2 Hvrf) l [(ver, com)] (claims H req resp)) with (3 := Ll) (2 := Epl) as (vm & Ev1 & Hk).
  { intros w cm Q. cbn in Q. destruct (N.eqb_spec w ver) as [->|]; [|discriminate]. injection Q as <-. exists ver, ladder. fold l. auto. }
  { intros i w st cm I1 I2 I3. exists ver, ladder. split; [exact Et|]. split; [exact Ela|]. right. exists i, st. auto. }
  { rewrite Dv. intros w key o; cbn; discriminate. }
  assert (Pv1 : v_d v1 = withHandle (v_d v) {| r_ts := r_ts (d_handle (v_d v)); r_proofs := r_proofs (d_handle (v_d v)); r_roots := r_roots (d_handle (v_d v)); r_incl := r_incl (d_handle (v_d v));
            r_versions := vm; r_tracker := r_tracker (d_handle (v_d v)) |}) by (rewrite Ev1; reflexivity).
  assert (Em : match v_m v3 with Some k => k <= n | None => True end).
  { pose proof (execV_same _ _ _ _ _ _ Euv) as S2. pose proof (execV_same _ _ _ _ _ _ Es) as S3. destruct (v_m v3) as [k|] eqn:Ek; [|exact I]. destruct S2 as (_ & _ & A2 & _ & B2). destruct S3 as (_ & _ & A3 & _ & B3).
    assert (Mk : v_m v1 = Some k) by congruence. pose proof (updateView_needs _ _ _ _ _ _ _ _ Mk Euv). rewrite <- En. congruence. }
  unfold execV in Euv, Es. apply bind_ok in Euv. destruct Euv as (u3 & Ru & Euv). injection Euv as _ <-. apply bind_ok in Es. destruct Es as (t3 & Rs & Es). injection Es as _ <-.
  cbn [setProvider v_d v_n v_nP v_m] in *.
  set (d1 := v_d v1) in *. set (R1 := run (dpProvider (receivedHandle H hs)) (updateView c now (v_n v1) (v_m v1)) d1) in *.
  pose proof (run_ext H hs (updateView c now (v_n v1) (v_m v1)) d1) as X1. fold R1 in X1.
  destruct (run_quiet H hs (updateView c now (v_n v1) (v_m v1)) (quiet_view c now _ _) d1) as [Q1 _]. fold R1 in Q1.
  set (prg := match sq_version req with None => greatestVersionSearch c ver (v_n v1) | Some _ => fixedVersionSearch c ver (v_n v1) end) in *.
  set (R2 := run (dpProvider (receivedHandle H hs)) prg (final R1)) in *.
  pose proof (run_ext H hs prg (final R1)) as X2. fold R2 in X2.
  assert (X : ext d1 (final R2)) by (eapply ext_trans; eassumption).
  set (pfs := cp_proofs (sr_search resp)) in *.
  assert (Hp1 : r_proofs (d_handle d1) = pfs) by (rewrite Pv1; cbn; rewrite Dh; reflexivity).
  assert (Tr1 : track (final R1) = tracker0) by (rewrite Q1; unfold track; rewrite Pv1; cbn; rewrite Dh; reflexivity).
  assert (Hp2 : incl (r_proofs (d_handle (final R1))) pfs) by (rewrite <- Hp1; apply (x_proofs _ _ X1)).
  assert (Vm : vers (final R2) = vm) by (rewrite (x_vers _ _ X); unfold vers; rewrite Pv1; reflexivity).
  assert (Nv1 : v_n v1 = n) by exact En.
  rewrite En in Ef, Er.
  assert (T1 : rootsTimed d1 /\ smallTs d1) by (rewrite Pv1; split; [exact Dt|exact Ds]).
  destruct (finish_roots f T hs Hf Hhs es leaves (proj1 Hlog) Hts (final R2) (v_nP v1) (v_m v1) pr r Ef Er Mr Em (x_timed _ _ X (proj1 T1)) (proj2 (x_small _ _ X (proj2 T1)))) as [[Ro (front & EF & FR)]|C].
  { rewrite (x_ret _ _ X). intros x e I. assert (I' : In (x, e) (d_retained (v_d v))) by (rewrite Pv1 in I; exact I). destruct (Dr x e I') as [A B]. split; [exact A|].
    apply (x_roots _ _ X). rewrite Pv1. exact B. }
  2:{ right. left. exact C. }
  assert (Hk' : forall w key o, mget vm w = Some (key, o) -> key = keyOf vrf l w /\ forall com, o = Some com -> claims H req resp w com) by (intros w key o Q; destruct (Hk w key o Q) as (K1 & _ & K2); auto).
  assert (Al1 : forall p v c d w com, In p pfs -> In (NonLeaf v c d) (p_results p) -> claims H req resp w com -> v = keyOf vrf l w -> c = com).
  { intros p v0 c0 d0 w cm I1 I2 I3 I4. exact (proj1 (Hal p v0 c0 d0 I1 I2) w cm I3 I4). }
  assert (Inc : forall y w, factD H hs pfs (final R2) y w true -> (exists t com key, nth_error trees (N.to_nat y) = Some t /\ heldAs vrf l t w = Some com /\ mget vm w = Some (key, Some com)) \/ broken f nhs T).
  { intros y w F. unfold factD in F. rewrite Vm in F. destruct (fact_tree l pfs vm (claims H req resp) _ y w true O7 Al1 ltac:(discriminate) Hk' Ro F) as [(t & Ett & cm & key & P1 & P2)|B]; [|auto].
    left. exists t, cm, key. auto. }
  assert (Fin : forall y, factD H hs pfs (final R2) y ver true -> (exists t, nth_error trees (N.to_nat y) = Some t /\ heldAs vrf l t ver = Some com) \/ broken f nhs T).
  { intros y F. destruct (Inc y ver F) as [(t & cm & key & P1 & P2 & P3)|B]; [|auto]. left. exists t. split; [exact P1|].
    destruct (Hk ver key (Some cm) P3) as (_ & K & _). specialize (K com). cbn in K. rewrite N.eqb_refl in K. specialize (K eq_refl). injection K as ->. exact P2. }
  assert (ER2 : exists evs, run (dpProvider (receivedHandle H hs)) prg (final R1) = (Ok t3, final R2, evs)).
  { fold R2. destruct R2 as [[r2 s2] e2]. cbn in Rs |- *. rewrite Rs. eauto. }
  destruct ER2 as (evs & ER2). unfold prg in ER2. destruct (sq_version req) as [w|] eqn:Ew.
  - rewrite Nv1 in ER2. destruct (fixed_accept H hs c n Hn pfs ver Hver (final R1) t3 (final R2) evs Hp2 Tr1 ER2) as (y & F).
    destruct (Fin y F) as [(t & A & B)|B]; [|auto]. left. exists ver, com, y, t. repeat split; auto. discriminate.
  - rewrite Nv1 in ER2. destruct (greatest_all H hs c n Hn front EF pfs ver Hver (final R1) t3 (final R2) evs Hp2 Tr1 ER2) as [(B0 & base & Eb & I1 & I2 & K)|(y & I & N0)].
    2:{ exfalso. exact (FR y I N0). }
    assert (exists y, y <= n - 1 /\ factD H hs pfs (final R2) y ver true) as (y & Ly & F) by (specialize (K ver I1); rewrite N.leb_refl in K; exact K).
    destruct (Fin y F) as [(t & A & B)|B]; [|auto].
    assert (KL : (forall w, In w base -> if w <=? ver then exists y t, y < n /\ nth_error trees (N.to_nat y) = Some t /\ heldAs vrf l t w <> None
         else forall t, nth_error trees (N.to_nat (n - 1)) = Some t -> heldAs vrf l t w = None) \/ broken f nhs T).
    { assert (Lb : forall w, In w base -> w < 2 ^ 32) by (intros w Iw; destruct (LaddersProofs.base_spec ver B0) as (bl & Ebl & _ & _ & _ & Fl & _); rewrite Eb in Ebl; injection Ebl as <-; rewrite Forall_forall in Fl; specialize (Fl w Iw); change (2 ^ 31) with 2147483648 in Fl; change (2 ^ 32) with 4294967296; clear - Fl; lia). clear Eb I1 I2 A B F Ly y t. induction base as [|w base IH]; [left; intros w []|].
      destruct IH as [IH|B]; [intros w' Iw'; apply K; now right|intros w' Iw'; apply Lb; now right| |auto]. specialize (K w (or_introl eq_refl)). specialize (Lb w (or_introl eq_refl)). destruct (N.leb_spec w ver) as [Lw|Lw].
      - destruct K as (y & Ly & F). destruct (Inc y w F) as [(t & cm & key & P1 & P2 & _)|B]; [|auto]. left. intros w' [<-|Iw']; [|exact (IH w' Iw')].
        rewrite (proj2 (N.leb_le w ver) Lw). exists y, t. split; [lia|]. split; [exact P1|]. congruence.
      - assert (Al2 : false = false -> forall p v' c d, In p pfs -> In (NonLeaf v' c d) (p_results p) -> v' <> keyOf vrf l w).
        { intros _ p v' c' d' J1 J2. exact (proj2 (Hal p v' c' d' J1 J2) Ew ver w Et Lw Lb). }
        unfold factD in K. rewrite Vm in K. destruct (fact_tree l pfs vm (claims H req resp) _ (n - 1) w false O7 Al1 Al2 Hk' Ro K) as [(t & Ett & Q)|B]; [|auto].
        left. intros w' [<-|Iw']; [|exact (IH w' Iw')]. replace (w <=? ver) with false by lia. intros t' Et'. rewrite Ett in Et'. injection Et' as <-. exact Q. }
    destruct KL as [KL|B']; [|auto]. left. exists ver, com, y, t. repeat split; auto. intros _. exists base. split; [exact (search_is_base (fun _ => true) _ _ Eb)|]. auto.
Qed.
End Search.

(** ** Prefixes of the log *)
Lemma Forall2_soFar {A B} (R : A -> B -> Prop) l l' : Forall2 R l l' -> forall k, Forall2 R (firstn k l) (firstn k l').
Proof. induction 1; intros [|k]; cbn; constructor; auto. Qed.
Lemma soFar_nth {A} (l : list A) k i a : nth_error (soFar k l) i = Some a -> nth_error l i = Some a /\ N.of_nat i < k.
Proof.
  unfold soFar. intro Q. assert (L : (i < List.length (firstn (N.to_nat k) l))%nat) by (apply nth_error_Some; congruence). rewrite firstn_length in L.
  split; [|lia]. rewrite <- (firstn_skipn (N.to_nat k) l). rewrite nth_error_app1; [exact Q|]. rewrite firstn_length. lia.
Qed.
Lemma nth_soFar {A} (l : list A) k i a : nth_error l i = Some a -> N.of_nat i < k -> nth_error (soFar k l) i = Some a.
Proof.
  intros Q L. unfold soFar. assert (L' : (i < List.length l)%nat) by (apply nth_error_Some; congruence). rewrite <- (firstn_skipn (N.to_nat k) l) in Q. rewrite nth_error_app1 in Q; [exact Q|]. rewrite firstn_length. lia.
Qed.
Lemma soFar_len {A} (l : list A) k : k <= lenN l -> lenN (soFar k l) = k.
Proof. unfold soFar, lenN. rewrite firstn_length. lia. Qed.

Lemma ordered_soFar es k : ordered es -> 1 <= k <= lenN es -> ordered (soFar k es).
Proof.
  intros (A & B & C) Hk. split; [rewrite soFar_len; lia|]. split.
  - apply Forall_forall. intros e I. rewrite Forall_forall in B. apply B. unfold soFar in I. rewrite <- (firstn_skipn (N.to_nat k) es). apply in_or_app. auto.
  - rewrite soFar_len by lia. intros x y Hxy. specialize (C x y ltac:(lia)). unfold timeAt in *.
    destruct (nth_error es (N.to_nat x)) as [e|] eqn:Ex; [|apply nth_error_None in Ex; unfold lenN in Hk; lia]. destruct (nth_error es (N.to_nat y)) as [e'|] eqn:Ey; [|apply nth_error_None in Ey; unfold lenN in Hk; lia].
    rewrite (nth_soFar es k _ _ Ex) by lia. rewrite (nth_soFar es k _ _ Ey) by lia. exact C.
Qed.
Lemma commits_soFar H hs es leaves trees k : commitsTo H hs es leaves trees -> commitsTo H hs (soFar k es) (soFar k leaves) (soFar k trees).
Proof. intros [A B]. split; apply Forall2_soFar; assumption. Qed.

Section Agree.
Variable f : bytes -> bytes.
Variable T : list bytes.
Variable hs : N.
Hypothesis Hf : forall x, lenN (f x) = hs.
Hypothesis Hhs : 0 < hs.
Local Notation H := (restrict f T).
Local Notation nhs := (N.to_nat hs).
Variable vrf : bytes -> bytes * bytes.
Variable vrfVerify : bytes -> bytes -> option bytes.
Hypothesis Hvrf : vrfVerifies vrf vrfVerify.
Variable c : pubConfig.
Hypothesis Hc : pc_hs c = nhs.
Variable start : list (bytes * bytes).
Variable us : list auditorUpdate.
Variable es : list logEntry.
Variable leaves : list bytes.
Variable trees : list trie.
Hypothesis HL : logOf H nhs start us es leaves trees.

Definition holdsAt (l : bytes) (k w : N) : bool := match nth_error trees (N.to_nat (k - 1)) with Some t => match heldAs vrf l t w with Some _ => true | None => false end | None => false end.

(** What an accepted search shows of the whole log. *)
Lemma search_log now leafVerify k state req resp : 1 <= k <= lenN es -> foundIn H hs c now vrfVerify leafVerify vrf (soFar k es) (soFar k leaves) state req resp ->
  (exists ver com t, searchedVersion req resp = Ok ver /\ ver < 2 ^ 32 /\ labelCommitment H (sr_opening resp) (sq_label req) ver (sr_value resp) = Ok com /\
    nth_error trees (N.to_nat (k - 1)) = Some t /\ heldAs vrf (sq_label req) t ver = Some com /\
    (sq_version req = None -> heldAs vrf (sq_label req) t (ver + 1) = None /\ GuardProofs.found (holdsAt (sq_label req) k) = Z.of_N ver)) \/ broken f nhs T.
Proof.
  intros Hk Fi. destruct HL as (Hcm & Hord & _).
  destruct (search_shows f T hs Hf Hhs vrf vrfVerify Hvrf c Hc now leafVerify (soFar k es) (soFar k leaves) (soFar k trees) (commits_soFar _ _ _ _ _ k Hcm) (ordered_soFar es k Hord Hk) state req resp Fi) as [(ver & com & y & t & E1 & E0 & E2 & Q & Hd & K)|B]; [left|auto].
  rewrite (soFar_len es k) in K by lia. apply soFar_nth in Q as [Q Ly]. destruct (tree_at _ _ _ _ _ _ _ HL (k - 1) ltac:(lia)) as (t' & Q').
  exists ver, com, t'. split; [exact E1|]. split; [exact E0|]. split; [exact E2|]. split; [exact Q'|]. split; [eapply held_later; [exact HL| |exact Q|exact Q'|exact Hd]; lia|].
  intro Ev. destruct (K Ev) as (ladder & El & I1 & I2 & A). assert (Qk : nth_error (soFar k trees) (N.to_nat (k - 1)) = Some t') by (apply nth_soFar; [exact Q'|lia]).
  split.
  - specialize (A _ I2). replace (ver + 1 <=? ver) with false in A by lia. exact (A t' Qk).
  - destruct (found_compare (holdsAt (sq_label req) k) ver ladder E0 El) as (_ & _ & F). apply F. intros w Iw. specialize (A w Iw). unfold holdsAt. rewrite Q'. destruct (w <=? ver).
    + destruct A as (y' & t'' & Ly' & Q'' & N0). apply soFar_nth in Q'' as [Q'' _]. destruct (heldAs vrf (sq_label req) t'' w) as [cm|] eqn:X; [|congruence].
      rewrite (held_later _ _ _ _ _ _ _ HL vrf (sq_label req) (N.to_nat y') (N.to_nat (k - 1)) _ t' w cm ltac:(lia) Q'' Q' X). reflexivity.
    + rewrite (A t' Qk). reflexivity.
Qed.

Lemma holdsAt_mono l k k' w : k <= k' -> 1 <= k -> k' <= lenN es -> holdsAt l k w = true -> holdsAt l k' w = true.
Proof.
  intros Lk L1 L2. unfold holdsAt. destruct (tree_at _ _ _ _ _ _ _ HL (k - 1) ltac:(lia)) as (t & Q). destruct (tree_at _ _ _ _ _ _ _ HL (k' - 1) ltac:(lia)) as (t' & Q'). rewrite Q, Q'.
  destruct (heldAs vrf l t w) as [com|] eqn:X; [|discriminate]. intros _. rewrite (held_later _ _ _ _ _ _ _ HL vrf l (N.to_nat (k - 1)) (N.to_nat (k' - 1)) t t' w com ltac:(lia) Q Q' X). reflexivity.
Qed.

Lemma users_agree now1 lv1 k1 state1 req1 resp1 now2 lv2 k2 state2 req2 resp2 : 1 <= k1 <= k2 -> k2 <= lenN es -> sq_label req1 = sq_label req2 ->
  foundIn H hs c now1 vrfVerify lv1 vrf (soFar k1 es) (soFar k1 leaves) state1 req1 resp1 -> foundIn H hs c now2 vrfVerify lv2 vrf (soFar k2 es) (soFar k2 leaves) state2 req2 resp2 ->
  (exists v1 v2, searchedVersion req1 resp1 = Ok v1 /\ searchedVersion req2 resp2 = Ok v2 /\
    (v1 = v2 -> sr_value resp1 = sr_value resp2) /\
    (sq_version req2 = None -> v1 <> v2 + 1 /\ (sq_version req1 = None -> v1 <= v2))) \/ broken f nhs T.
Proof.
  intros H1 H2 El F1 F2. pose proof F1 as (_ & _ & O1 & _). pose proof F2 as (_ & _ & O2 & _).
  destruct (search_log _ _ k1 _ _ _ ltac:(lia) F1) as [(v1 & c1 & t1 & A1 & A2 & A3 & A4 & A5 & A6)|B]; [|auto].
  destruct (search_log _ _ k2 _ _ _ ltac:(lia) F2) as [(v2 & c2 & t2 & B1 & B2 & B3 & B4 & B5 & B6)|B]; [|auto].
  rewrite El in *. assert (Later : heldAs vrf (sq_label req2) t2 v1 = Some c1) by (eapply held_later; [exact HL| |exact A4|exact B4|exact A5]; lia).
  assert (V : v1 <> v2 \/ sr_value resp1 = sr_value resp2 \/ broken f nhs T).
  { destruct (N.eq_dec v1 v2) as [<-|]; [right|auto]. rewrite B5 in Later. injection Later as <-.
    assert (Sz : List.length (sr_opening resp1) = List.length (sr_opening resp2)) by (destruct O1 as (_ & _ & S1 & _); destruct O2 as (_ & _ & S2 & _); unfold size in *; congruence).
    destruct (commit_binds f T _ _ _ _ v1 v1 _ _ c2 Sz A2 A2 A3 B3) as [(_ & _ & _ & Q)|C]; [left; exact Q|right; left; exact C]. }
  assert (G : (v1 = v2 -> sr_value resp1 = sr_value resp2) \/ broken f nhs T) by (destruct V as [V|[V|V]]; [left; intro; contradiction|left; auto|auto]).
  destruct G as [G|B]; [|auto]. left. exists v1, v2. split; [exact A1|]. split; [exact B1|]. split; [exact G|]. intro E2. destruct (B6 E2) as [N2 Fo2]. split.
  - intros ->. congruence.
  - intro E1. destruct (A6 E1) as [_ Fo1]. assert (Le : (Z.of_N v1 <= GuardProofs.found (holdsAt (sq_label req2) k2))%Z); [|lia].
    assert (exists ladder, searchBinaryLadder v1 v1 [] [] = Ok ladder) as (ladder & L1).
    { destruct F1 as (_ & _ & _ & _ & ch & vr & ps & rs & rt & Ck & _). unfold checkSearch in Ck. apply bind_ok in Ck as (v & _ & Ck). apply bind_ok in Ck as (tg & Et & Ck). apply bind_ok in Ck as (u & _ & Ck). apply bind_ok in Ck as (ladder & Ela & _).
      rewrite A1 in Et. injection Et as <-. eauto. }
    destruct (found_compare (holdsAt (sq_label req2) k1) v1 ladder A2 L1) as (C1 & _). destruct (found_compare (holdsAt (sq_label req2) k2) v1 ladder A2 L1) as (_ & C2 & _).
    apply C2. intros w Iw Lw. apply (holdsAt_mono _ k1); try lia. rewrite (C1 Fo1 w Iw). lia.
Qed.

Lemma owner_agrees known l ko d g now lv k state req resp : 1 <= k <= lenN es -> d < ko -> ko <= lenN es -> settledAt vrf l known (soFar ko trees) d g -> sq_label req = l ->
  foundIn H hs c now vrfVerify lv vrf (soFar k es) (soFar k leaves) state req resp ->
  (exists v com, searchedVersion req resp = Ok v /\ labelCommitment H (sr_opening resp) l v (sr_value resp) = Ok com /\
    (forall gv ladder, g = Z.of_N gv -> searchBinaryLadder gv gv [] [] = Ok ladder -> In v ladder -> v <= gv -> known v com) /\
    (sq_version req = None -> d < k -> (g <= Z.of_N v)%Z) /\
    (k <= d + 1 -> (-1 <= g)%Z -> Z.of_N v <> (g + 1)%Z)) \/ broken f nhs T.
Proof.
  intros Hk Hd Hko (S1 & S2) El F. subst l. destruct (search_log _ _ k _ _ _ Hk F) as [(v & com & t & A1 & A2 & A3 & A4 & A5 & A6)|B]; [left|auto].
  exists v, com. split; [exact A1|]. split; [exact A3|]. destruct (tree_at _ _ _ _ _ _ _ HL d ltac:(lia)) as (td & Qd). assert (Qd' : nth_error (soFar ko trees) (N.to_nat d) = Some td) by (apply nth_soFar; [exact Qd|lia]).
  split; [|split].
  - intros gv ladder Eg L1 Iv Lv. destruct (S2 gv Eg) as (ladder' & L2 & _ & K). rewrite L1 in L2. injection L2 as <-. destruct (K v Iv Lv) as (com' & Kn & Kt). destruct (Kt d td Qd') as [Kd _]. specialize (Kd ltac:(lia)).
    destruct (held_same _ _ _ _ _ _ _ HL vrf (sq_label req) _ _ td t v com' Qd A4 Kd) as [X|X]; [congruence|]. rewrite A5 in X. injection X as ->. exact Kn.
  - intros Ev Lk. destruct (A6 Ev) as [_ Fo]. destruct (Z.lt_ge_cases g 0) as [Lg|Lg]; [lia|]. destruct (S2 (Z.to_N g) ltac:(lia)) as (ladder & L1 & Ig & K).
    assert (Sg : Z.to_N g < 2 ^ 32). { apply search_small in L1. change (2 ^ 31) with 2147483648 in L1. change (2 ^ 32) with 4294967296. lia. }
    destruct (found_compare (holdsAt (sq_label req) k) (Z.to_N g) ladder Sg L1) as (_ & C2 & _). rewrite Fo in C2. rewrite <- (Z2N.id g Lg). apply C2. intros w Iw Lw. destruct (K w Iw Lw) as (com' & _ & Kt).
    destruct (Kt d td Qd') as [Kd _]. specialize (Kd ltac:(lia)). unfold holdsAt. rewrite A4. rewrite (held_later _ _ _ _ _ _ _ HL vrf (sq_label req) (N.to_nat d) (N.to_nat (k - 1)) td t w com' ltac:(lia) Qd A4 Kd). reflexivity.
  - intros Lk Gg Ev. assert (v = Z.to_N (g + 1)) as -> by lia. assert (Qk : nth_error (soFar ko trees) (N.to_nat (k - 1)) = Some t) by (apply nth_soFar; [exact A4|lia]). rewrite (S1 (k - 1) t ltac:(lia) Qk) in A5. discriminate.
Qed.
End Agree.
