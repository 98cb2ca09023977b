(** Soundness of the checks of a search, for any client and any tree head. *)
From Verif Require Import Base BaseProofs LogMathSpec LogMathProofs2 LogTreeModel LogTreeSpec LogTreeProofs LogTreeProofs3 LogVerifyProofs2 LogChunkProofs7 TransMathModel TransMathSpec TransMathProofs2 LaddersModel PrefixModel PrefixSpec PrefixHistProofs
  CodecModel CodecSpec CodecProofs CodecProofs3 AlgModel HandleModel HandleProofs StoreModel CommitModel CommitProofs MutateModel MutateSpec MutateProofs5 ServerModel ClientModel ClientProofs ClientProofs2 ClientSpec SearchProofs SearchProofs2 SearchProofs3
  SoundSpec AcceptProofs SoundProofs SoundProofs2 SoundProofs3.
Open Scope N_scope.
Local Open Scope list_scope.

Section Any.
Variable f : bytes -> bytes.
Variable hs : N.
Hypothesis Hf : forall x, lenN (f x) = hs.
Hypothesis Hhs : 0 < hs <= 32.
Variable c : pubConfig.
Hypothesis Hc : pc_hs c = N.to_nat hs.
Variable vrf : bytes -> bytes * bytes.
Variable Ls : list bytes.
Hypothesis HV : vrfGood hs vrf Ls.
Variable sign : bytes -> res bytes.
Variable vrfVerify : bytes -> bytes -> option bytes.
Hypothesis Hvrf : vrfVerifies vrf vrfVerify.
Variable leafVerify : bytes -> bytes -> bool.
Variable now : N.
Local Notation valid := (fun tbs sg : bytes => sign tbs = Ok sg).
Local Notation nhs := (N.to_nat hs).

(** What is in the log is what the tree has stored. *)
Lemma logOf_entries t E es : treeOf f hs vrf Ls c valid t E -> logOf t es -> lenN es <= lenN (entriesOf E) -> Forall (fun e => le_ts e < two64) es ->
  firstn (N.to_nat (lenN es)) (entriesOf E) = es.
Proof.
  intros (HD & Hd & _) Lo Hk Ts. symmetry.
  apply nth_ext with (d := {| le_ts := 0; le_root := [] |}) (d' := {| le_ts := 0; le_root := [] |}).
  - rewrite firstn_length. unfold lenN in *. lia.
  - intros i Hi. assert (Hi2 : (i < List.length (entriesOf E))%nat) by (unfold lenN in *; lia).
    destruct (nth_error es i) as [e|] eqn:E1; [|apply nth_error_None in E1; lia].
    destruct (nth_error (entriesOf E) i) as [e'|] eqn:E2; [|apply nth_error_None in E2; lia].
    rewrite (nth_error_nth _ _ _ E1). symmetry. apply nth_error_nth. rewrite nth_firstn by (unfold lenN; lia). rewrite E2. f_equal.
    destruct (Lo (N.of_nat i) e) as (raw & M1 & G1); [now rewrite Nat2N.id|].
    destruct (ds_entries _ _ _ _ _ _ HD (N.of_nat i) e') as (_ & T2 & raw' & M2 & G2); [now rewrite Nat2N.id|].
    rewrite Hd, G2 in G1. injection G1 as <-. symmetry. apply (logEntry_inj e e' raw'); auto.
    apply nth_error_In in E1. rewrite Forall_forall in Ts. exact (Ts e E1).
Qed.

Lemma ev_prefix_roots (leaves : list bytes) : ev f (fun H => forall k, In k (seq 1 (List.length leaves)) -> forall w, Mth (full f) (firstn k leaves) w -> Mth H (firstn k leaves) w).
Proof.
  apply ev_all. intros k Ik. apply in_seq in Ik. destruct (Mth_total (full f)) with (L := firstn k leaves) as (w & Mw).
  - intro x. eexists. reflexivity.
  - destruct leaves; [cbn in Ik; lia|]. destruct k; [lia|]. discriminate.
  - eapply ev_map; [|exact (ev_Mth f _ _ Mw)]. cbn beta. intros H M w' Mw'. rewrite (Mth_fun (full f) _ _ _ Mw' Mw). exact M.
Qed.

Lemma check_view T state req resp v3 ver pos m : checkSearch (restrict f T) hs c now vrfVerify leafVerify state req resp = Ok (v3, ver, pos) -> v_m v3 = Some m -> m <= v_n v3.
Proof.
  unfold checkSearch. intros E Em.
  apply bind_ok in E. destruct E as (v & E0 & E). apply bind_ok in E. destruct E as (target & Et & E). apply bind_ok in E. destruct E as (u & _ & E).
  apply bind_ok in E. destruct E as (ladder & Ela & E). apply bind_ok in E. destruct E as (com & Ec & E). apply bind_ok in E. destruct E as (v1 & Epl & E).
  apply bind_ok in E. destruct E as ([u2 v2] & Euv & E). apply bind_ok in E. destruct E as ([terminal v3'] & Es & E). injection E as -> -> _.
  pose proof (execV_same _ _ _ _ _ _ Euv) as (A1 & A2 & A3 & A4 & A5). pose proof (execV_same _ _ _ _ _ _ Es) as (B1 & B2 & B3 & B4 & B5).
  rewrite B3, A3. eapply updateView_needs; [|exact Euv]. congruence.
Qed.

Variable sigVerify : bytes -> bytes -> bool.

Lemma checks_sound t rs l state : runs (full f) hs c vrf sign Ls t rs -> rs <> [] -> In l Ls -> Forall (fun r => ~ In l (rq_remove r)) rs ->
  Forall (fun p => size (pc_openSize c) (pv_opening p)) (labelsNow rs l) -> match state with Some st => hasSeen f t (lenN rs) st | None => True end ->
  onlyHeadsOf f c t (lenN rs) sigVerify ->
  exists T0, forall T, incl T0 T -> forall req resp checked v pos result root,
  sq_label req = l -> sq_last req = getLast state -> okSearchRequest req -> okSearchResponse c (sq_version req) resp -> noAliases (restrict f T) vrf req resp ->
  checkSearch (restrict f T) hs c now vrfVerify leafVerify state req resp = Ok (checked, v, pos) ->
  dpFinish (restrict f T) hs (v_d checked) (v_n checked) (v_nP checked) (v_m checked) = Ok result -> logRoot (restrict f T) hs (v_n checked) (pr_subtrees result) = Ok root ->
  (match fth_head (sr_head resp) with Some th => exists tbs, treeHeadTBS c (v_n checked) root = Ok tbs /\ sigVerify tbs (th_sig th) = true | None => True end) ->
  let published := labelsNow (firstn (N.to_nat (v_n checked)) rs) l in
  (exists p, nth_error published (N.to_nat v) = Some p /\ sr_value resp = pv_value p /\ (sq_version req = None -> lenN published = v + 1)) \/ broken f nhs T.
Proof.
  intros R NE Hl Fr Op Hs Sg.
  destruct (run_describes f hs Hf Hhs c vrf Ls HV sign valid (fun _ _ H => H) t rs R) as (E & Tr & Q1 & Q2). destruct (labelsNow_last _ _ Q1) as [A B].
  destruct (entries_hashed f hs c vrf Ls sign t E Tr) as (leaves & FL).
  assert (Ln : lenN rs = lenN (entriesOf E)) by (rewrite B; unfold lenN, entriesOf; now rewrite map_length).
  assert (Lv : lenN leaves = lenN rs) by (rewrite Ln; symmetry; exact (LogTreeProofs.Forall2_len _ _ _ FL)).
  pose proof Tr as (HD & _). pose proof (ds_size _ _ _ _ _ _ HD) as Sz.
  (* the state *)
  assert (St : match state with Some st => exists k, 1 <= k <= lenN rs /\ th_size (cs_head st) = k /\ FullValues (full f) (firstn (N.to_nat k) leaves) k (cs_subtrees st) /\
                 forall x e, In (x, e) (cs_entries st) -> nth_error (firstn (N.to_nat k) (entriesOf E)) (N.to_nat x) = Some e | None => True end).
  { destruct state as [st|]; [|exact I]. rewrite Ln in Hs. destruct (seen_genuine f hs Hhs c vrf Ls sign t E st Tr Hs) as (k & h & Hk & Sf). rewrite <- Ln in Hk.
    assert (Le : lenN (firstn (N.to_nat k) (entriesOf E)) = k) by (unfold lenN in *; rewrite firstn_length; lia).
    destruct Sf as (Th & Ch & (lv' & F' & FV) & front & Ef & Een). rewrite Le in Th, FV, Ef.
    pose proof (hashes_fun f _ _ _ F' (Forall2_firstn _ _ _ FL (N.to_nat k))) as ->.
    exists k. split; [exact Hk|]. split; [now rewrite Ch|]. split; [exact FV|].
    intros x e Ix. rewrite Een in Ix. apply in_map_iff in Ix. destruct Ix as (y & Qy & Iy). injection Qy as -> <-. apply nth_error_nth'.
    pose proof (frontier_bound k front x ltac:(lia) Ef Iy) as Lx. unfold lenN in Le. lia. }
  assert (EvS : ev f (fun H => match state with Some st => FullValues H (firstn (N.to_nat (th_size (cs_head st))) leaves) (th_size (cs_head st)) (cs_subtrees st) | None => True end)).
  { destruct state as [st|]; [|apply ev_always; auto]. destruct St as (k & _ & -> & FV & _). exact (ev_FullValues f _ _ _ FV). }
  destruct (ev_and f _ _ (entries_hold f hs Hf Hhs c Hc vrf Ls sign leafVerify t rs E l Tr Q1 Hl Fr) (ev_and f _ _ (ev_leaves f _ _ FL) (ev_and f _ _ EvS (ev_prefix_roots leaves)))) as (T0 & HT).
  exists T0. intros T I req resp checked v pos result root Rl Rla Rq Rs NA Ck Ed Er Sh. destruct (HT T I) as (G1 & G2 & G3 & G4). cbn beta in G1, G2, G3, G4.
  destruct (check_fields f hs c vrfVerify leafVerify now T state req resp checked v pos Ck) as (S1 & S2 & S3 & S4 & S5 & S6).
  assert (K : 1 <= v_n checked <= lenN rs /\ Mth (restrict f T) (firstn (N.to_nat (v_n checked)) leaves) root).
  { destruct (fth_head (sr_head resp)) as [th|] eqn:Eh.
    - destruct Sh as (tbs & Tb & Sv). assert (U : u64ok (v_n checked)). { destruct Rs as (O1 & _). rewrite S5. unfold okFullTreeHead in O1. rewrite Eh in O1. destruct (fth_auditor (sr_head resp)); unfold okTreeHead in O1; tauto. }
      destruct (Sg _ _ _ _ U Tb Sv) as (Hn & es & lv & L1 & L2 & L3 & L4 & L5). split; [exact Hn|].
      pose proof (logOf_entries t E es Tr L1 ltac:(lia) L3) as Qe. rewrite L2 in Qe. rewrite <- Qe in L4.
      rewrite (hashes_fun f _ _ _ L4 (Forall2_firstn _ _ _ FL (N.to_nat (v_n checked)))) in L5. apply G4; [|exact L5].
      apply in_seq. unfold lenN in *. lia.
    - destruct (sq_last req) as [m|] eqn:El; [|contradiction]. destruct state as [st|]; [|discriminate Rla]. destruct St as (k & Hk & Th & _ & _).
      change (Some m = Some (th_size (cs_head st))) in Rla. injection Rla as ->. rewrite Th in *. split; [lia|].
      rewrite S5, S3 in Ed. pose proof (finish_subtrees f hs Hhs c Hc T _ _ _ _ Ed) as Qs. rewrite S5, Qs, (S6 st eq_refl) in Er. rewrite S5.
      assert (Ll : lenN (firstn (N.to_nat k) leaves) = k) by (unfold lenN in *; rewrite firstn_length; lia).
      apply (logRoot_spec (restrict f T) hs (restrict_sized f hs T Hf) ltac:(lia)) with (fs := cs_subtrees st).
      + rewrite Ll. unfold LogMathProofs.two63. lia.
      + apply Forall_firstn3. eapply leaf_sizes; eassumption.
      + rewrite Ll. exact G3.
      + rewrite Ll. exact Er. }
  destruct K as [Kn Km]. cbn zeta.
  eapply (sound_at f hs Hf Hhs c Hc vrf Ls sign vrfVerify Hvrf leafVerify now T t rs E l leaves (v_n checked) state); eauto.
  - destruct state as [st|]; [|exact Logic.I]. destruct St as (k & Hk & Th & _ & Se). intros x e Ix. specialize (Se x e Ix). apply nth_firstn_some in Se. destruct Se as [Se Lx].
    assert (k <= v_n checked). { rewrite Rla in S3. change (v_m checked = Some (th_size (cs_head st))) in S3. rewrite Th in S3. exact (check_view _ _ _ _ _ _ _ _ Ck S3). }
    rewrite nth_firstn by lia. exact Se.
  - destruct (v_m checked) as [m|] eqn:Em; [|exact Logic.I]. exact (check_view _ _ _ _ _ _ _ _ Ck Em).
Qed.
End Any.
