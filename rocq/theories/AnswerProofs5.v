(** Owner monitoring of an honest log by an owner who knows only the first versions of their label; which requests for it the server answers. *)
From Coq Require Import Sorted Permutation.
From Verif Require Import Base BaseProofs LogMathModel LogMathSpec NodeMathProofs LogMathProofs LogTreeModel LogTreeSpec PrefixModel PrefixSpec TransMathModel TransMathSpec TransMathProofs TransMathProofs2 LaddersModel LaddersProofs
  CodecModel CodecSpec AlgModel AlgSpec AlgProofs AlgProofs2 AlgProofs3 AlgProofs4 WatchSpec WatchProofs WatchProofs2.
Open Scope N_scope.
Local Open Scope list_scope.

Section Honest.
Variable c : pubConfig.
Variable L : hlog.
Hypothesis HL : okLog L.
Let HT : okTimes L := okLog_times L HL.
Local Notation n := (h_n L).
Local Notation ts := (h_ts L).
Local Notation g := (h_g L).
Local Notation w := (pc_rmw c).
Local Notation expired x := (isExpired (pc_maxLife c) (ts x) (ts (n - 1)) = true).
Local Notation fresh x := (isExpired (pc_maxLife c) (ts x) (ts (n - 1)) = false).


Section Owner.
Variable hist : list N.
Hypothesis Hs : StronglySorted N.le hist.

Lemma rec_honest fuel : forall os a len left right s,
  SRange n a len -> tracks hist os -> N.log2 len < N.of_nat fuel ->
  (forall y, a <= y < a + len -> left <= ts y <= right) -> right < two64 ->
  (forall d, DIn ts w a len left right d -> os_starting os < d -> (expected hist d <= g d)%Z) ->
  exists os' s', runs (honest L) (ownerMonitor_rec c fuel n os (sroot a len) left right) s (Ok os') s' noQ /\
    tracks hist os' /\ os_starting os <= os_starting os' /\ (os_starting os' = os_starting os \/ a <= os_starting os' < a + len).
Proof.
  pose proof (w_n L HT) as Hn.
  induction fuel as [|f IH]; intros os a len left right s R T Hf B H64 G; [lia|].
  cbn [ownerMonitor_rec].
  destruct (nav_len n a len Hn R) as (L1 & L2 & L3).
  assert (Hx : a <= sroot a len < a + len) by (unfold sroot; lia).
  pose proof (B _ Hx) as Bx.
  destruct (isDistinguished w left right) eqn:ED; cbn [negb].
  2:{ exists os, s. split; [apply runs_ret|]. split; [exact T|]. lia. }
  apply isDist_spec in ED; [|lia|auto].
  assert (GR : forall os1 s1, lsize len + 1 < len -> tracks hist os1 -> os_starting os <= os_starting os1 ->
    (os_starting os1 = os_starting os \/ a <= os_starting os1 < a + len) ->
    exists os' s', runs (honest L) (do* timestamp := getTs (sroot a len) in do* x' := lift (tright (sroot a len) n) in ownerMonitor_rec c f n os1 x' timestamp right) s1 (Ok os') s' noQ /\
    tracks hist os' /\ os_starting os <= os_starting os' /\ (os_starting os' = os_starting os \/ a <= os_starting os' < a + len)).
  { intros os1 s1 Hr T1 S1 S2. destruct (IH os1 (sroot a len + 1) (len - lsize len - 1) (ts (sroot a len)) right s1) as (os' & s' & A1 & A2 & A3 & A4); auto.
    - constructor; auto.
    - pose proof (rsize_log len Hr). lia.
    - intros y Hy. unfold sroot in *. split; [apply (w_mono L HT); lia|apply B; lia].
    - intros d D Hd. apply G; [apply DI_right; auto|lia].
    - exists os', s'. split; [|split; [exact A2|unfold sroot in *; lia]].
      eapply runs_bind; [apply runs_getTs'; lia|]. eapply runs_bind; [apply runs_lift, (nav_right n a len Hn R Hr)|exact A1]. }
  destruct (N.leb_spec (sroot a len) (os_starting os)) as [Hst|Hst].
  - rewrite (nav_noRight n a len Hn R). destruct (N.eqb_spec len (lsize len + 1)) as [El|El].
    + exists os, s. split; [apply runs_ret|]. split; [exact T|]. lia.
    + apply GR; auto; lia.
  - assert (G1 : exists os1 s1, runs (honest L) (if hasLeftChild (sroot a len) then do* timestamp := getTs (sroot a len) in do* x' := lift (tleft (sroot a len)) in ownerMonitor_rec c f n os x' left timestamp else Ret os) s (Ok os1) s1 noQ /\
      tracks hist os1 /\ os_starting os <= os_starting os1 /\ (os_starting os1 = os_starting os \/ a <= os_starting os1 < a + lsize len)).
    { unfold hasLeftChild. rewrite (nav_noLeft n a len Hn R). destruct (N.eqb_spec (lsize len) 0) as [El|El]; cbn [negb].
      - exists os, s. split; [apply runs_ret|]. split; [exact T|]. lia.
      - assert (Hl : 0 < lsize len) by lia.
        destruct (IH os a (lsize len) left (ts (sroot a len)) s) as (os' & s' & A1 & A2 & A3 & A4); auto.
        + constructor; auto.
        + pose proof (lsize_log len Hl). lia.
        + intros y Hy. unfold sroot in *. split; [apply B; lia|apply (w_mono L HT); lia].
        + apply (w_64 L HT). lia.
        + intros d D Hd. apply G; [apply DI_left; auto|lia].
        + exists os', s'. split; [|auto]. eapply runs_bind; [apply runs_getTs'; lia|]. eapply runs_bind; [apply runs_lift, (nav_left n a len Hn R Hl)|exact A1]. }
    destruct G1 as (os1 & s1 & R1 & T1 & S1 & S1').
    assert (Eat : greatestVersionAt os1 (sroot a len) = Ok (expected hist (sroot a len))).
    { apply (tracks_at hist os1 (sroot a len) Hs T1); unfold two64, sroot in *; lia. }
    assert (Eg : (expected hist (sroot a len) <= g (sroot a len))%Z) by (apply G; [constructor; exact ED|lia]).
    set (b := pStop (honest L) s1 (sroot a len) (expected hist (sroot a len))).
    assert (Rs : runs (honest L) (stopCond (sroot a len) (expected hist (sroot a len))) s1 (Ok b) s1 noQ).
    { exists [EvStop (sroot a len) (expected hist (sroot a len)) b]. split; [reflexivity|repeat constructor]. }
    assert (Hend : exists os' s', runs (honest L) (if b then Ret os1 else
        do* _ := expectLadder (sroot a len) (expected hist (sroot a len)) false in
        do* os2 := lift (setStarting os1 (sroot a len)) in
        if noRightChild (sroot a len) n then Ret os2 else
        do* timestamp := getTs (sroot a len) in
        do* x' := lift (tright (sroot a len) n) in
        ownerMonitor_rec c f n os2 x' timestamp right) s1 (Ok os') s' noQ /\
      tracks hist os' /\ os_starting os <= os_starting os' /\ (os_starting os' = os_starting os \/ a <= os_starting os' < a + len)).
    { assert (Hb : b = false -> g (sroot a len) = expected hist (sroot a len)).
      { unfold b. cbn [honest pStop]. intro E0. apply orb_false_iff in E0 as [_ E0]. apply Z.ltb_ge in E0. lia. }
      clearbody b. destruct b.
      - exists os1, s1. split; [apply runs_ret|]. split; [exact T1|]. lia.
      - destruct (expect_honest L HL (sroot a len) _ false s1 ltac:(lia) (Hb eq_refl)) as (s2 & R2).
        destruct (tracks_set hist os1 (sroot a len) Hs T1) as (os2 & E2 & S2 & T2); [unfold sroot in *; lia|unfold two64, sroot in *; lia|].
        rewrite (nav_noRight n a len Hn R). destruct (N.eqb_spec len (lsize len + 1)) as [El|El].
        + exists os2, s2. split; [eapply runs_bind; [exact R2|]; eapply runs_bind; [apply runs_lift, E2|]; apply runs_ret|]. split; [exact T2|]. lia.
        + destruct (GR os2 s2) as (os' & s' & A1 & A2); [lia|exact T2|lia|lia|].
          exists os', s'. split; [eapply runs_bind; [exact R2|]; eapply runs_bind; [apply runs_lift, E2|]; exact A1|exact A2]. }
    destruct Hend as (os' & s' & R3 & A). exists os', s'. split; [|exact A].
    eapply runs_bind; [exact R1|]. eapply runs_bind; [apply runs_lift, Eat|]. eapply runs_bind; [exact Rs|]. exact R3.
Qed.

Lemma owner_ends m os s : watches m L -> mo_owner m = Some os -> tracks hist os ->
  (forall d, distinguished n ts w d -> os_starting os < d -> (expected hist d <= g d)%Z) ->
  exists m', result (run (honest L) (ownerMonitor c m) s) = Ok (inr tt, m').
Proof.
  pose proof (w_n L HT) as Hn. intros (Em & Er) Eo T G. unfold ownerMonitor. rewrite Eo, run_catch, Em, Er. destruct (c09_entries n Hn) as (-> & _).
  destruct (rec_honest 66 os 0 n 0 (ts (n - 1)) s) as (os' & s' & (l & E & _) & _); auto.
  - constructor.
  - pose proof (log_fuel n 0 n Hn (SR_root _)). lia.
  - intros y Hy. split; [lia|]. apply (w_mono L HT). lia.
  - apply (w_64 L HT). lia.
  - rewrite run_bind, E. cbn. eexists. reflexivity.
Qed.
End Owner.
End Honest.
