(** Honest runs that both sides can follow: updates and owner monitoring. *)
From Coq Require Import Sorted.
From Verif Require Import Base BaseProofs LogMathModel NodeMathProofs LogMathProofs TransMathModel TransMathSpec TransMathProofs TransMathProofs2 LogTreeModel LogTreeSpec PrefixModel PrefixSpec LaddersModel LaddersProofs CodecModel AlgModel AlgSpec AlgProofs AlgProofs2 AlgProofs3 AlgProofs4 HandleModel HandleSpec HandleProofs HandleProofs2 HandleProofs4 HandleProofs5.
Open Scope N_scope.

Section Upd.
Variable L : hlog.
Hypothesis HL : okLog L.
Local Notation nn := (h_n L).
Local Notation ts := (h_ts L).
Local Notation g := (h_g L).
Variable c : pubConfig.
Hypothesis Hn : 1 <= nn < 2 ^ 64.

Local Notation pre := (pre L).

(** ** Updates *)

(** The tracker only knows about entries up to [b], and only about versions up to [G]. *)
Definition upTo (G : Z) (b : N) (tr : tracker) : Prop :=
  (forall y vs, In (y, vs) (tr_inc tr) -> y <= b /\ Forall (fun w => (Z.of_N w <= G)%Z) vs) /\
  (forall y vs, In (y, vs) (tr_non tr) -> y <= b).

Lemma upTo_mono G b b' tr : upTo G b tr -> b <= b' -> upTo G b' tr.
Proof.
  intros (A & B) H. split; intros y vs I.
  - destruct (A y vs I). split; auto. lia.
  - specialize (B y vs I). lia.
Qed.

Lemma upTo_add G b tr x g' l : upTo G b tr -> b <= x -> (g' <= G)%Z -> upTo G x (addLadder tr x true g' l).
Proof.
  intros U H Hg. apply (upTo_mono _ _ x) in U; auto. destruct U as (A & B). cbn.
  split; intros y vs I; cbn in I; apply in_app_iff in I; destruct I as [I|[[= <- <-]|[]]]; auto.
  - split; [lia|]. apply Forall_forall. intros w I. apply filter_In in I. lia.
  - eauto.
  - lia.
Qed.

Lemma upTo_usable G b tr x v : upTo G b tr -> b <= x -> (G <= Z.of_N v)%Z -> (G <= g x)%Z -> usable L tr x v true.
Proof.
  intros (A & B) H Hv Hg. split; intros w I.
  - apply in_searchMaps_l in I. destruct I as (y & vs & I & Lt & Iw). destruct (A y vs I) as (Hy & F).
    rewrite Forall_forall in F. specialize (F w Iw). lia.
  - apply in_searchMaps_r in I. destruct I as (y & vs & I & Lt & Iw). specialize (B y vs I). lia.
Qed.

Lemma pre_nonDist_loop target fuel tr : forall a len l r, SRange nn a len -> a <= target < a + len ->
  pre (nonDist_loop c fuel nn target (sroot a len) l r) tr
    (fun o tr' => tr' = tr /\ forall x, o = Some x -> exists a' len', x = sroot a' len' /\ SRange nn a' len' /\ a' <= target < a' + len').
Proof.
  induction fuel as [|f IH]; intros a len l r R Ht; [exact I|]. cbn [nonDist_loop].
  destruct (negb _); [cbn; split; auto; intros x E; injection E as <-; eauto|]. destruct (N.eqb_spec (sroot a len) target); [cbn; split; auto; discriminate|].
  apply pre_bind, pre_ts; [apply (nav_lt nn a len Hn R)|]. destruct (N.ltb_spec (sroot a len) target).
  - assert (Hr : lsize len + 1 < len) by (unfold sroot in *; lia). apply pre_bind, pre_lift. intros x'. rewrite (nav_right nn a len Hn R Hr). intros [= <-].
    apply IH; [constructor; auto|unfold sroot in *; lia].
  - assert (Hl : 0 < lsize len) by (unfold sroot in *; lia). apply pre_bind, pre_lift. intros x'. rewrite (nav_left nn a len Hn R Hl). intros [= <-].
    apply IH; [constructor; auto|unfold sroot in *; lia].
Qed.

Lemma pre_nonDist m target tr : mo_size m = nn -> target < nn ->
  pre (nonDistinguishedAncestor c m target) tr
    (fun o tr' => tr' = tr /\ forall x, o = Some x -> exists a' len', x = sroot a' len' /\ SRange nn a' len' /\ a' <= target < a' + len').
Proof.
  intros Em Ht. unfold nonDistinguishedAncestor. rewrite Em. rewrite sub1_64 by auto. apply pre_bind, pre_ts; [lia|]. destruct (c09_entries _ Hn) as (-> & _).
  apply pre_nonDist_loop; [constructor|lia].
Qed.

Lemma pre_expect x (G : Z) b tr : x < nn -> g x = G -> upTo G b tr -> b <= x ->
  pre (expectLadder x G true) tr (fun _ tr' => upTo G x tr').
Proof.
  intros Hx Eg U Hb. destruct HL as (_ & _ & _ & _ & Bd). specialize (Bd x Hx). unfold expectLadder.
  destruct (Z.ltb_spec G 0) as [Hneg|Hpos]; apply pre_bind; cbn [getLadder HandleProofs5.pre].
  - split; [exact Hx|]. split; [reflexivity|]. split; [apply (upTo_usable G b); auto; lia|]. destruct (negb _); [exact I|]. cbn.
    rewrite Eg. apply (upTo_add G b); auto. lia.
  - assert (Z.of_N (toU32 G) = G) by (apply toU32_id; lia).
    split; [exact Hx|]. split; [lia|]. split; [apply (upTo_usable G b); auto; lia|]. destruct (negb _); [exact I|]. cbn.
    rewrite Eg. apply (upTo_add G b); auto. lia.
Qed.

Lemma pre_previousTree_loop pos lu G (Hp : 1 <= pos < 2 ^ 64) fuel : pos <= nn -> (forall x, lu < x < pos -> g x = G) -> forall a len b tr,
  SRange pos a len -> a + len = pos -> upTo G b tr -> b <= sroot a len ->
  pre (previousTree_loop fuel pos lu G (sroot a len)) tr (fun _ tr' => upTo G (pos - 1) tr').
Proof.
  intros Hpn HG. induction fuel as [|f IH]; intros a len b tr R E U Hb; [exact I|]. cbn [previousTree_loop].
  pose proof (nav_lt pos a len Hp R) as Hx. pose proof (nav_len pos a len Hp R) as (L1 & L2 & L3).
  apply pre_bind. apply (pre_mono _ _ _ (fun _ tr' => upTo G (sroot a len) tr')).
  - destruct (N.leb_spec (sroot a len) lu).
    + cbn. apply (upTo_mono _ b); auto.
    + apply (pre_expect _ G b); auto; try lia; try (apply HG; lia).
  - cbn beta. intros _ t U'. rewrite sub1_64 by auto.
    destruct (N.eqb_spec (sroot a len) (pos - 1)) as [E1|E1]; [cbn; now rewrite <- E1|].
    assert (Hr : lsize len + 1 < len) by (unfold sroot in *; lia). apply pre_bind, pre_lift. intros x'. rewrite (nav_right pos a len Hp R Hr). intros [= <-].
    apply (IH _ _ (sroot a len)); [constructor; auto|unfold sroot in *; lia|exact U'|unfold sroot; lia].
Qed.

Lemma greatestAt_le os x z : greatestVersionAt os x = Ok z -> (z <= greatestVersion os)%Z.
Proof.
  unfold greatestVersionAt. destruct (bsearch_ok (os_upcoming os) (add64 x 1)) as (k & -> & Hk). cbn. intros [= <-]. unfold greatestVersion. lia.
Qed.

Lemma upTo0 G : upTo G 0 tracker0.
Proof. split; intros y vs []. Qed.

Lemma pre_verifyPrevious m os pos : mo_size m = nn -> pos < nn -> (forall x, lastUpdate os < x < pos -> g x = greatestVersion os) ->
  pre (verifyPreviousTree c m os pos) tracker0 (fun _ tr' => upTo (greatestVersion os) pos tr').
Proof.
  intros Em Hpn HG. unfold verifyPreviousTree. destruct (N.eqb_spec pos 0) as [|Hp0]; [exact I|]. assert (Hp : 1 <= pos < 2 ^ 64) by lia. rewrite sub1_64 by auto.
  apply pre_bind. eapply pre_mono; [apply pre_nonDist; auto; lia|]. cbn beta. intros [x|] tr (-> & Hx).
  2:{ cbn. apply (upTo_mono _ 0); [apply upTo0|lia]. }
  destruct (Hx x eq_refl) as (a0 & len0 & -> & R0 & Ht0).
  destruct (leftUntil_ok nn (pos - 1) Hn 66 a0 len0 R0 Ht0) as (a & len & El & R & Ha & Ht).
  { pose proof (log_fuel _ a0 len0 Hn R0). lia. }
  rewrite El. cbn [lift pbind].
  assert (Rp : SRange pos a (pos - a)) by (apply (SRange_shrink nn Hn a len R pos); unfold sroot in *; lia).
  assert (ES : sroot a len = sroot a (pos - a)) by (unfold sroot in *; rewrite (lsize_same (pos - a) len); lia).
  rewrite ES. pose proof (nav_lt pos a (pos - a) Hp Rp) as Hxp.
  apply pre_bind. apply (pre_mono _ _ _ (fun _ tr' => upTo (greatestVersion os) (sroot a (pos - a)) tr')).
  - destruct (Z.leb_spec 0 (greatestVersion os)).
    2:{ cbn. apply (upTo_mono _ 0); [apply upTo0|lia]. }
    apply pre_bind, pre_lift. intros ladder _. apply pre_bind.
    apply (pre_mono _ _ _ (fun _ tr' => upTo (greatestVersion os) (sroot a (pos - a)) tr')).
    + destruct (N.eqb_spec (sroot a (pos - a)) (troot pos)) as [|Hne].
      * cbn. apply (upTo_mono _ 0); [apply upTo0|lia].
      * destruct (nav_parent pos a (pos - a) Hp Rp Hne) as (a' & len' & Ep & Rp' & Hcase). rewrite Ep. cbn [lift pbind].
        apply pre_bind, pre_lift. intros z Ez. apply greatestAt_le in Ez. cbn. apply (upTo_mono _ (sroot a' len')).
        -- change (upTo (greatestVersion os) (sroot a' len') (addLadder tracker0 (sroot a' len') true z ladder)).
           apply (upTo_add _ 0); [apply upTo0|lia|exact Ez].
        -- pose proof (nav_lt pos a' len' Hp Rp'). unfold sroot in *. lia.
    + cbn beta. intros _ t U. cbn. apply (upTo_add _ (sroot a (pos - a))); auto; lia.
  - cbn beta. intros _ t U. eapply pre_mono; [apply (pre_previousTree_loop pos (lastUpdate os) (greatestVersion os) Hp 66 ltac:(lia) HG a (pos - a) (sroot a (pos - a)) t Rp)|].
    + lia.
    + exact U.
    + lia.
    + cbn beta. intros _ t' U'. apply (upTo_mono _ (pos - 1)); auto. lia.
Qed.

Lemma nseq_in start len v : In v (nseq start len) -> start <= v < start + N.of_nat len.
Proof. revert start. induction len as [|k IH]; intros start; cbn [nseq In]; [intros []|]. intros [<-|I]; [lia|]. apply IH in I. lia. Qed.

Lemma pre_update m os pos versions : mo_size m = nn -> mo_owner m = Some os -> (-1 <= greatestVersion os)%Z ->
  (forall x, lastUpdate os < x < pos -> g x = greatestVersion os) ->
  (pos < nn -> (g pos = greatestVersion os + versions)%Z) ->
  (List.length (additionalOf os versions) <= 1)%nat ->
  pre (update c m pos versions) tracker0 (fun _ _ => True).
Proof.
  intros Em Eo Hg HG Hpos HA. unfold update. rewrite Eo, Em.
  destruct (N.leb_spec nn pos); [exact I|]. destruct (N.leb_spec pos (lastUpdate os)); [exact I|].
  destruct (Z.ltb_spec versions 1); [exact I|]. destruct (Z.ltb_spec (greatestVersion os + versions) 0); [exact I|]. cbn [orb].
  destruct (_ <=? _)%Z; [exact I|]. specialize (Hpos H).
  destruct HL as (_ & _ & _ & _ & Bd). specialize (Bd pos H). cbn zeta.
  apply pre_bind, pre_lift. intros ladder El. unfold additionalOf in HA. rewrite El in HA. set (additional := filter _ _) in *.
  assert (EV : Z.of_N (toU32 (greatestVersion os + versions)) = (greatestVersion os + versions)%Z) by (apply toU32_id; lia).
  assert (SV : Z.of_N (toU32 (greatestVersion os + 1)) = (greatestVersion os + 1)%Z) by (apply toU32_id; lia).
  assert (HI : additional = [] \/ exists v, additional = [v] /\ (Z.of_N v <= g pos)%Z).
  { destruct additional as [|v [|w l]] eqn:Ea; [now left| |cbn in HA; lia]. right. exists v. split; auto.
    assert (I : In v additional) by (rewrite Ea; now left). unfold additional in I. apply filter_In in I. destruct I as [I _]. apply nseq_in in I. lia. }
  apply pre_bind. eapply pre_mono; [apply pre_verifyPrevious; auto; intros; apply HG; lia|]. cbn beta. intros _ t U.
  apply pre_bind. eapply pre_mono; [apply pre_nonDist; auto|]. cbn beta. intros [x|] t' (-> & _).
  - apply pre_bind, pre_bind. cbn [getLadder HandleProofs5.pre]. split; [exact H|]. split; [lia|]. split; [apply (upTo_usable (greatestVersion os) pos); auto; lia|].
    destruct (negb _); [exact I|]. cbn. auto.
  - cbn. auto.
Qed.

(** ** Owner monitoring *)

Definition stopped (evs : list event) : Prop := exists x v, In (EvStop x v true) evs.
Fixpoint stopsOK (evs : list event) : Prop :=
  match evs with
  | [] => True
  | EvStop _ _ b :: rest => (b = true <-> noProofs rest) /\ stopsOK rest
  | _ :: rest => stopsOK rest
  end.
Definition plain (e : event) : Prop :=
  match e with
  | EvTs x _ => x < nn
  | EvLadder x v o _ => x < nn /\ v < 2 ^ 31 - 1 /\ o = false
  | EvStop x _ _ => x < nn
  | _ => False
  end.

Lemma plain_smooth evs : Forall plain evs -> stopsOK evs -> forall tr, smooth L tr evs.
Proof.
  induction 1 as [|e evs He F IH]; intros S tr; [exact I|]. destruct e; cbn in He; try (exfalso; exact He); cbn in S |- *.
  - split; auto.
  - destruct He as (Hx & Hv & ->). split; auto. split; [exact Hv|]. split; [apply usable_all|]. apply IH. exact S.
  - destruct S. auto.
Qed.

Lemma noProofs_app e1 e2 : noProofs (e1 ++ e2) <-> noProofs e1 /\ noProofs e2.
Proof. unfold noProofs. rewrite forallb_app, andb_true_iff. tauto. Qed.

Lemma stopsOK_app e1 e2 : stopsOK e1 -> stopsOK e2 -> (stopped e1 -> noProofs e2) -> stopsOK (e1 ++ e2).
Proof.
  induction e1 as [|e e1 IH]; intros S1 S2 H; [exact S2|]. cbn [app].
  assert (H' : stopped e1 -> noProofs e2) by (intros (x & v & I); apply H; exists x, v; now right).
  destruct e; cbn in S1 |- *; auto. destruct S1 as [S1 S1']. split; [|auto].
  rewrite noProofs_app. split.
  - intros ->. split; [tauto|]. apply H. exists x, ver. now left.
  - intros [N1 _]. tauto.
Qed.

Lemma stopped_app e1 e2 : stopped (e1 ++ e2) <-> stopped e1 \/ stopped e2.
Proof.
  unfold stopped. split.
  - intros (x & v & I). apply in_app_iff in I. destruct I; [left|right]; eauto.
  - intros [(x & v & I)|(x & v & I)]; exists x, v; apply in_app_iff; auto.
Qed.

Variable hist : list N.
Hypothesis HS : StronglySorted N.le hist.
(** What the owner believes is the beginning of the truth. *)
Definition ver (x : N) : Z := (Z.of_nat (countLe x hist) - 1)%Z.
Hypothesis Hle : forall x, x < nn -> (ver x <= g x)%Z.
Hypothesis Hlt : forall x y, x <= y < nn -> (ver x < g x)%Z -> (ver y < g y)%Z.

Definition stuck (s x : N) : Prop := forall y, x <= y < nn -> (25 <=? s) || (ver y <? g y)%Z = true.

Definition good (s : N) (a b : N) (os : ownerState) (out : res ownerState * N * list event) : Prop :=
  match out with
  | (r, s', evs) => Forall plain evs /\ stopsOK evs /\
      (stuck s a -> noProofs evs /\ s' = s) /\
      match r with
      | Ok os' => tracks hist os' /\ os_starting os <= os_starting os' /\ (os_starting os' = os_starting os \/ os_starting os' < b) /\ (stopped evs -> stuck s' b)
      | _ => True
      end
  end.

Lemma stuck_mono s x y : stuck s x -> x <= y -> stuck s y.
Proof. intros H Hxy z Hz. apply H. lia. Qed.

Lemma run_getTs {B} x (k : N -> prog B) s : x < nn -> run (honest L) (pbind (getTs x) k) s = addEv (EvTs x (Ok (ts x))) (run (honest L) (k (ts x)) s).
Proof. intros Hx. cbn. now rewrite (proj2 (N.ltb_lt _ _) Hx). Qed.

Lemma stuck_any s x : x < nn -> (25 <=? s) || (ver x <? g x)%Z = true -> stuck s x.
Proof.
  intros Hx E y Hy. apply orb_true_iff in E. destruct E as [E|E]; [now rewrite E|]. apply orb_true_iff. right. apply Z.ltb_lt. apply (Hlt x); auto. now apply Z.ltb_lt.
Qed.

Lemma run_expect x s v : x < nn -> v = ver x -> exists r, run (honest L) (expectLadder x v false) s = (r, s + 1, [EvLadder x (if (v <? 0)%Z then 0 else toU32 v) false (Ok (cmp3 (g x) (if (v <? 0)%Z then 0 else toU32 v)))]) /\
  (r = Ok tt \/ exists m, r = Fail m) /\ (if (v <? 0)%Z then 0 else toU32 v) < 2 ^ 31 - 1.
Proof.
  intros Hx ->. destruct HL as (_ & _ & _ & _ & Bd). specialize (Bd x Hx). specialize (Hle x Hx).
  assert (Hx' := proj2 (N.ltb_lt _ _) Hx). unfold expectLadder. destruct (Z.ltb_spec (ver x) 0).
  - rewrite run_bind. cbn [getLadder run honest pLadder]. rewrite Hx'. cbn [addEv andThen run app]. destruct (negb _); cbn [run app]; (eexists; split; [reflexivity|]; split; [eauto|reflexivity]).
  - assert (toU32 (ver x) < 2 ^ 31 - 1) by (apply toU32_small; lia).
    rewrite run_bind. cbn [getLadder run honest pLadder]. rewrite Hx'. cbn [addEv andThen run app]. destruct (negb _); cbn [run app]; (eexists; split; [reflexivity|]; split; [eauto|exact H0]).
Qed.

Lemma good_ret s a b os evs : tracks hist os -> (stopped evs -> stuck s b) -> Forall plain evs -> stopsOK evs -> noProofs evs -> good s a b os (Ok os, s, evs).
Proof. intros T Hs F SO NP. cbn. split; auto. split; auto. split; auto. split; auto. split; [lia|]. auto. Qed.

Lemma om_good fuel : forall os a len l r s, SRange nn a len -> tracks hist os ->
  good s a (a + len) os (run (honest L) (ownerMonitor_rec c fuel nn os (sroot a len) l r) s).
Proof.
  induction fuel as [|f IH]; intros os a len l r s R T.
  { cbn. repeat split; auto. }
  cbn [ownerMonitor_rec]. destruct (negb _).
  { apply good_ret; auto; try constructor. intros (x & v & []). }
  pose proof (nav_lt nn a len Hn R) as Hx. pose proof (nav_len nn a len Hn R) as (L1 & L2 & L3).
  assert (Hxr : a <= sroot a len < a + len) by (unfold sroot; lia).
  assert (H64 : sroot a len < two64 - 1) by (unfold two64; lia).
  destruct (N.leb_spec (sroot a len) (os_starting os)).
  - rewrite (nav_noRight nn a len Hn R). destruct (N.eqb_spec len (lsize len + 1)).
    { apply good_ret; auto; try constructor. intros (x & v & []). }
    rewrite run_getTs by auto. assert (Hr : lsize len + 1 < len) by lia. rewrite (nav_right nn a len Hn R Hr). cbn [lift pbind].
    assert (R' : SRange nn (sroot a len + 1) (len - lsize len - 1)) by (constructor; auto).
    pose proof (IH os _ _ (ts (sroot a len)) r s R' T) as G. destruct (run _ _ s) as [[r1 s1] e1]. cbn in G |- *. destruct G as (G1 & G2 & G3 & G4).
    split; [constructor; auto|]. split; [exact G2|]. split.
    + intros St. apply G3. eapply stuck_mono; [exact St|lia].
    + destruct r1; auto. destruct G4 as (A & B & C & D). replace (sroot a len + 1 + (len - lsize len - 1)) with (a + len) in * by (unfold sroot; lia).
      split; [auto|]. split; [auto|]. split; [auto|]. intros (x & v & [E|I]); [discriminate|]. apply D. now exists x, v.
  - (* the left part *)
    rewrite run_bind.
    assert (GL : good s a (sroot a len) os (run (honest L) (if hasLeftChild (sroot a len) then
                      do* timestamp := getTs (sroot a len) in
                      do* x' := lift (tleft (sroot a len)) in ownerMonitor_rec c f nn os x' l timestamp
                    else Ret os) s)).
    { unfold hasLeftChild. rewrite (nav_noLeft nn a len Hn R). destruct (N.eqb_spec (lsize len) 0); cbn [negb].
      - apply good_ret; auto; try constructor. intros (x & v & []).
      - rewrite run_getTs by auto. assert (Hl : 0 < lsize len) by lia. rewrite (nav_left nn a len Hn R Hl). cbn [lift pbind].
        assert (R' : SRange nn a (lsize len)) by (constructor; auto).
        pose proof (IH os _ _ l (ts (sroot a len)) s R' T) as G. destruct (run _ _ s) as [[r1 s1] e1]. cbn in G |- *. destruct G as (G1 & G2 & G3 & G4).
        split; [constructor; auto|]. split; [exact G2|]. split; [exact G3|].
        destruct r1; auto. destruct G4 as (A & B & C & D). change (a + lsize len) with (sroot a len) in *.
        split; [auto|]. split; [auto|]. split; [auto|]. intros (x & v & [E|I]); [discriminate|]. apply D. now exists x, v. }
    destruct (run (honest L) (if hasLeftChild _ then _ else _) s) as [[r1 s1] e1].
    cbn in GL. destruct GL as (G1 & G2 & G3 & G4). destruct r1 as [os1|m|m|]; cbn [andThen]; [|cbn; auto..].
    destruct G4 as (T1 & Hge & Hst & G5).
    assert (Hst1 : os_starting os1 <= sroot a len) by lia.
    rewrite (tracks_at hist os1 (sroot a len) HS T1 Hst1 H64). cbn [lift pbind].
    change (Z.of_nat (countLe (sroot a len) hist) - 1)%Z with (ver (sroot a len)).
    rewrite run_bind. cbn [stopCond run honest pStop addEv andThen].
    destruct ((25 <=? s1) || (ver (sroot a len) <? g (sroot a len))%Z) eqn:EB.
    + (* stop *)
      cbn [run app]. pose proof (stuck_any _ _ Hx EB) as ST. cbn.
      split; [apply Forall_app; split; [exact G1|constructor; [exact Hx|constructor]]|].
      split; [apply stopsOK_app; [exact G2| |]|].
      * cbn. split; [split; auto|auto].
      * intros _. reflexivity.
      * split; [|split; [exact T1|split; [exact Hge|split]]].
        -- intros St. destruct (G3 St) as [N1 ->]. split; [|reflexivity]. apply noProofs_app. split; [exact N1|reflexivity].
        -- lia.
        -- intros _. eapply stuck_mono; [exact ST|lia].
    + (* go on *)
      destruct (run_expect (sroot a len) s1 (ver (sroot a len)) Hx eq_refl) as (re & Ee & Hre & Hv).
      assert (NS : ~ stopped e1).
      { intros St. specialize (G5 St (sroot a len) ltac:(lia)). congruence. }
      assert (NSt : ~ stuck s a).
      { intros St. destruct (G3 St) as [_ ->]. specialize (St (sroot a len) ltac:(lia)). congruence. }
      cbn [app]. rewrite run_bind, Ee. set (eL := EvLadder _ _ _ _) in *.
      assert (PL : plain eL) by (cbn; auto).
      assert (Stop1 : forall rest, stopsOK rest -> stopsOK (e1 ++ EvStop (sroot a len) (ver (sroot a len)) false :: eL :: rest)).
      { intros rest SR. apply stopsOK_app; [exact G2| |intros St; contradiction]. cbn. split; [|exact SR]. split; [discriminate|]. intros N. exfalso. revert N. now apply not_noProofs. }
      destruct Hre as [->|(m & ->)]; cbn [andThen].
      2:{ cbn. split; [apply Forall_app; split; [exact G1|repeat constructor; auto]|]. split; [now apply Stop1|]. split; [intros; contradiction|auto]. }
      destruct (tracks_set hist os1 (sroot a len) HS T1 Hst1 H64) as (os2 & E2 & S2 & T2). rewrite E2. cbn [lift pbind].
      rewrite (nav_noRight nn a len Hn R). destruct (N.eqb_spec len (lsize len + 1)).
      * cbn [run app]. cbn. split; [apply Forall_app; split; [exact G1|repeat constructor; auto]|]. split; [now apply Stop1|]. split; [intros; contradiction|].
        split; [exact T2|]. split; [lia|]. split; [lia|]. intros St. exfalso. apply stopped_app in St. destruct St as [St|(x & v & [E|[E|[]]])]; [contradiction|discriminate|discriminate].
      * rewrite run_getTs by auto. assert (Hr : lsize len + 1 < len) by lia. rewrite (nav_right nn a len Hn R Hr). cbn [lift pbind].
        assert (R' : SRange nn (sroot a len + 1) (len - lsize len - 1)) by (constructor; auto).
        pose proof (IH os2 _ _ (ts (sroot a len)) r (s1 + 1) R' T2) as G. destruct (run _ _ (s1 + 1)) as [[r3 s3] e3]. cbn in G. destruct G as (K1 & K2 & K3 & K4).
        cbn [addEv app]. cbn. split; [apply Forall_app; split; [exact G1|repeat constructor; auto]|]. split; [now apply Stop1|]. split; [intros; contradiction|].
        destruct r3; auto. destruct K4 as (A & B & C & D). replace (sroot a len + 1 + (len - lsize len - 1)) with (a + len) in * by (unfold sroot; lia).
        split; [exact A|]. split; [lia|]. split; [lia|]. intros St. apply D. apply stopped_app in St. destruct St as [St|(x & v & [E|[E|[E|I]]])]; [contradiction|discriminate|discriminate|discriminate|].
        now exists x, v.
Qed.

Lemma om_smooth m os s : mo_size m = nn -> mo_owner m = Some os -> tracks hist os ->
  exists r s' evs, run (honest L) (ownerMonitor c m) s = (r, s', evs) /\ forall tr, smooth L tr evs.
Proof.
  intros Em Eo T. unfold ownerMonitor. rewrite Eo, Em. rewrite run_catch, run_bind. destruct (c09_entries _ Hn) as (-> & _).
  pose proof (om_good 66 os 0 nn 0 (mo_rightmost m) s (SR_root nn) T) as G.
  destruct (run _ _ s) as [[r1 s1] e1]. cbn in G. destruct G as (G1 & G2 & _).
  destruct r1; cbn; rewrite ?app_nil_r; do 3 eexists; (split; [reflexivity|]); apply plain_smooth; auto.
Qed.

End Upd.
