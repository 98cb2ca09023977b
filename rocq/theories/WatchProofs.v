(** Owner monitoring: what a successful run has checked, and that it succeeds on a log that agrees with the owner's history. *)
From Coq Require Import Sorted.
From Verif Require Import Base BaseProofs LogMathModel NodeMathProofs LogMathProofs TransMathModel TransMathSpec TransMathProofs TransMathProofs2 LaddersModel LaddersProofs CodecModel AlgModel AlgSpec AlgProofs AlgProofs2 AlgProofs3 AlgProofs4 WatchSpec.

Lemma okLog_times L : okLog L -> okTimes L.
Proof. intros (A & B & C & D & E). repeat split; auto; try apply A. intros x Hx. apply (E x Hx). Qed.
Lemma log_g L : okLog L -> forall x, x < h_n L -> (-1 <= h_g L x < 2147483647)%Z.
Proof. intro H. apply H. Qed.
Lemma log_gmono L : okLog L -> forall x y, x <= y < h_n L -> (h_g L x <= h_g L y)%Z.
Proof. intro H. apply H. Qed.

Section Watch.
Context {S : Type}.
Variable P : provider S.
Variable c : pubConfig.
Variable L : hlog.
Hypothesis HL : okTimes L.
Local Notation n := (h_n L).
Local Notation ts := (h_ts L).
Local Notation g := (h_g L).
Local Notation w := (pc_rmw c).

Lemma w_n : 1 <= n < 2 ^ 64.
Proof. apply HL. Qed.
Lemma w_mono x y : x <= y < n -> ts x <= ts y.
Proof. apply HL. Qed.
Lemma w_64 x : x < n -> ts x < two64.
Proof. apply HL. Qed.
Lemma w_g x : x < n -> (-1 <= g x)%Z.
Proof. apply HL. Qed.

Lemma getTs_true x s t s' l : x < n -> run P (getTs x) s = (Ok t, s', l) -> Forall (trueEvent L) l -> t = ts x.
Proof. intros Hx H F. apply run_getTs_ok in H. subst l. inversion F as [|? ? F1 _]; subst. apply F1, Hx. Qed.
Lemma getLadder_true x v o s r s' l : x < n -> run P (getLadder x v o) s = (Ok r, s', l) -> Forall (trueEvent L) l -> r = cmp3 (g x) v.
Proof. intros Hx H F. apply run_getLadder_ok in H. subst l. inversion F as [|? ? F1 _]; subst. apply F1, Hx. Qed.

Lemma cmp3_neg gx v : cmp3 gx v = (-1)%Z -> (gx < Z.of_N v)%Z.
Proof. destruct (cmp3_cases gx v) as [[A B]|[[A B]|[A B]]]; rewrite B; lia. Qed.
Lemma cmp3_eq gx v : cmp3 gx v = 0%Z -> gx = Z.of_N v.
Proof. destruct (cmp3_cases gx v) as [[A B]|[[A B]|[A B]]]; rewrite B; lia. Qed.

Lemma toU32_id z : (0 <= z < 4294967296)%Z -> Z.of_N (toU32 z) = z.
Proof. intro H. unfold toU32. rewrite Z.mod_small by lia. lia. Qed.

Lemma expect_true x ver o s s' l : x < n -> (-1 <= ver < 4294967296)%Z -> run P (expectLadder x ver o) s = (Ok tt, s', l) -> Forall (trueEvent L) l -> g x = ver.
Proof.
  intros Hx Hv H F. unfold expectLadder in H. pose proof (w_g x Hx) as Hg. destruct (Z.ltb_spec ver 0).
  - apply run_bind_ok in H as (r & s1 & l1 & l2 & E & H & ->). apply Forall_app in F as [F _]. apply getLadder_true in E; auto. subst r.
    destruct (Z.eqb_spec (cmp3 (g x) 0) (-1)) as [C|]; [|discriminate H]. apply cmp3_neg in C. lia.
  - apply run_bind_ok in H as (r & s1 & l1 & l2 & E & H & ->). apply Forall_app in F as [F _]. apply getLadder_true in E; auto. subst r.
    destruct (Z.eqb_spec (cmp3 (g x) (toU32 ver)) 0) as [C|]; [|discriminate H]. apply cmp3_eq in C. rewrite toU32_id in C by lia. exact C.
Qed.

Section Owner.
Variable finished : S -> bool.
Hypothesis HF : exhaustible P finished.
Variable hist : list N.
Hypothesis Hs : StronglySorted N.le hist.
Hypothesis Hh : (Z.of_nat (List.length hist) < 4294967296)%Z.

Lemma countLe_length x : (countLe x hist <= List.length hist)%nat.
Proof. unfold countLe. clear. induction hist as [|a h IH]; cbn; [lia|]. destruct (a <=? x); cbn; lia. Qed.

Lemma ownerMonitor_rec_true fuel : forall os a len left right s os' s' l,
  SRange n a len -> tracks hist os ->
  (forall y, a <= y < a + len -> left <= ts y <= right) -> right < two64 ->
  run P (ownerMonitor_rec c fuel n os (sroot a len) left right) s = (Ok os', s', l) -> Forall (trueEvent L) l ->
  tracks hist os' /\ os_starting os <= os_starting os' /\
  (os_starting os' = os_starting os \/ a <= os_starting os' < a + len /\ DIn ts w a len left right (os_starting os')) /\
  (forall d, DIn ts w a len left right d -> os_starting os < d -> d <= os_starting os' -> g d = expected hist d) /\
  (forall d, DIn ts w a len left right d -> os_starting os' < d -> finished s' = true).
Proof.
  pose proof w_n as Hn.
  induction fuel as [|f IH]; intros os a len left right s os' s' l R T B H64 H F; [discriminate|].
  cbn [ownerMonitor_rec] in H.
  destruct (nav_len n a len Hn R) as (L1 & L2 & L3).
  assert (Hx : a <= sroot a len < a + len) by (unfold sroot; lia).
  pose proof (B _ Hx) as Bx.
  destruct (isDistinguished w left right) eqn:ED; cbn [negb] in H.
  2:{ cbn in H. injection H as <- <- <-. apply isDist_false in ED; [|lia|auto].
      split; [exact T|]. split; [lia|]. split; [left; reflexivity|]. split; intros d D; apply DIn_bound in D; lia. }
  apply isDist_spec in ED; [|lia|auto].
  (* the right subtree *)
  assert (GR : forall os1 s1 os2 s2 l2, lsize len + 1 < len -> tracks hist os1 -> sroot a len <= os_starting os1 ->
    run P (do* timestamp := getTs (sroot a len) in do* x' := lift (tright (sroot a len) n) in ownerMonitor_rec c f n os1 x' timestamp right) s1 = (Ok os2, s2, l2) ->
    Forall (trueEvent L) l2 ->
    tracks hist os2 /\ os_starting os1 <= os_starting os2 /\
    (os_starting os2 = os_starting os1 \/ a <= os_starting os2 < a + len /\ DIn ts w a len left right (os_starting os2)) /\
    (forall d, DIn ts w a len left right d -> os_starting os1 < d -> d <= os_starting os2 -> g d = expected hist d) /\
    (forall d, DIn ts w a len left right d -> os_starting os2 < d -> finished s2 = true)).
  { intros os1 s1 os2 s2 l2 Hr T1 S1 H1 F1.
    apply run_bind_ok in H1 as (t & s3 & l3 & l4 & E1 & H1 & ->). apply Forall_app in F1 as [F1 F2].
    apply getTs_true in E1; auto; [|lia]. subst t. rewrite (nav_right n a len Hn R Hr) in H1. cbn [lift pbind] in H1.
    apply (IH os1 (sroot a len + 1) (len - lsize len - 1) (ts (sroot a len)) right) in H1; auto.
    2:{ constructor; auto. }
    2:{ intros y Hy. unfold sroot in *. split; [apply w_mono; lia|apply B; lia]. }
    destruct H1 as (A1 & A2 & A3 & A4 & A5). split; [exact A1|]. split; [exact A2|]. split.
    { destruct A3 as [A3|[A3 A3']]; [left; exact A3|right]. split; [unfold sroot in *; lia|apply DI_right; auto]. }
    assert (IR : forall d, DIn ts w a len left right d -> os_starting os1 < d -> DIn ts w (sroot a len + 1) (len - lsize len - 1) (ts (sroot a len)) right d).
    { intros d D Hd. inversion D as [? ? ? ? D1|? ? ? ? ? D1 D2 D3|? ? ? ? ? D1 D2 D3]; subst; [lia| |exact D3].
      apply DIn_range in D3; [|lia]. unfold sroot in *. lia. }
    split; intros d D; [intros Hd1 Hd2; apply A4; auto|intro Hd; apply (A5 d); auto; apply IR; auto; lia]. }
  destruct (N.leb_spec (sroot a len) (os_starting os)) as [Hst|Hst].
  - rewrite (nav_noRight n a len Hn R) in H. destruct (N.eqb_spec len (lsize len + 1)) as [El|El].
    + cbn in H. injection H as <- <- <-. split; [exact T|]. split; [lia|]. split; [left; reflexivity|].
      split; intros d D Hd; apply DIn_range in D; auto; unfold sroot in *; lia.
    + assert (Hr : lsize len + 1 < len) by lia. apply (GR os s os' s' l Hr T Hst H F).
  - apply run_bind_ok in H as (os1 & s1 & l1 & l2 & E1 & H & ->). apply Forall_app in F as [F1 F].
    assert (G1 : tracks hist os1 /\ os_starting os <= os_starting os1 /\ os_starting os1 < sroot a len /\
      (os_starting os1 = os_starting os \/ a <= os_starting os1 < a + len /\ DIn ts w a len left right (os_starting os1)) /\
      (forall d, DIn ts w a len left right d -> d < sroot a len -> os_starting os < d -> d <= os_starting os1 -> g d = expected hist d) /\
      (forall d, DIn ts w a len left right d -> d < sroot a len -> os_starting os1 < d -> finished s1 = true)).
    { unfold hasLeftChild in E1. rewrite (nav_noLeft n a len Hn R) in E1. destruct (N.eqb_spec (lsize len) 0) as [El|El]; cbn [negb] in E1.
      - cbn in E1. injection E1 as <- <- <-. split; [exact T|]. split; [lia|]. split; [exact Hst|]. split; [left; reflexivity|].
        split; intros d D Hd; apply DIn_range in D; auto; unfold sroot in *; lia.
      - assert (Hl : 0 < lsize len) by lia. apply run_bind_ok in E1 as (t & s3 & l3 & l4 & E1 & H1 & ->). apply Forall_app in F1 as [F1 F2].
        apply getTs_true in E1; auto; [|lia]. subst t. rewrite (nav_left n a len Hn R Hl) in H1. cbn [lift pbind] in H1.
        apply (IH os a (lsize len) left (ts (sroot a len))) in H1; auto.
        2:{ constructor; auto. }
        2:{ intros y Hy. unfold sroot in *. split; [apply B; lia|apply w_mono; lia]. }
        2:{ apply w_64. lia. }
        destruct H1 as (A1 & A2 & A3 & A4 & A5). split; [exact A1|]. split; [exact A2|]. split; [unfold sroot in *; destruct A3 as [A3|[A3 _]]; lia|].
        split. { destruct A3 as [A3|[A3 A3']]; [left; exact A3|right]. split; [unfold sroot in *; lia|apply DI_left; auto]. }
        assert (IR : forall d, DIn ts w a len left right d -> d < sroot a len -> DIn ts w a (lsize len) left (ts (sroot a len)) d).
        { intros d D Hd. inversion D as [? ? ? ? D1|? ? ? ? ? D1 D2 D3|? ? ? ? ? D1 D2 D3]; subst; [lia|exact D3|].
          apply DIn_range in D3; [|lia]. unfold sroot in *. lia. }
        split; [intros d D Hd1 Hd2 Hd3; apply A4; auto|intros d D Hd1 Hd2; apply (A5 d); auto]. }
    destruct G1 as (T1 & S1 & S1' & S1'' & C1 & D1).
    pose proof (tracks_at hist os1 (sroot a len) Hs T1) as Eat. rewrite Eat in H by (unfold two64 in *; lia). cbn [lift pbind] in H. clear Eat.
    fold (expected hist (sroot a len)) in H.
    cbn [stopCond pbind run] in H. rewrite HF in H. destruct (finished s1) eqn:Ef.
    + cbn in H. injection H as <- <- <-. split; [exact T1|]. split; [exact S1|]. split; [exact S1''|]. split; [|intros; first [exact Ef|reflexivity]].
      intros d D Hd1 Hd2. apply C1; auto. lia.
    + match type of H with addEv ?e ?z = _ => destruct z as [[rr ss] ll] eqn:Ez end. cbn in H. injection H as -> -> <-.
      inversion F as [|? ? _ F']; subst. clear F.
      apply run_bind_ok in Ez as ([] & s3 & l3 & l4 & E3 & H & ->). apply Forall_app in F' as [F3 F].
      assert (Ever : g (sroot a len) = expected hist (sroot a len)).
      { apply (expect_true (sroot a len) _ false s1 s3 l3); auto; [lia|]. unfold expected. pose proof (countLe_length (sroot a len)). lia. }
      destruct (tracks_set hist os1 (sroot a len) Hs T1) as (os2 & E2 & S2 & T2); [lia|unfold two64 in *; lia|].
      rewrite E2 in H. cbn [lift pbind] in H.
      assert (CL : forall d, DIn ts w a len left right d -> os_starting os < d -> d <= sroot a len -> g d = expected hist d).
      { intros d D Hd1 Hd2. destruct (N.eq_dec d (sroot a len)) as [->|]; [exact Ever|]. apply C1; auto; [lia|].
        destruct (N.le_gt_cases d (os_starting os1)); [assumption|]. exfalso. assert (false = true) by (apply (D1 d); auto; lia). discriminate. }
      rewrite (nav_noRight n a len Hn R) in H. destruct (N.eqb_spec len (lsize len + 1)) as [El|El].
      * cbn in H. injection H as <- <- <-. rewrite S2. split; [exact T2|]. split; [lia|]. split; [right; split; [exact Hx|constructor; exact ED]|].
        split; [intros d D Hd1 Hd2; apply CL; auto; lia|]. intros d D Hd. apply DIn_range in D; auto. unfold sroot in *. lia.
      * assert (Hr : lsize len + 1 < len) by lia. destruct (GR os2 s3 os' s' l4 Hr T2) as (A1 & A2 & A3 & A4 & A5); auto; [lia|].
        split; [exact A1|]. split; [lia|]. split.
        { right. destruct A3 as [A3|A3]; [|exact A3]. rewrite A3, S2. split; [exact Hx|constructor; exact ED]. }
        split; [|exact A5]. intros d D Hd1 Hd2. destruct (N.le_gt_cases d (sroot a len)); [apply CL; auto|apply A4; auto; lia].
Qed.

Lemma ownerMonitor_true m os s m' s' l : watches m L -> mo_owner m = Some os -> tracks hist os ->
  run P (ownerMonitor c m) s = (Ok (inr tt, m'), s', l) -> Forall (trueEvent L) l ->
  exists os', m' = {| mo_rightmost := mo_rightmost m; mo_size := mo_size m; mo_contact := mo_contact m; mo_owner := Some os' |} /\
  tracks hist os' /\ os_starting os <= os_starting os' /\
  (os_starting os' = os_starting os \/ distinguished n ts w (os_starting os')) /\
  (forall d, distinguished n ts w d -> os_starting os < d <= os_starting os' -> g d = expected hist d) /\
  (forall d, distinguished n ts w d -> os_starting os' < d -> finished s' = true).
Proof.
  pose proof w_n as Hn. intros (Em & Er) Eo T H F. unfold ownerMonitor in H. rewrite Eo in H. rewrite run_catch in H.
  match type of H with orElse ?z _ = _ => destruct z as [[[r|e|e|] s1] l1] eqn:Ez end; cbn in H; try discriminate.
  injection H as -> -> ->. apply run_bind_ok in Ez as (os' & s2 & l2 & l3 & E1 & E2 & ->). cbn in E2. injection E2 as <- <- <-.
  rewrite app_nil_r in F. rewrite Em, Er in E1. destruct (c09_entries n Hn) as (E0 & _). rewrite E0 in E1.
  apply (ownerMonitor_rec_true 66 os 0 n 0 (ts (n - 1))) in E1; auto.
  - destruct E1 as (A1 & A2 & A3 & A4 & A5). exists os'. split; [reflexivity|]. split; [exact A1|]. split; [exact A2|].
    split. { destruct A3 as [A3|[_ A3]]; auto. } split; [intros d D [Hd1 Hd2]; apply A4; auto|exact A5].
  - constructor.
  - intros y Hy. split; [lia|]. apply w_mono. lia.
  - apply w_64. lia.
Qed.
End Owner.
End Watch.
