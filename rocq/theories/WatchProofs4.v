(** Updates: what a successful run has checked, and that an update succeeds on a log that agrees with it. *)
From Coq Require Import Sorted.
From Verif Require Import Base BaseProofs LogMathModel NodeMathProofs LogMathProofs TransMathModel TransMathSpec TransMathProofs TransMathProofs2 LaddersModel LaddersProofs CodecModel AlgModel AlgSpec AlgProofs AlgProofs2 AlgProofs3 AlgProofs4 WatchSpec WatchProofs WatchProofs2.

Lemma nseq_spec len : forall start v, In v (nseq start len) <-> start <= v < start + N.of_nat len.
Proof.
  induction len as [|k IH]; intros start v; cbn [nseq In]; [split; [intros []|lia]|]. rewrite IH. split; [intros [<-|]; lia|].
  intro H. destruct (N.eq_dec start v); [left; auto|right; lia].
Qed.

Lemma run_getIncl_ok {S} (P : provider S) x vs s a s' l : run P (getIncl x vs) s = (Ok a, s', l) -> l = [EvIncl x vs (Ok tt)].
Proof. cbn. destruct (pIncl P s x vs) as [[[]|m|m|] s1]; cbn; intro H; inversion H; auto. Qed.

Lemma runs_result {A S} (P : provider S) (p : prog A) s r s' Q : runs P p s r s' Q -> result (run P p s) = r.
Proof. intros (l & E & _). rewrite E. reflexivity. Qed.

Section Update.
Variable c : pubConfig.
Variable L : hlog.
Hypothesis HL : okLog L.
Let HT : okTimes L := okLog_times L HL.
Local Notation n := (h_n L).
Local Notation ts := (h_ts L).
Local Notation g := (h_g L).
Local Notation w := (pc_rmw c).

(** What the search for the highest ancestor that is not distinguished means. *)
Definition ancestry (target a len left right : N) (o : option N) : Prop :=
  match o with
  | None => DIn ts w a len left right target
  | Some x => ~ DIn ts w a len left right target /\ exists a' len', x = sroot a' len' /\ SRange n a' len' /\ a' <= target < a' + len'
  end.

Lemma DIn_left a len left right y : y < sroot a len -> 0 < lsize len -> lsize len < len -> DIn ts w a len left right y -> DIn ts w a (lsize len) left (ts (sroot a len)) y.
Proof.
  intros Hy H1 H2 D. inversion D as [? ? ? ? D1|? ? ? ? ? D1 D2 D3|? ? ? ? ? D1 D2 D3]; subst; [lia|exact D3|].
  apply DIn_range in D3; [|lia]. unfold sroot in *. lia.
Qed.
Lemma DIn_right a len left right y : sroot a len < y -> lsize len < len -> DIn ts w a len left right y -> DIn ts w (sroot a len + 1) (len - lsize len - 1) (ts (sroot a len)) right y.
Proof.
  intros Hy H2 D. inversion D as [? ? ? ? D1|? ? ? ? ? D1 D2 D3|? ? ? ? ? D1 D2 D3]; subst; [lia| |exact D3].
  apply DIn_range in D3; [|lia]. unfold sroot in *. lia.
Qed.

Lemma ancestry_left target a len left right o : target < sroot a len -> 0 < lsize len -> lsize len < len -> left + w <= right ->
  ancestry target a (lsize len) left (ts (sroot a len)) o -> ancestry target a len left right o.
Proof.
  intros H1 H2 H3 H4. destruct o as [x|]; cbn.
  - intros (A & B). split; [|exact B]. intro D. apply A, (DIn_left _ _ _ right); auto.
  - intro D. apply DI_left; auto.
Qed.
Lemma ancestry_right target a len left right o : sroot a len < target -> lsize len + 1 < len -> left + w <= right ->
  ancestry target (sroot a len + 1) (len - lsize len - 1) (ts (sroot a len)) right o -> ancestry target a len left right o.
Proof.
  intros H1 H2 H4. destruct o as [x|]; cbn.
  - intros (A & B). split; [|exact B]. intro D. apply A, (DIn_right _ _ left); auto; lia.
  - intro D. apply DI_right; auto.
Qed.

Section Sound.
Context {S : Type}.
Variable P : provider S.

Lemma nonDist_loop_true target fuel : forall a len left right s o s' l,
  SRange n a len -> a <= target < a + len -> (forall y, a <= y < a + len -> left <= ts y <= right) -> right < two64 ->
  run P (nonDist_loop c fuel n target (sroot a len) left right) s = (Ok o, s', l) -> Forall (trueEvent L) l ->
  ancestry target a len left right o.
Proof.
  pose proof (w_n L HT) as Hn.
  induction fuel as [|f IH]; intros a len left right s o s' l R Ht B H64 H F; [discriminate|].
  cbn [nonDist_loop] in H.
  destruct (nav_len n a len Hn R) as (L1 & L2 & L3).
  assert (Hx : a <= sroot a len < a + len) by (unfold sroot; lia).
  pose proof (B _ Hx) as Bx.
  destruct (isDistinguished w left right) eqn:ED; cbn [negb] in H.
  2:{ cbn in H. injection H as <- <- <-. apply isDist_false in ED; [|lia|auto]. split; [intro D; apply DIn_bound in D; lia|].
      exists a, len. auto. }
  apply isDist_spec in ED; [|lia|auto].
  destruct (N.eqb_spec (sroot a len) target) as [<-|Ne].
  { cbn in H. injection H as <- <- <-. constructor. exact ED. }
  apply run_bind_ok in H as (t & s1 & l1 & l2 & E1 & H & ->). apply Forall_app in F as [F1 F].
  apply (getTs_true P L) in E1; auto; [|lia]. subst t.
  destruct (N.ltb_spec (sroot a len) target) as [Lt|Ge].
  - assert (Hr : lsize len + 1 < len) by (unfold sroot in *; lia). rewrite (nav_right n a len Hn R Hr) in H. cbn [lift pbind] in H.
    apply ancestry_right; auto. apply (IH _ _ _ _ s1 o s' l2); auto.
    + constructor; auto.
    + unfold sroot in *; lia.
    + intros y Hy. unfold sroot in *. split; [apply (w_mono L HT); lia|apply B; lia].
  - assert (Hl : 0 < lsize len) by (unfold sroot in *; lia). rewrite (nav_left n a len Hn R Hl) in H. cbn [lift pbind] in H.
    apply ancestry_left; auto; [lia|]. apply (IH _ _ _ _ s1 o s' l2); auto.
    + constructor; auto.
    + unfold sroot in *; lia.
    + intros y Hy. unfold sroot in *. split; [apply B; lia|apply (w_mono L HT); lia].
    + apply (w_64 L HT). lia.
Qed.

Lemma nonDist_true m target s o s' l : mo_size m = n -> target < n ->
  run P (nonDistinguishedAncestor c m target) s = (Ok o, s', l) -> Forall (trueEvent L) l -> ancestry target 0 n 0 (ts (n - 1)) o.
Proof.
  pose proof (w_n L HT) as Hn. intros Em Ht H F. unfold nonDistinguishedAncestor in H.
  apply run_bind_ok in H as (t & s1 & l1 & l2 & E1 & H & ->). apply Forall_app in F as [F1 F].
  rewrite Em in E1, H. rewrite sub1_64 in E1 by auto. apply (getTs_true P L) in E1; auto; [|lia]. subst t.
  destruct (c09_entries n Hn) as (E0 & _). rewrite E0 in H.
  apply (nonDist_loop_true target 66 0 n 0 (ts (n - 1)) s1 o s' l2); auto.
  - constructor.
  - lia.
  - intros y Hy. split; [lia|]. apply (w_mono L HT). lia.
  - apply (w_64 L HT). lia.
Qed.

Lemma previousTree_true pos lu G fuel : 1 <= pos -> pos <= n -> (-1 <= G < 4294967296)%Z -> lu < pos - 1 ->
  forall a len s u s' l, SRange pos a len -> a + len = pos ->
  run P (previousTree_loop fuel pos lu G (sroot a len)) s = (Ok u, s', l) -> Forall (trueEvent L) l -> g (pos - 1) = G.
Proof.
  pose proof (w_n L HT) as Hn. intros Hp Hpn HG Hlu. assert (Hp64 : 1 <= pos < 2 ^ 64) by lia. induction fuel as [|f IH]; intros a len s u s' l R E H F; [discriminate|].
  destruct (nav_len pos a len Hp64 R) as (L1 & L2 & L3).
  cbn [previousTree_loop] in H. apply run_bind_ok in H as (v & s1 & l1 & l2 & E1 & H & ->). apply Forall_app in F as [F1 F].
  rewrite sub1_64 in H by lia. destruct (N.eqb_spec (sroot a len) (pos - 1)) as [Ex|Ne]; [rewrite Ex in E1|].
  - destruct (N.leb_spec (pos - 1) lu); [lia|]. destruct v. apply (expect_true P L HT (pos - 1) G true s s1 l1); auto. lia.
  - assert (Hr : lsize len + 1 < len) by (unfold sroot in *; lia). rewrite (nav_right pos a len Hp64 R Hr) in H. cbn [lift pbind] in H.
    apply (IH (sroot a len + 1) (len - lsize len - 1) s1 u s' l2); auto; [constructor; auto|unfold sroot in *; lia].
Qed.

Local Opaque nonDistinguishedAncestor previousTree_loop leftUntil.

Lemma verifyPrevious_true m os pos s u s' l : mo_size m = n -> 1 <= pos <= n -> (-1 <= greatestVersion os < 4294967296)%Z ->
  run P (verifyPreviousTree c m os pos) s = (Ok u, s', l) -> Forall (trueEvent L) l ->
  ~ distinguished n ts w (pos - 1) -> lastUpdate os < pos - 1 -> g (pos - 1) = greatestVersion os.
Proof.
  pose proof (w_n L HT) as Hn. intros Em Hp HG H F ND Hlu. unfold verifyPreviousTree in H. destruct (N.eqb_spec pos 0) as [Ez|Nz]; [lia|]. cbn zeta in H.
  rewrite sub1_64 in H by lia.
  apply run_bind_ok in H as (o & s1 & l1 & l2 & E1 & H & ->). apply Forall_app in F as [F1 F].
  apply nonDist_true in E1; auto; [|lia]. destruct o as [x|]; [|contradiction]. destruct E1 as (_ & a0 & len0 & -> & R0 & Ht0).
  destruct (leftUntil_ok n (pos - 1) Hn 66 a0 len0 R0 Ht0) as (a & len & El & R & Ha & Ht).
  { pose proof (log_fuel _ a0 len0 Hn R0). lia. }
  assert (Hp64 : 1 <= pos < 2 ^ 64) by lia.
  assert (Rp : SRange pos a (pos - a)) by (apply (SRange_shrink n Hn a len R pos); unfold sroot in *; lia).
  assert (ES : sroot a len = sroot a (pos - a)) by (unfold sroot in *; rewrite (lsize_same (pos - a) len); lia).
  rewrite El in H. cbn [lift pbind] in H. rewrite ES in H.
  apply run_bind_ok in H as (v & s2 & l3 & l4 & E2 & H & ->). apply Forall_app in F as [F2 F].
  apply (previousTree_true pos (lastUpdate os) (greatestVersion os) 66) in H; auto; unfold sroot in *; lia.
Qed.

Local Opaque verifyPreviousTree searchBinaryLadder.

Lemma update_true m os pos versions s m' s' l : watches m L -> mo_owner m = Some os -> (-1 <= greatestVersion os)%Z ->
  run P (update c m pos versions) s = (Ok m', s', l) -> Forall (trueEvent L) l ->
  lastUpdate os < pos < n /\ (1 <= versions)%Z /\ (greatestVersion os + versions < 4294967295)%Z /\
  (~ distinguished n ts w (pos - 1) -> lastUpdate os < pos - 1 -> g (pos - 1) = greatestVersion os) /\
  (~ distinguished n ts w pos -> g pos = (greatestVersion os + versions)%Z) /\
  (exists ladder, searchBinaryLadder (Z.to_N (greatestVersion os + versions)) (Z.to_N (greatestVersion os + versions)) [] [] = Ok ladder /\
    forall v, (greatestVersion os < Z.of_N v <= greatestVersion os + versions)%Z -> ~ In v ladder -> (Z.of_N v <= g pos)%Z) /\
  (distinguished n ts w pos -> mo_contact m' = mo_contact m) /\
  (~ distinguished n ts w pos -> exists ptrs, mo_contact m' = Some ptrs /\ mget ptrs pos = Some (Z.to_N (greatestVersion os + versions)) /\
     forall x, x <> pos -> mget ptrs x = mget (match mo_contact m with Some p => p | None => [] end) x) /\
  mo_owner m' = Some (newState os pos versions) /\ mo_size m' = mo_size m /\ mo_rightmost m' = mo_rightmost m.
Proof.
  pose proof (w_n L HT) as Hn. intros (Em & Er) Eo HG H F. unfold update in H. rewrite Eo, Em in H. cbn zeta in H.
  destruct (N.leb_spec n pos) as [|Hpn]; [discriminate|]. destruct (N.leb_spec pos (lastUpdate os)) as [|Hlu]; [discriminate|].
  destruct (Z.ltb_spec versions 1) as [|Hv]; [discriminate|]. destruct (Z.ltb_spec (greatestVersion os + versions) 0) as [|Hval]; [discriminate|]. cbn [orb] in H.
  destruct (Z.leb_spec 4294967295 (greatestVersion os + versions)) as [|Hval2]; [discriminate|].
  assert (EV : toU32 (greatestVersion os + versions) = Z.to_N (greatestVersion os + versions)) by (unfold toU32; rewrite Z.mod_small by lia; reflexivity).
  assert (SV : toU32 (greatestVersion os + 1) = Z.to_N (greatestVersion os + 1)) by (unfold toU32; rewrite Z.mod_small by lia; reflexivity).
  rewrite EV, SV in H.
  apply run_bind_ok in H as (ladder & s1 & l1 & l2 & E1 & H & ->). apply Forall_app in F as [_ F]. apply run_lift_ok in E1 as (EL & -> & ->).
  set (additional := filter _ _) in H.
  assert (HA : forall v, (greatestVersion os < Z.of_N v <= greatestVersion os + versions)%Z -> ~ In v ladder -> In v additional).
  { intros v Hv1 NI. apply filter_In. split; [apply nseq_spec; lia|]. apply negb_true_iff. unfold mem32. destruct (existsb _ ladder) eqn:EX; auto.
    apply existsb_exists in EX as (z & Iz & Ez). apply N.eqb_eq in Ez. subst z. contradiction. }
  apply run_bind_ok in H as (u & s2 & l3 & l4 & E2 & H & ->). apply Forall_app in F as [F2 F].
  assert (HV := verifyPrevious_true m os pos s u s2 l3 Em ltac:(lia) ltac:(lia) E2 F2).
  apply run_bind_ok in H as (o & s3 & l5 & l6 & E3 & H & ->). apply Forall_app in F as [F3 F]. apply nonDist_true in E3; auto.
  apply run_bind_ok in H as (contact & s4 & l7 & l8 & E4 & H & ->). apply Forall_app in F as [F4 F]. cbn in H. injection H as <- <- <-. cbn [mo_contact mo_owner mo_size mo_rightmost].
  split; [lia|]. split; [exact Hv|]. split; [exact Hval2|]. split; [exact HV|].
  assert (HI : forall s5 u5 s6 l9, run P (getIncl pos additional) s5 = (Ok u5, s6, l9) -> Forall (trueEvent L) l9 ->
    forall v, (greatestVersion os < Z.of_N v <= greatestVersion os + versions)%Z -> ~ In v ladder -> (Z.of_N v <= g pos)%Z).
  { intros s5 u5 s6 l9 E5 F5 v Hv1 NI. apply run_getIncl_ok in E5. subst l9. inversion F5 as [|? ? F6 _]; subst. cbn in F6. specialize (F6 Hpn).
    rewrite Forall_forall in F6. apply F6, HA; auto. }
  destruct o as [x|].
  - destruct E3 as (ND & _). apply run_bind_ok in E4 as (r & s5 & l9 & l10 & E5 & E4 & ->). apply Forall_app in F4 as [F5 F4].
    apply (getLadder_true P L) in E5; auto. subst r. destruct (Z.eqb_spec (cmp3 (g pos) (Z.to_N (greatestVersion os + versions))) 0) as [C|]; [|discriminate].
    cbn [negb] in E4. apply run_bind_ok in E4 as (u6 & s6 & l11 & l12 & E6 & E4 & ->). apply Forall_app in F4 as [F6 _]. cbn in E4. injection E4 as <- <- <-.
    apply cmp3_eq in C. split; [intros _; lia|]. split; [exists ladder; split; [exact EL|apply (HI _ _ _ _ E6 F6)]|].
    split; [contradiction|]. split; [|auto]. intros _. eexists. split; [reflexivity|]. split; [apply mget_mput_eq|]. intros y Hy. apply mget_mput_neq. congruence.
  - apply run_bind_ok in E4 as (u6 & s6 & l11 & l12 & E6 & E4 & ->). apply Forall_app in F4 as [F6 _]. cbn in E4. injection E4 as <- <- <-.
    split; [contradiction|]. split; [exists ladder; split; [exact EL|apply (HI _ _ _ _ E6 F6)]|]. split; [reflexivity|]. split; [contradiction|auto].
Qed.
End Sound.

Section Complete.
Lemma nonDist_loop_honest target fuel : forall a len left right s,
  SRange n a len -> a <= target < a + len -> (forall y, a <= y < a + len -> left <= ts y <= right) -> right < two64 -> N.log2 len < N.of_nat fuel ->
  exists o, runs (honest L) (nonDist_loop c fuel n target (sroot a len) left right) s (Ok o) s noQ /\ ancestry target a len left right o.
Proof.
  pose proof (w_n L HT) as Hn.
  induction fuel as [|f IH]; intros a len left right s R Ht B H64 Hf; [lia|].
  cbn [nonDist_loop].
  destruct (nav_len n a len Hn R) as (L1 & L2 & L3).
  assert (Hx : a <= sroot a len < a + len) by (unfold sroot; lia).
  pose proof (B _ Hx) as Bx.
  destruct (isDistinguished w left right) eqn:ED; cbn [negb].
  2:{ eexists. split; [apply runs_ret|]. apply isDist_false in ED; [|lia|auto]. split; [intro D; apply DIn_bound in D; lia|]. exists a, len. auto. }
  apply isDist_spec in ED; [|lia|auto].
  destruct (N.eqb_spec (sroot a len) target) as [<-|Ne].
  { eexists. split; [apply runs_ret|]. constructor. exact ED. }
  destruct (N.ltb_spec (sroot a len) target) as [Lt|Ge].
  - assert (Hr : lsize len + 1 < len) by (unfold sroot in *; lia).
    destruct (IH (sroot a len + 1) (len - lsize len - 1) (ts (sroot a len)) right s) as (o & A & C); auto.
    + constructor; auto.
    + unfold sroot in *; lia.
    + intros y Hy. unfold sroot in *. split; [apply (w_mono L HT); lia|apply B; lia].
    + pose proof (rsize_log len Hr). lia.
    + exists o. split; [|apply ancestry_right; auto]. eapply runs_bind; [apply runs_getTs'; lia|].
      eapply runs_bind; [apply runs_lift, (nav_right n a len Hn R Hr)|exact A].
  - assert (Hl : 0 < lsize len) by (unfold sroot in *; lia).
    destruct (IH a (lsize len) left (ts (sroot a len)) s) as (o & A & C); auto.
    + constructor; auto.
    + unfold sroot in *; lia.
    + intros y Hy. unfold sroot in *. split; [apply B; lia|apply (w_mono L HT); lia].
    + apply (w_64 L HT). lia.
    + pose proof (lsize_log len Hl). lia.
    + exists o. split; [|apply ancestry_left; auto; lia]. eapply runs_bind; [apply runs_getTs'; lia|].
      eapply runs_bind; [apply runs_lift, (nav_left n a len Hn R Hl)|exact A].
Qed.

Lemma nonDist_honest m target s : mo_size m = n -> target < n ->
  exists o, runs (honest L) (nonDistinguishedAncestor c m target) s (Ok o) s noQ /\ ancestry target 0 n 0 (ts (n - 1)) o.
Proof.
  pose proof (w_n L HT) as Hn. intros Em Ht. unfold nonDistinguishedAncestor. rewrite Em, sub1_64 by auto. destruct (c09_entries n Hn) as (-> & _).
  destruct (nonDist_loop_honest target 66 0 n 0 (ts (n - 1)) s) as (o & A & C).
  - constructor.
  - lia.
  - intros y Hy. split; [lia|]. apply (w_mono L HT). lia.
  - apply (w_64 L HT). lia.
  - pose proof (log_fuel n 0 n Hn (SR_root _)). lia.
  - exists o. split; [|exact C]. eapply runs_bind; [apply runs_getTs'; lia|exact A].
Qed.

Lemma previousTree_honest pos lu G (Hp : 1 <= pos < 2 ^ 64) fuel : pos <= n -> (forall x, lu < x < pos -> g x = G) -> forall a len s,
  SRange pos a len -> a + len = pos -> N.log2 len < N.of_nat fuel ->
  exists s', runs (honest L) (previousTree_loop fuel pos lu G (sroot a len)) s (Ok tt) s' noQ.
Proof.
  intros Hpn HG. induction fuel as [|f IH]; intros a len s R E Hf; [lia|]. cbn [previousTree_loop].
  pose proof (nav_lt pos a len Hp R) as Hx. pose proof (nav_len pos a len Hp R) as (L1 & L2 & L3).
  assert (Hd : exists s1, runs (honest L) (if sroot a len <=? lu then Ret tt else expectLadder (sroot a len) G true) s (Ok tt) s1 noQ).
  { destruct (N.leb_spec (sroot a len) lu); [exists s; apply runs_ret|]. apply (expect_honest L HL); [lia|apply HG; lia]. }
  destruct Hd as (s1 & R1). rewrite sub1_64 by auto. destruct (N.eqb_spec (sroot a len) (pos - 1)) as [E1|E1].
  - exists s1. eapply runs_bind; [exact R1|]. apply runs_ret.
  - assert (Hr : lsize len + 1 < len) by (unfold sroot in *; lia).
    destruct (IH (sroot a len + 1) (len - lsize len - 1) s1) as (s2 & R2); [constructor; auto|unfold sroot in *; lia|pose proof (rsize_log len Hr); lia|].
    exists s2. eapply runs_bind; [exact R1|]. eapply runs_bind; [apply runs_lift, (nav_right pos a len Hp R Hr)|exact R2].
Qed.

Lemma runs_track x b z ladder s : runs (honest L) (trackLadder x b z ladder) s (Ok tt) s noQ.
Proof. eexists. split; [reflexivity|repeat constructor]. Qed.

Lemma verifyPrevious_honest m os pos s : mo_size m = n -> 1 <= pos < n -> (greatestVersion os < 2147483647)%Z ->
  (forall x, lastUpdate os < x < pos -> g x = greatestVersion os) ->
  exists s', runs (honest L) (verifyPreviousTree c m os pos) s (Ok tt) s' noQ.
Proof.
  pose proof (w_n L HT) as Hn. intros Em Hp Hg HG. assert (Hp64 : 1 <= pos < 2 ^ 64) by lia. unfold verifyPreviousTree. destruct (N.eqb_spec pos 0) as [Ez|Nz]; [lia|]. cbn zeta.
  rewrite sub1_64 by lia. destruct (nonDist_honest m (pos - 1) s Em ltac:(lia)) as (o & R1 & AN). destruct o as [x|].
  2:{ exists s. eapply runs_bind; [exact R1|]. apply runs_ret. }
  destruct AN as (_ & a0 & len0 & -> & R0 & Ht0).
  destruct (leftUntil_ok n (pos - 1) Hn 66 a0 len0 R0 Ht0) as (a & len & El & R & Ha & Ht).
  { pose proof (log_fuel _ a0 len0 Hn R0). lia. }
  assert (Rp : SRange pos a (pos - a)) by (apply (SRange_shrink n Hn a len R pos); unfold sroot in *; lia).
  assert (ES : sroot a len = sroot a (pos - a)) by (unfold sroot in *; rewrite (lsize_same (pos - a) len); lia).
  destruct (previousTree_honest pos (lastUpdate os) (greatestVersion os) Hp64 66 ltac:(lia) HG a (pos - a) s Rp) as (s2 & R2); [unfold sroot in *; lia|pose proof (log_fuel _ a (pos - a) Hp64 Rp); lia|].
  exists s2. eapply runs_bind; [exact R1|]. cbn beta iota. eapply runs_bind; [apply runs_lift; exact El|]. rewrite ES. eapply runs_bind; [|exact R2].
  destruct (Z.leb_spec 0 (greatestVersion os)); [|apply runs_ret].
  destruct (search_ladder_ok (toU32 (greatestVersion os))) as (ladder & E); [apply toU32_small; lia|].
  eapply runs_bind; [apply runs_lift; exact E|]. eapply runs_bind; [|apply runs_track].
  destruct (N.eqb_spec (sroot a (pos - a)) (troot pos)) as [|Hne]; [apply runs_ret|].
  destruct (nav_parent pos a (pos - a) Hp64 Rp Hne) as (a' & len' & Ep & _). eapply runs_bind; [apply runs_lift; exact Ep|].
  destruct (greatestAt_ok os (sroot a' len')) as (z & Ez). eapply runs_bind; [apply runs_lift; exact Ez|]. apply runs_track.
Qed.

Lemma update_honest m os pos versions s : watches m L -> mo_owner m = Some os -> (-1 <= greatestVersion os)%Z ->
  lastUpdate os < pos < n -> (1 <= versions)%Z ->
  (forall x, lastUpdate os < x < pos -> g x = greatestVersion os) -> g pos = (greatestVersion os + versions)%Z ->
  exists m', result (run (honest L) (update c m pos versions) s) = Ok m'.
Proof.
  pose proof (w_n L HT) as Hn. intros (Em & Er) Eo HG Hpos Hv Hbefore Hat. pose proof (log_g L HL pos ltac:(lia)) as Hgp.
  assert (EV : toU32 (greatestVersion os + versions) = Z.to_N (greatestVersion os + versions)) by (unfold toU32; rewrite Z.mod_small by lia; reflexivity).
  assert (SV : toU32 (greatestVersion os + 1) = Z.to_N (greatestVersion os + 1)) by (unfold toU32; rewrite Z.mod_small by lia; reflexivity).
  destruct (verifyPrevious_honest m os pos s Em ltac:(lia) ltac:(lia) Hbefore) as (s1 & R1).
  destruct (nonDist_honest m pos s1 Em ltac:(lia)) as (o & R2 & _).
  destruct (search_ladder_ok (Z.to_N (greatestVersion os + versions))) as (ladder & EL); [change (2 ^ 31 - 1) with 2147483647; lia|].
  set (additional := filter (fun v => negb (mem32 v ladder)) (nseq (Z.to_N (greatestVersion os + 1)) (Z.to_nat (Z.of_N (Z.to_N (greatestVersion os + versions)) - Z.of_N (Z.to_N (greatestVersion os + 1)) + 1)))).
  assert (HI : forall s2, exists s3, runs (honest L) (getIncl pos additional) s2 (Ok tt) s3 noQ).
  { intro s2. eexists. exists [EvIncl pos additional (Ok tt)]. split; [|repeat constructor]. cbn [getIncl run honest pIncl]. rewrite (proj2 (N.ltb_lt _ _) (proj2 Hpos)).
    replace (forallb _ additional) with true; [reflexivity|]. symmetry. apply forallb_forall. intros v I. apply Z.leb_le. apply filter_In in I as [I _]. apply nseq_spec in I. lia. }
  assert (R3 : exists contact s3, runs (honest L) (match o with
        | None => do* _ := getIncl pos additional in Ret (mo_contact m)
        | Some _ =>
            do* r := getLadder pos (Z.to_N (greatestVersion os + versions)) true in
            if negb (r =? 0)%Z then Err "binary ladder inconsistent with expected greatest version of label" else
            do* _ := getIncl pos additional in
            Ret (Some (mput (match mo_contact m with Some p => p | None => [] end) pos (Z.to_N (greatestVersion os + versions))))
        end) s1 (Ok contact) s3 noQ).
  { destruct o.
    - destruct (HI (s1 + 1)) as (s3 & A). eexists _, s3. eapply runs_bind; [apply runs_getLadder; [exact (proj2 Hpos)|exact I]|].
      replace (cmp3 _ _) with 0%Z; [cbn [negb Z.eqb]; eapply runs_bind; [exact A|]; apply runs_ret|].
      destruct (cmp3_cases (g pos) (Z.to_N (greatestVersion os + versions))) as [[B C]|[[B C]|[B C]]]; lia.
    - destruct (HI s1) as (s3 & A). eexists _, s3. eapply runs_bind; [exact A|]. apply runs_ret. }
  destruct R3 as (contact & s3 & R3).
  unfold update. rewrite Eo, Em. cbn zeta. rewrite EV, SV.
  destruct (N.leb_spec n pos); [lia|]. destruct (N.leb_spec pos (lastUpdate os)); [lia|].
  destruct (Z.ltb_spec versions 1); [lia|]. destruct (Z.ltb_spec (greatestVersion os + versions) 0); [lia|]. cbn [orb].
  destruct (Z.leb_spec 4294967295 (greatestVersion os + versions)); [lia|].
  eexists. apply (runs_result _ _ s _ s3 noQ).
  eapply runs_bind; [apply runs_lift; exact EL|]. eapply runs_bind; [exact R1|]. eapply runs_bind; [exact R2|].
  eapply runs_bind; [exact R3|]. apply runs_ret.
Qed.
End Complete.
End Update.
