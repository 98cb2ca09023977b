(** Initialization of the owner state: what a successful run has checked, and that it succeeds on a log that agrees with what the
    owner claims. *)
From Coq Require Import Sorted.
From Verif Require Import Base BaseProofs LogMathModel NodeMathProofs LogMathProofs TransMathModel TransMathSpec TransMathProofs TransMathProofs2 LaddersModel LaddersProofs CodecModel AlgModel AlgSpec AlgProofs AlgProofs2 AlgProofs3 AlgProofs4 WatchSpec WatchProofs WatchProofs2.

Lemma sorted_snoc (l : list N) x : StronglySorted (fun a b => b < a) l -> (forall y, In y l -> x < y) -> StronglySorted (fun a b => b < a) (l ++ [x]).
Proof.
  induction l as [|a l IH]; intros S1 H; cbn; [constructor; constructor|]. inversion S1 as [|? ? S2 F]; subst.
  constructor; [apply IH; auto; intros; apply H; right; auto|]. apply Forall_app. split; auto. constructor; auto. apply H. left; auto.
Qed.

Section Init.
Variable c : pubConfig.
Variable L : hlog.
Hypothesis HL : okTimes L.
Local Notation n := (h_n L).
Local Notation ts := (h_ts L).
Local Notation g := (h_g L).
Local Notation w := (pc_rmw c).
Local Notation fresh x := (isExpired (pc_maxLife c) (ts x) (ts (n - 1)) = false).

Definition found (starting a len left right : N) (xs : list N) : Prop :=
  DIn ts w a len left right starting /\ fresh starting /\
  exists ys, xs = starting :: ys /\ StronglySorted (fun a b => b < a) xs /\
    forall y, In y ys <-> sanc n starting y /\ a <= y < starting /\ fresh y.

Lemma found_right starting a len left right xs : SRange n a len -> left + w <= right -> lsize len + 1 < len ->
  found starting (sroot a len + 1) (len - lsize len - 1) (ts (sroot a len)) right xs ->
  found starting a len left right (if isExpired (pc_maxLife c) (ts (sroot a len)) (ts (n - 1)) then xs else xs ++ [sroot a len]).
Proof.
  pose proof (w_n L HL) as Hn. intros R ED Hr (D & Fs & ys & -> & SS & I).
  destruct (nav_len n a len Hn R) as (L1 & L2 & L3).
  assert (Hst : sroot a len < starting < a + len) by (apply DIn_range in D; unfold sroot in *; lia).
  assert (SA : sanc n starting (sroot a len)) by (exists a, len; repeat split; auto; unfold sroot in *; lia).
  split; [apply DI_right; auto|]. split; [exact Fs|].
  assert (J : forall y, sanc n starting y /\ a <= y < starting /\ fresh y <->
    (sanc n starting y /\ sroot a len + 1 <= y < starting /\ fresh y) \/ (y = sroot a len /\ fresh y)).
  { intro y. split.
    - intros (A & B & C). destruct (N.lt_trichotomy y (sroot a len)) as [T|[->|T]].
      + exfalso. apply (sanc_left n a len starting y Hn R); auto; lia.
      + right. auto.
      + left. repeat split; auto; lia.
    - intros [(A & B & C)|[-> C]]; repeat split; auto; unfold sroot in *; lia. }
  destruct (isExpired _ (ts (sroot a len)) _) eqn:Ex.
  - exists ys. split; [reflexivity|]. split; [exact SS|]. intro y. rewrite I, J. split; [auto|]. intros [A|[-> A]]; auto. congruence.
  - exists (ys ++ [sroot a len]). split; [reflexivity|]. split.
    + apply sorted_snoc; auto. intros y [<-|Hy]; [lia|]. apply I in Hy. lia.
    + intro y. rewrite in_app_iff, I, J. cbn [In]. split; [intros [A|[<-|[]]]; auto|intros [A|[-> _]]; auto].
Qed.

Lemma found_here a len left right : SRange n a len -> left + w <= right -> fresh (sroot a len) -> found (sroot a len) a len left right [sroot a len].
Proof.
  pose proof (w_n L HL) as Hn. intros R ED Fs. split; [constructor; auto|]. split; [exact Fs|]. exists []. split; [reflexivity|]. split; [repeat constructor|].
  intro y. split; [intros []|]. intros (A & B & C). apply (sanc_left n a len (sroot a len) y Hn R); auto; lia.
Qed.

Lemma found_left starting a len left right xs : left + w <= right -> 0 < lsize len ->
  found starting a (lsize len) left (ts (sroot a len)) xs -> found starting a len left right xs.
Proof. intros ED Hl (D & Fs & ys & I). split; [apply DI_left; auto|]. split; auto. exists ys. exact I. Qed.

Lemma initEntries_eq m starting : watches m L -> initEntries c m starting = init_rec c 66 m starting (sroot 0 n) 0 (ts (n - 1)).
Proof. intros (Em & Er). unfold initEntries. rewrite Em, Er. destruct (c09_entries n (w_n L HL)) as (-> & _). reflexivity. Qed.

Section Sound.
Context {S : Type}.
Variable P : provider S.

Lemma init_true m starting fuel : mo_size m = n -> mo_rightmost m = ts (n - 1) -> forall a len left right s xs s' l,
  SRange n a len -> (forall y, a <= y < a + len -> left <= ts y <= right) -> right < two64 ->
  run P (init_rec c fuel m starting (sroot a len) left right) s = (Ok xs, s', l) -> Forall (trueEvent L) l ->
  found starting a len left right xs.
Proof.
  pose proof (w_n L HL) as Hn. intros Em Er.
  induction fuel as [|f IH]; intros a len left right s xs s' l R B H64 H F; [discriminate|].
  cbn [init_rec] in H. rewrite Em, Er in H.
  destruct (nav_len n a len Hn R) as (L1 & L2 & L3).
  assert (Hx : a <= sroot a len < a + len) by (unfold sroot; lia).
  pose proof (B _ Hx) as Bx.
  destruct (isDistinguished w left right) eqn:ED; cbn [negb] in H; [|discriminate].
  apply isDist_spec in ED; [|lia|auto].
  apply run_bind_ok in H as (t & s1 & l1 & l2 & E1 & H & ->). apply Forall_app in F as [F1 F].
  apply (getTs_true P L) in E1; auto; [|lia]. subst t. cbn zeta in H.
  destruct (N.ltb_spec (sroot a len) starting) as [Lt|Ge].
  - rewrite (nav_noRight n a len Hn R) in H. destruct (N.eqb_spec len (lsize len + 1)) as [El|El]; [discriminate|].
    assert (Hr : lsize len + 1 < len) by lia. rewrite (nav_right n a len Hn R Hr) in H. cbn [lift pbind] in H.
    apply run_bind_ok in H as (xs1 & s2 & l3 & l4 & E2 & H & ->). apply Forall_app in F as [F2 _].
    cbn in H. injection H as <- <- <-. apply found_right; auto.
    apply (IH _ _ _ _ s1 xs1 s2 l3); auto.
    + constructor; auto.
    + intros y Hy. unfold sroot in *. split; [apply (w_mono L HL); lia|apply B; lia].
  - destruct (N.eqb_spec (sroot a len) starting) as [<-|Ne].
    + destruct (isExpired _ _ _) eqn:Ex; [discriminate|]. cbn in H. injection H as <- <- <-. apply found_here; auto.
    + rewrite (nav_noLeft n a len Hn R) in H. destruct (N.eqb_spec (lsize len) 0) as [Nz|Nz]; [discriminate|]. cbn [orb] in H.
      destruct (isExpired _ _ _) eqn:Ex; [discriminate|]. assert (Hl : 0 < lsize len) by lia.
      rewrite (nav_left n a len Hn R Hl) in H. cbn [lift pbind] in H. apply found_left; auto.
      apply (IH _ _ _ _ s1 xs s' l2); auto.
      * constructor; auto.
      * intros y Hy. unfold sroot in *. split; [apply B; lia|apply (w_mono L HL); lia].
      * apply (w_64 L HL). lia.
Qed.

Local Opaque init_rec initEntries.

Lemma initLadders_true xs : forall vers s u s' l, Forall (fun x => x < n) xs ->
  run P (initLadders xs vers) s = (Ok u, s', l) -> Forall (trueEvent L) l ->
  forall i x, nth_error xs i = Some x -> g x = claimed vers i.
Proof.
  induction xs as [|x xs IH]; intros vers s u s' l HF H F i y E; [destruct i; discriminate|].
  inversion HF as [|? ? Hx HF']; subst. destruct vers as [|v vers]; cbn [initLadders] in H.
  - apply run_bind_ok in H as (r & s1 & l1 & l2 & E1 & H & ->). apply Forall_app in F as [F1 F].
    apply (getLadder_true P L) in E1; auto. subst r. destruct (Z.eqb_spec (cmp3 (g x) 0) (-1)) as [C|]; [|discriminate]. cbn [negb] in H.
    apply cmp3_neg in C. pose proof (w_g L HL x Hx). destruct i as [|i]; cbn in E.
    + injection E as <-. unfold claimed. cbn. lia.
    + rewrite (IH [] s1 u s' l2 HF' H F i y E). unfold claimed. destruct i; reflexivity.
  - apply run_bind_ok in H as (r & s1 & l1 & l2 & E1 & H & ->). apply Forall_app in F as [F1 F].
    apply (getLadder_true P L) in E1; auto. subst r. destruct (Z.eqb_spec (cmp3 (g x) v) 0) as [C|]; [|discriminate]. cbn [negb] in H.
    apply cmp3_eq in C. destruct i as [|i]; cbn in E.
    + injection E as <-. unfold claimed. cbn. lia.
    + apply (IH vers s1 u s' l2 HF' H F i y E).
Qed.

Lemma ownerInit_true m starting vers s xs m' s' l : watches m L ->
  run P (ownerInit c m starting vers) s = (Ok (xs, m'), s', l) -> Forall (trueEvent L) l ->
  mo_owner m = None /\ distinguished n ts w starting /\ unexpired c L starting /\ initialEntries c L starting xs /\
  (List.length vers <= List.length xs)%nat /\ (forall i x, nth_error xs i = Some x -> g x = claimed vers i) /\
  m' = {| mo_rightmost := mo_rightmost m; mo_size := mo_size m; mo_contact := mo_contact m;
          mo_owner := Some {| os_starting := starting; os_verAt := g starting; os_upcoming := [] |} |}.
Proof.
  pose proof (w_n L HL) as Hn. intros (Em & Er) H F. unfold ownerInit in H. destruct (mo_owner m); [discriminate|]. split; [reflexivity|].
  apply run_bind_ok in H as (xs0 & s1 & l1 & l2 & E1 & H & ->). apply Forall_app in F as [F1 F].
  rewrite (initEntries_eq m starting (conj Em Er)) in E1.
  apply (init_true m starting 66 Em Er 0 n 0 (ts (n - 1)) s xs0 s1 l1) in E1; auto.
  2:{ constructor. }
  2:{ intros y Hy. split; [lia|]. apply (w_mono L HL). lia. }
  2:{ apply (w_64 L HL). lia. }
  destruct (Nat.ltb_spec (List.length xs0) (List.length vers)) as [|Len]; [discriminate|].
  destruct (nonIncreasing vers) eqn:EN; cbn [negb] in H; [|discriminate].
  apply run_bind_ok in H as (u & s2 & l3 & l4 & E2 & H & ->). apply Forall_app in F as [F2 F]. cbn in H. injection H as -> <- <- <-.
  destruct E1 as (D & Fs & ys & -> & SS & I).
  assert (Hst : starting < n) by (apply DIn_range in D; lia).
  assert (C : forall i x, nth_error (starting :: ys) i = Some x -> g x = claimed vers i).
  { apply (initLadders_true _ vers s1 u s2 l3); auto. constructor; auto. rewrite Forall_forall. intros y Hy. apply I in Hy. lia. }
  split; [exact D|]. split; [exact Fs|]. split.
  { exists ys. split; [reflexivity|]. split; [exact SS|]. intro y. rewrite I. unfold unexpired. split; intros (A & B & B'); repeat split; auto; lia. }
  split; [exact Len|]. split; [exact C|]. rewrite (C 0%nat starting eq_refl). unfold claimed. destruct vers; reflexivity.
Qed.
End Sound.

Section Complete.
Hypothesis HL2 : okLog L.
Lemma fresh_mono x y : x <= y < n -> fresh x -> fresh y.
Proof.
  intros H Fx. pose proof (expd_mono c L HL2 x y H) as M. unfold expd in M. destruct (isExpired _ (ts y) _); auto. rewrite M in Fx; auto.
Qed.

Local Transparent init_rec.
Lemma init_honest m starting fuel : mo_size m = n -> mo_rightmost m = ts (n - 1) -> fresh starting -> forall a len left right s,
  SRange n a len -> (forall y, a <= y < a + len -> left <= ts y <= right) -> right < two64 -> N.log2 len < N.of_nat fuel ->
  DIn ts w a len left right starting ->
  exists xs s', runs (honest L) (init_rec c fuel m starting (sroot a len) left right) s (Ok xs) s' noQ /\ found starting a len left right xs.
Proof.
  pose proof (w_n L HL) as Hn. intros Em Er Fs.
  induction fuel as [|f IH]; intros a len left right s R B H64 Hf D; [lia|].
  cbn [init_rec]. rewrite Em, Er.
  destruct (nav_len n a len Hn R) as (L1 & L2 & L3).
  assert (Hx : a <= sroot a len < a + len) by (unfold sroot; lia).
  pose proof (B _ Hx) as Bx. pose proof (DIn_bound _ _ _ _ _ _ _ D) as ED. pose proof (DIn_range _ _ _ _ _ _ _ D L1) as Hst.
  assert (ED' : isDistinguished w left right = true) by (apply isDist_spec; auto; lia). rewrite ED'. cbn [negb]. cbn zeta.
  destruct (N.ltb_spec (sroot a len) starting) as [Lt|Ge].
  - assert (Hr : lsize len + 1 < len) by (unfold sroot in *; lia).
    destruct (IH (sroot a len + 1) (len - lsize len - 1) (ts (sroot a len)) right s) as (xs & s' & A & FD); auto.
    + constructor; auto.
    + intros y Hy. unfold sroot in *. split; [apply (w_mono L HL); lia|apply B; lia].
    + pose proof (rsize_log len Hr). lia.
    + inversion D as [? ? ? ? D1|? ? ? ? ? D1 D2 D3|? ? ? ? ? D1 D2 D3]; subst; [lia| |exact D3]. apply DIn_range in D3; [|lia]. unfold sroot in *. lia.
    + eexists _, s'. split; [|apply found_right; [exact R|exact ED|exact Hr|exact FD]].
      eapply runs_bind; [apply runs_getTs'; lia|]. rewrite (nav_noRight n a len Hn R). destruct (N.eqb_spec len (lsize len + 1)) as [Nz|Nz]; [lia|].
      eapply runs_bind; [apply runs_lift, (nav_right n a len Hn R Hr)|]. eapply runs_bind; [exact A|]. apply runs_ret.
  - destruct (N.eqb_spec (sroot a len) starting) as [<-|Ne].
    + eexists _, s. split; [|apply found_here; auto]. eapply runs_bind; [apply runs_getTs'; lia|]. rewrite Fs. apply runs_ret.
    + assert (Hl : 0 < lsize len) by (unfold sroot in *; lia).
      destruct (IH a (lsize len) left (ts (sroot a len)) s) as (xs & s' & A & FD); auto.
      * constructor; auto.
      * intros y Hy. unfold sroot in *. split; [apply B; lia|apply (w_mono L HL); lia].
      * apply (w_64 L HL). lia.
      * pose proof (lsize_log len Hl). lia.
      * inversion D as [? ? ? ? D1|? ? ? ? ? D1 D2 D3|? ? ? ? ? D1 D2 D3]; subst; [congruence|exact D3|]. apply DIn_range in D3; [|lia]. unfold sroot in *. lia.
      * eexists _, s'. split; [|apply found_left; [exact ED|exact Hl|exact FD]].
        eapply runs_bind; [apply runs_getTs'; lia|]. rewrite (nav_noLeft n a len Hn R). destruct (N.eqb_spec (lsize len) 0) as [Nz|Nz]; [lia|]. cbn [orb].
        rewrite (fresh_mono starting (sroot a len)) by (auto; lia).
        eapply runs_bind; [apply runs_lift, (nav_left n a len Hn R Hl)|exact A].
Qed.

Local Opaque init_rec initEntries.

Lemma initLadders_honest xs : forall vers s, Forall (fun x => x < n) xs -> (forall i x, nth_error xs i = Some x -> g x = claimed vers i) ->
  exists s', runs (honest L) (initLadders xs vers) s (Ok tt) s' noQ.
Proof.
  induction xs as [|x xs IH]; intros vers s HF H; [exists s; apply runs_ret|].
  inversion HF as [|? ? Hx HF']; subst. pose proof (H 0%nat x eq_refl) as H0. unfold claimed in H0.
  destruct vers as [|v vers]; cbn in H0; cbn [initLadders].
  - destruct (IH [] (s + 1) HF') as (s' & A).
    { intros i y E. rewrite (H (Datatypes.S i) y E). unfold claimed. destruct i; reflexivity. }
    exists s'. eapply runs_bind; [apply runs_getLadder; [exact Hx|exact I]|]. replace (cmp3 (g x) 0) with (-1)%Z; [exact A|].
    destruct (cmp3_cases (g x) 0) as [[B C]|[[B C]|[B C]]]; lia.
  - destruct (IH vers (s + 1) HF') as (s' & A).
    { intros i y E. apply (H (Datatypes.S i) y E). }
    exists s'. eapply runs_bind; [apply runs_getLadder; [exact Hx|exact I]|]. replace (cmp3 (g x) v) with 0%Z; [exact A|].
    destruct (cmp3_cases (g x) v) as [[B C]|[[B C]|[B C]]]; lia.
Qed.

Lemma claimed_decreasing xs : forall vers, (List.length vers <= List.length xs)%nat -> Forall (fun x => x < n) xs -> StronglySorted (fun a b => b < a) xs ->
  (forall i x, nth_error xs i = Some x -> g x = claimed vers i) -> nonIncreasing vers = true.
Proof.
  induction xs as [|x xs IH]; intros vers Len HF SS H; [destruct vers; [reflexivity|cbn in Len; lia]|].
  destruct vers as [|v [|v' vers]]; try reflexivity. destruct xs as [|x' xs]; [cbn in Len; lia|].
  inversion SS as [|? ? S1 F1]; subst. inversion F1 as [|? ? F2 _]; subst. inversion HF as [|? ? Hx HF']; subst.
  change (nonIncreasing (v :: v' :: vers)) with ((v' <=? v) && nonIncreasing (v' :: vers)). apply andb_true_iff. split.
  - apply N.leb_le. pose proof (H 0%nat x eq_refl) as A. pose proof (H 1%nat x' eq_refl) as B. unfold claimed in A, B. cbn in A, B.
    pose proof (log_gmono L HL2 x' x). lia.
  - apply (IH (v' :: vers)); auto; [cbn in *; lia|]. intros i y E. apply (H (Datatypes.S i) y E).
Qed.

Lemma ownerInit_honest m starting vers s : watches m L -> mo_owner m = None -> distinguished n ts w starting -> unexpired c L starting ->
  exists xs, initialEntries c L starting xs /\
  ((List.length vers <= List.length xs)%nat -> (forall i x, nth_error xs i = Some x -> g x = claimed vers i) ->
   exists m', result (run (honest L) (ownerInit c m starting vers) s) = Ok (xs, m')).
Proof.
  pose proof (w_n L HL) as Hn. intros (Em & Er) Eo D Fs.
  destruct (init_honest m starting 66 Em Er Fs 0 n 0 (ts (n - 1)) s) as (xs & s1 & A & FD); auto.
  - constructor.
  - intros y Hy. split; [lia|]. apply (w_mono L HL). lia.
  - apply (w_64 L HL). lia.
  - pose proof (log_fuel n 0 n Hn (SR_root _)). lia.
  - destruct FD as (_ & _ & ys & -> & SS & I). assert (Hst : starting < n) by (apply DIn_range in D; lia).
    assert (HF : Forall (fun x => x < n) (starting :: ys)).
    { constructor; auto. rewrite Forall_forall. intros y Hy. apply I in Hy. lia. }
    exists (starting :: ys). split.
    { exists ys. split; [reflexivity|]. split; [exact SS|]. intro y. rewrite I. unfold unexpired. split; intros (B & C & C'); repeat split; auto; lia. }
    intros Len C. destruct (initLadders_honest _ vers s1 HF C) as (s2 & A2).
    assert (EN : nonIncreasing vers = true) by (apply (claimed_decreasing (starting :: ys)); auto).
    destruct A as (l & A & _). destruct A2 as (l2 & A2 & _).
    unfold ownerInit. rewrite Eo, run_bind, (initEntries_eq m starting (conj Em Er)), A. cbn [andThen].
    destruct (Nat.ltb_spec (List.length (starting :: ys)) (List.length vers)); [lia|]. rewrite EN. cbn [negb]. rewrite run_bind, A2. cbn. eexists. reflexivity.
Qed.
End Complete.
End Init.
