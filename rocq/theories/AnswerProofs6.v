(** Which requests for owner monitoring an honest server answers. *)
From Coq Require Import Sorted Permutation.
From Verif Require Import Base BaseProofs LogMathSpec LogTreeModel LogTreeSpec PrefixModel PrefixSpec TransMathModel TransMathSpec TransMathProofs2 LaddersModel
  CodecModel CodecSpec AlgModel AlgSpec AlgProofs AlgProofs4 AlgProofs6 WatchSpec WatchProofs HandleModel HandleSpec HandleProofs HandleProofs2 HandleProofs3 HandleProofs5 HandleProofs6 HandleProofs7
  StoreModel CommitModel MutateModel MutateSpec ServerModel ClientModel ClientSpec ClientProofs2 MutateProofs2 MutateProofs5 MutateProofs7 SearchProofs SearchProofs2 SearchProofs3 TimeProofs AlarmProofs SteadySpec SteadyProofs
  AnswerSpec AnswerSpec2 AnswerProofs AnswerProofs2 AnswerProofs3 AnswerProofs5.
Open Scope N_scope.
Local Open Scope list_scope.

(** ** The state the server sets up *)

Lemma sorted_split s : forall index, StronglySorted N.le index -> Forall (fun p => p <= s) (firstn (countLe s index) index) /\ Forall (fun p => s < p) (skipn (countLe s index) index).
Proof.
  intros index H. induction H as [|a l H IH F]; [split; constructor|]. unfold countLe in *. cbn [filter]. destruct (N.leb_spec a s); cbn [List.length firstn skipn].
  - split; [constructor; [exact H0|apply IH]|apply IH].
  - assert (filter (fun p : N => p <=? s) l = []) as ->.
    { clear -F H0. induction F as [|b l Hb F IH]; [reflexivity|]. cbn [filter]. destruct (N.leb_spec b s); [lia|exact IH]. }
    cbn. split; [constructor|]. constructor; [exact H0|]. eapply Forall_impl; [|exact F]. cbn. intros; lia.
Qed.

Lemma firstn_split {A} (index : list A) k G : (k <= G)%nat -> firstn G index = firstn k index ++ firstn (G - k) (skipn k index).
Proof. intro H. revert G index H. induction k as [|k IH]; intros G index H; [cbn; now rewrite Nat.sub_0_r|]. destruct G as [|G]; [lia|]. destruct index as [|a l]; cbn; [now rewrite firstn_nil|]. f_equal. apply IH. lia. Qed.

Lemma Forall_firstn' {A} (P : A -> Prop) k l : Forall P l -> Forall P (firstn k l).
Proof. intro F. apply Forall_forall. rewrite Forall_forall in F. intros x I. apply F. rewrite <- (firstn_skipn k l). apply in_app_iff. now left. Qed.

Lemma sorted_firstn G : forall index, StronglySorted N.le index -> StronglySorted N.le (firstn G index).
Proof. induction G as [|G IH]; intros index H; [constructor|]. destruct H as [|a l H F]; [constructor|]. cbn [firstn]. constructor; [apply IH, H|apply Forall_firstn', F]. Qed.

Lemma none_le s l : Forall (fun p => s < p) l -> countLe s l = 0%nat.
Proof. induction 1 as [|a l Ha F IH]; [reflexivity|]. unfold countLe in *. cbn [filter]. destruct (N.leb_spec a s); [lia|exact IH]. Qed.

Lemma all_le s l : Forall (fun p => p <= s) l -> countLe s l = List.length l.
Proof. induction 1 as [|a l Ha F IH]; [reflexivity|]. unfold countLe in *. cbn [filter]. destruct (N.leb_spec a s); [cbn [List.length]; now f_equal|lia]. Qed.

Lemma known_tracked index s G : StronglySorted N.le index -> (countLe s index <= G)%nat ->
  tracks (firstn G index) {| os_starting := s; os_verAt := (Z.of_nat (countLe s index) - 1)%Z; os_upcoming := firstn (G - countLe s index) (skipn (countLe s index) index) |}.
Proof.
  intros So HG. destruct (sorted_split s index So) as (F1 & F2). set (k := countLe s index) in *.
  pose proof (count_short s index) as Sh. fold k in Sh.
  unfold tracks. cbn [os_upcoming os_starting os_verAt]. rewrite (firstn_split index k G HG).
  assert (F3 : Forall (fun p => s < p) (firstn (G - k) (skipn k index))) by (apply Forall_firstn'; exact F2).
  split.
  - rewrite filter_app. assert (filter (fun p => s <? p) (firstn k index) = []) as ->.
    { clear -F1. induction F1 as [|a l Ha F IH]; [reflexivity|]. cbn [filter]. destruct (N.ltb_spec s a); [lia|exact IH]. }
    cbn [app]. clear -F3. induction F3 as [|a l Ha F IH]; [reflexivity|]. cbn [filter]. destruct (N.ltb_spec s a); [|lia]. now f_equal.
  - rewrite countLe_app, (none_le s _ F3), (all_le s _ F1), firstn_length. lia.
Qed.

Lemma whole_set index s : StronglySorted N.le index -> s < two64 - 1 ->
  setStarting (wholeState index) s = Ok {| os_starting := s; os_verAt := (Z.of_nat (countLe s index) - 1)%Z; os_upcoming := skipn (countLe s index) index |}.
Proof. intros S Hs. unfold setStarting, wholeState. cbn [os_upcoming os_verAt]. destruct (bsearch_spec index s S Hs) as [-> _]. reflexivity. Qed.

Lemma contact_keeps c {S} (P : provider S) m s m' s' l : run P (contactMonitor c m) s = (Ok m', s', l) -> mo_size m' = mo_size m /\ mo_rightmost m' = mo_rightmost m /\ mo_owner m' = mo_owner m.
Proof.
  unfold contactMonitor. destruct (mo_contact m) as [ptrs|]; [|intros [= <- _ _]; auto]. intro H. apply split_bind in H as (b & s1 & e1 & e2 & _ & H). cbn in H. injection H as <- _ _. cbn. auto.
Qed.

Lemma run_both c L mc m' s1 e1 o : run (honest L) (contactMonitor c mc) 0 = (Ok m', s1, e1) -> result (run (honest L) (ownerMonitor c m') s1) = Ok o ->
  result (run (honest L) (pbind (contactMonitor c mc) (ownerMonitor c)) 0) = Ok o.
Proof. intros E1 E2. rewrite run_bind, E1. cbn [andThen]. destruct (run (honest L) (ownerMonitor c m') s1) as [[r2 s2] e2]. exact E2. Qed.

Lemma contact_then_smooth L (HL : okLog L) c (Hnn : 1 <= h_n L < 2 ^ 64) known (S1 : StronglySorted N.le known)
  (Hle : forall x, x < h_n L -> (ver known x <= h_g L x)%Z) (Hlt : forall x y, x <= y < h_n L -> (ver known x < h_g L x)%Z -> (ver known y < h_g L y)%Z) m os :
  mo_size m = h_n L -> mo_owner m = Some os -> tracks known os ->
  (forall ptrs x v, mo_contact m = Some ptrs -> mget ptrs x = Some v -> x < h_n L /\ (Z.of_N v <= h_g L x)%Z) ->
  forall s r s' evs, run (honest L) (pbind (contactMonitor c m) (ownerMonitor c)) s = (r, s', evs) -> smooth L tracker0 evs.
Proof.
  intros Em Eo TK HC s r s' evs R. rewrite run_bind in R.
  destruct (pre_run L (contactMonitor c m) tracker0 _ s (pre_contact L HL c Hnn m tracker0 Em HC)) as (r1 & s1 & e1 & tr & E1 & Sm & Q). rewrite E1 in R.
  destruct r1 as [m'|e|e|]; cbn [andThen] in R; try (injection R as _ _ <-; specialize (Sm [] Logic.I); now rewrite app_nil_r in Sm).
  destruct (contact_keeps c _ _ _ _ _ _ E1) as (K1 & K2 & K3).
  destruct (om_smooth L HL c Hnn known S1 Hle Hlt m' os s1) as (r2 & s2 & e2 & E2 & Sm2); [congruence|congruence|exact TK|]. rewrite E2 in R. injection R as _ _ <-. apply Sm, Sm2.
Qed.

Lemma right_possible rs l o : lenN (labelsNow rs l) < 2 ^ 31 -> rightState rs l o -> possibleState rs l (os_starting o) (ownerGreatest o).
Proof.
  intros Hb (H1 & H2 & H3). split; [exact H1|]. unfold ownerGreatest. set (g := (os_verAt o + Z.of_nat (List.length (os_upcoming o)))%Z) in *.
  change (2 ^ 31) with 2147483648 in Hb. unfold lenN in *. destruct (Z.leb_spec 0 g) as [G|G].
  - unfold toU32. rewrite Z.mod_small by lia. lia.
  - lia.
Qed.

Section Run.
Variable f : bytes -> bytes.
Variable hs : N.
Hypothesis Hf : forall x, lenN (f x) = hs.
Hypothesis Hhs : 0 < hs <= 32.
Variable c : pubConfig.
Variable vrf : bytes -> bytes * bytes.
Variable Ls : list bytes.
Hypothesis HV : vrfGood hs vrf Ls.
Variable sign : bytes -> res bytes.
Variable now : N.
Local Notation valid := (fun tbs sg : bytes => sign tbs = Ok sg).

Theorem owner_answered t rs l : runs (full f) hs c vrf sign Ls t rs -> rs <> [] -> In l Ls -> Forall (fun r => ~ In l (rq_remove r)) rs -> lenN (labelsNow rs l) < 2 ^ 31 ->
  clockFine c now (latest rs) -> forall last es start greatest, optSize (lenN rs) last ->
  (exists answer, serverOwnerMonitor (full f) hs c vrf now (serverOf t) {| oq_last := last; oq_label := l; oq_entries := es; oq_start := start; oq_greatest := greatest |} = Ok answer) <->
  goodPairs rs l es /\ possibleState rs l start greatest.
Proof.
  intros R NE Hl Fr Hb Cl last es start greatest OP. destruct (history f hs Hf Hhs c vrf Ls HV sign now t rs l R NE Hl Fr Hb) as (E & T & HE & A & Ln & HF & Hts & Hla). cbn zeta in HF, Hts, Hla.
  set (W := worldOf f hs vrf (durable (t_tx t)) E l) in *. pose proof (SearchProofs.Hn1 f hs W HF) as NB. change (lenN (w_entries W)) with (lenN (entriesOf E)) in NB.
  rewrite Ln in OP. rewrite <- Hla in Cl. assert (H63 : lenN (entriesOf E) <= 2 ^ 63) by apply HF.
  set (index := map pv_pos (current E l)).
  assert (Fp : Forall (fun p => p < lenN (entriesOf E)) index /\ StronglySorted N.le index).
  { destruct T as (HD & _). destruct (ds_positions _ _ _ _ _ _ HD l Hl) as (S & F & _). split; [|exact S]. apply Forall_map. eapply Forall_impl; [|exact F].
    cbn. intros q Hq. replace (lenN (entriesOf E)) with (lenN E) by (unfold lenN, entriesOf; now rewrite map_length). exact Hq. }
  destruct Fp as (Fp & So).
  assert (Li : List.length (labelsNow rs l) = List.length index) by (rewrite A; unfold index; now rewrite map_length).
  assert (Vb : versionsBy rs l start = countLe start index) by (unfold versionsBy, index; rewrite A, count_map; reflexivity).
  assert (Pair : forall x v, pairOk index (lenN (entriesOf E)) (x, v) <-> exists p, nth_error (labelsNow rs l) (N.to_nat v) = Some p /\ pv_pos p <= x /\ sanc (lenN rs) (pv_pos p) x).
  { intros x v. rewrite (pair_is _ _ x v NB Fp), A, Ln. unfold index. split.
    - intros (x0 & Ex & K). rewrite nth_error_map in Ex. destruct (nth_error (current E l) (N.to_nat v)) as [p|]; [|discriminate]. injection Ex as <-. exists p. auto.
    - intros (p & Ep & K). exists (pv_pos p). rewrite nth_error_map, Ep. auto. }
  destruct (head_ok f hs c vrf Ls valid t E T HE) as (th & Eth & Sth & _).
  pose proof (count_short start index) as Sh.
  set (k := countLe start index) in *.
  split.
  - intros (answer & S). unfold serverOwnerMonitor in S. cbn [oq_last oq_label oq_entries oq_start oq_greatest] in S. apply bind_ok in S as (op & So1 & S). apply bind_ok in S as (ptrs & V & S).
    destruct (monitored f hs Hf Hhs c vrf Ls HV valid now t E T HE l Hl HF last (fun _ => Ret tt) tt OP Cl) as (op' & _ & _ & So2 & On & Oi & _).
    { intros s r s' evs Er. cbn in Er. injection Er as _ _ <-. exact Logic.I. }
    { reflexivity. }
    rewrite So1 in So2. injection So2 as <-. fold index in Oi. rewrite On, Oi in V. apply verify_ok in V as (Ri & F). split.
    { split; [exact Ri|]. intros x v I. apply Pair. rewrite Forall_forall in F. exact (F _ I). }
    cbn [serverOf sv_head] in S. rewrite Eth, Sth, Oi in S. destruct (N.leb_spec (lenN (entriesOf E)) start) as [|Hst]; [discriminate|].
    assert (Hs64 : start < two64 - 1) by (change (2 ^ 63) with 9223372036854775808 in H63; unfold two64; lia).
    fold (wholeState index) in S. rewrite (whole_set index start So Hs64) in S. fold k in S. cbn [bind os_verAt os_upcoming] in S.
    split; [rewrite Ln; exact Hst|]. rewrite Vb. destruct greatest as [g|].
    + destruct (N.leb_spec (lenN index) g) as [|Hg]; [discriminate|]. split; [unfold lenN in *; rewrite Li; exact Hg|].
      destruct (Z.ltb_spec (-1) (Z.of_nat k - 1)); cbn [andb] in S; [|lia]. destruct (Z.ltb_spec (Z.of_N g) (Z.of_nat k - 1)); [discriminate|]. lia.
    + cbn [andb] in S. destruct (Z.ltb_spec (-1) (Z.of_nat k - 1)); cbn [andb] in S; [discriminate|]. lia.
  - intros ((Ri & G) & Hst & Gr). rewrite Ln in Hst. rewrite Vb in Gr.
    assert (Hs64 : start < two64 - 1) by (change (2 ^ 63) with 9223372036854775808 in H63; unfold two64; lia).
    set (Gn := match greatest with Some g => S (N.to_nat g) | None => 0%nat end).
    assert (HG : (k <= Gn <= List.length index)%nat) by (unfold Gn; destruct greatest as [g|]; [destruct Gr as [Gr1 Gr2]; unfold lenN in Gr1; rewrite Li in Gr1; lia|lia]).
    set (os := {| os_starting := start; os_verAt := (Z.of_nat k - 1)%Z; os_upcoming := firstn (Gn - k) (skipn k index) |}).
    assert (TK : tracks (firstn Gn index) os) by (apply known_tracked; [exact So|apply HG]).
    assert (S1 : StronglySorted N.le (firstn Gn index)) by (apply sorted_firstn; exact So).
    assert (EI : index = firstn Gn index ++ skipn Gn index) by (symmetry; apply firstn_skipn).
    assert (Hgo : forall x, h_g (observed W) x = (Z.of_nat (countLe x index) - 1)%Z) by reflexivity.
    assert (Hle : forall x, x < h_n (observed W) -> (ver (firstn Gn index) x <= h_g (observed W) x)%Z).
    { intros x _. rewrite Hgo. unfold ver. rewrite EI at 2. rewrite countLe_app. lia. }
    assert (Hlt : forall x y, x <= y < h_n (observed W) -> (ver (firstn Gn index) x < h_g (observed W) x)%Z -> (ver (firstn Gn index) y < h_g (observed W) y)%Z).
    { intros x y Hxy. rewrite !Hgo. unfold ver. rewrite EI at 2 4. rewrite !countLe_app. intros H. assert (countLe y (skipn Gn index) <> 0%nat); [|lia]. intros Z.
      pose proof (count_zero x y _ (proj1 Hxy) Z). lia. }
    assert (F : Forall (pairOk index (lenN (entriesOf E))) es) by (apply Forall_forall; intros [x v] I; apply Pair, G, I).
    pose proof (rising_once es Ri) as ND. pose proof (verify_pairs es _ _ Ri F) as V.
    assert (Po : forall y v, mget (contactPtrs es) y = Some v <-> In (y, v) es) by (apply (GuardProofs4.contactPtrs_in 0 (fun b => (b, b)) [] (fun _ _ => True) es ND)).
    assert (In0 : forall y v, In (y, v) (contactPtrs es) -> In (y, v) es) by (intros; now apply CalmProofs3.contactPtrs_in).
    assert (Bd : forall x v, In (x, v) es -> x < lenN (entriesOf E) /\ (Z.of_N v <= h_g (observed W) x)%Z).
    { intros x v I. destruct (G x v I) as (p & Ep & Lx & Sa). split; [rewrite <- Ln; apply (sanc_lt (lenN rs) (pv_pos p) x); [rewrite Ln; exact NB|exact Sa]|].
      rewrite Hgo. rewrite A in Ep. pose proof (map_nth_error pv_pos _ _ Ep) as Em. pose proof (proj2 (count_nth x _ _ _ So Em) Lx). lia. }
    set (mo := {| mo_rightmost := h_ts (observed W) (lenN (entriesOf E) - 1); mo_size := lenN (entriesOf E); mo_contact := None; mo_owner := None |}).
    set (mc := withOwner (withContact mo (contactPtrs es)) os).
    assert (Rn : exists m', result (run (honest (observed W)) (contactMonitor c mc) 0) = Ok m').
    { eapply (contact_honest c (observed W) (proj1 HF)); [split; reflexivity|reflexivity| | |].
      - rewrite ptrs_rev, map_rev. eapply Permutation_NoDup; [apply Permutation_rev|exact ND].
      - intros x v I. apply Bd, In0, I.
      - intros x v y u Ix Iy Lt. apply In0 in Ix, Iy. clear -Ri Ix Iy Lt. induction Ri as [|a s S IH F]; [destruct Ix|]. rewrite Forall_forall in F.
        destruct Ix as [->|Ix], Iy as [Ey|Iy].
        + injection Ey as <- <-. lia.
        + apply F in Iy. cbn in Iy. lia.
        + subst a. apply F in Ix. cbn in Ix. lia.
        + auto. }
    destruct Rn as (m' & Rn). destruct (run (honest (observed W)) (contactMonitor c mc) 0) as [[r1 s1] e1] eqn:E1. cbn [result fst] in Rn. subst r1.
    destruct (contact_keeps c _ _ _ _ _ _ E1) as (K1 & K2 & K3).
    destruct (owner_ends c (observed W) (proj1 HF) (firstn Gn index) S1 m' os s1) as (m2 & Rm).
    { split; [rewrite K1; reflexivity|rewrite K2; reflexivity]. }
    { rewrite K3. reflexivity. }
    { exact TK. }
    { intros d D _. apply Hle. apply DIn_range in D; [lia|]. exact (proj1 NB). }
    destruct (monitored f hs Hf Hhs c vrf Ls HV valid now t E T HE l Hl HF last (fun m => pbind (contactMonitor c (withOwner (withContact m (contactPtrs es)) os)) (ownerMonitor c)) (inr tt, m2) OP Cl)
      as (op & d & proof & So1 & On & Oi & Om & Ex & Fi).
    { apply (contact_then_smooth (observed W) (proj1 HF) c NB (firstn Gn index) S1 Hle Hlt mc os eq_refl eq_refl TK).
      intros ptrs x v [= <-] Hm. apply Bd, Po, Hm. }
    { exact (run_both c (observed W) mc m' s1 e1 _ E1 Rm). }
    apply exec_run in Ex as (evs & Ex). apply split_bind in Ex as (b & d1 & e3 & e4 & X1 & X2).
    fold mo in Om, X1. fold mc in X1. fold index in Oi.
    assert (Y1 : exec (serverHandle hs (serverOf t)) (contactMonitor c mc) (op_d op) = Ok (b, d1)) by (apply exec_run; eauto).
    assert (Y2 : exec (serverHandle hs (serverOf t)) (ownerMonitor c b) d1 = Ok ((inr tt, m2), d)) by (apply exec_run; eauto).
    eexists. unfold serverOwnerMonitor. cbn [oq_last oq_label oq_entries oq_start oq_greatest]. rewrite So1. cbn [bind]. rewrite On, Oi, V. cbn [bind].
    cbn [serverOf sv_head]. rewrite Eth, Sth. rewrite (proj2 (N.leb_gt _ _) Hst).
    assert (C1 : match greatest with Some g => lenN index <=? g | None => false end = false).
    { destruct greatest as [g|]; [|reflexivity]. apply N.leb_gt. destruct Gr as [Gr _]. unfold lenN in *. rewrite Li in Gr. exact Gr. }
    rewrite C1. fold (wholeState index). rewrite (whole_set index start So Hs64). fold k. cbn [bind os_verAt os_upcoming os_starting].
    assert (C2 : ((-1 <? Z.of_nat k - 1)%Z && match greatest with Some g => (Z.of_N g <? Z.of_nat k - 1)%Z | None => true end) = false).
    { destruct greatest as [g|].
      - apply andb_false_iff. right. apply Z.ltb_ge. lia.
      - rewrite (proj2 (Z.ltb_ge (-1) (Z.of_nat k - 1))); [reflexivity|lia]. }
    rewrite C2.
    assert (C3 : match greatest with Some g => (Z.of_N g - (Z.of_nat k - 1))%Z | None => 0%Z end = Z.of_nat (Gn - k)).
    { unfold Gn in *. destruct greatest as [g|]; lia. }
    rewrite C3. rewrite Nat2Z.id.
    assert (C4 : ((Z.of_nat (Gn - k) <? 0)%Z || (Z.of_nat (List.length (skipn k index)) <? Z.of_nat (Gn - k))%Z) = false).
    { apply orb_false_iff. rewrite skipn_length. split; apply Z.ltb_ge; lia. }
    rewrite C4. fold os. rewrite Om. fold W. fold mo. fold mc. change (serverHandle hs {| sv_head := _; sv_db := _; sv_auditor := _ |}) with (serverHandle hs (serverOf t)).
    rewrite Y1. cbn [bind]. rewrite Y2. cbn [bind fst]. rewrite Fi. reflexivity.
Qed.

Theorem owner_state_answered t rs l : runs (full f) hs c vrf sign Ls t rs -> rs <> [] -> In l Ls -> Forall (fun r => ~ In l (rq_remove r)) rs -> lenN (labelsNow rs l) < 2 ^ 31 ->
  clockFine c now (latest rs) -> forall last es o, optSize (lenN rs) last -> goodPairs rs l es -> rightState rs l o ->
  exists answer, serverOwnerMonitor (full f) hs c vrf now (serverOf t)
    {| oq_last := last; oq_label := l; oq_entries := es; oq_start := os_starting o; oq_greatest := ownerGreatest o |} = Ok answer.
Proof.
  intros R NE Hl Fr Hb Cl last es o OP G RS. apply (owner_answered t rs l R NE Hl Fr Hb Cl _ _ _ _ OP). split; [exact G|]. apply right_possible; assumption.
Qed.
End Run.
