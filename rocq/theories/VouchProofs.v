(** Proofs for VouchProperties.v. *)
From Coq Require Import Sorted.
From Verif Require Import Base BaseProofs LogTreeModel LogTreeSpec TransMathSpec LaddersModel PrefixModel PrefixSpec PrefixProofs PrefixUpdateProofs PrefixMutateProofs2 PrefixVerifyProofs4 CodecModel CodecSpec AlgModel AlgSpec HandleModel MutateSpec ServerModel ClientModel ClientSpec
  AuditorModel AuditorSpec AuditorProofs AuditorProofs2 AuditorProofs3 AuditorProofs4 SoundProofs3 AuditTreeSpec AuditTreeProofs WatchSpec GuardSpec GuardProofs4 GuardProofs6 VouchSpec.
Open Scope N_scope.
Local Open Scope list_scope.

Section Tree.
Variable f : bytes -> bytes.
Variable hs : N.
Hypothesis Hf : forall x, lenN (f x) = hs.
Variable T : list bytes.

Lemma follows_trees b us L start : follows (full f) hs b us L -> Forall (fun u => au_removed u = [] /\ decoded hs u /\ hashedIn f T hs u) us -> treeWith f T hs b start ->
  (exists trees, Forall2 (fun e t => Canon (N.to_nat hs) [] t /\ thash (restrict f T) (N.to_nat hs) t = Some (le_root e)) L trees /\
    NoDup (map fst (start ++ flat_map au_added us)) /\
    forall i t, nth_error trees i = Some t -> forall x, In x (contents t) <-> In x (addedUpTo start us i)) \/ broken f (N.to_nat hs) T.
Proof.
  intros Fo. induction Fo as [|us L u old new Fo IH E Eo Et]; intros Fa St.
  - left. exists []. split; [constructor|]. split; [cbn; rewrite app_nil_r; apply St|]. intros [|i] t Q; discriminate.
  - destruct (follows_tree f hs Hf T b (us ++ [u]) (L ++ [{| le_ts := au_ts u; le_root := new |}]) start) as [(ND & t & C & Eh & Ct)|B]; [econstructor; eassumption|exact Fa|exact St| |auto].
    apply Forall_app in Fa as [Fa _]. destruct (IH Fa St) as [(trees & F2 & _ & K)|B]; [|auto]. left. rewrite last_snoc in Eh. cbn [le_root] in Eh.
    pose proof (follows_len f hs b us L Fo) as EL. assert (ET : List.length trees = List.length us) by (rewrite <- EL; symmetry; clear - F2; induction F2; cbn; congruence).
    exists (trees ++ [t]). split; [apply Forall2_app; [exact F2|repeat constructor; auto]|]. split; [exact ND|].
    intros i t' Q. destruct (Nat.lt_ge_cases i (List.length trees)) as [Li|Li].
    + rewrite nth_error_app1 in Q by exact Li. unfold addedUpTo. rewrite firstn_app. replace (S i - List.length us)%nat with O by lia. rewrite firstn_O, app_nil_r. exact (K i t' Q).
    + rewrite nth_error_app2 in Q by exact Li. destruct (i - List.length trees)%nat as [|k] eqn:Ek; [|destruct k; discriminate]. cbn in Q. injection Q as <-.
      unfold addedUpTo. rewrite firstn_all2 by (rewrite app_length; cbn; lia). exact Ct.
Qed.
End Tree.

Lemma signed_log f hs : (forall x, lenN (f x) = hs) -> 0 < hs ->
  forall c sign key us ps a put th a', audited (full f) hs c sign key us ps a -> Commit (full f) hs c sign put a = (Ok th, a') -> (forall s, a_state a = Some s -> as_sig s = None) ->
  exists es leaves root tbs, auditorTreeHeadTBS c (ath_ts th) (lenN us) root = Ok tbs /\ sign tbs = Ok (ath_sig th) /\ ath_size th = lenN us /\
  exists T0, forall T, incl T0 T -> Forall (fun u => au_removed u = [] /\ decoded hs u /\ hashedIn f T hs u) us ->
  forall u rest before start, us = u :: rest -> rootBefore (full f) hs u before -> treeWith f T hs before start ->
  (Mth (restrict f T) leaves root /\ exists trees, logOf (restrict f T) (N.to_nat hs) start us es leaves trees) \/ broken f (N.to_nat hs) T.
Proof.
  intros Hf Hhs c sign key us ps a put th a' A E Hs. destruct (c54_signed f hs Hf Hhs c sign key us ps a put th a' A E Hs) as (b & L & leaves & root & tbs & Fo & F2 & M & E1 & E2 & E3 & _).
  exists L, leaves, root, tbs. split; [exact E1|]. split; [exact E2|]. split; [exact E3|].
  destruct (ev_and f _ _ (ev_leaves f L leaves F2) (ev_Mth f leaves root M)) as (T0 & HT). exists T0. intros T I Fa u rest before start Q (after & Eb) St. destruct (HT T I) as [F2' M'].
  destruct (follows_first _ _ _ _ _ Fo u rest Q) as (after' & Eb'). rewrite Eb in Eb'. injection Eb' as -> _.
  destruct (follows_trees f hs Hf T b us L start Fo Fa St) as [(trees & Ft & ND & K)|B]; [|auto]. left. split; [exact M'|]. exists trees.
  pose proof (follows_len f hs b us L Fo) as EL. apply (audited_inv f hs Hf Hhs) in A as [(Fok & Hl & _) _]. pose proof (follows_ts f hs b us L Fo) as Ets.
  split; [split; [exact F2'|exact Ft]|]. split; [|split; [exact Ets|split; [exact ND|exact K]]].
  assert (LU : 1 <= lenN us) by (rewrite Q; unfold lenN; cbn; lia). assert (EN : lenN L = lenN us) by (unfold lenN; lia).
  split; [lia|]. split.
  - apply Forall_forall. intros e Ie. apply (in_map le_ts) in Ie. rewrite Ets in Ie. apply in_map_iff in Ie as (w & <- & Iw). apply (proj1 (Forall_forall _ _) Fok w Iw).
  - intros x y B. unfold timeAt. destruct (nth_error L (N.to_nat x)) as [e|] eqn:Ex; [|lia]. destruct (nth_error L (N.to_nat y)) as [e'|] eqn:Ey; [|apply nth_error_None in Ey; unfold lenN in B; lia].
    eapply (follows_mono f hs Hf Hhs sign key b us L Fo); [|exact Ex|exact Ey]. lia.
Qed.

(** ** The trees of such a log only grow *)
Section Growing.
Variables (H : bytes -> option bytes) (hs : nat) (start : list (bytes * bytes)) (us : list auditorUpdate) (es : list logEntry) (leaves : list bytes) (trees : list trie).
Hypothesis HL : logOf H hs start us es leaves trees.

Lemma tree_canon i t : nth_error trees i = Some t -> Canon hs [] t.
Proof.
  intro Q. destruct HL as ((_ & F2) & _). clear - F2 Q. revert i Q. induction F2 as [|e t' es trees (C & _) F2 IH]; intros [|i] Q; try discriminate; [injection Q as <-; exact C|exact (IH i Q)].
Qed.
Lemma added_mono i j x : (i <= j)%nat -> In x (addedUpTo start us i) -> In x (addedUpTo start us j).
Proof.
  intros Le I. unfold addedUpTo in *. apply in_app_or in I as [I|I]; apply in_or_app; [auto|right]. apply in_flat_map in I as (u & Iu & Ix). apply in_flat_map. exists u. split; [|exact Ix].
  assert (S1 : firstn (S i) us = firstn (S i) (firstn (S j) us)) by (rewrite firstn_firstn; f_equal; lia). rewrite S1 in Iu. rewrite <- (firstn_skipn (S i) (firstn (S j) us)). apply in_or_app. auto.
Qed.
Lemma tree_assoc i t k com : nth_error trees i = Some t -> assoc (contents t) k = Some com <-> In (k, com) (addedUpTo start us i).
Proof.
  intro Q. destruct HL as (_ & _ & _ & _ & K). rewrite <- (K i t Q (k, com)). apply (NoDup_assoc_In hs t [] k com (tree_canon i t Q)).
Qed.
Lemma held_later vrf l i j t t' w com : (i <= j)%nat -> nth_error trees i = Some t -> nth_error trees j = Some t' -> heldAs vrf l t w = Some com -> heldAs vrf l t' w = Some com.
Proof. unfold heldAs. intros Le Q Q' E. apply (tree_assoc j t' _ _ Q'). apply (added_mono i j _ Le). apply (tree_assoc i t _ _ Q). exact E. Qed.
Lemma absent_before vrf l i j t t' w : (i <= j)%nat -> nth_error trees i = Some t -> nth_error trees j = Some t' -> heldAs vrf l t' w = None -> heldAs vrf l t w = None.
Proof. intros Le Q Q' E. destruct (heldAs vrf l t w) as [com|] eqn:X; [|reflexivity]. rewrite (held_later vrf l i j t t' w com Le Q Q' X) in E. discriminate. Qed.
Lemma held_same vrf l i j t t' w com : nth_error trees i = Some t -> nth_error trees j = Some t' -> heldAs vrf l t w = Some com -> heldAs vrf l t' w = None \/ heldAs vrf l t' w = Some com.
Proof.
  intros Q Q' E. destruct (heldAs vrf l t' w) as [com'|] eqn:X; [|auto]. right. destruct (Nat.le_ge_cases i j) as [Le|Le].
  - rewrite (held_later vrf l i j t t' w com Le Q Q' E) in X. exact (eq_sym X).
  - rewrite (held_later vrf l j i t' t w com' Le Q' Q X) in E. exact E.
Qed.
Lemma shows_later vrf l known z y t t' v : z <= y -> nth_error trees (N.to_nat z) = Some t -> nth_error trees (N.to_nat y) = Some t' -> showsVersion vrf l known t v -> showsVersion vrf l known t' v.
Proof.
  intros Le Q Q' (ladder & E & I & K). exists ladder. split; [exact E|]. split; [exact I|]. intros w Iw. destruct (K w Iw) as (com & A & B). exists com. split; [exact A|].
  eapply held_later; [|exact Q|exact Q'|exact B]. lia.
Qed.
Lemma tree_at z : z < lenN es -> exists t, nth_error trees (N.to_nat z) = Some t.
Proof.
  intro Lz. destruct HL as ((_ & F2) & _). assert (EL : List.length es = List.length trees) by (clear - F2; induction F2; cbn; congruence).
  destruct (nth_error trees (N.to_nat z)) as [t|] eqn:Q; [eauto|]. apply nth_error_None in Q. unfold lenN in Lz. lia.
Qed.
End Growing.

(** ** What monitoring sees of such a log *)
Lemma onWay_lt n ts rmw x z : 1 <= n < 2 ^ 64 -> onWay n ts rmw x z -> z < n.
Proof. intros Hn ((a & len & R & -> & _) & _). exact (AlgProofs.nav_lt n a len Hn R). Qed.

Lemma stays_from f T hs start us es leaves trees rmw vrf l known exempt old : logOf (restrict f T) hs start us es leaves trees ->
  staysShown (lenN es) (timeAt es) rmw vrf l known trees exempt old ->
  forall x v z, In (x, v) old -> onWay (lenN es) (timeAt es) rmw x z -> ~ exempt z -> shownFrom vrf l known trees z v.
Proof.
  intros HL S x v z I W X. assert (Lz : z < lenN es) by (eapply onWay_lt; [|exact W]; pose proof (proj1 (proj1 (proj2 HL))); lia).
  destruct (tree_at _ _ _ _ _ _ _ HL z Lz) as (t & Q). destruct (S x v z t I W X Q) as (v' & Le & Sh). exists v'. split; [exact Le|]. intros y t' Ly Q'. eapply shows_later; [exact HL|exact Ly|exact Q|exact Q'|exact Sh].
Qed.

Lemma contact_vouched : forall f T hs, (forall x, lenN (f x) = hs) -> 0 < hs ->
  forall c, pc_hs c = N.to_nat hs -> forall vrf now start us es leaves trees, logOf (restrict f T) (N.to_nat hs) start us es leaves trees ->
  forall state, keptFrom es state ->
  forall ls req resp checked mo result root, NoDup (map fst (cl_contact ls)) -> Forall (fun p => fst p < lenN es) (cl_contact ls) ->
  genuineKeys vrf (cq_label req) ls -> okMonitorResponse c resp ->
  checkContactMonitor (restrict f T) hs c now state ls req resp = Ok (checked, mo) -> v_n checked = lenN es ->
  dpFinish (restrict f T) hs (v_d checked) (v_n checked) (v_nP checked) (v_m checked) = Ok result ->
  logRoot (restrict f T) hs (v_n checked) (pr_subtrees result) = Ok root -> Mth (restrict f T) leaves root ->
  (forall x v z, In (x, v) (cl_contact ls) -> onWay (lenN es) (timeAt es) (pc_rmw c) x z -> shownFrom vrf (cq_label req) (keeps ls) trees z v)
  \/ broken f (N.to_nat hs) T.
Proof.
  intros f T hs Hf Hhs c Hc vrf now start us es leaves trees HL state Hs ls req resp checked mo result root ND Fo G Or Ck Vn Fi Lr M.
  destruct (contactMonitor_guards f T hs Hf Hhs c Hc vrf now es leaves trees (proj1 HL) (proj1 (proj2 HL)) state Hs (cq_label req) (keeps ls) ls req resp checked mo result root ND Fo eq_refl eq_refl G Or Ck Vn Fi Lr M) as [[S _]|B]; [left|auto].
  intros x v z I W. eapply stays_from; [exact HL|exact S|exact I|exact W|auto].
Qed.

Lemma settled f T hs start us es leaves trees vrf l known d t g : logOf (restrict f T) hs start us es leaves trees -> nth_error trees (N.to_nat d) = Some t -> (-1 <= g)%Z ->
  showsGreatest vrf l known t g -> settledAt vrf l known trees d g.
Proof.
  intros HL Q Gg (S1 & S2). split.
  - intros y t' Ly Q'. eapply absent_before with (i := N.to_nat y); [exact HL| |exact Q'|exact Q|]; [lia|]. destruct (Z.eq_dec g (-1)) as [->|Ng]; [apply S1; reflexivity|].
    destruct (S2 (Z.to_N g) ltac:(lia)) as (ladder & _ & _ & Is & K). specialize (K _ Is). replace (Z.to_N g + 1 <=? Z.to_N g) with false in K by (symmetry; apply N.leb_gt; lia).
    replace (Z.to_N (g + 1)) with (Z.to_N g + 1) by lia. exact K.
  - intros v Ev. destruct (S2 v Ev) as (ladder & E & Iv & _ & K). exists ladder. split; [exact E|]. split; [exact Iv|]. intros w Iw Lw. specialize (K w Iw). rewrite (proj2 (N.leb_le w v) Lw) in K. destruct K as (com & Kn & Hd).
    exists com. split; [exact Kn|]. intros y t' Q'. split; [intro Ld; eapply held_later; [exact HL| |exact Q|exact Q'|exact Hd]; lia|]. eapply held_same; [exact HL|exact Q|exact Q'|exact Hd].
Qed.

Lemma expected_ge hist d : (-1 <= expected hist d)%Z.
Proof. unfold expected. lia. Qed.

Lemma owner_vouched : forall f T hs, (forall x, lenN (f x) = hs) -> 0 < hs ->
  forall c, pc_hs c = N.to_nat hs -> forall vrf now start us es leaves trees, logOf (restrict f T) (N.to_nat hs) start us es leaves trees ->
  forall state, keptFrom es state ->
  forall ls req resp checked mo result root hist os, NoDup (map fst (cl_contact ls)) -> Forall (fun p => fst p < lenN es) (cl_contact ls) ->
  genuineKeys vrf (oq_label req) ls -> okMonitorResponse c resp -> aliasFree vrf (oq_label req) (keeps ls) (cp_proofs (mr_monitor resp)) ->
  cl_owner ls = Some os -> StronglySorted N.le hist -> (Z.of_nat (List.length hist) < 4294967296)%Z -> tracks hist os ->
  checkOwnerMonitor (restrict f T) hs c now state ls req resp = Ok (checked, mo) -> v_n checked = lenN es ->
  dpFinish (restrict f T) hs (v_d checked) (v_n checked) (v_nP checked) (v_m checked) = Ok result ->
  logRoot (restrict f T) hs (v_n checked) (pr_subtrees result) = Ok root -> Mth (restrict f T) leaves root ->
  (exists os', mo_owner mo = Some os' /\ os_starting os <= os_starting os' /\
    forall d, distinguished (lenN es) (timeAt es) (pc_rmw c) d -> os_starting os < d <= os_starting os' ->
      settledAt vrf (oq_label req) (keeps ls) trees d (expected hist d))
  \/ broken f (N.to_nat hs) T.
Proof.
  intros f T hs Hf Hhs c Hc vrf now start us es leaves trees HL state Hs ls req resp checked mo result root hist os ND Fo G Or Al Eo So Lh Tr Ck Vn Fi Lr M.
  destruct (ownerMonitor_guards f T hs Hf Hhs c Hc vrf now es leaves trees (proj1 HL) (proj1 (proj2 HL)) state Hs (oq_label req) (keeps ls) ls req resp checked mo result root hist os ND Fo eq_refl eq_refl G Or Al Eo So Lh Tr Ck Vn Fi Lr M)
    as [[(os' & E1 & _ & E2 & _ & K) _]|B]; [left|auto].
  exists os'. split; [exact E1|]. split; [exact E2|]. intros d Dd Bd. assert (Ld : d < lenN es).
  { apply AlgProofs.DIn_range in Dd; pose proof (proj1 (proj1 (proj2 HL))); lia. }
  destruct (tree_at _ _ _ _ _ _ _ HL d Ld) as (t & Q). eapply settled; [exact HL|exact Q|apply expected_ge|exact (K d t Dd Bd Q)].
Qed.
