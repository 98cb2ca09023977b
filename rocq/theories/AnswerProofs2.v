(** Which requests for monitoring an honest server answers. *)
From Coq Require Import Sorted Permutation.
From Verif Require Import Base BaseProofs LogMathSpec LogTreeModel LogTreeSpec LogTreeProofs LogChunkModel PrefixModel PrefixSpec TransMathModel TransMathSpec TransMathProofs2 LaddersModel
  CodecModel CodecSpec CodecProofs3 AlgModel AlgSpec AlgProofs AlgProofs4 AlgProofs6 WatchSpec HandleModel HandleSpec HandleProofs HandleProofs2 HandleProofs3 HandleProofs5 HandleProofs6 HandleProofs7
  StoreModel CommitModel MutateModel MutateSpec ServerModel ClientModel ClientSpec ClientProofs2 MutateProofs2 MutateProofs5 MutateProofs7 SearchProofs SearchProofs2 SearchProofs3
  TimeProofs AnswerSpec AnswerProofs AlarmProofs SteadySpec SteadyProofs.
Open Scope N_scope.
Local Open Scope list_scope.

(** ** The check of the pairs *)

Definition pairOk (index : list N) (n : N) (e : mapEntry) : Prop :=
  snd e < lenN index /\ exists path, rightDirectPath (nth (N.to_nat (snd e)) index 0) n = Ok path /\ (fst e = nth (N.to_nat (snd e)) index 0 \/ In (fst e) path).

Lemma verify_ok es index n ptrs : verifyEntries es index n = Ok ptrs -> rising es /\ Forall (pairOk index n) es.
Proof.
  unfold verifyEntries. intro V. apply bind_ok in V as ([] & S & V). split; [exact (sorted_versions es S)|]. clear S. revert V. generalize (@nil (N * N)).
  induction es as [|e es IH]; intros acc V; [constructor|]. cbn [foldM] in V. apply bind_ok in V as (acc' & V1 & V2). constructor; [|eapply IH; exact V2].
  destruct (N.leb_spec (lenN index) (snd e)); [discriminate|]. apply bind_ok in V1 as (path & P & V1). split; [exact H|]. exists path. split; [exact P|].
  destruct (N.eqb_spec (fst e) (nth (N.to_nat (snd e)) index 0)) as [Eq|Ne]; [now left|]. right. cbn [negb andb] in V1.
  destruct (existsb (N.eqb (fst e)) path) eqn:X; [|discriminate]. apply existsb_exists in X as (y & I & Ey). apply N.eqb_eq in Ey. now subst y.
Qed.

Lemma verify_pairs es index n : rising es -> Forall (pairOk index n) es -> verifyEntries es index n = Ok (contactPtrs es).
Proof.
  intros S F. unfold verifyEntries. rewrite (rising_sorted es S). cbn [bind]. clear S. unfold contactPtrs. generalize (@nil (N * N)).
  induction F as [|e es (Lv & path & P & H) F IH]; intro acc; [reflexivity|]. cbn [foldM fold_left].
  rewrite (proj2 (N.leb_gt (lenN index) (snd e)) Lv). rewrite P. cbn [bind].
  assert (K : negb (fst e =? nth (N.to_nat (snd e)) index 0) && negb (existsb (N.eqb (fst e)) path) = false).
  { destruct (N.eqb_spec (fst e) (nth (N.to_nat (snd e)) index 0)) as [|Ne]; [reflexivity|]. destruct H as [H|H]; [contradiction|]. cbn [negb andb].
    rewrite (proj2 (existsb_exists (N.eqb (fst e)) path)); [reflexivity|]. exists (fst e). split; [exact H|apply N.eqb_refl]. }
  rewrite K. cbn [bind]. apply IH.
Qed.

Lemma pair_is index n x v : 1 <= n < 2 ^ 64 -> Forall (fun p => p < n) index ->
  pairOk index n (x, v) <-> exists x0, nth_error index (N.to_nat v) = Some x0 /\ x0 <= x /\ sanc n x0 x.
Proof.
  intros Hn F. unfold pairOk. cbn [fst snd]. split.
  - intros (Lv & path & P & H). destruct (nth_error index (N.to_nat v)) as [x0|] eqn:Ex; [|apply nth_error_None in Ex; unfold lenN in Lv; lia].
    rewrite (nth_error_nth _ _ 0 Ex) in *. exists x0. split; [reflexivity|]. assert (Lx : x0 < n) by (rewrite Forall_forall in F; apply F; eapply nth_error_In; exact Ex).
    destruct (c11_right n x0 Hn Lx) as (d & Ed & G & _). rewrite Ed in P. injection P as <-. destruct H as [->|H].
    + split; [lia|]. apply sanc_refl; [exact Hn|exact Lx].
    + apply G in H as [A B]. split; [lia|exact A].
  - intros (x0 & Ex & Lx & A). assert (Lx0 : x0 < n) by (rewrite Forall_forall in F; apply F; eapply nth_error_In; exact Ex).
    assert (Lv : (N.to_nat v < List.length index)%nat) by (apply nth_error_Some; congruence). split; [unfold lenN; lia|]. rewrite (nth_error_nth _ _ 0 Ex).
    destruct (c11_right n x0 Hn Lx0) as (d & Ed & G & _). exists d. split; [exact Ed|]. destruct (N.eq_dec x x0); [now left|]. right. apply G. split; [exact A|lia].
Qed.

(** ** Counting *)

Lemma count_nth x : forall index v x0, StronglySorted N.le index -> nth_error index v = Some x0 -> ((v < countLe x index)%nat <-> x0 <= x).
Proof.
  intros index v x0 S. revert v. induction S as [|a l S IH F]; intros [|v] E; cbn [nth_error] in E; try discriminate.
  - injection E as ->. unfold countLe. cbn [filter]. destruct (N.leb_spec x0 x); cbn [List.length].
    + split; [intros _; exact H|lia].
    + assert (filter (fun p : N => p <=? x) l = []) as ->; [|cbn; split; lia].
      clear -F H. induction F as [|b l Hb F IH]; [reflexivity|]. cbn [filter]. destruct (N.leb_spec b x); [lia|exact IH].
  - assert (a <= x0) by (rewrite Forall_forall in F; apply F; eapply nth_error_In; exact E). specialize (IH v E). unfold countLe in *. cbn [filter]. destruct (N.leb_spec a x); cbn [List.length].
    + rewrite <- IH. lia.
    + assert (filter (fun p : N => p <=? x) l = []) as ->; [|cbn; split; lia].
      clear -F H0. induction F as [|b l Hb F IH]; [reflexivity|]. cbn [filter]. destruct (N.leb_spec b x); [lia|exact IH].
Qed.

Lemma count_map x ps : countLe x (map pv_pos ps) = List.length (filter (fun p => pv_pos p <=? x) ps).
Proof. unfold countLe. induction ps as [|p ps IH]; [reflexivity|]. cbn [map filter]. destruct (pv_pos p <=? x); cbn [List.length]; rewrite IH; reflexivity. Qed.

Lemma count_short x index : (countLe x index <= List.length index)%nat.
Proof. unfold countLe. induction index as [|a l IH]; cbn; [lia|]. destruct (a <=? x); cbn; lia. Qed.

Lemma first_nth index v x : StronglySorted N.le index -> (Z.of_N v <= Z.of_nat (countLe x index) - 1)%Z -> (forall y, y < x -> (Z.of_nat (countLe y index) - 1 < Z.of_N v)%Z) ->
  nth_error index (N.to_nat v) = Some x.
Proof.
  intros S H1 H2. pose proof (count_short x index). destruct (nth_error index (N.to_nat v)) as [x0|] eqn:Ex; [|apply nth_error_None in Ex; lia].
  pose proof (proj1 (count_nth x index _ x0 S Ex)) as K. f_equal. destruct (N.lt_ge_cases x0 x) as [Lt|Ge]; [|lia].
  pose proof (proj2 (count_nth x0 index _ x0 S Ex)). specialize (H2 x0 Lt). lia.
Qed.

Section Run.
Variable f : bytes -> bytes.
Variable hs : N.
Hypothesis Hf : forall x, lenN (f x) = hs.
Hypothesis Hhs : 0 < hs <= 32.
Variable c : pubConfig.
Variable vrf : bytes -> bytes * bytes.
Variable Ls : list bytes.
Hypothesis HV : vrfGood hs vrf Ls.
Variable sign : bytes -> res bytes.
Variable now : N.
Local Notation valid := (fun tbs sg : bytes => sign tbs = Ok sg).

(** What a history of mutations gives. *)
Lemma history t rs l : runs (full f) hs c vrf sign Ls t rs -> rs <> [] -> In l Ls -> Forall (fun r => ~ In l (rq_remove r)) rs -> lenN (labelsNow rs l) < 2 ^ 31 ->
  exists E, treeOf f hs vrf Ls c valid t E /\ E <> [] /\ labelsNow rs l = current E l /\ lenN rs = lenN (entriesOf E) /\
    let W := worldOf f hs vrf (durable (t_tx t)) E l in
    faithful f hs W /\ (forall x, x < lenN (entriesOf E) -> exists r, nth_error rs (N.to_nat x) = Some r /\ h_ts (observed W) x = rq_now r) /\
    h_ts (observed W) (lenN (entriesOf E) - 1) = latest rs.
Proof.
  intros R NE Hl Fr Hb.
  destruct (run_describes f hs Hf Hhs c vrf Ls HV sign valid (fun _ _ H => H) t rs R) as (E & T & Q1 & Q2). destruct (labelsNow_last _ _ Q1) as [A B].
  assert (HE : E <> []) by (intros ->; destruct rs; [contradiction|discriminate B]).
  assert (HF : faithful f hs (worldOf f hs vrf (durable (t_tx t)) E l)).
  { destruct T as (HD & -> & _). rewrite A in Hb. apply (world_faithful f hs Hf Hhs vrf Ls HV sign valid (fun _ _ H => H)); auto.
    eapply (run_not_removed f hs Hf Hhs sign valid (fun _ _ H => H)); eauto. }
  set (W := worldOf f hs vrf (durable (t_tx t)) E l) in *.
  assert (Ln : lenN rs = lenN (entriesOf E)) by (rewrite B; unfold lenN, entriesOf; now rewrite map_length).
  pose proof (SearchProofs.Hn1 f hs W HF) as NB. change (lenN (w_entries W)) with (lenN (entriesOf E)) in NB.
  assert (Hts : forall x, x < lenN (entriesOf E) -> exists r, nth_error rs (N.to_nat x) = Some r /\ h_ts (observed W) x = rq_now r).
  { intros x Hx. cbn [observed h_ts]. unfold entryAt. cbn [w_entries worldOf W].
    destruct (nth_error rs (N.to_nat x)) as [r|] eqn:Er; [|apply nth_error_None in Er; rewrite <- Ln in Hx; unfold lenN in Hx; lia].
    exists r. split; [reflexivity|]. pose proof (map_nth_error rq_now _ _ Er) as Er2. rewrite <- Q2 in Er2. apply nth_error_nth with (d := 0) in Er2. rewrite <- Er2.
    change 0 with (le_ts {| le_ts := 0; le_root := [] |}). rewrite map_nth.
    destruct (nth_error (entriesOf E) (N.to_nat x)) as [e|] eqn:Ee; [|apply nth_error_None in Ee; unfold lenN in Hx; lia].
    rewrite (nth_error_nth _ _ _ Ee). reflexivity. }
  exists E. split; [exact T|]. split; [exact HE|]. split; [now rewrite A|]. split; [exact Ln|]. cbn zeta. fold W. split; [exact HF|]. split; [exact Hts|].
  destruct (Hts (lenN (entriesOf E) - 1)) as (r & Er & ->); [lia|]. unfold latest. rewrite (last_nth hs Hhs), map_length.
  symmetry. apply nth_error_nth. apply map_nth_error. rewrite <- Er. f_equal. rewrite <- Ln. unfold lenN. lia.
Qed.

Theorem contact_answered t rs l : runs (full f) hs c vrf sign Ls t rs -> rs <> [] -> In l Ls -> Forall (fun r => ~ In l (rq_remove r)) rs -> lenN (labelsNow rs l) < 2 ^ 31 ->
  clockFine c now (latest rs) -> forall last es, optSize (lenN rs) last ->
  (exists answer, serverContactMonitor (full f) hs c vrf now (serverOf t) {| cq_last := last; cq_label := l; cq_entries := es |} = Ok answer) <-> goodPairs rs l es.
Proof.
  intros R NE Hl Fr Hb Cl last es OP. destruct (history t rs l R NE Hl Fr Hb) as (E & T & HE & A & Ln & HF & Hts & Hla). cbn zeta in HF, Hts, Hla.
  set (W := worldOf f hs vrf (durable (t_tx t)) E l) in *. pose proof (SearchProofs.Hn1 f hs W HF) as NB. change (lenN (w_entries W)) with (lenN (entriesOf E)) in NB.
  rewrite Ln in OP. rewrite <- Hla in Cl.
  assert (Fp : Forall (fun p => p < lenN (entriesOf E)) (map pv_pos (current E l)) /\ StronglySorted N.le (map pv_pos (current E l))).
  { destruct T as (HD & _). destruct (ds_positions _ _ _ _ _ _ HD l Hl) as (S & F & _). split; [|exact S]. apply Forall_map. eapply Forall_impl; [|exact F].
    cbn. intros q Hq. replace (lenN (entriesOf E)) with (lenN E) by (unfold lenN, entriesOf; now rewrite map_length). exact Hq. }
  destruct Fp as (Fp & So).
  assert (Pair : forall x v, pairOk (map pv_pos (current E l)) (lenN (entriesOf E)) (x, v) <-> exists p, nth_error (labelsNow rs l) (N.to_nat v) = Some p /\ pv_pos p <= x /\ sanc (lenN rs) (pv_pos p) x).
  { intros x v. rewrite (pair_is _ _ x v NB Fp), A, Ln. split.
    - intros (x0 & Ex & K). rewrite nth_error_map in Ex. destruct (nth_error (current E l) (N.to_nat v)) as [p|]; [|discriminate]. injection Ex as <-. exists p. auto.
    - intros (p & Ep & K). exists (pv_pos p). rewrite nth_error_map, Ep. auto. }
  split.
  - intros (answer & S). unfold serverContactMonitor in S. cbn [cq_last cq_label cq_entries] in S. apply bind_ok in S as (op & So1 & S). apply bind_ok in S as (ptrs & V & _).
    destruct (monitored f hs Hf Hhs c vrf Ls HV valid now t E T HE l Hl HF last (fun _ => Ret tt) tt OP Cl) as (op' & _ & _ & So2 & On & Oi & _).
    { intros s r s' evs Er. cbn in Er. injection Er as _ _ <-. exact Logic.I. }
    { reflexivity. }
    rewrite So1 in So2. injection So2 as <-. rewrite On, Oi in V. apply verify_ok in V as (Ri & F). split; [exact Ri|]. intros x v I. apply Pair. rewrite Forall_forall in F. exact (F _ I).
  - intros (Ri & G). assert (F : Forall (pairOk (map pv_pos (current E l)) (lenN (entriesOf E))) es) by (apply Forall_forall; intros [x v] I; apply Pair, G, I).
    pose proof (rising_once es Ri) as ND.
    pose proof (verify_pairs es _ _ Ri F) as V.
    assert (Po : forall y v, mget (contactPtrs es) y = Some v <-> In (y, v) es) by (apply (GuardProofs4.contactPtrs_in 0 (fun b => (b, b)) [] (fun _ _ => True) es ND)).
    assert (In0 : forall y v, In (y, v) (contactPtrs es) -> In (y, v) es) by (intros; now apply CalmProofs3.contactPtrs_in).
    assert (Bd : forall x v, In (x, v) es -> x < lenN (entriesOf E) /\ (Z.of_N v <= h_g (observed W) x)%Z).
    { intros x v I. destruct (G x v I) as (p & Ep & Lx & Sa). split; [rewrite <- Ln; apply (sanc_lt (lenN rs) (pv_pos p) x); [rewrite Ln; exact NB|exact Sa]|].
      cbn [observed h_g w_index worldOf W]. rewrite A in Ep. pose proof (map_nth_error pv_pos _ _ Ep) as Em. pose proof (proj2 (count_nth x _ _ _ So Em) Lx). lia. }
    set (mo := {| mo_rightmost := h_ts (observed W) (lenN (entriesOf E) - 1); mo_size := lenN (entriesOf E); mo_contact := None; mo_owner := None |}).
    assert (Rn : exists m', result (run (honest (observed W)) (contactMonitor c (withContact mo (contactPtrs es))) 0) = Ok m').
    { eapply (contact_honest c (observed W) (proj1 HF)); [split; reflexivity|reflexivity| | |].
      - rewrite ptrs_rev, map_rev. eapply Permutation_NoDup; [apply Permutation_rev|exact ND].
      - intros x v I. apply Bd, In0, I.
      - intros x v y u Ix Iy Lt. apply In0 in Ix, Iy. clear -Ri Ix Iy Lt. induction Ri as [|a s S IH F]; [destruct Ix|]. rewrite Forall_forall in F.
        destruct Ix as [->|Ix], Iy as [Ey|Iy].
        + injection Ey as <- <-. lia.
        + apply F in Iy. cbn in Iy. lia.
        + subst a. apply F in Ix. cbn in Ix. lia.
        + auto. }
    destruct Rn as (m' & Rn).
    destruct (monitored f hs Hf Hhs c vrf Ls HV valid now t E T HE l Hl HF last (fun m => contactMonitor c (withContact m (contactPtrs es))) m' OP Cl) as (op & d & proof & So1 & On & Oi & Om & Ex & Fi).
    { assert (Hnn : 1 <= h_n (observed W) < 2 ^ 64) by exact NB.
      apply (pre_smooth W _ _ (pre_contact (observed W) (proj1 HF) c Hnn (withContact mo (contactPtrs es)) tracker0 eq_refl ltac:(intros ptrs x v [= <-] Hm; apply Bd, Po, Hm))). }
    { exact Rn. }
    eexists. unfold serverContactMonitor. cbn [cq_last cq_label cq_entries]. rewrite So1. cbn [bind]. rewrite On, Oi, V. cbn [bind]. rewrite Om, Ex. cbn [bind]. rewrite Fi. reflexivity.
Qed.

Theorem recorded_answered t rs l : runs (full f) hs c vrf sign Ls t rs -> rs <> [] -> In l Ls -> Forall (fun r => ~ In l (rq_remove r)) rs -> lenN (labelsNow rs l) < 2 ^ 31 ->
  clockFine c now (latest rs) -> forall L n es last, describes L rs l -> recorded true c fromLeft L n es -> optSize (lenN rs) last ->
  exists answer, serverContactMonitor (full f) hs c vrf now (serverOf t) {| cq_last := last; cq_label := l; cq_entries := es |} = Ok answer.
Proof.
  intros R NE Hl Fr Hb Cl L n es last (D1 & D2 & D3) Rc OP. apply (contact_answered t rs l R NE Hl Fr Hb Cl last es OP).
  destruct (history t rs l R NE Hl Fr Hb) as (E & T & HE & A & Ln & HF & Hts & Hla). cbn zeta in HF, Hts, Hla.
  set (W := worldOf f hs vrf (durable (t_tx t)) E l) in *. pose proof (SearchProofs.Hn1 f hs W HF) as NB. change (lenN (w_entries W)) with (lenN (entriesOf E)) in NB.
  assert (G3 : forall x, x < lenN rs -> h_g L x = (Z.of_nat (countLe x (map pv_pos (labelsNow rs l))) - 1)%Z).
  { intros x Hx. rewrite (D3 x Hx), count_map. reflexivity. }
  assert (Q1 : forall x, x < lenN rs -> h_ts L x = h_ts (observed W) x).
  { intros x Hx. destruct (Hts x) as (r & Er & ->); [lia|]. now apply D2. }
  assert (Q2 : forall x, x < lenN rs -> h_g L x = h_g (observed W) x).
  { intros x Hx. rewrite (G3 x Hx), A. reflexivity. }
  assert (HL : okLog L).
  { destruct HF as ((O1 & O2 & O3 & O4 & O5) & _). change (h_n (observed W)) with (lenN (entriesOf E)) in *. rewrite <- Ln in *. unfold okLog. rewrite D1. repeat split.
    - apply O1.
    - apply O1.
    - intros x y Hxy. rewrite !Q1 by lia. apply O2. exact Hxy.
    - intros x Hx. rewrite Q1 by exact Hx. now apply O3.
    - intros x y Hxy. rewrite !Q2 by lia. apply O4. exact Hxy.
    - rewrite Q2 by assumption. now apply O5.
    - rewrite Q2 by assumption. now apply O5. }
  assert (So : StronglySorted N.le (map pv_pos (labelsNow rs l))).
  { rewrite A. destruct T as (HD & _). apply (ds_positions _ _ _ _ _ _ HD l Hl). }
  apply (recorded_steady c L HL) in Rc as (Lr & Ri & F). split; [exact Ri|]. intros x v I. rewrite Forall_forall in F. destruct (F _ I) as [[Lx _] (x0 & (B1 & B2 & B3) & B4 & B5)]. cbn [fst snd] in *.
  assert (Ex : nth_error (map pv_pos (labelsNow rs l)) (N.to_nat v) = Some x0).
  { apply first_nth; [exact So| |].
    - rewrite <- G3 by lia. exact B2.
    - intros y Hy. rewrite <- G3 by lia. now apply B3. }
  rewrite nth_error_map in Ex. destruct (nth_error (labelsNow rs l) (N.to_nat v)) as [p|]; [|discriminate]. injection Ex as <-. exists p. split; [reflexivity|]. split; [exact B4|].
  eapply sanc_grow; [| |exact B5]; lia.
Qed.
End Run.
