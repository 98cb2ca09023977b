(** Proofs for AlarmProperties.v: contact monitoring of an honest log succeeds if later entries are monitored for greater versions. *)
From Coq Require Import Sorted.
From Verif Require Import Base BaseProofs LogMathModel NodeMathProofs LogMathProofs TransMathModel TransMathSpec TransMathProofs TransMathProofs2 LaddersModel CodecModel AlgModel AlgSpec AlgProofs AlgProofs3 AlgProofs4 AlgProofs5 HandleModel HandleProofs ServerModel WatchSpec ReloadProofs.
Open Scope N_scope.
Local Open Scope list_scope.

Section Honest.
Variable c : pubConfig.
Variable L : hlog.
Hypothesis HL : okLog L.
Local Notation n := (h_n L).
Local Notation ts := (h_ts L).
Local Notation g := (h_g L).

Let Hn : 1 <= n < 2 ^ 64 := proj1 HL.

Lemma ancestor_honest target fuel : forall a len lft right best s, SRange n a len -> a <= target < a + len -> N.log2 len < N.of_nat fuel ->
  exists o, runs (honest L) (ancestor_loop c fuel n target (sroot a len) lft right best) s (Ok o) s noQ.
Proof.
  induction fuel as [|f IH]; intros a len lft right best s R Ht Hf; [lia|]. cbn [ancestor_loop].
  destruct (negb _); [eexists; apply runs_ret|]. destruct (N.eqb_spec (sroot a len) target) as [Eq|Ne]; [eexists; apply runs_ret|].
  pose proof (nav_lt n a len Hn R) as Lr. destruct (N.ltb_spec target (sroot a len)).
  - assert (Hl : 0 < lsize len) by (unfold sroot in *; lia).
    destruct (IH a (lsize len) lft (ts (sroot a len)) (if target <=? sroot a len then Some (sroot a len) else best) s) as (o & O); [constructor; auto|unfold sroot in *; lia|pose proof (lsize_log len Hl); lia|].
    exists o. eapply runs_bind; [apply (runs_getTs' L); exact Lr|]. eapply runs_bind; [apply runs_lift, (nav_left n a len Hn R Hl)|exact O].
  - assert (Hr : lsize len + 1 < len) by (unfold sroot in *; lia).
    destruct (IH (sroot a len + 1) (len - lsize len - 1) (ts (sroot a len)) right (if target <=? sroot a len then Some (sroot a len) else best) s) as (o & O); [constructor; auto|unfold sroot in *; lia|pose proof (rsize_log len Hr); lia|].
    exists o. eapply runs_bind; [apply (runs_getTs' L); exact Lr|]. eapply runs_bind; [apply runs_lift, (nav_right n a len Hn R Hr)|exact O].
Qed.

Lemma loop_honest ver xs : Forall (fun y => y < n /\ (Z.of_N ver <= g y)%Z) xs -> NoDup xs -> forall prev s, Forall (fun p => ver < snd p \/ (snd p = ver /\ ~ In (fst p) xs)) prev ->
  exists early prev' s', runs (honest L) (contact_loop ver xs prev) s (Ok (early, prev')) s' noQ /\ Forall (fun p => ver <= snd p) prev'.
Proof.
  intros F ND. induction ND as [|y xs Ny ND IH]; intros prev s P; cbn [contact_loop].
  - exists false, prev, s. split; [apply runs_ret|]. eapply Forall_impl; [|exact P]. cbn. intros [a b] [Q|[Q _]]; cbn in *; lia.
  - inversion F as [|? ? [Ly Gy] F']; subst. destruct (mget prev y) as [pv|] eqn:G.
    + apply mget_In in G. pose proof (proj1 (Forall_forall _ _) P _ G) as Q. cbn [fst snd] in Q. destruct Q as [Q|[_ Q]]; [|destruct Q; now left].
      rewrite (proj2 (N.leb_gt pv ver)) by lia. exists true, prev, s. split; [apply runs_ret|]. eapply Forall_impl; [|exact P]. cbn. intros [a b] [K|[K _]]; cbn in *; lia.
    + destruct (IH F' (mput prev y ver) (s + 1)) as (early & prev' & s' & R & Q).
      { constructor; [right; split; [reflexivity|exact Ny]|]. eapply Forall_impl; [|exact P]. intros p [K|[K1 K2]]; [auto|right; split; [exact K1|]]. intro I. apply K2. now right. }
      exists early, prev', s'. split; [|exact Q]. destruct R as (l & R & A). exists (EvMon y ver (Ok tt) :: l). split; [|constructor; [exact I|exact A]].
      cbn [getMonitoring pbind run honest pMon]. rewrite (proj2 (N.ltb_lt y n) Ly), (proj2 (Z.leb_le _ _) Gy). cbn [andb fst snd]. rewrite R. reflexivity.
Qed.

Lemma inspect_sub stop skip p y : In y (inspectList stop skip p) -> In y p.
Proof.
  induction p as [|z t IH]; cbn; auto. destruct (match stop with Some s => s =? z | None => false end); [destruct skip; cbn; tauto|]. intros [->|H]; auto.
Qed.
Lemma inspect_once stop skip p : NoDup p -> NoDup (inspectList stop skip p).
Proof.
  intro ND. induction ND as [|z t Nz ND IH]; cbn; [constructor|]. destruct (match stop with Some s => s =? z | None => false end).
  - destruct skip; repeat constructor; auto.
  - constructor; [|exact IH]. intro I. apply Nz. eapply inspect_sub; eauto.
Qed.
Lemma ssorted_once l : StronglySorted N.lt l -> NoDup l.
Proof. intro S. induction S as [|a l S IH F]; constructor; [|exact IH]. intro I. pose proof (proj1 (Forall_forall _ _) F _ I). lia. Qed.

Lemma one_honest m x ver prev s : mo_size m = n -> x < n -> (Z.of_N ver <= g x)%Z -> Forall (fun p => ver < snd p) prev ->
  exists u prev' s', runs (honest L) (contactMonitorOne c m x ver prev) s (Ok (u, prev')) s' noQ /\ Forall (fun p => ver <= snd p) prev'.
Proof.
  intros Sz Lx Gx P. unfold contactMonitorOne, distinguishedAncestor. rewrite Sz. destruct (c09_entries n Hn) as (-> & _).
  destruct (ancestor_honest x 66 0 n 0 (mo_rightmost m) None s (SR_root n)) as (o & A); [lia|pose proof (log_fuel n 0 n Hn (SR_root n)); lia|].
  assert (Q : forall q, Forall (fun p : N * N => ver < snd p) q -> Forall (fun p => ver <= snd p) q) by (intros q F; eapply Forall_impl; [|exact F]; cbn; intros; lia).
  destruct (match o with Some s0 => s0 =? x | None => false end) eqn:E.
  - exists None, prev, s. split; [|auto]. eapply runs_bind; [exact A|]. rewrite E. apply runs_ret.
  - destruct (c11_right n x Hn Lx) as (d & Ed & G & Sd).
    destruct (loop_honest ver (inspectList o (match mo_owner m with Some o => os_starting o <=? x | None => false end) d)) with (prev := prev) (s := s) as (early & prev' & s' & R & P').
    + apply Forall_forall. intros y I. apply inspect_sub in I. apply G in I as [(a & len & Ra & -> & _) Ly]. pose proof (nav_lt n a len Hn Ra) as Lr. split; [exact Lr|].
      pose proof (proj1 (proj2 (proj2 (proj2 HL)))) as M. pose proof (M x (sroot a len) ltac:(lia)). lia.
    + apply inspect_once, ssorted_once, Sd.
    + eapply Forall_impl; [|exact P]. cbn. intros; auto.
    + destruct early.
      * exists None, prev', s'. split; [|exact P']. eapply runs_bind; [exact A|]. rewrite E. eapply runs_bind; [apply runs_lift; exact Ed|]. eapply runs_bind; [exact R|]. apply runs_ret.
      * destruct o as [d0|].
        -- exists None, prev', s'. split; [|exact P']. eapply runs_bind; [exact A|]. cbv iota beta. rewrite E. eapply runs_bind; [apply runs_lift; exact Ed|]. eapply runs_bind; [exact R|]. apply runs_ret.
        -- eexists (Some _), prev', s'. split; [|exact P']. eapply runs_bind; [exact A|]. eapply runs_bind; [apply runs_lift; exact Ed|]. eapply runs_bind; [exact R|]. apply runs_ret.
Qed.

Lemma all_honest m ptrs0 xs : mo_size m = n -> StronglySorted (fun a b => b < a) xs -> (forall x, In x xs -> x < n /\ exists v, mget ptrs0 x = Some v /\ (Z.of_N v <= g x)%Z) ->
  (forall x y v u, In x xs -> In y xs -> x < y -> mget ptrs0 x = Some v -> mget ptrs0 y = Some u -> v < u) ->
  forall prev ptrs s, (forall x v, In x xs -> mget ptrs0 x = Some v -> Forall (fun p => v < snd p) prev) ->
  exists ptrs' s', runs (honest L) (contactAll c m ptrs0 xs prev ptrs) s (Ok ptrs') s' noQ.
Proof.
  intros Sz S. induction S as [|x xs S IH Fx]; intros B Inc prev ptrs s P; cbn [contactAll].
  - exists ptrs, s. apply runs_ret.
  - destruct (B x ltac:(now left)) as (Lx & v & Gv & Gx). rewrite Gv.
    destruct (one_honest m x v prev s Sz Lx Gx (P x v ltac:(now left) Gv)) as (u & prev' & s1 & R & P1).
    destruct (IH) with (prev := prev') (ptrs := match u with Some y => mput ptrs y v | None => ptrs end) (s := s1) as (ptrs' & s' & R').
    + intros y I. apply B. now right.
    + intros y z a b Iy Iz. apply Inc; now right.
    + intros y w I Gw. pose proof (proj1 (Forall_forall _ _) Fx _ I) as Ly. pose proof (Inc y x w v (or_intror I) (or_introl eq_refl) Ly Gw Gv). eapply Forall_impl; [|exact P1]. cbn. intros; lia.
    + exists ptrs', s'. eapply runs_bind; [exact R|exact R'].
Qed.

Theorem contact_honest m ptrs s : watches m L -> mo_contact m = Some ptrs -> NoDup (map fst ptrs) ->
  (forall x v, In (x, v) ptrs -> x < n /\ (Z.of_N v <= g x)%Z) -> (forall x v y u, In (x, v) ptrs -> In (y, u) ptrs -> x < y -> v < u) ->
  exists m', result (run (honest L) (contactMonitor c m) s) = Ok m'.
Proof.
  intros [Sz _] E ND B Inc. unfold contactMonitor. rewrite E.
  assert (Sk : StronglySorted (fun a b : N => b < a) (keysDown ptrs)) by (eapply keysDown_sorted; exact Hn).
  destruct (all_honest m ptrs (keysDown ptrs) Sz Sk) with (prev := @nil (N * N)) (ptrs := @nil (N * N)) (s := s) as (ptrs' & s' & R).
  - intros x I. apply keysDown_In in I. apply in_map_iff in I as ([x' v] & <- & I). cbn [fst]. destruct (B _ _ I) as [A Q]. split; [exact A|]. exists v. split; [|exact Q]. apply mget_in; auto.
  - intros x y v u _ _ Lt Gv Gu. apply mget_In in Gv, Gu. eapply Inc; eauto.
  - intros x v _ _. constructor.
  - eexists. eapply runs_result, runs_bind; [exact R|apply runs_ret].
Qed.
End Honest.

(** A server answers no request that has two pairs for one version. *)
Lemma sorted_versions es : entriesSorted es = Ok tt -> StronglySorted (fun a b => fst a < fst b /\ snd a < snd b) es.
Proof.
  intro S. apply Sorted_StronglySorted; [intros a b d; lia|]. induction es as [|a [|b t] IH]; [constructor|repeat constructor|]. cbn [entriesSorted] in S.
  destruct (N.leb_spec (fst b) (fst a)); [discriminate|]. destruct (N.leb_spec (snd b) (snd a)); [discriminate|]. constructor; [exact (IH S)|]. constructor. lia.
Qed.
Lemma sorted_apart es : StronglySorted (fun a b : N * N => fst a < fst b /\ snd a < snd b) es -> forall x y v, In (x, v) es -> In (y, v) es -> x = y.
Proof.
  intro S. induction S as [|a l S IH F]; intros x y v Ix Iy; [destruct Ix|]. rewrite Forall_forall in F. destruct Ix as [->|Ix], Iy as [Ey|Iy].
  - now injection Ey.
  - specialize (F _ Iy). cbn in F. lia.
  - subst a. specialize (F _ Ix). cbn in F. lia.
  - eauto.
Qed.
Lemma never_answered H hs c vrf now t req x y v resp : In (x, v) (cq_entries req) -> In (y, v) (cq_entries req) -> x <> y -> serverContactMonitor H hs c vrf now t req <> Ok resp.
Proof.
  intros Ix Iy Ne E. unfold serverContactMonitor in E. apply bind_ok in E as (op & _ & E). apply bind_ok in E as (ptrs & V & _).
  unfold verifyEntries in V. apply bind_ok in V as ([] & V & _). apply Ne. eapply sorted_apart; [apply sorted_versions; exact V|exact Ix|exact Iy].
Qed.
