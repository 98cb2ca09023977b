(** Proofs for SteadyProperties.v *)
From Coq Require Import Sorted Permutation.
From Verif Require Import Base BaseProofs LogMathModel TransMathModel TransMathSpec TransMathProofs TransMathProofs2 CodecModel AlgModel AlgSpec AlgProofs AlgProofs4 AlgProofs5 WatchSpec HandleModel HandleProofs ServerModel ClientModel
  LogChunkProofs7 GuardSpec GuardProofs5 GuardProofs6 OrderSpec OrderProofs TimeProofs AlarmProofs SteadySpec.
Open Scope N_scope.
Local Open Scope list_scope.

(** ** The map, visited from left to right *)

Lemma sorted_once (l : list N) : StronglySorted N.lt l -> NoDup l.
Proof. intro S. induction S as [|a l S IH F]; constructor; [|exact IH]. intro I. pose proof (proj1 (Forall_forall _ _) F _ I). lia. Qed.

Lemma fromLeft_sorted i m : StronglySorted N.lt (fromLeft i m).
Proof.
  unfold fromLeft. assert (ND : NoDup (nsort (nodup N.eq_dec (map fst m)))) by (eapply Permutation_NoDup; [symmetry; apply nsort_perm|apply NoDup_nodup]).
  pose proof (nsort_sorted (nodup N.eq_dec (map fst m))) as S. induction S as [|x t S IH F]; [constructor|]. inversion ND as [|? ? N1 N2]; subst. constructor; [auto|].
  rewrite Forall_forall in *. intros y I. specialize (F y I). assert (x <> y) by congruence. lia.
Qed.
Lemma fromLeft_in i m z v : mget m z = Some v -> In z (fromLeft i m).
Proof. intro G. apply nsort_in, nodup_In. apply (in_map fst) with (x := (z, v)). apply HandleProofs.mget_In. exact G. Qed.

Section Size.
Variable n : N.
Hypothesis Hn : 1 <= n < 2 ^ 64.

(** Every position is at the top, or the next ancestor to its right is in the map with as great a version. *)
Definition linked (m : list (N * N)) : Prop :=
  forall z v p t, mget m z = Some v -> rightDirectPath z n = Ok (p :: t) -> exists w, mget m p = Some w /\ v <= w.
Definition onTop (m : list (N * N)) : Prop := forall z v p t, mget m z = Some v -> rightDirectPath z n = Ok (p :: t) -> False.
Lemma onTop_linked m : onTop m -> linked m.
Proof. intros T z v p t A B. destruct (T z v p t A B). Qed.

Lemma round_tops xs : StronglySorted N.lt xs -> forall m md m' md', linked m -> (forall z v p t, mget m z = Some v -> rightDirectPath z n = Ok (p :: t) -> In z xs) ->
  simplifyRound n xs m md = Ok (m', md') -> onTop m'.
Proof.
  intro S. induction S as [|x xs S IH F]; intros m md m' md' K In1 E; cbn [simplifyRound] in E.
  - injection E as <- <-. intros z v p t A B. destruct (In1 z v p t A B).
  - rewrite Forall_forall in F. destruct (mget m x) as [ver|] eqn:G.
    + apply bind_ok in E as (path & P & E). destruct path as [|p path].
      * eapply IH; [exact K| |exact E]. intros z v q t A B. destruct (In1 z v q t A B) as [<-|I]; [congruence|exact I].
      * destruct (K x ver p path G P) as (w & Gp & L). rewrite Gp, (proj2 (N.ltb_ge w ver)) in E by lia. eapply IH; [| |exact E].
        -- intros z v q t A B. rewrite mget_mdel in A. destruct (N.eqb_spec z x) as [|Nz]; [discriminate|]. destruct (K z v q t A B) as (w' & Gq & L'). exists w'. split; [|exact L'].
           rewrite mget_mdel. destruct (N.eqb_spec q x) as [->|]; [|exact Gq]. exfalso. destruct (In1 z v x t A B) as [<-|I]; [congruence|]. apply F in I. pose proof (path_right z n _ B) as R. inversion R; subst. lia.
        -- intros z v q t A B. rewrite mget_mdel in A. destruct (N.eqb_spec z x) as [|Nz]; [discriminate|]. destruct (In1 z v q t A B) as [<-|I]; [congruence|exact I].
    + eapply IH; [exact K| |exact E]. intros z v q t A B. destruct (In1 z v q t A B) as [<-|I]; [congruence|exact I].
Qed.

Lemma loop_tops fuel : forall i m m', linked m -> simplifyLoop fuel fromLeft i n m = Ok m' -> onTop m'.
Proof.
  induction fuel as [|f IH]; intros i m m' K E; [discriminate|]. cbn [simplifyLoop] in E. apply bind_ok in E as ([m1 md] & R & E).
  assert (T : onTop m1) by (eapply round_tops; [apply fromLeft_sorted|exact K| |exact R]; intros; eapply fromLeft_in; eauto).
  destruct md; [|injection E as <-; exact T]. eapply IH; [apply onTop_linked; exact T|exact E].
Qed.

Lemma setPath_all path ver : NoDup path -> forall m x m' x', (forall y, In y (removelast path) -> mget m y = None) -> setPath path ver m x = (m', x') ->
  forall y, In y path -> exists w, mget m' y = Some w /\ ver <= w.
Proof.
  intro ND. induction ND as [|p t Np ND IH]; intros m x m' x' E S y I; [destruct I|].
  pose proof (setPath_keeps _ _ _ _ _ _ S) as (_ & _ & Q). destruct I as [<-|I]; [exact Q|].
  destruct t as [|q t]; [destruct I|]. cbn [setPath] in S. rewrite (E p) in S by now left. cbn iota in S.
  eapply IH; [|exact S|exact I]. intros z J. rewrite mget_mput_neq; [apply E; now right|]. intros ->. apply Np.
  clear - J. revert J. generalize (q :: t). intro l. induction l as [|a l IHl]; [intros []|]. destruct l; [intros []|]. intros [->|J]; [now left|right; apply IHl, J].
Qed.
Lemma below_last (l : list N) y : StronglySorted N.lt l -> In y (removelast l) -> exists r, In r l /\ y < r.
Proof.
  intro S. induction S as [|a l S IH F]; [intros []|]. destruct l as [|b l]; [intros []|]. intros [->|I].
  - exists b. split; [right; now left|]. inversion F; auto.
  - destruct (IH I) as (r & A & B). exists r. split; [now right|exact B].
Qed.

Lemma atTop_path z p t : z < n -> rightDirectPath z n = Ok (p :: t) -> sanc n z p /\ z < p.
Proof. intros L E. destruct (c11_right n z Hn L) as (d & E' & G & _). rewrite E in E'. injection E' as <-. apply G. now left. Qed.
Lemma onTop_atTop m z v : onTop m -> z < n -> mget m z = Some v -> atTop n z.
Proof.
  intros T L G y A. destruct (N.le_gt_cases y z) as [|Lt]; [auto|]. exfalso. destruct (c11_right n z Hn L) as (d & E & Gd & _). destruct d as [|p t]; [apply (proj2 (Gd y)); auto|]. eapply T; eauto.
Qed.

Lemma update_tops es x ver es' x' : x < n -> NoDup (map fst es) -> Forall (fun p => fst p < n /\ atTop n (fst p)) es -> updateContactState fromLeft es x n ver = Ok (es', x') ->
  Forall (fun p => fst p < n /\ atTop n (fst p)) es'.
Proof.
  intros Lx ND F E. pose proof (update_keeps fromLeft es x n ver es' x' Hn Lx ND E) as (_ & _ & Or). rewrite Forall_forall in F.
  unfold updateContactState in E. destruct (c11_right n x Hn Lx) as (path & P & Mp & Sp). rewrite P in E. cbn [bind] in E.
  destruct (setPath (x :: path) ver (contactPtrs es) x) as [m t] eqn:S. apply bind_ok in E as (m' & R & E). apply bind_ok in E as (es1 & C & E). injection E as <- <-.
  assert (Po : forall y v, mget (contactPtrs es) y = Some v <-> In (y, v) es) by (apply (GuardProofs4.contactPtrs_in 0 (fun b => (b, b)) [] (fun _ _ => True) es ND)).
  assert (Sx : StronglySorted N.lt (x :: path)) by (constructor; [exact Sp|]; apply Forall_forall; intros y I; apply Mp in I; tauto).
  assert (NDx : NoDup (x :: path)) by (apply sorted_once; exact Sx).
  assert (Rt : forall y, In y (removelast (x :: path)) -> mget (contactPtrs es) y = None).
  { intros y I. destruct (mget (contactPtrs es) y) as [v|] eqn:G; [exfalso|reflexivity]. apply Po in G. destruct (F _ G) as [_ T]. cbn [fst] in T.
    destruct (below_last _ y Sx I) as (r & Ir & Lr). assert (Iy : In y (x :: path)).
    { clear - I. revert I. generalize (x :: path). intro l. induction l as [|a l IHl]; [intros []|]. destruct l; [intros []|]. intros [->|J]; [now left|right; apply IHl, J]. }
    assert (x <= y) by (destruct Iy as [->|Iy]; [lia|apply Mp in Iy; lia]). destruct Ir as [<-|Ir]; [lia|]. apply Mp in Ir. specialize (T r (sanc_up n x y r Hn (proj1 Ir) ltac:(lia))). lia. }
  assert (K : linked m).
  { intros z v p q G D. destruct (setPath_keeps _ _ _ _ _ _ S) as (_ & B & _). destruct (B z v G) as [Q|[I ->]].
    - apply Po, F in Q as [Lz T]. cbn [fst] in *. destruct (atTop_path z p q Lz D) as [A L]. specialize (T p A). lia.
    - assert (Lz : z < n /\ x <= z /\ (z = x \/ sanc n x z)). { destruct I as [->|I]; [auto with arith; split; [lia|]; split; [lia|auto]|]. apply Mp in I as [A L]. destruct (sanc_lt n x z Hn A). split; [lia|]. split; [lia|auto]. }
      destruct Lz as (Lz & Lxz & Az). destruct (atTop_path z p q Lz D) as [A L]. eapply setPath_all; [exact NDx|exact Rt|exact S|]. right. apply Mp. split; [|lia].
      destruct Az as [->|Az]; [exact A|eapply sanc_trans; eauto]. }
  unfold simplifyMonitoringMap in R. pose proof (loop_tops _ _ _ _ K R) as T. apply Forall_forall. intros [y v] I. cbn [fst].
  assert (Ly : y < n). { destruct (Or y v I) as [J|[_ [->|[_ A]]]]; [apply (F _ J)|exact Lx|apply (sanc_lt n x y Hn A)]. }
  split; [exact Ly|]. apply (contactStruct_in _ _ C) in I as (q & [= <-] & Q). eapply onTop_atTop; eauto.
Qed.
End Size.

(** ** What is recorded on an honest log *)

Definition rising (es : list mapEntry) : Prop := StronglySorted (fun a b => fst a < fst b /\ snd a < snd b) es.
Lemma rising_once es : rising es -> NoDup (map fst es).
Proof.
  intro S. induction S as [|a l S IH F]; cbn; constructor; [|exact IH]. intro I. apply in_map_iff in I as (b & E & I). pose proof (proj1 (Forall_forall _ _) F _ I). cbn in *. lia.
Qed.
Lemma rising_of m es : contactStruct m = Ok es -> (forall x v y u, In (x, v) es -> In (y, u) es -> x < y -> v < u) -> rising es.
Proof.
  destruct m as [p|]; [|discriminate]. cbn [contactStruct]. intro E. injection E as <-. pose proof (fromLeft_sorted 0 p) as S. unfold fromLeft in S. revert S. generalize (nsort (nodup N.eq_dec (map fst p))).
  intros l S. induction S as [|x l S IH F]; intro R; [constructor|]. cbn [flat_map] in *. destruct (mget p x) as [v|]; [|exact (IH R)]. cbn [app] in *. constructor.
  - apply IH. intros a b d e Ia Ib. apply R; now right.
  - apply Forall_forall. intros [y u] I. cbn [fst snd]. assert (L : x < y).
    { apply in_flat_map in I as (z & Iz & I). destruct (mget p z); [|destruct I]. destruct I as [[= <- <-]|[]]. apply (proj1 (Forall_forall _ _) F _ Iz). }
    split; [exact L|]. eapply R; [now left|right; exact I|exact L].
Qed.
Lemma rising_sorted es : rising es -> entriesSorted es = Ok tt.
Proof.
  intro S. induction S as [|a l S IH F]; [reflexivity|]. destruct l as [|b l]; [reflexivity|]. cbn [entriesSorted]. inversion F as [|? ? [A B] _]; subst.
  rewrite (proj2 (N.leb_gt (fst b) (fst a))), (proj2 (N.leb_gt (snd b) (snd a))) by lia. exact IH.
Qed.

Lemma ptrs_rev es : contactPtrs es = rev es.
Proof.
  unfold contactPtrs. rewrite <- fold_left_rev_right. enough (G : forall l : list (N * N), fold_right (fun (y : N * N) (x : list (N * N)) => mput x (fst y) (snd y)) [] l = l) by apply G.
  induction l as [|[a b] t IH]; [reflexivity|]. cbn [fold_right fst snd]. rewrite IH. reflexivity.
Qed.

Section Log.
Variable c : pubConfig.
Variable L : hlog.
Hypothesis HL : okLog L.

Lemma logAt_ok n : 1 <= n <= h_n L -> okLog (logAt L n).
Proof.
  destruct HL as (A & B & C & D & E). intro Ln. unfold okLog, logAt. cbn [h_n h_ts h_g]. split; [lia|]. split; [intros; apply B; lia|]. split; [intros; apply C; lia|]. split; [intros; apply D; lia|intros; apply E; lia].
Qed.
Lemma first_mono v x u y : firstWith L v x -> firstWith L u y -> v <= u -> x <= y.
Proof. intros (A1 & A2 & A3) (B1 & B2 & B3) V. destruct (N.le_gt_cases x y) as [|Lt]; [auto|]. specialize (A3 y Lt). lia. Qed.
Lemma ends_lt n v x : 1 <= n < 2 ^ 64 -> endsAt L n v x -> x < n.
Proof. intros Hn (x0 & _ & _ & A). apply (sanc_lt n x0 x Hn A). Qed.
Lemma ends_up n v x y : 1 <= n < 2 ^ 64 -> endsAt L n v x -> y = x \/ x < y /\ sanc n x y -> endsAt L n v y.
Proof. intros Hn (x0 & A & B & C) [->|[D E]]; exists x0; [auto|]. split; [exact A|]. split; [lia|eapply sanc_trans; eauto]. Qed.
Lemma ends_grow n n' v x : 1 <= n <= n' -> n' < 2 ^ 64 -> endsAt L n v x -> endsAt L n' v x.
Proof. intros A B (x0 & C & D & E). exists x0. split; [exact C|]. split; [exact D|]. eapply sanc_grow; eauto. Qed.
Lemma tops_rise n x v y u : 1 <= n < 2 ^ 64 -> endsAt L n v x -> endsAt L n u y -> atTop n x -> x < y -> v < u.
Proof.
  intros Hn (x0 & A1 & A2 & A3) (y0 & B1 & B2 & B3) T Lt. destruct (N.le_gt_cases u v) as [Le|]; [|auto]. exfalso.
  pose proof (first_mono u y0 v x0 B1 A1 Le). specialize (T y (sanc_up n y0 x y Hn B3 ltac:(lia))). lia.
Qed.

Definition steady (n : N) (es : list mapEntry) : Prop :=
  1 <= n <= h_n L /\ rising es /\ Forall (fun p => (fst p < n /\ atTop n (fst p)) /\ endsAt L n (snd p) (fst p)) es.
Lemma size_ok n : 1 <= n <= h_n L -> 1 <= n < 2 ^ 64.
Proof. destruct HL as ((A & B) & _). lia. Qed.

Lemma steady_search n es v x es' x' : steady n es -> endsAt L n v x -> updateContactState fromLeft es x n v = Ok (es', x') -> steady n es'.
Proof.
  intros (Ln & R & F) Ex U. pose proof (size_ok n Ln) as Hn. split; [exact Ln|]. pose proof (rising_once es R) as ND.
  assert (G : Forall (fun p => (fst p < n /\ atTop n (fst p)) /\ endsAt L n (snd p) (fst p)) es').
  { apply Forall_forall. intros [y u] I. cbn [fst snd]. split.
    - assert (T : Forall (fun p => fst p < n /\ atTop n (fst p)) es') by (eapply update_tops; [exact Hn| | | |exact U]; [eapply ends_lt; eauto|exact ND|eapply Forall_impl; [|exact F]; cbn; tauto]).
      exact (proj1 (Forall_forall _ _) T _ I).
    - destruct (update_keeps fromLeft es x n v es' x' Hn (ends_lt n v x Hn Ex) ND U) as (_ & _ & Or). destruct (Or y u I) as [J|[-> J]]; [exact (proj2 (proj1 (Forall_forall _ _) F _ J))|]. eapply ends_up; eauto. }
  split; [|exact G]. unfold updateContactState in U. apply bind_ok in U as (p & _ & U). destruct (setPath _ _ _ _) as [m t]. apply bind_ok in U as (m' & _ & U). apply bind_ok in U as (e & C & U). injection U as <- _.
  eapply rising_of; [exact C|]. rewrite Forall_forall in G. intros a b d e' Ia Id. destruct (G _ Ia) as [[_ T] E1], (G _ Id) as [_ E2]. cbn [fst snd] in *. eapply tops_rise; eauto.
Qed.

Lemma events_add {A S} e (r : res A * S * list event) : events (addEv e r) = e :: events r.
Proof. destruct r as [[a s] l]. reflexivity. Qed.
Lemma honest_times {A} (p : prog A) n : forall s, timesTrue n (h_ts L) (events (run (honest (logAt L n)) p s)).
Proof.
  induction p as [a|msg|msg| |x k IHk e IHe|x ver omit k IHk e IHe|x ver k IHk e IHe|x vers k IHk e IHe|x ver k IHk|x omit gr ladder k IHk]; intros s y t I Ly; cbn [run] in I; try (destruct I; fail).
  all: cbn [honest pTs pLadder pMon pIncl pStop pTrack] in I; rewrite events_add in I.
  - destruct I as [I|I].
    + injection I as -> I. unfold logAt in I. cbn [h_n h_ts] in I. rewrite (proj2 (N.ltb_lt y n) Ly) in I. now injection I.
    + destruct (x <? h_n (logAt L n)); [exact (IHk _ _ y t I Ly)|exact (IHe _ _ y t I Ly)].
  - destruct I as [I|I]; [discriminate|]. destruct (x <? h_n (logAt L n)); [exact (IHk _ _ y t I Ly)|exact (IHe _ _ y t I Ly)].
  - destruct I as [I|I]; [discriminate|]. destruct ((x <? h_n (logAt L n)) && _); [exact (IHk _ y t I Ly)|exact (IHe _ _ y t I Ly)].
  - destruct I as [I|I]; [discriminate|]. destruct ((x <? h_n (logAt L n)) && _); [exact (IHk _ y t I Ly)|exact (IHe _ _ y t I Ly)].
  - destruct I as [I|I]; [discriminate|]. exact (IHk _ _ y t I Ly).
  - destruct I as [I|I]; [discriminate|]. exact (IHk _ y t I Ly).
Qed.

Lemma steady_monitor n es n' m m' es' s : steady n es -> n <= n' <= h_n L -> watches m (logAt L n') -> mo_contact m = Some (contactPtrs es) ->
  result (run (honest (logAt L n')) (contactMonitor c m) s) = Ok m' -> leaves m' es' -> steady n' es'.
Proof.
  intros (Ln & R & F) Ln' [Sz Rm] Ec E Lv. cbn [logAt h_n h_ts] in Sz, Rm. assert (L1 : 1 <= n' <= h_n L) by lia. pose proof (size_ok n' L1) as Hn. split; [exact L1|].
  pose proof (rising_once es R) as ND. rewrite Forall_forall in F.
  assert (Po : forall y v, mget (contactPtrs es) y = Some v <-> In (y, v) es) by (apply (GuardProofs4.contactPtrs_in 0 (fun b => (b, b)) [] (fun _ _ => True) es ND)).
  destruct HL as (_ & B & C & _). pose proof (honest_times (contactMonitor c m) n' s) as TT.
  destruct (run (honest (logAt L n')) (contactMonitor c m) s) as [[r s'] ev] eqn:Er. cbn [result fst snd events] in *. subst r.
  destruct (contact_full (honest (logAt L n')) c n' (h_ts L) Hn) with (m := m) (ptrs0 := contactPtrs es) (s := s) (m' := m') (s' := s') (l := ev) as (_ & A2 & _); auto.
  { intros; apply B; lia. } { intros; apply C; lia. }
  { intros x Hx. destruct (mget (contactPtrs es) x) as [v|] eqn:G; [|congruence]. apply Po, F in G. cbn [fst] in G. lia. }
  assert (G : Forall (fun p => (fst p < n' /\ atTop n' (fst p)) /\ endsAt L n' (snd p) (fst p)) es' /\ (forall y v, In (y, v) es' -> exists p, mo_contact m' = Some p /\ mget p y = Some v)).
  { assert (I0 : forall y v, In (y, v) es' -> exists p, mo_contact m' = Some p /\ mget p y = Some v).
    { intros y v I. unfold leaves in Lv. destruct (mo_contact m') as [p|]; [|subst es'; destruct I]. apply (contactStruct_in _ _ Lv) in I as (q & [= <-] & Q). eauto. }
    split; [|exact I0]. apply Forall_forall. intros [y v] I. cbn [fst snd]. destruct (I0 y v I) as (p & Ep & Gp). rewrite Ep in A2. destruct (A2 y v Gp) as (_ & T & x & Gx & _ & Y). apply Po, F in Gx as [[Lx _] Ex]. cbn [fst snd] in *.
    assert (Y' : y = x \/ x < y /\ sanc n' x y) by (destruct Y as [->|(Y1 & Y2 & _)]; auto). assert (En : endsAt L n' v y) by (eapply ends_up; [exact Hn| |exact Y']; eapply ends_grow; [| |exact Ex]; lia).
    split; [split; [eapply ends_lt; eauto|exact T]|exact En]. }
  destruct G as [G _]. split; [|exact G]. unfold leaves in Lv. destruct (mo_contact m') as [p|]; [|subst es'; constructor].
  eapply rising_of; [exact Lv|]. rewrite Forall_forall in G. intros a b d e' Ia Id. destruct (G _ Ia) as [[_ T] E1], (G _ Id) as [_ E2]. cbn [fst snd] in *. eapply tops_rise; eauto.
Qed.

Lemma recorded_steady n es : recorded true c fromLeft L n es -> steady n es.
Proof.
  intro R. induction R as [n Ln|n es v x es' x' R IH Ex U|n es n' m m' es' s R IH Ln W Ec E Lv|n es n' K]; [|eapply steady_search; eauto|eapply steady_monitor; eauto|discriminate].
  split; [exact Ln|]. split; [constructor|constructor].
Qed.

Theorem kept_in_order n es : recorded true c fromLeft L n es ->
  (forall n' index, n <= n' <= h_n L -> (forall v x, firstWith L v x -> x < n' -> nth_error index (N.to_nat v) = Some x) -> exists ptrs, verifyEntries es index n' = Ok ptrs) /\
  (forall n' m s, n <= n' <= h_n L -> watches m (logAt L n') -> mo_contact m = Some (contactPtrs es) -> exists m', result (run (honest (logAt L n')) (contactMonitor c m) s) = Ok m').
Proof.
  intro R. apply recorded_steady in R as (Ln & R & F). pose proof (rising_once es R) as ND. split.
  - intros n' index Ln' Ix. unfold verifyEntries. rewrite (rising_sorted es R). cbn [bind]. assert (Hn : 1 <= n' < 2 ^ 64) by (apply size_ok; lia).
    clear R ND. generalize (@nil (N * N)). induction F as [|[y v] t [[Ly _] (x0 & E1 & E2 & E3)] F IH]; intro acc; [eexists; reflexivity|]. cbn [foldM fst snd] in *.
    assert (E3' : sanc n' x0 y) by (eapply sanc_grow; [| |exact E3]; lia). assert (Lx : x0 < n') by (apply (sanc_lt n' x0 y Hn E3')).
    pose proof (Ix v x0 E1 Lx) as Iv. assert (Lv : (N.to_nat v < List.length index)%nat) by (apply nth_error_Some; congruence).
    rewrite (proj2 (N.leb_gt (lenN index) v)) by (unfold lenN; lia). rewrite (nth_error_nth index (N.to_nat v) 0 Iv).
    destruct (c11_right n' x0 Hn Lx) as (d & Ed & G & _). rewrite Ed. cbn [bind].
    assert (K : negb (y =? x0) && negb (existsb (N.eqb y) d) = false).
    { destruct (N.eqb_spec y x0); [reflexivity|]. cbn [negb andb]. rewrite (proj2 (existsb_exists (N.eqb y) d)); [reflexivity|]. exists y. split; [apply G; split; [exact E3'|lia]|apply N.eqb_refl]. }
    rewrite K. cbn [bind]. apply IH.
  - intros n' m s Ln' W Ec. rewrite Forall_forall in F.
    assert (Po : forall y v, mget (contactPtrs es) y = Some v <-> In (y, v) es) by (apply (GuardProofs4.contactPtrs_in 0 (fun b => (b, b)) [] (fun _ _ => True) es ND)).
    assert (In0 : forall y v, In (y, v) (contactPtrs es) -> In (y, v) es) by (intros; now apply CalmProofs3.contactPtrs_in).
    eapply contact_honest; [apply logAt_ok; lia|exact W|exact Ec| | |].
    + replace (contactPtrs es) with (rev es); [rewrite map_rev; eapply Permutation_NoDup; [apply Permutation_rev|exact ND]|].
      symmetry. apply ptrs_rev.
    + intros y v I. apply In0, F in I as [[Ly _] (x0 & (E1 & E2 & _) & E3 & _)]. cbn [fst snd logAt h_n h_g] in *. split; [lia|]. destruct HL as (_ & _ & _ & D & _). pose proof (D x0 y ltac:(lia)). lia.
    + intros y v z u Iy Iz Lt. apply In0 in Iy, Iz. pose proof (F _ Iy) as [[_ T] Ey]. pose proof (F _ Iz) as [_ Ez]. cbn [fst snd] in *. eapply tops_rise; [| exact Ey|exact Ez|exact T|exact Lt]. apply size_ok, Ln.
Qed.
End Log.
