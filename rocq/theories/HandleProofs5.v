(** Honest runs of the algorithms can be followed by both sides: searches, contact monitoring, owner initialization. *)
From Coq Require Import Sorted.
From Verif Require Import Base BaseProofs LogMathModel NodeMathProofs LogMathProofs TransMathModel TransMathSpec TransMathProofs TransMathProofs2 LogTreeModel LogTreeSpec PrefixModel PrefixSpec LaddersModel LaddersProofs CodecModel AlgModel AlgSpec AlgProofs AlgProofs2 AlgProofs3 AlgProofs4 HandleModel HandleSpec HandleProofs HandleProofs2 HandleProofs4.
Open Scope N_scope.

Section Pre.
Variable L : hlog.
Hypothesis HL : okLog L.
Local Notation nn := (h_n L).
Local Notation ts := (h_ts L).
Local Notation g := (h_g L).

(** Every question the program asks when answered honestly is one both sides can follow. *)
Fixpoint pre {A} (p : prog A) (tr : tracker) (Q : A -> tracker -> Prop) : Prop :=
  match p with
  | Ret a => Q a tr
  | Err _ | Crash _ | Diverge => True
  | GetTs x k e => x < nn /\ pre (k (ts x)) tr Q
  | GetLadder x v o k e => x < nn /\ v < 2 ^ 31 - 1 /\ usable L tr x v o /\
      pre (k (cmp3 (g x) v)) (addLadder tr x o (g x) (asked L tr x v o)) Q
  | GetMonitoring x v k e => x < nn /\ (Z.of_N v <= g x)%Z /\ pre k tr Q
  | GetIncl x vs k e => x < nn /\ (vs = [] \/ exists v, vs = [v] /\ (Z.of_N v <= g x)%Z) /\ pre k tr Q
  | StopCond _ _ _ => False
  | TrackLadder x o gr l k => pre k (addLadder tr x o gr l) Q
  end.

Lemma pre_mono {A} (p : prog A) : forall tr (Q R : A -> tracker -> Prop), pre p tr Q -> (forall a t, Q a t -> R a t) -> pre p tr R.
Proof. induction p; cbn; intros; intuition; eauto. Qed.

Lemma pre_bind {A B} (p : prog A) (k : A -> prog B) : forall tr (Q : B -> tracker -> Prop),
  pre p tr (fun a t => pre (k a) t Q) -> pre (pbind p k) tr Q.
Proof. induction p; cbn; intros; intuition. Qed.

Lemma pre_catch {A} (p : prog A) (h : string -> prog A) : forall tr (Q : A -> tracker -> Prop),
  pre p tr Q -> (forall m t, pre (h m) t Q) -> pre (pcatch p h) tr Q.
Proof. induction p; cbn; intros; intuition. Qed.

Lemma pre_lift {A} (r : res A) tr (Q : A -> tracker -> Prop) : (forall a, r = Ok a -> Q a tr) -> pre (lift r) tr Q.
Proof. destruct r; cbn; auto. Qed.

Lemma pre_ts x tr (Q : N -> tracker -> Prop) : x < nn -> Q (ts x) tr -> pre (getTs x) tr Q.
Proof. cbn. auto. Qed.

Lemma pre_run {A} (p : prog A) : forall tr (Q : A -> tracker -> Prop) s, pre p tr Q ->
  exists r s' evs tr', run (honest L) p s = (r, s', evs) /\ (forall rest, smooth L tr' rest -> smooth L tr (evs ++ rest)) /\
    match r with Ok a => Q a tr' | _ => True end.
Proof.
  induction p as [a0|m|m| |x k IHk e IHe|x v o k IHk e IHe|x v k IHk e IHe|x vs k IHk e IHe|x v k IHk|x o g0 l k IHk]; cbn [pre run]; intros tr Q s H.
  - exists (Ok a0), s, [], tr. auto.
  - exists (Fail m), s, [], tr. auto.
  - exists (Panic m), s, [], tr. auto.
  - exists Fuel, s, [], tr. auto.
  - destruct H as [Hx H]. cbn [honest pTs]. rewrite (proj2 (N.ltb_lt _ _) Hx).
    destruct (IHk _ tr Q s H) as (r & s' & evs & tr' & E & Sm & HQ). rewrite E. exists r, s', (EvTs x (Ok (ts x)) :: evs), tr'.
    split; [reflexivity|]. split; [|exact HQ]. intros rest Hr. cbn. auto.
  - destruct H as (Hx & Hv & U & H). cbn [honest pLadder]. rewrite (proj2 (N.ltb_lt _ _) Hx).
    destruct (IHk _ _ Q (s + 1) H) as (r & s' & evs & tr' & E & Sm & HQ). rewrite E. eexists r, s', (_ :: evs), tr'.
    split; [reflexivity|]. split; [|exact HQ]. intros rest Hr. cbn. auto.
  - destruct H as (Hx & Hv & H). cbn [honest pMon]. rewrite (proj2 (N.ltb_lt _ _) Hx), (proj2 (Z.leb_le _ _) Hv). cbn [andb].
    destruct (IHk _ Q (s + 1) H) as (r & s' & evs & tr' & E & Sm & HQ). rewrite E. eexists r, s', (_ :: evs), tr'.
    split; [reflexivity|]. split; [|exact HQ]. intros rest Hr. cbn. auto.
  - destruct H as (Hx & Hv & H). cbn [honest pIncl]. rewrite (proj2 (N.ltb_lt _ _) Hx). cbn [andb].
    assert (Eb : forallb (fun v => (Z.of_N v <=? g x)%Z) vs = true).
    { destruct Hv as [->|(v & -> & Hv)]; [reflexivity|]. cbn [forallb]. now rewrite (proj2 (Z.leb_le _ _) Hv). }
    rewrite Eb. destruct (IHk _ Q (s + match vs with [] => 0 | _ => 1 end) H) as (r & s' & evs & tr' & E & Sm & HQ). rewrite E. eexists r, s', (_ :: evs), tr'.
    split; [reflexivity|]. split; [|exact HQ]. intros rest Hr. cbn. auto.
  - destruct H.
  - cbn [honest pTrack]. destruct (IHk _ Q s H) as (r & s' & evs & tr' & E & Sm & HQ). rewrite E. eexists r, s', (_ :: evs), tr'.
    split; [reflexivity|]. split; [|exact HQ]. intros rest Hr. cbn. auto.
Qed.

Variable c : pubConfig.

Hypothesis Hn : 1 <= nn < 2 ^ 64.

Lemma pre_rightmost_loop fuel : forall r a len tr, SRange nn a len -> a + len = nn ->
  pre (rightmost_loop c fuel nn r (sroot a len)) tr (fun o tr' => tr' = tr /\ exists a len, o = Some (sroot a len) /\ SRange nn a len /\ a + len = nn).
Proof.
  induction fuel as [|f IH]; intros rm a len tr R E; [exact I|]. cbn [rightmost_loop]. rewrite sub1_64 by auto.
  pose proof (nav_len nn a len Hn R) as (L1 & L2 & L3).
  destruct (N.eqb_spec (sroot a len) (nn - 1)); [cbn; split; eauto|].
  assert (Hr : lsize len + 1 < len) by (unfold sroot in *; lia).
  apply pre_bind, pre_ts; [apply (nav_lt nn a len Hn R)|]. destruct (negb _); [cbn; split; eauto|].
  apply pre_bind, pre_lift. intros x'. rewrite (nav_right nn a len Hn R Hr). intros [= <-]. apply IH; [constructor; auto|unfold sroot in *; lia].
Qed.

Lemma pre_rightmost tr : pre (rightmostDistinguished c nn) tr (fun o tr' => tr' = tr /\ forall x, o = Some x -> exists a len, x = sroot a len /\ SRange nn a len /\ a + len = nn).
Proof.
  unfold rightmostDistinguished. destruct (N.eqb_spec nn 0); [lia|]. rewrite sub1_64 by auto.
  apply pre_bind, pre_ts; [lia|]. destruct (negb _); [cbn; split; auto; discriminate|].
  destruct (c09_entries nn Hn) as (-> & _). eapply pre_mono; [apply pre_rightmost_loop; [constructor|lia]|].
  cbn beta. intros o t (-> & a & len & -> & R & E). split; auto. intros x [= <-]. eauto.
Qed.

Lemma pre_getAllTs xs tr : Forall (fun x => x < nn) xs -> pre (getAllTs xs) tr (fun _ tr' => tr' = tr).
Proof. induction 1 as [|x t Hx F IH]; [reflexivity|]. cbn [getAllTs]. apply pre_bind, pre_ts; auto. Qed.

Lemma SFront_lt a len l : SFront a len l -> Forall (fun x => x < a + len) l.
Proof.
  intro F. induction F as [a len E|a len rest Hr F IH]; constructor; auto.
  - unfold sroot. lia.
  - unfold sroot. lia.
  - eapply Forall_impl; [|exact IH]. cbn beta. unfold sroot. intros. lia.
Qed.

Lemma pre_updateView now m tr : pre (updateView c now nn m) tr (fun _ tr' => tr' = tr).
Proof.
  unfold updateView. destruct (match m with Some m0 => nn <? m0 | None => false end) eqn:E; [exact I|].
  destruct (N.eqb_spec nn 0); [lia|]. apply pre_bind, pre_lift. intros l El. apply pre_bind.
  assert (F : Forall (fun x => x < nn) l).
  { destruct (c10_frontier nn Hn) as (fr & Ef & SF). pose proof (SFront_lt _ _ _ SF) as FF. destruct m as [m0|].
    - apply N.ltb_ge in E. destruct (N.eq_dec m0 0) as [->|].
      + rewrite (proj2 (c10_first nn)) in El by auto. rewrite Ef in El. injection El as <-. exact FF.
      + destruct (c10_partial nn m0) as (old & new & l' & _ & _ & E' & Fl & _); [lia|lia|]. rewrite El in E'. injection E' as <-.
        eapply Forall_impl; [|exact Fl]. cbn beta. intros; lia.
    - rewrite (proj1 (c10_first nn)), Ef in El. injection El as <-. exact FF. }
  eapply pre_mono; [now apply pre_getAllTs|]. cbn beta. intros _ t ->. apply pre_bind. rewrite sub1_64 by auto. apply pre_ts; [lia|].
  destruct (_ && _); [exact I|]. destruct (_ && _); [exact I|reflexivity].
Qed.

(** ** Searches *)

(** What is remembered is true and lies outside the range left to search, on the side the search turned away from. *)
Definition around (t a len : N) (tr : tracker) : Prop :=
  (forall y vs, In (y, vs) (tr_inc tr) -> y < nn /\ Forall (fun w => (Z.of_N w <= g y)%Z) vs /\ (y < a /\ (g y <= Z.of_N t)%Z \/ a + len <= y /\ (Z.of_N t < g y)%Z)) /\
  (forall y vs, In (y, vs) (tr_non tr) -> y < nn /\ Forall (fun w => (g y < Z.of_N w)%Z) vs /\ (y < a /\ (g y <= Z.of_N t)%Z \/ a + len <= y /\ (Z.of_N t < g y)%Z)).

Lemma around0 t a len : around t a len tracker0.
Proof. split; intros y vs []. Qed.

Lemma around_usable t a len tr x : around t a len tr -> a <= x < a + len -> x < nn -> usable L tr x t true.
Proof.
  intros (A & B) Hx Hxn. destruct HL as (_ & _ & _ & M & _). split; intros w I.
  - apply in_searchMaps_l in I. destruct I as (y & vs & I & Lt & Iw). destruct (A y vs I) as (Hy & F & D).
    rewrite Forall_forall in F. specialize (F w Iw). specialize (M y x ltac:(lia)). lia.
  - apply in_searchMaps_r in I. destruct I as (y & vs & I & Lt & Iw). destruct (B y vs I) as (Hy & F & D).
    rewrite Forall_forall in F. specialize (F w Iw). specialize (M x y ltac:(lia)). lia.
Qed.

Lemma around_sub t a len tr a' len' : around t a len tr -> a <= a' -> a' + len' <= a + len -> around t a' len' tr.
Proof.
  intros (A & B) H1 H2. split; intros y vs I; [destruct (A y vs I) as (P1 & P2 & P3)|destruct (B y vs I) as (P1 & P2 & P3)];
    (split; [exact P1|split; [exact P2|]]); destruct P3; [left|right|left|right]; lia.
Qed.

Lemma around_step t a len tr x ask a' len' : around t a len tr -> a <= a' -> a' + len' <= a + len -> x < nn ->
  (x < a' /\ (g x <= Z.of_N t)%Z \/ a' + len' <= x /\ (Z.of_N t < g x)%Z) ->
  around t a' len' (addLadder tr x true (g x) ask).
Proof.
  intros T H1 H2 Hx D. apply (around_sub _ _ _ _ a' len') in T; auto. destruct T as (A & B).
  cbn. split; intros y vs I; cbn in I; apply in_app_iff in I; destruct I as [I|[[= <- <-]|[]]]; auto.
  - repeat split; auto. apply Forall_forall. intros w I. apply filter_In in I. lia.
  - repeat split; auto. apply Forall_forall. intros w I. apply filter_In in I. lia.
Qed.

Lemma pre_greatest_loop ver fuel : ver < 2 ^ 31 - 1 -> forall a len terminal tr, SRange nn a len -> a + len = nn -> around ver a len tr ->
  pre (greatest_loop fuel ver nn (sroot a len) terminal) tr (fun _ _ => True).
Proof.
  intro Hv. induction fuel as [|f IH]; intros a len terminal tr R E T; [exact I|]. cbn [greatest_loop]. rewrite sub1_64 by auto.
  pose proof (nav_len nn a len Hn R) as (L1 & L2 & L3). pose proof (nav_lt nn a len Hn R) as Hx.
  assert (Hxr : a <= sroot a len < a + len) by (unfold sroot; lia).
  apply pre_bind. cbn [getLadder pre]. split; [exact Hx|]. split; [exact Hv|]. split; [eapply around_usable; eauto|].
  destruct (cmp3_cases (g (sroot a len)) ver) as [[C EC]|[[C EC]|[C EC]]]; rewrite EC; cbn [Z.eqb]; [| |exact I].
  - destruct (N.eqb_spec (sroot a len) (nn - 1)); cbn [negb].
    + destruct (_ && _); exact I.
    + assert (Hr : lsize len + 1 < len) by (unfold sroot in *; lia).
      apply pre_bind, pre_lift. intros x'. rewrite (nav_right nn a len Hn R Hr). intros [= <-]. apply IH; [constructor; auto|unfold sroot in *; lia|].
      apply (around_step _ a len); auto; unfold sroot in *; lia.
  - destruct (N.eqb_spec (sroot a len) (nn - 1)); cbn [negb].
    + destruct (_ && _); exact I.
    + assert (Hr : lsize len + 1 < len) by (unfold sroot in *; lia).
      apply pre_bind, pre_lift. intros x'. rewrite (nav_right nn a len Hn R Hr). intros [= <-]. apply IH; [constructor; auto|unfold sroot in *; lia|].
      apply (around_step _ a len); auto; unfold sroot in *; lia.
Qed.

Lemma pre_greatest ver : ver < 2 ^ 31 - 1 -> pre (greatestVersionSearch c ver nn) tracker0 (fun _ _ => True).
Proof.
  intro Hv. unfold greatestVersionSearch. destruct (N.eqb_spec nn 0); [lia|]. apply pre_bind.
  apply (pre_mono _ _ (fun d tr => match d with inl _ => True | inr o => tr = tracker0 /\ forall x, o = Some x -> exists a len, x = sroot a len /\ SRange nn a len /\ a + len = nn end)).
  - apply pre_catch; [|cbn; auto]. apply pre_bind. eapply pre_mono; [apply pre_rightmost|]. cbn. auto.
  - cbn beta. intros [u|o] tr; [intros; exact I|]. intros (-> & Ho). destruct (c09_entries nn Hn) as (-> & _).
    assert (exists a len, match o with Some x => x | None => sroot 0 nn end = sroot a len /\ SRange nn a len /\ a + len = nn) as (a & len & -> & R & E).
    { destruct o as [x|]; [apply (Ho x); auto|]. exists 0, nn. split; auto. split; [constructor|lia]. }
    apply pre_greatest_loop; auto. apply around0.
Qed.

Lemma pre_finish ver terminal ex d tr : (forall t, terminal = Some t -> t < nn /\ (Z.of_N ver <= g t)%Z) ->
  pre (fixed_finish ver terminal ex d) tr (fun _ _ => True).
Proof.
  intro H. unfold fixed_finish. destruct terminal as [t|]; [|exact I]. destruct (H t eq_refl). destruct (_ && _); [exact I|]. cbn. eauto 6.
Qed.

Lemma pre_fixed_loop ver rm fuel : ver < 2 ^ 31 - 1 -> forall a len terminal ex l r d tr, SRange nn a len -> around ver a len tr ->
  (forall t, terminal = Some t -> t < nn /\ (Z.of_N ver <= g t)%Z) ->
  pre (fixed_loop c fuel ver nn rm (sroot a len) terminal ex l r d) tr (fun _ _ => True).
Proof.
  intro Hv. induction fuel as [|f IH]; intros a len terminal ex l r d tr R T Ht; [exact I|]. cbn [fixed_loop].
  pose proof (nav_len nn a len Hn R) as (L1 & L2 & L3). pose proof (nav_lt nn a len Hn R) as Hx.
  assert (Hxr : a <= sroot a len < a + len) by (unfold sroot; lia).
  apply pre_bind, pre_ts; [exact Hx|].
  assert (GR : forall term e l' r' d' tr', (lsize len + 1 < len -> around ver (sroot a len + 1) (len - lsize len - 1) tr') ->
     (forall t, term = Some t -> t < nn /\ (Z.of_N ver <= g t)%Z) ->
     pre (if noRightChild (sroot a len) nn then fixed_finish ver term e d' else
     pbind (lift (tright (sroot a len) nn)) (fun x' => fixed_loop c f ver nn rm x' term e l' r' d')) tr' (fun _ _ => True)).
  { intros term e l' r' d' tr' T' Ht'. rewrite (nav_noRight nn a len Hn R). destruct (N.eqb_spec len (lsize len + 1)); [now apply pre_finish|].
    assert (Hr : lsize len + 1 < len) by lia. apply pre_bind, pre_lift. intros x'. rewrite (nav_right nn a len Hn R Hr). intros [= <-]. apply IH; auto. constructor; auto. }
  destruct (isExpired _ _ _); [apply GR; auto; intros; apply (around_sub _ a len); auto; unfold sroot in *; lia|].
  apply pre_bind. cbn [getLadder pre]. split; [exact Hx|]. split; [exact Hv|]. split; [eapply around_usable; eauto|].
  destruct (cmp3_cases (g (sroot a len)) ver) as [[C EC]|[[C EC]|[C EC]]]; rewrite EC; cbn [Z.eqb].
  - apply GR; auto.
    intros; apply (around_step _ a len); auto; unfold sroot in *; lia.
  - destruct (negb ex); [exact I|]. destruct (existsb _ _); exact I.
  - rewrite (nav_noLeft nn a len Hn R).
    assert (Ht' : forall t, (if (0 <=? 1)%Z && match terminal with Some t0 => sroot a len <? t0 | None => true end then Some (sroot a len) else terminal) = Some t -> t < nn /\ (Z.of_N ver <= g t)%Z).
    { intros t. destruct (_ && _); [intros [= <-]; lia|apply Ht]. }
    destruct (N.eqb_spec (lsize len) 0); [now apply pre_finish|].
    assert (Hl : 0 < lsize len) by lia. apply pre_bind, pre_lift. intros x'. rewrite (nav_left nn a len Hn R Hl). intros [= <-]. apply IH; auto; [constructor; auto|].
    apply (around_step _ a len); auto; unfold sroot in *; lia.
Qed.

Lemma pre_fixed ver : ver < 2 ^ 31 - 1 -> pre (fixedVersionSearch c ver nn) tracker0 (fun _ _ => True).
Proof.
  intro Hv. unfold fixedVersionSearch. destruct (N.eqb_spec nn 0); [lia|]. rewrite sub1_64 by auto. apply pre_bind, pre_ts; [lia|].
  destruct (c09_entries nn Hn) as (-> & _). apply pre_fixed_loop; auto; [constructor|apply around0|discriminate].
Qed.

(** ** Contact monitoring *)

Lemma pre_ancestor_loop target fuel tr : forall a len l r best, SRange nn a len -> a <= target < a + len ->
  pre (ancestor_loop c fuel nn target (sroot a len) l r best) tr (fun _ tr' => tr' = tr).
Proof.
  induction fuel as [|f IH]; intros a len l r best R Ht; [exact I|]. cbn [ancestor_loop].
  destruct (negb _); [reflexivity|]. destruct (N.eqb_spec (sroot a len) target); [reflexivity|].
  apply pre_bind, pre_ts; [apply (nav_lt nn a len Hn R)|]. destruct (N.ltb_spec target (sroot a len)).
  - assert (Hl : 0 < lsize len) by (unfold sroot in *; lia). apply pre_bind, pre_lift. intros x'. rewrite (nav_left nn a len Hn R Hl). intros [= <-].
    apply IH; [constructor; auto|unfold sroot in *; lia].
  - assert (Hr : lsize len + 1 < len) by (unfold sroot in *; lia). apply pre_bind, pre_lift. intros x'. rewrite (nav_right nn a len Hn R Hr). intros [= <-].
    apply IH; [constructor; auto|unfold sroot in *; lia].
Qed.

Lemma pre_contact_loop ver tr xs : Forall (fun y => y < nn /\ (Z.of_N ver <= g y)%Z) xs -> forall prev, pre (contact_loop ver xs prev) tr (fun _ tr' => tr' = tr).
Proof.
  induction 1 as [|y t [Hy Hg] F IH]; intro prev; [reflexivity|]. cbn [contact_loop]. destruct (mget prev y); [destruct (_ <=? _); [exact I|reflexivity]|].
  cbn. repeat split; auto.
Qed.

Lemma inspect_in stop skip path y : In y (inspectList stop skip path) -> In y path.
Proof.
  induction path as [|p t IH]; cbn; auto. destruct (match stop with Some s => s =? p | None => false end); [destruct skip|]; cbn; intuition.
Qed.

Lemma pre_contactOne m x ver prev tr : mo_size m = nn -> x < nn -> (Z.of_N ver <= g x)%Z -> pre (contactMonitorOne c m x ver prev) tr (fun _ tr' => tr' = tr).
Proof.
  intros Em Hx Hv. unfold contactMonitorOne, distinguishedAncestor. rewrite Em. apply pre_bind.
  destruct (c09_entries nn Hn) as (-> & _). eapply pre_mono; [apply pre_ancestor_loop; [constructor|lia]|]. cbn beta.
  intros stop t ->. destruct (match stop with Some s => s =? x | None => false end); [reflexivity|].
  destruct (c11_right nn x Hn Hx) as (d & Ed & Md & _). rewrite Ed. cbn [lift pbind].
  apply pre_bind. eapply pre_mono; [apply pre_contact_loop|].
  - apply Forall_forall. intros y I. apply inspect_in in I. apply Md in I. destruct I as ((a & len & R & -> & _) & Lt).
    pose proof (nav_lt nn a len Hn R). split; auto. destruct HL as (_ & _ & _ & M & _). specialize (M x (sroot a len) ltac:(lia)). lia.
  - cbn beta. intros [early p] t ->. destruct early; [reflexivity|]. destruct stop; reflexivity.
Qed.

Lemma pre_contactAll m ptrs0 xs tr : mo_size m = nn ->
  Forall (fun x => x < nn /\ (Z.of_N (match mget ptrs0 x with Some v => v | None => 0 end) <= g x)%Z) xs -> forall prev ptrs,
  pre (contactAll c m ptrs0 xs prev ptrs) tr (fun _ tr' => tr' = tr).
Proof.
  intros Em F. induction F as [|x t [Hx Hg] F IH]; intros prev ptrs; [reflexivity|]. cbn [contactAll]. apply pre_bind.
  eapply pre_mono; [apply pre_contactOne; auto|]. cbn beta. intros [u p] t' ->. apply IH.
Qed.

Lemma pre_contact m tr : mo_size m = nn ->
  (forall ptrs x v, mo_contact m = Some ptrs -> mget ptrs x = Some v -> x < nn /\ (Z.of_N v <= g x)%Z) ->
  pre (contactMonitor c m) tr (fun _ tr' => tr' = tr).
Proof.
  intros Em H. unfold contactMonitor. destruct (mo_contact m) as [ptrs|]; [|reflexivity]. apply pre_bind.
  eapply pre_mono; [apply pre_contactAll; auto; apply Forall_forall; intros x Hx|].
  - apply keysDown_In, in_map_iff in Hx as ((x' & v) & <- & Hi). cbn [fst].
    destruct (mget ptrs x') as [v'|] eqn:E; [eapply H; eauto|]. exfalso. clear -Hi E. induction ptrs as [|[y u] t IH]; [destruct Hi|].
    cbn in E, Hi. destruct (N.eqb_spec x' y); [discriminate|]. destruct Hi as [[= <- <-]|Hi]; [congruence|auto].
  - cbn beta. intros p t ->. reflexivity.
Qed.

(** ** Owner initialization *)

Lemma pre_init m starting fuel tr : mo_size m = nn -> forall a len l r, SRange nn a len ->
  pre (init_rec c fuel m starting (sroot a len) l r) tr (fun xs tr' => tr' = tr /\ Forall (fun x => x < nn) xs).
Proof.
  intro Em. induction fuel as [|f IH]; intros a len l r R; [exact I|]. cbn [init_rec]. rewrite Em. destruct (negb _); [exact I|].
  pose proof (nav_lt nn a len Hn R) as Hx. pose proof (nav_len nn a len Hn R) as (L1 & L2 & L3).
  apply pre_bind, pre_ts; [exact Hx|]. destruct (_ <? _).
  - rewrite (nav_noRight _ a len Hn R). destruct (N.eqb_spec len (lsize len + 1)); [exact I|].
    assert (Hr : lsize len + 1 < len) by lia. apply pre_bind, pre_lift. intros x'. rewrite (nav_right _ a len Hn R Hr). intros [= <-]. apply pre_bind.
    eapply pre_mono; [apply IH; constructor; auto|]. cbn beta. intros xs t [-> F]. cbn. split; auto. destruct (isExpired _ _ _); auto.
    apply Forall_app. auto.
  - destruct (_ =? _); [destruct (isExpired _ _ _); cbn; auto|]. rewrite (nav_noLeft _ a len Hn R).
    destruct (N.eqb_spec (lsize len) 0); [exact I|]. cbn [orb]. destruct (isExpired _ _ _); [exact I|].
    assert (Hl : 0 < lsize len) by lia. apply pre_bind, pre_lift. intros x'. rewrite (nav_left _ a len Hn R Hl). intros [= <-]. apply IH. constructor; auto.
Qed.

Lemma usable_all tr x v : usable L tr x v false.
Proof. split; intros w []. Qed.

Lemma pre_initLadders tr xs : Forall (fun x => x < nn) xs -> forall vers, Forall (fun v => v < 2 ^ 31 - 1) vers -> pre (initLadders xs vers) tr (fun _ tr' => tr' = tr).
Proof.
  induction 1 as [|x t Hx F IH]; intros vers Fv; [now destruct vers|]. destruct vers as [|v vers]; cbn [initLadders]; apply pre_bind; cbn [getLadder pre];
    (split; [exact Hx|split; [|split; [apply usable_all|]]]).
  - reflexivity.
  - destruct (negb _); [exact I|]. cbn. apply IH. constructor.
  - now inversion Fv.
  - destruct (negb _); [exact I|]. cbn. apply IH. now inversion Fv.
Qed.

Lemma pre_ownerInit m starting vers tr : mo_size m = nn -> Forall (fun v => v < 2 ^ 31 - 1) vers ->
  pre (ownerInit c m starting vers) tr (fun _ tr' => tr' = tr).
Proof.
  intros Em Fv. unfold ownerInit. destruct (mo_owner m); [exact I|]. apply pre_bind. unfold initEntries. rewrite Em at 1. destruct (c09_entries nn Hn) as (-> & _).
  eapply pre_mono; [apply pre_init; auto; constructor|]. cbn beta.
  intros xs t [-> F]. destruct (_ <? _)%nat; [exact I|]. destruct (negb _); [exact I|]. apply pre_bind. eapply pre_mono; [apply pre_initLadders; auto|]. cbn. auto.
Qed.

End Pre.
