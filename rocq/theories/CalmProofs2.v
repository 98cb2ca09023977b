(** The client's verification functions end with a result or an error: the algorithms, with their results. *)
From Verif Require Import Base BaseProofs LogMathModel TransMathModel TransMathSpec TransMathProofs TransMathProofs2 LaddersModel LaddersProofs
  PrefixModel PrefixVerifyProofs3 CodecModel CodecSpec AlgModel AlgSpec AlgProofs AlgProofs2 AlgProofs3 AlgProofs4 HandleModel HandleProofs
  StoreModel CommitModel MutateModel MutateProofs5 AuditorProofs5 ServerModel ClientModel CalmProofs.
Open Scope N_scope.
Local Open Scope list_scope.

(** A result that satisfies [R], or an error. *)
Definition nice {A} (R : A -> Prop) (r : res A) : Prop := match r with Ok a => R a | Fail _ => True | _ => False end.
Lemma nice_calm {A} (R : A -> Prop) r : nice R r -> calm r.
Proof. destruct r; cbn; auto. Qed.
Lemma calm_nice {A} (r : res A) : calm r -> nice (fun _ => True) r.
Proof. destruct r; cbn; auto. Qed.
Lemma nice_bind {A B} (R : B -> Prop) (x : res A) (f : A -> res B) : nice (fun a => nice R (f a)) x -> nice R (bind x f).
Proof. destruct x; cbn; auto. Qed.
Lemma nice_mono {A} (Q R : A -> Prop) r : (forall a, Q a -> R a) -> nice Q r -> nice R r.
Proof. destruct r; cbn; auto. Qed.
Lemma nice_then {A B} (Q : A -> Prop) (R : B -> Prop) (x : res A) (f : A -> res B) : nice Q x -> (forall a, Q a -> nice R (f a)) -> nice R (bind x f).
Proof. intros C K. apply nice_bind. eapply nice_mono; eauto. Qed.
Lemma calm_then {A B} (R : B -> Prop) (x : res A) (f : A -> res B) : calm x -> (forall a, nice R (f a)) -> nice R (bind x f).
Proof. intros C K. apply nice_bind. eapply nice_mono; [|apply calm_nice; exact C]. intros a _. apply K. Qed.

Section Algorithms.
Variable c : pubConfig.
Notation wv := (wq okVersion).

Lemma rightmost_wv n : n < 2 ^ 64 ->
  wv (fun o => forall x, o = Some x -> exists a len, x = sroot a len /\ SRange n a len /\ a + len = n) (rightmostDistinguished c n).
Proof. intro H. apply wq_silent; [apply rightmost_silent|apply rightmost_safe; auto]. Qed.

Lemma updateView_wv now n m : n < 2 ^ 64 -> wv (fun _ => forall k, m = Some k -> k <= n) (updateView c now n m).
Proof.
  intro H. destruct (match m with Some m0 => n <? m0 | None => false end) eqn:E.
  { unfold updateView. rewrite E. exact I. }
  assert (F : forall k, m = Some k -> k <= n) by (intros k ->; apply N.ltb_ge in E; auto).
  eapply wq_mono; [|apply wq_silent; [apply updateView_silent|apply updateView_safe; auto]]. auto.
Qed.

Lemma greatest_loop_wv n ver (Hn : ok64 n) (Hv : okVersion ver) fuel : forall a len terminal, SRange n a len -> a + len = n -> N.log2 len < N.of_nat fuel ->
  (forall t, terminal = Some t -> t < n) -> wv (fun t => t < n) (greatest_loop fuel ver n (sroot a len) terminal).
Proof.
  induction fuel as [|f IH]; intros a len terminal R E Hf Ht; [lia|]. cbn [greatest_loop]. rewrite sub1_64 by auto.
  pose proof (nav_len n a len Hn R) as (L1 & L2 & L3).
  apply wq_bind, wq_getLadder; [exact Hv|]. intro r. destruct (r =? 1)%Z; [exact I|]. cbn zeta.
  assert (Ht' : forall t, (if (r =? 0)%Z && match terminal with None => true | _ => false end then Some (sroot a len) else terminal) = Some t -> t < n).
  { intros t. destruct (_ && _); [intros [= <-]; unfold sroot; lia|apply Ht]. }
  destruct (N.eqb_spec (sroot a len) (n - 1)).
  - cbn [negb]. destruct ((ver =? 0) && _); [exact I|]. destruct (negb _); [exact I|]. cbn [wq].
    match goal with |- match ?o with _ => _ end < n => destruct o as [t|] eqn:Eo end; [apply Ht'; reflexivity|unfold ok64 in Hn; lia].
  - cbn [negb]. assert (Hr : lsize len + 1 < len) by (unfold sroot in *; lia).
    apply wq_bind. eapply wq_lift; [apply (nav_right n a len Hn R Hr)|]. apply IH.
    + constructor; auto.
    + unfold sroot in *. lia.
    + pose proof (rsize_log len Hr). lia.
    + exact Ht'.
Qed.

Lemma greatest_wv ver n : n < 2 ^ 64 -> okVersion ver -> wv (fun t => t < n) (greatestVersionSearch c ver n).
Proof.
  intros H Hv. unfold greatestVersionSearch. destruct (N.eqb_spec n 0); [exact I|]. assert (Hn : ok64 n) by (unfold ok64; lia).
  apply wq_bind. eapply (wq_mono _ (fun d => forall o x, d = inr o -> o = Some x -> exists a len, x = sroot a len /\ SRange n a len /\ a + len = n)).
  2:{ apply wq_catch; [|intros; cbn; discriminate]. apply wq_bind. eapply wq_mono; [|apply rightmost_wv; auto].
      intros o Ho o' x E Ex. injection E as <-. auto. }
  intros [u|o] Hd; [cbn; lia|]. destruct (c09_entries n Hn) as (-> & _).
  assert (exists a len, match o with Some x => x | None => sroot 0 n end = sroot a len /\ SRange n a len /\ a + len = n) as (a & len & -> & R & E).
  { destruct o as [x|]; [apply (Hd (Some x) x); auto|]. exists 0, n. split; auto. split; [constructor|lia]. }
  apply greatest_loop_wv; auto; [|discriminate]. pose proof (log_fuel n a len Hn R). lia.
Qed.

Lemma finish_wv n ver t e d : (forall y, t = Some y -> y < n) -> wv (fun t => t < n) (fixed_finish ver t e d).
Proof. intro H. unfold fixed_finish. destruct t as [y|]; [|exact I]. destruct (_ && _); [exact I|]. cbn. auto. Qed.

Lemma fixed_loop_wv n ver rm (Hn : ok64 n) (Hv : okVersion ver) fuel : forall a len terminal ex l r d, SRange n a len -> N.log2 len < N.of_nat fuel ->
  (forall t, terminal = Some t -> t < n) -> wv (fun t => t < n) (fixed_loop c fuel ver n rm (sroot a len) terminal ex l r d).
Proof.
  induction fuel as [|f IH]; intros a len terminal ex l r d R Hf Ht; [lia|]. cbn [fixed_loop].
  pose proof (nav_len n a len Hn R) as (L1 & L2 & L3).
  assert (Hx : sroot a len < n) by (unfold sroot; lia).
  apply wq_bind, wq_getTs. intro t.
  assert (GR : forall term e l' r' d', (forall y, term = Some y -> y < n) -> wv (fun t => t < n) (if noRightChild (sroot a len) n then fixed_finish ver term e d' else
     pbind (lift (tright (sroot a len) n)) (fun x' => fixed_loop c f ver n rm x' term e l' r' d'))).
  { intros term e l' r' d' Hterm. rewrite (nav_noRight n a len Hn R). destruct (N.eqb_spec len (lsize len + 1)); [apply finish_wv; auto|].
    assert (Hr : lsize len + 1 < len) by lia. apply wq_bind. eapply wq_lift; [apply (nav_right n a len Hn R Hr)|]. apply IH; [constructor; auto| |auto].
    pose proof (rsize_log len Hr). lia. }
  destruct (isExpired _ _ _); [apply GR; auto|]. cbn zeta.
  apply wq_bind, wq_getLadder; [exact Hv|]. intro z.
  assert (Ht' : forall y, (if (0 <=? z)%Z && match terminal with None => true | Some t => sroot a len <? t end then Some (sroot a len) else terminal) = Some y -> y < n).
  { intros y. destruct (_ && _); [intros [= <-]; auto|apply Ht]. }
  destruct (z =? -1)%Z; [apply GR; auto|].
  destruct (z =? 1)%Z.
  - rewrite (nav_noLeft n a len Hn R). destruct (N.eqb_spec (lsize len) 0); [apply finish_wv; auto|].
    assert (Hl : 0 < lsize len) by lia. apply wq_bind. eapply wq_lift; [apply (nav_left n a len Hn R Hl)|]. apply IH; [constructor; auto| |auto].
    pose proof (lsize_log len Hl). lia.
  - destruct (negb ex); [exact Hx|]. destruct (existsb _ _); [exact Hx|exact I].
Qed.

Lemma fixed_wv ver n : n < 2 ^ 64 -> okVersion ver -> wv (fun t => t < n) (fixedVersionSearch c ver n).
Proof.
  intros H Hv. unfold fixedVersionSearch. destruct (N.eqb_spec n 0); [exact I|]. assert (Hn : ok64 n) by (unfold ok64; lia).
  apply wq_bind, wq_getTs. intro t. destruct (c09_entries n Hn) as (-> & _). apply fixed_loop_wv; auto; [constructor| |discriminate].
  pose proof (log_fuel n 0 n Hn (SR_root n)). lia.
Qed.

(** ** Monitoring *)

Lemma newMonitor_wv n : wv (fun mo => 1 <= n /\ mo_size mo = n /\ mo_contact mo = None /\ mo_owner mo = None) (newMonitor n).
Proof. unfold newMonitor. destruct (N.eqb_spec n 0); [exact I|]. cbn. repeat split; lia. Qed.

Lemma ancestor_loop_silent fuel n target : forall x l r best, silent (ancestor_loop c fuel n target x l r best).
Proof.
  induction fuel as [|f IH]; intros x l r best; [exact I|]. cbn [ancestor_loop]. destruct (negb _); [exact I|]. destruct (x =? target); [exact I|].
  apply silent_bind; [apply silent_getTs|]. intro t. destruct (_ <? _); (apply silent_bind; [apply silent_lift|auto]).
Qed.

Lemma contact_loop_wv ver xs : okVersion ver -> forall prev, wv (fun _ => True) (contact_loop ver xs prev).
Proof.
  intro Hv. induction xs as [|y t IH]; intro prev; [exact I|]. cbn [contact_loop]. destruct (mget prev y); [destruct (_ <=? _); exact I|].
  cbn. split; auto.
Qed.

Lemma inspectList_incl stop skip path y : In y (inspectList stop skip path) -> In y path.
Proof.
  revert skip. induction path as [|z t IH]; intros skip; cbn [inspectList]; [tauto|]. intro Hi.
  repeat match type of Hi with
  | In _ (if ?b then _ else _) => destruct b
  | In _ (match ?o with _ => _ end) => destruct o
  | In _ (_ :: _) => destruct Hi as [<-|Hi]; [left; reflexivity|]
  | In _ [] => destruct Hi
  end; try (right; eapply IH; eassumption).
Qed.
Lemma last_In (l : list N) d : l <> [] -> In (List.last l d) l.
Proof. induction l as [|x [|y t] IH]; intro H; [congruence|left; reflexivity|right; apply IH; discriminate]. Qed.

Lemma contactOne_wv m x ver prev : ok64 (mo_size m) -> x < mo_size m -> okVersion ver ->
  wv (fun r => forall y, fst r = Some y -> y < mo_size m) (contactMonitorOne c m x ver prev).
Proof.
  intros Hn Hx Hv. unfold contactMonitorOne, distinguishedAncestor. apply wq_bind. eapply (wq_mono _ (fun _ => True)).
  2:{ apply wq_silent; [apply ancestor_loop_silent|].
      destruct (c09_entries _ Hn) as (-> & _). apply ancestor_loop_safe; auto; [constructor|lia|]. pose proof (log_fuel _ 0 _ Hn (SR_root _)). lia. }
  intros stop _. destruct (match stop with Some s => s =? x | None => false end); [cbn; discriminate|].
  destruct (c11_right (mo_size m) x Hn Hx) as (d & Ed & Hd). rewrite Ed. cbn [lift pbind].
  apply wq_bind. eapply wq_mono; [|apply contact_loop_wv; auto]. intros [early p] _. destruct early; [cbn; discriminate|]. destruct stop; [cbn; discriminate|].
  cbn [wq fst]. intros y [= <-]. set (l := inspectList _ _ _) in *. destruct (list_eq_dec N.eq_dec l []) as [->|E]; [exact Hx|].
  pose proof (last_In l x E) as Hi. apply inspectList_incl in Hi. apply Hd in Hi as [Hs _]. apply (sanc_anc _ x _) in Hs; [apply Hs|unfold ok64, two64 in *; lia|exact Hx].
Qed.

Definition finePtr (n : N) (e : N * N) : Prop := fst e < n /\ okVersion (snd e).
Definition fineVer (e : N * N) : Prop := okVersion (snd e).

Lemma mget_in {A} (m : list (N * A)) k v : mget m k = Some v -> In (k, v) m.
Proof. induction m as [|[k' v'] m IH]; cbn; [discriminate|]. destruct (N.eqb_spec k k'); [intros [= ->]; subst; auto|auto]. Qed.

Lemma contactAll_wv m ptrs0 xs : ok64 (mo_size m) -> Forall fineVer ptrs0 -> Forall (fun x => x < mo_size m) xs -> forall prev ptrs,
  Forall (finePtr (mo_size m)) ptrs -> wv (Forall (finePtr (mo_size m))) (contactAll c m ptrs0 xs prev ptrs).
Proof.
  intros Hn F0 F. induction F as [|x t Hx F IH]; intros prev ptrs Fp; [exact Fp|]. cbn [contactAll]. cbn zeta.
  assert (Hv : okVersion (match mget ptrs0 x with Some v => v | None => 0 end)).
  { destruct (mget ptrs0 x) as [v|] eqn:E; [|unfold okVersion; lia]. apply mget_in in E. rewrite Forall_forall in F0. apply (F0 _ E). }
  apply wq_bind. eapply wq_mono; [|apply contactOne_wv; auto]. intros [[y|] p] Hy; apply IH; auto. constructor; auto. split; [apply Hy; reflexivity|exact Hv].
Qed.

Lemma contact_wv m ptrs : ok64 (mo_size m) -> mo_contact m = Some ptrs -> Forall (finePtr (mo_size m)) ptrs ->
  wv (fun m' => mo_size m' = mo_size m /\ mo_owner m' = mo_owner m /\ (ptrs = [] -> mo_contact m' = None) /\
                (forall p, mo_contact m' = Some p -> Forall (finePtr (mo_size m)) p)) (contactMonitor c m).
Proof.
  intros Hn E F. unfold contactMonitor. rewrite E. apply wq_bind.
  assert (Fv : Forall fineVer ptrs) by (eapply Forall_impl; [|exact F]; intros e []; auto).
  destruct ptrs as [|e0 ptrs].
  { cbn. repeat split. discriminate. }
  eapply wq_mono; [|apply contactAll_wv; auto; apply Forall_forall; intros x Hx].
  - intros p Fp. cbn [wq mo_size mo_owner mo_contact]. repeat split; try discriminate. intros p'. destruct p; [discriminate|]. intros [= <-]. auto.
  - apply keysDown_In, in_map_iff in Hx as ((x' & v) & <- & Hi). rewrite Forall_forall in F. apply (F _ Hi).
Qed.

(** ** Owners *)

Definition fineOwner (o : ownerState) : Prop := (-1 <= os_verAt o)%Z /\ (greatestVersion o < 2147483647)%Z.

Lemma init_silent m fuel starting : forall x l r, silent (init_rec c fuel m starting x l r).
Proof.
  induction fuel as [|f IH]; intros x l r; [exact I|]. cbn [init_rec]. destruct (negb _); [exact I|].
  apply silent_bind; [apply silent_getTs|]. intro t. cbn zeta. destruct (_ <? _).
  - destruct (noRightChild _ _); [exact I|]. apply silent_bind; [apply silent_lift|]. intro. apply silent_bind; [apply IH|]. intro; exact I.
  - destruct (_ =? _); [destruct (isExpired _ _ _); exact I|]. destruct (_ || _); [exact I|]. apply silent_bind; [apply silent_lift|auto].
Qed.
Lemma initLadders_wv xs : forall vers, Forall okVersion vers -> wv (fun _ => True) (initLadders xs vers).
Proof.
  induction xs as [|x t IH]; intros [|v vers] F; try exact I; cbn [initLadders]; (apply wq_bind, wq_getLadder; [inversion F; subst; auto; unfold okVersion; lia|]);
    intro r; destruct (negb _); try exact I; apply IH; inversion F; auto.
Qed.

Lemma ownerInit_wv m starting vers : ok64 (mo_size m) -> Forall okVersion vers ->
  wv (fun r => exists o, mo_owner (snd r) = Some o /\ fineOwner o) (ownerInit c m starting vers).
Proof.
  intros Hn F. unfold ownerInit. destruct (mo_owner m); [exact I|]. apply wq_bind. eapply (wq_mono _ (fun _ => True)).
  2:{ unfold initEntries. apply wq_silent; [apply init_silent|]. destruct (c09_entries _ Hn) as (-> & _). apply init_safe; auto; [constructor|]. pose proof (log_fuel _ 0 _ Hn (SR_root _)). lia. }
  intros xs _. destruct (_ <? _)%nat; [exact I|]. destruct (negb _); [exact I|]. apply wq_bind. eapply wq_mono; [|apply initLadders_wv; auto].
  intros _ _. cbn. eexists. split; [reflexivity|]. unfold fineOwner, greatestVersion. cbn. destruct vers as [|v vers]; [lia|].
  inversion F as [|? ? Hv ?]; subst. unfold okVersion in Hv. change (2 ^ 31 - 1) with 2147483647 in Hv. lia.
Qed.

Lemma expect_wv x v o : (v < 2147483647)%Z -> wv (fun _ => True) (expectLadder x v o).
Proof.
  intro H. unfold expectLadder. destruct (Z.ltb_spec v 0); (apply wq_bind, wq_getLadder; [|intro r; destruct (negb _); exact I]).
  - unfold okVersion. lia.
  - apply toU32_small. lia.
Qed.

Lemma greatestAt_fine os x : exists z, greatestVersionAt os x = Ok z /\ (os_verAt os <= z <= greatestVersion os)%Z.
Proof. unfold greatestVersionAt, greatestVersion. destruct (bsearch_ok (os_upcoming os) (add64 x 1)) as (k & -> & Hk). cbn. eexists. split; [reflexivity|lia]. Qed.
Lemma setStarting_fine os x : exists os', setStarting os x = Ok os' /\ greatestVersion os' = greatestVersion os /\ (os_verAt os <= os_verAt os')%Z.
Proof.
  unfold setStarting. destruct (bsearch_ok (os_upcoming os) (add64 x 1)) as (k & -> & Hk). cbn. eexists. split; [reflexivity|]. unfold greatestVersion. cbn.
  rewrite skipn_length. lia.
Qed.

Lemma ownerMonitor_rec_wv n (Hn : ok64 n) fuel : forall os a len l r, fineOwner os -> SRange n a len -> N.log2 len < N.of_nat fuel ->
  wv fineOwner (ownerMonitor_rec c fuel n os (sroot a len) l r).
Proof.
  induction fuel as [|f IH]; intros os a len l r Ho R Hf; [lia|]. cbn [ownerMonitor_rec]. destruct (negb _); [exact Ho|].
  pose proof (nav_len n a len Hn R) as (L1 & L2 & L3).
  assert (GR : forall os1 t, fineOwner os1 -> lsize len + 1 < len ->
     wv fineOwner (pbind (lift (tright (sroot a len) n)) (fun x' => ownerMonitor_rec c f n os1 x' t r))).
  { intros os1 t H1 Hr. apply wq_bind. eapply wq_lift; [apply (nav_right n a len Hn R Hr)|].
    apply IH; auto; [constructor; auto|pose proof (rsize_log len Hr); lia]. }
  destruct (N.leb_spec (sroot a len) (os_starting os)).
  - rewrite (nav_noRight n a len Hn R). destruct (N.eqb_spec len (lsize len + 1)); [exact Ho|].
    apply wq_bind, wq_getTs. intro t. apply GR; auto; lia.
  - apply wq_bind. eapply (wq_mono _ fineOwner).
    2:{ unfold hasLeftChild. rewrite (nav_noLeft n a len Hn R). destruct (N.eqb_spec (lsize len) 0); cbn [negb]; [exact Ho|].
        apply wq_bind, wq_getTs. intro t. assert (Hl : 0 < lsize len) by lia. apply wq_bind. eapply wq_lift; [apply (nav_left n a len Hn R Hl)|].
        apply IH; auto; [constructor; auto|]. pose proof (lsize_log len Hl). lia. }
    intros os1 [A B]. apply wq_bind. destruct (greatestAt_fine os1 (sroot a len)) as (z & Ez & Bz). eapply wq_lift; [exact Ez|].
    apply wq_bind. cbn [stopCond wq]. intros [|]; [split; auto|].
    apply wq_bind. eapply wq_mono; [|apply expect_wv; lia]. intros _ _. apply wq_bind.
    destruct (setStarting_fine os1 (sroot a len)) as (os2 & E2 & S2 & S3). eapply wq_lift; [exact E2|].
    assert (Ho2 : fineOwner os2) by (split; lia).
    rewrite (nav_noRight n a len Hn R). destruct (N.eqb_spec len (lsize len + 1)); [exact Ho2|].
    apply wq_bind, wq_getTs. intro t. apply GR; auto; lia.
Qed.

Lemma ownerMonitor_wv m os : ok64 (mo_size m) -> mo_owner m = Some os -> fineOwner os ->
  wv (fun '(r, m') => mo_contact m' = mo_contact m /\ exists os', mo_owner m' = Some os' /\ fineOwner os') (ownerMonitor c m).
Proof.
  intros Hn Eo Ho. unfold ownerMonitor. rewrite Eo.
  apply wq_catch; [|intros; cbn; split; eauto]. apply wq_bind. destruct (c09_entries _ Hn) as (-> & _).
  eapply wq_mono; [|apply (ownerMonitor_rec_wv _ Hn 66 os 0); auto; [constructor|pose proof (log_fuel _ 0 _ Hn (SR_root _)); lia]].
  intros os' A. cbn. split; auto. eauto.
Qed.

(** ** Updates *)

Lemma nonDist_loop_silent fuel n target : forall x l r, silent (nonDist_loop c fuel n target x l r).
Proof.
  induction fuel as [|f IH]; intros x l r; [exact I|]. cbn [nonDist_loop]. destruct (negb _); [exact I|]. destruct (x =? target); [exact I|].
  apply silent_bind; [apply silent_getTs|]. intro t. destruct (_ <? _); (apply silent_bind; [apply silent_lift|auto]).
Qed.
Lemma nonDist_wv m target : ok64 (mo_size m) -> target < mo_size m ->
  wv (fun o => forall x, o = Some x -> exists a' len', x = sroot a' len' /\ SRange (mo_size m) a' len' /\ a' <= target < a' + len')
    (nonDistinguishedAncestor c m target).
Proof.
  intros Hn Ht. apply wq_silent; [|apply nonDist_safe; auto]. unfold nonDistinguishedAncestor. apply silent_bind; [apply silent_getTs|]. intro. apply nonDist_loop_silent.
Qed.

Lemma previousTree_loop_wv pos lu g (Hp : ok64 pos) (Hg : (g < 2147483647)%Z) fuel : forall a len, SRange pos a len -> a + len = pos -> N.log2 len < N.of_nat fuel ->
  wv (fun _ => True) (previousTree_loop fuel pos lu g (sroot a len)).
Proof.
  induction fuel as [|f IH]; intros a len R E Hf; [lia|]. cbn [previousTree_loop]. apply wq_bind. eapply (wq_mono _ (fun _ => True)).
  2:{ destruct (_ <=? _); [exact I|apply expect_wv; auto]. }
  intros _ _. rewrite sub1_64 by auto. pose proof (nav_len pos a len Hp R) as (L1 & L2 & L3).
  destruct (N.eqb_spec (sroot a len) (pos - 1)); [exact I|].
  assert (Hr : lsize len + 1 < len) by (unfold sroot in *; lia). apply wq_bind. eapply wq_lift; [apply (nav_right pos a len Hp R Hr)|].
  apply IH; [constructor; auto|unfold sroot in *; lia|]. pose proof (rsize_log len Hr). lia.
Qed.

Lemma verifyPrevious_wv m os pos : ok64 (mo_size m) -> 1 <= pos < mo_size m -> (greatestVersion os < 2147483647)%Z ->
  wv (fun _ => True) (verifyPreviousTree c m os pos).
Proof.
  intros Hn Hp Hg. assert (Hp64 : ok64 pos) by (unfold ok64 in *; lia).
  unfold verifyPreviousTree. destruct (N.eqb_spec pos 0); [lia|]. rewrite sub1_64 by auto.
  apply wq_bind. eapply wq_mono; [|apply nonDist_wv; auto; lia]. intros [x|] Hx; [|exact I].
  destruct (Hx x eq_refl) as (a0 & len0 & -> & R0 & Ht0).
  destruct (leftUntil_ok (mo_size m) (pos - 1) Hn 66 a0 len0 R0 Ht0) as (a & len & El & R & Ha & Ht).
  { pose proof (log_fuel _ a0 len0 Hn R0). lia. }
  rewrite El. cbn [lift pbind].
  assert (Rp : SRange pos a (pos - a)) by (apply (SRange_shrink (mo_size m) Hn a len R pos); unfold sroot in *; lia).
  assert (ES : sroot a len = sroot a (pos - a)) by (unfold sroot in *; rewrite (lsize_same (pos - a) len); lia).
  rewrite ES. apply wq_bind. eapply (wq_mono _ (fun _ => True)).
  - intros _ _. apply previousTree_loop_wv; auto; [unfold sroot in *; lia|]. pose proof (log_fuel _ a (pos - a) Hp64 Rp). lia.
  - destruct (Z.leb_spec 0 (greatestVersion os)); [|exact I].
    destruct (search_ladder_ok (toU32 (greatestVersion os))) as (l & E); [apply toU32_small; lia|]. rewrite E. cbn [lift pbind].
    apply wq_bind. eapply (wq_mono _ (fun _ => True)); [intros; exact I|].
    destruct (N.eqb_spec (sroot a (pos - a)) (troot pos)) as [|Hne]; [exact I|].
    destruct (nav_parent pos a (pos - a) Hp64 Rp Hne) as (a' & len' & Ep & _). rewrite Ep. cbn [lift pbind].
    destruct (greatestAt_ok os (sroot a' len')) as (z & ->). exact I.
Qed.

Lemma update_wv m os ptrs pos versions : ok64 (mo_size m) -> mo_owner m = Some os -> fineOwner os -> (greatestVersion os + versions < 2147483647)%Z ->
  mo_contact m = Some ptrs -> Forall (finePtr (mo_size m)) ptrs ->
  wv (fun m' => (exists p, mo_contact m' = Some p /\ Forall (finePtr (mo_size m)) p) /\ exists os', mo_owner m' = Some os' /\ fineOwner os') (update c m pos versions).
Proof.
  intros Hn Eo Ho Hv Ec F. unfold update. rewrite Eo.
  destruct (N.leb_spec (mo_size m) pos); [exact I|]. destruct (N.leb_spec pos (lastUpdate os)); [exact I|].
  destruct (Z.ltb_spec versions 1); [exact I|]. destruct (Z.ltb_spec (greatestVersion os + versions) 0); [exact I|]. cbn [orb].
  destruct (_ <=? _)%Z; [exact I|]. cbn zeta.
  assert (Hend : okVersion (toU32 (greatestVersion os + versions))) by (apply toU32_small; lia).
  destruct (search_ladder_ok (toU32 (greatestVersion os + versions)) Hend) as (l & E). rewrite E. cbn [lift pbind].
  apply wq_bind. eapply wq_mono; [|apply verifyPrevious_wv; auto; [lia|unfold fineOwner in Ho; lia]]. intros _ _.
  assert (Ho' : fineOwner {| os_starting := os_starting os; os_verAt := os_verAt os; os_upcoming := os_upcoming os ++ repeat pos (Z.to_nat versions) |}).
  { unfold fineOwner, greatestVersion in *. cbn. rewrite app_length, repeat_length. lia. }
  apply wq_bind. eapply wq_mono; [|apply nonDist_wv; auto]. intros [x|] Hx.
  - apply wq_bind, wq_bind, wq_getLadder; [exact Hend|]. intro r. destruct (negb _); [exact I|]. cbn [pbind getIncl wq]. split; [|auto]. rewrite Ec. cbn.
    split; [|eauto]. eexists. split; [reflexivity|]. constructor; auto. split; [|exact Hend].
    destruct (Hx x eq_refl) as (a & len & -> & R & _). destruct (nav_len _ a len Hn R) as (L1 & L2 & L3). unfold sroot. cbn [fst]. lia.
  - cbn. rewrite Ec. split; [|auto]. split; eauto.
Qed.
End Algorithms.
