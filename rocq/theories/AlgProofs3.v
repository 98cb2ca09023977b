(** Greatest-version and fixed-version search. *)
From Verif Require Import Base BaseProofs LogMathModel NodeMathProofs LogMathProofs TransMathModel TransMathSpec TransMathProofs TransMathProofs2 LaddersModel CodecModel AlgModel AlgSpec AlgProofs AlgProofs2.

(** ** Inversion of successful runs, for any provider *)

Lemma run_bind_ok {A B S} (P : provider S) (p : prog A) (f : A -> prog B) s b s2 l :
  run P (pbind p f) s = (Ok b, s2, l) ->
  exists a s1 l1 l2, run P p s = (Ok a, s1, l1) /\ run P (f a) s1 = (Ok b, s2, l2) /\ l = l1 ++ l2.
Proof.
  rewrite run_bind. destruct (run P p s) as [[[a|m|m|] s1] l1]; cbn; try discriminate.
  destruct (run P (f a) s1) as [[r s'] l'] eqn:E. intro H. injection H as -> -> <-. exists a, s1, l1, l'. rewrite E. auto.
Qed.

Lemma run_lift_ok {A S} (P : provider S) (r : res A) s a s' l : run P (lift r) s = (Ok a, s', l) -> r = Ok a /\ s' = s /\ l = [].
Proof. destruct r; cbn; intro H; inversion H; auto. Qed.

Lemma run_getLadder_ok {S} (P : provider S) x v o s a s' l :
  run P (getLadder x v o) s = (Ok a, s', l) -> l = [EvLadder x v o (Ok a)].
Proof.
  cbn. destruct (pLadder P s x v o) as [[z|m|m|] s1]; cbn; intro H; inversion H; auto.
Qed.

Lemma run_getTs_ok {S} (P : provider S) x s a s' l : run P (getTs x) s = (Ok a, s', l) -> l = [EvTs x (Ok a)].
Proof. cbn. destruct (pTs P s x) as [[z|m|m|] s1]; cbn; intro H; inversion H; auto. Qed.

Definition evFail (e : event) : Prop :=
  match e with
  | EvTs _ (Ok _) | EvLadder _ _ _ (Ok _) | EvMon _ _ (Ok _) | EvIncl _ _ (Ok _) | EvStop _ _ _ | EvTrack _ _ _ _ => False
  | _ => True
  end.

Lemma greatest_loop_ok {S} (P : provider S) fuel ver n : forall x terminal s t s' l,
  run P (greatest_loop fuel ver n x terminal) s = (Ok t, s', l) ->
  exists l0, l = l0 ++ [EvLadder (sub64 n 1) ver true (Ok 0%Z)] /\
    Forall (fun e => exists x r, e = EvLadder x ver true (Ok r) /\ (r = 1 -> False)%Z) l.
Proof.
  induction fuel as [|f IH]; intros x terminal s t s' l H; [discriminate|].
  cbn [greatest_loop] in H. apply run_bind_ok in H as (r & s1 & l1 & l2 & E1 & E2 & ->).
  apply run_getLadder_ok in E1. subst l1.
  destruct (Z.eqb_spec r 1) as [|R1]; [discriminate|].
  assert (F1 : exists x0 r0, EvLadder x ver true (Ok r) = EvLadder x0 ver true (Ok r0) /\ (r0 = 1 -> False)%Z) by (do 2 eexists; split; [reflexivity|auto]).
  destruct (N.eqb_spec x (sub64 n 1)) as [->|X]; cbn [negb] in E2.
  - destruct ((ver =? 0) && (r =? -1)%Z) eqn:B; [discriminate|]. destruct (Z.eqb_spec r 0) as [->|]; [|discriminate].
    cbn in E2. injection E2 as <- <- <-. exists []. split; [reflexivity|]. repeat constructor. exact F1.
  - apply run_bind_ok in E2 as (x' & s3 & l3 & l4 & E3 & E4 & ->). apply run_lift_ok in E3 as (_ & -> & ->).
    apply IH in E4 as (l0 & -> & F). cbn [app]. exists (EvLadder x ver true (Ok r) :: l0). split; auto.
Qed.

(** ** Honest runs *)

Definition first (n : N) (f : N -> bool) (o : option N) : Prop :=
  match o with
  | Some t => t < n /\ f t = true /\ forall y, y < t -> f y = false
  | None => forall y, y < n -> f y = false
  end.

Lemma first_ex f n : exists o, first n f o.
Proof.
  induction n as [|n IH] using N.peano_ind.
  - exists None. intros y Hy. lia.
  - destruct IH as [[t|] IH].
    + exists (Some t). destruct IH as (A & B & C). repeat split; auto. lia.
    + destruct (f n) eqn:E.
      * exists (Some n). repeat split; auto. lia.
      * exists None. intros y Hy. destruct (N.eq_dec y n) as [->|]; auto. apply IH. lia.
Qed.

Section Honest.
Variable c : pubConfig.
Variable L : hlog.
Hypothesis HL : okLog L.
Let n := h_n L.
Let ts := h_ts L.
Let g := h_g L.
Let w := pc_rmw c.

Definition noQ : event -> Prop := fun _ => True.

Lemma runs_getLadder x v o s (Q : event -> Prop) : x < n -> Q (EvLadder x v o (Ok (cmp3 (g x) v))) ->
  runs (honest L) (getLadder x v o) s (Ok (cmp3 (g x) v)) (s + 1) Q.
Proof.
  intros H HQ. exists [EvLadder x v o (Ok (cmp3 (g x) v))]. split; [|constructor; auto].
  cbn. apply N.ltb_lt in H. unfold n in H. rewrite H. reflexivity.
Qed.

Lemma runs_getTs' x s : x < n -> runs (honest L) (getTs x) s (Ok (ts x)) s noQ.
Proof. intro H. apply runs_getTs; [exact H|exact I]. Qed.

Lemma cmp3_cases gx v : (gx < Z.of_N v /\ cmp3 gx v = -1 \/ gx = Z.of_N v /\ cmp3 gx v = 0 \/ Z.of_N v < gx /\ cmp3 gx v = 1)%Z.
Proof. unfold cmp3. destruct (Z.compare_spec gx (Z.of_N v)); auto. Qed.

Lemma g_mono x y : x <= y < n -> (g x <= g y)%Z.
Proof. apply HL. Qed.

Definition gfinish (ver : N) (path : list N) (terminal : option N) (r : res N) : Prop :=
  if Z.eqb (g (n - 1)) (Z.of_N ver) then
    match terminal with
    | Some t => r = Ok t
    | None => exists p t q, path = p ++ t :: q /\ r = Ok t /\ g t = Z.of_N ver /\ Forall (fun y => (g y < Z.of_N ver)%Z) p
    end
  else exists msg, r = Fail msg /\ (g (n - 1) = (-1)%Z -> ver = 0 -> msg = ErrLabelNotFound).

Lemma greatest_loop_honest ver fuel : forall a len path terminal s,
  SRange n a len -> a + len = n -> N.log2 len < N.of_nat fuel -> SFront a len path ->
  exists r s', runs (honest L) (greatest_loop fuel ver n (sroot a len) terminal) s r s' noQ /\ gfinish ver path terminal r.
Proof.
  assert (Hn : 1 <= n < 2 ^ 64) by apply HL.
  induction fuel as [|f IH]; intros a len path terminal s R E Hf F; [lia|].
  destruct (nav_len n a len Hn R) as (L1 & L2 & L3).
  assert (Hx : sroot a len < n) by (apply (nav_lt n a len Hn R)).
  cbn [greatest_loop]. rewrite sub1_64 by auto.
  pose proof (runs_getLadder (sroot a len) ver true s noQ Hx I) as RL.
  assert (GM : (g (sroot a len) <= g (n - 1))%Z) by (apply g_mono; lia).
  destruct (cmp3_cases (g (sroot a len)) ver) as [[C EC]|[[C EC]|[C EC]]]; rewrite EC in RL.
  - (* smaller here *)
    destruct (N.eqb_spec (sroot a len) (n - 1)) as [E1|E1].
    + assert (path = [sroot a len]) as -> by (inversion F; subst; auto; unfold sroot in *; lia).
      unfold gfinish. rewrite (proj2 (Z.eqb_neq (g (n - 1)) (Z.of_N ver))) by (rewrite <- E1; lia).
      destruct (N.eqb_spec ver 0) as [->|V].
      * exists (Fail ErrLabelNotFound), (s + 1). split; [|eauto]. eapply runs_bind; [apply RL|]. cbn. apply runs_err.
      * eexists (Fail _), (s + 1). split; [|eexists; split; [reflexivity|intros _ ->; lia]].
        eapply runs_bind; [apply RL|]. cbn. apply runs_err.
    + assert (Hr : lsize len + 1 < len) by (unfold sroot in *; lia).
      inversion F as [|? ? rest Hr' F']; subst; [lia|].
      destruct (IH (sroot a len + 1) (len - lsize len - 1) rest terminal (s + 1)) as (r & s' & RR & G); auto.
      * constructor; auto.
      * unfold sroot in *. lia.
      * pose proof (rsize_log len Hr). lia.
      * exists r, s'. split.
        -- eapply runs_bind; [apply RL|]. cbn [Z.eqb andb].
           eapply runs_bind; [apply runs_lift, (nav_right n a len Hn R Hr)|]. exact RR.
        -- unfold gfinish in *. destruct (g (n - 1) =? Z.of_N ver)%Z; auto. destruct terminal; auto.
           destruct G as (p & t & q & -> & ? & ? & Fp). exists (sroot a len :: p), t, q. auto.
  - (* equal here *)
    set (terminal' := match terminal with None => Some (sroot a len) | _ => terminal end).
    assert (ET : (if true && match terminal with Some _ => false | None => true end then Some (sroot a len) else terminal) = terminal')
      by (unfold terminal'; destruct terminal; auto).
    destruct (N.eqb_spec (sroot a len) (n - 1)) as [E1|E1].
    + exists (Ok (match terminal' with Some t => t | None => 0 end)), (s + 1). split.
      * eapply runs_bind; [apply RL|]. cbn [Z.eqb]. rewrite ET. cbn [negb]. rewrite andb_false_r. apply runs_ret.
      * unfold gfinish. rewrite (proj2 (Z.eqb_eq (g (n - 1)) (Z.of_N ver))) by (rewrite <- E1; auto).
        unfold terminal'. destruct terminal; auto.
        exists [], (sroot a len), (tl path). split; [|auto]. cbn. inversion F; subst; auto.
    + assert (Hr : lsize len + 1 < len) by (unfold sroot in *; lia).
      inversion F as [|? ? rest Hr' F']; subst; [lia|].
      destruct (IH (sroot a len + 1) (len - lsize len - 1) rest terminal' (s + 1)) as (r & s' & RR & G); auto.
      * constructor; auto.
      * unfold sroot in *. lia.
      * pose proof (rsize_log len Hr). lia.
      * exists r, s'. split.
        -- eapply runs_bind; [apply RL|]. cbn [Z.eqb]. rewrite ET.
           eapply runs_bind; [apply runs_lift, (nav_right n a len Hn R Hr)|]. exact RR.
        -- unfold gfinish in *. destruct (g (n - 1) =? Z.of_N ver)%Z; auto. unfold terminal' in *. destruct terminal; auto.
           exists [], (sroot a len), rest. auto.
  - (* greater here *)
    eexists (Fail _), (s + 1). split.
    + eapply runs_bind; [apply RL|]. cbn. apply runs_err.
    + unfold gfinish. rewrite (proj2 (Z.eqb_neq (g (n - 1)) (Z.of_N ver))) by lia. eexists. split; [reflexivity|lia].
Qed.

(** Subtrees on the right edge. *)
Lemma edge_of_front x pre q : SFront 0 n (pre ++ x :: q) -> exists a len, SRange n a len /\ a + len = n /\ sroot a len = x /\ SFront a len (x :: q).
Proof.
  assert (Hn : 1 <= n < 2 ^ 64) by apply HL.
  assert (G : forall a len l, SFront a len l -> SRange n a len -> a + len = n -> forall pre, l = pre ++ x :: q ->
    exists a len, SRange n a len /\ a + len = n /\ sroot a len = x /\ SFront a len (x :: q)).
  { intros a len l F. induction F as [a len El|a len rest Hr F IH]; intros R E p Ep.
    - destruct p as [|y p]; [|destruct p; discriminate]. injection Ep as <- <-. exists a, len. repeat split; auto. constructor; auto.
    - destruct p as [|y p].
      + injection Ep as <- <-. exists a, len. repeat split; auto. constructor; auto.
      + injection Ep as <- ->. apply (IH ltac:(constructor; auto) ltac:(unfold sroot in *; lia) p eq_refl). }
  intro F. eapply G; eauto. constructor.
Qed.

Lemma dist_front_last : forall a len l y, SRange n a len -> a + len = n ->
  greatestOf (DIn ts w a len l (ts (n - 1))) (Some y) -> exists p q, SFront a len (p ++ y :: q).
Proof.
  assert (Hn : 1 <= n < 2 ^ 64) by apply HL.
  intros a len. remember (N.to_nat len) as k. assert (Hk : (N.to_nat len <= k)%nat) by lia. clear Heqk. revert a len Hk.
  induction k as [|k IH]; intros a len Hk l y R E (G1 & G2).
  - pose proof (nav_len n a len Hn R). lia.
  - pose proof (nav_len n a len Hn R) as (L1 & L2 & L3).
    assert (Hge : sroot a len <= y) by (apply G2; constructor; apply DIn_bound in G1; auto).
    destruct (N.eq_dec y (sroot a len)) as [->|Ne].
    + destruct (SFront_ex a len L1) as [l0 F]. inversion F; subst; [exists [], []|exists [], rest]; auto.
    + inversion G1; subst; [lia| |].
      * match goal with D : DIn _ _ _ _ _ _ y |- _ => apply DIn_range in D; [unfold sroot in *; lia|lia] end.
      * destruct (IH (sroot a len + 1) (len - lsize len - 1) ltac:(unfold sroot in *; lia) (ts (sroot a len)) y) as (p & q & F).
        -- constructor; auto.
        -- unfold sroot in *. lia.
        -- split; auto. intros z Hz. apply G2. apply DI_right; auto.
        -- exists (sroot a len :: p), q. constructor; auto.
Qed.

(** C20 *)
Lemma greatest_honest ver s : exists pre path start o,
  greatestOf (distinguished n ts w) o /\
  start = match o with Some d => d | None => sroot 0 n end /\
  SFront 0 n (pre ++ path) /\ hd_error path = Some start /\
  gfinish ver path None (result (run (honest L) (greatestVersionSearch c ver n) s)).
Proof.
  assert (Hn : 1 <= n < 2 ^ 64) by apply HL.
  destruct (rightmost_spec c L HL s noQ) as (o & Ro & Go); [intros; exact I|]. fold n ts w in Ro, Go.
  set (start := match o with Some d => d | None => sroot 0 n end).
  assert (HF : exists pre q, SFront 0 n (pre ++ start :: q)).
  { unfold start. destruct o as [d|].
    - eapply dist_front_last; eauto. constructor.
    - destruct (SFront_ex 0 n) as [l0 F]; [lia|]. inversion F; subst; [exists [], []|exists [], rest]; auto. }
  destruct HF as (pre & q & HF). destruct (edge_of_front _ _ _ HF) as (a & len & R & E & Es & F).
  destruct (greatest_loop_honest ver 66 a len (start :: q) None s) as (r & s' & RR & G); auto.
  { assert (N.log2 n < 64) by (apply N.log2_lt_pow2; lia). pose proof (nav_len n a len Hn R).
    assert (N.log2 len <= N.log2 n) by (apply N.log2_le_mono; lia). lia. }
  exists pre, (start :: q), start, o. repeat split; auto.
  rewrite (runs_result _ _ _ r s' noQ); auto.
  unfold greatestVersionSearch. replace (n =? 0) with false by (symmetry; apply N.eqb_neq; lia).
  eapply runs_bind.
  - destruct Ro as (lo & Ro & _). exists lo. rewrite run_catch, run_bind, Ro. cbn. rewrite app_nil_r. split; [reflexivity|]. apply Forall_forall. intros; exact I.
  - cbn beta iota. destruct (c09_entries n Hn) as (ER & _). rewrite ER. fold start. rewrite <- Es. exact RR.
Qed.

(** ** Fixed-version search *)

Definition expd (x : N) : bool := isExpired (pc_maxLife c) (ts x) (ts (n - 1)).

Lemma expd_mono x y : x <= y < n -> expd y = true -> expd x = true.
Proof.
  assert (Hn : 1 <= n < 2 ^ 64) by apply HL.
  intros H. unfold expd, isExpired. destruct (pc_maxLife c =? 0); auto. rewrite !N.leb_le. unfold sub64.
  assert (ts x <= ts y) by (apply HL; auto). assert (ts y <= ts (n - 1)) by (apply HL; fold n; lia).
  assert (ts (n - 1) < two64) by (apply HL; fold n; lia). unfold two64 in *. lia.
Qed.

Definition hit (ver : N) (x : N) : bool := negb (expd x) && (Z.of_N ver <=? g x)%Z.

Lemma hit_mono ver x y : x <= y < n -> hit ver x = true -> hit ver y = true.
Proof.
  unfold hit. intros H. rewrite !andb_true_iff, !negb_true_iff, !Z.leb_le. intros [A B]. split.
  - destruct (expd y) eqn:E; auto. apply (expd_mono x y H) in E. congruence.
  - pose proof (g_mono x y H). lia.
Qed.

(** What a fixed-version search returns, [t] being the first unexpired entry that contains the version. *)
Definition fixedAnswer (ver : N) (t : option N) (r : res N) : Prop :=
  match t with
  | None => r = Fail ErrLabelNotFound
  | Some t0 =>
      (exists x, r = Ok x /\ t0 <= x < n /\ hit ver x = true /\ (g x = Z.of_N ver \/ x = t0)) \/
      (r = Fail ErrLabelExpired /\ (exists y, y < n /\ expd y = true) /\
       forall d, distinguished n ts w d -> expd d = false -> d < t0 -> False)
  end.

Lemma runs_getIncl x vs s : x < n -> Forall (fun v => (Z.of_N v <= g x)%Z) vs ->
  runs (honest L) (getIncl x vs) s (Ok tt) (s + match vs with [] => 0 | _ => 1 end) noQ.
Proof.
  intros H F. exists [EvIncl x vs (Ok tt)]. split; [|repeat constructor].
  cbn. apply N.ltb_lt in H. unfold n in H. rewrite H.
  assert (G : forallb (fun v => (Z.of_N v <=? h_g L x)%Z) vs = true).
  { apply forallb_forall. intros v Hv. rewrite Forall_forall in F. apply Z.leb_le. apply F; auto. }
  rewrite G. reflexivity.
Qed.

Lemma finish_spec ver t terminal exd D s :
  first n (hit ver) t -> terminal = t -> (exd = true -> exists y, y < n /\ expd y = true) ->
  (forall t0, t = Some t0 -> forall d, distinguished n ts w d -> expd d = false -> d < t0 -> exists y, In y D /\ y < t0) ->
  exists r s', runs (honest L) (fixed_finish ver terminal exd D) s r s' noQ /\ fixedAnswer ver t r.
Proof.
  intros Ht -> Hexd HD. unfold fixed_finish. destruct t as [t0|].
  - destruct Ht as (T1 & T2 & T3). pose proof T2 as T2'. unfold hit in T2'. apply andb_true_iff in T2' as [U V]. apply Z.leb_le in V.
    destruct (exd && negb (existsb (fun y => y <? t0) D)) eqn:B.
    + apply andb_true_iff in B as [B1 B2]. exists (Fail ErrLabelExpired), s. split; [apply runs_err|]. right. repeat split; auto.
      intros d Hd Ed Hlt. destruct (HD t0 eq_refl d Hd Ed Hlt) as (y & Hy & Hyt).
      apply negb_true_iff in B2. assert (existsb (fun y => y <? t0) D = true); [|congruence].
      apply existsb_exists. exists y. split; auto. apply N.ltb_lt. auto.
    + exists (Ok t0), (s + 1). split.
      * eapply runs_bind; [apply runs_getIncl; auto|]. apply runs_ret.
      * left. exists t0. repeat split; auto. lia.
  - exists (Fail ErrLabelNotFound), s. split; [apply runs_err|reflexivity].
Qed.

Lemma fixed_loop_spec ver t fuel : first n (hit ver) t ->
  forall a len terminal exd left right D s,
  SRange n a len -> N.log2 len < N.of_nat fuel ->
  (forall y, y < a -> hit ver y = false) ->
  (terminal = None /\ a + len = n \/ terminal = Some (a + len) /\ a + len < n /\ hit ver (a + len) = true) ->
  (exd = true -> exists y, y < n /\ expd y = true) ->
  (forall x, a <= x < a + len -> left <= ts x <= right) -> right < two64 ->
  (forall t0, t = Some t0 -> forall d, distinguished n ts w d -> expd d = false -> d < t0 ->
      (exists y, In y D /\ y < t0) \/ DIn ts w a len left right d) ->
  exists r s', runs (honest L) (fixed_loop c fuel ver n (ts (n - 1)) (sroot a len) terminal exd left right D) s r s' noQ /\ fixedAnswer ver t r.
Proof.
  intro Ht. assert (Hn : 1 <= n < 2 ^ 64) by apply HL.
  induction fuel as [|f IH]; intros a len terminal exd left right D s R Hf Hlo Hterm Hexd Hb Hr64 HD; [lia|].
  destruct (nav_len n a len Hn R) as (L1 & L2 & L3).
  set (x := sroot a len) in *.
  assert (Hx : x < n) by (apply (nav_lt n a len Hn R)).
  assert (Hxr : a <= x < a + len) by (unfold x, sroot; lia).
  pose proof (Hb x Hxr) as Hbx.
  assert (TL : forall z, (first n (hit ver) (Some z)) -> t = Some z).
  { intros z (Z1 & Z2 & Z3). destruct t as [t0|].
    - destruct Ht as (T1 & T2 & T3). f_equal. destruct (N.lt_trichotomy t0 z) as [Hl|[->|Hl]]; auto.
      + rewrite (Z3 t0 Hl) in T2. discriminate.
      + rewrite (T3 z Hl) in Z2. discriminate.
    - rewrite (Ht z Z1) in Z2. discriminate. }
  assert (TN : (forall y, y < n -> hit ver y = false) -> t = None).
  { intro H. destruct t as [t0|]; auto. destruct Ht as (T1 & T2 & _). rewrite (H t0 T1) in T2. discriminate. }
  (* the end of the descent: every entry up to [e] excluded, terminal at [e] *)
  assert (FIN : forall e term exd' D' s0, (forall y, y < e -> hit ver y = false) ->
     (term = None /\ e = n \/ term = Some e /\ e < n /\ hit ver e = true) ->
     (exd' = true -> exists y, y < n /\ expd y = true) ->
     (forall t0, t = Some t0 -> forall d, distinguished n ts w d -> expd d = false -> d < t0 -> exists y, In y D' /\ y < t0) ->
     exists r s', runs (honest L) (fixed_finish ver term exd' D') s0 r s' noQ /\ fixedAnswer ver t r).
  { intros e term exd' D' s0 He Hte Hx' HD'. apply finish_spec; auto.
    destruct Hte as [[-> ->]|(-> & E1 & E2)].
    - symmetry. apply TN. auto.
    - symmetry. apply TL. repeat split; auto. }
  cbn [fixed_loop]. fold x.
  pose proof (runs_getTs' x s Hx) as RT.
  change (isExpired (pc_maxLife c) (ts x) (ts (n - 1))) with (expd x) in *.
  (* going right *)
  assert (GOR : forall exd' D' s0, hit ver x = false -> (exd' = true -> exists y, y < n /\ expd y = true) ->
     (forall t0, t = Some t0 -> forall d, distinguished n ts w d -> expd d = false -> d < t0 ->
        (exists y, In y D' /\ y < t0) \/ (lsize len + 1 < len /\ DIn ts w (x + 1) (len - lsize len - 1) (ts x) right d)) ->
     exists r s', runs (honest L) (if noRightChild x n then fixed_finish ver terminal exd' D'
        else pbind (lift (tright x n)) (fun x' => fixed_loop c f ver n (ts (n - 1)) x' terminal exd' (ts x) right D')) s0 r s' noQ /\
        fixedAnswer ver t r).
  { intros exd' D' s0 Hh Hx' HD'.
    assert (Hle : forall y, y < x + 1 -> hit ver y = false).
    { intros y Hy. destruct (hit ver y) eqn:E; auto. rewrite (hit_mono ver y x ltac:(lia) E) in Hh. discriminate. }
    unfold x at 1. rewrite (nav_noRight n a len Hn R). destruct (N.eqb_spec len (lsize len + 1)) as [El|El].
    - apply (FIN (a + len)); auto.
      + intros y Hy. apply Hle. unfold x, sroot. lia.
      + intros t0 Et d Hd Ed Hlt. destruct (HD' t0 Et d Hd Ed Hlt) as [|[Hc _]]; auto. lia.
    - assert (Hr : lsize len + 1 < len) by lia.
      destruct (IH (x + 1) (len - lsize len - 1) terminal exd' (ts x) right D' s0) as (r & s' & RR & G); auto.
      + constructor; auto.
      + pose proof (rsize_log len Hr). lia.
      + replace (x + 1 + (len - lsize len - 1)) with (a + len) by (unfold x, sroot; lia). auto.
      + intros y Hy. split; [apply HL; fold n; unfold x, sroot in *; lia|apply Hb; unfold x, sroot in *; lia].
      + intros t0 Et d Hd Ed Hlt. destruct (HD' t0 Et d Hd Ed Hlt) as [|[_ Hc]]; auto.
      + exists r, s'. split; auto. eapply runs_bind; [apply runs_lift, (nav_right n a len Hn R Hr)|]. exact RR. }
  destruct (expd x) eqn:EX.
  - (* expired *)
    destruct (GOR true D s) as (r & s' & RR & G).
    + unfold hit. rewrite EX. reflexivity.
    + intros _. exists x. auto.
    + intros t0 Et d Hd Ed Hlt. destruct (HD t0 Et d Hd Ed Hlt) as [|HDI]; auto. right.
      assert (Hdx : ~ d <= x).
      { intro Hc. rewrite (expd_mono d x ltac:(lia) EX) in Ed. discriminate. }
      inversion HDI; subst.
      * exfalso. apply Hdx. unfold x. lia.
      * exfalso. apply Hdx. match goal with Hc : DIn _ _ _ _ _ _ d |- _ => apply DIn_range in Hc; [unfold x, sroot; lia|lia] end.
      * auto.
    + exists r, s'. split; auto. eapply runs_bind; [exact RT|]. change (isExpired (pc_maxLife c) (ts x) (ts (n - 1))) with (expd x). rewrite EX. exact RR.
  - (* not expired *)
    set (D' := if isDistinguished (pc_rmw c) left right then D ++ [x] else D).
    assert (ID : forall d, DIn ts w a len left right d -> In x D').
    { intros d Hd. apply DIn_bound in Hd. unfold D'. rewrite (proj2 (isDist_spec (pc_rmw c) left right ltac:(lia) Hr64)) by exact Hd.
      apply in_or_app. right. left. auto. }
    assert (IN : forall y, In y D -> In y D') by (intros y Hy; unfold D'; destruct (isDistinguished _ _ _); auto; apply in_or_app; auto).
    pose proof (runs_getLadder x ver true s noQ Hx I) as RL.
    destruct (cmp3_cases (g x) ver) as [[C EC]|[[C EC]|[C EC]]].
    + (* smaller: right *)
      destruct (GOR exd D' (s + 1)) as (r & s' & RR & G); auto.
      * unfold hit. rewrite (proj2 (Z.leb_gt _ _) C). apply andb_false_r.
      * intros t0 Et d Hd Ed Hlt. destruct (HD t0 Et d Hd Ed Hlt) as [(y & Hy & Hyt)|HDI]; [left; eauto|].
        left. exists x. split; [eapply ID; eauto|].
        (* x < t0 : x is no hit *)
        rewrite Et in Ht. destruct Ht as (T1 & T2 & T3). destruct (N.lt_ge_cases x t0); auto.
        pose proof (hit_mono ver t0 x ltac:(lia) T2) as HH. unfold hit in HH. rewrite (proj2 (Z.leb_gt _ _) C), andb_false_r in HH. discriminate.
      * exists r, s'. split; auto. eapply runs_bind; [exact RT|]. change (isExpired (pc_maxLife c) (ts x) (ts (n - 1))) with (expd x). rewrite EX. fold D'.
        eapply runs_bind; [exact RL|]. cbv beta zeta. rewrite EC. cbn [Z.leb Z.compare andb Z.eqb Pos.eqb]. exact RR.
    + (* equal: stop *)
      assert (HH : hit ver x = true) by (unfold hit; rewrite EX; cbn; apply Z.leb_le; lia).
      assert (exists t0, t = Some t0 /\ t0 <= x) as (t0 & Et & Htx).
      { destruct t as [t0|]; [|rewrite (Ht x Hx) in HH; discriminate]. exists t0. split; auto.
        destruct Ht as (_ & _ & T3). destruct (N.le_gt_cases t0 x); auto. rewrite (T3 x) in HH by auto. discriminate. }
      assert (AOK : fixedAnswer ver t (Ok x)) by (rewrite Et; left; exists x; repeat split; auto).
      assert (ST : forall r s', runs (honest L) (if negb exd then Ret x else if existsb (fun y => y <=? x) D' then Ret x else Err ErrLabelExpired) (s + 1) r s' noQ ->
         runs (honest L) (fixed_loop c (S f) ver n (ts (n - 1)) x terminal exd left right D) s r s' noQ).
      { intros r s' Hr. cbn [fixed_loop]. eapply runs_bind; [exact RT|]. change (isExpired (pc_maxLife c) (ts x) (ts (n - 1))) with (expd x). rewrite EX. fold D'.
        eapply runs_bind; [exact RL|]. cbv beta zeta. rewrite EC. cbn [Z.leb Z.compare andb Z.eqb Pos.eqb]. exact Hr. }
      cbn [fixed_loop] in ST.
      destruct exd; cbn [negb] in ST.
      * assert (existsb (fun y => y <=? x) D' = true \/ existsb (fun y => y <=? x) D' = false) as [EE|EE] by (destruct (existsb _ _); auto); rewrite EE in ST.
        -- exists (Ok x), (s + 1). split; auto. apply ST. apply runs_ret.
        -- exists (Fail ErrLabelExpired), (s + 1). split; [apply ST, runs_err|]. rewrite Et. right. repeat split; auto.
           intros d Hd Ed Hlt.
           assert (exists y, In y D' /\ y <= x) as (y & Hy & Hyx).
           { destruct (HD t0 Et d Hd Ed Hlt) as [(y & Hy & Hyt)|HDI]; [exists y; split; auto; lia|]. exists x. split; [eapply ID; eauto|lia]. }
           assert (existsb (fun y => y <=? x) D' = true); [|congruence]. apply existsb_exists. exists y. split; auto. apply N.leb_le. auto.
      * exists (Ok x), (s + 1). split; auto. apply ST. apply runs_ret.
    + (* greater: left *)
      assert (HH : hit ver x = true) by (unfold hit; rewrite EX; cbn; apply Z.leb_le; lia).
      assert (Et : (if (0 <=? 1)%Z && match terminal with Some t1 => x <? t1 | None => true end then Some x else terminal) = Some x).
      { destruct Hterm as [[-> _]|(-> & E1 & E2)]; auto. cbn [Z.leb Z.compare andb]. rewrite (proj2 (N.ltb_lt _ _)); auto. unfold x, sroot. lia. }
      assert (HD' : forall t0, t = Some t0 -> forall d, distinguished n ts w d -> expd d = false -> d < t0 ->
        (exists y, In y D' /\ y < t0) \/ (0 < lsize len /\ DIn ts w a (lsize len) left (ts x) d)).
      { intros t0 Et0 d Hd Ed Hlt. destruct (HD t0 Et0 d Hd Ed Hlt) as [(y & Hy & Hyt)|HDI]; [left; eauto|].
        assert (Htx : t0 <= x).
        { rewrite Et0 in Ht. destruct Ht as (_ & _ & T3). destruct (N.le_gt_cases t0 x); auto. rewrite (T3 x) in HH by auto. discriminate. }
        inversion HDI; subst.
        - exfalso. unfold x in Htx. lia.
        - right. auto.
        - exfalso. match goal with Hc : DIn _ _ _ _ _ _ d |- _ => apply DIn_range in Hc; [unfold x in *; lia|lia] end. }
      assert (GOL : exists r s', runs (honest L) (if noLeftChild x then fixed_finish ver (Some x) exd D'
          else pbind (lift (tleft x)) (fun x' => fixed_loop c f ver n (ts (n - 1)) x' (Some x) exd left (ts x) D')) (s + 1) r s' noQ /\ fixedAnswer ver t r).
      { unfold x at 1. rewrite (nav_noLeft n a len Hn R). destruct (N.eqb_spec (lsize len) 0) as [El|El].
        - apply (FIN x); auto.
          + intros y Hy. apply Hlo. unfold x, sroot in Hy. lia.
          + intros t0 Et0 d Hd Ed Hlt. destruct (HD' t0 Et0 d Hd Ed Hlt) as [|[Hc _]]; auto. lia.
        - assert (Hls : 0 < lsize len) by lia.
          destruct (IH a (lsize len) (Some x) exd left (ts x) D' (s + 1)) as (r & s' & RR & G); auto.
          + constructor; auto.
          + pose proof (lsize_log len Hls). lia.
          + intros y Hy. split; [apply Hb; lia|]. apply HL. fold n. unfold x, sroot in *. lia.
          + apply HL. auto.
          + intros t0 Et0 d Hd Ed Hlt. destruct (HD' t0 Et0 d Hd Ed Hlt) as [|[_ Hc]]; auto.
          + exists r, s'. split; auto. eapply runs_bind; [apply runs_lift, (nav_left n a len Hn R Hls)|]. exact RR. }
      destruct GOL as (r & s' & RR & G). exists r, s'. split; auto.
      eapply runs_bind; [exact RT|]. change (isExpired (pc_maxLife c) (ts x) (ts (n - 1))) with (expd x). rewrite EX. fold D'.
      eapply runs_bind; [exact RL|]. cbv beta zeta. rewrite EC. rewrite Et. cbn [Z.eqb Pos.eqb]. exact RR.
Qed.

Lemma fixed_spec ver t s : first n (hit ver) t ->
  fixedAnswer ver t (result (run (honest L) (fixedVersionSearch c ver n) s)).
Proof.
  intro Ht. assert (Hn : 1 <= n < 2 ^ 64) by apply HL.
  destruct (fixed_loop_spec ver t 66 Ht 0 n None false 0 (ts (n - 1)) [] s) as (r & s' & RR & G).
  - constructor.
  - assert (N.log2 n < 64); [|lia]. apply N.log2_lt_pow2; lia.
  - lia.
  - auto.
  - discriminate.
  - intros x Hx. split; [lia|]. apply HL. fold n. lia.
  - apply HL. fold n. lia.
  - intros t0 Et d Hd Ed Hlt. right. exact Hd.
  - rewrite (runs_result _ _ _ r s' noQ); auto. unfold fixedVersionSearch.
    replace (n =? 0) with false by (symmetry; apply N.eqb_neq; lia). rewrite sub1_64 by auto.
    eapply runs_bind; [apply runs_getTs'; lia|]. destruct (c09_entries n Hn) as (-> & _). exact RR.
Qed.

End Honest.
