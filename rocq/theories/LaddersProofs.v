(** Proofs about binary ladders. *)
From Verif Require Import Base BaseProofs LaddersModel.

Lemma p2pos k : 1 <= 2 ^ k.
Proof. pose proof (N.pow_nonzero 2 k). lia. Qed.

Lemma up_val len : len <= 31 -> sub32 (shl32 1 len) 1 = 2 ^ len - 1.
Proof.
  intro H. unfold sub32, shl32. rewrite N.shiftl_mul_pow2, N.mul_1_l.
  assert (2 ^ len <= 2 ^ 31) by (apply N.pow_le_mono_r; lia).
  change (2 ^ 31) with 2147483648 in *. pose proof (p2pos len).
  rewrite (N.mod_small (2 ^ len)) by (unfold two32; lia).
  replace (2 ^ len + two32 - 1) with (2 ^ len - 1 + 1 * two32) by lia.
  rewrite N.mod_add by discriminate. apply N.mod_small. unfold two32. lia.
Qed.

(** Specification of the first phase for small [n]. *)
Lemma ladder_up_spec fuel n len :
  n < 2 ^ 31 - 1 -> len <= 31 -> 31 - len < N.of_nat fuel ->
  (1 <= len -> 2 ^ (len - 1) - 1 <= n) ->
  exists l k, ladder_up fuel n len = Ok (l ++ [2 ^ k - 1]) /\ len <= k <= 31 /\ n < 2 ^ k - 1 /\
    (1 <= k -> 2 ^ (k - 1) - 1 <= n) /\
    l = map (fun i => 2 ^ (len + N.of_nat i) - 1) (seq 0 (N.to_nat (k - len))).
Proof.
  intro Hn. revert len. induction fuel as [|f IH]; intros len Hl Hf Hp; [lia|].
  cbn [ladder_up]. rewrite up_val by lia.
  destruct (N.ltb_spec n (2 ^ len - 1)) as [H|H].
  - exists [], len. rewrite N.sub_diag. cbn [app seq map N.to_nat]. repeat split; auto; lia.
  - assert (len <> 31).
    { intros ->. lia. }
    destruct (IH (len + 1)) as (l & k & E & Hk & Hnk & Hpk & El); [lia|lia| |].
    { intros _. replace (len + 1 - 1) with len by lia. lia. }
    rewrite E. cbn [bind]. exists ((2 ^ len - 1) :: l), k. split; [reflexivity|].
    split; [lia|]. split; [auto|]. split; [auto|].
    replace (N.to_nat (k - len)) with (S (N.to_nat (k - (len + 1)))) by lia.
    cbn [seq map]. f_equal; [f_equal; f_equal; lia|].
    rewrite El, <- seq_shift, map_map. apply map_ext. intro i. f_equal. f_equal. lia.
Qed.

Lemma add32_small a b : a + b < two32 -> add32 a b = a + b.
Proof. intro H. unfold add32. now apply N.mod_small. Qed.

(** Second phase: bisection between [lo <= n < hi]. *)
Lemma ladder_bisect_spec fuel n lo hi :
  lo <= n < hi -> hi < 2 ^ 31 -> hi - lo <= 2 ^ N.of_nat (pred fuel) -> (0 < fuel)%nat ->
  exists d, ladder_bisect fuel n lo hi = Ok d /\
    (n = lo \/ In n d) /\ (n + 1 = hi \/ In (n + 1) d) /\
    Forall (fun v => lo < v < hi) d /\ NoDup d.
Proof.
  revert lo hi. induction fuel as [|f IH]; intros lo hi H Hh Hd Hf; [lia|].
  cbn [ladder_bisect]. change (2 ^ 31) with 2147483648 in *.
  rewrite !add32_small by (unfold two32; lia).
  destruct (N.ltb_spec (lo + 1) hi) as [L|L].
  - set (v := (lo + hi) / 2). assert (Hv : lo < v < hi) by (unfold v; lia).
    destruct f as [|f'].
    { cbn in Hd. lia. }
    cbn [pred] in Hd, IH. rewrite Nat2N.inj_succ, N.pow_succ_r' in Hd.
    destruct (N.leb_spec v n) as [Hvn|Hvn].
    + destruct (IH v hi) as (d & E & A & B & F & ND); [lia|lia|unfold v in *; lia|lia|].
      rewrite E. cbn [bind]. exists (v :: d). split; [auto|]. cbn [In].
      split; [right; destruct A; auto|]. split; [tauto|]. split.
      * constructor; [lia|]. eapply Forall_impl; [|exact F]. cbn. lia.
      * constructor; auto. rewrite Forall_forall in F. intro Hi. apply F in Hi. lia.
    + destruct (IH lo v) as (d & E & A & B & F & ND); [lia|lia|unfold v in *; lia|lia|].
      rewrite E. cbn [bind]. exists (v :: d). split; [auto|]. cbn [In].
      split; [tauto|]. split; [right; destruct B; auto|]. split.
      * constructor; [lia|]. eapply Forall_impl; [|exact F]. cbn. lia.
      * constructor; auto. rewrite Forall_forall in F. intro Hi. apply F in Hi. lia.
  - exists []. split; [auto|]. split; [left; lia|]. split; [left; lia|]. split; constructor.
Qed.

(** The ladder of a target: contains 0, the target and its successor; no duplicates. *)
Lemma base_fuel_spec fuel n : n < 2 ^ 31 - 1 -> (70 <= fuel)%nat ->
  exists l, baseBinaryLadder_fuel fuel n = Ok l /\ In n l /\ In (n + 1) l /\ NoDup l /\
    Forall (fun v => v < 2 ^ 31) l /\ (exists l', l = 0 :: l').
Proof.
  intros Hn Hfuel. unfold baseBinaryLadder_fuel.
  destruct (ladder_up_spec fuel n 0 Hn) as (l & k & E & Hk & Hnk & Hpk & El); [lia|lia|lia|].
  rewrite E. cbn [bind]. rewrite rev_app_distr. cbn [rev app].
  assert (K1 : 1 <= k).
  { destruct (N.eq_dec k 0) as [->|]; [|lia]. cbn in Hnk. lia. }
  specialize (Hpk K1).
  assert (El' : l = map (fun i => 2 ^ N.of_nat i - 1) (seq 0 (N.to_nat k))).
  { rewrite El, N.sub_0_r. apply map_ext. intro i. now rewrite N.add_0_l. }
  clear El. 
  assert (Elast : l = map (fun i => 2 ^ N.of_nat i - 1) (seq 0 (N.to_nat (k - 1))) ++ [2 ^ (k - 1) - 1]).
  { rewrite El'. replace (N.to_nat k) with (S (N.to_nat (k - 1))) by lia.
    rewrite seq_S, map_app. cbn [map Nat.add]. now rewrite N2Nat.id. }
  assert (Erev : rev l = (2 ^ (k - 1) - 1) :: rev (map (fun i => 2 ^ N.of_nat i - 1) (seq 0 (N.to_nat (k - 1))))).
  { rewrite Elast, rev_app_distr. reflexivity. }
  rewrite Erev. clear Erev.
  assert (Hk31 : 2 ^ k <= 2 ^ 31) by (apply N.pow_le_mono_r; lia).
  assert (Ek : 2 ^ k = 2 * 2 ^ (k - 1)).
  { replace k with (N.succ (k - 1)) at 1 by lia. now rewrite N.pow_succ_r'. }
  pose proof (p2pos (k - 1)).
  destruct (ladder_bisect_spec fuel n (2 ^ (k - 1) - 1) (2 ^ k - 1)) as (d & Ed & A & B & F & ND);
    [lia|lia| |lia|].
  { assert (2 ^ k <= 2 ^ N.of_nat (pred fuel)) by (apply N.pow_le_mono_r; lia). lia. }
  rewrite Ed. cbn [bind]. exists ((l ++ [2 ^ k - 1]) ++ d). split; [reflexivity|].
  rewrite !in_app_iff. split; [|split; [|split; [|split]]].
  - destruct A as [A|A]; [|auto]. left. left. rewrite Elast, in_app_iff. right. left. auto.
  - destruct B as [B|B]; [|auto]. left. right. left. auto.
  - assert (Hup : l ++ [2 ^ k - 1] = map (fun i => 2 ^ N.of_nat i - 1) (seq 0 (S (N.to_nat k)))).
    { rewrite seq_S, map_app, El'. cbn [map Nat.add]. now rewrite N2Nat.id. }
    rewrite Hup.
    assert (NDup : NoDup (map (fun i => 2 ^ N.of_nat i - 1) (seq 0 (S (N.to_nat k))))).
    { apply FinFun.Injective_map_NoDup; [|apply seq_NoDup]. intros i j Eij.
      pose proof (p2pos (N.of_nat i)). pose proof (p2pos (N.of_nat j)).
      apply Nat2N.inj. apply (N.pow_inj_r 2); lia. }
    revert NDup. generalize (seq 0 (S (N.to_nat k))). intro sq. 
    rewrite Forall_forall in F.
    assert (Disj : forall v, In v (map (fun i => 2 ^ N.of_nat i - 1) sq) -> ~ In v d).
    { intros v Hv Hd. apply in_map_iff in Hv as (i & <- & _). apply F in Hd.
      pose proof (p2pos (N.of_nat i)).
      destruct (N.le_gt_cases (N.of_nat i) (k - 1)) as [Hi|Hi].
      - assert (2 ^ N.of_nat i <= 2 ^ (k - 1)) by (apply N.pow_le_mono_r; lia). lia.
      - assert (2 ^ k <= 2 ^ N.of_nat i) by (apply N.pow_le_mono_r; lia). lia. }
    revert Disj. generalize (map (fun i => 2 ^ N.of_nat i - 1) sq). clear -ND.
    induction l as [|x l IH]; cbn [app]; auto. intros D N. inversion_clear N.
    constructor; [rewrite in_app_iff; intros [?|?]; [auto|apply (D x); cbn; auto]|].
    apply IH; auto. intros v Hv. apply D. now right.
  - apply Forall_app. split; [apply Forall_app; split|].
    + rewrite El'. apply Forall_forall. intros v Hv. apply in_map_iff in Hv as (i & <- & Hi).
      apply in_seq in Hi. pose proof (p2pos (N.of_nat i)).
      assert (2 ^ N.of_nat i <= 2 ^ 31) by (apply N.pow_le_mono_r; lia). lia.
    + constructor; [lia|constructor].
    + eapply Forall_impl; [|exact F]. cbv beta. lia.
  - rewrite El'. replace (N.to_nat k) with (S (N.to_nat (k - 1))) by lia. cbn [seq map app].
    eexists. reflexivity.
Qed.

Lemma base_spec n : n < 2 ^ 31 - 1 ->
  exists l, baseBinaryLadder n = Ok l /\ In n l /\ In (n + 1) l /\ NoDup l /\
    Forall (fun v => v < 2 ^ 31) l /\ (exists l', l = 0 :: l').
Proof. intro H. apply base_fuel_spec; auto. Qed.

(** ** Non-termination at the top of the range *)

Lemma bisect_diverges fuel n lo :
  2 ^ 31 - 1 <= n -> lo <= 2 ^ 31 - 1 -> ladder_bisect fuel n lo (2 ^ 32 - 1) = Fuel.
Proof.
  change (2 ^ 31) with 2147483648. change (2 ^ 32) with 4294967296.
  revert lo. induction fuel as [|f IH]; intros lo Hn Hl; [reflexivity|].
  cbn [ladder_bisect]. rewrite (add32_small lo 1) by (unfold two32; lia).
  destruct (N.ltb_spec (lo + 1) (4294967296 - 1)); [|lia].
  set (v := add32 lo (4294967296 - 1) / 2).
  assert (Hv : v <= 2147483648 - 1).
  { unfold v, add32, two32. destruct (N.eq_dec lo 0) as [->|H0]; [vm_compute; discriminate|].
    replace (lo + (4294967296 - 1)) with (lo - 1 + 1 * 4294967296) by lia.
    rewrite N.mod_add by discriminate. rewrite N.mod_small by lia. lia. }
  destruct (N.leb_spec v n); [|lia]. rewrite IH by lia. reflexivity.
Qed.

Lemma up_val32 : sub32 (shl32 1 32) 1 = 2 ^ 32 - 1.
Proof. reflexivity. Qed.

Lemma shl32_big len : 32 <= len -> sub32 (shl32 1 len) 1 = 2 ^ 32 - 1.
Proof.
  intro H. unfold shl32. rewrite N.shiftl_mul_pow2, N.mul_1_l.
  replace (2 ^ len) with (2 ^ (len - 32) * two32).
  - rewrite N.mod_mul by discriminate. reflexivity.
  - rewrite two32_eq, <- N.pow_add_r. f_equal. lia.
Qed.

Lemma ladder_up_big fuel n len :
  2 ^ 31 - 1 <= n < 2 ^ 32 -> len <= 32 ->
  ladder_up fuel n len = Fuel \/
  exists l, ladder_up fuel n len = Ok (l ++ [2 ^ 32 - 1]) /\
    (l = [] -> len = 32) /\ (l <> [] -> last l 0 = 2 ^ 31 - 1).
Proof.
  intro Hn. revert len. induction fuel as [|f IH]; intros len Hl; [now left|].
  cbn [ladder_up]. destruct (N.eq_dec len 32) as [->|Hne].
  - rewrite up_val32. destruct (N.ltb_spec n (2 ^ 32 - 1)) as [H|H].
    + right. exists []. cbn. repeat split; auto. congruence.
    + left. assert (n = 2 ^ 32 - 1) by lia. subst n. clear.
      assert (G : forall f len, 32 <= len -> ladder_up f (2 ^ 32 - 1) len = Fuel).
      { intro f'. induction f' as [|f' IH]; intros len H; [reflexivity|]. cbn [ladder_up].
        rewrite shl32_big by auto. rewrite N.ltb_irrefl, IH by lia. reflexivity. }
      rewrite G by lia. reflexivity.
  - rewrite up_val by lia.
    assert (2 ^ len <= 2 ^ 31) by (apply N.pow_le_mono_r; lia).
    destruct (N.ltb_spec n (2 ^ len - 1)) as [H'|H']; [lia|].
    destruct (IH (len + 1)) as [E|(l & E & A & B)]; [lia| |].
    + left. rewrite E. reflexivity.
    + right. rewrite E. cbn [bind]. exists ((2 ^ len - 1) :: l). split; [reflexivity|].
      split; [discriminate|]. intros _. destruct l as [|y l].
      * specialize (A eq_refl). assert (len = 31) by lia. subst. reflexivity.
      * rewrite <- B by discriminate. reflexivity.
Qed.

Lemma base_diverges fuel n : 2 ^ 31 - 1 <= n < 2 ^ 32 -> baseBinaryLadder_fuel fuel n = Fuel.
Proof.
  intro Hn. unfold baseBinaryLadder_fuel.
  destruct (ladder_up_big fuel n 0 Hn) as [E|(l & E & A & B)]; [lia| |]; rewrite E; [reflexivity|].
  cbn [bind]. rewrite rev_app_distr. cbn [rev app].
  assert (Hl : l <> []) by (intro Hl; specialize (A Hl); discriminate).
  specialize (B Hl). destruct (rev l) as [|y r] eqn:Er.
  - exfalso. apply Hl. rewrite <- (rev_involutive l), Er. reflexivity.
  - assert (Ey : y = last l 0).
    { rewrite <- (rev_involutive l), Er. cbn [rev]. now rewrite last_last. }
    rewrite Ey, B. rewrite bisect_diverges by lia. reflexivity.
Qed.

(** ** Answering a ladder *)

(** Truthful comparison of the greatest version [g] (-1 if none) with [t]. *)
Definition cmpZ (g : Z) (t : N) : Z :=
  if (g <? Z.of_N t)%Z then (-1)%Z else if (Z.of_N t <? g)%Z then 1%Z else 0%Z.

Definition present (g : Z) (v : N) : bool := (Z.of_N v <=? g)%Z.

Lemma mem32_In v l : mem32 v l = true <-> In v l.
Proof.
  unfold mem32. rewrite existsb_exists. split.
  - intros (x & Hx & E). apply N.eqb_eq in E. now subst.
  - intro H. exists v. split; auto. apply N.eqb_refl.
Qed.

(** Generic statement on the loop: [full] is the client's ladder (never ending
    early), [asked] what the server looked up. *)
Lemma ladder_agree t g base li rn :
  NoDup base ->
  (forall v, In v li -> v <= t /\ v <= g) ->
  (forall v, In v rn -> t < v /\ g < v) ->
  (g = t \/ exists v, In v base /\ ((v <= g /\ t < v) \/ (g < v /\ v <= t))) ->
  let full := searchLadder_loop t t li rn base in
  let asked := searchLadder_loop t g li rn base in
  interpret_loop full t (map (fun v => v <=? g) asked) = Ok (cmpZ (Z.of_N g) t) /\
  (exists rest, full = asked ++ rest).
Proof.
  intros ND Hli Hrn Hend full asked. subst full asked.
  induction base as [|v base IH].
  - cbn. destruct Hend as [->|(v & [] & _)]. unfold cmpZ.
    rewrite Z.ltb_irrefl. split; [reflexivity|]. exists []. reflexivity.
  - inversion_clear ND as [|? ? Hv ND']. cbn [searchLadder_loop].
    assert (Et : ((v <=? t) && (t <? v) || (t <? v) && (v <=? t)) = false) by lia.
    rewrite Et.
    destruct ((v <=? g) && (t <? v) || (g <? v) && (v <=? t)) eqn:Eend.
    + assert (Edup : (mem32 v li || mem32 v rn) = false).
      { destruct (mem32 v li) eqn:E1; [apply mem32_In, Hli in E1; lia|].
        destruct (mem32 v rn) eqn:E2; [apply mem32_In, Hrn in E2; lia|]. reflexivity. }
      rewrite Edup. cbn [map interpret_loop]. split; [|eexists; reflexivity].
      unfold cmpZ.
      destruct (N.leb_spec v g), (N.ltb_spec t v), (N.leb_spec v t); try lia; cbn [andb negb].
      * destruct (Z.ltb_spec (Z.of_N g) (Z.of_N t)), (Z.ltb_spec (Z.of_N t) (Z.of_N g)); try lia; reflexivity.
      * destruct (Z.ltb_spec (Z.of_N g) (Z.of_N t)), (Z.ltb_spec (Z.of_N t) (Z.of_N g)); try lia; reflexivity.
    + assert (Hend' : g = t \/ exists v, In v base /\ ((v <= g /\ t < v) \/ (g < v /\ v <= t))).
      { destruct Hend as [->|(u & [<-|Hu] & C)]; auto; [lia|]. right. eauto. }
      destruct (IH ND' Hend') as [I1 (rest & I2)].
      destruct (mem32 v li || mem32 v rn).
      * split; auto. exists rest. exact I2.
      * cbn [map interpret_loop].
        replace ((v <=? g) && (t <? v)) with false by lia.
        replace (negb (v <=? g) && (v <=? t)) with false by lia.
        split; auto. exists rest. cbn [app]. now rewrite <- I2.
Qed.

Lemma base_decides t g : t < 2 ^ 31 - 1 -> forall base, baseBinaryLadder t = Ok base ->
  g = t \/ exists v, In v base /\ ((v <= g /\ t < v) \/ (g < v /\ v <= t)).
Proof.
  intros Ht base Eb. destruct (base_spec t Ht) as (l & E & A & B & _).
  assert (l = base) by congruence. subst l.
  destruct (N.lt_trichotomy g t) as [H|[H|H]]; auto; right.
  - exists t. split; auto. lia.
  - exists (t + 1). split; auto. lia.
Qed.

Lemma interpret_length ladder t results : (List.length results <= List.length ladder)%nat ->
  interpretSearchLadder ladder t results = interpret_loop ladder t results.
Proof.
  intro H. unfold interpretSearchLadder. destruct (Nat.ltb_spec (List.length ladder) (List.length results)); auto; lia.
Qed.

Lemma search_ladder_agree t g li rn : t < 2 ^ 31 - 1 ->
  (forall v, In v li -> v <= t /\ v <= g) ->
  (forall v, In v rn -> t < v /\ g < v) ->
  exists full asked,
    searchBinaryLadder t t li rn = Ok full /\ searchBinaryLadder t g li rn = Ok asked /\
    interpretSearchLadder full t (map (fun v => v <=? g) asked) = Ok (cmpZ (Z.of_N g) t) /\
    (exists rest, full = asked ++ rest).
Proof.
  intros Ht Hli Hrn. unfold searchBinaryLadder.
  destruct (base_spec t Ht) as (base & E & A & B & ND & _). rewrite E. cbn [bind].
  exists (searchLadder_loop t t li rn base), (searchLadder_loop t g li rn base).
  destruct (ladder_agree t g base li rn ND Hli Hrn (base_decides t g Ht base E)) as [I (rest & R)].
  split; [reflexivity|]. split; [reflexivity|]. split; [|eauto].
  rewrite interpret_length; auto. rewrite map_length, R, app_length. lia.
Qed.

(** Soundness of interpretation: whatever (truthful) answers are given, an accepted
    ladder decides the comparison. *)
Lemma interpret_sound_loop t (truth : N -> bool) base li rn results r :
  (forall v, In v li -> truth v = true) -> (forall v, In v rn -> truth v = false) ->
  (forall v, In v li -> v <= t) -> (forall v, In v rn -> t < v) ->
  let full := searchLadder_loop t t li rn base in
  (forall i v b, nth_error full i = Some v -> nth_error results i = Some b -> b = truth v) ->
  interpret_loop full t results = Ok r ->
  (r = 1%Z /\ exists v, In v base /\ t < v /\ truth v = true) \/
  (r = (-1)%Z /\ exists v, In v base /\ v <= t /\ truth v = false) \/
  (r = 0%Z /\ forall v, In v base -> truth v = (v <=? t)).
Proof.
  intros Hli Hrn Hli' Hrn'. revert results. induction base as [|v base IH]; intros results full HT.
  - cbn. intro E. injection E as <-. right. right. split; [auto|]. intros ? [].
  - subst full. cbn [searchLadder_loop] in *.
    assert (Et : ((v <=? t) && (t <? v) || (t <? v) && (v <=? t)) = false) by lia.
    rewrite Et in *. destruct (mem32 v li || mem32 v rn) eqn:Ed.
    + intro E. destruct (IH results HT E) as [(R & u & U1 & U2)|[(R & u & U1 & U2)|(R & U)]].
      * left. split; auto. exists u. cbn [In]. tauto.
      * right. left. split; auto. exists u. cbn [In]. tauto.
      * right. right. split; auto. intros u [<-|Hu]; auto.
        apply orb_true_iff in Ed as [Ed|Ed]; apply mem32_In in Ed.
        -- rewrite (Hli v Ed). specialize (Hli' v Ed). lia.
        -- rewrite (Hrn v Ed). specialize (Hrn' v Ed). lia.
    + cbn [interpret_loop]. destruct results as [|b results]; [discriminate|].
      assert (Hb : b = truth v) by (apply (HT 0%nat); reflexivity). subst b.
      destruct (truth v && (t <? v)) eqn:E1.
      * destruct results; [|discriminate]. intro E. injection E as <-. left. split; auto.
        exists v. split; [now left|]. apply andb_true_iff in E1 as [E1 E1']. split; [lia|auto].
      * destruct (negb (truth v) && (v <=? t)) eqn:E2.
        -- destruct results; [|discriminate]. intro E. injection E as <-. right. left. split; auto.
           exists v. split; [now left|]. apply andb_true_iff in E2 as [E2 E2'].
           apply negb_true_iff in E2. split; [lia|auto].
        -- intro E. destruct (IH results) as [(R & u & U1 & U2)|[(R & u & U1 & U2)|(R & U)]]; auto.
           { intros i u b' Hu Hb'. apply (HT (S i)); auto. }
           ++ left. split; auto. exists u. cbn [In]. tauto.
           ++ right. left. split; auto. exists u. cbn [In]. tauto.
           ++ right. right. split; auto. intros u [<-|Hu]; auto.
              destruct (truth v), (N.leb_spec v t), (N.ltb_spec t v); cbn in *; try lia; try discriminate; auto.
Qed.

Lemma interpret_sound t (truth : N -> bool) li rn results r full :
  t < 2 ^ 31 - 1 ->
  searchBinaryLadder t t li rn = Ok full ->
  (forall v, In v li -> v <= t /\ truth v = true) -> (forall v, In v rn -> t < v /\ truth v = false) ->
  (forall i v b, nth_error full i = Some v -> nth_error results i = Some b -> b = truth v) ->
  interpretSearchLadder full t results = Ok r ->
  (r = 1%Z /\ exists v, t < v /\ truth v = true) \/
  (r = (-1)%Z /\ exists v, v <= t /\ truth v = false) \/
  (r = 0%Z /\ truth t = true /\ truth (t + 1) = false).
Proof.
  intros Ht EF Hli Hrn HT EI. unfold searchBinaryLadder in EF.
  destruct (base_spec t Ht) as (base & E & A & B & ND & _). rewrite E in EF. cbn [bind] in EF.
  injection EF as <-. unfold interpretSearchLadder in EI.
  destruct (Nat.ltb _ _); [discriminate|].
  apply (interpret_sound_loop t truth) in EI; auto.
  - destruct EI as [(R & v & V)|[(R & v & V)|(R & V)]].
    + left. split; auto. exists v. tauto.
    + right. left. split; auto. exists v. tauto.
    + right. right. split; auto. split.
      * rewrite V by auto. lia.
      * rewrite V by auto. lia.
  - intros v Hv. now apply Hli.
  - intros v Hv. now apply Hrn.
  - intros v Hv. now apply Hli.
  - intros v Hv. now apply Hrn.
Qed.

(** No version of the label exists yet: the server answers the single lookup of
    version 0. *)
Lemma interpret_none t li rn full : t < 2 ^ 31 - 1 -> ~ In 0 li -> ~ In 0 rn ->
  searchBinaryLadder t t li rn = Ok full ->
  interpretSearchLadder full t [false] = Ok (-1)%Z /\ exists rest, full = 0 :: rest.
Proof.
  intros Ht H1 H2 EF. unfold searchBinaryLadder in EF.
  destruct (base_spec t Ht) as (base & E & A & B & ND & _ & l' & ->). rewrite E in EF. cbn [bind] in EF.
  injection EF as <-. cbn [searchLadder_loop].
  assert (Ed : (mem32 0 li || mem32 0 rn) = false).
  { destruct (mem32 0 li) eqn:E1; [apply mem32_In in E1; tauto|].
    destruct (mem32 0 rn) eqn:E2; [apply mem32_In in E2; tauto|]. reflexivity. }
  rewrite Ed. split; [|eauto]. rewrite interpret_length by (cbn [List.length]; lia).
  cbn [interpret_loop andb negb]. replace (0 <=? t) with true by lia. reflexivity.
Qed.

Lemma monitoring_spec t : t < 2 ^ 31 - 1 ->
  exists l, monitoringBinaryLadder t = Ok l /\ In t l /\ Forall (fun v => v <= t) l /\ NoDup l.
Proof.
  intro Ht. unfold monitoringBinaryLadder.
  destruct (base_spec t Ht) as (base & E & A & B & ND & _). rewrite E. cbn [bind].
  eexists. split; [reflexivity|]. split; [|split].
  - apply filter_In. split; auto. lia.
  - apply Forall_forall. intros v Hv. apply filter_In in Hv. lia.
  - now apply NoDup_filter.
Qed.

(** Searching ladder results never repeat a lookup. *)
Lemma search_loop_subset t n li rn base v :
  In v (searchLadder_loop t n li rn base) -> In v base /\ ~ In v li /\ ~ In v rn.
Proof.
  induction base as [|u base IH]; cbn [searchLadder_loop]; [intros []|].
  set (tl := if (u <=? n) && (t <? u) || (n <? u) && (u <=? t) then [] else searchLadder_loop t n li rn base).
  assert (T : In v tl -> In v base /\ ~ In v li /\ ~ In v rn).
  { unfold tl. destruct (_ || _); [intros []|auto]. }
  destruct (mem32 u li || mem32 u rn) eqn:Ed; cbn [In].
  - intro H. apply T in H. tauto.
  - intros [<-|H]; [|apply T in H; tauto].
    apply orb_false_iff in Ed as [E1 E2]. rewrite <- !mem32_In. rewrite E1, E2. auto.
Qed.
