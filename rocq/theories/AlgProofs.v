(** Lemmas about running programs and about distinguished entries; RightmostDistinguished, PreviousRightmost. *)
From Verif Require Import Base BaseProofs LogMathModel NodeMathProofs LogMathProofs TransMathModel TransMathSpec TransMathProofs TransMathProofs2 LaddersModel CodecModel AlgModel AlgSpec.

(** ** Running *)

Definition andThen {A B S} (x : res A * S * list event) (f : A -> S -> res B * S * list event) : res B * S * list event :=
  match x with
  | (Ok a, s, l) => match f a s with (r, s', l') => (r, s', l ++ l') end
  | (Fail m, s, l) => (Fail m, s, l)
  | (Panic m, s, l) => (Panic m, s, l)
  | (Fuel, s, l) => (Fuel, s, l)
  end.

Lemma andThen_addEv {A B S} e (x : res A * S * list event) (f : A -> S -> res B * S * list event) :
  andThen (addEv e x) f = addEv e (andThen x f).
Proof. destruct x as [[[a|m|m|] s] l]; cbn; auto. destruct (f a s) as [[r s'] l']. reflexivity. Qed.

Lemma run_bind {A B S} (P : provider S) (p : prog A) (f : A -> prog B) : forall s,
  run P (pbind p f) s = andThen (run P p s) (fun a s' => run P (f a) s').
Proof.
  induction p as [a|m|m| |x k IH e IHe|x v o k IH e IHe|x v k IH e IHe|x v k IH e IHe|x v k IH|x o g l k IH]; intro s; cbn; auto.
  - destruct (run P (f a) s) as [[r s'] l']. reflexivity.
  - destruct (pTs P s x) as [[a|m|m|] s']; rewrite andThen_addEv, ?IH, ?IHe; auto.
  - destruct (pLadder P s x v o) as [[a|m|m|] s']; rewrite andThen_addEv, ?IH, ?IHe; auto.
  - destruct (pMon P s x v) as [[a|m|m|] s']; rewrite andThen_addEv, ?IH, ?IHe; auto.
  - destruct (pIncl P s x v) as [[a|m|m|] s']; rewrite andThen_addEv, ?IH, ?IHe; auto.
  - rewrite andThen_addEv, IH. auto.
  - rewrite andThen_addEv, IH. auto.
Qed.

Definition orElse {A S} (x : res A * S * list event) (f : string -> S -> res A * S * list event) : res A * S * list event :=
  match x with
  | (Ok a, s, l) => (Ok a, s, l)
  | (Fail m, s, l) => match f m s with (r, s', l') => (r, s', l ++ l') end
  | (Panic m, s, l) => (Panic m, s, l)
  | (Fuel, s, l) => (Fuel, s, l)
  end.

Lemma orElse_addEv {A S} e (x : res A * S * list event) f : orElse (addEv e x) f = addEv e (orElse x f).
Proof. destruct x as [[[a|m|m|] s] l]; cbn; auto. destruct (f m s) as [[r s'] l']. reflexivity. Qed.

Lemma run_catch {A S} (P : provider S) (p : prog A) (h : string -> prog A) : forall s,
  run P (pcatch p h) s = orElse (run P p s) (fun m s' => run P (h m) s').
Proof.
  induction p as [a|m|m| |x k IH e IHe|x v o k IH e IHe|x v k IH e IHe|x v k IH e IHe|x v k IH|x o g l k IH]; intro s; cbn; auto.
  - destruct (run P (h m) s) as [[r s'] l']. reflexivity.
  - destruct (pTs P s x) as [[a|m|m|] s']; rewrite orElse_addEv, ?IH, ?IHe; auto.
  - destruct (pLadder P s x v o) as [[a|m|m|] s']; rewrite orElse_addEv, ?IH, ?IHe; auto.
  - destruct (pMon P s x v) as [[a|m|m|] s']; rewrite orElse_addEv, ?IH, ?IHe; auto.
  - destruct (pIncl P s x v) as [[a|m|m|] s']; rewrite orElse_addEv, ?IH, ?IHe; auto.
  - rewrite orElse_addEv, IH. auto.
  - rewrite orElse_addEv, IH. auto.
Qed.

(** [runs P p s r s' Q]: the run ends with result [r] in state [s'] and all its events satisfy [Q]. *)
Definition runs {A S} (P : provider S) (p : prog A) (s : S) (r : res A) (s' : S) (Q : event -> Prop) : Prop :=
  exists l, run P p s = (r, s', l) /\ Forall Q l.

Lemma runs_ret {A S} (P : provider S) (a : A) s Q : runs P (Ret a) s (Ok a) s Q.
Proof. exists []. split; [reflexivity|constructor]. Qed.

Lemma runs_err {A S} (P : provider S) m s Q : runs P (Err m : prog A) s (Fail m) s Q.
Proof. exists []. split; [reflexivity|constructor]. Qed.

Lemma runs_bind {A B S} (P : provider S) (p : prog A) (f : A -> prog B) s s1 s2 a r Q :
  runs P p s (Ok a) s1 Q -> runs P (f a) s1 r s2 Q -> runs P (pbind p f) s r s2 Q.
Proof.
  intros (l & E & F) (l' & E' & F'). exists (l ++ l'). rewrite run_bind, E. cbn. rewrite E'. split; auto. apply Forall_app; auto.
Qed.

Lemma runs_bind_fail {A B S} (P : provider S) (p : prog A) (f : A -> prog B) s s1 m Q :
  runs P p s (Fail m) s1 Q -> runs P (pbind p f) s (Fail m) s1 Q.
Proof. intros (l & E & F). exists l. rewrite run_bind, E. auto. Qed.

Lemma runs_lift {A S} (P : provider S) (a : A) r s Q : r = Ok a -> runs P (lift r) s (Ok a) s Q.
Proof. intros ->. apply runs_ret. Qed.

Lemma runs_weaken {A S} (P : provider S) (p : prog A) s r s' (Q Q' : event -> Prop) :
  runs P p s r s' Q -> (forall e, Q e -> Q' e) -> runs P p s r s' Q'.
Proof. intros (l & E & F) H. exists l. split; auto. eapply Forall_impl; eauto. Qed.

Lemma runs_result {A S} (P : provider S) (p : prog A) s r s' Q : runs P p s r s' Q -> result (run P p s) = r.
Proof. intros (l & E & _). rewrite E. reflexivity. Qed.

Lemma runs_events {A S} (P : provider S) (p : prog A) s r s' Q e : runs P p s r s' Q -> In e (events (run P p s)) -> Q e.
Proof. intros (l & E & F). rewrite E. cbn. rewrite Forall_forall in F. auto. Qed.

(** ** Navigation in terms of ranges *)

Lemma lsize_lt len : 1 <= len -> lsize len < len.
Proof. intro H. unfold lsize. destruct (N.log2_spec len) as [A B]; [lia|]. lia. Qed.

Lemma lsize_log len : 0 < lsize len -> N.log2 (lsize len) < N.log2 len.
Proof.
  unfold lsize. intro H. apply N.log2_lt_pow2; auto. pose proof (pow2_pos (N.log2 len)). lia.
Qed.

Lemma rsize_log len : lsize len + 1 < len -> N.log2 (len - lsize len - 1) < N.log2 len.
Proof.
  intro H. unfold lsize in *. destruct (N.log2_spec len) as [A B]; [lia|]. rewrite N.pow_succ_r' in B.
  apply N.log2_lt_pow2; lia.
Qed.

Section Nav.
Variables n a len : N.
Hypothesis Hn : 1 <= n < 2 ^ 64.
Hypothesis R : SRange n a len.

Lemma nav_len : 1 <= len /\ a + len <= n /\ lsize len < len.
Proof.
  destruct (c09_entries n Hn) as (_ & _ & _ & H). destruct (H a len R) as (A & B & C). pose proof (lsize_lt len A). lia.
Qed.

Lemma nav_lt : sroot a len < n.
Proof. pose proof nav_len. unfold sroot. lia. Qed.

Lemma nav_noLeft : noLeftChild (sroot a len) = (lsize len =? 0).
Proof.
  destruct (c09_nav n a len Hn R) as (A & _). unfold noLeftChild. unfold sroot in *.
  destruct (N.eqb_spec (lsize len) 0).
  - apply A. lia.
  - destruct (isLeaf (a + lsize len)); auto. assert (a = a + lsize len) by (apply A; auto). lia.
Qed.

Lemma nav_noRight : noRightChild (sroot a len) n = (len =? lsize len + 1).
Proof.
  destruct (c09_nav n a len Hn R) as (_ & A & _). unfold noRightChild. unfold sroot in *.
  destruct (N.eqb_spec len (lsize len + 1)).
  - apply A. lia.
  - destruct (isLeaf (a + lsize len) || (a + lsize len =? sub64 n 1)); auto. assert (a + len = a + lsize len + 1) by (apply A; auto). lia.
Qed.

Lemma nav_left : 0 < lsize len -> tleft (sroot a len) = Ok (sroot a (lsize len)).
Proof. intro H. destruct (c09_nav n a len Hn R) as (_ & _ & A & _). apply A. unfold sroot. lia. Qed.

Lemma nav_right : lsize len + 1 < len -> tright (sroot a len) n = Ok (sroot (sroot a len + 1) (len - lsize len - 1)).
Proof. intro H. destruct (c09_nav n a len Hn R) as (_ & _ & _ & A). apply A. unfold sroot. lia. Qed.
End Nav.

Lemma sub1_64 n : 1 <= n < 2 ^ 64 -> sub64 n 1 = n - 1.
Proof. intro H. change (2 ^ 64) with two64 in H. unfold sub64. unfold two64 in *. lia. Qed.

Lemma isDist_spec w l r : l <= r -> r < two64 -> isDistinguished w l r = true <-> l + w <= r.
Proof. intros H1 H2. unfold isDistinguished, sub64. unfold two64 in *. rewrite N.leb_le. lia. Qed.

Lemma isDist_false w l r : l <= r -> r < two64 -> isDistinguished w l r = false <-> r < l + w.
Proof.
  intros H1 H2. pose proof (isDist_spec w l r H1 H2). destruct (isDistinguished w l r).
  - split; intro; [discriminate|]. assert (l + w <= r) by (apply H; auto). lia.
  - split; intro; auto. destruct (N.lt_ge_cases r (l + w)); auto. apply H in H3. discriminate.
Qed.

(** ** Distinguished entries *)

Lemma DIn_range ts w a len l r y : DIn ts w a len l r y -> 1 <= len -> a <= y < a + len.
Proof.
  intro H. induction H; intro Hl; pose proof (lsize_lt _ Hl); unfold sroot in *.
  - lia.
  - specialize (IHDIn ltac:(lia)). lia.
  - specialize (IHDIn ltac:(lia)). lia.
Qed.

Lemma DIn_bound ts w a len l r y : DIn ts w a len l r y -> l + w <= r.
Proof. intro H. destruct H; auto. Qed.

Definition tsMono (n : N) (ts : N -> N) : Prop := (forall x y, x <= y < n -> ts x <= ts y) /\ (forall x, x < n -> ts x < two64).

Section Honest.
Variable c : pubConfig.
Variable L : hlog.
Hypothesis HL : okLog L.
Let n := h_n L.
Let ts := h_ts L.
Let w := pc_rmw c.

Lemma hn : 1 <= n < 2 ^ 64.
Proof. apply HL. Qed.

Lemma ts_mono x y : x <= y < n -> ts x <= ts y.
Proof. apply HL. Qed.

Lemma ts_lt x : x < n -> ts x < two64.
Proof. apply HL. Qed.

Lemma runs_getTs x s (Q : event -> Prop) : x < n -> Q (EvTs x (Ok (ts x))) -> runs (honest L) (getTs x) s (Ok (ts x)) s Q.
Proof.
  intros H HQ. unfold getTs. exists [EvTs x (Ok (ts x))]. split; [|constructor; auto].
  cbn. apply N.ltb_lt in H. unfold n in H. rewrite H. reflexivity.
Qed.

Lemma rightmost_loop_spec fuel : forall a len l s (Q : event -> Prop),
  SRange n a len -> a + len = n -> l + w <= ts (n - 1) -> N.log2 len < N.of_nat fuel ->
  (forall x, x < n -> (exists p q, SFront a len (p ++ x :: q)) -> Q (EvTs x (Ok (ts x)))) ->
  exists y, runs (honest L) (rightmost_loop c fuel n (ts (n - 1)) (sroot a len)) s (Ok (Some y)) s Q /\
    greatestOf (DIn ts w a len l (ts (n - 1))) (Some y).
Proof.
  pose proof hn as Hn.
  induction fuel as [|f IH]; intros a len l s Q R E Hl Hf HQ; [lia|].
  destruct (nav_len n a len Hn R) as (L1 & L2 & L3).
  cbn [rightmost_loop]. rewrite sub1_64 by auto.
  destruct (N.eqb_spec (sroot a len) (n - 1)) as [E1|E1].
  - exists (sroot a len). split; [apply runs_ret|]. split; [constructor; auto|]. intros y Hy. apply DIn_range in Hy; auto. lia.
  - assert (Hx : sroot a len < n - 1) by (unfold sroot in *; lia).
    assert (Hr : lsize len + 1 < len) by (unfold sroot in *; lia).
    assert (Hts : ts (sroot a len) <= ts (n - 1)) by (apply ts_mono; lia).
    assert (Ht64 : ts (n - 1) < two64) by (apply ts_lt; lia).
    assert (Hq : Q (EvTs (sroot a len) (Ok (ts (sroot a len))))).
    { apply HQ; [lia|]. assert (exists q, SFront (sroot a len + 1) (len - lsize len - 1) q) as [q Hq].
      { clear - Hr. assert (forall k b m, (N.to_nat m <= k)%nat -> 1 <= m -> exists q, SFront b m q) as G.
        { induction k as [|k IH]; intros b m Hk Hm; [lia|]. pose proof (lsize_lt m Hm). destruct (N.eq_dec m (lsize m + 1)).
          - exists [sroot b m]. constructor; auto.
          - destruct (IH (sroot b m + 1) (m - lsize m - 1)) as [q Hq]; [lia|lia|]. exists (sroot b m :: q). constructor; auto. lia. }
        apply (G (N.to_nat (len - lsize len - 1))); lia. }
      exists [], q. constructor; auto. }
    destruct (isDistinguished (pc_rmw c) (ts (sroot a len)) (ts (n - 1))) eqn:ED.
    + pose proof (nav_right n a len Hn R Hr) as ER. pose proof ED as ED'. apply isDist_spec in ED'; auto.
      destruct (IH (sroot a len + 1) (len - lsize len - 1) (ts (sroot a len)) s Q) as (y & Ry & Gy); auto.
      * constructor; auto.
      * unfold sroot in *. lia.
      * pose proof (rsize_log len Hr). lia.
      * intros x Hx' (p & q & F). apply HQ; auto. exists (sroot a len :: p), q. constructor; auto.
      * exists y. split.
        -- eapply runs_bind; [apply runs_getTs; auto; lia|]. rewrite ED. cbn [negb]. eapply runs_bind; [apply runs_lift, ER|]. exact Ry.
        -- destruct Gy as [G1 G2]. split; [apply DI_right; auto|]. intros z Hz.
           assert (sroot a len + 1 <= y) by (apply DIn_range in G1; lia).
           inversion Hz; subst.
           ++ lia.
           ++ match goal with H : DIn _ _ _ _ _ _ z |- _ => apply DIn_range in H; [unfold sroot in *; lia|lia] end.
           ++ apply G2. auto.
    + exists (sroot a len). split.
      * eapply runs_bind; [apply runs_getTs; auto; lia|]. rewrite ED. cbn [negb]. apply runs_ret.
      * apply isDist_false in ED; auto. split; [constructor; auto|]. intros z Hz. inversion Hz; subst.
        -- lia.
        -- match goal with H : DIn _ _ _ _ _ _ z |- _ => apply DIn_range in H; [unfold sroot in *; lia|lia] end.
        -- match goal with H : DIn _ _ _ _ _ _ z |- _ => apply DIn_bound in H; fold w in ED; lia end.
Qed.

Lemma rightmost_spec s (Q : event -> Prop) :
  (forall x, x < n -> x = n - 1 \/ (exists p q, SFront 0 n (p ++ x :: q)) -> Q (EvTs x (Ok (ts x)))) ->
  exists o, runs (honest L) (rightmostDistinguished c n) s (Ok o) s Q /\ greatestOf (distinguished n ts w) o.
Proof.
  pose proof hn as Hn. intro HQ. unfold rightmostDistinguished. replace (n =? 0) with false by (symmetry; apply N.eqb_neq; lia).
  rewrite sub1_64 by auto.
  assert (T : ts (n - 1) < two64) by (apply ts_lt; lia).
  assert (T0 : runs (honest L) (getTs (n - 1)) s (Ok (ts (n - 1))) s Q) by (apply runs_getTs; [lia|apply HQ; [lia|auto]]).
  destruct (isDistinguished (pc_rmw c) 0 (ts (n - 1))) eqn:ED.
  - pose proof ED as ED'. apply isDist_spec in ED'; [|lia|auto].
    destruct (rightmost_loop_spec 66 0 n 0 s Q) as (y & Ry & Gy); auto.
    + constructor.
    + assert (N.log2 n < 64); [|lia]. apply N.log2_lt_pow2; lia.
    + exists (Some y). split; auto. eapply runs_bind; [exact T0|]. rewrite ED. cbn [negb].
      destruct (c09_entries n Hn) as (-> & _). exact Ry.
  - exists None. split.
    + eapply runs_bind; [exact T0|]. rewrite ED. apply runs_ret.
    + intros y Hy. apply DIn_bound in Hy. apply isDist_false in ED; [|lia|auto]. fold w in ED. lia.
Qed.

End Honest.
