(** Contact monitoring against a log that need not be honest. *)
From Coq Require Import Sorted.
From Verif Require Import Base BaseProofs LogMathModel NodeMathProofs LogMathProofs TransMathModel TransMathSpec TransMathProofs TransMathProofs2 LaddersModel LaddersProofs CodecModel AlgModel AlgSpec AlgProofs AlgProofs2 AlgProofs3 AlgProofs4 AlgProofs5
  HandleModel HandleProofs WatchProofs2.
Open Scope N_scope.
Local Open Scope list_scope.

Lemma sanc_trans n x y z : 1 <= n < 2 ^ 64 -> sanc n x y -> sanc n y z -> sanc n x z.
Proof.
  intros Hn (a & len & R & Ey & Hx) (b & m & Rb & Ez & Hy).
  destruct (sub_root n y Hn b m Rb Hy) as (a' & len' & R' & E' & B1 & B2).
  destruct (SRange_unique n a len a' len') as [-> ->]; auto; [unfold two64; lia|congruence|]. exists b, m. split; [exact Rb|]. split; [exact Ez|lia].
Qed.

Lemma sanc_up n x y z : 1 <= n < 2 ^ 64 -> sanc n x z -> x <= y <= z -> sanc n y z.
Proof.
  intros Hn (b & m & Rb & Ez & Hx) Hy. destruct (nav_len n b m Hn Rb) as (L1 & L2 & L3). exists b, m. split; [exact Rb|]. split; [exact Ez|]. unfold sroot in *. lia.
Qed.

Lemma inspect_in stop skip p y : In y (inspectList stop skip p) -> In y p.
Proof.
  induction p as [|z t IH]; cbn; auto. destruct stop as [d|].
  - destruct (d =? z); [destruct skip; cbn; tauto|]. intros [->|H]; auto.
  - intros [->|H]; auto.
Qed.
Lemma inspect_whole skip p : inspectList None skip p = p.
Proof. induction p as [|y t IH]; cbn; congruence. Qed.
Lemma last_member (p : list N) x : p <> [] -> In (List.last p x) p.
Proof. induction p as [|y t IH]; [congruence|]. intros _. destruct t as [|z t]; [left; auto|]. right. apply IH. discriminate. Qed.

Section Contact.
Context {S : Type}.
Variable P : provider S.
Variable c : pubConfig.
Variables (n : N) (ts : N -> N).
Hypothesis Hn : 1 <= n < 2 ^ 64.
Hypothesis Hmono : forall x y, x <= y < n -> ts x <= ts y.
Hypothesis H64 : forall x, x < n -> ts x < two64.
Local Notation w := (pc_rmw c).
Local Notation dist := (distinguished n ts w).

(** Every timestamp that was answered is the right one. *)
Definition timesTrue (ev : list event) : Prop := forall x t, In (EvTs x (Ok t)) ev -> x < n -> t = ts x.
Lemma timesTrue_app a b : timesTrue (a ++ b) <-> timesTrue a /\ timesTrue b.
Proof.
  unfold timesTrue. split.
  - intro Q. split; intros x t I; apply Q, in_or_app; auto.
  - intros [A B] x t I. apply in_app_or in I. destruct I; eauto.
Qed.

(** The first distinguished entry on the way from [x] to the right and up, or none. *)
Definition firstDist (x : N) (o : option N) : Prop :=
  match o with
  | Some d => dist d /\ sanc n x d /\ x <= d /\ forall d', dist d' -> sanc n x d' -> x <= d' -> d <= d'
  | None => forall d', dist d' -> sanc n x d' -> x <= d' -> False
  end.

Lemma ancestor_loop_exact target fuel : forall a len left right best s o s' l,
  SRange n a len -> a <= target < a + len ->
  (forall y, a <= y < a + len -> left <= ts y <= right) -> right < two64 ->
  (forall d, DIn ts w a len left right d -> dist d) ->
  (forall d, best = Some d -> dist d /\ sanc n target d /\ target <= d /\ a + len <= d) ->
  (forall d, dist d -> sanc n target d -> target <= d -> DIn ts w a len left right d \/ exists b, best = Some b /\ b <= d) ->
  run P (ancestor_loop c fuel n target (sroot a len) left right best) s = (Ok o, s', l) -> timesTrue l -> firstDist target o.
Proof.
  induction fuel as [|f IH]; intros a len left right best s o s' l R Ht Hb Hr HD Hbest Hall H TT; [discriminate|].
  cbn [ancestor_loop] in H.
  destruct (nav_len n a len Hn R) as (L1 & L2 & L3).
  assert (Hx : a <= sroot a len < a + len) by (unfold sroot; lia).
  pose proof (Hb _ Hx) as Hbx.
  destruct (isDistinguished w left right) eqn:ED; cbn [negb] in H.
  2:{ cbn in H. injection H as <- <- <-.
      assert (NB : forall d, ~ DIn ts w a len left right d).
      { intros d Hd. apply DIn_bound in Hd. apply (proj2 (isDist_spec w left right ltac:(lia) Hr)) in Hd. congruence. }
      destruct best as [b|].
      - destruct (Hbest b eq_refl) as (B1 & B2 & B3 & B4). cbn. repeat split; auto. intros d' D1 D2 D3. destruct (Hall d' D1 D2 D3) as [Q|(b' & Q & Q2)]; [destruct (NB _ Q)|]. congruence.
      - cbn. intros d' D1 D2 D3. destruct (Hall d' D1 D2 D3) as [Q|(b' & Q & Q2)]; [destruct (NB _ Q)|discriminate]. }
  apply isDist_spec in ED; [|lia|auto].
  assert (Droot : dist (sroot a len)) by (apply HD; constructor; auto).
  assert (Sroot : sanc n target (sroot a len)) by (exists a, len; auto).
  set (best' := if target <=? sroot a len then Some (sroot a len) else best) in *.
  destruct (N.eqb_spec (sroot a len) target) as [Et|Et].
  { cbn in H. injection H as <- <- <-. unfold best'. rewrite (proj2 (N.leb_le _ _)) by lia. cbn. repeat split; auto; lia. }
  apply run_bind_ok in H as (t & s1 & l1 & l2 & E1 & H & ->). apply timesTrue_app in TT. destruct TT as [T1 T2].
  apply run_getTs_ok in E1. subst l1. assert (t = ts (sroot a len)) by (apply T1; [left; reflexivity|apply (nav_lt n a len Hn R)]). subst t.
  destruct (N.ltb_spec target (sroot a len)) as [Lt|Lt].
  - assert (Hl : 0 < lsize len) by (unfold sroot in *; lia).
    rewrite (nav_left n a len Hn R Hl) in H. cbn [lift pbind] in H.
    assert (Eb : best' = Some (sroot a len)) by (unfold best'; now rewrite (proj2 (N.leb_le _ _)) by lia).
    eapply (IH a (lsize len)); try exact H; auto.
    + constructor; auto.
    + unfold sroot in *. lia.
    + intros y Hy. split; [apply Hb; lia|]. apply Hmono. unfold sroot in *. lia.
    + apply H64. apply (nav_lt n a len Hn R).
    + intros d Hd. apply HD. apply DI_left; auto.
    + intros d Q. rewrite Eb in Q. injection Q as <-. repeat split; auto; unfold sroot in *; lia.
    + intros d D1 D2 D3. rewrite Eb. destruct (Hall d D1 D2 D3) as [Q|(b & Q & Q2)].
      * inversion Q; subst.
        -- right. eexists. split; [reflexivity|lia].
        -- left. assumption.
        -- right. eexists. split; [reflexivity|]. match goal with K : DIn _ _ (sroot a len + 1) _ _ _ _ |- _ => apply DIn_range in K; [|lia] end. lia.
      * right. eexists. split; [reflexivity|]. destruct (Hbest b Q) as (_ & _ & _ & B4). lia.
  - assert (Hrr : lsize len + 1 < len) by (unfold sroot in *; lia).
    rewrite (nav_right n a len Hn R Hrr) in H. cbn [lift pbind] in H.
    assert (Eb : best' = best) by (unfold best'; destruct (N.leb_spec target (sroot a len)); [lia|reflexivity]).
    rewrite Eb in H. clear Eb best'. eapply (IH (sroot a len + 1) (len - lsize len - 1)); try exact H; auto.
    + constructor; auto.
    + unfold sroot in *. lia.
    + intros y Hy. split; [apply Hmono; unfold sroot in *; lia|]. apply Hb. unfold sroot in *. lia.
    + intros d Hd. apply HD. apply DI_right; auto.
    + intros d Q. destruct (Hbest d Q) as (B1 & B2 & B3 & B4). repeat split; auto. unfold sroot in *. lia.
    + intros d D1 D2 D3. destruct (Hall d D1 D2 D3) as [Q|Q]; [|auto]. left. inversion Q; subst.
      * lia.
      * match goal with K : DIn _ _ a (lsize len) _ _ _ |- _ => apply DIn_range in K; [|lia] end. unfold sroot in *. lia.
      * assumption.
Qed.

Lemma ancestor_exact m target s o s' l : mo_size m = n -> mo_rightmost m = ts (n - 1) -> target < n ->
  run P (distinguishedAncestor c m target) s = (Ok o, s', l) -> timesTrue l -> firstDist target o.
Proof.
  intros Em Er Ht H TT.
  assert (ED : distinguishedAncestor c m target = ancestor_loop c 66 n target (sroot 0 n) 0 (ts (n - 1)) None).
  { unfold distinguishedAncestor. destruct (c09_entries n Hn) as (E0 & _). rewrite Em, Er, E0. reflexivity. }
  rewrite ED in H. clear ED.
  apply (ancestor_loop_exact target 66 0 n 0 (ts (n - 1)) None s o s' l); auto.
  - constructor.
  - lia.
  - intros y Hy. split; [lia|]. apply Hmono. lia.
  - apply H64. lia.
  - discriminate.
Qed.

Local Opaque distinguishedAncestor.
Local Notation path := (pathOf n).

(** The entries at which the version seen at [x] is to be looked at: to the right of and above [x], up to the first distinguished
    entry; [exempt] entries are left to the owner. *)
Definition due (exempt : N -> Prop) (x z : N) : Prop :=
  sanc n x z /\ x < z /\ (forall d, dist d -> sanc n x d -> x <= d -> z <= d) /\ ~ exempt z.

(** [prev] holds, for every entry looked at, what is looked at on the way from there. *)
Definition upward (exempt : N -> Prop) (prev : list (N * N)) : Prop :=
  forall y v z, mget prev y = Some v -> due exempt y z -> exists v', v <= v' /\ mget prev z = Some v'.

Lemma due_on exempt x y z : sanc n x y -> x <= y -> y < z -> due exempt x z -> due exempt y z.
Proof.
  intros A B C (D1 & D2 & D3 & D4). split; [apply (sanc_up n x); auto; lia|]. split; [exact C|]. split; [|exact D4].
  intros d E1 E2 E3. apply D3; [exact E1|exact (sanc_trans n x y d Hn A E2)|lia].
Qed.

Lemma path_sorted x : x < n -> StronglySorted N.lt (path x).
Proof. intro Hx. destruct (c11_right n x Hn Hx) as (d & E & _ & SS). unfold pathOf. now rewrite E. Qed.

Lemma inspect_sorted stop skip p : StronglySorted N.lt p -> StronglySorted N.lt (inspectList stop skip p).
Proof.
  induction p as [|y t IH]; cbn; auto. intro SS. inversion SS as [|? ? S2 F]; subst. destruct (match stop with Some s => s =? y | None => false end); [destruct skip; repeat constructor|].
  constructor; auto. rewrite Forall_forall in *. intros z Hz. apply inspect_in in Hz. auto.
Qed.

Lemma inspect_reach stop skip p z : StronglySorted N.lt p -> In z p -> (forall d, stop = Some d -> z <= d /\ (skip = true -> z <> d)) -> In z (inspectList stop skip p).
Proof.
  induction p as [|y t IH]; intros SS I Hd; [destruct I|]. inversion SS as [|? ? S2 F]; subst. rewrite Forall_forall in F. cbn. destruct stop as [d|].
  - destruct (Hd d eq_refl) as [H1 H2]. destruct (N.eqb_spec d y) as [->|Ne].
    + destruct I as [->|I]; [|apply F in I; lia]. destruct skip; [destruct (H2 eq_refl eq_refl)|now left].
    + destruct I as [->|I]; [now left|right]. apply IH; auto.
  - destruct I as [->|I]; [now left|right]. apply IH; auto.
Qed.

(** The loop looks at a first part of the list; what comes next has been looked at before, for a greater version. *)
Lemma contact_loop_split ver xs : forall prev s early prev' s' l,
  run P (contact_loop ver xs prev) s = (Ok (early, prev'), s', l) ->
  exists dn rest, xs = dn ++ rest /\ (forall y, In y dn -> mget prev y = None \/ exists a b, dn = a ++ y :: b /\ In y a) /\ (forall y, mget prev' y = if in_dec N.eq_dec y dn then Some ver else mget prev y) /\
    (forall y, In y dn -> In (EvMon y ver (Ok tt)) l) /\
    (rest = [] /\ early = false \/ exists y t v, rest = y :: t /\ mget prev' y = Some v /\ ver < v /\ early = true).
Proof.
  induction xs as [|y t IH]; intros prev s early prev' s' l H; cbn [contact_loop] in H.
  - cbn in H. injection H as <- <- <- <-. exists [], []. split; [reflexivity|]. split; [intros y []|]. split; [reflexivity|]. split; [intros y []|auto].
  - destruct (mget prev y) as [pv|] eqn:Ey.
    + destruct (N.leb_spec pv ver); [discriminate|]. cbn in H. injection H as <- <- <- <-. exists [], (y :: t). split; [reflexivity|]. split; [intros z []|]. split; [reflexivity|]. split; [intros z []|].
      right. exists y, t, pv. auto.
    + apply run_bind_ok in H as ([] & s1 & l1 & l2 & E1 & H & ->). apply run_getMon_ok in E1. subst l1.
      apply IH in H as (dn & rest & -> & A & B & C & D). exists (y :: dn), rest. split; [reflexivity|]. split.
      { intros z [<-|Hz]; [left; exact Ey|]. destruct (A z Hz) as [Az|(a & b & -> & Ha)].
        - rewrite mget_mput in Az. destruct (N.eqb_spec z y) as [->|]; [discriminate|left; exact Az].
        - right. exists (y :: a), b. split; [reflexivity|now right]. }
      split. { intro z. rewrite B, mget_mput. destruct (in_dec N.eq_dec z dn) as [I|I]; destruct (in_dec N.eq_dec z (y :: dn)) as [J|J]; auto.
        - destruct J. now right.
        - destruct J as [<-|J]; [now rewrite N.eqb_refl|contradiction].
        - destruct (N.eqb_spec z y) as [->|]; [destruct J; now left|reflexivity]. }
      split; [|exact D]. intros z [<-|Hz]; [now left|right; auto].
Qed.

Lemma sorted_split (a b : list N) y z : StronglySorted N.lt (a ++ b) -> In y a -> In z b -> y < z.
Proof.
  induction a as [|u a IH]; intros SS Ia Ib; [destruct Ia|]. inversion SS as [|? ? S2 F]; subst. rewrite Forall_forall in F. destruct Ia as [->|Ia]; [apply F, in_or_app; auto|auto].
Qed.

(** What is left to the owner. *)
Definition exempt (m : monitor) (z : N) : Prop := exists o, mo_owner m = Some o /\ os_starting o < z /\ dist z.

Definition noDist (x : N) : Prop := forall d, dist d -> sanc n x d -> x <= d -> False.

Lemma contactOne_full m x ver prev s upd prev' s' l : mo_size m = n -> mo_rightmost m = ts (n - 1) -> x < n ->
  upward (exempt m) prev -> run P (contactMonitorOne c m x ver prev) s = (Ok (upd, prev'), s', l) -> timesTrue l ->
  upward (exempt m) prev' /\ (forall z, due (exempt m) x z -> exists v, ver <= v /\ mget prev' z = Some v) /\
  (forall y v, mget prev y = Some v -> mget prev' y = Some v) /\
  (forall y v, mget prev' y = Some v -> mget prev y = Some v \/ In (EvMon y v (Ok tt)) l /\ sanc n x y /\ x < y) /\
  (forall top, upd = Some top -> noDist x /\ top = List.last (path x) x /\ (path x <> [] -> mget prev' top = Some ver /\ mget prev top = None)) /\
  (forall y v, noDist y -> path y = [] -> mget prev' y = Some v -> mget prev y = Some v \/ upd = Some y /\ v = ver) /\
  (path x = [] -> noDist x -> upd = Some x).
Proof.
  intros Em Er Hx U H TT. unfold contactMonitorOne in H.
  apply run_bind_ok in H as (stop & s1 & l1 & l2 & E1 & H & ->). apply timesTrue_app in TT. destruct TT as [T1 T2].
  pose proof (ancestor_exact m x s stop s1 l1 Em Er Hx E1 T1) as HS.
  destruct (match stop with Some s0 => s0 =? x | None => false end) eqn:B.
  - cbn in H. injection H as <- <- <- <-. destruct stop as [d|]; [|discriminate]. apply N.eqb_eq in B. subst d. destruct HS as (D1 & D2 & D3 & D4).
    split; [exact U|]. split. { intros z (_ & Hz & Q & _). specialize (Q x D1 D2 D3). lia. }
    split; [auto|]. split; [auto|]. split; [discriminate|]. split; [auto|]. intros _ ND. destruct (ND x D1 D2 D3).
  - rewrite Em in H. destruct (pathOf_spec n Hn x Hx) as [EP SP]. rewrite EP in H. cbn [lift pbind] in H.
    set (skip := match mo_owner m with Some o => os_starting o <=? x | None => false end) in *. set (xs := inspectList stop skip (path x)) in *.
    apply run_bind_ok in H as ((early & prev1) & s2 & l3 & l4 & E2 & H & ->).
    apply contact_loop_split in E2 as (dn & rest & Exs & A & Bq & C & D).
    assert (HP : prev1 = prev' /\ l4 = []).
    { destruct early; [cbn in H; inversion H; auto|]. destruct stop; cbn in H; inversion H; auto. }
    destruct HP as [-> ->]. rewrite app_nil_r in *.
    assert (SSp : StronglySorted N.lt xs) by (apply inspect_sorted, path_sorted; exact Hx).
    assert (A' : forall y, In y dn -> mget prev y = None).
    { intros y Hy. destruct (A y Hy) as [|(a & b & Eab & Ha)]; [auto|]. rewrite Exs, Eab in SSp. rewrite <- app_assoc in SSp. pose proof (sorted_split a ((y :: b) ++ rest) y y SSp Ha ltac:(now left)). lia. }
    assert (Inx : forall y, In y xs -> sanc n x y /\ x < y) by (intros y Hy; apply SP; eapply inspect_in; exact Hy).
    (* entries looked at are not beyond a distinguished one *)
    assert (Near : forall y d, In y xs -> dist d -> sanc n x d -> x <= d -> y <= d).
    { intros y d Hy Q1 Q2 Q3. destruct stop as [d0|]; [|destruct (HS d Q1 Q2 Q3)]. destruct HS as (D1 & D2 & D3 & D4). specialize (D4 d Q1 Q2 Q3).
      enough (y <= d0) by lia. unfold xs in Hy. revert Hy. clear -D2 D3 SP B Hx Hn. apply N.eqb_neq in B. assert (I0 : In d0 (path x)) by (apply SP; split; [exact D2|lia]).
      pose proof (path_sorted x Hx) as SS. revert I0 SS. generalize (path x). intro p. induction p as [|u p IH]; intros I0 SS Hy; [destruct I0|]. inversion SS as [|? ? S2 F]; subst. rewrite Forall_forall in F.
      cbn in Hy. destruct (N.eqb_spec d0 u) as [->|Ne]; [destruct skip; [destruct Hy|destruct Hy as [->|[]]; lia]|]. destruct I0 as [->|I0]; [congruence|]. destruct Hy as [<-|Hy]; [apply F in I0; lia|auto]. }
    assert (Reach : forall z, due (exempt m) x z -> In z xs).
    { intros z (Z1 & Z2 & Z3 & Z4). apply inspect_reach; [apply path_sorted; exact Hx|apply SP; auto|]. intros d ->. destruct HS as (D1 & D2 & D3 & D4). split; [apply Z3; auto|].
      intros Sk ->. apply Z4. unfold skip in Sk. destruct (mo_owner m) as [o|] eqn:Eo; [|discriminate]. apply N.leb_le in Sk. exists o. split; [exact Eo|]. split; [lia|exact D1]. }
    assert (Keep : forall y v, mget prev y = Some v -> mget prev' y = Some v).
    { intros y v Q. rewrite Bq. destruct (in_dec N.eq_dec y dn) as [I|I]; [rewrite (A' y I) in Q; discriminate|exact Q]. }
    assert (Cov : forall z, due (exempt m) x z -> exists v, ver <= v /\ mget prev' z = Some v).
    { intros z Hz. pose proof (Reach z Hz) as Iz. rewrite Exs in Iz. apply in_app_or in Iz. destruct Iz as [Iz|Iz].
      - exists ver. split; [lia|]. rewrite Bq. destruct (in_dec N.eq_dec z dn); [reflexivity|contradiction].
      - destruct D as [(-> & _)|(y & t & v & -> & Ev & Hv & _)]; [destruct Iz|]. destruct Iz as [<-|Iz]; [exists v; split; [lia|exact Ev]|].
        assert (Iy : In y xs) by (rewrite Exs; apply in_or_app; right; now left). destruct (Inx y Iy) as [Y1 Y2].
        assert (Ly : y < z). { rewrite Exs in SSp. apply (sorted_split (dn ++ [y]) t); [now rewrite <- app_assoc|apply in_or_app; right; now left|exact Iz]. }
        assert (Ep : mget prev y = Some v). { rewrite Bq in Ev. destruct (in_dec N.eq_dec y dn) as [I|I]; [injection Ev as <-; lia|exact Ev]. }
        destruct (U y v z Ep) as (v' & V1 & V2); [apply (due_on _ x); auto; lia|]. exists v'. split; [lia|auto]. }
    split.
    { intros y v z Ey Dz. rewrite Bq in Ey. destruct (in_dec N.eq_dec y dn) as [I|I].
      - injection Ey as <-. assert (Iy : In y xs) by (rewrite Exs; apply in_or_app; now left). destruct (Inx y Iy) as [Y1 Y2]. apply Cov. destruct Dz as (Z1 & Z2 & Z3 & Z4).
        split; [eapply sanc_trans; eauto|]. split; [lia|]. split; [|exact Z4]. intros d Q1 Q2 Q3. pose proof (Near y d Iy Q1 Q2 Q3). apply Z3; auto. apply (sanc_up n x); auto; lia.
      - destruct (U y v z Ey Dz) as (v' & V1 & V2). eauto. }
    split; [exact Cov|]. split; [exact Keep|].
    split. { intros y v Q. rewrite Bq in Q. destruct (in_dec N.eq_dec y dn) as [I|I]; [|auto]. injection Q as <-. right. split; [apply in_or_app; auto|]. apply Inx. rewrite Exs. apply in_or_app. auto. }
    assert (Up : early = false -> stop = None -> upd = Some (List.last xs x)). { intros -> ->. cbn in H. inversion H; subst. reflexivity. }
    assert (Xn : stop = None -> xs = path x). { intros ->. unfold xs. apply inspect_whole. }
    split.
    { intros top ->. destruct early; [discriminate|]. destruct stop as [d|]; [discriminate|]. cbn in H. inversion H; subst. rewrite Xn by reflexivity. split; [exact HS|]. split; [reflexivity|].
      intro Ne. assert (It : In (List.last (path x) x) dn). { destruct D as [(-> & _)|(y & t & v & _ & _ & _ & K)]; [|discriminate]. rewrite app_nil_r in Exs. rewrite <- Exs, Xn by reflexivity. apply last_member. exact Ne. }
      split; [|apply A'; exact It]. rewrite Bq. destruct (in_dec N.eq_dec _ dn); [reflexivity|contradiction]. }
    split.
    { intros y v ND Pe Q. rewrite Bq in Q. destruct (in_dec N.eq_dec y dn) as [I|I]; [|auto]. injection Q as <-. right. split; [|reflexivity].
      assert (Iy : In y xs) by (rewrite Exs; apply in_or_app; now left). destruct (Inx y Iy) as [Y1 Y2].
      assert (Es : stop = None). { destruct stop as [d|]; [|reflexivity]. destruct HS as (D1 & D2 & D3 & D4). pose proof (Near y d Iy D1 D2 D3). destruct (ND d D1); [apply (sanc_up n x); auto; lia|lia]. }
      assert (Last : forall z, In z xs -> z <= y).
      { intros z Iz. destruct (Inx z Iz) as [Z1 Z2]. destruct (N.le_gt_cases z y) as [|Lt]; [auto|]. assert (Hy : y < n) by (destruct Y1 as (a & len & R & -> & _); apply (nav_lt n a len Hn R)).
        destruct (pathOf_spec n Hn y Hy) as [_ G]. assert (In z (path y)) by (apply G; split; [apply (sanc_up n x); auto; lia|exact Lt]). rewrite Pe in H0. destruct H0. }
      assert (Er0 : rest = []). { destruct rest as [|z rest]; [reflexivity|]. rewrite Exs in SSp. pose proof (sorted_split _ _ y z SSp I ltac:(now left)). pose proof (Last z). rewrite Exs in H1. specialize (H1 ltac:(apply in_or_app; right; now left)). lia. }
      rewrite Up; [|destruct D as [(_ & ->)|(z & t & v & K & _)]; [reflexivity|congruence]|exact Es]. f_equal. apply N.le_antisymm.
      - apply Last, last_member. intro K. rewrite K in Iy. destruct Iy.
      - assert (G : forall (p : list N) u x0, StronglySorted N.lt p -> In u p -> u <= List.last p x0).
        { induction p as [|a p IHp]; intros u x0 SS Iu; [destruct Iu|]. inversion SS as [|? ? S2 F]; subst. rewrite Forall_forall in F. destruct p as [|b p]; [destruct Iu as [->|[]]; cbn; lia|].
          destruct Iu as [->|Iu]; [|now apply IHp]. assert (In (List.last (b :: p) x0) (b :: p)) by (apply last_member; discriminate). apply F in H0. cbn [List.last] in *. lia. }
        apply G; auto. }
    intros Pe ND. assert (Es : stop = None). { destruct stop as [d|]; [|reflexivity]. destruct HS as (D1 & D2 & D3 & D4). destruct (ND d D1 D2 D3). }
    assert (Exn : xs = []) by (rewrite Xn, Pe; auto). rewrite Up; [rewrite Exn; reflexivity| |exact Es]. rewrite Exn in Exs. symmetry in Exs. apply app_eq_nil in Exs. destruct Exs as [_ ->].
    destruct D as [(_ & ->)|(z & t & v & K & _)]; [reflexivity|discriminate].
Qed.

Local Notation ver p x := (verOf p x).

Lemma contactAll_full m ptrs0 xs : mo_size m = n -> mo_rightmost m = ts (n - 1) ->
  forall dn prev ptrs s res s' l l0,
  Forall (fun x => x < n) (dn ++ xs) -> StronglySorted (fun a b => b < a) xs -> (forall x y, In x dn -> In y xs -> y < x) ->
  upward (exempt m) prev ->
  (forall y v, mget prev y = Some v -> In (EvMon y v (Ok tt)) l0 /\ exists x, In x dn /\ sanc n x y /\ x < y) ->
  (forall x z, In x dn -> due (exempt m) x z -> exists v, ver ptrs0 x <= v /\ mget prev z = Some v) ->
  (forall y v, mget ptrs y = Some v -> noDist y /\ path y = [] /\ exists x, In x dn /\ noDist x /\ v = ver ptrs0 x /\ (y = x \/ sanc n x y /\ x < y /\ In (EvMon y v (Ok tt)) l0)) ->
  (forall y v, noDist y -> path y = [] -> mget prev y = Some v -> mget ptrs y = Some v) ->
  (forall x, In x dn -> path x = [] -> noDist x -> mget prev x = None -> mget ptrs x = Some (ver ptrs0 x)) ->
  run P (contactAll c m ptrs0 xs prev ptrs) s = (Ok res, s', l) -> timesTrue l ->
  exists fin,
  (forall y v, mget fin y = Some v -> In (EvMon y v (Ok tt)) (l0 ++ l) /\ exists x, In x (dn ++ xs) /\ sanc n x y /\ x < y) /\
  (forall x z, In x (dn ++ xs) -> due (exempt m) x z -> exists v, ver ptrs0 x <= v /\ mget fin z = Some v) /\
  (forall y v, mget res y = Some v -> noDist y /\ path y = [] /\ exists x, In x (dn ++ xs) /\ noDist x /\ v = ver ptrs0 x /\ (y = x \/ sanc n x y /\ x < y /\ In (EvMon y v (Ok tt)) (l0 ++ l))) /\
  (forall y v, noDist y -> path y = [] -> mget fin y = Some v -> mget res y = Some v) /\
  (forall x, In x (dn ++ xs) -> path x = [] -> noDist x -> mget fin x = None -> mget res x = Some (ver ptrs0 x)).
Proof.
  intros Em Er. induction xs as [|x t IH]; intros dn prev ptrs s res s' l l0 HF HS Hlt U I1 I2 I3 I4 I5 H TT.
  - cbn in H. injection H as <- <- <-. rewrite !app_nil_r in *. exists prev. auto.
  - cbn [contactAll] in H. fold (verOf ptrs0 x) in H.
    apply run_bind_ok in H as ((upd & prev') & s1 & l1 & l2 & E1 & H & ->). apply timesTrue_app in TT. destruct TT as [T1 T2].
    assert (Hx : x < n). { rewrite Forall_forall in HF. apply HF. apply in_or_app. right. left. auto. }
    destruct (contactOne_full m x _ _ _ _ _ _ _ Em Er Hx U E1 T1) as (U' & Cv & Kp & Nw & Tp & Fr & Fp).
    set (ptrs' := match upd with Some y => mput ptrs y (verOf ptrs0 x) | None => ptrs end) in *.
    assert (ED : dn ++ x :: t = (dn ++ [x]) ++ t) by (rewrite <- app_assoc; reflexivity).
    rewrite ED in *. rewrite app_assoc.
    inversion HS as [|? ? HS' HSx]; subst. rewrite Forall_forall in HSx.
    assert (Fresh : mget prev x = None). { destruct (mget prev x) as [v|] eqn:E; [|reflexivity]. destruct (I1 x v E) as (_ & x1 & J1 & _ & J2). specialize (Hlt x1 x J1 ltac:(now left)). lia. }
    assert (Fresh' : mget prev' x = None). { destruct (mget prev' x) as [v|] eqn:E; [|reflexivity]. destruct (Nw x v E) as [K|(_ & _ & K)]; [congruence|lia]. }
    assert (Top : forall top, upd = Some top -> noDist top /\ path top = [] /\ sanc n x top /\ x <= top).
    { intros top Eu. destruct (Tp top Eu) as (N1 & N2 & _). destruct (pathOf_spec n Hn x Hx) as [_ G].
      assert (St : sanc n x top /\ x <= top).
      { destruct (path x) as [|u p] eqn:Ep; [cbn in N2; subst top; split; [|lia]|].
        - destruct (SRange_ex n x) as (a & len & R & E); [unfold two64; lia|exact Hx|]. exists a, len. split; [exact R|]. split; [auto|]. destruct (nav_len n a len Hn R) as (L1 & L2 & L3). unfold sroot in *. lia.
        - assert (In top (u :: p)) by (rewrite N2; apply last_member; discriminate). apply G in H0. split; [tauto|lia]. }
      destruct St as [S1 S2]. assert (Ht : top < n) by (destruct S1 as (a & len & R & -> & _); apply (nav_lt n a len Hn R)).
      split. { intros d D1 D2 D3. apply (N1 d D1); [eapply sanc_trans; eauto|lia]. }
      split; [|auto]. destruct (pathOf_spec n Hn top Ht) as [_ Gt]. destruct (path top) as [|z q] eqn:Eq; [reflexivity|]. exfalso.
      assert (Z : In z (z :: q)) by now left. apply Gt in Z. destruct Z as [Z1 Z2].
      assert (Iz : In z (path x)) by (apply G; split; [eapply sanc_trans; eauto|lia]).
      assert (Lz : z <= List.last (path x) x).
      { pose proof (path_sorted x Hx) as SS. revert SS Iz. generalize (path x). induction l as [|a p IHp]; intros SS Iu; [destruct Iu|]. inversion SS as [|? ? S3 F]; subst. rewrite Forall_forall in F. destruct p as [|b p]; [destruct Iu as [->|[]]; cbn; lia|].
        destruct Iu as [->|Iu]; [|now apply IHp]. assert (In (List.last (b :: p) x) (b :: p)) by (apply last_member; discriminate). apply F in H0. cbn [List.last] in *. lia. }
      lia. }
    destruct (IH (dn ++ [x]) prev' ptrs' s1 res s' l2 (l0 ++ l1)) as (fin & F1 & F2 & F3 & F4 & F5); auto.
    + intros a b Ha Hb. apply in_app_or in Ha as [Ha|[<-|[]]]; [apply Hlt; auto; right; auto|auto].
    + intros y v Hy. destruct (Nw y v Hy) as [Hb|(Hb & Hc & Hd)].
      * destruct (I1 y v Hb) as (J1 & z & J2 & J3). split; [apply in_or_app; auto|]. exists z. split; [apply in_or_app; auto|auto].
      * split; [apply in_or_app; auto|]. exists x. split; [apply in_or_app; right; now left|auto].
    + intros z y Hz Dz. apply in_app_or in Hz as [Hz|[<-|[]]]; [|auto]. destruct (I2 z y Hz Dz) as (v & V1 & V2). eauto.
    + intros y v Hy.
      assert (Old : mget ptrs y = Some v -> noDist y /\ path y = [] /\ exists x0, In x0 (dn ++ [x]) /\ noDist x0 /\ v = ver ptrs0 x0 /\ (y = x0 \/ sanc n x0 y /\ x0 < y /\ In (EvMon y v (Ok tt)) (l0 ++ l1))).
      { intro Q. destruct (I3 y v Q) as (J1 & J2 & z & J3 & Jd & J4 & J5). split; [exact J1|]. split; [exact J2|]. exists z. split; [apply in_or_app; auto|]. split; [exact Jd|]. split; [exact J4|]. destruct J5 as [|(K1 & K2 & K3)]; [auto|]. right. repeat split; auto. apply in_or_app; auto. }
      unfold ptrs' in Hy. destruct upd as [top|]; [|auto]. rewrite mget_mput in Hy. destruct (N.eqb_spec y top) as [->|]; [|auto]. injection Hy as <-.
      destruct (Top top eq_refl) as (J1 & J2 & J3 & J4). split; [exact J1|]. split; [exact J2|]. exists x. split; [apply in_or_app; right; now left|]. split; [apply (Tp top eq_refl)|]. split; [reflexivity|].
      destruct (N.eq_dec top x) as [|Ne]; [auto|]. right. split; [exact J3|]. split; [lia|]. destruct (Tp top eq_refl) as (_ & N2 & N3).
      destruct N3 as [N3 N4]; [intro K; rewrite K in N2; cbn in N2; congruence|]. destruct (Nw top _ N3) as [K|(K & _)]; [congruence|apply in_or_app; auto].
    + intros y v ND Pe Q. destruct (Fr y v ND Pe Q) as [K|(-> & ->)].
      * unfold ptrs'. destruct upd as [top|]; [|auto]. rewrite mget_mput. destruct (N.eqb_spec y top) as [->|]; [|auto].
        destruct (Tp top eq_refl) as (_ & N2 & N3). destruct (path x) as [|u p] eqn:Ep; [cbn in N2; subst top; congruence|]. destruct N3 as [_ N3]; [discriminate|congruence].
      * unfold ptrs'. rewrite mget_mput, N.eqb_refl. reflexivity.
    + intros z Hz Pe ND Q. apply in_app_or in Hz as [Hz|[<-|[]]].
      * assert (Pz : mget prev z = None) by (destruct (mget prev z) as [v|] eqn:E; [apply Kp in E; congruence|reflexivity]).
        pose proof (I5 z Hz Pe ND Pz) as K. unfold ptrs'. destruct upd as [top|]; [|auto]. rewrite mget_mput. destruct (N.eqb_spec z top) as [->|]; [|auto].
        destruct (Tp top eq_refl) as (_ & N2 & N3). assert (x < top) by (apply Hlt; auto; now left). destruct (path x) as [|u p] eqn:Ep; [cbn in N2; lia|]. destruct N3 as [N3 _]; [discriminate|congruence].
      * unfold ptrs'. rewrite (Fp Pe ND). rewrite mget_mput, N.eqb_refl. reflexivity.
    + exists fin. auto.
Qed.

(** Every entry that is due has been looked at, for the version of the pointer or a greater one; the pointers that remain are at the
    top of their way, and below no distinguished entry. *)
Lemma contact_full m ptrs0 s m' s' l : mo_size m = n -> mo_rightmost m = ts (n - 1) -> mo_contact m = Some ptrs0 ->
  (forall x, mget ptrs0 x <> None -> x < n) ->
  run P (contactMonitor c m) s = (Ok m', s', l) -> timesTrue l ->
  let new := match mo_contact m' with Some p => p | None => [] end in
  (forall x v z, mget ptrs0 x = Some v -> due (exempt m) x z -> exists v', v <= v' /\ In (EvMon z v' (Ok tt)) l) /\
  (forall y v, mget new y = Some v -> noDist y /\ (forall z, sanc n y z -> z <= y) /\ exists x, mget ptrs0 x = Some v /\ noDist x /\ (y = x \/ sanc n x y /\ x < y /\ In (EvMon y v (Ok tt)) l)) /\
  (forall x v, mget ptrs0 x = Some v -> noDist x -> (exists z, sanc n x z /\ x < z) -> exists y v', sanc n x y /\ x < y /\ (forall z, sanc n y z -> z <= y) /\ v <= v' /\ mget new y = Some v') /\
  (forall x v, mget ptrs0 x = Some v -> noDist x -> (forall z, sanc n x z -> z <= x) -> (forall x', mget ptrs0 x' <> None -> sanc n x' x -> x <= x') -> mget new x = Some v).
Proof.
  intros Em Er Ec Hk H TT. unfold contactMonitor in H. rewrite Ec in H.
  apply run_bind_ok in H as (res & s1 & l1 & l2 & E1 & H & ->). cbn in H. injection H as <- <- <-. cbn zeta. cbn [mo_contact]. rewrite app_nil_r in *.
  assert (ER : match match res with [] => None | _ :: _ => Some res end with Some p => p | None => [] end = res) by (destruct res; auto).
  rewrite ER. clear ER.
  assert (KI : forall x, In x (keysDown ptrs0) <-> mget ptrs0 x <> None).
  { intro x. rewrite keysDown_In. destruct (mget ptrs0 x) eqn:E.
    - split; [discriminate|]. intros _. apply mget_In in E. apply in_map_iff. eexists (x, _). split; [reflexivity|exact E].
    - apply mget_None in E. tauto. }
  destruct (contactAll_full m ptrs0 (keysDown ptrs0) Em Er [] [] [] s res s1 l1 []) as (fin & F1 & F2 & F3 & F4 & F5); auto; try discriminate.
  - apply Forall_forall. intros x Hx. apply Hk, KI. auto.
  - eapply keysDown_sorted; eassumption.
  - intros x y [].
  - intros x z [].
  - intros x [].
  - cbn [app] in *.
    assert (Pt : forall y, y < n -> path y = [] <-> forall z, sanc n y z -> z <= y).
    { intros y Hy. destruct (pathOf_spec n Hn y Hy) as [_ G]. split.
      - intros Pe z Hz. destruct (N.le_gt_cases z y) as [|Lt]; [auto|]. assert (In z (path y)) by (apply G; auto). rewrite Pe in H. destruct H.
      - intro Q. destruct (path y) as [|z p] eqn:Ep; [reflexivity|]. assert (In z (z :: p)) as I by now left. apply G in I. destruct I as [I1 I2]. apply Q in I1. lia. }
    split. { intros x v z Hx Dz. destruct (F2 x z) as (v' & V1 & V2); [apply KI; congruence|exact Dz|]. exists v'. split; [unfold verOf in V1; rewrite Hx in V1; exact V1|]. apply F1. exact V2. }
    split. { intros y v Hy. destruct (F3 y v Hy) as (J1 & J2 & x & J3 & Jd & J4 & J5). apply KI in J3. split; [exact J1|].
      assert (Hy' : y < n). { destruct J5 as [->|((a & len & R & -> & _) & _)]; [auto|apply (nav_lt n a len Hn R)]. }
      split; [apply Pt; auto|]. exists x. split; [|split; [exact Jd|exact J5]]. unfold verOf in J4. destruct (mget ptrs0 x) as [v0|]; [now subst v0|congruence]. }
    split.
    { intros x v Hx ND (z & Z1 & Z2). assert (Hx' : x < n) by (apply Hk; congruence).
      destruct (pathOf_spec n Hn x Hx') as [_ G]. assert (Ne : path x <> []) by (intro K; assert (In z (path x)) by (apply G; auto); rewrite K in H; destruct H).
      pose proof (last_member (path x) x Ne) as It. set (top := List.last (path x) x) in *. apply G in It. destruct It as [S1 S2].
      assert (Ht : top < n) by (destruct S1 as (a & len & R & -> & _); apply (nav_lt n a len Hn R)).
      assert (NDt : noDist top). { intros d D1 D2 D3. apply (ND d D1); [eapply sanc_trans; eauto|lia]. }
      assert (Tt : path top = []).
      { apply Pt; auto. intros u Hu. destruct (N.le_gt_cases u top) as [|Lt]; [auto|]. assert (Iu : In u (path x)) by (apply G; split; [eapply sanc_trans; eauto|lia]).
        assert (u <= top); [|lia]. unfold top. pose proof (path_sorted x Hx') as SS. revert SS Iu. generalize (path x). induction l as [|a p IHp]; intros SS Iu; [destruct Iu|]. inversion SS as [|? ? S3 F]; subst. rewrite Forall_forall in F. destruct p as [|b p]; [destruct Iu as [->|[]]; cbn; lia|].
        destruct Iu as [->|Iu]; [|now apply IHp]. assert (In (List.last (b :: p) x) (b :: p)) by (apply last_member; discriminate). apply F in H. cbn [List.last] in *. lia. }
      destruct (F2 x top) as (v' & V1 & V2).
      - apply KI. congruence.
      - split; [exact S1|]. split; [exact S2|]. split; [intros d D1 D2 D3; destruct (ND d D1 D2 D3)|]. intros (o & _ & _ & Dt). apply (NDt top Dt); [|lia].
        apply (sanc_up n x); auto. lia.
      - exists top, v'. split; [exact S1|]. split; [exact S2|]. split; [apply Pt; auto|]. split; [unfold verOf in V1; rewrite Hx in V1; exact V1|]. apply F4; auto. }
    intros x v Hx ND Tx Hlow. assert (Hx' : x < n) by (apply Hk; congruence).
    replace v with (verOf ptrs0 x) by (unfold verOf; now rewrite Hx). apply F5; auto; [apply KI; congruence|apply Pt; auto|].
    destruct (mget fin x) as [u|] eqn:E; [|reflexivity]. destruct (F1 x u E) as (_ & x1 & J1 & J2 & J3). apply KI in J1. specialize (Hlow x1 J1 J2). lia.
Qed.
End Contact.
