(** The version that the binary ladders find in an arbitrary set of versions, gaps or not. *)
From Verif Require Import Base BaseProofs LaddersModel LaddersProofs AlgSpec.
Open Scope N_scope.

Lemma Ok_inj {A} (a b : A) : Ok a = Ok b -> a = b.
Proof. congruence. Qed.

Section Search.
Variable truth : N -> bool.

(** The bisection of ladders.go:20-29, steered by the set. *)
Fixpoint findBelow (fuel : nat) (lo hi : N) : N :=
  match fuel with
  | O => lo
  | S f => if lo + 1 <? hi then let mid := (lo + hi) / 2 in if truth mid then findBelow f mid hi else findBelow f lo mid else lo
  end.

(** The first phase (ladders.go:12-18), steered by the set; [2 ^ len - 1] is the next version to look at. *)
Fixpoint findUp (fuel : nat) (len : N) : Z :=
  match fuel with
  | O => 2147483647
  | S f => if truth (2 ^ len - 1) then findUp f (len + 1)
           else if len =? 0 then -1 else Z.of_N (findBelow 70 (2 ^ (len - 1) - 1) (2 ^ len - 1))
  end.

Definition found : Z := findUp 32 0.

Lemma findBelow_range fuel : forall lo hi, lo < hi -> lo <= findBelow fuel lo hi < hi.
Proof.
  induction fuel as [|f IH]; intros lo hi Hl; cbn [findBelow]; [lia|]. destruct (N.ltb_spec (lo + 1) hi); [|lia].
  assert (lo < (lo + hi) / 2 < hi) by lia. destruct (truth _).
  - specialize (IH ((lo + hi) / 2) hi ltac:(lia)). lia.
  - specialize (IH lo ((lo + hi) / 2) ltac:(lia)). lia.
Qed.

(** Enough fuel is enough. *)
Lemma findBelow_fuel : forall fuel fuel' lo hi, lo < hi -> hi - lo <= 2 ^ N.of_nat fuel -> hi - lo <= 2 ^ N.of_nat fuel' -> findBelow fuel lo hi = findBelow fuel' lo hi.
Proof.
  induction fuel as [|f IH]; intros fuel' lo hi Hl H1 H2.
  - cbn in H1. destruct fuel'; [reflexivity|]. cbn [findBelow]. destruct (N.ltb_spec (lo + 1) hi); [lia|reflexivity].
  - destruct fuel' as [|f']; cbn [findBelow].
    + cbn in H2. destruct (N.ltb_spec (lo + 1) hi); [lia|reflexivity].
    + destruct (N.ltb_spec (lo + 1) hi); [|reflexivity]. rewrite Nat2N.inj_succ, N.pow_succ_r' in H1, H2.
      destruct (truth _); apply IH; lia.
Qed.

(** The results agree with the set as far as they go. *)
Definition agreesWith (ladder : list N) (results : list bool) : Prop := forall i w b, nth_error ladder i = Some w -> nth_error results i = Some b -> b = truth w.

Lemma agrees_cons w ladder b results : agreesWith (w :: ladder) (b :: results) -> b = truth w /\ agreesWith ladder results.
Proof. intro A. split; [exact (A 0%nat w b eq_refl eq_refl)|]. intros i v b' E1 E2. exact (A (S i) v b' E1 E2). Qed.

Lemma bisect_found t : forall fuel lo hi down results r, lo <= t < hi -> hi < 2 ^ 31 -> hi - lo <= 2 ^ N.of_nat fuel ->
  ladder_bisect fuel t lo hi = Ok down -> agreesWith down results -> interpret_loop down t results = Ok r ->
  r = cmp3 (Z.of_N (findBelow fuel lo hi)) t.
Proof.
  induction fuel as [|f IH]; intros lo hi down results r Ht Hh Hf E A I; [discriminate|]. cbn [ladder_bisect findBelow] in *.
  change (2 ^ 31) with 2147483648 in *.
  rewrite !add32_small in E by (unfold two32; lia). destruct (N.ltb_spec (lo + 1) hi) as [L|L].
  - set (mid := (lo + hi) / 2) in *. assert (Hm : lo < mid < hi) by (unfold mid; lia). rewrite Nat2N.inj_succ, N.pow_succ_r' in Hf.
    apply bind_ok in E. destruct E as (rest & E & Q). injection Q as <-. cbn [interpret_loop] in I.
    destruct results as [|b results]; [discriminate|]. apply agrees_cons in A. destruct A as [-> A].
    destruct (truth mid) eqn:Tm; cbn [andb negb] in I.
    + destruct (N.ltb_spec t mid) as [C|C].
      * destruct results; [|discriminate]. injection I as <-. destruct (findBelow_range f mid hi ltac:(lia)). unfold cmp3. destruct (Z.compare_spec (Z.of_N (findBelow f mid hi)) (Z.of_N t)); lia.
      * destruct (N.leb_spec mid t); [|lia]. eapply IH; eauto; unfold mid in *; lia.
    + destruct (N.leb_spec mid t) as [C|C].
      * destruct results; [|discriminate]. injection I as <-. destruct (findBelow_range f lo mid ltac:(lia)). unfold cmp3. destruct (Z.compare_spec (Z.of_N (findBelow f lo mid)) (Z.of_N t)); lia.
      * eapply IH; eauto; unfold mid in *; lia.
  - injection E as <-. cbn in I. injection I as <-. assert (lo = t) by lia. subst lo. unfold cmp3. rewrite Z.compare_refl. reflexivity.
Qed.

Lemma pow_mono len : len <= 31 -> 2 ^ len <= 2147483648.
Proof. intro H. change 2147483648 with (2 ^ 31). apply N.pow_le_mono_r; lia. Qed.
Lemma pow_half len : 1 <= len -> 2 ^ len = 2 * 2 ^ (len - 1).
Proof. intro H. rewrite <- N.pow_succ_r'. f_equal. lia. Qed.

Lemma findUp_least fuel : forall len, len = 32 - N.of_nat fuel -> (fuel <= 32)%nat -> 1 <= len -> (Z.of_N (2 ^ (len - 1)) - 1 <= findUp fuel len)%Z.
Proof.
  induction fuel as [|f IH]; intros len El Hf Hl; cbn [findUp].
  - replace (len - 1) with 31 by lia. change (2 ^ 31) with 2147483648. lia.
  - pose proof (pow_half len Hl) as P1. pose proof (p2pos (len - 1)). destruct (truth _).
    + specialize (IH (len + 1) ltac:(lia) ltac:(lia) ltac:(lia)). replace (len + 1 - 1) with len in IH by lia. lia.
    + destruct (N.eqb_spec len 0); [lia|]. pose proof (findBelow_range 70 (2 ^ (len - 1) - 1) (2 ^ len - 1) ltac:(lia)). lia.
Qed.

Lemma findUp_first f : findUp (S f) 0 = if truth 0 then findUp f 1 else (-1)%Z.
Proof. reflexivity. Qed.

Lemma up_found t : t < 2 ^ 31 - 1 -> forall fuel fuel2 len up down hi results r, len = 32 - N.of_nat fuel2 -> (fuel2 <= 32)%nat -> len <= 31 ->
  (1 <= len -> 2 ^ (len - 1) - 1 <= t) -> ladder_up fuel t len = Ok up -> List.last up 0 = hi -> ladder_bisect 70 t ((hi - 1) / 2) hi = Ok down ->
  agreesWith (up ++ down)%list results -> interpret_loop (up ++ down)%list t results = Ok r -> r = cmp3 (findUp fuel2 len) t.
Proof.
  intro Ht. change (2 ^ 31) with 2147483648 in Ht. induction fuel as [|f IH]; intros fuel2 len up down hi results r El Hf Hl Hp E Eh Ed A I; [discriminate|].
  cbn [ladder_up] in E. rewrite up_val in E by lia. destruct fuel2 as [|f2]; [lia|]. cbn [findUp]. pose proof (pow_mono len Hl) as PM. pose proof (p2pos len) as PP.
  destruct (N.ltb_spec t (2 ^ len - 1)) as [C|C].
  - injection E as <-. cbn in Eh. subst hi. assert (1 <= len). { destruct (N.eq_dec len 0) as [->|]; [cbn in C; lia|lia]. }
    pose proof (pow_half len H) as P1. specialize (Hp H). cbn [app interpret_loop] in *. destruct results as [|b results]; [discriminate|]. apply agrees_cons in A. destruct A as [-> A].
    destruct (truth (2 ^ len - 1)) eqn:Tv; cbn [andb negb] in I.
    + destruct (N.ltb_spec t (2 ^ len - 1)); [|lia]. destruct results; [|discriminate]. injection I as <-.
      pose proof (findUp_least f2 (len + 1) ltac:(lia) ltac:(lia) ltac:(lia)) as K. replace (len + 1 - 1) with len in K by lia.
      unfold cmp3. destruct (Z.compare_spec (findUp f2 (len + 1)) (Z.of_N t)); lia.
    + destruct (N.leb_spec (2 ^ len - 1) t); [lia|]. destruct (N.eqb_spec len 0); [lia|].
      replace ((2 ^ len - 1 - 1) / 2) with (2 ^ (len - 1) - 1) in Ed by lia.
      apply (bisect_found t 70 (2 ^ (len - 1) - 1) (2 ^ len - 1) down results); auto; try lia.
  - apply bind_ok in E. destruct E as (rest & E & Q). injection Q as <-.
    assert (Hl' : len + 1 <= 31). { destruct (N.eq_dec len 31) as [->|]; [change (2 ^ 31) with 2147483648 in C; lia|lia]. }
    assert (Nr : rest <> []). { intros ->. destruct f; [discriminate|]. cbn [ladder_up] in E. destruct (t <? _); [discriminate|]. apply bind_ok in E. destruct E as (? & _ & Q). discriminate. }
    assert (Eh' : List.last rest 0 = hi). { rewrite <- Eh. destruct rest; [contradiction|reflexivity]. }
    cbn [app interpret_loop] in *. destruct results as [|b results]; [discriminate|]. apply agrees_cons in A. destruct A as [-> A].
    destruct (truth (2 ^ len - 1)) eqn:Tv; cbn [andb negb] in I.
    + destruct (N.ltb_spec t (2 ^ len - 1)); [lia|]. eapply (IH f2 (len + 1)); eauto; try lia. intros _. replace (len + 1 - 1) with len by lia. lia.
    + destruct (N.leb_spec (2 ^ len - 1) t); [|lia]. destruct results; [|discriminate]. injection I as <-. destruct (N.eqb_spec len 0).
      * unfold cmp3. destruct (Z.compare_spec (-1) (Z.of_N t)); lia.
      * pose proof (pow_half len ltac:(lia)). pose proof (p2pos (len - 1)). pose proof (findBelow_range 70 (2 ^ (len - 1) - 1) (2 ^ len - 1) ltac:(lia)).
        unfold cmp3. destruct (Z.compare_spec (Z.of_N (findBelow 70 (2 ^ (len - 1) - 1) (2 ^ len - 1))) (Z.of_N t)); lia.
Qed.

Local Opaque ladder_up ladder_bisect findUp.
Lemma base_parts t base : t < 2 ^ 31 - 1 -> baseBinaryLadder t = Ok base -> exists up down hi, base = (up ++ down)%list /\ ladder_up 70 t 0 = Ok up /\ List.last up 0 = hi /\ ladder_bisect 70 t ((hi - 1) / 2) hi = Ok down.
Proof.
  intros Ht E. unfold baseBinaryLadder, baseBinaryLadder_fuel in E. apply bind_ok in E. destruct E as (up & Eu & E).
  destruct (ladder_up_spec 70 t 0 Ht ltac:(lia) ltac:(lia) ltac:(lia)) as (l & k & E1 & Hk & Hn & Hp & El). rewrite E1 in Eu. apply Ok_inj in Eu. subst up.
  rewrite rev_app_distr in E. cbn [rev app] in E.
  assert (K : 1 <= k). { destruct (N.eq_dec k 0) as [->|]; [cbn in Hn; lia|lia]. }
  assert (Q : exists l0, l = (l0 ++ [2 ^ (k - 1) - 1])%list).
  { rewrite El. replace (N.to_nat (k - 0)) with (S (N.to_nat (k - 1))) by lia. rewrite seq_S, map_app. eexists. cbn [map]. f_equal. f_equal. f_equal. f_equal. lia. }
  destruct Q as (l0 & ->). rewrite rev_app_distr in E. cbn [rev app] in E. apply bind_ok in E. destruct E as (down & Ed & E). injection E as <-.
  exists ((l0 ++ [2 ^ (k - 1) - 1]) ++ [2 ^ k - 1])%list, down, (2 ^ k - 1). split; [reflexivity|]. split; [exact E1|]. split; [apply last_last|].
  pose proof (pow_half k K). pose proof (p2pos (k - 1)). replace ((2 ^ k - 1 - 1) / 2) with (2 ^ (k - 1) - 1) by lia. exact Ed.
Qed.

Lemma search_is_base t base : baseBinaryLadder t = Ok base -> searchBinaryLadder t t [] [] = Ok base.
Proof.
  intro E. unfold searchBinaryLadder. rewrite E. cbn [bind]. f_equal. clear E. induction base as [|v base IH]; [reflexivity|].
  cbn [searchLadder_loop mem32 existsb orb]. rewrite IH. destruct (N.leb_spec v t); destruct (N.ltb_spec t v); cbn; try lia; reflexivity.
Qed.

(** An accepted search ladder says how the version compares with the one found. *)
Lemma ladder_found t ladder results r : t < 2 ^ 32 -> searchBinaryLadder t t [] [] = Ok ladder -> interpretSearchLadder ladder t results = Ok r -> agreesWith ladder results -> r = cmp3 found t.
Proof.
  intros Ht E I A. unfold interpretSearchLadder in I. destruct (_ <? _)%nat; [discriminate|]. pose proof E as E0. unfold searchBinaryLadder in E0. apply bind_ok in E0. destruct E0 as (base & Eb & _).
  rewrite (search_is_base _ _ Eb) in E. injection E as ->. destruct (N.lt_ge_cases t (2 ^ 31 - 1)) as [L|L].
  2:{ unfold baseBinaryLadder in Eb. rewrite base_diverges in Eb by lia. discriminate. }
  destruct (base_parts t ladder L Eb) as (up & down & hi & -> & E1 & E2 & E3). exact (up_found t L 70 32 0 up down hi results r eq_refl (le_n 32) (N.le_0_l 31) (fun K => False_ind _ (N.nle_succ_0 0 K)) E1 E2 E3 A I).
Qed.

(** Reading off the set what an honest answer says. *)
Lemma honest_results t : forall ladder, exists results r, (List.length results <= List.length ladder)%nat /\ agreesWith ladder results /\ interpret_loop ladder t results = Ok r /\
  (r = 0%Z -> forall w, In w ladder -> truth w = (w <=? t)) /\ (r = (-1)%Z -> exists w, In w ladder /\ w <= t /\ truth w = false) /\ (r = 1%Z -> exists w, In w ladder /\ t < w /\ truth w = true) /\ (r = -1 \/ r = 0 \/ r = 1)%Z.
Proof.
  induction ladder as [|w ladder IH].
  - exists [], 0%Z. split; [cbn; lia|]. split; [intros [|i]; discriminate|]. split; [reflexivity|]. split; [intros _ w []|]. split; [discriminate|]. split; [discriminate|auto].
  - assert (One : agreesWith (w :: ladder) [truth w]). { intros [|[|i]] v b E1 E2; cbn in E1, E2; try discriminate. injection E1 as <-. injection E2 as <-. reflexivity. }
    destruct (truth w) eqn:Tw; [destruct (N.ltb_spec t w) as [C|C]|destruct (N.leb_spec w t) as [C|C]].
    + exists [true], 1%Z. split; [cbn; lia|]. split; [exact One|]. split; [cbn; destruct (N.ltb_spec t w); [reflexivity|lia]|]. split; [discriminate|]. split; [discriminate|]. split; [|auto]. intros _. exists w. split; [now left|auto].
    + destruct IH as (results & r & A0 & A1 & A2 & A3 & A4 & A5 & A6). exists (true :: results), r. split; [cbn; lia|]. split.
      { intros [|i] v b E1 E2; cbn in E1, E2; [injection E1 as <-; injection E2 as <-; auto|eapply A1; eassumption]. }
      split. { cbn. destruct (N.ltb_spec t w); [lia|exact A2]. }
      split. { intros Q v [<-|I]; [rewrite Tw; destruct (N.leb_spec w t); [reflexivity|lia]|auto]. }
      split; [|split; [|exact A6]]; intro Q; [destruct (A4 Q) as (v & I & K)|destruct (A5 Q) as (v & I & K)]; exists v; (split; [now right|exact K]).
    + exists [false], (-1)%Z. split; [cbn; lia|]. split; [exact One|]. split; [cbn; destruct (N.leb_spec w t); [reflexivity|lia]|]. split; [discriminate|]. split; [|split; [discriminate|auto]]. intros _. exists w. split; [now left|auto].
    + destruct IH as (results & r & A0 & A1 & A2 & A3 & A4 & A5 & A6). exists (false :: results), r. split; [cbn; lia|]. split.
      { intros [|i] v b E1 E2; cbn in E1, E2; [injection E1 as <-; injection E2 as <-; auto|eapply A1; eassumption]. }
      split. { cbn. destruct (N.leb_spec w t); [lia|exact A2]. }
      split. { intros Q v [<-|I]; [rewrite Tw; destruct (N.leb_spec w t); [lia|reflexivity]|auto]. }
      split; [|split; [|exact A6]]; intro Q; [destruct (A4 Q) as (v & I & K)|destruct (A5 Q) as (v & I & K)]; exists v; (split; [now right|exact K]).
Qed.

Lemma found_compare t ladder : t < 2 ^ 32 -> searchBinaryLadder t t [] [] = Ok ladder ->
  (found = Z.of_N t -> forall w, In w ladder -> truth w = (w <=? t)) /\ ((forall w, In w ladder -> w <= t -> truth w = true) -> (Z.of_N t <= found)%Z) /\
  ((forall w, In w ladder -> truth w = (w <=? t)) -> found = Z.of_N t).
Proof.
  intros Ht E. destruct (honest_results t ladder) as (results & r & A0 & A1 & A2 & A3 & A4 & A5 & A6).
  assert (I : interpretSearchLadder ladder t results = Ok r). { unfold interpretSearchLadder. destruct (Nat.ltb_spec (List.length ladder) (List.length results)); [lia|exact A2]. }
  pose proof (ladder_found t ladder results r Ht E I A1) as Q. split; [|split].
  - intro F. apply A3. rewrite Q, F. unfold cmp3. now rewrite Z.compare_refl.
  - intro K. destruct (Z.lt_ge_cases found (Z.of_N t)) as [L|L]; [|exact L]. exfalso. assert (r = -1)%Z as R. { rewrite Q. unfold cmp3. destruct (Z.compare_spec found (Z.of_N t)); lia. }
    destruct (A4 R) as (w & W1 & W2 & W3). rewrite (K w W1 W2) in W3. discriminate.
  - intro K. unfold cmp3 in Q. destruct (Z.compare_spec found (Z.of_N t)) as [C|C|C]; [exact C| |].
    + destruct (A4 Q) as (w & W1 & W2 & W3). rewrite (K w W1) in W3. lia.
    + destruct (A5 Q) as (w & W1 & W2 & W3). rewrite (K w W1) in W3. lia.
Qed.

Lemma monitoring_found t ladder : t < 2 ^ 32 -> monitoringBinaryLadder t = Ok ladder -> (forall w, In w ladder -> truth w = true) -> (Z.of_N t <= found)%Z.
Proof.
  intros Ht E K. unfold monitoringBinaryLadder in E. apply bind_ok in E. destruct E as (base & Eb & E). injection E as <-.
  destruct (found_compare t base Ht (search_is_base _ _ Eb)) as (_ & C & _). apply C. intros w I L. apply K. apply filter_In. split; [exact I|lia].
Qed.

Lemma found_least : (-1 <= found)%Z /\ (found = -1 <-> truth 0 = false)%Z.
Proof.
  unfold found. rewrite findUp_first. destruct (truth 0).
  - pose proof (findUp_least 31 1 ltac:(reflexivity) ltac:(lia) ltac:(lia)) as K. change (2 ^ (1 - 1)) with 1 in K. split; [lia|]. split; [lia|discriminate].
  - split; [lia|]. split; auto.
Qed.
End Search.
