(** From proven answers to what the trees of the log show; owner monitoring and initialization. *)
From Coq Require Import Sorted.
From Verif Require Import Base BaseProofs LogTreeModel LogTreeSpec LogTreeProofs LogTreeProofs3 LogVerifyProofs2 TransMathModel TransMathSpec LaddersModel LaddersProofs PrefixModel PrefixSpec PrefixHistProofs
  CodecModel CodecSpec CodecProofs3 AlgModel AlgSpec AlgProofs AlgProofs2 AlgProofs3 AlgProofs4 HandleModel HandleProofs CommitModel CommitProofs MutateModel MutateSpec ServerModel ClientModel ClientProofs ClientProofs2 ClientSpec SearchProofs
  SoundSpec AcceptProofs SoundProofs SoundProofs2 WatchSpec WatchProofs WatchProofs3 GuardSpec GuardProofs GuardProofs2.
Open Scope N_scope.
Local Open Scope list_scope.

Lemma up_huge fuel : forall n len, 2 ^ 32 <= n -> ladder_up fuel n len = Fuel.
Proof.
  induction fuel as [|f IH]; intros n len Hn; [reflexivity|]. cbn [ladder_up]. assert (sub32 (shl32 1 len) 1 < 2 ^ 32). { unfold sub32. apply N.mod_lt. discriminate. }
  destruct (N.ltb_spec n (sub32 (shl32 1 len) 1)); [lia|]. rewrite IH by exact Hn. reflexivity.
Qed.
Lemma base_small t base : baseBinaryLadder t = Ok base -> t < 2 ^ 31 - 1.
Proof.
  intro E. destruct (N.lt_ge_cases t (2 ^ 32)) as [L|L].
  - destruct (base_in t base L E) as (A & _). exact A.
  - unfold baseBinaryLadder, baseBinaryLadder_fuel in E. rewrite up_huge in E by exact L. discriminate.
Qed.
Lemma search_small t ladder : searchBinaryLadder t t [] [] = Ok ladder -> t < 2 ^ 31 - 1.
Proof. unfold searchBinaryLadder. intro E. apply bind_ok in E. destruct E as (base & E & _). eapply base_small; eauto. Qed.
Lemma monitoring_small t ladder : monitoringBinaryLadder t = Ok ladder -> t < 2 ^ 31 - 1.
Proof. unfold monitoringBinaryLadder. intro E. apply bind_ok in E. destruct E as (base & E & _). eapply base_small; eauto. Qed.
Lemma search_total v : v < 2 ^ 31 - 1 -> exists ladder, searchBinaryLadder v v [] [] = Ok ladder /\ In v ladder /\ In (v + 1) ladder.
Proof. intro L. destruct (base_spec v L) as (b & E & A & B & _). exists b. split; [exact (search_is_base (fun _ => true) v b E)|auto]. Qed.
Lemma monitoring_total v ladder : monitoringBinaryLadder v = Ok ladder -> In v ladder.
Proof.
  intro E. pose proof (monitoring_small _ _ E) as L. unfold monitoringBinaryLadder in E. apply bind_ok in E. destruct E as (base & Eb & E). injection E as <-.
  destruct (base_spec v L) as (b & E' & A & _). rewrite Eb in E'. injection E' as <-. apply filter_In. split; [exact A|lia].
Qed.

(** Greatest versions for which there is no ladder are moved up by one. *)
Definition bump (z : Z) : Z := (if z <? 2147483647 then z else z + 1)%Z.

Section Shown.
Variable vrf : bytes -> bytes * bytes.
Variable l : bytes.
Variable es : list logEntry.
Variable trees : list trie.
Variable cl : N -> bytes -> Prop.
Variable clb : N -> bytes -> bool.
Hypothesis Hcl : forall w com, clb w com = true <-> cl w com.

Definition holds (x w : N) : bool := match nth_error trees (N.to_nat x) with Some t => match heldAs vrf l t w with Some _ => true | None => false end | None => false end.
Definition holdsKnown (x w : N) : bool := match nth_error trees (N.to_nat x) with Some t => match heldAs vrf l t w with Some com => clb w com | None => false end | None => false end.

Definition logAs (h : Z -> Z) (truth : N -> N -> bool) : hlog := {| h_n := lenN es; h_ts := timeAt es; h_g := fun x => h (GuardProofs.found (truth x)) |}.

Lemma truth_holds x w b : truthAt vrf l trees cl x w b -> holds x w = b.
Proof. intros (t & Et & K). unfold holds. rewrite Et. destruct b; [destruct K as (com & _ & ->)|rewrite K]; reflexivity. Qed.
Lemma truth_known x w b : truthAt vrf l trees cl x w b -> holdsKnown x w = b.
Proof. intros (t & Et & K). unfold holdsKnown. rewrite Et. destruct b; [destruct K as (com & K & ->); now apply Hcl|rewrite K; reflexivity]. Qed.

Lemma bump_cmp g v : v < 2 ^ 31 - 1 -> cmp3 (bump g) v = cmp3 g v.
Proof. intro L. unfold bump. destruct (Z.ltb_spec g 2147483647); [reflexivity|]. change (2 ^ 31) with 2147483648 in L. destruct (cmp3_cases g v) as [[A B]|[[A B]|[A B]]]; destruct (cmp3_cases (g + 1) v) as [[A' B']|[[A' B']|[A' B']]]; lia. Qed.
Lemma bump_le g : (g <= bump g)%Z.
Proof. unfold bump. destruct (Z.ltb_spec g 2147483647); lia. Qed.

Lemma proven_true h truth e : h = (fun z => z) \/ h = bump -> (forall x w b, truthAt vrf l trees cl x w b -> truth x w = b) -> provenEvent vrf l es trees cl e -> trueEvent (logAs h truth) e.
Proof.
  intros Hh Ht. destruct e as [x [t|m|m|]|x v o [z|m|m|]|x v [u|m|m|]|x vs r|x v b|x o g lad]; cbn [provenEvent trueEvent]; try (intros; exact I); try contradiction.
  - intros (A & B) _. exact B.
  - intros (_ & ladder & results & A & B & C) _. pose proof (search_small _ _ A) as L. cbn [h_g logAs].
    assert (E : z = cmp3 (GuardProofs.found (truth x)) v). { eapply ladder_found; [change (2 ^ 32) with 4294967296; change (2 ^ 31) with 2147483648 in L; lia|exact A|exact B|]. intros i w b I1 I2. symmetry. apply Ht. eapply C; eauto. }
    destruct Hh as [->| ->]; [exact E|]. rewrite bump_cmp by exact L. exact E.
  - intros (ladder & A & B) _. pose proof (monitoring_small _ _ A) as L. cbn [h_g logAs].
    assert (E : (Z.of_N v <= GuardProofs.found (truth x))%Z). { eapply monitoring_found; [change (2 ^ 32) with 4294967296; change (2 ^ 31) with 2147483648 in L; lia|exact A|]. intros w Hw. apply Ht. now apply B. }
    destruct Hh as [->| ->]; [exact E|]. pose proof (bump_le (GuardProofs.found (truth x))). lia.
Qed.

Lemma logAs_times h truth : ordered es -> h = (fun z => z) \/ h = bump -> okTimes (logAs h truth).
Proof.
  intros (A & B & C) Hh. unfold okTimes, logAs; cbn [h_n h_ts h_g]. split; [change (2 ^ 64) with 18446744073709551616; change (2 ^ 63) with 9223372036854775808 in A; lia|]. split; [exact C|]. split.
  - intros x Hx. unfold timeAt. destruct (nth_error es (N.to_nat x)) as [e|] eqn:Ee; [|reflexivity]. apply nth_error_In in Ee. rewrite Forall_forall in B. now apply B.
  - intros x Hx. destruct (found_least (truth x)) as [K _]. destruct Hh as [->| ->]; [exact K|]. pose proof (bump_le (GuardProofs.found (truth x))). lia.
Qed.

(** What follows for the tree of an entry at which the search found [g]. *)
Lemma found_shows d t g : nth_error trees (N.to_nat d) = Some t -> GuardProofs.found (holds d) = g -> GuardProofs.found (holdsKnown d) = g -> bump (GuardProofs.found (holds d)) = g ->
  showsGreatest vrf l cl t g.
Proof.
  intros Et E1 E2 E3. assert (Lg : (g < 2147483647)%Z). { rewrite E1 in E3. unfold bump in E3. destruct (Z.ltb_spec g 2147483647); [assumption|lia]. }
  split.
  - intros ->. destruct (found_least (holds d)) as [_ K]. apply K in E1. unfold holds in E1. rewrite Et in E1. destruct (heldAs vrf l t 0); [discriminate|reflexivity].
  - intros v ->. assert (Lv : v < 2 ^ 31 - 1) by (change (2 ^ 31) with 2147483648; lia). destruct (search_total v Lv) as (ladder & Es & I1 & I2). exists ladder. split; [exact Es|]. split; [exact I1|]. split; [exact I2|].
    intros w Iw. assert (Lv2 : v < 2 ^ 32) by (change (2 ^ 32) with 4294967296; lia). destruct (found_compare (holds d) v ladder Lv2 Es) as (C1 & _). destruct (found_compare (holdsKnown d) v ladder Lv2 Es) as (C2 & _).
    specialize (C1 E1 w Iw). specialize (C2 E2 w Iw). unfold holds in C1. unfold holdsKnown in C2. rewrite Et in C1, C2. destruct (w <=? v).
    + destruct (heldAs vrf l t w) as [com|]; [|discriminate]. exists com. split; [now apply Hcl|reflexivity].
    + destruct (heldAs vrf l t w); [discriminate|reflexivity].
Qed.

Lemma proven_shows x v u t : nth_error trees (N.to_nat x) = Some t -> provenEvent vrf l es trees cl (EvMon x v (Ok u)) -> showsVersion vrf l cl t v.
Proof.
  intros Et (ladder & A & B). exists ladder. split; [exact A|]. split; [eapply monitoring_total; eauto|]. intros w Hw. destruct (B w Hw) as (t' & Et' & K). rewrite Et in Et'. injection Et' as <-. exact K.
Qed.

(** ** Runs whose answers were proven *)

Context {S : Type}.
Variable P : provider S.
Hypothesis Hord : ordered es.
Variable c : pubConfig.
Local Notation n := (lenN es).

Lemma newMonitor_proven s mo s' ev : run P (newMonitor n) s = (Ok mo, s', ev) -> Forall (provenEvent vrf l es trees cl) ev ->
  mo_size mo = n /\ mo_rightmost mo = timeAt es (n - 1) /\ mo_contact mo = None /\ mo_owner mo = None.
Proof.
  intros H F. unfold newMonitor in H. destruct (N.eqb_spec n 0); [discriminate|]. apply run_bind_ok in H as (t & s1 & l1 & l2 & E1 & H & ->). cbn in H. injection H as <- <- <-.
  apply run_getTs_ok in E1. subst l1. apply Forall_inv in F. cbn in F. destruct F as [_ ->]. cbn. repeat split. f_equal.
  destruct Hord as ((A & B) & _). change (2 ^ 63) with 9223372036854775808 in B. unfold sub64, two64. lia.
Qed.

Lemma ownerMonitor_proven finished m os s m' s' ev hist : exhaustible P finished -> StronglySorted N.le hist -> (Z.of_nat (List.length hist) < 4294967296)%Z ->
  mo_size m = n -> mo_rightmost m = timeAt es (n - 1) -> mo_owner m = Some os -> tracks hist os ->
  run P (ownerMonitor c m) s = (Ok (inr tt, m'), s', ev) -> Forall (provenEvent vrf l es trees cl) ev ->
  exists os', mo_owner m' = Some os' /\ mo_contact m' = mo_contact m /\ tracks hist os' /\ os_starting os <= os_starting os' /\
  (os_starting os' = os_starting os \/ distinguished n (timeAt es) (pc_rmw c) (os_starting os')) /\
  (forall d, distinguished n (timeAt es) (pc_rmw c) d -> os_starting os' < d -> finished s' = true) /\
  (forall d t, distinguished n (timeAt es) (pc_rmw c) d -> os_starting os < d <= os_starting os' -> nth_error trees (N.to_nat d) = Some t -> showsGreatest vrf l cl t (expected hist d)).
Proof.
  intros Ex Hs Hh Em Er Eo Tr H F.
  assert (G : forall h truth, h = (fun z => z) \/ h = bump -> (forall x w b, truthAt vrf l trees cl x w b -> truth x w = b) ->
     exists os', m' = {| mo_rightmost := mo_rightmost m; mo_size := mo_size m; mo_contact := mo_contact m; mo_owner := Some os' |} /\
     tracks hist os' /\ os_starting os <= os_starting os' /\ (os_starting os' = os_starting os \/ distinguished n (timeAt es) (pc_rmw c) (os_starting os')) /\
     (forall d, distinguished n (timeAt es) (pc_rmw c) d -> os_starting os < d <= os_starting os' -> h (GuardProofs.found (truth d)) = expected hist d) /\
     (forall d, distinguished n (timeAt es) (pc_rmw c) d -> os_starting os' < d -> finished s' = true)).
  { intros h truth Hh' Ht. apply (ownerMonitor_true P c (logAs h truth) (logAs_times h truth Hord Hh') finished Ex hist Hs Hh m os s m' s' ev); auto.
    - split; assumption.
    - eapply Forall_impl; [|exact F]. intros e He. apply proven_true; auto. }
  destruct (G (fun z => z) holds (or_introl eq_refl) truth_holds) as (os1 & M1 & T1 & S1 & D1 & C1 & F1).
  destruct (G (fun z => z) holdsKnown (or_introl eq_refl) truth_known) as (os2 & M2 & _ & _ & _ & C2 & _).
  destruct (G bump holds (or_intror eq_refl) truth_holds) as (os3 & M3 & _ & _ & _ & C3 & _).
  rewrite M1 in M2, M3. injection M2 as <-. injection M3 as <-. exists os1. rewrite M1. cbn [mo_owner mo_contact]. split; [reflexivity|]. split; [reflexivity|]. split; [exact T1|]. split; [exact S1|]. split; [exact D1|]. split; [exact F1|].
  intros d t Dd Hd Et. apply (found_shows d); auto.
Qed.

Lemma ownerInit_proven m starting vers s xs m' s' ev : mo_size m = n -> mo_rightmost m = timeAt es (n - 1) ->
  run P (ownerInit c m starting vers) s = (Ok (xs, m'), s', ev) -> Forall (provenEvent vrf l es trees cl) ev ->
  let L := {| h_n := n; h_ts := timeAt es; h_g := fun _ => (-1)%Z |} in
  distinguished n (timeAt es) (pc_rmw c) starting /\ unexpired c L starting /\ initialEntries c L starting xs /\
  (List.length vers <= List.length xs)%nat /\
  mo_owner m' = Some {| os_starting := starting; os_verAt := claimed vers 0; os_upcoming := [] |} /\
  forall i x t, nth_error xs i = Some x -> nth_error trees (N.to_nat x) = Some t -> showsGreatest vrf l cl t (claimed vers i).
Proof.
  intros Em Er H F.
  assert (G : forall h truth, h = (fun z => z) \/ h = bump -> (forall x w b, truthAt vrf l trees cl x w b -> truth x w = b) ->
     let L := logAs h truth in
     mo_owner m = None /\ distinguished n (timeAt es) (pc_rmw c) starting /\ unexpired c L starting /\ initialEntries c L starting xs /\
     (List.length vers <= List.length xs)%nat /\ (forall i x, nth_error xs i = Some x -> h (GuardProofs.found (truth x)) = claimed vers i) /\
     m' = {| mo_rightmost := mo_rightmost m; mo_size := mo_size m; mo_contact := mo_contact m;
             mo_owner := Some {| os_starting := starting; os_verAt := h (GuardProofs.found (truth starting)); os_upcoming := [] |} |}).
  { intros h truth Hh' Ht. apply (ownerInit_true c (logAs h truth) (logAs_times h truth Hord Hh') P m starting vers s xs m' s' ev); auto.
    - split; assumption.
    - eapply Forall_impl; [|exact F]. intros e He. apply proven_true; auto. }
  destruct (G (fun z => z) holds (or_introl eq_refl) truth_holds) as (A1 & A2 & A3 & A4 & A5 & A6 & A7).
  destruct (G (fun z => z) holdsKnown (or_introl eq_refl) truth_known) as (_ & _ & _ & _ & _ & B6 & _).
  destruct (G bump holds (or_intror eq_refl) truth_holds) as (_ & _ & _ & _ & _ & C6 & _).
  split; [exact A2|]. split; [exact A3|]. split; [exact A4|]. split; [exact A5|]. split.
  - rewrite A7. cbn [mo_owner]. destruct A4 as (ys & -> & _). rewrite (A6 0%nat starting eq_refl). reflexivity.
  - intros i x t Ei Et. apply (found_shows x); auto.
Qed.
End Shown.
