(** The binary ladder in the server's answer to an owner who starts. *)
From Coq Require Import Sorted Permutation.
From Verif Require Import Base BaseProofs LogMathSpec LogTreeModel LogTreeSpec PrefixModel PrefixSpec PrefixHistProofs TransMathModel TransMathSpec LaddersModel
  CodecModel CodecSpec AlgModel AlgSpec AlgProofs WatchSpec HandleModel HandleSpec HandleProofs HandleProofs2 HandleProofs7
  StoreModel CommitModel MutateModel MutateSpec ServerModel ClientModel ClientSpec MutateProofs2 MutateProofs5 SearchProofs SearchProofs2 AnswerSpec AnswerProofs AnswerProofs2 AnswerProofs3 AnswerProofs4 AnswerProofs7 AnswerSpec2 AnswerSpec3.
Open Scope N_scope.
Local Open Scope list_scope.

Lemma none_small greatest {A} (h : N * A -> bytes) : forall vs (outs : list A), Forall (fun v => (greatest < Z.of_N v)%Z) vs -> map h (filter (fun x => (Z.of_N (fst x) <=? greatest)%Z) (combine vs outs)) = [].
Proof.
  induction vs as [|v vs IH]; intros outs F; [reflexivity|]. destruct outs as [|o outs]; [reflexivity|]. inversion F as [|? ? F1 F2]; subst. cbn [combine filter fst].
  destruct (Z.leb_spec (Z.of_N v) greatest); [lia|]. now apply IH.
Qed.

Lemma set_steps (m : bytes -> option bytes) greatest : forall vs (outs : list (bytes * bytes)) steps, StronglySorted N.le vs -> List.length vs = List.length outs ->
  setCommitments (map (fun o => {| ls_proof := snd o; ls_commitment := None |}) outs)
    (map m (map (fun x : N * (bytes * bytes) => fst (snd x)) (filter (fun x => (Z.of_N (fst x) <=? greatest)%Z) (combine vs outs)))) = Ok steps ->
  Forall2 (fun x st => ls_proof st = snd (snd x) /\ ls_commitment st = if (Z.of_N (fst x) <=? greatest)%Z then m (fst (snd x)) else None) (combine vs outs) steps.
Proof.
  induction vs as [|v vs IH]; intros [|o outs] steps S L E; try discriminate.
  - cbn in E. injection E as <-. constructor.
  - inversion S as [|? ? S1 F]; subst. cbn [combine filter fst] in E. destruct (Z.leb_spec (Z.of_N v) greatest) as [Hv|Hv].
    + cbn [map setCommitments] in E. apply bind_ok in E as (rest & Er & E). injection E as <-. cbn [combine]. constructor.
      * cbn [fst snd ls_proof ls_commitment]. split; [reflexivity|]. destruct (Z.leb_spec (Z.of_N v) greatest); [reflexivity|lia].
      * apply IH; [exact S1|now injection L|exact Er].
    + assert (G : Forall (fun w => (greatest < Z.of_N w)%Z) vs) by (eapply Forall_impl; [|exact F]; cbn; intros; lia).
      rewrite (none_small greatest _ vs outs G) in E. cbn [map setCommitments] in E. injection E as <-. cbn [combine]. constructor.
      * cbn [fst snd ls_proof ls_commitment]. split; [reflexivity|]. destruct (Z.leb_spec (Z.of_N v) greatest); [lia|reflexivity].
      * apply IH; [exact S1|now injection L|]. rewrite (none_small greatest _ vs outs G). now destruct outs.
Qed.

Section Init.
Variable f : bytes -> bytes.
Variable hs : N.
Hypothesis Hf : forall x, lenN (f x) = hs.
Hypothesis Hhs : 0 < hs <= 32.
Variable c : pubConfig.
Variable vrf : bytes -> bytes * bytes.
Variable Ls : list bytes.
Hypothesis HV : vrfGood hs vrf Ls.
Variable sign : bytes -> res bytes.
Variable now : N.
Local Notation valid := (fun tbs sg : bytes => sign tbs = Ok sg).

Lemma outs_are l : forall versions outs, mapM (computeVrfOutput vrf l) versions = Ok outs -> Forall2 (fun v o => exists input, vrfInput l v = Ok input /\ o = vrf input) versions outs.
Proof.
  induction versions as [|v versions IH]; intros outs E; cbn [mapM] in E; [injection E as <-; constructor|]. apply bind_ok in E as (o & Eo & E). apply bind_ok in E as (rest & Er & E). injection E as <-.
  unfold computeVrfOutput in Eo. apply bind_ok in Eo as (input & Ei & Eo). injection Eo as <-. constructor; [eauto|]. now apply IH.
Qed.

Theorem init_ladder t rs l : runs (full f) hs c vrf sign Ls t rs -> rs <> [] -> In l Ls -> Forall (fun r => ~ In l (rq_remove r)) rs -> lenN (labelsNow rs l) < 2 ^ 31 ->
  clockFine c now (latest rs) -> forall last start answer, optSize (lenN rs) last ->
  serverOwnerInit (full f) hs c vrf now (serverOf t) {| iq_last := last; iq_label := l; iq_start := start |} = Ok answer ->
  exists ladder, allLadderVersions (ir_versions answer) = Ok ladder /\ Forall2 (stepFor f vrf rs l start) ladder (ir_ladder answer).
Proof.
  intros R NE Hl Fr Hb Cl last start answer OP Ea.
  assert (Hst : start < lenN rs).
  { destruct (init_answered f hs Hf Hhs c vrf Ls HV sign now t rs l R NE Hl Fr Hb Cl (seenLog rs l) last start (seen_describes rs l) OP) as (I1 & _).
    destruct (proj1 I1 (ex_intro _ answer Ea)) as (D & _). apply DIn_range in D; [cbn [seenLog h_n] in D; lia|]. cbn [seenLog h_n]. destruct rs; [contradiction|]. unfold lenN. cbn [List.length]. lia. }
  destruct (history f hs Hf Hhs c vrf Ls HV sign now t rs l R NE Hl Fr Hb) as (E & T & HE & A & Ln & HF & Hts & Hla). cbn zeta in HF, Hts, Hla.
  set (W := worldOf f hs vrf (durable (t_tx t)) E l) in *. pose proof (SearchProofs.Hn1 f hs W HF) as NB. change (lenN (w_entries W)) with (lenN (entriesOf E)) in NB.
  rewrite Ln in OP, Hst. rewrite <- Hla in Cl. assert (H63 : lenN (entriesOf E) <= 2 ^ 63) by apply HF.
  set (index := map pv_pos (current E l)).
  assert (So : StronglySorted N.le index) by (destruct T as (HD & _); apply (ds_positions _ _ _ _ _ _ HD l Hl)).
  assert (Hs64 : start < two64 - 1) by (change (2 ^ 63) with 9223372036854775808 in H63; unfold two64; lia).
  unfold serverOwnerInit in Ea. cbn [iq_last iq_label iq_start] in Ea. apply bind_ok in Ea as (op & So1 & Ea). apply bind_ok in Ea as ((xs & d1) & _ & Ea). apply bind_ok in Ea as (versions & _ & Ea).
  apply bind_ok in Ea as (ladder & El & Ea). apply bind_ok in Ea as (greatest & Eg & Ea). apply bind_ok in Ea as (steps & Es & Ea). apply bind_ok in Ea as ((r & d2) & _ & Ea).
  apply bind_ok in Ea as (proof & _ & Ea). injection Ea as <-. cbn [ir_versions ir_ladder].
  destruct (monitored f hs Hf Hhs c vrf Ls HV valid now t E T HE l Hl HF last (fun _ => Ret tt) tt OP Cl) as (op' & _ & _ & So2 & On & Oi & _).
  { intros s r0 s' evs Er. cbn in Er. injection Er as _ _ <-. exact Logic.I. }
  { reflexivity. }
  rewrite So1 in So2. injection So2 as <-. fold index in Oi. rewrite Oi in Eg. fold (wholeState index) in Eg. rewrite (whole_at index start So Hs64) in Eg. injection Eg as <-. rewrite On in Es.
  exists ladder. split; [exact El|].
  pose proof (count_short start index) as Sh. assert (Li : List.length index = List.length (labelsNow rs l)) by (rewrite A; apply map_length).
  set (k := countLe start index) in *. set (g := (Z.of_nat k - 1)%Z) in *.
  assert (Sl : StronglySorted N.le ladder) by (unfold allLadderVersions in El; apply bind_ok in El as (ls & _ & El); injection El as <-; apply nsort_sorted).
  unfold getBinaryLadder in Es. apply bind_ok in Es as (outs & Eo & Es). apply bind_ok in Es as ((p & coms) & Ec & Es).
  pose proof (outs_are l ladder outs Eo) as Fo. assert (Lo : List.length ladder = List.length outs) by (clear -Fo; induction Fo; cbn; congruence).
  assert (Fo2 : Forall2 (fun v (o : bytes * bytes) => fst o = keyOf vrf l v) ladder outs).
  { clear -Fo. induction Fo as [|v o vs os (input & Ei & ->) F IH]; constructor; [|exact IH]. unfold keyOf. now rewrite Ei. }
  assert (Hg : (g < 2 ^ 31)%Z) by (unfold g; unfold lenN in Hb; rewrite <- Li in Hb; change (2 ^ 31)%Z with 2147483648%Z; change (2 ^ 31) with 2147483648 in Hb; lia).
  pose proof (keys_sized f hs Hf Hhs vrf Ls HV sign l ladder outs g Hl Hg Fo2) as KS.
  set (keys := map (fun x : N * (bytes * bytes) => fst (snd x)) (filter (fun x => (Z.of_N (fst x) <=? g)%Z) (combine ladder outs))) in *.
  pose proof HF as (_ & _ & _ & _ & _ & _ & (vs & Hh & HVs) & _). destruct (HVs (lenN (entriesOf E) - 1)) as (m & Em & _); [cbn [w_entries W worldOf]; lia|].
  assert (HfL : forall x, List.length (f x) = N.to_nat hs) by (intro x; specialize (Hf x); unfold lenN in Hf; lia).
  assert (Sr : forall ks, ks <> [] -> Forall (fun k : bytes => List.length k = N.to_nat hs) ks -> exists proof, search (full f) (N.to_nat hs) (w_prefixDb W) (lenN (entriesOf E)) ks = Ok (proof, map m ks)).
  { intros ks Nk Fk. destruct (hist_search f (N.to_nat hs) HfL ltac:(lia) (w_prefixDb W) vs (lenN (entriesOf E)) m (le_root (entryAt W (lenN (entriesOf E) - 1))) ks Hh) as (pr & Sr & _).
    - rewrite <- Em. f_equal. lia.
    - lia.
    - exact Nk.
    - exact Fk.
    - eauto. }
  assert (Cm : coms = map m keys).
  { clearbody keys. destruct keys as [|k0 ks].
    - unfold search in Ec. destruct (N.eqb_spec (lenN (entriesOf E)) 0); [lia|]. cbn in Ec. injection Ec as _ <-. reflexivity.
    - destruct (Sr (k0 :: ks) ltac:(discriminate) KS) as (pr & Sk). change (x_prefix (sv_db (serverOf t))) with (w_prefixDb W) in Ec. rewrite Sk in Ec. injection Ec as _ <-. reflexivity. }
  subst coms. unfold keys in Es. apply (set_steps m g ladder outs steps Sl Lo) in Es.
  assert (Lw : lenN E = lenN (entriesOf E)) by (unfold lenN, entriesOf; now rewrite map_length).
  assert (Val : forall v, (Z.of_N v <=? g)%Z = true -> exists q b, nth_error (labelsNow rs l) (N.to_nat v) = Some q /\ pv_pos q <= start /\ m (keyOf vrf l v) = Some b /\ labelCommitment (full f) (pv_opening q) l v (pv_value q) = Ok b).
  { intros v Hv. apply Z.leb_le in Hv. assert (V32 : v < 2 ^ 32) by (change (2 ^ 31)%Z with 2147483648%Z in Hg; change (2 ^ 32) with 4294967296; lia).
    destruct (committed f hs Hf Hhs c vrf Ls HV sign valid (fun _ _ H => H) t E l v T HE Hl V32) as (raw & e & pr & com & _ & _ & _ & Sc & _ & Mc).
    destruct (Sr [keyOf vrf l v] ltac:(discriminate)) as (pr2 & Sk); [constructor; [apply HV; assumption|constructor]|]. rewrite Lw in Sc. change (x_prefix (durable (t_tx t))) with (w_prefixDb W) in Sc.
    rewrite Sk in Sc. injection Sc as _ <-. destruct (nth_error index (N.to_nat v)) as [x0|] eqn:Ex; [|apply nth_error_None in Ex; lia].
    pose proof (proj1 (count_nth start index _ _ So Ex)) as Le. unfold index in Ex. rewrite nth_error_map in Ex. rewrite A. destruct (nth_error (current E l) (N.to_nat v)) as [q|]; [|discriminate]. injection Ex as <-.
    destruct Mc as ((b & Eb & Lb) & _). exists q, b. split; [reflexivity|]. split; [apply Le; fold k; lia|]. split; [exact Eb|exact Lb]. }
  assert (Non : forall v, (Z.of_N v <=? g)%Z = false -> match nth_error (labelsNow rs l) (N.to_nat v) with Some q => (pv_pos q <=? start) = false | None => True end).
  { intros v Hv. apply Z.leb_gt in Hv. rewrite A. destruct (nth_error (current E l) (N.to_nat v)) as [q|] eqn:Ex; [|exact Logic.I]. apply N.leb_gt. apply (map_nth_error pv_pos) in Ex.
    destruct (N.lt_ge_cases start (pv_pos q)) as [|Le]; [assumption|]. apply (proj2 (count_nth start index _ _ So Ex)) in Le. fold k in Le. lia. }
  clear -Fo Fo2 Es Val Non. revert steps Es. induction Fo as [|v o vs os (input & Ei & Eo) F IH]; intros steps Es; cbn [combine] in Es; inversion Es as [|? st ? sts (P1 & P2) Es2]; subst; constructor.
  - inversion Fo2 as [|? ? ? ? K1 _]; subst. cbn [fst snd] in *. split; [exists input; split; [exact Ei|exact P1]|]. destruct (Z.of_N v <=? g)%Z eqn:B.
    + destruct (Val v B) as (q & b & -> & Le & Mb & Lb). rewrite (proj2 (N.leb_le _ _) Le). exists b. rewrite P2, K1, Mb. auto.
    + specialize (Non v B). destruct (nth_error (labelsNow rs l) (N.to_nat v)); [rewrite Non|]; exact P2.
  - apply IH; [|exact Es2]. now inversion Fo2.
Qed.

Theorem init_commitments t rs l : runs (full f) hs c vrf sign Ls t rs -> rs <> [] -> In l Ls -> Forall (fun r => ~ In l (rq_remove r)) rs -> lenN (labelsNow rs l) < 2 ^ 31 ->
  clockFine c now (latest rs) -> forall last start answer, optSize (lenN rs) last ->
  serverOwnerInit (full f) hs c vrf now (serverOf t) {| iq_last := last; iq_label := l; iq_start := start |} = Ok answer ->
  exists ladder, allLadderVersions (ir_versions answer) = Ok ladder /\ List.length (ir_ladder answer) = List.length ladder /\
    forall i v st, nth_error ladder i = Some v -> nth_error (ir_ladder answer) i = Some st -> In v (ir_versions answer) -> ls_commitment st <> None.
Proof.
  intros R NE Hl Fr Hb Cl last start answer OP Ea. destruct (init_ladder t rs l R NE Hl Fr Hb Cl last start answer OP Ea) as (ladder & El & F). exists ladder. split; [exact El|].
  split; [clear -F; induction F; cbn; congruence|]. intros i v st Ei Est Iv.
  assert (St : stepFor f vrf rs l start v st).
  { clear -F Ei Est. revert i Ei Est. induction F as [|a b la lb Hab F IH]; intros [|i] Ei Est; try discriminate; [injection Ei as <-; injection Est as <-; exact Hab|]. eapply IH; eassumption. }
  destruct (init_answered f hs Hf Hhs c vrf Ls HV sign now t rs l R NE Hl Fr Hb Cl (seenLog rs l) last start (seen_describes rs l) OP) as (_ & I2).
  destruct (I2 answer Ea) as (xs & (ys & Exs & _ & G) & Lx & C). apply In_nth_error in Iv as (j & Ej).
  assert (Hj : (j < List.length xs)%nat) by (assert (j < List.length (ir_versions answer))%nat by (apply nth_error_Some; congruence); lia).
  destruct (nth_error xs j) as [x|] eqn:Ex; [|apply nth_error_None in Ex; lia]. specialize (C j x Ex). unfold claimed in C. rewrite Ej in C. cbn [seenLog h_g] in C.
  assert (Lt : x <= start) by (apply nth_error_In in Ex; rewrite Exs in Ex; destruct Ex as [<-|Iy]; [lia|apply G in Iy; lia]).
  destruct (history f hs Hf Hhs c vrf Ls HV sign now t rs l R NE Hl Fr Hb) as (E & T & HE & A & _).
  assert (So : StronglySorted N.le (map pv_pos (labelsNow rs l))) by (rewrite A; destruct T as (HD & _); apply (ds_positions _ _ _ _ _ _ HD l Hl)).
  assert (Hc : versionsBy rs l x = countLe x (map pv_pos (labelsNow rs l))) by (unfold versionsBy; rewrite count_map; reflexivity).
  pose proof (count_short x (map pv_pos (labelsNow rs l))) as Sh. rewrite map_length in Sh.
  destruct (nth_error (labelsNow rs l) (N.to_nat v)) as [p|] eqn:Ep; [|apply nth_error_None in Ep; lia].
  pose proof (map_nth_error pv_pos _ _ Ep) as Em. pose proof (proj1 (count_nth x _ _ _ So Em) ltac:(lia)) as Le.
  destruct St as (_ & St). rewrite Ep in St. rewrite (proj2 (N.leb_le _ _) (N.le_trans _ _ _ Le Lt)) in St. destruct St as (b & -> & _). discriminate.
Qed.
End Init.
