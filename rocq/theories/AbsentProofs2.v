(** Searches for versions that do not exist, over a server that has gone through any sequence of mutations. *)
From Coq Require Import Sorted Permutation.
From Verif Require Import Base BaseProofs LogMathSpec LogTreeModel LogTreeSpec LogTreeProofs LogChunkModel PrefixModel PrefixSpec TransMathModel TransMathProofs2 LaddersModel
  CodecModel CodecSpec CodecProofs3 AlgModel AlgSpec AlgProofs AlgProofs4 AlgProofs6 HandleModel HandleSpec HandleProofs HandleProofs2 HandleProofs3 HandleProofs5 HandleProofs6 HandleProofs7
  StoreModel CommitModel MutateModel MutateSpec ServerModel ClientModel ClientSpec ClientProofs2 MutateProofs2 MutateProofs5 MutateProofs7 SearchProofs SearchProofs2 SearchProofs3 AbsentProofs.
Open Scope N_scope.
Local Open Scope list_scope.

Lemma nth_of_last {A} (d : A) l : List.last l d = nth (List.length l - 1) l d.
Proof.
  induction l as [|a [|b l] IH]; [reflexivity|reflexivity|]. change (last (a :: b :: l) d) with (last (b :: l) d). rewrite IH. cbn [List.length].
  replace (S (S (List.length l)) - 1)%nat with (S (S (List.length l) - 1)) by lia. reflexivity.
Qed.

Section Run.
Variable f : bytes -> bytes.
Variable hs : N.
Hypothesis Hf : forall x, lenN (f x) = hs.
Hypothesis Hhs : 0 < hs <= 32.
Variable c : pubConfig.
Variable vrf : bytes -> bytes * bytes.
Variable Ls : list bytes.
Hypothesis HV : vrfGood hs vrf Ls.
Variable sign : bytes -> res bytes.
Variable vrfVerify : bytes -> bytes -> option bytes.
Hypothesis Hvrf : vrfVerifies vrf vrfVerify.
Variable now : N.
Local Notation valid := (fun tbs sg : bytes => sign tbs = Ok sg).

Lemma c92_checks leafVerify t rs l state v :
  runs (full f) hs c vrf sign Ls t rs -> rs <> [] -> In l Ls -> Forall (fun r => ~ In l (rq_remove r)) rs -> lenN (labelsNow rs l) < 2 ^ 31 ->
  match state with Some st => hasSeen f t (lenN rs) st | None => True end ->
  lenN (labelsNow rs l) <= v -> v < 2 ^ 31 - 1 -> pc_mode c <> ThirdPartyManagement ->
  (forall r, In r rs -> isExpired (pc_maxLife c) (rq_now r) (latest rs) = false) -> clockFine c now (latest rs) ->
  let req := {| sq_last := getLast state; sq_label := l; sq_version := Some v |} in
  exists resp, serverSearch (full f) hs c vrf now (serverOf t) req = Ok resp /\
    checkSearch (full f) hs c now vrfVerify leafVerify state req resp = Fail ErrLabelNotFound.
Proof.
  intros R NE Hl Fr Hb Hst Ep Hv Hm Hx Cl req.
  destruct (run_describes f hs Hf Hhs c vrf Ls HV sign valid (fun _ _ H => H) t rs R) as (E & T & Q1 & Q2). destruct (labelsNow_last _ _ Q1) as [A B].
  assert (HE : E <> []) by (intros ->; destruct rs; [contradiction|discriminate B]).
  assert (HF : faithful f hs (worldOf f hs vrf (durable (t_tx t)) E l)).
  { destruct T as (HD & -> & _). rewrite A in Hb. apply (world_faithful f hs Hf Hhs vrf Ls HV sign valid (fun _ _ H => H)); auto.
    eapply (run_not_removed f hs Hf Hhs sign valid (fun _ _ H => H)); eauto. }
  set (W := worldOf f hs vrf (durable (t_tx t)) E l) in *.
  assert (Ln : lenN rs = lenN (entriesOf E)) by (rewrite B; unfold lenN, entriesOf; now rewrite map_length).
  pose proof (SearchProofs.Hn1 f hs W HF) as NB. change (lenN (w_entries W)) with (lenN (entriesOf E)) in NB.
  assert (G : genuine f E state).
  { destruct state as [st|]; [|exact Logic.I]. rewrite Ln in Hst. eapply seen_genuine; eauto. }
  rewrite A in Ep. destruct T as (HD & Hd & HH). assert (T : treeOf f hs vrf Ls c valid t E) by (split; [exact HD|split; [exact Hd|exact HH]]).
  assert (Hts : forall x, x < lenN (entriesOf E) -> exists r, nth_error rs (N.to_nat x) = Some r /\ h_ts (observed W) x = rq_now r).
  { intros x Hxn. cbn [observed h_ts]. unfold entryAt. cbn [w_entries worldOf W].
    destruct (nth_error rs (N.to_nat x)) as [r|] eqn:Er; [|apply nth_error_None in Er; rewrite <- Ln in Hxn; unfold lenN in Hxn; lia].
    exists r. split; [reflexivity|]. pose proof (map_nth_error rq_now _ _ Er) as Er2. rewrite <- Q2 in Er2. apply nth_error_nth with (d := 0) in Er2. rewrite <- Er2.
    change 0 with (le_ts {| le_ts := 0; le_root := [] |}). rewrite map_nth.
    destruct (nth_error (entriesOf E) (N.to_nat x)) as [e|] eqn:Ee; [|apply nth_error_None in Ee; unfold lenN in Hxn; lia].
    rewrite (nth_error_nth _ _ _ Ee). reflexivity. }
  assert (Hlast : h_ts (observed W) (lenN (entriesOf E) - 1) = latest rs).
  { destruct (Hts (lenN (entriesOf E) - 1)) as (r & Er & ->); [lia|]. unfold latest. rewrite nth_of_last, map_length.
    symmetry. apply nth_error_nth. apply map_nth_error. rewrite <- Er. f_equal. rewrite <- Ln. unfold lenN. lia. }
  destruct (head_ok f hs c vrf Ls valid t E T HE) as (th & Eth & Sth & leaves & root & tbs & FL & HM & Et & Vs).
  apply (absent f hs Hf Hhs c vrf Ls HV valid vrfVerify (proj1 Hvrf) leafVerify now t E T HE l Hl HF state v leaves root G); auto.
  - apply nth_error_None. unfold lenN in Ep. lia.
  - intros x Hxn. fold W. rewrite Hlast. destruct (Hts x Hxn) as (r & Er & ->). apply Hx. eapply nth_error_In; eauto.
  - destruct HF as ((_ & _ & Bt) & _). apply Bt. fold W. change (h_n (observed W)) with (lenN (entriesOf E)). lia.
  - fold W. now rewrite Hlast.
Qed.

(** What the user sees. *)
Lemma c92_partial leafVerify sigVerify audVerify visit t rs l state v k :
  runs (full f) hs c vrf sign Ls t rs -> rs <> [] -> In l Ls -> Forall (fun r => ~ In l (rq_remove r)) rs -> lenN (labelsNow rs l) < 2 ^ 31 ->
  match state with Some st => hasSeen f t (lenN rs) st | None => True end ->
  lenN (labelsNow rs l) <= v -> v < 2 ^ 31 - 1 -> pc_mode c <> ThirdPartyManagement ->
  (forall r, In r rs -> isExpired (pc_maxLife c) (rq_now r) (latest rs) = false) -> clockFine c now (latest rs) ->
  let req := {| sq_last := getLast state; sq_label := l; sq_version := Some v |} in
  exists resp, serverSearch (full f) hs c vrf now (serverOf t) req = Ok resp /\
    clientSearch (full f) hs c now vrfVerify sigVerify leafVerify audVerify visit k state req resp = Fail ErrLabelNotFound.
Proof.
  intros R NE Hl Fr Hb Hst Ep Hv Hm Hx Cl req. destruct (c92_checks leafVerify t rs l state v R NE Hl Fr Hb Hst Ep Hv Hm Hx Cl) as (resp & A & B).
  exists resp. split; [exact A|]. fold req in B. unfold clientSearch. rewrite B. reflexivity.
Qed.

(** The index of a label never published is empty. *)
Lemma absent_index t rs l : runs (full f) hs c vrf sign Ls t rs -> In l Ls -> labelsNow rs l = [] -> serverIndex (serverOf t) l = Ok [].
Proof.
  intros R Hl E0. destruct (run_describes f hs Hf Hhs c vrf Ls HV sign valid (fun _ _ H => H) t rs R) as (E & T & Q1 & Q2). destruct (labelsNow_last _ _ Q1) as [A B].
  destruct T as (HD & Hd & HH). unfold serverIndex. cbn [serverOf sv_db]. rewrite Hd, (ds_index _ _ _ _ _ _ HD l Hl), <- A, E0. reflexivity.
Qed.
End Run.

(** ** The other searches *)

(** The error the client reports is another one. *)
Definition other {A} (r : res A) : Prop := (forall a, r <> Ok a) /\ r <> Fail ErrLabelNotFound.

Lemma ladder00 : searchBinaryLadder 0 0 [] [] = Ok [0; 1].
Proof. vm_compute. reflexivity. Qed.

Lemma other_bind {A B} (r : res A) (k : A -> res B) : r <> Fail ErrLabelNotFound -> (forall a, r = Ok a -> other (k a)) -> other (bind r k).
Proof. intros N K. destruct r as [a|e|e|]; cbn [bind]; [apply K; reflexivity| | |]; (split; [discriminate|]); congruence. Qed.

Lemma addRetained_error {S} fs es : forall d : dataProvider S, addRetained d fs es <> Fail ErrLabelNotFound.
Proof.
  intro d. unfold addRetained. generalize {| d_handle := d_handle d; d_subtrees := fs; d_retained := es; d_ts := d_ts d; d_roots := d_roots d |}.
  induction es as [|[x en] es IH]; intros d0; cbn [foldM]; [discriminate|].
  unfold addTimestamp, addPrefixTree. cbn [fst snd]. destruct (mhas (d_ts d0) x); cbn [bind]; [discriminate|]. destruct (existsb _ _); cbn [bind]; [discriminate|].
  destruct (mget (d_roots d0) x) as [y|]; [destruct (bytes_eqb (le_root en) y); cbn [bind]; [apply IH|discriminate]|cbn [bind]; apply IH].
Qed.

Lemma newCVerifier_error state last fth proof : newCVerifier state last fth proof <> Fail ErrLabelNotFound.
Proof.
  unfold newCVerifier. destruct state as [st|].
  - pose proof (addRetained_error (cs_subtrees st) (cs_entries st) (newDataProvider (newReceived proof))) as K.
    destruct (addRetained _ _ _) as [d|e|e|]; cbn [bind]; try congruence; destruct (fth_head fth); [discriminate|]; destruct last; discriminate.
  - cbn [bind]. destruct (fth_head fth); [discriminate|]; destruct last; discriminate.
Qed.

Lemma writeBytes_error k x : writeBytes k x <> Fail ErrLabelNotFound.
Proof. unfold writeBytes. destruct (_ <? _); discriminate. Qed.

Lemma bind_error {A B} (r : res A) (k : A -> res B) e : r <> Fail e -> (forall a, k a <> Fail e) -> bind r k <> Fail e.
Proof. intros N K. destruct r as [a|m|m|]; cbn [bind]; [apply K|congruence|discriminate|discriminate]. Qed.

Ltac pieces := repeat (first [apply writeBytes_error | discriminate | (apply bind_error; [|intro]) | (match goal with |- (match ?x with _ => _ end) <> _ => destruct x end)]).

Lemma updateTBS_error c l v x : updateTBS c l v x <> Fail ErrLabelNotFound.
Proof. unfold updateTBS, pubConfigMarshal, writeBytes. pieces. Qed.

Lemma hash_error H x : hash H x <> Fail ErrLabelNotFound.
Proof. unfold hash, of_opt. destruct (H x); discriminate. Qed.

Lemma commitment_error H o l v u : labelCommitment H o l v u <> Fail ErrLabelNotFound.
Proof.
  unfold labelCommitment, commitmentValue, updateValueMarshal, updateSuffixMarshal, Commit, hmac. apply bind_error; [pieces|]. intro.
  apply bind_error; [apply hash_error|]. intro. apply hash_error.
Qed.

Lemma verifyValue_error c leafVerify l v u : verifyUpdateValue c leafVerify l v u <> Fail ErrLabelNotFound.
Proof.
  unfold verifyUpdateValue. destruct (negb _); [destruct (uv_sig u); discriminate|]. pose proof (updateTBS_error c l v (uv_value u)) as K.
  destruct (updateTBS c l v (uv_value u)) as [tbs|e|e|]; cbn [bind]; try congruence. destruct (leafVerify _ _); discriminate.
Qed.

Section Server.
Variable H : bytes -> option bytes.
Variable hs : N.
Variable c : pubConfig.
Variable vrf : bytes -> bytes * bytes.
Variable now : N.

Lemma addLadder_length l : forall vers q q' proofs, addLadderVersions hs vrf l q vers = Ok (q', proofs) -> List.length proofs = List.length vers.
Proof.
  induction vers as [|v vers IH]; intros q q' proofs; cbn [addLadderVersions]; [intros [= _ <-]; reflexivity|].
  destruct (computeVrfOutput vrf l v) as [[out pf]|?|?|]; cbn [bind]; try discriminate. destruct (qAddVersion hs q v out) as [q1|?|?|]; cbn [bind]; try discriminate.
  destruct (addLadderVersions hs vrf l q1 vers) as [[q2 ps]|?|?|] eqn:E; cbn [bind]; try discriminate. intros [= _ <-]. cbn. f_equal. eauto.
Qed.

Lemma search_absent t req resp : serverSearch H hs c vrf now t req = Ok resp -> serverIndex t (sq_label req) = Ok [] -> sq_version req = None ->
  sr_version resp = Some 0 /\ List.length (sr_ladder resp) = 1%nat.
Proof.
  intros ES EI EV. unfold serverSearch in ES. rewrite EI, EV in ES. destruct (serverHead t (sq_last req)) as [[[[fth n] nP] m]|?|?|]; cbn [bind] in ES; try discriminate ES.
  cbn [List.length searchTarget searchLadderFor] in ES. replace (Z.of_nat 0 - 1 <? 0)%Z with true in ES by reflexivity. cbn [bind] in ES.
  destruct (getVersion c (sv_db t) (sq_label req) 0) as [ov|?|?|]; cbn [bind] in ES; try discriminate ES.
  destruct (addLadderVersions hs vrf (sq_label req) (newProduced []) [0]) as [[q proofs]|?|?|] eqn:EA; cbn [bind] in ES; try discriminate ES.
  destruct (serverView _ _ _ _ _ _ _) as [d1|?|?|]; cbn [bind] in ES; try discriminate ES.
  match type of ES with bind ?r _ = _ => destruct r as [pos|?|?|]; cbn [bind] in ES; try discriminate ES end.
  destruct (dpOutput _ _ _ _ _ _ _ _ _) as [[proof q']|?|?|]; cbn [bind] in ES; try discriminate ES. injection ES as <-. split; [reflexivity|].
  cbn [sr_ladder]. unfold searchSteps. rewrite map_length, combine_length, (addLadder_length _ _ _ _ _ EA). reflexivity.
Qed.

Lemma search_unpublished t req resp v : serverSearch H hs c vrf now t req = Ok resp -> sq_version req = Some v -> vget (x_versions (sv_db t)) (sq_label req, v) = None ->
  uv_sig (sr_value resp) = None.
Proof.
  intros ES EV EG. unfold serverSearch in ES. rewrite EV in ES. destruct (serverHead t (sq_last req)) as [[[[fth n] nP] m]|?|?|]; cbn [bind] in ES; try discriminate ES.
  destruct (serverIndex t (sq_label req)) as [index|?|?|]; cbn [bind] in ES; try discriminate ES. cbn [searchTarget] in ES.
  destruct (searchLadderFor _ _) as [ladder|?|?|]; cbn [bind] in ES; try discriminate ES. unfold getVersion in ES. rewrite EG in ES. cbn [bind] in ES.
  destruct (addLadderVersions _ _ _ _ _) as [[q proofs]|?|?|] eqn:EA; cbn [bind] in ES; try discriminate ES.
  destruct (serverView _ _ _ _ _ _ _) as [d1|?|?|]; cbn [bind] in ES; try discriminate ES.
  match type of ES with bind ?r _ = _ => destruct r as [pos|?|?|]; cbn [bind] in ES; try discriminate ES end.
  destruct (dpOutput _ _ _ _ _ _ _ _ _) as [[proof q']|?|?|]; cbn [bind] in ES; try discriminate ES. injection ES as <-. reflexivity.
Qed.

Variable vrfVerify : bytes -> bytes -> option bytes.
Variable sigVerify leafVerify audVerify : bytes -> bytes -> bool.
Variable visit : nat -> list (N * N) -> list N.

Lemma check_short H' now' state req resp : sq_version req = None -> sr_version resp = Some 0 -> List.length (sr_ladder resp) = 1%nat ->
  other (checkSearch H' hs c now' vrfVerify leafVerify state req resp).
Proof.
  intros E1 E2 E3. unfold checkSearch. apply other_bind; [apply newCVerifier_error|]. intros v0 _. unfold searchedVersion. rewrite E1, E2. cbn [bind].
  apply other_bind; [apply verifyValue_error|]. intros _ _. rewrite ladder00. cbn [bind]. apply other_bind; [apply commitment_error|]. intros com _.
  unfold processLadder. rewrite E3. cbn. split; [discriminate|discriminate].
Qed.

Lemma check_unsigned H' now' state req resp v : sq_version req = Some v -> pc_mode c = ThirdPartyManagement -> uv_sig (sr_value resp) = None ->
  (forall tbs, leafVerify tbs [] = false) -> other (checkSearch H' hs c now' vrfVerify leafVerify state req resp).
Proof.
  intros E1 Em E2 Hs. unfold checkSearch. apply other_bind; [apply newCVerifier_error|]. intros v0 _. unfold searchedVersion. rewrite E1. cbn [bind].
  apply other_bind; [apply verifyValue_error|]. intros u. unfold verifyUpdateValue. rewrite Em, N.eqb_refl. cbn [negb].
  destruct (updateTBS _ _ _ _) as [tbs|?|?|]; cbn [bind]; try discriminate. rewrite E2, Hs. discriminate.
Qed.

Lemma client_other H' now' k state req resp : other (checkSearch H' hs c now' vrfVerify leafVerify state req resp) ->
  other (clientSearch H' hs c now' vrfVerify sigVerify leafVerify audVerify visit k state req resp).
Proof. intro K. unfold clientSearch. apply other_bind; [apply K|]. intros [[v tg] tm] E. exfalso. now apply (proj1 K (v, tg, tm)). Qed.

End Server.

Section Users.
Variable f : bytes -> bytes.
Variable hs : N.
Hypothesis Hf : forall x, lenN (f x) = hs.
Hypothesis Hhs : 0 < hs <= 32.
Variable c : pubConfig.
Variable vrf : bytes -> bytes * bytes.
Variable Ls : list bytes.
Hypothesis HV : vrfGood hs vrf Ls.
Variable sign : bytes -> res bytes.
Local Notation valid := (fun tbs sg : bytes => sign tbs = Ok sg).

Lemma c92_absent t rs req resp now :
  runs (full f) hs c vrf sign Ls t rs -> In (sq_label req) Ls -> labelsNow rs (sq_label req) = [] -> sq_version req = None ->
  serverSearch (full f) hs c vrf now (serverOf t) req = Ok resp ->
  forall now' vrfVerify sigVerify leafVerify audVerify visit k state,
  let r := clientSearch (full f) hs c now' vrfVerify sigVerify leafVerify audVerify visit k state req resp in
  (forall k', r <> Ok k') /\ r <> Fail ErrLabelNotFound.
Proof.
  intros R Hl E0 Ev ES now' vrfVerify sigVerify leafVerify audVerify visit k state r. apply client_other.
  pose proof (absent_index f hs Hf Hhs c vrf Ls HV sign t rs _ R Hl E0) as EI.
  destruct (search_absent _ _ _ _ _ _ _ _ ES EI Ev) as [A B]. now apply check_short.
Qed.

Lemma c92_unsigned t rs req resp now v :
  runs (full f) hs c vrf sign Ls t rs -> In (sq_label req) Ls -> sq_version req = Some v -> v < 2 ^ 32 -> lenN (labelsNow rs (sq_label req)) <= v ->
  pc_mode c = ThirdPartyManagement ->
  serverSearch (full f) hs c vrf now (serverOf t) req = Ok resp ->
  forall now' vrfVerify sigVerify leafVerify audVerify visit k state, (forall tbs, leafVerify tbs [] = false) ->
  let r := clientSearch (full f) hs c now' vrfVerify sigVerify leafVerify audVerify visit k state req resp in
  (forall k', r <> Ok k') /\ r <> Fail ErrLabelNotFound.
Proof.
  intros R Hl Ev Hv E0 Em ES now' vrfVerify sigVerify leafVerify audVerify visit k state Hs r. apply client_other.
  destruct (run_describes f hs Hf Hhs c vrf Ls HV sign valid (fun _ _ H => H) t rs R) as (E & T & Q1 & Q2). destruct (labelsNow_last _ _ Q1) as [A B].
  destruct T as (HD & Hd & HH). pose proof (ds_versions _ _ _ _ _ _ HD (sq_label req) v Hl Hv) as DV. rewrite A in E0.
  rewrite (proj2 (nth_error_None _ _)) in DV by (unfold lenN in E0; lia).
  eapply check_unsigned; eauto. eapply search_unpublished; eauto. cbn [serverOf sv_db]. rewrite Hd. exact DV.
Qed.
End Users.
