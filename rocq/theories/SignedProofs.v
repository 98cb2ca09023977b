(** Proofs for C89. *)
From Verif Require Import Base BaseProofs CodecModel CodecSpec CodecProofs3 LaddersModel AlgModel HandleModel CommitModel ServerModel ClientModel SignedSpec MutateExamples ClientExamples PrefixExamples
  LogTreeSpec.
Open Scope N_scope.
Local Open Scope list_scope.

Section Signed.
Variable H : bytes -> option bytes.
Variable hs : N.
Variable c : pubConfig.
Variable now : N.
Variable vrfVerify : bytes -> bytes -> option bytes.
Variable sigVerify leafVerify audVerify : bytes -> bytes -> bool.
Variable visit : nat -> list (N * N) -> list N.

Lemma value_signed Signed label ver u x : okConfig c -> pc_mode c = ThirdPartyManagement -> operatorSigned c leafVerify Signed -> ver < two32 ->
  verifyUpdateValue c leafVerify label ver u = Ok x -> Signed label ver (uv_value u).
Proof.
  intros Oc Mo OS Hv E. unfold verifyUpdateValue in E. rewrite Mo in E. cbn [negb N.eqb] in E. rewrite N.eqb_refl in E. cbn [negb] in E.
  destruct (updateTBS c label ver (uv_value u)) as [tbs| | |] eqn:Et; try discriminate. cbn [bind] in E.
  destruct (leafVerify _ _) eqn:Lv; [|discriminate]. destruct (OS _ _ Lv) as (l & v & x0 & S & Hv' & Et').
  destruct (updateTBS_inj c c _ _ _ _ _ _ _ Oc Oc Hv Hv' Et Et') as (_ & -> & -> & ->). exact S.
Qed.
Lemma value_unsigned label ver u x : pc_mode c <> ThirdPartyManagement -> verifyUpdateValue c leafVerify label ver u = Ok x -> uv_sig u = None.
Proof.
  intros Mo E. unfold verifyUpdateValue in E. apply N.eqb_neq in Mo. rewrite Mo in E. cbn [negb] in E. destruct (uv_sig u); [discriminate|reflexivity].
Qed.

Lemma search_value k state req resp k' : clientSearch H hs c now vrfVerify sigVerify leafVerify audVerify visit k state req resp = Ok k' ->
  exists v, searchedVersion req resp = Ok v /\ verifyUpdateValue c leafVerify (sq_label req) v (sr_value resp) = Ok tt.
Proof.
  unfold clientSearch, checkSearch. intro E. apply bind_ok in E. destruct E as (r & E & _). apply bind_ok in E. destruct E as (v0 & _ & E).
  apply bind_ok in E. destruct E as (v & Ev & E). apply bind_ok in E. destruct E as ([] & Eu & _). eauto.
Qed.

Lemma values_each label : forall values infos ver coms, valueCommitments H c leafVerify label ver values infos = Ok coms -> List.length values = List.length infos ->
  ver < two32 -> forall i val info, nth_error values i = Some val -> nth_error infos i = Some info ->
  verifyUpdateValue c leafVerify label ((ver + N.of_nat i) mod 2 ^ 32) {| uv_value := val; uv_sig := ui_sig info |} = Ok tt.
Proof.
  induction values as [|x values IH]; intros [|inf infos] ver coms E L Hv i val info Q1 Q2; try discriminate; [destruct i; discriminate|].
  cbn [valueCommitments] in E. apply bind_ok in E. destruct E as ([] & E1 & E). apply bind_ok in E. destruct E as (com & _ & E). apply bind_ok in E. destruct E as (rest & E & _).
  destruct i as [|i].
  - injection Q1 as <-. injection Q2 as <-. rewrite N.add_0_r, N.mod_small by exact Hv. exact E1.
  - cbn in Q1, Q2. specialize (IH infos (w32 (ver + 1)) rest E ltac:(cbn in L; lia) ltac:(unfold w32; apply N.mod_lt; discriminate) i val info Q1 Q2).
    unfold w32, two32 in IH. rewrite N.add_mod_idemp_l in IH by discriminate. replace (ver + N.of_nat (S i)) with (ver + 1 + N.of_nat i) by lia. exact IH.
Qed.

Lemma update_values k sv resp out : streamVerify H hs c now vrfVerify sigVerify leafVerify audVerify k sv resp = Ok out ->
  List.length (updatedValues sv resp) = List.length (ur_info resp) /\ ur_info resp <> [] /\
  forall i val info, nth_error (updatedValues sv resp) i = Some val -> nth_error (ur_info resp) i = Some info ->
  verifyUpdateValue c leafVerify (uq_label (ss_req sv)) ((newVersion sv + N.of_nat i) mod 2 ^ 32) {| uv_value := val; uv_sig := ui_sig info |} = Ok tt.
Proof.
  unfold streamVerify, newVersion. destruct (cl_owner (ss_label sv)) as [o|]; [|discriminate]. intro E. apply bind_ok in E. destruct E as ([start coms] & E & _).
  change (match ur_values resp with [] => uq_values (ss_req sv) | vs => vs end) with (updatedValues sv resp) in E. unfold verifyValues in E.
  destruct (_ || _) eqn:Eo; [discriminate|]. apply orb_false_iff in Eo. destruct Eo as [E0 E1]. apply negb_false_iff, N.eqb_eq in E1. apply N.eqb_neq in E0.
  unfold lenN in *. assert (L : List.length (updatedValues sv resp) = List.length (ur_info resp)) by lia.
  apply bind_ok in E. destruct E as (coms' & E & _). split; [exact L|]. split; [intros Q; rewrite Q in E0; apply E0; reflexivity|].
  apply (values_each _ _ _ _ _ E L). destruct (ownerGreatest o); [unfold w32; apply N.mod_lt; discriminate|reflexivity].
Qed.

Lemma c89_search Signed k state req resp k' : okConfig c -> pc_mode c = ThirdPartyManagement -> operatorSigned c leafVerify Signed ->
  okSearchRequest req -> okSearchResponse c (sq_version req) resp ->
  clientSearch H hs c now vrfVerify sigVerify leafVerify audVerify visit k state req resp = Ok k' ->
  exists v, searchedVersion req resp = Ok v /\ Signed (sq_label req) v (uv_value (sr_value resp)).
Proof.
  intros Oc Mo OS Oq Or E. destruct (search_value _ _ _ _ _ E) as (v & Ev & Eu). exists v. split; [exact Ev|]. eapply value_signed; eauto.
  unfold searchedVersion in Ev. destruct Oq as (_ & Oq). destruct Or as (_ & Or & _). destruct (sq_version req) as [w|]; [injection Ev as <-; exact Oq|].
  destruct (sr_version resp) as [w|]; [injection Ev as <-; exact Or|discriminate].
Qed.

Lemma c89_update Signed k sv resp out : okConfig c -> pc_mode c = ThirdPartyManagement -> operatorSigned c leafVerify Signed ->
  streamVerify H hs c now vrfVerify sigVerify leafVerify audVerify k sv resp = Ok out ->
  updatedValues sv resp <> [] /\
  forall i val, nth_error (updatedValues sv resp) i = Some val -> Signed (uq_label (ss_req sv)) ((newVersion sv + N.of_nat i) mod 2 ^ 32) val.
Proof.
  intros Oc Mo OS E. destruct (update_values _ _ _ _ E) as (L & NE & K). split.
  - intro Q. rewrite Q in L. destruct (ur_info resp); [congruence|discriminate].
  - intros i val Q. destruct (nth_error (ur_info resp) i) as [info|] eqn:Qi.
    + refine (value_signed Signed _ _ {| uv_value := val; uv_sig := ui_sig info |} tt Oc Mo OS _ (K i val info Q Qi)). apply N.mod_lt. discriminate.
    + apply nth_error_None in Qi. rewrite <- L in Qi. apply nth_error_None in Qi. congruence.
Qed.

Lemma c89_unsigned : pc_mode c <> ThirdPartyManagement ->
  (forall k state req resp k', clientSearch H hs c now vrfVerify sigVerify leafVerify audVerify visit k state req resp = Ok k' -> uv_sig (sr_value resp) = None) /\
  (forall k sv resp out, streamVerify H hs c now vrfVerify sigVerify leafVerify audVerify k sv resp = Ok out -> Forall (fun i => ui_sig i = None) (ur_info resp)).
Proof.
  intro Mo. split.
  - intros k state req resp k' E. destruct (search_value _ _ _ _ _ E) as (v & _ & Eu). eapply value_unsigned; eauto.
  - intros k sv resp out E. destruct (update_values _ _ _ _ E) as (L & _ & K). apply Forall_forall. intros info Hi. apply In_nth_error in Hi. destruct Hi as [i Qi].
    destruct (nth_error (updatedValues sv resp) i) as [val|] eqn:Q.
    + specialize (K i val info Q Qi). apply value_unsigned in K; auto.
    + apply nth_error_None in Q. rewrite L in Q. apply nth_error_None in Q. congruence.
Qed.
End Signed.

(** ** An example: the response to a search, with a signed value *)
Definition xcm : pubConfig :=
  {| pc_suite := 1; pc_hs := 32; pc_openSize := 16; pc_vrfSize := 80; pc_mode := ThirdPartyManagement; pc_sigKey := []; pc_vrfKey := []; pc_leafKey := [x10];
     pc_maxAuditorLag := 0; pc_auditorStart := 0; pc_auditorKey := []; pc_maxAhead := 1000; pc_maxBehind := 1000; pc_rmw := 2500; pc_maxLife := 0 |}.
Definition leafTBS : bytes := Eval vm_compute in getOk [] (updateTBS xcm la 2 [x05]).
(** The operator has signed one value. *)
Definition xleaf (tbs s : bytes) : bool := bytes_eqb tbs leafTBS && bytes_eqb s (toy32 leafTBS).
Definition managed : searchResponse := Eval vm_compute in forge {| uv_value := [x05]; uv_sig := Some (toy32 leafTBS) |} r3to3.

Lemma c89_example : okConfig xcm /\ operatorSigned xcm xleaf (fun l v x => (l, v, x) = (la, 2, [x05])) /\
  (exists k', clientSearch (full toy32) 32 xcm 3000 xvv xsv xleaf xsv xvisit emptyClient (Some st3) q3to3 managed = Ok k') /\
  (exists e, clientSearch (full toy32) 32 xcm 3000 xvv xsv xleaf xsv xvisit emptyClient (Some st3) q3to3 (forge (xv x05) r3to3) = Fail e).
Proof.
  split; [repeat split|]. split.
  - intros tbs s E. unfold xleaf in E. apply andb_true_iff in E. destruct E as [E _]. apply bytes_eqb_eq in E. subst tbs.
    exists la, 2, [x05]. split; [reflexivity|]. split; [reflexivity|vm_compute; reflexivity].
  - split.
    + assert (Q : (match clientSearch (full toy32) 32 xcm 3000 xvv xsv xleaf xsv xvisit emptyClient (Some st3) q3to3 managed with Ok _ => true | _ => false end) = true) by (vm_compute; reflexivity).
      destruct (clientSearch _ _ _ _ _ _ _ _ _ _ _ _ _) as [k'| | |]; try discriminate. eauto.
    + assert (Q : (match clientSearch (full toy32) 32 xcm 3000 xvv xsv xleaf xsv xvisit emptyClient (Some st3) q3to3 (forge (xv x05) r3to3) with Fail _ => true | _ => false end) = true) by (vm_compute; reflexivity).
      destruct (clientSearch _ _ _ _ _ _ _ _ _ _ _ _ _) as [k'|e| |]; try discriminate. eauto.
Qed.
