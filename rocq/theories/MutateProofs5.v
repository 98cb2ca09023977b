(** Proofs about mutations: sequences of them. *)
From Coq Require Import Permutation Sorted.
From Verif Require Import Base BaseProofs NodeMathProofs LogMathModel LogMathSpec LogTreeModel LogTreeSpec LogTreeProofs LogTreeProofs3 LogChunkModel LogChunkProofs7
  PrefixModel PrefixSpec PrefixProofs PrefixBuildProofs PrefixVerifyProofs3 PrefixHistProofs PrefixStoreProofs CodecModel CodecSpec CodecProofs CodecProofs2
  TransMathSpec AlgModel AlgSpec HandleModel HandleSpec StoreModel StoreProofs CommitModel MutateModel MutateSpec MutateProofs MutateProofs2 MutateProofs3 MutateProofs4.
Open Scope N_scope.
Local Open Scope list_scope.

Lemma calm_mbind {A B} (m : M A) (k : A -> M B) s : calm (fst (m s)) -> (forall a s', calm (fst (k a s'))) -> calm (fst (mbind m k s)).
Proof. unfold mbind. destruct (m s) as [r s']. cbn [fst]. destruct r; intros C K; cbn; auto. Qed.
Lemma calm_bind' {A B} (x : res A) (k : A -> res B) : calm x -> (forall a, calm (k a)) -> calm (bind x k).
Proof. intros C K. apply calm_bind; auto. Qed.

Lemma writeBytes_calm k b : calm (writeBytes k b).
Proof. unfold writeBytes. destruct (_ <? _); exact I. Qed.
Lemma updateValue_calm u : calm (updateValueMarshal u).
Proof. unfold updateValueMarshal. repeat first [apply calm_bind'; [|intros]|apply writeBytes_calm|exact I|destruct (uv_sig _)]. Qed.
Lemma vrfInput_calm l v : calm (vrfInput l v).
Proof. unfold vrfInput. apply calm_bind'; [apply writeBytes_calm|intros; exact I]. Qed.
Lemma suffix_calm x : calm (updateSuffixMarshal x).
Proof. unfold updateSuffixMarshal. destruct x; [apply writeBytes_calm|exact I]. Qed.
Lemma hash_calm H x : calm (hash H x).
Proof. unfold hash. destruct (H x); exact I. Qed.
Lemma commitment_calm H o l v u : calm (labelCommitment H o l v u).
Proof.
  unfold labelCommitment. repeat first [apply calm_bind'; [|intros]|apply writeBytes_calm|apply updateValue_calm|apply suffix_calm|apply hash_calm|exact I].
Qed.
Lemma encodeIndex_calm ix : calm (encodeIndex ix).
Proof.
  unfold encodeIndex. destruct ix as [|x t]; [exact I|]. apply calm_bind'; [|intros; exact I].
  induction t as [|y t IH] in x |- *; cbn [delta]; [exact I|]. apply calm_bind'; [apply IH|]. intro d. destruct (_ <? _); exact I.
Qed.
Lemma mutateLabels_calm H vrf opening n d muts : forall s, calm (fst (mutateLabels H vrf opening n d muts s)).
Proof.
  assert (CV : forall l v, calm (computeVrfOutput vrf l v)) by (intros; unfold computeVrfOutput; apply calm_bind'; [apply vrfInput_calm|intros; exact I]).
  induction muts as [|mu t IH]; intro s; [exact I|]. cbn [mutateLabels]. apply calm_mbind.
  2: { intros [a r] s'. apply calm_mbind; [apply IH|]. intros [a' r'] s2. exact I. }
  unfold mutateLabel. apply calm_mbind.
  { destruct (_ && _); [|exact I]. destruct (match d with None => _ | Some _ => _ end); [exact I|]. apply calm_mbind; [exact I|]. intros _ s'.
    generalize 0. induction (lm_index mu) as [|x ix IHx] in s' |- *; intro v; cbn [removeVersions]; [exact I|].
    apply calm_mbind; [exact I|]. intros _ s2. apply calm_mbind; [apply CV|]. intros o s3. apply calm_mbind; [apply IHx|]. intros; exact I. }
  intros rem s'. apply calm_mbind.
  { generalize (if lm_remove mu && negb (lenN (lm_index mu) =? 0) then [] else lm_index mu). generalize (lm_add mu).
    intro adds. induction adds as [|lv adds IHa] in s' |- *; intro ix; cbn [addVersions]; [exact I|].
    apply calm_mbind; [apply CV|]. intros o s2. apply calm_mbind.
    - unfold putVersion. apply calm_mbind; [unfold openingAndValueMarshal; apply calm_bind'; [apply updateValue_calm|intros; exact I]|]. intros raw s3.
      apply calm_mbind; [exact I|]. intros _ s4. apply commitment_calm.
    - intros com s3. apply calm_mbind; [apply IHa|]. intros [a b] s4. exact I. }
  intros [added ix] s2. apply calm_mbind; [|intros; exact I].
  destruct (lm_add mu); [exact I|]. unfold putIndexM. apply calm_mbind; [apply encodeIndex_calm|]. intros v s3. apply calm_mbind; [|intros; exact I].
  unfold notNil. destruct v; exact I.
Qed.

Section Whole.
Variable f : bytes -> bytes.
Variable hs : N.
Hypothesis Hf : forall x, lenN (f x) = hs.
Hypothesis Hhs : 0 < hs <= 32.
Variable c : pubConfig.
Variable vrf : bytes -> bytes * bytes.
Variable Ls : list bytes.
Hypothesis HV : vrfGood hs vrf Ls.
Variable sign : bytes -> res bytes.
Variable valid : bytes -> bytes -> Prop.
Hypothesis Hsign : forall tbs sig, sign tbs = Ok sig -> valid tbs sig.

Lemma commitment_size o l v u b : labelCommitment (full f) o l v u = Ok b -> List.length b = N.to_nat hs.
Proof.
  unfold labelCommitment. destruct (commitmentValue l v u) as [cv|?|?|]; cbn [bind]; try discriminate. unfold Commit, hmac, hash, full. cbn [bind]. intros [= <-].
  match goal with |- List.length (f ?x) = _ => specialize (Hf x) end. unfold lenN in Hf. lia.
Qed.

Definition doMutate (r : request) (t : tree) := Mutate (full f) hs c vrf sign (rq_opening r) (rq_order r) (rq_now r) t (rq_add r) (rq_remove r).

Lemma head_size t E : treeOf f hs vrf Ls c valid t E -> match t_head t with Some h => th_size h | None => 0 end = lenN E.
Proof. intros (_ & _ & A). destruct (t_head t) as [h|]; [tauto|]. destruct A as [-> _]. reflexivity. Qed.

Lemma mutate_sound t E r au t' : treeOf f hs vrf Ls c valid t E -> moderate Ls (lenN E) (current E) r -> effective (current E) (rq_add r) (rq_remove r) ->
  doMutate r t = (Ok au, t') ->
  (forall e, nth_error (entriesOf E) (List.length E - 1) = Some e -> le_ts e <= rq_now r) /\
  (forall l, In l (rq_remove r) -> current E l <> [] -> removable c E (rq_now r) l) /\
  exists root, treeOf f hs vrf Ls c valid t' (E ++ [{| ep_entry := {| le_ts := rq_now r; le_root := root |}; ep_labels := publishes (lenN E) (current E) r |}]).
Proof.
  intros T (HO & HLs & Hnow & Hsize & Hc & Hb) Heff R. unfold doMutate, Mutate in R. rewrite (head_size _ _ T) in R. destruct T as (HD & _).
  destruct (mutateM (full f) hs c vrf sign (rq_opening r) (rq_order r) (rq_now r) (lenN E) (rq_add r) (rq_remove r) (pending (t_tx t))) as [[[au' th]| | |] s'] eqn:RM; try discriminate.
  injection R as <- <-.
  destruct (step_sound f hs Hf Hhs c vrf Ls HV sign valid Hsign (rq_opening r) _ _ HD _ _ Hnow _ _ HO HLs Hsize Hc Hb Heff _ _ _ RM) as (A & B & root & D & S1 & S2 & S3 & _).
  split; [exact A|]. split; [exact B|]. exists root. unfold treeOf. cbn [t_tx t_head pending durable].
  split; [exact D|]. split; [reflexivity|]. split; [exact S1|]. split; [|split; [exact S2|exact S3]]. intro Q. apply app_eq_nil in Q. destruct Q; discriminate.
Qed.

Lemma mutate_progress t E r : treeOf f hs vrf Ls c valid t E -> moderate Ls (lenN E) (current E) r -> effective (current E) (rq_add r) (rq_remove r) ->
  Forall (fun p => okValue (snd p)) (rq_add r) -> (forall tbs, exists sg, sign tbs = Ok sg /\ lenN sg < 2 ^ 16) -> (exists raw, pubConfigMarshal c = Ok raw) ->
  (forall e, nth_error (entriesOf E) (List.length E - 1) = Some e -> le_ts e <= rq_now r) ->
  (forall l, In l (rq_remove r) -> current E l <> [] -> removable c E (rq_now r) l) ->
  exists au t', doMutate r t = (Ok au, t').
Proof.
  intros T (HO & HLs & Hnow & Hsize & Hc & Hb) Heff Fv Hw Hconf Late Rem. unfold doMutate, Mutate. rewrite (head_size _ _ T). destruct T as (HD & _).
  destruct (step_progress f hs Hf Hhs c vrf Ls HV sign valid Hsign (rq_opening r) _ _ HD _ _ Hnow _ _ HO HLs Hsize Hc Hb Heff Fv Hw Hconf Late Rem) as (au & th & s' & ->). eauto.
Qed.

Lemma mutate_refuses t E r l : treeOf f hs vrf Ls c valid t E -> moderate Ls (lenN E) (current E) r -> 
  In l (rq_remove r) -> current E l <> [] -> ~ removable c E (rq_now r) l ->
  exists m t', doMutate r t = (Fail m, t').
Proof.
  intros T (HO & HLs & Hnow & Hsize & Hc & Hb) Il NE NR. 
  assert (Heff : effective (current E) (rq_add r) (rq_remove r)) by (right; eauto).
  unfold doMutate, Mutate. rewrite (head_size _ _ T). destruct T as (HD & _).
  assert (K : exists m s', mutateM (full f) hs c vrf sign (rq_opening r) (rq_order r) (rq_now r) (lenN E) (rq_add r) (rq_remove r) (pending (t_tx t)) = (Fail m, s')).
  { unfold mutateM. destruct (choose_cases f hs Hhs c vrf Ls _ _ HD (rq_order r) _ Hnow (rq_add r) (rq_remove r) Hsize Hb) as [(e & _ & _ & msg & Q)|(Late & o' & Q & G)].
    - unfold mbind. rewrite Q. eauto.
    - erewrite mbind_eq by (rewrite Q; reflexivity).
      rewrite (mbind_eq _ _ _ _ _ (group_ok (rq_order r) (rq_add r) (rq_remove r) (current E) (pending (t_tx t)) ltac:(intros l' I; apply (ds_index _ _ _ _ _ _ HD); auto))).
      match goal with |- context [mbind ?m ?k ?s] => destruct (m s) as [ar s1] eqn:R1 end.
      pose proof (mutateLabels_calm (full f) vrf (rq_opening r) (lenN E) o' (map (mutFor (rq_add r) (rq_remove r) (current E)) (rq_order r)) (pending (t_tx t))) as C.
      rewrite R1 in C. cbn [fst] in C. destruct ar as [[a rr]|m|m|]; cbn in C; try contradiction.
      + exfalso. apply NR. destruct HO as [ND HO'].
        destruct (labels_ok f vrf (rq_opening r) (lenN E) o' (rq_add r) (rq_remove r) (current E) ltac:(lia) (rq_order r) _ a rr s1 ND
          (cur_fine f hs vrf Ls (rq_opening r) _ _ HD (rq_order r) (rq_add r) (rq_remove r) HLs Hc) R1) as (Rem & _).
        destruct (Rem l (proj2 (HO' l) (or_intror Il)) Il NE) as (x & -> & Fx). destruct G as [G _]. exists x. auto.
      + unfold mbind at 1. rewrite R1. eauto. }
  destruct K as (m & s' & ->). eauto.
Qed.

Lemma new_tree t : NewTree emptyContents = Ok t -> treeOf f hs vrf Ls c valid t [].
Proof.
  cbn. intros [= <-]. split; [|split; [reflexivity|cbn; auto]]. cbn [pending t_tx]. constructor; cbn.
  - reflexivity.
  - intros x e. destruct (N.to_nat x); discriminate.
  - intros i j e e' _. destruct i; discriminate.
  - exists [], []. split; constructor.
  - exists [(emptyMap, repeat Byte.x00 (N.to_nat hs))]. split; [constructor|]. split; [reflexivity|]. intros i ep. destruct i; discriminate.
  - reflexivity.
  - intros l _. repeat split; constructor.
  - intros l v _ _. destruct (N.to_nat v); reflexivity.
Qed.

Lemma reopen_same t E t' : treeOf f hs vrf Ls c valid t E -> NewTree (durable (t_tx t)) = Ok t' -> t' = t.
Proof.
  intros (HD & Hd & Hh). rewrite Hd. unfold NewTree. destruct t as [[p d] hd]. cbn in *. subst d. destruct hd as [h|].
  - destruct Hh as (Hsz & _ & _ & raw & Em & ->). 
    pose proof (proj1 codec_treeHead h raw [] ) as K. rewrite app_nil_r in K. rewrite K; [|unfold okTreeHead, u64ok; rewrite Hsz; pose proof (ds_size _ _ _ _ _ _ HD) as Z; unfold two64; change (2 ^ 64) with 18446744073709551616; change (2 ^ 63) with 9223372036854775808 in Z; lia|exact Em].
    cbn. congruence.
  - destruct Hh as [_ ->]. cbn. congruence.
Qed.

Lemma failed_durable r t m t1 : doMutate r t = (Fail m, t1) -> durable (t_tx t1) = durable (t_tx t) /\ t_head t1 = t_head t.
Proof.
  unfold doMutate, Mutate. destruct (mutateM _ _ _ _ _ _ _ _ _ _ _ _) as [[[au th]| | |] s']; intro Q; try discriminate. injection Q as _ <-. auto.
Qed.

Lemma last_cons {A} (l : list A) : forall x d, List.last (x :: l) d = List.last l x.
Proof. induction l as [|y l IH]; intros x d; [reflexivity|]. transitivity (List.last (y :: l) d); [reflexivity|]. rewrite !IH. reflexivity. Qed.

Lemma labelsAfter_app rs r : forall n cur, labelsAfter n cur (rs ++ [r]) = labelsAfter n cur rs ++ [publishes (n + lenN rs) (List.last (labelsAfter n cur rs) cur) r].
Proof.
  induction rs as [|r0 rs IH]; intros n cur.
  - cbn. now rewrite N.add_0_r.
  - cbn [app labelsAfter]. rewrite IH. cbn [app]. rewrite last_cons.
    replace (n + 1 + lenN rs) with (n + lenN (r0 :: rs)) by (unfold lenN; cbn [List.length]; lia). reflexivity.
Qed.

Lemma labelsNow_last E rs : map ep_labels E = labelsAfter 0 noLabels rs -> labelsNow rs = current E /\ lenN rs = lenN E.
Proof.
  intro Q. split; [unfold labelsNow, current; now rewrite Q|].
  apply (f_equal (@List.length _)) in Q. rewrite map_length in Q. unfold lenN. rewrite Q. f_equal. clear. generalize 0 noLabels.
  induction rs as [|r rs IH]; intros; cbn; [reflexivity|]. f_equal. apply IH.
Qed.

Lemma run_describes t rs : runs (full f) hs c vrf sign Ls t rs -> exists E, treeOf f hs vrf Ls c valid t E /\
  map ep_labels E = labelsAfter 0 noLabels rs /\ map le_ts (entriesOf E) = map rq_now rs.
Proof.
  induction 1 as [t N0|t rs r au t' R (E & T & Q1 & Q2) Hm He Rm|t rs t' R (E & T & Q) Ho|t rs r m t1 t' R (E & T & Q) Hm Ho].
  - exists []. split; [apply new_tree; exact N0|]. split; reflexivity.
  - destruct (labelsNow_last _ _ Q1) as [A B]. rewrite A, B in *.
    destruct (mutate_sound _ _ _ _ _ T Hm He Rm) as (_ & _ & root & T'). eexists. split; [exact T'|]. split.
    + rewrite map_app, labelsAfter_app, Q1. cbn [map ep_labels]. rewrite N.add_0_l, B. unfold labelsNow in A. rewrite A. reflexivity.
    + unfold entriesOf in *. rewrite !map_app, Q2. reflexivity.
  - apply (reopen_same _ _ _ T) in Ho. subst t'. eauto.
  - destruct (failed_durable r t m t1 Hm) as [Q1 _]. rewrite Q1 in Ho. apply (reopen_same _ _ _ T) in Ho. subst t'. eauto.
Qed.


Lemma filter_sorted x L : StronglySorted N.le (map pv_pos L) ->
  filter (fun p => pv_pos p <=? x) L = firstn (countLe x (map pv_pos L)) L.
Proof.
  unfold countLe. induction L as [|p L IH]; intro S; [reflexivity|]. cbn [map] in S. inversion S as [|? ? S' F]; subst. cbn [map filter].
  destruct (N.leb_spec (pv_pos p) x) as [A|A].
  - cbn [List.length firstn]. f_equal. apply IH; exact S'.
  - assert (Z : filter (fun p => p <=? x) (map pv_pos L) = []).
    { clear -F A. induction L as [|q L IH]; [reflexivity|]. cbn [map] in *. inversion F; subst. cbn [filter]. destruct (N.leb_spec (pv_pos q) x); [lia|]. apply IH. assumption. }
    rewrite Z. cbn [List.length firstn]. clear -F A. induction L as [|q L IH]; [reflexivity|]. cbn [map] in *. inversion F; subst. cbn [filter].
    destruct (N.leb_spec (pv_pos q) x); [lia|]. apply IH. assumption.
Qed.

Lemma countLe_mono x y L : x <= y -> (countLe x L <= countLe y L)%nat.
Proof.
  intro Hxy. unfold countLe. induction L as [|p L IH]; [cbn; lia|]. cbn [filter]. destruct (N.leb_spec p x), (N.leb_spec p y); cbn [List.length]; lia.
Qed.
Lemma countLe_len x L : (countLe x L <= List.length L)%nat.
Proof. unfold countLe. induction L as [|p L IH]; [cbn; lia|]. cbn [filter]. destruct (_ <=? _); cbn [List.length]; lia. Qed.

Lemma entryAt_nth s E l x : x < lenN E -> nth_error (entriesOf E) (N.to_nat x) = Some (entryAt (worldOf f hs vrf s E l) x).
Proof.
  intro Hx. unfold entryAt, worldOf. cbn [w_entries]. destruct (nth_error (entriesOf E) (N.to_nat x)) eqn:Q; [reflexivity|].
  apply nth_error_None in Q. unfold entriesOf in Q. rewrite map_length in Q. unfold lenN in Hx. lia.
Qed.

Lemma world_faithful s E l : describes f hs vrf Ls s E -> E <> [] -> In l Ls -> neverRemoved E l -> lenN (current E l) < 2 ^ 31 ->
  faithful f hs (worldOf f hs vrf s E l).
Proof.
  intros HD NE Hl NR Hb. pose proof (ds_size _ _ _ _ _ _ HD) as Sz. pose proof (ds_positions _ _ _ _ _ _ HD l Hl) as (PS & PF & PC).
  assert (Ln : lenN (entriesOf E) = lenN E) by (unfold lenN, entriesOf; now rewrite map_length).
  assert (N1 : 1 <= lenN E) by (destruct E; [contradiction|unfold lenN; cbn [List.length]; lia]).
  change (2 ^ 63) with 9223372036854775808 in *. change (2 ^ 31) with 2147483648 in *.
  unfold faithful. split; [|split; [|split; [|split; [|split; [|split; [|split; [|split]]]]]]].
  - unfold okLog, observed. cbn [h_n h_ts h_g w_entries worldOf w_index]. fold (worldOf f hs vrf s E l). rewrite Ln. split; [|split; [|split; [|split]]].
    + change (2 ^ 64) with 18446744073709551616. lia.
    + intros x y Hxy. eapply (ds_sorted _ _ _ _ _ _ HD (N.to_nat x) (N.to_nat y)); [lia|apply (entryAt_nth s E l); lia|apply (entryAt_nth s E l); lia].
    + intros x Hx. destruct (ds_entries _ _ _ _ _ _ HD x _ (entryAt_nth s E l x Hx)) as (_ & A & _). exact A.
    + intros x y Hxy. pose proof (countLe_mono x y (map pv_pos (current E l)) ltac:(lia)). lia.
    + intros x Hx. pose proof (countLe_len x (map pv_pos (current E l))) as K. rewrite map_length in K. unfold lenN in Hb. lia.
  - cbn [w_entries worldOf]. rewrite Ln. lia.
  - exact PS.
  - intros e I. cbn [w_entries worldOf] in I. apply In_nth_error in I. destruct I as [i I].
    destruct (ds_entries _ _ _ _ _ _ HD (N.of_nat i) e) as (A & _); [now rewrite Nat2N.id|exact A].
  - intros x Hx. cbn [w_entries worldOf] in Hx. rewrite Ln in Hx. destruct (ds_entries _ _ _ _ _ _ HD x _ (entryAt_nth s E l x Hx)) as (_ & _ & A). exact A.
  - exact (ds_log _ _ _ _ _ _ HD).
  - destruct (ds_prefix _ _ _ _ _ _ HD) as (vs & Hh & Lv & Hv). exists vs. split; [exact Hh|]. intros x Hx. cbn [w_entries worldOf] in Hx. rewrite Ln in Hx.
    destruct (nth_error E (N.to_nat x)) as [ep|] eqn:Ee; [|apply nth_error_None in Ee; unfold lenN in Hx; lia].
    destruct (Hv _ _ Ee) as (m & Em & Mf). exists m. split.
    { rewrite Em. do 2 f_equal. pose proof (entryAt_nth s E l x Hx) as Q. unfold entriesOf in Q. rewrite (map_nth_error ep_entry _ _ Ee) in Q. injection Q as ->. reflexivity. }
    intros v Hv32. cbn [w_key worldOf w_com]. unfold observed. cbn [h_g w_index]. rewrite (proj2 (N.ltb_lt v (2 ^ 32))) by exact Hv32. rewrite (Mf l v Hl Hv32).
    rewrite (NR _ _ Ee), N2Nat.id, filter_sorted by exact PS.
    change (w_index (worldOf f hs vrf s E l)) with (map pv_pos (current E l)). set (k := countLe x (map pv_pos (current E l))).
    assert (Kl : (k <= List.length (current E l))%nat) by (unfold k; rewrite <- (map_length pv_pos); apply countLe_len).
    destruct (Z.leb_spec (Z.of_N v) (Z.of_nat k - 1)) as [A|A].
    + assert (Q : nth_error (firstn k (current E l)) (N.to_nat v) = nth_error (current E l) (N.to_nat v)).
      { rewrite <- (firstn_skipn k (current E l)) at 2. rewrite nth_error_app1; [reflexivity|]. rewrite firstn_length. lia. }
      rewrite Q. destruct (nth_error (current E l) (N.to_nat v)) eqn:Q2; [reflexivity|]. apply nth_error_None in Q2. lia.
    + rewrite (proj2 (nth_error_None _ _)); [reflexivity|]. rewrite firstn_length. lia.
  - intro v. cbn [w_key worldOf w_com]. split.
    + destruct (N.ltb_spec v (2 ^ 32)) as [A|A]; [|apply repeat_length]. destruct HV as (_ & K & _). apply K; assumption.
    + destruct (nth_error (current E l) (N.to_nat v)) as [p|] eqn:Q; [|apply repeat_length].
      assert (Hv : v < 2 ^ 32).
      { assert (N.to_nat v < List.length (current E l))%nat by (apply nth_error_Some; congruence). unfold lenN in Hb. change (2 ^ 32) with 4294967296. lia. }
      pose proof (ds_versions _ _ _ _ _ _ HD l v Hl Hv) as K. rewrite Q in K. destruct K as (_ & _ & _ & K). eapply commitment_size; eauto.
  - intros v v' Hv Hv'. cbn [w_key worldOf]. rewrite (proj2 (N.ltb_lt v _)), (proj2 (N.ltb_lt v' _)) by assumption.
    destruct HV as (_ & _ & K). intro Q. apply (K l v l v' Hl Hl Hv Hv' Q).
Qed.

Lemma nextVersions_pos opening n l values : forall v, Forall (fun p => pv_pos p = n) (nextVersions opening n l v values).
Proof. induction values as [|x t IH]; intro v; cbn [nextVersions]; constructor; [reflexivity|apply IH]. Qed.

Lemma filter_all {A} (g : A -> bool) L : Forall (fun x => g x = true) L -> filter g L = L.
Proof. induction 1 as [|x L E _ IH]; [reflexivity|]. cbn. rewrite E. now f_equal. Qed.
Lemma filter_none {A} (g : A -> bool) L : Forall (fun x => g x = false) L -> filter g L = [].
Proof. induction 1 as [|x L E _ IH]; [reflexivity|]. cbn. now rewrite E. Qed.
Lemma labelsAfter_len rs : forall n cur, List.length (labelsAfter n cur rs) = List.length rs.
Proof. induction rs as [|r rs IH]; intros; cbn; [reflexivity|]. f_equal. apply IH. Qed.

Lemma not_removed l rs : Forall (fun r => ~ In l (rq_remove r)) rs ->
  Forall (fun p => pv_pos p < lenN rs) (labelsNow rs l) /\
  forall i P, nth_error (labelsAfter 0 noLabels rs) i = Some P -> P l = filter (fun p => pv_pos p <=? N.of_nat i) (labelsNow rs l).
Proof.
  induction rs as [|r rs IH] using rev_ind; intro F.
  - split; [constructor|]. intros i P. destruct i; discriminate.
  - apply Forall_app in F. destruct F as [F Fr]. apply Forall_inv in Fr. destruct (IH F) as [A B]. unfold labelsNow at 1 2. rewrite labelsAfter_app, last_last, N.add_0_l.
    fold (labelsNow rs). 
    assert (Q : publishes (lenN rs) (labelsNow rs) r l = labelsNow rs l ++ nextVersions (rq_opening r) (lenN rs) l (lenN (labelsNow rs l)) (valuesFor (rq_add r) l)).
    { unfold publishes, publish, kept. destruct (existsb (bytes_eqb l) (rq_remove r)) eqn:X; [|reflexivity].
      exfalso. apply Fr. apply existsb_exists in X. destruct X as (y & Iy & Ey). apply bytes_eqb_eq in Ey. now subst. }
    pose proof (nextVersions_pos (rq_opening r) (lenN rs) l (valuesFor (rq_add r) l) (lenN (labelsNow rs l))) as NP.
    rewrite Q. split.
    + apply Forall_app. rewrite lenN_snoc. split; [eapply Forall_impl; [|exact A]; cbn beta; intros; lia|eapply Forall_impl; [|exact NP]; cbn beta; intros; lia].
    + intros i P Ei. rewrite filter_app. apply nth_snoc in Ei. destruct Ei as [Ei|[-> ->]].
      * assert (Li : (i < List.length rs)%nat) by (rewrite <- (labelsAfter_len rs 0 noLabels); apply nth_error_Some; congruence).
        rewrite (filter_none _ (nextVersions _ _ _ _ _)); [rewrite app_nil_r; apply B; exact Ei|].
        eapply Forall_impl; [|exact NP]. cbn beta. intros p ->. apply N.leb_gt. unfold lenN. lia.
      * rewrite labelsAfter_len, Q. rewrite !filter_all; [reflexivity| |].
        -- eapply Forall_impl; [|exact NP]. cbn beta. intros p ->. apply N.leb_le. unfold lenN. lia.
        -- eapply Forall_impl; [|exact A]. cbn beta. intros p Hp. apply N.leb_le. unfold lenN in Hp. lia.
Qed.

Lemma run_not_removed l rs E : Forall (fun r => ~ In l (rq_remove r)) rs -> map ep_labels E = labelsAfter 0 noLabels rs -> neverRemoved E l.
Proof.
  intros F Q i ep Ei. destruct (not_removed l rs F) as [_ B]. destruct (labelsNow_last _ _ Q) as [<- _]. apply B. rewrite <- Q. now apply map_nth_error.
Qed.

(** ** C68 *)
Lemma committed t E l v : treeOf f hs vrf Ls c valid t E -> E <> [] -> In l Ls -> v < 2 ^ 32 ->
  exists raw e proof com, mget (x_entries (durable (t_tx t))) (lenN E - 1) = Some raw /\ newLogEntry (N.to_nat hs) raw = Ok (e, []) /\
    nth_error (entriesOf E) (List.length E - 1) = Some e /\
    search (full f) (N.to_nat hs) (x_prefix (durable (t_tx t))) (lenN E) [keyOf vrf l v] = Ok (proof, [com]) /\
    Evaluate (full f) (N.to_nat hs) [(keyOf vrf l v, match com with Some b => b | None => [] end)] proof = Ok (le_root e) /\
    match nth_error (current E l) (N.to_nat v) with
    | Some p => (exists b, com = Some b /\ labelCommitment (full f) (pv_opening p) l v (pv_value p) = Ok b) /\
        (okOpeningAndValue c {| ov_opening := pv_opening p; ov_value := pv_value p |} ->
         getVersion c (durable (t_tx t)) l v = Ok {| ov_opening := pv_opening p; ov_value := pv_value p |})
    | None => com = None
    end.
Proof.
  intros (HD & Hd & _) NE Hl Hv. rewrite Hd. destruct (exists_last NE) as (E0 & ep & EE). rewrite EE in *. clear EE E NE. rename E0 into E.
  assert (L1 : lenN (E ++ [ep]) - 1 = lenN E) by (rewrite lenN_snoc; lia).
  assert (L2 : (List.length (E ++ [ep]) - 1 = List.length E)%nat) by (rewrite app_length; cbn; lia).
  rewrite L1, L2.
  assert (En : nth_error (entriesOf (E ++ [ep])) (List.length E) = Some (ep_entry ep)).
  { rewrite entriesOf_app. unfold entriesOf. rewrite nth_error_app2; rewrite map_length; [|lia]. now rewrite Nat.sub_diag. }
  destruct (ds_entries _ _ _ _ _ _ HD (lenN E) (ep_entry ep)) as (Lr & Lt & raw & Mr & Gr); [unfold lenN; rewrite Nat2N.id; exact En|].
  destruct (ds_prefix _ _ _ _ _ _ HD) as (vs & Hh & Lv & Hvs).
  destruct (Hvs (List.length E) ep) as (m & Em & Mf); [rewrite nth_error_app2, Nat.sub_diag by lia; reflexivity|].
  assert (HfL : forall x, List.length (f x) = N.to_nat hs) by (intro x; specialize (Hf x); unfold lenN in Hf; lia).
  assert (HsL : (N.to_nat hs <= 32)%nat) by lia.
  assert (KL : List.length (keyOf vrf l v) = N.to_nat hs) by (destruct HV as (_ & K & _); auto).
  destruct (hist_search f (N.to_nat hs) HfL HsL (x_prefix (pending (t_tx t))) vs (lenN (E ++ [ep])) m (le_root (ep_entry ep)) [keyOf vrf l v] Hh) as (proof & Sr & _ & Ev).
  { rewrite lenN_snoc. unfold lenN. replace (N.to_nat (N.of_nat (List.length E) + 1)) with (S (List.length E)) by lia. exact Em. }
  { rewrite lenN_snoc. lia. }
  { discriminate. }
  { constructor; [exact KL|constructor]. }
  exists raw, (ep_entry ep), proof, (m (keyOf vrf l v)). split; [exact Gr|]. split.
  { rewrite <- (app_nil_r raw). apply (proj1 (codec_logEntry (N.to_nat hs))); [split; [exact Lt|exact Lr]|exact Mr]. }
  split; [exact En|]. split; [exact Sr|]. split.
  { apply Ev; [reflexivity|repeat constructor; intros []|]. constructor; [|constructor]. cbn [fst snd]. destruct (m (keyOf vrf l v)); [reflexivity|now left]. }
  rewrite (Mf l v Hl Hv). rewrite current_app. pose proof (ds_versions _ _ _ _ _ _ HD l v Hl Hv) as DV. rewrite current_app in DV.
  destruct (nth_error (ep_labels ep l) (N.to_nat v)) as [p|]; [|reflexivity]. cbn [option_map]. destruct DV as (raw2 & M2 & G2 & C2). split; [eauto|].
  intro Ok2. unfold getVersion. rewrite G2. pose proof (proj1 (codec_openingAndValue c) _ raw2 [] Ok2 M2) as K. rewrite app_nil_r in K. rewrite K. reflexivity.
Qed.

End Whole.
