(** Proofs about mutations: the statements of MutateProperties.v. *)
From Coq Require Import Sorted.
From Verif Require Import Base BaseProofs LogMathSpec LogTreeModel LogTreeSpec PrefixModel PrefixSpec PrefixExamples CodecModel CodecSpec AlgModel AlgSpec HandleModel HandleSpec HandleProofs7
  StoreModel CommitModel MutateModel MutateSpec MutateProofs4 MutateProofs5 MutateProofs6 MutateExamples.
Open Scope N_scope.
Local Open Scope list_scope.

Section Main.
Variable f : bytes -> bytes.
Variable hs : N.
Variable c : pubConfig.
Variable vrf : bytes -> bytes * bytes.
Variable Ls : list bytes.
Variable sign : bytes -> res bytes.
Variable valid : bytes -> bytes -> Prop.
Hypothesis Hf : forall x, lenN (f x) = hs.
Hypothesis Hhs : 0 < hs <= 32.
Hypothesis HV : vrfGood hs vrf Ls.
Hypothesis Hsign : forall tbs sg, sign tbs = Ok sg -> valid tbs sg.

Lemma c42_histories t rs : runs (full f) hs c vrf sign Ls t rs ->
  (exists E, treeOf f hs vrf Ls c valid t E /\ map ep_labels E = labelsAfter 0 noLabels rs /\ map le_ts (entriesOf E) = map rq_now rs) /\
  forall l, In l Ls ->
    decodeIndex (bget (x_index (durable (t_tx t))) l) = Ok (map pv_pos (labelsNow rs l)) /\
    forall v p, v < 2 ^ 32 -> nth_error (labelsNow rs l) (N.to_nat v) = Some p -> okOpeningAndValue c {| ov_opening := pv_opening p; ov_value := pv_value p |} ->
      getVersion c (durable (t_tx t)) l v = Ok {| ov_opening := pv_opening p; ov_value := pv_value p |}.
Proof.
  intro R. destruct (run_describes f hs Hf Hhs c vrf Ls HV sign valid Hsign t rs R) as (E & T & Q1 & Q2). split; [eauto|].
  intros l Hl. destruct (labelsNow_last _ _ Q1) as [-> _]. split.
  - destruct T as (HD & -> & _). apply (ds_index _ _ _ _ _ _ HD l Hl).
  - intros v p Hv Np Okp. destruct (list_eq_dec_nil E) as [->|NE].
    + cbn in Np. destruct (N.to_nat v); discriminate.
    + destruct (committed f hs Hf Hhs c vrf Ls HV sign valid Hsign t E l v T NE Hl Hv) as (raw & e & proof & com & _ & _ & _ & _ & _ & K). rewrite Np in K. apply (proj2 K Okp).
Qed.

Lemma c42_mutation t E r au t' : treeOf f hs vrf Ls c valid t E -> moderate Ls (lenN E) (current E) r -> effective (current E) (rq_add r) (rq_remove r) ->
  Mutate (full f) hs c vrf sign (rq_opening r) (rq_order r) (rq_now r) t (rq_add r) (rq_remove r) = (Ok au, t') ->
  exists root, treeOf f hs vrf Ls c valid t'
    (E ++ [{| ep_entry := {| le_ts := rq_now r; le_root := root |}; ep_labels := publish (rq_opening r) (lenN E) (rq_add r) (rq_remove r) (current E) |}]).
Proof. intros T Hm He R. apply (mutate_sound f hs Hf Hhs c vrf Ls HV sign valid Hsign t E r au t' T Hm He R). Qed.

Lemma c43_removal t E r : treeOf f hs vrf Ls c valid t E -> moderate Ls (lenN E) (current E) r ->
  let result := fst (Mutate (full f) hs c vrf sign (rq_opening r) (rq_order r) (rq_now r) t (rq_add r) (rq_remove r)) in
  ((exists l, In l (rq_remove r) /\ current E l <> [] /\ ~ removable c E (rq_now r) l) -> exists m, result = Fail m) /\
  ((forall l, In l (rq_remove r) -> current E l <> [] -> removable c E (rq_now r) l) ->
   effective (current E) (rq_add r) (rq_remove r) ->
   Forall (fun p => okValue (snd p)) (rq_add r) -> (forall tbs, exists sg, sign tbs = Ok sg /\ lenN sg < 2 ^ 16) -> (exists raw, pubConfigMarshal c = Ok raw) ->
   (forall e, nth_error (entriesOf E) (List.length E - 1) = Some e -> le_ts e <= rq_now r) ->
   exists au, result = Ok au).
Proof.
  intros T Hm. cbv zeta. split.
  - intros (l & Il & NE & NR). destruct (mutate_refuses f hs Hf Hhs c vrf Ls sign valid Hsign t E r l T Hm Il NE NR) as (m & t' & K).
    unfold doMutate in K. rewrite K. cbn. eauto.
  - intros Rem He Fv Hw Hc Late. destruct (mutate_progress f hs Hf Hhs c vrf Ls HV sign valid Hsign t E r T Hm He Fv Hw Hc Late Rem) as (au & t' & K).
    unfold doMutate in K. rewrite K. cbn. eauto.
Qed.

Lemma c67_usable : (forall tbs, exists sg, sign tbs = Ok sg /\ lenN sg < 2 ^ 16) -> (exists raw, pubConfigMarshal c = Ok raw) ->
  forall t rs, runs (full f) hs c vrf sign Ls t rs ->
  forall r, moderate Ls (lenN rs) (labelsNow rs) r -> rq_add r <> [] -> rq_remove r = [] -> Forall (fun p => okValue (snd p)) (rq_add r) ->
  Forall (fun q => rq_now q <= rq_now r) rs ->
  exists au, fst (Mutate (full f) hs c vrf sign (rq_opening r) (rq_order r) (rq_now r) t (rq_add r) (rq_remove r)) = Ok au.
Proof.
  intros Hw Hc t rs R r Hm Ha Hr Fv Fn. destruct (run_describes f hs Hf Hhs c vrf Ls HV sign valid Hsign t rs R) as (E & T & Q1 & Q2).
  destruct (labelsNow_last _ _ Q1) as [A B]. rewrite A, B in *.
  apply (c43_removal t E r T Hm); auto.
  - rewrite Hr. intros l [].
  - left. exact Ha.
  - intros e Ee. assert (I : In (le_ts e) (map rq_now rs)) by (rewrite <- Q2; apply in_map; eapply nth_error_In; eauto).
    apply in_map_iff in I. destruct I as (q & <- & Iq). rewrite Forall_forall in Fn. auto.
Qed.

Lemma c68_stored t rs : runs (full f) hs c vrf sign Ls t rs -> rs <> [] ->
  exists h raw e es leaves root tbs, let s := durable (t_tx t) in let n := lenN rs in
    t_head t = Some h /\ th_size h = n /\
    mget (x_entries s) (n - 1) = Some raw /\ newLogEntry (N.to_nat hs) raw = Ok (e, []) /\
    Forall2 (fun e h => logEntryHash (full f) e = Ok h) (es ++ [e]) leaves /\ lenN leaves = n /\ Mth (full f) leaves root /\
    treeHeadTBS c n root = Ok tbs /\ valid tbs (th_sig h) /\
    forall l v, In l Ls -> v < 2 ^ 32 -> exists proof com,
      search (full f) (N.to_nat hs) (x_prefix s) n [keyOf vrf l v] = Ok (proof, [com]) /\
      Evaluate (full f) (N.to_nat hs) [(keyOf vrf l v, match com with Some b => b | None => [] end)] proof = Ok (le_root e) /\
      match nth_error (labelsNow rs l) (N.to_nat v) with
      | Some p => exists b, com = Some b /\ labelCommitment (full f) (pv_opening p) l v (pv_value p) = Ok b /\
          (okOpeningAndValue c {| ov_opening := pv_opening p; ov_value := pv_value p |} ->
           getVersion c s l v = Ok {| ov_opening := pv_opening p; ov_value := pv_value p |})
      | None => com = None
      end.
Proof.
  intros R NE. destruct (run_describes f hs Hf Hhs c vrf Ls HV sign valid Hsign t rs R) as (E & T & Q1 & Q2). destruct (labelsNow_last _ _ Q1) as [A B].
  assert (NE' : E <> []) by (intros ->; destruct rs; [contradiction|discriminate B]).
  destruct (exists_last NE') as (E0 & ep & EE).
  pose proof T as (HD & Hd & HH). destruct (t_head t) as [h|] eqn:Th; [|destruct HH; contradiction]. destruct HH as (Sz & _ & (leaves & root & tbs & FL & Mt & Tb & Vl) & _).
  assert (LL : lenN leaves = lenN rs).
  { rewrite B, <- (LogTreeProofs.Forall2_len _ _ _ FL). unfold lenN, entriesOf. now rewrite map_length. }
  assert (Le : nth_error (entriesOf E) (List.length E - 1) = Some (ep_entry ep)).
  { rewrite EE, entriesOf_app, app_length. cbn [List.length]. rewrite nth_error_app2; unfold entriesOf; rewrite map_length; [|lia].
    replace (List.length E0 + 1 - 1 - List.length E0)%nat with 0%nat by lia. reflexivity. }
  destruct (ds_entries _ _ _ _ _ _ HD (lenN E - 1) (ep_entry ep)) as (Lr & Lt & raw & Mr & Gr).
  { rewrite <- Le. f_equal. unfold lenN. lia. }
  exists h, raw, (ep_entry ep), (entriesOf E0), leaves, root, tbs. cbv zeta. rewrite Hd, B.
  split; [reflexivity|]. split; [exact Sz|]. split; [exact Gr|]. split.
  { rewrite <- (app_nil_r raw). apply (proj1 (CodecProofs2.codec_logEntry (N.to_nat hs))); [split; [exact Lt|exact Lr]|exact Mr]. }
  split; [rewrite EE, entriesOf_app in FL; exact FL|]. split; [congruence|]. split; [exact Mt|]. split; [exact Tb|]. split; [exact Vl|].
  intros l v Hl Hv. rewrite A.
  destruct (committed f hs Hf Hhs c vrf Ls HV sign valid Hsign t E l v T NE' Hl Hv) as (raw' & e' & proof & com & _ & _ & Ee & Sr & Ev & K).
  rewrite Hd in Sr, K. assert (e' = ep_entry ep) by congruence. subst e'. exists proof, com. split; [exact Sr|]. split; [exact Ev|].
  destruct (nth_error (current E l) (N.to_nat v)) as [p|]; [|exact K]. destruct K as [(b & -> & K1) K2]. eauto.
Qed.

Lemma c66_after t rs : runs (full f) hs c vrf sign Ls t rs -> rs <> [] ->
  forall l, In l Ls -> Forall (fun r => ~ In l (rq_remove r)) rs -> lenN (labelsNow rs l) < 2 ^ 31 ->
  exists E, treeOf f hs vrf Ls c valid t E /\ map ep_labels E = labelsAfter 0 noLabels rs /\
    faithful f hs (worldOf f hs vrf (durable (t_tx t)) E l).
Proof.
  intros R NE l Hl Fr Hb. destruct (run_describes f hs Hf Hhs c vrf Ls HV sign valid Hsign t rs R) as (E & T & Q1 & Q2). destruct (labelsNow_last _ _ Q1) as [A B].
  exists E. split; [exact T|]. split; [exact Q1|]. destruct T as (HD & -> & _). rewrite A in Hb.
  apply (world_faithful f hs Hf Hhs vrf Ls HV sign valid Hsign); auto.
  - intros ->. destruct rs; [contradiction|discriminate B].
  - eapply (run_not_removed f hs Hf Hhs sign valid Hsign); eauto.
Qed.

Lemma c66_served t rs : runs (full f) hs c vrf sign Ls t rs -> rs <> [] ->
  forall l, In l Ls -> Forall (fun r => ~ In l (rq_remove r)) rs -> lenN (labelsNow rs l) < 2 ^ 31 ->
  exists E, treeOf f hs vrf Ls c valid t E /\ map ep_labels E = labelsAfter 0 noLabels rs /\
    let W := worldOf f hs vrf (durable (t_tx t)) E l in
    forall now ver ret m nP, ver < 2 ^ 31 - 1 -> HandleSpec.keeps W (option_map fst m) ret ->
    let p := pbind (updateView c now (lenN rs) (option_map fst m)) (fun _ => greatestVersionSearch c ver (lenN rs)) in
    advances (lenN rs) (option_map fst m) \/ (exists a, honestAnswer W p = Ok a) ->
    convincing f hs W p (honestAnswer W p) ret m nP.
Proof.
  intros R NE l Hl Fr Hb. destruct (c66_after t rs R NE l Hl Fr Hb) as (E & T & Q & Fa). exists E. split; [exact T|]. split; [exact Q|]. cbv zeta.
  intros now ver ret m nP Hv K Ad.
  assert (Ln : lenN rs = lenN (w_entries (worldOf f hs vrf (durable (t_tx t)) E l))).
  { cbn [w_entries worldOf]. destruct (labelsNow_last _ _ Q) as [_ ->]. unfold lenN, entriesOf. now rewrite map_length. }
  rewrite Ln in *. apply c66_greatest; auto.
  - intro x. specialize (Hf x). unfold lenN in Hf. lia.
  - lia.
  - lia.
Qed.

End Main.

Lemma c44_timestamps H hs c vrf sign t ts : issued H hs c vrf sign t ts -> lenN ts < two64 ->
  StronglySorted N.le ts /\ match t_head t with Some h => th_size h | None => 0 end = lenN ts /\
  forall i x, nth_error ts i = Some x -> stampAt (durable (t_tx t)) (N.of_nat i) x.
Proof.
  intros I L. destruct (issued_stamped H hs c vrf sign t ts I L) as [Sz Hd Bd So Du Pe]. split; [|split; [exact Sz|exact Du]].
  clear -So. induction ts as [|x ts IH]; constructor.
  - apply IH. intros i j a b Hij Ea Eb. apply (So (S i) (S j) a b); [lia|exact Ea|exact Eb].
  - apply Forall_forall. intros y Iy. apply In_nth_error in Iy. destruct Iy as [j Ej]. apply (So 0%nat (S j) x y); [lia|reflexivity|exact Ej].
Qed.

Lemma c43_example :
  (exists E, treeOf toy32 32 xvrf xLs xc (fun tbs sg => xsign tbs = Ok sg) t2 E /\ map ep_labels E = labelsAfter 0 noLabels [q1; q2]) /\
  moderate xLs 2 (labelsNow [q1; q2]) (xreq [lc] 2400 [] [lc]) /\
  fst (xdo t2 (xreq [lc] 2400 [] [lc])) = Fail "unable to delete label that was modified recently"%string /\
  exists au, fst (xdo t2 (xreq [lc] 2500 [] [lc])) = Ok au.
Proof.
  split.
  - destruct (run_describes toy32 32 toy_len ltac:(lia) xc xvrf xLs x_vrfGood xsign (fun tbs sg => xsign tbs = Ok sg) ltac:(auto) t2 _ x_runs2) as (E & T & Q & _). eauto.
  - split; [moderately|]. split; [vm_compute; reflexivity|]. eexists. vm_compute. reflexivity.
Qed.

Lemma c44_example :
  issued (full toy32) 32 xc xvrf xsign t3 [1000; 2000; 3000] /\
  fst (xdo t3 (xreq [la] 2999 [(la, xv x07)] [])) = Fail "refusing to issue tree head: current timestamp is less than previous timestamp"%string.
Proof.
  split; [|vm_compute; reflexivity].
  assert (I0 : issued (full toy32) 32 xc xvrf xsign empty0 []) by (apply is_new; reflexivity).
  assert (S : forall r t t' ts, issued (full toy32) 32 xc xvrf xsign t ts -> rq_now r < two64 -> (exists au, xdo t r = (Ok au, t')) -> issued (full toy32) 32 xc xvrf xsign t' (ts ++ [rq_now r])).
  { intros r t t' ts I Hn [au E]. unfold xdo in E. eapply is_mutate in E; [exact E|exact I|exact Hn]. }
  assert (I1 : issued (full toy32) 32 xc xvrf xsign t1 [1000]).
  { apply (S q1 empty0 t1 []); [exact I0|reflexivity|eexists; vm_compute; reflexivity]. }
  assert (I2 : issued (full toy32) 32 xc xvrf xsign t2 [1000; 2000]).
  { apply (S q2 t1 t2 [1000]); [exact I1|reflexivity|eexists; vm_compute; reflexivity]. }
  apply (S q3 t2 t3 [1000; 2000]); [exact I2|reflexivity|eexists; vm_compute; reflexivity].
Qed.

Lemma c67_example : moderate xLs 3 (labelsNow [q1; q2; q3]) (xreq [lb] 3000 [(lb, xv x07)] []) /\ okValue (xv x07).
Proof. split; [moderately|split; [reflexivity|exact Logic.I]]. Qed.
