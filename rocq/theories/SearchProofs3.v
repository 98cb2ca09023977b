(** Searches end to end, over a server that has gone through any sequence of mutations. *)
From Coq Require Import Sorted Permutation.
From Verif Require Import Base BaseProofs LogMathSpec LogTreeModel LogTreeSpec LogTreeProofs LogChunkModel PrefixModel PrefixSpec TransMathModel TransMathProofs2 LaddersModel
  CodecModel CodecSpec CodecProofs3 AlgModel AlgSpec AlgProofs AlgProofs4 AlgProofs6 HandleModel HandleSpec HandleProofs HandleProofs2 HandleProofs3 HandleProofs5 HandleProofs6 HandleProofs7
  StoreModel CommitModel MutateModel MutateSpec ServerModel ClientModel ClientSpec ClientProofs2 MutateProofs2 MutateProofs5 MutateProofs7 SearchProofs SearchProofs2.
Open Scope N_scope.
Local Open Scope list_scope.

Lemma countLe_all x xs : Forall (fun p => p <= x) xs -> countLe x xs = List.length xs.
Proof.
  intro F. unfold countLe. induction F as [|p ps Hp F IH]; [reflexivity|]. cbn [filter]. apply N.leb_le in Hp. rewrite Hp. cbn [List.length]. now rewrite IH.
Qed.

Section Run.
Variable f : bytes -> bytes.
Variable hs : N.
Hypothesis Hf : forall x, lenN (f x) = hs.
Hypothesis Hhs : 0 < hs <= 32.
Variable c : pubConfig.
Variable vrf : bytes -> bytes * bytes.
Variable Ls : list bytes.
Hypothesis HV : vrfGood hs vrf Ls.
Variable sign : bytes -> res bytes.
Variable sigVerify : bytes -> bytes -> bool.
Hypothesis Hsign : sigVerifies sign sigVerify.
Variable vrfVerify : bytes -> bytes -> option bytes.
Hypothesis Hvrf : vrfVerifies vrf vrfVerify.
Variable leafVerify : bytes -> bytes -> bool.
Variable now : N.
Local Notation valid := (fun tbs sg : bytes => sign tbs = Ok sg).

Lemma last_nth {A} (d : A) l : List.last l d = nth (List.length l - 1) l d.
Proof. induction l as [|a [|b l] IH]; [reflexivity|reflexivity|]. change (last (a :: b :: l) d) with (last (b :: l) d). rewrite IH. cbn [List.length]. replace (S (S (List.length l)) - 1)%nat with (S (S (List.length l) - 1)) by lia. reflexivity. Qed.

Lemma seen_genuine t E st : treeOf f hs vrf Ls c valid t E -> hasSeen f t (lenN (entriesOf E)) st ->
  genuine f E (Some st).
Proof.
  intros (HD & Hd & _) (es & Sf & Lo & Hk & Ts). exists (lenN es), (cs_head st). split; [exact Hk|].
  replace (firstn (N.to_nat (lenN es)) (entriesOf E)) with es; [exact Sf|].
  apply nth_ext with (d := {| le_ts := 0; le_root := [] |}) (d' := {| le_ts := 0; le_root := [] |}).
  - rewrite firstn_length. unfold lenN in *. lia.
  - intros i Hi. assert (Hi2 : (i < List.length (entriesOf E))%nat) by (unfold lenN in *; lia).
    destruct (nth_error es i) as [e|] eqn:E1; [|apply nth_error_None in E1; lia].
    destruct (nth_error (entriesOf E) i) as [e'|] eqn:E2; [|apply nth_error_None in E2; lia].
    rewrite (nth_error_nth _ _ _ E1). symmetry. apply nth_error_nth. rewrite nth_error_firstn_lt by (unfold lenN; lia). rewrite E2. f_equal.
    destruct (Lo (N.of_nat i) e) as (raw & M1 & G1); [now rewrite Nat2N.id|].
    destruct (ds_entries _ _ _ _ _ _ HD (N.of_nat i) e') as (_ & T2 & raw' & M2 & G2); [now rewrite Nat2N.id|].
    rewrite Hd, G2 in G1. injection G1 as <-. symmetry. apply (logEntry_inj e e' raw'); auto.
    apply nth_error_In in E1. rewrite Forall_forall in Ts. exact (Ts e E1).
Qed.

(** Everything up to the last comparison. *)
Lemma exchanged t rs l state version v p :
  runs (full f) hs c vrf sign Ls t rs -> rs <> [] -> In l Ls -> Forall (fun r => ~ In l (rq_remove r)) rs -> lenN (labelsNow rs l) < 2 ^ 31 ->
  match state with Some st => hasSeen f t (lenN rs) st | None => True end ->
  nth_error (labelsNow rs l) (N.to_nat v) = Some p -> v < 2 ^ 31 - 1 -> asksFor c rs l (getLast state) version v ->
  readable c p -> signedByOperator c leafVerify l v (pv_value p) -> clockFine c now (latest rs) ->
  let req := {| sq_last := getLast state; sq_label := l; sq_version := version |} in
  exists resp proof v3 pos pr root th tbs,
    serverSearch (full f) hs c vrf now (serverOf t) req = Ok resp /\
    sr_value resp = pv_value p /\ sr_opening resp = pv_opening p /\ sr_version resp = (match version with None => Some v | Some _ => None end) /\
    t_head t = Some th /\ sr_head resp = (if match getLast state with Some k => k =? lenN rs | None => false end then sameHead else {| fth_head := Some th; fth_auditor := None |}) /\
    (getLast state <> Some (lenN rs) -> withLogProof resp proof = resp) /\
    checkSearch (full f) hs c now vrfVerify leafVerify state req (withLogProof resp proof) = Ok (v3, v, pos) /\
    v_state v3 = state /\ v_fth v3 = sr_head resp /\ v_n v3 = lenN rs /\ v_nP v3 = None /\ v_m v3 = getLast state /\
    dpFinish (full f) hs (v_d v3) (lenN rs) None (getLast state) = Ok pr /\ logRoot (full f) hs (lenN rs) (pr_subtrees pr) = Ok root /\
    th_size th = lenN rs /\ treeHeadTBS c (lenN rs) root = Ok tbs /\ sigVerify tbs (th_sig th) = true /\
    (forall h, th_size h = lenN rs -> hasSeen f t (lenN rs) (stateWith h pr)).
Proof.
  intros R NE Hl Fr Hb Hst Ep Hv Hw Ok1 Sg Cl req.
  destruct (run_describes f hs Hf Hhs c vrf Ls HV sign valid (fun _ _ H => H) t rs R) as (E & T & Q1 & Q2). destruct (labelsNow_last _ _ Q1) as [A B].
  assert (HE : E <> []) by (intros ->; destruct rs; [contradiction|discriminate B]).
  assert (HF : faithful f hs (worldOf f hs vrf (durable (t_tx t)) E l)).
  { destruct T as (HD & -> & _). rewrite A in Hb. apply (world_faithful f hs Hf Hhs vrf Ls HV sign valid (fun _ _ H => H)); auto.
    eapply (run_not_removed f hs Hf Hhs sign valid (fun _ _ H => H)); eauto. }
  set (W := worldOf f hs vrf (durable (t_tx t)) E l) in *.
  assert (Ln : lenN rs = lenN (entriesOf E)) by (rewrite B; unfold lenN, entriesOf; now rewrite map_length).
  assert (Hpos : 0 < hs) by lia. pose proof (SearchProofs.Hn1 f hs W HF) as NB. change (lenN (w_entries W)) with (lenN (entriesOf E)) in NB.
  assert (G : genuine f E state).
  { destruct state as [st|]; [|exact Logic.I]. rewrite Ln in Hst. eapply seen_genuine; eauto. }
  rewrite A in Ep. destruct T as (HD & Hd & HH). assert (T : treeOf f hs vrf Ls c valid t E) by (split; [exact HD|split; [exact Hd|exact HH]]).
  assert (Hts : forall x, x < lenN (entriesOf E) -> exists r, nth_error rs (N.to_nat x) = Some r /\ h_ts (observed W) x = rq_now r).
  { intros x Hx. cbn [observed h_ts]. unfold entryAt. cbn [w_entries worldOf W].
    destruct (nth_error rs (N.to_nat x)) as [r|] eqn:Er; [|apply nth_error_None in Er; rewrite <- Ln in Hx; unfold lenN in Hx; lia].
    exists r. split; [reflexivity|]. pose proof (map_nth_error rq_now _ _ Er) as Er2. rewrite <- Q2 in Er2. apply nth_error_nth with (d := 0) in Er2. rewrite <- Er2.
    change 0 with (le_ts {| le_ts := 0; le_root := [] |}). rewrite map_nth.
    destruct (nth_error (entriesOf E) (N.to_nat x)) as [e|] eqn:Ee; [|apply nth_error_None in Ee; unfold lenN in Hx; lia].
    rewrite (nth_error_nth _ _ _ Ee). reflexivity. }
  assert (Hlast : h_ts (observed W) (lenN (entriesOf E) - 1) = latest rs).
  { destruct (Hts (lenN (entriesOf E) - 1)) as (r & Er & ->); [lia|]. unfold latest. rewrite last_nth, map_length.
    symmetry. apply nth_error_nth. apply map_nth_error. rewrite <- Er. f_equal. rewrite <- Ln. unfold lenN. lia. }
  assert (Hg : h_g (observed W) (lenN (entriesOf E) - 1) = (Z.of_N (lenN (current E l)) - 1)%Z).
  { cbn [observed h_g w_index worldOf W]. rewrite countLe_all.
    - rewrite map_length. unfold lenN. lia.
    - apply Forall_map. destruct (ds_positions _ _ _ _ _ _ HD l Hl) as (_ & Fp & _). eapply Forall_impl; [|exact Fp]. cbn. intros q Hq. rewrite <- B, Ln in Hq. lia. }
  assert (Lv : v < lenN (current E l)) by (assert (nth_error (current E l) (N.to_nat v) <> None) as Nn by congruence; apply nth_error_Some in Nn; unfold lenN; lia).
  destruct HF as (HL & HF'). pose proof (conj HL HF' : faithful f hs W) as HF.
  assert (Hnn : 1 <= h_n (observed W) < 2 ^ 64) by exact NB.
  pose proof (kept_size f hs Hf Hhs vrf vrfVerify (proj1 Hvrf) leafVerify E l state G) as KS.
  assert (HP : exists pos, result (run (honest (observed W)) (programFor c E version v) 0) = Ok pos).
  { unfold programFor. destruct version as [w|]; cbn [asksFor] in Hw.
    - destruct Hw as (-> & Hx & _). destruct (c21_fixed c (observed W) v 0 HL) as [K _].
      + intros x Hxn. destruct (Hts x Hxn) as (r & Er & ->). change (h_n (observed W)) with (lenN (entriesOf E)). rewrite Hlast. apply Hx. eapply nth_error_In; eauto.
      + change (h_n (observed W)) with (lenN (entriesOf E)) in K. rewrite Hg in K. destruct K as (x & Ex & _); [lia|]. eauto.
    - rewrite A in Hw. destruct (c20_greatest c (observed W) v 0 HL) as (pre & path & o & _ & _ & _ & K & _). change (h_n (observed W)) with (lenN (entriesOf E)) in K. rewrite Hg in K.
      destruct K as (p1 & tt & q1 & _ & Er & _); [lia|]. eauto. }
  destruct HP as (pos & HP).
  assert (HA : honestAnswer W (pbind (updateView c now (lenN (entriesOf E)) (getLast state)) (fun _ => programFor c E version v)) = Ok pos).
  { apply (honest_answer f hs W HF ltac:(lia) Hpos c now); [exact KS| |change (lenN (w_entries W)) with (lenN (entriesOf E)); now rewrite Hlast|exact HP].
    destruct HL as (_ & _ & Bt). apply Bt. change (h_n (observed W)) with (lenN (entriesOf E)). change (lenN (w_entries W)) with (lenN (entriesOf E)). lia. }
  destruct (head_ok f hs c vrf Ls valid t E T HE) as (th & Eth & Sth & leaves & root & tbs & FL & HM & Et & Vs).
  rewrite <- B, Ln in Et.
  destruct (served f hs Hf Hhs c vrf Ls HV valid vrfVerify (proj1 Hvrf) leafVerify now t E T HE l Hl HF state version v p pos leaves root G Ep Hv) as
    (resp & proof & v3 & pr & front & S1 & S2 & S3 & S4 & S5 & S6 & C1 & C2 & C3 & C4 & C5 & C6 & C7 & C8 & C9 & C10 & C11 & C12).
  - destruct version as [w|]; cbn [asksFor] in Hw; [left; destruct Hw as [-> _]; reflexivity|right; split; [reflexivity|]; rewrite <- A; exact Hw].
  - exact Ok1.
  - exact Sg.
  - unfold programFor. destruct version; [apply (pre_smooth W _ _ (pre_fixed (observed W) HL c Hnn v Hv))|apply (pre_smooth W _ _ (pre_greatest (observed W) HL c Hnn v Hv))].
  - destruct version as [w|]; cbn [asksFor] in Hw; [left; rewrite <- Ln; apply Hw|right].
    intros fr s a s' evs EF ER. pose proof (run_greatest (observed W) c Hnn v s fr EF) as K. unfold programFor in ER. fold W in ER. change (h_n (observed W)) with (lenN (entriesOf E)) in K. rewrite ER in K. exact K.
  - exact HA.
  - exact FL.
  - exact HM.
  - exists resp, proof, v3, pos, pr, root, th, tbs. rewrite Ln in *. split; [exact S1|]. split; [exact S3|]. split; [exact S4|]. split; [exact S5|]. split; [exact Eth|].
    split; [rewrite S2; unfold headFor; rewrite Eth; destruct (getLast state) as [k|]; [destruct (k =? _)|]; reflexivity|].
    split; [intro Hne; rewrite (S6 Hne); destruct resp as [? ? ? ? ? []]; reflexivity|].
    split; [exact C1|]. split; [exact C2|]. split; [rewrite C3; symmetry; exact S2|]. split; [exact C4|]. split; [exact C5|]. split; [exact C6|]. split; [exact C7|]. split; [exact C8|]. split; [exact Sth|].
    split; [exact Et|]. split; [apply Hsign; exact Vs|].
    intros h Eh. exists (entriesOf E). split; [|split; [|split]].
    + split; [exact Eh|]. split; [reflexivity|]. split; [exists leaves; split; [exact FL|exact C9]|]. exists front. split; [exact C11|]. cbn [stateWith cs_entries]. rewrite C12. apply map_ext_in. intros x I. f_equal.
      assert (Hx : x < lenN (entriesOf E)).
      { destruct (TransMathProofs.frontier_spec (lenN (entriesOf E))) as (fr' & EF' & _ & Mem & _); [change two64 with (2 ^ 64); lia|]. rewrite C11 in EF'. injection EF' as <-. apply Mem in I. tauto. }
      unfold entryAt. cbn [w_entries worldOf]. destruct (nth_error (entriesOf E) (N.to_nat x)) as [e|] eqn:Ee; [|apply nth_error_None in Ee; unfold lenN in Hx; lia].
      symmetry. now apply nth_error_nth.
    + intros x e Ee. destruct (ds_entries _ _ _ _ _ _ HD x e Ee) as (_ & _ & raw & M1 & G1). exists raw. rewrite Hd. auto.
    + lia.
    + apply Forall_forall. intros e I. apply In_nth_error in I. destruct I as (i & Ei). destruct (ds_entries _ _ _ _ _ _ HD (N.of_nat i) e) as (_ & K & _); [now rewrite Nat2N.id|exact K].
Qed.

Lemma c45_partial t rs l st version v p :
  runs (full f) hs c vrf sign Ls t rs -> rs <> [] -> In l Ls -> Forall (fun r => ~ In l (rq_remove r)) rs -> lenN (labelsNow rs l) < 2 ^ 31 ->
  hasSeen f t (lenN rs) st -> th_size (cs_head st) < lenN rs ->
  nth_error (labelsNow rs l) (N.to_nat v) = Some p -> v < 2 ^ 31 - 1 -> asksFor c rs l (getLast (Some st)) version v ->
  readable c p -> signedByOperator c leafVerify l v (pv_value p) -> clockFine c now (latest rs) ->
  let req := {| sq_last := getLast (Some st); sq_label := l; sq_version := version |} in
  exists resp th checked pos result root tbs,
    serverSearch (full f) hs c vrf now (serverOf t) req = Ok resp /\ sr_value resp = pv_value p /\
    sr_version resp = (match version with None => Some v | Some _ => None end) /\
    t_head t = Some th /\ sr_head resp = {| fth_head := Some th; fth_auditor := None |} /\
    checkSearch (full f) hs c now vrfVerify leafVerify (Some st) req resp = Ok (checked, v, pos) /\
    dpFinish (full f) hs (v_d checked) (lenN rs) None (getLast (Some st)) = Ok result /\
    logRoot (full f) hs (lenN rs) (pr_subtrees result) = Ok root /\ treeHeadTBS c (lenN rs) root = Ok tbs /\ sigVerify tbs (th_sig th) = true /\
    hasSeen f t (lenN rs) (stateWith th result).
Proof.
  intros R NE Hl Fr Hb Hs Hk Ep Hv Hw Ok1 Sg Cl req.
  destruct (exchanged t rs l (Some st) version v p R NE Hl Fr Hb Hs Ep Hv Hw Ok1 Sg Cl) as
    (resp & proof & v3 & pos & pr & root & th & tbs & S1 & S2 & S3 & S4 & S5 & S6 & S7 & C1 & C2 & C3 & C4 & C5 & C6 & C7 & C8 & C9 & C10 & C11 & C12).
  change (getLast (Some st)) with (Some (th_size (cs_head st))) in S6, S7. cbv iota in S6. assert (Hne : th_size (cs_head st) <> lenN rs) by lia. apply N.eqb_neq in Hne. rewrite Hne in S6. apply N.eqb_neq in Hne.
  rewrite S7 in C1 by congruence. exists resp, th, v3, pos, pr, root, tbs. repeat (split; [assumption|]). apply C12. exact C9.
Qed.

Variable audVerify : bytes -> bytes -> bool.

Lemma c46_partial t rs l version v p :
  runs (full f) hs c vrf sign Ls t rs -> rs <> [] -> In l Ls -> Forall (fun r => ~ In l (rq_remove r)) rs -> lenN (labelsNow rs l) < 2 ^ 31 ->
  nth_error (labelsNow rs l) (N.to_nat v) = Some p -> v < 2 ^ 31 - 1 -> asksFor c rs l None version v ->
  readable c p -> signedByOperator c leafVerify l v (pv_value p) -> clockFine c now (latest rs) ->
  let req := {| sq_last := None; sq_label := l; sq_version := version |} in
  exists resp th checked pos result,
    serverSearch (full f) hs c vrf now (serverOf t) req = Ok resp /\ sr_value resp = pv_value p /\
    sr_version resp = (match version with None => Some v | Some _ => None end) /\
    t_head t = Some th /\ sr_head resp = {| fth_head := Some th; fth_auditor := None |} /\
    checkSearch (full f) hs c now vrfVerify leafVerify None req resp = Ok (checked, v, pos) /\
    checkFinish (full f) hs c sigVerify audVerify checked = Ok result /\ hasSeen f t (lenN rs) (stateWith th result).
Proof.
  intros R NE Hl Fr Hb Ep Hv Hw Ok1 Sg Cl req.
  destruct (exchanged t rs l None version v p R NE Hl Fr Hb Logic.I Ep Hv Hw Ok1 Sg Cl) as
    (resp & proof & v3 & pos & pr & root & th & tbs & S1 & S2 & S3 & S4 & S5 & S6 & S7 & C1 & C2 & C3 & C4 & C5 & C6 & C7 & C8 & C9 & C10 & C11 & C12).
  change (getLast None) with (@None N) in *. rewrite S7 in C1 by discriminate. exists resp, th, v3, pos, pr. repeat (split; [assumption|]).
  split; [|apply C12; exact C9]. unfold checkFinish. rewrite C4, C5, C6, C7. cbn [bind]. rewrite C8. cbn [bind]. unfold verifyTreeHead. rewrite C3, S6, C2, C4. cbn [fth_head fth_auditor]. rewrite C10. cbn [bind]. rewrite C11. reflexivity.
Qed.

Lemma c47_partial t rs l st version v p :
  runs (full f) hs c vrf sign Ls t rs -> rs <> [] -> In l Ls -> Forall (fun r => ~ In l (rq_remove r)) rs -> lenN (labelsNow rs l) < 2 ^ 31 ->
  hasSeen f t (lenN rs) st -> th_size (cs_head st) = lenN rs ->
  nth_error (labelsNow rs l) (N.to_nat v) = Some p -> v < 2 ^ 31 - 1 -> asksFor c rs l (getLast (Some st)) version v ->
  readable c p -> signedByOperator c leafVerify l v (pv_value p) -> clockFine c now (latest rs) ->
  let req := {| sq_last := getLast (Some st); sq_label := l; sq_version := version |} in
  exists resp proof st',
    serverSearch (full f) hs c vrf now (serverOf t) req = Ok resp /\ sr_value resp = pv_value p /\
    sr_version resp = (match version with None => Some v | Some _ => None end) /\
    fth_head (sr_head resp) = None /\
    (exists checked pos, checkSearch (full f) hs c now vrfVerify leafVerify (Some st) req (withLogProof resp proof) = Ok (checked, v, pos) /\
       finish (full f) hs c sigVerify audVerify checked = Ok st') /\
    cs_head st' = cs_head st /\ hasSeen f t (lenN rs) st' /\
    (pc_mode c <> ContactMonitoring -> forall visit k,
       clientSearch (full f) hs c now vrfVerify sigVerify leafVerify audVerify visit k (Some st) req (withLogProof resp proof) = putState k st').
Proof.
  intros R NE Hl Fr Hb Hs Hk Ep Hv Hw Ok1 Sg Cl req.
  destruct (exchanged t rs l (Some st) version v p R NE Hl Fr Hb Hs Ep Hv Hw Ok1 Sg Cl) as
    (resp & proof & v3 & pos & pr & root & th & tbs & S1 & S2 & S3 & S4 & S5 & S6 & S7 & C1 & C2 & C3 & C4 & C5 & C6 & C7 & C8 & C9 & C10 & C11 & C12).
  change (getLast (Some st)) with (Some (th_size (cs_head st))) in S6, S7. cbv iota in S6. apply N.eqb_eq in Hk. rewrite Hk in S6. apply N.eqb_eq in Hk.
  assert (EF : finish (full f) hs c sigVerify audVerify v3 = Ok (stateWith (cs_head st) pr)).
  { unfold finish, checkFinish. rewrite C4, C5, C6, C7. cbn [bind]. rewrite C8. cbn [bind]. unfold verifyTreeHead. rewrite C3, S6, C2. reflexivity. }
  exists resp, proof, (stateWith (cs_head st) pr). repeat (split; [first [assumption|rewrite S6; reflexivity]|]). split; [exists v3, pos; auto|]. split; [reflexivity|]. split; [apply C12; exact Hk|].
  intros Hm visit k. unfold clientSearch. fold req in C1. rewrite C1. cbn [bind]. rewrite EF. cbn [bind]. apply N.eqb_neq in Hm. rewrite Hm. reflexivity.
Qed.
End Run.
