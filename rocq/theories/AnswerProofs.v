(** The server's answer to a monitoring request, from its database. *)
From Coq Require Import Sorted Permutation.
From Verif Require Import Base BaseProofs LogMathSpec LogTreeModel LogTreeSpec LogMathProofs2 LogVerifyProofs2 LogTreeProofs LogTreeProofs3 LogChunkModel LogChunkProofs7 PrefixModel PrefixSpec TransMathModel TransMathSpec TransMathProofs2 LaddersModel LaddersProofs
  CodecModel CodecSpec CodecProofs CodecProofs2 AlgModel AlgSpec AlgProofs AlgProofs4 AlgProofs6 HandleModel HandleSpec HandleProofs HandleProofs2 HandleProofs3 HandleProofs4
  HandleProofs5 HandleProofs6 HandleProofs7 HandleProofs8
  StoreModel CommitModel MutateModel MutateSpec ServerModel ClientModel ClientSpec ClientProofs2 MutateProofs2 MutateProofs5 SearchProofs SearchProofs2 AbsentProofs.
Open Scope N_scope.
Local Open Scope list_scope.

Lemma split_bind {A B S} (P : provider S) (u : prog B) (p : B -> prog A) s a s' evs : run P (pbind u p) s = (Ok a, s', evs) ->
  exists b s1 e1 e2, run P u s = (Ok b, s1, e1) /\ run P (p b) s1 = (Ok a, s', e2).
Proof.
  rewrite run_bind. destruct (run P u s) as [[[b|e|e|] s1] e1]; cbn; try discriminate. destruct (run P (p b) s1) as [[r s2] e2] eqn:E2. intros [= -> <- _]. eauto 6.
Qed.

Section Answer.
Variable f : bytes -> bytes.
Variable hs : N.
Hypothesis Hf : forall x, lenN (f x) = hs.
Hypothesis Hhs : 0 < hs <= 32.
Variable c : pubConfig.
Variable vrf : bytes -> bytes * bytes.
Variable Ls : list bytes.
Hypothesis HV : vrfGood hs vrf Ls.
Variable valid : bytes -> bytes -> Prop.
Variable now : N.
Variable t : tree.
Variable E : list epoch.
Hypothesis HT : treeOf f hs vrf Ls c valid t E.
Hypothesis HE : E <> [].
Variable l : bytes.
Hypothesis Hl : In l Ls.
Local Notation W := (worldOf f hs vrf (durable (t_tx t)) E l).
Hypothesis HF : faithful f hs W.
Local Notation n := (lenN (entriesOf E)).
Local Notation nhs := (N.to_nat hs).
Local Notation PH := (producedHandle hs (w_entriesDb W)).

Lemma size_bounds : 1 <= n < 2 ^ 64.
Proof. exact (SearchProofs.Hn1 f hs W HF). Qed.

(** What the server takes from its database for a user who has seen [last] entries. *)
Definition keptFor (last : option N) : list (N * logEntry) :=
  match last with Some k => match frontier k with Ok front => map (fun x => (x, entryAt W x)) front | _ => [] end | None => [] end.

Lemma entry_there x : x < n -> exists raw, logEntryMarshal (entryAt W x) = Ok raw /\ mget (x_entries (durable (t_tx t))) x = Some raw /\
  newLogEntry nhs raw = Ok (entryAt W x, []) /\ le_ts (entryAt W x) < 2 ^ 64.
Proof.
  intro Hx. destruct HT as (HD & Hd & _). unfold entryAt. cbn [w_entries worldOf].
  destruct (nth_error (entriesOf E) (N.to_nat x)) as [e|] eqn:Ee; [|apply nth_error_None in Ee; unfold lenN in Hx; lia].
  destruct (ds_entries _ _ _ _ _ _ HD x e Ee) as (Lr & Lt & raw & Mr & Gr). exists raw. rewrite Hd. split; [exact Mr|]. split; [exact Gr|].
  split; [|exact Lt]. rewrite <- (app_nil_r raw). apply (proj1 (codec_logEntry nhs)); [split; [exact Lt|exact Lr]|exact Mr].
Qed.

Lemma kept_true last : optSize n last -> trueEntries W (keptFor last) /\ match last with Some k => frontierEntries hs (serverOf t) k = Ok (keptFor last) | None => True end.
Proof.
  destruct last as [k|]; cbn [optSize]; [|intros _; split; [split; [constructor|intros ? ? []]|exact Logic.I]]. intro Hk. pose proof size_bounds as NB.
  destruct (TransMathProofs.frontier_spec k) as (fr & EF & _ & Mem & Sor & _); [change two64 with (2 ^ 64); lia|].
  unfold keptFor. rewrite EF. split; [split|].
  - rewrite map_map. cbn [fst]. rewrite map_id. clear -Sor. induction Sor as [|x xs S IH F]; constructor; auto. intro I. rewrite Forall_forall in F. apply F in I. lia.
  - intros x e I. apply in_map_iff in I as (y & [= <- <-] & I). apply Mem in I. split; [cbn [w_entries worldOf]; lia|reflexivity].
  - unfold frontierEntries. rewrite EF. cbn [bind serverOf sv_db]. apply mapM_total. intros x I. apply Mem in I.
    destruct (entry_there x) as (raw & _ & -> & -> & _); [lia|]. reflexivity.
Qed.

Lemma values_at leaves k : Forall2 (fun e h => logEntryHash (full f) e = Ok h) (entriesOf E) leaves -> 1 <= k <= n -> exists old, FullValues (full f) leaves k old.
Proof.
  intros FL Hk. assert (Len : lenN leaves = n) by (unfold lenN; f_equal; clear -FL; induction FL; cbn; auto).
  assert (HS : Forall (fun e : bytes => lenN e = hs) leaves).
  { clear -FL Hf. induction FL as [|e h es hs' Ee F IH]; constructor; auto. unfold logEntryHash in Ee. destruct (logEntryMarshal e); try discriminate. cbn in Ee.
    injection Ee as <-. apply Hf. }
  assert (H63 : lenN leaves <= 2 ^ 63) by (rewrite Len; apply HF).
  assert (Lk : lenN (firstn (N.to_nat k) leaves) = k) by (unfold lenN in *; rewrite firstn_length; lia).
  destruct (c08_store f hs Hf ltac:(lia) (firstn (N.to_nat k) leaves)) as (fs & st & _ & FV & _).
  - rewrite Lk. lia.
  - apply Forall_forall. intros e I. rewrite Forall_forall in HS. apply HS. rewrite <- (firstn_skipn (N.to_nat k) leaves). apply in_app_iff. now left.
  - exists fs. apply FullValues_extend; [lia|]. rewrite Lk in FV. apply FV. intro Z. rewrite Z in Lk. cbn in Lk. lia.
Qed.

(** Whatever the server is asked to monitor: if the algorithm ends without an error on the log, the server's answer is complete. *)
Lemma monitored {A} (last : option N) (p : monitor -> prog A) a :
  let mo := {| mo_rightmost := h_ts (observed W) (n - 1); mo_size := n; mo_contact := None; mo_owner := None |} in
  optSize n last -> clockFine c now (h_ts (observed W) (n - 1)) ->
  (forall s r s' evs, run (honest (observed W)) (p mo) s = (r, s', evs) -> smooth (observed W) tracker0 evs) ->
  result (run (honest (observed W)) (p mo) 0) = Ok a ->
  exists op d proof, startMonitor hs c now (serverOf t) last l = Ok op /\ op_n op = n /\ op_index op = map pv_pos (current E l) /\ op_monitor op = mo /\
    exec (serverHandle hs (serverOf t)) (p mo) (op_d op) = Ok (a, d) /\ finishMonitor (full f) hs vrf (serverOf t) l op d = Ok proof.
Proof.
  intros mo OP Hcl SM HR. pose proof size_bounds as NB.
  assert (HfL' : forall x, List.length (f x) = nhs) by (intro x; specialize (Hf x); unfold lenN in Hf; lia). assert (Hsm' : (nhs <= 32)%nat) by lia. assert (Hpos : 0 < hs) by lia.
  destruct (HF) as (HL & _). assert (Hnn : 1 <= h_n (observed W) < 2 ^ 64) by exact NB.
  assert (Hts : h_ts (observed W) (n - 1) < 2 ^ 64) by (destruct HL as (_ & _ & Bt & _); apply Bt; change (h_n (observed W)) with n; lia).
  assert (KS : match last with Some k => 1 <= k <= n | None => True end) by (destruct last; exact OP || exact Logic.I).
  destruct (kept_true last OP) as (TE & KF).
  destruct (head_ok f hs c vrf Ls valid t E HT HE) as (th & Eth & Sth & leaves & root & tbs & FL & HM & _).
  set (prg := pbind (updateView c now n last) (fun _ => pbind (newMonitor n) p)).
  assert (ENM : forall s, run (honest (observed W)) (pbind (newMonitor n) p) s = addEv (EvTs (n - 1) (Ok (h_ts (observed W) (n - 1)))) (run (honest (observed W)) (p mo) s)).
  { intro s. unfold newMonitor. destruct (N.eqb_spec n 0) as [|_]; [lia|]. rewrite sub1_64 by lia. change (pbind (do* rightmost := getTs (n - 1) in Ret {| mo_rightmost := rightmost; mo_size := n; mo_contact := None; mo_owner := None |}) p)
      with (pbind (getTs (n - 1)) (fun rightmost => p {| mo_rightmost := rightmost; mo_size := n; mo_contact := None; mo_owner := None |})).
    rewrite (run_getTs (observed W)) by (change (h_n (observed W)) with n; lia). reflexivity. }
  assert (exists s' evs, run (honest (observed W)) prg 0 = (Ok a, s', evs) /\ smooth (observed W) tracker0 evs) as (s' & evs & ER & Sm).
  { unfold prg. rewrite run_bind. destruct (view_result f hs W HF Hsm' Hpos c now last 0 KS Hts Hcl) as (e1 & E1).
    change (lenN (w_entries W)) with n in E1. rewrite E1. cbn [andThen]. rewrite ENM.
    destruct (run (honest (observed W)) (p mo) 0) as [[r2 s2] e2] eqn:E2. cbn in HR. subst r2. cbn [addEv].
    eexists _, _. split; [reflexivity|].
    destruct (pre_run (observed W) (updateView c now n last) tracker0 _ 0 (pre_updateView (observed W) c Hnn now last tracker0)) as (r1 & s1 & e1' & tr & E1' & S1 & Q1).
    change (h_n (observed W)) with n in E1'. rewrite E1 in E1'. injection E1' as <- <- <-. apply S1. rewrite Q1. cbn [smooth]. split; [change (h_n (observed W)) with n; lia|].
    exact (SM 0 _ _ _ E2). }
  destruct (talk_plain f hs W HF HfL' Hsm' Hpos prg _ s' evs (keptFor last) leaves root ER Sm TE FL HM) as (dts & dps & tr' & M & R & em & lv & T1 & T2 & T3 & _).
  cbn zeta in T1, T2. change (lenN (w_entries W)) with n in *.
  (* the versions asked for are small *)
  assert (Small : forall q u, In q dps -> In u (snd q) -> u < 2 ^ 31).
  { destruct (steps_inv W (keptFor last) TE) as (TM0 & TR0 & _).
    destruct (simulate f hs W HF Hsm' Hpos prg 0 tracker0 (Ok a) s' evs _ _ ER Sm TM0 TR0) as (M2 & R2 & dts2 & dps2 & tr2 & _ & _ & _ & _ & _ & _ & FQ & SP & _).
    specialize (SP [] [] [] [] [] (keptFor last) eq_refl). rewrite (T1 []) in SP. cbn [app] in SP. unfold mkP in SP. injection SP as _ _ -> _ _.
    rewrite Forall_forall in FQ. intros q u Iq Iu. destruct (FQ q Iq) as (_ & _ & _ & K). rewrite Forall_forall in K. exact (K u Iu). }
  destruct HV as (HLn & HK & _). specialize (HLn l Hl).
  assert (Hkey : forall u, u < 2 ^ 31 -> u < 2 ^ 32 /\ lenN (keyOf vrf l u) = hs /\ w_key W u = keyOf vrf l u).
  { intros u I. assert (u < 2 ^ 32) by (change (2 ^ 31) with 2147483648 in I; change (2 ^ 32) with 4294967296; lia).
    split; [assumption|]. split; [unfold lenN; rewrite (HK l u Hl) by assumption; lia|]. cbn [w_key worldOf]. apply N.ltb_lt in H. now rewrite H. }
  assert (exists mS inclS, serverHead (serverOf t) last = Ok (headFor t E last, n, None, mS) /\ getBatch (full f) hs (w_logDb W) lv n None mS = Ok inclS) as (mS & inclS & EH & EG).
  { assert (exists m, option_map fst m = last /\ match m with Some (k, old) => 1 <= k <= n /\ FullValues (full f) leaves k old | None => True end) as (m & Em & Fm).
    { destruct last as [k|]; [|exists None; split; [reflexivity|exact Logic.I]]. destruct (values_at leaves k FL KS) as (old & FV). exists (Some (k, old)). split; [reflexivity|]. split; [exact KS|exact FV]. }
    destruct (T3 None m Fm Logic.I) as (inclC & EC). rewrite Em in EC.
    unfold serverHead, headFor. cbn [serverOf sv_head sv_auditor option_map]. rewrite Eth, Sth. destruct last as [k|].
    - destruct (N.eqb_spec k n) as [->|Hne].
      + destruct (T3 None None Logic.I Logic.I) as (inclS & EG). exists None, inclS. split; [reflexivity|exact EG].
      + destruct (N.ltb_spec n k); [lia|]. exists (Some k), inclC. auto.
    - exists None, inclC. auto. }
  assert (EI : serverIndex (serverOf t) l = Ok (w_index W)).
  { destruct HT as (HD & Hd & _). unfold serverIndex. cbn [serverOf sv_db]. rewrite Hd. apply (ds_index _ _ _ _ _ _ HD l Hl). }
  set (dS0 := mkP W [] tracker0 [] [] [] [] (keptFor last) (stepsTs W (keptFor last) []) (stepsRoot W (keptFor last) [])) in *.
  pose proof (T1 []) as T1'. unfold prg in T1'. apply split_run in T1'. destruct T1' as ([] & d1 & e1 & e2 & Eu & Er). fold dS0 in Eu.
  assert (exists mo2 d2 e3 e4, run (dpProvider PH) (newMonitor n) d1 = (Ok mo2, d2, e3) /\ run (dpProvider PH) (p mo2) d2 = (Ok a, mkP W [] tr' dts dps [] [] (keptFor last) M R, e4)) as (mo2 & d2 & e3 & e4 & En & Ep).
  { apply split_bind in Er. exact Er. }
  assert (Emo : mo2 = mo).
  { assert (Q : fst (fst (run (dpProvider PH) (pbind (updateView c now n last) (fun _ => newMonitor n)) dS0)) = Ok mo2).
    { rewrite run_bind, Eu. cbn [andThen]. rewrite En. reflexivity. }
    assert (ENM2 : run (honest (observed W)) (newMonitor n) 0 = (Ok mo, 0, [EvTs (n - 1) (Ok (h_ts (observed W) (n - 1)))])).
    { unfold newMonitor. destruct (N.eqb_spec n 0) as [|_]; [lia|]. rewrite sub1_64 by lia. rewrite (run_getTs (observed W)) by (change (h_n (observed W)) with n; lia). reflexivity. }
    destruct (view_result f hs W HF Hsm' Hpos c now last 0 KS Hts Hcl) as (e1v & E1v). change (lenN (w_entries W)) with n in E1v.
    assert (ER2 : run (honest (observed W)) (pbind (updateView c now n last) (fun _ => newMonitor n)) 0 = (Ok mo, 0, e1v ++ [EvTs (n - 1) (Ok (h_ts (observed W) (n - 1)))])).
    { rewrite run_bind, E1v. cbn [andThen]. rewrite ENM2. reflexivity. }
    destruct (steps_inv W (keptFor last) TE) as (TM0 & TR0 & _).
    assert (Sm2 : smooth (observed W) tracker0 (e1v ++ [EvTs (n - 1) (Ok (h_ts (observed W) (n - 1)))])).
    { destruct (pre_run (observed W) (updateView c now n last) tracker0 _ 0 (pre_updateView (observed W) c Hnn now last tracker0)) as (r1 & s1 & e1' & tr & E1' & S1 & Q1).
      change (h_n (observed W)) with n in E1'. rewrite E1v in E1'. injection E1' as <- <- <-. apply S1. rewrite Q1. cbn [smooth]. split; [change (h_n (observed W)) with n; lia|exact Logic.I]. }
    destruct (simulate f hs W HF Hsm' Hpos _ 0 tracker0 (Ok mo) 0 _ _ _ ER2 Sm2 TM0 TR0) as (M2 & R2 & dts2 & dps2 & tr2 & _ & _ & _ & _ & _ & _ & _ & SP & _).
    specialize (SP [] [] [] [] [] (keptFor last) eq_refl). fold dS0 in SP. rewrite SP in Q. cbn [fst] in Q. congruence. }
  subst mo2.
  assert (EVw : serverView hs c now (serverOf t) last n (newDataProvider (newProduced (w_index W))) = Ok d1).
  { unfold serverView.
    assert (E0 : match last with None => Ok (newDataProvider (newProduced (w_index W)))
              | Some k => let* es := frontierEntries hs (serverOf t) k in Ok (match addRetained (newDataProvider (newProduced (w_index W))) [] es with Ok d' => d' | _ => newDataProvider (newProduced (w_index W)) end) end = Ok dS0).
    { destruct (addRetained_true f hs W HF Hsm' Hpos (keptFor last) [] (newProduced (w_index W)) TE) as (M0 & R0 & EA & -> & ->).
      destruct last as [k|]; [|reflexivity]. rewrite KF. cbn [bind]. rewrite EA. reflexivity. }
    rewrite E0. cbn [bind]. unfold exec, serverHandle. cbn [serverOf sv_db].
    change (fun x : N => mget (x_entries (durable (t_tx t))) x) with (w_entriesDb W). rewrite Eu. reflexivity. }
  set (dP := mkP W [] tr' dts dps [] [] (keptFor last) M R) in *.
  set (req := requiredVersions (d_handle dP)).
  assert (Rq : forall u, In u req <-> exists q, In q dps /\ In u (snd q)).
  { intro u. unfold req, requiredVersions. cbn [dP mkP d_handle q_proofs]. rewrite nodup_In, in_flat_map. split; intros (q & A1 & A2); eauto. }
  destruct (server_ladder hs vrf l HLn req (d_handle dP)) as (vmS & proofs & ES & _ & KS1 & _).
  { apply NoDup_nodup. }
  { intros u I. split; [|reflexivity]. apply Rq in I as (q & Iq & Iu). apply Hkey. eauto. }
  destruct (T2 vmS None mS inclS) as (ps & q' & EO & _).
  { apply Forall_forall. intros q Iq. apply Forall_forall. intros u Iu. exists None. split; [|now left]. rewrite KS1 by (apply Rq; eauto).
    f_equal. f_equal. symmetry. apply Hkey. eauto. }
  { exact EG. }
  exists {| op_n := n; op_index := w_index W; op_monitor := mo; op_d := d2; op_fth := headFor t E last; op_nP := None; op_m := mS |}, dP, {| cp_ts := dts; cp_proofs := ps; cp_roots := em; cp_incl := inclS |}.
  split; [|split; [reflexivity|split; [reflexivity|split; [reflexivity|split]]]].
  - unfold startMonitor. rewrite EH. cbn [bind]. rewrite EI. cbn [bind]. rewrite EVw. cbn [bind]. unfold exec, serverHandle. cbn [serverOf sv_db].
    change (fun x : N => mget (x_entries (durable (t_tx t))) x) with (w_entriesDb W). rewrite En. reflexivity.
  - cbn [op_d]. unfold exec, serverHandle. cbn [serverOf sv_db]. change (fun x : N => mget (x_entries (durable (t_tx t))) x) with (w_entriesDb W). rewrite Ep. reflexivity.
  - unfold finishMonitor. cbn [op_n op_nP op_m serverOf sv_db]. fold req. rewrite ES. cbn [bind].
    change (fun x : N => mget (x_entries (durable (t_tx t))) x) with (w_entriesDb W). change (x_log (durable (t_tx t))) with (w_logDb W). change (x_prefix (durable (t_tx t))) with (w_prefixDb W).
    match goal with |- context [dpOutput _ _ _ _ _ ?d _ _ _] => change d with (mkP W vmS tr' dts dps [] [] (keptFor last) M R) end. rewrite EO. reflexivity.
Qed.
End Answer.
